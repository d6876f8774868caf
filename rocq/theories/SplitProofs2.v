(** Proofs about matrix splits. *)
From Verif Require Import Base BaseFacts IndexModel IndexProofs OracleProofs2 SplitModel SplitSpec SplitProofs.
From Coq Require Import QArith Qabs.
Local Open Scope Z_scope.

Definition cut (q : Q) (n : nat) : Z := round_q (q * inject_Z (Z.of_nat n)).

Lemma train_test_spec n tr sh : shuffle n sh -> exists train test, train_test n tr sh = Ok (train, test) /\
  Permutation (train ++ test) (seq 0 n) /\ List.length train = slice_size n (cut (1 - tr) n).
Proof.
  intro S. unfold train_test. rewrite randperm_all by auto. cbn [bind].
  assert (L : List.length sh = n) by (rewrite (Permutation_length S), seq_length; auto). rewrite L. fold (cut (1 - tr) n).
  assert (S' : shuffle (List.length (seq 0 n)) (py_slice_to sh (cut (1 - tr) n) ++ py_slice_from sh (cut (1 - tr) n)))
    by (rewrite slice_app, seq_length; auto).
  destruct (pick_app (seq 0 n) _ _ S') as (train & test & E1 & E2 & P & LT & _ & _). rewrite E1, E2. cbn [bind].
  exists train, test. split; auto. split; auto. rewrite LT, slice_to_len, L. reflexivity.
Qed.

Lemma grid_rows m l : cells m (map Row l) = grid m l.
Proof. unfold cells, grid. induction l as [|a l IH]; cbn; auto. now rewrite IH. Qed.

Lemma NoDup_list_prod {A B} (l : list A) (l' : list B) : NoDup l -> NoDup l' -> NoDup (list_prod l l').
Proof.
  intros H H'. induction H as [|a l N H IH]; cbn; [constructor|]. apply NoDup_app_intro; auto.
  - apply FinFun.Injective_map_NoDup; auto. intros x y E. now injection E.
  - intros [x y] J K. apply in_map_iff in J. destruct J as (z & E & _). injection E as <- <-.
    apply in_prod_iff in K. tauto.
Qed.

(** ** Whole rows *)
Definition full_fold (n m : nat) (tr : Q) (c : nat -> Z) (f : fold nat entry) : Prop :=
  Permutation (f_train f ++ f_test f) (seq 0 n) /\
  List.length (f_train f) = slice_size n (cut (1 - tr) n) /\
  f_label f = map Row (py_slice_to (f_train f) (c (List.length (f_train f)))) /\
  f_unlabel f = map Row (py_slice_from (f_train f) (c (List.length (f_train f)))).

Definition covered (y : list (list Z)) (rows : list nat) : Prop :=
  exists vs, mapM (py_nth y) rows = Ok vs /\
  forallb (fun s => negb (s =? 0)) (col_sums (match y with r :: _ => List.length r | [] => O end) vs) = true.

Lemma full_attempt_spec mat n m tr rate all_class clamp sh f : shuffle n sh ->
  full_attempt mat n m tr rate all_class clamp sh = Ok (Some f) ->
  full_fold n m tr (fun t => if clamp then Z.max 1 (cut rate t) else cut rate t) f /\
  (all_class = true -> exists y, mat = Some y /\ covered y (py_slice_to (f_train f)
      ((if clamp then Z.max 1 (cut rate (List.length (f_train f))) else cut rate (List.length (f_train f)))))).
Proof.
  intros S H. unfold full_attempt in H. destruct (train_test_spec n tr sh S) as (train & test & E & P & L). rewrite E in H.
  cbn [bind] in H. fold (cut rate (List.length train)) in H.
  replace (if clamp && (cut rate (List.length train) <=? 1) then 1 else cut rate (List.length train)) with
    (if clamp then Z.max 1 (cut rate (List.length train)) else cut rate (List.length train)) in H
    by (destruct clamp; cbn [andb]; auto; destruct (Z.leb_spec (cut rate (List.length train)) 1); lia).
  set (c := if clamp then _ else _) in *.
  assert (G : Ok (Some {| f_train := train; f_test := test; f_label := map Row (py_slice_to train c);
                          f_unlabel := map Row (py_slice_from train c) |}) = Ok (Some f) ->
     full_fold n m tr (fun t => if clamp then Z.max 1 (cut rate t) else cut rate t) f /\ f_train f = train).
  { intro X. injection X as <-. unfold full_fold. cbn. auto. }
  destruct all_class.
  - destruct (clamp && _); [discriminate|]. destruct mat as [y|]; [|discriminate].
    destruct (mapM (py_nth y) (py_slice_to train c)) as [vs|] eqn:M; [|discriminate]. cbn [bind] in H.
    destruct (forallb _ _) eqn:F; [|discriminate]. destruct (G H) as [G1 G2]. split; auto. intros _. exists y. split; auto.
    rewrite G2. exists vs. auto.
  - destruct (G H) as [G1 G2]. split; auto. discriminate.
Qed.

Lemma full_one_spec mat n m tr rate all_class ds f rest : Forall (shuffle n) ds ->
  full_one mat n m tr rate all_class ds = Some (Ok f, rest) ->
  Forall (shuffle n) rest /\ exists clamp : bool,
  (all_class = false -> clamp = true) /\
  full_fold n m tr (fun t => if clamp then Z.max 1 (cut rate t) else cut rate t) f /\
  (all_class = true -> exists y, mat = Some y /\ covered y (py_slice_to (f_train f)
      ((if clamp then Z.max 1 (cut rate (List.length (f_train f))) else cut rate (List.length (f_train f)))))).
Proof.
  intros FS H. unfold full_one in H. destruct ds as [|d ds]; [discriminate|]. inversion FS as [|? ? Sd Ss]; subst.
  destruct (full_attempt mat n m tr rate all_class true d) as [[f'|]|] eqn:A; [| |discriminate].
  - injection H as -> ->. split; auto. exists true. split; auto. exact (full_attempt_spec _ _ _ _ _ _ _ _ _ Sd A).
  - apply until_ok in H. destruct H as (pre & d' & -> & E & _). apply Forall_app_r in Ss. destruct Ss as [Sd' Sr].
    split; auto. exists false. split; [|exact (full_attempt_spec _ _ _ _ _ _ _ _ _ Sd' E)].
    intros ->. unfold full_attempt in A. destruct (train_test n tr d) as [[? ?]|]; discriminate.
Qed.

Lemma mapM_length {A B} (f : A -> res B) l vs : mapM f l = Ok vs -> List.length vs = List.length l.
Proof. intro H. apply mapM_Forall2 in H. induction H; cbn; auto. Qed.

(** A row list that covers at least one column is not empty. *)
Lemma covered_nonempty y rows m : (0 < m)%nat -> rectangular y m -> covered y rows -> rows <> [].
Proof.
  intros Hm [NE R] (vs & M & F) ->. cbn in M. injection M as <-. destruct y as [|r y]; [congruence|].
  inversion R as [|? ? Lr _]; subst. destruct r as [|a r]; [cbn in Hm; lia|]. discriminate.
Qed.

(** ** Cells *)
Lemma cell_spec m train k : (k < List.length train * m)%nat ->
  exists i, nth_error train (k / m)%nat = Some i /\ cell m train k = Ok (Cell i (k mod m)%nat).
Proof.
  intro H. assert (D : (k / m < List.length train)%nat) by (apply Nat.div_lt_upper_bound; lia).
  unfold cell, py_nth. destruct (nth_error train (k / m)%nat) as [i|] eqn:E; [|apply nth_error_None in E; lia]. exists i. auto.
Qed.

Lemma cells_ok m train items : Forall (fun k => (k < List.length train * m)%nat) items ->
  exists es, mapM (cell m train) items = Ok es /\
    cells m es = map (fun k => (nth (k / m) train O, k mod m)%nat) items /\
    List.length es = List.length items /\ forall j, In j (map (fun k => (k mod m)%nat) items) -> exists i, In (Cell i j) es.
Proof.
  induction 1 as [|k items Hk H (es & E & C & L & J)]; [exists []; repeat split; auto; intros j []|].
  destruct (cell_spec m train k Hk) as (i & N & Ec). cbn [mapM]. rewrite Ec. cbn [bind]. rewrite E. cbn [bind].
  exists (Cell i (k mod m)%nat :: es). split; auto. split; [|split].
  - change (cells m (Cell i (k mod m)%nat :: es)) with ((i, (k mod m)%nat) :: cells m es). rewrite C. cbn [map]. f_equal. f_equal.
    symmetry. now apply nth_error_nth.
  - cbn. now rewrite L.
  - intros j [<-|Hj]; [exists i; now left|]. destruct (J j Hj) as [i' Hi]. exists i'. now right.
Qed.

Lemma grid_items m train : map (fun k => (nth (k / m)%nat train O, (k mod m)%nat)) (seq 0 (List.length train * m)) = grid m train.
Proof.
  unfold grid. destruct (Nat.eq_dec m 0) as [->|Hm]; [rewrite Nat.mul_0_r; cbn; induction train; auto|]. induction train as [|a train IH]; [reflexivity|]. cbn [List.length list_prod].
  replace (S (List.length train) * m)%nat with (m + List.length train * m)%nat by lia. rewrite seq_app, map_app. f_equal.
  - apply map_ext_in. intros k Hk. apply in_seq in Hk. rewrite Nat.div_small, Nat.mod_small by lia. reflexivity.
  - rewrite <- IH. replace (0 + m)%nat with (m + 0)%nat by lia.
    assert (G : forall n s, map (fun k => (nth (k / m)%nat (a :: train) O, (k mod m)%nat)) (seq (m + s) n) =
                 map (fun k => (nth (k / m)%nat train O, (k mod m)%nat)) (seq s n)).
    { induction n as [|n IHn]; intro s; [reflexivity|]. cbn [seq map]. rewrite <- IHn, Nat.add_succ_r. f_equal.
        rewrite (Nat.add_comm m s). f_equal.
        - replace ((s + m) / m)%nat with (S (s / m)); [reflexivity|]. rewrite <- (Nat.mul_1_l m) at 2. rewrite Nat.div_add by auto. lia.
        - rewrite <- (Nat.mul_1_l m) at 1. now rewrite Nat.mod_add. }
    apply G.
Qed.

Lemma lab_rest N lab : NoDup lab -> Forall (fun k => (k < N)%nat) lab ->
  Permutation (lab ++ filter (fun k => negb (existsb (Nat.eqb k) lab)) (seq 0 N)) (seq 0 N).
Proof.
  intros ND F. rewrite Forall_forall in F.
  assert (X : forall k, existsb (Nat.eqb k) lab = true <-> In k lab).
  { intro k. rewrite existsb_exists. split; [intros (x & J & E); apply Nat.eqb_eq in E; now subst|intro J; exists k; split; auto; apply Nat.eqb_refl]. }
  apply NoDup_Permutation; [|apply seq_NoDup|].
  - apply NoDup_app_intro; auto; [apply NoDup_filter, seq_NoDup|]. intros k J K. apply filter_In in K. destruct K as [_ K].
    apply negb_true_iff in K. apply X in J. congruence.
  - intro k. rewrite in_app_iff, filter_In, in_seq. split.
    + intros [J|[J _]]; auto. specialize (F k J). lia.
    + intro J. destruct (existsb (Nat.eqb k) lab) eqn:E; [left; now apply X|auto].
Qed.

Lemma partial_fold_spec m train test lab : NoDup lab -> Forall (fun k => (k < List.length train * m)%nat) lab ->
  exists f, partial_fold m train test lab = Ok f /\ f_train f = train /\ f_test f = test /\
    Permutation (cells m (f_label f) ++ cells m (f_unlabel f)) (grid m train) /\
    List.length (f_label f) = List.length lab /\
    forall j, In j (map (fun k => (k mod m)%nat) lab) -> exists i, In (Cell i j) (f_label f).
Proof.
  intros ND F. unfold partial_fold.
  set (rest := filter _ _).
  assert (FR : Forall (fun k => (k < List.length train * m)%nat) rest).
  { apply Forall_forall. intros k J. apply filter_In in J. destruct J as [J _]. apply in_seq in J. lia. }
  destruct (cells_ok m train lab F) as (es & E & C & L & J). destruct (cells_ok m train rest FR) as (es' & E' & C' & _ & _).
  rewrite E, E'. cbn [bind]. eexists. split; [reflexivity|]. cbn [f_train f_test f_label f_unlabel]. repeat split; auto.
  rewrite C, C', <- map_app, <- grid_items. apply Permutation_map. now apply lab_rest.
Qed.

Definition partial_good (n m : nat) (tr : Q) (k : nat -> Z) (all_class : bool) (f : fold nat entry) : Prop :=
  Permutation (f_train f ++ f_test f) (seq 0 n) /\
  List.length (f_train f) = slice_size n (cut (1 - tr) n) /\
  Permutation (cells m (f_label f) ++ cells m (f_unlabel f)) (grid m (f_train f)) /\
  List.length (f_label f) = slice_size (List.length (f_train f) * m) (k (List.length (f_train f))) /\
  (all_class = true -> forall j, (j < m)%nat -> exists i, In (Cell i j) (f_label f)).

(** Positions drawn for the entries of a training set. *)
Definition draw_ok (n m : nat) (tr : Q) (d : list nat * list nat) : Prop :=
  shuffle n (fst d) /\ shuffle (slice_size n (cut (1 - tr) n) * m) (snd d).

Definition n_lab (rate : Q) (m : nat) (first : bool) (t : nat) : Z :=
  round_q (rate * inject_Z (Z.of_nat t) * (if first then inject_Z (Z.of_nat m) else 1)).

Lemma partial_attempt_spec n m tr rate all_class first d f : draw_ok n m tr d ->
  partial_attempt n m tr rate all_class first d = Ok (Some f) ->
  partial_good n m tr (n_lab rate m first) all_class f.
Proof.
  intros [S1 S2] H. unfold partial_attempt in H. destruct (train_test_spec n tr (fst d) S1) as (train & test & E & P & L).
  rewrite E in H. cbn [bind] in H. fold (n_lab rate m first (List.length train)) in H. set (k := n_lab rate m first (List.length train)) in *.
  rewrite <- L in S2. unfold randperm in H. destruct (k >? Z.of_nat (List.length train * m) - 1 + 1); [discriminate|]. cbn [bind] in H.
  set (lab := py_slice_to (snd d) k) in *.
  assert (NDL : NoDup lab /\ Forall (fun k => (k < List.length train * m)%nat) lab).
  { assert (A : lab ++ py_slice_from (snd d) k = snd d) by apply slice_app.
    assert (ND : NoDup (snd d)) by (eapply Permutation_NoDup; [apply Permutation_sym, S2|apply seq_NoDup]).
    split.
    - rewrite <- A in ND. now apply NoDup_app_inv in ND.
    - apply Forall_forall. intros x J. assert (K : In x (snd d)) by (rewrite <- A; apply in_app_iff; auto).
      eapply Permutation_in in K; [|exact S2]. apply in_seq in K. lia. }
  destruct (partial_fold_spec m train test lab (proj1 NDL) (proj2 NDL)) as (f' & E' & T1 & T2 & C & LL & CV).
  assert (LK : List.length lab = slice_size (List.length train * m) k).
  { unfold lab. rewrite slice_to_len. f_equal. now rewrite (Permutation_length S2), seq_length. }
  assert (G : (all_class = true -> forall j, (j < m)%nat -> exists i, In (Cell i j) (f_label f')) -> partial_good n m tr (n_lab rate m first) all_class f').
  { intro CC. unfold partial_good. rewrite T1, T2, LL. repeat split; auto. }
  rewrite E' in H. cbn [rmap] in H. destruct all_class.
  - destruct (first && _); [discriminate|].
    destruct (Nat.eqb_spec (List.length (nodup Nat.eq_dec (map (fun item => (item mod m)%nat) lab))) m) as [Q|]; [|discriminate].
    injection H as <-. apply G. intros _ j Hj. apply CV.
    apply (nodup_In Nat.eq_dec). assert (I : incl (seq 0 m) (nodup Nat.eq_dec (map (fun item => (item mod m)%nat) lab))).
    { apply NoDup_length_incl; [apply NoDup_nodup|rewrite seq_length; lia|]. intros x J. apply nodup_In in J. apply in_map_iff in J.
      destruct J as (y & <- & _). apply in_seq. assert (y mod m < m)%nat by (apply Nat.mod_upper_bound; lia). lia. }
    apply I, in_seq. lia.
  - injection H as <-. apply G. discriminate.
Qed.

Lemma partial_one_spec n m tr rate all_class ds f rest : Forall (draw_ok n m tr) ds ->
  partial_one n m tr rate all_class ds = Some (Ok f, rest) ->
  Forall (draw_ok n m tr) rest /\ exists first : bool, partial_good n m tr (n_lab rate m first) all_class f /\
    (forall d ds', ds = d :: ds' -> (first = true <-> partial_one n m tr rate all_class [d] <> None)).
Proof.
  intros FS H. unfold partial_one in H. destruct ds as [|d ds]; [discriminate|]. inversion FS as [|? ? Sd Ss]; subst.
  destruct (partial_attempt n m tr rate all_class true d) as [[f'|]|] eqn:A; [| |discriminate].
  - injection H as -> ->. split; auto. exists true. split; [exact (partial_attempt_spec _ _ _ _ _ _ _ _ Sd A)|].
    intros d0 ds' E. injection E as <- <-. unfold partial_one. rewrite A. split; congruence.
  - apply until_ok in H. destruct H as (pre & d' & -> & E & _). apply Forall_app_r in Ss. destruct Ss as [Sd' Sr].
    split; auto. exists false. split; [exact (partial_attempt_spec _ _ _ _ _ _ _ _ Sd' E)|].
    intros d0 ds' E0. injection E0 as <- <-. unfold partial_one. rewrite A. cbn. split; [congruence|]. intro X; now destruct X.
Qed.

(** The labels of instances named by their positions can be looked up. *)
Lemma label_readable {A} (y : list A) n (f : fold key key) : List.length y = n ->
  Permutation (f_train f ++ f_test f) (instances None n) -> f_label f ++ f_unlabel f = f_train f ->
  exists v, mapM (np_at y) (f_label f) = Ok v.
Proof.
  intros Ly P B.
  assert (AL : forall k, In k (f_label f) -> exists v, np_at y k = Ok v).
  { intros k Jk. assert (JK : In k (instances None n)).
    { eapply Permutation_in; [exact P|]. apply in_app_iff. left. rewrite <- B. apply in_app_iff. auto. }
    unfold instances in JK. apply in_map_iff in JK. destruct JK as (i & <- & Ji). apply in_zrange in Ji.
    unfold np_at, py_nth. destruct (Z.ltb_spec i 0); [lia|]. destruct (nth_error y (Z.to_nat i)) eqn:Q; [eauto|].
    apply nth_error_None in Q. lia. }
  revert AL. generalize (f_label f) as l. induction l as [|k l IH]; intros AL; [exists []; reflexivity|].
  destruct (AL k) as [v Hv]; [now left|]. destruct IH as [vs Hvs]; [intros; apply AL; now right|].
  exists (v :: vs). cbn. now rewrite Hv, Hvs.
Qed.

Lemma shape_is_ok mat shape n m : shape_is mat shape n m -> matrix_shape_of mat shape = Ok (n, m).
Proof.
  intros [->|[-> (y & -> & [NE RC] & L & Hm)]]; [now destruct mat|]. destruct y as [|r rows]; [congruence|]. cbn.
  inversion RC as [|? ? Hr Hrows]; subst. destruct (Nat.eqb_spec (List.length r) 0); [lia|]. cbn [negb andb].
  assert (F : forallb (fun r' => Nat.eqb (List.length r') (List.length r)) rows = true).
  { apply forallb_forall. intros r' J. rewrite Forall_forall in Hrows. apply Nat.eqb_eq. auto. }
  now rewrite F.
Qed.

Lemma list_prod_app {A B} (l1 l2 : list A) (l : list B) : list_prod (l1 ++ l2) l = list_prod l1 l ++ list_prod l2 l.
Proof. induction l1 as [|a l1 IH]; cbn; auto. now rewrite IH, app_assoc. Qed.

Lemma covered_spec y m rows : rectangular y m -> covered y rows -> forall j, (j < m)%nat ->
  exists i row, In i rows /\ nth_error y i = Some row /\ nth j row 0 <> 0.
Proof.
  intros [NE RC] (vs & E & F) j Hj.
  assert (W : match y with r :: _ => List.length r | [] => O end = m) by (destruct y; [congruence|now inversion RC]). rewrite W in F.
  rewrite forallb_forall in F. assert (J : In (zsum (map (fun r => nth j r 0) vs)) (col_sums m vs)).
  { unfold col_sums. apply in_map_iff. exists j. split; auto. apply in_seq. lia. }
  specialize (F _ J). apply negb_true_iff, Z.eqb_neq in F. apply zsum_nonzero in F. destruct F as (v & Jv & NZ).
  apply in_map_iff in Jv. destruct Jv as (row & <- & Jr).
  clear -E Jr NZ. revert vs E Jr. induction rows as [|i rows IH]; intros vs E Jr; cbn in E; [injection E as <-; destruct Jr|].
  destruct (py_nth y i) as [r|] eqn:P; [|discriminate]. cbn in E. destruct (mapM _ rows) as [rs|] eqn:M; [|discriminate]. injection E as <-.
  destruct Jr as [->|Jr].
  - exists i, row. split; [now left|]. split; auto. unfold py_nth in P. destruct (nth_error y i); [now injection P as ->|discriminate].
  - destruct (IH rs eq_refl Jr) as (i' & row' & A & B & C). exists i', row'. split; [now right|]. auto.
Qed.

(** A whole-row attempt on a consistent matrix fails only by the announced check. *)
Lemma full_attempt_total y n m tr rate clamp sh : rectangular y m -> List.length y = n -> shuffle n sh ->
  (exists o, full_attempt (Some y) n m tr rate true clamp sh = Ok o) \/
  (full_attempt (Some y) n m tr rate true clamp sh = Err ValueErr /\
   (if clamp then Z.max 1 (cut rate (slice_size n (cut (1 - tr) n))) < Z.of_nat m else False)).
Proof.
  intros RC Ly S. unfold full_attempt. destruct (train_test_spec n tr sh S) as (train & test & -> & P & L). cbn [bind].
  rewrite L. fold (cut rate (slice_size n (cut (1 - tr) n))).
  replace (if clamp && (cut rate (slice_size n (cut (1 - tr) n)) <=? 1) then 1 else cut rate (slice_size n (cut (1 - tr) n))) with
    (if clamp then Z.max 1 (cut rate (slice_size n (cut (1 - tr) n))) else cut rate (slice_size n (cut (1 - tr) n)))
    by (destruct clamp; cbn [andb]; auto; destruct (Z.leb_spec (cut rate (slice_size n (cut (1 - tr) n))) 1); lia).
  set (c := if clamp then _ else _). destruct (clamp && (c <? Z.of_nat m)) eqn:Q.
  - right. split; auto. apply andb_true_iff in Q. destruct Q as [-> Q]. apply Z.ltb_lt in Q. exact Q.
  - left.
    assert (AR : exists v, mapM (py_nth y) (py_slice_to train c) = Ok v).
    { assert (AL : forall k, In k (py_slice_to train c) -> exists v, py_nth y k = Ok v).
      { intros k Jk. assert (JK : In k (seq 0 n)).
        { eapply Permutation_in; [exact P|]. apply in_app_iff. left. rewrite <- (slice_app train c). apply in_app_iff. auto. }
        apply in_seq in JK. unfold py_nth. destruct (nth_error y k) eqn:W; [eauto|]. apply nth_error_None in W. lia. }
      revert AL. generalize (py_slice_to train c) as l. induction l as [|k l IH]; intros AL; [exists []; reflexivity|].
      destruct (AL k) as [v Hv]; [now left|]. destruct IH as [vs Hvs]; [intros; apply AL; now right|].
      exists (v :: vs). cbn. now rewrite Hv, Hvs. }
    destruct AR as [v ->]. cbn [bind]. destruct (forallb _ _); eauto.
Qed.

(** A cell attempt with a share between 0 and 1 fails only by the announced check, in the first attempt. *)
Lemma partial_attempt_total n m tr rate all_class first d : (0 < m)%nat -> (0 <= rate <= 1)%Q -> draw_ok n m tr d ->
  (first = true /\ all_class = true /\ cut rate (slice_size n (cut (1 - tr) n)) < Z.of_nat m /\
   partial_attempt n m tr rate all_class first d = Err ValueErr) \/
  exists o, partial_attempt n m tr rate all_class first d = Ok o.
Proof.
  intros Hm R [S1 S2]. unfold partial_attempt. destruct (train_test_spec n tr (fst d) S1) as (train & test & E & _ & L). rewrite E. cbn [bind].
  fold (cut rate (List.length train)). rewrite <- L in *. set (T := List.length train) in *. fold (n_lab rate m first T). set (k := n_lab rate m first T).
  assert (KN : k <= Z.of_nat (T * m)).
  { unfold k, n_lab. apply round_le. assert (NN : (0 <= inject_Z (Z.of_nat T))%Q) by (unfold Qle; cbn; lia).
    assert (MM : (0 <= inject_Z (Z.of_nat m))%Q) by (unfold Qle; cbn; lia).
    apply Qle_trans with (1 * inject_Z (Z.of_nat T) * (if first then inject_Z (Z.of_nat m) else 1))%Q.
    - apply Qmult_le_compat_r; [apply Qmult_le_compat_r; tauto|destruct first; [auto|discriminate]].
    - destruct first; unfold Qle, inject_Z; cbn [Qnum Qden Qmult]; nia. }
  unfold randperm. destruct (Z.gtb_spec k (Z.of_nat (T * m) - 1 + 1)) as [|_]; [lia|]. cbn [bind].
  set (lab := py_slice_to (snd d) k).
  assert (NDL : NoDup lab /\ Forall (fun k => (k < List.length train * m)%nat) lab).
  { assert (A : lab ++ py_slice_from (snd d) k = snd d) by apply slice_app.
    assert (N : NoDup (snd d)) by (eapply Permutation_NoDup; [apply Permutation_sym, S2|apply seq_NoDup]).
    rewrite <- A in N. apply NoDup_app_inv in N. split; [tauto|]. apply Forall_forall. intros x J.
    assert (J' : In x (seq 0 (T * m))) by (eapply Permutation_in; [exact S2|rewrite <- A; apply in_app_iff; auto]). apply in_seq in J'. unfold T in J'. lia. }
  destruct (partial_fold_spec m train test lab (proj1 NDL) (proj2 NDL)) as (f & -> & _). cbn [rmap].
  destruct all_class; [|eauto]. destruct (first && _) eqn:Q.
  - left. apply andb_true_iff in Q. destruct Q as [-> Q]. apply Z.ltb_lt in Q. auto.
  - destruct (Nat.eqb _ m); eauto.
Qed.
