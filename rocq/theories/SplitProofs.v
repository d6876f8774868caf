(** Proofs about the data splitters. *)
From Verif Require Import Base BaseFacts IndexModel IndexProofs OracleProofs2 SplitModel SplitSpec.
From Coq Require Import QArith Qabs.
Local Open Scope Z_scope.

(** ** Rounding *)
Lemma round_q_spec q : nearest_even q (round_q q).
Proof.
  unfold round_q. destruct q as [a b]. cbn [Qnum Qden].
  pose proof (proj1 (round_half_even_spec a (Zpos b) (round_half_even a (Zpos b)) ltac:(lia)) eq_refl) as [H T].
  set (r := round_half_even a (Z.pos b)) in *. unfold nearest_even.
  assert (E : (Qabs ((a # b) - inject_Z r) == Z.abs (a - r * Zpos b) # b)%Q).
  { unfold Qminus, Qplus, Qopp, inject_Z, Qabs. cbn [Qnum Qden]. unfold Qeq. cbn [Qnum Qden]. rewrite Pos.mul_1_r. f_equal. f_equal. lia. }
  split.
  - rewrite E. unfold Qle. cbn. lia.
  - rewrite E. intro Q. apply T. unfold Qeq in Q. cbn in Q. lia.
Qed.

Lemma nearest_even_unique q a b : nearest_even q a -> nearest_even q b -> a = b.
Proof.
  unfold nearest_even. destruct q as [n d]. intros [A TA] [B TB].
  assert (E : forall r, (Qabs ((n # d) - inject_Z r) == Z.abs (n - r * Zpos d) # d)%Q).
  { intro r. unfold Qminus, Qplus, Qopp, inject_Z, Qabs. cbn [Qnum Qden]. unfold Qeq. cbn [Qnum Qden]. rewrite Pos.mul_1_r. f_equal. f_equal. lia. }
  rewrite E in A, B, TA, TB. unfold Qle in A, B. unfold Qeq in TA, TB. cbn in A, B, TA, TB.
  pose proof (proj2 (round_half_even_spec n (Zpos d) a ltac:(lia))) as PA.
  pose proof (proj2 (round_half_even_spec n (Zpos d) b ltac:(lia))) as PB.
  rewrite <- PA, <- PB; auto; split; try lia; intro; [apply TB|apply TA]; lia.
Qed.

Lemma round_nonneg q : (0 <= q)%Q -> 0 <= round_q q.
Proof.
  intro H. destruct q as [n d]. unfold Qle in H. cbn in H. unfold round_q, round_half_even. cbn [Qnum Qden].
  assert (0 <= n / Zpos d) by (apply Z.div_pos; lia). destruct (2 * (n mod Z.pos d) ?= Z.pos d); [destruct (Z.even _)| |]; lia.
Qed.

Lemma round_le q n : (q <= inject_Z n)%Q -> round_q q <= n.
Proof.
  intro H. destruct q as [a d]. unfold Qle in H. cbn in H. unfold round_q, round_half_even. cbn [Qnum Qden].
  pose proof (Z_div_mod_eq_full a (Zpos d)). pose proof (Z.mod_pos_bound a (Zpos d) ltac:(lia)).
  assert (a / Zpos d <= n) by (apply Z.div_le_upper_bound; lia).
  assert (C : a / Zpos d = n -> a mod Zpos d = 0) by nia.
  destruct (Z.compare_spec (2 * (a mod Z.pos d)) (Z.pos d)); [destruct (Z.even _)| |]; try lia;
    destruct (Z.eq_dec (a / Zpos d) n) as [E|]; try lia; specialize (C E); lia.
Qed.

Lemma round_compat q q' : (q == q')%Q -> round_q q = round_q q'.
Proof.
  intro E. apply (nearest_even_unique q); [apply round_q_spec|]. destruct (round_q_spec q') as [A B].
  split; rewrite E; auto.
Qed.

(** ** Slices *)
Lemma slice_app {A} (l : list A) c : py_slice_to l c ++ py_slice_from l c = l.
Proof. unfold py_slice_to, py_slice_from. destruct (c <? 0); apply firstn_skipn. Qed.

Lemma slice_to_len {A} (l : list A) c : List.length (py_slice_to l c) = slice_size (List.length l) c.
Proof.
  unfold py_slice_to, slice_size. destruct (Z.ltb_spec c 0); rewrite firstn_length; lia.
Qed.

(** ** Picking positions *)
Lemma pick_ok {A} (l : list A) ps : Forall (fun p => (p < List.length l)%nat) ps ->
  exists vs, mapM (py_nth l) ps = Ok vs /\ Forall2 (fun p v => nth_error l p = Some v) ps vs.
Proof.
  induction 1 as [|p ps Hp H (vs & E & F)]; [exists []; split; constructor|]. cbn [mapM]. unfold py_nth at 1.
  destruct (nth_error l p) as [v|] eqn:N; [|apply nth_error_None in N; lia]. cbn [bind]. rewrite E. exists (v :: vs). split; auto.
Qed.

Lemma pick_nth {A} (l : list A) d ps vs : Forall2 (fun p v => nth_error l p = Some v) ps vs -> vs = map (fun p => nth p l d) ps.
Proof. induction 1 as [|p v ps vs H F IH]; cbn; auto. rewrite IH. f_equal. symmetry. now apply nth_error_nth. Qed.

Lemma map_nth_seq {A} (l : list A) d : map (fun p => nth p l d) (seq 0 (List.length l)) = l.
Proof.
  induction l as [|a l IH]; cbn; auto. f_equal. rewrite <- seq_shift, map_map. exact IH.
Qed.

Lemma pick_perm {A} (l : list A) ps vs : shuffle (List.length l) ps ->
  Forall2 (fun p v => nth_error l p = Some v) ps vs -> Permutation vs l.
Proof.
  intros S F. destruct l as [|d l].
  - cbn in S. apply Permutation_sym, Permutation_nil in S. subst. inversion F. constructor.
  - rewrite (pick_nth _ d _ _ F). eapply Permutation_trans; [apply Permutation_map, S|]. now rewrite map_nth_seq.
Qed.

Lemma pick_app {A} (l : list A) ps qs : shuffle (List.length l) (ps ++ qs) ->
  exists v w, mapM (py_nth l) ps = Ok v /\ mapM (py_nth l) qs = Ok w /\ Permutation (v ++ w) l /\
    List.length v = List.length ps /\ Forall2 (fun p a => nth_error l p = Some a) ps v /\ Forall2 (fun p a => nth_error l p = Some a) qs w.
Proof.
  intro S.
  assert (B : Forall (fun p => (p < List.length l)%nat) (ps ++ qs)).
  { apply Forall_forall. intros p J. eapply Permutation_in in J; [|exact S]. apply in_seq in J. lia. }
  apply Forall_app in B. destruct B as [B1 B2].
  destruct (pick_ok l ps B1) as (v & E1 & F1), (pick_ok l qs B2) as (w & E2 & F2).
  exists v, w. split; auto. split; auto. split; [|split; auto].
  - eapply pick_perm; [exact S|]. now apply Forall2_app.
  - symmetry. clear -F1. induction F1; cbn; auto.
Qed.

Lemma randperm_all n sh : shuffle n sh -> randperm (Z.of_nat n - 1) None sh = Ok sh.
Proof.
  intro S. unfold randperm. replace (Z.of_nat n - 1 + 1) with (Z.of_nat n) by lia.
  assert (Z.of_nat n >? Z.of_nat n = false) as -> by lia. f_equal. unfold py_slice_to.
  destruct (Z.ltb_spec (Z.of_nat n) 0); [lia|]. apply firstn_all2. rewrite (Permutation_length S), seq_length. lia.
Qed.

(** ** Loops *)
Lemma until_ok {D A} (attempt : D -> res (option A)) ds a rest : until attempt ds = Some (Ok a, rest) ->
  exists pre d, ds = pre ++ d :: rest /\ attempt d = Ok (Some a) /\ Forall (fun d => attempt d = Ok None) pre.
Proof.
  induction ds as [|d ds IH]; cbn; [discriminate|]. destruct (attempt d) as [[b|]|e] eqn:E; intro H.
  - injection H as -> ->. exists [], d. auto.
  - destruct (IH H) as (pre & d' & -> & E' & F). exists (d :: pre), d'. auto.
  - discriminate.
Qed.

Lemma until_err {D A} (attempt : D -> res (option A)) ds e rest : until attempt ds = Some (Err e, rest) ->
  exists d, In d ds /\ attempt d = Err e.
Proof.
  induction ds as [|d ds IH]; cbn; [discriminate|]. destruct (attempt d) as [[b|]|e'] eqn:E; intro H.
  - discriminate.
  - destruct (IH H) as (d' & I & E'). eauto.
  - injection H as -> ->. eauto.
Qed.

Lemma until_none {D A} (attempt : D -> res (option A)) ds : Forall (fun d => attempt d = Ok None) ds -> until attempt ds = None.
Proof. induction 1 as [|d ds H F IH]; cbn; auto. now rewrite H. Qed.

Lemma folds_ok {D A} (one : list D -> option (res A * list D)) (P : A -> Prop) (Q : D -> Prop) :
  (forall ds a rest, Forall Q ds -> one ds = Some (Ok a, rest) -> P a /\ Forall Q rest) ->
  forall k ds fs rest, Forall Q ds -> folds one k ds = Some (Ok fs, rest) -> List.length fs = k /\ Forall P fs.
Proof.
  intro H. induction k as [|k IH]; intros ds fs rest FQ E; cbn in E.
  - injection E as <- <-. auto.
  - destruct (one ds) as [[[a|e] ds']|] eqn:O; try discriminate. destruct (H _ _ _ FQ O) as [Pa FQ'].
    destruct (folds one k ds') as [[[fs'|e] ds2]|] eqn:F; try discriminate. cbn in E. injection E as <- <-.
    destruct (IH _ _ _ FQ' F) as [<- FP]. cbn. auto.
Qed.

Lemma folds_err {D A} (one : list D -> option (res A * list D)) (P : exn -> Prop) (Q : D -> Prop) :
  (forall ds a rest, Forall Q ds -> one ds = Some (Ok a, rest) -> Forall Q rest) ->
  (forall ds e rest, Forall Q ds -> one ds = Some (Err e, rest) -> P e) ->
  forall k ds e rest, Forall Q ds -> folds one k ds = Some (Err e, rest) -> P e /\ (0 < k)%nat.
Proof.
  intros H1 H2. induction k as [|k IH]; intros ds e rest FQ E; cbn in E; [discriminate|].
  destruct (one ds) as [[[a|e'] ds']|] eqn:O; try discriminate.
  - pose proof (H1 _ _ _ FQ O) as FQ'. destruct (folds one k ds') as [[[fs'|e'] ds2]|] eqn:F; try discriminate.
    cbn in E. injection E as <- <-. destruct (IH _ _ _ FQ' F) as [? _]. split; auto; lia.
  - injection E as -> ->. split; [eauto|lia].
Qed.

Lemma Forall_app_r {A} (P : A -> Prop) l1 a l2 : Forall P (l1 ++ a :: l2) -> P a /\ Forall P l2.
Proof. intro H. apply Forall_app in H. destruct H as [_ H]. inversion H; auto. Qed.

(** ** One division *)
Definition good_fold (idx : list key) (tr rate : Q) (f : fold key key) : Prop :=
  Permutation (f_train f ++ f_test f) idx /\ f_label f ++ f_unlabel f = f_train f /\
  List.length (f_train f) = slice_size (List.length idx) (round_q ((1 - tr) * inject_Z (Z.of_nat (List.length idx)))) /\
  List.length (f_label f) = slice_size (List.length (f_train f))
    (Z.max 1 (round_q (rate * inject_Z (Z.of_nat (List.length (f_train f)))))).

Lemma split_attempt_spec idx tr rate ok sh : shuffle (List.length idx) sh ->
  exists f, split_attempt idx tr rate ok sh = (b <- ok (f_label f) ;; Ok (if b then Some f else None)) /\ good_fold idx tr rate f.
Proof.
  intro S. unfold split_attempt. rewrite randperm_all by auto. cbn [bind].
  assert (L : List.length sh = List.length idx) by (rewrite (Permutation_length S), seq_length; auto). rewrite L.
  set (c := round_q ((1 - tr) * _)).
  assert (S' : shuffle (List.length idx) (py_slice_to sh c ++ py_slice_from sh c)) by now rewrite slice_app.
  destruct (pick_app idx _ _ S') as (train & test & E1 & E2 & P & LT & _ & _). rewrite E1, E2. cbn [bind].
  set (c2 := round_q (rate * _)).
  assert (M : (if c2 <=? 1 then 1 else c2) = Z.max 1 c2) by (destruct (Z.leb_spec c2 1); lia). rewrite M.
  exists {| f_train := train; f_test := test; f_label := py_slice_to train (Z.max 1 c2); f_unlabel := py_slice_from train (Z.max 1 c2) |}.
  cbn [f_label]. split.
  - destruct (ok _) as [[|]|]; reflexivity.
  - repeat split; cbn [f_train f_test f_label f_unlabel]; auto using slice_app.
    + rewrite LT, slice_to_len, L. reflexivity.
    + apply slice_to_len.
Qed.

Lemma split_one_spec idx y tr rate all_class ds f rest : Forall (shuffle (List.length idx)) ds ->
  split_one idx y tr rate all_class ds = Some (Ok f, rest) ->
  good_fold idx tr rate f /\ Forall (shuffle (List.length idx)) rest /\
  (all_class = true -> forall y', y = Some y' -> exists ln, label_num y' = Ok ln /\ covers y' ln (f_label f) = Ok true).
Proof.
  intros FS H. unfold split_one in H.
  assert (G : forall ok, until (split_attempt idx tr rate ok) ds = Some (Ok f, rest) ->
     good_fold idx tr rate f /\ Forall (shuffle (List.length idx)) rest /\ ok (f_label f) = Ok true).
  { intros ok U. apply until_ok in U. destruct U as (pre & d & -> & E & _). apply Forall_app_r in FS. destruct FS as [Sd Sr].
    destruct (split_attempt_spec idx tr rate ok d Sd) as (f' & E' & G). rewrite E in E'.
    destruct (ok (f_label f')) as [[|]|] eqn:O; try discriminate. cbn in E'. injection E' as ->. auto. }
  destruct all_class.
  - destruct y as [y|].
    + destruct (label_num y) as [ln|e] eqn:LN; [|discriminate]. destruct (_ <? _); [discriminate|].
      destruct (G _ H) as (? & ? & ?). split; auto. split; auto. intros _ y' E. injection E as <-. eauto.
    + destruct (G _ H) as (? & ? & ?). split; auto. split; auto. intros _ y' E. discriminate.
  - destruct (G _ H) as (? & ? & ?). split; auto. split; auto. discriminate.
Qed.

(** Names. *)
Lemma split_names_ok X y names n : data_size X y names n -> uniform names ->
  split_names X y names = Ok (instances names n) /\ List.length (instances names n) = n.
Proof.
  intros (NE & HX & HV & HM & HN) U.
  assert (HY : forall y', y = Some y' -> y_len y' = n) by (intros [l|l] ->; cbn; auto).
  assert (A : match names with Some l => np_asarray l | None => map KInt (zrange (Z.of_nat n)) end = instances names n).
  { unfold instances. destruct names as [l|]; auto. apply np_asarray_homog. eauto. }
  split.
  - unfold split_names.
    set (ns := (match X with Some n => [n] | None => [] end) ++ _ ++ _).
    assert (F : forall m, In m ns -> m = n).
    { intros m J. unfold ns in J. apply in_app_iff in J. destruct J as [J|J]; [destruct X as [x|]; [destruct J as [<-|[]]; auto|destruct J]|].
      apply in_app_iff in J. destruct J as [J|J]; [destruct y as [y'|]; [destruct J as [<-|[]]; auto|destruct J]|destruct names as [l|]; [destruct J as [<-|[]]; auto|destruct J]]. }
    assert (NN : ns <> []).
    { unfold ns. destruct X; [discriminate|]. destruct y; [discriminate|]. destruct names; [discriminate|]. destruct NE as [|[|]]; congruence. }
    destruct ns as [|m ms]; [congruence|]. rewrite (F m) by now left.
    assert (B : forallb (Nat.eqb n) ms = true) by (apply forallb_forall; intros x J; rewrite (F x) by (now right); apply Nat.eqb_refl).
    rewrite B. now rewrite A.
  - unfold instances. destruct names as [l|]; rewrite map_length; [auto|]. now rewrite zrange_length, Nat2Z.id.
Qed.

(** Errors of [split_names]. *)
Lemma split_names_err X y names : 
  (X = None /\ y = None /\ names = None -> split_names X y names = Err GenericErr) /\
  ((X <> None \/ y <> None \/ names <> None) -> (forall n, ~ data_size X y names n) -> split_names X y names = Err ValueErr).
Proof.
  split.
  - intros (-> & -> & ->). reflexivity.
  - intros NE ND. unfold split_names.
    set (ns := (match X with Some n => [n] | None => [] end) ++ _ ++ _).
    destruct ns as [|m ms] eqn:E.
    { unfold ns in E. destruct X; [discriminate|]. destruct y; [discriminate|]. destruct names; [discriminate|]. destruct NE as [|[|]]; congruence. }
    destruct (forallb (Nat.eqb m) ms) eqn:F; auto. exfalso. apply (ND m).
    assert (A : forall x, In x ns -> x = m).
    { intros x J. rewrite E in J. destruct J as [<-|J]; auto. rewrite forallb_forall in F. specialize (F x J). apply Nat.eqb_eq in F. auto. }
    unfold ns in A. split; auto. repeat split; intros l ->; apply A; rewrite ?in_app_iff; cbn; auto.
Qed.

(** ** Coverage *)
Lemma n_unique_all (sub l : list Z) : incl sub l -> n_unique sub = n_unique l -> incl l sub.
Proof.
  intros I E c Hc. unfold n_unique in E.
  assert (J : incl (nodup Z.eq_dec l) (nodup Z.eq_dec sub)).
  { apply NoDup_length_incl; [apply NoDup_nodup|lia|]. intros x Hx. apply nodup_In. apply nodup_In in Hx. auto. }
  apply (nodup_In Z.eq_dec). apply J. now apply nodup_In.
Qed.

Lemma np_at_int {A} (y : list A) i v : 0 <= i -> np_at y (KInt i) = Ok v -> nth_error y (Z.to_nat i) = Some v.
Proof.
  intros H E. unfold np_at in E. destruct (Z.ltb_spec i 0); [lia|]. unfold py_nth in E. destruct (nth_error y (Z.to_nat i)); [|discriminate].
  now injection E as ->.
Qed.

Lemma mapM_Forall2 {A B} (f : A -> res B) l vs : mapM f l = Ok vs -> Forall2 (fun a b => f a = Ok b) l vs.
Proof.
  revert vs. induction l as [|a l IH]; intros vs H; cbn in H.
  - injection H as <-. constructor.
  - destruct (f a) eqn:E; [|discriminate]. cbn in H. destruct (mapM f l); [|discriminate]. cbn in H. injection H as <-. constructor; auto.
Qed.

Lemma Forall2_mapM {A B} (f : A -> res B) l vs : Forall2 (fun a b => f a = Ok b) l vs -> mapM f l = Ok vs.
Proof. induction 1 as [|a b l vs H F IH]; cbn; auto. now rewrite H, IH. Qed.

Lemma np_at_in {A} (y : list A) k v : np_at y k = Ok v -> In v y.
Proof.
  unfold np_at, py_nth. destruct k; [|discriminate]. destruct (_ <? 0); [destruct (_ <? 0); [discriminate|]|];
    destruct (nth_error y _) eqn:E; try discriminate; intro H; injection H as ->; eapply nth_error_In; eauto.
Qed.

Lemma covers_vec y ids : covers (YVec y) (n_unique y) ids = Ok true ->
  forall c, In c y -> exists k, In k ids /\ np_at y k = Ok c.
Proof.
  cbn. destruct (mapM (np_at y) ids) as [v|] eqn:M; [|discriminate]. cbn. intros H c Hc. injection H as H.
  apply Nat.eqb_eq in H. apply mapM_Forall2 in M.
  assert (I : incl v y).
  { clear -M. induction M as [|k a ids v H F IH]; [intros x []|]. intros x [<-|J]; auto. eapply np_at_in; eauto. }
  apply (n_unique_all v y I H) in Hc. clear -M Hc. induction M as [|k a ids v H F IH]; [destruct Hc|].
  destruct Hc as [->|Hc]; [exists k; cbn; auto|]. destruct (IH Hc) as (k' & J & E). exists k'. cbn. auto.
Qed.

Lemma zsum_nonzero l : zsum l <> 0 -> exists z, In z l /\ z <> 0.
Proof.
  induction l as [|a l IH]; [intro H; now destruct H|]. unfold zsum in *. cbn [fold_right]. intro H. destruct (Z.eq_dec a 0) as [->|].
  - destruct IH as (z & J & N); [lia|]. exists z. cbn. auto.
  - exists a. cbn. auto.
Qed.

Lemma covers_mat y m ids : covers (YMat y) m ids = Ok true ->
  forall j, (j < m)%nat -> exists k row, In k ids /\ np_at y k = Ok row /\ nth j row 0 <> 0.
Proof.
  cbn. destruct (mapM (np_at y) ids) as [v|] eqn:M; [|discriminate]. cbn. intros H j Hj. injection H as H.
  rewrite forallb_forall in H. specialize (H (zsum (map (fun r => nth j r 0) v))).
  assert (J : In (zsum (map (fun r => nth j r 0) v)) (col_sums m v)).
  { unfold col_sums. apply in_map_iff. exists j. split; auto. apply in_seq. lia. }
  specialize (H J). apply negb_true_iff, Z.eqb_neq in H. apply zsum_nonzero in H. destruct H as (z & J' & N).
  apply in_map_iff in J'. destruct J' as (row & <- & JR). apply mapM_Forall2 in M. clear -M JR N.
  induction M as [|k a ids v H F IH]; [destruct JR|]. destruct JR as [->|JR]; [exists k, row; cbn; auto|].
  destruct (IH JR) as (k' & row' & A & B). exists k', row'. cbn. tauto.
Qed.
