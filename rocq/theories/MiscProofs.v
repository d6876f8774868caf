(** Proofs about the helpers and about preprocessing. *)
From Verif Require Import Base BaseFacts IndexModel SplitModel SplitSpec SplitProofs MiscModel MiscSpec.
From Coq Require Import QArith Lqa Qfield.
Local Open Scope Z_scope.

(** ** randperm *)
Lemma bounds_ok n a b : bounds n a b <-> rp_bounds n = Ok (a, b).
Proof.
  split.
  - intros []; reflexivity.
  - destruct n as [z|z|[x|] y|]; cbn; intro H; inversion H; subst; constructor.
Qed.

Lemma mixed_length a b l : mixed a b l -> Z.of_nat (List.length l) = Z.max 0 (b - a + 1).
Proof.
  intros [ND I]. assert (P : Permutation l (arange a b)).
  { apply NoDup_Permutation; auto.
    - unfold arange. apply FinFun.Injective_map_NoDup; [intros x y H; lia|]. unfold zrange.
      apply FinFun.Injective_map_NoDup; [intros x y H; lia|apply seq_NoDup].
    - intro x. rewrite I. unfold arange. rewrite in_map_iff. split.
      + intro H. exists (x - a). split; [lia|]. apply in_zrange. lia.
      + intros (y & <- & J). apply in_zrange in J. lia. }
  apply Permutation_length in P. unfold arange in P. rewrite map_length, zrange_length in P. lia.
Qed.

Lemma slice_to_sub {A} (l : list A) k x : In x (py_slice_to l k) -> In x l.
Proof. intro J. rewrite <- (slice_app l k). apply in_app_iff. auto. Qed.

Lemma slice_to_NoDup {A} (l : list A) k : NoDup l -> NoDup (py_slice_to l k).
Proof. intro N. rewrite <- (slice_app l k) in N. apply NoDup_app_inv in N. tauto. Qed.

(** ** argsort *)
Lemma sorts_length a order : sorts a order -> List.length order = List.length a.
Proof. intros [P _]. now rewrite (Permutation_length P), seq_length. Qed.

Lemma sorts_app a l r : sorts a (l ++ r) ->
  NoDup (l ++ r) /\ (forall i, In i (l ++ r) <-> (i < List.length a)%nat) /\
  StronglySorted (fun i j => (nth i a 0 <= nth j a 0)%Q) l /\ StronglySorted (fun i j => (nth i a 0 <= nth j a 0)%Q) r /\
  (forall i j, In i l -> In j r -> (nth i a 0 <= nth j a 0)%Q).
Proof.
  intros [P S]. split; [|split].
  - eapply Permutation_NoDup; [apply Permutation_sym, P|apply seq_NoDup].
  - intro i. split; intro H.
    + apply (Permutation_in _ P) in H. apply in_seq in H. lia.
    + apply (Permutation_in _ (Permutation_sym P)). apply in_seq. lia.
  - clear P. induction l as [|x l IH]; cbn [app] in S.
    + split; [constructor|]. split; [auto|]. intros i j [].
    + apply StronglySorted_inv in S. destruct S as [S F]. destruct (IH S) as (A & B & C). rewrite Forall_app in F. destruct F as [F1 F2].
      split; [constructor; auto|]. split; auto. intros i j [->|J] K; [rewrite Forall_forall in F2|]; auto.
Qed.

(** ** one-to-one *)
Lemma one_to_one_some {A} n (args : list (arg A)) :
  check_one_to_one_from (Some n) args = true <-> forall a, In a args -> a <> ANone -> size a = n.
Proof.
  induction args as [|a args IH]; cbn.
  - split; auto. intros _ a [].
  - destruct a as [|l|x].
    + rewrite IH. split; intros H a J N; [destruct J as [<-|J]; [congruence|]; auto|auto].
    + destruct (Nat.eqb_spec (List.length l) n) as [E|NE].
      * rewrite IH. split; intros H a J N; [destruct J as [<-|J]; auto|auto].
      * split; [discriminate|]. intro H. exfalso. apply NE. apply (H (AList l)); [auto|discriminate].
    + destruct (Nat.eqb_spec n 1) as [E|NE].
      * rewrite IH. split; intros H a J N; [destruct J as [<-|J]; auto|auto].
      * split; [discriminate|]. intro H. exfalso. apply NE. symmetry. apply (H (AOne x)); [auto|discriminate].
Qed.

Lemma one_to_one_none {A} (args : list (arg A)) :
  check_one_to_one_from None args = true <-> forall a b, In a args -> In b args -> a <> ANone -> b <> ANone -> size a = size b.
Proof.
  induction args as [|a args IH].
  - split; auto. intros _ a b [].
  - assert (G : forall x, x <> ANone -> a = x -> check_one_to_one_from None (a :: args) = check_one_to_one_from (Some (size x)) args).
    { intros [|l|x] N ->; [congruence|reflexivity|reflexivity]. }
    destruct a as [|l|x]; [cbn [check_one_to_one_from]; rewrite IH|rewrite (G (AList l)); auto; try discriminate|rewrite (G (AOne x)); auto; try discriminate].
    + split; intros H u v Ju Jv Nu Nv; [destruct Ju as [<-|Ju]; [congruence|]; destruct Jv as [<-|Jv]; [congruence|]; auto|apply H; cbn; auto].
    + rewrite one_to_one_some. split.
      * intros H u v Ju Jv Nu Nv. transitivity (List.length l).
        -- destruct Ju as [<-|Ju]; [reflexivity|apply H; auto].
        -- destruct Jv as [<-|Jv]; [reflexivity|symmetry; apply H; auto].
      * intros H u Ju Nu. symmetry. apply (H (AList l) u); cbn; auto. discriminate.
    + rewrite one_to_one_some. split.
      * intros H u v Ju Jv Nu Nv. transitivity 1%nat.
        -- destruct Ju as [<-|Ju]; [reflexivity|apply H; auto].
        -- destruct Jv as [<-|Jv]; [reflexivity|symmetry; apply H; auto].
      * intros H u Ju Nu. symmetry. apply (H (AOne x) u); cbn; auto. discriminate.
Qed.

(** ** Columns *)
Lemma qmin_spec a b : (qmin a b <= a)%Q /\ (qmin a b <= b)%Q /\ (qmin a b = a \/ qmin a b = b).
Proof.
  unfold qmin. destruct (Qle_bool a b) eqn:E.
  - apply Qle_bool_iff in E. repeat split; auto using Qle_refl.
  - assert (H : ~ (a <= b)%Q) by (intro H; apply Qle_bool_iff in H; congruence). apply Qnot_le_lt in H.
    repeat split; auto using Qle_refl, Qlt_le_weak.
Qed.
Lemma qmax_spec a b : (a <= qmax a b)%Q /\ (b <= qmax a b)%Q /\ (qmax a b = a \/ qmax a b = b).
Proof.
  unfold qmax. destruct (Qle_bool a b) eqn:E.
  - apply Qle_bool_iff in E. repeat split; auto using Qle_refl.
  - assert (H : ~ (a <= b)%Q) by (intro H; apply Qle_bool_iff in H; congruence). apply Qnot_le_lt in H.
    repeat split; auto using Qle_refl, Qlt_le_weak.
Qed.

Lemma fold_min l : forall q, In (fold_left qmin l q) (q :: l) /\ forall x, In x (q :: l) -> (fold_left qmin l q <= x)%Q.
Proof.
  induction l as [|y l IH]; intro q; cbn [fold_left].
  - split; [now left|]. intros x [->|[]]. apply Qle_refl.
  - destruct (IH (qmin q y)) as [I B]. destruct (qmin_spec q y) as (A1 & A2 & A3). split.
    + destruct I as [<-|I]; [destruct A3 as [-> | ->]; cbn; auto|cbn; auto].
    + assert (H : (fold_left qmin l (qmin q y) <= qmin q y)%Q) by (apply B; now left).
      intros x [->|[->|J]]; [eapply Qle_trans; eauto|eapply Qle_trans; eauto|apply B; now right].
Qed.
Lemma fold_max l : forall q, In (fold_left qmax l q) (q :: l) /\ forall x, In x (q :: l) -> (x <= fold_left qmax l q)%Q.
Proof.
  induction l as [|y l IH]; intro q; cbn [fold_left].
  - split; [now left|]. intros x [->|[]]. apply Qle_refl.
  - destruct (IH (qmax q y)) as [I B]. destruct (qmax_spec q y) as (A1 & A2 & A3). split.
    + destruct I as [<-|I]; [destruct A3 as [-> | ->]; cbn; auto|cbn; auto].
    + assert (H : (qmax q y <= fold_left qmax l (qmax q y))%Q) by (apply B; now left).
      intros x [->|[->|J]]; [eapply Qle_trans; [|eauto]; auto|eapply Qle_trans; [|eauto]; auto|apply B; now right].
Qed.

(** Smallest value, largest value and the divisor used. *)
Lemma extent_spec col : col <> [] -> exists mn mx, extent col = Ok (mn, if Qeq_bool (mx - mn) 0 then 1%Q else (mx - mn)%Q) /\
  In mn col /\ In mx col /\ forall x, In x col -> (mn <= x <= mx)%Q.
Proof.
  intro NE. destruct col as [|q l]; [congruence|]. exists (fold_left qmin l q), (fold_left qmax l q).
  destruct (fold_min l q) as [I1 B1], (fold_max l q) as [I2 B2]. split; [reflexivity|]. repeat split; auto.
Qed.

Lemma qwidth_rect rows m : rect rows m -> qwidth rows = m.
Proof. intros [NE F]. destruct rows; [congruence|]. now inversion F. Qed.

Lemma by_columns_spec {A} rows m (f : list Q -> res A) : rect rows m -> (forall c, c <> [] -> exists a, f c = Ok a) ->
  exists vs, by_columns rows f = Ok vs /\ List.length vs = m /\
    forall j, (j < m)%nat -> exists a, nth_error vs j = Some a /\ f (qcol rows j) = Ok a.
Proof.
  intros R H. unfold by_columns. rewrite (qwidth_rect _ _ R).
  assert (NE : forall j, qcol rows j <> []) by (intros j E; destruct R as [N _]; destruct rows; [congruence|discriminate]).
  enough (G : forall s, exists vs, mapM (fun j => f (qcol rows j)) (seq s m) = Ok vs /\ List.length vs = m /\
    forall j, (j < m)%nat -> exists a, nth_error vs j = Some a /\ f (qcol rows (s + j)) = Ok a) by apply (G O).
  clear R. induction m as [|m IH]; intro s.
  - exists []. split; [reflexivity|]. split; [reflexivity|]. intros j Hj. lia.
  - destruct (IH (S s)) as (vs & E & L & N). destruct (H _ (NE s)) as [a Ha]. exists (a :: vs). cbn [seq mapM]. rewrite Ha. cbn [bind].
    rewrite E. cbn [bind]. split; auto. split; [cbn; lia|]. intros [|j] Hj.
    + exists a. split; auto. now rewrite Nat.add_0_r.
    + destruct (N j) as (b & B1 & B2); [lia|]. exists b. split; auto. now rewrite Nat.add_succ_r.
Qed.

Lemma qcol_at rows m i j x : Forall (fun r => List.length r = m) rows -> (j < m)%nat -> at_ rows i j x -> nth_error (qcol rows j) i = Some x.
Proof.
  intros F Hj (r & E1 & E2). unfold qcol. rewrite nth_error_map, E1. cbn. f_equal. now apply nth_error_nth.
Qed.

Lemma at_qcol rows m j x : Forall (fun r => List.length r = m) rows -> (j < m)%nat -> In x (qcol rows j) -> exists i, at_ rows i j x.
Proof.
  intros F Hj J. apply in_map_iff in J. destruct J as (r & <- & Jr). destruct (In_nth_error _ _ Jr) as [i Hi]. exists i, r. split; auto.
  rewrite Forall_forall in F. apply nth_error_nth'. rewrite (F _ Jr). auto.
Qed.

Lemma nth_error_combine {A B} (l : list A) (l' : list B) j : 
  nth_error (combine l l') j = match nth_error l j, nth_error l' j with Some a, Some b => Some (a, b) | _, _ => None end.
Proof.
  revert l' j. induction l as [|a l IH]; intros [|b l'] [|j]; cbn; auto.
  now destruct (nth_error l j).
Qed.

(** Entries of a matrix computed from per-column data. *)
Lemma by_entry {A B} (es : list A) (g : A -> Q -> B) rows m i j : List.length es = m -> Forall (fun r => List.length r = m) rows -> (j < m)%nat ->
  forall r', nth_error (map (fun r => map (fun p => g (fst p) (snd p)) (combine es r)) rows) i = Some r' ->
  exists e x, nth_error es j = Some e /\ at_ rows i j x /\ nth_error r' j = Some (g e x).
Proof.
  intros L F Hj r' E. rewrite nth_error_map in E. destruct (nth_error rows i) as [r|] eqn:Er; [|discriminate]. cbn in E. injection E as <-.
  assert (Lr : List.length r = m) by (rewrite Forall_forall in F; apply F; eapply nth_error_In; eauto).
  destruct (nth_error es j) as [e|] eqn:Ee; [|apply nth_error_None in Ee; lia].
  destruct (nth_error r j) as [x|] eqn:Ex; [|apply nth_error_None in Ex; lia].
  exists e, x. split; auto. split; [exists r; auto|]. rewrite nth_error_map, nth_error_combine, Ee, Ex. reflexivity.
Qed.

(** ** Scaling to a range *)
Lemma minmax_entries rows m lo hi : rect rows m -> (lo < hi)%Q ->
  exists out, minmax_scale (XMat rows) lo hi = Ok (XMat out) /\ List.length out = List.length rows /\ rect out m /\
  forall j, (j < m)%nat -> exists mn mx, (exists i, at_ rows i j mn) /\ (exists i, at_ rows i j mx) /\
    (forall i x, at_ rows i j x -> (mn <= x <= mx)%Q) /\
    forall i x', at_ out i j x' -> exists x, at_ rows i j x /\ x' = rescale lo hi (mn, if Qeq_bool (mx - mn) 0 then 1%Q else (mx - mn)%Q) x.
Proof.
  intros R LT. destruct (by_columns_spec rows m extent R) as (es & E & L & N).
  { intros c NE. destruct (extent_spec c NE) as (mn & mx & -> & _). eauto. }
  unfold minmax_scale. destruct (Qle_bool hi lo) eqn:Q; [apply Qle_bool_iff in Q; lra|].
  pose proof R as [NE F].
  set (out := map (fun r => map (fun p => rescale lo hi (fst p) (snd p)) (combine es r)) rows).
  exists out. split; [|split; [|split]].
  - destruct rows as [|r0 rows0]; [congruence|]. rewrite E. reflexivity.
  - apply map_length.
  - split; [unfold out; destruct rows; [congruence|discriminate]|]. unfold out. apply Forall_map. eapply Forall_impl; [|exact F].
    intros r Hr. rewrite map_length, combine_length, Hr, L. apply Nat.min_id.
  - intros j Hj. destruct (N j Hj) as (e & E1 & E2).
    assert (NC : qcol rows j <> []) by (intro X; destruct rows; [congruence|discriminate]).
    destruct (extent_spec _ NC) as (mn & mx & E3 & I1 & I2 & B). rewrite E2 in E3. injection E3 as ->. exists mn, mx. split; [|split; [|split]].
    + eapply at_qcol; eauto.
    + eapply at_qcol; eauto.
    + intros i x H. apply B. eapply nth_error_In, qcol_at; eauto.
    + intros i x' (r' & H1 & H2). destruct (by_entry es (rescale lo hi) rows m i j L F Hj r' H1) as (e & x & A1 & A2 & A3).
      rewrite E1 in A1. injection A1 as <-. exists x. split; auto. congruence.
Qed.

Lemma at_fun rows i j x y : at_ rows i j x -> at_ rows i j y -> x = y.
Proof. intros (r & A & B) (r' & C & D). congruence. Qed.

Lemma at_same rows out i j x m : List.length out = List.length rows -> Forall (fun r => List.length r = m) out -> (j < m)%nat ->
  at_ rows i j x -> exists x', at_ out i j x'.
Proof.
  intros L F Hj (r & A & _). destruct (nth_error out i) as [r'|] eqn:E.
  - rewrite Forall_forall in F. specialize (F r' (nth_error_In _ _ E)). destruct (nth_error r' j) as [x'|] eqn:E'; [exists x', r'; auto|].
    apply nth_error_None in E'. lia.
  - apply nth_error_None in E. assert (i < List.length rows)%nat by (apply nth_error_Some; congruence). lia.
Qed.

(** ** Mean and variance *)
Lemma total_map_lin (a b : Q) l : (total (map (fun x => (x - a) * b) l) == (total l - inject_Z (Z.of_nat (List.length l)) * a) * b)%Q.
Proof.
  induction l as [|x l IH]; [cbn; ring|]. cbn [map total fold_right List.length]. unfold total in *. rewrite IH.
  rewrite Nat2Z.inj_succ. unfold Z.succ. rewrite inject_Z_plus. change (inject_Z 1) with 1%Q. ring.
Qed.

Lemma len_pos {A} (l : list A) : l <> [] -> (0 < inject_Z (Z.of_nat (List.length l)))%Q.
Proof. intro NE. destruct l; [congruence|]. unfold Qlt. cbn. lia. Qed.

Lemma mean_lin a b l : l <> [] -> (mean (map (fun x => (x - a) * b) l) == (mean l - a) * b)%Q.
Proof.
  intro NE. pose proof (len_pos l NE). unfold mean. rewrite map_length, total_map_lin. field. lra.
Qed.

Lemma total_ext f g (l : list Q) : (forall x, f x == g x)%Q -> (total (map f l) == total (map g l))%Q.
Proof. intro H. induction l as [|x l IH]; [reflexivity|]. cbn. unfold total in IH. now rewrite IH, H. Qed.

Lemma total_scale k f (l : list Q) : (total (map (fun x => f x * k) l) == total (map f l) * k)%Q.
Proof. induction l as [|x l IH]; [cbn; ring|]. cbn. unfold total in IH. rewrite IH. ring. Qed.

Lemma variance_lin a b l : l <> [] -> (variance (map (fun x => (x - a) * b) l) == variance l * (b * b))%Q.
Proof.
  intro NE. pose proof (mean_lin a b l NE) as ML. pose proof (len_pos l NE) as LP. unfold variance. rewrite map_map.
  set (c := mean (map (fun x => (x - a) * b)%Q l)) in *. set (d := mean l) in *. unfold mean. rewrite !map_length.
  rewrite (total_ext _ (fun x => ((x - d) * (x - d)) * (b * b))%Q).
  - rewrite total_scale. field. lra.
  - intro x. rewrite ML. ring.
Qed.

Lemma total_nonneg l : Forall (fun x => 0 <= x)%Q l -> (0 <= total l)%Q.
Proof. induction 1 as [|x l H F IH]; [apply Qle_refl|]. cbn. unfold total in IH. lra. Qed.

Lemma sq_nonneg x : (0 <= x * x)%Q.
Proof. unfold Qle, Qmult. cbn. nia. Qed.

Lemma variance_nonneg l : (0 <= variance l)%Q.
Proof.
  unfold variance, mean at 1. unfold Qdiv. apply Qmult_le_0_compat.
  - apply total_nonneg. apply Forall_map, Forall_forall. intros. apply sq_nonneg.
  - apply Qinv_le_0_compat. unfold Qle. cbn. lia.
Qed.

Lemma total_zero l : Forall (fun x => 0 <= x)%Q l -> (total l == 0)%Q -> Forall (fun x => x == 0)%Q l.
Proof.
  induction 1 as [|x l H F IH]; intro E; constructor; cbn in E; pose proof (total_nonneg l F) as T; unfold total in *; [lra|apply IH; lra].
Qed.

(** Zero variance: all values are the mean. *)
Lemma variance_zero l : l <> [] -> (variance l == 0)%Q -> Forall (fun x => x == mean l)%Q l.
Proof.
  intros NE V. pose proof (len_pos l NE) as P. unfold variance, mean at 1 in V. rewrite map_length in V.
  assert (T : (total (map (fun x => (x - mean l) * (x - mean l)) l) == 0)%Q).
  { set (t := total _) in *. assert (E : (t == t / inject_Z (Z.of_nat (List.length l)) * inject_Z (Z.of_nat (List.length l)))%Q) by (field; lra).
    rewrite E, V. ring. }
  apply total_zero in T; [|apply Forall_map, Forall_forall; intros; apply sq_nonneg].
  apply Forall_map in T. eapply Forall_impl; [|exact T]. cbn. intros x H.
  destruct (Qmult_integral _ _ H); lra.
Qed.

Lemma nth_error_column {A} (d : A) rows j i r : nth_error rows i = Some r -> nth_error (column d rows j) i = Some (nth j r d).
Proof. intro H. unfold column. now rewrite nth_error_map, H. Qed.

(** The columns of the scaled matrix. *)
Lemma standard_columns rows m : rect rows m -> exists out, standard_scale (XMat rows) = Ok out /\
  Forall (fun r => List.length r = m) out /\ List.length out = List.length rows /\
  forall j, (j < m)%nat -> column NaN out j =
    map (fun x => fdiv (x - mean (column 0%Q rows j)) (variance (column 0%Q rows j))) (column 0%Q rows j).
Proof.
  intro R. destruct (by_columns_spec rows m (fun c => Ok (qmean c, qvar c)) R) as (es & E & L & N); [eauto|].
  unfold standard_scale. rewrite E. cbn [bind]. pose proof R as [NE F]. eexists. split; [reflexivity|].
  split; [apply Forall_map; eapply Forall_impl; [|exact F]; intros r Hr; rewrite map_length, combine_length, Hr, L; apply Nat.min_id|].
  split; [apply map_length|]. intros j Hj. destruct (N j Hj) as (e & E1 & E2). injection E2 as <-.
  unfold column at 1. rewrite map_map. unfold column at 3. rewrite map_map. apply map_ext_in. intros r Jr.
  rewrite Forall_forall in F. specialize (F r Jr).
  set (g := fun p : Q * Q * Q => fdiv (snd p - fst (fst p)) (snd (fst p))).
  assert (X : nth_error (map g (combine es r)) j = Some (fdiv (nth j r 0 - mean (column 0 rows j)) (variance (column 0 rows j)))%Q).
  { rewrite nth_error_map, nth_error_combine, E1. rewrite (nth_error_nth' r 0%Q) by lia. reflexivity. }
  apply nth_error_nth with (d := NaN) in X. exact X.
Qed.
