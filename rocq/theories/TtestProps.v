(** C99: what the paired t-test decides, and on which arguments. *)
From Coq Require Import QArith Qfield Lqa Psatz.
From Verif Require Import Base TtestModel TtestSpec TtestProofs.
Local Open Scope Q_scope.

(** A contract-abiding tail, exact for two degrees of freedom. *)
Definition tail2 : student := fun _ x al =>
  if Qle_bool 1 al then true
  else Qle_bool 0 al && Qle_bool 0 x && Qle_bool ((1 - al) * (1 - al) * (2 + x)) x.

Lemma tail2_true : forall n x al, tail2 n x al = true <->
  1 <= al \/ (0 <= al /\ 0 <= x /\ (1 - al) * (1 - al) * (2 + x) <= x).
Proof.
  intros n x al. unfold tail2. destruct (Qle_bool 1 al) eqn:E.
  - apply Qle_bool_iff in E. tauto.
  - assert (N : ~ 1 <= al) by (intros H; apply Qle_bool_iff in H; congruence).
    rewrite !andb_true_iff, !Qle_bool_iff. tauto.
Qed.

Example C99_tail_ok : student_ok tail2 /\ two_df tail2.
Proof.
  assert (B : forall b c : bool, (b = true <-> c = true) -> b = c).
  { intros [] [] H; try reflexivity; [symmetry|]; apply H; reflexivity. }
  assert (M : forall x x' al, 0 <= al -> al < 1 -> 0 <= x -> x <= x' ->
              (1 - al) * (1 - al) * (2 + x) <= x -> (1 - al) * (1 - al) * (2 + x') <= x').
  { intros x x' al A1 A2 X XX H.
    assert ((1 - al) * (1 - al) <= 1) by nra. nra. }
  assert (M' : forall x al al', 0 <= al -> al <= al' -> al' < 1 -> 0 <= x ->
              (1 - al) * (1 - al) * (2 + x) <= x -> (1 - al') * (1 - al') * (2 + x) <= x).
  { intros x al al' A1 A2 A3 X H.
    assert ((1 - al') * (1 - al') <= (1 - al) * (1 - al)) by nra. nra. }
  split.
  - split.
    + intros n x x' al al' Ex Ea. apply B. rewrite !tail2_true. rewrite Ex, Ea. tauto.
    + intros n x x' al L H. apply tail2_true in H. apply tail2_true.
      destruct H as [H | (A & X & H)]; [left; exact H|].
      destruct (Qlt_le_dec al 1) as [Lt | Ge]; [right | left; exact Ge].
      split; [exact A|]. split; [lra|]. exact (M x x' al A Lt X L H).
    + intros n x al al' L H. apply tail2_true in H. apply tail2_true.
      destruct (Qlt_le_dec al' 1) as [Lt | Ge]; [right | left; exact Ge].
      destruct H as [H | (A & X & H)]; [lra|].
      split; [lra|]. split; [exact X|]. exact (M' x al al' A L Lt X H).
    + intros n x al H. apply tail2_true. left. exact H.
    + intros n x al H. destruct (tail2 n x al) eqn:E; [|reflexivity].
      apply tail2_true in E. destruct E as [E | (E & _)]; lra.
    + intros n al H. apply tail2_true in H. destruct H as [H | (A & X & H)]; [exact H|].
      destruct (Qlt_le_dec al 1) as [Lt | Ge]; [nra | exact Ge].
  - intros x al X A A1. rewrite tail2_true. split; [intros [H | (_ & _ & H)]; [lra | exact H] | tauto].
Qed.

(** The null hypothesis is rejected exactly when the p-value of the textbook statistic is at most
    alpha. *)
Theorem C99_decision : forall tail a b al t2,
  student_ok tail -> length a = length b -> (2 <= length a)%nat ->
  0 < spread a b -> t_squared a b t2 ->
  paired_ttest tail (Vec a) (Vec b) al
  = Ok (if tail (length a - 1)%nat t2 al then 1%Z else 0%Z).
Proof.
  intros tail a b al t2 K L L2 Sp T. rewrite vec_vec by exact L.
  assert (Ld : length (diffs a b) = length a) by (apply diffs_length; exact L).
  destruct (stat_finite (diffs a b) t2) as (u & E & U).
  - rewrite Ld. exact L2.
  - rewrite spread_diffs by exact L. exact Sp.
  - rewrite spread_diffs by exact L. unfold qlen. rewrite Ld. rewrite sum_diffs. exact T.
  - rewrite E. cbn. rewrite (tail_ext tail K _ u t2 al al U (Qeq_refl al)). reflexivity.
Qed.
Print Assumptions C99_decision.

(** The samples are degenerate exactly when all pairs have the same difference. *)
Theorem C99_spread : forall a b, length a = length b ->
  0 <= spread a b /\ (spread a b == 0 <-> exists c, same_difference a b c).
Proof.
  intros a b L. rewrite <- !spread_diffs by exact L. split; [apply q_spread_nonneg|]. split.
  - intros E. exists (qmean (diffs a b)). intros i x y A B.
    exact (q_spread_zero _ E _ (diffs_in a b i x y A B)).
  - intros (c & C). apply (q_spread_const c). intros x I.
    destruct (in_diffs a b x I) as (i & u & v & A & B & ->). exact (C i u v A B).
Qed.
Print Assumptions C99_spread.

(** Equal differences: zero means no significance, anything else significance at every level. *)
Theorem C99_degenerate : forall tail a b al c,
  length a = length b -> same_difference a b c ->
  paired_ttest tail (Vec a) (Vec b) al
  = Ok (if Nat.leb (length a) 1 then 0%Z
        else if Qeq_bool c 0 then 0%Z else if Qle_bool 0 al then 1%Z else 0%Z).
Proof.
  intros tail a b al c L C. rewrite vec_vec by exact L.
  assert (Ld : length (diffs a b) = length a) by (apply diffs_length; exact L).
  destruct (Nat.leb (length a) 1) eqn:E.
  - apply Nat.leb_le in E. rewrite <- Ld in E.
    destruct (diffs a b) as [|x [|y d]] eqn:D; [reflexivity | reflexivity | cbn in E; lia].
  - apply Nat.leb_gt in E. rewrite (stat_const c).
    + destruct (Qeq_bool c 0); reflexivity.
    + rewrite Ld. lia.
    + intros x I. destruct (in_diffs a b x I) as (i & u & v & A & B & ->). exact (C i u v A B).
Qed.
Print Assumptions C99_degenerate.

(** Only the differences count, up to a common factor: swapping the samples, adding the same numbers
    to both, or changing the unit leaves the decision unchanged. *)
Theorem C99_invariant : forall tail k a b a' b' al,
  student_ok tail -> ~ k == 0 ->
  length a = length b -> length a' = length a -> length b' = length b ->
  (forall i x y x' y', nth_error a i = Some x -> nth_error b i = Some y ->
     nth_error a' i = Some x' -> nth_error b' i = Some y' -> x' - y' == k * (x - y)) ->
  paired_ttest tail (Vec a') (Vec b') al = paired_ttest tail (Vec a) (Vec b) al.
Proof.
  intros tail k a b a' b' al K K0 L1 L2 L3 H. cbn [paired_ttest py_len bind].
  rewrite (rel1_scaled tail k a b a' b' al K K0 L1 L2 L3 H). rewrite L2, L3, L1, Nat.eqb_refl. reflexivity.
Qed.
Print Assumptions C99_invariant.

Theorem C99_symmetric : forall tail a b al, student_ok tail -> length a = length b ->
  paired_ttest tail (Vec b) (Vec a) al = paired_ttest tail (Vec a) (Vec b) al.
Proof.
  intros tail a b al K L. apply (C99_invariant tail (-(1)) a b b a al K); [lra | exact L | symmetry; exact L | exact L |].
  intros i x y x' y' A B A' B'. rewrite A in B'. rewrite B in A'. injection A' as <-. injection B' as <-. ring.
Qed.
Print Assumptions C99_symmetric.

(** A difference significant at a level is so at every greater level; below level 0 nothing is. *)
Theorem C99_level : forall tail a b al al', student_ok tail -> al <= al' ->
  paired_ttest tail a b al = Ok 1%Z -> 0 <= al /\ paired_ttest tail a b al' = Ok 1%Z.
Proof.
  intros tail a b al al' K L.
  assert (R : forall u v, rel1 tail u v al = Ok 1%Z -> 0 <= al /\ rel1 tail u v al' = Ok 1%Z).
  { intros u v. unfold rel1. destruct (Nat.eqb (length u) (length v)); [|discriminate].
    destruct (ttest_stat (diffs u v)) as [| |t2]; cbn.
    - discriminate.
    - destruct (Qle_bool 0 al) eqn:E; [|discriminate]. apply Qle_bool_iff in E. intros _. split; [exact E|].
      assert (E' : 0 <= al') by lra. apply Qle_bool_iff in E'. rewrite E'. reflexivity.
    - destruct (tail (length u - 1)%nat t2 al) eqn:E; [|discriminate]. intros _.
      rewrite (tail_level tail K _ _ _ _ L E). split; [|reflexivity].
      destruct (Qlt_le_dec al 0) as [N | P]; [|exact P].
      rewrite (tail_neg tail K _ t2 al N) in E. discriminate. }
  assert (N : forall n k, rel_mat n k <> Ok 1%Z).
  { intros [|[|n]] k; cbn [rel_mat]; try discriminate.
    - destruct (Nat.eqb k 1); discriminate.
    - destruct (Nat.eqb k 1 || Nat.eqb k (S (S n))); discriminate. }
  destruct a as [x | l | k rows]; cbn [paired_ttest].
  - discriminate.
  - destruct b as [y | l' | k' rows']; cbn [py_len bind]; [discriminate | |].
    + destruct (Nat.eqb (length l) (length l')); [apply R | discriminate].
    + destruct (Nat.eqb (length l) (length rows')); [|discriminate]. intros H. exfalso. exact (N _ _ H).
  - destruct (Nat.eqb (length rows) 1 || Nat.eqb k 1); [|discriminate].
    destruct (py_len b) as [m | e]; cbn [bind]; [|discriminate].
    destruct (Nat.eqb (length rows) m); [apply R | discriminate].
Qed.
Print Assumptions C99_level.

(** Whenever a decision is returned, the samples have the same size and the decision is that for the
    samples as plain vectors. *)
Theorem C99_shapes_sound : forall tail a b al h, proper a -> proper b ->
  paired_ttest tail a b al = Ok h ->
  length (ravel a) = length (ravel b) /\ paired_ttest tail (Vec (ravel a)) (Vec (ravel b)) al = Ok h.
Proof.
  intros tail a b al h Pa Pb.
  assert (R : forall u v, rel1 tail u v al = Ok h ->
              length u = length v /\ paired_ttest tail (Vec u) (Vec v) al = Ok h).
  { intros u v H. assert (L : length u = length v).
    { unfold rel1 in H. destruct (Nat.eqb (length u) (length v)) eqn:E; [|discriminate]. apply Nat.eqb_eq, E. }
    split; [exact L|]. cbn. rewrite L, Nat.eqb_refl. exact H. }
  destruct a as [x | l | k rows]; cbn [paired_ttest].
  - discriminate.
  - destruct b as [y | l' | k' rows']; cbn [py_len bind]; [discriminate | |].
    + destruct (Nat.eqb (length l) (length l')); [apply R | discriminate].
    + destruct (Nat.eqb (length l) (length rows')) eqn:E; [|discriminate]. apply Nat.eqb_eq in E.
      destruct l as [|x [|y l]]; cbn [rel_mat length] in *.
      * destruct rows'; [|discriminate]. intros H. injection H as <-. split; reflexivity.
      * destruct rows' as [|r [|]]; try discriminate. destruct (Nat.eqb k' 1) eqn:E1; [|discriminate].
        apply Nat.eqb_eq in E1. intros H. injection H as <-.
        cbn in Pb. inversion Pb as [|? ? Hr _]; subst. destruct r as [|z [|]]; try discriminate.
        split; reflexivity.
      * destruct (Nat.eqb k' 1 || Nat.eqb k' (S (S (length l)))); discriminate.
  - destruct (Nat.eqb (length rows) 1 || Nat.eqb k 1); [|discriminate].
    destruct (py_len b) as [m | e]; cbn [bind]; [|discriminate].
    destruct (Nat.eqb (length rows) m); [apply R | discriminate].
Qed.
Print Assumptions C99_shapes_sound.

(** Vectors of one length, written alike (both 1-D, both a row, both a column), are always accepted. *)
Theorem C99_accepts : forall tail (a b : list Q) al,
  let row l := Mat (length l) [l] in
  let column (l : list Q) := Mat 1 (map (fun x => [x]) l) in
  length a = length b ->
  paired_ttest tail (row a) (row b) al = paired_ttest tail (Vec a) (Vec b) al /\
  paired_ttest tail (column a) (column b) al = paired_ttest tail (Vec a) (Vec b) al /\
  paired_ttest tail (column a) (Vec b) al = paired_ttest tail (Vec a) (Vec b) al /\
  exists h, paired_ttest tail (Vec a) (Vec b) al = Ok h /\ (h = 0%Z \/ h = 1%Z).
Proof.
  intros tail a b al row column L. subst row column.
  assert (C : forall l : list Q, concat (map (fun x => [x]) l) = l).
  { induction l as [|x l IH]; [reflexivity|]. cbn. rewrite IH. reflexivity. }
  cbn [paired_ttest py_len bind ravel]. rewrite !map_length, !C, L, Nat.eqb_refl, orb_true_r. cbn [length concat].
  rewrite !app_nil_r. cbn [orb]. rewrite !Nat.eqb_refl. split; [reflexivity|]. split; [reflexivity|]. split; [reflexivity|].
  unfold rel1. rewrite L, Nat.eqb_refl. eexists. split; [reflexivity|].
  destruct (ttest_stat (diffs a b)) as [| |t2]; cbn; [left; reflexivity | |].
  - destruct (Qle_bool 0 al); tauto.
  - destruct (tail (length b - 1)%nat t2 al); tauto.
Qed.
Print Assumptions C99_accepts.

(** Samples of different sizes are rejected, in whatever shape. *)
Theorem C99_sizes : forall tail a b al, proper a -> proper b ->
  length (ravel a) <> length (ravel b) -> exists e, paired_ttest tail a b al = Err e.
Proof.
  intros tail a b al Pa Pb N. destruct (paired_ttest tail a b al) as [h | e] eqn:E; [|exists e; reflexivity].
  destruct (C99_shapes_sound tail a b al h Pa Pb E) as (L & _). contradiction.
Qed.
Print Assumptions C99_sizes.

(** Not symmetric in the shapes: a column is taken as first sample, but not as second one after a
    1-D array. *)
Theorem C99_shapes_refuted : forall tail a b al, length a = length b -> (2 <= length a)%nat ->
  let column (l : list Q) := Mat 1 (map (fun x => [x]) l) in
  (exists h, paired_ttest tail (column a) (Vec b) al = Ok h) /\
  paired_ttest tail (Vec a) (column b) al = Err TypeErr.
Proof.
  intros tail a b al L L2 column. split.
  - destruct (C99_accepts tail a b al L) as (_ & _ & C & h & H & _). exists h. subst column. exact (eq_trans C H).
  - subst column. cbn [paired_ttest py_len bind]. rewrite map_length, L, Nat.eqb_refl.
    rewrite <- L. destruct (length a) as [|[|n]]; [lia | lia | reflexivity].
Qed.
Print Assumptions C99_shapes_refuted.

(** The documented example (a = [1.2, 2, 3], b = [1.6, 2.5, 1.1], alpha = 0.05, documented result 1)
    returns 0. *)
Theorem C99_example_refuted : forall tail, student_ok tail -> two_df tail ->
  paired_ttest tail (Vec [12#10; 2; 3]) (Vec [16#10; 25#10; 11#10]) (5#100) = Ok 0%Z.
Proof.
  intros tail K T2.
  rewrite (C99_decision tail _ _ _ (100#553) K); [| reflexivity | cbn; lia | reflexivity | reflexivity].
  cbn [length Nat.sub].
  destruct (tail 2%nat (100#553) (5#100)) eqn:E; [|reflexivity].
  apply T2 in E; [|discriminate|discriminate|reflexivity]. exfalso. revert E. vm_compute. intros H. apply H. reflexivity.
Qed.
Print Assumptions C99_example_refuted.

Example C99_case :
  paired_ttest tail2 (Vec [10; 12; 13]) (Vec [1; 2; 3]) (5#100) = Ok 1%Z /\
  0 < spread [10; 12; 13] [1; 2; 3] /\
  paired_ttest tail2 (Vec [1; 2; 3]) (Vec [2; 3; 4]) (5#100) = Ok 1%Z /\
  same_difference [1; 2; 3] [2; 3; 4] (-(1)) /\
  paired_ttest tail2 (Mat 3 [[1; 2; 3]]) (Mat 2 [[2; 3]]) (5#100) = Err ValueErr.
Proof.
  split; [vm_compute; reflexivity|]. split; [reflexivity|]. split; [vm_compute; reflexivity|].
  split; [|reflexivity].
  intros [|[|[|[|i]]]] x y A B; cbn in A, B; try discriminate; injection A as <-; injection B as <-; reflexivity.
Qed.
