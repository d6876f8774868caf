(** Property C131, continued: the accuracy and the Hamming loss of the same predictions. *)
From Verif Require Import Base BaseFacts MiscModel MiscSpec MiscProofs MetricModel MetricSpec MetricProofs MetricProofs2 MetricProofs3 MetricProofs4 MetricProofs5 MetricProofs6 MetricProofs7 MetricProps AgreeSpec.
From Coq Require Import QArith Lqa Qfield.
Local Open Scope Z_scope.

Lemma rows_cells a b m : Forall (fun r => List.length r = m) a -> Forall (fun r => List.length r = m) b -> List.length a = List.length b ->
  let k := count (fun p => row_eqb (fst p) (snd p)) (combine a b) in
  let d := n_diff_list (List.concat a) (List.concat b) in
  (k <= List.length a)%nat /\ (List.length a - k <= d)%nat /\ (d <= m * (List.length a - k))%nat.
Proof.
  intro F. revert b. induction F as [|r a L F IH]; intros b FB LL; [cbn; unfold n_diff_list; cbn; lia|].
  destruct FB as [|s b LB FB]; [discriminate|]. cbn zeta in *. cbn [combine List.concat List.length]. rewrite count_cons. cbn [fst snd].
  destruct (IH b FB) as (H1 & H2 & H3); [cbn in LL; lia|].
  assert (E : n_diff_list (r ++ List.concat a) (s ++ List.concat b) = (n_diff_list r s + n_diff_list (List.concat a) (List.concat b))%nat).
  { unfold n_diff_list. rewrite <- count_app. f_equal. assert (X : List.length r = List.length s) by now rewrite L, LB. clear -X. revert s X.
    induction r as [|x r IH]; intros [|y s] X; try discriminate; auto. cbn. f_equal. apply IH. cbn in X. lia. }
  rewrite E. pose proof (diff_le r s) as U. rewrite L in U. pose proof (diff_zero r s) as Z. rewrite L, LB in Z. specialize (Z eq_refl).
  destruct (row_eqb r s) eqn:EQ.
  - apply row_eqb_eq in EQ. apply Z in EQ. cbn [Nat.add]. rewrite EQ. lia.
  - assert (N : n_diff_list r s <> O). { intro X. apply Z in X. apply row_eqb_eq in X. congruence. }
    cbn [Nat.add]. replace (S (List.length a) - count (fun p => row_eqb (fst p) (snd p)) (combine a b))%nat with (S (List.length a - count (fun p => row_eqb (fst p) (snd p)) (combine a b))) by lia. nia.
Qed.

(** For vectors the Hamming loss is one minus the accuracy. *)
Theorem C131_vectors : forall a b, List.length a = List.length b -> a <> [] ->
  exists acc h z, accuracy_score (T1 a) (T1 b) None = Ok (Num acc) /\ hamming_loss (T1 a) (T1 b) = Ok (Num h) /\
    zero_one_loss (T1 a) (T1 b) true None = Ok (Num z) /\ (h == 1 - acc)%Q /\ (z == 1 - acc)%Q.
Proof.
  intros a b L NE. destruct (C37_vectors a b L NE) as (acc & k & E & H & V & _).
  destruct (C38_vectors a b L NE) as (h & d & E' & H' & V' & _). destruct (C37_loss a b L NE) as (z & e & E2 & H2 & V2).
  exists acc, h, z. repeat (split; auto).
  - assert (X : (k + d = List.length a)%nat).
    { rewrite (hm_unique _ _ _ H (hm_agree Z.eqb Z.eqb_eq a b)), (hm_unique _ _ _ H' (hm_differ Z.eqb Z.eqb_eq a b)).
      clear -L. revert b L. induction a as [|x a IH]; intros [|y b] L; try discriminate; [reflexivity|]. cbn [combine]. rewrite !count_cons. cbn [fst snd List.length].
      specialize (IH b ltac:(cbn in L; lia)). destruct (x =? y); cbn; lia. }
    assert (P : (0 < nat_q (List.length a))%Q) by (apply nat_q_pos; destruct a; [congruence|cbn; lia]).
    rewrite V, V'. unfold ratio. assert (Y : (nat_q (List.length a) == nat_q k + nat_q d)%Q) by (rewrite <- X; apply nat_q_add).
    assert (Z : (nat_q d == nat_q (List.length a) - nat_q k)%Q) by lra. rewrite Z. field. lra.
  - unfold zero_one_loss in E2. rewrite E in E2. cbn [bind fsub] in E2. injection E2 as <-. reflexivity.
Qed.
Print Assumptions C131_vectors.
(** For matrices with m labels, the share of wrong rows lies between the Hamming loss and m times the Hamming loss. *)
Theorem C131_matrices : forall a b n m, matrix a n m -> matrix b n m -> (0 < n)%nat -> (1 < m)%nat -> two_valued a -> two_valued b ->
  exists acc h, accuracy_score (T2 a) (T2 b) None = Ok (Num acc) /\ hamming_loss (T2 a) (T2 b) = Ok (Num h) /\
    (h <= 1 - acc)%Q /\ (1 - acc <= nat_q m * h)%Q.
Proof.
  intros a b n m MA MB N M TA TB. destruct (C37_matrices a b n m MA MB N M TA TB) as (acc & k & E & H & V & _).
  destruct (C38_matrices a b n m MA MB N M TA TB) as (h & d & E' & H' & V' & _). exists acc, h. split; auto. split; auto.
  rewrite (hm_unique _ _ _ H (hm_agree row_eqb row_eqb_eq a b)) in V. rewrite (hm_unique _ _ _ H' (hm_cells a b n m MA MB)) in V'.
  assert (LL : List.length a = List.length b) by (rewrite (proj1 MA), (proj1 MB); reflexivity).
  destruct (rows_cells a b m (proj2 MA) (proj2 MB) LL) as (K & D1 & D2). rewrite (proj1 MA) in K, D1, D2.
  set (k' := count _ _) in *. set (d' := n_diff_list _ _) in *. clearbody k' d'.
  assert (PN : (0 < nat_q n)%Q) by (apply nat_q_pos; lia). assert (PM : (0 < nat_q m)%Q) by (apply nat_q_pos; lia).
  assert (W : (nat_q n == nat_q k' + nat_q (n - k'))%Q) by (rewrite <- nat_q_add; apply nat_q_eq; lia).
  apply nat_q_le in D1, D2. rewrite nat_q_mul in D2. rewrite V, V'. unfold ratio. rewrite nat_q_mul.
  assert (A1 : (1 - nat_q k' / nat_q n == nat_q (n - k') / nat_q n)%Q).
  { assert (X : (nat_q (n - k') == nat_q n - nat_q k')%Q) by lra. rewrite X. field. lra. }
  rewrite A1. split.
  - apply Qle_shift_div_l; auto. assert (B : (nat_q d' / (nat_q n * nat_q m) * nat_q n == nat_q d' / nat_q m)%Q) by (field; split; lra).
    rewrite B. apply Qle_shift_div_r; auto. lra.
  - assert (B : (nat_q m * (nat_q d' / (nat_q n * nat_q m)) == nat_q d' / nat_q n)%Q) by (field; split; lra).
    rewrite B. apply Qmult_le_compat_r; auto. apply Qlt_le_weak, Qinv_lt_0_compat, PN.
Qed.
Print Assumptions C131_matrices.
Example C131_matrices_witness :
  (exists q, accuracy_score (T2 [[1; 0; 1]; [0; 0; 1]]) (T2 [[1; 0; 1]; [0; 1; 1]]) None = Ok (Num q) /\ (q == 1 # 2)%Q) /\
  (exists q, hamming_loss (T2 [[1; 0; 1]; [0; 0; 1]]) (T2 [[1; 0; 1]; [0; 1; 1]]) = Ok (Num q) /\ (q == 1 # 6)%Q).
Proof. split; eexists; (split; [vm_compute; reflexivity|reflexivity]). Qed.
