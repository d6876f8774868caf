(** Proofs about the paired t-test. *)
From Coq Require Import QArith Qfield Lqa Psatz.
From Verif Require Import Base TtestModel TtestSpec.
Local Open Scope Q_scope.

Lemma diffs_length : forall a b, length a = length b -> length (diffs a b) = length a.
Proof. intros a b H. unfold diffs. rewrite map_length, combine_length. lia. Qed.

Lemma sum_diffs : forall a b, qsum (diffs a b) == total a b.
Proof.
  unfold total. induction a as [|x a IH]; intros [|y b]; cbn; try reflexivity.
  fold (diffs a b). rewrite IH. reflexivity.
Qed.

Lemma sum_squares : forall a b, qsum (map (fun x => x * x) (diffs a b)) == squares a b.
Proof.
  unfold squares. induction a as [|x a IH]; intros [|y b]; cbn; try reflexivity.
  fold (diffs a b). rewrite IH. reflexivity.
Qed.

Lemma qsum_nonneg : forall l, (forall x, In x l -> 0 <= x) -> 0 <= qsum l.
Proof.
  induction l as [|x l IH]; intros H; cbn; [lra|].
  pose proof (H x (or_introl eq_refl)). specialize (IH (fun y h => H y (or_intror h))). lra.
Qed.

Lemma qsum_zero : forall l, (forall x, In x l -> 0 <= x) -> qsum l == 0 -> forall x, In x l -> x == 0.
Proof.
  induction l as [|y l IH]; intros H E x I; [destruct I|]. cbn in E.
  assert (0 <= qsum l) by (apply qsum_nonneg; intros z h; apply H; right; exact h).
  pose proof (H y (or_introl eq_refl)).
  destruct I as [<- | I]; [lra|].
  apply IH; [intros z h; apply H; right; exact h | lra | exact I].
Qed.

Lemma dev_sum : forall m l,
  qsum (map (fun x => (x - m) * (x - m)) l)
  == qsum (map (fun x => x * x) l) - 2 * m * qsum l + qlen l * (m * m).
Proof.
  intros m. induction l as [|x l IH]; [cbn; unfold qlen; cbn; ring|].
  cbn [map qsum]. rewrite IH. unfold qlen. cbn [length].
  rewrite Nat2Z.inj_succ. unfold Z.succ. rewrite inject_Z_plus. ring.
Qed.

Lemma qlen_pos : forall l, l <> [] -> 1 <= qlen l.
Proof.
  intros l H. destruct l as [|x l]; [congruence|]. unfold qlen. cbn [length].
  change 1 with (inject_Z 1). rewrite <- Zle_Qle. lia.
Qed.

Lemma qlen_two : forall l, (2 <= length l)%nat -> 2 <= qlen l.
Proof.
  intros l H. unfold qlen. change 2 with (inject_Z 2). rewrite <- Zle_Qle. lia.
Qed.

(** The variance against the textbook formula. *)
Lemma var_spread : forall l, (2 <= length l)%nat ->
  qvar1 l * (qlen l * (qlen l - 1))
  == qlen l * qsum (map (fun x => x * x) l) - qsum l * qsum l.
Proof.
  intros l H. pose proof (qlen_two l H) as P. unfold qvar1. rewrite dev_sum. unfold qmean.
  field. split; lra.
Qed.

Definition q_spread (l : list Q) := qlen l * qsum (map (fun x => x * x) l) - qsum l * qsum l.

Lemma spread_diffs : forall a b, length a = length b -> q_spread (diffs a b) == spread a b.
Proof.
  intros a b H. unfold q_spread, spread. rewrite sum_squares, sum_diffs. unfold qlen.
  rewrite diffs_length by exact H. reflexivity.
Qed.

Lemma q_spread_dev : forall l, (1 <= length l)%nat ->
  q_spread l == qlen l * qsum (map (fun x => (x - qmean l) * (x - qmean l)) l).
Proof.
  intros l H. rewrite dev_sum. unfold q_spread, qmean.
  assert (1 <= qlen l) by (apply qlen_pos; destruct l; cbn in H; [lia|discriminate]).
  field. lra.
Qed.

Lemma sq_nonneg : forall x : Q, 0 <= x * x.
Proof. intros x. nra. Qed.

Lemma q_spread_nonneg : forall l, 0 <= q_spread l.
Proof.
  intros l. destruct l as [|x l]; [unfold q_spread; cbn; unfold qlen; cbn; lra|].
  rewrite q_spread_dev by (cbn; lia).
  assert (1 <= qlen (x :: l)) by (apply qlen_pos; discriminate).
  assert (0 <= qsum (map (fun y => (y - qmean (x :: l)) * (y - qmean (x :: l))) (x :: l))).
  { apply qsum_nonneg. intros z h. apply in_map_iff in h. destruct h as (y & <- & _). apply sq_nonneg. }
  nra.
Qed.

Lemma q_spread_zero : forall l, q_spread l == 0 -> forall x, In x l -> x == qmean l.
Proof.
  intros l E x I.
  assert (L : (1 <= length l)%nat) by (destruct l; [destruct I | cbn; lia]).
  rewrite q_spread_dev in E by exact L.
  assert (1 <= qlen l) by (apply qlen_pos; destruct l; [destruct I | discriminate]).
  set (s := qsum (map (fun y => (y - qmean l) * (y - qmean l)) l)) in *.
  assert (Z0 : s == 0).
  { apply Qmult_integral in E. destruct E as [E | E]; [lra | exact E]. }
  assert (Z1 : (x - qmean l) * (x - qmean l) == 0).
  { apply (qsum_zero (map (fun y => (y - qmean l) * (y - qmean l)) l)).
    - intros z h. apply in_map_iff in h. destruct h as (y & <- & _). apply sq_nonneg.
    - exact Z0.
    - apply in_map_iff. exists x. split; [reflexivity | exact I]. }
  apply Qmult_integral in Z1. destruct Z1; lra.
Qed.

Lemma qsum_const : forall c l, (forall x, In x l -> x == c) -> qsum l == qlen l * c.
Proof.
  intros c. induction l as [|x l IH]; intros H; [cbn; unfold qlen; cbn; ring|].
  cbn [qsum]. rewrite IH by (intros y h; apply H; right; exact h).
  assert (E : x == c) by (apply H; left; reflexivity). unfold qlen. cbn [length]. rewrite E.
  rewrite Nat2Z.inj_succ. unfold Z.succ. rewrite inject_Z_plus. ring.
Qed.

Lemma q_spread_const : forall c l, (forall x, In x l -> x == c) -> q_spread l == 0.
Proof.
  intros c l H. unfold q_spread. rewrite (qsum_const c l H).
  rewrite (qsum_const (c * c) (map (fun x => x * x) l)).
  - unfold qlen. rewrite map_length. ring.
  - intros z h. apply in_map_iff in h. destruct h as (y & <- & h). assert (E : y == c) by (apply H; exact h). rewrite E. reflexivity.
Qed.

Lemma qvar1_zero : forall l, (2 <= length l)%nat -> (qvar1 l == 0 <-> q_spread l == 0).
Proof.
  intros l H. pose proof (var_spread l H) as V. fold (q_spread l) in V.
  pose proof (qlen_two l H) as P. split; intros E.
  - rewrite <- V, E. ring.
  - rewrite E in V. apply Qmult_integral in V. destruct V as [V | V]; [exact V|].
    apply Qmult_integral in V. destruct V; lra.
Qed.

Lemma stat_unfold : forall d, (2 <= length d)%nat ->
  ttest_stat d = if Qeq_bool (qvar1 d) 0
                 then if Qeq_bool (qmean d) 0 then SNaN else SInf
                 else SFin (qmean d * qmean d / (qvar1 d / qlen d)).
Proof. intros [|x [|y d]] H; cbn in H; try lia. reflexivity. Qed.

Lemma Qeq_bool_false : forall x y, ~ x == y -> Qeq_bool x y = false.
Proof.
  intros x y H. destruct (Qeq_bool x y) eqn:E; [|reflexivity].
  exfalso. apply H, Qeq_bool_iff, E.
Qed.

(** A finite statistic is the textbook one. *)
Lemma stat_finite : forall d t2, (2 <= length d)%nat -> 0 < q_spread d ->
  t2 * q_spread d == (qlen d - 1) * (qsum d * qsum d) ->
  exists t2', ttest_stat d = SFin t2' /\ t2' == t2.
Proof.
  intros d t2 L Sp T. rewrite stat_unfold by exact L.
  assert (V0 : ~ qvar1 d == 0) by (intros E; apply qvar1_zero in E; [lra | exact L]).
  rewrite (Qeq_bool_false _ _ V0). eexists. split; [reflexivity|].
  pose proof (var_spread d L) as V. fold (q_spread d) in V.
  pose proof (qlen_two d L) as P.
  assert (T2 : t2 == (qlen d - 1) * (qsum d * qsum d) / q_spread d) by (rewrite <- T; field; lra).
  rewrite T2, <- V. unfold qmean. field. repeat split; try lra; exact V0.
Qed.

Lemma stat_finite_ex : forall d, (2 <= length d)%nat -> 0 < q_spread d ->
  exists t2, t2 * q_spread d == (qlen d - 1) * (qsum d * qsum d).
Proof.
  intros d L P. exists ((qlen d - 1) * (qsum d * qsum d) / q_spread d). field. lra.
Qed.

Lemma stat_const : forall c d, (2 <= length d)%nat -> (forall x, In x d -> x == c) ->
  ttest_stat d = if Qeq_bool c 0 then SNaN else SInf.
Proof.
  intros c d L H. rewrite stat_unfold by exact L.
  assert (V0 : qvar1 d == 0) by (apply qvar1_zero; [exact L | apply (q_spread_const c); exact H]).
  apply Qeq_bool_iff in V0. rewrite V0.
  assert (M : qmean d == c).
  { unfold qmean. rewrite (qsum_const c d H). pose proof (qlen_two d L). field. lra. }
  destruct (Qeq_bool c 0) eqn:E.
  - apply Qeq_bool_iff in E. rewrite E in M. apply Qeq_bool_iff in M. rewrite M. reflexivity.
  - rewrite Qeq_bool_false; [reflexivity|]. intros Z0. rewrite M in Z0. apply Qeq_bool_iff in Z0. congruence.
Qed.

Lemma in_diffs : forall a b x, In x (diffs a b) ->
  exists i u v, nth_error a i = Some u /\ nth_error b i = Some v /\ x = u - v.
Proof.
  induction a as [|u a IH]; intros [|v b] x H; cbn in H; try contradiction.
  destruct H as [<- | H].
  - exists 0%nat, u, v. auto.
  - destruct (IH b x H) as (i & u' & v' & A & B & C). exists (S i), u', v'. auto.
Qed.

Lemma diffs_in : forall a b i u v, nth_error a i = Some u -> nth_error b i = Some v -> In (u - v) (diffs a b).
Proof.
  induction a as [|u0 a IH]; intros [|v0 b] [|i] u v A B; cbn in A, B; try discriminate.
  - injection A as ->. injection B as ->. left. reflexivity.
  - right. exact (IH b i u v A B).
Qed.

(** Scaled differences. *)
Lemma diffs_scaled : forall k a b a' b', length a = length b -> length a' = length a -> length b' = length b ->
  (forall i x y x' y', nth_error a i = Some x -> nth_error b i = Some y ->
     nth_error a' i = Some x' -> nth_error b' i = Some y' -> x' - y' == k * (x - y)) ->
  qsum (diffs a' b') == k * qsum (diffs a b) /\
  qsum (map (fun x => x * x) (diffs a' b')) == k * k * qsum (map (fun x => x * x) (diffs a b)).
Proof.
  intros k. induction a as [|x a IH]; intros [|y b] [|x' a'] [|y' b'] L1 L2 L3 H; cbn in L1, L2, L3; try discriminate.
  - cbn. split; ring.
  - destruct (IH b a' b') as (A & B); [congruence .. | |].
    + intros i u v u' v' h1 h2 h3 h4. exact (H (S i) u v u' v' h1 h2 h3 h4).
    + pose proof (H 0%nat x y x' y' eq_refl eq_refl eq_refl eq_refl) as E.
      cbn. fold (diffs a b) (diffs a' b'). rewrite A, B, E. split; ring.
Qed.

Definition same_stat (s s' : stat) : Prop :=
  match s, s' with SNaN, SNaN | SInf, SInf => True | SFin x, SFin y => x == y | _, _ => False end.

Lemma decide_same : forall tail n s s' al, student_ok tail -> same_stat s s' ->
  decide tail n s al = decide tail n s' al.
Proof.
  intros tail n [| |x] [| |y] al K H; cbn in H; try contradiction; try reflexivity.
  cbn. rewrite (tail_ext tail K _ x y al al H (Qeq_refl al)). reflexivity.
Qed.

Lemma stat_case : forall d, (2 <= length d)%nat ->
  (q_spread d == 0 /\ exists c, (forall x, In x d -> x == c) /\ qsum d == qlen d * c) \/ 0 < q_spread d.
Proof.
  intros d L. pose proof (q_spread_nonneg d) as N.
  destruct (Qlt_le_dec 0 (q_spread d)) as [P | P]; [right; exact P|left].
  assert (E : q_spread d == 0) by lra. split; [exact E|].
  exists (qmean d). pose proof (q_spread_zero d E) as C. split; [exact C | apply qsum_const; exact C].
Qed.

Lemma stat_scaled : forall k d d', ~ k == 0 -> length d' = length d ->
  qsum d' == k * qsum d -> qsum (map (fun x => x * x) d') == k * k * qsum (map (fun x => x * x) d) ->
  same_stat (ttest_stat d') (ttest_stat d).
Proof.
  intros k d d' K L S1 S2.
  assert (K2 : 0 < k * k).
  { pose proof (sq_nonneg k). destruct (Qeq_dec (k * k) 0) as [E | E]; [|lra].
    apply Qmult_integral in E. tauto. }
  destruct d as [|x [|y d]]; [destruct d' as [|? [|]]; try discriminate; exact I
                             |destruct d' as [|? [|]]; try discriminate; exact I|].
  set (e := x :: y :: d) in *.
  assert (L2 : (2 <= length e)%nat) by (cbn; lia).
  assert (L2' : (2 <= length d')%nat) by (rewrite L; exact L2).
  assert (Ln : qlen d' == qlen e) by (unfold qlen; rewrite L; reflexivity).
  assert (Sp : q_spread d' == k * k * q_spread e).
  { unfold q_spread. rewrite Ln, S1, S2. ring. }
  pose proof (qlen_two e L2) as P.
  destruct (stat_case e L2) as [(E & c & C & M) | Pos].
  - assert (E' : q_spread d' == 0) by (rewrite Sp, E; ring).
    pose proof (q_spread_zero d' E') as C'.
    rewrite (stat_const c e L2 C), (stat_const (qmean d') d' L2' C').
    assert (Mc : qmean d' == k * c).
    { unfold qmean. rewrite S1, Ln, M. field. lra. }
    destruct (Qeq_bool c 0) eqn:E0.
    + apply Qeq_bool_iff in E0. assert (Q0 : qmean d' == 0) by (rewrite Mc, E0; ring).
      apply Qeq_bool_iff in Q0. rewrite Q0. exact I.
    + rewrite Qeq_bool_false; [exact I|]. rewrite Mc. intros Z0. apply Qmult_integral in Z0.
      destruct Z0 as [Z0 | Z0]; [tauto|]. apply Qeq_bool_iff in Z0. congruence.
  - destruct (stat_finite_ex e L2 Pos) as (t2 & T).
    destruct (stat_finite e t2 L2 Pos T) as (u & -> & U).
    destruct (stat_finite d' t2 L2') as (u' & -> & U').
    + rewrite Sp. nra.
    + rewrite Sp, Ln, S1. transitivity (k * k * (t2 * q_spread e)); [ring|]. rewrite T. ring.
    + cbn. rewrite U, U'. reflexivity.
Qed.

Lemma rel1_scaled : forall tail k a b a' b' al, student_ok tail -> ~ k == 0 ->
  length a = length b -> length a' = length a -> length b' = length b ->
  (forall i x y x' y', nth_error a i = Some x -> nth_error b i = Some y ->
     nth_error a' i = Some x' -> nth_error b' i = Some y' -> x' - y' == k * (x - y)) ->
  rel1 tail a' b' al = rel1 tail a b al.
Proof.
  intros tail k a b a' b' al K K0 L1 L2 L3 H. unfold rel1. rewrite L2, L3, L1, Nat.eqb_refl.
  destruct (diffs_scaled k a b a' b' L1 L2 L3 H) as (A & B).
  rewrite (decide_same tail (length b) (ttest_stat (diffs a' b')) (ttest_stat (diffs a b)) al K); [reflexivity|].
  apply (stat_scaled k); [exact K0 | | exact A | exact B].
  rewrite !diffs_length; congruence.
Qed.

Lemma vec_vec : forall tail a b al, length a = length b ->
  paired_ttest tail (Vec a) (Vec b) al = Ok (decide tail (length a) (ttest_stat (diffs a b)) al).
Proof. intros tail a b al H. cbn. unfold rel1. rewrite H, Nat.eqb_refl. reflexivity. Qed.
