(** Proofs about ADMM. *)
From Verif Require Import Base BaseFacts IndexModel MiscModel MiscSpec QueryModel QuerySpec BatchModel BatchSpec BatchSums BatchProofs BatchProofs2.
From Coq Require Import QArith Qabs Lqa Qfield.
Local Open Scope Z_scope.

(** ** One coordinate of z *)
Definition coord (m rho t d z : Q) : Q := (m * (z * z + 2 * Qabs z) + d * (z - t) + rho / 2 * ((z - t) * (z - t)))%Q.

Lemma Qabs_ge x : (x <= Qabs x)%Q.
Proof. apply Qle_Qabs. Qed.
Lemma Qabs_ge' x : (- x <= Qabs x)%Q.
Proof. rewrite <- Qabs_opp. apply Qle_Qabs. Qed.

Lemma sq_nonneg x : (0 <= x * x)%Q.
Proof. destruct (Qlt_le_dec x 0); nra. Qed.

Lemma coord_least m rho t d z' : (0 <= m)%Q -> (0 < m + rho / 2)%Q ->
  (let w := rho * t - d in
   (w <= 2 * m /\ - (2 * m) <= w /\ z' == 0) \/
   (2 * m < w /\ z' == (w - 2 * m) / (2 * m + rho)) \/
   (w < - (2 * m) /\ z' == (w + 2 * m) / (2 * m + rho)))%Q ->
  forall z, (coord m rho t d z' <= coord m rho t d z)%Q.
Proof.
  cbn zeta. intros M C H z. set (w := (rho * t - d)%Q) in *. set (c := (m + rho / 2)%Q) in *.
  assert (E : forall x, (coord m rho t d x == c * (x * x) + 2 * m * Qabs x - w * x + (rho / 2 * (t * t) - d * t))%Q).
  { intro x. unfold coord, c, w. field. }
  rewrite !E.
  assert (HH : (c * (z' * z') + 2 * m * Qabs z' - w * z' <= c * (z * z) + 2 * m * Qabs z - w * z)%Q); [|lra].
  assert (CC : (2 * m + rho == 2 * c)%Q) by (unfold c; field).
  pose proof (Qabs_ge z) as A1. pose proof (Qabs_ge' z) as A2. pose proof (Qabs_nonneg z) as A3.
  assert (SQ : (0 <= c * (z * z))%Q) by (apply Qmult_le_0_compat; [lra|apply sq_nonneg]).
  destruct H as [(W1 & W2 & Z0)|[(W & Z0)|(W & Z0)]].
  - rewrite Z0. replace (Qabs 0) with 0%Q by reflexivity.
    assert (X : (w * z <= 2 * m * Qabs z)%Q).
    { assert (P1 : (0 <= (2 * m - w) * (Qabs z + z))%Q) by (apply Qmult_le_0_compat; lra).
      assert (P2 : (0 <= (2 * m + w) * (Qabs z - z))%Q) by (apply Qmult_le_0_compat; lra). lra. }
    lra.
  - rewrite CC in Z0. assert (ZP : (2 * c * z' == w - 2 * m)%Q) by (rewrite Z0; field; lra).
    assert (Zp : (0 <= z')%Q) by (rewrite Z0; apply Qle_shift_div_l; lra).
    rewrite (Qabs_pos z' Zp).
    assert (X : (0 <= 2 * m * (Qabs z - z))%Q) by (apply Qmult_le_0_compat; lra).
    assert (Y : (0 <= c * ((z - z') * (z - z')))%Q) by (apply Qmult_le_0_compat; [lra|apply sq_nonneg]).
    assert (Z1 : (w == 2 * c * z' + 2 * m)%Q) by lra. rewrite Z1. nra.
  - rewrite CC in Z0. assert (ZP : (2 * c * z' == w + 2 * m)%Q) by (rewrite Z0; field; lra).
    assert (Zp : (z' <= 0)%Q) by (rewrite Z0; apply Qle_shift_div_r; lra).
    rewrite (Qabs_neg z' Zp).
    assert (X : (0 <= 2 * m * (Qabs z + z))%Q) by (apply Qmult_le_0_compat; lra).
    assert (Y : (0 <= c * ((z - z') * (z - z')))%Q) by (apply Qmult_le_0_compat; [lra|apply sq_nonneg]).
    assert (Z1 : (w == 2 * c * z' - 2 * m)%Q) by lra. rewrite Z1. nra.
Qed.

Lemma sgn1_cases v : (0 <= v /\ sgn1 v = 1)%Q \/ (v < 0 /\ sgn1 v = -1)%Q.
Proof.
  unfold sgn1. destruct (Qle_bool 0 v) eqn:E; [left; apply Qle_bool_iff in E; auto|right; split; auto].
  apply Qnot_le_lt. intro H. apply Qle_bool_iff in H. congruence.
Qed.
Lemma cut_cases x : (0 <= x /\ cut x = x)%Q \/ (x < 0 /\ cut x = 0)%Q.
Proof.
  unfold cut. destruct (Qle_bool 0 x) eqn:E; [left; apply Qle_bool_iff in E; auto|right; split; auto].
  apply Qnot_le_lt. intro H. apply Qle_bool_iff in H. congruence.
Qed.

Lemma div_lt a b c : (0 < c)%Q -> (a / c < b -> a < b * c)%Q.
Proof. intros C H. apply Qmult_lt_r with (z := c) in H; auto. rewrite Qmult_comm, Qmult_div_r in H by lra. exact H. Qed.

Lemma bmdr_z_least rho t d : (0 <= rho)%Q -> forall z, (coord 1 rho t d (bmdr_z rho t d) <= coord 1 rho t d z)%Q.
Proof.
  intro R. apply coord_least; [lra|assert (0 <= rho / 2)%Q by (apply Qle_shift_div_l; lra); lra|]. cbn zeta. unfold bmdr_z.
  set (w := (rho * t - d)%Q). set (v := (w / (rho + 2))%Q).
  assert (V : (w == v * (rho + 2))%Q) by (unfold v; field; lra).
  assert (I : (2 / (rho + 2) * (rho + 2) == 2)%Q) by (field; lra). set (ita := (2 / (rho + 2))%Q) in *.
  destruct (sgn1_cases v) as [[V0 ->]|[V0 ->]].
  - pose proof (Qabs_pos v V0) as AV. destruct (cut_cases (Qabs v - ita)) as [[C0 E]|[C0 E]]; rewrite E; rewrite AV in C0.
    + destruct (Qlt_le_dec 2 w) as [W|W].
      * right; left. split; [lra|]. rewrite AV. unfold v, ita. field. lra.
      * left. assert (VI : (v == ita)%Q) by nra. rewrite AV. split; [lra|]. split; [nra|]. lra.
    + left. split; [nra|]. split; [nra|]. ring.
  - pose proof (Qabs_neg v ltac:(lra)) as AV. destruct (cut_cases (Qabs v - ita)) as [[C0 E]|[C0 E]]; rewrite E; rewrite AV in C0.
    + destruct (Qlt_le_dec w (- (2))) as [W|W].
      * right; right. split; [lra|]. rewrite AV. unfold v, ita. field. lra.
      * left. assert (VI : (v == - ita)%Q) by nra. rewrite AV. split; [nra|]. split; [lra|]. lra.
    + left. split; [nra|]. split; [nra|]. ring.
Qed.

Lemma sign_cases v : (v == 0 /\ sign v = 0)%Q \/ (0 < v /\ sign v = 1)%Q \/ (v < 0 /\ sign v = -1)%Q.
Proof.
  unfold sign. destruct (Qeq_bool v 0) eqn:E; [left; split; [apply Qeq_bool_iff, E|reflexivity]|right].
  assert (N : ~ (v == 0)%Q) by (intro H; apply Qeq_bool_iff in H; congruence).
  destruct (sgn1_cases v) as [[H ->]|[H ->]]; [left; split; [lra|reflexivity]|right; auto].
Qed.

Lemma spal_z_least num rho m t d : (0 <= m)%Q -> (let k := sqrt num (m + rho / 2) in 0 < k /\ k * k == m + rho / 2)%Q ->
  forall z, (coord m rho t d (spal_z num rho m t d) <= coord m rho t d z)%Q.
Proof.
  cbn zeta. intros M [K0 KK]. unfold spal_z. set (k := sqrt num (m + rho / 2)%Q) in *. pose proof (sq_nonneg k) as KP.
  assert (C0 : (0 < m + rho / 2)%Q) by nra.
  apply coord_least; [exact M|exact C0|]. cbn zeta.
  set (w := (rho * t - d)%Q). set (v := (w / (2 * k))%Q). set (ci := (m / k)%Q).
  assert (V : (w == v * (2 * k))%Q) by (unfold v; field; lra).
  assert (I : (ci * k == m)%Q) by (unfold ci; field; lra).
  assert (D : (2 * m + rho == 2 * (k * k))%Q) by (rewrite KK; field).
  destruct (sign_cases v) as [[V0 ->]|[[V0 ->]|[V0 ->]]].
  - left. assert (W0 : (w == 0)%Q) by (rewrite V, V0; ring). split; [lra|]. split; [lra|]. field. lra.
  - pose proof (Qabs_pos v ltac:(lra)) as AV. destruct (cut_cases (Qabs v - ci)) as [[P E]|[P E]]; rewrite E; rewrite AV in P.
    + destruct (Qlt_le_dec (2 * m) w) as [W|W].
      * right; left. split; [exact W|]. rewrite AV, D. rewrite V, <- I. field. lra.
      * left. assert (VI : (v == ci)%Q) by nra. rewrite AV. split; [lra|]. split; [nra|]. rewrite VI. field. lra.
    + left. split; [nra|]. split; [nra|]. field. lra.
  - pose proof (Qabs_neg v ltac:(lra)) as AV. destruct (cut_cases (Qabs v - ci)) as [[P E]|[P E]]; rewrite E; rewrite AV in P.
    + destruct (Qlt_le_dec w (- (2 * m))) as [W|W].
      * right; right. split; [exact W|]. rewrite AV, D. rewrite V, <- I. field. lra.
      * left. assert (VI : (v == - ci)%Q) by nra. rewrite AV. split; [nra|]. split; [lra|]. rewrite VI. field. lra.
    + left. split; [nra|]. split; [nra|]. field. lra.
Qed.

(** ** All coordinates *)
Section Values.
Variables (K : list (list Q)) (gamma rho : Q) (y L : list Z) (x : list Q).

Definition zpart (cols : list Z) (ws z delta : list Q) : Q :=
  (total (map (fun p => fst p * (square (snd p) + 2 * Qabs (snd p))) (combine ws z))
   + total (map (fun p => fst p * (fst (snd p) - predicts K (combine L x) (snd (snd p)))) (combine delta (combine z cols)))
   + rho / 2 * total (map (fun p => square (fst p - predicts K (combine L x) (snd p))) (combine z cols)))%Q.

Lemma lagrangian_z cols ws z delta :
  (lagrangian K gamma rho y L cols ws x z delta ==
   total (map (fun i => square (inject_Z (nth (Z.to_nat i) y 0%Z) - predicts K (combine L x) i)) L)
   + gamma * energy K (combine L x) (combine L x) + zpart cols ws z delta)%Q.
Proof. unfold lagrangian, zpart. ring. Qed.

Lemma zpart_cons c cols w ws a z d delta :
  (zpart (c :: cols) (w :: ws) (a :: z) (d :: delta) == coord w rho (predicts K (combine L x) c) d a + zpart cols ws z delta)%Q.
Proof. unfold zpart. cbn [combine map]. rewrite !total_cons. cbn [fst snd]. unfold coord, square. ring. Qed.

Lemma coord_comp m t t' d a : (t == t')%Q -> (coord m rho t d a == coord m rho t' d a)%Q.
Proof. intro H. unfold coord. rewrite H. reflexivity. Qed.

Lemma values_least upd cols : forall ws t delta, length ws = length cols -> length delta = length cols -> says K L x cols t ->
  (forall w t d, In w ws -> forall a, (coord w rho t d (upd w t d) <= coord w rho t d a)%Q) ->
  let z' := map2 (fun wt d => upd (fst wt) (snd wt) d) (combine ws t) delta in
  length z' = length cols /\ forall z, length z = length cols -> (zpart cols ws z' delta <= zpart cols ws z delta)%Q.
Proof.
  cbn zeta. induction cols as [|c cols IH]; intros [|w ws] t [|d delta] LW LD S H; try discriminate; inversion S as [|? v ? t' SV S']; subst.
  - split; [reflexivity|]. intros [|? ?] E; [apply Qle_refl|discriminate].
  - destruct (IH ws t' delta ltac:(cbn in LW; lia) ltac:(cbn in LD; lia) S' ltac:(intros; apply H; right; auto)) as [L' Q'].
    unfold map2 in *. cbn [combine map]. cbn [fst snd]. split; [cbn [length]; lia|].
    intros [|a z] E; [discriminate|]. rewrite !zpart_cons. specialize (Q' z ltac:(cbn in E; lia)).
    pose proof (H w v d (or_introl eq_refl) a) as HA. rewrite !(coord_comp w v _ d) in HA by exact SV. lra.
Qed.
End Values.

(** ** The model *)
Section Model.
Variables (K : list (list Q)) (gamma rho : Q) (y L cols : list Z) (ws z delta : list Q).
Hypothesis sym : mirrored K.
Hypothesis psd : semidefinite K L.
Hypotheses (g0 : (0 <= gamma)%Q) (r0 : (0 <= rho)%Q).
Hypotheses (lz : length z = length cols) (ld : length delta = length cols).
Let n := length L.
Let m := length cols.
Let k (i j : nat) : Q := entry K (nth i L 0) (nth j L 0).
Let bb (i c : nat) : Q := entry K (nth i L 0) (nth c cols 0).
Let yy (i : nat) : Q := inject_Z (nth (Z.to_nat (nth i L 0)) y 0).

Lemma predicts_sum x j : length x = n -> (predicts K (combine L x) j == sum n (fun i => nth i x 0 * entry K (nth i L 0%Z) j))%Q.
Proof.
  clear. intro E. unfold predicts. rewrite (total_sum (0, 0%Q)). rewrite combine_length, E, Nat.min_id. apply sum_ext. intros i _.
  rewrite combine_nth by (unfold n in E; lia). reflexivity.
Qed.
Lemma energy_sum x : length x = n -> (energy K (combine L x) (combine L x) == quad n k (fun i => nth i x 0))%Q.
Proof.
  clear. intro E. unfold energy, quad. rewrite (total_sum (0, 0%Q)). rewrite combine_length, E, Nat.min_id. apply sum_ext. intros i _.
  rewrite (total_sum (0, 0%Q)). rewrite combine_length, E, Nat.min_id. apply sum_ext. intros j _.
  rewrite !combine_nth by (unfold n in E; lia). reflexivity.
Qed.

Lemma lagrangian_F x : length x = n ->
  (lagrangian K gamma rho y L cols ws x z delta ==
   F n m k bb yy (fun c => nth c z 0) (fun c => nth c delta 0) gamma rho (fun i => nth i x 0) +
   total (map (fun p => fst p * (square (snd p) + 2 * Qabs (snd p))) (combine ws z)))%Q.
Proof.
  clear - lz ld. intro E. unfold lagrangian, F.
  assert (E1 : (total (map (fun i => square (inject_Z (nth (Z.to_nat i) y 0%Z) - predicts K (combine L x) i)) L) ==
    sum n (fun j => (yy j - lin n k (fun i => nth i x 0) j) * (yy j - lin n k (fun i => nth i x 0) j)))%Q).
  { rewrite (total_sum 0). apply sum_ext. intros j _. unfold square. rewrite predicts_sum by exact E. reflexivity. }
  assert (E2 : (total (map (fun p => fst p * (fst (snd p) - predicts K (combine L x) (snd (snd p)))) (combine delta (combine z cols))) ==
    sum m (fun c => nth c delta 0 * (nth c z 0 - lin n bb (fun i => nth i x 0) c)))%Q).
  { rewrite (total_sum (0%Q, (0%Q, 0))). rewrite !combine_length, lz, ld, !Nat.min_id. apply sum_ext. intros c _.
    rewrite combine_nth by (rewrite combine_length; lia). rewrite combine_nth by lia. cbn [fst snd]. rewrite predicts_sum by exact E. reflexivity. }
  assert (E3 : (total (map (fun p => square (fst p - predicts K (combine L x) (snd p))) (combine z cols)) ==
    sum m (fun c => (nth c z 0 - lin n bb (fun i => nth i x 0) c) * (nth c z 0 - lin n bb (fun i => nth i x 0) c)))%Q).
  { rewrite (total_sum (0%Q, 0)). rewrite !combine_length, lz, !Nat.min_id. apply sum_ext. intros c _.
    rewrite combine_nth by lia. cbn [fst snd]. unfold square. rewrite predicts_sum by exact E. reflexivity. }
  rewrite E1, E2, E3, energy_sum by exact E. ring.
Qed.

Lemma model_least x : length x = n ->
  (forall i, (i < n)%nat -> (G n m k bb yy (fun c => nth c z 0) (fun c => nth c delta 0) gamma rho (fun i => nth i x 0) i == 0)%Q) ->
  best_model K gamma rho y L cols ws x z delta.
Proof.
  intros E H. split; [exact E|]. intros w EW. rewrite !lagrangian_F by auto.
  assert (HF : (F n m k bb yy (fun c => nth c z 0) (fun c => nth c delta 0) gamma rho (fun i => nth i x 0) <=
                F n m k bb yy (fun c => nth c z 0) (fun c => nth c delta 0) gamma rho (fun i => nth i w 0))%Q); [|lra].
  apply F_least; auto.
  - intros i j _ _. apply sym.
  - intro d. specialize (psd (map d (seq 0 n))). rewrite energy_sum in psd by (rewrite map_length, seq_length; reflexivity).
    assert (EQ : (quad n k (fun i => nth i (map d (seq 0 n)) 0) == quad n k d)%Q).
    { assert (Hn : forall i, (i < n)%nat -> nth i (map d (seq 0 n)) 0%Q = d i).
      { intros i Hi. rewrite (nth_indep _ 0%Q (d 0%nat)) by (rewrite map_length, seq_length; exact Hi). rewrite map_nth, seq_nth by exact Hi. reflexivity. }
      apply sum_ext. intros i Hi. apply sum_ext. intros j Hj. rewrite !Hn by auto. reflexivity. }
    rewrite EQ in psd. exact psd.
Qed.

Lemma dot_sum a b : length b = length a -> (dot a b == sum (length a) (fun i => nth i a 0 * nth i b 0))%Q.
Proof.
  clear. intro E. unfold dot. rewrite (total_sum (0%Q, 0%Q)), combine_length, E, Nat.min_id. apply sum_ext. intros i _.
  rewrite combine_nth by lia. reflexivity.
Qed.
End Model.
