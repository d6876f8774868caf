(** Property C133: the steps of AFASMC's search follow the gradient, and the search for the step size ends. *)
From Verif Require Import Base ProxModel ProxSpec.
From Coq Require Import QArith Lqa Qfield Qround.
Local Open Scope Q_scope.

Lemma sumn_ext n f g : (forall i, (i < n)%nat -> f i == g i) -> sumn n f == sumn n g.
Proof. induction n as [|n IH]; intro H; cbn; [reflexivity|]. rewrite IH by (intros; apply H; lia). rewrite (H n) by lia. reflexivity. Qed.
Lemma sumn_plus n f g : sumn n (fun i => f i + g i) == sumn n f + sumn n g.
Proof. induction n as [|n IH]; cbn; [reflexivity|]. rewrite IH. ring. Qed.
Lemma sumn_scale n c f : sumn n (fun i => c * f i) == c * sumn n f.
Proof. induction n as [|n IH]; cbn; [ring|]. rewrite IH. ring. Qed.
Lemma sumn_le n f g : (forall i, (i < n)%nat -> f i <= g i) -> sumn n f <= sumn n g.
Proof. induction n as [|n IH]; intro H; cbn; [lra|]. assert (sumn n f <= sumn n g) by (apply IH; intros; apply H; lia). pose proof (H n ltac:(lia)). lra. Qed.
Lemma sq_nonneg (x : Q) : 0 <= x * x.
Proof. nra. Qed.
Lemma sumn_nonneg n f : (forall i, 0 <= f i) -> 0 <= sumn n f.
Proof. intro H. induction n as [|n IH]; cbn; [lra|]. pose proof (H n). lra. Qed.

Lemma cs_step A B S d w : 0 <= A -> 0 <= B -> S * S <= A * B -> 2 * (S * (d * w)) <= A * (w * w) + B * (d * d).
Proof.
  intros HA HB H. destruct (Qlt_le_dec 0 A) as [P|P].
  - assert (E : 0 <= A * (A * (w * w) + B * (d * d) - 2 * (S * (d * w)))).
    { assert (F : A * (A * (w * w) + B * (d * d) - 2 * (S * (d * w))) == (A * w - S * d) * (A * w - S * d) + (A * B - S * S) * (d * d)) by ring.
      rewrite F. pose proof (sq_nonneg (A * w - S * d)). assert (0 <= (A * B - S * S) * (d * d)) by (apply Qmult_le_0_compat; [lra|apply sq_nonneg]). lra. }
    destruct (Qlt_le_dec (A * (w * w) + B * (d * d) - 2 * (S * (d * w))) 0) as [N|N]; [|lra]. exfalso.
    assert (A * (A * (w * w) + B * (d * d) - 2 * (S * (d * w))) < 0) by nra. lra.
  - assert (A0 : A == 0) by lra. rewrite A0 in *. assert (S0 : S == 0).
    { pose proof (sq_nonneg S). assert (SS : S * S == 0) by lra. apply Qmult_integral in SS. tauto. }
    rewrite S0. assert (0 <= B * (d * d)) by (apply Qmult_le_0_compat; [auto|apply sq_nonneg]). lra.
Qed.
Lemma cauchy_schwarz n d w : sumn n (fun j => d j * w j) * sumn n (fun j => d j * w j) <= sumn n (fun j => d j * d j) * sumn n (fun j => w j * w j).
Proof.
  induction n as [|n IH]; cbn; [lra|].
  set (S := sumn n (fun j => d j * w j)) in *. set (A := sumn n (fun j => d j * d j)) in *. set (B := sumn n (fun j => w j * w j)) in *.
  assert (HA : 0 <= A) by (apply sumn_nonneg; intro; apply sq_nonneg). assert (HB : 0 <= B) by (apply sumn_nonneg; intro; apply sq_nonneg).
  pose proof (cs_step A B S (d n) (w n) HA HB IH). 
  assert (E1 : (S + d n * w n) * (S + d n * w n) == S * S + 2 * (S * (d n * w n)) + (d n * w n) * (d n * w n)) by ring.
  assert (E2 : (A + d n * d n) * (B + w n * w n) == A * B + (A * (w n * w n) + B * (d n * d n)) + (d n * w n) * (d n * w n)) by ring.
  rewrite E1, E2. lra.
Qed.

Section Facts.
  Variables (n m : nat) (mask X : mat) (y : nat -> Q) (lambda1 lam : Q) (svd : mat -> Q -> mat * Q) (sqrt : Q -> Q).
  Hypothesis MK : zero_one_mask mask.
  Notation the_loss := (loss n m mask X y lam).
  Notation reached := (searched n m mask X y lambda1 lam svd sqrt).
  Notation off_of := (off mask X).
  Notation dir := (direction m mask X y lam).

  Lemma mask_sq i j : mask i j * mask i j == mask i j.
  Proof. destruct (MK i j) as [E|E]; rewrite E; ring. Qed.

  Lemma masked s : reached s -> forall i j, t0 s i j == z0 s i j * mask i j /\ t1 s i j == z1 s i j * mask i j.
  Proof.
    induction 1 as [|fuel w b s s' c R IH E]; intros i j; [cbn; split; ring|]. unfold prox_step in E.
    destruct (line_search _ _ _ _ _ _ _ _ _ _ _ _ _) as [[[L Z] tr]|]; [|discriminate]. injection E as <- _. cbn. split; [apply IH|reflexivity].
  Qed.
  Lemma off_ok s : reached s -> forall i j, off_of s i j == mask i j * (point s i j - X i j).
  Proof. intros R i j. destruct (masked s R i j) as [E0 E1]. unfold off, point, X_obr. rewrite E0, E1. ring. Qed.

  Lemma ineqL_ok w b Z : ineqL n m mask X y lam w b Z == the_loss w b Z.
  Proof.
    unfold ineqL, loss, norm2, inner, total_of, residual.
    rewrite (sumn_ext n (fun i => sumn m (fun j => (Z i j * mask i j - X_obr mask X i j) * (Z i j * mask i j - X_obr mask X i j)))
                        (fun i => sumn m (fun j => mask i j * (Z i j - X i j) * (mask i j * (Z i j - X i j))))).
    - ring.
    - intros i _. apply sumn_ext. intros j _. unfold X_obr. ring.
  Qed.

  Lemma quadratic s w b D : reached s ->
    the_loss w b (plus (point s) D) == the_loss w b (point s) + inner n m (dir s w b) D +
      (norm2 n m (fun i j => mask i j * D i j) / 2 + lam * sumn n (fun i => sumn m (fun j => D i j * w j) * sumn m (fun j => D i j * w j))).
  Proof.
    intro R. unfold loss, norm2, inner, plus.
    assert (ROW : forall i,
      sumn m (fun j => mask i j * (point s i j + D i j - X i j) * (mask i j * (point s i j + D i j - X i j))) ==
      sumn m (fun j => mask i j * (point s i j - X i j) * (mask i j * (point s i j - X i j))) +
      2 * sumn m (fun j => off_of s i j * D i j) + sumn m (fun j => mask i j * D i j * (mask i j * D i j))).
    { intro i. rewrite <- sumn_scale, <- !sumn_plus. apply sumn_ext. intros j _. rewrite (off_ok s R i j).
      assert (E : 2 * (mask i j * (point s i j - X i j) * D i j) == 2 * (mask i j * mask i j) * ((point s i j - X i j) * D i j)) by (rewrite mask_sq; ring).
      rewrite E. ring. }
    assert (PRE : forall i, sumn m (fun j => (point s i j + D i j) * w j) == sumn m (fun j => point s i j * w j) + sumn m (fun j => D i j * w j)).
    { intro i. rewrite <- sumn_plus. apply sumn_ext. intros. ring. }
    assert (DIR : forall i, sumn m (fun j => dir s w b i j * D i j) ==
      sumn m (fun j => off_of s i j * D i j) + 2 * lam * (residual m y w b (point s) i * sumn m (fun j => D i j * w j))).
    { intro i. rewrite <- sumn_scale, <- sumn_scale, <- sumn_plus. apply sumn_ext. intros. unfold direction. ring. }
    rewrite (sumn_ext n _ _ (fun i _ => ROW i)), (sumn_ext n _ _ (fun i _ => DIR i)). rewrite !sumn_plus, !sumn_scale.
    rewrite (sumn_ext n (fun i => (sumn m (fun j => (point s i j + D i j) * w j) + b - y i) * (sumn m (fun j => (point s i j + D i j) * w j) + b - y i))
      (fun i => (sumn m (fun j => point s i j * w j) + b - y i) * (sumn m (fun j => point s i j * w j) + b - y i) +
                (2 * (residual m y w b (point s) i * sumn m (fun j => D i j * w j)) + sumn m (fun j => D i j * w j) * sumn m (fun j => D i j * w j)))).
    - rewrite !sumn_plus, sumn_scale. field.
    - intros i _. rewrite PRE. unfold residual. ring.
  Qed.

  Lemma remainder w D : 0 <= lam ->
    norm2 n m (fun i j => mask i j * D i j) / 2 + lam * sumn n (fun i => sumn m (fun j => D i j * w j) * sumn m (fun j => D i j * w j))
    <= curvature m lam w / 2 * norm2 n m D.
  Proof.
    intro HL. unfold curvature, norm2, inner. set (W := sumn m (fun j => w j * w j)).
    assert (A : sumn n (fun i => sumn m (fun j => mask i j * D i j * (mask i j * D i j))) <= sumn n (fun i => sumn m (fun j => D i j * D i j))).
    { apply sumn_le. intros i _. apply sumn_le. intros j _. assert (E : mask i j * D i j * (mask i j * D i j) == mask i j * mask i j * (D i j * D i j)) by ring.
      rewrite E, mask_sq. pose proof (sq_nonneg (D i j)). destruct (MK i j) as [K|K]; rewrite K; lra. }
    assert (B : sumn n (fun i => sumn m (fun j => D i j * w j) * sumn m (fun j => D i j * w j)) <= W * sumn n (fun i => sumn m (fun j => D i j * D i j))).
    { rewrite <- sumn_scale. apply sumn_le. intros i _. pose proof (cauchy_schwarz m (D i) w) as C. fold W in C. lra. }
    set (N := sumn n (fun i => sumn m (fun j => D i j * D i j))) in *. set (M := sumn n (fun i => sumn m (fun j => mask i j * D i j * (mask i j * D i j)))) in *.
    set (P := sumn n (fun i => sumn m (fun j => D i j * w j) * sumn m (fun j => D i j * w j))) in *.
    assert (LP : lam * P <= lam * (W * N)) by nra. assert (E : (1 + 2 * lam * W) / 2 * N == N / 2 + lam * (W * N)) by field. rewrite E.
    assert (M / 2 <= N / 2) by (unfold Qdiv; apply Qmult_le_compat_r; [auto|discriminate]). lra.
  Qed.

  Lemma ineqR_ok s w b Z L : reached s ->
    ineqR n m mask X y lam s w b Z L == the_loss w b (point s) + inner n m (dir s w b) (minus Z (point s)) + L / 2 * norm2 n m (minus Z (point s)).
  Proof.
    intro R. unfold ineqR, loss, norm2, inner, minus, total_of.
    rewrite (sumn_ext n (fun i => sumn m (fun j => off_of s i j * off_of s i j)) (fun i => sumn m (fun j => mask i j * (point s i j - X i j) * (mask i j * (point s i j - X i j))))).
    2: { intros i _. apply sumn_ext. intros j _. rewrite (off_ok s R i j). reflexivity. }
    rewrite (sumn_ext n (fun i => sumn m (fun j => dir s w b i j * (Z i j - point s i j)))
               (fun i => sumn m (fun j => dir s w b i j * Z i j) + (-1) * sumn m (fun j => dir s w b i j * point s i j))).
    2: { intros i _. rewrite <- sumn_scale, <- sumn_plus. apply sumn_ext. intros. ring. }
    rewrite sumn_plus, sumn_scale. unfold residual. ring.
  Qed.

  Lemma norm2_nonneg D : 0 <= norm2 n m D.
  Proof. unfold norm2, inner. apply sumn_nonneg. intro i. apply sumn_nonneg. intro j. apply sq_nonneg. Qed.
  Lemma loss_ext w b A B : (forall i j, A i j == B i j) -> the_loss w b A == the_loss w b B.
  Proof.
    intro H. unfold loss, norm2, inner.
    rewrite (sumn_ext n (fun i => sumn m (fun j => mask i j * (A i j - X i j) * (mask i j * (A i j - X i j)))) (fun i => sumn m (fun j => mask i j * (B i j - X i j) * (mask i j * (B i j - X i j))))).
    2: { intros i _. apply sumn_ext. intros j _. rewrite (H i j). reflexivity. }
    assert (E : forall i, sumn m (fun j => A i j * w j) == sumn m (fun j => B i j * w j)) by (intro i; apply sumn_ext; intros j _; rewrite (H i j); reflexivity).
    rewrite (sumn_ext n (fun i => (sumn m (fun j => A i j * w j) + b - y i) * (sumn m (fun j => A i j * w j) + b - y i)) (fun i => (sumn m (fun j => B i j * w j) + b - y i) * (sumn m (fun j => B i j * w j) + b - y i))).
    2: { intros i _. rewrite (E i). reflexivity. }
    reflexivity.
  Qed.
  Lemma accepted s w b Z L : reached s -> 0 <= lam -> curvature m lam w <= L -> ineqL n m mask X y lam w b Z <= ineqR n m mask X y lam s w b Z L.
  Proof.
    intros R HL C. rewrite ineqL_ok, (ineqR_ok s w b Z L R). set (D := minus Z (point s)).
    rewrite (loss_ext w b Z (plus (point s) D)) by (intros; unfold D, plus, minus; ring). rewrite (quadratic s w b D R).
    pose proof (remainder w D HL). pose proof (norm2_nonneg D). assert (curvature m lam w / 2 * norm2 n m D <= L / 2 * norm2 n m D).
    { apply Qmult_le_compat_r; [|auto]. unfold Qdiv. apply Qmult_le_compat_r; [auto|discriminate]. }
    lra.
  Qed.
End Facts.

(** (C133a) In every state of the search, the direction of the step is the gradient of the loss at the point the step starts from: the
    loss at any other array is the first order model plus a remainder, which is the squared size of the change where it is observed
    and in the predictions. *)
Theorem C133_gradient n m mask X y lambda1 lam svd sqrt s w b D :
  zero_one_mask mask -> searched n m mask X y lambda1 lam svd sqrt s ->
  loss n m mask X y lam w b (plus (point s) D) ==
    loss n m mask X y lam w b (point s) + inner n m (direction m mask X y lam s w b) D +
    (norm2 n m (fun i j => mask i j * D i j) / 2 + lam * sumn n (fun i => sumn m (fun j => D i j * w j) * sumn m (fun j => D i j * w j))).
Proof. intros MK R. exact (quadratic n m mask X y lambda1 lam svd sqrt MK s w b D R). Qed.
Print Assumptions C133_gradient.

Lemma search_found n m mask X y lambda1 lam svd fuel : forall s w b L L' Z tr,
  line_search n m mask X y lambda1 lam svd fuel s w b L = Some (L', Z, tr) ->
  (exists k, (k <= fuel)%nat /\ L' == L * inject_Z (2 ^ Z.of_nat k)) /\ try_step m mask X y lambda1 lam svd s w b L' = (Z, tr) /\
  ineqL n m mask X y lam w b Z <= ineqR n m mask X y lam s w b Z L'.
Proof.
  induction fuel as [|fuel IH]; intros s w b L L' Z tr E; cbn [line_search] in E; destruct (try_step m mask X y lambda1 lam svd s w b L) as [Z1 tr1] eqn:T;
    destruct (Qle_bool (ineqL n m mask X y lam w b Z1) (ineqR n m mask X y lam s w b Z1 L)) eqn:Q1; try discriminate.
  - injection E as <- <- <-. split; [exists O; split; [lia|cbn; ring]|]. split; [exact T|apply Qle_bool_iff, Q1].
  - injection E as <- <- <-. split; [exists O; split; [lia|cbn; ring]|]. split; [exact T|apply Qle_bool_iff, Q1].
  - destruct (IH _ _ _ _ _ _ _ E) as [[k [K1 K2]] R]. split; [|exact R]. exists (S k). split; [lia|]. rewrite K2, Nat2Z.inj_succ, Z.pow_succ_r by lia.
    rewrite inject_Z_mult. ring.
Qed.

Lemma pow_pos k : 1 <= inject_Z (2 ^ Z.of_nat k).
Proof. change 1 with (inject_Z 1). rewrite <- Zle_Qle. assert (0 < 2 ^ Z.of_nat k)%Z by (apply Z.pow_pos_nonneg; lia). lia. Qed.

Lemma L_positive n m mask X y lambda1 lam svd sqrt s : searched n m mask X y lambda1 lam svd sqrt s -> 2 <= bigL s.
Proof.
  induction 1 as [|fuel w b s s' c R IH E]; [cbn; lra|]. unfold prox_step in E.
  destruct (line_search n m mask X y lambda1 lam svd fuel s w b (bigL s)) as [[[L Z] tr]|] eqn:F; [|discriminate]. injection E as <- _. cbn.
  destruct (search_found _ _ _ _ _ _ _ _ _ _ _ _ _ _ _ _ F) as [[k [_ K]] _]. rewrite K. pose proof (pow_pos k). nra.
Qed.

(** (C133b) The array a step keeps is the thresholding of the gradient step of size 1/L, for an L that is the previous one doubled some
    number of times; the loss there is at most the quadratic model with that L; and the number recorded is the loss there plus the
    penalty the thresholding reports. *)
Theorem C133_step n m mask X y lambda1 lam svd sqrt fuel s w b s' c :
  zero_one_mask mask -> searched n m mask X y lambda1 lam svd sqrt s -> prox_step n m mask X y lambda1 lam svd sqrt fuel w b s = Some (s', c) ->
  let G := direction m mask X y lam s w b in
  let D := minus (z1 s') (point s) in
  (exists k, bigL s' == bigL s * inject_Z (2 ^ Z.of_nat k)) /\
  z1 s' = fst (svd (fun i j => point s i j - 1 / bigL s' * G i j) (lambda1 / bigL s')) /\
  loss n m mask X y lam w b (z1 s') <= loss n m mask X y lam w b (point s) + inner n m G D + bigL s' / 2 * norm2 n m D /\
  c == loss n m mask X y lam w b (z1 s') + lambda1 * snd (svd (fun i j => point s i j - 1 / bigL s' * G i j) (lambda1 / bigL s')).
Proof.
  intros MK R E. cbv zeta. unfold prox_step in E.
  destruct (line_search n m mask X y lambda1 lam svd fuel s w b (bigL s)) as [[[L Z] tr]|] eqn:F; [|discriminate]. injection E as <- <-. cbn [z1 bigL].
  destruct (search_found _ _ _ _ _ _ _ _ _ _ _ _ _ _ _ _ F) as [[k [_ K]] [T I]]. unfold try_step in T. rewrite T. cbn [fst snd].
  split; [exists k; exact K|]. split; [reflexivity|].
  rewrite (ineqL_ok n m mask X y lam), (ineqR_ok n m mask X y lambda1 lam svd sqrt s w b Z L R) in I. split; [exact I|].
  rewrite (ineqL_ok n m mask X y lam). reflexivity.
Qed.
Print Assumptions C133_step.

Lemma search_ends n m mask X y lambda1 lam svd sqrt s w b : zero_one_mask mask -> searched n m mask X y lambda1 lam svd sqrt s -> 0 <= lam ->
  forall fuel L U, 0 < L -> L <= U -> 2 * curvature m lam w <= U -> curvature m lam w <= L * inject_Z (2 ^ Z.of_nat fuel) ->
  exists L' Z tr, line_search n m mask X y lambda1 lam svd fuel s w b L = Some (L', Z, tr) /\ L' <= U.
Proof.
  intros MK R HL. induction fuel as [|fuel IH]; intros L U HP HU HC HF; cbn [line_search]; destruct (try_step m mask X y lambda1 lam svd s w b L) as [Z tr] eqn:T;
    destruct (Qle_bool (ineqL n m mask X y lam w b Z) (ineqR n m mask X y lam s w b Z L)) eqn:Q1; try (now exists L, Z, tr).
  - exfalso. assert (C : curvature m lam w <= L) by (change (inject_Z (2 ^ Z.of_nat 0)) with 1 in HF; lra). pose proof (accepted n m mask X y lambda1 lam svd sqrt MK s w b Z L R HL C) as A.
    apply Qle_bool_iff in A. congruence.
  - apply IH; [lra| |exact HC|].
    + destruct (Qlt_le_dec L (curvature m lam w)) as [C|C]; [lra|]. exfalso.
      pose proof (accepted n m mask X y lambda1 lam svd sqrt MK s w b Z L R HL C) as A. apply Qle_bool_iff in A. congruence.
    + rewrite Nat2Z.inj_succ, Z.pow_succ_r, inject_Z_mult in HF by lia. change (inject_Z 2) with 2 in HF. lra.
Qed.

(** (C133c) The search for the step size ends whatever the thresholding returns: after as many doublings as bring L to the curvature
    of the loss at the latest, so L is never more than twice that curvature unless it already was. *)
Theorem C133_ends n m mask X y lambda1 lam svd sqrt s w b fuel :
  zero_one_mask mask -> 0 <= lam -> searched n m mask X y lambda1 lam svd sqrt s -> curvature m lam w <= bigL s * inject_Z (2 ^ Z.of_nat fuel) ->
  exists s' c, prox_step n m mask X y lambda1 lam svd sqrt fuel w b s = Some (s', c) /\
    (bigL s' <= bigL s \/ bigL s' <= 2 * curvature m lam w).
Proof.
  intros MK HL R HF. pose proof (L_positive _ _ _ _ _ _ _ _ _ _ R) as P. unfold prox_step.
  destruct (Qlt_le_dec (bigL s) (2 * curvature m lam w)) as [C|C].
  - destruct (search_ends n m mask X y lambda1 lam svd sqrt s w b MK R HL fuel (bigL s) (2 * curvature m lam w)) as [L [Z [tr [E U]]]]; try lra.
    rewrite E. eexists _, _. split; [reflexivity|right; exact U].
  - destruct (search_ends n m mask X y lambda1 lam svd sqrt s w b MK R HL fuel (bigL s) (bigL s)) as [L [Z [tr [E U]]]]; try lra.
    rewrite E. eexists _, _. split; [reflexivity|left; exact U].
Qed.
Print Assumptions C133_ends.

(** (C133d) So no run of steps hangs: if the curvatures stay below a number, one bound on the doublings does for all the steps, and L
    stays below twice that number. *)
Theorem C133_run n m mask X y lambda1 lam svd sqrt C : zero_one_mask mask -> 0 <= lam ->
  exists enough, forall fuel models, (enough <= fuel)%nat -> (forall w b, In (w, b) models -> curvature m lam w <= C) ->
    exists s, prox_run n m mask X y lambda1 lam svd sqrt fuel models start = Some s /\ (bigL s <= 2 \/ bigL s <= 2 * C).
Proof.
  intros MK HL. exists (Z.to_nat (Qround.Qceiling C)). intros fuel models HF.
  assert (BIG : C <= inject_Z (2 ^ Z.of_nat fuel)).
  { apply Qle_trans with (inject_Z (Qround.Qceiling C)); [apply Qround.Qle_ceiling|]. rewrite <- Zle_Qle.
    assert (Z.of_nat fuel < 2 ^ Z.of_nat fuel)%Z by (apply Z.pow_gt_lin_r; lia). lia. }
  assert (GEN : forall ms s, searched n m mask X y lambda1 lam svd sqrt s -> (bigL s <= 2 \/ bigL s <= 2 * C) -> (forall w b, In (w, b) ms -> curvature m lam w <= C) ->
    exists s', prox_run n m mask X y lambda1 lam svd sqrt fuel ms s = Some s' /\ (bigL s' <= 2 \/ bigL s' <= 2 * C)).
  { induction ms as [|[w b] ms IH]; intros s R B H; cbn [prox_run]; [now exists s|].
    pose proof (L_positive _ _ _ _ _ _ _ _ _ _ R) as P. pose proof (H w b (or_introl eq_refl)) as Hw.
    destruct (C133_ends n m mask X y lambda1 lam svd sqrt s w b fuel MK HL R) as [s' [c [E U]]].
    { pose proof (pow_pos fuel). set (p := inject_Z (2 ^ Z.of_nat fuel)) in *. assert (2 * p <= bigL s * p) by (apply Qmult_le_compat_r; lra). lra. }
    rewrite E. apply IH; [exact (SStep _ _ _ _ _ _ _ _ _ _ _ _ _ _ _ R E)| |intros; apply (H w0 b0); now right]. destruct U, B; try (left; lra); right; lra. }
  intro H. apply GEN; [constructor|left; cbn; lra|exact H].
Qed.
Print Assumptions C133_run.

(** (C133e) When the thresholding returns the minimiser it stands for, the loss plus the weighted penalty at the array a step keeps is
    at most that at the point the step starts from. *)
Theorem C133_descent n m mask X y lambda1 lam svd sqrt penalty fuel s w b s' c :
  zero_one_mask mask -> 0 <= lambda1 -> proximal n m penalty svd ->
  searched n m mask X y lambda1 lam svd sqrt s -> prox_step n m mask X y lambda1 lam svd sqrt fuel w b s = Some (s', c) ->
  loss n m mask X y lam w b (z1 s') + lambda1 * penalty (z1 s') <= loss n m mask X y lam w b (point s) + lambda1 * penalty (point s).
Proof.
  intros MK H1 PX R E. pose proof (L_positive _ _ _ _ _ _ _ _ _ _ (SStep _ _ _ _ _ _ _ _ _ _ _ _ _ _ _ R E)) as P.
  destruct (C133_step _ _ _ _ _ _ _ _ _ _ _ _ _ _ _ MK R E) as [_ [Z [Q1 _]]]. set (G := direction m mask X y lam s w b) in *. set (L := bigL s') in *.
  set (V := fun i j => point s i j - 1 / L * G i j) in *. assert (T0 : 0 <= lambda1 / L).
  { unfold Qdiv. apply Qmult_le_0_compat; [auto|]. apply Qinv_le_0_compat. lra. }
  pose proof (PX V (lambda1 / L) (point s) T0) as M. rewrite <- Z in M.
  assert (EX : forall A, norm2 n m (minus A V) == norm2 n m (minus A (point s)) + 2 / L * inner n m G (minus A (point s)) + 1 / (L * L) * norm2 n m G).
  { intro A. unfold norm2, inner, minus. rewrite <- !sumn_scale, <- !sumn_plus. apply sumn_ext. intros i _. rewrite <- !sumn_scale, <- !sumn_plus. apply sumn_ext.
    intros j _. unfold V. field. lra. }
  rewrite !EX in M. assert (N0 : norm2 n m (minus (point s) (point s)) == 0 /\ inner n m G (minus (point s) (point s)) == 0).
  { unfold norm2, inner, minus. assert (Z0 : forall k, sumn k (fun _ => 0) == 0) by (induction k; cbn; lra). split.
    - rewrite (sumn_ext n _ (fun _ => 0)); [apply Z0|]. intros i _. rewrite (sumn_ext m _ (fun _ => 0)); [apply Z0|]. intros. ring.
    - rewrite (sumn_ext n _ (fun _ => 0)); [apply Z0|]. intros i _. rewrite (sumn_ext m _ (fun _ => 0)); [apply Z0|]. intros. ring. }
  destruct N0 as [N0 N1]. rewrite N0, N1 in M.
  set (d := norm2 n m (minus (z1 s') (point s))) in *. set (g := inner n m G (minus (z1 s') (point s))) in *. set (gg := norm2 n m G) in *.
  assert (M2 : L * ((d + 2 / L * g + 1 / (L * L) * gg) / 2 + lambda1 / L * penalty (z1 s')) <= L * ((0 + 2 / L * 0 + 1 / (L * L) * gg) / 2 + lambda1 / L * penalty (point s))).
  { apply Qmult_le_l; [lra|exact M]. }
  assert (A1 : L * ((d + 2 / L * g + 1 / (L * L) * gg) / 2 + lambda1 / L * penalty (z1 s')) == L / 2 * d + g + gg / (2 * L) + lambda1 * penalty (z1 s')) by (field; lra).
  assert (A2 : L * ((0 + 2 / L * 0 + 1 / (L * L) * gg) / 2 + lambda1 / L * penalty (point s)) == gg / (2 * L) + lambda1 * penalty (point s)) by (field; lra).
  rewrite A1, A2 in M2. lra.
Qed.
Print Assumptions C133_descent.

(** A concrete search: two rows, two columns, one entry of each row observed; the penalty is half the squared norm, whose minimiser
    divides by 1 + t.  The first step needs two doublings: L goes from 2 to 8. *)
Definition ex_mask : mat := fun i j => if Nat.eqb i j then 1 else 0.
Definition ex_X : mat := fun i j => inject_Z (Z.of_nat (i + 2 * j + 1)).
Definition ex_y : nat -> Q := fun i => inject_Z (Z.of_nat i).
Definition ex_svd : mat -> Q -> mat * Q := fun V t => ((fun i j => V i j / (1 + t)), norm2 2 2 (fun i j => V i j / (1 + t)) / 2).
Definition ex_w : nat -> Q := fun _ => 1.
Notation ex_step := (prox_step 2 2 ex_mask ex_X ex_y 1 1 ex_svd (fun q => q)).
Example ex_mask_ok : zero_one_mask ex_mask.
Proof. intros i j. unfold ex_mask. destruct (Nat.eqb i j); [right|left]; reflexivity. Qed.
Example ex_proximal : proximal 2 2 (fun Z => norm2 2 2 Z / 2) ex_svd.
Proof.
  intros V t Z T. cbn [fst ex_svd]. 
  assert (ONE : forall v z, (v / (1 + t) - v) * (v / (1 + t) - v) + t * ((v / (1 + t)) * (v / (1 + t))) <= (z - v) * (z - v) + t * (z * z)).
  { intros v z. set (u := v / (1 + t)). assert (Ev : v == (1 + t) * u) by (unfold u; field; lra). rewrite Ev.
    assert (E : (z - (1 + t) * u) * (z - (1 + t) * u) + t * (z * z) - ((u - (1 + t) * u) * (u - (1 + t) * u) + t * (u * u)) == (1 + t) * ((z - u) * (z - u))) by ring.
    assert (0 <= (1 + t) * ((z - u) * (z - u))) by (apply Qmult_le_0_compat; [lra|apply sq_nonneg]). lra. }
  unfold norm2, inner, minus. cbn [sumn].
  pose proof (ONE (V 0%nat 0%nat) (Z 0%nat 0%nat)) as A. pose proof (ONE (V 0%nat 1%nat) (Z 0%nat 1%nat)) as B.
  pose proof (ONE (V 1%nat 0%nat) (Z 1%nat 0%nat)) as C. pose proof (ONE (V 1%nat 1%nat) (Z 1%nat 1%nat)) as D.
  repeat match goal with |- context [?v / (1 + t)] => let u := fresh "u" in set (u := v / (1 + t)) in *; clearbody u end.
  generalize dependent (V 0%nat 0%nat). generalize dependent (V 0%nat 1%nat). generalize dependent (V 1%nat 0%nat). generalize dependent (V 1%nat 1%nat).
  generalize (Z 0%nat 0%nat) (Z 0%nat 1%nat) (Z 1%nat 0%nat) (Z 1%nat 1%nat). intros. unfold Qdiv. change (/ 2) with (1 # 2). clear ONE. lra.
Qed.
Definition ex_L : option Q := match ex_step 3 ex_w 0 start with Some (s, _) => Some (Qred (bigL s)) | None => None end.
Definition ex_Z : option (list Q) := match ex_step 3 ex_w 0 start with Some (s, _) => Some (map (fun '(i, j) => Qred (z1 s i j)) [(0, 0); (0, 1); (1, 0); (1, 1)]%nat) | None => None end.
Example ex_found : ex_L = Some 8 /\ ex_Z = Some [1 # 9; 0; 2 # 9; 2 # 3].
Proof. split; vm_compute; reflexivity. Qed.
Example ex_next : match ex_step 3 ex_w 0 start with
                  | Some (s, _) => searched 2 2 ex_mask ex_X ex_y 1 1 ex_svd (fun q => q) s
                  | None => False
                  end.
Proof.
  destruct (ex_step 3 ex_w 0 start) as [[s c]|] eqn:E; [exact (SStep _ _ _ _ _ _ _ _ _ 3 ex_w 0 start s c (SStart _ _ _ _ _ _ _ _ _) E)|].
  assert (N : ex_L = None) by (unfold ex_L; rewrite E; reflexivity). vm_compute in N. discriminate.
Qed.
Example ex_enough : curvature 2 1 ex_w <= 2 * inject_Z (2 ^ Z.of_nat 3).
Proof. vm_compute. discriminate. Qed.
