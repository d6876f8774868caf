(** Multi-label QUIRE, MMC, Adaptive and the shared batch mode. *)
From Verif Require Import Base BaseFacts IndexModel IndexSpec IndexProofs MLModel MLSpec MLProofs MLProofs2 MLProofs3 MLProps MiscModel MiscSpec QueryModel
  QuerySpec QueryProofs QueryProofs5 MetricModel MLQueryModel MLQuerySpec MLQueryProofs.
From Coq Require Import QArith Qabs Qfield Lqa.
Local Open Scope Z_scope.

(** *** Multi-label QUIRE *)
Lemma zsort_insert_perm x l : Permutation (zsort_insert x l) (x :: l).
Proof.
  induction l as [|a l IH]; cbn; auto. destruct (x <=? a); auto. rewrite IH. apply perm_swap.
Qed.
Lemma zsort_perm l : Permutation (zsort l) l.
Proof. induction l as [|a l IH]; cbn; auto. rewrite zsort_insert_perm. now apply perm_skip. Qed.
Lemma zsort_insert_sorted x l : StronglySorted Z.le l -> StronglySorted Z.le (zsort_insert x l).
Proof.
  induction 1 as [|a l S IH F]; cbn; [repeat constructor|]. destruct (x <=? a) eqn:E.
  - constructor; [now constructor|]. constructor; [lia|]. eapply Forall_impl; [|exact F]. cbn. intros; lia.
  - constructor; auto. rewrite Forall_forall in *. intros b Hb. apply (Permutation_in _ (zsort_insert_perm x l)) in Hb.
    destruct Hb as [<-|Hb]; [lia|auto].
Qed.
Lemma zsort_sorted l : StronglySorted Z.le (zsort l).
Proof. induction l; cbn; [constructor|now apply zsort_insert_sorted]. Qed.

Lemma quire_ml_lemma pinv L y m Lab U l u : has_shape y (length y) m ->
  check_ml_ind (Z.of_nat (length y)) (Z.of_nat m) U = Ok u -> check_ml_ind (Z.of_nat (length y)) (Z.of_nat m) Lab = Ok l ->
  ml_reachable (Z.of_nat m) u -> ml_reachable (Z.of_nat m) l -> within (length y) u -> within (length y) l ->
  (2 <= ml_pool_len U)%nat -> pairs u <> [] ->
  exists us ss ys r i j,
    Permutation us (map (onedim_of (length y)) (pairs u)) /\ StronglySorted Z.le us /\
    Permutation ss (map (onedim_of (length y)) (pairs l)) /\ StronglySorted Z.le ss /\
    ys = map (fun p => nth (Z.to_nat (snd p)) (nth (Z.to_nat (fst p)) y []) 0%Q) (pairs l) /\
    let vals := map (quire_val (Z.of_nat (length y)) L us ss ys (pinv (map (fun a => map (kron_at (Z.of_nat (length y)) L a) us) us))) (range (length us)) in
    fl_argmin vals = Ok r /\ (r < length us)%nat /\ nth r us 0 = onedim_of (length y) (i, j) /\
    quire_ml pinv L y m Lab U = Ok (Chosen [IPair i j]) /\ In (i, j) (pairs u).
Proof.
  intros Hy HU HL Ru Rl Wu Wl Nu Pu. set (n := length y) in *.
  destruct (C07_onedim _ _ (Z.of_nat n) OrdF Ru ltac:(discriminate) Wu) as (u1 & E1 & D1 & N1 & R1).
  destruct (C07_onedim _ _ (Z.of_nat n) OrdF Rl ltac:(discriminate) Wl) as (s1 & E2 & D2 & N2 & R2).
  set (us := zsort u1). set (ss := zsort s1).
  set (ys := map (fun p => nth (Z.to_nat (snd p)) (nth (Z.to_nat (fst p)) y []) 0%Q) (pairs l)).
  set (LL := pinv (map (fun a => map (kron_at (Z.of_nat n) L a) us) us)).
  set (vals := map (quire_val (Z.of_nat n) L us ss ys LL) (range (length us))).
  assert (Pus : Permutation us (map (onedim_of n) (pairs u))). { unfold us. rewrite zsort_perm, D1. reflexivity. }
  assert (Lus : us <> []). { intro E. rewrite E in Pus. apply Permutation_nil in Pus. apply map_eq_nil in Pus. congruence. }
  destruct (fl_argmin_spec vals) as (r & Er & Lr & _).
  { unfold vals. intro E. apply map_eq_nil in E. unfold range in E. destruct us; [congruence|discriminate]. }
  unfold vals in Lr. rewrite map_length in Lr. unfold range in Lr. rewrite seq_length in Lr.
  assert (Ik : In (nth r us 0) (map (onedim_of n) (pairs u))). { apply (Permutation_in _ Pus). now apply nth_In. }
  apply in_map_iff in Ik. destruct Ik as ([i j] & Ek & Ip).
  exists us, ss, ys, r, i, j. split; auto. split; [apply zsort_sorted|].
  split; [unfold ss; rewrite zsort_perm, D2; reflexivity|]. split; [apply zsort_sorted|]. split; [reflexivity|]. cbn zeta.
  split; [exact Er|]. split; [exact Lr|]. split; [now symmetry|]. split; [|exact Ip].
  unfold quire_ml. replace (ml_pool_len U <=? 1)%nat with false by lia. fold n. rewrite HU, HL. cbn [bind]. rewrite E1, E2. cbn [bind].
  fold us ss.
  assert (EY : mapM (fun x => match x with
                         | IPair i j => r <- row_of y i ;;
                                        match py_index (length r) j with
                                        | Some p => py_nth r p | None => Err IndexErr end
                         | _ => Err IndexErr
                         end) (mcont l) = Ok ys).
  { pose proof (reachable_good _ _ Rl) as G. pose proof G as (_ & _ & _ & F & _). rewrite (pairs_map _ _ F).
    unfold ys. rewrite (mapM_map_ok _ pair_idx (fun p => nth (Z.to_nat (snd p)) (nth (Z.to_nat (fst p)) y []) 0%Q)); [reflexivity|].
    intros [a b] Hp. unfold pair_idx. cbn [fst snd]. pose proof (Wl _ Hp) as Wa. cbn in Wa. rewrite row_of_ok by exact Wa. cbn [bind].
    assert (Lrow : length (nth (Z.to_nat a) y []) = m) by (apply Hy, nth_In; fold n; lia).
    pose proof (good_range _ _ _ G Hp) as Rb. cbn in Rb. unfold py_index. rewrite Lrow.
    replace ((0 <=? b) && (b <? Z.of_nat m)) with true by lia. apply py_nth_default. lia. }
  rewrite EY. cbn [bind]. fold LL vals. rewrite Er. cbn [bind]. rewrite (py_nth_default 0) by exact Lr. cbn [bind]. rewrite <- Ek.
  unfold onedim_of. cbn [fst snd]. pose proof (Wu _ Ip) as Wi. cbn in Wi.
  rewrite Z.mod_add by lia. rewrite Z.div_add by lia. rewrite Z.mod_small, Z.div_small by lia. reflexivity.
Qed.

Lemma kron_pair K n p q : 0 <= fst p < Z.of_nat n -> 0 <= fst q < Z.of_nat n ->
  kron_at (Z.of_nat n) K (onedim_of n p) (onedim_of n q) = pair_kernel K p q.
Proof.
  intros Hp Hq. unfold kron_at, onedim_of, pair_kernel, mat_at.
  rewrite !Z.div_add by lia. rewrite !Z.mod_add by lia. rewrite !Z.div_small, !Z.mod_small by lia. reflexivity.
Qed.

(** The scalar identity behind the two-pair case: a, b, c the block of the two pairs. *)
Lemma two_inverse (a b c l00 l01 l10 l11 : Q) : (0 < a -> 0 < c -> b * b < a * c ->
  l00 * a + l01 * b == 1 -> l00 * b + l01 * c == 0 -> l10 * a + l11 * b == 0 -> l10 * b + l11 * c == 1 ->
  ~ l00 == 0 /\ l11 - (l01 * l01) / l00 == 1 / c)%Q.
Proof.
  intros Ha Hc Hd E1 E2 E3 E4. set (D := (a * c - b * b)%Q). assert (HD : (0 < D)%Q) by (unfold D; lra).
  assert (F0 : (l00 * D == c)%Q). { unfold D. setoid_replace (l00 * (a * c - b * b))%Q with (c * (l00 * a + l01 * b) - b * (l00 * b + l01 * c))%Q by ring. rewrite E1, E2. ring. }
  assert (F1 : (l11 * D == a)%Q). { unfold D. setoid_replace (l11 * (a * c - b * b))%Q with (a * (l10 * b + l11 * c) - b * (l10 * a + l11 * b))%Q by ring. rewrite E3, E4. ring. }
  assert (F2 : (l01 == - (l00 * b) / c)%Q). { field_simplify_eq; [|lra]. lra. }
  assert (N0 : ~ (l00 == 0)%Q). { intro E. rewrite E in F0. lra. }
  split; auto. assert (G0 : (l00 == c / D)%Q) by (field_simplify_eq; lra). assert (G1 : (l11 == a / D)%Q) by (field_simplify_eq; lra).
  assert (ND : ~ (D == 0)%Q) by lra. assert (Nc : ~ (c == 0)%Q) by lra.
  setoid_replace (l11 - l01 * l01 / l00)%Q with (l11 - l00 * (b * b) / (c * c))%Q by (rewrite F2; field; auto).
  rewrite G0, G1. setoid_replace (a / D - c / D * (b * b) / (c * c))%Q with ((a * c - b * b) / (D * c))%Q by (field; auto). fold D. field. auto.
Qed.

Lemma least_two (a b c Y0 Y1 s : Q) : (0 < c -> s * s == 1 -> forall z,
  a + s * (2 * Y0) - (Y1 + s * b) * (1 / c) * (Y1 + s * b) <= s * s * a + 2 * (s * z * b) + z * z * c + 2 * (s * Y0 + z * Y1))%Q.
Proof.
  intros Hc Hs z. set (w := (c * z + (Y1 + s * b))%Q).
  assert (E : (s * s * a + 2 * (s * z * b) + z * z * c + 2 * (s * Y0 + z * Y1) - (a + s * (2 * Y0) - (Y1 + s * b) * (1 / c) * (Y1 + s * b)) == w * w * (1 / c))%Q).
  { rewrite Hs. unfold w. field. lra. }
  assert (P : (0 <= w * w * (1 / c))%Q).
  { apply Qmult_le_0_compat; [|apply Qlt_le_weak, Qlt_shift_div_l; lra]. destruct (Qlt_le_dec w 0).
    - setoid_replace (w * w)%Q with ((- w) * (- w))%Q by ring. apply Qmult_le_0_compat; lra.
    - apply Qmult_le_0_compat; lra. }
  lra.
Qed.
