(** The two-pair case of multi-label QUIRE, batch mode, label ranking, MMC and Adaptive. *)
From Verif Require Import Base BaseFacts IndexModel IndexSpec IndexProofs MLModel MLSpec MLProofs MLProofs2 MLProofs3 MLProps MiscModel MiscSpec QueryModel
  QuerySpec QueryProofs QueryProofs2 QueryProofs5 MetricModel MLQueryModel MLQuerySpec MLQueryProofs MLQueryProofs3.
From Coq Require Import QArith Qabs Qfield Lqa.
Local Open Scope Z_scope.

Lemma qmax_max a b : (qmax a b == if Qle_bool a b then b else a)%Q.
Proof. unfold qmax. destruct (Qle_bool a b); reflexivity. Qed.

Lemma qsum_known K n (sps : list (Z * Z)) (ys : list Q) q : length ys = length sps ->
  (forall p, In p sps -> 0 <= fst p < Z.of_nat n) -> 0 <= fst q < Z.of_nat n ->
  qsum (map (fun e => fst e * kron_at (Z.of_nat n) K (snd e) (onedim_of n q))%Q (combine ys (map (onedim_of n) sps))) =
  fold_right Qplus 0%Q (map (fun e => fst e * pair_kernel K (snd e) q)%Q (combine ys sps)).
Proof.
  revert ys. induction sps as [|p sps IH]; intros [|y ys]; cbn [map combine length]; try discriminate; auto.
  intros E Hs Hq. unfold qsum in *. cbn [fold_right fst snd]. rewrite kron_pair by (auto; apply Hs; now left). f_equal.
  apply IH; auto. intros. apply Hs. now right.
Qed.

(** One evaluation in scalar form. *)
Lemma eval_two E i (a b c Y0 Y1 v : Q) :
  (0 < c)%Q -> (i < 2)%nat ->
  (forall s z, (E (if Nat.eqb i 0 then [s; z] else [z; s]) == s * s * a + 2 * (s * z * b) + z * z * c + 2 * (s * Y0 + z * Y1))%Q) ->
  (forall x y x' y', (x == x')%Q -> (y == y')%Q -> (E [x; y] == E [x'; y'])%Q) ->
  (v == qmax (a + (2 * Y0 - (Y1 + b) * (1 / c) * (Y1 + b))) (a + (- (2 * Y0) - (Y1 - b) * (1 / c) * (Y1 - b))))%Q ->
  evaluation E 2 i v.
Proof.
  intros Hc Hi HE Ext Hv.
  assert (L : forall s, (s * s == 1)%Q -> least_energy E 2 i s (a + s * (2 * Y0) - (Y1 + s * b) * (1 / c) * (Y1 + s * b))).
  { intros s Hs. split.
    - exists (if Nat.eqb i 0 then [s; (- (Y1 + s * b) / c)%Q] else [(- (Y1 + s * b) / c)%Q; s]).
      split; [destruct (Nat.eqb i 0); reflexivity|]. split.
      + destruct i as [|[|]]; cbn; try reflexivity. lia.
      + rewrite HE, Hs. field. lra.
    - intros z Lz Ez. destruct z as [|x [|y [|]]]; try discriminate.
      destruct i as [|[|]]; cbn in Ez; [| |lia].
      + rewrite (Ext x y s y Ez (Qeq_refl y)). rewrite (HE s y). apply least_two; auto.
      + rewrite (Ext x y x s (Qeq_refl x) Ez). rewrite (HE s x). apply least_two; auto. }
  exists (a + 1 * (2 * Y0) - (Y1 + 1 * b) * (1 / c) * (Y1 + 1 * b))%Q, (a + (-1) * (2 * Y0) - (Y1 + (-1) * b) * (1 / c) * (Y1 + (-1) * b))%Q.
  split; [apply L; reflexivity|]. split; [apply L; reflexivity|].
  rewrite Hv. rewrite <- qmax_max.
  assert (Q1 : forall x y x' y', (x == x')%Q -> (y == y')%Q -> (qmax x y == qmax x' y')%Q).
  { intros x y x' y' Hx Hy. unfold qmax. destruct (Qle_bool x y) eqn:A, (Qle_bool x' y') eqn:B; auto.
    - apply Qle_bool_iff in A. apply Qle_bool_false in B. lra.
    - apply Qle_bool_iff in B. apply Qle_bool_false in A. lra. }
  apply Q1; field; lra.
Qed.

Lemma quire_two K n p0 p1 sps ys LL i :
  let f a b := pair_kernel K (nth a [p0; p1] (0, 0)) (nth b [p0; p1] (0, 0)) in
  length ys = length sps -> (forall p, In p (p0 :: p1 :: sps) -> 0 <= fst p < Z.of_nat n) ->
  (f 0%nat 1%nat == f 1%nat 0%nat)%Q -> (0 < f 0%nat 0%nat)%Q -> (0 < f 1%nat 1%nat)%Q ->
  (f 0%nat 1%nat * f 0%nat 1%nat < f 0%nat 0%nat * f 1%nat 1%nat)%Q ->
  inverse_of LL 2 f -> (i < 2)%nat ->
  exists v, quire_val (Z.of_nat n) K (map (onedim_of n) [p0; p1]) (map (onedim_of n) sps) ys LL i = Num v /\
            evaluation (energy K [p0; p1] (combine ys sps)) 2 i v.
Proof.
  intros f Ly Rg Sy Pa Pc Pd Inv Hi.
  assert (R0 : 0 <= fst p0 < Z.of_nat n) by (apply Rg; now left).
  assert (R1 : 0 <= fst p1 < Z.of_nat n) by (apply Rg; right; now left).
  assert (Rs : forall p, In p sps -> 0 <= fst p < Z.of_nat n) by (intros; apply Rg; right; now right).
  unfold quire_val. cbn zeta. cbn [map length range]. unfold range. cbn [seq].
  pose (Y a := fold_right Qplus 0%Q (map (fun e => fst e * pair_kernel K (snd e) (nth a [p0; p1] (0, 0)%Z))%Q (combine ys sps))).
  assert (EY : forall a, (a < 2)%nat -> qsum (map (fun e => fst e * kron_at (Z.of_nat n) K (snd e) (nth a [onedim_of n p0; onedim_of n p1] 0%Z))%Q (combine ys (map (onedim_of n) sps))) = Y a).
  { intros [|[|]] Ha; [| |lia]; apply qsum_known; auto. }
  assert (EL : forall a b, (a < 2)%nat -> (b < 2)%nat -> kron_at (Z.of_nat n) K (nth a [onedim_of n p0; onedim_of n p1] 0%Z) (nth b [onedim_of n p0; onedim_of n p1] 0%Z) = f a b).
  { intros [|[|]] [|[|]] Ha Hb; try lia; apply kron_pair; auto. }
  pose proof (Inv 0 0 ltac:(lia) ltac:(lia))%nat as I00. pose proof (Inv 0 1 ltac:(lia) ltac:(lia))%nat as I01.
  pose proof (Inv 1 0 ltac:(lia) ltac:(lia))%nat as I10. pose proof (Inv 1 1 ltac:(lia) ltac:(lia))%nat as I11.
  unfold sum_over in *. cbn [seq map fold_right Nat.eqb] in I00, I01, I10, I11.
  fold (mat_at LL 0 0) (mat_at LL 0 1) in *. fold (mat_at LL 1 0) (mat_at LL 1 1) in *.
  assert (HEn : forall x y, (energy K [p0; p1] (combine ys sps) [x; y] == x * x * f 0%nat 0%nat + 2 * (x * y * f 0%nat 1%nat) + y * y * f 1%nat 1%nat + 2 * (x * Y 0%nat + y * Y 1%nat))%Q).
  { intros x y. unfold energy, sum_over. cbn [length seq map fold_right nth]. fold (Y 0%nat) (Y 1%nat).
    change (pair_kernel K p0 p0) with (f 0 0)%nat. change (pair_kernel K p0 p1) with (f 0 1)%nat.
    change (pair_kernel K p1 p0) with (f 1 0)%nat. change (pair_kernel K p1 p1) with (f 1 1)%nat.
    change (fold_right Qplus 0%Q (map (fun e => fst e * pair_kernel K (snd e) p0)%Q (combine ys sps))) with (Y 0%nat).
    change (fold_right Qplus 0%Q (map (fun e => fst e * pair_kernel K (snd e) p1)%Q (combine ys sps))) with (Y 1%nat).
    rewrite <- Sy. ring. }
  assert (Ext : forall x y x' y', (x == x')%Q -> (y == y')%Q ->
     (energy K [p0; p1] (combine ys sps) [x; y] == energy K [p0; p1] (combine ys sps) [x'; y'])%Q).
  { intros. rewrite !HEn. rewrite H, H0. reflexivity. }
  destruct i as [|[|]]; [| |lia].
  - cbn [filter Nat.eqb negb map]. rewrite (EY 0%nat), (EY 1%nat) by lia. rewrite (EL 0 0)%nat, (EL 0 1)%nat by lia.
    destruct (two_inverse (f 0 0)%nat (f 0 1)%nat (f 1 1)%nat (mat_at LL 0 0) (mat_at LL 0 1) (mat_at LL 1 0) (mat_at LL 1 1)) as (N0 & EI); auto; try lra.
    { rewrite Sy at 1. lra. } { rewrite Sy. lra. }
    destruct (Qeq_bool (mat_at LL 0 0) 0) eqn:Z0; [apply Qeq_bool_iff in Z0; contradiction|].
    eexists. split; [reflexivity|].
    apply (eval_two _ 0 (f 0 0)%nat (f 0 1)%nat (f 1 1)%nat (Y 0%nat) (Y 1%nat)); auto.
    + unfold qsum. cbn [fold_right].
      assert (EI' : (mat_at LL 1 1 - (- mat_at LL 0 1 * - mat_at LL 0 1 + 0) / mat_at LL 0 0 == 1 / f 1%nat 1%nat)%Q) by (rewrite <- EI; field; auto).
      rewrite !qmax_max. set (X1 := (_ + (_ - _))%Q). set (X2 := (_ + (- _ - _))%Q). set (Z1 := (_ + (_ - (Y 1%nat + _) * _ * _))%Q). set (Z2 := (_ + (- _ - (Y 1%nat - _) * _ * _))%Q).
      assert (EX1 : (X1 == Z1)%Q) by (unfold X1, Z1; rewrite EI'; ring). assert (EX2 : (X2 == Z2)%Q) by (unfold X2, Z2; rewrite EI'; ring).
      destruct (Qle_bool X1 X2) eqn:A, (Qle_bool Z1 Z2) eqn:B; auto.
      * apply Qle_bool_iff in A. apply Qle_bool_false in B. lra.
      * apply Qle_bool_iff in B. apply Qle_bool_false in A. lra.
  - cbn [filter Nat.eqb negb map]. rewrite (EY 0%nat), (EY 1%nat) by lia. rewrite (EL 1 1)%nat, (EL 1 0)%nat by lia.
    destruct (two_inverse (f 1 1)%nat (f 0 1)%nat (f 0 0)%nat (mat_at LL 1 1) (mat_at LL 1 0) (mat_at LL 0 1) (mat_at LL 0 0)) as (N0 & EI); auto; try lra.
    { rewrite Sy at 1. lra. } { rewrite Sy. lra. }
    destruct (Qeq_bool (mat_at LL 1 1) 0) eqn:Z0; [apply Qeq_bool_iff in Z0; contradiction|].
    eexists. split; [reflexivity|].
    apply (eval_two _ 1 (f 1 1)%nat (f 0 1)%nat (f 0 0)%nat (Y 1%nat) (Y 0%nat)); auto.
    + intros s z. cbn [Nat.eqb]. rewrite HEn. ring.
    + unfold qsum. cbn [fold_right].
      assert (EI' : (mat_at LL 0 0 - (- mat_at LL 1 0 * - mat_at LL 1 0 + 0) / mat_at LL 1 1 == 1 / f 0%nat 0%nat)%Q) by (rewrite <- EI; field; auto).
      rewrite !qmax_max. set (X1 := (_ + (_ - _))%Q). set (X2 := (_ + (- _ - _))%Q). set (Z1 := (_ + (_ - (Y 0%nat + _) * _ * _))%Q). set (Z2 := (_ + (- _ - (Y 0%nat - _) * _ * _))%Q).
      assert (EX1 : (X1 == Z1)%Q) by (unfold X1, Z1; rewrite EI', <- Sy; ring). assert (EX2 : (X2 == Z2)%Q) by (unfold X2, Z2; rewrite EI', <- Sy; ring).
      destruct (Qle_bool X1 X2) eqn:A, (Qle_bool Z1 Z2) eqn:B; auto.
      * apply Qle_bool_iff in A. apply Qle_bool_false in B. lra.
      * apply Qle_bool_iff in B. apply Qle_bool_false in A. lra.
Qed.

(** *** Batch mode *)
Lemma elems_len c : length (elems c) = ic_len c.
Proof. apply map_length. Qed.

Lemma update_one L v : WF L -> etype L = Some (key_ty (norm v)) ->
  exists w, ic_update L [v] = (fst (ic_add L v), Ok w) /\ WF (fst (ic_add L v)) /\ etype (fst (ic_add L v)) = etype L /\
  (forall k, In k (elems (fst (ic_add L v))) <-> In k (elems L) \/ k = norm v).
Proof.
  intros W E. destruct (acceptable_add L (key_ty (norm v)) v W) as (A1 & (w & A2) & A3).
  { unfold acceptable. rewrite E. auto. }
  exists (w ++ []). unfold ic_update, ic_loop. destruct (ic_add L v) as [c1 r] eqn:Ea. cbn [fst snd] in *. subst r.
  split; auto. split; [|split; [congruence|auto]]. pose proof (WF_add L v W) as X. now rewrite Ea in X.
Qed.

Lemma diff_one U v : WF U -> In (norm v) (elems U) ->
  exists U' w, ic_difference_update U [v] = (U', Ok w) /\ WF U' /\ S (ic_len U') = ic_len U /\
  (forall k, In k (elems U') <-> In k (elems U) /\ k <> norm v) /\ (forall x, In x (cont U') -> In x (cont U)).
Proof.
  intros W Hv. destruct (discard_effect U v W) as (A1 & (w & A2) & A3).
  exists (fst (ic_discard U v)), (w ++ []). unfold ic_difference_update, ic_loop. destruct (ic_discard U v) as [c1 r] eqn:Ea.
  cbn [fst snd] in *. subst r. split; auto. pose proof (WF_discard U v W) as X. rewrite Ea in X. cbn in X. split; auto. split.
  - rewrite <- !elems_len. apply Nat.le_antisymm.
    + assert (NI : ~ In (norm v) (elems c1)) by (rewrite A3; intuition).
      apply (NoDup_incl_length (l := norm v :: elems c1)); [constructor; auto; apply X|].
      intros k [<-|Hk]; auto. now apply A3 in Hk.
    + change (S (length (elems c1))) with (length (norm v :: elems c1)). apply NoDup_incl_length; [apply W|].
      intros k Hk. destruct (key_dec k (norm v)) as [->|N]; [now left|right; now apply A3].
  - split; auto. unfold ic_discard in Ea. destruct (ic_contains v U); injection Ea as <- <-; auto. cbn. apply remove_first_sub.
Qed.

Lemma batch_loop_lemma ask T : (forall i L U, (2 <= ic_len U)%nat -> exists p, ask i L U = Ok p /\ (p < ic_len U)%nat) ->
  forall k i L U got, WF L -> WF U -> etype L = Some T -> (forall x, In x (elems U) -> key_ty x = T) -> (k < ic_len U)%nat ->
  exists sel L' U', batch_loop ask i k L U got = ((L', U'), Ok (got ++ sel)) /\
    length sel = k /\ NoDup (map norm sel) /\ (forall v, In v sel -> In v (cont U)) /\
    (forall x, In x (elems L') <-> In x (elems L) \/ In x (map norm sel)) /\
    (forall x, In x (elems U') <-> In x (elems U) /\ ~ In x (map norm sel)).
Proof.
  intros Ha. induction k as [|k IH]; intros i L U got WL WU EL TU Hk.
  - exists [], L, U. cbn. rewrite app_nil_r. repeat split; auto; try constructor; intuition.
  - cbn [batch_loop]. destruct (Ha i L U ltac:(lia)) as (p & Ep & Lp). rewrite Ep.
    destruct (nth_error (cont U) p) as [v|] eqn:Ev; [|apply nth_error_None in Ev; unfold ic_len in Lp; lia].
    assert (Iv : In v (cont U)) by (eapply nth_error_In; eauto).
    assert (Ik : In (norm v) (elems U)) by (apply in_map; auto).
    destruct (update_one L v WL) as (w & Eu & WL1 & EL1 & ML1). { rewrite EL. f_equal. symmetry. apply TU; auto. }
    rewrite Eu. destruct (diff_one U v WU Ik) as (U1 & w' & Ed & WU1 & LU1 & MU1 & SU1). rewrite Ed.
    destruct (IH (S i) (fst (ic_add L v)) U1 (got ++ [v])) as (sel & L' & U' & E & Ls & Ns & Is & ML & MU); auto; try lia; [congruence|..].
    { intros x Hx. apply TU. now apply MU1 in Hx. }
    exists (v :: sel), L', U'. rewrite E. rewrite <- app_assoc. split; [reflexivity|]. cbn [length map]. split; [lia|]. split.
    + constructor; auto. intro X. apply in_map_iff in X. destruct X as (x & Ex & Hx). apply Is in Hx.
      assert (In (norm x) (elems U1)) by now apply in_map. apply MU1 in H. intuition.
    + split; [|split].
      * intros x [<-|Hx]; auto.
      * intro x. rewrite ML, ML1. cbn [In]. intuition.
      * intro x. rewrite MU, MU1. cbn [In]. intuition.
Qed.

(** *** MMC and Adaptive *)
Lemma range_in n k : In k (range n) <-> (k < n)%nat.
Proof. unfold range. rewrite in_seq. lia. Qed.

Lemma where_in v l k : In k (where_eq v l) <-> (k < length l)%nat /\ fl_eqb (nth k l NaN) v = true.
Proof. unfold where_eq. rewrite filter_In, range_in. reflexivity. Qed.

Lemma choice_lemma c : c <> [] -> (forall draw, exists x, choice draw c = Ok x /\ In x c) /\
  (forall x, In x c -> exists draw, (draw < length c)%nat /\ choice draw c = Ok x).
Proof.
  intro N. assert (Lc : (0 < length c)%nat) by (destruct c; [congruence|cbn; lia]). split.
  - intro d. unfold choice. destruct (nth_error c (d mod length c)) eqn:E.
    + exists n. split; auto. eapply nth_error_In; eauto.
    + apply nth_error_None in E. pose proof (Nat.mod_upper_bound d (length c)). lia.
  - intros x Hx. apply In_nth_error in Hx. destruct Hx as (d & Hd). exists d.
    assert (d < length c)%nat by (apply nth_error_Some; congruence). split; auto.
    unfold choice. rewrite Nat.mod_small by lia. now rewrite Hd.
Qed.

Lemma max_fold l : forall a, a <> NaN -> (forall x, In x l -> x <> NaN) ->
  let v := fold_left (fun a b => if fl_lt a b then b else a) l a in
  (v = a \/ In v l) /\ fl_lt v a = false /\ forall x, In x l -> fl_lt v x = false.
Proof.
  induction l as [|b l IH]; intros a Na Nl; cbn [fold_left]; cbn zeta.
  - split; auto. split; [apply fl_lt_irrefl|intros x []].
  - destruct (fl_lt a b) eqn:E.
    + destruct (IH b) as (H1 & H2 & H3). { apply Nl; now left. } { intros; apply Nl; now right. }
      split; [destruct H1 as [->|H1]; [right; now left|right; now right]|]. split.
      * apply (fl_nlt_trans a b _); auto; [apply Nl; now left|now apply fl_lt_asym].
      * intros x [<-|Hx]; auto.
    + destruct (IH a) as (H1 & H2 & H3); auto. { intros; apply Nl; now right. }
      split; [destruct H1 as [->|H1]; [now left|right; now right]|]. split; auto.
      intros x [<-|Hx]; auto. apply (fl_nlt_trans b a _); auto.
Qed.

Lemma fl_eqb_le a b : a <> NaN -> b <> NaN -> (fl_eqb a b = true <-> fl_lt a b = false /\ fl_lt b a = false).
Proof.
  destruct a as [x|[|]|], b as [y|[|]|]; try congruence; intros _ _; cbn; try (split; [discriminate|intros [? ?]; discriminate]); try (split; auto; fail).
  rewrite !negb_false_iff, !Qle_bool_iff. rewrite Qeq_bool_iff. split; [intro E; rewrite E; split; apply Qle_refl|]. intros [A B]. now apply Qle_antisym.
Qed.

Lemma no_nan l : existsb is_nan l = false <-> forall x, In x l -> x <> NaN.
Proof.
  split.
  - intros H x Hx ->. assert (existsb is_nan l = true) by (apply existsb_exists; exists NaN; auto). congruence.
  - intro H. destruct (existsb is_nan l) eqn:E; auto. apply existsb_exists in E. destruct E as ([ | | ] & Hx & E); try discriminate. now destruct (H NaN Hx).
Qed.

Lemma where_max l k : In k (where_eq (fl_max l) l) <-> best_at l k.
Proof.
  rewrite where_in. unfold best_at, fl_max. destruct (existsb is_nan l) eqn:E.
  - split; [intros [_ H]; destruct (nth k l NaN); discriminate|]. intros (_ & H & _). pose proof (proj2 (no_nan l) H). congruence.
  - pose proof (proj1 (no_nan l) E) as E'. clear E. rename E' into E. destruct (max_fold l (Inf true)) as (M1 & M2 & M3); auto; [discriminate|].
    set (v := fold_left _ l (Inf true)) in *.
    assert (Nv : v <> NaN). { destruct M1 as [->|M1]; [discriminate|auto]. }
    split.
    + intros (Lk & H). assert (Nk : nth k l NaN <> NaN) by (apply E, nth_In; auto). apply fl_eqb_le in H; auto. split; auto. split; auto.
      intros x Hx. apply (fl_nlt_trans x v _); auto; tauto.
    + intros (Lk & _ & H). split; auto. assert (Nk : nth k l NaN <> NaN) by (apply E, nth_In; auto). apply fl_eqb_le; auto. split.
      * destruct M1 as [->|M1]; [destruct (nth k l NaN) as [|[|]|]; reflexivity|auto].
      * apply M3, nth_In; auto.
Qed.

Lemma min_fold l : forall a, a <> NaN -> (forall x, In x l -> x <> NaN) ->
  let v := fold_left (fun a b => if fl_lt b a then b else a) l a in
  (v = a \/ In v l) /\ fl_lt a v = false /\ forall x, In x l -> fl_lt x v = false.
Proof.
  induction l as [|b l IH]; intros a Na Nl; cbn [fold_left]; cbn zeta.
  - split; auto. split; [apply fl_lt_irrefl|intros x []].
  - destruct (fl_lt b a) eqn:E.
    + destruct (IH b) as (H1 & H2 & H3). { apply Nl; now left. } { intros; apply Nl; now right. }
      split; [destruct H1 as [->|H1]; [right; now left|right; now right]|]. split.
      * apply (fl_nlt_trans _ b a); auto; [apply Nl; now left|now apply fl_lt_asym].
      * intros x [<-|Hx]; auto.
    + destruct (IH a) as (H1 & H2 & H3); auto. { intros; apply Nl; now right. }
      split; [destruct H1 as [->|H1]; [now left|right; now right]|]. split; auto.
      intros x [<-|Hx]; auto. apply (fl_nlt_trans _ a b); auto.
Qed.

Lemma where_min (l : list Q) k : In k (where_eq (fl_min (map Num l)) (map Num l)) <->
  (k < length l)%nat /\ forall j, (j < length l)%nat -> (nth k l 0 <= nth j l 0)%Q.
Proof.
  rewrite where_in, map_length. unfold fl_min.
  assert (E : forall x, In x (map Num l) -> x <> NaN). { intros x Hx. apply in_map_iff in Hx. destruct Hx as (q & <- & _). discriminate. }
  rewrite (proj2 (no_nan _) E). destruct (min_fold (map Num l) (Inf false)) as (M1 & M2 & M3); auto; [discriminate|].
  set (v := fold_left _ (map Num l) (Inf false)) in *.
  assert (Nv : v <> NaN). { destruct M1 as [->|M1]; [discriminate|auto]. }
  assert (Nk : forall j, (j < length l)%nat -> nth j (map Num l) NaN = Num (nth j l 0%Q)).
  { intros j Hj. rewrite (nth_indep _ NaN (Num 0%Q)) by (now rewrite map_length). apply map_nth. }
  split; intros (Lk & H); split; auto.
  - rewrite Nk in H by auto. apply fl_eqb_le in H; auto; [|discriminate]. intros j Hj.
    assert (X : fl_lt (Num (nth j l 0%Q)) (Num (nth k l 0%Q)) = false).
    { apply (fl_nlt_trans _ v _); auto; [tauto|]. apply M3. rewrite <- Nk by auto. apply nth_In. now rewrite map_length. }
    cbn in X. now apply negb_false_iff, Qle_bool_iff in X.
  - rewrite Nk by auto. apply fl_eqb_le; auto; [discriminate|]. split.
    + apply M3. rewrite <- Nk by auto. apply nth_In. now rewrite map_length.
    + destruct M1 as [->|M1]; [reflexivity|]. apply in_map_iff in M1. destruct M1 as (q & <- & Hq).
      apply In_nth with (d := 0%Q) in Hq. destruct Hq as (j & Hj & <-). cbn. apply negb_false_iff, Qle_bool_iff. auto.
Qed.

Lemma best_largest l k : best_at (map Num l) k <-> largest_at l k.
Proof.
  unfold best_at, largest_at. rewrite map_length.
  assert (Nk : forall j, (j < length l)%nat -> nth j (map Num l) NaN = Num (nth j l 0%Q)).
  { intros j Hj. rewrite (nth_indep _ NaN (Num 0%Q)) by (now rewrite map_length). apply map_nth. }
  split.
  - intros (Lk & _ & H). split; auto. intros j Hj. rewrite Nk in H by auto. specialize (H (Num (nth j l 0%Q)) ltac:(apply in_map, nth_In; auto)).
    cbn in H. now apply negb_false_iff, Qle_bool_iff in H.
  - intros (Lk & H). split; auto. split; [intros x Hx; apply in_map_iff in Hx; destruct Hx as (q & <- & _); discriminate|].
    intros x Hx. apply in_map_iff in Hx. destruct Hx as (q & <- & Hq). apply In_nth with (d := 0%Q) in Hq. destruct Hq as (j & Hj & <-).
    rewrite Nk by auto. cbn. apply negb_false_iff, Qle_bool_iff. auto.
Qed.

Lemma largest_exists l : l <> [] -> exists k, largest_at l k.
Proof.
  induction l as [|a l IH]; [congruence|]. intros _. destruct l as [|b l].
  - exists 0%nat. split; cbn; [lia|]. intros [|j] Hj; [apply Qle_refl|lia].
  - destruct IH as (k & Lk & Hk); [discriminate|]. destruct (Qlt_le_dec (nth k (b :: l) 0%Q) a) as [C|C].
    + exists 0%nat. split; [cbn; lia|]. intros [|j] Hj; cbn [nth]; [apply Qle_refl|]. cbn in Hj. specialize (Hk j ltac:(cbn; lia)). cbn [nth] in *. lra.
    + exists (S k). split; [cbn in *; lia|]. intros [|j] Hj; cbn [nth]; [exact C|]. apply Hk. cbn in *. lia.
Qed.

Lemma candidates_in scores k : In k (candidates scores) <-> exists s, In s scores /\ best_at s k.
Proof.
  unfold candidates.
  assert (F : forall l acc, In k (fold_left (fun s x => if mem x s then s else s ++ [x]) l acc) <-> In k acc \/ In k l).
  { induction l as [|x l IH]; intro acc; cbn [fold_left In]; [tauto|]. rewrite IH. destruct (mem x acc) eqn:E.
    - apply mem_iff in E. intuition; subst; auto.
    - rewrite in_app_iff. cbn. intuition. }
  rewrite F. cbn [In]. rewrite in_flat_map. split.
  - intros [[]|(s & Hs & H)]. exists s. split; auto. now apply where_max.
  - intros (s & Hs & H). right. exists s. split; auto. now apply where_max.
Qed.

Lemma adaptive_lemma scores order err : Permutation (order (candidates scores)) (candidates scores) ->
  let good k := (exists s, In s scores /\ best_at s k) /\ forall j, (exists s, In s scores /\ best_at s j) -> (err k <= err j)%Q in
  ((exists k s, In s scores /\ best_at s k) ->
     (forall draw, exists k, adaptive_ask scores order err draw = Ok k /\ good k) /\
     (forall k, good k -> exists draw, adaptive_ask scores order err draw = Ok k)) /\
  ((forall k s, In s scores -> ~ best_at s k) -> forall draw, adaptive_ask scores order err draw = Err ValueErr).
Proof.
  intros P good. set (cs := order (candidates scores)) in *.
  assert (I : forall k, In k cs <-> exists s, In s scores /\ best_at s k).
  { intro k. rewrite <- candidates_in. split; intro H; [apply (Permutation_in _ P H)|apply (Permutation_in _ (Permutation_sym P) H)]. }
  split.
  - intros (k0 & s0 & Hs0 & Hb0).
    assert (N : cs <> []). { intro E. assert (In k0 cs) by (apply I; eauto). rewrite E in H. destruct H. }
    set (errs := map (fun i => Num (err i)) cs).
    assert (Ee : errs = map Num (map err cs)) by (unfold errs; rewrite map_map; reflexivity).
    set (W := where_eq (fl_min errs) errs).
    assert (HW : forall p, In p W <-> (p < length cs)%nat /\ forall j, (j < length cs)%nat -> (err (nth p cs 0%nat) <= err (nth j cs 0%nat))%Q).
    { intro p. unfold W. rewrite Ee. rewrite where_min. rewrite map_length.
      assert (X : forall j, (j < length cs)%nat -> nth j (map err cs) 0%Q = err (nth j cs 0%nat)).
      { intros j Hj. rewrite (nth_indep _ 0%Q (err 0%nat)) by (now rewrite map_length). apply map_nth. }
      split; intros (A & B); split; auto; intros j Hj; specialize (B j Hj); rewrite !X in * by auto; auto. }
    assert (G : forall p, In p W <-> (p < length cs)%nat /\ good (nth p cs 0%nat)).
    { intro p. rewrite HW. split; intros (A & B); split; auto.
      - split; [apply I, nth_In; auto|]. intros j Hj. apply I in Hj. apply In_nth with (d := 0%nat) in Hj. destruct Hj as (q & Hq & <-). auto.
      - intros j Hj. apply B, I, nth_In. auto. }
    assert (NW : W <> []).
    { assert (exists p, largest_at (map (fun i => - err i)%Q cs) p) as (p & Lp & Hp).
      { apply largest_exists. destruct cs; [congruence|discriminate]. }
      rewrite map_length in *. assert (In p W); [|destruct W; [destruct H|discriminate]].
      apply HW. split; auto. intros j Hj. specialize (Hp j Hj).
      assert (X : forall j, (j < length cs)%nat -> nth j (map (fun i => - err i)%Q cs) 0%Q = (- err (nth j cs 0%nat))%Q).
      { intros i Hi. rewrite (nth_indep _ 0%Q ((fun i => - err i)%Q 0%nat)) by (now rewrite map_length). exact (map_nth (fun i => - err i)%Q cs 0%nat i). }
      rewrite !X in Hp by auto. lra. }
    destruct (choice_lemma W NW) as (C1 & C2).
    assert (EA : forall draw, adaptive_ask scores order err draw = k <- choice draw W ;; py_nth cs k).
    { intro draw. unfold adaptive_ask. fold cs. fold errs. fold W. clear -N. destruct cs; [congruence|reflexivity]. }
    split.
    + intro draw. rewrite EA. destruct (C1 draw) as (p & Ep & Hp). rewrite Ep. cbn [bind]. apply G in Hp. destruct Hp as (Lp & Gp).
      exists (nth p cs 0%nat). split; auto. now apply py_nth_default.
    + intros k Gk. assert (In k cs) by (apply I, Gk). apply In_nth with (d := 0%nat) in H. destruct H as (p & Lp & Ep).
      assert (Hp : In p W) by (apply G; rewrite Ep; auto). destruct (C2 p Hp) as (d & _ & Ed). exists d. rewrite EA, Ed. cbn [bind].
      rewrite (py_nth_default 0%nat) by exact Lp. now rewrite Ep.
  - intros H draw. unfold adaptive_ask. fold cs. assert (cs = []); [|now rewrite H0].
    destruct cs as [|k cs']; auto. exfalso. destruct (proj1 (I k) (or_introl eq_refl)) as (s & Hs & Hb). exact (H k s Hs Hb).
Qed.
