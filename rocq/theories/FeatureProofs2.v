(** Proofs about imputation and about the choice of an entry. *)
From Verif Require Import Base BaseFacts IndexModel MLModel MLSpec MLProofs MLProofs2 MLProofs3 MiscModel MiscSpec QueryModel QuerySpec
  QueryProofs QueryProofs2 FeatureModel FeatureSpec FeatureProofs.
From Coq Require Import QArith Qabs Qreduction Lqa.
Local Open Scope Z_scope.

(** ** AFASMC completion *)
Lemma seen_finite mask X : finite X -> finite (seen mask X).
Proof.
  intros F a b v E. unfold seen in E. rewrite mzip_cell in E. destruct (cell mask a b), (cell X a b) eqn:C; try discriminate.
  injection E as <-. destruct (F _ _ _ C) as [q ->]. cbn. eauto.
Qed.
Lemma afasmc_ok steps max_in max_out chk X mask n f : (1 <= max_out <= max_in)%nat ->
  has_shape X n f -> has_shape mask n f -> finite X -> zero_one mask -> steps_ok f steps ->
  (chk = true -> mask_passes X mask = true) ->
  exists R i k, afasmc_mask steps max_in max_out chk X mask = Ok R /\ (i < max_out)%nat /\ (k < max_in)%nat /\
    has_shape R n f /\ finite R /\
    (forall a b, cell mask a b = Some 1 -> same_at R X a b) /\
    (forall a b, cell mask a b = Some 0 -> same_at R (snd (steps (seen mask X) mask i k)) a b).
Proof.
  intros H SX SM FX Z OK P. unfold afasmc_mask.
  replace (chk && negb (mask_passes X mask)) with false by (destruct chk; [rewrite P; auto|reflexivity]).
  destruct (search_spec (steps (seen mask X) mask) max_in max_out H) as (R & i & E & I & ER). rewrite E. cbn [bind].
  destruct (found_step (steps (seen mask X) mask) max_in i ltac:(lia)) as (k & K & EK). rewrite EK in ER.
  destruct (OK n (seen mask X) mask i k) as [S1 F1]; [apply mzip_shape; auto|now apply seen_finite|auto|]. rewrite <- ER in S1, F1.
  exists (mixture mask R X), i, k. split; [reflexivity|]. split; auto. split; auto. split; [apply mixture_shape; auto|].
  split; [apply mixture_finite; auto|]. rewrite <- ER. split; intros a b C; [eapply mixture_observed|eapply mixture_missing]; eauto.
Qed.

(** ** Iterative SVD *)
Lemma clip_cell s M a b : cell (clip s M) a b = match cell M a b with Some v => Some (clip1 s v) | None => None end.
Proof.
  unfold cell, clip. rewrite nth_error_map. destruct (nth_error M a) as [r|]; cbn; auto. rewrite nth_error_map.
  now destruct (nth_error r b).
Qed.
Lemma clip_shape s M n f : has_shape M n f -> has_shape (clip s M) n f.
Proof.
  intros [L S]. split; [unfold clip; now rewrite map_length|]. intros r H. apply in_map_iff in H. destruct H as (r0 & <- & H).
  rewrite map_length. auto.
Qed.
Lemma clip1_num s q : exists q', clip1 s (Num q) = Num q'.
Proof.
  unfold clip1. destruct (sv_min s) as [lo|], (sv_max s) as [hi|]; cbn [flt];
    repeat match goal with |- context [if ?c then _ else _] => destruct c end; cbn [flt]; eauto;
    repeat match goal with |- context [if ?c then _ else _] => destruct c end; eauto.
Qed.
Lemma clip_finite s M : finite M -> finite (clip s M).
Proof.
  intros F a b v E. rewrite clip_cell in E. destruct (cell M a b) as [x|] eqn:C; [|discriminate]. injection E as <-.
  destruct (F _ _ _ C) as [q ->]. apply clip1_num.
Qed.
(** Limits. *)
Definition within_limits (s : isvd) (x : fl) : Prop :=
  exists q, x = Num q /\ (forall lo, sv_min s = Some lo -> (lo <= q)%Q) /\ (forall hi, sv_max s = Some hi -> (q <= hi)%Q).
Lemma not_lt p q : negb (Qle_bool q p) = false -> (q <= p)%Q.
Proof. intro H. apply negb_false_iff, Qle_bool_iff in H. exact H. Qed.
Lemma yes_lt p q : negb (Qle_bool q p) = true -> (p < q)%Q.
Proof. intro H. apply negb_true_iff in H. apply Qnot_le_lt. intro X. apply Qle_bool_iff in X. congruence. Qed.
Lemma clip1_limits s q : (forall lo hi, sv_min s = Some lo -> sv_max s = Some hi -> (lo <= hi)%Q) -> within_limits s (clip1 s (Num q)).
Proof.
  intro H. unfold clip1, within_limits.
  destruct (sv_min s) as [lo|], (sv_max s) as [hi|]; cbn [flt].
  - specialize (H lo hi eq_refl eq_refl). destruct (negb (Qle_bool lo q)) eqn:E; cbn [flt].
    + apply yes_lt in E. replace (negb (Qle_bool lo hi)) with false by (symmetry; apply negb_false_iff; now apply Qle_bool_iff).
      exists lo. split; auto. split; intros ? X; injection X as <-; lra.
    + apply not_lt in E. destruct (negb (Qle_bool q hi)) eqn:E2; [apply yes_lt in E2; exists hi|apply not_lt in E2; exists q];
        (split; auto; split; intros ? X; injection X as <-; lra).
  - destruct (negb (Qle_bool lo q)) eqn:E; [apply yes_lt in E; exists lo|apply not_lt in E; exists q];
      (split; auto; split; intros ? X; [injection X as <-; lra|discriminate]).
  - destruct (negb (Qle_bool q hi)) eqn:E2; [apply yes_lt in E2; exists hi|apply not_lt in E2; exists q];
        (split; auto; split; intros ? X; [discriminate|injection X as <-; lra]).
  - exists q. split; auto. split; intros; discriminate.
Qed.

Lemma unseen_shape mask X n f : has_shape mask n f -> has_shape X n f -> has_shape (unseen mask X) n f.
Proof. intros. unfold unseen. apply mzip_shape; auto. Qed.
Lemma unseen_finite mask X : finite X -> finite (unseen mask X).
Proof.
  intros F a b v E. unfold unseen in E. rewrite mzip_cell in E. destruct (cell mask a b), (cell X a b) eqn:C; try discriminate.
  injection E as <-. destruct (F _ _ _ C) as [q ->]. cbn. eauto.
Qed.

Section Impute.
  Variables (svd : nat -> fmat -> res fmat) (s : isvd) (X : fmat) (mask : list (list Z)) (n f : nat).
  Hypothesis SX : has_shape X n f.
  Hypothesis SM : has_shape mask n f.
  Hypothesis FX : finite X.
  Hypothesis ZM : zero_one mask.
  Hypothesis OK : svd_ok f svd.

  Definition settled (R : fmat) : Prop :=
    exists r M, has_shape M n f /\ finite M /\ svd r M = Ok R.

  Lemma loop_ok todo : forall i filled, has_shape filled n f -> finite filled ->
    (exists r, filled = mixture mask (clip s r) X /\ has_shape r n f /\ finite r) \/ (0 < todo)%nat ->
    exists r, impute_loop svd s X mask todo i filled = Ok (mixture mask (clip s r) X) /\ has_shape r n f /\ finite r.
  Proof.
    induction todo as [|todo IH]; intros i filled S F H; cbn [impute_loop].
    - destruct H as [(r & -> & Sr & Fr)|H]; [|lia]. eauto.
    - destruct (OK n (rank_at s i) filled S F) as (r & E & Sr & Fr). rewrite E. cbn [bind].
      fold (mixture mask (clip s r) X). destruct (converged s filled (clip s r) mask); [exists r; auto|]. apply IH.
      + apply mixture_shape; auto. now apply clip_shape.
      + apply mixture_finite; auto. now apply clip_finite.
      + left. exists r. repeat split; auto; apply Sr.
  Qed.

  Lemma impute_ok chk : (chk = true -> mask_passes X mask = true) -> (0 < sv_iters s)%nat ->
    exists R, impute svd s X mask chk = Ok R /\ has_shape R n f /\ finite R /\
    (forall a b, cell mask a b = Some 1 -> same_at R X a b) /\
    ((forall lo hi, sv_min s = Some lo -> sv_max s = Some hi -> (lo <= hi)%Q) ->
     forall a b v, cell mask a b = Some 0 -> cell R a b = Some v -> within_limits s v).
  Proof.
    intros P H. unfold impute. replace (chk && negb (mask_passes X mask)) with false by (destruct chk; [rewrite P; auto|reflexivity]).
    destruct (loop_ok (sv_iters s) 0 (unseen mask X)) as (r & E & Sr & Fr); auto.
    { now apply unseen_shape. } { now apply unseen_finite. }
    pose proof (clip_shape s r n f Sr) as Sc. pose proof (clip_finite s r Fr) as Fc.
    exists (mixture mask (clip s r) X). split; auto. split; [apply mixture_shape; auto|]. split; [apply mixture_finite; auto|].
    split; [intros a b C; eapply mixture_observed; eauto|].
    intros L a b v C V. rewrite mixture_cell, C in V.
    destruct (cell_inside _ _ _ _ _ _ SM C) as [Ha Hb].
    destruct (shape_cell r n f a b Sr Ha Hb) as [x Ex]. destruct (shape_cell X n f a b SX Ha Hb) as [y Ey].
    rewrite clip_cell, Ex, Ey in V. destruct (Fr _ _ _ Ex) as [q ->]. destruct (FX _ _ _ Ey) as [w ->].
    destruct (clip1_limits s q L) as (q' & E1 & E2 & E3). rewrite E1 in V. injection V as <-.
    eexists. split; [reflexivity|].
    assert (EQ : (Qred (Qred (inject_Z (1 - 0) * q') + Qred (inject_Z 0 * w)) == q')%Q).
    { rewrite !Qred_correct. change (inject_Z (1 - 0)) with 1%Q. change (inject_Z 0) with 0%Q. ring. }
    split; intros c Hc; rewrite EQ; auto.
  Qed.

  (** ** Hidden values *)
  Lemma fsum_zero l : (forall x, In x l -> exists q, x = Num q /\ (q == 0)%Q) -> exists z, fsum l = Num z /\ (z == 0)%Q.
  Proof.
    induction l as [|x l IH]; intro H; cbn [fsum fold_right]; [exists 0%Q; split; reflexivity|].
    destruct (H x (or_introl eq_refl)) as (q & -> & Eq). destruct IH as (z & E & Ez); [intros; apply H; now right|].
    unfold fsum in *. rewrite E. cbn [fadd]. eexists. split; [reflexivity|]. rewrite Qred_correct. lra.
  Qed.
  Lemma fsum_pos l : (forall x, In x l -> exists q, x = Num q /\ (0 <= q)%Q) ->
    exists z, fsum l = Num z /\ (0 <= z)%Q /\ ((exists q, In (Num q) l /\ (0 < q)%Q) -> (0 < z)%Q).
  Proof.
    induction l as [|x l IH]; intro H; cbn [fsum fold_right In].
    - exists 0%Q. split; auto. split; [lra|]. intros (q & [] & _).
    - destruct (H x (or_introl eq_refl)) as (q & -> & Hq). destruct IH as (z & E & Ez & Ep); [intros; apply H; now right|].
      unfold fsum in *. rewrite E. cbn [fadd]. eexists. split; [reflexivity|]. rewrite Qred_correct. split; [lra|].
      intros (q' & [Eq|I] & L).
      + injection Eq as <-. lra.
      + assert (0 < z)%Q by (apply Ep; eauto). lra.
  Qed.
  Lemma concat_cell (M : fmat) v : In v (concat M) -> exists a b, cell M a b = Some v.
  Proof.
    intro H. apply in_concat in H. destruct H as (r & Hr & Hv). apply In_nth_error in Hr. apply In_nth_error in Hv.
    destruct Hr as [a Ea]. destruct Hv as [b Eb]. exists a, b. unfold cell. now rewrite Ea.
  Qed.
  Lemma sum_sq_zero M : (forall a b v, cell M a b = Some v -> exists q, v = Num q /\ (q == 0)%Q) ->
    exists z, sum_sq M = Num z /\ (z == 0)%Q.
  Proof.
    intro H. apply fsum_zero. intros x Hx. apply in_map_iff in Hx. destruct Hx as (y & <- & Hy).
    destruct (concat_cell M y Hy) as (a & b & C). destruct (H _ _ _ C) as (q & -> & E). cbn [fmul fadd fneg]. eexists. split; [reflexivity|].
    rewrite Qred_correct, E. ring.
  Qed.
  Lemma sq_pos q : ~ (q == 0)%Q -> (0 < q * q)%Q.
  Proof. intro H. destruct (Qlt_le_dec 0 q); [nra|]. assert (q < 0)%Q by (apply Qle_lteq in q0; destruct q0 as [|E]; [auto|contradict H; auto]). nra. Qed.
  Lemma sum_sq_pos M a b q : finite M -> cell M a b = Some (Num q) -> ~ (q == 0)%Q -> exists z, sum_sq M = Num z /\ (0 < z)%Q.
  Proof.
    intros F C Nq. destruct (fsum_pos (map (fun x => fmul x x) (concat M))) as (z & E & _ & P).
    - intros x Hx. apply in_map_iff in Hx. destruct Hx as (y & <- & Hy). destruct (concat_cell M y Hy) as (a' & b' & C').
      destruct (F _ _ _ C') as [w ->]. cbn [fmul fadd fneg]. eexists. split; [reflexivity|]. rewrite Qred_correct. nra.
    - exists z. split; [exact E|]. apply P. exists (Qred (q * q)). split.
      + apply in_map_iff. exists (Num q). split; [reflexivity|]. eapply cell_in_concat; eauto.
      + rewrite Qred_correct. now apply sq_pos.
  Qed.

  (** If the decomposition reproduces the initial matrix, the hidden values come back unchanged. *)
  Lemma impute_leak chk R a0 b0 q0 : (chk = true -> mask_passes X mask = true) -> (0 < sv_iters s)%nat ->
    sv_min s = None -> sv_max s = None -> (0 < sv_thr s)%Q ->
    svd (rank_at s 0) (unseen mask X) = Ok R -> has_shape R n f ->
    (forall a b, (a < n)%nat -> (b < f)%nat -> same_at R (unseen mask X) a b) ->
    cell mask a0 b0 = Some 0 -> cell X a0 b0 = Some (Num q0) -> ~ (q0 == 0)%Q ->
    exists Y, impute svd s X mask chk = Ok Y /\ has_shape Y n f /\ forall a b, (a < n)%nat -> (b < f)%nat -> same_at Y X a b.
  Proof.
    intros P H L1 L2 T E SR SA C0 CX Nq. unfold impute.
    replace (chk && negb (mask_passes X mask)) with false by (destruct chk; [rewrite P; auto|reflexivity]).
    destruct (sv_iters s) as [|it]; [lia|]. cbn [impute_loop]. rewrite E. cbn [bind].
    assert (CL : clip s R = R).
    { unfold clip, clip1. rewrite L1, L2. rewrite map_ext with (g := fun r => r); [apply map_id|]. intro. apply map_id. }
    rewrite CL.
    assert (FU : finite (unseen mask X)) by now apply unseen_finite.
    assert (SU : has_shape (unseen mask X) n f) by now apply unseen_shape.
    assert (FR : finite R).
    { intros a b v C. destruct (cell_inside _ _ _ _ _ _ SR C) as [Ha Hb]. destruct (SA a b Ha Hb) as (x & y & Cx & Cy & Q).
      rewrite C in Cx. injection Cx as <-. destruct (FU _ _ _ Cy) as [w ->]. destruct v; try contradiction. eauto. }
    assert (CV : converged s (unseen mask X) R mask = true).
    { unfold converged.
      destruct (sum_sq_pos (unseen mask (unseen mask X)) a0 b0 (Qred (inject_Z (1 - 0) * Qred (inject_Z (1 - 0) * q0)))) as (z & Ez & Pz).
      { now apply unseen_finite. }
      { unfold unseen. rewrite !mzip_cell, C0, CX. reflexivity. }
      { rewrite !Qred_correct. change (inject_Z (1 - 0)) with 1%Q. intro X0. apply Nq. lra. }
      destruct (sum_sq_zero (mzip (fun a b => fadd a (fneg b)) (unseen mask (unseen mask X)) (unseen mask R))) as (d & Ed & Zd).
      { intros a b v C. rewrite mzip_cell in C. unfold unseen at 1 3 in C. rewrite !mzip_cell in C.
        destruct (cell mask a b) as [m|] eqn:Em; [|discriminate]. destruct (cell_inside _ _ _ _ _ _ SM Em) as [Ha Hb].
        destruct (SA a b Ha Hb) as (x & y & Cx & Cy & Q). rewrite Cx, Cy in C.
        assert (Hv : v = fadd (fmul (Num (inject_Z (1 - m))) y) (fneg (fmul (Num (inject_Z (1 - m))) x))) by congruence. subst v. clear C.
        destruct (FU _ _ _ Cy) as [w ->]. destruct x as [x| |]; try contradiction. cbn [feq] in Q. cbn [fmul fadd fneg]. eexists. split; [reflexivity|].
        rewrite !Qred_correct. rewrite Q. ring. }
      rewrite Ez, Ed. replace (Qeq_bool z 0) with false by (symmetry; apply not_true_is_false; intro X0; apply Qeq_bool_iff in X0; lra).
      cbn [orb flt]. replace (negb (Qle_bool d f32prec)) with false.
      2:{ symmetry. apply negb_false_iff, Qle_bool_iff. rewrite Zd. discriminate. }
      rewrite andb_false_r. cbn [fquot]. unfold fdiv. replace (Qeq_bool z 0) with false by (symmetry; apply not_true_is_false; intro X0; apply Qeq_bool_iff in X0; lra).
      cbn [flt]. apply negb_true_iff, not_true_is_false. intro X0. apply Qle_bool_iff in X0.
      assert (d / z == 0)%Q by (rewrite Zd; field; lra). lra. }
    rewrite CV. exists (mixture mask R X). split; auto. split; [apply mixture_shape; auto|]. intros a b Ha Hb.
    destruct (shape_cell mask n f a b SM Ha Hb) as [m Em]. destruct (ZM _ _ _ Em) as [->| ->].
    - destruct (mixture_missing mask R X n f a b SM SR SX FR FX Em) as (x & y & Cx & Cy & Q).
      destruct (SA a b Ha Hb) as (r & u & Cr & Cu & Q'). rewrite Cy in Cr. injection Cr as <-.
      destruct (shape_cell X n f a b SX Ha Hb) as [v Ev]. exists x, v. split; auto. split; auto.
      unfold unseen in Cu. rewrite mzip_cell, Em, Ev in Cu.
      assert (Hu : u = fmul (Num (inject_Z (1 - 0))) v) by congruence. subst u. clear Cu. destruct (FX _ _ _ Ev) as [w ->].
      destruct y as [y| |]; try contradiction. destruct x as [x| |]; try contradiction. cbn [feq fmul] in Q, Q' |- *.
      rewrite Q, Q', Qred_correct. change (inject_Z (1 - 0)) with 1%Q. ring.
    - eapply mixture_observed; eauto.
  Qed.
End Impute.

(** ** Choosing *)
Lemma concat_nth {A} (M : list (list A)) : forall n f a b, has_shape M n f -> (a < n)%nat -> (b < f)%nat ->
  nth_error (concat M) (a * f + b) = cell M a b.
Proof.
  induction M as [|r M IH]; intros n f a b [L S] Ha Hb; cbn in L; [lia|]. cbn [concat]. unfold cell.
  assert (Lr : length r = f) by (apply S; now left). destruct a as [|a]; cbn [nth_error].
  - rewrite nth_error_app1; [reflexivity|]. lia.
  - rewrite nth_error_app2 by lia. replace (Datatypes.S a * f + b - length r)%nat with (a * f + b)%nat by lia.
    apply (IH (pred n)); try lia. split; [lia|]. intros r' H. apply S. now right.
Qed.
Lemma concat_len {A} (M : list (list A)) : forall n f, has_shape M n f -> length (concat M) = (n * f)%nat.
Proof.
  induction M as [|r M IH]; intros n f [L S]; cbn in *; [subst; reflexivity|]. rewrite app_length.
  rewrite (S r (or_introl eq_refl)), (IH (pred n) f); [destruct n; cbn; lia|]. split; [lia|]. intros; apply S; now right.
Qed.

Lemma var_mat_shape n f mats : has_shape (var_mat n f mats) n f.
Proof.
  unfold var_mat. split; [now rewrite map_length, seq_length|]. intros r H. apply in_map_iff in H. destruct H as (i & <- & _).
  now rewrite map_length, seq_length.
Qed.
Lemma nth_error_seq n : forall s k, (k < n)%nat -> nth_error (seq s n) k = Some (s + k)%nat.
Proof. induction n as [|n IH]; intros s [|k] H; cbn; try lia; [f_equal; lia|]. rewrite IH by lia. f_equal. lia. Qed.
Lemma var_mat_cell n f mats a b : (a < n)%nat -> (b < f)%nat ->
  cell (var_mat n f mats) a b = Some (fvar (map (fun mat => nth b (nth a mat []) NaN) mats)).
Proof.
  intros Ha Hb. unfold cell, var_mat. rewrite nth_error_map, nth_error_seq by auto. cbn [option_map]. rewrite nth_error_map, nth_error_seq by auto.
  reflexivity.
Qed.

(** The values of an entry. *)
Definition value (M : fmat) (p : nat * nat) : Q := match cell M (fst p) (snd p) with Some (Num q) => q | _ => 0%Q end.
Definition values (mats : list fmat) (p : nat * nat) : list Q := map (fun M => value M p) mats.

Lemma values_ok mats n f p : Forall (fun M => has_shape M n f /\ finite M) mats -> inside n f p -> values_at mats p (values mats p).
Proof.
  intros H [Ha Hb]. unfold values_at, values. induction H as [|M mats [S F] _ IH]; cbn; constructor; auto.
  destruct (shape_cell M n f _ _ S Ha Hb) as [v E]. destruct (F _ _ _ E) as [q ->]. unfold value. now rewrite E.
Qed.
Lemma values_unique mats p vs ws : values_at mats p vs -> values_at mats p ws -> vs = ws.
Proof.
  intros H. revert ws. induction H as [|M v mats vs E _ IH]; intros ws H'; inversion H'; subst; auto. f_equal; [congruence|auto].
Qed.
Lemma nums_values mats n f p : Forall (fun M => has_shape M n f /\ finite M) mats -> inside n f p ->
  fvar (map (fun mat => nth (snd p) (nth (fst p) mat []) NaN) mats) = Num (variance (values mats p)).
Proof.
  intros H I. unfold fvar. replace (nums _) with (Some (values mats p)); [reflexivity|].
  destruct I as [Ha Hb]. induction H as [|M mats [S F] _ IH]; cbn; auto. rewrite <- IH.
  destruct (shape_cell M n f _ _ S Ha Hb) as [v E]. destruct (F _ _ _ E) as [q ->]. unfold value. rewrite E.
  unfold cell in E. destruct (nth_error M (fst p)) as [r|] eqn:Er; [|discriminate].
  now rewrite (nth_error_nth _ _ _ Er), (nth_error_nth _ _ _ E).
Qed.

Lemma spread_is mats n f p v : Forall (fun M => has_shape M n f /\ finite M) mats -> inside n f p ->
  (spread mats p v <-> (v == variance (values mats p))%Q).
Proof.
  intros H I. split.
  - intros (vs & H1 & H2). pose proof (values_ok mats n f p H I). rewrite (values_unique _ _ _ _ H1 H0) in H2. auto.
  - intro E. exists (values mats p). split; auto. eapply values_ok; eauto.
Qed.
Lemma total_nonneg l : (forall x, In x l -> (0 <= x)%Q) -> (0 <= total l)%Q.
Proof. induction l as [|x l IH]; cbn; intro H; [lra|]. pose proof (H x (or_introl eq_refl)). assert (0 <= total l)%Q by (apply IH; auto). unfold total in H1. lra. Qed.
Lemma sq_nn q : (0 <= q * q)%Q.
Proof. destruct (Qlt_le_dec q 0); nra. Qed.
Lemma variance_nonneg l : (0 <= variance l)%Q.
Proof.
  unfold variance, mean. set (s := total _). assert (0 <= s)%Q.
  { apply total_nonneg. intros x H. apply in_map_iff in H. destruct H as (y & <- & _). apply sq_nn. }
  set (k := inject_Z _). assert (0 <= k)%Q by (unfold k; change 0%Q with (inject_Z 0); rewrite <- Zle_Qle; lia).
  unfold Qdiv. apply Qmult_le_0_compat; auto. now apply Qinv_le_0_compat.
Qed.

(** Row-major positions. *)
Lemma pos_inside n f s : (s < n * f)%nat -> inside n f (Nat.div s f, Nat.modulo s f) /\ (s / f * f + s mod f = s)%nat.
Proof.
  intro H. assert (f <> 0)%nat by (intros ->; lia). pose proof (Nat.div_mod s f H0). pose proof (Nat.mod_upper_bound s f H0).
  split; [|lia]. split; cbn; auto. apply Nat.div_lt_upper_bound; auto. lia.
Qed.
Lemma pos_order f a b a' b' : (b < f)%nat -> (b' < f)%nat -> (a * f + b <= a' * f + b')%nat -> (a, b) = (a', b') \/ before (a, b) (a', b').
Proof.
  intros Hb Hb' H. unfold before. cbn [fst snd]. destruct (lt_eq_lt_dec a a') as [[L| ->]|L].
  - right. now left.
  - destruct (Nat.eq_dec b b') as [->|]; [left; auto|right; right; split; auto; lia].
  - exfalso. assert (a' + 1 <= a)%nat by lia. nia.
Qed.

Lemma first_nan_none l : forall i, (forall x, In x l -> exists q, x = Num q) -> first_nan i l = None.
Proof. induction l as [|x l IH]; intros i H; cbn; auto. destruct (H x (or_introl eq_refl)) as [q ->]. apply IH. intros; apply H; now right. Qed.

(** [argmax] over the cells of a matrix given by a function. *)
Lemma argmax_cells (S : list (list Q)) n f (v : nat * nat -> Q) : has_shape S n f -> (0 < n)%nat -> (0 < f)%nat ->
  (forall p, inside n f p -> exists w, cell S (fst p) (snd p) = Some w /\ (w == v p)%Q) ->
  exists s, argmax (concat S) = Ok s /\ let p := (Nat.div s f, Nat.modulo s f) in inside n f p /\
  forall q, inside n f q -> (v q < v p)%Q \/ (v q == v p)%Q /\ (p = q \/ before p q).
Proof.
  intros Sh Hn Hf V. pose proof (concat_len S n f Sh) as LEN. destruct (argmax_spec (concat S)) as (s & E & B & M).
  { intro X. rewrite X in LEN. cbn in LEN. nia. }
  exists s. split; auto. cbv zeta. rewrite LEN in B. destruct (pos_inside n f s B) as [I P]. split; auto.
  intros [a b] [Ha Hb]. cbn [fst snd] in Ha, Hb.
  assert (G : forall a b, (a < n)%nat -> (b < f)%nat -> (nth (a * f + b) (concat S) 0 == v (a, b))%Q).
  { intros x y Hx Hy. destruct (V (x, y)) as (w & Ew & Q); [split; auto|]. cbn [fst snd] in Ew. rewrite <- (concat_nth S n f) in Ew by auto.
    now rewrite (nth_error_nth _ _ _ Ew). }
  assert (IB : (a * f + b < n * f)%nat) by nia.
  specialize (M (a * f + b)%nat ltac:(lia)). destruct I as [I1 I2]. cbn [fst snd] in I1, I2.
  pose proof (G a b Ha Hb) as G1. pose proof (G _ _ I1 I2) as G2. rewrite P in G2.
  destruct M as [M|[M1 M2]]; [left; lra|]. right. split; [lra|]. apply (pos_order f); auto. lia.
Qed.

Lemma map_concat {A B} (g : A -> B) (M : list (list A)) : map g (concat M) = concat (map (map g) M).
Proof. induction M; cbn; auto. now rewrite map_app, IHM. Qed.
Lemma map_cell {A B} (g : A -> B) M a b : cell (map (map g) M) a b = option_map g (cell M a b).
Proof. unfold cell. rewrite nth_error_map. destruct (nth_error M a); cbn; auto. apply nth_error_map. Qed.
Lemma map_shape {A B} (g : A -> B) M n f : has_shape M n f -> has_shape (map (map g) M) n f.
Proof. intros [L S]. split; [now rewrite map_length|]. intros r H. apply in_map_iff in H. destruct H as (x & <- & H). rewrite map_length. auto. Qed.

Lemma choose_spec n f (mats : list fmat) mask : (0 < n)%nat -> (0 < f)%nat -> has_shape mask n f -> zero_one mask ->
  Forall (fun M => has_shape M n f /\ finite M) mats ->
  exists p, choose n f mats mask = Ok p /\ inside n f p /\ chosen_entry n f (fun q => cell mask (fst q) (snd q) = Some 1) mats p.
Proof.
  intros Hn Hf SM Z FM. unfold choose.
  assert (K : forall q, inside n f q -> cell mask (fst q) (snd q) = Some 0 \/ cell mask (fst q) (snd q) = Some 1).
  { intros q [Ha Hb]. destruct (shape_cell mask n f _ _ SM Ha Hb) as [m E]. destruct (Z _ _ _ E) as [->| ->]; auto. }
  destruct (Nat.leb 2 (length mats)) eqn:E2.
  - apply Nat.leb_le in E2.
    set (S := mzip (fun m v => fmul v (Num (inject_Z (1 - m)))) mask (var_mat n f mats)).
    set (un := fun x : fl => match x with Num q => q | _ => 0%Q end).
    set (v := fun q : nat * nat => match cell mask (fst q) (snd q) with Some m => (variance (values mats q) * inject_Z (1 - m))%Q | None => 0%Q end).
    assert (SS : has_shape S n f) by (apply mzip_shape; auto; apply var_mat_shape).
    assert (SC : forall q, inside n f q -> exists w, cell S (fst q) (snd q) = Some (Num w) /\ (w == v q)%Q).
    { intros q I. unfold S, v. rewrite mzip_cell, var_mat_cell by apply I. rewrite (nums_values mats n f q FM I).
      destruct (K q I) as [-> | ->]; (eexists; split; [reflexivity|]; now rewrite Qred_correct). }
    unfold fl_argmax. rewrite first_nan_none.
    2:{ intros x Hx. destruct (concat_cell S x Hx) as (a & b & C). destruct (cell_inside _ _ _ _ _ _ SS C) as [Ha Hb].
        destruct (SC (a, b)) as (w & Cw & _); [split; auto|]. cbn [fst snd] in Cw. exists w. congruence. }
    rewrite map_concat. destruct (argmax_cells (map (map un) S) n f v) as (s & E & I & M); auto.
    { now apply map_shape. }
    { intros q I. destruct (SC q I) as (w & Cw & Q). exists w. rewrite map_cell, Cw. auto. }
    fold un. rewrite E. cbn [bind]. set (p := (Nat.div s f, Nat.modulo s f)) in *. exists p. split; auto. split; auto.
    split; [|intro; lia]. intros _. split; auto.
    assert (V0 : forall q, inside n f q -> cell mask (fst q) (snd q) = Some 1 -> (v q == 0)%Q).
    { intros q Iq C. unfold v. rewrite C. change (inject_Z (1 - 1)) with 0%Q. ring. }
    assert (V1 : forall q, inside n f q -> cell mask (fst q) (snd q) = Some 0 -> (v q == variance (values mats q))%Q).
    { intros q Iq C. unfold v. rewrite C. change (inject_Z (1 - 0)) with 1%Q. ring. }
    assert (VN : forall q, inside n f q -> cell mask (fst q) (snd q) <> Some 1 -> cell mask (fst q) (snd q) = Some 0).
    { intros q Iq C. destruct (K q Iq); auto. contradiction. }
    split.
    + intros (q & w & Iq & Nq & Sq & Pw). apply (spread_is mats n f q w FM Iq) in Sq.
      assert (Vp : (0 < v p)%Q).
      { pose proof (V1 q Iq (VN q Iq Nq)). destruct (M q Iq) as [X|[X _]]; lra. }
      assert (Np : cell mask (fst p) (snd p) <> Some 1) by (intro C; pose proof (V0 p I C); lra).
      pose proof (V1 p I (VN p I Np)) as Ep.
      assert (MS : most_spread n f (fun q => cell mask (fst q) (snd q) = Some 1) mats p).
      { split; auto. exists (variance (values mats p)). split; [apply (spread_is mats n f p _ FM I); reflexivity|].
        intros q' w' I' N' S'. apply (spread_is mats n f q' w' FM I') in S'. pose proof (V1 q' I' (VN q' I' N')).
        destruct (M q' I') as [X|[X _]]; lra. }
      split; auto. split; auto. intros q' I' (N' & u & Su & Mu).
      apply (spread_is mats n f q' u FM I') in Su. pose proof (V1 q' I' (VN q' I' N')) as E'.
      assert (L : (variance (values mats p) <= u)%Q) by (apply (Mu p); auto; apply (spread_is mats n f p _ FM I); reflexivity).
      destruct (M q' I') as [X|[_ X]]; auto. exfalso. lra.
    + intro ZZ. assert (V : forall q, inside n f q -> (v q == 0)%Q).
      { intros q Iq. destruct (K q Iq) as [C|C]; [|auto]. rewrite V1; auto. apply (ZZ q); auto; [rewrite C; discriminate|].
        apply (spread_is mats n f q _ FM Iq). reflexivity. }
      assert (I0 : inside n f (0, 0)%nat) by (split; auto).
      destruct (M (0, 0)%nat I0) as [X|[_ [X|X]]]; auto.
      * pose proof (V _ I0). pose proof (V _ I). lra.
      * unfold before in X. cbn [fst snd] in X. lia.
  - apply Nat.leb_gt in E2.
    set (v := fun q : nat * nat => match cell mask (fst q) (snd q) with Some m => inject_Z (1 - m) | None => 0%Q end).
    destruct (argmax_cells (map (map (fun m => inject_Z (1 - m))) mask) n f v) as (s & E & I & M); auto.
    { now apply map_shape. }
    { intros q I. unfold v. rewrite map_cell. destruct (K q I) as [-> | ->]; cbn; eexists; split; reflexivity. }
    rewrite E. cbn [bind]. set (p := (Nat.div s f, Nat.modulo s f)) in *. exists p. split; auto. split; auto.
    split; [intro; lia|]. intros _. split; auto. split.
    + intros (q & Iq & Nq). assert (C : cell mask (fst q) (snd q) = Some 0) by (destruct (K q Iq); [auto|contradiction]).
      assert (Vq : v q = inject_Z (1 - 0)) by (unfold v; now rewrite C). change (inject_Z (1 - 0)) with 1%Q in Vq.
      assert (Np : cell mask (fst p) (snd p) <> Some 1).
      { intro X. assert (Vp : v p = inject_Z (1 - 1)) by (unfold v; now rewrite X). change (inject_Z (1 - 1)) with 0%Q in Vp.
        destruct (M q Iq) as [Y|[Y _]]; rewrite Vp, Vq in Y; lra. }
      split; auto. split; auto. intros q' I' N'. assert (C' : cell mask (fst q') (snd q') = Some 0) by (destruct (K q' I'); [auto|contradiction]).
      assert (Cp : cell mask (fst p) (snd p) = Some 0) by (destruct (K p I); [auto|contradiction]).
      destruct (M q' I') as [Y|[_ Y]]; auto. unfold v in Y. rewrite C', Cp in Y. lra.
    + intro A. assert (I0 : inside n f (0, 0)%nat) by (split; auto).
      destruct (M (0, 0)%nat I0) as [X|[_ [X|X]]]; auto.
      * exfalso. unfold v in X. rewrite (A _ I0), (A _ I) in X. lra.
      * unfold before in X. cbn [fst snd] in X. lia.
Qed.
