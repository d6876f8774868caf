(** Proofs about the rounds of an imputation. *)
From Verif Require Import Base BaseFacts IndexModel MLModel MLSpec MLProofs MLProofs2 MLProofs3 MiscModel MiscSpec QueryModel QuerySpec
  QueryProofs QueryProofs2 FeatureModel FeatureSpec FeatureProofs FeatureProofs2.
From Coq Require Import QArith Qabs Qminmax Qreduction Lqa.
Local Open Scope Z_scope.

(** ** Sums over the missing entries *)
Lemma zipw_app {A B C} (g : A -> B -> C) l1 l2 : forall k1 k2, length l1 = length k1 -> zipw g (l1 ++ l2) (k1 ++ k2) = zipw g l1 k1 ++ zipw g l2 k2.
Proof. induction l1 as [|a l1 IH]; destruct k1; cbn; intros k2 L; try discriminate; auto. f_equal. apply IH. lia. Qed.
Lemma concat_mzip {A B C} (g : A -> B -> C) M : forall N n f, has_shape M n f -> has_shape N n f ->
  concat (mzip g M N) = zipw g (concat M) (concat N).
Proof.
  induction M as [|r M IH]; intros N n f SM SN; destruct N as [|q N]; cbn; auto.
  - destruct SM as [L1 _], SN as [L2 _]. cbn in *. lia.
  - destruct SM as [L1 S1], SN as [L2 S2]. rewrite zipw_app; [|rewrite (S1 r), (S2 q); auto; now left]. f_equal.
    apply (IH N (pred n) f); (split; [cbn in *; lia|intros; (apply S1 || apply S2); now right]).
Qed.
Lemma concat_length {A} (M : list (list A)) n f : has_shape M n f -> length (concat M) = (n * f)%nat.
Proof.
  revert n. induction M as [|r M IH]; intros n [L S]; cbn in *; [subst; reflexivity|]. destruct n as [|n]; [lia|].
  rewrite app_length, (S r) by now left. rewrite (IH n); [cbn; lia|]. split; [lia|]. intros. apply S. now right.
Qed.
Lemma concat_finite (M : fmat) x : finite M -> In x (concat M) -> exists q, x = Num q.
Proof.
  intros F H. apply in_concat in H. destruct H as (r & Hr & Hx). apply In_nth_error in Hr, Hx. destruct Hr as [a Ha], Hx as [b Hb].
  apply (F a b). unfold cell. now rewrite Ha.
Qed.
Lemma concat_zero_one mask x : zero_one mask -> In x (concat mask) -> x = 0 \/ x = 1.
Proof.
  intros F H. apply in_concat in H. destruct H as (r & Hr & Hx). apply In_nth_error in Hr, Hx. destruct Hr as [a Ha], Hx as [b Hb].
  apply (F a b). unfold cell. now rewrite Ha.
Qed.

(** The two sums of [_converged], on flat lists. *)
Definition hide (m : Z) (x : fl) : fl := fmul (Num (inject_Z (1 - m))) x.
Lemma flat_sums ms : forall xs ys, length ms = length xs -> length ms = length ys ->
  (forall m, In m ms -> m = 0 \/ m = 1) -> (forall x, In x xs -> exists q, x = Num q) -> (forall x, In x ys -> exists q, x = Num q) ->
  (exists z, fsum (map (fun x => fmul x x) (zipw hide ms xs)) = Num z /\
     (z == total (map (fun t => if fst t =? 0 then (fval (fst (snd t)) * fval (fst (snd t))) else 0) (combine ms (combine xs ys))))%Q) /\
  (exists z, fsum (map (fun x => fmul x x) (zipw (fun a b => fadd a (fneg b)) (zipw hide ms xs) (zipw hide ms ys))) = Num z /\
     (z == total (map (fun t => if fst t =? 0 then (fval (fst (snd t)) - fval (snd (snd t))) * (fval (fst (snd t)) - fval (snd (snd t))) else 0)
       (combine ms (combine xs ys))))%Q).
Proof.
  induction ms as [|m ms IH]; intros xs ys L1 L2 Hm Hx Hy; destruct xs as [|x xs], ys as [|y ys]; try discriminate.
  - split; exists 0%Q; split; reflexivity.
  - destruct (IH xs ys) as [(z1 & E1 & Q1) (z2 & E2 & Q2)]; try (cbn in *; lia);
      [intros; apply Hm; now right|intros; apply Hx; now right|intros; apply Hy; now right|].
    destruct (Hx x (or_introl eq_refl)) as [p ->]. destruct (Hy y (or_introl eq_refl)) as [q ->].
    unfold fsum in *. cbn [zipw map combine fold_right]. 
    change (hide m (Num p)) with (Num (Qred (inject_Z (1 - m) * p))). change (hide m (Num q)) with (Num (Qred (inject_Z (1 - m) * q))).
    change (fneg (Num (Qred (inject_Z (1 - m) * q)))) with (Num (Qred (-1 * Qred (inject_Z (1 - m) * q)))). rewrite E1, E2. cbn [fmul fadd]. cbn [fadd].
    cbn [total fold_right fst snd fval]. fold (total (map (fun t : Z * (fl * fl) => if fst t =? 0 then (fval (fst (snd t)) * fval (fst (snd t)))%Q else 0%Q) (combine ms (combine xs ys)))).
    fold (total (map (fun t : Z * (fl * fl) => if fst t =? 0 then ((fval (fst (snd t)) - fval (snd (snd t))) * (fval (fst (snd t)) - fval (snd (snd t))))%Q else 0%Q) (combine ms (combine xs ys)))).
    destruct (Hm m (or_introl eq_refl)) as [-> | ->]; cbn [Z.eqb].
    + change (inject_Z (1 - 0)) with 1%Q. split; (eexists; split; [reflexivity|]); rewrite !Qred_correct, <- ?Q1, <- ?Q2; ring.
    + change (inject_Z (1 - 1)) with 0%Q. split; (eexists; split; [reflexivity|]); rewrite !Qred_correct, <- ?Q1, <- ?Q2; ring.
Qed.

Lemma moved_sq l : (0 <= total (map (fun t : Z * (fl * fl) => if fst t =? 0 then (fval (fst (snd t)) * fval (fst (snd t)))%Q else 0%Q) l))%Q.
Proof.
  induction l as [|t l IH]; cbn [map total fold_right]; [lra|]. fold (total (map (fun t : Z * (fl * fl) => if fst t =? 0 then (fval (fst (snd t)) * fval (fst (snd t)))%Q else 0%Q) l)).
  assert (0 <= (if fst t =? 0 then fval (fst (snd t)) * fval (fst (snd t)) else 0))%Q; [|lra].
  destruct (fst t =? 0); [|lra]. generalize (fval (fst (snd t))). intro q. nra.
Qed.

Lemma converged_iff s A B mask n f : has_shape A n f -> has_shape B n f -> has_shape mask n f -> finite A -> finite B -> zero_one mask ->
  converged s A B mask = true <-> moved_little s mask A B.
Proof.
  intros SA SB SM FA FB Z. unfold converged, moved_little, sum_sq, missing_total.
  assert (SU : has_shape (unseen mask A) n f) by now apply unseen_shape.
  assert (SV : has_shape (unseen mask B) n f) by now apply unseen_shape.
  rewrite (concat_mzip _ _ _ n f SU SV). unfold unseen. rewrite (concat_mzip _ _ _ n f SM SA), (concat_mzip _ _ _ n f SM SB).
  fold hide.
  destruct (flat_sums (concat mask) (concat A) (concat B)) as [(z1 & E1 & Q1) (z2 & E2 & Q2)].
  { now rewrite (concat_length mask n f SM), (concat_length A n f SA). } { now rewrite (concat_length mask n f SM), (concat_length B n f SB). }
  { intros; now apply (concat_zero_one mask). } { intros; now apply (concat_finite A). } { intros; now apply (concat_finite B). }
  rewrite E1, E2. pose proof (moved_sq (combine (concat mask) (combine (concat A) (concat B)))) as NN.
  set (N := total _) in *. set (D := total (map (fun t => if fst t =? 0 then _ else _) _)). change (z2 == D)%Q in Q2.
  unfold f32prec. cbn [flt fquot]. unfold fdiv.
  destruct (Qeq_bool z1 0) eqn:E0; cbn [orb].
  { apply Qeq_bool_iff in E0. split; [discriminate|]. intros [H _]. rewrite Q1 in E0. contradiction. }
  assert (N0 : ~ (z1 == 0)%Q) by (intro X; apply Qeq_bool_iff in X; congruence).
  assert (P1 : (0 < z1)%Q) by (rewrite Q1 in *; destruct (Qlt_le_dec 0 N); auto; exfalso; apply N0; lra).
  cbn [flt].
  destruct (negb (Qle_bool (1 # 8388608) z1) && negb (Qle_bool z2 (1 # 8388608))) eqn:E3; cbn [orb].
  { apply andb_true_iff in E3. destruct E3 as [X1 X2]. apply yes_lt in X1, X2. split; [discriminate|]. intros (_ & H & _). exfalso. apply H.
    split; [now rewrite <- Q1|now rewrite <- Q2]. }
  assert (EQ : negb (Qle_bool (sv_thr s) (z2 / z1)) = true <-> (D < sv_thr s * N)%Q).
  { rewrite <- Q1, <- Q2. split; intro H.
    - apply yes_lt in H. apply (Qmult_lt_r _ _ z1 P1) in H. rewrite <- (Qmult_comm z1), Qmult_div_r in H; auto.
    - apply negb_true_iff. destruct (Qle_bool (sv_thr s) (z2 / z1)) eqn:X; auto. apply Qle_bool_iff in X. exfalso.
      apply (Qmult_le_r _ _ z1 P1) in X. rewrite <- (Qmult_comm z1 (z2/z1)), Qmult_div_r in X; auto. lra. }
  rewrite EQ. split; [|tauto]. intro H. split; [now rewrite <- Q1|]. split; auto. intros [X1 X2]. rewrite <- Q1 in X1. rewrite <- Q2 in X2.
  apply andb_false_iff in E3. destruct E3 as [X|X]; apply FeatureProofs2.not_lt in X; lra.
Qed.

(** ** Limits *)
Lemma clip1_limited s q : exists q', clip1 s (Num q) = Num q' /\ (q' == limited s q)%Q.
Proof.
  unfold clip1, limited.
  assert (A : exists q1, match sv_min s with Some lo => if flt (Num q) (Num lo) then Num lo else Num q | None => Num q end = Num q1 /\
    (q1 == match sv_min s with Some lo => Qmax lo q | None => q end)%Q).
  { destruct (sv_min s) as [lo|]; cbn [flt]; [|exists q; split; reflexivity].
    destruct (negb (Qle_bool lo q)) eqn:E; [apply yes_lt in E; exists lo|apply FeatureProofs2.not_lt in E; exists q]; (split; [reflexivity|]).
    - symmetry. apply Q.max_l. lra.
    - symmetry. apply Q.max_r. lra. }
  destruct A as (q1 & -> & E1). destruct (sv_max s) as [hi|]; cbn [flt]; [|exists q1; split; auto].
  destruct (negb (Qle_bool q1 hi)) eqn:E; [apply yes_lt in E; exists hi|apply FeatureProofs2.not_lt in E; exists q1]; (split; [reflexivity|]); rewrite <- E1.
  - symmetry. apply Q.min_l. lra.
  - symmetry. apply Q.min_r. lra.
Qed.

(** ** Rounds *)
Section Rounds.
  Variables (svd : nat -> fmat -> res fmat) (s : isvd) (X : fmat) (mask : list (list Z)) (n f : nat).
  Hypothesis SX : has_shape X n f.
  Hypothesis SM : has_shape mask n f.
  Hypothesis FX : finite X.
  Hypothesis ZM : zero_one mask.
  Hypothesis OK : svd_ok f svd.

  Lemma loop_rounds todo : forall i filled, has_shape filled n f -> finite filled ->
    exists k (A B : nat -> fmat),
      A 0%nat = filled /\ ((0 < todo)%nat -> (0 < k)%nat) /\ (k <= todo)%nat /\
      (forall j, (j < k)%nat -> round svd s X mask n f (rank_at s (i + j)) (A j) (B j) (A (S j))) /\
      (forall j, (S j < k)%nat -> ~ moved_little s mask (A j) (B j)) /\
      (k = todo \/ (0 < k)%nat /\ moved_little s mask (A (pred k)) (B (pred k))) /\
      impute_loop svd s X mask todo i filled = Ok (A k).
  Proof.
    induction todo as [|todo IH]; intros i filled S F; cbn [impute_loop].
    - exists 0%nat, (fun _ => filled), (fun _ => filled). repeat split; auto; intros; lia.
    - destruct (OK n (rank_at s i) filled S F) as (r & E & Sr & Fr). rewrite E. cbn [bind]. fold (mixture mask (clip s r) X).
      pose proof (clip_shape s r n f Sr) as Sc. pose proof (clip_finite s r Fr) as Fc.
      pose proof (mixture_shape mask _ X n f SM Sc SX) as Smix. pose proof (mixture_finite mask _ X Fc FX) as Fmix.
      assert (R0 : round svd s X mask n f (rank_at s i) filled (clip s r) (mixture mask (clip s r) X)).
      { split; [exists r; split; [exact E|]; split; [exact Sr|]; split; [exact Sc|]|].
        - intros a b q C. rewrite clip_cell, C. destruct (clip1_limited s q) as (q' & -> & Q'). eauto.
        - split; [exact Smix|]. split; intros a b C; [eapply mixture_observed|eapply mixture_missing]; eauto. }
      pose proof (converged_iff s filled (clip s r) mask n f S Sc SM F Fc ZM) as CI.
      destruct (converged s filled (clip s r) mask) eqn:EC.
      + exists 1%nat, (fun j => match j with O => filled | _ => mixture mask (clip s r) X end), (fun _ => clip s r).
        split; [reflexivity|]. split; [lia|]. split; [lia|]. split.
        { intros j Hj. replace j with 0%nat by lia. now rewrite Nat.add_0_r. }
        split; [intros; lia|]. split; [right; split; [lia|]; cbn [pred]; now apply CI|reflexivity].
      + destruct (IH (Datatypes.S i) _ Smix Fmix) as (k & A & B & A0 & K1 & K2 & HR & HN & HE & EI).
        exists (Datatypes.S k), (fun j => match j with O => filled | Datatypes.S j => A j end), (fun j => match j with O => clip s r | Datatypes.S j => B j end).
        split; [reflexivity|]. split; [lia|]. split; [lia|]. split.
        { intros [|j] Hj; [rewrite Nat.add_0_r, A0; exact R0|]. replace (i + Datatypes.S j)%nat with (Datatypes.S i + j)%nat by lia. apply HR. lia. }
        split. { intros [|j] Hj; [intro M; apply CI in M; discriminate|]. apply HN. lia. }
        split; [|exact EI]. destruct HE as [HE|[HE M]]; [left; lia|right]. split; [lia|]. destruct k as [|k]; [lia|]. exact M.
  Qed.

  Lemma impute_rounds chk : (chk = true -> mask_passes X mask = true) -> (0 < sv_iters s)%nat ->
    exists k (A B : nat -> fmat),
      (1 <= k <= sv_iters s)%nat /\
      has_shape (A 0%nat) n f /\ (forall a b, cell mask a b = Some 0 -> same_at (A 0%nat) X a b) /\
      (forall a b, cell mask a b = Some 1 -> exists q, cell (A 0%nat) a b = Some (Num q) /\ (q == 0)%Q) /\
      (forall j, (j < k)%nat -> round svd s X mask n f (if sv_grow s then Nat.min (2 ^ j) (sv_rank s) else sv_rank s) (A j) (B j) (A (S j))) /\
      (forall j, (S j < k)%nat -> ~ moved_little s mask (A j) (B j)) /\
      (k = sv_iters s \/ moved_little s mask (A (pred k)) (B (pred k))) /\
      impute svd s X mask chk = Ok (A k).
  Proof.
    intros P H. unfold impute. replace (chk && negb (mask_passes X mask)) with false by (destruct chk; [rewrite P; auto|reflexivity]).
    destruct (loop_rounds (sv_iters s) 0 (unseen mask X)) as (k & A & B & A0 & K1 & K2 & HR & HN & HE & EI).
    { now apply unseen_shape. } { now apply unseen_finite. }
    exists k, A, B. split; [specialize (K1 H); lia|]. rewrite A0. split; [now apply unseen_shape|].
    assert (CU : forall a b m, cell mask a b = Some m -> exists x, cell X a b = Some (Num x) /\ cell (unseen mask X) a b = Some (Num (Qred (inject_Z (1 - m) * x)))).
    { intros a b m C. destruct (cell_inside _ _ _ _ _ _ SM C) as [Ha Hb]. destruct (shape_cell X n f a b SX Ha Hb) as [y Ey].
      destruct (FX _ _ _ Ey) as [q ->]. exists q. split; auto. unfold unseen. rewrite mzip_cell, C, Ey. reflexivity. }
    split; [|split].
    - intros a b C. destruct (CU a b 0 C) as (x & E1 & E2). exists (Num (Qred (inject_Z (1 - 0) * x))), (Num x). split; auto. split; auto.
      cbn [feq]. rewrite Qred_correct. change (inject_Z (1 - 0)) with 1%Q. ring.
    - intros a b C. destruct (CU a b 1 C) as (x & E1 & E2). eexists. split; [exact E2|].
      rewrite Qred_correct. change (inject_Z (1 - 1)) with 0%Q. ring.
    - split; [exact HR|]. split; [exact HN|]. split; [tauto|exact EI].
  Qed.
End Rounds.
