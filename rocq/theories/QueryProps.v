(** Theorems about the selection strategies: C47 to C51 and C66 to C70. *)
From Verif Require Import Base BaseFacts IndexModel MLModel SplitModel MiscModel MiscSpec MiscProofs MiscProps
  QueryModel QuerySpec QueryProofs QueryProofs2 QueryProofs3 QueryProofs4 QueryNumpy.
From Coq Require Import QArith Qabs Lqa.
Local Open Scope Z_scope.

(** ** C47 *)

(** What [best_batch] means for the caller: [k] different members of the unlabelled index. *)
Theorem C47_members : forall (A : Type) (U : list A) score k sel,
  best_batch U score k sel ->
  length sel = k /\ (k <= length U)%nat /\ (forall x, In x sel -> In x U) /\ (NoDup U -> NoDup sel).
Proof.
  intros A U score k sel (ps & ND & L & F & M). pose proof (Forall2_length_eq _ _ _ F) as LE.
  assert (B : forall p, In p ps -> (p < length U)%nat).
  { clear - F. induction F as [|p x ps sel E F IH]; intros q []; auto. subst q. apply nth_error_Some. congruence. }
  split; [lia|]. split; [rewrite <- L, <- (seq_length (length U) 0); apply NoDup_incl_length; auto; intros p J; apply in_seq; specialize (B p J); lia|]. split.
  - clear - F. induction F as [|p x ps sel E F IH]; intros y []; auto. subst y. eapply nth_error_In; eauto.
  - intro NU. clear - ND F NU. induction F as [|p x ps sel E F IH]; [constructor|]. inversion ND as [|? ? N1 N2]; subst. constructor; auto.
    intro J. apply N1. clear - F J E NU. induction F as [|q y ps sel E' F IH]; [destruct J|]. destruct J as [->|J]; [left|right; auto].
    apply (proj1 (NoDup_nth_error U) NU); [apply nth_error_Some; congruence|congruence].
Qed.
Print Assumptions C47_members.

(** Uncertainty sampling, for every number of classes from two on and every way numpy breaks ties. *)
Theorem C47_uncertainty : forall (A : Type) np m (U : list A) cols rows batch,
  numpy_ok np -> m <> Boundary -> (2 <= cols)%nat -> Forall (fun r => length r = cols) rows -> length rows = length U -> 0 < batch ->
  exists sel, snd (select_by_prediction_mat np m U (Mat cols rows) batch) = Ok sel /\
    if Z.of_nat (length U) <=? batch then sel = U
    else exists score, (forall i row, nth_error rows i = Some row -> uncertain (log np) m row (score i)) /\
                       best_batch U score (Z.to_nat batch) sel.
Proof.
  intros A np m U cols rows batch NP NB C F L B. unfold select_by_prediction_mat.
  destruct (Z.ltb_spec 0 batch); [|lia]. cbn [negb]. destruct (Z.leb_spec (Z.of_nat (length U)) batch); [exists U; split; reflexivity|].
  destruct cols as [|[|c]]; [lia|lia|]. set (cols := S (S c)) in *.
  destruct m; [| | |contradiction]; cbn [snd].
  - destruct (measure_scores np LeastConfident cols rows NP C F) as (sc & E & F2); auto. rewrite E. cbn [bind].
    pose proof (Forall2_length_eq _ _ _ F2). destruct (largest_batch np U sc batch NP ltac:(lia) ltac:(lia)) as (sel & E2 & BB).
    exists sel. split; auto. exists (fun i => nth i sc 0%Q). split; auto. apply nth_Forall2. auto.
  - destruct (measure_scores np Margin cols rows NP C F) as (sc & E & F2); auto. rewrite E. cbn [bind].
    pose proof (Forall2_length_eq _ _ _ F2). destruct (largest_batch np U sc batch NP ltac:(lia) ltac:(lia)) as (sel & E2 & BB).
    exists sel. split; auto. exists (fun i => nth i sc 0%Q). split; auto. apply nth_Forall2. auto.
  - destruct (largest_batch np U (map (entropy np) (map (map clip) rows)) batch NP) as (sel & E2 & BB); [rewrite !map_length; lia|lia|].
    exists sel. split; auto. exists (fun i => nth i (map (entropy np) (map (map clip) rows)) 0%Q). split; auto.
    intros i row E. rewrite map_map. erewrite nth_error_nth; [|apply map_nth_error; eauto]. apply entropy_uncertain.
Qed.
Print Assumptions C47_uncertainty.

(** Distance to the boundary: the values nearest to zero, from a vector or a single column. *)
Theorem C47_boundary : forall (A : Type) np (U : list A) v batch predict,
  numpy_ok np -> predict = Vec v \/ predict = Mat 1 (map (fun x => [x]) v) -> length v = length U -> 0 < batch ->
  exists sel, select_by_prediction_mat np Boundary U predict batch = (predict, Ok sel) /\
    if Z.of_nat (length U) <=? batch then sel = U
    else best_batch U (fun i => - Qabs (nth i v 0))%Q (Z.to_nat batch) sel.
Proof.
  intros A np U v batch predict NP P L B. unfold select_by_prediction_mat.
  destruct (Z.ltb_spec 0 batch); [|lia]. cbn [negb]. destruct (Z.leb_spec (Z.of_nat (length U)) batch); [exists U; split; reflexivity|].
  assert (E : boundary_scores predict = Ok (map Qabs v)).
  { destruct P as [-> | ->]; cbn; [reflexivity|]. do 2 f_equal. clear. induction v; cbn; congruence. }
  rewrite E. cbn [bind]. destruct (smallest_batch np U (map Qabs v) batch NP) as (sel & E2 & BB); [rewrite map_length; lia|lia|].
  exists sel. rewrite E2. split; auto. eapply best_batch_ext; [|exact BB]. intros i I. cbn.
  rewrite (nth_indep _ 0%Q (Qabs 0)) by (rewrite map_length; lia). rewrite map_nth. reflexivity.
Qed.
Print Assumptions C47_boundary.

(** Committees and the learned selector take the largest scores, expected error reduction the smallest. *)
Theorem C47_scores : forall (A : Type) np (U : list A) scores batch,
  numpy_ok np -> length scores = length U -> 0 < batch ->
  (exists sel, select_largest np U (Ok scores) batch = Ok sel /\
     if Z.of_nat (length U) <=? batch then sel = U else best_batch U (fun i => nth i scores 0%Q) (Z.to_nat batch) sel) /\
  (exists sel, select_smallest np U (Ok scores) batch = Ok sel /\
     if Z.of_nat (length U) <=? batch then sel = U else best_batch U (fun i => - nth i scores 0)%Q (Z.to_nat batch) sel).
Proof.
  intros A np U scores batch NP L B. unfold select_largest, select_smallest, guard. destruct (Z.ltb_spec 0 batch); [|lia]. cbn [bind].
  destruct (Z.leb_spec (Z.of_nat (length U)) batch); [split; exists U; split; reflexivity|]. split.
  - apply largest_batch; auto. lia.
  - apply smallest_batch; auto. lia.
Qed.
Print Assumptions C47_scores.

(** Density weighting: uncertainty times the power of the mean distance to the unlabelled instances. *)
Lemma dw_columns n (dis : list (list Q)) : length dis = n -> Forall (fun r => length r = n) dis ->
  exists cs, mapM (fun j => mapM (fun r => py_nth r j) dis) (range (length dis)) = Ok cs /\
    Forall2 (fun j c => c = column 0%Q dis j) (range (length dis)) cs.
Proof.
  intros L F. apply mapM_each. intros j J. apply in_range in J.
  assert (E : forall rows, Forall (fun r => length r = n) rows -> mapM (fun r => py_nth r j) rows = Ok (column 0%Q rows j)).
  { induction rows as [|r rows IH]; intro FR; [reflexivity|]. inversion FR as [|? ? H1 H2]; subst. cbn. unfold py_nth at 1.
    rewrite (nth_error_nth' r 0%Q) by lia. cbn. rewrite IH by auto. reflexivity. }
  eauto.
Qed.

Theorem C47_density_weighted : forall (A : Type) np power m (U : list A) cols pv dis batch,
  numpy_ok np -> m <> Boundary -> (2 <= cols)%nat -> Forall (fun r => length r = cols) pv -> length pv = length U ->
  length dis = length U -> Forall (fun r => length r = length U) dis -> 0 < batch <= Z.of_nat (length U) ->
  exists sel score,
    density_weighted np power m U cols (Some pv) None dis batch = Ok sel /\
    density_weighted np power m U cols None (Some pv) dis batch = Ok sel /\
    (forall i row, nth_error pv i = Some row ->
       exists u, uncertain_raw (log np) m row u /\ (score i == u * power (total (column 0%Q dis i) / inject_Z (Z.of_nat (length U))))%Q) /\
    best_batch U score (Z.to_nat batch) sel.
Proof.
  intros A np power m U cols pv dis batch NP NB C F L LD FD B.
  assert (P : exists pat, match m with Entropy => Ok (map (entropy np) pv) | Margin => mapM (margin_score np cols) pv
                | LeastConfident => mapM (least_confident_score np cols) pv | Boundary => Err ValueErr end = Ok pat /\ Forall2 (uncertain_raw (log np) m) pv pat).
  { destruct m; [| | |contradiction].
    - destruct (measure_scores np LeastConfident cols pv NP C F) as (sc & E & F2); auto. exists sc. split; auto.
      clear - F2. induction F2; constructor; auto. now constructor.
    - destruct (measure_scores np Margin cols pv NP C F) as (sc & E & F2); auto. exists sc. split; auto.
      clear - F2. induction F2; constructor; auto. now constructor.
    - eexists. split; [reflexivity|]. clear. induction pv as [|r pv IH]; constructor; auto. constructor. reflexivity. }
  destruct P as (pat & EP & FP). destruct (dw_columns (length U) dis LD FD) as (cs & EC & FC).
  pose proof (Forall2_length_eq _ _ _ FP) as LP. pose proof (Forall2_length_eq _ _ _ FC) as LC. unfold range in LC. rewrite seq_length in LC.
  set (div := map (fun c => power (qsum c / of_nat (length dis))%Q) cs).
  set (scores := map (fun e : Q * Q => (fst e * snd e)%Q) (combine pat div)).
  assert (LS : length scores = length U) by (unfold scores, div; rewrite map_length, combine_length, map_length; lia).
  destruct (largest_batch np U scores batch NP LS ltac:(lia)) as (sel & ES & BB).
  exists sel, (fun i => nth i scores 0%Q). unfold density_weighted. cbn [bind]. rewrite EP. unfold guard at 2. rewrite (proj2 (Nat.eqb_eq _ _) L).
  cbn [bind]. rewrite EP. cbn [bind]. rewrite EC. cbn [bind]. fold div. fold scores. unfold guard.
  assert (GB : (length pat =? length div)%nat && (length div =? length U)%nat = true).
  { unfold div. rewrite map_length, andb_true_iff, !Nat.eqb_eq. lia. }
  rewrite GB. cbn [bind]. split; [exact ES|]. split; [exact ES|]. split; [|exact BB].
  intros i row E. destruct (Forall2_nth_error _ _ _ FP i row E) as (u & EU & RU). exists u. split; auto.
  assert (IL : (i < length U)%nat) by (rewrite <- L; apply nth_error_Some; congruence).
  assert (EJ : nth_error (range (length dis)) i = Some i) by (unfold range; rewrite (nth_error_nth' _ 0%nat) by (rewrite seq_length; lia); rewrite seq_nth by lia; reflexivity).
  destruct (Forall2_nth_error _ _ _ FC i i EJ) as (c & Ec & ->).
  unfold scores. erewrite nth_error_nth; [|apply map_nth_error; rewrite nth_error_combine; unfold div; rewrite EU; erewrite map_nth_error by eauto; reflexivity].
  cbn [fst snd]. unfold of_nat. rewrite LD. reflexivity.
Qed.
Print Assumptions C47_density_weighted.

(** Asked for more instances than there are, density weighting does not return them all, unlike the other
    strategies: it returns [batch - |U|] of them. *)
Theorem C47_density_weighted_oversize_refuted : forall (A : Type) np power (U : list A) cols pv dis batch,
  numpy_ok np -> length pv = length U -> length dis = length U -> Forall (fun r => length r = length U) dis ->
  Z.of_nat (length U) < batch ->
  exists sel, density_weighted np power Entropy U cols None (Some pv) dis batch = Ok sel /\
    Z.of_nat (length sel) = Z.min (Z.of_nat (length U)) (batch - Z.of_nat (length U)).
Proof.
  intros A np power U cols pv dis batch [NA NP] L LD FD B.
  destruct (dw_columns (length U) dis LD FD) as (cs & EC & FC). pose proof (Forall2_length_eq _ _ _ FC) as LC. unfold range in LC. rewrite seq_length in LC.
  unfold density_weighted. unfold guard at 1. rewrite (proj2 (Nat.eqb_eq _ _) L). cbn [bind]. rewrite EC. cbn [bind].
  set (div := map (fun c => power (qsum c / of_nat (length dis))%Q) cs). set (pat := map (entropy np) pv).
  assert (GB : (length pat =? length div)%nat && (length div =? length U)%nat = true).
  { unfold pat, div. rewrite !map_length, andb_true_iff, !Nat.eqb_eq. lia. }
  unfold guard. rewrite GB. cbn [bind]. set (scores := map (fun e : Q * Q => (fst e * snd e)%Q) (combine pat div)).
  assert (LS : length scores = length U) by (unfold scores, pat, div; rewrite map_length, combine_length, !map_length; lia).
  destruct (C33_too_many_refuted scores (argsort np scores) batch (NA scores) ltac:(lia)) as (ps & E & LP). rewrite E. cbn [bind].
  destruct (take_ok U ps) as (sel & T & F).
  - intros p J. destruct (NA scores) as [P _]. rewrite <- LS. unfold nlargestarg, guard in E. destruct (Z.ltb_spec 0 batch); [|lia]. cbn [bind] in E. injection E as <-.
    assert (In p (argsort np scores)). { unfold py_slice_from in J. destruct (_ <? 0); eapply skipn_sub; eauto. }
    apply (Permutation_in _ P), in_seq in H0. lia.
  - exists sel. split; auto. apply Forall2_length_eq in F. lia.
Qed.
Print Assumptions C47_density_weighted_oversize_refuted.

(** What is refused. *)
Theorem C47_rejects : forall (A : Type) np m (U : list A) predict batch,
  (batch <= 0 -> select_by_prediction_mat np m U predict batch = (predict, Err AssertErr)) /\
  (0 < batch < Z.of_nat (length U) -> m <> Boundary -> (forall cols rows, predict = Mat cols rows -> cols = 1%nat) ->
     select_by_prediction_mat np m U predict batch = (predict, Err GenericErr)) /\
  (0 < batch < Z.of_nat (length U) -> forall cols rows, predict = Mat cols rows -> cols <> 1%nat ->
     select_by_prediction_mat np Boundary U predict batch = (predict, Err GenericErr)) /\
  (0 < batch < Z.of_nat (length U) -> predict = Deep -> select_by_prediction_mat np Boundary U predict batch = (predict, Err AssertErr)) /\
  (batch <= 0 -> forall score, select_largest np U score batch = Err AssertErr /\ select_smallest np U score batch = Err AssertErr).
Proof.
  intros A np m U predict batch. unfold select_by_prediction_mat, select_largest, select_smallest, guard.
  assert (N : batch <= 0 -> (0 <? batch) = false) by (intro; now apply Z.ltb_ge).
  assert (Y : 0 < batch < Z.of_nat (length U) -> (0 <? batch) = true /\ (Z.of_nat (length U) <=? batch) = false) by (intro; split; [apply Z.ltb_lt|apply Z.leb_gt]; lia).
  split; [intro B; now rewrite (N B)|]. split; [|split; [|split]].
  - intros B NB C. destruct (Y B) as [-> ->]. cbn [negb]. destruct m; [| | |contradiction];
      (destruct predict as [v|cols rows|]; [reflexivity| |reflexivity]; rewrite (C _ _ eq_refl); reflexivity).
  - intros B cols rows -> C. destruct (Y B) as [-> ->]. cbn. unfold guard. rewrite (proj2 (Nat.eqb_neq _ _) C). reflexivity.
  - intros B ->. destruct (Y B) as [-> ->]. reflexivity.
  - intros B score. now rewrite (N B).
Qed.
Print Assumptions C47_rejects.

(** Non-vacuity: three classes, four instances, the two most uncertain by margin; and the two nearest to a boundary. *)
Definition lg0 (x : Q) : Q := (x - 1)%Q.
Example C47_case :
  let U := [10; 20; 30; 40] in
  let rows := [[7#10; 2#10; 1#10]; [1#3; 1#3; 1#3]; [1#10; 5#10; 4#10]; [1#10; 1#10; 8#10]] in
  snd (select_by_prediction_mat (np0 lg0) Margin U (Mat 3 rows) 2) = Ok [30; 20] /\
  snd (select_by_prediction_mat (np0 lg0) Entropy U (Mat 3 rows) 2) = Ok [30; 20] /\
  snd (select_by_prediction_mat (np0 lg0) LeastConfident U (Mat 3 rows) 2) = Ok [30; 20] /\
  snd (select_by_prediction_mat (np0 lg0) Boundary U (Vec [-3#1; 1#1; -1#2; 2#1]) 2) = Ok [30; 20] /\
  select_smallest (np0 lg0) U (Ok [3#1; 1#1; 1#2; 2#1]) 2 = Ok [30; 20] /\
  density_weighted (np0 lg0) (fun x => x) LeastConfident [1; 2; 3] 2 None (Some [[1#2; 1#2]; [1#2; 1#2]; [9#10; 1#10]])
    [[0; 1; 2]; [1; 0; 5]; [2; 5; 0]]%Q 1 = Ok [2] /\
  numpy_ok (np0 lg0).
Proof. repeat (split; [reflexivity|]). apply np0_ok. Qed.

(** ** C48 *)

Theorem C48_margin : forall np row, numpy_ok np -> (2 <= length row)%nat ->
  exists x, margin_score np (length row) row = Ok x /\ top_gap row (- x).
Proof. intros np row NP L. now apply margin_ok. Qed.
Print Assumptions C48_margin.

Theorem C48_least : forall np row, numpy_ok np -> (1 <= length row)%nat ->
  exists x p, least_confident_score np (length row) row = Ok x /\ largest row p /\ (x == 1 - p)%Q.
Proof. intros np row NP L. destruct (least_ok np row (length row) NP eq_refl L) as (x & p & E & LG & EX). exists x, p. split; [auto|]. split; [auto|]. rewrite EX. reflexivity. Qed.
Print Assumptions C48_least.

(** Neither the order of the classes nor the version of numpy matters. *)
Theorem C48_order : forall np np' row row', numpy_ok np -> numpy_ok np' -> Permutation row row' -> (2 <= length row)%nat ->
  (exists x y, margin_score np (length row) row = Ok x /\ margin_score np' (length row') row' = Ok y /\ (x == y)%Q) /\
  (exists x y, least_confident_score np (length row) row = Ok x /\ least_confident_score np' (length row') row' = Ok y /\ (x == y)%Q).
Proof.
  intros np np' row row' NP NP' P L. pose proof (Permutation_length P) as LE. split.
  - destruct (C48_margin np row NP L) as (x & E & T). destruct (C48_margin np' row' NP' ltac:(lia)) as (y & E' & T').
    exists x, y. repeat split; auto. assert (top_gap row (- y)).
    { destruct T' as (a & b & rest & P' & R). exists a, b, rest. split; [now rewrite P|exact R]. }
    pose proof (top_gap_unique _ _ _ T H). lra.
  - destruct (C48_least np row NP ltac:(lia)) as (x & p & E & T & X). destruct (C48_least np' row' NP' ltac:(lia)) as (y & q & E' & T' & Y).
    exists x, y. repeat split; auto. assert (largest row q).
    { destruct T' as [I F]. split; [eapply Permutation_in; [symmetry; eauto|auto]|]. rewrite Forall_forall in *. intros z J. apply F. eapply Permutation_in; eauto. }
    rewrite X, Y, (largest_unique _ _ _ T H). reflexivity.
Qed.
Print Assumptions C48_order.

(** What the caller sees: the instances chosen have the smallest difference of the two largest probabilities,
    respectively the smallest largest probability. *)
Lemma nth_of_best {A} (U : list A) score k sel : NoDup U -> best_batch U score k sel ->
  forall i j x y, nth_error U i = Some x -> nth_error U j = Some y -> In x sel -> ~ In y sel -> (score j <= score i)%Q.
Proof.
  intros ND (ps & NP & LP & F & M) i j x y EI EJ X Y. apply M.
  - clear - F X EI ND. induction F as [|p z ps sel E F IH]; [destruct X|]. destruct X as [->|X]; [left|right; auto].
    apply (proj1 (NoDup_nth_error U) ND); [apply nth_error_Some; congruence|congruence].
  - apply nth_error_Some. congruence.
  - intro J. apply Y. clear - F J EJ. induction F as [|p z ps sel E F IH]; [destruct J|]. destruct J as [->|J]; [left; congruence|right; auto].
Qed.

Theorem C48_ranking : forall (A : Type) np m (U : list A) cols rows batch sel arr,
  numpy_ok np -> NoDup U -> (2 <= cols)%nat -> Forall (fun r => length r = cols) rows -> length rows = length U ->
  0 < batch < Z.of_nat (length U) -> select_by_prediction_mat np m U (Mat cols rows) batch = (arr, Ok sel) ->
  forall i j x y ri rj, nth_error U i = Some x -> nth_error U j = Some y -> nth_error rows i = Some ri -> nth_error rows j = Some rj ->
    In x sel -> ~ In y sel ->
    match m with
    | Margin => forall di dj, top_gap ri di -> top_gap rj dj -> (di <= dj)%Q
    | LeastConfident => forall pi pj, largest ri pi -> largest rj pj -> (pi <= pj)%Q
    | _ => True
    end.
Proof.
  intros A np m U cols rows batch sel arr NP ND C F L B E i j x y ri rj EI EJ RI RJ X Y.
  destruct m; auto; (match goal with |- context [largest] => set (m := LeastConfident) in * | _ => set (m := Margin) in * end);
  (destruct (C47_uncertainty A np m U cols rows batch NP ltac:(discriminate) C F L ltac:(lia)) as (sel' & E' & R);
   rewrite E in E'; injection E' as <-; destruct (Z.leb_spec (Z.of_nat (length U)) batch); [lia|]; destruct R as (score & SC & BB);
   pose proof (nth_of_best U score _ sel ND BB i j x y EI EJ X Y) as LE; pose proof (SC i ri RI) as S1; pose proof (SC j rj RJ) as S2).
  - intros p q P Q0. inversion S1 as [r1 p1 x1 L1 E1| |]; subst. inversion S2 as [r2 p2 x2 L2 E2| |]; subst.
    rewrite (largest_unique _ _ _ P L1), (largest_unique _ _ _ Q0 L2). lra.
  - intros p q P Q0. inversion S1 as [|r1 p1 x1 L1 E1|]; subst. inversion S2 as [|r2 p2 x2 L2 E2|]; subst.
    rewrite (top_gap_unique _ _ _ P L1), (top_gap_unique _ _ _ Q0 L2). lra.
Qed.
Print Assumptions C48_ranking.

(** Non-vacuity: [C47_case] has its margins at 1/2, 0, 1/10 and 7/10. *)
Example C48_case : margin_score (np0 lg0) 3 [1#10; 5#10; 4#10] = Ok ((4#10) - (5#10))%Q /\
  top_gap [1#10; 5#10; 4#10] (1#10) /\ least_confident_score (np0 lg0) 3 [1#10; 5#10; 4#10] = Ok (1 - (5#10))%Q /\ largest [1#10; 5#10; 4#10] (5#10).
Proof.
  split; [reflexivity|]. split; [|split; [reflexivity|]].
  - exists (5#10), (4#10), [1#10]. split; [|split; [lra|split; [repeat constructor; lra|reflexivity]]].
    apply (perm_trans (perm_swap _ _ _)). apply perm_skip, perm_swap.
  - split; [cbn; auto|repeat constructor; lra].
Qed.

(** ** C66 *)

(** Selection by any measure but entropy leaves the array with the predictions as it was. *)
Theorem C66_unchanged : forall (A : Type) np m (U : list A) predict batch,
  m <> Entropy -> fst (select_by_prediction_mat np m U predict batch) = predict.
Proof.
  intros A np m U predict batch N. unfold select_by_prediction_mat. destruct (negb (0 <? batch)); auto.
  destruct (Z.of_nat (length U) <=? batch); auto. destruct m; auto; [| |contradiction]; (destruct predict as [v|[|[|c]] rows|]; reflexivity).
Qed.
Print Assumptions C66_unchanged.

(** Entropy replaces the entries that are not positive, in the caller's array. *)
Theorem C66_entropy : forall (A : Type) np (U : list A) cols rows batch, cols <> 1%nat -> 0 < batch < Z.of_nat (length U) ->
  fst (select_by_prediction_mat np Entropy U (Mat cols rows) batch) = Mat cols (map (map floor6) rows).
Proof.
  intros A np U cols rows batch C B. unfold select_by_prediction_mat. destruct (Z.ltb_spec 0 batch); [|lia]. cbn [negb].
  destruct (Z.leb_spec (Z.of_nat (length U)) batch); [lia|]. destruct cols as [|[|c]]; [|contradiction|]; cbn [fst]; f_equal;
  apply map_ext; intro r; apply map_ext; intro x; apply clip_floor.
Qed.
Print Assumptions C66_entropy.

(** Hence it changes exactly when some probability is not positive, such as that of a class ruled out. *)
Theorem C66_entropy_refuted : forall (A : Type) np (U : list A) cols rows batch, cols <> 1%nat -> 0 < batch < Z.of_nat (length U) ->
  (fst (select_by_prediction_mat np Entropy U (Mat cols rows) batch) <> Mat cols rows <-> exists row x, In row rows /\ In x row /\ (x <= 0)%Q).
Proof.
  intros A np U cols rows batch C B. rewrite C66_entropy by auto.
  assert (ROW : forall row, map floor6 row <> row <-> exists x, In x row /\ (x <= 0)%Q).
  { induction row as [|x row IH]; [split; [intro H; now destruct H|intros (x & [] & _)]|]. cbn [map]. unfold floor6 at 1. destruct (Qlt_le_dec 0 x) as [P|P].
    - split.
      + intro H. assert (N : map floor6 row <> row) by (intro E; apply H; now rewrite E). apply IH in N. destruct N as (y & J & Y). exists y. split; [now right|auto].
      + intros (y & [<-|J] & Y); [lra|]. intro E. injection E as E. apply (proj2 IH); eauto.
    - split; [exists x; split; [now left|auto]|]. intros _ E. injection E as E _. subst x. lra. }
  assert (ROWS : map (map floor6) rows <> rows <-> exists row x, In row rows /\ In x row /\ (x <= 0)%Q).
  { clear C B. induction rows as [|r rows IH]; [split; [intro H; now destruct H|intros (r & x & [] & _)]|]. cbn [map]. split.
    - intro H. destruct (list_eq_dec (fun a b : Q => ltac:(decide equality; [apply Pos.eq_dec|apply Z.eq_dec]) : {a = b} + {a <> b}) (map floor6 r) r) as [E|E].
      + assert (N : map (map floor6) rows <> rows) by (intro E'; apply H; congruence). apply IH in N. destruct N as (r' & x & J & R). exists r', x. split; [now right|auto].
      + apply ROW in E. destruct E as (x & J & X). exists r, x. split; [now left|auto].
    - intros (r' & x & [<-|J] & J' & X) E; injection E as E1 E2; [apply (proj2 (ROW r)); eauto|]. apply (proj2 IH); eauto. }
  rewrite <- ROWS. split; intros H E; apply H; congruence.
Qed.
Print Assumptions C66_entropy_refuted.

Example C66_case : fst (select_by_prediction_mat (np0 lg0) Entropy [1; 2] (Mat 2 [[1; 0]; [1#2; 1#2]]%Q) 1)
  = Mat 2 [[1; 1#1000000]; [1#2; 1#2]]%Q.
Proof. reflexivity. Qed.
