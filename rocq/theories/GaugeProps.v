(** Property C138: the core-set selection looks only at the order of the distances. *)
From Verif Require Import Base BaseFacts MiscModel MiscSpec QueryModel QuerySpec QueryProofs QueryProps QueryNumpy GaugeSpec.
From Coq Require Import QArith Lqa.
Local Open Scope Z_scope.

Definition keep_sentinel (f : Q -> Q) (x : Q) : Q := if Qlt_le_dec x 0 then x else f x.
Lemma sentinel_le f a b : same_order f -> Qle_bool (keep_sentinel f a) (keep_sentinel f b) = Qle_bool a b.
Proof.
  intros [P M]. apply eq_true_iff_eq. rewrite !Qle_bool_iff. unfold keep_sentinel. destruct (Qlt_le_dec a 0) as [A|A], (Qlt_le_dec b 0) as [B|B].
  - reflexivity.
  - specialize (P b B). split; intro; lra.
  - specialize (P a A). split; intro; lra.
  - symmetry. now apply M.
Qed.
Lemma sentinel_min f a b : same_order f -> qmin (keep_sentinel f a) (keep_sentinel f b) = keep_sentinel f (qmin a b).
Proof. intro S. unfold qmin. rewrite sentinel_le by auto. now destruct (Qle_bool a b). Qed.
Lemma sentinel_argmax f l : same_order f -> argmax (map (keep_sentinel f) l) = argmax l.
Proof.
  intro S. destruct l as [|v l]; [reflexivity|]. cbn [map argmax]. f_equal. generalize 0%nat, 1%nat. revert v.
  induction l as [|w l IH]; intros v best i; cbn [map argmax_from]; [auto|]. rewrite sentinel_le by auto. destruct (Qle_bool w v); apply IH.
Qed.
Lemma sentinel_assign f ps l : map (keep_sentinel f) (assign ps (fun _ => - (100))%Q l) = assign ps (fun _ => - (100))%Q (map (keep_sentinel f) l).
Proof.
  unfold assign. rewrite map_length. generalize 0%nat. induction l as [|v l IH]; intro k; cbn [length seq combine map fst snd]; [auto|]. f_equal; [|apply IH].
  destruct (mem k ps); reflexivity.
Qed.

Record alike (f : Q -> Q) (s s' : coreset) : Prop := {
  al_train : ctrain s' = ctrain s; al_sel : already_selected s' = already_selected s;
  al_dist : forall p q, cdist s' p q = keep_sentinel f (cdist s p q);
  al_min : min_distances s' = option_map (map (keep_sentinel f)) (min_distances s) }.

Lemma alike_update f s s' cs : same_order f -> alike f s s' -> alike f (update_distances s cs) (update_distances s' cs).
Proof.
  intros S [T A D M]. unfold update_distances. rewrite A, T. destruct (filter _ cs) as [|c cs']; [constructor; auto|]. constructor; cbn; auto. f_equal.
  assert (N : forall p, nearest s' c cs' p = keep_sentinel f (nearest s c cs' p)).
  { intro p. unfold nearest. rewrite D. generalize (cdist s p c). induction cs' as [|d cs' IH]; intro x; cbn; [auto|]. rewrite D, sentinel_min by auto. apply IH. }
  rewrite (map_ext _ _ N), <- (map_map (nearest s c cs') (keep_sentinel f)), M. generalize (map (nearest s c cs') (seq 0 (length (ctrain s)))). intro l.
  destruct (min_distances s) as [d|]; cbn [option_map]; [|auto]. clear M. revert l. induction d as [|x d IH]; intros [|y l]; cbn; auto. rewrite sentinel_min by auto. f_equal. apply IH.
Qed.
Lemma alike_loop f U : same_order f -> forall k s s' acc, alike f s s' ->
  snd (coreset_loop k s' U acc) = snd (coreset_loop k s U acc) /\ alike f (fst (coreset_loop k s U acc)) (fst (coreset_loop k s' U acc)).
Proof.
  intro S. induction k as [|k IH]; intros s s' acc A; cbn [coreset_loop]; [split; [auto|exact A]|]. pose proof A as [T SE D M]. rewrite M.
  destruct (min_distances s) as [d|] eqn:Ed; cbn [option_map]; [|split; [auto|exact A]]. rewrite sentinel_argmax by auto.
  destruct (argmax d) as [ind|e]; [|split; [auto|exact A]]. rewrite SE, T. destruct (mem ind (already_selected s)); [split; [auto|exact A]|].
  destruct (nth_error (ctrain s) ind) as [x|]; [|split; [auto|exact A]]. destruct (negb (existsb (Z.eqb x) U)); [split; [auto|exact A]|]. apply IH.
  pose proof (alike_update f s s' [ind] S A) as [T' SE' D' M']. constructor; cbn; auto. rewrite M'. destruct (min_distances (update_distances s [ind])); cbn; [|auto].
  f_equal. symmetry. apply sentinel_assign.
Qed.
Lemma alike_select f s s' L U b : same_order f -> alike f s s' ->
  snd (coreset_select s' L U b) = snd (coreset_select s L U b) /\ alike f (fst (coreset_select s L U b)) (fst (coreset_select s' L U b)).
Proof.
  intros S A. unfold coreset_select. rewrite (al_train f s s' A). destruct (mapM _ L) as [lab|e]; [|split; [auto|exact A]].
  pose proof (alike_update f s s' lab S A) as A1. pose proof A1 as [T SE D M]. rewrite M. destruct (min_distances (update_distances s lab)) as [d|]; cbn [option_map]; [|split; [auto|exact A1]].
  apply alike_loop; [auto|]. constructor; cbn; auto. f_equal. symmetry. apply sentinel_assign.
Qed.

(** Two selectors on the same data, one measuring the distances in another way that orders them alike (another unit, or squared), give
    the same answers, exceptions included, in every series of calls. *)
Theorem C138_coreset : forall train dist f calls, same_order f -> (forall p q, (0 <= dist p q)%Q) ->
  core_results (new_coreset train (fun p q => f (dist p q))) calls = core_results (new_coreset train dist) calls.
Proof.
  intros train dist f calls S P.
  assert (A : alike f (new_coreset train dist) (new_coreset train (fun p q => f (dist p q)))).
  { constructor; cbn; auto. intros p q. unfold keep_sentinel. destruct (Qlt_le_dec (dist p q) 0); [|auto]. specialize (P p q). lra. }
  revert A. generalize (new_coreset train dist), (new_coreset train (fun p q => f (dist p q))). induction calls as [|[[L U] b] calls IH]; intros s s' A; cbn; [auto|].
  destruct (alike_select f s s' L U b S A) as [E A']. rewrite E. f_equal. now apply IH.
Qed.
Print Assumptions C138_coreset.

(** The order has to be kept: with distances that are only not reversed, ties appear and the answer changes. *)
Theorem C138_ties_refuted : exists train dist f calls, (forall p q, (0 <= dist p q)%Q) /\ (forall x, 0 <= x -> 0 <= f x)%Q /\ (forall x y, x <= y -> f x <= f y)%Q /\
  core_results (new_coreset train (fun p q => f (dist p q))) calls <> core_results (new_coreset train dist) calls.
Proof.
  exists [10; 11; 12], (fun p q => inject_Z (Z.abs (Z.of_nat p - Z.of_nat q))), (fun x => if Qle_bool x 0 then 0%Q else 1%Q), [([10], [11; 12], 1)].
  split; [intros p q; cbn; unfold Qle; cbn; lia|]. split; [intros x _; destruct (Qle_bool x 0); lra|]. split.
  - intros x y H. destruct (Qle_bool x 0) eqn:A, (Qle_bool y 0) eqn:B; try lra. apply Qle_bool_iff in B. assert (x <= 0)%Q by lra. apply Qle_bool_iff in H0. congruence.
  - vm_compute. discriminate.
Qed.
Print Assumptions C138_ties_refuted.

(** Density weighting with distances in another unit: the selection is a best one for the distances as they were. *)
Theorem C138_density : forall (A : Type) np power m (U : list A) cols pv dis c k batch sel,
  numpy_ok np -> m <> Boundary -> (2 <= cols)%nat -> Forall (fun r => length r = cols) pv -> length pv = length U ->
  length dis = length U -> Forall (fun r => length r = length U) dis -> 0 < batch <= Z.of_nat (length U) ->
  (forall x y, x == y -> power x == power y)%Q -> (0 < k)%Q -> (forall x, power (c * x) == k * power x)%Q ->
  density_weighted np power m U cols None (Some pv) (map (map (Qmult c)) dis) batch = Ok sel ->
  exists score, (forall i row, nth_error pv i = Some row ->
       exists u, uncertain_raw (log np) m row u /\ (score i == u * power (total (column 0%Q dis i) / inject_Z (Z.of_nat (length U))))%Q) /\
    best_batch U score (Z.to_nat batch) sel.
Proof.
  intros A np power m U cols pv dis c k batch sel NP NB C F L LD FD B PR K H E.
  destruct (C47_density_weighted A np power m U cols pv (map (map (Qmult c)) dis) batch NP NB C F L) as (sel' & score & _ & E' & SC & BB).
  - now rewrite map_length.
  - rewrite Forall_forall in *. intros r R. apply in_map_iff in R. destruct R as (r' & <- & R). rewrite map_length. auto.
  - auto.
  - rewrite E in E'. injection E' as <-. exists (fun i => score i / k)%Q. split.
    + intros i row Ei. destruct (SC i row Ei) as (u & Un & S). exists u. split; [auto|]. rewrite S.
      assert (T : (total (column 0%Q (map (map (Qmult c)) dis) i) == c * total (column 0%Q dis i))%Q).
      { assert (I : (i < length U)%nat) by (rewrite <- L; apply nth_error_Some; congruence). clear - I FD. unfold column, total. induction dis as [|r dis IH]; cbn; [ring|].
        inversion FD; subst. rewrite IH by auto. rewrite (nth_indep _ 0%Q (c * 0)%Q) by (rewrite map_length; lia). rewrite map_nth. ring. }
      rewrite (PR (total (column 0%Q (map (map (Qmult c)) dis) i) / inject_Z (Z.of_nat (length U)))%Q (c * (total (column 0%Q dis i) / inject_Z (Z.of_nat (length U))))%Q)
        by (rewrite T; unfold Qdiv; ring). rewrite H. field. lra.
    + destruct BB as (ps & ND & LP & F2 & M). exists ps. split; [auto|]. split; [auto|]. split; [auto|]. intros p q Hp Hq N. specialize (M p q Hp Hq N).
      unfold Qdiv. apply Qmult_le_compat_r; [auto|]. apply Qlt_le_weak, Qinv_lt_0_compat. auto.
Qed.
Print Assumptions C138_density.

(** Squaring keeps the order; the same three instances by distances and by squared distances. *)
Lemma square_order : same_order (fun x => x * x)%Q.
Proof. split; intros; [nra|]. split; intro; [nra|]. destruct (Qlt_le_dec y x); [nra|auto]. Qed.
Example C138_case : same_order (fun x => x * x)%Q /\
  core_results (new_coreset [10; 11; 12; 13] (fun p q => inject_Z (Z.abs (Z.of_nat p - Z.of_nat q)))) [([11], [10; 12; 13], 1); ([11; 13], [10; 12], 1)] = [Ok [13]; Ok [10]] /\
  (0 < 9)%Q /\ forall x, ((fun x => x * x) (3 * x) == 9 * (fun x => x * x) x)%Q.
Proof. split; [apply square_order|]. split; [vm_compute; reflexivity|]. split; [reflexivity|]. intro x. ring. Qed.
