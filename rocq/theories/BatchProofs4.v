(** Proofs that the linear systems and the loop of ADMM find the best model and the best values in turn. *)
From Verif Require Import Base BaseFacts IndexModel MiscModel MiscSpec QueryModel QuerySpec BatchModel BatchSpec BatchSums BatchProofs BatchProofs2 BatchProofs3.
From Coq Require Import QArith Qabs Lqa Qfield.
Local Open Scope Z_scope.

Definition mat_pred (K : list (list Q)) (cols : list Z) (v : list Q) (i : Z) : Q := qsum (map2 (fun x j => kat K i j * x)%Q v cols).
Lemma mdot_map K rows cols v : mdot K rows cols v = map (mat_pred K cols v) rows.
Proof. reflexivity. Qed.

Lemma qsum_total l : qsum l = total l.
Proof. reflexivity. Qed.

Lemma mat_pred_sum K cols v i : length v = length cols ->
  (mat_pred K cols v i == sum (length cols) (fun c => nth c v 0 * entry K i (nth c cols 0%Z)))%Q.
Proof.
  intro E. unfold mat_pred, map2. rewrite qsum_total, (total_sum (0%Q, 0)), combine_length, E, Nat.min_id. apply sum_ext. intros c _.
  rewrite combine_nth by auto. cbn [fst snd]. unfold kat, entry. ring.
Qed.

Lemma outer_sum K cols i j : (outer K cols i j == sum (length cols) (fun c => entry K i (nth c cols 0%Z) * entry K j (nth c cols 0%Z)))%Q.
Proof. unfold outer. rewrite qsum_total, (total_sum 0). reflexivity. Qed.

Lemma over_sum L x h : length x = length L -> (over (combine L x) h == sum (length L) (fun i => nth i x 0 * h (nth i L 0%Z)))%Q.
Proof.
  intro E. unfold over. rewrite (total_sum (0, 0%Q)), combine_length, E, Nat.min_id. apply sum_ext. intros i _. rewrite combine_nth by auto. reflexivity.
Qed.

Lemma solves_map (a : Z -> Z -> Q) (f : Z -> Q) L x : solves (map (fun i => map (a i) L) L) (map f L) x ->
  length x = length L /\ forall i, (i < length L)%nat -> (sum (length L) (fun j => nth j x 0 * a (nth i L 0%Z) (nth j L 0%Z)) == f (nth i L 0%Z))%Q.
Proof.
  intros [E H]. rewrite map_length in E. split; [exact E|]. intros i Hi.
  assert (H' : forall i, In i L -> (dot (map (a i) L) x == f i)%Q).
  { assert (Gen : forall V, Forall2 (fun row v => (dot row x == v)%Q) (map (fun i => map (a i) L) V) (map f V) -> forall i, In i V -> (dot (map (a i) L) x == f i)%Q).
    { induction V as [|v V IH]; intros F j J; [destruct J|]. cbn [map] in F. inversion F; subst. destruct J as [<-|J]; auto. }
    apply Gen, H. }
  rewrite <- (H' (nth i L 0)) by (apply nth_In, Hi). rewrite dot_map, over_sum by exact E. reflexivity.
Qed.

Section System.
Variables (K : list (list Q)) (gamma rho : Q) (y L cols : list Z) (z delta : list Q).
Hypothesis lz : length z = length cols.
Hypothesis ld : length delta = length cols.
Let n := length L.
Let m := length cols.
Let k (i j : nat) : Q := entry K (nth i L 0) (nth j L 0).
Let bb (i c : nat) : Q := entry K (nth i L 0) (nth c cols 0).
Let yy (i : nat) : Q := inject_Z (nth (Z.to_nat (nth i L 0)) y 0).

Lemma labels_length : length (labels y L) = length L.
Proof. clear. apply map_length. Qed.
Lemma labels_nth i : (i < n)%nat -> nth i (labels y L) 0%Q = yy i.
Proof.
  clear. intro H. unfold labels, yy. rewrite (nth_indep _ 0%Q (inject_Z (nth (Z.to_nat 0) y 0))) by (rewrite map_length; exact H).
  rewrite (map_nth (fun i => inject_Z (nth (Z.to_nat i) y 0))). reflexivity.
Qed.

Lemma bmdr_system x : solves (bmdr_A K gamma rho L cols) (bmdr_r K rho y L cols z delta) x ->
  length x = length L /\
  forall i, (i < n)%nat -> (G n m k bb yy (fun c => nth c z 0) (fun c => nth c delta 0) gamma rho (fun i => nth i x 0) i == 0)%Q.
Proof.
  unfold bmdr_A, bmdr_r. rewrite vdot_map, !mdot_map, !map_map, !map2_map. intro H. apply solves_map in H as [E H]. split; [exact E|].
  intros i Hi. unfold G. specialize (H i Hi).
  assert (P1 : (at_pred K L (labels y L) (nth i L 0%Z) == sum n (fun j => yy j * k j i))%Q).
  { rewrite at_pred_eq, predicts_sum by apply labels_length. apply sum_ext. intros j Hj. rewrite labels_nth by exact Hj. reflexivity. }
  rewrite P1, !mat_pred_sum in H by auto. fold m in H.
  match type of H with (?a == _)%Q => assert (P2 : (a == sum n (fun j => nth j x 0 * (sum n (fun k0 => k i k0 * k k0 j) + rho / 2 * sum m (fun c => bb i c * bb j c) + gamma * k i j)))%Q) end.
  { apply sum_ext. intros j Hj. rewrite outer_sum, qsum_total, (total_sum 0). reflexivity. }
  rewrite P2 in H. rewrite H. unfold bb. ring.
Qed.

Lemma spal_system x : mirrored K -> solves (spal_A K gamma rho L cols) (spal_r K rho y L cols z delta) x ->
  length x = length L /\
  forall i, (i < n)%nat -> (G n m k bb yy (fun c => nth c z 0) (fun c => nth c delta 0) gamma rho (fun i => nth i x 0) i == 0)%Q.
Proof.
  intro S. unfold spal_A, spal_r. rewrite !mdot_map, !map_map, !map2_map. intro H. apply solves_map in H as [E H]. split; [exact E|].
  intros i Hi. unfold G. specialize (H i Hi).
  assert (P1 : (mat_pred K L (labels y L) (nth i L 0%Z) == sum n (fun j => yy j * k j i))%Q).
  { rewrite mat_pred_sum by apply labels_length. apply sum_ext. intros j Hj. rewrite labels_nth by exact Hj. rewrite (S (nth i L 0) (nth j L 0)). reflexivity. }
  rewrite P1 in H. rewrite !mat_pred_sum in H by auto. fold m in H.
  match type of H with (?a == _)%Q => assert (P2 : (a == 2 * sum n (fun j => nth j x 0 * (sum n (fun k0 => k i k0 * k k0 j) + rho / 2 * sum m (fun c => bb i c * bb j c) + gamma * k i j)))%Q) end.
  { rewrite <- sum_scal. apply sum_ext. intros j Hj. rewrite outer_sum, qsum_total, (total_sum 0).
    transitivity (nth j x 0 * (2 * sum n (fun k0 => k i k0 * k k0 j) + rho * sum m (fun c => bb i c * bb j c) + 2 * gamma * k i j))%Q; [reflexivity|]. field. }
  rewrite P2 in H.
  set (T := sum n (fun j => nth j x 0 * (sum n (fun k0 => k i k0 * k k0 j) + rho / 2 * sum m (fun c => bb i c * bb j c) + gamma * k i j))%Q) in *.
  unfold bb. set (a := sum m (fun c => nth c z 0 * entry K (nth i L 0%Z) (nth c cols 0%Z))%Q) in *.
  set (b := sum m (fun c => nth c delta 0 * entry K (nth i L 0%Z) (nth c cols 0%Z))%Q) in *.
  assert (R : (rho / 2 * a == (1 # 2) * (rho * a))%Q) by field. rewrite R. lra.
Qed.
End System.

Lemma map2_nth {A B C} (f : A -> B -> C) a b i da db dc : (i < length a)%nat -> (i < length b)%nat ->
  nth i (map2 f a b) dc = f (nth i a da) (nth i b db).
Proof.
  unfold map2. revert b i. induction a as [|x a IH]; intros [|y b] [|i] Ha Hb; cbn in *; try lia; [reflexivity|]. apply IH; lia.
Qed.

(** ** The loop *)
Lemma admm_alternates num K gamma rho y L cols ws A r upd :
  mirrored K -> semidefinite K L -> (0 <= gamma)%Q -> (0 <= rho)%Q -> length ws = length cols ->
  (forall z delta, length z = length cols -> length delta = length cols ->
     best_model K gamma rho y L cols ws (pinv_dot num A (r z delta)) z delta) ->
  (forall w t d, In w ws -> forall a, (coord w rho t d (upd w t d) <= coord w rho t d a)%Q) ->
  forall iters tau z delta, (0 < iters)%nat -> length z = length cols -> length delta = length cols ->
  alternates (converged num) K gamma rho y L cols ws iters z delta (admm num K L rho cols ws A r upd iters tau z delta).
Proof.
  intros S P G0 R0 LW HM HU. induction iters as [|k IH]; intros tau z delta I LZ LD; [lia|]. cbn [admm].
  set (x := pinv_dot num A (r z delta)). set (t := vdot K L cols x).
  set (z' := map2 (fun wt d => upd (fst wt) (snd wt) d) (combine ws t) delta).
  set (d' := map2 Qplus delta (map2 (fun a b => rho * (a - b))%Q z' t)).
  assert (ST : says K L x cols t) by apply vdot_predicts.
  destruct (values_least K rho L x upd cols ws t delta LW LD ST HU) as [LZ' HZ']. fold z' in LZ', HZ'.
  assert (BV : best_values K gamma rho y L cols ws x z' delta).
  { split; [exact LZ'|]. intros w EW. rewrite !lagrangian_z. specialize (HZ' w EW). lra. }
  assert (LT : length t = length cols) by apply vdot_length.
  assert (LD' : length d' = length cols) by (unfold d'; rewrite !map2_length; lia).
  assert (AS : ascends rho t z' delta d').
  { split; [lia|]. intros i Hi. unfold d'. rewrite (map2_nth _ _ _ i 0%Q 0%Q) by (rewrite ?map2_length; lia).
    rewrite (map2_nth _ z' t i 0%Q 0%Q) by lia. reflexivity. }
  destruct (converged num t z' z d') eqn:C.
  - eapply alt_stop; eauto.
  - destruct k as [|k].
    + cbn [admm]. eapply alt_stop; eauto.
    + eapply alt_more; eauto. apply IH; auto; lia.
Qed.

Lemma bmdr_admm num K gamma rho y L cols :
  mirrored K -> semidefinite K L -> (0 <= gamma)%Q -> (0 <= rho)%Q ->
  (forall z delta, solves (bmdr_A K gamma rho L cols) (bmdr_r K rho y L cols z delta)
                     (pinv_dot num (bmdr_A K gamma rho L cols) (bmdr_r K rho y L cols z delta))) ->
  forall iters tau z delta, (0 < iters)%nat -> length z = length cols -> length delta = length cols ->
  alternates (converged num) K gamma rho y L cols (ones (length cols)) iters z delta
    (admm num K L rho cols (ones (length cols)) (bmdr_A K gamma rho L cols) (bmdr_r K rho y L cols) (fun _ t d => bmdr_z rho t d) iters tau z delta).
Proof.
  intros S P G0 R0 HS. apply admm_alternates; auto using ones_length.
  - intros z delta LZ LD. destruct (bmdr_system K gamma rho y L cols z delta LZ LD _ (HS z delta)) as [E H].
    apply model_least; auto.
  - intros w t d J a. apply repeat_spec in J. subst. apply bmdr_z_least, R0.
Qed.

Lemma spal_admm num K gamma rho y L cols ws :
  mirrored K -> semidefinite K L -> (0 <= gamma)%Q -> (0 <= rho)%Q -> length ws = length cols ->
  (forall z delta, solves (spal_A K gamma rho L cols) (spal_r K rho y L cols z delta)
                     (pinv_dot num (spal_A K gamma rho L cols) (spal_r K rho y L cols z delta))) ->
  (forall w, In w ws -> 0 <= w /\ 0 < sqrt num (w + rho / 2) /\ sqrt num (w + rho / 2) * sqrt num (w + rho / 2) == w + rho / 2)%Q ->
  forall iters tau z delta, (0 < iters)%nat -> length z = length cols -> length delta = length cols ->
  alternates (converged num) K gamma rho y L cols ws iters z delta
    (admm num K L rho cols ws (spal_A K gamma rho L cols) (spal_r K rho y L cols) (spal_z num rho) iters tau z delta).
Proof.
  intros S P G0 R0 LW HS HW. apply admm_alternates; auto.
  - intros z delta LZ LD. destruct (spal_system K gamma rho y L cols z delta LZ LD _ S (HS z delta)) as [E H].
    apply model_least; auto.
  - intros w t d J a. destruct (HW w J) as (W0 & W1 & W2). apply spal_z_least; auto.
Qed.
