(** C101: training of the label ranking model behind AUDI and AURO. *)
From Coq Require Import QArith Lqa.
From Verif Require Import Base BaseFacts RankModel RankSpec RankProofs RankProofs2.
Local Open Scope Q_scope.

(** A call visits every relevant (instance, class) pair, the dummies included, exactly once. *)
Theorem C101_visits t order pick : fair t order pick ->
  NoDup (visited (add_dummy t) order) /\
  forall i c, In (i, c) (visited (add_dummy t) order) <->
    (i < length (add_dummy t))%nat /\ (c < width (add_dummy t))%nat /\ 1 <= entry_at (add_dummy t) i c.
Proof.
  intros [P _]. pose proof (visited_perm _ _ P) as H. split.
  - eapply Permutation_NoDup; [apply Permutation_sym; exact H|apply train_pairs_NoDup].
  - intros i c. rewrite <- train_pairs_in. split; apply Permutation_in; [exact H|now apply Permutation_sym].
Qed.
Print Assumptions C101_visits.

(** What one visit does, for every state of the model: nothing when no tried class comes within 1 of the
    score of the relevant class, otherwise one gradient step with the first tried class that does. *)
Theorem C101_step d D data t pick m i ins c :
  shaped d D (5 * width t) m -> length (nth ins data []) = d ->
  (c < width t)%nat -> 1 <= entry_at t ins c ->
  (forall j, (j < length (irrelevant t ins c))%nat -> (pick i j < length (irrelevant t ins c))%nat) ->
  let draw j := nth (pick i j) (irrelevant t ins c) O in
  let n := length (irrelevant t ins c) in
  let m' := visit data t pick m (i, (ins, c)) in
  (forall c', In c' (irrelevant t ins c) <-> below t ins c c') /\
  (~ entry_at t ins (width t - 1) == -(1) -> NoDup (irrelevant t ins c)) /\
  (forall j, (j < n)%nat -> below t ins c (draw j)) /\
  shaped d D (5 * width t) m' /\
  (quiet (nth ins data []) c n draw m m' \/ trained (nth ins data []) c n draw m m').
Proof.
  intros Sh Lx Hc Lab P. cbn zeta.
  split; [intro c'; apply irrelevant_in|].
  split; [apply irrelevant_NoDup|].
  split; [intros j Hj; apply irrelevant_in, nth_In; now apply P|].
  split; [now apply visit_shaped|].
  now apply (visit_cases d D).
Qed.
Print Assumptions C101_step.

(** A gradient step never reduces the difference between the two scores, when the squared rate times the
    squared norm of the instance is at most 2 ... *)
Theorem C101_margin d D n m m' x cy cn rate :
  shaped d D n m -> shaped d D n m' -> length x = d -> (cy < n)%nat -> (cn < n)%nat -> cy <> cn ->
  moved x cy cn rate m m' -> 0 <= rate -> rate * rate * dot x x <= 2 ->
  score (m_B m) (m_V m) x cy - score (m_B m) (m_V m) x cn <=
  score (m_B m') (m_V m') x cy - score (m_B m') (m_V m') x cn.
Proof. apply moved_margin. Qed.
Print Assumptions C101_margin.

(** ... but on unscaled features a visit can push the relevant class further below the irrelevant one. *)
Theorem C101_overshoot_refuted :
  ~ (forall d D data t pick m i ins c cy cn rate,
       shaped d D (5 * width t) m -> length (nth ins data []) = d -> (c < width t)%nat -> 1 <= entry_at t ins c ->
       moved (nth ins data []) cy cn rate m (visit data t pick m (i, (ins, c))) -> 0 <= rate ->
       score (m_B m) (m_V m) (nth ins data []) cy - score (m_B m) (m_V m) (nth ins data []) cn <=
       score (m_B (visit data t pick m (i, (ins, c)))) (m_V (visit data t pick m (i, (ins, c)))) (nth ins data []) cy -
       score (m_B (visit data t pick m (i, (ins, c)))) (m_V (visit data t pick m (i, (ins, c)))) (nth ins data []) cn).
Proof.
  intro H.
  set (m := start (repeat [0] 5 ++ repeat [5] 5) [[1]]).
  assert (Sh : shaped 1 1 10 m) by (repeat split; repeat constructor).
  pose proof (gradient_moved 1 1 10 m [100] 0 5 (1 # 20) Sh eq_refl ltac:(lia) ltac:(lia) ltac:(lia)) as M.
  specialize (H 1%nat 1%nat [[100]] [[1; 2]] (fun _ _ => O) m 1%nat O O O 5%nat (1 # 20) Sh eq_refl).
  assert (E : visit [[100]] [[1; 2]] (fun _ _ => O) m (1%nat, (O, O)) =
              gradient m [100] (image (m_V m) [100]) 0 5 (step_size0 * nth 0 (costs 2) 0)) by reflexivity.
  specialize (H ltac:(cbn; lia) ltac:(vm_compute; discriminate)).
  assert (M' : moved [100] 0 5 (1 # 20) m (visit [[100]] [[1; 2]] (fun _ _ => O) m (1%nat, (O, O)))).
  { rewrite E. destruct (gradient_moved 1 1 10 m [100] 0 5 (step_size0 * nth 0 (costs 2) 0) Sh eq_refl
                           ltac:(lia) ltac:(lia) ltac:(lia)) as (G1 & G2 & G3).
    assert (Er : step_size0 * nth 0 (costs 2) 0 == 1 # 20) by reflexivity.
    split; [|split; [|exact G3]]; cbn zeta in *; intros a b.
    - rewrite G1. destruct (Nat.eqb a 0); [now rewrite Er|]. destruct (Nat.eqb a 5); [now rewrite Er|reflexivity].
    - rewrite G2. now rewrite Er. }
  specialize (H M' ltac:(lra)). vm_compute in H. now apply H.
Qed.
Print Assumptions C101_overshoot_refuted.

(** A class that is marked for no instance of any call keeps its sub-models through any history. *)
Theorem C101_unmarked h : forall m c k, (k < 5)%nat ->
  Forall (fun a => fair (k_targets a) (k_order a) (k_pick a) /\ unmarked (k_targets a) c) h ->
  nth (5 * c + k) (m_B (train_all m h)) [] = nth (5 * c + k) (m_B m) [].
Proof.
  induction h as [|a h IH]; intros m c k K F; [reflexivity|]. inversion F as [|? ? [F1 F2] F3]; subst.
  cbn [train_all fold_left]. unfold train_all in IH. rewrite IH by assumption. now apply train_unmarked.
Qed.
Print Assumptions C101_unmarked.

(** Training looks at nothing of the targets but which entries are at least 1, which are -1 and which are
    2, whatever the draws. *)
Theorem C101_marks h h' : Forall2 (fun a b => k_data a = k_data b /\ k_order a = k_order b /\ k_pick a = k_pick b /\
                                    same_marks (k_targets a) (k_targets b)) h h' ->
  forall m, train_all m h = train_all m h'.
Proof.
  induction 1 as [|a b h h' (E1 & E2 & E3 & M) F IH]; intro m; [reflexivity|].
  cbn [train_all fold_left]. unfold train_all in IH. rewrite E1, E2, E3, (train_marks _ _ _ _ _ m M). apply IH.
Qed.
Print Assumptions C101_marks.

(** So "less relevant" (0.5) is not learned: it is the same as unknown (0). *)
Theorem C101_less_relevant data t order pick m :
  train_model data (map (map (fun a => if Qeq_bool a (1 # 2) then 0 else a)) t) order pick m =
  train_model data t order pick m.
Proof.
  apply train_marks. induction t as [|r t IH]; cbn [map]; constructor; [|exact IH].
  induction r as [|a r IHr]; cbn [map]; constructor; [|exact IHr].
  destruct (Qeq_bool a (1 # 2)) eqn:E; [|repeat split; intro; assumption].
  apply Qeq_bool_iff in E. repeat split; intro H; exfalso; try (rewrite E in H); lra.
Qed.
Print Assumptions C101_less_relevant.

(** The averages: a call adds to the sums the B and V of exactly the kept states, of which there is one or
    more as soon as there is an instance. *)
Theorem C101_average d D w data t order pick m :
  fair t order pick -> matrix w t -> shaped d D (5 * width (add_dummy t)) m ->
  sums_ok d D (5 * width (add_dummy t)) m ->
  let m' := train_model data t order pick m in
  let l := kept (after (visit data (add_dummy t) pick) m
                       (combine (seq 0 (length order)) (visited (add_dummy t) order))) in
  (1 <= length l)%nat /\ m_Anum m' = (m_Anum m + length l)%nat /\
  (forall q r, summed (m_AB m') q r == summed (m_AB m) q r + total (fun s => nth r (nth q (m_B s) []) 0) l) /\
  (forall q r, summed (m_AV m') q r == summed (m_AV m) q r + total (fun s => nth r (nth q (m_V s) []) 0) l).
Proof.
  intros F M Sh So. cbn zeta.
  destruct (train_average d D data t order pick m F Sh So) as (_ & H2 & H3 & H4).
  split; [exact (train_keeps w data t order pick m M F)|]. auto.
Qed.
Print Assumptions C101_average.

(** After any history of one or more calls the averaged model exists, with the shape prediction needs, and
    its entries are the products of the averages. *)
Theorem C101_ready d D w h B V :
  h <> [] -> shaped d D (5 * w) (start B V) ->
  Forall (fun a => fair (k_targets a) (k_order a) (k_pick a) /\ width (add_dummy (k_targets a)) = w /\
                   exists v, matrix v (k_targets a)) h ->
  let m := train_all (start B V) h in
  let mean s := s / inject_Z (Z.of_nat (m_Anum m)) in
  (length h <= m_Anum m)%nat /\
  exists bv, get_BV d m = Some bv /\ length bv = d /\ Forall (fun r => length r = (5 * w)%nat) bv /\
    forall e q, (e < d)%nat -> (q < 5 * w)%nat ->
      nth q (nth e bv []) 0 == sum_below D (fun r => mean (summed (m_AV m) r e) * mean (summed (m_AB m) q r)).
Proof.
  intros N Sh F. cbn zeta.
  assert (H : forall h m, shaped d D (5 * w) m -> sums_ok d D (5 * w) m ->
      Forall (fun a => fair (k_targets a) (k_order a) (k_pick a) /\ width (add_dummy (k_targets a)) = w /\
                   exists v, matrix v (k_targets a)) h ->
      sums_ok d D (5 * w) (train_all m h) /\ (m_Anum m + length h <= m_Anum (train_all m h))%nat).
  { clear. induction h as [|a h IH]; intros m Sh So F; [split; [exact So|cbn; lia]|].
    inversion F as [|? ? (F1 & F2 & v & F3) F4]; subst.
    cbn [train_all fold_left]. fold (train_all (train_model (k_data a) (k_targets a) (k_order a) (k_pick a) m) h).
    destruct (train_average d D (k_data a) _ _ _ m F1 Sh So) as (A1 & A2 & _).
    pose proof (train_shaped d D (k_data a) _ _ _ m F1 Sh) as A3.
    pose proof (train_keeps v (k_data a) _ _ _ m F3 F1) as A4.
    destruct (IH _ A3 A1 F4) as (I1 & I2). split; [exact I1|]. cbn [length]. lia. }
  destruct (H h (start B V) Sh) as (H1 & H2); [split; reflexivity|exact F|].
  cbn [start m_Anum] in H2. split; [exact H2|].
  apply get_BV_ok; [exact H1|]. destruct h; [congruence|cbn [length] in H2; lia].
Qed.
Print Assumptions C101_ready.

(** Non-vacuity: two instances, two labels and the dummy, five pairs. *)
Definition ex_t : list vec := [[1; -(1)]; [0; 1]].
Definition ex_m : model := start (repeat [1; 0] 5 ++ repeat [0; 1] 5 ++ repeat [0; 0] 5) [[1; 0]; [0; 1]].
Definition ex_order : list nat := [2; 0; 3; 1]%nat.

Example C101_case :
  fair ex_t ex_order (fun _ _ => O) /\ matrix 2 ex_t /\ shaped 2 2 (5 * width (add_dummy ex_t)) ex_m /\
  sums_ok 2 2 (5 * width (add_dummy ex_t)) ex_m /\
  visited (add_dummy ex_t) ex_order = [(1, 1); (0, 0); (1, 2); (0, 2)]%nat /\
  let m' := train_model [[1; 2]; [-(1); 1]] ex_t ex_order (fun _ _ => O) ex_m in
  m_rounds m' = 2%nat /\ m_Anum m' = 1%nat /\
  map (map Qred) (map (fun q => nth q (m_B m') []) [0; 5; 10]%nat) <>
  map (map Qred) (map (fun q => nth q (m_B ex_m) []) [0; 5; 10]%nat).
Proof.
  split; [|split; [|split; [|split; [|split; [|cbn zeta; split; [|split]]]]]].
  - split.
    + apply NoDup_Permutation; [repeat constructor; cbn; intuition lia|apply seq_NoDup|].
      intro x. change (length (train_pairs (add_dummy ex_t))) with 4%nat. cbn. lia.
    + intros i ins c H j Hj. lia.
  - split; [discriminate|repeat constructor].
  - repeat split; repeat constructor.
  - split; reflexivity.
  - reflexivity.
  - vm_compute. reflexivity.
  - vm_compute. reflexivity.
  - vm_compute. discriminate.
Qed.

(** An unmarked class: label 0 of no instance is marked. *)
Example C101_unmarked_case : unmarked [[0; 1]; [1 # 2; -(1)]] 0 /\ ~ unmarked ex_t 0.
Proof.
  split.
  - split; [cbn; lia|]. intros [|[|[|i]]]; vm_compute; split; intro H; try discriminate H; now apply H.
  - intros [_ H]. destruct (H O) as [H1 _]. apply H1. vm_compute. discriminate.
Qed.
