(** Property C81: metrics called by name. *)
From Verif Require Import Base BaseFacts MiscModel MiscSpec MiscProofs MetricModel MetricSpec MetricProofs MetricProofs2 MetricProofs3 MetricProofs4 MetricProofs7 MetricProps PerfModel.
From Coq Require Import QArith Lqa Qfield String.
Local Open Scope Z_scope.
Local Open Scope string_scope.

(** The names that the documentation of [calc_performance_metric] lists. *)
Definition documented : list string :=
  ["accuracy_score"; "roc_auc_score"; "get_fps_tps_thresholds"; "hamming_loss"; "f1_score";
   "one_error"; "coverage_error"; "label_ranking_loss"; "label_ranking_average_precision_score"].
(** The metrics of scores. *)
Definition of_scores : list string :=
  ["roc_auc_score"; "get_fps_tps_thresholds"; "coverage_error"; "label_ranking_loss"; "label_ranking_average_precision_score"].
(** [c] is the column of the first entries of the rows. *)
Definition first_of {A} (rows : list (list A)) (c : list A) : Prop := Forall2 (fun r x => nth_error r 0 = Some x) rows c.

Lemma is_in_iff n l : is_in n l = true <-> In n l.
Proof.
  unfold is_in. rewrite existsb_exists. split.
  - intros (x & I & E). apply String.eqb_eq in E. now subst.
  - intro I. exists n. split; auto. apply String.eqb_refl.
Qed.

(** Names outside the list are rejected, whatever the arrays. *)
Theorem C81_unknown : forall name y p w pos,
  ~ In name documented -> calc_performance_metric y p name w pos = Some (Err NotImplErr).
Proof.
  intros name y p w pos H. unfold calc_performance_metric. destruct (is_in name valid_metric) eqn:E; [|reflexivity].
  exfalso. apply H. apply (proj1 (is_in_iff _ _)) in E. unfold valid_metric, documented in *. cbn in *. intuition.
Qed.
Print Assumptions C81_unknown.

(** Labels: the metric of the name is computed on the arrays given. *)
Theorem C81_vectors : forall a b, List.length a = List.length b -> a <> [] ->
  (exists q k, calc_performance_metric (T1 a) (PLabels (T1 b)) "accuracy_score" None None = Some (Ok (Score (Num q))) /\
     how_many (fun i => exists x, nth_error a i = Some x /\ nth_error b i = Some x) k /\ (q == ratio k (List.length a))%Q) /\
  (exists q k, calc_performance_metric (T1 a) (PLabels (T1 b)) "hamming_loss" None None = Some (Ok (Score (Num q))) /\
     how_many (fun i => exists x y, nth_error a i = Some x /\ nth_error b i = Some y /\ x <> y) k /\ (q == ratio k (List.length a))%Q).
Proof.
  intros a b L NE. destruct (C37_vectors a b L NE) as (q & k & E & H & V & _). destruct (C38_vectors a b L NE) as (q' & k' & E' & H' & V' & _).
  split.
  - exists q, k. cbn. rewrite E. auto.
  - exists q', k'. cbn. rewrite E'. auto.
Qed.
Print Assumptions C81_vectors.

(** The weights are passed on to the metric. *)
Theorem C81_weights : forall a b w, List.length a = List.length b -> a <> [] -> List.length w = List.length a -> ~ (total w == 0)%Q ->
  exists q, calc_performance_metric (T1 a) (PLabels (T1 b)) "accuracy_score" (Some w) None = Some (Ok (Score (Num q))) /\
    averages (fun p => indicates (fst p = snd p)) (combine a b) (Some w) q.
Proof.
  intros a b w L NE LW T. destruct (proj1 (C37_weighted w T) a b L NE LW) as (q & E & V). exists q. cbn. rewrite E. auto.
Qed.
Print Assumptions C81_weights.

Theorem C81_matrices : forall a b n m, matrix a n m -> matrix b n m -> (0 < n)%nat -> (1 < m)%nat -> two_valued a -> two_valued b ->
  (exists q k, calc_performance_metric (T2 a) (PLabels (T2 b)) "accuracy_score" None None = Some (Ok (Score (Num q))) /\
     how_many (fun i => exists r, nth_error a i = Some r /\ nth_error b i = Some r) k /\ (q == ratio k n)%Q) /\
  (exists q k, calc_performance_metric (T2 a) (PLabels (T2 b)) "hamming_loss" None None = Some (Ok (Score (Num q))) /\
     how_many (fun ij => exists x y, cell a (fst ij) (snd ij) x /\ cell b (fst ij) (snd ij) y /\ x <> y) k /\ (q == ratio k (n * m))%Q) /\
  (exists q k, calc_performance_metric (T2 a) (PLabels (T2 b)) "one_error" None None = Some (Ok (Score (Num q))) /\
     how_many (fun i => exists r s, nth_error a i = Some r /\ nth_error b i = Some s /\ fold_right Z.add 0 r = fold_right Z.add 0 s) k /\ (q == ratio k n)%Q).
Proof.
  intros a b n m MA MB N M TA TB. destruct (C37_matrices a b n m MA MB N M TA TB) as (q & k & E & H & V & _).
  destruct (C38_matrices a b n m MA MB N M TA TB) as (q' & k' & E' & H' & V' & _).
  destruct (C44_row_sums a b n m None MA MB N M TA I) as (q'' & k'' & E'' & H'' & V''). split; [|split].
  - exists q, k. cbn. rewrite E. auto.
  - exists q', k'. cbn. rewrite E'. auto.
  - exists q'', k''. cbn. rewrite E''. auto.
Qed.
Print Assumptions C81_matrices.
Example C81_labels_witness :
  calc_performance_metric (T1 [0; 1; 2; 1]) (PLabels (T1 [0; 1; 1; 1])) "accuracy_score" None None = Some (Ok (Score (Num (3 # 4)))) /\
  calc_performance_metric (T2 [[0; 1]; [1; 1]]) (PLabels (T2 [[0; 1]; [1; 0]])) "hamming_loss" None None = Some (Ok (Score (Num (1 # 4)))) /\
  calc_performance_metric (T1 [0; 1]) (PLabels (T1 [0; 1])) "zero_one_loss" None None = Some (Err NotImplErr).
Proof. vm_compute. auto. Qed.

Lemma column_matrix rows c : first_of rows c -> first_column (PMatrix rows) = Ok c.
Proof.
  intro H. cbn [first_column]. induction H as [|r x rows c E H IH]; [reflexivity|]. cbn [mapM]. unfold py_nth at 1. rewrite E. cbn [bind].
  rewrite IH. reflexivity.
Qed.
(** Scores: only the first column of the matrix is used. *)
Theorem C81_auc : forall y rows c w given p P N gt eq, first_of rows c -> List.length y = List.length rows -> pos_in_force y given p ->
  how_many (pos_sample p y) P -> how_many (neg_sample p y) N -> (0 < P)%nat -> (0 < N)%nat ->
  how_many (fun ij => pos_sample p y (fst ij) /\ neg_sample p y (snd ij) /\ above c (fst ij) (snd ij)) gt ->
  how_many (fun ij => pos_sample p y (fst ij) /\ neg_sample p y (snd ij) /\ level c (fst ij) (snd ij)) eq ->
  exists q, calc_performance_metric (T1 y) (PMatrix rows) "roc_auc_score" w given = Some (Ok (Score (Num q))) /\
    (q == (nat_q gt + nat_q eq / 2) / nat_q (P * N))%Q.
Proof.
  intros y rows c w g p P N gt eq F L PF HP HN P0 N0 HG HE.
  assert (LC : List.length y = List.length c) by (rewrite L; clear -F; induction F; cbn; congruence).
  destruct (C40_pairs y c g p P N gt eq LC PF HP HN P0 N0 HG HE) as (q & E & V). exists q. split; auto.
  unfold calc_performance_metric. cbn [is_in existsb valid_metric String.eqb Ascii.eqb Bool.eqb orb negb]. 
  rewrite (column_matrix rows c F). cbn. rewrite E. reflexivity.
Qed.
Print Assumptions C81_auc.

Theorem C81_counts : forall y rows c given p, first_of rows c -> List.length y = List.length rows -> pos_in_force y given p ->
  exists fps tps ths, calc_performance_metric (T1 y) (PMatrix rows) "get_fps_tps_thresholds" None given = Some (Ok (Counts fps tps ths)) /\
    Permutation ths c /\ StronglySorted (fun a b => b <= a)%Q ths /\ List.length fps = List.length ths /\ List.length tps = List.length ths /\
    forall i t f u, nth_error ths i = Some t -> nth_error fps i = Some f -> nth_error tps i = Some u ->
      how_many (fun k => pos_sample p y k /\ scored c t k) u /\ how_many (fun k => neg_sample p y k /\ scored c t k) f.
Proof.
  intros y rows c g p F L PF.
  assert (LC : List.length y = List.length c) by (rewrite L; clear -F; induction F; cbn; congruence).
  destruct (C39_counts y c g p LC PF) as (fps & tps & ths & E & H). exists fps, tps, ths. split; auto.
  unfold calc_performance_metric. cbn [is_in existsb valid_metric String.eqb Ascii.eqb Bool.eqb orb negb]. 
  rewrite (column_matrix rows c F). cbn. rewrite E. reflexivity.
Qed.
Print Assumptions C81_counts.

(** The probabilities of a two-class model have the first class in the first column: the area computed is one minus the
    area for the probabilities of the positive class. *)
Theorem C81_auc_inverted_refuted : forall y ps given p, List.length y = List.length ps -> pos_in_force y given p ->
  (exists i, pos_sample p y i) -> (exists i, neg_sample p y i) ->
  exists q q', roc_auc_score true y ps given = Ok q /\
    calc_performance_metric (T1 y) (PMatrix (map (fun x => [(1 - x)%Q; x]) ps)) "roc_auc_score" None given = Some (Ok (Score (Num q'))) /\
    (q' == 1 - q)%Q.
Proof.
  intros y ps g p L PF HP HN.
  destruct (C40_reversed y ps g p L PF HP HN) as (q & q1 & E & E1 & V1).
  assert (L1 : List.length y = List.length (map Qopp ps)) by now rewrite map_length.
  destruct (C40_monotone y (map Qopp ps) g p (fun x => 1 + x)%Q L1 PF HP HN) as (q2 & q' & E2 & E' & V').
  { intros a b. split; intro; lra. }
  exists q, q'. split; auto. split; [|rewrite E1 in E2; injection E2 as <-; lra].
  unfold calc_performance_metric. cbn [is_in existsb valid_metric String.eqb Ascii.eqb Bool.eqb orb negb].
  rewrite (column_matrix _ (map (fun x => 1 + x)%Q (map Qopp ps))).
  - cbn. rewrite E'. reflexivity.
  - rewrite map_map. clear. induction ps; cbn; constructor; auto.
Qed.
Print Assumptions C81_auc_inverted_refuted.
Example C81_auc_witness :
  calc_performance_metric (T1 [0; 1; 1]) (PMatrix [[(4 # 5)%Q; (1 # 5)%Q]; [(2 # 5)%Q; (3 # 5)%Q]; [(1 # 10)%Q; (9 # 10)%Q]]) "roc_auc_score" None None = Some (Ok (Score (Num (0 # 512)))) /\
  exists q, roc_auc_score true [0; 1; 1] [(1 # 5)%Q; (3 # 5)%Q; (9 # 10)%Q] None = Ok q /\ (q == 1)%Q.
Proof. split; [vm_compute; reflexivity|]. eexists. split; [vm_compute; reflexivity|reflexivity]. Qed.

(** A vector of scores or of labels is never accepted by the metrics of scores. *)
Theorem C81_score_vector_refuted : forall name y p w pos, In name of_scores ->
  (exists s, p = PVector s) \/ (exists v, p = PLabels (T1 v)) ->
  calc_performance_metric y p name w pos = Some (Err IndexErr).
Proof.
  intros name y p w pos H [[s ->]|[v ->]]; unfold of_scores in H; cbn [In] in H;
    repeat (destruct H as [<-|H]; [reflexivity|]); destruct H.
Qed.
Print Assumptions C81_score_vector_refuted.

Lemma vector_errors y s w :
  (exists e, coverage_vector y s w = Err e) /\ (exists e, ranking_loss_vector y s w = Err e) /\ (exists e, lrap_vector y s w = Err e).
Proof.
  unfold coverage_vector, ranking_loss_vector, lrap_vector.
  destruct (guard _ _) as [[]|e]; cbn [bind]; [|repeat split; eauto]. destruct (type_of_target y) as [ty|e]; cbn [bind].
  - destruct y, ty; repeat split; eauto.
  - destruct y; cbn [bind]; repeat split; eauto.
Qed.

(** The three ranking metrics of the list raise an exception for all arrays. *)
Theorem C81_ranking_refuted : forall name y p w pos,
  In name ["coverage_error"; "label_ranking_loss"; "label_ranking_average_precision_score"] ->
  exists e, calc_performance_metric y p name w pos = Some (Err e).
Proof.
  intros name y p w pos H.
  assert (G : exists e, match first_column p with
    | Err e => Some (Err e)
    | Ok s => refuse pos (score
          (if String.eqb name "coverage_error" then coverage_vector y s w
           else if String.eqb name "label_ranking_loss" then ranking_loss_vector y s w
           else lrap_vector y s w)) end = Some (Err e)).
  { destruct (first_column p) as [s|e]; [|eauto]. destruct pos; [cbn; eauto|]. cbn [refuse].
    destruct (vector_errors y s w) as ((e1 & E1) & (e2 & E2) & (e3 & E3)).
    destruct (String.eqb name "coverage_error"); [rewrite E1; eexists; reflexivity|].
    destruct (String.eqb name "label_ranking_loss"); [rewrite E2; eexists; reflexivity|]. rewrite E3; eexists; reflexivity. }
  destruct G as (e & G). exists e. rewrite <- G. cbn [In] in H.
  repeat (destruct H as [<-|H]; [reflexivity|]); destruct H.
Qed.
Print Assumptions C81_ranking_refuted.
Example C81_ranking_witness :
  calc_performance_metric (T2 [[0; 1]; [1; 1]]) (PMatrix [[1; 2]; [2; 1]]%Q) "coverage_error" None None = Some (Err GenericErr) /\
  calc_performance_metric (T2 [[0; 1]; [1; 1]]) (PMatrix [[1; 2]; [2; 1]]%Q) "label_ranking_loss" None None = Some (Err ValueErr) /\
  exists q, coverage_error (T2 [[0; 1]; [1; 1]]) [[1; 2]; [2; 1]]%Q None = Ok (Num q) /\ (q == 3 # 2)%Q.
Proof. split; [vm_compute; reflexivity|]. split; [vm_compute; reflexivity|]. eexists. split; [vm_compute; reflexivity|reflexivity]. Qed.

(** Keywords that a metric does not have are rejected. *)
Theorem C81_keywords : forall y t w w' pos,
  calc_performance_metric y (PLabels t) "hamming_loss" (Some w) None = Some (Err TypeErr) /\
  (forall name, In name ["accuracy_score"; "hamming_loss"; "one_error"] -> calc_performance_metric y (PLabels t) name w' (Some pos) = Some (Err TypeErr)).
Proof.
  intros y t w w' pos. split; [reflexivity|]. intros name H. cbn [In] in H. repeat (destruct H as [<-|H]; [reflexivity|]); destruct H.
Qed.
Print Assumptions C81_keywords.

(** ** Metrics in the experiment, computed on predicted labels *)

Theorem C81_experiment_names : forall name y p,
  (experiment_metric name y p = Some (Err NotImplErr) <->
   ~ In name (["zero_one_loss"] ++ filter (fun n => negb (String.eqb n "f1_score")) documented)).
Proof.
  intros name y p.
  assert (V : In name valid_experiment_metric <-> In name (["zero_one_loss"] ++ filter (fun n => negb (String.eqb n "f1_score")) documented)).
  { cbn. intuition. }
  rewrite <- V. unfold experiment_metric. destruct (is_in name valid_experiment_metric) eqn:E.
  - split; [|intro H; exfalso; apply H; now apply is_in_iff]. cbn [negb]. intros H _.
    assert (NR : forall r, (forall e, r = Err e -> e <> NotImplErr) -> score r <> Some (Err NotImplErr)).
    { intros r K X. unfold score in X; destruct r; cbn in X; [congruence|]. injection X as ->. now apply (K NotImplErr). }
    assert (B : forall A B (r : res A) (f : A -> res B), (forall e, r = Err e -> e <> NotImplErr) -> (forall a e, f a = Err e -> e <> NotImplErr) -> forall e, bind r f = Err e -> e <> NotImplErr).
    { intros A B r f K1 K2 e X. destruct r; cbn in X; eauto. injection X as <-. auto. }
    assert (G : forall b e0, e0 <> NotImplErr -> forall e, guard b e0 = Err e -> e <> NotImplErr) by (intros b e0 K e X; destruct b; cbn in X; congruence).
    assert (TT : forall t e, type_of_target t = Err e -> e <> NotImplErr).
    { intros t e X. unfold type_of_target in X. destruct (Nat.leb _ _), t as [|[|r l]]; try congruence; try (destruct (Nat.ltb _ _)); congruence. }
    assert (CT : forall s t e, check_targets s t = Err e -> e <> NotImplErr).
    { intros s t. unfold check_targets. apply B; [now apply G|intros _]. apply B; [apply TT|intro]. apply B; [apply TT|intro]. intros e X. destruct a, a0; congruence. }
    assert (AV : forall l w e, average l w = Err e -> e <> NotImplErr) by (intros l w e X; unfold average in X; destruct w; [destruct (Qeq_bool _ _)|]; congruence).
    assert (AC : forall s t w e, accuracy_score s t w = Err e -> e <> NotImplErr).
    { intros s t w. unfold accuracy_score. apply B; [apply CT|]. intros [[ty u] v]. apply B; [now apply G|intros _].
      destruct ty, u, v; try (apply AV). apply B; [now apply G|intros _; apply AV]. }
    assert (NDF : forall s t e, n_diff s t = Err e -> e <> NotImplErr).
    { intros s t e X. unfold n_diff in X. destruct s, t; repeat (match type of X with context [if ?b then _ else _] => destruct b end); congruence. }
    assert (HL : forall s t e, hamming_loss s t = Err e -> e <> NotImplErr).
    { intros s t. unfold hamming_loss. apply B; [apply CT|]. intros [[ty u] v]. apply B; [apply NDF|]. intros d e X. destruct ty, s; congruence. }
    assert (TP : forall y s g e, get_fps_tps_thresholds true y s g = Err e -> e <> NotImplErr).
    { intros y0 s g. unfold get_fps_tps_thresholds. apply B; [now apply G|intros _]. apply B; [|intro; apply B; [now apply G|intros _ e X; congruence]].
      intros e X. destruct g; [congruence|]. destruct (binary_classes y0); congruence. }
    assert (RC : forall y s g e, roc_auc_score true y s g = Err e -> e <> NotImplErr).
    { intros y0 s g. unfold roc_auc_score. apply B.
      - unfold roc_curve. apply B; [apply TP|]. intros [[f t] th]. apply B.
        + intros e X. destruct (_ || _)%bool; [destruct th|]; congruence.
        + intros [[f' t'] th'] e X. destruct (Nat.leb _ _); [congruence|]. destruct (Nat.leb _ _); congruence.
      - intros a. unfold auc. apply B; [now apply G|intros _]. apply B; [now apply G|intros _ e X; congruence]. }
    assert (OE : forall t p w e, one_error t p w = Err e -> e <> NotImplErr).
    { intros t q w. unfold one_error. apply B; [now apply G|intros _]. apply B; [apply TT|]. intros ty. destruct t, ty; try (intros e X; congruence). apply B; [now apply G|intros _ e X; congruence]. }
    assert (OV : forall t p w e, one_error_vector t p w = Err e -> e <> NotImplErr).
    { intros t q w. unfold one_error_vector. apply B; [now apply G|intros _]. apply B; [apply TT|]. intros ty. destruct t, ty; try (intros e X; congruence). apply B; [now apply G|intros _ e X; congruence]. }
    assert (ZO : forall s t b w e, zero_one_loss s t b w = Err e -> e <> NotImplErr).
    { intros s t b w. unfold zero_one_loss. apply B; [apply AC|]. intros f e X. destruct b; congruence. }
    assert (CV : forall t s w e, coverage_vector t s w = Err e -> e <> NotImplErr).
    { intros t s w. unfold coverage_vector. apply B; [now apply G|intros _]. apply B; [apply TT|]. intros ty e X. destruct ty; congruence. }
    assert (RV : forall t s w e, ranking_loss_vector t s w = Err e -> e <> NotImplErr).
    { intros t s w. unfold ranking_loss_vector. apply B; [now apply G|intros _]. apply B; [apply TT|]. intros ty e X. congruence. }
    assert (LV : forall t s w e, lrap_vector t s w = Err e -> e <> NotImplErr).
    { intros t s w. unfold lrap_vector. apply B; [now apply G|intros _]. destruct t; [|intros e X; congruence]. apply B; [apply TT|]. intros ty e X. congruence. }
    assert (CE : forall t s w e, coverage_error t s w = Err e -> e <> NotImplErr).
    { intros t s w. unfold coverage_error. apply B; [now apply G|intros _]. apply B; [apply TT|]. intros ty. destruct t, ty; try (intros e X; congruence). apply B; [now apply G|intros _; apply AV]. }
    assert (RL : forall t s w e, label_ranking_loss t s w = Err e -> e <> NotImplErr).
    { intros t s w. unfold label_ranking_loss. apply B; [now apply G|intros _]. apply B; [apply TT|]. intros ty. destruct t, ty; try (intros e X; congruence). apply B; [now apply G|intros _; apply AV]. }
    assert (LS : forall t s w e, lrap_score t s w = Err e -> e <> NotImplErr).
    { intros t s w. unfold lrap_score. apply B; [now apply G|intros _]. destruct t; [intros e X; congruence|]. apply B; [now apply G|intros _]. apply B; [apply TT|].
      intros ty e X. destruct ty, w; congruence. }
    revert H. repeat match goal with |- context [if String.eqb name ?s then _ else _] => destruct (String.eqb name s) end; intro H;
      try (now (eapply NR; [|exact H]; eauto)).
    + destruct p; (eapply NR; [|exact H]; eauto).
    + destruct y, p; try congruence. eapply NR; [|exact H]. apply B; [apply RC|intros a e X; congruence].
    + destruct y as [y|], p as [p|]; try congruence. destruct (get_fps_tps_thresholds _ _ _ _) as [r|e] eqn:X; cbn in H; [congruence|]. injection H as ->. eapply TP; eauto.
    + destruct (target_scores p); (eapply NR; [|exact H]; eauto).
    + destruct (target_scores p); (eapply NR; [|exact H]; eauto).
    + destruct (target_scores p); (eapply NR; [|exact H]; eauto).
  - cbn [negb]. split; [intros _ H|reflexivity]. apply is_in_iff in H. congruence.
Qed.
Print Assumptions C81_experiment_names.

Lemma hm_or {A} (P R : A -> Prop) k k' : how_many P k -> how_many R k' -> (forall x, P x -> R x -> False) ->
  how_many (fun x => P x \/ R x) (k + k').
Proof.
  intros (l & ND & <- & I) (l' & ND' & <- & I') D. exists (l ++ l')%list. split; [|split; [apply app_length|]].
  - assert (DJ : forall x, In x l -> ~ In x l') by (intros x J J'; apply (D x); [now apply I|now apply I']).
    clear -ND ND' DJ. induction ND as [|x l N ND IH]; auto. cbn in *. constructor.
    + rewrite in_app_iff. intros [J|J]; [auto|]. eapply DJ; eauto.
    + apply IH. intros y J. apply DJ. auto.
  - intro x. rewrite in_app_iff, I, I'. reflexivity.
Qed.
Lemma hm_seq n : how_many (fun i => (i < n)%nat) n.
Proof. exists (seq 0 n). split; [apply seq_NoDup|]. split; [apply seq_length|]. intro i. rewrite in_seq. lia. Qed.

(** Accuracy, zero-one loss and Hamming loss of an experiment are those of its predictions. *)
Theorem C81_experiment_vectors : forall a b, List.length a = List.length b -> a <> [] ->
  exists q z h k, experiment_metric "accuracy_score" (T1 a) (T1 b) = Some (Ok (Score (Num q))) /\
    experiment_metric "zero_one_loss" (T1 a) (T1 b) = Some (Ok (Score (Num z))) /\
    experiment_metric "hamming_loss" (T1 a) (T1 b) = Some (Ok (Score (Num h))) /\
    how_many (fun i => exists x, nth_error a i = Some x /\ nth_error b i = Some x) k /\
    (q == ratio k (List.length a))%Q /\ (z == 1 - q)%Q /\ (h == 1 - q)%Q.
Proof.
  intros a b L NE. destruct (C37_vectors a b L NE) as (q & k & E & H & V & _). destruct (C38_vectors a b L NE) as (h & k' & E' & H' & V' & _).
  exists q, (1 - q)%Q, h, k. cbn. unfold zero_one_loss. rewrite E, E'. cbn. split; [reflexivity|]. split; [reflexivity|]. split; [reflexivity|]. split; auto. split; auto. split; [reflexivity|].
  assert (S : (k + k' = List.length a)%nat).
  { eapply hm_unique; [|apply hm_seq]. eapply hm_ext; [|eapply hm_or; [exact H|exact H'|]].
    - intro i. cbn. split.
      + intros [(x & A & _)|(x & y & A & _)]; apply nth_error_Some; congruence.
      + intro LI. destruct (nth_error a i) as [x|] eqn:A; [|apply nth_error_None in A; lia]. destruct (nth_error b i) as [y|] eqn:B; [|apply nth_error_None in B; lia].
        destruct (Z.eq_dec x y); [left; subst; eauto|right; eauto 6].
    - intros i (x & A & B) (u & v & C & D & F). congruence. }
  assert (N : (0 < nat_q (List.length a))%Q) by (apply nat_q_pos; destruct a; [congruence|cbn; lia]).
  rewrite V, V'. unfold ratio. apply (f_equal nat_q) in S. assert (SQ : (nat_q k + nat_q k' == nat_q (List.length a))%Q) by (rewrite <- nat_q_add, S; reflexivity).
  assert (K : (nat_q k' == nat_q (List.length a) - nat_q k)%Q) by lra. rewrite K. field. lra.
Qed.
Print Assumptions C81_experiment_vectors.

(** Ranking metrics work on predicted label matrices, which serve as scores. *)
Theorem C81_experiment_ranking : forall a b n m, matrix a n m -> matrix b n m -> (0 < n)%nat -> (1 < m)%nat -> two_valued a ->
  exists q r s, experiment_metric "coverage_error" (T2 a) (T2 b) = Some (Ok (Score (Num q))) /\
    experiment_metric "label_ranking_loss" (T2 a) (T2 b) = Some (Ok (Score (Num r))) /\
    experiment_metric "label_ranking_average_precision_score" (T2 a) (T2 b) = Some (Ok (Score (Num s))) /\
    averages coverage (combine a (map (map inject_Z) b)) None q /\
    averages misorder (combine a (map (map inject_Z) b)) None r /\
    averages precision (combine a (map (map inject_Z) b)) None s.
Proof.
  intros a b n m MA MB N M T.
  assert (MB' : matrix (map (map inject_Z) b) n m).
  { destruct MB as [L F]. split; [now rewrite map_length|]. apply Forall_map. eapply Forall_impl; [|exact F]. intros r <-. apply map_length. }
  destruct (C42_coverage a _ n m None MA MB' N M T I) as (q & E & V).
  destruct (C41_ranking_loss a _ n m None MA MB' N M T I) as (r & E1 & V1).
  destruct (C43_precision a _ n m MA MB' N T) as (s & E2 & V2 & _).
  exists q, r, s. unfold experiment_metric. cbn [is_in existsb valid_experiment_metric String.eqb Ascii.eqb Bool.eqb orb negb target_scores].
  rewrite E, E1, E2. auto 10.
Qed.
Print Assumptions C81_experiment_ranking.

Lemma hm_minus (P R T : nat -> Prop) n k : how_many P n -> how_many (fun i => P i /\ R i) k ->
  (forall i, P i -> (T i <-> ~ R i)) -> how_many (fun i => P i /\ T i) (n - k) /\ (k <= n)%nat.
Proof.
  intros HP HR D. assert (LE : (k <= n)%nat) by (apply (hm_le (fun i => P i /\ R i) P); auto; tauto). split; [|exact LE].
  destruct HP as (l & ND & <- & I). destruct HR as (l2 & ND2 & <- & I2).
  set (f := fun i => negb (existsb (Nat.eqb i) l2)).
  assert (F : forall i, f i = true <-> ~ In i l2).
  { intro i. unfold f. rewrite negb_true_iff. split.
    - intros E J. assert (existsb (Nat.eqb i) l2 = true) by (apply existsb_exists; exists i; split; [auto|apply Nat.eqb_refl]). congruence.
    - intro N. apply not_true_is_false. intro E. apply existsb_exists in E. destruct E as (z & J & E). apply Nat.eqb_eq in E. now subst. }
  exists (filter f l). split; [now apply NoDup_filter|]. split.
  - assert (HM : how_many P (List.length (filter f l) + List.length l2)).
    { apply (hm_ext (fun i => In i (filter f l) \/ In i l2)).
      - intro i. rewrite filter_In, F, I. split; [intros [[A _]|A]; [auto|apply I2 in A; tauto]|]. intro. destruct (in_dec Nat.eq_dec i l2) as [J|J]; auto.
      - apply hm_or.
        + exists (filter f l). split; [now apply NoDup_filter|]. split; [reflexivity|tauto].
        + exists l2. split; auto. split; [reflexivity|tauto].
        + intros i A B. apply filter_In in A. destruct A as [_ A]. apply F in A. auto. }
    assert (HL : how_many P (List.length l)) by (exists l; auto). pose proof (hm_unique _ _ _ HM HL). lia.
  - intro i. rewrite filter_In, F, I, I2. split.
    + intros [A B]. split; auto. apply D; auto.
    + intros [A B]. split; auto. intros [_ C]. apply D in B; auto.
Qed.

(** The area under the curve of predicted labels is the mean of the two class accuracies. *)
Theorem C81_experiment_auc : forall lo y b tp tn P N, (lo = 0 \/ lo = -1) -> List.length y = List.length b ->
  (forall v, In v y -> v = lo \/ v = 1) -> (forall v, In v b -> v = lo \/ v = 1) ->
  how_many (pos_sample 1 y) P -> how_many (neg_sample 1 y) N -> (0 < P)%nat -> (0 < N)%nat ->
  how_many (fun i => pos_sample 1 y i /\ pos_sample 1 b i) tp -> how_many (fun i => neg_sample 1 y i /\ neg_sample 1 b i) tn ->
  exists q, experiment_metric "roc_auc_score" (T1 y) (T1 b) = Some (Ok (Score (Num q))) /\ (q == (ratio tp P + ratio tn N) / 2)%Q.
Proof.
  intros lo y b tp tn P N LO L HY HB HP HN P0 N0 TP TN.
  assert (NY : y <> []) by (intros ->; destruct HP as ([|i l] & _ & <- & I); [cbn in P0; lia|]; pose proof (proj1 (I i) (or_introl eq_refl)) as X; unfold pos_sample in X; destruct i; discriminate).
  assert (PF : pos_in_force y None 1) by (cbn; split; [reflexivity|split; auto]; destruct LO; subst; auto).
  set (s := map inject_Z b). assert (LS : List.length y = List.length s) by (unfold s; now rewrite map_length).
  assert (LT : (lo < 1)%Z) by (destruct LO; lia).
  assert (VB : forall i, (i < List.length y)%nat -> pos_sample 1 b i /\ nth_error s i = Some 1%Q \/ (neg_sample 1 b i /\ nth_error s i = Some (inject_Z lo))).
  { intros i LI. destruct (nth_error b i) as [v|] eqn:B; [|apply nth_error_None in B; lia]. destruct (HB v) as [->| ->]; [eapply nth_error_In; eauto|right|left].
    - split; [exists lo; split; [auto|lia]|]. unfold s. now rewrite nth_error_map, B.
    - split; [exact B|]. unfold s. now rewrite nth_error_map, B. }
  assert (PL : forall i, pos_sample 1 y i -> (i < List.length y)%nat) by (intros i E; apply nth_error_Some; unfold pos_sample in E; congruence).
  assert (NL : forall i, neg_sample 1 y i -> (i < List.length y)%nat) by (intros i (v & E & _); apply nth_error_Some; congruence).
  assert (XB : forall i, pos_sample 1 b i -> neg_sample 1 b i -> False) by (intros i E (v & F & K); unfold pos_sample in E; congruence).
  assert (LQ : (inject_Z lo < 1)%Q) by (change 1%Q with (inject_Z 1); rewrite <- Zlt_Qlt; exact LT).
  destruct (hm_minus _ _ (neg_sample 1 b) _ _ HP TP) as [FN LP].
  { intros i PI. destruct (VB i (PL i PI)) as [[A _]|[A _]]; split; intro B; auto; try (intro C; eauto). exfalso; eauto. }
  destruct (hm_minus _ _ (pos_sample 1 b) _ _ HN TN) as [FP LN].
  { intros i PI. destruct (VB i (NL i PI)) as [[A _]|[A _]]; split; intro B; auto; try (intro C; eauto). exfalso; eauto. }
  assert (GT : how_many (fun ij => pos_sample 1 y (fst ij) /\ neg_sample 1 y (snd ij) /\ above s (fst ij) (snd ij)) (tp * tn)).
  { eapply hm_ext; [|apply (hm_prod _ _ _ _ TP TN)]. intros [i j]. cbn [fst snd]. split.
    - intros [[A B] [C D]]. split; auto. split; auto. destruct (VB i (PL i A)) as [[_ X]|[X _]]; [|exfalso; eauto].
      destruct (VB j (NL j C)) as [[Y _]|[_ Y]]; [exfalso; eauto|]. exists 1%Q, (inject_Z lo). auto.
    - intros (A & C & u & v & X & Y & LV). split; split; auto.
      + destruct (VB i (PL i A)) as [[Z _]|[_ Z]]; auto. exfalso. rewrite X in Z. injection Z as ->.
        destruct (VB j (NL j C)) as [[_ Z]|[_ Z]]; rewrite Y in Z; injection Z as ->; lra.
      + destruct (VB j (NL j C)) as [[_ Z]|[Z _]]; auto. exfalso. rewrite Y in Z. injection Z as ->.
        destruct (VB i (PL i A)) as [[_ Z]|[_ Z]]; rewrite X in Z; injection Z as ->; lra. }
  assert (EQ : how_many (fun ij => pos_sample 1 y (fst ij) /\ neg_sample 1 y (snd ij) /\ level s (fst ij) (snd ij)) (tp * (N - tn) + (P - tp) * tn)).
  { eapply hm_ext; [|apply (hm_or _ _ _ _ (hm_prod _ _ _ _ TP FP) (hm_prod _ _ _ _ FN TN))].
    - intros [i j]. cbn [fst snd]. split.
      + intros [[[A B] [C D]]|[[A B] [C D]]]; (split; [auto|split; [auto|]]).
        * destruct (VB i (PL i A)) as [[_ X]|[X _]]; [|exfalso; eauto]. destruct (VB j (NL j C)) as [[_ Y]|[Y _]]; [|exfalso; eauto]. exists 1%Q, 1%Q. split; [auto|split; [auto|reflexivity]].
        * destruct (VB i (PL i A)) as [[X _]|[_ X]]; [exfalso; eauto|]. destruct (VB j (NL j C)) as [[Y _]|[_ Y]]; [exfalso; eauto|]. exists (inject_Z lo), (inject_Z lo). split; [auto|split; [auto|reflexivity]].
      + intros (A & C & u & v & X & Y & LV).
        destruct (VB i (PL i A)) as [[Z Z']|[Z Z']]; rewrite X in Z'; injection Z' as ->;
        destruct (VB j (NL j C)) as [[W W']|[W W']]; rewrite Y in W'; injection W' as ->; try (exfalso; lra); auto.
    - intros [i j]. cbn [fst snd]. intros [[A B] [C D]] [[A' B'] [C' D']]. eauto. }
  destruct (C40_pairs y s None 1 P N _ _ LS PF HP HN P0 N0 GT EQ) as (q & E & V). exists q. split.
  - cbn. fold s. rewrite E. reflexivity.
  - rewrite V. clear -P0 N0 LP LN. unfold ratio.
    assert (A : (nat_q (N - tn) == nat_q N - nat_q tn)%Q) by (assert (X : N = ((N - tn) + tn)%nat) by lia; rewrite X at 2; rewrite nat_q_add; lra).
    assert (B : (nat_q (P - tp) == nat_q P - nat_q tp)%Q) by (assert (X : P = ((P - tp) + tp)%nat) by lia; rewrite X at 2; rewrite nat_q_add; lra).
    rewrite nat_q_add, !nat_q_mul, A, B. apply nat_q_pos in P0, N0. field. split; lra.
Qed.
Print Assumptions C81_experiment_auc.
Example C81_experiment_witness :
  exists q, experiment_metric "roc_auc_score" (T1 [0; 0; 0; 1]) (T1 [0; 0; 1; 1]) = Some (Ok (Score (Num q))) /\ (q == 5 # 6)%Q.
Proof. eexists. split; [vm_compute; reflexivity|reflexivity]. Qed.

(** A matrix of labels is read by the metrics of scores as the same matrix of numbers: by its first column. *)
Theorem C81_label_matrix : forall name y rows w pos, In name of_scores ->
  calc_performance_metric y (PLabels (T2 rows)) name w pos = calc_performance_metric y (PMatrix (map (map inject_Z) rows)) name w pos.
Proof.
  intros name y rows w pos H.
  assert (E : first_column (PLabels (T2 rows)) = first_column (PMatrix (map (map inject_Z) rows))).
  { cbn [first_column]. induction rows as [|r rows IH]; [reflexivity|]. cbn [map mapM]. rewrite IH. destruct r; reflexivity. }
  unfold of_scores in H; cbn [In] in H; repeat (destruct H as [<-|H]; [unfold calc_performance_metric; rewrite E; reflexivity|]); destruct H.
Qed.
Print Assumptions C81_label_matrix.

(** one_error with a single vector of predictions for a square label matrix compares every row with that vector, and a
    single number is compared with every label of the single row. *)
Theorem C81_one_error_vector : forall a p n m, matrix a n m -> (0 < n)%nat -> (1 < m)%nat -> two_valued a -> List.length p = n ->
  (n = m -> exists q k, calc_performance_metric (T2 a) (PLabels (T1 p)) "one_error" None None = Some (Ok (Score (Num q))) /\
     how_many (fun i => exists r, nth_error a i = Some r /\ fold_right Z.add 0 r = fold_right Z.add 0 p) k /\ (q == ratio k n)%Q) /\
  (forall r x, a = [r] -> p = [x] -> exists q, calc_performance_metric (T2 a) (PLabels (T1 p)) "one_error" None None = Some (Ok (Score (Num q))) /\
     (q == if (fold_right Z.add 0 r =? Z.of_nat m * x)%Z then 1 else 0)%Q) /\
  (n <> m -> n <> 1%nat -> calc_performance_metric (T2 a) (PLabels (T1 p)) "one_error" None None = Some (Err ValueErr)).
Proof.
  intros a p n m MA N M T LP.
  assert (U : calc_performance_metric (T2 a) (PLabels (T1 p)) "one_error" None None = score (one_error_vector (T2 a) p None)) by reflexivity.
  rewrite U. clear U. unfold one_error_vector. cbn [num_samples]. rewrite (proj1 MA), LP.
  rewrite (guard_true (same_length n n None)) by (unfold same_length; now rewrite Nat.eqb_refl). cbn [bind].
  rewrite (type_multilabel a n m) by auto. cbn [bind].
  assert (HD : List.length (hd [] a) = m). { destruct MA as [L F]. destruct a; cbn in L; [lia|]. now inversion F. }
  rewrite HD. split; [|split].
  - intros ->. rewrite Nat.eqb_refl, orb_true_r. cbn [guard bind]. rewrite fdiv_num by (change qn with nat_q; rewrite nat_q_0; lia).
    eexists. exists (count (fun r => row_diff r p =? 0)%Z a). split; [reflexivity|]. split; [|reflexivity].
    assert (RD : forall r, List.length r = m -> row_diff r p = zsum r - zsum p).
    { intros r L1. assert (E : row_diff r p = zsum (map (fun q => fst q - snd q) (combine r p))) by (destruct p as [|x [|y s]]; cbn in LP; [lia|lia|reflexivity]).
      rewrite E. assert (L : List.length r = List.length p) by congruence. clear -L. revert p L. induction r as [|x r IH]; intros [|y s] L; try discriminate; [reflexivity|].
      cbn [combine map zsum fold_right fst snd]. fold (zsum r) (zsum s). fold (zsum (map (fun q => fst q - snd q) (combine r s))). rewrite IH by (cbn in L; lia). lia. }
    eapply hm_ext; [|apply hm_count]. intro i. cbv beta. destruct MA as [_ F]. rewrite Forall_forall in F. split.
    + intros (r & J & E). rewrite RD in E by (eapply F, nth_error_In, J). apply Z.eqb_eq in E. exists r. split; auto. unfold zsum in E. lia.
    + intros (r & J & E). exists r. split; auto. rewrite RD by (eapply F, nth_error_In, J). apply Z.eqb_eq. unfold zsum. lia.
  - intros r x -> ->. cbn in LP. subst n. cbn [hd] in HD. cbn [Nat.eqb orb guard bind List.length]. rewrite fdiv_num by (change qn with nat_q; rewrite nat_q_0; lia).
    eexists. split; [reflexivity|].
    assert (E : row_diff r [x] = fold_right Z.add 0 r - Z.of_nat m * x).
    { cbn [row_diff]. rewrite <- HD. clear. induction r as [|y r IH]; [reflexivity|]. cbn [map zsum fold_right List.length]. fold (zsum (map (fun y => y - x) r)). rewrite IH. lia. }
    unfold count. cbn [filter]. rewrite E. destruct (Z.eqb_spec (fold_right Z.add 0 r) (Z.of_nat m * x)) as [->|NE].
    + rewrite Z.sub_diag. reflexivity.
    + rewrite (proj2 (Z.eqb_neq _ _)) by lia. reflexivity.
  - intros NM N1. apply Nat.eqb_neq in N1. rewrite N1. assert (X : Nat.eqb m n = false) by (apply Nat.eqb_neq; lia). rewrite X. reflexivity.
Qed.
Print Assumptions C81_one_error_vector.
Example C81_one_error_vector_witness :
  calc_performance_metric (T2 [[0; 1]; [1; 1]]) (PLabels (T1 [1; 0])) "one_error" None None = Some (Ok (Score (Num (1 # 2)))) /\
  calc_performance_metric (T2 [[0; 1]]) (PLabels (T1 [1])) "one_error" None None = Some (Ok (Score (Num 0))) /\
  calc_performance_metric (T2 [[0; 1]; [1; 1]; [0; 0]]) (PLabels (T1 [1; 0; 1])) "one_error" None None = Some (Err ValueErr).
Proof. vm_compute. auto. Qed.
