(** C123: what the metrics do not depend on. *)
From Verif Require Import Base BaseFacts MiscModel MiscSpec MetricModel MetricSpec MetricProofs MetricProofs2 MetricProofs7 OrderSpec OrderProofs OrderProofs2.
From Coq Require Import QArith Permutation Lqa.
Local Open Scope Z_scope.

(** The instances in another order, each keeping its label, its prediction and its weight: vectors. *)
Theorem C123_vectors : forall a b w a' b' w' normalize, reordered a b w a' b' w' ->
  same_answer (accuracy_score (T1 a) (T1 b) w) (accuracy_score (T1 a') (T1 b') w') /\
  same_answer (zero_one_loss (T1 a) (T1 b) normalize w) (zero_one_loss (T1 a') (T1 b') normalize w') /\
  same_answer (hamming_loss (T1 a) (T1 b)) (hamming_loss (T1 a') (T1 b')).
Proof.
  intros a b w a' b' w' nz RE. assert (A := accuracy_vec _ _ _ _ _ _ RE). split; auto. split.
  - apply loss_same; auto. exact (re_weight _ _ _ _ _ _ RE).
  - apply answer_eq, hamming_vec. split; [apply RE|]. split; [apply RE|]. exact (re_pairs _ _ _ _ _ _ RE).
Qed.
Print Assumptions C123_vectors.

(** The same for matrices, whatever their widths and contents: the figure or the exception is the same. *)
Theorem C123_matrices : forall a b w a' b' w' normalize n m m', reordered a b w a' b' w' -> matrix a n m -> matrix b n m' ->
  same_answer (accuracy_score (T2 a) (T2 b) w) (accuracy_score (T2 a') (T2 b') w') /\
  same_answer (zero_one_loss (T2 a) (T2 b) normalize w) (zero_one_loss (T2 a') (T2 b') normalize w') /\
  same_answer (hamming_loss (T2 a) (T2 b)) (hamming_loss (T2 a') (T2 b')) /\
  same_answer (one_error (T2 a) b w) (one_error (T2 a') b' w').
Proof.
  intros a b w a' b' w' nz n m m' RE MA MB. assert (A := accuracy_mat _ _ _ _ _ _ _ _ _ RE MA MB). split; auto. split; [|split].
  - apply loss_same; auto. exact (re_weight _ _ _ _ _ _ RE).
  - apply answer_eq. apply (hamming_mat _ _ _ _ n m m'); auto. split; [apply RE|]. split; [apply RE|]. exact (re_pairs _ _ _ _ _ _ RE).
  - apply answer_eq. now apply (one_error_same _ _ _ _ _ _ n m m').
Qed.
Print Assumptions C123_matrices.

Theorem C123_scores : forall a s w a' s' w' n m m', reordered a s w a' s' w' -> matrix a n m -> matrix s n m' ->
  same_answer (coverage_error (T2 a) s w) (coverage_error (T2 a') s' w') /\
  same_answer (label_ranking_loss (T2 a) s w) (label_ranking_loss (T2 a') s' w') /\
  same_answer (lrap_score (T2 a) s w) (lrap_score (T2 a') s' w') /\
  same_answer (average_precision_score (T2 a) s w) (average_precision_score (T2 a') s' w') /\
  same_value (micro_auc_score (T2 a) s w) (micro_auc_score (T2 a') s' w').
Proof.
  intros a s w a' s' w' n m m' RE MA MS. split; [now apply (coverage_same _ _ _ _ _ _ n m m')|]. split; [now apply (ranking_same _ _ _ _ _ _ n m m')|].
  split; [now apply (lrap_same _ _ _ _ _ _ n m m')|]. split; [now apply (ap_same _ _ _ _ _ _ n m m')|].
  rewrite (micro_same _ _ _ _ _ _ n m m' RE MA MS). destruct (micro_auc_score _ _ _); reflexivity.
Qed.
Print Assumptions C123_scores.

(** The labels, that is the columns, in another order. *)
Theorem C123_labels : forall js n m a a' b b' s s' w, Permutation js (seq 0 m) -> matrix a n m -> matrix b n m -> matrix s n m ->
  columns_as js a a' -> columns_as js b b' -> columns_as js s s' ->
  same_answer (accuracy_score (T2 a) (T2 b) None) (accuracy_score (T2 a') (T2 b') None) /\
  same_answer (hamming_loss (T2 a) (T2 b)) (hamming_loss (T2 a') (T2 b')) /\
  same_answer (one_error (T2 a) b w) (one_error (T2 a') b' w) /\
  same_answer (coverage_error (T2 a) s w) (coverage_error (T2 a') s' w) /\
  same_answer (label_ranking_loss (T2 a) s w) (label_ranking_loss (T2 a') s' w) /\
  same_answer (lrap_score (T2 a) s w) (lrap_score (T2 a') s' w) /\
  same_value (micro_auc_score (T2 a) s w) (micro_auc_score (T2 a') s' w).
Proof.
  intros js n m a a' b b' s s' w JP MA MB MS CA CB CS.
  split; [now apply (col_accuracy js n m)|]. split; [apply answer_eq; now apply (col_hamming js n m)|]. split; [apply answer_eq; now apply (col_one_error js n m)|].
  split; [apply answer_eq; now apply (col_coverage js n m)|]. split; [apply answer_eq; now apply (col_ranking js n m)|].
  split; [now apply (col_lrap js n m)|]. now apply (col_micro js n m).
Qed.
Print Assumptions C123_labels.

(** Average precision: as long as no two labels of an instance have the same score ... *)
Theorem C123_labels_precision : forall js n m a a' s s' w, Permutation js (seq 0 m) -> matrix a n m -> matrix s n m -> (0 < n)%nat ->
  columns_as js a a' -> columns_as js s s' -> zero_one a -> untied s -> weights_fit w n ->
  same_answer (average_precision_score (T2 a) s w) (average_precision_score (T2 a') s' w).
Proof. intros js n m a a' s s' w JP MA MS N CA CS ZO U W. now apply (col_ap js n m). Qed.
Print Assumptions C123_labels_precision.
(** ... and not otherwise: with equal scores everywhere, an instance with one relevant label scores between the worst and the best
    depending only on where the label stands. *)
Theorem C123_labels_precision_refuted : exists js a a' s s' q q', Permutation js (seq 0 2) /\ columns_as js a a' /\ columns_as js s s' /\
  average_precision_score (T2 a) s None = Ok (Num q) /\ average_precision_score (T2 a') s' None = Ok (Num q') /\ ~ (q == q')%Q.
Proof.
  exists [1; 0]%nat, [[1; 0]], [[0; 1]], [[1; 1]]%Q, [[1; 1]]%Q. do 2 eexists. split; [apply perm_swap|].
  assert (K : forall A (x y : A) k j, nth_error [1; 0]%nat k = Some j -> nth_error [y; x] k = nth_error [x; y] j).
  { intros A x y [|[|k]] j E; cbn in E; try (injection E as <-; reflexivity). destruct k; discriminate. }
  split; [constructor; [|constructor]; split; [reflexivity|]; apply K|]. split; [constructor; [|constructor]; split; [reflexivity|]; apply K|].
  split; [vm_compute; reflexivity|]. split; [vm_compute; reflexivity|]. intro H. vm_compute in H. discriminate.
Qed.
Print Assumptions C123_labels_precision_refuted.

(** Only the order of an instance's scores counts: each instance may have a scale of its own. *)
Theorem C123_scale : forall t s s' w, rescaled s s' ->
  coverage_error t s' w = coverage_error t s w /\ label_ranking_loss t s' w = label_ranking_loss t s w /\
  lrap_score t s' w = lrap_score t s w /\ average_precision_score t s' w = average_precision_score t s w.
Proof.
  intros t s s' w R. split; [now apply scale_coverage|]. split; [now apply scale_ranking|]. split; [now apply scale_lrap|now apply scale_ap].
Qed.
Print Assumptions C123_scale.
(** The micro AUC ranks the instances for every label, so there it is each label that may have a scale of its own ... *)
Theorem C123_scale_labels : forall t s s' w n m, matrix s n m -> matrix s' n m ->
  (forall j, (j < m)%nat -> exists f, increasing f /\ forall i x, cell s i j x -> cell s' i j (f x)) ->
  micro_auc_score t s' w = micro_auc_score t s w.
Proof.
  intros t s s' w n m M M' H. unfold micro_auc_score. rewrite (proj1 M), (proj1 M'). destruct (guard _ _) as [[]|]; cbn [bind]; auto. destruct t as [v|a]; auto.
  unfold shape. rewrite (matrix_hd2 _ _ _ _ M' M), (proj1 M), (proj1 M'). destruct (guard _ _) as [[]|]; cbn [bind]; auto. cbn [snd].
  assert (E : mapM (fun j => class_auc (zcol a j) (qcol s' j)) (seq 0 (List.length (hd [] s))) = mapM (fun j => class_auc (zcol a j) (qcol s j)) (seq 0 (List.length (hd [] s)))).
  { apply mapM_same. intros j J. apply in_seq in J. destruct n as [|n].
    { destruct s; [cbn in J; lia|destruct M; discriminate]. }
    rewrite (hd_length s (S n) m) in J by (auto; lia). destruct (H j) as (f & I & F); [lia|].
    assert (Q : qcol s' j = map f (qcol s j)); [|rewrite Q; now apply inc_class].
    clear -M M' F J. unfold qcol. revert s' M M' F. generalize (S n) as k. induction s as [|r s IH]; intros k s' [L R] [L' R'] F; destruct s' as [|r' s'];
      try reflexivity; try (cbn in L, L'; lia).
    cbn. pose proof (Forall_inv R) as R1. pose proof (Forall_inv_tail R) as R2. pose proof (Forall_inv R') as R1'. pose proof (Forall_inv_tail R') as R2'. cbn in R1, R1'. f_equal.
    - destruct (nth_error r j) as [x|] eqn:X; [|apply nth_error_None in X; lia]. rewrite (nth_error_nth _ _ _ X).
      destruct (F 0%nat x) as (q & Q1 & Q2); [exists r; auto|]. cbn in Q1. injection Q1 as <-. now apply nth_error_nth.
    - apply (IH (pred k) s'); [split; [cbn in L; lia|auto]|split; [cbn in L'; lia|auto]|]. intros i x (q & Q1 & Q2).
      destruct (F (S i) x) as (q' & Q1' & Q2'); [exists q; auto|]. exists q'. auto. }
  now rewrite E.
Qed.
Print Assumptions C123_scale_labels.
(** ... but not each instance. *)
Theorem C123_scale_micro_refuted : exists a s s' q q', rescaled s s' /\
  micro_auc_score (T2 a) s None = Ok q /\ micro_auc_score (T2 a) s' None = Ok q' /\ ~ (q == q')%Q.
Proof.
  exists [[1; 0]; [0; 1]], [[2; 1]; [1; 2]]%Q, [[2; 1]; [11; 12]]%Q. do 2 eexists. split.
  - constructor; [exists (fun x => x); split; [intros x y; tauto|reflexivity]|]. constructor; [|constructor].
    exists (fun x => match x with (p # d)%Q => ((p + 10 * Zpos d) # d)%Q end). split; [|reflexivity].
    intros x y. assert (E : forall z, (match z with (p # d)%Q => ((p + 10 * Zpos d) # d)%Q end == z + 10)%Q) by (intros [p d]; unfold Qeq; cbn; nia).
    rewrite !E. lra.
  - split; [vm_compute; reflexivity|]. split; [vm_compute; reflexivity|]. intro H. vm_compute in H. discriminate.
Qed.
Print Assumptions C123_scale_micro_refuted.

(** The classes under other names, as long as different classes get different names. *)
Theorem C123_names : forall f a b ra rb normalize w, renaming f ->
  accuracy_score (T1 (map f a)) (T1 (map f b)) w = accuracy_score (T1 a) (T1 b) w /\
  zero_one_loss (T1 (map f a)) (T1 (map f b)) normalize w = zero_one_loss (T1 a) (T1 b) normalize w /\
  hamming_loss (T1 (map f a)) (T1 (map f b)) = hamming_loss (T1 a) (T1 b) /\
  accuracy_score (T2 (map (map f) ra)) (T2 (map (map f) rb)) w = accuracy_score (T2 ra) (T2 rb) w /\
  zero_one_loss (T2 (map (map f) ra)) (T2 (map (map f) rb)) normalize w = zero_one_loss (T2 ra) (T2 rb) normalize w /\
  hamming_loss (T2 (map (map f) ra)) (T2 (map (map f) rb)) = hamming_loss (T2 ra) (T2 rb).
Proof.
  intros f a b ra rb nz w I.
  split; [exact (name_accuracy f I (T1 a) (T1 b) w)|]. split; [exact (name_loss f I (T1 a) (T1 b) nz w)|]. split; [exact (name_hamming f I (T1 a) (T1 b) Logic.I)|].
  split; [exact (name_accuracy f I (T2 ra) (T2 rb) w)|]. split; [exact (name_loss f I (T2 ra) (T2 rb) nz w)|exact (name_hamming f I (T2 ra) (T2 rb) Logic.I)].
Qed.
Print Assumptions C123_names.
(** The multi-label figures take 0 for "irrelevant", so there the names matter: with -1 for 0 every instance counts as trivial. *)
Theorem C123_names_ranking_refuted : exists f a s q q', renaming f /\
  label_ranking_loss (T2 a) s None = Ok (Num q) /\ label_ranking_loss (T2 (map (map f) a)) s None = Ok (Num q') /\ (q == 1)%Q /\ (q' == 0)%Q.
Proof.
  exists (fun z => 2 * z - 1), [[1; 0]], [[1; 2]]%Q. do 2 eexists. split; [intros x y; lia|]. split; [vm_compute; reflexivity|]. split; [vm_compute; reflexivity|].
  split; reflexivity.
Qed.
Print Assumptions C123_names_ranking_refuted.

(** Three instances with two labels, the order of the instances reversed and the columns exchanged. *)
Example C123_case :
  let a := [[1; 0]; [0; 1]; [1; 1]] in let s := [[1; 2]; [1; 3]; [0; 1]]%Q in let a' := [[1; 1]; [0; 1]; [1; 0]] in let s' := [[0; 1]; [1; 3]; [1; 2]]%Q in
  reordered a s (Some [1; 2; 3]%Q) a' s' (Some [3; 2; 1]%Q) /\ matrix a 3 2 /\ matrix s 3 2 /\ zero_one a /\ untied s /\
  columns_as [1; 0]%nat a [[0; 1]; [1; 0]; [1; 1]] /\ columns_as [1; 0]%nat s [[2; 1]; [3; 1]; [1; 0]]%Q /\
  (exists q, label_ranking_loss (T2 a) s (Some [1; 2; 3]%Q) = Ok (Num q) /\ (q == 1 # 6)%Q) /\
  renaming (fun z => z + 5) /\ increasing (fun q => 2 * q + 1)%Q.
Proof.
  cbn zeta. split.
  { split; [reflexivity|]. split; [reflexivity|]. split; [reflexivity|]. split; [reflexivity|]. cbn. eapply Permutation_trans; [apply perm_swap|].
    eapply Permutation_trans; [apply perm_skip, perm_swap|]. apply perm_swap. }
  assert (MM : forall A (r : list (list A)), List.length r = 3%nat -> forallb (fun x => Nat.eqb (List.length x) 2) r = true -> matrix r 3 2).
  { intros A r L F. split; auto. apply Forall_forall. intros x J. apply Nat.eqb_eq. rewrite forallb_forall in F. now apply F. }
  split; [now apply MM|]. split; [now apply MM|]. split.
  { intros i j x (r & R & X). destruct i as [|[|[|i]]]; cbn in R; try (injection R as <-; destruct j as [|[|j]]; cbn in X; try (injection X as <-; auto); destruct j; discriminate).
    destruct i; discriminate. }
  split.
  { intros r i j x y J X Y E. cbn in J. destruct J as [<-|[<-|[<-|[]]]];
      (destruct i as [|[|i]]; destruct j as [|[|j]]; cbn in X, Y; try reflexivity;
       first [ destruct i; discriminate | destruct j; discriminate | injection X as <-; injection Y as <-; vm_compute in E; discriminate ]). }
  assert (CC : forall A (x y : A) k j, nth_error [1; 0]%nat k = Some j -> nth_error [y; x] k = nth_error [x; y] j).
  { intros A x y [|[|k]] j E; cbn in E; try (injection E as <-; reflexivity). destruct k; discriminate. }
  split; [repeat (constructor; [split; [reflexivity|apply CC]|]); constructor|]. split; [repeat (constructor; [split; [reflexivity|apply CC]|]); constructor|].
  split; [eexists; split; [vm_compute; reflexivity|reflexivity]|]. split; [intros x y; lia|]. intros x y. lra.
Qed.
