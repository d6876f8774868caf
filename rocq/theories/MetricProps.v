(** Properties C37-C44 and C60-C62: the metrics. *)
From Verif Require Import Base BaseFacts MiscModel MiscSpec MiscProofs MetricModel MetricSpec MetricProofs MetricProofs2 MetricProofs3 MetricProofs4 MetricProofs5 MetricProofs6 MetricProofs7.
From Coq Require Import QArith Lqa Qfield.
Local Open Scope Z_scope.

(** One weight per sample, and not adding up to zero; or no weights. *)
Definition good_weights (w : option (list Q)) (n : nat) : Prop :=
  match w with Some w => List.length w = n /\ ~ (total w == 0)%Q | None => True end.
Lemma good_fit w n : good_weights w n -> weights_fit w n.
Proof. destruct w; cbn; tauto. Qed.
Lemma good_total w n : good_weights w n -> match w with Some w => ~ (total w == 0)%Q | None => True end.
Proof. destruct w; cbn; tauto. Qed.

(** * C37: accuracy and zero-one loss *)

(** Vectors: the fraction of agreeing positions; 1 exactly for identical vectors. *)
Theorem C37_vectors : forall a b, List.length a = List.length b -> a <> [] ->
  exists q k, accuracy_score (T1 a) (T1 b) None = Ok (Num q) /\
    how_many (fun i => exists x, nth_error a i = Some x /\ nth_error b i = Some x) k /\
    (q == ratio k (List.length a))%Q /\ (0 <= q <= 1)%Q /\ ((q == 1)%Q <-> a = b).
Proof.
  intros a b L NE. rewrite accuracy_vectors by (auto; exact I).
  destruct (agree_fraction Z.eqb Z.eqb_eq a b L NE) as (q & k & E & H & V & K & O). exists q, k. split; auto. split; auto. split; auto.
  assert (N : (0 < List.length a)%nat) by (destruct a; [congruence|cbn; lia]). rewrite V. split; [now apply ratio_bounds|]. now rewrite ratio_one.
Qed.
Print Assumptions C37_vectors.

(** Label matrices with two values: the fraction of rows predicted without any error. *)
Theorem C37_matrices : forall a b n m, matrix a n m -> matrix b n m -> (0 < n)%nat -> (1 < m)%nat -> two_valued a -> two_valued b ->
  exists q k, accuracy_score (T2 a) (T2 b) None = Ok (Num q) /\
    how_many (fun i => exists r, nth_error a i = Some r /\ nth_error b i = Some r) k /\
    (q == ratio k n)%Q /\ (0 <= q <= 1)%Q /\ ((q == 1)%Q <-> a = b).
Proof.
  intros a b n m MA MB N M TA TB. rewrite (accuracy_matrices a b n m) by (auto; exact I). pose proof (proj1 MA) as LA. pose proof (proj1 MB) as LB.
  destruct (agree_fraction row_eqb row_eqb_eq a b) as (q & k & E & H & V & K & O); [congruence|destruct a; [cbn in *; lia|discriminate]|].
  exists q, k. rewrite LA in *. split; auto. split; auto. split; auto. rewrite V. split; [now apply ratio_bounds|]. now rewrite ratio_one.
Qed.
Print Assumptions C37_matrices.

(** With weights: the weight of the correct samples divided by all the weight. *)
Theorem C37_weighted : forall w, ~ (total w == 0)%Q ->
  (forall a b, List.length a = List.length b -> a <> [] -> List.length w = List.length a ->
     exists q, accuracy_score (T1 a) (T1 b) (Some w) = Ok (Num q) /\ averages (fun p => indicates (fst p = snd p)) (combine a b) (Some w) q) /\
  (forall a b n m, matrix a n m -> matrix b n m -> (0 < n)%nat -> (1 < m)%nat -> two_valued a -> two_valued b -> List.length w = n ->
     exists q, accuracy_score (T2 a) (T2 b) (Some w) = Ok (Num q) /\ averages (fun p => indicates (fst p = snd p)) (combine a b) (Some w) q).
Proof.
  intros w W. split.
  - intros a b L NE LW. rewrite accuracy_vectors by auto. now apply (agree_weighted Z.eqb Z.eqb_eq).
  - intros a b n m MA MB N M TA TB LW. rewrite (accuracy_matrices a b n m) by auto. pose proof (proj1 MA) as LA. pose proof (proj1 MB) as LB.
    apply (agree_weighted row_eqb row_eqb_eq); auto; [congruence|]. destruct a; [cbn in *; lia|discriminate].
Qed.
Print Assumptions C37_weighted.

(** A column is treated like the vector of its entries. *)
Theorem C37_column : forall v t w, v <> [] -> 
  accuracy_score (T2 (map (fun x => [x]) v)) t w = accuracy_score (T1 v) t w /\
  accuracy_score t (T2 (map (fun x => [x]) v)) w = accuracy_score t (T1 v) w.
Proof.
  intros v t w NE. assert (E : List.concat (map (fun x => [x]) v) = v) by (clear; induction v; cbn; congruence).
  assert (CL : check_targets (T2 (map (fun x => [x]) v)) t = check_targets (T1 v) t).
  { unfold check_targets. cbn [num_samples ravel]. rewrite map_length, type_column, E by auto. destruct (guard _ _); [|reflexivity]. cbn [bind].
    destruct (type_vector v) as (ty & -> & NT). cbn [bind]. destruct (type_of_target t) as [p|]; [|reflexivity]. cbn [bind]. destruct ty, p; try reflexivity. congruence. }
  assert (CR : check_targets t (T2 (map (fun x => [x]) v)) = check_targets t (T1 v)).
  { unfold check_targets. cbn [num_samples ravel]. rewrite map_length, type_column, E by auto. destruct (guard _ _); [|reflexivity]. cbn [bind].
    destruct (type_of_target t) as [p|]; [|reflexivity]. cbn [bind]. destruct (type_vector v) as (ty & -> & NT). cbn [bind]. destruct p, ty; try reflexivity. congruence. }
  unfold accuracy_score. rewrite CL, CR. auto.
Qed.
Print Assumptions C37_column.

(** zero_one_loss is one minus the accuracy: the fraction of wrong positions. *)
Theorem C37_loss : forall a b, List.length a = List.length b -> a <> [] ->
  exists q k, zero_one_loss (T1 a) (T1 b) true None = Ok (Num q) /\
    how_many (fun i => exists x y, nth_error a i = Some x /\ nth_error b i = Some y /\ x <> y) k /\
    (q == ratio k (List.length a))%Q.
Proof.
  intros a b L NE. destruct (agree_fraction Z.eqb Z.eqb_eq a b L NE) as (q & k & E & H & V & K & O).
  exists (1 - q)%Q, (count (fun p => negb (fst p =? snd p)) (combine a b)). unfold zero_one_loss. rewrite accuracy_vectors by (auto; exact I). rewrite E. cbn [bind fsub].
  split; [reflexivity|]. split; [apply (hm_differ Z.eqb Z.eqb_eq)|]. rewrite V.
  assert (N : (0 < List.length a)%nat) by (destruct a; [congruence|cbn; lia]). apply nat_q_pos in N.
  rewrite (hm_unique _ _ _ H (hm_agree Z.eqb Z.eqb_eq a b)).
  pose proof (count_neg (fun p : Z * Z => fst p =? snd p) (combine a b)) as C. rewrite combine_length, <- L, Nat.min_id in C.
  unfold ratio. rewrite <- C in *. rewrite nat_q_add in *. field. lra.
Qed.
Print Assumptions C37_loss.

(** normalize=False is documented to return the number of errors; it returns n minus a fraction, which is that number
    only when everything is wrong or there is a single sample. *)
Theorem C37_count_refuted : forall a b, List.length a = List.length b -> a <> [] ->
  exists q e, zero_one_loss (T1 a) (T1 b) false None = Ok (Num q) /\
    how_many (fun i => exists x y, nth_error a i = Some x /\ nth_error b i = Some y /\ x <> y) e /\
    (q == nat_q (List.length a) - (1 - ratio e (List.length a)))%Q /\
    ((q == nat_q e)%Q <-> e = List.length a \/ List.length a = 1%nat).
Proof.
  intros a b L NE. destruct (C37_loss a b L NE) as (q1 & e & E & H & V). unfold zero_one_loss in *.
  destruct (accuracy_score (T1 a) (T1 b) None) as [[q| |]|] eqn:EA; cbn [bind fsub] in *; try discriminate. injection E as E. subst q1.
  exists (nat_q (List.length a) - q)%Q, e. split; [reflexivity|]. split; [exact H|].
  assert (VQ : (q == 1 - ratio e (List.length a))%Q) by lra. split; [rewrite VQ; reflexivity|]. rewrite VQ. unfold ratio.
  assert (N : (0 < List.length a)%nat) by (destruct a; [congruence|cbn; lia]). pose proof (nat_q_pos _ N) as NP. set (n := List.length a) in *.
  assert (EQ : (nat_q n - (1 - nat_q e / nat_q n) == nat_q e)%Q <-> ((nat_q n - nat_q e) * (nat_q n - 1) == 0)%Q).
  { assert (D : ((nat_q n - (1 - nat_q e / nat_q n) - nat_q e) * nat_q n == (nat_q n - nat_q e) * (nat_q n - 1))%Q) by (field; lra).
    rewrite <- D. split; intro X.
    - rewrite X. lra.
    - apply Qmult_integral in X. destruct X as [X|X]; lra. }
  rewrite EQ. split.
  - intro X. apply Qmult_integral in X. destruct X as [X|X].
    + left. apply nat_q_eq. lra.
    + right. apply nat_q_eq. change (nat_q 1) with 1%Q. lra.
  - intros [X|X].
    + rewrite X. ring.
    + rewrite X. change (nat_q 1) with 1%Q. ring.
Qed.
Print Assumptions C37_count_refuted.

(** What is rejected. *)
Theorem C37_rejects : forall t p w,
  (num_samples t <> num_samples p -> accuracy_score t p w = Err ValueErr) /\
  (forall a b n m, t = T2 a -> p = T2 b -> matrix a n m -> matrix b n m -> (0 < n)%nat -> (1 < m)%nat ->
     two_valued a -> ~ two_valued b -> accuracy_score t p w = Err ValueErr /\ accuracy_score p t w = Err ValueErr) /\
  (forall a b wl, t = T1 a -> p = T1 b -> w = Some wl -> List.length a = List.length b -> List.length wl <> List.length a ->
     accuracy_score t p w = Err ValueErr) /\
  (forall a b wl, t = T1 a -> p = T1 b -> w = Some wl -> List.length a = List.length b -> List.length wl = List.length a -> (total wl == 0)%Q ->
     accuracy_score t p w = Err ZeroDivErr).
Proof.
  intros t p w. split; [|split; [|split]].
  - intro H. unfold accuracy_score, check_targets, same_length. apply Nat.eqb_neq in H. rewrite H. reflexivity.
  - intros a b n m -> -> MA MB N M TA TB.
    assert (GA : type_of_target (T2 a) = Ok Multilabel) by now apply (type_multilabel a n m).
    assert (GB : type_of_target (T2 b) = Ok Multiclass) by now apply type_multiclass.
    unfold accuracy_score, check_targets, same_length. cbn [num_samples]. rewrite (proj1 MA), (proj1 MB), Nat.eqb_refl. cbn [andb guard bind].
    rewrite GA, GB. split; reflexivity.
  - intros a b wl -> -> -> L LW. unfold accuracy_score. destruct (check_vectors a b L) as (ty & -> & T). cbn [bind num_samples].
    unfold same_length. apply Nat.eqb_neq in LW. rewrite LW, andb_false_r. reflexivity.
  - intros a b wl -> -> -> L LW TZ. rewrite accuracy_vectors by auto. now apply average_zero.
Qed.
Print Assumptions C37_rejects.

Example C37_witness : exists q, accuracy_score (T2 [[0; 1]; [1; 1]; [0; 0]]) (T2 [[0; 1]; [0; 1]; [0; 0]]) None = Ok (Num q) /\ (q == 2 # 3)%Q /\
  matrix [[0; 1]; [1; 1]; [0; 0]] 3 2 /\ two_valued [[0; 1]; [1; 1]; [0; 0]].
Proof.
  eexists. split; [vm_compute; reflexivity|]. split; [reflexivity|]. split; [repeat constructor|]. apply two_valued_rows. vm_compute. lia.
Qed.

(** * C38: Hamming loss *)

Theorem C38_vectors : forall a b, List.length a = List.length b -> a <> [] ->
  exists q k, hamming_loss (T1 a) (T1 b) = Ok (Num q) /\
    how_many (fun i => exists x y, nth_error a i = Some x /\ nth_error b i = Some y /\ x <> y) k /\
    (q == ratio k (List.length a))%Q /\ (0 <= q <= 1)%Q /\ ((q == 0)%Q <-> a = b).
Proof.
  intros a b L NE. rewrite hamming_vectors by auto. eexists. exists (n_diff_list a b). split; [reflexivity|].
  split; [apply (hm_differ Z.eqb Z.eqb_eq)|]. split; [reflexivity|]. assert (N : (0 < List.length a)%nat) by (destruct a; [congruence|cbn; lia]).
  split; [apply ratio_bounds; auto; apply diff_le|]. rewrite ratio_zero by auto. now apply diff_zero.
Qed.
Print Assumptions C38_vectors.

Theorem C38_matrices : forall a b n m, matrix a n m -> matrix b n m -> (0 < n)%nat -> (1 < m)%nat -> two_valued a -> two_valued b ->
  exists q k, hamming_loss (T2 a) (T2 b) = Ok (Num q) /\
    how_many (fun ij => exists x y, cell a (fst ij) (snd ij) x /\ cell b (fst ij) (snd ij) y /\ x <> y) k /\
    (q == ratio k (n * m))%Q /\ (0 <= q <= 1)%Q /\ ((q == 0)%Q <-> a = b).
Proof.
  intros a b n m MA MB N M TA TB. rewrite (hamming_matrices a b n m) by auto. eexists. exists (n_diff_list (List.concat a) (List.concat b)). split; [reflexivity|].
  split; [now apply (hm_cells a b n m)|]. split; [reflexivity|]. assert (NM : (0 < n * m)%nat) by nia.
  assert (LA := concat_length_matrix a n m MA). assert (LB := concat_length_matrix b n m MB).
  split; [apply ratio_bounds; auto; rewrite <- LA; apply diff_le|]. rewrite ratio_zero, diff_zero by (auto; congruence).
  split; [now apply (concat_inj a b n m)|congruence].
Qed.
Print Assumptions C38_matrices.

(** Symmetry and the triangle inequality. *)
Theorem C38_metric : forall a b c n m, matrix a n m -> matrix b n m -> matrix c n m -> (0 < n)%nat -> (1 < m)%nat ->
  two_valued a -> two_valued b -> two_valued c ->
  exists ab ba bc ac, hamming_loss (T2 a) (T2 b) = Ok (Num ab) /\ hamming_loss (T2 b) (T2 a) = Ok (Num ba) /\
    hamming_loss (T2 b) (T2 c) = Ok (Num bc) /\ hamming_loss (T2 a) (T2 c) = Ok (Num ac) /\
    (ab == ba)%Q /\ (ac <= ab + bc)%Q.
Proof.
  intros a b c n m MA MB MC N M TA TB TC. rewrite !(hamming_matrices _ _ n m) by auto. do 4 eexists. repeat (split; [reflexivity|]).
  split; [rewrite diff_sym; reflexivity|]. assert (LA := concat_length_matrix a n m MA). assert (LB := concat_length_matrix b n m MB).
  pose proof (diff_tri (List.concat a) (List.concat b) (List.concat c) ltac:(congruence)) as T. apply nat_q_le in T. rewrite nat_q_add in T.
  assert (NM : (0 < nat_q (n * m))%Q) by (apply nat_q_pos; nia). unfold ratio.
  apply Qle_shift_div_r; auto.
  assert (E : (forall u v w, ~ w == 0 -> (u / w + v / w) * w == u + v)%Q) by (intros; field; auto).
  rewrite E by lra. exact T.
Qed.
Print Assumptions C38_metric.

(** A column compared with a vector is broadcast: identical labels can have the greatest loss. *)
Theorem C38_column_refuted : forall k, (0 < k)%nat ->
  exists q, hamming_loss (T1 (concat (repeat [0; 1] k))) (T2 (map (fun x => [x]) (concat (repeat [0; 1] k)))) = Ok (Num q) /\ (q == nat_q k)%Q.
Proof.
  intros k K. set (v := concat (repeat [0; 1] k)). assert (LV : List.length v = (2 * k)%nat).
  { unfold v. clear. induction k; [reflexivity|]. cbn. rewrite IHk. lia. }
  assert (NE : v <> []) by (intro E; rewrite E in LV; cbn in LV; lia).
  assert (C0 : count (fun x => negb (0 =? x)) v = k) by (unfold v; clear; induction k as [|k IH]; [reflexivity|]; cbn [repeat List.concat app]; rewrite !count_cons, IH; reflexivity).
  assert (C1 : count (fun x => negb (1 =? x)) v = k) by (unfold v; clear; induction k as [|k IH]; [reflexivity|]; cbn [repeat List.concat app]; rewrite !count_cons, IH; reflexivity).
  unfold hamming_loss. assert (E : List.concat (map (fun x => [x]) v) = v) by (clear; induction v; cbn; congruence).
  assert (CT : exists ty, check_targets (T1 v) (T2 (map (fun x => [x]) v)) = Ok (ty, T1 v, T1 v)).
  { unfold check_targets, same_length. cbn [num_samples ravel]. rewrite map_length, Nat.eqb_refl. cbn [andb guard bind]. rewrite type_column, E by auto.
    destruct (type_vector v) as (ty & -> & NT). cbn [bind]. destruct ty; try congruence; eauto. }
  destruct CT as (ty & ->). cbn [bind]. unfold n_diff. assert (H1 : List.length (hd [] (map (fun x : Z => [x]) v)) = 1%nat) by (destruct v; [congruence|reflexivity]).
  rewrite H1, E. cbn [Nat.eqb bind num_samples].
  assert (CP : count (fun p => negb (fst p =? snd p)) (list_prod v v) = (2 * k * k)%nat).
  { rewrite (count_prod (fun a b => negb (a =? b))). rewrite (map_ext_in _ (fun _ => k)).
    - assert (S : forall l : list Z, list_sum (map (fun _ => k) l) = (List.length l * k)%nat) by (clear; unfold list_sum; induction l; cbn [map fold_right List.length]; lia).
      rewrite S, LV. lia.
    - intros x J. assert (x = 0 \/ x = 1) as [-> | ->]; auto. unfold v in J. clear -J. induction k; [destruct J|]. cbn in J. intuition. }
  rewrite CP, LV. fold (nat_q (2 * k * k)) (nat_q (2 * k)). assert (KP : (0 < nat_q (2 * k))%Q) by (apply nat_q_pos; lia).
  exists (nat_q (2 * k * k) / nat_q (2 * k))%Q. split; [|rewrite (nat_q_mul (2 * k) k); field; lra].
  rewrite fdiv_num by lra. destruct ty; reflexivity.
Qed.
Print Assumptions C38_column_refuted.

(** Matrices with more than two values: the number of wrong cells is divided by the number of rows only, so the loss
    can be as large as the number of columns. *)
Theorem C38_values_refuted : forall a b n m, matrix a n m -> matrix b n m -> (0 < n)%nat -> ~ two_valued a -> ~ two_valued b ->
  exists q k, hamming_loss (T2 a) (T2 b) = Ok (Num q) /\
    how_many (fun ij => exists x y, cell a (fst ij) (snd ij) x /\ cell b (fst ij) (snd ij) y /\ x <> y) k /\ (q == ratio k n)%Q.
Proof.
  intros a b n m MA MB N TA TB. rewrite (hamming_multiclass a b n m) by auto. eexists. exists (n_diff_list (List.concat a) (List.concat b)).
  split; [reflexivity|]. split; [now apply (hm_cells a b n m)|reflexivity].
Qed.
Print Assumptions C38_values_refuted.
Example C38_values_witness : exists q, hamming_loss (T2 [[0; 1; 2]]) (T2 [[1; 2; 0]]) = Ok (Num q) /\ (q == 3)%Q.
Proof. eexists. split; [vm_compute; reflexivity|reflexivity]. Qed.

(** A vector of [n] labels compared with a matrix that is not two-valued: with [n] columns every row is compared with the
    whole vector, a single label is compared with the whole row, and any other width is refused. *)
Theorem C38_rows_refuted : forall a b n m, List.length a = n -> matrix b n m -> (0 < n)%nat -> (1 < m)%nat -> ~ two_valued b ->
  (m = n \/ n = 1%nat -> exists q k, hamming_loss (T1 a) (T2 b) = Ok (Num q) /\ hamming_loss (T2 b) (T1 a) = Ok (Num q) /\
     how_many (fun ij => exists x y, nth_error a (if Nat.eqb n 1 then 0 else snd ij)%nat = Some x /\ cell b (fst ij) (snd ij) y /\ x <> y) k /\ (q == ratio k n)%Q) /\
  (m <> n -> n <> 1%nat -> hamming_loss (T1 a) (T2 b) = Err ValueErr /\ hamming_loss (T2 b) (T1 a) = Err ValueErr).
Proof.
  intros a b n m LA MB N M TB. destruct (type_vector a) as (ty & TA & NT). pose proof (type_multiclass b TB) as TM.
  assert (C : exists t u, check_targets (T1 a) (T2 b) = Ok (Multiclass, t, u)).
  { unfold check_targets, same_length. cbn [num_samples]. rewrite LA, (proj1 MB), Nat.eqb_refl. cbn [andb guard bind]. rewrite TA, TM. cbn [bind].
    destruct ty; [| |congruence]; eauto. }
  assert (C' : exists t u, check_targets (T2 b) (T1 a) = Ok (Multiclass, t, u)).
  { unfold check_targets, same_length. cbn [num_samples]. rewrite LA, (proj1 MB), Nat.eqb_refl. cbn [andb guard bind]. rewrite TA, TM. cbn [bind].
    destruct ty; [| |congruence]; eauto. }
  destruct C as (t & u & C), C' as (t' & u' & C'). unfold hamming_loss. rewrite C, C'. cbn [bind]. unfold n_diff.
  rewrite (hd_length b n m MB N), LA. destruct (Nat.eqb_spec m 1); [lia|]. cbn [num_samples]. rewrite LA, (proj1 MB). split.
  - intros D. assert (exists k, (if Nat.eqb m n then Ok (list_sum (map (n_diff_list a) b)) else if Nat.eqb n 1 then Ok (count (fun x => negb (x =? hd 0 a)) (List.concat b)) else Err ValueErr) = Ok k /\
      how_many (fun ij => exists x y, nth_error a (if Nat.eqb n 1 then 0 else snd ij)%nat = Some x /\ cell b (fst ij) (snd ij) y /\ x <> y) k) as (k & -> & K).
    { destruct (Nat.eqb_spec m n) as [->|D'].
      - eexists. split; [reflexivity|]. destruct (Nat.eqb_spec n 1); [lia|]. eapply hm_ext; [|apply (hm_sigma (fun r j => exists x y, nth_error a j = Some x /\ nth_error r j = Some y /\ x <> y))].
        + intros [i j]. cbn [fst snd]. split.
          * intros (r & J & x & y & X & Y & D'). exists x, y. unfold cell. eauto 8.
          * intros (x & y & X & (r & J & Y) & D'). exists r. eauto 8.
        + intros r _. apply (hm_differ Z.eqb Z.eqb_eq).
      - destruct D as [D| ->]; [contradiction|]. eexists. split; [reflexivity|]. rewrite count_concat. cbn [Nat.eqb].
        destruct a as [|x0 [|]]; try discriminate. cbn [hd nth_error].
        eapply hm_ext; [|apply (hm_sigma (fun r j => exists y, nth_error r j = Some y /\ negb (y =? x0) = true))].
        + intros [i j]. cbn [fst snd]. split.
          * intros (r & J & y & Y & D2). apply negb_true_iff, Z.eqb_neq in D2. exists x0, y. unfold cell. split; [reflexivity|]. split; [eauto|congruence].
          * intros (x & y & X & (r & J & Y) & D2). injection X as ->. exists r. split; [auto|]. exists y. split; [auto|]. apply negb_true_iff, Z.eqb_neq. congruence.
        + intros r _. apply hm_count. }
    cbn [bind]. exists (ratio k n), k. fold (nat_q k) (nat_q n). rewrite fdiv_num by (rewrite nat_q_0; lia). split; [reflexivity|]. split; [reflexivity|]. split; [exact K|reflexivity].
  - intros D D'. destruct (Nat.eqb_spec m n); [contradiction|]. destruct (Nat.eqb_spec n 1); [contradiction|]. split; reflexivity.
Qed.
Print Assumptions C38_rows_refuted.
Example C38_rows_refuted_case : hamming_loss (T1 [3; 5]) (T2 [[3; 5]; [7; 5]]) = Ok (Num (1 # 2)) /\ ~ two_valued [[3; 5]; [7; 5]].
Proof.
  split; [reflexivity|]. intros (u & v & H).
  assert (A : forall i j x, nth_error (nth i [[3; 5]; [7; 5]] []) j = Some x -> (i < 2)%nat -> x = u \/ x = v).
  { intros i j x E I. apply (H i j). unfold cell. destruct i as [|[|]]; [| |lia]; eexists; split; try reflexivity; exact E. }
  pose proof (A 0%nat 0%nat 3 eq_refl ltac:(lia)). pose proof (A 0%nat 1%nat 5 eq_refl ltac:(lia)). pose proof (A 1%nat 0%nat 7 eq_refl ltac:(lia)). lia.
Qed.

Theorem C38_rejects : forall t p,
  (num_samples t <> num_samples p -> hamming_loss t p = Err ValueErr) /\
  (forall a b n m, t = T2 a -> p = T2 b -> matrix a n m -> matrix b n m -> (0 < n)%nat -> (1 < m)%nat ->
     two_valued a -> ~ two_valued b -> hamming_loss t p = Err ValueErr /\ hamming_loss p t = Err ValueErr).
Proof.
  intros t p. split.
  - intro H. unfold hamming_loss, check_targets, same_length. apply Nat.eqb_neq in H. rewrite H. reflexivity.
  - intros a b n m -> -> MA MB N M TA TB.
    assert (GA : type_of_target (T2 a) = Ok Multilabel) by now apply (type_multilabel a n m).
    assert (GB : type_of_target (T2 b) = Ok Multiclass) by now apply type_multiclass.
    unfold hamming_loss, check_targets, same_length. cbn [num_samples]. rewrite (proj1 MA), (proj1 MB), Nat.eqb_refl. cbn [andb guard bind].
    rewrite GA, GB. split; reflexivity.
Qed.
Print Assumptions C38_rejects.

(** * C39: threshold counts *)

(** One threshold per sample: the scores, in non-increasing order.  At each, tps (fps) is the number of positive
    (negative) samples scored at or above it. *)
Theorem C39_counts : forall y s given p, List.length y = List.length s -> pos_in_force y given p ->
  exists fps tps ths, get_fps_tps_thresholds true y s given = Ok (fps, tps, ths) /\
    Permutation ths s /\ StronglySorted (fun a b => b <= a)%Q ths /\ List.length fps = List.length ths /\ List.length tps = List.length ths /\
    forall i t f u, nth_error ths i = Some t -> nth_error fps i = Some f -> nth_error tps i = Some u ->
      how_many (fun k => pos_sample p y k /\ scored s t k) u /\ how_many (fun k => neg_sample p y k /\ scored s t k) f.
Proof.
  intros y s g p L PF. do 3 eexists. split; [now apply (fps_tps_eq y s g p)|].
  split; [|split; [|rewrite !map_length; split; [reflexivity|split; [reflexivity|]]]].
  - rewrite (Permutation_map snd (desc_perm p y s)). now rewrite samples_snd.
  - pose proof (desc_sorted p y s) as SH. induction SH as [|x l SH IH F]; cbn; constructor; auto. clear -F. induction F; cbn; constructor; auto.
  - intros i t f u T F U. rewrite nth_error_map, T in F. rewrite nth_error_map, T in U. cbn in F, U. injection F as <-. injection U as <-.
    split; [apply hm_tp|apply hm_fp].
Qed.
Print Assumptions C39_counts.

(** Both sequences never decrease and end at the class totals. *)
Theorem C39_totals : forall y s given p fps tps ths, get_fps_tps_thresholds true y s given = Ok (fps, tps, ths) -> pos_in_force y given p -> s <> [] ->
  Sorted le fps /\ Sorted le tps /\ how_many (pos_sample p y) (last tps O) /\ how_many (neg_sample p y) (last fps O).
Proof.
  intros y s g p fps tps ths E PF NE. assert (L : List.length y = List.length s).
  { unfold get_fps_tps_thresholds, same_length in E. destruct (Nat.eqb_spec (List.length y) (List.length s)); auto. discriminate. }
  rewrite (fps_tps_eq y s g p L PF) in E. injection E as <- <- <-. pose proof (desc_sorted p y s) as SH.
  assert (NL : desc p y s <> []) by (intro X; apply (proj1 (desc_nil p y s L)) in X; congruence).
  rewrite last_tp, last_fp by auto. split; [|split; [|split; [now apply hm_positives|now apply hm_negatives]]].
  - pose proof (points_sorted _ SH (desc p y s)) as PS. apply Sorted_inv in PS. destruct PS as [PS _]. rewrite map_map.
    revert PS. generalize (desc p y s) at 2 4. intros l PS. induction l as [|x l IH]; cbn in *; constructor; apply Sorted_inv in PS; destruct PS as [PS H]; auto.
    destruct l; cbn in *; constructor. inversion H; subst. cbn in *. tauto.
  - pose proof (points_sorted _ SH (desc p y s)) as PS. apply Sorted_inv in PS. destruct PS as [PS _]. rewrite map_map.
    revert PS. generalize (desc p y s) at 2 4. intros l PS. induction l as [|x l IH]; cbn in *; constructor; apply Sorted_inv in PS; destruct PS as [PS H]; auto.
    destruct l; cbn in *; constructor. inversion H; subst. cbn in *. tauto.
Qed.
Print Assumptions C39_totals.

(** The documentation promises at most one threshold per distinct score; equal scores give repeated thresholds. *)
Theorem C39_distinct_refuted : forall y s given fps tps ths i j q, get_fps_tps_thresholds true y s given = Ok (fps, tps, ths) ->
  i <> j -> nth_error s i = Some q -> nth_error s j = Some q -> ~ StronglySorted (fun a b => b < a)%Q ths.
Proof.
  intros y s g fps tps ths i j q E NE I J SH.
  assert (PM : Permutation ths s).
  { assert (L : List.length y = List.length s).
    { unfold get_fps_tps_thresholds, same_length in E. destruct (Nat.eqb_spec (List.length y) (List.length s)); auto. discriminate. }
    destruct (match g with None => if binary_classes y then Ok 1 else Err ValueErr | Some p => Ok p end) as [p|] eqn:EP.
    - apply pos_label_ok in EP. destruct (C39_counts y s g p L EP) as (f & t & h & E' & P & _). rewrite E in E'. injection E' as <- <- <-. exact P.
    - unfold get_fps_tps_thresholds in E. destruct (guard _ _); [|discriminate]. cbn [bind] in E. rewrite EP in E. discriminate. }
  assert (ND : NoDup ths).
  { clear -SH. induction SH as [|x l SH IH F]; constructor; auto. intro J. rewrite Forall_forall in F. specialize (F x J). lra. }
  apply (Permutation_NoDup PM) in ND. apply NE. eapply (proj1 (NoDup_nth_error s) ND); [apply nth_error_Some; rewrite I; discriminate|congruence].
Qed.
Print Assumptions C39_distinct_refuted.

(** Unequal lengths and labels other than 0/1 or -1/1 without a positive label are rejected; labels given as a Python
    list fail with an IndexError although the docstring accepts array-likes elsewhere. *)
Theorem C39_rejects : forall arr y s given,
  (List.length y <> List.length s -> get_fps_tps_thresholds arr y s given = Err ValueErr) /\
  (List.length y = List.length s -> (forall p, ~ pos_in_force y given p) -> get_fps_tps_thresholds arr y s given = Err ValueErr) /\
  (forall p, List.length y = List.length s -> pos_in_force y given p -> get_fps_tps_thresholds false y s given = Err IndexErr).
Proof.
  intros arr y s g. split; [|split].
  - intro H. unfold get_fps_tps_thresholds, same_length. apply Nat.eqb_neq in H. now rewrite H.
  - intros L H. unfold get_fps_tps_thresholds, same_length. rewrite L, Nat.eqb_refl. cbn [andb guard bind].
    destruct (match g with None => if binary_classes y then Ok 1 else Err ValueErr | Some p => Ok p end) as [p|e] eqn:EP.
    + apply pos_label_ok in EP. now apply H in EP.
    + destruct g; [discriminate|]. destruct (binary_classes y); [discriminate|]. injection EP as <-. reflexivity.
  - intros p L PF. unfold get_fps_tps_thresholds, same_length. rewrite L, Nat.eqb_refl. cbn [andb guard bind]. apply pos_label_ok in PF. now rewrite PF.
Qed.
Print Assumptions C39_rejects.

Example C39_witness : get_fps_tps_thresholds true [0; 1; 1; 0] [(1#2); (3#4); (1#2); (1#4)]%Q None =
  Ok ([0; 1; 1; 2]%nat, [1; 2; 2; 2]%nat, [(3#4); (1#2); (1#2); (1#4)]%Q) /\ pos_in_force [0; 1; 1; 0] None 1.
Proof. split; [vm_compute; reflexivity|]. cbn. split; auto. split; [discriminate|]. left. intros v H. intuition. Qed.

(** * C40: area under the ROC curve *)

(** The area is the share of (positive, negative) pairs with the positive scored higher, ties counting one half. *)
Theorem C40_pairs : forall y s given p P N gt eq, List.length y = List.length s -> pos_in_force y given p ->
  how_many (pos_sample p y) P -> how_many (neg_sample p y) N -> (0 < P)%nat -> (0 < N)%nat ->
  how_many (fun ij => pos_sample p y (fst ij) /\ neg_sample p y (snd ij) /\ above s (fst ij) (snd ij)) gt ->
  how_many (fun ij => pos_sample p y (fst ij) /\ neg_sample p y (snd ij) /\ level s (fst ij) (snd ij)) eq ->
  exists q, roc_auc_score true y s given = Ok q /\ (q == (nat_q gt + nat_q eq / 2) / nat_q (P * N))%Q.
Proof.
  intros y s g p P N gt eq L PF HP HN P0 N0 HG HE. destruct (auc_pairs y s g p P N gt eq L PF HP HN P0 N0 HG HE) as (q & E & V).
  exists q. split; auto. rewrite V. unfold ratio. rewrite nat_q_add, !nat_q_mul. change (nat_q 2) with 2%Q. apply nat_q_pos in P0, N0. field. split; lra.
Qed.
Print Assumptions C40_pairs.

Theorem C40_range : forall y s given p, List.length y = List.length s -> pos_in_force y given p ->
  (exists i, pos_sample p y i) -> (exists i, neg_sample p y i) ->
  exists q, roc_auc_score true y s given = Ok q /\ (0 <= q <= 1)%Q.
Proof.
  intros y s g p L PF [i HI] [j HJ].
  pose proof (hm_exists_pos p y s L) as HP. pose proof (hm_exists_neg p y s L) as HN.
  set (P := count _ _) in HP. set (N := count _ _) in HN.
  assert (P0 : (0 < P)%nat) by (destruct P; [exfalso; eapply hm_zero_inv; eauto|lia]). assert (N0 : (0 < N)%nat) by (destruct N; [exfalso; eapply hm_zero_inv; eauto|lia]).
  destruct (auc_pairs y s g p _ _ _ _ L PF HP HN P0 N0 (hm_gt p y s) (hm_eq p y s)) as (q & E & V). exists q. split; auto. rewrite V.
  pose proof (pairs_split p y s _ _ _ _ _ L HP HN (hm_gt p y s) (hm_eq p y s) (hm_lt p y s)) as SP. apply ratio_bounds; nia.
Qed.
Print Assumptions C40_range.

(** Any strictly increasing transformation of the scores leaves the area unchanged. *)
Theorem C40_monotone : forall y s given p f, List.length y = List.length s -> pos_in_force y given p ->
  (exists i, pos_sample p y i) -> (exists i, neg_sample p y i) ->
  (forall a b, (a < b)%Q <-> (f a < f b)%Q) ->
  exists q q', roc_auc_score true y s given = Ok q /\ roc_auc_score true y (map f s) given = Ok q' /\ (q == q')%Q.
Proof.
  intros y s g p f L PF [i HI] [j HJ] MO. assert (L' : List.length y = List.length (map f s)) by now rewrite map_length.
  pose proof (hm_exists_pos p y s L) as HP. pose proof (hm_exists_neg p y s L) as HN.
  set (P := count _ _) in HP. set (N := count _ _) in HN.
  assert (P0 : (0 < P)%nat) by (destruct P; [exfalso; eapply hm_zero_inv; eauto|lia]). assert (N0 : (0 < N)%nat) by (destruct N; [exfalso; eapply hm_zero_inv; eauto|lia]).
  destruct (auc_pairs y s g p _ _ _ _ L PF HP HN P0 N0 (hm_gt p y s) (hm_eq p y s)) as (q & E & V).
  assert (AB : forall u v, above (map f s) u v <-> above s u v).
  { intros u v. unfold above. rewrite !nth_error_map. split.
    - intros (a & b & A & B & C). destruct (nth_error s u) as [a'|], (nth_error s v) as [b'|]; try discriminate. cbn in A, B. injection A as <-. injection B as <-.
      exists a', b'. repeat split; auto. now apply (proj2 (MO _ _)).
    - intros (a & b & A & B & C). rewrite A, B. exists (f a), (f b). repeat split. now apply (proj1 (MO _ _)). }
  assert (EQ : forall a b, (a == b)%Q <-> (f a == f b)%Q).
  { intros a b. split; intro X.
    - destruct (Q_dec (f a) (f b)) as [[C|C]|C]; auto; apply (proj2 (MO _ _)) in C; lra.
    - destruct (Q_dec a b) as [[C|C]|C]; auto; apply (proj1 (MO _ _)) in C; lra. }
  assert (LV : forall u v, level (map f s) u v <-> level s u v).
  { intros u v. unfold level. rewrite !nth_error_map. split.
    - intros (a & b & A & B & C). destruct (nth_error s u) as [a'|], (nth_error s v) as [b'|]; try discriminate. cbn in A, B. injection A as <-. injection B as <-.
      exists a', b'. repeat split; auto. now apply (proj2 (EQ _ _)).
    - intros (a & b & A & B & C). rewrite A, B. exists (f a), (f b). repeat split. now apply (proj1 (EQ _ _)). }
  edestruct (auc_pairs y (map f s) g p P N) as (q' & E' & V').
  - exact L'.
  - exact PF.
  - exact HP.
  - exact HN.
  - exact P0.
  - exact N0.
  - eapply hm_ext; [|apply (hm_gt p y s)]. intros [u v]. cbn. now rewrite AB.
  - eapply hm_ext; [|apply (hm_eq p y s)]. intros [u v]. cbn. now rewrite LV.
  - exists q, q'. repeat split; auto. rewrite V, V'. reflexivity.
Qed.
Print Assumptions C40_monotone.

(** Reversing the scores gives one minus the area. *)
Theorem C40_reversed : forall y s given p, List.length y = List.length s -> pos_in_force y given p ->
  (exists i, pos_sample p y i) -> (exists i, neg_sample p y i) ->
  exists q q', roc_auc_score true y s given = Ok q /\ roc_auc_score true y (map Qopp s) given = Ok q' /\ (q' == 1 - q)%Q.
Proof.
  intros y s g p L PF [i HI] [j HJ]. assert (L' : List.length y = List.length (map Qopp s)) by now rewrite map_length.
  pose proof (hm_exists_pos p y s L) as HP. pose proof (hm_exists_neg p y s L) as HN.
  set (P := count _ _) in HP. set (N := count _ _) in HN.
  assert (P0 : (0 < P)%nat) by (destruct P; [exfalso; eapply hm_zero_inv; eauto|lia]). assert (N0 : (0 < N)%nat) by (destruct N; [exfalso; eapply hm_zero_inv; eauto|lia]).
  destruct (auc_pairs y s g p _ _ _ _ L PF HP HN P0 N0 (hm_gt p y s) (hm_eq p y s)) as (q & E & V).
  pose proof (pairs_split p y s _ _ _ _ _ L HP HN (hm_gt p y s) (hm_eq p y s) (hm_lt p y s)) as SP.
  assert (AB : forall u v, above (map Qopp s) u v <-> above s v u).
  { intros u v. unfold above. rewrite !nth_error_map. split.
    - intros (a & b & A & B & C). destruct (nth_error s u) as [a'|], (nth_error s v) as [b'|]; try discriminate. cbn in A, B. injection A as <-. injection B as <-.
      exists b', a'. repeat split; auto. lra.
    - intros (a & b & A & B & C). rewrite A, B. exists (- b)%Q, (- a)%Q. repeat split. lra. }
  assert (LV : forall u v, level (map Qopp s) u v <-> level s u v).
  { intros u v. unfold level. rewrite !nth_error_map. split.
    - intros (a & b & A & B & C). destruct (nth_error s u) as [a'|], (nth_error s v) as [b'|]; try discriminate. cbn in A, B. injection A as <-. injection B as <-.
      exists a', b'. repeat split; auto. lra.
    - intros (a & b & A & B & C). rewrite A, B. exists (- a)%Q, (- b)%Q. repeat split. lra. }
  edestruct (auc_pairs y (map Qopp s) g p P N) as (q' & E' & V').
  - exact L'.
  - exact PF.
  - exact HP.
  - exact HN.
  - exact P0.
  - exact N0.
  - eapply hm_ext; [|apply (hm_lt p y s)]. intros [u v]. cbn. now rewrite AB.
  - eapply hm_ext; [|apply (hm_eq p y s)]. intros [u v]. cbn. now rewrite LV.
  - exists q, q'. repeat split; auto. rewrite V, V'. unfold ratio.
    set (gt := count _ _) in SP at 1. set (eq := count _ _) in SP at 1. set (lt := count _ _) in SP at 1. fold gt. fold eq. fold lt.
    apply (f_equal nat_q) in SP. rewrite !nat_q_add, nat_q_mul. apply nat_q_pos in P0, N0.
    assert (SQ : (nat_q gt + nat_q eq + nat_q lt == nat_q P * nat_q N)%Q) by (rewrite <- !nat_q_add, <- nat_q_mul, SP; reflexivity).
    change (nat_q 2) with 2%Q. rewrite !nat_q_mul. change (nat_q 2) with 2%Q.
    assert (LQ : (nat_q lt == nat_q P * nat_q N - nat_q gt - nat_q eq)%Q) by lra. rewrite LQ. field. split; lra.
Qed.
Print Assumptions C40_reversed.

(** The order in which the samples are given does not matter. *)
Theorem C40_reorder : forall y s y' s' given p, List.length y = List.length s -> List.length y' = List.length s' ->
  pos_in_force y given p -> (exists i, pos_sample p y i) -> (exists i, neg_sample p y i) -> Permutation (combine y s) (combine y' s') ->
  exists q q', roc_auc_score true y s given = Ok q /\ roc_auc_score true y' s' given = Ok q' /\ (q == q')%Q.
Proof.
  intros y s y' s' g p L L' PF HP HN PM.
  assert (PY : Permutation y y') by (rewrite <- (map_fst_combine y s), <- (map_fst_combine y' s') by auto; now apply Permutation_map).
  assert (PF' : pos_in_force y' g p).
  { destruct g as [g|]; [exact PF|]. destruct PF as (E & NE & H). split; auto. split; [intros ->; apply Permutation_sym, Permutation_nil in PY; auto|].
    destruct H as [H|H]; [left|right]; intros v J; apply H; exact (Permutation_in v (Permutation_sym PY) J). }
  assert (PS : Permutation (samples p y s) (samples p y' s')).
  { assert (SE : forall a b, samples p a b = map (fun x => (fst x =? p, snd x)) (combine a b)).
    { clear. intros a. unfold samples. induction a as [|x a IH]; intros [|q b]; cbn; auto. now rewrite IH. }
    rewrite !SE. now apply Permutation_map. }
  destruct HP as [i HP], HN as [j HN]. 
  assert (HP' : exists i, pos_sample p y' i). { apply nth_error_In in HP. apply (Permutation_in _ PY) in HP. apply In_nth_error in HP. exact HP. }
  assert (HN' : exists i, neg_sample p y' i).
  { destruct HN as (v & HN & NV). apply nth_error_In in HN. apply (Permutation_in _ PY) in HN. apply In_nth_error in HN. destruct HN as [k K]. exists k, v. auto. }
  destruct (auc_samples y s g p L PF (ex_intro _ i HP) (ex_intro _ j HN)) as (q & E & V). destruct (auc_samples y' s' g p L' PF' HP' HN') as (q' & E' & V').
  exists q, q'. repeat split; auto. rewrite V, V'. rewrite (cross_perm _ _ _ _ PS PS), (count_perm _ _ _ PS), (count_perm (fun x => negb (fst x)) _ _ PS). reflexivity.
Qed.
Print Assumptions C40_reorder.

(** The curve itself: from (0,0) to (1,1), through the rates at every threshold. *)
Theorem C40_curve : forall y s given p P N, List.length y = List.length s -> pos_in_force y given p ->
  how_many (pos_sample p y) P -> how_many (neg_sample p y) N -> (0 < P)%nat -> (0 < N)%nat ->
  exists f0 t0 fpr tpr t ths, roc_curve true y s given = Ok (f0 :: fpr, t0 :: tpr, (t + 1)%Q :: ths) /\ (f0 == 0)%Q /\ (t0 == 0)%Q /\
    Permutation ths s /\ StronglySorted (fun a b => b <= a)%Q ths /\ hd_error ths = Some t /\
    List.length fpr = List.length ths /\ List.length tpr = List.length ths /\
    (forall i x u v, nth_error ths i = Some x -> nth_error fpr i = Some u -> nth_error tpr i = Some v ->
       exists k l, how_many (fun j => neg_sample p y j /\ scored s x j) k /\ how_many (fun j => pos_sample p y j /\ scored s x j) l /\
         (u == ratio k N)%Q /\ (v == ratio l P)%Q) /\
    (last fpr 0 == 1)%Q /\ (last tpr 0 == 1)%Q.
Proof.
  intros y s g p P N L PF HP HN P0 N0. set (D := desc p y s). pose proof (desc_sorted p y s) as SH. fold D in SH.
  pose proof (hm_unique _ _ _ (hm_positives p y s L) HP) as EP. pose proof (hm_unique _ _ _ (hm_negatives p y s L) HN) as EN. fold D in EP, EN.
  assert (NE : D <> []) by (intro E; rewrite E in EP; cbn in EP; lia).
  pose proof (roc_eq y s g p L PF) as RE. cbv zeta in RE. fold D in RE. rewrite EP, EN in RE.
  destruct (map snd D) as [|t ts] eqn:ET; [destruct D; [congruence|discriminate]|].
  destruct (Nat.leb_spec N 0); [lia|]. destruct (Nat.leb_spec P 0); [lia|].
  exists (qn 0 / qn N)%Q, (qn 0 / qn P)%Q, (map (fun x => qn (fst x) / qn N)%Q (map (point D) D)), (map (fun x => qn (snd x) / qn P)%Q (map (point D) D)), t, (map snd D).
  split.
  - rewrite RE. cbn [map fst snd]. rewrite ET. reflexivity.
  - split; [unfold Qdiv; apply Qmult_0_l|]. split; [unfold Qdiv; apply Qmult_0_l|].
    split; [unfold D; rewrite (Permutation_map snd (desc_perm p y s)); now rewrite samples_snd|].
    split; [clear -SH; induction SH as [|x l SH IH F]; cbn; constructor; auto; clear -F; induction F; cbn; constructor; auto|].
    split; [now rewrite ET|]. rewrite !map_length. split; [reflexivity|]. split; [reflexivity|]. split.
    + intros i x u v X U V. rewrite nth_error_map in X. rewrite !nth_error_map in U, V. destruct (nth_error D i) as [z|]; [|discriminate]. cbn in X, U, V.
      injection X as <-. injection U as <-. injection V as <-. exists (fp D (snd z)), (tp D (snd z)).
      split; [apply hm_fp|]. split; [apply hm_tp|]. split; reflexivity.
    + assert (LA : forall h : nat -> Q, forall c, last (map h (map c D)) 0%Q = h (last (map c D) O)).
      { intros h c. rewrite (last_default _ 0%Q (h O)) by (destruct D; [congruence|discriminate]). apply last_map. }
      assert (LF : last (map (fun x => (qn (fst x) / qn N)%Q) (map (point D) D)) 0%Q = (qn N / qn N)%Q).
      { transitivity (last (map (fun k => qn k / qn N)%Q (map (fun z => fp D (snd z)) D)) 0%Q); [now rewrite !map_map|].
        rewrite LA. pose proof (last_fp D O NE SH) as X. rewrite map_map, EN in X. now rewrite X. }
      assert (LT : last (map (fun x => (qn (snd x) / qn P)%Q) (map (point D) D)) 0%Q = (qn P / qn P)%Q).
      { transitivity (last (map (fun k => qn k / qn P)%Q (map (fun z => tp D (snd z)) D)) 0%Q); [now rewrite !map_map|].
        rewrite LA. pose proof (last_tp D O NE SH) as X. rewrite map_map, EP in X. now rewrite X. }
      rewrite LF, LT. apply nat_q_pos in P0, N0. change qn with nat_q. split; field; lra.
Qed.
Print Assumptions C40_curve.

(** Without a positive or without a negative sample there is no area. *)
Theorem C40_rejects : forall y s given p, List.length y = List.length s -> pos_in_force y given p ->
  (s = [] -> roc_auc_score true y s given = Err IndexErr) /\
  (s <> [] -> (forall i, ~ pos_sample p y i) \/ (forall i, ~ neg_sample p y i) -> roc_auc_score true y s given = Err ValueErr) /\
  (List.length y = List.length s -> roc_auc_score false y s given = Err IndexErr).
Proof.
  intros y s g p L PF. split; [|split].
  - intros ->. unfold roc_auc_score. rewrite (roc_eq y [] g p L PF). rewrite (proj2 (desc_nil p y [] L) eq_refl). reflexivity.
  - intros NE H. unfold roc_auc_score. rewrite (roc_eq y s g p L PF).
    destruct (map snd (desc p y s)) as [|t ts] eqn:ET; [exfalso; apply NE; apply (proj1 (desc_nil p y s L)); destruct (desc p y s); [reflexivity|discriminate]|].
    destruct H as [H|H].
    + rewrite (hm_unique _ _ _ (hm_positives p y s L) (hm_zero _ H)). destruct (Nat.leb _ 0); reflexivity.
    + rewrite (hm_unique _ _ _ (hm_negatives p y s L) (hm_zero _ H)). reflexivity.
  - intros _. unfold roc_auc_score, roc_curve. rewrite (proj2 (proj2 (C39_rejects false y s g)) p L PF). reflexivity.
Qed.
Print Assumptions C40_rejects.

Example C40_witness : exists q, roc_auc_score true [0; 1; 1; 0] [(1#2); (3#4); (1#2); (1#4)]%Q None = Ok q /\ (q == 7 # 8)%Q.
Proof. eexists. split; [vm_compute; reflexivity|reflexivity]. Qed.

(** * C41-C43: ranking metrics *)

Theorem C41_ranking_loss : forall a s n m w, matrix a n m -> matrix s n m -> (0 < n)%nat -> (1 < m)%nat -> two_valued a -> good_weights w n ->
  exists q, label_ranking_loss (T2 a) s w = Ok (Num q) /\ averages misorder (combine a s) w q.
Proof.
  intros a s n m w MA MS N M T W. unfold label_ranking_loss. cbn [num_samples]. rewrite (proj1 MA), (proj1 MS).
  rewrite (guard_true (same_length n n w)) by (apply same_length_ok; now apply good_fit). cbn [bind].
  rewrite (type_multilabel a n m) by auto. cbn [bind]. rewrite (guard_true _ _ (shape_ok a s n m MA MS N)). cbn [bind]. rewrite (hd_length a n m MA N).
  apply average_rows; [|now apply (rows_ne a s n m)|exact (good_total _ _ W)].
  intros [y t] J. destruct (rows_in a s n m y t MA MS J). now apply misorder_ok.
Qed.
Print Assumptions C41_ranking_loss.
Theorem C41_range : forall a s n m q, matrix a n m -> matrix s n m -> (0 < n)%nat -> (1 < m)%nat -> two_valued a ->
  label_ranking_loss (T2 a) s None = Ok (Num q) -> (0 <= q <= 1)%Q.
Proof.
  intros a s n m q MA MS N M T E. destruct (C41_ranking_loss a s n m None MA MS N M T I) as (q' & E' & V). rewrite E in E'. injection E' as <-.
  eapply averages_bounds; [now apply (rows_ne a s n m)|exact V|]. intros [y t] v _ P. now apply (misorder_bounds y t).
Qed.
Print Assumptions C41_range.
Theorem C41_rejects : forall t s w,
  (num_samples t <> List.length s -> label_ranking_loss t s w = Err ValueErr) /\
  (forall v, t = T1 v -> label_ranking_loss t s w = Err ValueErr) /\
  (forall a, t = T2 a -> ~ two_valued a -> label_ranking_loss t s w = Err ValueErr) /\
  (forall a n m m', t = T2 a -> matrix a n m -> matrix s n m' -> (0 < n)%nat -> (1 < m)%nat -> m <> m' -> label_ranking_loss t s w = Err ValueErr).
Proof.
  intros t s w. split; [|split; [|split]].
  - intro H. unfold label_ranking_loss, same_length. apply Nat.eqb_neq in H. now rewrite H.
  - intros v ->. unfold label_ranking_loss. destruct (same_length _ _ _); [|reflexivity]. cbn [guard bind].
    destruct (type_vector v) as (ty & -> & _). reflexivity.
  - intros a -> T. unfold label_ranking_loss. destruct (same_length _ _ _); [|reflexivity]. cbn [guard bind].
    now rewrite type_multiclass.
  - intros a n m m' -> MA MS N M NE. unfold label_ranking_loss. destruct (same_length _ _ _); [|reflexivity]. cbn [guard bind].
    destruct (type_of_target (T2 a)) as [[]|e] eqn:TT; try reflexivity; cbn [bind].
    + unfold shape_eqb, shape. cbn [fst snd]. rewrite (hd_length a n m), (hd_length s n m') by auto. apply Nat.eqb_neq in NE. now rewrite NE, andb_false_r.
    + unfold type_of_target in TT. destruct (Nat.leb _ 2); [|discriminate]. destruct a; [destruct MA; cbn in *; lia|]. destruct (Nat.ltb _ _); discriminate.
Qed.
Print Assumptions C41_rejects.
Example C41_witness : exists q, label_ranking_loss (T2 [[1; 0; 0]; [0; 0; 1]]) [[(3#4); (1#2); 1]; [1; (1#5); (1#10)]]%Q None = Ok (Num q) /\ (q == 3 # 4)%Q.
Proof. eexists. split; [vm_compute; reflexivity|reflexivity]. Qed.

Theorem C42_coverage : forall a s n m w, matrix a n m -> matrix s n m -> (0 < n)%nat -> (1 < m)%nat -> two_valued a -> good_weights w n ->
  exists q, coverage_error (T2 a) s w = Ok (Num q) /\ averages coverage (combine a s) w q.
Proof.
  intros a s n m w MA MS N M T W. unfold coverage_error. cbn [num_samples]. rewrite (proj1 MA), (proj1 MS).
  rewrite (guard_true (same_length n n w)) by (apply same_length_ok; now apply good_fit). cbn [bind].
  rewrite (type_multilabel a n m) by auto. cbn [bind]. rewrite (guard_true _ _ (shape_ok a s n m MA MS N)). cbn [bind].
  apply average_rows; [|now apply (rows_ne a s n m)|exact (good_total _ _ W)].
  intros [y t] J. destruct (rows_in a s n m y t MA MS J). cbn [fst snd]. apply coverage_ok. congruence.
Qed.
Print Assumptions C42_coverage.
Theorem C42_range : forall a s n m q, matrix a n m -> matrix s n m -> (0 < n)%nat -> (1 < m)%nat -> two_valued a ->
  coverage_error (T2 a) s None = Ok (Num q) -> (0 <= q <= nat_q m)%Q.
Proof.
  intros a s n m q MA MS N M T E. destruct (C42_coverage a s n m None MA MS N M T I) as (q' & E' & V). rewrite E in E'. injection E' as <-.
  eapply averages_bounds; [now apply (rows_ne a s n m)|exact V|]. intros [y t] v J P. destruct (rows_in a s n m y t MA MS J) as [L1 L2].
  rewrite <- L2. apply (coverage_bounds y t); [congruence|auto].
Qed.
Print Assumptions C42_range.
Theorem C42_rejects : forall t s w,
  (num_samples t <> List.length s -> coverage_error t s w = Err ValueErr) /\
  (forall v, t = T1 v -> coverage_error t s w = Err ValueErr) /\
  (forall a, t = T2 a -> ~ two_valued a -> coverage_error t s w = Err ValueErr).
Proof.
  intros t s w. split; [|split].
  - intro H. unfold coverage_error, same_length. apply Nat.eqb_neq in H. now rewrite H.
  - intros v ->. unfold coverage_error. destruct (same_length _ _ _); [|reflexivity]. cbn [guard bind].
    destruct (type_vector v) as (ty & -> & _). reflexivity.
  - intros a -> T. unfold coverage_error. destruct (same_length _ _ _); [|reflexivity]. cbn [guard bind].
    now rewrite type_multiclass.
Qed.
Print Assumptions C42_rejects.
(** A label -1 counts as relevant: with -1/1 labels every label has to be covered. *)
Theorem C42_signs_refuted : forall a s n m, matrix a n m -> matrix s n m -> (0 < n)%nat -> (1 < m)%nat ->
  (forall i j x, cell a i j x -> x = -1 \/ x = 1) -> exists q, coverage_error (T2 a) s None = Ok (Num q) /\ (q == nat_q m)%Q.
Proof.
  intros a s n m MA MS N M H. assert (T : two_valued a) by (exists (-1), 1; exact H).
  destruct (C42_coverage a s n m None MA MS N M T I) as (q & E & V). exists q. split; auto.
  assert (B : (nat_q m <= q <= nat_q m)%Q).
  { eapply averages_bounds; [now apply (rows_ne a s n m)|exact V|]. intros [y t] v J [_ P]. destruct (rows_in a s n m y t MA MS J) as [L1 L2].
    assert (R : forall j, (j < m)%nat -> rel y j).
    { intros j LJ. destruct (nth_error y j) as [x|] eqn:X; [|apply nth_error_None in X; lia]. exists x. split; auto.
      apply In_nth_error in J. destruct J as [i J]. apply combine_nth_both in J. destruct J as [J _]. destruct (H i j x); [exists y; auto|lia|lia]. }
    assert (ML : exists j q0, nth_error t j = Some q0 /\ forall x, In x t -> (q0 <= x)%Q).
    { destruct t as [|z t]; [cbn in L2; lia|]. destruct (fold_min t z) as [I0 B0]. apply In_nth_error in I0. destruct I0 as [j I0]. exists j, (fold_left qmin t z). auto. }
    destruct ML as (j & q0 & J0 & MN). destruct (P j q0) as (k & HK & EV); auto.
    - apply R. rewrite <- L2. apply nth_error_Some. rewrite J0. discriminate.
    - intros i x _ X. apply MN. eapply nth_error_In; eauto.
    - assert (k = m). { eapply hm_unique; [exact HK|]. exists (seq 0 m). split; [apply seq_NoDup|]. split; [apply seq_length|]. intro i. rewrite in_seq. split.
        - intros [_ LI]. cbn in LI. destruct (nth_error t i) as [x|] eqn:X; [|apply nth_error_None in X; lia]. exists x. split; auto. apply MN. eapply nth_error_In; eauto.
        - intros (x & X & _). split; [lia|]. cbn. rewrite <- L2. apply nth_error_Some. rewrite X. discriminate. }
      subst k. rewrite EV. lra. }
  lra.
Qed.
Print Assumptions C42_signs_refuted.
Example C42_witness : exists q, coverage_error (T2 [[1; 0; 0]; [0; 0; 1]]) [[(3#4); (1#2); 1]; [1; (1#5); (1#10)]]%Q None = Ok (Num q) /\ (q == 5 # 2)%Q.
Proof. eexists. split; [vm_compute; reflexivity|reflexivity]. Qed.

Theorem C43_precision : forall a s n m, matrix a n m -> matrix s n m -> (0 < n)%nat -> two_valued a ->
  exists q, lrap_score (T2 a) s None = Ok (Num q) /\ averages precision (combine a s) None q /\ (0 < q <= 1)%Q.
Proof.
  intros a s n m MA MS N T. unfold lrap_score. cbn [num_samples]. rewrite (proj1 MA), (proj1 MS).
  rewrite (guard_true (same_length n n None)) by (apply same_length_ok; exact I). cbn [bind].
  rewrite (guard_true _ _ (shape_ok a s n m MA MS N)). cbn [bind]. destruct (type_two_valued a n m MA N T) as (ty & -> & NT). cbn [bind]. rewrite (hd_length a n m MA N).
  rewrite map_map. set (f := fun p : list Z * list Q => match lrap_row m (fst p) (snd p) with Some x => x | None => 1%Q end).
  assert (NE := rows_ne a s n m MA MS N).
  destruct (average_rows precision f (combine a s) None) as (q & E & V); auto.
  { intros [y t] J. destruct (rows_in a s n m y t MA MS J). now apply precision_ok. }
  assert (E2 : Ok (fdiv (qsum (map f (combine a s))) (qn n)) = Ok (Num q)).
  { rewrite <- E. unfold average. do 2 f_equal. unfold qlen. rewrite map_length, combine_length, (proj1 MA), (proj1 MS), Nat.min_id. reflexivity. }
  exists q. split; [destruct ty; [exact E2|congruence|exact E2]|]. split; [exact V|]. destruct V as (vs & F & EV).
  assert (NV : vs <> []) by (apply Forall2_len in F; destruct vs; [destruct (combine a s); [congruence|discriminate]|discriminate]).
  split.
  - rewrite EV. apply mean_positive; auto. eapply Forall2_right; [exact F|]. intros [y t] v _ P. now apply (precision_bounds y t).
  - rewrite EV. apply (mean_bounds 0 1); auto. eapply Forall2_right; [exact F|]. intros [y t] v _ P. destruct (precision_bounds y t v P). lra.
Qed.
Print Assumptions C43_precision.

(** With weights, the rows with all or no relevant labels are added with weight 1, whatever their weight. *)
Theorem C43_weights_refuted : forall a s n m w, matrix a n m -> matrix s n m -> (0 < n)%nat -> two_valued a ->
  List.length w = n -> ~ (total w == 0)%Q ->
  exists q us, lrap_score (T2 a) s (Some w) = Ok (Num q) /\
    Forall2 (fun rw u => exists v, precision (fst rw) v /\ (trivial (fst (fst rw)) -> (u == 1)%Q) /\ (~ trivial (fst (fst rw)) -> (u == v * snd rw)%Q))
            (combine (combine a s) w) us /\
    (q * total w == total us)%Q.
Proof.
  intros a s n m w MA MS N T LW TW. unfold lrap_score. cbn [num_samples]. rewrite (proj1 MA), (proj1 MS).
  rewrite (guard_true (same_length n n (Some w))) by (apply same_length_ok; exact LW). cbn [bind].
  rewrite (guard_true _ _ (shape_ok a s n m MA MS N)). cbn [bind]. destruct (type_two_valued a n m MA N T) as (ty & -> & NT). cbn [bind]. rewrite (hd_length a n m MA N).
  set (us := map (fun p => match fst p with Some x => x * snd p | None => 1 end)%Q (combine (map (fun p => lrap_row m (fst p) (snd p)) (combine a s)) w)).
  assert (FD : fdiv (qsum us) (qsum w) = Num (qsum us / qsum w)) by now apply fdiv_num.
  exists (qsum us / qsum w)%Q, us. split; [|split].
  - rewrite <- FD. destruct ty; [reflexivity|congruence|reflexivity].
  - unfold us. assert (G : forall r, In r (combine a s) -> List.length (fst r) = m /\ List.length (snd r) = m) by (intros [y t] J; now apply (rows_in a s n m y t MA MS)).
    clear -G. revert w. induction (combine a s) as [|[y t] l IH]; intros [|x w]; cbn [map combine]; constructor.
    + destruct (G (y, t) (or_introl eq_refl)) as [L1 L2]. cbn [fst snd] in *. destruct (precision_ok y t m L1 L2) as [P TR].
      destruct (lrap_row m y t) as [v|].
      * exists v. split; auto. split; [intro D; apply TR in D; discriminate|reflexivity].
      * exists 1%Q. split; auto. split; [reflexivity|]. intro D. exfalso. apply D. now apply TR.
    + apply IH. intros r J. apply G. now right.
  - change (qsum us) with (total us). change (qsum w) with (total w). clearbody us. field. auto.
Qed.
Print Assumptions C43_weights_refuted.
(** So a perfect prediction need not score 1: a concrete case. *)
Example C43_weights_witness : exists q, lrap_score (T2 [[1; 0]; [1; 1]]) [[1; 0]; [1; 0]]%Q (Some [1; 3]%Q) = Ok (Num q) /\ (q == 1 # 2)%Q.
Proof. eexists. split; [vm_compute; reflexivity|reflexivity]. Qed.
Example C43_witness : exists q, lrap_score (T2 [[1; 0; 0]; [0; 0; 1]]) [[(3#4); (1#2); 1]; [1; (1#5); (1#10)]]%Q None = Ok (Num q) /\ (q == 5 # 12)%Q.
Proof. eexists. split; [vm_compute; reflexivity|reflexivity]. Qed.

Theorem C43_rejects : forall t s w,
  (num_samples t <> List.length s -> lrap_score t s w = Err ValueErr) /\
  (forall v, t = T1 v -> lrap_score t s w = Err ValueErr) /\
  (forall a n m, t = T2 a -> matrix a n m -> matrix s n m -> ~ two_valued a -> lrap_score t s w = Err ValueErr).
Proof.
  intros t s w. split; [|split].
  - intro H. unfold lrap_score, same_length. apply Nat.eqb_neq in H. now rewrite H.
  - intros v ->. unfold lrap_score. destruct (same_length _ _ _); [|reflexivity]. reflexivity.
  - intros a n m -> MA MS T. unfold lrap_score. destruct (same_length _ _ _); [|reflexivity]. cbn [guard bind].
    destruct (shape_eqb _ _); [|reflexivity]. cbn [guard bind]. now rewrite type_multiclass.
Qed.
Print Assumptions C43_rejects.

(** * C44: one_error *)

(** The fraction of rows in which truth and prediction have the same sum. *)
Theorem C44_row_sums : forall a p n m w, matrix a n m -> matrix p n m -> (0 < n)%nat -> (1 < m)%nat -> two_valued a -> weights_fit w n ->
  exists q k, one_error (T2 a) p w = Ok (Num q) /\
    how_many (fun i => exists r s, nth_error a i = Some r /\ nth_error p i = Some s /\ fold_right Z.add 0 r = fold_right Z.add 0 s) k /\
    (q == ratio k n)%Q.
Proof.
  intros a p n m w MA MP N M T W. unfold one_error. cbn [num_samples]. rewrite (proj1 MA), (proj1 MP).
  rewrite (guard_true (same_length n n w)) by now apply same_length_ok. cbn [bind]. rewrite (type_multilabel a n m) by auto. cbn [bind].
  rewrite (shape_ok a p n m MA MP N), orb_true_r. cbn [guard bind]. rewrite fdiv_num by (change qn with nat_q; rewrite nat_q_0; lia).
  eexists. exists (count (fun q => row_diff (fst q) (snd q) =? 0) (combine a p)). split; [reflexivity|]. split; [|reflexivity].
  assert (RD : forall r s, List.length r = m -> List.length s = m -> row_diff r s = zsum r - zsum s).
  { intros r s L1 L2. assert (E : row_diff r s = zsum (map (fun q => fst q - snd q) (combine r s))) by (destruct s as [|x [|y s]]; cbn in L2; [lia|lia|reflexivity]).
    rewrite E. assert (L : List.length r = List.length s) by congruence. clear -L. revert s L. induction r as [|x r IH]; intros [|y s] L; try discriminate; [reflexivity|].
    cbn [combine map zsum fold_right fst snd]. fold (zsum r) (zsum s). fold (zsum (map (fun q => fst q - snd q) (combine r s))). rewrite IH by (cbn in L; lia). lia. }
  eapply hm_ext; [|apply hm_count]. intro i. cbv beta. split.
  - intros ([r s] & J & E). cbn in E. destruct (rows_in a p n m r s MA MP (nth_error_In _ _ J)) as [L1 L2]. rewrite RD in E by auto. apply Z.eqb_eq in E.
    apply combine_nth_both in J. destruct J. exists r, s. repeat split; auto. unfold zsum in E. lia.
  - intros (r & s & R & S' & E). exists (r, s). rewrite combine_nth_both. split; auto. cbn [fst snd].
    assert (J : In (r, s) (combine a p)) by (apply (nth_error_In _ i); apply combine_nth_both; auto).
    destruct (rows_in a p n m r s MA MP J) as [L1 L2]. rewrite RD by auto. apply Z.eqb_eq. unfold zsum. lia.
Qed.
Print Assumptions C44_row_sums.
(** A perfect prediction has the greatest possible "error", and so has a completely wrong one. *)
Theorem C44_meaning_refuted : forall a n m, matrix a n m -> (0 < n)%nat -> (1 < m)%nat -> two_valued a ->
  (exists q, one_error (T2 a) a None = Ok (Num q) /\ (q == 1)%Q) /\
  (forall b, b = map (@rev Z) a -> exists q, one_error (T2 a) b None = Ok (Num q) /\ (q == 1)%Q).
Proof.
  intros a n m MA N M T.
  assert (G : forall b, matrix b n m -> (forall i r s, nth_error a i = Some r -> nth_error b i = Some s -> fold_right Z.add 0 r = fold_right Z.add 0 s) ->
    exists q, one_error (T2 a) b None = Ok (Num q) /\ (q == 1)%Q).
  { intros b MB H. destruct (C44_row_sums a b n m None MA MB N M T I) as (q & k & E & K & V). exists q. split; auto. rewrite V.
    apply ratio_one; auto. eapply hm_unique; [exact K|]. exists (seq 0 n). split; [apply seq_NoDup|]. split; [apply seq_length|]. intro i. rewrite in_seq. split.
    - intros [_ L]. cbn in L. destruct (nth_error a i) as [r|] eqn:R; [|apply nth_error_None in R; destruct MA; lia].
      destruct (nth_error b i) as [s|] eqn:R'; [|apply nth_error_None in R'; destruct MB; lia]. exists r, s. repeat split; auto. now apply (H i).
    - intros (r & s & R & _). split; [lia|]. cbn. rewrite <- (proj1 MA). apply nth_error_Some. rewrite R. discriminate. }
  split.
  - apply G; auto. intros i r s R R'. congruence.
  - intros b ->. apply G.
    + destruct MA as [L F]. split; [now rewrite map_length|]. apply Forall_map. eapply Forall_impl; [|exact F]. intros r LR. now rewrite rev_length.
    + intros i r s R R'. rewrite nth_error_map, R in R'. cbn in R'. injection R' as <-. apply (zsum_perm r (rev r)). apply Permutation_rev.
Qed.
Print Assumptions C44_meaning_refuted.
Theorem C44_rejects : forall t p w,
  (num_samples t <> List.length p -> one_error t p w = Err ValueErr) /\
  (forall v, t = T1 v -> one_error t p w = Err ValueErr) /\
  (forall a, t = T2 a -> ~ two_valued a -> one_error t p w = Err ValueErr).
Proof.
  intros t p w. split; [|split].
  - intro H. unfold one_error, same_length. apply Nat.eqb_neq in H. now rewrite H.
  - intros v ->. unfold one_error. destruct (same_length _ _ _); [|reflexivity]. cbn [guard bind].
    destruct (type_vector v) as (ty & -> & _). reflexivity.
  - intros a -> T. unfold one_error. destruct (same_length _ _ _); [|reflexivity]. cbn [guard bind].
    now rewrite type_multiclass.
Qed.
Print Assumptions C44_rejects.
Example C44_witness : exists q, one_error (T2 [[1; 0]; [0; 1]; [1; 1]]) [[0; 1]; [0; 1]; [0; 1]] None = Ok (Num q) /\ (q == 2 # 3)%Q.
Proof. eexists. split; [vm_compute; reflexivity|reflexivity]. Qed.

(** * C60: micro_auc_score *)

(** Column [j] of labels and scores: [v] is the share of (positive, negative) pairs of rows with the positive scored
    strictly higher. *)
Definition class_share (a : list (list Z)) (s : list (list Q)) (j : nat) (v : Q) : Prop :=
  exists P N g, how_many (pos_sample 1 (column 0 a j)) P /\ how_many (neg_sample 1 (column 0 a j)) N /\
    how_many (fun ik => pos_sample 1 (column 0 a j) (fst ik) /\ neg_sample 1 (column 0 a j) (snd ik) /\ above (column 0%Q s j) (fst ik) (snd ik)) g /\
    (v == ratio g (P * N))%Q.

(** The average over the classes; a class without positive or without negative instances is a division by zero. *)
Theorem C60_classes : forall a s n m w, matrix a n m -> matrix s n m -> (0 < n)%nat -> (0 < m)%nat -> two_valued a -> weights_fit w n ->
  (forall j, (j < m)%nat -> (exists i, pos_sample 1 (column 0 a j) i) /\ (exists i, neg_sample 1 (column 0 a j) i)) ->
  exists q, micro_auc_score (T2 a) s w = Ok q /\ averages (class_share a s) (seq 0 m) None q /\ (0 <= q <= 1)%Q.
Proof.
  intros a s n m w MA MS N M T W BOTH. rewrite (micro_unfold a s n m) by auto.
  assert (CA : forall j, In j (seq 0 m) -> exists v, class_auc (zcol a j) (qcol s j) = Ok v /\ class_share a s j v /\ (0 <= v <= 1)%Q).
  { intros j J. apply in_seq in J. destruct (BOTH j) as [[i HI] [k HK]]; [lia|].
    destruct (class_auc_spec (zcol a j) (qcol s j)) as (P & NN & g & HP & HN & HG & E); [now rewrite (zcol_length a n m), (qcol_length s n m)|].
    rewrite E. assert (P0 : P <> O) by (intros ->; eapply hm_zero_inv; eauto). assert (N0 : NN <> O) by (intros ->; eapply hm_zero_inv; eauto).
    destruct (Nat.eqb_spec (P * NN) 0); [nia|]. eexists. split; [reflexivity|]. split; [exists P, NN, g; repeat split; auto; reflexivity|].
    apply ratio_bounds; [|nia]. eapply hm_le; [|exact HG|exact (hm_prod _ _ _ _ HP HN)]. intros [x y]. cbn. tauto. }
  destruct (mapM_res (fun j => class_auc (zcol a j) (qcol s j)) (seq 0 m)) as [(vs & E & F)|(j & e & J & X & _)].
  - rewrite E. cbn [bind]. eexists. split; [reflexivity|].
    assert (F2 : Forall2 (class_share a s) (seq 0 m) vs /\ Forall (fun v => 0 <= v <= 1)%Q vs).
    { clear E. induction F as [|j v l vs Hv F IH]; [split; constructor|]. destruct IH as [A B]; [intros; apply CA; now right|].
      destruct (CA j (or_introl eq_refl)) as (v' & E' & C & R). rewrite Hv in E'. injection E' as <-. split; constructor; auto. }
    destruct F2 as [F2 F3]. assert (LV := Forall2_len _ _ _ F2). rewrite seq_length in LV.
    assert (EQ : (qsum vs / qn m == mean vs)%Q) by (unfold mean; rewrite <- LV; reflexivity).
    split; [exists vs; split; auto|]. rewrite EQ. apply mean_bounds; auto. intros ->. cbn in LV. lia.
  - destruct (CA j J) as (v & E & _). congruence.
Qed.
Print Assumptions C60_classes.
Theorem C60_one_sided : forall a s n m w j, matrix a n m -> matrix s n m -> (0 < n)%nat -> two_valued a -> weights_fit w n -> (j < m)%nat ->
  (forall i, ~ pos_sample 1 (column 0 a j) i) \/ (forall i, ~ neg_sample 1 (column 0 a j) i) -> micro_auc_score (T2 a) s w = Err ZeroDivErr.
Proof.
  intros a s n m w j MA MS N T W J H. rewrite (micro_unfold a s n m) by (auto; lia).
  assert (EX : forall k, class_auc (zcol a k) (qcol s k) = Err ZeroDivErr \/ exists v, class_auc (zcol a k) (qcol s k) = Ok v).
  { intro k. unfold class_auc. cbv zeta. destruct (Nat.eqb _ 0); [left; reflexivity|right]. eexists. reflexivity. }
  assert (BAD : class_auc (zcol a j) (qcol s j) = Err ZeroDivErr).
  { destruct (class_auc_spec (zcol a j) (qcol s j)) as (P & NN & g & HP & HN & HG & E); [now rewrite (zcol_length a n m), (qcol_length s n m)|].
    assert (PZ : (P * NN)%nat = O). { destruct H as [H|H]; [rewrite (hm_unique _ _ _ HP (hm_zero _ H)); lia|rewrite (hm_unique _ _ _ HN (hm_zero _ H)); lia]. }
    rewrite E, PZ. reflexivity. }
  destruct (mapM_res (fun j => class_auc (zcol a j) (qcol s j)) (seq 0 m)) as [(vs & E & F)|(k & e & K & X & E)].
  - exfalso. assert (IN : In j (seq 0 m)) by (apply in_seq; lia). clear E. induction F as [|x v l vs Hv F IH]; [destruct IN|]. destruct IN as [->|IN]; [congruence|auto].
  - rewrite E. cbn [bind]. destruct (EX k) as [Y|[v Y]]; congruence.
Qed.
Print Assumptions C60_one_sided.
(** Ties count nothing: constant scores, worth 1/2 for roc_auc_score, are worth 0 here. *)
Theorem C60_ties_refuted : forall a s n m q0, matrix a n m -> matrix s n m -> (0 < n)%nat -> (0 < m)%nat -> two_valued a ->
  (forall j, (j < m)%nat -> (exists i, pos_sample 1 (column 0 a j) i) /\ (exists i, neg_sample 1 (column 0 a j) i)) ->
  (forall i j x, cell s i j x -> x = q0) -> exists q, micro_auc_score (T2 a) s None = Ok q /\ (q == 0)%Q.
Proof.
  intros a s n m q0 MA MS N M T BOTH CST. destruct (C60_classes a s n m None MA MS N M T I BOTH) as (q & E & V & _). exists q. split; auto.
  assert (B : (0 <= q <= 0)%Q); [|lra]. apply (averages_bounds (class_share a s) (seq 0 m) q 0 0); [destruct m; [lia|discriminate]|exact V|].
  intros j v J (P & NN & g & HP & HN & HG & ->). apply in_seq in J. assert (g = O).
  { eapply hm_unique; [exact HG|]. apply hm_zero. intros [i k] (_ & _ & x & y & X & Y & LT). unfold column in X, Y. cbn [fst snd] in X, Y.
    rewrite nth_error_map in X, Y. destruct (nth_error s i) as [r|] eqn:R; [|discriminate]. destruct (nth_error s k) as [r'|] eqn:R'; [|discriminate].
    cbn in X, Y. injection X as <-. injection Y as <-.
    assert (C : forall i r, nth_error s i = Some r -> nth j r 0%Q = q0).
    { intros i0 r0 R0. apply (CST i0 j). exists r0. split; auto. apply nth_error_nth'. destruct MS as [_ F]. rewrite Forall_forall in F. rewrite (F r0) by (eapply nth_error_In; eauto). lia. }
    rewrite (C i r R), (C k r' R') in LT. lra. }
  subst g. unfold ratio. assert (X : (nat_q 0 / nat_q (P * NN) == 0)%Q) by (unfold Qdiv; apply Qmult_0_l). rewrite X. lra.
Qed.
Print Assumptions C60_ties_refuted.
Example C60_witness : exists q, micro_auc_score (T2 [[1; 0]; [0; 1]; [0; 0]]) [[(1#2); (1#4)]; [(1#3); (1#4)]; [(2#3); (1#5)]]%Q None = Ok q /\ (q == 1 # 2)%Q.
Proof. eexists. split; [vm_compute; reflexivity|reflexivity]. Qed.

(** * C61: average_precision_score *)

(** For 0/1 labels: the average over all samples of the row precision, ties being broken by position (a later label
    counts as ranked higher) and rows with all or no relevant labels counting 0. *)
Theorem C61_precision : forall a s n m w, matrix a n m -> matrix s n m -> (0 < n)%nat -> zero_one a -> weights_fit w n ->
  exists q, average_precision_score (T2 a) s w = Ok (Num q) /\ averages tied_precision (combine a s) None q.
Proof. exact ap_ok. Qed.
Print Assumptions C61_precision.
(** So the best possible score is only the share of non-trivial rows. *)
Theorem C61_trivial_refuted : forall a s n m, matrix a n m -> matrix s n m -> (0 < n)%nat -> zero_one a ->
  (forall i y, nth_error a i = Some y -> trivial y) -> exists q, average_precision_score (T2 a) s None = Ok (Num q) /\ (q == 0)%Q.
Proof.
  intros a s n m MA MS N ZO TR. destruct (ap_ok a s n m None MA MS N ZO I) as (q & E & V). exists q. split; auto.
  assert (B : (0 <= q <= 0)%Q); [|lra]. eapply averages_bounds; [now apply (rows_ne a s n m)|exact V|].
  intros [y t] v J [H _]. apply In_nth_error in J. destruct J as [i J]. apply combine_nth_both in J. destruct J as [J _]. rewrite (H (TR i y J)). lra.
Qed.
Print Assumptions C61_trivial_refuted.
(** Equal scores: the result depends on the order of the labels. *)
Theorem C61_ties_refuted : exists q q',
  average_precision_score (T2 [[1; 0]]) [[1; 1]]%Q None = Ok (Num q) /\ average_precision_score (T2 [[0; 1]]) [[1; 1]]%Q None = Ok (Num q') /\
  (q == 1 # 2)%Q /\ (q' == 1)%Q.
Proof. do 2 eexists. split; [vm_compute; reflexivity|]. split; [vm_compute; reflexivity|]. split; reflexivity. Qed.
Print Assumptions C61_ties_refuted.
Theorem C61_range : forall a s n m q, matrix a n m -> matrix s n m -> (0 < n)%nat -> zero_one a ->
  average_precision_score (T2 a) s None = Ok (Num q) -> (0 <= q <= 1)%Q.
Proof.
  intros a s n m q MA MS N ZO E. destruct (ap_ok a s n m None MA MS N ZO I) as (q' & E' & V). rewrite E in E'. injection E' as <-.
  eapply averages_bounds; [now apply (rows_ne a s n m)|exact V|]. intros [y t] v J [T NT]. destruct (trivial_dec y) as [D|D]; [rewrite (T D); lra|].
  destruct (NT D) as (js & qs & NDJ & HJ & F & ->). apply mean_bounds.
  - intros ->. inversion F; subst. apply D. left. intros j R. apply HJ in R. destruct R.
  - eapply Forall2_right; [exact F|]. intros j u JJ (x & b & HA & HB & ->).
    assert (AB : (x <= b)%nat) by (eapply hm_le; [|exact HA|exact HB]; intros i [_ R]; exact R).
    destruct b; [|apply ratio_bounds; lia]. assert (x = O) by lia. subst x. unfold ratio. assert (X : (nat_q 0 / nat_q 0 == 0)%Q) by reflexivity. rewrite X. lra.
Qed.
Print Assumptions C61_range.
Example C61_witness : exists q, average_precision_score (T2 [[1; 0; 1]; [0; 0; 0]]) [[(1#2); (3#4); 1]; [1; (1#2); 0]]%Q None = Ok (Num q) /\ (q == 5 # 12)%Q /\ zero_one [[1; 0; 1]; [0; 0; 0]].
Proof.
  eexists. split; [vm_compute; reflexivity|]. split; [reflexivity|]. intros i j x (r & R & X).
  destruct i as [|[|[|i]]]; cbn in R; try discriminate; injection R as <-; destruct j as [|[|[|j]]]; cbn in X; try (destruct j; discriminate); try discriminate; injection X as <-; auto.
Qed.

(** * C62: precision_recall_curve *)

(** Thresholds ascend; each entry gives precision and recall at its threshold; the thresholds are the highest scores
    down to the first one at which every positive is found; a final (1, 0) is appended. *)
Theorem C62_curve : forall y s given p P, List.length y = List.length s -> pos_in_force y given p -> s <> [] -> how_many (pos_sample p y) P ->
  exists pr rc ths rest, precision_recall_curve true y s given = Ok (pr ++ [Num 1], rc ++ [Num 0], ths) /\
    List.length pr = List.length ths /\ List.length rc = List.length ths /\ ths <> [] /\
    StronglySorted (fun a b => a <= b)%Q ths /\ Permutation (ths ++ rest) s /\ (forall t r, In t ths -> In r rest -> (r <= t)%Q) /\
    (forall i t u v, nth_error ths i = Some t -> nth_error pr i = Some u -> nth_error rc i = Some v ->
       exists tp fp, how_many (fun j => pos_sample p y j /\ scored s t j) tp /\ how_many (fun j => neg_sample p y j /\ scored s t j) fp /\
         (exists x, u = Num x /\ (x == ratio tp (tp + fp))%Q) /\
         ((0 < P)%nat -> exists x, v = Num x /\ (x == ratio tp P)%Q) /\ (P = O -> v = NaN) /\
         (i = O <-> tp = P)).
Proof.
  intros y s g p P L PF NE HP. destruct (prc_eq y s g p L PF NE) as [E I]. set (D := desc p y s) in *.
  pose proof (hm_unique _ _ _ (hm_positives p y s L) HP) as EP. fold D in EP. rewrite EP in E, I. set (i := searchsorted (map (tp D) (map snd D)) P) in *.
  set (M := rev (firstn (S i) D)) in *. pose proof (desc_sorted p y s) as SH. fold D in SH.
  exists (map (fun x => Num (ratio (tp D (snd x)) (tp D (snd x) + fp D (snd x)))) M), (map (fun x => fdiv (nat_q (tp D (snd x))) (nat_q P)) M), (map snd M), (map snd (skipn (S i) D)).
  split; [exact E|]. rewrite !map_length. split; [reflexivity|]. split; [reflexivity|].
  assert (SS : StronglySorted (fun a b : sample => (snd b <= snd a)%Q) (firstn (S i) D) /\ forall a b, In a (firstn (S i) D) -> In b (skipn (S i) D) -> (snd b <= snd a)%Q).
  { clear -SH. rewrite <- (firstn_skipn (S i) D) in SH. revert SH. generalize (firstn (S i) D), (skipn (S i) D). intros u v. induction u as [|x u IH]; cbn; intro SH.
    - split; [constructor|]. intros a b [].
    - apply StronglySorted_inv in SH. destruct SH as [SH F]. apply Forall_app in F. destruct F as [F1 F2]. destruct (IH SH) as [A B]. split; [constructor; auto|].
      intros a b [<-|J] K; [rewrite Forall_forall in F2|]; auto. }
  destruct SS as [SS1 SS2]. split.
  { intro X. apply (f_equal (@List.length Q)) in X. unfold M in X. rewrite map_length, rev_length, firstn_length in X. cbn [List.length] in X. lia. }
  split.
  { apply (sorted_rev (fun a b : sample => (snd b <= snd a)%Q)) in SS1. fold M in SS1. clear -SS1. induction SS1 as [|x l SS IH F]; cbn; constructor; auto.
    clear -F. induction F; cbn; constructor; auto. }
  split.
  { rewrite <- map_app. transitivity (map snd (samples p y s)); [|now rewrite samples_snd]. apply Permutation_map. rewrite <- (desc_perm p y s). fold D.
    transitivity (firstn (S i) D ++ skipn (S i) D); [|now rewrite firstn_skipn]. apply Permutation_app_tail. unfold M. symmetry. apply Permutation_rev. }
  split.
  { intros t r T R. apply in_map_iff in T, R. destruct T as (a & <- & A), R as (b & <- & B). apply SS2; auto. unfold M in A. now apply in_rev in A. }
  intros k t u v T U V. rewrite nth_error_map in T, U, V. destruct (nth_error M k) as [z|] eqn:Z0; [|discriminate]. cbn in T, U, V. injection T as <-. injection U as <-. injection V as <-.
  exists (tp D (snd z)), (fp D (snd z)). split; [apply hm_tp|]. split; [apply hm_fp|]. split; [eexists; split; reflexivity|]. split; [|split].
  - intro P0. rewrite fdiv_num by (rewrite nat_q_0; lia). eexists. split; reflexivity.
  - intros P0. assert (T0 : (tp D (snd z) <= P)%nat). { rewrite <- EP. unfold tp. apply count_mono. intros x H. apply andb_true_iff in H. tauto. }
    replace (tp D (snd z)) with O by lia. rewrite P0. reflexivity.
  - (* the first threshold is the one with full recall *)
    assert (LF : List.length (firstn (S i) D) = S i) by (apply firstn_length_le; lia).
    assert (KL : (k < S i)%nat). { rewrite <- LF. rewrite <- rev_length. apply nth_error_Some. unfold M in Z0. rewrite Z0. discriminate. }
    assert (ZK : nth_error D (i - k) = Some z).
    { unfold M in Z0. pose proof Z0 as Z1. apply (nth_error_nth _ _ z) in Z1. rewrite rev_nth in Z1 by lia. rewrite LF in Z1.
      replace (S i - S k)%nat with (i - k)%nat in Z1 by lia. rewrite <- (firstn_skipn (S i) D). rewrite nth_error_app1 by lia. rewrite <- Z1. apply nth_error_nth'. lia. }
    assert (TZ : nth_error (map (tp D) (map snd D)) (i - k) = Some (tp D (snd z))) by (rewrite !nth_error_map, ZK; reflexivity).
    destruct (searchsorted_spec (map (tp D) (map snd D)) P) as (A & B & _). fold i in A, B. split.
    + intros ->. rewrite Nat.sub_0_r in TZ. apply B in TZ. assert (T0 : (tp D (snd z) <= P)%nat). { rewrite <- EP. unfold tp. apply count_mono. intros x H. apply andb_true_iff in H. tauto. }
      lia.
    + intro TP. destruct k; auto. exfalso. apply (A (i - S k)%nat) in TZ; lia.
Qed.
Print Assumptions C62_curve.
Example C62_witness : precision_recall_curve true [0; 1; 1; 0] [(1#2); (3#4); (1#2); (1#4)]%Q None =
  Ok ([Num (2 # 3); Num 1; Num 1], [Num (2 # 2); Num (1 # 2); Num 0], [1 # 2; 3 # 4]%Q).
Proof. vm_compute. reflexivity. Qed.
