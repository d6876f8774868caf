(** Properties C27 to C31: data splits. *)
From Verif Require Import Base BaseFacts IndexModel IndexProofs Dict OracleProofs2 SplitModel SplitSpec SplitProofs SplitProofs2 SplitProofs3.
From Coq Require Import String QArith Qabs.
Local Open Scope Z_scope.
Notation split := SplitModel.split.

(** ** C27 *)

(** Whatever is drawn, every fold divides all instances into train and test, and the training set (in
    order) into labelled and unlabelled. *)
Theorem C27_partition : forall X y names n tr rate count all_class ds fs,
  data_size X y names n -> uniform names -> Forall (shuffle n) ds ->
  split X y names tr rate count all_class ds = Some (Ok fs) ->
  List.length fs = count /\
  Forall (fun f => Permutation (f_train f ++ f_test f) (instances names n) /\ f_label f ++ f_unlabel f = f_train f) fs.
Proof.
  intros X y names n tr rate count all_class ds fs D U FS H. destruct (split_names_ok _ _ _ _ D U) as [E L].
  unfold split in H. rewrite E in H. destruct (folds _ count ds) as [[r rest]|] eqn:F; [|discriminate]. cbn in H. injection H as ->.
  eapply (folds_ok _ _ (shuffle (List.length (instances names n)))); [|rewrite L; exact FS|exact F].
  intros ds' f rest' FS' O. destruct (split_one_spec _ _ _ _ _ _ _ _ FS' O) as ((P & A & _) & R & _). auto.
Qed.
Print Assumptions C27_partition.

(** With distinct names nothing is shared between the parts. *)
Theorem C27_disjoint : forall X y names n tr rate count all_class ds fs f k,
  data_size X y names n -> uniform names -> NoDup (instances names n) -> Forall (shuffle n) ds ->
  split X y names tr rate count all_class ds = Some (Ok fs) -> In f fs ->
  NoDup (f_train f ++ f_test f) /\
  (In k (instances names n) <-> In k (f_train f) \/ In k (f_test f)) /\ ~ (In k (f_train f) /\ In k (f_test f)) /\
  (In k (f_train f) <-> In k (f_label f) \/ In k (f_unlabel f)) /\ ~ (In k (f_label f) /\ In k (f_unlabel f)).
Proof.
  intros X y names n tr rate count all_class ds fs f k D U ND FS H I.
  destruct (C27_partition _ _ _ _ _ _ _ _ _ _ D U FS H) as [_ F]. rewrite Forall_forall in F. destruct (F f I) as [P A].
  assert (N : NoDup (f_train f ++ f_test f)) by (eapply Permutation_NoDup; [apply Permutation_sym, P|auto]).
  split; auto. apply NoDup_app_inv in N. destruct N as (N1 & N2 & N3). split; [|split; [|split]].
  - rewrite <- in_app_iff. split; intro J; [eapply Permutation_in; [apply Permutation_sym, P|]|eapply Permutation_in; [apply P|]]; auto.
  - intros [J K]. exact (N3 k J K).
  - rewrite <- A, in_app_iff. tauto.
  - rewrite <- A in N1. apply NoDup_app_inv in N1. destruct N1 as (_ & _ & N1). intros [J K]. exact (N1 k J K).
Qed.
Print Assumptions C27_disjoint.

(** Without the class requirement one draw per fold is enough, whatever the ratios: they are not checked. *)
Theorem C27_returns : forall X y names n tr rate count all_class ds,
  data_size X y names n -> uniform names -> Forall (shuffle n) ds -> (count <= List.length ds)%nat ->
  all_class = false \/ y = None ->
  exists fs, split X y names tr rate count all_class ds = Some (Ok fs).
Proof.
  intros X y names n tr rate count all_class ds D U FS LE C. destruct (split_names_ok _ _ _ _ D U) as [E L].
  unfold split. rewrite E. set (idx := instances names n) in *. rewrite <- L in FS. clear D E U L.
  enough (G : forall ds, Forall (shuffle (List.length idx)) ds -> (count <= List.length ds)%nat ->
     exists fs rest, folds (split_one idx y tr rate all_class) count ds = Some (Ok fs, rest)).
  { destruct (G ds FS LE) as (fs & rest & ->). cbn. eauto. }
  clear FS LE ds. induction count as [|count IH]; intros ds FS LE; cbn [folds]; [eauto|].
  destruct ds as [|d ds]; [cbn in LE; lia|]. inversion FS as [|? ? Sd Ss]; subst.
  assert (O : exists f, split_one idx y tr rate all_class (d :: ds) = Some (Ok f, ds)).
  { unfold split_one. destruct (split_attempt_spec idx tr rate (fun _ => Ok true) d Sd) as (f & A & _). cbn in A.
    exists f. destruct C as [->| ->]; [|destruct all_class]; cbn [until]; rewrite A; reflexivity. }
  destruct O as [f ->]. destruct (IH ds Ss) as (fs & rest & ->); [cbn in LE; lia|]. cbn. eauto.
Qed.
Print Assumptions C27_returns.

(** Inputs that do not determine the number of instances are refused. *)
Theorem C27_rejects : forall X y names tr rate count all_class ds,
  (X = None /\ y = None /\ names = None -> split X y names tr rate count all_class ds = Some (Err GenericErr)) /\
  (X <> None \/ y <> None \/ names <> None -> (forall n, ~ data_size X y names n) ->
   split X y names tr rate count all_class ds = Some (Err ValueErr)).
Proof.
  intros X y names tr rate count all_class ds. destruct (split_names_err X y names) as [A B]. unfold split. split.
  - intro H. now rewrite A.
  - intros H ND. now rewrite B.
Qed.
Print Assumptions C27_rejects.

Example C27_example :
  data_size (Some 4%nat) (Some (YVec [1; 1; 2; 2])) None 4 /\ uniform None /\
  Forall (shuffle 4) [[0; 1; 2; 3]; [2; 0; 1; 3]]%nat /\
  split (Some 4%nat) (Some (YVec [1; 1; 2; 2])) None (1 # 4) (2 # 3) 1 true [[0; 1; 2; 3]; [2; 0; 1; 3]]%nat =
    Some (Ok [{| f_train := [KInt 2; KInt 0; KInt 1]; f_test := [KInt 3]; f_label := [KInt 2; KInt 0]; f_unlabel := [KInt 1] |}]).
Proof.
  split; [|split; [|split]].
  - split; [left; discriminate|]. repeat split; intros l E; try discriminate; now injection E as <-.
  - intros l v w E. discriminate.
  - repeat constructor. unfold shuffle. cbn. apply (Permutation_trans (l' := [0; 2; 1; 3]%nat)); [apply perm_swap|]. apply perm_skip, perm_swap.
  - reflexivity.
Qed.

(** ** C28 *)

(** Sizes, for arbitrary ratios: cut points are rounded half to even, at least one labelled instance is
    asked for, and Python slices clip. *)
Theorem C28_sizes : forall X y names n tr rate count all_class ds fs,
  data_size X y names n -> uniform names -> Forall (shuffle n) ds ->
  split X y names tr rate count all_class ds = Some (Ok fs) ->
  Forall (fun f =>
    (forall c, nearest_even ((1 - tr) * inject_Z (Z.of_nat n)) c -> List.length (f_train f) = slice_size n c) /\
    (forall c, nearest_even (rate * inject_Z (Z.of_nat (List.length (f_train f)))) c ->
       List.length (f_label f) = slice_size (List.length (f_train f)) (Z.max 1 c))) fs.
Proof.
  intros X y names n tr rate count all_class ds fs D U FS H. destruct (split_names_ok _ _ _ _ D U) as [E L].
  unfold split in H. rewrite E in H. destruct (folds _ count ds) as [[r rest]|] eqn:F; [|discriminate]. cbn in H. injection H as ->.
  eapply (folds_ok _ _ (shuffle (List.length (instances names n)))); [|rewrite L; exact FS|exact F].
  intros ds' f rest' FS' O. destruct (split_one_spec _ _ _ _ _ _ _ _ FS' O) as ((_ & _ & LT & LL) & R & _).
  split; auto. rewrite L in LT. split; intros c N.
  - rewrite LT. f_equal. eapply nearest_even_unique; [apply round_q_spec|exact N].
  - rewrite LL. f_equal. f_equal. eapply nearest_even_unique; [apply round_q_spec|exact N].
Qed.
Print Assumptions C28_sizes.

(** For ratios between 0 and 1 these are the documented proportions. *)
Theorem C28_proportions : forall X y names n tr rate count all_class ds fs f c c',
  data_size X y names n -> uniform names -> Forall (shuffle n) ds ->
  (0 <= tr <= 1)%Q -> (0 <= rate <= 1)%Q ->
  split X y names tr rate count all_class ds = Some (Ok fs) -> In f fs ->
  nearest_even ((1 - tr) * inject_Z (Z.of_nat n)) c -> nearest_even (rate * inject_Z (Z.of_nat (List.length (f_train f)))) c' ->
  Z.of_nat (List.length (f_train f)) = c /\ Z.of_nat (List.length (f_test f)) = Z.of_nat n - c /\
  Z.of_nat (List.length (f_label f)) = Z.min c (Z.max 1 c') /\
  Z.of_nat (List.length (f_unlabel f)) = c - Z.min c (Z.max 1 c').
Proof.
  intros X y names n tr rate count all_class ds fs f c c' D U FS T R H I N1 N2.
  pose proof (C28_sizes _ _ _ _ _ _ _ _ _ _ D U FS H) as S. rewrite Forall_forall in S. destruct (S f I) as [S1 S2].
  destruct (C27_partition _ _ _ _ _ _ _ _ _ _ D U FS H) as [_ P]. rewrite Forall_forall in P. destruct (P f I) as [P1 P2].
  specialize (S1 c N1). specialize (S2 c' N2). apply Permutation_length in P1. rewrite app_length in P1.
  destruct (split_names_ok _ _ _ _ D U) as [_ L]. rewrite L in P1. apply (f_equal (@List.length _)) in P2. rewrite app_length in P2.
  assert (C0 : 0 <= c <= Z.of_nat n).
  { assert (E : c = round_q ((1 - tr) * inject_Z (Z.of_nat n))) by (eapply nearest_even_unique; [exact N1|apply round_q_spec]).
    rewrite E. assert (NN : (0 <= inject_Z (Z.of_nat n))%Q) by (unfold Qle; cbn; lia). split.
    - apply round_nonneg. apply Qmult_le_0_compat; auto. destruct T as [_ T]. apply Qplus_le_l with (z := tr). ring_simplify. auto.
    - apply round_le. rewrite <- (Qmult_1_l (inject_Z (Z.of_nat n))) at 2. apply Qmult_le_compat_r; auto.
      destruct T as [T _]. apply Qplus_le_l with (z := (tr - 1)%Q). ring_simplify. auto. }
  assert (C1 : 0 <= c').
  { assert (E : c' = round_q (rate * inject_Z (Z.of_nat (List.length (f_train f))))) by (eapply nearest_even_unique; [exact N2|apply round_q_spec]).
    rewrite E. apply round_nonneg. apply Qmult_le_0_compat; [tauto|]. unfold Qle. cbn. lia. }
  unfold slice_size in S1, S2. destruct (Z.ltb_spec c 0) as [|_]; [lia|]. destruct (Z.ltb_spec (Z.max 1 c') 0) as [|_]; [lia|]. lia.
Qed.
Print Assumptions C28_proportions.

(** Impossible ratios are accepted: asking for 150% test data leaves half of the instances for training. *)
Theorem C28_validation_refuted : forall k rate ds, Forall (shuffle (2 * k)) ds -> ds <> [] ->
  exists f, split (Some (2 * k)%nat) None None (3 # 2) rate 1 true ds = Some (Ok [f]) /\ List.length (f_train f) = k /\ List.length (f_test f) = k.
Proof.
  intros k rate ds FS NE.
  assert (D : data_size (Some (2 * k)%nat) None None (2 * k)).
  { split; [left; discriminate|]. repeat split; intros l E; try discriminate. now injection E as <-. }
  assert (U : uniform None) by (intros l v w E; discriminate).
  assert (LE : (1 <= List.length ds)%nat) by (destruct ds; [congruence|cbn; lia]).
  destruct (C27_returns _ _ _ _ (3 # 2) rate 1 true ds D U FS LE (or_intror eq_refl)) as [fs E].
  destruct (C27_partition _ _ _ _ _ _ _ _ _ _ D U FS E) as [L P]. destruct fs as [|f [|g fs]]; try discriminate. exists f. split; auto.
  pose proof (C28_sizes _ _ _ _ _ _ _ _ _ _ D U FS E) as S. inversion S as [|? ? [S1 _] _]; subst. inversion P as [|? ? [P1 _] _]; subst.
  specialize (S1 (- Z.of_nat k)).
  assert (LT : List.length (f_train f) = k).
  { rewrite S1.
    - unfold slice_size. destruct (Z.ltb_spec (- Z.of_nat k) 0); lia.
    - assert (EQ : ((1 - (3 # 2)) * inject_Z (Z.of_nat (2 * k)) == inject_Z (- Z.of_nat k))%Q).
      { unfold Qeq, inject_Z. cbn [Qnum Qden Qmult Qminus Qplus Qopp]. lia. }
      assert (Z0 : ((1 - (3 # 2)) * inject_Z (Z.of_nat (2 * k)) - inject_Z (- Z.of_nat k) == 0)%Q) by (rewrite EQ; ring).
      unfold nearest_even. rewrite Z0. split; [discriminate|]. intro X. discriminate. }
  split; auto. apply Permutation_length in P1. rewrite app_length in P1. unfold instances in P1. rewrite map_length, zrange_length in P1. lia.
Qed.
Print Assumptions C28_validation_refuted.

Example C28_example : nearest_even ((1 - (3 # 10)) * inject_Z 5) 4 /\ nearest_even (1 # 2) 0 /\ ~ nearest_even (1 # 2) 1 /\ nearest_even (3 # 2) 2.
Proof.
  unfold nearest_even. repeat split; try (cbv; discriminate).
  - intros _. exists 2. reflexivity.
  - intros _. exists 0. reflexivity.
  - intros [_ H]. assert (E : Z.Even 1) by (apply H; reflexivity). destruct E as [x E]. lia.
  - intros _. exists 1. reflexivity.
Qed.

(** ** C29 *)

(** When split returns with [all_class], each class occurs among the labelled instances of each fold. *)
Theorem C29_all_classes : forall X y n tr rate count ds fs f c,
  data_size X (Some (YVec y)) None n -> Forall (shuffle n) ds ->
  split X (Some (YVec y)) None tr rate count true ds = Some (Ok fs) -> In f fs -> In c y ->
  exists i, In (KInt i) (f_label f) /\ class_of y i c.
Proof.
  intros X y n tr rate count ds fs f c D FS H I Hc.
  assert (U : uniform None) by (intros l v w E; discriminate).
  destruct (C27_partition _ _ _ _ _ _ _ _ _ _ D U FS H) as [_ PF]. rewrite Forall_forall in PF. destruct (PF f I) as [P A].
  destruct (split_names_ok _ _ _ _ D U) as [E L].
  unfold split in H. rewrite E in H. destruct (folds _ count ds) as [[r rest]|] eqn:F; [|discriminate]. cbn in H. injection H as ->.
  assert (G : List.length fs = count /\ Forall (fun f => exists ln, label_num (YVec y) = Ok ln /\ covers (YVec y) ln (f_label f) = Ok true) fs).
  { eapply (folds_ok _ _ (shuffle (List.length (instances None n)))); [|rewrite L; exact FS|exact F].
    intros ds' f' rest' FS' O. destruct (split_one_spec _ _ _ _ _ _ _ _ FS' O) as (_ & R & C). split; auto. }
  destruct G as [_ G]. rewrite Forall_forall in G. destruct (G f I) as (ln & LN & CV).
  assert (ln = n_unique y) by (destruct y; [discriminate|now injection LN]). subst ln.
  destruct (covers_vec y _ CV c Hc) as (k & J & K).
  assert (JK : In k (instances None n)).
  { eapply Permutation_in; [exact P|]. apply in_app_iff. left. rewrite <- A. apply in_app_iff. auto. }
  cbn in JK. apply in_map_iff in JK. destruct JK as (i & <- & Ji). apply in_zrange in Ji. exists i. split; auto.
  split; [lia|]. apply np_at_int; auto; lia.
Qed.
Print Assumptions C29_all_classes.

(** With names of the instances, what [all_class] guarantees is about rows of the label vector: each class stands in a row
    that a labelled name, read as a position (from the end when negative), points to, whichever instance has that name. *)
Theorem C29_named : forall X y names n tr rate count ds fs f c,
  data_size X (Some (YVec y)) (Some names) n -> uniform (Some names) -> Forall (shuffle n) ds ->
  split X (Some (YVec y)) (Some names) tr rate count true ds = Some (Ok fs) -> In f fs -> In c y ->
  exists i, In (KInt i) (f_label f) /\ In (KInt i) (map norm names) /\ - Z.of_nat n <= i < Z.of_nat n /\
            nth_error y (Z.to_nat (i mod Z.of_nat n)) = Some c.
Proof.
  intros X y names n tr rate count ds fs f c D U FS H I Hc.
  destruct (C27_partition _ _ _ _ _ _ _ _ _ _ D U FS H) as [_ PF]. rewrite Forall_forall in PF. destruct (PF f I) as [P A].
  destruct (split_names_ok _ _ _ _ D U) as [E L].
  unfold split in H. rewrite E in H. destruct (folds _ count ds) as [[r rest]|] eqn:F; [|discriminate]. cbn in H. injection H as ->.
  assert (G : List.length fs = count /\ Forall (fun f => exists ln, label_num (YVec y) = Ok ln /\ covers (YVec y) ln (f_label f) = Ok true) fs).
  { eapply (folds_ok _ _ (shuffle (List.length (instances (Some names) n)))); [|rewrite L; exact FS|exact F].
    intros ds' f' rest' FS' O. destruct (split_one_spec _ _ _ _ _ _ _ _ FS' O) as (_ & R & C). split; auto. }
  destruct G as [_ G]. rewrite Forall_forall in G. destruct (G f I) as (ln & LN & CV).
  assert (ln = n_unique y) by (destruct y; [discriminate|now injection LN]). subst ln.
  destruct (covers_vec y _ CV c Hc) as (k & J & K).
  assert (JK : In k (instances (Some names) n)).
  { eapply Permutation_in; [exact P|]. apply in_app_iff. left. rewrite <- A. apply in_app_iff. auto. }
  assert (Ly : List.length y = n) by (apply D; reflexivity).
  unfold np_at in K. destruct k as [i|]; [|discriminate]. exists i. split; [exact J|]. split; [exact JK|]. rewrite Ly in K.
  assert (N : forall q, py_nth y q = Ok c -> nth_error y q = Some c /\ (q < n)%nat).
  { intros q Hq. unfold py_nth in Hq. destruct (nth_error y q) eqn:Eq; [|discriminate]. injection Hq as ->. split; auto. rewrite <- Ly. apply nth_error_Some. congruence. }
  destruct (Z.ltb_spec i 0) as [Neg|Pos].
  - destruct (Z.ltb_spec (i + Z.of_nat n) 0); [discriminate|]. apply N in K. destruct K as [K Kn]. split; [lia|].
    replace (i mod Z.of_nat n) with (i + Z.of_nat n); auto. symmetry. rewrite <- (Z.mod_add i 1 (Z.of_nat n)) by lia. rewrite Z.mul_1_l. apply Z.mod_small. lia.
  - apply N in K. destruct K as [K Kn]. split; [lia|]. now rewrite Z.mod_small by lia.
Qed.
Print Assumptions C29_named.

(** Three instances named -1, -2 and -3: the first fold labels the two named -3 and -1, whose rows hold both classes. *)
Example C29_named_applies : exists f, split None (Some (YVec [4; 4; 9])) (Some [VKey (KInt (-1)); VKey (KInt (-2)); VKey (KInt (-3))]) 0 (2 # 3) 1 true [[2; 0; 1]%nat] = Some (Ok [f]) /\
  f_label f = [KInt (-3); KInt (-1)].
Proof. eexists. vm_compute. split; reflexivity. Qed.

(** For a label matrix with non-negative entries: each label is relevant for some labelled instance. *)
Theorem C29_all_labels : forall X y m n tr rate count ds fs f j,
  data_size X (Some (YMat y)) None n -> rectangular y m -> Forall (Forall (fun v => 0 <= v)) y -> Forall (shuffle n) ds ->
  split X (Some (YMat y)) None tr rate count true ds = Some (Ok fs) -> In f fs -> (j < m)%nat ->
  exists i v, In (KInt i) (f_label f) /\ label_of y i j v /\ 0 < v.
Proof.
  intros X y m n tr rate count ds fs f j D RC NN FS H I Hj.
  assert (U : uniform None) by (intros l v w E; discriminate).
  destruct (C27_partition _ _ _ _ _ _ _ _ _ _ D U FS H) as [_ PF]. rewrite Forall_forall in PF. destruct (PF f I) as [P A].
  destruct (split_names_ok _ _ _ _ D U) as [E L].
  unfold split in H. rewrite E in H. destruct (folds _ count ds) as [[r rest]|] eqn:F; [|discriminate]. cbn in H. injection H as ->.
  assert (G : List.length fs = count /\ Forall (fun f => exists ln, label_num (YMat y) = Ok ln /\ covers (YMat y) ln (f_label f) = Ok true) fs).
  { eapply (folds_ok _ _ (shuffle (List.length (instances None n)))); [|rewrite L; exact FS|exact F].
    intros ds' f' rest' FS' O. destruct (split_one_spec _ _ _ _ _ _ _ _ FS' O) as (_ & R & C). split; auto. }
  destruct G as [_ G]. rewrite Forall_forall in G. destruct (G f I) as (ln & LN & CV).
  assert (ln = m).
  { destruct RC as [NE RC]. destruct y as [|[|a row] y]; [congruence|discriminate|]. cbn in LN. destruct (forallb _ _); [|discriminate].
    injection LN as <-. inversion RC; auto. }
  subst ln. destruct (covers_mat y m _ CV j Hj) as (k & row & J & K & NZ).
  assert (JK : In k (instances None n)).
  { eapply Permutation_in; [exact P|]. apply in_app_iff. left. rewrite <- A. apply in_app_iff. auto. }
  cbn in JK. apply in_map_iff in JK. destruct JK as (i & <- & Ji). apply in_zrange in Ji.
  assert (N : nth_error y (Z.to_nat i) = Some row) by (apply np_at_int; auto; lia).
  assert (IR : In row y) by (eapply nth_error_In; eauto). destruct RC as [_ RC]. rewrite Forall_forall in RC, NN.
  specialize (RC row IR). specialize (NN row IR). rewrite Forall_forall in NN.
  exists i, (nth j row 0). split; auto. split.
  - split; [lia|]. exists row. split; auto. apply nth_error_nth'. lia.
  - assert (0 <= nth j row 0) by (apply NN, nth_In; lia). lia.
Qed.
Print Assumptions C29_all_labels.

(** The requirement is refused up front exactly when the requested number of labelled instances is smaller
    than the number of classes; nothing else can go wrong. *)
Theorem C29_rejected : forall X y n tr rate count ds e c,
  data_size X (Some (YVec y)) None n -> y <> [] -> Forall (shuffle n) ds -> (0 < count)%nat ->
  nearest_even ((1 - tr) * rate * inject_Z (Z.of_nat n)) c ->
  (split X (Some (YVec y)) None tr rate count true ds = Some (Err e) <->
   e = ValueErr /\ c < Z.of_nat (List.length (nodup Z.eq_dec y))).
Proof.
  intros X y n tr rate count ds e c D NE FS CT N.
  assert (U : uniform None) by (intros l v w E; discriminate).
  destruct (split_names_ok _ _ _ _ D U) as [E L]. set (idx := instances None n) in *.
  assert (LN : label_num (YVec y) = Ok (n_unique y)) by (destruct y; [congruence|reflexivity]).
  assert (R : round_q ((1 - tr) * rate * inject_Z (Z.of_nat (List.length idx))) = c).
  { rewrite L. eapply nearest_even_unique; [apply round_q_spec|exact N]. }
  assert (Ly : List.length y = n) by (destruct D as (_ & _ & Dy & _); auto).
  unfold split. rewrite E. split.
  - intro H. destruct (folds _ count ds) as [[r rest]|] eqn:F; [|discriminate]. cbn in H. injection H as ->.
    eapply (folds_err _ (fun e => e = ValueErr /\ c < Z.of_nat (List.length (nodup Z.eq_dec y))) (shuffle (List.length idx))) in F;
      [tauto| | |rewrite L; exact FS].
    + intros ds' f' rest' FS' O. now destruct (split_one_spec _ _ _ _ _ _ _ _ FS' O) as (_ & R' & _).
    + intros ds' e' rest' FS' O. unfold split_one in O. rewrite LN, R in O. destruct (Z.ltb_spec c (Z.of_nat (n_unique y))) as [LT|GE].
      * injection O as <- _. auto.
      * exfalso. apply until_err in O. destruct O as (d & Jd & Ed). rewrite Forall_forall in FS'. specialize (FS' d Jd).
        destruct (split_attempt_spec idx tr rate (covers (YVec y) (n_unique y)) d FS') as (f & A & (P & B & _)). rewrite A in Ed.
        pose proof (label_readable y n f Ly P B) as AR.
        destruct AR as [v Hv]. cbn in Ed. rewrite Hv in Ed. cbn in Ed. discriminate.
  - intros [-> LT]. destruct count as [|count]; [lia|]. cbn [folds]. unfold split_one at 1. rewrite LN, R.
    destruct (Z.ltb_spec c (Z.of_nat (n_unique y))) as [_|GE]; [reflexivity|]. unfold n_unique in GE. lia.
Qed.
Print Assumptions C29_rejected.

(** But the check uses other roundings than the division itself: if it passes although fewer instances are
    labelled than there are classes, split never returns, whatever is drawn. *)
Theorem C29_hangs_refuted : forall X y n tr rate count ds c t l,
  data_size X (Some (YVec y)) None n -> y <> [] -> Forall (shuffle n) ds -> (0 < count)%nat ->
  nearest_even ((1 - tr) * rate * inject_Z (Z.of_nat n)) c -> Z.of_nat (List.length (nodup Z.eq_dec y)) <= c ->
  nearest_even ((1 - tr) * inject_Z (Z.of_nat n)) t -> 0 <= t ->
  nearest_even (rate * inject_Z (Z.min (Z.of_nat n) t)) l -> Z.max 1 l < Z.of_nat (List.length (nodup Z.eq_dec y)) ->
  split X (Some (YVec y)) None tr rate count true ds = None.
Proof.
  intros X y n tr rate count ds c t l D NE FS CT NC GE NT T0 NL LT.
  assert (U : uniform None) by (intros l' v w E; discriminate).
  destruct (split_names_ok _ _ _ _ D U) as [E L]. set (idx := instances None n) in *.
  assert (LN : label_num (YVec y) = Ok (n_unique y)) by (destruct y; [congruence|reflexivity]).
  assert (R : round_q ((1 - tr) * rate * inject_Z (Z.of_nat (List.length idx))) = c).
  { rewrite L. eapply nearest_even_unique; [apply round_q_spec|exact NC]. }
  assert (Ly : List.length y = n) by (destruct D as (_ & _ & Dy & _); auto).
  unfold split. rewrite E. destruct count as [|count]; [lia|]. cbn [folds].
  assert (N : split_one idx (Some (YVec y)) tr rate true ds = None).
  { unfold split_one. rewrite LN, R. fold (n_unique y) in GE, LT. destruct (Z.ltb_spec c (Z.of_nat (n_unique y))); [lia|].
    apply until_none. rewrite <- L in FS. eapply Forall_impl; [|exact FS]. intros d Sd. 
    destruct (split_attempt_spec idx tr rate (covers (YVec y) (n_unique y)) d Sd) as (f & A & (P & B & LTr & LLa)). rewrite A.
    pose proof (label_readable y n f Ly P B) as AR.
    destruct AR as [v Hv]. cbn [covers]. rewrite Hv. cbn [bind]. destruct (Nat.eqb_spec (n_unique v) (n_unique y)) as [Q|]; [|reflexivity].
    exfalso.
    assert (Lv : (n_unique v <= List.length (f_label f))%nat).
    { rewrite <- (mapM_length _ _ _ Hv). unfold n_unique. apply NoDup_incl_length; [apply NoDup_nodup|]. intros x J. now apply nodup_In in J. }
    assert (RT : round_q ((1 - tr) * inject_Z (Z.of_nat (List.length idx))) = t).
    { rewrite L. eapply nearest_even_unique; [apply round_q_spec|exact NT]. }
    rewrite RT in LTr. unfold slice_size in LTr. rewrite L in LTr. destruct (Z.ltb_spec t 0); [lia|].
    assert (RL : round_q (rate * inject_Z (Z.of_nat (List.length (f_train f)))) = l).
    { eapply nearest_even_unique; [apply round_q_spec|]. replace (Z.of_nat (List.length (f_train f))) with (Z.min (Z.of_nat n) t) by lia. exact NL. }
    rewrite RL in LLa. unfold slice_size in LLa. destruct (Z.ltb_spec (Z.max 1 l) 0); lia. }
  now rewrite N.
Qed.
Print Assumptions C29_hangs_refuted.

(** Five instances of two classes, half for training, 65% labelled: never returns. *)
Example C29_hangs_example : forall ds, Forall (shuffle 5) ds ->
  split (Some 5%nat) (Some (YVec [0; 0; 1; 1; 1])) None (1 # 2) (65 # 100) 1 true ds = None.
Proof.
  intros ds FS. apply (C29_hangs_refuted _ _ 5 _ _ _ _ 2 2 1); auto; try lia; try discriminate.
  - split; [left; discriminate|]. repeat split; intros l E; try discriminate; now injection E as <-.
  - split; [cbv; discriminate|]. intros _. exists 1. reflexivity.
  - split; [cbv; discriminate|]. intros _. exists 1. reflexivity.
  - split; [cbv; discriminate|]. intro H. cbv in H. discriminate.
  - reflexivity.
Qed.

(** Labels -1/1: sums, not occurrences, are checked; a data set without any positive label passes. *)
Theorem C29_signs_refuted : forall n m tr rate ds d c t,
  (0 < m)%nat -> (0 < n)%nat -> shuffle n d ->
  nearest_even ((1 - tr) * rate * inject_Z (Z.of_nat n)) c -> Z.of_nat m <= c ->
  nearest_even ((1 - tr) * inject_Z (Z.of_nat n)) t -> 0 < t ->
  exists f, split None (Some (YMat (repeat (repeat (-1) m) n))) None tr rate 1 true (d :: ds) = Some (Ok [f]).
Proof.
  intros n m tr rate ds d c t Hm Hn SH NC GE NT T0. set (y := repeat (repeat (-1) m) n).
  assert (Ly : List.length y = n) by apply repeat_length.
  assert (D : data_size None (Some (YMat y)) None n).
  { split; [right; left; discriminate|]. repeat split; intros l E; try discriminate; now injection E as <-. }
  assert (U : uniform None) by (intros l' v w E; discriminate).
  destruct (split_names_ok _ _ _ _ D U) as [E L]. set (idx := instances None n) in *.
  assert (LN : label_num (YMat y) = Ok m).
  { unfold y. destruct n as [|n]; [lia|]. destruct m as [|m]; [lia|]. cbn.
    assert (F : forallb (fun r' => Nat.eqb (List.length r') (S (List.length (repeat (-1) m)))) (repeat (-1 :: repeat (-1) m) n) = true).
    { apply forallb_forall. intros r J. apply repeat_spec in J. subst. cbn. apply Nat.eqb_refl. }
    rewrite F, repeat_length. reflexivity. }
  assert (R : round_q ((1 - tr) * rate * inject_Z (Z.of_nat (List.length idx))) = c).
  { rewrite L. eapply nearest_even_unique; [apply round_q_spec|exact NC]. }
  unfold split. rewrite E. cbn [folds]. unfold split_one. rewrite LN, R. destruct (Z.ltb_spec c (Z.of_nat m)); [lia|].
  cbn [until]. rewrite <- L in SH. destruct (split_attempt_spec idx tr rate (covers (YMat y) m) d SH) as (f & A & (P & B & LTr & LLa)).
  rewrite A.
  assert (AR : mapM (np_at y) (f_label f) = Ok (repeat (repeat (-1) m) (List.length (f_label f)))).
  { assert (AL : forall k, In k (f_label f) -> np_at y k = Ok (repeat (-1) m)).
    { intros k Jk. assert (JK : In k idx).
      { eapply Permutation_in; [exact P|]. apply in_app_iff. left. rewrite <- B. apply in_app_iff. auto. }
      unfold idx, instances in JK. apply in_map_iff in JK. destruct JK as (i & <- & Ji). apply in_zrange in Ji.
      unfold np_at, py_nth. destruct (Z.ltb_spec i 0); [lia|]. destruct (nth_error y (Z.to_nat i)) as [row|] eqn:Q.
      - apply nth_error_In in Q. apply repeat_spec in Q. now rewrite Q.
      - apply nth_error_None in Q. lia. }
    revert AL. generalize (f_label f) as ks. induction ks as [|k ks IH]; intros AL; [reflexivity|]. cbn [mapM].
    rewrite AL by now left. cbn [bind]. rewrite IH by (intros; apply AL; now right). reflexivity. }
  cbn [covers]. rewrite AR. cbn [bind].
  assert (RT : round_q ((1 - tr) * inject_Z (Z.of_nat (List.length idx))) = t).
  { rewrite L. eapply nearest_even_unique; [apply round_q_spec|exact NT]. }
  assert (LP : (0 < List.length (f_label f))%nat).
  { rewrite RT in LTr. unfold slice_size in LTr, LLa. destruct (Z.ltb_spec t 0); [lia|]. rewrite L in LTr.
    destruct (Z.ltb_spec (Z.max 1 (round_q (rate * inject_Z (Z.of_nat (List.length (f_train f)))))) 0); lia. }
  assert (F : forallb (fun s => negb (s =? 0)) (col_sums m (repeat (repeat (-1) m) (List.length (f_label f)))) = true).
  { apply forallb_forall. intros s J. unfold col_sums in J. apply in_map_iff in J. destruct J as (j & <- & Jj). apply in_seq in Jj.
    apply negb_true_iff, Z.eqb_neq.
    assert (Q : forall k, zsum (map (fun r => nth j r 0) (repeat (repeat (-1) m) k)) = - Z.of_nat k).
    { induction k as [|k IH]; [reflexivity|]. cbn [repeat map]. unfold zsum in *. cbn [fold_right]. rewrite IH.
      replace (nth j (repeat (-1) m) 0) with (-1); [lia|]. symmetry.
      clear -Jj. revert j Jj. induction m as [|m IHm]; intros j Jj; [lia|]. destruct j; cbn; auto. apply IHm. lia. }
    rewrite Q. lia. }
  rewrite F. cbn. eauto.
Qed.
Print Assumptions C29_signs_refuted.

(** Instance names other than positions are used as positions into the labels: names that are strings, or
    numbers beyond the data, make split fail. *)
Theorem C29_names_refuted : forall y names n tr rate count d ds c t,
  data_size None (Some (YVec y)) (Some names) n -> uniform (Some names) -> y <> [] ->
  (forall v, In v names -> match norm v with KStr _ => True | KInt i => Z.of_nat n <= i end) ->
  shuffle n d -> (0 < count)%nat ->
  nearest_even ((1 - tr) * rate * inject_Z (Z.of_nat n)) c -> Z.of_nat (List.length (nodup Z.eq_dec y)) <= c ->
  nearest_even ((1 - tr) * inject_Z (Z.of_nat n)) t -> 0 < t ->
  split None (Some (YVec y)) (Some names) tr rate count true (d :: ds) = Some (Err IndexErr).
Proof.
  intros y names n tr rate count d ds c t D U NE BAD SH CT NC GE NT T0.
  destruct (split_names_ok _ _ _ _ D U) as [E L]. set (idx := instances (Some names) n) in *.
  assert (Ly : List.length y = n) by (destruct D as (_ & _ & Dy & _); auto).
  assert (N0 : (0 < n)%nat) by (rewrite <- Ly; destruct y; [congruence|cbn; lia]).
  assert (LN : label_num (YVec y) = Ok (n_unique y)) by (destruct y; [congruence|reflexivity]).
  assert (R : round_q ((1 - tr) * rate * inject_Z (Z.of_nat (List.length idx))) = c).
  { rewrite L. eapply nearest_even_unique; [apply round_q_spec|exact NC]. }
  unfold split. rewrite E. destruct count as [|count]; [lia|]. cbn [folds]. unfold split_one at 1. rewrite LN, R.
  fold (n_unique y) in GE. destruct (Z.ltb_spec c (Z.of_nat (n_unique y))); [lia|]. cbn [until]. rewrite <- L in SH.
  destruct (split_attempt_spec idx tr rate (covers (YVec y) (n_unique y)) d SH) as (f & A & (P & B & LTr & LLa)). rewrite A.
  assert (RT : round_q ((1 - tr) * inject_Z (Z.of_nat (List.length idx))) = t).
  { rewrite L. eapply nearest_even_unique; [apply round_q_spec|exact NT]. }
  assert (LP : (0 < List.length (f_label f))%nat).
  { rewrite RT in LTr. unfold slice_size in LTr, LLa. destruct (Z.ltb_spec t 0); [lia|]. rewrite L in LTr.
    destruct (Z.ltb_spec (Z.max 1 (round_q (rate * inject_Z (Z.of_nat (List.length (f_train f)))))) 0); lia. }
  destruct (f_label f) as [|k ks] eqn:FL; [cbn in LP; lia|]. cbn [covers mapM].
  assert (JK : In k idx).
  { eapply Permutation_in; [exact P|]. apply in_app_iff. left. rewrite <- B. now left. }
  assert (K : np_at y k = Err IndexErr).
  { unfold idx, instances in JK. apply in_map_iff in JK. destruct JK as (v & <- & Jv). specialize (BAD v Jv). destruct (norm v) as [i|s]; [|reflexivity].
    unfold np_at, py_nth. destruct (Z.ltb_spec i 0); [lia|]. destruct (nth_error y (Z.to_nat i)) eqn:Q; [|reflexivity].
    assert (Z.to_nat i < List.length y)%nat by (apply nth_error_Some; congruence). lia. }
  rewrite K. reflexivity.
Qed.
Print Assumptions C29_names_refuted.

Example C29_names_example :
  split None (Some (YVec [0; 1; 0; 1])) (Some [VKey (KStr "a"); VKey (KStr "b"); VKey (KStr "c"); VKey (KStr "d")]%string) (1 # 4) 1 1 true [[3; 2; 1; 0]%nat] = Some (Err IndexErr) /\
  split None (Some (YVec [0; 1; 0; 1])) (Some [VKey (KStr "a"); VKey (KStr "b"); VKey (KStr "c"); VKey (KStr "d")]%string) (1 # 4) 1 1 false [[3; 2; 1; 0]%nat] =
    Some (Ok [{| f_train := [KStr "d"; KStr "c"; KStr "b"]; f_test := [KStr "a"];
                 f_label := [KStr "d"; KStr "c"; KStr "b"]; f_unlabel := [] |}])%string.
Proof. split; reflexivity. Qed.

(** ** C30 *)

(** [split_multi_label]: train and test divide the instances, labelled and unlabelled entries are the cells of the training rows. *)
Theorem C30_multi : forall mat shape n m tr rate count all_class ds fs,
  shape_is mat shape n m -> Forall (shuffle n) ds ->
  split_multi_label mat shape tr rate count all_class ds = Some (Ok fs) ->
  List.length fs = count /\
  Forall (fun f => Permutation (f_train f ++ f_test f) (seq 0 n) /\
                   cells m (f_label f) ++ cells m (f_unlabel f) = grid m (f_train f) /\
                   exists l u, f_label f = map Row l /\ f_unlabel f = map Row u) fs.
Proof.
  intros mat shape n m tr rate count all_class ds fs SI FS H. unfold split_multi_label in H. rewrite (shape_is_ok _ _ _ _ SI) in H.
  destruct (folds _ count ds) as [[r rest]|] eqn:F; [|discriminate]. cbn in H. injection H as ->.
  eapply (folds_ok _ _ (shuffle n)); [|exact FS|exact F].
  intros ds' f rest' FS' O. destruct (full_one_spec _ _ _ _ _ _ _ _ _ FS' O) as (R & clamp & _ & (P & _ & EL & EU) & _). split; auto.
  split; auto. rewrite EL, EU. split; [|eauto]. rewrite !grid_rows. unfold grid. rewrite <- list_prod_app, slice_app. reflexivity.
Qed.
Print Assumptions C30_multi.

(** Its sizes; with the class requirement, for non-negative rates. *)
Theorem C30_multi_sizes : forall mat shape n m tr rate count all_class ds fs,
  shape_is mat shape n m -> Forall (shuffle n) ds ->
  (all_class = true -> (0 <= rate)%Q /\ exists m', (0 < m')%nat /\ forall y, mat = Some y -> rectangular y m') ->
  split_multi_label mat shape tr rate count all_class ds = Some (Ok fs) ->
  Forall (fun f =>
    (forall c, nearest_even ((1 - tr) * inject_Z (Z.of_nat n)) c -> List.length (f_train f) = slice_size n c) /\
    (forall c, nearest_even (rate * inject_Z (Z.of_nat (List.length (f_train f)))) c ->
       List.length (f_label f) = slice_size (List.length (f_train f)) (Z.max 1 c))) fs.
Proof.
  intros mat shape n m tr rate count all_class ds fs SI FS AC H. unfold split_multi_label in H. rewrite (shape_is_ok _ _ _ _ SI) in H.
  destruct (folds _ count ds) as [[r rest]|] eqn:F; [|discriminate]. cbn in H. injection H as ->.
  eapply (folds_ok _ _ (shuffle n)); [|exact FS|exact F].
  intros ds' f rest' FS' O. destruct (full_one_spec _ _ _ _ _ _ _ _ _ FS' O) as (R & clamp & C & (P & LT & EL & EU) & CV). split; auto.
  split; intros c N.
  - rewrite LT. f_equal. eapply nearest_even_unique; [apply round_q_spec|exact N].
  - assert (EC : cut rate (List.length (f_train f)) = c) by (eapply nearest_even_unique; [apply round_q_spec|exact N]).
    rewrite EL, map_length, slice_to_len. rewrite EC in *. destruct clamp; [reflexivity|].
    destruct all_class; [|now discriminate C]. destruct (AC eq_refl) as (R0 & m' & Hm & RC). destruct (CV eq_refl) as (y & -> & K).
    specialize (RC y eq_refl). apply (covered_nonempty _ _ m') in K; auto.
    assert (c <> 0) by (intros ->; apply K; now destruct (f_train f)).
    assert (0 <= c) by (rewrite <- EC; apply round_nonneg, Qmult_le_0_compat; [auto|unfold Qle; cbn; lia]).
    now rewrite Z.max_r by lia.
Qed.
Print Assumptions C30_multi_sizes.

(** With the class requirement and non-negative labels each label is relevant for a labelled instance. *)
Theorem C30_multi_cover : forall y n m tr rate count ds fs f j,
  rectangular y m -> List.length y = n -> Forall (Forall (fun v => 0 <= v)) y -> Forall (shuffle n) ds ->
  split_multi_label (Some y) None tr rate count true ds = Some (Ok fs) -> In f fs -> (j < m)%nat ->
  exists i v, In (Row i) (f_label f) /\ label_of y (Z.of_nat i) j v /\ 0 < v.
Proof.
  intros y n m tr rate count ds fs f j RC Ly NN FS H I Hj.
  assert (SI : shape_is (Some y) None n m) by (right; split; auto; exists y; repeat split; try apply RC; auto; lia).
  unfold split_multi_label in H. rewrite (shape_is_ok _ _ _ _ SI) in H.
  destruct (folds _ count ds) as [[r rest]|] eqn:F; [|discriminate]. cbn in H. injection H as ->.
  assert (G : List.length fs = count /\ Forall (fun f => exists rows, f_label f = map Row rows /\ covered y rows) fs).
  { eapply (folds_ok _ _ (shuffle n)); [|exact FS|exact F].
    intros ds' f' rest' FS' O. destruct (full_one_spec _ _ _ _ _ _ _ _ _ FS' O) as (R & clamp & C & (P & LT & EL & EU) & CV). split; auto.
    destruct (CV eq_refl) as (y' & E & K). injection E as <-. eexists. split; [exact EL|exact K]. }
  destruct G as [_ G]. rewrite Forall_forall in G. destruct (G f I) as (rows & -> & K).
  destruct (covered_spec y m rows RC K j Hj) as (i & row & J & N & NZ). exists i, (nth j row 0). split; [now apply in_map|].
  assert (IR : In row y) by (eapply nth_error_In; eauto). destruct RC as [_ RC]. rewrite Forall_forall in RC, NN.
  specialize (RC row IR). specialize (NN row IR). rewrite Forall_forall in NN. split.
  - split; [lia|]. exists row. rewrite Nat2Z.id. split; auto. apply nth_error_nth'. lia.
  - assert (0 <= nth j row 0) by (apply NN, nth_In; lia). lia.
Qed.
Print Assumptions C30_multi_cover.

(** Without the class requirement it always returns, with one draw per fold. *)
Theorem C30_multi_returns : forall mat shape n m tr rate count ds,
  shape_is mat shape n m -> Forall (shuffle n) ds -> (count <= List.length ds)%nat ->
  exists fs, split_multi_label mat shape tr rate count false ds = Some (Ok fs).
Proof.
  intros mat shape n m tr rate count ds SI FS LE. unfold split_multi_label. rewrite (shape_is_ok _ _ _ _ SI).
  enough (G : forall ds, Forall (shuffle n) ds -> (count <= List.length ds)%nat ->
     exists fs rest, folds (full_one mat n m tr rate false) count ds = Some (Ok fs, rest)).
  { destruct (G ds FS LE) as (fs & rest & ->). cbn. eauto. }
  clear FS LE ds. induction count as [|count IH]; intros ds FS LE; cbn [folds]; [eauto|].
  destruct ds as [|d ds]; [cbn in LE; lia|]. inversion FS as [|? ? Sd Ss]; subst. cbn [full_one].
  unfold full_attempt. destruct (train_test_spec n tr d Sd) as (train & test & -> & _). cbn [bind].
  destruct (IH ds Ss) as (fs & rest & ->); [cbn in LE; lia|]. cbn. eauto.
Qed.
Print Assumptions C30_multi_returns.

(** With it, the only error is the announced one, and it occurs exactly when fewer rows would be labelled
    than there are columns. *)
Theorem C30_multi_rejects : forall y n m tr rate count d ds e t c,
  rectangular y m -> (0 < m)%nat -> List.length y = n -> Forall (shuffle n) (d :: ds) -> (0 < count)%nat ->
  nearest_even ((1 - tr) * inject_Z (Z.of_nat n)) t -> nearest_even (rate * inject_Z (Z.of_nat (slice_size n t))) c ->
  (split_multi_label (Some y) None tr rate count true (d :: ds) = Some (Err e) <->
   e = ValueErr /\ Z.max 1 c < Z.of_nat m).
Proof.
  intros y n m tr rate count d ds e t c RC Hm Ly FS CT NT NC.
  assert (SI : shape_is (Some y) None n m) by (right; split; auto; exists y; repeat split; try apply RC; auto; lia).
  unfold split_multi_label. rewrite (shape_is_ok _ _ _ _ SI).
  assert (ET : cut (1 - tr) n = t) by (eapply nearest_even_unique; [apply round_q_spec|exact NT]).
  assert (EC : cut rate (slice_size n t) = c) by (eapply nearest_even_unique; [apply round_q_spec|exact NC]).
  assert (AT : forall clamp sh, shuffle n sh -> full_attempt (Some y) n m tr rate true clamp sh =
                 (if clamp && (Z.max 1 c <? Z.of_nat m) then Err ValueErr else full_attempt (Some y) n m tr rate true false sh) \/
               (clamp && (Z.max 1 c <? Z.of_nat m) = false /\ exists o, full_attempt (Some y) n m tr rate true clamp sh = Ok o)).
  { intros clamp sh Ssh. destruct clamp; cbn [andb]; [|now left]. destruct (Z.ltb_spec (Z.max 1 c) (Z.of_nat m)) as [LT|GE].
    - left. unfold full_attempt. destruct (train_test_spec n tr sh Ssh) as (train & test & -> & _ & L). cbn [bind].
      rewrite ET in L. rewrite L. fold (cut rate (slice_size n t)). rewrite EC. cbn [andb].
      replace (if c <=? 1 then 1 else c) with (Z.max 1 c) by (destruct (Z.leb_spec c 1); lia).
      now destruct (Z.ltb_spec (Z.max 1 c) (Z.of_nat m)); [|lia].
    - right. split; auto. destruct (full_attempt_total y n m tr rate true sh RC Ly Ssh) as [[o Ho]|E]; [eauto|].
      exfalso. destruct E as (_ & E). rewrite ET, EC in E. cbn in E. lia. }
  split.
  - intro H. destruct (folds _ count (d :: ds)) as [[r rest]|] eqn:F; [|discriminate]. cbn in H. injection H as ->.
    eapply (folds_err _ (fun e => e = ValueErr /\ Z.max 1 c < Z.of_nat m) (shuffle n)) in F; [tauto| | |exact FS].
    + intros ds' f' rest' FS' O. now destruct (full_one_spec _ _ _ _ _ _ _ _ _ FS' O) as (R' & _).
    + intros ds' e' rest' FS' O. destruct ds' as [|d' ds']; [discriminate|]. cbn [full_one] in O. inversion FS' as [|? ? Sd Ss]; subst.
      destruct (full_attempt_total y (List.length y) m tr rate true d' RC eq_refl Sd) as [[o Ho]|[E LT]].
      * rewrite Ho in O. destruct o as [f|]; [discriminate|]. apply until_err in O. destruct O as (d2 & J2 & E2).
        rewrite Forall_forall in Ss. destruct (full_attempt_total y (List.length y) m tr rate false d2 RC eq_refl (Ss _ J2)) as [[o Ho2]|[_ []]].
        congruence.
      * rewrite E in O. injection O as <- _. auto.
  - intros [-> LT]. pose proof (Forall_inv FS) as Sd. destruct count as [|count]; [lia|]. cbn [folds full_one].
    destruct (AT true d Sd) as [E|[E _]]; cbn [andb] in E; (destruct (Z.ltb_spec (Z.max 1 c) (Z.of_nat m)) as [_|]; [|lia]); [|discriminate].
    rewrite E. reflexivity.
Qed.
Print Assumptions C30_multi_rejects.

(** A retry no longer labels at least one row: with one column, a labelled share that rounds to zero and a
    first draw whose first instance lacks the label, it never returns. *)
Theorem C30_multi_hangs_refuted : forall y n tr rate count i d ds t,
  rectangular y 1 -> List.length y = n -> Forall (shuffle n) ((i :: d) :: ds) -> (0 < count)%nat ->
  nth_error y i = Some [0] ->
  nearest_even ((1 - tr) * inject_Z (Z.of_nat n)) t -> 0 < t -> nearest_even (rate * inject_Z (Z.min t (Z.of_nat n))) 0 ->
  split_multi_label (Some y) None tr rate count true ((i :: d) :: ds) = None.
Proof.
  intros y n tr rate count i d ds t RC Ly FS CT NI NT T0 NC.
  assert (SI : shape_is (Some y) None n 1) by (right; split; auto; exists y; repeat split; try apply RC; auto; lia).
  unfold split_multi_label. rewrite (shape_is_ok _ _ _ _ SI).
  assert (ET : cut (1 - tr) n = t) by (eapply nearest_even_unique; [apply round_q_spec|exact NT]).
  assert (ST : Z.of_nat (slice_size n t) = Z.min t (Z.of_nat n)) by (unfold slice_size; destruct (Z.ltb_spec t 0); lia).
  assert (EC : cut rate (slice_size n t) = 0) by (eapply nearest_even_unique; [apply round_q_spec|rewrite ST; exact NC]).
  assert (HD : match y with r :: _ => List.length r | [] => O end = 1%nat).
  { destruct RC as [NE RC]. destruct y; [congruence|]. now inversion RC. }
  destruct count as [|count]; [lia|]. cbn [folds full_one]. inversion FS as [|? ? Sd Ss]; subst n.
  assert (A1 : full_attempt (Some y) (List.length y) 1 tr rate true true (i :: d) = Ok None).
  { unfold full_attempt, train_test. rewrite randperm_all by auto. cbn [bind].
    assert (L : List.length (i :: d) = List.length y) by (rewrite (Permutation_length Sd), seq_length; auto). rewrite L.
    fold (cut (1 - tr) (List.length y)). rewrite ET.
    assert (S' : shuffle (List.length (seq 0 (List.length y))) (py_slice_to (i :: d) t ++ py_slice_from (i :: d) t))
      by (rewrite slice_app, seq_length; auto).
    destruct (pick_app _ _ _ S') as (train & test & E1 & E2 & _ & LT & _). rewrite E1, E2. cbn [bind].
    rewrite LT, slice_to_len, L. fold (cut rate (slice_size (List.length y) t)). rewrite EC. cbn [andb Z.leb Z.compare].
    assert (TR : exists tl, train = i :: tl).
    { unfold py_slice_to in E1. destruct (Z.ltb_spec t 0); [lia|]. destruct (Z.to_nat t) eqn:Z1; [lia|]. cbn [firstn mapM] in E1.
      assert (LI : (i < List.length y)%nat) by (apply nth_error_Some; congruence).
      unfold py_nth at 1 in E1. rewrite (nth_error_nth' _ O) in E1 by (rewrite seq_length; auto). rewrite seq_nth in E1 by auto. cbn [bind] in E1.
      destruct (mapM _ _); [|discriminate]. injection E1 as <-. eauto. }
    destruct TR as [tl ->]. change (py_slice_to (i :: tl) 1) with [i]. cbn [mapM]. unfold py_nth at 1. rewrite NI. cbn [bind]. rewrite HD. reflexivity. }
  rewrite A1.
  assert (A2 : until (full_attempt (Some y) (List.length y) 1 tr rate true false) ds = None).
  { apply until_none. eapply Forall_impl; [|exact Ss]. intros d2 S2. unfold full_attempt.
    destruct (train_test_spec _ tr d2 S2) as (train & test & -> & _ & L). cbn [bind]. rewrite ET in L. rewrite L.
    fold (cut rate (slice_size (List.length y) t)). rewrite EC. cbn [andb]. 
    assert (P0 : py_slice_to train 0 = []) by (destruct train; reflexivity). rewrite P0. cbn [mapM bind]. rewrite HD. reflexivity. }
  rewrite A2. reflexivity.
Qed.
Print Assumptions C30_multi_hangs_refuted.

(** A shape alone is not enough for the class requirement, although it is documented to be. *)
Theorem C30_multi_shape_refuted : forall n m tr rate count d ds,
  shuffle n d -> (0 < count)%nat ->
  exists e, split_multi_label None (Some (n, m)) tr rate count true (d :: ds) = Some (Err e) /\ (e = ValueErr \/ e = TypeErr).
Proof.
  intros n m tr rate count d ds Sd CT. destruct count as [|count]; [lia|]. unfold split_multi_label. cbn [matrix_shape_of folds full_one].
  unfold full_attempt. destruct (train_test_spec n tr d Sd) as (train & test & -> & _ & L). cbn [bind].
  match goal with |- context [if ?b then Err ValueErr else _] => destruct b end; cbn; eauto.
Qed.
Print Assumptions C30_multi_shape_refuted.

(** [split_features]: the same division, cell by cell. *)
Theorem C30_features : forall mat shape n m tr missing count all_features ds fs t,
  shape_is mat shape n m -> nearest_even ((1 - tr) * inject_Z (Z.of_nat n)) t ->
  Forall (fun d => shuffle n (fst d) /\ shuffle (slice_size n t * m) (snd d)) ds ->
  split_features mat shape tr missing count all_features ds = Some (Ok fs) ->
  List.length fs = count /\
  Forall (fun f => Permutation (f_train f ++ f_test f) (seq 0 n) /\ List.length (f_train f) = slice_size n t /\
                   Permutation (cells m (f_label f) ++ cells m (f_unlabel f)) (grid m (f_train f)) /\
                   NoDup (cells m (f_label f) ++ cells m (f_unlabel f)) /\
                   (all_features = true -> forall j, (j < m)%nat -> exists i, In (Cell i j) (f_label f))) fs.
Proof.
  intros mat shape n m tr missing count all_features ds fs t SI NT FS H. unfold split_features in H. rewrite (shape_is_ok _ _ _ _ SI) in H.
  assert (ET : cut (1 - tr) n = t) by (eapply nearest_even_unique; [apply round_q_spec|exact NT]). rewrite <- ET in FS.
  destruct (folds _ count ds) as [[r rest]|] eqn:F; [|discriminate]. cbn in H. injection H as ->.
  eapply (folds_ok _ _ (draw_ok n m tr)); [|exact FS|exact F].
  intros ds' f rest' FS' O. destruct (partial_one_spec _ _ _ _ _ _ _ _ FS' O) as (R & first & (P & LT & G & LL & CV) & _).
  split; auto. split; auto. split; [now rewrite LT, ET|]. split; auto. split; auto.
  eapply Permutation_NoDup; [apply Permutation_sym, G|]. apply NoDup_list_prod; [|apply seq_NoDup].
  assert (N : NoDup (f_train f ++ f_test f)) by (eapply Permutation_NoDup; [apply Permutation_sym, P|apply seq_NoDup]).
  now apply NoDup_app_inv in N.
Qed.
Print Assumptions C30_features.

(** Number of observed entries, first draw: the requested share of all entries. *)
Theorem C30_features_sizes : forall mat shape n m tr missing count ds fs t c,
  shape_is mat shape n m -> nearest_even ((1 - tr) * inject_Z (Z.of_nat n)) t ->
  nearest_even ((1 - missing) * inject_Z (Z.of_nat (slice_size n t)) * inject_Z (Z.of_nat m)) c ->
  Forall (fun d => shuffle n (fst d) /\ shuffle (slice_size n t * m) (snd d)) ds ->
  split_features mat shape tr missing count false ds = Some (Ok fs) ->
  Forall (fun f => List.length (f_label f) = slice_size (slice_size n t * m) c) fs.
Proof.
  intros mat shape n m tr missing count ds fs t c SI NT NC FS H. unfold split_features in H. rewrite (shape_is_ok _ _ _ _ SI) in H.
  assert (ET : cut (1 - tr) n = t) by (eapply nearest_even_unique; [apply round_q_spec|exact NT]). rewrite <- ET in FS.
  destruct (folds _ count ds) as [[r rest]|] eqn:F; [|discriminate]. cbn in H. injection H as ->.
  assert (G : List.length fs = count /\ Forall (fun f => List.length (f_label f) = slice_size (slice_size n t * m) c) fs); [|tauto].
  eapply (folds_ok _ _ (draw_ok n m tr)); [|exact FS|exact F].
  intros ds' f rest' FS' O. destruct (partial_one_spec _ _ _ _ _ _ _ _ FS' O) as (R & first & (P & LT & G & LL & CV) & FI).
  split; auto. destruct ds' as [|d ds']; [discriminate|]. inversion FS' as [|? ? Sd Ss]; subst.
  assert (first = true).
  { apply (FI d ds' eq_refl). intro N. cbn [partial_one] in O, N. destruct (partial_attempt _ _ _ _ _ true d) as [[f'|]|e'] eqn:A; try discriminate.
    unfold partial_attempt in A. destruct (train_test_spec n tr (fst d) (proj1 Sd)) as (train & test & E & _). rewrite E in A. cbn [bind] in A.
    destruct (randperm _ _ _) as [lab|]; [|discriminate]. cbn [bind] in A. destruct (partial_fold _ _ _ _); discriminate. }
  subst first. rewrite LL, LT. unfold n_lab. f_equal. eapply nearest_even_unique; [apply round_q_spec|exact NC].
Qed.
Print Assumptions C30_features_sizes.

(** If the first draw misses a feature, retries keep only the share of the number of rows, not of entries. *)
Theorem C30_features_retry_refuted : forall mat shape n m tr missing d ds f t c c',
  shape_is mat shape n m -> nearest_even ((1 - tr) * inject_Z (Z.of_nat n)) t ->
  nearest_even ((1 - missing) * inject_Z (Z.of_nat (slice_size n t)) * inject_Z (Z.of_nat m)) c -> 0 <= c ->
  nearest_even ((1 - missing) * inject_Z (Z.of_nat (slice_size n t))) c' ->
  Forall (fun d => shuffle n (fst d) /\ shuffle (slice_size n t * m) (snd d)) (d :: ds) ->
  (exists j, (j < m)%nat /\ forall k, In k (firstn (Z.to_nat c) (snd d)) -> (k mod m)%nat <> j) ->
  split_features mat shape tr missing 1 true (d :: ds) = Some (Ok [f]) ->
  List.length (f_label f) = slice_size (slice_size n t * m) c'.
Proof.
  intros mat shape n m tr missing d ds f t c c' SI NT NC C0 NC' FS (j & Hj & MISS) H. unfold split_features in H.
  rewrite (shape_is_ok _ _ _ _ SI) in H.
  assert (ET : cut (1 - tr) n = t) by (eapply nearest_even_unique; [apply round_q_spec|exact NT]). rewrite <- ET in FS.
  cbn [folds] in H. destruct (partial_one _ _ _ _ _ (d :: ds)) as [[[f'|e] rest]|] eqn:O; try discriminate. injection H as ->.
  destruct (partial_one_spec _ _ _ _ _ _ _ _ FS O) as (R & first & (P & LT & G & LL & CV) & FI).
  destruct first.
  - exfalso. apply (proj1 (FI d ds eq_refl)); auto. inversion FS as [|? ? Sd Ss]; subst.
    cbn [partial_one] in O |- *. unfold partial_attempt in O |- *. destruct (train_test_spec n tr (fst d) (proj1 Sd)) as (train & test & E & _ & L).
    rewrite E in O |- *. cbn [bind] in O |- *. rewrite L in O |- *.
    assert (EC : round_q ((1 - missing) * inject_Z (Z.of_nat (slice_size n (cut (1 - tr) n))) * inject_Z (Z.of_nat m)) = c)
      by (eapply nearest_even_unique; [apply round_q_spec|exact NC]).
    rewrite EC in O |- *. destruct (randperm _ _ _) as [lab|] eqn:RP in O |- *; [|discriminate]. cbn [bind] in O |- *.
    destruct (true && _); [discriminate|].
    assert (LAB : lab = firstn (Z.to_nat c) (snd d)).
    { unfold randperm in RP. destruct (c >? _) eqn:Q in RP; [discriminate|]. injection RP as <-. unfold py_slice_to.
      destruct (Z.ltb_spec c 0); [lia|reflexivity]. }
    destruct (Nat.eqb_spec (List.length (nodup Nat.eq_dec (map (fun item => (item mod m)%nat) lab))) m) as [Q|]; [|reflexivity].
    exfalso.
    assert (IN : incl (seq 0 m) (nodup Nat.eq_dec (map (fun item => (item mod m)%nat) lab))).
    { apply NoDup_length_incl; [apply NoDup_nodup|rewrite seq_length; lia|]. intros x J. apply nodup_In, in_map_iff in J.
      destruct J as (k & <- & _). apply in_seq. split; [lia|]. apply Nat.mod_upper_bound. lia. }
    specialize (IN j). assert (J : In j (seq 0 m)) by (apply in_seq; lia). apply IN, nodup_In, in_map_iff in J.
    destruct J as (k & Hk & Jk). rewrite LAB in Jk. exact (MISS k Jk Hk).
  - rewrite LL, LT, ET. unfold n_lab. f_equal. eapply nearest_even_unique; [apply round_q_spec|].
    unfold nearest_even in *. rewrite Qmult_1_r. exact NC'.
Qed.
Print Assumptions C30_features_retry_refuted.

(** For shares between 0 and 1 the only error is the announced one: fewer rows' worth of entries than columns. *)
Theorem C30_features_rejects : forall mat shape n m tr missing count all_features d ds e t c,
  shape_is mat shape n m -> (0 < m)%nat -> nearest_even ((1 - tr) * inject_Z (Z.of_nat n)) t -> (0 <= missing <= 1)%Q ->
  nearest_even ((1 - missing) * inject_Z (Z.of_nat (slice_size n t))) c ->
  Forall (fun d => shuffle n (fst d) /\ shuffle (slice_size n t * m) (snd d)) (d :: ds) -> (0 < count)%nat ->
  (split_features mat shape tr missing count all_features (d :: ds) = Some (Err e) <->
   e = ValueErr /\ all_features = true /\ c < Z.of_nat m).
Proof.
  intros mat shape n m tr missing count all_features d ds e t c SI Hm NT MS NC FS CT. unfold split_features. rewrite (shape_is_ok _ _ _ _ SI).
  assert (ET : cut (1 - tr) n = t) by (eapply nearest_even_unique; [apply round_q_spec|exact NT]). rewrite <- ET in FS.
  assert (EC : cut (1 - missing) (slice_size n (cut (1 - tr) n)) = c) by (eapply nearest_even_unique; [apply round_q_spec|rewrite ET; exact NC]).
  assert (MR : (0 <= 1 - missing <= 1)%Q).
  { split; [apply Qplus_le_l with (z := missing)|apply Qplus_le_l with (z := (missing - 1)%Q)]; ring_simplify; tauto. }
  pose proof (fun first d Sd => partial_attempt_total n m tr (1 - missing) all_features first d Hm MR Sd) as TOT. rewrite EC in TOT.
  split.
  - intro H. destruct (folds _ count (d :: ds)) as [[r rest]|] eqn:F; [|discriminate]. cbn in H. injection H as ->.
    eapply (folds_err _ (fun e => e = ValueErr /\ all_features = true /\ c < Z.of_nat m) (draw_ok n m tr)) in F; [tauto| | |exact FS].
    + intros ds' f' rest' FS' O. now destruct (partial_one_spec _ _ _ _ _ _ _ _ FS' O) as (R' & _).
    + intros ds' e' rest' FS' O. destruct ds' as [|d' ds']; [discriminate|]. cbn [partial_one] in O. inversion FS' as [|? ? Sd Ss]; subst.
      destruct (TOT true d' Sd) as [TT|[o Ho]].
      * destruct TT as (_ & A & B & E). rewrite E in O. injection O as <- _. auto.
      * rewrite Ho in O. destruct o as [f|]; [discriminate|]. apply until_err in O. destruct O as (d2 & J2 & E2).
        rewrite Forall_forall in Ss. destruct (TOT false d2 (Ss _ J2)) as [(X & _)|[o Ho2]]; [discriminate|congruence].
  - intros (-> & -> & LT). inversion FS as [|? ? Sd Ss]; subst. destruct count as [|count]; [lia|]. cbn [folds partial_one].
    destruct (TOT true d Sd) as [(_ & _ & _ & ->)|[o Ho]]; [reflexivity|]. exfalso.
    unfold partial_attempt in Ho. destruct (train_test_spec n tr (fst d) (proj1 Sd)) as (train & test & E & _ & L). rewrite E in Ho. cbn [bind] in Ho.
    rewrite L in Ho. destruct (randperm _ _ _); [|discriminate]. cbn [bind] in Ho. fold (cut (1 - missing) (slice_size n (cut (1 - tr) n))) in Ho.
    destruct (Z.ltb_spec (cut (1 - missing) (slice_size n (cut (1 - tr) n))) (Z.of_nat m)) as [_|]; [discriminate|lia].
Qed.
Print Assumptions C30_features_rejects.

Example C30_example :
  shape_is (Some [[1; 0]; [0; 1]; [1; 1]; [0; 0]]) None 4 2 /\
  split_multi_label (Some [[1; 0]; [0; 1]; [1; 1]; [0; 0]]) None (1 # 4) (2 # 3) 1 true [[3; 0; 1; 2]; [2; 0; 1; 3]]%nat =
    Some (Ok [{| f_train := [2; 0; 1]; f_test := [3]; f_label := [Row 2; Row 0]; f_unlabel := [Row 1] |}])%nat /\
  split_features None (Some (2, 2)%nat) (1 # 2) (1 # 2) 1 false [([1; 0], [1; 0])]%nat =
    Some (Ok [{| f_train := [1]; f_test := [0]; f_label := [Cell 1 1]; f_unlabel := [Cell 1 0] |}])%nat /\
  split_features None (Some (4, 2)%nat) (0) (1 # 2) 1 true
    [([0; 1; 2; 3], [0; 2; 4; 6; 1; 3; 5; 7]); ([0; 1; 2; 3], [7; 2; 4; 6; 1; 3; 5; 0])]%nat =
    Some (Ok [{| f_train := [0; 1; 2; 3]; f_test := []; f_label := [Cell 3 1; Cell 1 0];
                 f_unlabel := [Cell 0 0; Cell 0 1; Cell 1 1; Cell 2 0; Cell 2 1; Cell 3 0] |}])%nat.
Proof.
  split; [|repeat split; reflexivity]. right. split; auto. eexists. split; [reflexivity|]. repeat split; auto; try discriminate.
Qed.

(** ** C31 *)

(** Splits of integer-named instances with sets of equal sizes are stored as tables, and loading gives these
    tables back, with dimensions of length one dropped. *)
Theorem C31_round_trip : forall (fs : list (fold key key)) d tr te la un a b c e,
  fs <> [] -> table f_train fs tr a -> table f_test fs te b -> table f_label fs la c -> table f_unlabel fs un e ->
  exists d' r1 r2 r3 r4,
    save_folds name_item name_item fs (Some tt) (Some d) = (Some d', Ok fs) /\
    split_load (Some d') = Ok (r1, r2, r3, r4) /\ squeezed tr r1 /\ squeezed te r2 /\ squeezed la r3 /\ squeezed un r4.
Proof.
  intros fs d tr te la un a b c e NE T1 T2 T3 T4. unfold save_folds, split_save.
  rewrite (table_items _ _ _ _ T1), (table_items _ _ _ _ T2), (table_items _ _ _ _ T3), (table_items _ _ _ _ T4).
  rewrite (put_table "train_idx.txt" tr a d (proj2 T1)), (put_table "test_idx.txt" te b _ (proj2 T2)).
  assert (NL : la <> []) by (destruct T3 as [E _]; intros ->; destruct fs; [congruence|discriminate]).
  rewrite (two_dim_table la c NL (proj2 T3)).
  rewrite (put_table "label_idx.txt" la c _ (proj2 T3)), (put_table "unlabel_idx.txt" un e _ (proj2 T4)). cbn [rmap bind].
  do 5 eexists. split; [reflexivity|]. cbn [split_load]. split; [unfold load_one; repeat (rewrite dget_dset by apply String.eqb_eq; cbn [String.eqb Ascii.eqb Bool.eqb]); reflexivity|].
  split; [eapply loadtxt_squeezed; [exact (table_len _ _ _ _ NE T1)|exact (proj2 T1)]|]. split; [eapply loadtxt_squeezed; [exact (table_len _ _ _ _ NE T2)|exact (proj2 T2)]|]. split; [eapply loadtxt_squeezed; [exact (table_len _ _ _ _ NE T3)|exact (proj2 T3)]|]. eapply loadtxt_squeezed; [exact (table_len _ _ _ _ NE T4)|exact (proj2 T4)].
Qed.
Print Assumptions C31_round_trip.

(** In particular two or more folds with two or more members per set come back exactly. *)
Theorem C31_exact : forall (fs : list (fold key key)) d tr te la un a b c e,
  (2 <= List.length fs)%nat -> (2 <= a)%nat -> (2 <= b)%nat -> (2 <= c)%nat -> (2 <= e)%nat ->
  table f_train fs tr a -> table f_test fs te b -> table f_label fs la c -> table f_unlabel fs un e ->
  exists d', save_folds name_item name_item fs (Some tt) (Some d) = (Some d', Ok fs) /\
    split_load (Some d') = Ok (LMat tr, LMat te, LMat la, LMat un).
Proof.
  intros fs d tr te la un a b c e L2 A B C E T1 T2 T3 T4.
  assert (NE : fs <> []) by (intros ->; cbn in L2; lia).
  destruct (C31_round_trip fs d tr te la un a b c e NE T1 T2 T3 T4) as (d' & r1 & r2 & r3 & r4 & S & L & Q1 & Q2 & Q3 & Q4).
  exists d'. split; auto. rewrite L.
  rewrite (squeezed_mat _ _ _ _ _ L2 A T1 Q1), (squeezed_mat _ _ _ _ _ L2 B T2 Q2), (squeezed_mat _ _ _ _ _ L2 C T3 Q3), (squeezed_mat _ _ _ _ _ L2 E T4 Q4).
  reflexivity.
Qed.
Print Assumptions C31_exact.

(** A single fold is not returned as one fold: its sets become flat vectors, a set of one a bare number,
    and a set of none an empty vector. *)
Theorem C31_single_fold_refuted : forall (f : fold key key) d tr te la un d',
  f_train f = map KInt tr -> f_test f = map KInt te -> f_label f = map KInt la -> f_unlabel f = map KInt un ->
  (2 <= List.length tr)%nat -> List.length te = 1%nat -> List.length un = 0%nat ->
  save_folds name_item name_item [f] (Some tt) (Some d) = (Some d', Ok [f]) ->
  exists t r, te = [t] /\ split_load (Some d') = Ok (LVec tr, LNum t, r, LVec []).
Proof.
  intros f d tr te la un d' E1 E2 E3 E4 L1 L2 L4 S.
  assert (TB : forall proj l, proj f = map KInt l -> table proj [f] [l] (List.length l)) by (intros proj l E; split; [cbn; now rewrite E|repeat constructor]).
  destruct (C31_round_trip [f] d [tr] [te] [la] [un] _ _ _ _ ltac:(discriminate) (TB _ _ E1) (TB _ _ E2) (TB _ _ E3) (TB _ _ E4))
    as (d2 & r1 & r2 & r3 & r4 & S2 & L & Q1 & Q2 & Q3 & Q4).
  rewrite S in S2. injection S2 as <-. destruct te as [|t [|? ?]]; try discriminate. exists t, r3. split; auto. rewrite L.
  destruct un; [|discriminate].
  rewrite (squeezed_row _ _ L1 Q1), (squeezed_num _ _ Q2), (squeezed_blank _ Q4). reflexivity.
Qed.
Print Assumptions C31_single_fold_refuted.

(** Label sets of index tuples (multi-label and feature splits) are stored under names that loading does not
    look for: in a fresh directory they come back as None; *)
Theorem C31_tuples_refuted : forall (fs : list (fold nat entry)) d tr te a b f e,
  table (fun f => map (fun i => KInt (Z.of_nat i)) (f_train f)) fs tr a -> table (fun f => map (fun i => KInt (Z.of_nat i)) (f_test f)) fs te b ->
  In f fs -> In e (f_label f) ->
  (forall n, In n ["label_idx.txt"; "unlabel_idx.txt"; "label_idx.txt.npy"; "unlabel_idx.txt.npy"]%string -> dget String.eqb n d = None) ->
  exists d' r1 r2, save_folds pos_item entry_item fs (Some tt) (Some d) = (Some d', Ok fs) /\
    split_load (Some d') = Ok (r1, r2, LNone, LNone) /\ squeezed tr r1 /\ squeezed te r2.
Proof.
  intros fs d tr te a b f e T1 T2 Jf Je FR.
  destruct (save_tuples fs d tr te a b f e T1 T2 Jf Je) as (d' & S & G). exists d', (loadtxt tr), (loadtxt te). split; auto.
  assert (NE : fs <> []) by (intros ->; destruct Jf).
  split; [|split; [eapply loadtxt_squeezed; [exact (table_len _ _ _ _ NE T1)|exact (proj2 T1)]|eapply loadtxt_squeezed; [exact (table_len _ _ _ _ NE T2)|exact (proj2 T2)]]].
  cbn [split_load]. unfold load_one. rewrite !G. cbn. 
  rewrite !FR by (cbn; auto 10). reflexivity.
Qed.
Print Assumptions C31_tuples_refuted.

(** though they are in the directory, in two files with other names: per fold and in order the tuple (i,) of every whole row
    and (i, j) of every single cell. *)
Theorem C31_tuples_kept : forall (fs : list (fold nat entry)) d tr te a b f e,
  table (fun f => map (fun i => KInt (Z.of_nat i)) (f_train f)) fs tr a -> table (fun f => map (fun i => KInt (Z.of_nat i)) (f_test f)) fs te b ->
  In f fs -> In e (f_label f) ->
  exists d' la un, save_folds pos_item entry_item fs (Some tt) (Some d) = (Some d', Ok fs) /\
    dget String.eqb "label_idx.npy"%string d' = Some (Npy la) /\ dget String.eqb "unlabel_idx.npy"%string d' = Some (Npy un) /\
    (let holds (c : item) (e : entry) : Prop := match e with Row i => (c = Tup [Z.of_nat i]) | Cell i j => (c = Tup [Z.of_nat i; Z.of_nat j]) end in
     Forall2 (fun r g => Forall2 holds r (f_label g)) la fs /\ Forall2 (fun r g => Forall2 holds r (f_unlabel g)) un fs).
Proof.
  intros fs d tr te a b f e T1 T2 Jf Je. destruct (save_tuples fs d tr te a b f e T1 T2 Jf Je) as (d' & S & G).
  eexists d', _, _. split; [exact S|]. split; [rewrite G; reflexivity|]. split; [rewrite G; reflexivity|]. cbv zeta.
  assert (K : forall proj : fold nat entry -> list entry,
    Forall2 (fun r g => Forall2 (fun c e => match e with Row i => (c = Tup [Z.of_nat i]) | Cell i j => (c = Tup [Z.of_nat i; Z.of_nat j]) end) r (proj g)) (map (fun g => map entry_item (proj g)) fs) fs).
  { intro proj. clear. induction fs as [|g fs IH]; constructor; auto. induction (proj g) as [|x l IHl]; constructor; auto. destruct x; reflexivity. }
  split; apply K.
Qed.
Print Assumptions C31_tuples_kept.
Example C31_tuples_kept_example : exists d', save_folds pos_item entry_item [{| f_train := [1; 0]; f_test := [2; 3]; f_label := [Cell 1 0]; f_unlabel := [Cell 1 2; Row 0] |}]%nat
                (Some tt) (Some []) = (Some d', Ok [{| f_train := [1; 0]; f_test := [2; 3]; f_label := [Cell 1 0]; f_unlabel := [Cell 1 2; Row 0] |}]%nat) /\
  dget String.eqb "unlabel_idx.npy"%string d' = Some (Npy [[Tup [1; 2]; Tup [0]]]).
Proof. eexists. split; reflexivity. Qed.

(** and where an older split was saved, its label sets are returned together with the new training sets. *)
Theorem C31_stale_refuted : forall (fs : list (fold nat entry)) d tr te a b f e old1 old2,
  table (fun f => map (fun i => KInt (Z.of_nat i)) (f_train f)) fs tr a -> table (fun f => map (fun i => KInt (Z.of_nat i)) (f_test f)) fs te b ->
  In f fs -> In e (f_label f) ->
  dget String.eqb "label_idx.txt"%string d = Some (Txt old1) -> dget String.eqb "unlabel_idx.txt"%string d = Some (Txt old2) ->
  exists d' r1 r2, save_folds pos_item entry_item fs (Some tt) (Some d) = (Some d', Ok fs) /\
    split_load (Some d') = Ok (r1, r2, loadtxt old1, loadtxt old2) /\ squeezed tr r1 /\ squeezed te r2.
Proof.
  intros fs d tr te a b f e old1 old2 T1 T2 Jf Je G1 G2.
  destruct (save_tuples fs d tr te a b f e T1 T2 Jf Je) as (d' & S & G). exists d', (loadtxt tr), (loadtxt te). split; auto.
  assert (NE : fs <> []) by (intros ->; destruct Jf).
  split; [|split; [eapply loadtxt_squeezed; [exact (table_len _ _ _ _ NE T1)|exact (proj2 T1)]|eapply loadtxt_squeezed; [exact (table_len _ _ _ _ NE T2)|exact (proj2 T2)]]].
  cbn [split_load]. unfold load_one. rewrite !G. cbn. rewrite G1, G2. reflexivity.
Qed.
Print Assumptions C31_stale_refuted.

(** String names cannot be saved: the call fails, the computed split is lost and what was saved before is destroyed. *)
Theorem C31_strings_refuted : forall (fs : list (fold key key)) d f s,
  In f fs -> In (KStr s) (f_train f) ->
  exists d', save_folds name_item name_item fs (Some tt) (Some d) = (Some d', Err TypeErr) /\
    dget String.eqb "train_idx.txt"%string d' = Some (Txt []).
Proof.
  intros fs d f s Jf Js. unfold save_folds, split_save, put_txt.
  assert (E : savetxt (map (fun f => map name_item (f_train f)) fs) = Err TypeErr).
  { unfold savetxt, guard. destruct (match map _ fs with [] => true | r :: _ => _ end); [|reflexivity]. cbn [bind].
    apply mapM_type_err with (x := map name_item (f_train f)).
    - intros r err _ H. destruct (mapM_err_in int_of r err H) as (i & _ & HI). unfold int_of in HI. destruct i as [[z|z]|l]; congruence.
    - apply in_map_iff. eauto.
    - destruct (mapM int_of (map name_item (f_train f))) as [v|err] eqn:M; [|eauto]. exfalso.
      destruct (mapM_all int_of _ v (Scalar (KStr s)) M) as [z Hz]; [apply in_map_iff; exists (KStr s); auto|]. discriminate. }
  rewrite E. eexists. split; [reflexivity|]. rewrite dget_dset by apply String.eqb_eq. reflexivity.
Qed.
Print Assumptions C31_strings_refuted.

(** Saving can be disabled, needs an existing directory, and touches no other files. *)
Theorem C31_frame : forall (fs : list (fold key key)) path d d' r n,
  save_folds name_item name_item fs path d = (d', r) ->
  (path = None -> d' = d /\ r = Ok fs) /\
  (path <> None -> d = None -> d' = None /\ r = Err GenericErr /\ split_load d' = Err GenericErr) /\
  (forall l, d = Some l -> exists l', d' = Some l' /\
     (~ In n ["train_idx.txt"; "test_idx.txt"; "label_idx.txt"; "unlabel_idx.txt"; "label_idx.npy"; "unlabel_idx.npy"]%string ->
      dget String.eqb n l' = dget String.eqb n l)).
Proof.
  intros fs path d d' r n S. unfold save_folds, split_save in S. split; [|split].
  - intros ->. injection S as <- <-. auto.
  - intros NP ->. destruct path; [|congruence]. injection S as <- <-. auto.
  - intros l ->. destruct path as [u|]; [|injection S as <- <-; eauto].
    assert (PT : forall name a (x : list (string * file)), exists y r0, put_txt name a x = (y, r0) /\ (n <> name -> dget String.eqb n y = dget String.eqb n x)).
    { intros name a0 x. unfold put_txt. destruct (savetxt a0); do 2 eexists; (split; [reflexivity|]); intro N; rewrite dget_dset by apply String.eqb_eq;
        destruct (String.eqb_spec n name); congruence. }
    destruct (PT "train_idx.txt"%string (map (fun f => map name_item (f_train f)) fs) l) as (l1 & q1 & E1 & G1). rewrite E1 in S.
    destruct q1 as [q1|q1]; [|injection S as <- <-; eexists; split; [reflexivity|]; cbn; intro N; apply G1; intros ->; tauto].
    destruct (PT "test_idx.txt"%string (map (fun f => map name_item (f_test f)) fs) l1) as (l2 & q2 & E2 & G2). rewrite E2 in S.
    destruct q2 as [q2|q2]; [|injection S as <- <-; eexists; split; [reflexivity|]; cbn; intro N; rewrite G2, G1 by (intros ->; tauto); auto].
    destruct (two_dim _).
    + destruct (PT "label_idx.txt"%string (map (fun f => map name_item (f_label f)) fs) l2) as (l3 & q3 & E3 & G3). rewrite E3 in S.
      destruct q3 as [q3|q3]; [|injection S as <- <-; eexists; split; [reflexivity|]; cbn; intro N; rewrite G3, G2, G1 by (intros ->; tauto); auto].
      destruct (PT "unlabel_idx.txt"%string (map (fun f => map name_item (f_unlabel f)) fs) l3) as (l4 & q4 & E4 & G4). rewrite E4 in S.
      injection S as <- <-. eexists. split; [reflexivity|]. cbn. intro N. rewrite G4, G3, G2, G1 by (intros ->; tauto). auto.
    + injection S as <- <-. eexists. split; [reflexivity|]. cbn [In]. intro N. rewrite !dget_dset by apply String.eqb_eq.
      destruct (String.eqb_spec n "unlabel_idx.npy"); [subst; tauto|]. destruct (String.eqb_spec n "label_idx.npy"); [subst; tauto|].
      rewrite G2, G1 by (intros ->; tauto). auto.
Qed.
Print Assumptions C31_frame.

Example C31_example :
  let f := {| f_train := [KInt 3; KInt 1]; f_test := [KInt 0; KInt 2]; f_label := [KInt 3]; f_unlabel := [KInt 1] |} in
  table f_train [f; f] [[3; 1]; [3; 1]] 2 /\
  (exists d', save_folds name_item name_item [f; f] (Some tt) (Some []) = (Some d', Ok [f; f]) /\
     split_load (Some d') = Ok (LMat [[3; 1]; [3; 1]], LMat [[0; 2]; [0; 2]], LVec [3; 3], LVec [1; 1])) /\
  (exists d', save_folds pos_item entry_item [{| f_train := [1; 0]; f_test := [2; 3]; f_label := [Row 1]; f_unlabel := [Row 0] |}]%nat
                (Some tt) (Some []) = (Some d', Ok [{| f_train := [1; 0]; f_test := [2; 3]; f_label := [Row 1]; f_unlabel := [Row 0] |}]%nat) /\
     split_load (Some d') = Ok (LVec [1; 0], LVec [2; 3], LNone, LNone)).
Proof.
  cbn zeta. split; [split; [reflexivity|repeat constructor]|]. split; eexists; split; reflexivity.
Qed.
