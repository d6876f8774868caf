(** Lemmas about the multi-label query strategies. *)
From Verif Require Import Base BaseFacts IndexModel MLModel MLSpec MLProofs MLProofs2 MLProofs3 MLProps MiscModel MiscSpec QueryModel QuerySpec QueryProofs QueryProofs5
  MetricModel MLQueryModel MLQuerySpec.
From Coq Require Import QArith Qabs Qfield Lqa.
Local Open Scope Z_scope.

(** *** Order of extended numbers *)
Lemma fl_lt_nan a : fl_lt a NaN = false /\ fl_lt NaN a = false.
Proof. destruct a as [q|[]|]; cbn; auto. Qed.

Lemma Qle_bool_false x y : Qle_bool x y = false -> (y < x)%Q.
Proof. intro H. apply Qnot_le_lt. intro L. apply Qle_bool_iff in L. congruence. Qed.

Lemma fl_lt_irrefl a : fl_lt a a = false.
Proof. destruct a as [q|[]|]; cbn; auto. rewrite (proj2 (Qle_bool_iff q q)); auto. apply Qle_refl. Qed.

Lemma fl_lt_asym a b : fl_lt a b = true -> fl_lt b a = false.
Proof.
  destruct a as [x|[]|], b as [y|[]|]; cbn; try discriminate; auto. intro H. apply negb_true_iff, Qle_bool_false in H.
  apply negb_false_iff, Qle_bool_iff. lra.
Qed.

Lemma fl_nlt_trans a b c : b <> NaN -> fl_lt b a = false -> fl_lt c b = false -> fl_lt c a = false.
Proof.
  destruct a as [x|[]|], b as [y|[]|], c as [z|[]|]; cbn; try discriminate; auto; try congruence.
  rewrite !negb_false_iff, !Qle_bool_iff. intros _ H H'. lra.
Qed.

Lemma fmax_cases a b : a <> NaN -> fl_fmax a b <> NaN /\ (fl_fmax a b = a \/ fl_fmax a b = b) /\
  fl_lt (fl_fmax a b) a = false /\ fl_lt (fl_fmax a b) b = false.
Proof.
  intro Ha. unfold fl_fmax. destruct a as [x|s|]; [| |congruence].
  - destruct b as [y|t|].
    + destruct (fl_lt (Num x) (Num y)) eqn:E; split; try congruence; split; auto; split; auto using fl_lt_asym, fl_lt_irrefl.
    + destruct (fl_lt (Num x) (Inf t)) eqn:E; split; try congruence; split; auto; split; auto using fl_lt_asym, fl_lt_irrefl.
    + split; [congruence|]. split; auto. split; [apply fl_lt_irrefl|apply fl_lt_nan].
  - destruct b as [y|t|].
    + destruct (fl_lt (Inf s) (Num y)) eqn:E; split; try congruence; split; auto; split; auto using fl_lt_asym, fl_lt_irrefl.
    + destruct (fl_lt (Inf s) (Inf t)) eqn:E; split; try congruence; split; auto; split; auto using fl_lt_asym, fl_lt_irrefl.
    + split; [congruence|]. split; auto. split; [apply fl_lt_irrefl|apply fl_lt_nan].
Qed.

Lemma fold_fmax l : forall a, a <> NaN ->
  let v := fold_left fl_fmax l a in
  v <> NaN /\ (In v l \/ v = a) /\ fl_lt v a = false /\ forall x, In x l -> fl_lt v x = false.
Proof.
  induction l as [|b l IH]; intros a Ha; cbn [fold_left].
  - split; auto. split; auto. split; [apply fl_lt_irrefl|]. intros x [].
  - destruct (fmax_cases a b Ha) as (N & C & La & Lb). destruct (IH _ N) as (V & W & La' & Lx).
    cbn zeta in *. set (v := fold_left fl_fmax l (fl_fmax a b)) in *.
    split; auto. split; [|split].
    + destruct W as [W|W]; [left; now right|]. destruct C as [C|C]; rewrite W, C; auto. left; now left.
    + exact (fl_nlt_trans a (fl_fmax a b) v N La La').
    + intros x [->|Hx]; auto. exact (fl_nlt_trans x (fl_fmax a x) v N Lb La').
Qed.

Lemma lr_scores_greatest row k : (k < length row / num_sub)%nat ->
  exists v, nth_error (lr_scores row) k = Some v /\
    greatest (map (fun j => nth (k * num_sub + j) row NaN) (range num_sub)) v.
Proof.
  intro L. unfold lr_scores.
  rewrite (nth_error_nth' _ NaN) by (rewrite map_length; unfold range; now rewrite seq_length).
  eexists. split; [reflexivity|]. rewrite (nth_indep _ NaN (fold_left fl_fmax (map (fun j => nth (0 * num_sub + j) row NaN) (range num_sub)) (Inf true)))
    by (rewrite map_length; unfold range; now rewrite seq_length).
  rewrite (map_nth (fun k => fold_left fl_fmax (map (fun j => nth (k * num_sub + j) row NaN) (range num_sub)) (Inf true)) (range (length row / num_sub)) 0%nat k).
  unfold range at 2. rewrite seq_nth by exact L. rewrite Nat.add_0_l.
  destruct (fold_fmax (map (fun j => nth (k * num_sub + j) row NaN) (range num_sub)) (Inf true)) as (N & I & _ & G); [discriminate|].
  split; [exact N|]. split; [exact I|exact G].
Qed.

Lemma lr_scores_length row : length (lr_scores row) = (length row / num_sub)%nat.
Proof. unfold lr_scores. rewrite map_length. unfold range. apply seq_length. Qed.

(** *** argmin *)
Lemma argmin_range l : forall best bv i,
  fl_argmin_from best bv i l = best \/ (i <= fl_argmin_from best bv i l < i + length l)%nat.
Proof.
  induction l as [|b l IH]; intros; cbn [fl_argmin_from length]; auto.
  destruct (is_nan bv); auto. destruct (is_nan b); [right; lia|]. destruct (fl_lt b bv).
  - destruct (IH i b (S i)) as [->|]; right; lia.
  - destruct (IH best bv (S i)) as [->|]; [auto|right; lia].
Qed.

Lemma argmin_from_spec l : forall best bv i k v,
  fl_argmin_from best bv i l = k -> (best < i)%nat ->
  nth_error (repeat (Inf false) best ++ [bv]) best = Some bv ->
  (k = best \/ (i <= k < i + length l)%nat) /\
  v = (if Nat.eqb k best then bv else nth (k - i) l NaN) ->
  (bv = NaN -> k = best) /\
  (bv <> NaN -> (forall x, In x l -> x <> NaN) ->
     v <> NaN /\ fl_lt bv v = false /\ forall x, In x l -> fl_lt x v = false).
Proof.
  induction l as [|b l IH]; intros best bv i k v E L _ (R & V); cbn [fl_argmin_from] in E.
  - subst k. rewrite Nat.eqb_refl in V. subst v. split; auto. intros N _. split; auto. split; [apply fl_lt_irrefl|]. intros x [].
  - destruct (is_nan bv) eqn:Nb.
    + subst k. split; auto. intro N. destruct bv; try discriminate. congruence.
    + assert (Hb : bv <> NaN) by (destruct bv; congruence || discriminate). split; [congruence|]. intros _ Hl.
      assert (Nv : is_nan b = false) by (specialize (Hl b (or_introl eq_refl)); destruct b; auto; congruence).
      rewrite Nv in E. destruct (fl_lt b bv) eqn:C.
      * assert (K : k = i \/ (S i <= k < S i + length l)%nat).
        { subst k. apply argmin_range. }
        destruct (IH i b (S i) k v E ltac:(lia)) as (_ & H).
        { rewrite nth_error_app2 by (rewrite repeat_length; lia). rewrite repeat_length, Nat.sub_diag. reflexivity. }
        { split; auto. rewrite V. destruct (Nat.eqb k best) eqn:Q; [apply Nat.eqb_eq in Q; lia|].
          destruct (Nat.eqb k i) eqn:Q'; [apply Nat.eqb_eq in Q'; rewrite Q', Nat.sub_diag; reflexivity|]. apply Nat.eqb_neq in Q'.
          replace (k - i)%nat with (S (k - S i)) by lia. reflexivity. }
        destruct H as (H1 & H2 & H3); [apply Hl; now left|intros; apply Hl; now right|]. split; auto. split.
        -- apply (fl_nlt_trans v b bv); auto; [apply Hl; now left|]. now apply fl_lt_asym.
        -- intros x [->|Hx]; auto.
      * assert (K : k = best \/ (S i <= k < S i + length l)%nat).
        { subst k. apply argmin_range. }
        destruct (IH best bv (S i) k v E ltac:(lia)) as (_ & H).
        { rewrite nth_error_app2 by (rewrite repeat_length; lia). rewrite repeat_length, Nat.sub_diag. reflexivity. }
        { split; auto. rewrite V. destruct (Nat.eqb k best) eqn:Q; auto. apply Nat.eqb_neq in Q.
          replace (k - i)%nat with (S (k - S i)) by lia. reflexivity. }
        destruct H as (H1 & H2 & H3); [exact Hb|intros; apply Hl; now right|]. split; auto. split; auto.
        intros x [->|Hx]; auto. exact (fl_nlt_trans v bv x Hb H2 C).
Qed.

Lemma fl_argmin_spec l : l <> [] -> exists k, fl_argmin l = Ok k /\ (k < length l)%nat /\
  (hd NaN l = NaN -> k = 0%nat) /\
  ((forall x, In x l -> x <> NaN) -> forall x, In x l -> fl_lt x (nth k l NaN) = false).
Proof.
  destruct l as [|v l]; [congruence|]. intros _. unfold fl_argmin. eexists. split; [reflexivity|].
  pose proof (argmin_range l 0 v 1) as R. cbn [length hd].
  destruct (argmin_from_spec l 0 v 1 _ (nth (fl_argmin_from 0 v 1 l) (v :: l) NaN) eq_refl) as (H1 & H2); [lia|reflexivity| |].
  { split; auto. destruct (fl_argmin_from 0 v 1 l) as [|k] eqn:E; cbn; auto. now rewrite Nat.sub_0_r. }
  split; [lia|]. split; auto. intros Hl. destruct H2 as (N & A & B); [apply Hl; now left|intros; apply Hl; now right|].
  intros x [->|Hx]; auto.
Qed.

(** *** AUDI *)
Lemma row_of_ok {A} (mat : list (list A)) i : 0 <= i < Z.of_nat (length mat) -> row_of mat i = Ok (nth (Z.to_nat i) mat []).
Proof.
  intro H. unfold row_of, py_index. replace ((0 <=? i) && (i <? Z.of_nat (length mat))) with true by lia.
  apply py_nth_default. lia.
Qed.

Lemma pairs_ins m c : ml_reachable m c -> map ins_of (mcont c) = map fst (pairs c).
Proof.
  intro R. pose proof (reachable_good m c R) as (_ & _ & _ & F & _). rewrite (pairs_map m c F) at 1. rewrite map_map. reflexivity.
Qed.

Lemma instances_in c i : In i (instances c) <-> exists j, In (i, j) (pairs c).
Proof.
  unfold instances. rewrite first_occ_in, in_map_iff. split.
  - intros ([a b] & <- & H). eauto.
  - intros (j & H). exists (i, j). auto.
Qed.

Lemma mask_row c n m W i : has_shape W n m ->
  (forall a b, (a < n)%nat -> (b < m)%nat ->
    (In (Z.of_nat a, Z.of_nat b) (pairs c) -> cell W a b = Some 1) /\
    (~ In (Z.of_nat a, Z.of_nat b) (pairs c) -> cell W a b = Some 0)) ->
  0 <= i < Z.of_nat n ->
  exists w, row_of W i = Ok w /\ length w = m /\
  forall b, (b < m)%nat -> (In (i, Z.of_nat b) (pairs c) <-> nth b w 0 = 1) /\ (~ In (i, Z.of_nat b) (pairs c) <-> nth b w 0 = 0).
Proof.
  intros (SL & SR) C H. rewrite row_of_ok by lia. eexists. split; [reflexivity|].
  assert (Lw : length (nth (Z.to_nat i) W []) = m) by (apply SR, nth_In; lia). split; auto. intros b Hb.
  destruct (C (Z.to_nat i) b ltac:(lia) Hb) as (C1 & C2). rewrite Z2Nat.id in C1, C2 by lia.
  unfold cell in C1, C2. rewrite (nth_error_nth' W []) in C1, C2 by lia. rewrite (nth_error_nth' _ 0) in C1, C2 by lia.
  destruct (In_dec (fun p q : Z * Z => ltac:(repeat decide equality)) (i, Z.of_nat b) (pairs c)) as [D|D].
  - specialize (C1 D). injection C1 as C1. rewrite C1. split; split; auto; congruence.
  - specialize (C2 D). injection C2 as C2. rewrite C2. split; split; auto; congruence.
Qed.

Lemma count_nth {A} (f : A -> bool) (d : A) l : count f l = length (filter (fun b => f (nth b l d)) (range (length l))).
Proof.
  unfold count, range. induction l as [|a l IH]; auto. cbn [length seq filter nth].
  rewrite <- seq_shift. assert (E : forall (g : nat -> bool) k, filter g (map S k) = map S (filter (fun b => g (S b)) k)).
  { clear. intros g k. induction k as [|b k IH]; cbn [map filter]; auto. destruct (g (S b)); cbn [map]; now rewrite IH. }
  rewrite E. destruct (f a); cbn [length]; rewrite map_length; now rewrite IH.
Qed.

Lemma mask_count mz c m i w : ml_reachable mz c -> mz = Z.of_nat m -> length w = m ->
  (forall b, (b < m)%nat -> (In (i, Z.of_nat b) (pairs c) <-> nth b w 0 = 1)) ->
  count (Z.eqb 1) w = pairs_of c i.
Proof.
  intros R Hm Lw H. rewrite (count_nth _ 0), Lw. unfold pairs_of.
  rewrite <- (map_length Z.of_nat), <- (map_length snd (filter _ (pairs c))).
  pose proof (reachable_good mz c R) as G. apply Permutation_length, NoDup_Permutation.
  - apply FinFun.Injective_map_NoDup; [exact Nat2Z.inj|]. apply NoDup_filter. apply seq_NoDup.
  - assert (N : NoDup (pairs c)) by (apply pairs_NoDup; apply G).
    clear -N. induction N as [|[a b] l Hn N IH]; cbn [filter map]; [constructor|]. destruct (fst (a, b) =? i) eqn:E; auto.
    cbn [map]. constructor; auto. intro X. apply in_map_iff in X. destruct X as ([a' b'] & Eb & X). apply filter_In in X.
    destruct X as (X & E'). cbn in *. apply Hn. replace a with a' by lia. now subst b'.
  - intro x. rewrite !in_map_iff. split.
    + intros (b & <- & Hb). apply filter_In in Hb. destruct Hb as (Hb & E). unfold range in Hb. apply in_seq in Hb.
      exists (i, Z.of_nat b). split; auto. apply filter_In. cbn. split; [|lia]. apply (H b); lia.
    + intros ([a b] & <- & Hb). apply filter_In in Hb. destruct Hb as (Hb & E). cbn in *. assert (a = i) by lia. subst a.
      pose proof (good_range mz c _ G Hb) as B. cbn in B. exists (Z.to_nat b). split; [lia|]. apply filter_In.
      split; [unfold range; apply in_seq; lia|]. assert (X : nth (Z.to_nat b) w 0 = 1) by (apply (H (Z.to_nat b)); [lia|]; rewrite Z2Nat.id; [exact Hb|lia]).
      rewrite X. reflexivity.
Qed.

Lemma pairs_of_pos c i : In i (instances c) -> (1 <= pairs_of c i)%nat.
Proof.
  intro H. apply instances_in in H. destruct H as (j & H). unfold pairs_of.
  assert (X : In (i, j) (filter (fun p => fst p =? i) (pairs c))) by (apply filter_In; cbn; split; auto; lia).
  destruct (filter _ _); [destruct X|cbn; lia].
Qed.

Lemma qmax_if a b : (qmax a b == if Qle_bool b a then a else b)%Q.
Proof.
  unfold qmax. destruct (Qle_bool a b) eqn:E, (Qle_bool b a) eqn:F; try reflexivity.
  - apply Qle_bool_iff in E, F. lra.
  - apply Qle_bool_false in E, F. lra.
Qed.

Lemma inconsistency_num a eps pos unl : (1 <= unl)%nat ->
  exists q, inconsistency (Num a) eps pos unl = Num q /\ (q == - inconsistent a eps pos unl)%Q.
Proof.
  intro H. unfold inconsistency, inconsistent, of_nat. set (u := inject_Z (Z.of_nat unl)).
  assert (U : (1 <= u)%Q) by (unfold u; change 1%Q with (inject_Z 1); rewrite <- Zle_Qle; lia).
  pose proof (qmax_if u eps) as D. set (d := if Qle_bool eps u then u else eps) in *.
  assert (P : (1 <= d)%Q). { unfold d. destruct (Qle_bool eps u) eqn:E; auto. apply Qle_bool_false in E. lra. }
  unfold fdiv. destruct (Qeq_bool (qmax u eps) 0) eqn:E.
  - apply Qeq_bool_iff in E. rewrite D in E. lra.
  - eexists. split; [reflexivity|]. rewrite D. unfold Qdiv. rewrite Qabs_Qmult. rewrite (Qabs_pos (/ d)); [reflexivity|].
    apply Qlt_le_weak, Qinv_lt_0_compat. lra.
Qed.

Lemma inconsistent_compat a b eps pos unl : (a == b)%Q -> (inconsistent a eps pos unl == inconsistent b eps pos unl)%Q.
Proof. intro E. unfold inconsistent. now rewrite E. Qed.

Lemma mean_perm y l l' : Permutation l l' -> (mean_positive y l == mean_positive y l')%Q.
Proof.
  intro P. unfold mean_positive. rewrite <- (Permutation_length P). pose proof (total_perm _ _ (Permutation_map (fun i : Z => inject_Z (Z.of_nat (length (filter (fun v : Q => Qeq_bool v 1) (nth (Z.to_nat i) y []))))) P)) as T.
  unfold total in T. unfold Qdiv. now rewrite T.
Qed.

Lemma average_full y full : (forall i, In i full -> 0 <= i < Z.of_nat (length y)) ->
  average_positive y full = Ok (match full with [] => NaN | _ => Num (mean_positive y full) end).
Proof.
  intro H. unfold average_positive. rewrite (mapM_pure _ (fun i => nth (Z.to_nat i) y [])) by (intros i Hi; apply row_of_ok; auto).
  cbn [bind]. unfold mean_positive, qsum, of_nat, count. rewrite map_map, map_length. destruct full; reflexivity.
Qed.

Lemma nearest_unknown argsort dis w : (forall l, Permutation (argsort l) (range (length l))) ->
  length dis = length w -> (exists j, (j < length w)%nat /\ nth j w 0 <> 0) ->
  exists k, nearest_label argsort dis w = Ok k /\ (k < length w)%nat /\ nth k w 0 <> 0 /\
  ((forall x, In x dis -> x <> NaN) ->
   (forall a b, (a < length w)%nat -> (b < length w)%nat -> nth a w 0 <> 0 -> nth b w 0 = 0 -> fl_lt (nth a dis NaN) (nth b dis NaN) = true) ->
   forall j, (j < length w)%nat -> fl_lt (nth j dis NaN) (nth k dis NaN) = false).
Proof.
  intros HA HL (j & Hj & Nj). destruct (fl_argmin_spec dis) as (k & E & Lk & _ & G); [destruct dis, w; cbn in *; congruence || lia|].
  unfold nearest_label. rewrite E. cbn [bind]. destruct (nth k w 0 =? 0) eqn:K.
  - assert (X : In j (filter (fun j => negb (nth j w 0 =? 0)) (argsort dis))).
    { apply filter_In. split; [|apply negb_true_iff; lia]. apply (Permutation_in _ (Permutation_sym (HA dis))). unfold range. apply in_seq. lia. }
    destruct (filter _ (argsort dis)) as [|a l] eqn:F; [destruct X|]. exists a. split; auto.
    assert (Y : In a (filter (fun j => negb (nth j w 0 =? 0)) (argsort dis))) by (rewrite F; now left). apply filter_In in Y. destruct Y as (Y & Z).
    apply (Permutation_in _ (HA dis)) in Y. unfold range in Y. apply in_seq in Y. split; [lia|]. apply negb_true_iff in Z. split; [lia|].
    intros N S j' Hj'. exfalso. assert (C : fl_lt (nth j dis NaN) (nth k dis NaN) = true) by (apply S; auto; lia).
    rewrite (G N) in C; [discriminate|]. apply nth_In. lia.
  - exists k. split; auto. split; [lia|]. split; [lia|]. intros N _ j' Hj'. apply G; auto. apply nth_In. lia.
Qed.

Lemma combine_nth_ok {A B} (a : list A) (b : list B) k x y : nth_error a k = Some x -> nth_error b k = Some y ->
  nth_error (combine a b) k = Some (x, y).
Proof.
  revert a b. induction k as [|k IH]; intros [|a0 a] [|b0 b]; cbn; try discriminate; intros; try congruence. now apply IH.
Qed.

Lemma removelast_nth {A} (l : list A) k : (k < length l - 1)%nat -> nth_error (removelast l) k = nth_error l k.
Proof.
  revert k. induction l as [|a [|b l] IH]; intros k H; cbn [length] in *; [lia|lia|].
  destruct k; [reflexivity|]. change (removelast (a :: b :: l)) with (a :: removelast (b :: l)). cbn [nth_error].
  apply IH. cbn [length]. lia.
Qed.
Lemma removelast_len {A} (l : list A) : length (removelast l) = (length l - 1)%nat.
Proof. induction l as [|a [|b l] IH]; cbn in *; auto. rewrite IH. lia. Qed.
