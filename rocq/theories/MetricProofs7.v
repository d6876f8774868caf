(** Whole-function lemmas used by the property theorems. *)
From Verif Require Import Base BaseFacts MiscModel MiscSpec MiscProofs MetricModel MetricSpec MetricProofs MetricProofs2 MetricProofs3 MetricProofs4 MetricProofs5 MetricProofs6.
From Coq Require Import QArith Lqa Qfield.
Local Open Scope Z_scope.

Lemma hm_exists_pos p y s : List.length y = List.length s -> how_many (pos_sample p y) (count fst (samples p y s)).
Proof. intro L. rewrite <- (count_perm _ _ _ (desc_perm p y s)). now apply hm_positives. Qed.
Lemma hm_exists_neg p y s : List.length y = List.length s -> how_many (neg_sample p y) (count (fun x => negb (fst x)) (samples p y s)).
Proof. intro L. rewrite <- (count_perm _ _ _ (desc_perm p y s)). now apply hm_negatives. Qed.

(** Positive-negative pairs are ordered one way, the other way, or tied. *)
Lemma pairs_split p y s P N gt eq lt : List.length y = List.length s ->
  how_many (pos_sample p y) P -> how_many (neg_sample p y) N ->
  how_many (fun ij => pos_sample p y (fst ij) /\ neg_sample p y (snd ij) /\ above s (fst ij) (snd ij)) gt ->
  how_many (fun ij => pos_sample p y (fst ij) /\ neg_sample p y (snd ij) /\ level s (fst ij) (snd ij)) eq ->
  how_many (fun ij => pos_sample p y (fst ij) /\ neg_sample p y (snd ij) /\ above s (snd ij) (fst ij)) lt ->
  (gt + eq + lt = P * N)%nat.
Proof.
  intros L HP HN (lg & NG & <- & HG) (le & NE & <- & HE) (ll & NL & <- & HL).
  rewrite <- Nat.add_assoc, <- !app_length.
  apply (hm_unique (fun ij => pos_sample p y (fst ij) /\ neg_sample p y (snd ij))); [|now apply hm_prod].
  exists (lg ++ le ++ ll). split; [|split; [reflexivity|]].
  - apply NoDup_app_intro; [auto|apply NoDup_app_intro; auto|].
    + intros x J K. apply HE in J. apply HL in K. destruct J as (_ & _ & a & b & A & B & C), K as (_ & _ & a' & b' & A' & B' & C').
      rewrite A in B'. rewrite B in A'. injection A' as <-. injection B' as <-. lra.
    + intros x J K. apply HG in J. destruct J as (_ & _ & a & b & A & B & C). apply in_app_iff in K. destruct K as [K|K].
      * apply HE in K. destruct K as (_ & _ & a' & b' & A' & B' & C'). rewrite A in A'. rewrite B in B'. injection A' as <-. injection B' as <-. lra.
      * apply HL in K. destruct K as (_ & _ & a' & b' & A' & B' & C'). rewrite A in B'. rewrite B in A'. injection A' as <-. injection B' as <-. lra.
  - intros x. rewrite !in_app_iff, HG, HE, HL. split; [tauto|]. intros [HX HY].
    assert (X1 : exists a, nth_error s (fst x) = Some a) by (unfold pos_sample in HX; now apply (nth_some y s _ p)).
    assert (X2 : exists b, nth_error s (snd x) = Some b) by (destruct HY as (v & HY & _); now apply (nth_some y s _ v)).
    destruct X1 as [a A], X2 as [b B]. unfold above, level. destruct (Q_dec a b) as [[C|C]|C].
    + right. right. repeat split; auto. eauto 8.
    + left. repeat split; auto. eauto 8.
    + right. left. repeat split; auto. eauto 8.
Qed.
Lemma hm_lt p y s : how_many (fun ij => pos_sample p y (fst ij) /\ neg_sample p y (snd ij) /\ above s (snd ij) (fst ij))
  (count (fun ab => fst (fst ab) && negb (fst (snd ab)) && negb (Qle_bool (snd (snd ab)) (snd (fst ab))))%bool (list_prod (samples p y s) (samples p y s))).
Proof.
  eapply hm_ext; [|apply (hm_count_prod (fun a b => fst a && negb (fst b) && negb (Qle_bool (snd b) (snd a)))%bool)]. intros [i j]. cbn [fst snd]. unfold above. split.
  - intros ([a u] & [b v] & J & K & F). cbn in F. rewrite !andb_true_iff, !negb_true_iff in F.
    destruct F as [[-> ->] F]. apply Qle_bool_false in F. apply samples_nth in J, K. destruct J, K. repeat split; auto. eauto 6.
  - intros (P & N & u & v & J & K & F). exists (true, v), (false, u). rewrite !samples_nth. repeat split; auto.
    cbn. apply negb_true_iff. now apply Qle_bool_false_iff.
Qed.

(** The value of the area in terms of the samples. *)
Lemma auc_samples y s g p : List.length y = List.length s -> pos_in_force y g p ->
  (exists i, pos_sample p y i) -> (exists i, neg_sample p y i) ->
  let L := samples p y s in
  exists q, roc_auc_score true y s g = Ok q /\
    (q == ratio (cross L L) (2 * (count fst L * count (fun x => negb (fst x)) L)))%Q.
Proof.
  intros LN PF [i HI] [j HJ] L. pose proof (hm_exists_pos p y s LN) as HP. pose proof (hm_exists_neg p y s LN) as HN. fold L in HP, HN.
  assert (P0 : (0 < count fst L)%nat) by (destruct (count fst L); [exfalso; eapply hm_zero_inv; eauto|lia]).
  assert (N0 : (0 < count (fun x => negb (fst x)) L)%nat) by (destruct (count (fun x => negb (fst x)) L); [exfalso; eapply hm_zero_inv; eauto|lia]).
  destruct (auc_pairs y s g p _ _ _ _ LN PF HP HN P0 N0 (hm_gt p y s) (hm_eq p y s)) as (q & E & V).
  exists q. split; auto. rewrite V, cross_counts. reflexivity.
Qed.

(** ** Class-wise AUC and average precision *)
Lemma guard_true b e : b = true -> guard b e = Ok tt. Proof. intros ->. reflexivity. Qed.

Lemma zcol_length a n m j : matrix a n m -> List.length (zcol a j) = n.
Proof. intros [<- _]. apply map_length. Qed.
Lemma qcol_length a n m j : matrix a n m -> List.length (qcol a j) = n.
Proof. intros [<- _]. apply map_length. Qed.

Lemma type_two_valued a n m : matrix a n m -> (0 < n)%nat -> two_valued a ->
  exists ty, type_of_target (T2 a) = Ok ty /\ ty <> Multiclass.
Proof.
  intros M N T. apply two_valued_rows in T. unfold type_of_target. cbn [ravel]. apply Nat.leb_le in T. rewrite T.
  destruct a as [|r a]; [destruct M as [M _]; cbn in M; lia|]. destruct (Nat.ltb 1 (List.length r)); eexists; split; eauto; discriminate.
Qed.

Lemma mapM_res {A B} (f : A -> res B) l : (exists vs, mapM f l = Ok vs /\ Forall2 (fun a v => f a = Ok v) l vs) \/
  (exists a e, In a l /\ f a = Err e /\ mapM f l = Err e).
Proof.
  induction l as [|x l IH]; [left; exists []; split; [reflexivity|constructor]|]. cbn [mapM].
  destruct (f x) as [v|e] eqn:E; cbn [bind].
  - destruct IH as [(vs & M & F)|(a & e & J & X & M)]; rewrite M; cbn [bind].
    + left. exists (v :: vs). split; auto.
    + right. exists a, e. repeat split; auto. now right.
  - right. exists x, e. repeat split; auto. now left.
Qed.

Lemma micro_unfold a s n m w : matrix a n m -> matrix s n m -> (0 < n)%nat -> (0 < m)%nat -> two_valued a -> weights_fit w n ->
  micro_auc_score (T2 a) s w =
  (aucs <- mapM (fun j => class_auc (zcol a j) (qcol s j)) (seq 0 m) ;; Ok (qsum aucs / qn m)%Q).
Proof.
  intros MA MS N M T W. unfold micro_auc_score. cbn [num_samples]. rewrite (proj1 MA), (proj1 MS).
  rewrite (guard_true (same_length n n w)) by now apply same_length_ok. cbn [bind].
  rewrite (guard_true _ _ (shape_ok a s n m MA MS N)). cbn [bind]. destruct (type_two_valued a n m MA N T) as (ty & -> & NT). cbn [bind].
  unfold shape. cbn [snd]. rewrite (hd_length s n m MS N). destruct (Nat.eqb_spec m 0); [lia|]. cbn [negb guard].
  destruct ty; [| congruence |]; (destruct (mapM _ _); reflexivity).
Qed.

Lemma zsum_01 y : (forall j v, nth_error y j = Some v -> v = 0 \/ v = 1) ->
  zsum y = Z.of_nat (count (fun v => negb (v =? 0)) y).
Proof.
  induction y as [|v y IH]; intro H; [reflexivity|]. cbn [zsum fold_right]. fold (zsum y). rewrite IH by (intros j u J; apply (H (S j)); exact J).
  rewrite count_cons. destruct (H O v eq_refl) as [-> | ->]; [change (negb (0 =? 0)) with false|change (negb (1 =? 0)) with true]; cbv iota; lia.
Qed.
Lemma kept_iff y (s : list Q) m : List.length y = m -> List.length s = m -> (forall j v, nth_error y j = Some v -> v = 0 \/ v = 1) ->
  (negb (zsum y =? Z.of_nat m) && negb (zsum y =? 0))%bool = true <-> ~ trivial y.
Proof.
  intros L1 L2 H. rewrite (zsum_01 y H). rewrite (trivial_iff y s) by congruence.
  assert (E : List.length (relevant y s) = count (fun v => negb (v =? 0)) y).
  { rewrite <- count_true, relevant_count. rewrite <- (map_fst_combine y s) at 2 by congruence. rewrite count_map. apply count_ext_in. intros x _. now rewrite andb_true_r. }
  rewrite E, L2. rewrite andb_true_iff, !negb_true_iff, !Z.eqb_neq. lia.
Qed.

Lemma fadd_sum l q : fold_left fadd (map Num l) (Num q) = Num (fold_left Qplus l q).
Proof. revert q. induction l as [|x l IH]; intro q; [reflexivity|]. cbn. apply IH. Qed.
Lemma fold_left_total l q : (fold_left Qplus l q == q + total l)%Q.
Proof. revert q. induction l as [|x l IH]; intro q; [cbn; lra|]. cbn [fold_left]. rewrite IH. change (total (x :: l)) with (x + total l)%Q. lra. Qed.

Lemma ap_sum rows m : (forall y s, In (y, s) rows -> List.length y = m /\ List.length s = m /\ (forall j v, nth_error y j = Some v -> v = 0 \/ v = 1)) ->
  exists vs us, Forall2 tied_precision rows vs /\
    map (fun p => ap_row (fst p) (snd p)) (filter (fun p => negb (zsum (fst p) =? Z.of_nat m) && negb (zsum (fst p) =? 0))%bool rows) = map Num us /\
    (total us == total vs)%Q.
Proof.
  induction rows as [|[y s] rows IH]; intro H; [exists [], []; split; [constructor|split; reflexivity]|].
  destruct IH as (vs & us & F & E & T); [intros; apply H; now right|]. destruct (H y s (or_introl eq_refl)) as (L1 & L2 & ZO).
  pose proof (kept_iff y s m L1 L2 ZO) as K. cbn [filter fst snd]. destruct (_ && _)%bool.
  - destruct (ap_row_ok y s m L1 L2 ZO) as (v & V & P); [now apply K|]. exists (v :: vs), (v :: us). split; [constructor; auto|]. cbn [map fst snd]. rewrite V, E.
    split; [reflexivity|]. change (total (v :: us)) with (v + total us)%Q. change (total (v :: vs)) with (v + total vs)%Q. rewrite T. reflexivity.
  - exists (0%Q :: vs), us. split; [|split; [exact E|]].
    + constructor; auto. destruct (trivial_dec y) as [D|D]; [split; [reflexivity|contradiction]|]. apply K in D. discriminate.
    + change (total (0%Q :: vs)) with (0 + total vs)%Q. rewrite T. lra.
Qed.

Lemma ap_ok a s n m w : matrix a n m -> matrix s n m -> (0 < n)%nat -> zero_one a -> weights_fit w n ->
  exists q, average_precision_score (T2 a) s w = Ok (Num q) /\ averages tied_precision (combine a s) None q.
Proof.
  intros MA MS N ZO W. unfold average_precision_score. cbn [num_samples]. rewrite (proj1 MA), (proj1 MS).
  rewrite (guard_true (same_length n n w)) by now apply same_length_ok. cbn [bind].
  rewrite (guard_true _ _ (shape_ok a s n m MA MS N)). cbn [bind].
  assert (T : two_valued a) by (exists 0, 1; exact ZO). destruct (type_two_valued a n m MA N T) as (ty & -> & NT). cbn [bind].
  unfold shape. cbn [snd]. rewrite (hd_length s n m MS N).
  destruct (ap_sum (combine a s) m) as (vs & us & F & E & TT).
  { intros y t J. destruct (rows_in a s n m y t MA MS J) as [L1 L2]. repeat split; auto. intros j v V.
    apply In_nth_error in J. destruct J as [i J]. apply combine_nth_both in J. destruct J as [J _]. apply (ZO i j v). exists y. auto. }
  assert (G : match fold_left fadd (map (fun p => ap_row (fst p) (snd p)) (filter (fun p => negb (zsum (fst p) =? Z.of_nat m) && negb (zsum (fst p) =? 0))%bool (combine a s))) (Num 0)
              with Num q => Ok (fdiv q (qn n)) | f => Ok f end = Ok (Num (fold_left Qplus us 0 / nat_q n)%Q)).
  { rewrite E, fadd_sum, fdiv_num; [reflexivity|]. unfold qn. fold (nat_q n). rewrite nat_q_0. lia. }
  exists (fold_left Qplus us 0 / nat_q n)%Q. split.
  - destruct ty; [exact G|congruence|exact G].
  - exists vs. split; auto. unfold mean. rewrite fold_left_total, TT, Qplus_0_l. apply Forall2_len in F. rewrite <- F, combine_length, (proj1 MA), (proj1 MS), Nat.min_id.
    reflexivity.
Qed.
