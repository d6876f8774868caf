(** Metrics when the labels (the columns) come in another order: proofs. *)
From Verif Require Import Base BaseFacts MiscProofs MiscModel MiscSpec MetricModel MetricSpec MetricProofs MetricProofs2 MetricProofs3 MetricProofs4 MetricProofs5 MetricProofs6 MetricProofs7 OrderSpec OrderProofs.
From Coq Require Import QArith Permutation Lqa.
Local Open Scope Z_scope.

Section Row.
  Context (y y' : list Z) (s s' : list Q) (P : Permutation (combine y s) (combine y' s')) (L : List.length y = List.length s) (L' : List.length y' = List.length s').
  Lemma row_relevant : Permutation (relevant y s) (relevant y' s'). Proof. unfold relevant. now apply Permutation_map, filter_perm. Qed.
  Lemma row_irrelevant : Permutation (irrelevant y s) (irrelevant y' s'). Proof. unfold irrelevant. now apply Permutation_map, filter_perm. Qed.
  Lemma row_scores : Permutation s s'. Proof. rewrite <- (combine_snd y s L), <- (combine_snd y' s' L'). now apply Permutation_map. Qed.

  Lemma count_le_same m m' l l' : (m == m')%Q -> Permutation l l' -> count (fun x => Qle_bool m x) l = count (fun x => Qle_bool m' x) l'.
  Proof.
    intros E R. rewrite (count_perm _ _ _ R). apply count_ext_in. intros x _. apply eq_true_iff_eq. rewrite !Qle_bool_iff. now rewrite E.
  Qed.
  Lemma row_coverage : coverage_row y s = coverage_row y' s'.
  Proof.
    unfold coverage_row. pose proof row_relevant as R. destruct (relevant y s) as [|q l] eqn:E1, (relevant y' s') as [|q' l'] eqn:E2; auto.
    - apply Permutation_nil in R. discriminate.
    - apply Permutation_sym, Permutation_nil in R. discriminate.
    - cbn zeta. apply count_le_same; [|apply row_scores].
      assert (ML : forall z r z' r', Permutation (z :: r) (z' :: r') -> (fold_left qmin r z <= fold_left qmin r' z')%Q).
      { intros z r z' r' R'. destruct (fold_min r' z') as [J _]. destruct (fold_min r z) as [_ B].
        apply B. exact (Permutation_in _ (Permutation_sym R') J). }
      apply Qle_antisym; apply ML; auto using Permutation_sym.
  Qed.
  Lemma ranking_eq m (r : list Z) (q : list Q) : List.length r = List.length q ->
    ranking_row m r q = (if (Nat.eqb (List.length (relevant r q)) 0 || Nat.eqb (List.length (relevant r q)) m)%bool then 0%Q
      else (qn (list_sum (map (fun b => 0 + count (fun a => Qle_bool a b) (relevant r q))%nat (irrelevant r q))) / qn ((m - List.length (relevant r q)) * List.length (relevant r q)))%Q).
  Proof.
    intro LL. unfold ranking_row.
    assert (FA : map (fun p => fst p - snd p)%nat (combine (bincount (unique_scores q) q) (bincount (unique_scores q) (relevant r q))) = bincount (unique_scores q) (irrelevant r q)).
    { unfold bincount. rewrite combine_map_same, map_map. apply map_ext. intro z. cbn. rewrite (both_count (Qeq_bool z) r q LL). lia. }
    cbn zeta. rewrite FA, dot_cumsum; [reflexivity|apply unique_sorted| |].
    - intros x J. apply unique_has. apply in_relevant in J. destruct J as (j & _ & J). now apply nth_error_In in J.
    - intros x J. apply unique_has. unfold irrelevant in J. apply in_map_iff in J. destruct J as ([u v] & <- & J). apply filter_In in J. destruct J as [J _].
      now apply in_combine_r in J.
  Qed.
  Lemma row_ranking m : ranking_row m y s = ranking_row m y' s'.
  Proof.
    rewrite !ranking_eq by auto. rewrite (Permutation_length row_relevant). destruct (orb _ _); [reflexivity|]. do 2 f_equal.
    rewrite (list_sum_perm _ _ (Permutation_map _ row_irrelevant)). f_equal. apply map_ext. intro b. cbn. apply count_perm, row_relevant.
  Qed.
  Lemma row_lrap m : match lrap_row m y s, lrap_row m y' s' with Some p, Some q => (p == q)%Q | None, None => True | _, _ => False end.
  Proof.
    unfold lrap_row. cbn zeta. rewrite (Permutation_length row_relevant). destruct (orb _ _); [exact I|].
    unfold qmean, qlen. rewrite !map_length, (Permutation_length row_relevant).
    assert (E : (qsum (map (fun x => qn (rank_max (relevant y s) x) / qn (rank_max s x)) (relevant y s)) ==
                 qsum (map (fun x => qn (rank_max (relevant y' s') x) / qn (rank_max s' x)) (relevant y' s')))%Q).
    { rewrite (qsum_perm _ _ (Permutation_map _ row_relevant)).
      rewrite (map_ext _ (fun x => qn (rank_max (relevant y' s') x) / qn (rank_max s' x))%Q); [reflexivity|]. intro x. unfold rank_max.
      now rewrite (count_perm _ _ _ row_relevant), (count_perm _ _ _ row_scores). }
    now rewrite E.
  Qed.
End Row.

Section Columns.
  Context (js : list nat) (n m : nat) (JP : Permutation js (seq 0 m)).
  Lemma js_len : List.length js = m. Proof. rewrite (Permutation_length JP). apply seq_length. Qed.
  Lemma col_matrix {A} (a a' : list (list A)) : columns_as js a a' -> matrix a n m -> matrix a' n m.
  Proof.
    intros C [LA F]. split.
    - rewrite <- LA. symmetry. clear -C. induction C; cbn; auto.
    - clear LA. induction C as [|r r' a a' [L _] C IH]; constructor; [rewrite L; apply js_len|]. apply IH. now inversion F.
  Qed.
  Lemma col_flat {A} (a a' : list (list A)) : columns_as js a a' -> matrix a n m -> Permutation (List.concat a) (List.concat a').
  Proof.
    intros C [_ F]. induction C as [|r r' a a' [L H] C IH]; [constructor|]. cbn. inversion F; subst. apply Permutation_app; auto.
    apply (col_row js); auto.
  Qed.
  Lemma col_pairs {A B} (a a' : list (list A)) (b b' : list (list B)) : columns_as js a a' -> columns_as js b b' -> matrix a n m -> matrix b n m ->
    Forall2 (fun p p' => Permutation (combine (fst p) (snd p)) (combine (fst p') (snd p')) /\ List.length (fst p) = m /\ List.length (snd p) = m /\ List.length (fst p') = m /\ List.length (snd p') = m)
      (combine a b) (combine a' b').
  Proof.
    intros C D [_ FA] [_ FB]. revert b b' D FB. induction C as [|r r' a a' [L H] C IH]; intros b b' D FB; [constructor|].
    destruct D as [|q q' b b' [L2 H2] D]; [constructor|]. cbn. pose proof js_len as JL.
    pose proof (Forall_inv FA) as A1. pose proof (Forall_inv FB) as B1. cbn in A1, B1.
    constructor; [|apply IH; auto; [exact (Forall_inv_tail FA)|exact (Forall_inv_tail FB)]]. cbn.
    repeat split; try congruence. apply (col_rows js); auto; [congruence|rewrite A1; exact JP].
  Qed.
  Lemma col_type a a' : columns_as js a a' -> matrix a n m -> type_of_target (T2 a) = type_of_target (T2 a').
  Proof.
    intros C M. pose proof (col_matrix _ _ C M) as M'. unfold type_of_target. cbn [ravel]. rewrite (unique_perm _ _ (col_flat _ _ C M)).
    destruct (Nat.leb _ _); auto. pose proof (matrix_hd2 _ _ _ _ M M') as H. destruct C; auto. cbn in H. now rewrite H.
  Qed.
  Lemma col_shape {A B} (a a' : list (list A)) (b b' : list (list B)) : matrix a n m -> matrix a' n m -> matrix b n m -> matrix b' n m ->
    shape_eqb (shape a) (shape b) = shape_eqb (shape a') (shape b').
  Proof.
    intros M M' K K'. unfold shape. now rewrite (matrix_hd2 _ _ _ _ M M'), (matrix_hd2 _ _ _ _ K K'), (proj1 M), (proj1 M'), (proj1 K), (proj1 K').
  Qed.
  Lemma same_rows {A B C} (g : A -> C) (h : B -> C) (R : A -> B -> Prop) l l' : (forall x y, R x y -> g x = h y) -> Forall2 R l l' -> map g l = map h l'.
  Proof. intros E F. induction F; cbn; auto. now rewrite (E _ _ H), IHF. Qed.

  Context (a a' : list (list Z)) (CA : columns_as js a a') (MA : matrix a n m).

  Lemma col_check b b' : columns_as js b b' -> matrix b n m ->
    match check_targets (T2 a) (T2 b), check_targets (T2 a') (T2 b') with
    | Ok (ty, u, v), Ok (ty', u', v') => ty = ty' /\ ((ty = Multilabel /\ (u, v) = (T2 a, T2 b) /\ (u', v') = (T2 a', T2 b')) \/
        (ty <> Multilabel /\ (u, v) = (T1 (List.concat a), T1 (List.concat b)) /\ (u', v') = (T1 (List.concat a'), T1 (List.concat b'))))
    | Err e, Err e' => e = e'
    | _, _ => False
    end.
  Proof.
    intros CB MB. pose proof (col_matrix _ _ CA MA) as MA'. pose proof (col_matrix _ _ CB MB) as MB'.
    apply (check_perm (T2 a) (T2 a') (T2 b) (T2 b')); cbn; auto using col_type, col_flat.
    - rewrite (proj1 MA). symmetry. apply MA'.
    - rewrite (proj1 MB). symmetry. apply MB'.
  Qed.
  Lemma col_flat_pairs (b b' : list (list Z)) : columns_as js b b' -> matrix b n m ->
    Permutation (combine (List.concat a) (List.concat b)) (combine (List.concat a') (List.concat b')).
  Proof.
    intros CB MB. pose proof (col_matrix _ _ CA MA) as MA'. pose proof (col_matrix _ _ CB MB) as MB'.
    rewrite (concat_combine a b m), (concat_combine a' b' m); try apply MA; try apply MB; try apply MA'; try apply MB';
      try (rewrite ?(proj1 MA), ?(proj1 MB), ?(proj1 MA'), ?(proj1 MB'); reflexivity).
    pose proof (col_pairs _ _ _ _ CA CB MA MB) as F. induction F as [|p p' l l' (H & _) F IH]; [constructor|]. cbn. now apply Permutation_app.
  Qed.
  Lemma col_row_eqb (r r' q q' : list Z) : Permutation (combine r q) (combine r' q') -> List.length r = List.length q -> List.length r' = List.length q' -> row_eqb r q = row_eqb r' q'.
  Proof.
    intros P L L'. assert (E : forall u v, List.length u = List.length v -> (row_eqb u v = true <-> forall x y, In (x, y) (combine u v) -> x = y)).
    { clear. intros u v L. rewrite row_eqb_eq. revert v L. induction u as [|x u IH]; intros [|y v] L; try discriminate; cbn.
      - split; [intros _ ? ? []|auto].
      - injection L as L. specialize (IH v L). split.
        + intro H. injection H as -> ->. intros p q [E|J]; [congruence|]. apply (proj1 IH eq_refl p q J).
        + intro H. f_equal; [apply H; auto|]. apply IH. intros p q J. apply H. auto. }
    apply eq_true_iff_eq. rewrite !E by auto. split; intros H x y J; apply H; [exact (Permutation_in _ (Permutation_sym P) J)|exact (Permutation_in _ P J)].
  Qed.
  Lemma col_accuracy b b' : columns_as js b b' -> matrix b n m -> same_answer (accuracy_score (T2 a) (T2 b) None) (accuracy_score (T2 a') (T2 b') None).
  Proof.
    intros CB MB. pose proof (col_matrix _ _ CA MA) as MA'. pose proof (col_matrix _ _ CB MB) as MB'. pose proof (col_check b b' CB MB) as C.
    unfold accuracy_score. destruct (check_targets (T2 a) _) as [[[ty u] v]|e], (check_targets (T2 a') _) as [[[ty' u'] v']|e']; cbn [bind]; try tauto.
    destruct C as (-> & [(-> & E & E')|(N & E & E')]); injection E as -> ->; injection E' as -> ->; cbn [num_samples ravel].
    - rewrite (proj1 MA), (proj1 MB), (proj1 MA'), (proj1 MB'). destruct (guard (same_length n n None) ValueErr); cbn [bind]; try reflexivity.
      rewrite <- (matrix_hd2 _ _ _ _ MA MA'), <- (matrix_hd2 _ _ _ _ MB MB'). destruct (guard _ _); cbn [bind]; try reflexivity. apply answer_eq. f_equal.
      eapply same_rows; [|exact (col_pairs _ _ _ _ CA CB MA MB)]. intros p q (H & L1 & L2 & L3 & L4). f_equal. apply col_row_eqb; auto; congruence.
    - rewrite (concat_length_matrix _ _ _ MA), (concat_length_matrix _ _ _ MB), (concat_length_matrix _ _ _ MA'), (concat_length_matrix _ _ _ MB').
      destruct (guard _ _); cbn [bind]; try reflexivity. pose proof (col_flat_pairs b b' CB MB) as P.
      assert (G : same_answer (average (map (fun p => b2q (fst p =? snd p)) (combine (List.concat a) (List.concat b))) None) (average (map (fun p => b2q (fst p =? snd p)) (combine (List.concat a') (List.concat b'))) None)).
      { cbn. apply fdiv_same; [now apply qsum_perm, Permutation_map|]. unfold qlen. now rewrite !map_length, (Permutation_length P). }
      destruct ty'; try congruence; exact G.
  Qed.
  Lemma col_hamming b b' : columns_as js b b' -> matrix b n m -> hamming_loss (T2 a) (T2 b) = hamming_loss (T2 a') (T2 b').
  Proof.
    intros CB MB. pose proof (col_matrix _ _ CA MA) as MA'. pose proof (col_matrix _ _ CB MB) as MB'. pose proof (col_check b b' CB MB) as C.
    unfold hamming_loss. destruct (check_targets (T2 a) _) as [[[ty u] v]|e], (check_targets (T2 a') _) as [[[ty' u'] v']|e']; cbn [bind]; try tauto; [|congruence].
    destruct C as (-> & _). cbn [n_diff num_samples]. rewrite <- (matrix_hd2 _ _ _ _ MA MA'), <- (matrix_hd2 _ _ _ _ MB MB').
    destruct (Nat.eqb _ _); [|reflexivity]. cbn [bind]. unfold n_diff_list. rewrite (count_perm _ _ _ (col_flat_pairs b b' CB MB)), (proj1 MA), (proj1 MA'). reflexivity.
  Qed.

  Context (s s' : list (list Q)) (CS : columns_as js s s') (MS : matrix s n m).
  Lemma col_coverage w : coverage_error (T2 a) s w = coverage_error (T2 a') s' w.
  Proof.
    pose proof (col_matrix _ _ CA MA) as MA'. pose proof (col_matrix _ _ CS MS) as MS'. unfold coverage_error. cbn [num_samples].
    rewrite (proj1 MA), (proj1 MS), (proj1 MA'), (proj1 MS'). destruct (guard _ _) as [[]|]; cbn [bind]; auto. rewrite <- (col_type _ _ CA MA).
    destruct (type_of_target (T2 a)) as [[]|]; cbn [bind]; auto. rewrite <- (col_shape a a' s s' MA MA' MS MS'). destruct (guard _ _) as [[]|]; cbn [bind]; auto. f_equal.
    eapply same_rows; [|exact (col_pairs _ _ _ _ CA CS MA MS)]. intros p q (H & L1 & L2 & L3 & L4). f_equal. apply row_coverage; auto; congruence.
  Qed.
  Lemma col_ranking w : label_ranking_loss (T2 a) s w = label_ranking_loss (T2 a') s' w.
  Proof.
    pose proof (col_matrix _ _ CA MA) as MA'. pose proof (col_matrix _ _ CS MS) as MS'. unfold label_ranking_loss. cbn [num_samples].
    rewrite (proj1 MA), (proj1 MS), (proj1 MA'), (proj1 MS'). destruct (guard _ _) as [[]|]; cbn [bind]; auto. rewrite <- (col_type _ _ CA MA).
    destruct (type_of_target (T2 a)) as [[]|]; cbn [bind]; auto. rewrite <- (col_shape a a' s s' MA MA' MS MS'). destruct (guard _ _) as [[]|]; cbn [bind]; auto. f_equal.
    rewrite <- (matrix_hd2 _ _ _ _ MA MA').
    eapply same_rows; [|exact (col_pairs _ _ _ _ CA CS MA MS)]. intros p q (H & L1 & L2 & L3 & L4). apply row_ranking; auto; congruence.
  Qed.
  Lemma col_lrap w : same_answer (lrap_score (T2 a) s w) (lrap_score (T2 a') s' w).
  Proof.
    pose proof (col_matrix _ _ CA MA) as MA'. pose proof (col_matrix _ _ CS MS) as MS'. unfold lrap_score. cbn [num_samples].
    rewrite (proj1 MA), (proj1 MS), (proj1 MA'), (proj1 MS'). destruct (guard _ _) as [[]|]; cbn [bind]; try reflexivity.
    rewrite <- (col_shape a a' s s' MA MA' MS MS'). destruct (guard _ _) as [[]|]; cbn [bind]; try reflexivity. rewrite <- (col_type _ _ CA MA).
    rewrite <- (matrix_hd2 _ _ _ _ MA MA'). set (g := fun p : list Z * list Q => lrap_row (List.length (hd [] a)) (fst p) (snd p)).
    assert (F : Forall2 (fun o o' => match o, o' with Some p, Some q => (p == q)%Q | None, None => True | _, _ => False end) (map g (combine a s)) (map g (combine a' s'))).
    { pose proof (col_pairs _ _ _ _ CA CS MA MS) as F. induction F as [|p q l l' (H & L1 & L2 & L3 & L4) F IH]; cbn; constructor; auto. apply row_lrap; auto; congruence. }
    assert (S1 : (qsum (map (fun o => match o with Some x => x | None => 1%Q end) (map g (combine a s))) == qsum (map (fun o => match o with Some x => x | None => 1%Q end) (map g (combine a' s'))))%Q).
    { unfold qsum. induction F as [|o o' l l' H F IH]; cbn; [reflexivity|]. destruct o, o'; try tauto; rewrite IH; try rewrite H; reflexivity. }
    assert (S2 : forall v, (qsum (map (fun p => match fst p with Some x => x * snd p | None => 1 end)%Q (combine (map g (combine a s)) v)) == qsum (map (fun p => match fst p with Some x => x * snd p | None => 1 end)%Q (combine (map g (combine a' s')) v)))%Q).
    { clear S1. unfold qsum. induction F as [|o o' l l' H F IH]; intros [|z v]; cbn; try reflexivity. destruct o, o'; try tauto; rewrite IH; try rewrite H; reflexivity. }
    destruct (type_of_target (T2 a)) as [[]|]; cbn [bind]; try reflexivity; destruct w as [v|]; cbn; apply fdiv_same; auto; reflexivity.
  Qed.
End Columns.

(** ** One error and the area under the curve *)
Lemma zsum_perm l l' : Permutation l l' -> zsum l = zsum l'.
Proof. unfold zsum. induction 1; cbn; lia. Qed.
Lemma row_diff_eq r p : List.length r = List.length p -> row_diff r p = zsum (map (fun q => fst q - snd q) (combine r p)).
Proof. intro L. destruct p as [|x [|y p]]; try reflexivity. destruct r as [|u [|]]; try discriminate. reflexivity. Qed.
Lemma mapM_perm {A B} (f : A -> res B) e l l' : Permutation l l' -> (forall x e', f x = Err e' -> e' = e) ->
  match mapM f l, mapM f l' with
  | Ok u, Ok v => Permutation u v
  | Err a, Err b => a = e /\ b = e
  | _, _ => False
  end.
Proof.
  intros P H.
  assert (ME : forall l, match mapM f l with Ok _ => True | Err a => a = e end).
  { clear -H. induction l as [|x l IH]; cbn; auto. destruct (f x) eqn:E; cbn; eauto. destruct (mapM f l); cbn; auto. }
  induction P as [|x l l' P IH|x y l|l1 l2 l3 P1 IH1 P2 IH2].
  - cbn. constructor.
  - cbn. destruct (f x) eqn:E; cbn; [|split; eauto]. destruct (mapM f l), (mapM f l'); cbn; auto.
  - cbn. pose proof (ME l) as M. destruct (f x) eqn:E, (f y) eqn:E'; cbn; try (split; eauto).
    destruct (mapM f l); cbn; auto. constructor.
  - destruct (mapM f l1), (mapM f l2), (mapM f l3); try tauto. eauto using Permutation_trans.
Qed.

Section Columns2.
  Context (js : list nat) (n m : nat) (JP : Permutation js (seq 0 m)) (a a' : list (list Z)) (CA : columns_as js a a') (MA : matrix a n m).
  Lemma col_one_error p p' w : columns_as js p p' -> matrix p n m -> one_error (T2 a) p w = one_error (T2 a') p' w.
  Proof.
    intros CP MP. pose proof (col_matrix _ _ _ JP _ _ CA MA) as MA'. pose proof (col_matrix _ _ _ JP _ _ CP MP) as MP'. unfold one_error. cbn [num_samples].
    rewrite (proj1 MA), (proj1 MP), (proj1 MA'), (proj1 MP'). destruct (guard _ _) as [[]|]; cbn [bind]; auto. rewrite <- (col_type _ _ _ JP _ _ CA MA).
    destruct (type_of_target (T2 a)) as [[]|]; cbn [bind]; auto. rewrite <- (col_shape _ _ a a' p p' MA MA' MP MP'), <- (matrix_hd2 _ _ _ _ MP MP').
    destruct (guard _ _) as [[]|]; cbn [bind]; auto.
    assert (E : count (fun q => row_diff (fst q) (snd q) =? 0) (combine a p) = count (fun q => row_diff (fst q) (snd q) =? 0) (combine a' p')); [|now rewrite E].
    unfold count. pose proof (col_pairs _ _ _ JP _ _ _ _ CA CP MA MP) as F. induction F as [|q q' l l' (H & L1 & L2 & L3 & L4) F IH]; [reflexivity|]. cbn [filter].
    rewrite (row_diff_eq (fst q) (snd q)), (row_diff_eq (fst q') (snd q')) by congruence. rewrite (zsum_perm _ _ (Permutation_map _ H)).
    destruct (_ =? 0); cbn; auto.
  Qed.
  Lemma col_at {A} (d : A) (r : list (list A)) r' k j : columns_as js r r' -> nth_error js k = Some j -> map (fun x => nth k x d) r' = map (fun x => nth j x d) r.
  Proof.
    intros C J. induction C as [|x x' r r' [L H] C IH]; [reflexivity|]. cbn. f_equal; auto. specialize (H k j J).
    destruct (nth_error x j) as [v|] eqn:E.
    - rewrite (nth_error_nth _ _ d H). symmetry. now apply nth_error_nth.
    - apply nth_error_None in E, H. now rewrite !nth_overflow.
  Qed.
  Lemma mapM_nth {B} (g h : nat -> res B) : (forall k j, nth_error js k = Some j -> g k = h j) -> mapM g (seq 0 m) = mapM h js.
  Proof.
    intro E. rewrite <- (js_len js m JP). clear -E. revert g h E.
    assert (G : forall l o (g h : nat -> res B), (forall k j, nth_error l k = Some j -> g (o + k)%nat = h j) -> mapM g (seq o (List.length l)) = mapM h l).
    { induction l as [|j l IH]; intros o g h E; [reflexivity|]. cbn. rewrite <- (E 0%nat j eq_refl), Nat.add_0_r. rewrite (IH (S o) g h); [reflexivity|].
      intros k i K. rewrite Nat.add_succ_comm. now apply E. }
    intros g h E. apply (G js 0%nat). exact E.
  Qed.
  Lemma col_micro s s' w : columns_as js s s' -> matrix s n m -> same_value (micro_auc_score (T2 a) s w) (micro_auc_score (T2 a') s' w).
  Proof.
    intros CS MS. pose proof (col_matrix _ _ _ JP _ _ CA MA) as MA'. pose proof (col_matrix _ _ _ JP _ _ CS MS) as MS'. unfold micro_auc_score. cbn [num_samples].
    rewrite (proj1 MA), (proj1 MS), (proj1 MA'), (proj1 MS'). destruct (guard _ _) as [[]|]; cbn [bind]; try reflexivity.
    rewrite <- (col_shape _ _ a a' s s' MA MA' MS MS'). destruct (guard _ _) as [[]|]; cbn [bind]; try reflexivity. rewrite <- (col_type _ _ _ JP _ _ CA MA).
    unfold shape. cbn [snd]. rewrite <- (matrix_hd2 _ _ _ _ MS MS').
    destruct n as [|n0] eqn:EN.
    { destruct CS as [|x x' s s' ? ?]; [|destruct MS; discriminate]. cbn. destruct (type_of_target (T2 a)) as [[]|]; reflexivity. }
    rewrite (hd_length s (S n0) m MS) by lia.
    assert (E : mapM (fun j => class_auc (zcol a' j) (qcol s' j)) (seq 0 m) = mapM (fun j => class_auc (zcol a j) (qcol s j)) js).
    { apply mapM_nth. intros k j J. unfold zcol, qcol. now rewrite (col_at 0 a a' k j CA J), (col_at 0%Q s s' k j CS J). }
    rewrite E.
    pose proof (mapM_perm (fun j => class_auc (zcol a j) (qcol s j)) ZeroDivErr _ _ JP) as P.
    assert (EE : forall x e', class_auc (zcol a x) (qcol s x) = Err e' -> e' = ZeroDivErr).
    { intros x e'. unfold class_auc. destruct (negb _); cbn; congruence. }
    specialize (P EE).
    assert (G : same_value
      (aucs <- mapM (fun j => class_auc (zcol a j) (qcol s j)) (seq 0 m) ;; _ <- guard (negb (Nat.eqb m 0)) ZeroDivErr ;; Ok (qsum aucs / qn m)%Q)
      (aucs <- mapM (fun j => class_auc (zcol a j) (qcol s j)) js ;; _ <- guard (negb (Nat.eqb m 0)) ZeroDivErr ;; Ok (qsum aucs / qn m)%Q)).
    { clear E. destruct (mapM _ js) as [u|e1], (mapM (fun j => class_auc (zcol a j) (qcol s j)) (seq 0 m)) as [v|e2]; try tauto; cbn.
      - destruct (negb _); cbn; auto. now rewrite (qsum_perm _ _ P).
      - destruct P; congruence. }
    destruct (type_of_target (T2 a)) as [[]|]; cbn [bind]; try reflexivity; exact G.
  Qed.
End Columns2.

(** ** Average precision without ties *)
Section Untied.
  Context (y : list Z) (s : list Q) (m : nat) (LY : List.length y = m) (LS : List.length s = m)
          (U : forall i j u v, nth_error s i = Some u -> nth_error s j = Some v -> (u == v)%Q -> i = j).
  Lemma untied_above j x i : nth_error s j = Some x -> (at_or_above s j i <-> scored s x i).
  Proof.
    intro J. split.
    - intros (u & v & A & B & C). rewrite J in B. injection B as <-. exists u. split; auto. destruct C as [C|[C _]]; [now apply Qlt_le_weak|now rewrite C; apply Qle_refl].
    - intros (u & A & C). exists u, x. repeat split; auto. destruct (Qlt_le_dec x u) as [H|H]; auto. right. split; [now apply Qle_antisym|].
      rewrite (U j i x u J A); [lia|]. now apply Qle_antisym.
  Qed.
  Lemma untied_precision v : ~ trivial y -> tied_precision (y, s) v -> precision (y, s) v.
  Proof.
    intros NT [_ H]. split; [contradiction|]. intros _. destruct (H NT) as (js & qs & ND & HJ & F & E). exists js, qs. repeat split; auto; try apply HJ.
    assert (K : forall j, In j js -> rel y j) by (intros; now apply HJ). clear HJ E ND H. induction F as [|j q js qs (k & l & A & B & C) F IH]; constructor.
    - destruct (K j (or_introl eq_refl)) as (z & Z & _). destruct (nth_some y s j z) as (x & X); [congruence|auto|]. exists x, k, l. split; auto.
      split; [eapply hm_ext; [|exact A]|split; [eapply hm_ext; [|exact B]|auto]]; intro i; cbn; now rewrite (untied_above j x i X).
    - apply IH. intros i I. apply K. now right.
  Qed.
End Untied.

Lemma Forall2_head {A B} (R : A -> B -> Prop) x y l l' : Forall2 R (x :: l) (y :: l') -> R x y /\ Forall2 R l l'.
Proof. intro F. inversion F; auto. Qed.
Lemma Forall2_perm {A B} (R : A -> B -> Prop) l l' : Permutation l l' -> forall u, Forall2 R l u -> exists u', Permutation u u' /\ Forall2 R l' u'.
Proof.
  induction 1 as [|x l l' P IH|x z l|l1 l2 l3 P1 IH1 P2 IH2]; intros u F.
  - inversion F; subst. exists []. split; constructor.
  - inversion F as [|? b ? u0 H F0]; subst. destruct (IH _ F0) as (u' & Q & G). exists (b :: u'). split; constructor; auto.
  - inversion F as [|? b ? u0 H F0]; subst. inversion F0 as [|? b' ? u1 H' F1]; subst. exists (b' :: b :: u1). split; [constructor|]. repeat constructor; auto.
  - destruct (IH1 _ F) as (u' & Q & G). destruct (IH2 _ G) as (u'' & Q' & G'). exists u''. split; eauto using Permutation_trans.
Qed.
Lemma precision_unique y s u v : precision (y, s) u -> precision (y, s) v -> (u == v)%Q.
Proof.
  intros [T1 N1] [T2 N2]. destruct (trivial_dec y) as [D|D]; [now rewrite (T1 D), (T2 D)|].
  destruct (N1 D) as (js & qs & ND & HJ & F & ->). destruct (N2 D) as (js' & qs' & ND' & HJ' & F' & ->).
  assert (P : Permutation js js') by (apply NoDup_Permutation; auto; intro; now rewrite HJ, HJ').
  destruct (Forall2_perm _ _ _ P _ F) as (q2 & Q & G). unfold mean.
  assert (E : (total qs == total qs')%Q).
  { change total with qsum. rewrite (qsum_perm _ _ Q). clear -G F'. revert qs' F'. unfold qsum.
    induction G as [|j q js q2 (x & k & l & X & A & B & C) G IH]; intros qs' F'; inversion F' as [|? q' ? qs2 (x' & k' & l' & X' & A' & B' & C') F2]; subst; [reflexivity|].
    cbn. rewrite X in X'. injection X' as <-. rewrite C, C', (hm_unique _ _ _ A A'), (hm_unique _ _ _ B B'). now rewrite (IH _ F2). }
  rewrite E. rewrite (Permutation_length Q), <- (Forall2_len _ _ _ G), (Forall2_len _ _ _ F'). reflexivity.
Qed.

Section Columns3.
  Context (js : list nat) (n m : nat) (JP : Permutation js (seq 0 m)) (a a' : list (list Z)) (CA : columns_as js a a') (MA : matrix a n m)
          (s s' : list (list Q)) (CS : columns_as js s s') (MS : matrix s n m) (U : untied s) (ZO : zero_one a).
  Lemma js_index k j k' : nth_error js k = Some j -> nth_error js k' = Some j -> k = k'.
  Proof.
    intros A B. assert (ND : NoDup js) by (apply (Permutation_NoDup (Permutation_sym JP)), seq_NoDup).
    apply (proj1 (NoDup_nth_error js) ND); [apply nth_error_Some; congruence|congruence].
  Qed.
  Lemma col_untied : untied s'.
  Proof.
    intros r' i j x y IN. assert (E : exists r, In r s /\ List.length r' = List.length js /\ forall k j, nth_error js k = Some j -> nth_error r' k = nth_error r j).
    { clear -CS IN. induction CS as [|r q s s' [L H] C IH]; [destruct IN|]. destruct IN as [<-|IN]; [exists r; repeat split; auto; now left|].
      destruct (IH C IN) as (r0 & J & K). exists r0. split; auto. now right. }
    destruct E as (r & J & L & H). intros A B E.
    assert (LI : (i < List.length js)%nat) by (rewrite <- L; apply nth_error_Some; congruence).
    assert (LJ : (j < List.length js)%nat) by (rewrite <- L; apply nth_error_Some; congruence).
    destruct (nth_error js i) as [p|] eqn:P; [|apply nth_error_None in P; lia]. destruct (nth_error js j) as [q|] eqn:Q; [|apply nth_error_None in Q; lia].
    rewrite (H _ _ P) in A. rewrite (H _ _ Q) in B. assert (p = q) by (apply (U r p q x y); auto). subst q. exact (js_index _ _ _ P Q).
  Qed.
  Lemma col_zero_one : zero_one a'.
  Proof.
    intros i j x H. assert (I : In x (List.concat a')) by (apply in_concat_cell; eauto).
    apply (Permutation_in _ (Permutation_sym (col_flat js n m JP a a' CA MA))) in I. apply in_concat_cell in I. destruct I as (i' & j' & I). apply (ZO i' j' x I).
  Qed.
  Lemma row_trivial (y y' : list Z) (r r' : list Q) : Permutation (combine y r) (combine y' r') -> List.length y = m -> List.length r = m -> List.length y' = m -> List.length r' = m ->
    (trivial y <-> trivial y').
  Proof.
    intros P L1 L2 L3 L4. rewrite (trivial_iff y r), (trivial_iff y' r') by congruence. rewrite (Permutation_length (row_relevant _ _ _ _ P)), L2, L4. reflexivity.
  Qed.
  Lemma row_tied (y y' : list Z) (r r' : list Q) v v' : Permutation (combine y r) (combine y' r') -> List.length y = m -> List.length r = m -> List.length y' = m -> List.length r' = m ->
    (forall i j u w, nth_error r i = Some u -> nth_error r j = Some w -> (u == w)%Q -> i = j) ->
    (forall i j u w, nth_error r' i = Some u -> nth_error r' j = Some w -> (u == w)%Q -> i = j) ->
    tied_precision (y, r) v -> tied_precision (y', r') v' -> (v == v')%Q.
  Proof.
    intros P L1 L2 L3 L4 U1 U2 T1 T2. destruct (trivial_dec y) as [D|D].
    - rewrite (proj1 T1 D), (proj1 T2); [reflexivity|]. now apply (row_trivial y y' r r').
    - assert (D' : ~ trivial y') by (intro; apply D; now apply (row_trivial y y' r r')).
      apply (untied_precision y r m L1 L2 U1 v D) in T1. apply (untied_precision y' r' m L3 L4 U2 v' D') in T2.
      destruct (precision_ok y r m L1 L2) as [R1 N1]. destruct (precision_ok y' r' m L3 L4) as [R2 N2].
      rewrite (precision_unique _ _ _ _ T1 R1), (precision_unique _ _ _ _ T2 R2).
      pose proof (row_lrap y y' r r' P ltac:(congruence) ltac:(congruence) m) as RL.
      destruct (lrap_row m y r), (lrap_row m y' r'); tauto.
  Qed.
  Lemma col_ap w : (0 < n)%nat -> weights_fit w n -> same_answer (average_precision_score (T2 a) s w) (average_precision_score (T2 a') s' w).
  Proof.
    intros N W. pose proof (col_matrix _ _ _ JP _ _ CA MA) as MA'. pose proof (col_matrix _ _ _ JP _ _ CS MS) as MS'.
    destruct (ap_ok a s n m w MA MS N ZO W) as (q & -> & vs & F & E). destruct (ap_ok a' s' n m w MA' MS' N col_zero_one W) as (q' & -> & vs' & F' & E').
    cbn. rewrite E, E'. pose proof col_untied as U'. pose proof (col_pairs _ _ _ JP _ _ _ _ CA CS MA MS) as CP.
    assert (S1 : Forall (fun p => In (snd p) s) (combine a s)) by (apply Forall_forall; intros [u v] J; now apply in_combine_r in J).
    assert (S2 : Forall (fun p => In (snd p) s') (combine a' s')) by (apply Forall_forall; intros [u v] J; now apply in_combine_r in J).
    assert (G : Forall2 (fun v v' => (v == v')%Q) vs vs').
    { clear E E'. revert vs vs' F F' S1 S2. induction CP as [|[y r] [y' r'] l l' (H & L1 & L2 & L3 & L4) CP IH]; intros vs vs' F F' S1 S2;
        [inversion F; inversion F'; constructor|]. destruct vs as [|v vs]; [inversion F|]. destruct vs' as [|v' vs']; [inversion F'|].
      apply Forall2_head in F, F'. destruct F as [F1 F2], F' as [F1' F2']. constructor.
      - cbn in *. pose proof (Forall_inv S1) as I1. pose proof (Forall_inv S2) as I2. cbn in I1, I2.
        apply (row_tied y y' r r'); auto; intros i j u w0; [apply (U r)|apply (U' r')]; auto.
      - apply IH; auto; [exact (Forall_inv_tail S1)|exact (Forall_inv_tail S2)]. }
    unfold mean. rewrite (Forall2_len _ _ _ G). assert (T : (total vs == total vs')%Q); [|now rewrite T].
    clear -G. unfold total. induction G as [|x z l l' E G IH]; cbn; [reflexivity|]. now rewrite E, IH.
  Qed.
End Columns3.
