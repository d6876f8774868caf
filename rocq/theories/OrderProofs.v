(** Metrics when the instances are handed over in another way: proofs. *)
From Verif Require Import Base BaseFacts MiscModel MiscSpec MetricModel MetricSpec MetricProofs MetricProofs2 MetricProofs3 MetricProofs4 MetricProofs5 MetricProofs6 MetricProofs7 OrderSpec.
From Coq Require Import QArith Permutation Lqa.
Local Open Scope Z_scope.

Lemma count_perm {A} (f : A -> bool) l l' : Permutation l l' -> count f l = count f l'.
Proof.
  unfold count. induction 1; cbn; auto; try (destruct (f x)); cbn; try lia; try (destruct (f y)); cbn; lia.
Qed.
Lemma qsum_perm l l' : Permutation l l' -> (qsum l == qsum l')%Q.
Proof. unfold qsum. induction 1; cbn; lra. Qed.
Lemma filter_perm {A} (f : A -> bool) l l' : Permutation l l' -> Permutation (filter f l) (filter f l').
Proof.
  induction 1; cbn; auto; try (destruct (f x)); auto; try (destruct (f y)); eauto using perm_swap, Permutation_trans.
Qed.
Lemma concat_perm {A} (l l' : list (list A)) : Permutation l l' -> Permutation (List.concat l) (List.concat l').
Proof.
  induction 1; cbn; auto.
  - now apply Permutation_app_head.
  - rewrite !app_assoc. apply Permutation_app_tail, Permutation_app_comm.
  - eauto using Permutation_trans.
Qed.
Lemma prod_perm {A B} (l l' : list A) (m m' : list B) : Permutation l l' -> Permutation m m' -> Permutation (list_prod l m) (list_prod l' m').
Proof.
  intros P R. transitivity (list_prod l' m).
  - clear R. induction P; cbn; auto.
    + now apply Permutation_app_head.
    + rewrite !app_assoc. apply Permutation_app_tail, Permutation_app_comm.
    + eauto using Permutation_trans.
  - clear P. induction l' as [|x l' IH]; cbn; auto. apply Permutation_app; auto. now apply Permutation_map.
Qed.
Lemma unique_perm l l' : Permutation l l' -> n_unique l = n_unique l'.
Proof.
  intro P. unfold n_unique. apply Permutation_length. apply NoDup_Permutation; try apply NoDup_nodup.
  intro x. rewrite !nodup_In. split; apply Permutation_in; auto using Permutation_sym.
Qed.
Lemma fdiv_same a b a' b' : (a == a')%Q -> (b == b')%Q -> same_figure (fdiv a b) (fdiv a' b').
Proof.
  intros EA EB. unfold fdiv. assert (B : Qeq_bool b 0 = Qeq_bool b' 0).
  { apply eq_true_iff_eq. rewrite !Qeq_bool_iff. now rewrite EB. }
  assert (C : Qeq_bool a 0 = Qeq_bool a' 0) by (apply eq_true_iff_eq; rewrite !Qeq_bool_iff; now rewrite EA).
  assert (D : Qle_bool 0 a = Qle_bool 0 a') by (apply eq_true_iff_eq; rewrite !Qle_bool_iff; now rewrite EA).
  rewrite B, C, D. destruct (Qeq_bool b' 0); [|cbn; now rewrite EA, EB]. destruct (Qeq_bool a' 0); cbn; auto.
Qed.
Lemma figure_refl x : same_figure x x. Proof. destruct x; cbn; auto. lra. Qed.
Lemma answer_refl r : same_answer r r. Proof. destruct r; cbn; auto using figure_refl. Qed.
Lemma answer_eq r r' : r = r' -> same_answer r r'. Proof. intros ->. apply answer_refl. Qed.

Lemma mapM_same {A B} (f g : A -> res B) l : (forall x, In x l -> f x = g x) -> mapM f l = mapM g l.
Proof. induction l as [|x l IH]; intro H; [reflexivity|]. cbn. rewrite (H x), IH; auto; [intros; apply H; now right|now left]. Qed.

(** ** The order of the instances *)
Lemma combine_map_left {A B C} (f : A -> C) (a : list A) (b : list B) : combine (map f a) b = map (fun p => (f (fst p), snd p)) (combine a b).
Proof. revert b. induction a; intros [|y b]; cbn; auto. now rewrite IHa. Qed.

Section Reordered.
  Context {A B : Type} (a a' : list A) (b b' : list B) (w w' : option (list Q)).
  Hypothesis RE : reordered a b w a' b' w'.

  Lemma re_len : List.length a = List.length b. Proof. apply RE. Qed.
  Lemma re_len' : List.length a' = List.length b'. Proof. apply RE. Qed.
  Lemma re_pairs : Permutation (combine a b) (combine a' b').
  Proof.
    destruct RE as (L & L' & H). destruct w as [v|], w' as [v'|]; try tauto. destruct H as (V & V' & H).
    apply (Permutation_map fst) in H. rewrite !map_fst_combine in H; auto; rewrite combine_length; lia.
  Qed.
  Lemma re_left : Permutation a a'.
  Proof. pose proof re_pairs as H. apply (Permutation_map fst) in H. now rewrite !map_fst_combine in H by (apply re_len || apply re_len'). Qed.
  Lemma re_right : Permutation b b'.
  Proof. pose proof re_pairs as H. apply (Permutation_map snd) in H. now rewrite !combine_snd in H by (apply re_len || apply re_len'). Qed.
  Lemma re_number : List.length a = List.length a'. Proof. apply Permutation_length, re_left. Qed.
  Lemma re_fits : same_length (List.length a) (List.length b) w = true /\ same_length (List.length a') (List.length b') w' = true.
  Proof.
    pose proof re_len. pose proof re_len'. destruct RE as (_ & _ & H1). unfold same_length.
    rewrite (proj2 (Nat.eqb_eq _ _) H), (proj2 (Nat.eqb_eq _ _) H0). cbn. destruct w as [v|], w' as [v'|]; try tauto.
    destruct H1 as (V & V' & _). now rewrite V, V', !Nat.eqb_refl.
  Qed.
  Lemma re_average f : same_answer (average (map f (combine a b)) w) (average (map f (combine a' b')) w').
  Proof.
    pose proof re_pairs as P. destruct RE as (L & L' & H). destruct w as [v|], w' as [v'|]; try tauto.
    - destruct H as (V & V' & H). cbn [average].
      assert (W : (qsum v == qsum v')%Q).
      { apply qsum_perm. apply (Permutation_map snd) in H. rewrite !combine_snd in H; auto; rewrite combine_length; lia. }
      assert (Z : Qeq_bool (qsum v) 0 = Qeq_bool (qsum v') 0) by (apply eq_true_iff_eq; rewrite !Qeq_bool_iff; now rewrite W).
      rewrite Z. destruct (Qeq_bool (qsum v') 0); [reflexivity|]. cbn.
      assert (S : (qsum (map (fun p => fst p * snd p) (combine (map f (combine a b)) v)) == qsum (map (fun p => fst p * snd p) (combine (map f (combine a' b')) v')))%Q).
      { rewrite !combine_map_left, !map_map. apply qsum_perm, Permutation_map, H. }
      now rewrite S, W.
    - cbn. apply fdiv_same; [apply qsum_perm, Permutation_map, P|]. unfold qlen. rewrite !map_length. now rewrite (Permutation_length P).
  Qed.
End Reordered.

Lemma matrix_hd {A} (a : list (list A)) n m : matrix a n m -> a <> [] -> List.length (hd [] a) = m.
Proof. intros [_ F] NE. destruct a; [congruence|]. inversion F; auto. Qed.
Lemma matrix_hd2 {A} (a a' : list (list A)) n m : matrix a n m -> matrix a' n m -> List.length (hd [] a) = List.length (hd [] a').
Proof.
  intros M M'. destruct a, a'; auto.
  - destruct M, M'. cbn in *. lia.
  - destruct M, M'. cbn in *. lia.
  - rewrite (matrix_hd _ n m M), (matrix_hd _ n m M'); congruence.
Qed.
Lemma matrix_perm {A} (a a' : list (list A)) n m : Permutation a a' -> matrix a n m -> matrix a' n m.
Proof.
  intros P [L F]. split; [now rewrite <- (Permutation_length P)|]. rewrite Forall_forall in *. intros r J. apply F.
  exact (Permutation_in _ (Permutation_sym P) J).
Qed.
Lemma type_perm a a' n m : Permutation a a' -> matrix a n m -> type_of_target (T2 a) = type_of_target (T2 a').
Proof.
  intros P M. pose proof (matrix_perm _ _ _ _ P M) as M'. unfold type_of_target. cbn [ravel].
  rewrite (unique_perm _ _ (concat_perm _ _ P)). destruct (Nat.leb _ 2); auto. pose proof (matrix_hd2 a a' n m M M') as H.
  destruct a, a'; auto; try (apply Permutation_length in P; discriminate). cbn in H. now rewrite H.
Qed.
Lemma type_perm1 v v' : Permutation v v' -> type_of_target (T1 v) = type_of_target (T1 v').
Proof. intro P. unfold type_of_target. cbn [ravel]. now rewrite (unique_perm _ _ P). Qed.

Lemma shape_perm {A B} (a a' : list (list A)) (s s' : list (list B)) n m n' m' : Permutation a a' -> Permutation s s' -> matrix a n m -> matrix s n' m' ->
  shape_eqb (shape a) (shape s) = shape_eqb (shape a') (shape s').
Proof.
  intros P R MA MS. unfold shape_eqb, shape. cbn [fst snd].
  rewrite (Permutation_length P), (Permutation_length R), (matrix_hd2 a a' n m MA (matrix_perm _ _ _ _ P MA)), (matrix_hd2 s s' n' m' MS (matrix_perm _ _ _ _ R MS)). reflexivity.
Qed.

Lemma check_perm t t' p p' : num_samples t = num_samples t' -> num_samples p = num_samples p' -> type_of_target t = type_of_target t' ->
  type_of_target p = type_of_target p' -> Permutation (ravel t) (ravel t') -> Permutation (ravel p) (ravel p') ->
  match check_targets t p, check_targets t' p' with
  | Ok (ty, u, v), Ok (ty', u', v') => ty = ty' /\ ((ty = Multilabel /\ (u, v) = (t, p) /\ (u', v') = (t', p')) \/
      (ty <> Multilabel /\ (u, v) = (T1 (ravel t), T1 (ravel p)) /\ (u', v') = (T1 (ravel t'), T1 (ravel p'))))
  | Err e, Err e' => e = e'
  | _, _ => False
  end.
Proof.
  intros N1 N2 E1 E2 P1 P2. unfold check_targets. rewrite <- N1, <- N2, <- E1, <- E2. destruct (same_length _ _ _); cbn [guard bind]; auto.
  rewrite (unique_perm _ _ (Permutation_app P1 P2)).
  destruct (type_of_target t) as [[]|]; cbn [bind]; auto; destruct (type_of_target p) as [[]|]; cbn [bind]; auto;
    try (split; [reflexivity|]; right; repeat split; auto; congruence).
  - destruct (Nat.ltb _ _); (split; [reflexivity|]; right; repeat split; auto; congruence).
Qed.

Lemma concat_pairs_perm {A B} (a a' : list (list A)) (b b' : list (list B)) n m : matrix a n m -> matrix b n m -> matrix a' n m -> matrix b' n m ->
  Permutation (combine a b) (combine a' b') -> Permutation (combine (List.concat a) (List.concat b)) (combine (List.concat a') (List.concat b')).
Proof.
  intros [LA FA] [LB FB] [LA' FA'] [LB' FB'] P. rewrite (concat_combine a b m), (concat_combine a' b' m) by (auto; lia).
  now apply concat_perm, Permutation_map.
Qed.

Lemma singles {A} (a : list (list A)) d : Forall (fun r => List.length r = 1%nat) a -> List.concat a = map (hd d) a.
Proof. induction 1 as [|r a L F IH]; [reflexivity|]. destruct r as [|x [|]]; try discriminate. cbn. now rewrite IH. Qed.
Lemma combine_maps {A B C D} (f : A -> C) (g : B -> D) (a : list A) (b : list B) : combine (map f a) (map g b) = map (fun p => (f (fst p), g (snd p))) (combine a b).
Proof. revert b. induction a; intros [|y b]; cbn; auto. now rewrite IHa. Qed.

Lemma re_map {A B C D} (f : A -> C) (g : B -> D) a b w a' b' w' : reordered a b w a' b' w' ->
  reordered (map f a) (map g b) w (map f a') (map g b') w'.
Proof.
  intros (L & L' & H). unfold reordered. rewrite !map_length, !combine_maps. split; auto. split; auto.
  destruct w as [v|], w' as [v'|]; try tauto; [|now apply Permutation_map].
  destruct H as (V & V' & H). rewrite !combine_map_left. repeat split; auto. now apply Permutation_map.
Qed.

(** Accuracy of rows compared one by one. *)
Lemma accuracy_vec a b w a' b' w' : reordered a b w a' b' w' -> same_answer (accuracy_score (T1 a) (T1 b) w) (accuracy_score (T1 a') (T1 b') w').
Proof.
  intro RE. pose proof (re_left _ _ _ _ _ _ RE) as PA. pose proof (re_right _ _ _ _ _ _ RE) as PB.
  pose proof (check_perm (T1 a) (T1 a') (T1 b) (T1 b') (Permutation_length PA) (Permutation_length PB) (type_perm1 _ _ PA) (type_perm1 _ _ PB) PA PB) as C.
  unfold accuracy_score. destruct (check_targets (T1 a) _) as [[[ty u] v]|e], (check_targets (T1 a') _) as [[[ty' u'] v']|e']; cbn [bind]; try tauto.
  destruct (re_fits _ _ _ _ _ _ RE) as [F F'].
  destruct C as (-> & [(-> & E & E')|(N & E & E')]); injection E as -> ->; injection E' as -> ->; cbn [num_samples ravel]; rewrite F, F'; cbn [guard bind].
  - apply (re_average _ _ _ _ _ _ RE (fun p => b2q (fst p =? snd p))).
  - destruct ty'; apply (re_average _ _ _ _ _ _ RE (fun p => b2q (fst p =? snd p))).
Qed.

Lemma re_flat (a a' b b' : list (list Z)) w w' n m m' : reordered a b w a' b' w' -> matrix a n m -> matrix b n m' ->
  let g := same_length (n * m) (n * m') w in
  same_length (n * m) (n * m') w' = g /\
  (g = true -> reordered (List.concat a) (List.concat b) w (List.concat a') (List.concat b') w').
Proof.
  intros RE MA MB. pose proof (re_left _ _ _ _ _ _ RE) as PA. pose proof (re_right _ _ _ _ _ _ RE) as PB.
  pose proof (matrix_perm _ _ _ _ PA MA) as MA'. pose proof (matrix_perm _ _ _ _ PB MB) as MB'.
  pose proof (re_pairs _ _ _ _ _ _ RE) as PP. pose proof RE as (L & L' & H). cbn. unfold same_length.
  assert (LA := proj1 MA). assert (LA' := proj1 MA').
  split.
  - destruct w as [v|], w' as [v'|]; try tauto. destruct H as (V & V' & _). now rewrite V, V', LA, LA'.
  - intro G. apply andb_true_iff in G. destruct G as [G1 G2]. apply Nat.eqb_eq in G1.
    assert (LC : List.length (List.concat a) = List.length (List.concat b)) by (rewrite (concat_length_matrix _ _ _ MA), (concat_length_matrix _ _ _ MB); auto).
    assert (LC' : List.length (List.concat a') = List.length (List.concat b')) by (rewrite (concat_length_matrix _ _ _ MA'), (concat_length_matrix _ _ _ MB'); auto).
    destruct w as [v|], w' as [v'|]; try tauto.
    + destruct H as (V & V' & H). apply Nat.eqb_eq in G2. destruct n as [|n].
      * destruct a, b, a', b', v, v'; try (cbn in *; lia). repeat split; auto; constructor.
      * assert (m = 1)%nat by nia. assert (m' = 1)%nat by nia. subst m m'.
        rewrite (singles a 0 (proj2 MA)), (singles a' 0 (proj2 MA')), (singles b 0 (proj2 MB)), (singles b' 0 (proj2 MB')). now apply re_map.
    + repeat split; auto. destruct n as [|n].
      * destruct a, b, a', b'; try (cbn in *; lia). constructor.
      * assert (m = m') by nia. subst m'. now apply (concat_pairs_perm a a' b b' (S n) m).
Qed.

Lemma accuracy_mat a b w a' b' w' n m m' : reordered a b w a' b' w' -> matrix a n m -> matrix b n m' ->
  same_answer (accuracy_score (T2 a) (T2 b) w) (accuracy_score (T2 a') (T2 b') w').
Proof.
  intros RE MA MB. pose proof (re_left _ _ _ _ _ _ RE) as PA. pose proof (re_right _ _ _ _ _ _ RE) as PB.
  pose proof (matrix_perm _ _ _ _ PA MA) as MA'. pose proof (matrix_perm _ _ _ _ PB MB) as MB'.
  pose proof (check_perm (T2 a) (T2 a') (T2 b) (T2 b') (Permutation_length PA) (Permutation_length PB) (type_perm _ _ _ _ PA MA) (type_perm _ _ _ _ PB MB)
    (concat_perm _ _ PA) (concat_perm _ _ PB)) as C.
  unfold accuracy_score. destruct (check_targets (T2 a) _) as [[[ty u] v]|e], (check_targets (T2 a') _) as [[[ty' u'] v']|e']; cbn [bind]; try tauto.
  destruct (re_fits _ _ _ _ _ _ RE) as [F F'].
  destruct C as (-> & [(-> & E & E')|(N & E & E')]); injection E as -> ->; injection E' as -> ->; cbn [num_samples ravel].
  - rewrite F, F'. cbn [guard bind]. rewrite <- (matrix_hd2 _ _ _ _ MA MA'), <- (matrix_hd2 _ _ _ _ MB MB').
    destruct (Nat.eqb _ _); cbn [guard bind]; [|reflexivity]. apply (re_average _ _ _ _ _ _ RE (fun p => b2q (row_eqb (fst p) (snd p)))).
  - destruct (re_flat _ _ _ _ _ _ _ _ _ RE MA MB) as [G1 G2].
    rewrite (concat_length_matrix _ _ _ MA), (concat_length_matrix _ _ _ MB), (concat_length_matrix _ _ _ MA'), (concat_length_matrix _ _ _ MB'), G1.
    destruct (same_length (n * m) (n * m') w); cbn [guard bind]; [|reflexivity]. specialize (G2 eq_refl).
    destruct ty'; try congruence; apply (re_average _ _ _ _ _ _ G2 (fun p => b2q (fst p =? snd p))).
Qed.

Lemma sub_same x x' y y' : (x == x')%Q -> same_figure y y' -> same_figure (fsub x y) (fsub x' y').
Proof. intros E. destruct y, y'; cbn; try tauto. - intro H. now rewrite E, H. - now intros ->. Qed.
Lemma re_weight {A B} (a a' : list A) (b b' : list B) w w' : reordered a b w a' b' w' ->
  (match w with Some w => qsum w | None => inject_Z (Z.of_nat (List.length a)) end ==
   match w' with Some w => qsum w | None => inject_Z (Z.of_nat (List.length a')) end)%Q.
Proof.
  intros RE. rewrite <- (re_number _ _ _ _ _ _ RE). destruct RE as (L & L' & H). destruct w as [v|], w' as [v'|]; try tauto; [|reflexivity].
  destruct H as (V & V' & H). apply qsum_perm. apply (Permutation_map snd) in H. rewrite !combine_snd in H; auto; rewrite combine_length; lia.
Qed.

Lemma loss_same t p w t' p' w' nz : same_answer (accuracy_score t p w) (accuracy_score t' p' w') ->
  (match w with Some w => qsum w | None => inject_Z (Z.of_nat (num_samples t)) end ==
   match w' with Some w => qsum w | None => inject_Z (Z.of_nat (num_samples t')) end)%Q ->
  same_answer (zero_one_loss t p nz w) (zero_one_loss t' p' nz w').
Proof.
  intros A W. unfold zero_one_loss. destruct (accuracy_score t p w), (accuracy_score t' p' w'); cbn [bind same_answer] in *; try tauto.
  destruct nz; cbn [same_answer]; apply sub_same; auto. reflexivity.
Qed.

Lemma hamming_vec a b a' b' : reordered a b None a' b' None -> hamming_loss (T1 a) (T1 b) = hamming_loss (T1 a') (T1 b').
Proof.
  intro RE. pose proof (re_left _ _ _ _ _ _ RE) as PA. pose proof (re_right _ _ _ _ _ _ RE) as PB.
  pose proof (check_perm (T1 a) (T1 a') (T1 b) (T1 b') (Permutation_length PA) (Permutation_length PB) (type_perm1 _ _ PA) (type_perm1 _ _ PB) PA PB) as C.
  unfold hamming_loss. destruct (check_targets (T1 a) _) as [[[ty u] v]|e], (check_targets (T1 a') _) as [[[ty' u'] v']|e']; cbn [bind]; try tauto; [|congruence].
  destruct C as (-> & _). cbn [n_diff bind num_samples]. unfold n_diff_list. rewrite (count_perm _ _ _ (re_pairs _ _ _ _ _ _ RE)), (Permutation_length PA).
  destruct ty'; reflexivity.
Qed.
Lemma hamming_mat a b a' b' n m m' : reordered a b None a' b' None -> matrix a n m -> matrix b n m' -> hamming_loss (T2 a) (T2 b) = hamming_loss (T2 a') (T2 b').
Proof.
  intros RE MA MB. pose proof (re_left _ _ _ _ _ _ RE) as PA. pose proof (re_right _ _ _ _ _ _ RE) as PB.
  pose proof (matrix_perm _ _ _ _ PA MA) as MA'. pose proof (matrix_perm _ _ _ _ PB MB) as MB'.
  pose proof (check_perm (T2 a) (T2 a') (T2 b) (T2 b') (Permutation_length PA) (Permutation_length PB) (type_perm _ _ _ _ PA MA) (type_perm _ _ _ _ PB MB)
    (concat_perm _ _ PA) (concat_perm _ _ PB)) as C.
  unfold hamming_loss. destruct (check_targets (T2 a) _) as [[[ty u] v]|e], (check_targets (T2 a') _) as [[[ty' u'] v']|e']; cbn [bind]; try tauto; [|congruence].
  destruct C as (-> & _). cbn [n_diff num_samples]. rewrite <- (matrix_hd2 _ _ _ _ MA MA'), <- (matrix_hd2 _ _ _ _ MB MB').
  destruct (Nat.eqb_spec (List.length (hd [] a)) (List.length (hd [] b))) as [E|E]; [|reflexivity]. cbn [bind].
  assert (D : n_diff_list (List.concat a) (List.concat b) = n_diff_list (List.concat a') (List.concat b')).
  { unfold n_diff_list. apply count_perm. destruct n as [|n].
    - destruct MA, MB, MA', MB'. destruct a, b, a', b'; try (cbn in *; lia). constructor.
    - assert (m = m'). { rewrite (hd_length a (S n) m), (hd_length b (S n) m') in E by (auto; lia). auto. } subst m'.
      apply (concat_pairs_perm a a' b b' (S n) m); auto. apply (re_pairs _ _ _ _ _ _ RE). }
  rewrite D, (Permutation_length PA). destruct ty'; reflexivity.
Qed.

Lemma one_error_same a p w a' p' w' n m m' : reordered a p w a' p' w' -> matrix a n m -> matrix p n m' -> one_error (T2 a) p w = one_error (T2 a') p' w'.
Proof.
  intros RE MA MB. pose proof (re_left _ _ _ _ _ _ RE) as PA. pose proof (re_right _ _ _ _ _ _ RE) as PB.
  pose proof (matrix_perm _ _ _ _ PA MA) as MA'. pose proof (matrix_perm _ _ _ _ PB MB) as MB'.
  destruct (re_fits _ _ _ _ _ _ RE) as [F F']. unfold one_error. cbn [num_samples]. rewrite F, F'. cbn [guard bind].
  rewrite <- (type_perm _ _ _ _ PA MA). destruct (type_of_target (T2 a)) as [[]|]; cbn [bind]; auto.
  rewrite <- (shape_perm _ _ _ _ _ _ _ _ PA PB MA MB), <- (matrix_hd2 _ _ _ _ MB MB'). destruct (orb _ _); cbn [guard bind]; auto.
  now rewrite (count_perm _ _ _ (re_pairs _ _ _ _ _ _ RE)), (Permutation_length PA).
Qed.
Lemma coverage_same a s w a' s' w' n m m' : reordered a s w a' s' w' -> matrix a n m -> matrix s n m' ->
  same_answer (coverage_error (T2 a) s w) (coverage_error (T2 a') s' w').
Proof.
  intros RE MA MB. pose proof (re_left _ _ _ _ _ _ RE) as PA. pose proof (re_right _ _ _ _ _ _ RE) as PB.
  destruct (re_fits _ _ _ _ _ _ RE) as [F F']. unfold coverage_error. cbn [num_samples]. rewrite F, F'. cbn [guard bind].
  rewrite <- (type_perm _ _ _ _ PA MA). destruct (type_of_target (T2 a)) as [[]|]; cbn [bind]; try reflexivity.
  rewrite <- (shape_perm _ _ _ _ _ _ _ _ PA PB MA MB). destruct (shape_eqb _ _); cbn [guard bind]; try reflexivity.
  apply (re_average _ _ _ _ _ _ RE (fun p => qn (coverage_row (fst p) (snd p)))).
Qed.
Lemma ranking_same a s w a' s' w' n m m' : reordered a s w a' s' w' -> matrix a n m -> matrix s n m' ->
  same_answer (label_ranking_loss (T2 a) s w) (label_ranking_loss (T2 a') s' w').
Proof.
  intros RE MA MB. pose proof (re_left _ _ _ _ _ _ RE) as PA. pose proof (re_right _ _ _ _ _ _ RE) as PB.
  destruct (re_fits _ _ _ _ _ _ RE) as [F F']. unfold label_ranking_loss. cbn [num_samples]. rewrite F, F'. cbn [guard bind].
  rewrite <- (type_perm _ _ _ _ PA MA). destruct (type_of_target (T2 a)) as [[]|]; cbn [bind]; try reflexivity.
  rewrite <- (shape_perm _ _ _ _ _ _ _ _ PA PB MA MB). destruct (shape_eqb _ _); cbn [guard bind]; try reflexivity.
  rewrite <- (matrix_hd2 _ _ _ _ MA (matrix_perm _ _ _ _ PA MA)).
  apply (re_average _ _ _ _ _ _ RE (fun p => ranking_row (List.length (hd [] a)) (fst p) (snd p))).
Qed.
Lemma lrap_same a s w a' s' w' n m m' : reordered a s w a' s' w' -> matrix a n m -> matrix s n m' ->
  same_answer (lrap_score (T2 a) s w) (lrap_score (T2 a') s' w').
Proof.
  intros RE MA MB. pose proof (re_left _ _ _ _ _ _ RE) as PA. pose proof (re_right _ _ _ _ _ _ RE) as PB.
  destruct (re_fits _ _ _ _ _ _ RE) as [F F']. unfold lrap_score. cbn [num_samples]. rewrite F, F'. cbn [guard bind].
  rewrite <- (shape_perm _ _ _ _ _ _ _ _ PA PB MA MB). destruct (shape_eqb _ _); cbn [guard bind]; try reflexivity.
  rewrite <- (type_perm _ _ _ _ PA MA), <- (matrix_hd2 _ _ _ _ MA (matrix_perm _ _ _ _ PA MA)).
  set (g := fun p : list Z * list Q => lrap_row (List.length (hd [] a)) (fst p) (snd p)).
  pose proof (re_pairs _ _ _ _ _ _ RE) as PP.
  assert (G : same_answer (match w with
          | None => Ok (fdiv (qsum (map (fun o => match o with Some x => x | None => 1%Q end) (map g (combine a s)))) (qn (List.length a)))
          | Some w => Ok (fdiv (qsum (map (fun p => match fst p with Some x => x * snd p | None => 1 end)%Q (combine (map g (combine a s)) w)))
                               (qsum w))
          end) (match w' with
          | None => Ok (fdiv (qsum (map (fun o => match o with Some x => x | None => 1%Q end) (map g (combine a' s')))) (qn (List.length a')))
          | Some w => Ok (fdiv (qsum (map (fun p => match fst p with Some x => x * snd p | None => 1 end)%Q (combine (map g (combine a' s')) w)))
                               (qsum w))
          end)).
  { pose proof (re_weight _ _ _ _ _ _ RE) as W. destruct RE as (L & L' & H). destruct w as [v|], w' as [v'|]; try tauto; cbn; apply fdiv_same; auto.
    - destruct H as (V & V' & H). rewrite !combine_map_left, !map_map. now apply qsum_perm, Permutation_map.
    - rewrite !map_map. now apply qsum_perm, Permutation_map. }
  destruct (type_of_target (T2 a)) as [[]|]; cbn [bind]; try reflexivity; exact G.
Qed.
Lemma class_perm y s y' s' : Permutation (combine y s) (combine y' s') -> class_auc y s = class_auc y' s'.
Proof.
  intro P. unfold class_auc.
  assert (E : forall f, Permutation (map snd (filter f (combine y s))) (map snd (filter f (combine y' s')))) by (intro f; now apply Permutation_map, filter_perm).
  cbn zeta. rewrite !(Permutation_length (E _)). destruct (negb _); [|reflexivity]. cbn. now rewrite (count_perm _ _ _ (prod_perm _ _ _ _ (E _) (E _))).
Qed.
Lemma micro_same a s w a' s' w' n m m' : reordered a s w a' s' w' -> matrix a n m -> matrix s n m' ->
  micro_auc_score (T2 a) s w = micro_auc_score (T2 a') s' w'.
Proof.
  intros RE MA MB. pose proof (re_left _ _ _ _ _ _ RE) as PA. pose proof (re_right _ _ _ _ _ _ RE) as PB.
  destruct (re_fits _ _ _ _ _ _ RE) as [F F']. unfold micro_auc_score. cbn [num_samples]. rewrite F, F'. cbn [guard bind].
  rewrite <- (shape_perm _ _ _ _ _ _ _ _ PA PB MA MB). destruct (shape_eqb _ _); cbn [guard bind]; try reflexivity.
  rewrite <- (type_perm _ _ _ _ PA MA). unfold shape. cbn [snd]. rewrite <- (matrix_hd2 _ _ _ _ MB (matrix_perm _ _ _ _ PB MB)).
  assert (E : mapM (fun j => class_auc (zcol a j) (qcol s j)) (seq 0 (List.length (hd [] s))) = mapM (fun j => class_auc (zcol a' j) (qcol s' j)) (seq 0 (List.length (hd [] s)))).
  { apply mapM_same. intros j _. apply class_perm. unfold zcol, qcol. rewrite !combine_maps. apply Permutation_map, (re_pairs _ _ _ _ _ _ RE). }
  rewrite E. reflexivity.
Qed.

(** ** Average precision *)
Definition settled (x : fl) : Prop := match x with Inf _ => False | _ => True end.
Lemma ap_row_settled y s : settled (ap_row y s).
Proof.
  unfold ap_row. cbn zeta. unfold fdiv, qlen. destruct (positions (fun v => v =? 1) y) as [|j l] eqn:E.
  - cbn. exact I.
  - assert (Z : Qeq_bool (inject_Z (Z.of_nat (List.length (j :: l)))) 0 = false).
    { apply Qeq_bool_false. intro H. unfold Qeq in H. cbn in H. lia. }
    rewrite Z. exact I.
Qed.
Lemma fadd_swap x y z : settled x -> settled y -> settled z -> same_figure (fadd (fadd x y) z) (fadd (fadd x z) y).
Proof. destruct x, y, z; cbn; try tauto. intros. ring. Qed.
Lemma fadd_same x x' y : same_figure x x' -> same_figure (fadd x y) (fadd x' y).
Proof. destruct x, x', y; cbn; try tauto; try congruence. intro H. now rewrite H. Qed.
Lemma fadd_settled x y : settled x -> settled y -> settled (fadd x y).
Proof. destruct x, y; cbn; tauto. Qed.
Lemma figure_trans x y z : same_figure x y -> same_figure y z -> same_figure x z.
Proof. destruct x, y, z; cbn; try tauto; try congruence. intros -> ->. reflexivity. Qed.
Lemma figure_settled x y : same_figure x y -> settled x -> settled y. Proof. destruct x, y; cbn; tauto. Qed.
Lemma fold_same l : forall x x', same_figure x x' -> same_figure (fold_left fadd l x) (fold_left fadd l x').
Proof. induction l as [|y l IH]; intros x x' H; cbn; auto. now apply IH, fadd_same. Qed.
Lemma fold_perm l l' : Permutation l l' -> Forall settled l -> forall x, settled x -> same_figure (fold_left fadd l x) (fold_left fadd l' x).
Proof.
  induction 1 as [|y l l' P IH|y z l|l1 l2 l3 P1 IH1 P2 IH2]; intros F x SX; cbn.
  - apply figure_refl.
  - inversion F; subst. apply IH; auto. now apply fadd_settled.
  - inversion F as [|? ? F1 F2]; subst. inversion F2; subst. apply fold_same. now apply fadd_swap.
  - eapply figure_trans; [apply IH1; auto|]. apply IH2; auto. eapply Permutation_Forall; eauto.
Qed.
Lemma ap_same a s w a' s' w' n m m' : reordered a s w a' s' w' -> matrix a n m -> matrix s n m' ->
  same_answer (average_precision_score (T2 a) s w) (average_precision_score (T2 a') s' w').
Proof.
  intros RE MA MB. pose proof (re_left _ _ _ _ _ _ RE) as PA. pose proof (re_right _ _ _ _ _ _ RE) as PB.
  destruct (re_fits _ _ _ _ _ _ RE) as [F F']. unfold average_precision_score. cbn [num_samples]. rewrite F, F'. cbn [guard bind].
  rewrite <- (shape_perm _ _ _ _ _ _ _ _ PA PB MA MB). destruct (shape_eqb _ _); cbn [guard bind]; try reflexivity.
  rewrite <- (type_perm _ _ _ _ PA MA). unfold shape. cbn [snd]. rewrite <- (matrix_hd2 _ _ _ _ MB (matrix_perm _ _ _ _ PB MB)).
  set (M := Z.of_nat (List.length (hd [] s))). cbn zeta.
  set (k := filter _ (combine a s)). set (k' := filter _ (combine a' s')).
  assert (PK : Permutation k k') by (apply filter_perm, (re_pairs _ _ _ _ _ _ RE)).
  assert (SF : same_figure (fold_left fadd (map (fun p => ap_row (fst p) (snd p)) k) (Num 0)) (fold_left fadd (map (fun p => ap_row (fst p) (snd p)) k') (Num 0))).
  { apply fold_perm; [now apply Permutation_map| |exact I]. apply Forall_forall. intros x J. apply in_map_iff in J. destruct J as (p & <- & _). apply ap_row_settled. }
  set (u := fold_left fadd _ (Num 0)) in *. set (u' := fold_left fadd _ (Num 0)) in SF |- *.
  assert (G : same_answer (match u with Num q => Ok (fdiv q (qn (List.length a))) | Inf t => Ok (Inf t) | NaN => Ok NaN end)
                          (match u' with Num q => Ok (fdiv q (qn (List.length a'))) | Inf t => Ok (Inf t) | NaN => Ok NaN end)).
  { destruct u, u'; cbn in SF |- *; try tauto. rewrite (Permutation_length PA). apply fdiv_same; [auto|reflexivity]. }
  destruct (type_of_target (T2 a)) as [[]|]; cbn [bind]; try reflexivity; exact G.
Qed.

(** ** Scores on another scale *)
Section Scale.
  Context (f : Q -> Q) (I : increasing f).
  Lemma inc_le x y : Qle_bool (f x) (f y) = Qle_bool x y.
  Proof.
    apply eq_true_iff_eq. rewrite !Qle_bool_iff. split; intro H; apply Qnot_lt_le; intro N; apply I in N; lra.
  Qed.
  Lemma inc_eq x y : Qeq_bool (f x) (f y) = Qeq_bool x y.
  Proof.
    apply eq_true_iff_eq. rewrite !Qeq_bool_iff. split; intro H; apply Qle_antisym; apply Qnot_lt_le; intro N; apply I in N; lra.
  Qed.
  Lemma inc_lt_bool x y : negb (Qle_bool (f x) (f y)) = negb (Qle_bool x y). Proof. now rewrite inc_le. Qed.
  Lemma inc_count (g h : Q -> bool) l : (forall x, g (f x) = h x) -> count g (map f l) = count h l.
  Proof. intro E. unfold count. induction l as [|x l IH]; [reflexivity|]. cbn. rewrite E. destruct (h x); cbn; auto. Qed.
  Lemma inc_relevant y s : relevant y (map f s) = map f (relevant y s).
  Proof. unfold relevant. revert s. induction y as [|v y IH]; intros [|q s]; cbn; auto. destruct (v =? 0); cbn; auto. now rewrite IH. Qed.
  Lemma inc_min l : forall q, exists m, fold_left qmin l q = m /\ fold_left qmin (map f l) (f q) = f m.
  Proof.
    induction l as [|x l IH]; intro q; cbn; [eauto|]. unfold qmin at 2 4. rewrite inc_le. destruct (Qle_bool q x); apply IH.
  Qed.
  Lemma inc_coverage y s : coverage_row y (map f s) = coverage_row y s.
  Proof.
    unfold coverage_row. rewrite inc_relevant. destruct (relevant y s) as [|q l]; [reflexivity|]. cbn [map].
    destruct (inc_min l q) as (m & -> & ->). cbn zeta. apply inc_count. intro x. apply inc_le.
  Qed.
  Lemma inc_uinsert x l : uinsert (f x) (map f l) = map f (uinsert x l).
  Proof. induction l as [|y l IH]; [reflexivity|]. cbn. rewrite inc_eq, inc_le. destruct (Qeq_bool x y); [reflexivity|]. destruct (Qle_bool x y); cbn; [reflexivity|]. now rewrite IH. Qed.
  Lemma inc_unique l : unique_scores (map f l) = map f (unique_scores l).
  Proof. unfold unique_scores. induction l as [|x l IH]; [reflexivity|]. cbn. now rewrite IH, inc_uinsert. Qed.
  Lemma inc_bincount u l : bincount (map f u) (map f l) = bincount u l.
  Proof. unfold bincount. rewrite map_map. apply map_ext. intro x. apply inc_count. intro y. apply inc_eq. Qed.
  Lemma inc_ranking m y s : ranking_row m y (map f s) = ranking_row m y s.
  Proof. unfold ranking_row. rewrite inc_unique, inc_relevant, !inc_bincount, !map_length. reflexivity. Qed.
  Lemma inc_lrap m y s : lrap_row m y (map f s) = lrap_row m y s.
  Proof.
    unfold lrap_row. rewrite inc_relevant, !map_length, map_map. destruct (orb _ _); [reflexivity|]. do 2 f_equal. apply map_ext. intro x.
    unfold rank_max. now rewrite !(inc_count (fun z => Qle_bool (f x) z) (fun z => Qle_bool x z)) by (intro; apply inc_le).
  Qed.
  Lemma inc_sort (le : Q -> Q -> bool) (l : list (nat * Q)) : (forall x y, le (f x) (f y) = le x y) ->
    isort (fun a b => le (snd a) (snd b)) (map (fun p => (fst p, f (snd p))) l) = map (fun p => (fst p, f (snd p))) (isort (fun a b => le (snd a) (snd b)) l).
  Proof.
    intro E. assert (J : forall x l, insert (fun a b => le (snd a) (snd b)) (fst x, f (snd x)) (map (fun p => (fst p, f (snd p))) l) =
      map (fun p => (fst p, f (snd p))) (insert (fun a b : nat * Q => le (snd a) (snd b)) x l)).
    { intro x. clear l. induction l as [|y l IH]; [reflexivity|]. cbn. rewrite E. destruct (le (snd x) (snd y)); cbn; [reflexivity|]. now rewrite IH. }
    induction l as [|x l IH]; [reflexivity|]. cbn [isort map]. now rewrite IH, J.
  Qed.
  Lemma inc_index s : sort_index (map f s) = sort_index s.
  Proof.
    unfold sort_index. rewrite map_length.
    assert (E : combine (seq 0 (List.length s)) (map f s) = map (fun p => (fst p, f (snd p))) (combine (seq 0 (List.length s)) s)).
    { generalize (seq 0 (List.length s)). clear. intro l. revert s. induction l; intros [|q s]; cbn; auto. now rewrite IHl. }
    rewrite E, (inc_sort Qle_bool) by apply inc_le. rewrite map_map. reflexivity.
  Qed.
  Lemma inc_ap y s : ap_row y (map f s) = ap_row y s.
  Proof. unfold ap_row. rewrite inc_index, map_length. reflexivity. Qed.
  Lemma inc_class y s : class_auc y (map f s) = class_auc y s.
  Proof.
    unfold class_auc.
    assert (E : forall g, map snd (filter (fun p : Z * Q => g (fst p)) (combine y (map f s))) = map f (map snd (filter (fun p => g (fst p)) (combine y s)))).
    { intro g. revert s. induction y as [|v y IH]; intros [|q s]; cbn; auto. destruct (g v); cbn; auto. now rewrite IH. }
    assert (C : forall P N, count (fun p => negb (Qle_bool (fst p) (snd p))) (list_prod (map f P) (map f N)) = count (fun p => negb (Qle_bool (fst p) (snd p))) (list_prod P N)).
    { intros P N. rewrite !(count_prod (fun a b => negb (Qle_bool a b))), map_map. f_equal. apply map_ext. intro x. apply inc_count. intro z. now rewrite inc_le. }
    cbn zeta. rewrite (E (fun z => z =? 1)), (E (fun z => negb (z =? 1))), C, !map_length. reflexivity.
  Qed.
End Scale.

(** Row by row. *)
Lemma re_rows {A} (a : list A) s s' {C} (g : A * list Q -> C) : (forall y f r, increasing f -> g (y, map f r) = g (y, r)) -> rescaled s s' ->
  map g (combine a s) = map g (combine a s').
Proof.
  intros E R. revert a. induction R as [|r r' s s' (f & I & ->) R IH]; intros [|y a]; cbn; auto. now rewrite E, IH.
Qed.
Lemma rescaled_length s s' : rescaled s s' -> List.length s = List.length s'.
Proof. induction 1; cbn; auto. Qed.
Lemma rescaled_hd s s' : rescaled s s' -> List.length (hd [] s) = List.length (hd [] s').
Proof. intro R. destruct R as [|r r' ? ? (f & _ & ->) _]; cbn; [reflexivity|]. now rewrite map_length. Qed.
Lemma rescaled_shape {A} (a : list (list A)) s s' : rescaled s s' -> shape_eqb (shape a) (shape s') = shape_eqb (shape a) (shape s).
Proof. intro R. unfold shape. now rewrite (rescaled_length _ _ R), (rescaled_hd _ _ R). Qed.

Lemma scale_coverage t s s' w : rescaled s s' -> coverage_error t s' w = coverage_error t s w.
Proof.
  intro R. unfold coverage_error. rewrite <- (rescaled_length _ _ R). destruct (guard _ _) as [[]|]; cbn [bind]; auto. destruct (type_of_target t) as [ty|]; cbn [bind]; auto.
  destruct t as [v|a]; auto. destruct ty; auto. rewrite (rescaled_shape a s s' R). destruct (guard _ _) as [[]|]; cbn [bind]; auto. f_equal. symmetry.
  apply (re_rows a s s' (fun p => qn (coverage_row (fst p) (snd p)))); auto. intros y f r I. cbn. now rewrite inc_coverage.
Qed.
Lemma scale_ranking t s s' w : rescaled s s' -> label_ranking_loss t s' w = label_ranking_loss t s w.
Proof.
  intro R. unfold label_ranking_loss. rewrite <- (rescaled_length _ _ R). destruct (guard _ _) as [[]|]; cbn [bind]; auto. destruct (type_of_target t) as [ty|]; cbn [bind]; auto.
  destruct t as [v|a]; auto. destruct ty; auto. rewrite (rescaled_shape a s s' R). destruct (guard _ _) as [[]|]; cbn [bind]; auto. f_equal. symmetry.
  apply (re_rows a s s' (fun p => ranking_row (List.length (hd [] a)) (fst p) (snd p))); auto. intros y f r I. cbn. now rewrite inc_ranking.
Qed.
Lemma scale_lrap t s s' w : rescaled s s' -> lrap_score t s' w = lrap_score t s w.
Proof.
  intro R. unfold lrap_score. rewrite <- (rescaled_length _ _ R). destruct (guard _ _) as [[]|]; cbn [bind]; auto.
  destruct t as [v|a]; auto. rewrite (rescaled_shape a s s' R). destruct (guard _ _) as [[]|]; cbn [bind]; auto.
  rewrite <- (re_rows a s s' (fun p => lrap_row (List.length (hd [] a)) (fst p) (snd p))); auto. intros y f r I. cbn. now rewrite inc_lrap.
Qed.
Lemma scale_ap t s s' w : rescaled s s' -> average_precision_score t s' w = average_precision_score t s w.
Proof.
  intro R. unfold average_precision_score. rewrite <- (rescaled_length _ _ R). destruct (guard _ _) as [[]|]; cbn [bind]; auto.
  destruct t as [v|a]; auto. rewrite (rescaled_shape a s s' R). destruct (guard _ _) as [[]|]; cbn [bind]; auto.
  unfold shape. cbn [snd]. rewrite <- (rescaled_hd _ _ R).
  assert (E : forall k, map (fun p => ap_row (fst p) (snd p)) (filter (fun p : list Z * list Q => k (fst p)) (combine a s')) =
                        map (fun p => ap_row (fst p) (snd p)) (filter (fun p => k (fst p)) (combine a s))).
  { intro k. revert a. clear -R. induction R as [|r r' s s' (f & I & ->) R IH]; intros [|y a]; cbn; auto. destruct (k y); cbn; auto. now rewrite (inc_ap f I), IH. }
  rewrite (E (fun y => negb (zsum y =? Z.of_nat (List.length (hd [] s))) && negb (zsum y =? 0))%bool). reflexivity.
Qed.

(** ** Classes under other names *)
Section Names.
  Context (f : Z -> Z) (I : renaming f).
  Lemma name_eqb x y : (f x =? f y) = (x =? y).
  Proof. destruct (Z.eqb_spec x y) as [->|N]; [apply Z.eqb_refl|]. apply Z.eqb_neq. intro H. apply N, I, H. Qed.
  Lemma name_unique l : n_unique (map f l) = n_unique l.
  Proof.
    unfold n_unique. assert (E : forall l, List.length (nodup Z.eq_dec (map f l)) = List.length (map f (nodup Z.eq_dec l))).
    { clear l. intro l. apply Permutation_length. apply NoDup_Permutation; [apply NoDup_nodup| |].
      - apply FinFun.Injective_map_NoDup; [exact I|apply NoDup_nodup].
      - intro x. rewrite nodup_In, !in_map_iff. split; intros (z & E & J); exists z; split; auto; apply (nodup_In Z.eq_dec); auto. }
    rewrite E. apply map_length.
  Qed.
  Definition named (t : target) : target := match t with T1 v => T1 (map f v) | T2 r => T2 (map (map f) r) end.
  Lemma name_ravel t : ravel (named t) = map f (ravel t).
  Proof. destruct t; cbn; auto. symmetry. apply concat_map. Qed.
  Lemma name_samples t : num_samples (named t) = num_samples t. Proof. destruct t; cbn; apply map_length. Qed.
  Lemma name_type t : type_of_target (named t) = type_of_target t.
  Proof. unfold type_of_target. rewrite name_ravel, name_unique. destruct (Nat.leb _ _); auto. destruct t as [v|[|r a]]; cbn; auto. now rewrite map_length. Qed.
  Lemma name_row r r' : row_eqb (map f r) (map f r') = row_eqb r r'.
  Proof.
    apply eq_true_iff_eq. rewrite !row_eqb_eq. split; [|now intros ->]. revert r'. induction r as [|x r IH]; intros [|y r'] H; try discriminate; auto.
    injection H as H1 H2. f_equal; auto.
  Qed.
  Lemma name_check t p : check_targets (named t) (named p) =
    match check_targets t p with Ok (ty, u, v) => Ok (ty, named u, named v) | Err e => Err e end.
  Proof.
    unfold check_targets. rewrite !name_samples, !name_type, !name_ravel, <- map_app, name_unique. destruct (guard _ _) as [[]|]; cbn [bind]; auto.
    destruct (type_of_target t) as [[]|]; cbn [bind]; auto; destruct (type_of_target p) as [[]|]; cbn [bind]; auto; destruct t; reflexivity.
  Qed.
  Lemma hd_named (a : list (list Z)) : List.length (hd [] (map (map f) a)) = List.length (hd [] a).
  Proof. destruct a; cbn; auto. apply map_length. Qed.
  Lemma name_accuracy t p w : accuracy_score (named t) (named p) w = accuracy_score t p w.
  Proof.
    unfold accuracy_score. rewrite name_check. destruct (check_targets t p) as [[[ty u] v]|]; cbn [bind]; auto. rewrite !name_samples.
    destruct (guard _ _) as [[]|]; cbn [bind]; auto.
    assert (E : forall x y, map (fun q => b2q (fst q =? snd q)) (combine (map f x) (map f y)) = map (fun q => b2q (fst q =? snd q)) (combine x y)).
    { intros x y. rewrite combine_maps, map_map. apply map_ext. intros [i j]. cbn. now rewrite name_eqb. }
    destruct ty, u as [x|a], v as [y|b]; cbn [named ravel]; rewrite <- ?concat_map, ?E; try reflexivity.
    rewrite !hd_named. destruct (guard _ _) as [[]|]; cbn [bind]; auto. f_equal. rewrite combine_maps, map_map. apply map_ext. intros [i j]. cbn. now rewrite name_row.
  Qed.
  Lemma name_loss t p nz w : zero_one_loss (named t) (named p) nz w = zero_one_loss t p nz w.
  Proof. unfold zero_one_loss. now rewrite name_accuracy, name_samples. Qed.
  Lemma name_diff_list x y : n_diff_list (map f x) (map f y) = n_diff_list x y.
  Proof.
    unfold n_diff_list, count. rewrite combine_maps. induction (combine x y) as [|[i j] l IH]; [reflexivity|]. cbn. rewrite name_eqb. destruct (i =? j); cbn; auto.
  Qed.
  Lemma name_hamming t p : match t, p with T1 _, T1 _ | T2 _, T2 _ => True | _, _ => False end -> hamming_loss (named t) (named p) = hamming_loss t p.
  Proof.
    intro K. unfold hamming_loss. rewrite name_check. destruct (check_targets t p) as [[[ty u] v]|]; cbn [bind]; auto.
    assert (D : n_diff (named t) (named p) = n_diff t p).
    { destruct t as [x|a], p as [y|b]; try contradiction; cbn; [now rewrite name_diff_list|]. rewrite !hd_named, <- !concat_map, name_diff_list. reflexivity. }
    rewrite D. destruct (n_diff t p); cbn [bind]; auto. destruct ty, t; cbn [named]; rewrite ?hd_named, ?map_length; auto; cbn; rewrite ?map_length; auto.
  Qed.
End Names.

(** ** The columns in another order *)
Lemma col_perm {A} js (r r' : list A) : Permutation js (seq 0 (List.length r)) -> List.length r' = List.length js ->
  (forall k j, nth_error js k = Some j -> nth_error r' k = nth_error r j) -> map Some r' = map (nth_error r) js.
Proof.
  intros P L H. clear P. revert r' L H. induction js as [|j js IH]; intros [|x r'] L H; try discriminate; auto. cbn. f_equal.
  - apply (H 0%nat j eq_refl).
  - apply IH; [now injection L|]. intros k i E. apply (H (S k) i E).
Qed.
Lemma nth_all {A} (r : list A) : map (nth_error r) (seq 0 (List.length r)) = map Some r.
Proof.
  induction r as [|x r IH]; [reflexivity|]. cbn [List.length seq map]. f_equal. rewrite <- seq_shift, map_map. exact IH.
Qed.
Lemma some_perm {A} (l l' : list A) : Permutation (map Some l) (map Some l') -> Permutation l l'.
Proof.
  intro P. apply Permutation_map_inv in P. destruct P as (l1 & E & P). assert (l = l1); [|subst; auto using Permutation_sym].
  clear P. revert l1 E. induction l as [|x l IH]; intros [|y l1] E; try discriminate; auto. injection E as -> E. f_equal; auto.
Qed.
Lemma col_rows {A B} js (r r' : list A) (q q' : list B) : List.length r = List.length q -> Permutation js (seq 0 (List.length r)) ->
  List.length r' = List.length js -> (forall k j, nth_error js k = Some j -> nth_error r' k = nth_error r j) ->
  List.length q' = List.length js -> (forall k j, nth_error js k = Some j -> nth_error q' k = nth_error q j) ->
  Permutation (combine r q) (combine r' q').
Proof.
  intros L P L1 H1 L2 H2. apply Permutation_sym, some_perm.
  assert (E : map Some (combine r' q') = map (nth_error (combine r q)) js).
  { apply (col_perm js (combine r q) (combine r' q')).
    - rewrite combine_length, <- L, Nat.min_id. exact P.
    - rewrite combine_length. lia.
    - intros k j E. assert (J : (j < List.length r)%nat).
      { apply nth_error_In in E. apply (Permutation_in j P) in E. apply in_seq in E. lia. }
      destruct (nth_error r j) as [x|] eqn:X; [|apply nth_error_None in X; lia]. destruct (nth_error q j) as [y|] eqn:Y; [|apply nth_error_None in Y; lia].
      transitivity (Some (x, y)); [|symmetry]; apply combine_nth_both; split; auto.
      + now rewrite (H1 k j E).
      + now rewrite (H2 k j E). }
  rewrite E, <- (nth_all (combine r q)). apply Permutation_map. rewrite combine_length, <- L, Nat.min_id. exact P.
Qed.
Lemma col_row {A} js (r r' : list A) : Permutation js (seq 0 (List.length r)) ->
  List.length r' = List.length js -> (forall k j, nth_error js k = Some j -> nth_error r' k = nth_error r j) -> Permutation r r'.
Proof.
  intros P L H. apply Permutation_sym, some_perm. rewrite (col_perm js r r' P L H), <- (nth_all r). now apply Permutation_map.
Qed.
