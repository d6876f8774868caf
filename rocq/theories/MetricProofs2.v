(** Accuracy, zero-one loss and Hamming loss. *)
From Verif Require Import Base BaseFacts MiscModel MiscSpec MiscProofs MetricModel MetricSpec MetricProofs.
From Coq Require Import QArith Lqa Qfield.
Local Open Scope Z_scope.

Lemma type_vector v : exists ty, type_of_target (T1 v) = Ok ty /\ ty <> Multilabel.
Proof. unfold type_of_target. destruct (Nat.leb (n_unique (ravel (T1 v))) 2); eexists; split; eauto; discriminate. Qed.
Lemma type_multilabel a n m : matrix a n m -> (0 < n)%nat -> (1 < m)%nat -> two_valued a -> type_of_target (T2 a) = Ok Multilabel.
Proof.
  intros M N MM T. apply two_valued_rows in T. unfold type_of_target. cbn [ravel]. apply Nat.leb_le in T. rewrite T.
  pose proof (hd_length _ _ _ M N) as H. destruct a as [|r a]; [destruct M as [M _]; cbn in M; lia|]. cbn in H. rewrite H.
  apply Nat.ltb_lt in MM. now rewrite MM.
Qed.
Lemma type_multiclass a : ~ two_valued a -> type_of_target (T2 a) = Ok Multiclass.
Proof.
  intro T. unfold type_of_target. cbn [ravel]. destruct (Nat.leb (n_unique (List.concat a)) 2) eqn:E; auto. apply Nat.leb_le, two_valued_rows in E. contradiction.
Qed.
Lemma type_column v : v <> [] -> type_of_target (T2 (map (fun x => [x]) v)) = type_of_target (T1 v).
Proof.
  intro NE. unfold type_of_target. cbn [ravel]. assert (E : List.concat (map (fun x => [x]) v) = v) by (clear; induction v; cbn; congruence).
  rewrite E. destruct v; [congruence|]. reflexivity.
Qed.

Lemma check_vectors a b : List.length a = List.length b ->
  exists ty, check_targets (T1 a) (T1 b) = Ok (ty, T1 a, T1 b) /\ ty <> Multilabel.
Proof.
  intro L. unfold check_targets. cbn [num_samples ravel]. unfold same_length. rewrite L, Nat.eqb_refl. cbn [andb guard bind].
  destruct (type_vector a) as (t & -> & T), (type_vector b) as (p & -> & P). cbn [bind].
  destruct t, p; try congruence; eexists; (split; [reflexivity|]); try discriminate. match goal with |- context [Nat.ltb 2 ?x] => destruct (Nat.ltb 2 x); discriminate end.
Qed.
Lemma check_multilabel a b n m : matrix a n m -> matrix b n m -> (0 < n)%nat -> (1 < m)%nat -> two_valued a -> two_valued b ->
  check_targets (T2 a) (T2 b) = Ok (Multilabel, T2 a, T2 b).
Proof.
  intros MA MB N MM TA TB. unfold check_targets. cbn [num_samples]. unfold same_length. destruct MA as [LA FA], MB as [LB FB].
  rewrite LA, LB, Nat.eqb_refl. cbn [andb guard bind].
  rewrite (type_multilabel a n m), (type_multilabel b n m); auto; split; auto.
Qed.
Lemma check_multiclass a b n m : matrix a n m -> matrix b n m -> ~ two_valued a -> ~ two_valued b ->
  check_targets (T2 a) (T2 b) = Ok (Multiclass, T1 (List.concat a), T1 (List.concat b)).
Proof.
  intros MA MB TA TB. unfold check_targets. cbn [num_samples]. unfold same_length. destruct MA as [LA FA], MB as [LB FB].
  rewrite LA, LB, Nat.eqb_refl. cbn [andb guard bind].
  now rewrite (type_multiclass a), (type_multiclass b).
Qed.

Definition weights_fit (w : option (list Q)) (n : nat) : Prop := match w with Some w => List.length w = n | None => True end.
Lemma same_length_ok n w : weights_fit w n -> same_length n n w = true.
Proof. intro H. unfold same_length. rewrite Nat.eqb_refl. destruct w; cbn in *; auto. now apply Nat.eqb_eq. Qed.
Lemma same_length_true n m w : same_length n m w = true <-> n = m /\ weights_fit w n.
Proof.
  unfold same_length. rewrite andb_true_iff, Nat.eqb_eq. destruct w as [w|]; cbn.
  - now rewrite Nat.eqb_eq.
  - tauto.
Qed.

Lemma accuracy_vectors a b w : List.length a = List.length b -> weights_fit w (List.length a) ->
  accuracy_score (T1 a) (T1 b) w = average (map (fun p => b2q (fst p =? snd p)) (combine a b)) w.
Proof.
  intros L W. unfold accuracy_score. destruct (check_vectors a b L) as (ty & -> & T). cbn [bind num_samples].
  rewrite <- L, same_length_ok by auto. cbn [guard bind]. destruct ty; [reflexivity|reflexivity|congruence].
Qed.
Lemma accuracy_matrices a b n m w : matrix a n m -> matrix b n m -> (0 < n)%nat -> (1 < m)%nat -> two_valued a -> two_valued b ->
  weights_fit w n ->
  accuracy_score (T2 a) (T2 b) w = average (map (fun p => b2q (row_eqb (fst p) (snd p))) (combine a b)) w.
Proof.
  intros MA MB N MM TA TB W. unfold accuracy_score. rewrite (check_multilabel a b n m) by auto. cbn [bind num_samples].
  pose proof (hd_length _ _ _ MA N) as HA. pose proof (hd_length _ _ _ MB N) as HB. destruct MA as [LA FA], MB as [LB FB].
  rewrite LA, LB, same_length_ok by auto. cbn [guard bind]. rewrite HA, HB, Nat.eqb_refl. reflexivity.
Qed.

(** Positions at which two lists agree. *)
Lemma combine_nth_both {A B} (a : list A) (b : list B) i x y : nth_error (combine a b) i = Some (x, y) <->
  nth_error a i = Some x /\ nth_error b i = Some y.
Proof.
  revert b i. induction a as [|u a IH]; intros b i.
  - destruct i; cbn; split; [discriminate|intros [J _]; discriminate|discriminate|intros [J _]; discriminate].
  - destruct b as [|v b].
    + destruct i; cbn; split; try discriminate; intros [_ J]; discriminate.
    + destruct i as [|i]; cbn; [|apply IH]. split; [intro J; injection J as -> ->; auto|intros [J K]; congruence].
Qed.
Lemma combine_ne {A B} (a : list A) (b : list B) : List.length a = List.length b -> a <> [] -> combine a b <> [].
Proof. destruct a, b; cbn; congruence. Qed.
Lemma row_eqb_eq a b : row_eqb a b = true <-> a = b.
Proof. unfold row_eqb. destruct (list_eq_dec Z.eq_dec a b); split; congruence. Qed.

Lemma hm_agree {A} (eqb : A -> A -> bool) (H : forall x y, eqb x y = true <-> x = y) (a b : list A) :
  how_many (fun i => exists x, nth_error a i = Some x /\ nth_error b i = Some x) (count (fun p => eqb (fst p) (snd p)) (combine a b)).
Proof.
  eapply hm_ext; [|apply hm_count]. intro i. cbv beta. split.
  - intros ([x y] & J & E). cbn in E. apply H in E. subst y. apply combine_nth_both in J. destruct J. eauto.
  - intros (x & J & K). exists (x, x). cbn. rewrite H. split; auto. now apply combine_nth_both.
Qed.
Lemma hm_differ {A} (eqb : A -> A -> bool) (H : forall x y, eqb x y = true <-> x = y) (a b : list A) :
  how_many (fun i => exists x y, nth_error a i = Some x /\ nth_error b i = Some y /\ x <> y)
           (count (fun p => negb (eqb (fst p) (snd p))) (combine a b)).
Proof.
  eapply hm_ext; [|apply hm_count]. intro i. cbv beta. split.
  - intros ([x y] & J & E). cbn in E. exists x, y. apply combine_nth_both in J. destruct J. repeat split; auto.
    intros ->. assert (eqb y y = true) by now apply H. rewrite H2 in E. discriminate.
  - intros (x & y & J & K & NE). exists (x, y). cbn. split; [now apply combine_nth_both|].
    destruct (eqb x y) eqn:E; auto. apply H in E. congruence.
Qed.
Lemma agree_all {A} (eqb : A -> A -> bool) (H : forall x y, eqb x y = true <-> x = y) (a b : list A) : List.length a = List.length b ->
  count (fun p => eqb (fst p) (snd p)) (combine a b) = List.length a <-> a = b.
Proof.
  revert b. induction a as [|x a IH]; intros [|y b] L; try discriminate; [split; auto|]. cbn [combine]. rewrite count_cons. cbn [fst snd].
  injection L as L. pose proof (count_le (fun p => eqb (fst p) (snd p)) (combine a b)) as C. rewrite combine_length, <- L, Nat.min_id in C.
  specialize (IH b L). destruct (eqb x y) eqn:E; cbn [List.length].
  - apply H in E. subst y. split; [intro J; f_equal; apply IH; lia|intro J; injection J as J; apply IH in J; lia].
  - split; [lia|]. intro J. injection J as -> ->. assert (eqb y y = true) by now apply H. congruence.
Qed.

(** The general form: fraction of agreeing positions. *)
Lemma agree_fraction {A} (eqb : A -> A -> bool) (H : forall x y, eqb x y = true <-> x = y) (a b : list A) :
  List.length a = List.length b -> a <> [] ->
  exists q k, average (map (fun p => b2q (eqb (fst p) (snd p))) (combine a b)) None = Ok (Num q) /\
    how_many (fun i => exists x, nth_error a i = Some x /\ nth_error b i = Some x) k /\ (q == ratio k (List.length a))%Q /\
    (k <= List.length a)%nat /\ (k = List.length a <-> a = b).
Proof.
  intros L NE. pose proof (combine_ne a b L NE) as NC.
  rewrite average_none by (destruct (combine a b); [congruence|discriminate]).
  exists (mean (map (fun p => b2q (eqb (fst p) (snd p))) (combine a b))), (count (fun p => eqb (fst p) (snd p)) (combine a b)).
  split; [reflexivity|]. split; [now apply hm_agree|]. split; [|split].
  - unfold mean, ratio. rewrite (total_b2q (fun p => eqb (fst p) (snd p))). rewrite map_length, combine_length, <- L, Nat.min_id. reflexivity.
  - pose proof (count_le (fun p => eqb (fst p) (snd p)) (combine a b)) as C. now rewrite combine_length, <- L, Nat.min_id in C.
  - now apply agree_all.
Qed.

(** Weighted form. *)
Lemma agree_weighted {A} (eqb : A -> A -> bool) (H : forall x y, eqb x y = true <-> x = y) (a b : list A) w :
  List.length a = List.length b -> a <> [] -> ~ (total w == 0)%Q ->
  exists q, average (map (fun p => b2q (eqb (fst p) (snd p))) (combine a b)) (Some w) = Ok (Num q) /\
    averages (fun p => indicates (fst p = snd p)) (combine a b) (Some w) q.
Proof.
  intros L NE W. apply average_rows; auto; [|now apply combine_ne].
  intros [x y] _. cbn [fst snd]. destruct (eqb x y) eqn:E; split; cbn; try reflexivity.
  - intro J. apply H in E. contradiction.
  - intros ->. assert (eqb y y = true) by now apply H. congruence.
Qed.

(** ** Hamming loss *)
Lemma concat_length_matrix {A} (a : list (list A)) n m : matrix a n m -> List.length (List.concat a) = (n * m)%nat.
Proof.
  intros [<- F]. induction F as [|r a L F IH]; [reflexivity|]. cbn. rewrite app_length, IH, L. reflexivity.
Qed.
Lemma concat_combine {A B} (a : list (list A)) (b : list (list B)) m :
  Forall (fun r => List.length r = m) a -> Forall (fun r => List.length r = m) b -> List.length a = List.length b ->
  combine (List.concat a) (List.concat b) = List.concat (map (fun p => combine (fst p) (snd p)) (combine a b)).
Proof.
  intro F. revert b. induction F as [|r a L F IH]; intros b FB LL; [reflexivity|].
  destruct FB as [|s b LB FB]; [discriminate|]. cbn. rewrite <- IH by (auto; cbn in LL; lia).
  assert (E : List.length r = List.length s) by congruence. clear -E. revert s E. induction r as [|x r IH]; intros [|y s] E; try discriminate; auto.
  cbn. f_equal. apply IH. cbn in E. lia.
Qed.
Lemma count_concat {A} (f : A -> bool) l : count f (List.concat l) = list_sum (map (count f) l).
Proof. induction l as [|x l IH]; [reflexivity|]. cbn [List.concat map list_sum fold_right]. now rewrite count_app, IH. Qed.

Lemma hm_cells (a b : list (list Z)) n m : matrix a n m -> matrix b n m ->
  how_many (fun ij => exists x y, cell a (fst ij) (snd ij) x /\ cell b (fst ij) (snd ij) y /\ x <> y)
           (n_diff_list (List.concat a) (List.concat b)).
Proof.
  intros [LA FA] [LB FB]. unfold n_diff_list. rewrite (concat_combine a b m) by (auto; congruence). rewrite count_concat, map_map.
  eapply hm_ext; [|apply (hm_sigma (fun rs j => exists x y, nth_error (fst rs) j = Some x /\ nth_error (snd rs) j = Some y /\ x <> y))].
  - intros [i j]. cbn [fst snd]. split.
    + intros ([r s] & J & x & y & X & Y & N). apply combine_nth_both in J. destruct J as [J K]. exists x, y. unfold cell. cbn in X, Y. eauto 8.
    + intros (x & y & (r & J & X) & (s & K & Y) & N). exists (r, s). rewrite combine_nth_both. cbn. eauto 8.
  - intros [r s] _. cbn [fst snd]. apply (hm_differ Z.eqb Z.eqb_eq).
Qed.
Lemma diff_zero a b : List.length a = List.length b -> n_diff_list a b = O <-> a = b.
Proof.
  revert b. unfold n_diff_list. induction a as [|x a IH]; intros [|y b] L; try discriminate; [split; auto|]. cbn [combine]. rewrite count_cons. cbn [fst snd].
  injection L as L. specialize (IH b L). destruct (Z.eqb_spec x y) as [->|NE]; cbn [negb].
  - cbn. rewrite IH. split; [intros ->; auto|intro J; injection J; auto].
  - split; [lia|congruence].
Qed.
Lemma diff_sym a b : n_diff_list a b = n_diff_list b a.
Proof.
  revert b. unfold n_diff_list. induction a as [|x a IH]; intros [|y b]; try reflexivity. cbn [combine]. rewrite !count_cons, IH. cbn [fst snd].
  now rewrite Z.eqb_sym.
Qed.
Lemma diff_tri a b c : List.length a = List.length b -> (n_diff_list a c <= n_diff_list a b + n_diff_list b c)%nat.
Proof.
  revert b c. unfold n_diff_list. induction a as [|x a IH]; intros [|y b] [|z c] L; try discriminate; try (cbn; lia).
  cbn [combine]. rewrite !count_cons. cbn [fst snd]. injection L as L. specialize (IH b c L).
  destruct (Z.eqb_spec x z), (Z.eqb_spec x y), (Z.eqb_spec y z); cbn [negb]; try lia; congruence.
Qed.
Lemma diff_le a b : (n_diff_list a b <= List.length a)%nat.
Proof. unfold n_diff_list. pose proof (count_le (fun p => negb (fst p =? snd p)) (combine a b)) as C. rewrite combine_length in C. lia. Qed.
Lemma concat_inj {A} (a b : list (list A)) n m : matrix a n m -> matrix b n m -> List.concat a = List.concat b -> a = b.
Proof.
  intros [LA FA] [LB FB]. assert (L : List.length a = List.length b) by congruence. clear LA LB. revert b L FB.
  induction FA as [|r a LR FA IH]; intros b L FB E; destruct FB as [|s b LS FB]; try discriminate; auto.
  cbn in E. assert (r = s /\ List.concat a = List.concat b) as [-> E'].
  { assert (LL : List.length r = List.length s) by congruence. revert E LL. generalize (List.concat a), (List.concat b). clear.
    revert s. induction r as [|x r IH]; intros [|y s] u v E L; try discriminate; auto. cbn in E. injection E as -> E.
    apply IH in E; [|cbn in L; lia]. destruct E. split; congruence. }
  f_equal. apply IH; auto.
Qed.

Lemma hamming_vectors a b : List.length a = List.length b -> a <> [] ->
  hamming_loss (T1 a) (T1 b) = Ok (Num (ratio (n_diff_list a b) (List.length a))).
Proof.
  intros L NE. unfold hamming_loss. destruct (check_vectors a b L) as (ty & -> & T). cbn [bind n_diff num_samples].
  destruct ty; [| |congruence]; (rewrite fdiv_num; [reflexivity|]; fold (nat_q (List.length a)); rewrite nat_q_0; destruct a; [congruence|discriminate]).
Qed.
Lemma hamming_matrices a b n m : matrix a n m -> matrix b n m -> (0 < n)%nat -> (1 < m)%nat -> two_valued a -> two_valued b ->
  hamming_loss (T2 a) (T2 b) = Ok (Num (ratio (n_diff_list (List.concat a) (List.concat b)) (n * m))).
Proof.
  intros MA MB N MM TA TB. unfold hamming_loss. rewrite (check_multilabel a b n m) by auto. cbn [bind n_diff].
  rewrite (hd_length a n m), (hd_length b n m) by auto. rewrite Nat.eqb_refl. cbn [bind]. rewrite (proj1 MA).
  rewrite fdiv_num; [reflexivity|]. fold (nat_q (n * m)). rewrite nat_q_0. nia.
Qed.
Lemma hamming_multiclass a b n m : matrix a n m -> matrix b n m -> (0 < n)%nat -> ~ two_valued a -> ~ two_valued b ->
  hamming_loss (T2 a) (T2 b) = Ok (Num (ratio (n_diff_list (List.concat a) (List.concat b)) n)).
Proof.
  intros MA MB N TA TB. unfold hamming_loss. rewrite (check_multiclass a b n m) by auto. cbn [bind n_diff].
  rewrite (hd_length a n m), (hd_length b n m) by auto. rewrite Nat.eqb_refl. cbn [bind num_samples]. rewrite (proj1 MA).
  rewrite fdiv_num; [reflexivity|]. fold (nat_q n). rewrite nat_q_0. lia.
Qed.
