(** Counting, sorting and averaging lemmas for the metrics. *)
From Verif Require Import Base BaseFacts MiscModel MiscSpec MiscProofs MetricModel MetricSpec.
From Coq Require Import QArith Lqa Qfield.
Local Open Scope Z_scope.

(** ** how_many *)
Lemma hm_unique {A} (P : A -> Prop) k k' : how_many P k -> how_many P k' -> k = k'.
Proof.
  intros (l & N & <- & H) (l' & N' & <- & H'). apply Permutation_length. apply NoDup_Permutation; auto.
  intro x. now rewrite H, H'.
Qed.
Lemma hm_ext {A} (P R : A -> Prop) k : (forall x, P x <-> R x) -> how_many P k -> how_many R k.
Proof. intros E (l & N & L & H). exists l. repeat split; auto; intro J; [now apply E, H|apply H, E, J]. Qed.
Lemma hm_zero {A} (P : A -> Prop) : (forall x, ~ P x) -> how_many P 0.
Proof. intro H. exists []. repeat split; [constructor| |]; intro J; [destruct J|now apply H in J]. Qed.
Lemma hm_zero_inv {A} (P : A -> Prop) : how_many P 0 -> forall x, ~ P x.
Proof. intros (l & N & L & H) x J. apply H in J. destruct l; [destruct J|discriminate]. Qed.
Lemma hm_le {A} (P R : A -> Prop) k k' : (forall x, P x -> R x) -> how_many P k -> how_many R k' -> (k <= k')%nat.
Proof.
  intros I (l & N & <- & H) (l' & N' & <- & H'). apply NoDup_incl_length; auto. intros x J. apply H', I, H, J.
Qed.

Lemma hm_count {A} (f : A -> bool) (l : list A) :
  how_many (fun i => exists x, nth_error l i = Some x /\ f x = true) (count f l).
Proof.
  induction l as [|x l (L & N & E & H)].
  - apply hm_zero. intros [|i] (x & J & _); discriminate.
  - exists ((if f x then [O] else []) ++ map S L). rewrite count_cons. repeat split.
    + apply NoDup_app_intro.
      * destruct (f x); repeat constructor; auto.
      * apply FinFun.Injective_map_NoDup; auto. intros a b J; lia.
      * intros y J1 J2. apply in_map_iff in J2. destruct J2 as (z & <- & _). destruct (f x); [destruct J1 as [J1|[]]; discriminate|destruct J1].
    + rewrite app_length, map_length, E. destruct (f x); reflexivity.
    + intro J. apply in_app_iff in J. destruct J as [J|J].
      * destruct (f x) eqn:F; [destruct J as [<-|[]]|destruct J]. exists x. auto.
      * apply in_map_iff in J. destruct J as (i & <- & J). now apply H in J.
    + intros (z & J & F). destruct x0 as [|i]; cbn in J.
      * injection J as <-. rewrite F. now left.
      * apply in_app_iff. right. apply in_map. apply H. eauto.
Qed.

(** Counting pairs: the second component ranges over what the first one's element admits. *)
Lemma hm_sigma {A B} (R : A -> B -> Prop) (g : A -> nat) (l : list A) :
  (forall x, In x l -> how_many (R x) (g x)) ->
  how_many (fun ij => exists x, nth_error l (fst ij) = Some x /\ R x (snd ij)) (list_sum (map g l)).
Proof.
  induction l as [|x l IH]; intro H.
  - apply hm_zero. intros [[|i] j] (x & J & _); discriminate.
  - destruct IH as (L & N & E & HL); [intros y J; apply H; now right|].
    destruct (H x (or_introl eq_refl)) as (K & NK & EK & HK).
    exists (map (fun j => (O, j)) K ++ map (fun ij => (S (fst ij), snd ij)) L). repeat split.
    + apply NoDup_app_intro.
      * apply FinFun.Injective_map_NoDup; auto. intros a b J. congruence.
      * apply FinFun.Injective_map_NoDup; auto. intros [a1 a2] [b1 b2] J. cbn in J. congruence.
      * intros y J1 J2. apply in_map_iff in J1, J2. destruct J1 as (a & <- & _), J2 as (b & J2 & _). discriminate.
    + rewrite app_length, !map_length, E, EK. reflexivity.
    + intro J. apply in_app_iff in J. destruct J as [J|J]; apply in_map_iff in J; destruct J as (y & <- & J); cbn.
      * exists x. split; auto. now apply HK.
      * apply HL in J. exact J.
    + intros (z & J & F). destruct x0 as [[|i] j]; cbn in J, F; apply in_app_iff.
      * left. injection J as <-. apply in_map. now apply HK.
      * right. apply in_map_iff. exists (i, j). split; auto. apply HL. eauto.
Qed.

Lemma hm_prod {A B} (P : A -> Prop) (R : B -> Prop) p r : how_many P p -> how_many R r ->
  how_many (fun xy => P (fst xy) /\ R (snd xy)) (p * r).
Proof.
  intros (l & N & <- & H) (l' & N' & <- & H'). exists (list_prod l l'). repeat split.
  - clear H. induction l as [|x l IH]; [constructor|]. cbn. inversion N; subst. apply NoDup_app_intro; auto.
    + apply FinFun.Injective_map_NoDup; auto. intros a b J. congruence.
    + intros [a b] J1 J2. apply in_map_iff in J1. destruct J1 as (c & J1 & _). apply in_prod_iff in J2. destruct J2 as [J2 _]. congruence.
  - apply prod_length.
  - destruct x as [a b]. apply in_prod_iff in H0. cbn. now apply H.
  - destruct x as [a b]. apply in_prod_iff in H0. cbn. now apply H'.
  - destruct x as [a b]. intros [J1 J2]. apply in_prod_iff. split; [now apply H|now apply H'].
Qed.

Lemma count_prod {A B} (f : A -> B -> bool) l l' :
  count (fun p => f (fst p) (snd p)) (list_prod l l') = list_sum (map (fun x => count (f x) l') l).
Proof.
  induction l as [|x l IH]; [reflexivity|]. cbn [list_prod]. rewrite count_app, IH, count_map. reflexivity.
Qed.
Lemma hm_count_prod {A B} (f : A -> B -> bool) (l : list A) (l' : list B) :
  how_many (fun ij => exists x y, nth_error l (fst ij) = Some x /\ nth_error l' (snd ij) = Some y /\ f x y = true)
           (count (fun p => f (fst p) (snd p)) (list_prod l l')).
Proof.
  rewrite count_prod. eapply hm_ext; [|apply (hm_sigma (fun x j => exists y, nth_error l' j = Some y /\ f x y = true) (fun x => count (f x) l') l)].
  - intros [i j]. cbn. split; [intros (x & J & y & K & F); eauto|intros (x & y & J & K & F); eauto].
  - intros x _. apply hm_count.
Qed.

(** ** Ratios *)
Lemma nat_q_0 n : (nat_q n == 0)%Q <-> n = O.
Proof. unfold nat_q. split; [|intros ->; reflexivity]. unfold Qeq. cbn. lia. Qed.
Lemma nat_q_nonneg n : (0 <= nat_q n)%Q.
Proof. unfold nat_q. change 0%Q with (inject_Z 0). rewrite <- Zle_Qle. lia. Qed.
Lemma nat_q_pos n : (0 < n)%nat -> (0 < nat_q n)%Q.
Proof. intro H. unfold nat_q. change 0%Q with (inject_Z 0). rewrite <- Zlt_Qlt. lia. Qed.
Lemma nat_q_le a b : (nat_q a <= nat_q b)%Q <-> (a <= b)%nat.
Proof. unfold nat_q. rewrite <- Zle_Qle. lia. Qed.
Lemma nat_q_eq a b : (nat_q a == nat_q b)%Q <-> a = b.
Proof. unfold nat_q. split; [|intros ->; reflexivity]. unfold Qeq. cbn. lia. Qed.
Lemma nat_q_add a b : (nat_q (a + b) == nat_q a + nat_q b)%Q.
Proof. unfold nat_q. rewrite <- inject_Z_plus. now rewrite Nat2Z.inj_add. Qed.
Lemma nat_q_mul a b : (nat_q (a * b) == nat_q a * nat_q b)%Q.
Proof. unfold nat_q. rewrite <- inject_Z_mult. now rewrite Nat2Z.inj_mul. Qed.
Lemma qn_nat_q n : qn n = nat_q n. Proof. reflexivity. Qed.

Lemma ratio_bounds k n : (k <= n)%nat -> (0 < n)%nat -> (0 <= ratio k n <= 1)%Q.
Proof.
  intros K N. unfold ratio. pose proof (nat_q_pos n N) as H. pose proof (nat_q_nonneg k) as H1. pose proof (proj2 (nat_q_le k n) K) as H2.
  split.
  - apply Qle_shift_div_l; [auto|lra].
  - apply Qle_shift_div_r; [auto|lra].
Qed.
Lemma ratio_one k n : (0 < n)%nat -> (ratio k n == 1)%Q <-> k = n.
Proof.
  intros N. unfold ratio. pose proof (nat_q_pos n N) as H. rewrite <- (nat_q_eq k n). split; intro E.
  - assert (J : (nat_q k == nat_q k / nat_q n * nat_q n)%Q) by (field; lra). rewrite J, E. lra.
  - rewrite E. field. lra.
Qed.
Lemma ratio_zero k n : (0 < n)%nat -> (ratio k n == 0)%Q <-> k = O.
Proof.
  intros N. unfold ratio. pose proof (nat_q_pos n N) as H. rewrite <- (nat_q_0 k). split; intro E.
  - assert (J : (nat_q k == nat_q k / nat_q n * nat_q n)%Q) by (field; lra). rewrite J, E. lra.
  - rewrite E. field. lra.
Qed.

Lemma fdiv_num a b : ~ (b == 0)%Q -> fdiv a b = Num (a / b).
Proof. intro H. unfold fdiv. destruct (Qeq_bool b 0) eqn:E; auto. apply Qeq_bool_iff in E. contradiction. Qed.

Lemma qsum_total l : qsum l = total l. Proof. reflexivity. Qed.
Lemma qmean_mean l : qmean l = mean l. Proof. reflexivity. Qed.
Lemma total_b2q {A} (f : A -> bool) l : (total (map (fun x => b2q (f x)) l) == nat_q (count f l))%Q.
Proof.
  induction l as [|x l IH]; [reflexivity|]. cbn [map total fold_right]. fold (total (map (fun x => b2q (f x)) l)).
  rewrite IH, count_cons, nat_q_add. destruct (f x); cbn [b2q]; reflexivity.
Qed.

(** np.average *)
Lemma average_none xs : xs <> [] -> average xs None = Ok (Num (mean xs)).
Proof.
  intro NE. unfold average. rewrite fdiv_num; [reflexivity|]. unfold qlen.
  change (inject_Z (Z.of_nat (List.length xs))) with (nat_q (List.length xs)). rewrite nat_q_0. destruct xs; [congruence|discriminate].
Qed.
Lemma average_rows {A} (P : A -> Q -> Prop) (f : A -> Q) rows w : (forall r, In r rows -> P r (f r)) -> rows <> [] ->
  match w with Some w => ~ (total w == 0)%Q | None => True end ->
  exists q, average (map f rows) w = Ok (Num q) /\ averages P rows w q.
Proof.
  intros H NE W. assert (F : Forall2 P rows (map f rows)).
  { clear NE. induction rows as [|r rows IH]; cbn; constructor; [apply H; now left|apply IH; intros; apply H; now right]. }
  destruct w as [w|].
  - unfold average. destruct (Qeq_bool (qsum w) 0) eqn:E; [apply Qeq_bool_iff in E; contradiction|].
    eexists; split; [reflexivity|]. exists (map f rows). split; auto. cbv beta. rewrite !qsum_total. unfold Qdiv.
    rewrite <- Qmult_assoc, (Qmult_comm (/ _)), Qmult_inv_r by auto. apply Qmult_1_r.
  - rewrite average_none by (destruct rows; [congruence|discriminate]). eexists; split; [reflexivity|]. exists (map f rows). split; auto. reflexivity.
Qed.
Lemma average_zero xs w : (total w == 0)%Q -> average xs (Some w) = Err ZeroDivErr.
Proof. intro H. unfold average. apply Qeq_bool_iff in H. rewrite qsum_total. now rewrite H. Qed.

(** ** Sorting *)
Lemma insert_perm {A} (le : A -> A -> bool) x l : Permutation (insert le x l) (x :: l).
Proof. induction l as [|y l IH]; cbn; auto. destruct (le x y); auto. rewrite IH. apply perm_swap. Qed.
Lemma isort_perm {A} (le : A -> A -> bool) l : Permutation (isort le l) l.
Proof. induction l as [|x l IH]; cbn; auto. rewrite insert_perm. auto. Qed.
Lemma insert_sorted {A} (le : A -> A -> bool) (R : A -> A -> Prop) x l :
  (forall a b, le a b = true -> R a b) -> (forall a b, le a b = false -> R b a) -> (forall a b c, R a b -> R b c -> R a c) ->
  StronglySorted R l -> StronglySorted R (insert le x l).
Proof.
  intros T F Tr. induction 1 as [|y l S IH FA]; cbn.
  - repeat constructor.
  - destruct (le x y) eqn:E.
    + constructor; [constructor; auto|]. constructor; auto. rewrite Forall_forall in FA |- *. intros z J. eapply Tr; eauto.
    + constructor; auto. rewrite Forall_forall in FA |- *. intros z J. apply (Permutation_in _ (insert_perm le x l)) in J.
      destruct J as [<-|J]; auto.
Qed.
Lemma isort_sorted {A} (le : A -> A -> bool) (R : A -> A -> Prop) l :
  (forall a b, le a b = true -> R a b) -> (forall a b, le a b = false -> R b a) -> (forall a b c, R a b -> R b c -> R a c) ->
  StronglySorted R (isort le l).
Proof. intros. induction l; cbn; [constructor|]. now apply insert_sorted. Qed.
Lemma isort_id {A} (le : A -> A -> bool) l : Sorted (fun a b => le a b = true) l -> isort le l = l.
Proof. induction 1 as [|x l S IH H]; cbn; auto. rewrite IH. destruct H as [|y l E]; cbn; auto. now rewrite E. Qed.
Lemma sorted_rev {A} (R : A -> A -> Prop) l : StronglySorted R l -> StronglySorted (fun a b => R b a) (rev l).
Proof.
  induction 1 as [|x l S IH F]; cbn; [constructor|].
  assert (G : forall l', StronglySorted (fun a b => R b a) l' -> Forall (R x) l' -> StronglySorted (fun a b => R b a) (l' ++ [x])).
  { induction 1 as [|y l' S' IH' F']; cbn; intro FA; [repeat constructor|]. inversion FA; subst. constructor; auto.
    apply Forall_app. split; auto. }
  apply G; auto. rewrite Forall_forall in F |- *. intros y J. apply F. now apply in_rev.
Qed.
Lemma Qle_bool_false a b : Qle_bool a b = false -> (b < a)%Q.
Proof. intro H. apply Qnot_le_lt. intro J. apply Qle_bool_iff in J. congruence. Qed.
Lemma Qle_bool_false_iff a b : Qle_bool a b = false <-> (b < a)%Q.
Proof. split; [apply Qle_bool_false|]. intro H. destruct (Qle_bool a b) eqn:E; auto. apply Qle_bool_iff in E. lra. Qed.

(** ** Distinct values *)
Lemma two_values (l : list Z) : (n_unique l <= 2)%nat <-> exists u v, forall x, In x l -> x = u \/ x = v.
Proof.
  unfold n_unique. split.
  - intro H. assert (E : forall x, In x l <-> In x (nodup Z.eq_dec l)) by (intro; symmetry; apply nodup_In).
    destruct (nodup Z.eq_dec l) as [|u [|v [|w t]]].
    + exists 0, 0. intros x J. apply E in J. destruct J.
    + exists u, u. intros x J. apply E in J. destruct J as [<-|[]]; auto.
    + exists u, v. intros x J. apply E in J. destruct J as [<-|[<-|[]]]; auto.
    + cbn in H. lia.
  - intros (u & v & H). change 2%nat with (List.length [u; v]). apply NoDup_incl_length; [apply NoDup_nodup|].
    intros x J. apply nodup_In, H in J. cbn. intuition.
Qed.
Lemma in_concat_cell {A} (rows : list (list A)) x : In x (List.concat rows) <-> exists i j, cell rows i j x.
Proof.
  rewrite in_concat. split.
  - intros (r & J & K). apply In_nth_error in J, K. destruct J as [i J], K as [j K]. exists i, j, r. auto.
  - intros (i & j & r & J & K). exists r. split; eapply nth_error_In; eauto.
Qed.
Lemma two_valued_rows rows : (n_unique (List.concat rows) <= 2)%nat <-> two_valued rows.
Proof.
  rewrite two_values. unfold two_valued. split; intros (u & v & H); exists u, v.
  - intros i j x J. apply H. apply in_concat_cell. eauto.
  - intros x J. apply in_concat_cell in J. destruct J as (i & j & J). eauto.
Qed.
Lemma hd_length {A} (rows : list (list A)) n m : matrix rows n m -> (0 < n)%nat -> List.length (hd [] rows) = m.
Proof. intros [<- F] N. destruct F; cbn in *; [lia|auto]. Qed.
