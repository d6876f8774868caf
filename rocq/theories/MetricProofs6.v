(** Averages of row figures, class-wise AUC and average precision. *)
From Verif Require Import Base BaseFacts MiscModel MiscSpec MiscProofs MetricModel MetricSpec MetricProofs MetricProofs2 MetricProofs3 MetricProofs5.
From Coq Require Import QArith Lqa Qfield.
Local Open Scope Z_scope.

(** ** Ranges *)
Lemma mean_bounds lo hi l : l <> [] -> Forall (fun x => lo <= x <= hi)%Q l -> (lo <= mean l <= hi)%Q.
Proof.
  intros NE F. assert (T : (lo * nat_q (List.length l) <= total l <= hi * nat_q (List.length l))%Q).
  { clear NE. induction F as [|x l H F IH]; [cbn [List.length]; change (total []) with 0%Q; change (nat_q 0) with 0%Q; lra|].
    cbn [List.length]. change (total (x :: l)) with (x + total l)%Q. replace (S (List.length l)) with (1 + List.length l)%nat by lia.
    rewrite nat_q_add. change (nat_q 1) with 1%Q. lra. }
  assert (P : (0 < nat_q (List.length l))%Q) by (apply nat_q_pos; destruct l; [congruence|cbn; lia]).
  unfold mean. fold (nat_q (List.length l)). split; [apply Qle_shift_div_l|apply Qle_shift_div_r]; tauto.
Qed.
Lemma mean_positive l : l <> [] -> Forall (fun x => 0 < x)%Q l -> (0 < mean l)%Q.
Proof.
  intros NE F. assert (P : (0 < nat_q (List.length l))%Q) by (apply nat_q_pos; destruct l; [congruence|cbn; lia]).
  unfold mean. fold (nat_q (List.length l)). apply Qlt_shift_div_l; auto. rewrite Qmult_0_l.
  destruct F as [|x l H F]; [congruence|]. clear NE P. change (total (x :: l)) with (x + total l)%Q.
  assert (0 <= total l)%Q; [|lra]. clear H. induction F as [|y l H F IH]; [cbn; lra|]. change (total (y :: l)) with (y + total l)%Q. lra.
Qed.
Lemma Forall2_right {A} (P : A -> Q -> Prop) (R : Q -> Prop) l vs : Forall2 P l vs -> (forall a v, In a l -> P a v -> R v) -> Forall R vs.
Proof. induction 1; intro K; constructor; [eapply K; eauto; now left|apply IHForall2; intros; eapply K; eauto; now right]. Qed.
Lemma Forall2_len {A B} (P : A -> B -> Prop) l l' : Forall2 P l l' -> List.length l = List.length l'.
Proof. induction 1; cbn; congruence. Qed.

Lemma averages_bounds {A} (P : A -> Q -> Prop) rows q lo hi : rows <> [] -> averages P rows None q ->
  (forall a v, In a rows -> P a v -> (lo <= v <= hi)%Q) -> (lo <= q <= hi)%Q.
Proof.
  intros NE (vs & F & E) H. rewrite E. apply mean_bounds.
  - apply Forall2_len in F. destruct vs; [destruct rows; [congruence|discriminate]|discriminate].
  - eapply Forall2_right; eauto.
Qed.

Lemma hm_bounded_nat (P : nat -> Prop) k n : how_many P k -> (forall i, P i -> (i < n)%nat) -> (k <= n)%nat.
Proof.
  intros (l & N & <- & H) B. rewrite <- (seq_length n 0). apply NoDup_incl_length; auto. intros x J. apply in_seq. apply H, B in J. lia.
Qed.
(** Whether a row is trivial can be decided. *)
Lemma trivial_dec y : trivial y \/ ~ trivial y.
Proof.
  assert (D : forall (f : Z -> bool), (exists i v, nth_error y i = Some v /\ f v = true) \/ forall i v, nth_error y i = Some v -> f v = false).
  { intro f. destruct (existsb f y) eqn:E.
    - left. apply existsb_exists in E. destruct E as (v & J & E). apply In_nth_error in J. destruct J as [i J]. eauto.
    - right. intros i v J. apply nth_error_In in J. destruct (f v) eqn:F; auto. assert (existsb f y = true) by (apply existsb_exists; eauto). congruence. }
  destruct (D (fun v => negb (v =? 0))) as [(i & v & J & F)|H].
  - destruct (D (fun v => v =? 0)) as [(k & u & K & G)|H].
    + right. intros [T|T].
      * apply (T i). exists v. rewrite negb_true_iff, Z.eqb_neq in F. auto.
      * apply (T k). unfold irr. apply Z.eqb_eq in G. congruence.
    + left. right. intros k T. apply H in T. discriminate.
  - left. left. intros k (v & T & N). apply H in T. rewrite negb_false_iff, Z.eqb_eq in T. auto.
Qed.

Lemma misorder_bounds y s v : misorder (y, s) v -> (0 <= v <= 1)%Q.
Proof.
  intros [T N]. destruct (trivial_dec y) as [D|D]; [rewrite (T D); lra|]. destruct (N D) as (p & n & k & HP & HN & HK & ->).
  assert (K : (k <= p * n)%nat).
  { eapply hm_le; [|exact HK|exact (hm_prod _ _ _ _ HP HN)]. intros [i j]. cbn. tauto. }
  destruct (Nat.eq_dec (p * n) 0) as [E|E]; [|apply ratio_bounds; lia]. assert (k = O) by lia. subst k. rewrite E.
  unfold ratio. assert (X : (nat_q 0 / nat_q 0 == 0)%Q) by reflexivity. rewrite X. lra.
Qed.
Lemma precision_bounds y s v : precision (y, s) v -> (0 < v <= 1)%Q.
Proof.
  intros [T N]. destruct (trivial_dec y) as [D|D]; [rewrite (T D); lra|]. destruct (N D) as (js & qs & NDJ & HJ & F & ->).
  assert (NE : qs <> []).
  { intros ->. inversion F; subst. apply D. left. intros j R. apply HJ in R. destruct R. }
  assert (B : Forall (fun q => 0 < q <= 1)%Q qs).
  { eapply Forall2_right; [exact F|]. intros j q J (x & a & b & X & HA & HB & ->). apply HJ in J.
    assert (AB : (a <= b)%nat) by (eapply hm_le; [|exact HA|exact HB]; intros i [_ R]; exact R).
    assert (A0 : (0 < a)%nat). { destruct a; [|lia]. exfalso. eapply hm_zero_inv; [exact HA|]. split; [exact J|]. exists x. split; auto. apply Qle_refl. }
    split; [|apply ratio_bounds; lia]. unfold ratio. apply Qlt_shift_div_l; [apply nat_q_pos; lia|]. rewrite Qmult_0_l. now apply nat_q_pos. }
  split.
  - apply mean_positive; auto. eapply Forall_impl; [|exact B]. intros q [H _]. exact H.
  - apply (mean_bounds 0 1); auto. eapply Forall_impl; [|exact B]. cbv beta. intros q H. lra.
Qed.
Lemma coverage_bounds y s v : List.length y = List.length s -> coverage (y, s) v -> (0 <= v <= nat_q (List.length s))%Q.
Proof.
  intros L [T N]. pose proof (nat_q_nonneg (List.length s)) as PN.
  destruct (relevant y s) as [|q0 l] eqn:E.
  - rewrite T; [lra|]. intros j R. assert (R' := R). destruct R' as (u & J & _). destruct (nth_some y s j u L J) as (x & X).
    assert (In x (relevant y s)) by (apply in_relevant; eauto). rewrite E in H. destruct H.
  - destruct (fold_min l q0) as [I B]. rewrite <- E in I, B. apply in_relevant in I. destruct I as (j & J & K).
    destruct (N j _ J K) as (k & HK & ->).
    { intros i x R X. apply B. apply in_relevant. eauto. }
    split; [apply nat_q_nonneg|]. apply nat_q_le. eapply hm_bounded_nat; [exact HK|]. intros i (x & X & _). apply nth_error_Some. rewrite X. discriminate.
Qed.

(** Rows of labels and scores. *)
Lemma rows_in {A B} (a : list (list A)) (s : list (list B)) n m y t : matrix a n m -> matrix s n m -> In (y, t) (combine a s) ->
  List.length y = m /\ List.length t = m.
Proof.
  intros [_ FA] [_ FB] J. pose proof (in_combine_l _ _ _ _ J) as J1. pose proof (in_combine_r _ _ _ _ J) as J2.
  rewrite Forall_forall in FA, FB. auto.
Qed.
Lemma rows_ne {A B} (a : list (list A)) (s : list (list B)) n m : matrix a n m -> matrix s n m -> (0 < n)%nat -> combine a s <> [].
Proof. intros [L1 _] [L2 _] N. destruct a, s; cbn in *; try lia. discriminate. Qed.
Lemma shape_ok {A B} (a : list (list A)) (s : list (list B)) n m : matrix a n m -> matrix s n m -> (0 < n)%nat -> shape_eqb (shape a) (shape s) = true.
Proof.
  intros MA MS N. unfold shape_eqb, shape. cbn [fst snd]. rewrite (hd_length a n m), (hd_length s n m) by auto.
  rewrite (proj1 MA), (proj1 MS), !Nat.eqb_refl. reflexivity.
Qed.

(** ** Class-wise AUC *)
Lemma count_prod_filter {A B} (f g : A * B -> bool) (h : B -> B -> bool) l l' :
  count (fun p => h (fst p) (snd p)) (list_prod (map snd (filter f l)) (map snd (filter g l'))) =
  count (fun p => f (fst p) && (g (snd p) && h (snd (fst p)) (snd (snd p))))%bool (list_prod l l').
Proof.
  rewrite count_prod, (count_prod (fun a b => f a && (g b && h (snd a) (snd b)))%bool), map_map.
  induction l as [|x l IH]; [reflexivity|]. cbn [filter map list_sum fold_right]. unfold list_sum in *. rewrite <- IH. destruct (f x).
  - cbn [map fold_right andb]. f_equal. rewrite count_map, count_filter. reflexivity.
  - cbn [andb]. assert (Z1 : count (fun _ : A * B => false) l' = O) by (apply count_zero; auto). now rewrite Z1.
Qed.
Lemma class_auc_spec y s : List.length y = List.length s ->
  exists P N g, how_many (pos_sample 1 y) P /\ how_many (neg_sample 1 y) N /\
    how_many (fun ij => pos_sample 1 y (fst ij) /\ neg_sample 1 y (snd ij) /\ above s (fst ij) (snd ij)) g /\
    class_auc y s = (if Nat.eqb (P * N) 0 then Err ZeroDivErr else Ok (ratio g (P * N))).
Proof.
  intro L. unfold class_auc. rewrite !map_length. set (LL := combine y s).
  exists (List.length (filter (fun p => fst p =? 1) LL)), (List.length (filter (fun p => negb (fst p =? 1)) LL)).
  eexists. split; [|split; [|split]].
  - change (List.length (filter (fun p => fst p =? 1) LL)) with (count (fun p => fst p =? 1) LL). eapply hm_ext; [|apply hm_count]. intro i. unfold pos_sample, LL. split.
    + intros ([v x] & J & E). apply combine_nth_both in J. cbn in E. apply Z.eqb_eq in E. destruct J. congruence.
    + intro J. destruct (nth_some y s i 1 L J) as (x & X). exists (1, x). rewrite combine_nth_both. auto.
  - change (List.length (filter (fun p => negb (fst p =? 1)) LL)) with (count (fun p => negb (fst p =? 1)) LL). eapply hm_ext; [|apply hm_count]. intro i. unfold neg_sample, LL. split.
    + intros ([v x] & J & E). apply combine_nth_both in J. cbn in E. rewrite negb_true_iff, Z.eqb_neq in E. destruct J. eauto.
    + intros (v & J & E). destruct (nth_some y s i v L J) as (x & X). exists (v, x). rewrite combine_nth_both, negb_true_iff, Z.eqb_neq. auto.
  - instantiate (1 := count (fun p => negb (Qle_bool (fst p) (snd p))) (list_prod (map snd (filter (fun p => fst p =? 1) LL)) (map snd (filter (fun p => negb (fst p =? 1)) LL)))).
    rewrite (count_prod_filter (fun p => fst p =? 1) (fun p => negb (fst p =? 1)) (fun a b => negb (Qle_bool a b))).
    eapply hm_ext; [|apply (hm_count_prod (fun a b => (fst a =? 1) && (negb (fst b =? 1) && negb (Qle_bool (snd a) (snd b))))%bool)].
    intros [i j]. cbn [fst snd]. unfold pos_sample, neg_sample, above, LL. split.
    + intros ([u a] & [v b] & J & K & T). apply combine_nth_both in J, K. destruct J as [J1 J2], K as [K1 K2].
      cbn in T. rewrite !andb_true_iff, !negb_true_iff, Z.eqb_neq, Z.eqb_eq in T. destruct T as (-> & N & T). apply Qle_bool_false in T. eauto 10.
    + intros (P & (v & V & N) & a & b & X & Y & G). exists (1, a), (v, b). rewrite !combine_nth_both. cbn.
      rewrite !andb_true_iff, !negb_true_iff, Z.eqb_neq. apply Qle_bool_false_iff in G. auto.
  - destruct (Nat.eqb (_ * _) 0); reflexivity.
Qed.

(** ** Positions in ascending order *)
Definition lexlt (a b : nat * Q) : Prop := (snd a < snd b)%Q \/ ((snd a == snd b)%Q /\ (fst a < fst b)%nat).
Lemma lexlt_trans a b c : lexlt a b -> lexlt b c -> lexlt a c.
Proof. unfold lexlt. intros [H|[H H']] [K|[K K']]; [left; lra|left; lra|left; lra|right; split; [lra|lia]]. Qed.
Lemma stable_sorted s : forall k n, let l := isort (fun a b => Qle_bool (snd a) (snd b)) (combine (seq k n) s) in
  StronglySorted lexlt l /\ Forall (fun x => (k <= fst x)%nat) l.
Proof.
  induction s as [|q s IH]; intros k n; [destruct n; cbn; split; constructor|]. destruct n as [|n]; [cbn; split; constructor|].
  cbn [seq combine isort]. destruct (IH (S k) n) as [SH F]. cbn zeta in *. set (l := isort _ _) in *.
  assert (G : StronglySorted lexlt (insert (fun a b => Qle_bool (snd a) (snd b)) (k, q) l)).
  { induction SH as [|y l' SH IHl FA]; cbn [insert]; [repeat constructor|]. inversion F as [|? ? F1 F2]; subst.
    cbn [snd]. destruct (Qle_bool q (snd y)) eqn:E.
    - apply Qle_bool_iff in E. assert (R : lexlt (k, q) y).
      { unfold lexlt. cbn [fst snd]. destruct (Qlt_le_dec q (snd y)); [now left|right]. split; [now apply Qle_antisym|lia]. }
      constructor; [constructor; auto|]. constructor; auto. rewrite Forall_forall in FA |- *. intros z J. eapply lexlt_trans; eauto.
    - apply Qle_bool_false in E. constructor; [auto|]. rewrite Forall_forall in FA |- *. intros z J.
      apply (Permutation_in _ (insert_perm _ _ _)) in J. destruct J as [<-|J]; auto. left. exact E. }
  split; auto. rewrite Forall_forall in F |- *. intros x J. apply (Permutation_in _ (insert_perm _ _ _)) in J. destruct J as [<-|J]; [cbn; lia|].
  specialize (F x J). lia.
Qed.

Lemma find_index_app j pre suf : ~ In j pre -> find_index j (pre ++ j :: suf) = List.length pre.
Proof.
  induction pre as [|x pre IH]; cbn; intro N; [now rewrite Nat.eqb_refl|]. destruct (Nat.eqb_spec j x); [subst; exfalso; auto|]. f_equal. apply IH. auto.
Qed.
(** The sorted positions around a given one. *)
Lemma sort_index_split s j q : nth_error s j = Some q -> exists pre suf, sort_index s = pre ++ j :: suf /\ NoDup (pre ++ j :: suf) /\
  List.length (pre ++ j :: suf) = List.length s /\ (forall i, In i (j :: suf) <-> at_or_above s j i) /\ (forall i, In i (pre ++ j :: suf) <-> (i < List.length s)%nat).
Proof.
  intro H. unfold sort_index. set (SI := isort _ _). destruct (stable_sorted s O (List.length s)) as [SH _]. cbn zeta in SH. fold SI in SH.
  assert (PM : Permutation SI (combine (seq 0 (List.length s)) s)) by apply isort_perm.
  assert (LT : (j < List.length s)%nat) by (apply nth_error_Some; rewrite H; discriminate).
  assert (IN : forall i x, In (i, x) SI <-> nth_error s i = Some x).
  { intros i x. split.
    - intro J. apply (Permutation_in _ PM) in J. apply In_nth_error in J. destruct J as [k J]. apply combine_nth_both in J. destruct J as [J K].
      assert (k < List.length s)%nat by (apply nth_error_Some; rewrite K; discriminate). rewrite nth_seq in J by auto. injection J as <-. exact K.
    - intro J. apply (Permutation_in _ (Permutation_sym PM)). apply (nth_error_In _ i). apply combine_nth_both. split; auto.
      apply nth_seq. apply nth_error_Some. rewrite J. discriminate. }
  assert (ND : NoDup (map fst SI)).
  { apply (Permutation_NoDup (Permutation_sym (Permutation_map fst PM))). rewrite map_fst_combine by now rewrite seq_length. apply seq_NoDup. }
  assert (J : In (j, q) SI) by now apply IN. apply in_split in J. destruct J as (pre & suf & E).
  exists (map fst pre), (map fst suf). rewrite E. rewrite map_app. cbn [map fst]. rewrite E, map_app in ND. cbn [map fst] in ND.
  assert (ALL : forall i, In i (map fst pre ++ j :: map fst suf) <-> (i < List.length s)%nat).
  { intro i. replace (map fst pre ++ j :: map fst suf) with (map fst SI) by (rewrite E, map_app; reflexivity).
    rewrite in_map_iff. split.
    - intros ([i' x] & <- & K). apply IN in K. apply nth_error_Some. cbn. rewrite K. discriminate.
    - intro K. destruct (nth_error s i) as [x|] eqn:X; [|apply nth_error_None in X; lia]. exists (i, x). split; auto. now apply IN. }
  split; [reflexivity|]. split; [exact ND|]. split; [|split; [|exact ALL]].
  - replace (map fst pre ++ j :: map fst suf) with (map fst SI) by (rewrite E, map_app; reflexivity).
    rewrite map_length, (Permutation_length PM), combine_length, seq_length. apply Nat.min_id.
  - assert (ST : (forall z, In z suf -> lexlt (j, q) z) /\ (forall z, In z pre -> lexlt z (j, q))).
    { rewrite E in SH. clear -SH. induction pre as [|p pre IH]; cbn in SH; apply StronglySorted_inv in SH; destruct SH as [SH F]; rewrite Forall_forall in F.
      - split; [auto|]. intros z [].
      - destruct (IH SH) as [A B]. split; auto. intros z [->|J]; auto. apply F. apply in_app_iff. right. now left. }
    destruct ST as [ST1 ST2]. intro i. split.
    + intros [<-|J].
      * exists q, q. repeat split; auto. right. split; [reflexivity|lia].
      * apply in_map_iff in J. destruct J as ([i' x] & EI & J). cbn in EI. subst i'. exists x, q. split; [apply IN; rewrite E; apply in_app_iff; right; now right|].
        split; auto. destruct (ST1 _ J) as [K|[K1 K2]]; cbn in *; [left; lra|right; split; [lra|lia]].
    + intros (a & b & X & Y & C). rewrite H in Y. injection Y as <-. assert (K : In (i, a) SI) by now apply IN. rewrite E in K. apply in_app_iff in K.
      destruct K as [K|[K|K]].
      * exfalso. destruct (ST2 _ K) as [L|[L1 L2]]; cbn in *; destruct C as [C|[C1 C2]]; try lra. lia.
      * left. congruence.
      * right. apply in_map_iff. exists (i, a). auto.
Qed.

Lemma existsb_map_find locs labels index k i : NoDup index -> nth_error index k = Some i ->
  locs = map (fun l => find_index l index) labels -> (forall l, In l labels -> In l index) ->
  existsb (Nat.eqb k) locs = existsb (Nat.eqb i) labels.
Proof.
  intros ND K -> IN.
  assert (FI : forall l, In l index -> nth_error index (find_index l index) = Some l).
  { intros l J. clear -J. induction index as [|x index IH]; [destruct J|]. cbn. destruct (Nat.eqb_spec l x); [subst; reflexivity|]. cbn. apply IH. destruct J; [congruence|auto]. }
  assert (FK : find_index i index = k).
  { assert (In i index) by (eapply nth_error_In; eauto). pose proof (FI i H) as F.
    eapply (proj1 (NoDup_nth_error index) ND); [apply nth_error_Some; rewrite F; discriminate|]. congruence. }
  apply eq_true_iff_eq. rewrite !existsb_exists. split.
  - intros (x & J & E). apply Nat.eqb_eq in E. subst x. apply in_map_iff in J. destruct J as (l & E & J). exists l. split; auto.
    apply Nat.eqb_eq. pose proof (FI l (IN l J)) as F. rewrite E in F. congruence.
  - intros (l & J & E). apply Nat.eqb_eq in E. subst l. exists k. split; [|apply Nat.eqb_refl]. apply in_map_iff. exists i. auto.
Qed.

Lemma ap_row_ok y s m : List.length y = m -> List.length s = m -> (forall j v, nth_error y j = Some v -> v = 0 \/ v = 1) -> ~ trivial y ->
  exists v, ap_row y s = Num v /\ tied_precision (y, s) v.
Proof.
  intros L1 L2 ZO NT. assert (L : List.length y = List.length s) by congruence. unfold ap_row.
  set (labels := positions (fun v => v =? 1) y). set (index := sort_index s).
  assert (RL : forall j, In j labels <-> rel y j).
  { intro j. unfold labels. rewrite in_positions. unfold rel. split; intros (v & J & E).
    - exists v. split; auto. apply Z.eqb_eq in E. lia.
    - exists v. split; auto. destruct (ZO j v J); [congruence|]. now apply Z.eqb_eq. }
  assert (NL : labels <> []). { intro E. apply NT. left. intros j R. apply RL in R. rewrite E in R. destruct R. }
  assert (SC : forall j, In j labels -> exists q, nth_error s j = Some q).
  { intros j J. apply RL in J. destruct J as (v & J & _). now apply (nth_some y s j v). }
  rewrite fdiv_num. 2:{ unfold qlen. fold (nat_q (List.length labels)). rewrite nat_q_0. destruct labels; [congruence|discriminate]. }
  eexists. split; [reflexivity|]. split; [intro; contradiction|]. intros _.
  exists labels, (map (fun j => let loc := find_index j index in
     (qn (count (fun b => b) (skipn loc (map (fun k => existsb (Nat.eqb k) (map (fun l => find_index l index) labels)) (seq 0 (List.length s))))) / qn (List.length s - loc))%Q) labels).
  split; [apply positions_NoDup|]. split; [exact RL|]. split.
  - assert (G : forall j, In j labels -> exists q, nth_error s j = Some q) by auto. set (LB := labels) in *. 
    assert (FA : forall js, (forall j, In j js -> In j LB) -> Forall2 (fun j q => exists a b, how_many (fun i => rel y i /\ at_or_above s j i) a /\
                                     how_many (at_or_above s j) b /\ (q == ratio a b)%Q) js
      (map (fun j => let loc := find_index j index in
     (qn (count (fun b => b) (skipn loc (map (fun k => existsb (Nat.eqb k) (map (fun l => find_index l index) LB)) (seq 0 (List.length s))))) / qn (List.length s - loc))%Q) js)); [|now apply FA].
    induction js as [|j js IH]; intro SUB; cbn [map]; constructor; [|apply IH; intros; apply SUB; now right].
    destruct (G j (SUB j (or_introl eq_refl))) as (q & Hq). destruct (sort_index_split s j q Hq) as (pre & suf & E & ND & LEN & AT & ALL).
    fold index in E. rewrite E. rewrite find_index_app by (apply NoDup_remove_2 in ND; intro J; apply ND; apply in_app_iff; now left).
    assert (IND : map (fun k => existsb (Nat.eqb k) (map (fun l => find_index l (pre ++ j :: suf)) LB)) (seq 0 (List.length s)) =
                  map (fun i => existsb (Nat.eqb i) LB) (pre ++ j :: suf)).
    { assert (EX : forall l k, (forall i x, nth_error l i = Some x -> nth_error (pre ++ j :: suf) (k + i) = Some x) ->
         map (fun k => existsb (Nat.eqb k) (map (fun l => find_index l (pre ++ j :: suf)) LB)) (seq k (List.length l)) = map (fun i => existsb (Nat.eqb i) LB) l).
      { induction l as [|x l IHl]; intros k HN; [reflexivity|]. cbn [List.length seq map]. f_equal.
        - eapply existsb_map_find; [exact ND| |reflexivity|].
          + specialize (HN O x eq_refl). rewrite Nat.add_0_r in HN. exact HN.
          + intros z J. apply ALL. destruct (G z J) as (u & U). apply nth_error_Some. rewrite U. discriminate.
        - apply IHl. intros i z J. replace (S k + i)%nat with (k + S i)%nat by lia. now apply HN. }
      rewrite <- LEN. apply (EX (pre ++ j :: suf) O). auto. }
    rewrite IND, map_app, skipn_app, map_length, Nat.sub_diag. rewrite skipn_all2 by now rewrite map_length. cbn [app skipn].
    exists (count (fun i => existsb (Nat.eqb i) LB) (j :: suf)), (List.length (j :: suf)). 
    assert (NDS : NoDup (j :: suf)) by (apply NoDup_app_inv in ND; tauto).
    split; [|split].
    + exists (filter (fun i => existsb (Nat.eqb i) LB) (j :: suf)). split; [now apply NoDup_filter|]. split; [reflexivity|].
      intro i. rewrite filter_In, AT, existsb_exists. split.
      * intros [A (z & Z1 & Z2)]. apply Nat.eqb_eq in Z2. subst z. split; auto. now apply RL.
      * intros [A B]. split; auto. exists i. split; [now apply RL|apply Nat.eqb_refl].
    + exists (j :: suf). auto.
    + rewrite count_map. replace (List.length s - List.length pre)%nat with (List.length (j :: suf)) by (rewrite <- LEN, app_length; lia). reflexivity.
  - unfold mean. rewrite map_length, map_map. reflexivity.
Qed.
