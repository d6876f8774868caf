(** Row figures of the multi-label metrics. *)
From Verif Require Import Base BaseFacts MiscModel MiscSpec MiscProofs MetricModel MetricSpec MetricProofs MetricProofs2 MetricProofs3.
From Coq Require Import QArith Lqa Qfield.
Local Open Scope Z_scope.

Lemma relevant_count f y s : count f (relevant y s) = count (fun p => negb (fst p =? 0) && f (snd p))%bool (combine y s).
Proof.
  unfold relevant. induction (combine y s) as [|x l IH]; [reflexivity|]. cbn [filter]. rewrite count_cons, <- IH.
  destruct (fst x =? 0); cbn [negb andb]; [reflexivity|]. cbn [map]. now rewrite count_cons.
Qed.
Lemma irrelevant_count f y s : count f (irrelevant y s) = count (fun p => (fst p =? 0) && f (snd p))%bool (combine y s).
Proof.
  unfold irrelevant. induction (combine y s) as [|x l IH]; [reflexivity|]. cbn [filter]. rewrite count_cons, <- IH.
  destruct (fst x =? 0); cbn [andb]; [|reflexivity]. cbn [map]. now rewrite count_cons.
Qed.
Lemma combine_snd {A B} (y : list A) (s : list B) : List.length y = List.length s -> map snd (combine y s) = s.
Proof. revert s. induction y; intros [|q s] E; try discriminate; auto. cbn. f_equal. apply IHy. cbn in E. lia. Qed.
Lemma both_count f y s : List.length y = List.length s -> count f s = (count f (relevant y s) + count f (irrelevant y s))%nat.
Proof.
  intro L. rewrite <- (combine_snd y s L) at 1. rewrite relevant_count, irrelevant_count, count_map.
  induction (combine y s) as [|x l IH]; [reflexivity|]. rewrite !count_cons, IH. destruct (fst x =? 0), (f (snd x)); cbn; lia.
Qed.
Lemma count_true {A} (l : list A) : count (fun _ => true) l = List.length l.
Proof. induction l as [|x l IH]; [reflexivity|]. now rewrite count_cons, IH. Qed.
Lemma both_length y s : List.length y = List.length s -> (List.length (relevant y s) + List.length (irrelevant y s))%nat = List.length s.
Proof. intro L. rewrite <- !count_true. symmetry. now apply both_count. Qed.

Lemma nth_some {A B} (y : list A) (s : list B) i v : List.length y = List.length s -> nth_error y i = Some v -> exists x, nth_error s i = Some x.
Proof.
  intros L H. destruct (nth_error s i) as [x|] eqn:E; [eauto|]. apply nth_error_None in E.
  assert (i < List.length y)%nat by (apply nth_error_Some; rewrite H; discriminate). lia.
Qed.

Lemma hm_relevant f y s : how_many (fun j => rel y j /\ exists x, nth_error s j = Some x /\ f x = true) (count f (relevant y s)).
Proof.
  rewrite relevant_count. eapply hm_ext; [|apply hm_count]. intro j. cbv beta. split.
  - intros ([v x] & J & E). apply combine_nth_both in J. destruct J as [J K]. cbn in E. rewrite andb_true_iff, negb_true_iff, Z.eqb_neq in E. destruct E.
    split; [exists v; auto|exists x; auto].
  - intros ((v & J & N) & x & K & E). exists (v, x). rewrite combine_nth_both. cbn. rewrite andb_true_iff, negb_true_iff, Z.eqb_neq. auto.
Qed.
Lemma hm_irrelevant f y s : how_many (fun j => irr y j /\ exists x, nth_error s j = Some x /\ f x = true) (count f (irrelevant y s)).
Proof.
  rewrite irrelevant_count. eapply hm_ext; [|apply hm_count]. intro j. cbv beta. split.
  - intros ([v x] & J & E). apply combine_nth_both in J. destruct J as [J K]. cbn in E. rewrite andb_true_iff, Z.eqb_eq in E. destruct E as [-> E].
    split; [exact J|exists x; auto].
  - intros (J & x & K & E). exists (0, x). rewrite combine_nth_both. cbn. auto.
Qed.
Lemma hm_rel y s : List.length y = List.length s -> how_many (rel y) (List.length (relevant y s)).
Proof.
  intro L. rewrite <- count_true. eapply hm_ext; [|apply hm_relevant]. intro j. cbv beta. split; [tauto|]. intro H. split; auto.
  destruct H as (v & H & _). destruct (nth_some y s j v L H) as (x & X). eauto.
Qed.
Lemma hm_irr y s : List.length y = List.length s -> how_many (irr y) (List.length (irrelevant y s)).
Proof.
  intro L. rewrite <- count_true. eapply hm_ext; [|apply hm_irrelevant]. intro j. cbv beta. split; [tauto|]. intro H. split; auto.
  destruct (nth_some y s j 0 L H) as (x & X). eauto.
Qed.
Lemma in_relevant y s x : In x (relevant y s) <-> exists j, rel y j /\ nth_error s j = Some x.
Proof.
  unfold relevant. rewrite in_map_iff. split.
  - intros ([v u] & <- & J). apply filter_In in J. destruct J as [J E]. cbn in *. rewrite negb_true_iff, Z.eqb_neq in E.
    apply In_nth_error in J. destruct J as [j J]. apply combine_nth_both in J. destruct J as [J K]. exists j. split; auto. exists v. auto.
  - intros (j & (v & J & N) & K). exists (v, x). split; auto. apply filter_In. split; [|cbn; now rewrite negb_true_iff, Z.eqb_neq].
    eapply nth_error_In. apply combine_nth_both. eauto.
Qed.
Lemma trivial_iff y s : List.length y = List.length s ->
  trivial y <-> List.length (relevant y s) = O \/ List.length (relevant y s) = List.length s.
Proof.
  intro L. pose proof (hm_rel y s L) as HR. pose proof (hm_irr y s L) as HI. pose proof (both_length y s L) as HB. unfold trivial. split.
  - intros [H|H].
    + left. exact (hm_unique _ _ _ HR (hm_zero _ H)).
    + right. pose proof (hm_unique _ _ _ HI (hm_zero _ H)). lia.
  - intros [H|H].
    + left. rewrite H in HR. now apply hm_zero_inv.
    + right. apply hm_zero_inv. replace O with (List.length (irrelevant y s)) by lia. exact HI.
Qed.
Lemma trivial_bool y s m : List.length y = m -> List.length s = m ->
  (Nat.eqb (List.length (relevant y s)) 0 || Nat.eqb (List.length (relevant y s)) m)%bool = true <-> trivial y.
Proof. intros L1 L2. rewrite (trivial_iff y s) by congruence. rewrite orb_true_iff, !Nat.eqb_eq, L2. reflexivity. Qed.

Lemma hm_scored s q : how_many (scored s q) (count (fun x => Qle_bool q x) s).
Proof.
  eapply hm_ext; [|apply hm_count]. intro j. unfold scored. split; intros (x & J & E); exists x; split; auto; now apply Qle_bool_iff.
Qed.
Lemma scored_qeq s q q' k : (q == q')%Q -> how_many (scored s q) k -> how_many (scored s q') k.
Proof. intros E. apply hm_ext. intro j. unfold scored. split; intros (x & J & K); exists x; split; auto; lra. Qed.

(** ** Coverage *)
Lemma coverage_ok y s : List.length y = List.length s -> coverage (y, s) (qn (coverage_row y s)).
Proof.
  intro L. unfold coverage_row. split.
  - intro H. destruct (relevant y s) as [|q l] eqn:E; [reflexivity|]. exfalso.
    assert (J : In q (relevant y s)) by (rewrite E; now left). apply in_relevant in J. destruct J as (j & J & _). now apply (H j).
  - intros j q J K M. destruct (relevant y s) as [|q0 l] eqn:E.
    + exfalso. assert (X : In q (relevant y s)) by (apply in_relevant; eauto). rewrite E in X. destruct X.
    + exists (count (fun x => Qle_bool (fold_left qmin l q0) x) s). split; [|reflexivity].
      destruct (fold_min l q0) as [I B]. rewrite <- E in I, B. apply in_relevant in I. destruct I as (i & I1 & I2).
      apply (scored_qeq s (fold_left qmin l q0)); [|apply hm_scored]. apply Qle_antisym.
      * apply B. apply in_relevant. eauto.
      * eapply M; eauto.
Qed.

(** ** Ranking loss *)
Lemma uinsert_in x l y : In y (uinsert x l) -> y = x \/ In y l.
Proof.
  induction l as [|z l IH]; cbn; [intuition|]. destruct (Qeq_bool x z); [auto|]. destruct (Qle_bool x z); cbn; intuition.
Qed.
Lemma uinsert_has x l : exists z, In z (uinsert x l) /\ (x == z)%Q.
Proof.
  induction l as [|z l (w & W & E)]; cbn; [exists x; split; [now left|reflexivity]|]. destruct (Qeq_bool x z) eqn:E1.
  - apply Qeq_bool_iff in E1. exists z. split; [now left|auto].
  - destruct (Qle_bool x z); [exists x; split; [now left|reflexivity]|exists w; split; [now right|auto]].
Qed.
Lemma uinsert_keeps x l y : In y l -> In y (uinsert x l).
Proof. induction l as [|z l IH]; cbn; [intuition|]. intros J. destruct (Qeq_bool x z); [auto|]. destruct (Qle_bool x z); cbn; intuition. Qed.
Lemma uinsert_sorted x l : StronglySorted Qlt l -> StronglySorted Qlt (uinsert x l).
Proof.
  induction 1 as [|z l SH IH F]; cbn; [repeat constructor|]. destruct (Qeq_bool x z) eqn:E1; [constructor; auto|].
  assert (NE : ~ (x == z)%Q) by (intro J; apply Qeq_bool_iff in J; congruence). destruct (Qle_bool x z) eqn:E2.
  - apply Qle_bool_iff in E2. assert (x < z)%Q by (destruct (Qlt_le_dec x z); auto; exfalso; apply NE; now apply Qle_antisym).
    constructor; [constructor; auto|]. constructor; auto. rewrite Forall_forall in F |- *. intros w J. specialize (F w J). lra.
  - apply Qle_bool_false in E2. constructor; auto. rewrite Forall_forall in F |- *. intros w J. apply uinsert_in in J. destruct J as [->|J]; auto.
Qed.
Lemma unique_sorted l : StronglySorted Qlt (unique_scores l).
Proof. induction l; cbn; [constructor|now apply uinsert_sorted]. Qed.
Lemma unique_has l x : In x l -> exists z, In z (unique_scores l) /\ (x == z)%Q.
Proof.
  induction l as [|y l IH]; cbn; intros [].
  - subst y. apply uinsert_has.
  - destruct (IH H) as (z & Z1 & Z2). exists z. split; auto. now apply uinsert_keeps.
Qed.

Lemma count_filter {A} (f g : A -> bool) l : count f (filter g l) = count (fun x => g x && f x)%bool l.
Proof. induction l as [|x l IH]; [reflexivity|]. cbn [filter]. rewrite count_cons, <- IH. destruct (g x); cbn [andb]; [now rewrite count_cons|reflexivity]. Qed.
Lemma Qeq_bool_false a b : Qeq_bool a b = false <-> ~ (a == b)%Q.
Proof. split; intro H; [intro J; apply Qeq_bool_iff in J; congruence|]. destruct (Qeq_bool a b) eqn:E; auto. apply Qeq_bool_iff in E. contradiction. Qed.

(** The cumulative counts give, for every irrelevant score, the number of relevant scores not above it. *)
Lemma dot_cumsum u : StronglySorted Qlt u -> forall acc R I,
  (forall x, In x R -> exists z, In z u /\ (x == z)%Q) -> (forall x, In x I -> exists z, In z u /\ (x == z)%Q) ->
  dot (cumsum acc (bincount u R)) (bincount u I) = list_sum (map (fun b => acc + count (fun a => Qle_bool a b) R)%nat I).
Proof.
  induction 1 as [|x u SH IH F]; intros acc R I HR HI.
  - destruct I as [|b I]; [reflexivity|]. destruct (HI b (or_introl eq_refl)) as (z & [] & _).
  - cbn [bincount map cumsum]. fold (bincount u R). fold (bincount u I).
    set (R' := filter (fun a => negb (Qeq_bool x a)) R). set (I' := filter (fun a => negb (Qeq_bool x a)) I).
    assert (BR : forall l, bincount u l = bincount u (filter (fun a => negb (Qeq_bool x a)) l)).
    { intro l. unfold bincount. apply map_ext_in. intros z J. rewrite count_filter. apply count_ext_in. intros w _.
      rewrite Forall_forall in F. specialize (F z J). destruct (Qeq_bool z w) eqn:E1; [|now rewrite andb_false_r].
      apply Qeq_bool_iff in E1. destruct (Qeq_bool x w) eqn:E2; [|reflexivity]. apply Qeq_bool_iff in E2. exfalso. rewrite E2, <- E1 in F. lra. }
    change (dot (?a :: ?l) (?b :: ?l')) with (a * b + dot l l')%nat. rewrite (BR R), (BR I). fold R' I'.
    assert (SUB : forall l, (forall w, In w l -> exists z, In z (x :: u) /\ (w == z)%Q) ->
              forall w, In w (filter (fun a => negb (Qeq_bool x a)) l) -> exists z, In z u /\ (w == z)%Q).
    { intros l H w J. apply filter_In in J. destruct J as [J N]. rewrite negb_true_iff, Qeq_bool_false in N. destruct (H w J) as (z & [<-|Z1] & Z2).
      - exfalso. apply N. now rewrite Z2.
      - eauto. }
    rewrite IH by (now apply SUB). clear IH.
    assert (GT : forall w, In w R' \/ In w I' -> (x < w)%Q).
    { intros w J. assert (exists z, In z u /\ (w == z)%Q) as (z & Z1 & Z2) by (destruct J; [apply (SUB R HR w)|apply (SUB I HI w)]; auto).
      rewrite Forall_forall in F. specialize (F z Z1). now rewrite Z2. }
    assert (CR : forall f, count f R = (count (fun a => Qeq_bool x a && f a)%bool R + count f R')%nat).
    { intro f. unfold R'. rewrite count_filter. clear. induction R as [|a R IH]; [reflexivity|]. rewrite !count_cons, IH.
      destruct (Qeq_bool x a), (f a); cbn; lia. }
    assert (SI : forall h, (forall b, Qeq_bool x b = true -> h b = h x) ->
              list_sum (map h I) = (count (Qeq_bool x) I * h x + list_sum (map h I'))%nat).
    { intros h Hh. unfold I'. clear -Hh. induction I as [|a I IH]; [reflexivity|]. cbn [map list_sum fold_right filter]. rewrite count_cons.
      fold (list_sum (map h I)). rewrite IH. destruct (Qeq_bool x a) eqn:E; cbn [negb].
      - rewrite (Hh a E). unfold list_sum. lia.
      - cbn [map fold_right]. unfold list_sum. lia. }
    rewrite (SI (fun b => acc + count (fun a => Qle_bool a b) R)%nat).
    + rewrite Nat.mul_comm. f_equal.
      * f_equal. f_equal. rewrite (CR (fun a => Qle_bool a x)).
        assert (Z1 : count (fun a => Qle_bool a x) R' = O) by (apply count_zero; intros a J; apply Qle_bool_false_iff; apply GT; auto).
        rewrite Z1, Nat.add_0_r. apply count_ext_in. intros a _. destruct (Qeq_bool x a) eqn:E; [|reflexivity]. cbn. symmetry. apply Qle_bool_iff.
        apply Qeq_bool_iff in E. rewrite E. apply Qle_refl.
      * f_equal. apply map_ext_in. intros b J. rewrite (CR (fun a => Qle_bool a b)). rewrite <- Nat.add_assoc. f_equal. f_equal.
        apply count_ext_in. intros a _. destruct (Qeq_bool x a) eqn:E; [|reflexivity]. cbn. symmetry. apply Qle_bool_iff. apply Qeq_bool_iff in E.
        rewrite <- E. apply Qlt_le_weak. auto.
    + intros b E. apply Qeq_bool_iff in E. f_equal. apply count_ext_in. intros a _.
      destruct (Qle_bool a x) eqn:E1; [apply Qle_bool_iff in E1; apply Qle_bool_iff; now rewrite <- E|].
      apply Qle_bool_false in E1. apply Qle_bool_false_iff. now rewrite <- E.
Qed.

Lemma hm_swap {A B} (P : A * B -> Prop) k : how_many (fun ba : B * A => P (snd ba, fst ba)) k -> how_many P k.
Proof.
  intros (l & N & L & H). exists (map (fun ba => (snd ba, fst ba)) l). repeat split.
  - apply FinFun.Injective_map_NoDup; auto. intros [a b] [c d] E. cbn in E. congruence.
  - now rewrite map_length.
  - rewrite in_map_iff. intros ([b a] & <- & J). now apply H in J.
  - intro J. destruct x as [a b]. apply in_map_iff. exists (b, a). split; auto. now apply H.
Qed.

Lemma hm_misordered y s :
  how_many (fun ij => rel y (fst ij) /\ irr y (snd ij) /\ exists a, nth_error s (fst ij) = Some a /\ scored s a (snd ij))
           (list_sum (map (fun b => count (fun a => Qle_bool a b) (relevant y s)) (irrelevant y s))).
Proof.
  apply hm_swap. cbn [fst snd].
  assert (E : list_sum (map (fun b => count (fun a => Qle_bool a b) (relevant y s)) (irrelevant y s)) =
    count (fun p => (fst (fst p) =? 0) && (negb (fst (snd p) =? 0) && Qle_bool (snd (snd p)) (snd (fst p))))%bool (list_prod (combine y s) (combine y s))).
  { rewrite (count_prod (fun a b => (fst a =? 0) && (negb (fst b =? 0) && Qle_bool (snd b) (snd a)))%bool).
    unfold irrelevant. generalize (combine y s) at 1 3. intro l. induction l as [|x l IH]; [reflexivity|]. cbn [filter map list_sum fold_right].
    fold (list_sum (map (fun x => count (fun b => (fst x =? 0) && (negb (fst b =? 0) && Qle_bool (snd b) (snd x)))%bool (combine y s)) l)). rewrite <- IH.
    destruct (fst x =? 0).
    - cbn [map list_sum fold_right andb]. rewrite relevant_count. reflexivity.
    - cbn [andb]. assert (Z1 : count (fun _ : Z * Q => false) (combine y s) = O) by (apply count_zero; auto). now rewrite Z1. }
  rewrite E. eapply hm_ext; [|apply (hm_count_prod (fun a b => (fst a =? 0) && (negb (fst b =? 0) && Qle_bool (snd b) (snd a)))%bool)].
  intros [j i]. cbn [fst snd]. split.
  - intros ([u b] & [v a] & J & K & T). cbn in T. rewrite !andb_true_iff, negb_true_iff, Z.eqb_neq, Z.eqb_eq, Qle_bool_iff in T.
    destruct T as (-> & N & T). apply combine_nth_both in J, K. destruct J as [J1 J2], K as [K1 K2].
    split; [exists v; auto|]. split; [exact J1|]. exists a. split; auto. exists b. auto.
  - intros ((v & V & N) & I & a & A & b & B & LE). exists (0, b), (v, a). rewrite !combine_nth_both. cbn.
    rewrite !andb_true_iff, negb_true_iff, Z.eqb_neq, Qle_bool_iff. auto.
Qed.

Lemma misorder_ok y s m : List.length y = m -> List.length s = m -> misorder (y, s) (ranking_row m y s).
Proof.
  intros L1 L2. assert (L : List.length y = List.length s) by congruence. unfold ranking_row.
  pose proof (trivial_bool y s m L1 L2) as TB. destruct (Nat.eqb _ 0 || Nat.eqb _ m)%bool.
  - split; [reflexivity|]. intro H. exfalso. apply H. now apply TB.
  - split; [intro H; apply TB in H; discriminate|]. intros _.
    exists (List.length (relevant y s)), (List.length (irrelevant y s)), (list_sum (map (fun b => count (fun a => Qle_bool a b) (relevant y s)) (irrelevant y s))).
    split; [now apply hm_rel|]. split; [now apply hm_irr|]. split; [apply hm_misordered|].
    pose proof (both_length y s L) as BL. replace (m - List.length (relevant y s))%nat with (List.length (irrelevant y s)) by lia.
    assert (FA : map (fun p => (fst p - snd p)%nat) (combine (bincount (unique_scores s) s) (bincount (unique_scores s) (relevant y s))) =
                 bincount (unique_scores s) (irrelevant y s)).
    { unfold bincount. generalize (unique_scores s). intro u. induction u as [|x u IH]; [reflexivity|]. cbn [map combine fst snd]. rewrite IH. f_equal.
      rewrite (both_count (Qeq_bool x) y s L). lia. }
    rewrite FA, dot_cumsum.
    + unfold ratio. rewrite Nat.mul_comm. reflexivity.
    + apply unique_sorted.
    + intros x J. apply unique_has. apply in_relevant in J. destruct J as (j & _ & J). eapply nth_error_In; eauto.
    + intros x J. apply unique_has. unfold irrelevant in J. apply in_map_iff in J. destruct J as ([v q] & <- & J). apply filter_In in J. destruct J as [J _].
      now apply in_combine_r in J.
Qed.

(** ** Ranking-based average precision *)
Definition rel_positions (y : list Z) : list nat := positions (fun v => negb (v =? 0)) y.
Lemma nth_seq k n i : (i < n)%nat -> nth_error (seq k n) i = Some (k + i)%nat.
Proof.
  revert k i. induction n as [|n IH]; intros k [|i] H; try lia; cbn; [f_equal; lia|]. rewrite IH by lia. f_equal. lia.
Qed.
Lemma in_positions f y j : In j (positions f y) <-> exists v, nth_error y j = Some v /\ f v = true.
Proof.
  unfold positions. rewrite in_map_iff. split.
  - intros ([i v] & <- & J). apply filter_In in J. destruct J as [J E]. cbn in *. apply In_nth_error in J. destruct J as [k J].
    apply combine_nth_both in J. destruct J as [J K]. assert (k < List.length y)%nat by (apply nth_error_Some; rewrite K; discriminate).
    rewrite nth_seq in J by auto. injection J as <-. exists v. auto.
  - intros (v & J & E). exists (j, v). split; auto. apply filter_In. split; auto. apply (nth_error_In _ j). apply combine_nth_both.
    split; auto. rewrite nth_seq; auto. apply nth_error_Some. rewrite J. discriminate.
Qed.
Lemma NoDup_map_fst {A B} (l : list (A * B)) f : NoDup (map fst l) -> NoDup (map fst (filter f l)).
Proof.
  induction l as [|x l IH]; cbn; auto. intro N. inversion N; subst. destruct (f x); auto. cbn. constructor; auto.
  intro J. apply H1. apply in_map_iff in J. destruct J as (z & E & J). apply filter_In in J. apply in_map_iff. exists z. tauto.
Qed.
Lemma map_fst_combine {A B} (a : list A) (b : list B) : List.length a = List.length b -> map fst (combine a b) = a.
Proof. revert b. induction a; intros [|q s] E; try discriminate; auto. cbn. f_equal. apply IHa. cbn in E. lia. Qed.
Lemma positions_NoDup f y : NoDup (positions f y).
Proof. unfold positions. apply NoDup_map_fst. rewrite map_fst_combine by now rewrite seq_length. apply seq_NoDup. Qed.
Lemma relevant_positions y s : List.length y = List.length s -> relevant y s = map (fun j => nth j s 0%Q) (rel_positions y).
Proof.
  intro L. unfold relevant, rel_positions, positions. rewrite map_map.
  enough (G : forall k t, (forall i, nth i s 0%Q = nth (k + i) t 0%Q) ->
    map snd (filter (fun p => negb (fst p =? 0)) (combine y s)) =
    map (fun x => nth (fst x) t 0%Q) (filter (fun p => negb (snd p =? 0)) (combine (seq k (List.length y)) y))) by now apply (G O).
  revert s L. induction y as [|v y IH]; intros [|q s] L k t H; try discriminate; [reflexivity|]. cbn [List.length seq combine filter fst snd].
  assert (IH' : map snd (filter (fun p => negb (fst p =? 0)) (combine y s)) =
    map (fun x => nth (fst x) t 0%Q) (filter (fun p => negb (snd p =? 0)) (combine (seq (S k) (List.length y)) y))).
  { apply IH; [cbn in L; lia|]. intro i. specialize (H (S i)). cbn in H. rewrite H. f_equal. lia. }
  destruct (v =? 0); cbn [negb map fst snd]; [exact IH'|]. f_equal; [|exact IH']. specialize (H O). rewrite Nat.add_0_r in H. exact H.
Qed.

Lemma rank_pos s x j : nth_error s j = Some x -> (0 < rank_max s x)%nat.
Proof.
  intro H. unfold rank_max. apply nth_error_In in H. induction s as [|z s IH]; [destruct H|]. rewrite count_cons.
  destruct H as [->|H]; [|specialize (IH H); lia]. assert (E : Qle_bool x x = true) by (apply Qle_bool_iff; lra). rewrite E. lia.
Qed.

Lemma precision_ok y s m : List.length y = m -> List.length s = m ->
  precision (y, s) (match lrap_row m y s with Some x => x | None => 1%Q end) /\ (lrap_row m y s = None <-> trivial y).
Proof.
  intros L1 L2. assert (L : List.length y = List.length s) by congruence. unfold lrap_row.
  pose proof (trivial_bool y s m L1 L2) as TB. destruct (Nat.eqb _ 0 || Nat.eqb _ m)%bool.
  - split; [split; [reflexivity|]|tauto]. intro H. exfalso. apply H. now apply TB.
  - split; [|split; [discriminate|intro H; apply TB in H; discriminate]]. split; [intro H; apply TB in H; discriminate|]. intros _.
    exists (rel_positions y), (map (fun j => ratio (rank_max (relevant y s) (nth j s 0%Q)) (rank_max s (nth j s 0%Q))) (rel_positions y)).
    split; [apply positions_NoDup|]. split; [|split].
    + intro j. unfold rel_positions. rewrite in_positions. unfold rel. split; intros (v & J & E); exists v; split; auto.
      * now rewrite negb_true_iff, Z.eqb_neq in E.
      * now rewrite negb_true_iff, Z.eqb_neq.
    + assert (G : forall j, In j (rel_positions y) -> exists x, nth_error s j = Some x).
      { intros j J. apply in_positions in J. destruct J as (v & J & _). now apply (nth_some y s j v). }
      induction (rel_positions y) as [|j js IH]; cbn; constructor.
      * destruct (G j (or_introl eq_refl)) as (x & X). rewrite (nth_error_nth _ _ _ X).
        exists x, (rank_max (relevant y s) x), (rank_max s x). split; auto. split; [|split; [apply hm_scored|reflexivity]].
        unfold rank_max. eapply hm_ext; [|apply hm_relevant]. intro i. cbv beta. unfold scored. split; intros (R & z & Z1 & Z2); split; auto; exists z; split; auto; now apply Qle_bool_iff.
      * apply IH. intros i J. apply G. now right.
    + rewrite qmean_mean. 
      transitivity (mean (map (fun x => (qn (rank_max (relevant y s) x) / qn (rank_max s x))%Q) (map (fun j => nth j s 0%Q) (rel_positions y)))).
      * rewrite <- (relevant_positions y s L). reflexivity.
      * rewrite map_map. reflexivity.
Qed.
