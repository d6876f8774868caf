(** Property C131: the ranking measures agree on what a perfect ranking is, and look at nothing but the order. *)
From Verif Require Import Base BaseFacts MiscModel MiscSpec MiscProofs MetricModel MetricSpec MetricProofs MetricProofs2 MetricProofs3 MetricProofs4 MetricProofs5 MetricProofs6 MetricProofs7 MetricProps AgreeSpec.
From Coq Require Import QArith Lqa Qfield.
Local Open Scope Z_scope.

(** ** Means *)
Lemma total_le xs ys : Forall2 Qle xs ys -> (total xs <= total ys)%Q.
Proof. unfold total. induction 1; cbn; lra. Qed.
Lemma total_eq xs ys : Forall2 Qle xs ys -> (total xs == total ys)%Q -> Forall2 Qeq xs ys.
Proof. unfold total. induction 1 as [|x y xs ys H F IH]; cbn; [constructor|]. intro E. pose proof (total_le xs ys F) as T. unfold total in T. constructor; [lra|apply IH; lra]. Qed.
Lemma total_eq' xs ys : Forall2 Qeq xs ys -> (total xs == total ys)%Q.
Proof. unfold total. induction 1; cbn; lra. Qed.
Lemma F2_len {A B} (R : A -> B -> Prop) l l' : Forall2 R l l' -> List.length l = List.length l'.
Proof. induction 1; cbn; congruence. Qed.
Lemma mean_same xs ys : xs <> [] -> Forall2 Qle xs ys -> (mean xs <= mean ys)%Q /\ ((mean xs == mean ys)%Q <-> Forall2 Qeq xs ys).
Proof.
  intros NE F. unfold mean. rewrite <- (F2_len _ _ _ F). change (inject_Z (Z.of_nat (List.length xs))) with (nat_q (List.length xs)).
  assert (P : (0 < nat_q (List.length xs))%Q) by (apply nat_q_pos; destruct xs; [congruence|cbn; lia]).
  split; [|split].
  - apply Qmult_le_compat_r; [now apply total_le|]. apply Qlt_le_weak, Qinv_lt_0_compat, P.
  - intro E. apply total_eq; auto. assert (X : (total xs == total xs / nat_q (List.length xs) * nat_q (List.length xs))%Q) by (field; lra).
    rewrite X, E. field. lra.
  - intro E. rewrite (total_eq' _ _ E). reflexivity.
Qed.
Lemma mean_repeat c n : (0 < n)%nat -> (mean (repeat c n) == c)%Q.
Proof.
  intro N. unfold mean. rewrite repeat_length. change (inject_Z (Z.of_nat n)) with (nat_q n). apply nat_q_pos in N.
  assert (T : (total (repeat c n) == nat_q n * c)%Q).
  { clear N. induction n as [|n IH]; [cbn; unfold nat_q; cbn; ring|]. change (repeat c (S n)) with (c :: repeat c n). cbn [total fold_right]. fold (total (repeat c n)).
    rewrite IH. replace (S n) with (1 + n)%nat by lia. rewrite nat_q_add. change (nat_q 1) with 1%Q. ring. }
  rewrite T. field. lra.
Qed.
Lemma repeat_F2 {A} (R : Q -> A -> Prop) c (l : list A) : Forall (R c) l <-> Forall2 R (repeat c (List.length l)) l.
Proof.
  split; [induction 1; cbn; constructor; auto|]. induction l as [|x l IH]; cbn; intro H; [constructor|]. inversion H; subst. constructor; auto.
Qed.
Lemma mean_low xs c : xs <> [] -> Forall (Qle c) xs -> ((mean xs == c)%Q <-> Forall (Qeq c) xs).
Proof.
  intros NE F. apply repeat_F2 in F. assert (N : (0 < List.length xs)%nat) by (destruct xs; [congruence|cbn; lia]).
  destruct (mean_same (repeat c (List.length xs)) xs) as [_ E]; auto; [destruct xs; [congruence|discriminate]|].
  rewrite mean_repeat in E by auto. rewrite (repeat_F2 Qeq), <- E. split; intro H; now symmetry.
Qed.
Lemma mean_high xs c : xs <> [] -> Forall (fun x => x <= c)%Q xs -> ((mean xs == c)%Q <-> Forall (Qeq c) xs).
Proof.
  intros NE F. assert (N : (0 < List.length xs)%nat) by (destruct xs; [congruence|cbn; lia]).
  assert (G : Forall2 Qle xs (repeat c (List.length xs))).
  { clear NE N. induction F; cbn; constructor; auto. }
  destruct (mean_same xs _ NE G) as [_ E]. rewrite mean_repeat in E by auto. rewrite E, (repeat_F2 Qeq).
  split; intro H; clear -H; set (r := repeat c (List.length xs)) in *; clearbody r; induction H; constructor; auto; now symmetry.
Qed.

(** An average is extreme exactly when every row is. *)
Lemma averages_extreme {A} (P : A -> Q -> Prop) (G : A -> Prop) rows q c : rows <> [] -> averages P rows None q ->
  (forall a v, In a rows -> P a v -> ((v == c)%Q <-> G a)) ->
  (forall a v, In a rows -> P a v -> (c <= v)%Q) \/ (forall a v, In a rows -> P a v -> (v <= c)%Q) ->
  ((q == c)%Q <-> forall a, In a rows -> G a).
Proof.
  intros NE (vs & F & E) H B. rewrite E. assert (NV : vs <> []).
  { apply F2_len in F. destruct vs; [destruct rows; [congruence|discriminate]|discriminate]. }
  assert (X : (mean vs == c)%Q <-> Forall (Qeq c) vs).
  { destruct B as [B|B]; [apply mean_low|apply mean_high]; auto; eapply Forall2_right; eauto. }
  rewrite X. clear X B E NE NV. split.
  - intros K a J. induction F as [|r v rows vs Prv F IH]; [destruct J|]. inversion K; subst. destruct J as [->|J].
    + apply (H a v); [now left|auto|]. now symmetry.
    + apply IH; auto. intros b w Jb. apply H. now right.
  - intros K. induction F as [|r v rows vs Prv F IH]; constructor.
    + symmetry. apply (H r v); [now left|auto|]. apply K. now left.
    + apply IH; [intros b w Jb; apply H; now right|]. intros b Jb. apply K. now right.
Qed.
Lemma separated_rows a s : separated a s <-> forall r, In r (combine a s) -> row_separated (fst r) (snd r).
Proof.
  split.
  - intros H [y t] J. apply In_nth_error in J. destruct J as [i J]. apply combine_nth_both in J. destruct J. eapply H; eauto.
  - intros H i y t A S. apply (H (y, t)). apply (nth_error_In _ i). apply combine_nth_both. auto.
Qed.

(** ** Rows *)
Lemma trivial_separated y s : trivial y -> row_separated y s.
Proof. intros [T|T] j k u v R I; exfalso; [now apply (T j)|now apply (T k)]. Qed.
Lemma misorder_perfect y s v : List.length y = List.length s -> misorder (y, s) v -> ((v == 0)%Q <-> row_separated y s).
Proof.
  intros L [T N]. destruct (trivial_dec y) as [D|D]; [split; intros _; [now apply trivial_separated|auto]|].
  destruct (N D) as (p & n & k & HP & HN & HK & ->).
  assert (P0 : p <> O) by (intros ->; apply D; left; now apply hm_zero_inv).
  assert (N0 : n <> O) by (intros ->; apply D; right; now apply hm_zero_inv).
  rewrite ratio_zero by nia. split.
  - intros -> j i u w R I U W. destruct (Qlt_le_dec w u) as [|G]; auto. exfalso. apply (hm_zero_inv _ HK (j, i)). cbn. split; auto. split; auto.
    exists u. split; auto. exists w. auto.
  - intro S. apply (hm_unique _ _ _ HK). apply hm_zero. intros [j i] (R & I & a & A & x & X & G). cbn in *. pose proof (S j i a x R I A X). lra.
Qed.
Lemma precision_perfect y s v : List.length y = List.length s -> precision (y, s) v -> ((v == 1)%Q <-> row_separated y s).
Proof.
  intros L [T N]. destruct (trivial_dec y) as [D|D]; [split; intros _; [now apply trivial_separated|auto]|].
  destruct (N D) as (js & qs & ND & HJ & F & ->).
  assert (NE : qs <> []) by (intros ->; inversion F; subst; apply D; left; intros j R; apply HJ in R; destruct R).
  assert (A : averages (fun j q => exists x a b, nth_error s j = Some x /\
                how_many (fun i => rel y i /\ scored s x i) a /\ how_many (scored s x) b /\ (q == ratio a b)%Q) js None (mean qs)).
  { exists qs. split; [exact F|reflexivity]. }
  assert (NJ : js <> []) by (intros ->; inversion F; subst; congruence).
  assert (K : forall j q, In j js -> (exists x a b, nth_error s j = Some x /\
                how_many (fun i => rel y i /\ scored s x i) a /\ how_many (scored s x) b /\ (q == ratio a b)%Q) ->
     (q <= 1)%Q /\ ((q == 1)%Q <-> forall k x w, irr y k -> nth_error s j = Some x -> nth_error s k = Some w -> (w < x)%Q)).
  { intros j q J (x & n & b & X & HA & HB & V). apply HJ in J.
    assert (AB : (n <= b)%nat) by (eapply hm_le; [|exact HA|exact HB]; intros i [_ R]; exact R).
    assert (A0 : (0 < n)%nat). { destruct n; [|lia]. exfalso. eapply hm_zero_inv; [exact HA|]. split; [exact J|]. exists x. split; auto. apply Qle_refl. }
    rewrite V. split; [apply ratio_bounds; lia|]. rewrite ratio_one by lia. split.
    - intros -> k x' w I X' W. rewrite X in X'. injection X' as <-. destruct (Qlt_le_dec w x) as [|G]; auto. exfalso.
      destruct HA as (la & NA & LA & IA). destruct HB as (lb & NB & LB & IB).
      assert (IN : incl la lb) by (intros i Hi; apply IB; apply IA in Hi; tauto).
      assert (IN' : incl lb la) by (apply NoDup_length_incl; [auto|lia|auto]).
      assert (Hk : In k lb) by (apply IB; exists w; auto). apply IN', IA in Hk. destruct Hk as [(z & Z1 & Z2) _]. red in I. congruence.
    - intro S. eapply hm_unique; [exact HA|]. eapply hm_ext; [|exact HB]. intro i. split; [|tauto]. intro SI. split; auto.
      destruct SI as (w & W & G). destruct (nth_error y i) as [z|] eqn:EY.
      + destruct (Z.eq_dec z 0) as [->|NZ]; [|exists z; auto]. pose proof (S i x w EY X W). lra.
      + apply nth_error_None in EY. assert (i < List.length s)%nat by (apply nth_error_Some; rewrite W; discriminate). lia. }
  rewrite (averages_extreme _ (fun j => forall k x w, irr y k -> nth_error s j = Some x -> nth_error s k = Some w -> (w < x)%Q) js (mean qs) 1%Q NJ A).
  - split.
    + intros S j k u w R I U W. eapply S; eauto. now apply HJ.
    + intros S j J k x w I X W. eapply S; eauto. now apply HJ.
  - intros j q J P. apply (K j q J P).
  - right. intros j q J P. apply (K j q J P).
Qed.
Lemma coverage_perfect y s v r : List.length y = List.length s -> coverage (y, s) v -> relevants y r ->
  (r <= v)%Q /\ ((v == r)%Q <-> row_separated y s).
Proof.
  intros L [T N] (k & HK & R). rewrite R. destruct (relevant y s) as [|q0 l] eqn:E.
  - assert (Z0 : forall j, ~ rel y j).
    { intros j H. assert (H' := H). destruct H' as (u & J & _). destruct (nth_some y s j u L J) as (x & X).
      assert (In x (relevant y s)) by (apply in_relevant; eauto). rewrite E in H0. destruct H0. }
    rewrite (T Z0), (hm_unique _ _ _ HK (hm_zero _ Z0)). change (nat_q 0) with 0%Q. split; [lra|]. split; [intros _; apply trivial_separated; now left|reflexivity].
  - destruct (fold_min l q0) as [I B]. rewrite <- E in I, B. apply in_relevant in I. destruct I as (j & J & K). set (q := fold_left qmin l q0) in *.
    assert (LOW : forall i x, rel y i -> nth_error s i = Some x -> (q <= x)%Q) by (intros i x Ri Xi; apply B; apply in_relevant; eauto).
    destruct (N j _ J K LOW) as (n & HN & ->). rewrite nat_q_le, nat_q_eq.
    assert (INC : forall i, rel y i -> scored s q i).
    { intros i Ri. assert (R' := Ri). destruct R' as (u & U & _). destruct (nth_some y s i u L U) as (x & X). exists x. split; auto. now apply (LOW i). }
    split; [exact (hm_le _ _ _ _ INC HK HN)|]. split.
    + intros -> a b u w RA IB U W. destruct (Qlt_le_dec w u) as [|G]; auto. exfalso.
      destruct HK as (la & NA & LA & IA). destruct HN as (lb & NB & LB & IBB).
      assert (IN : incl la lb) by (intros i Hi; apply IBB, INC; now apply IA).
      assert (IN' : incl lb la) by (apply NoDup_length_incl; [auto|lia|auto]).
      assert (Hb : In b lb) by (apply IBB; exists w; split; auto; pose proof (LOW a u RA U); lra). apply IN', IA in Hb.
      destruct Hb as (z & Z1 & Z2). red in IB. congruence.
    + intro S. eapply hm_unique; [exact HN|]. eapply hm_ext; [|exact HK]. intro i. split; [apply INC|]. intros (w & W & G).
      destruct (nth_error y i) as [z|] eqn:EY.
      * destruct (Z.eq_dec z 0) as [->|NZ]; [|exists z; auto]. pose proof (S j i q w J EY K W). lra.
      * apply nth_error_None in EY. assert (i < List.length s)%nat by (apply nth_error_Some; rewrite W; discriminate). lia.
Qed.

(** ** The claims *)
(** The ranking loss is 0 exactly when every row scores its relevant labels above its irrelevant ones. *)
Theorem C131_ranking_loss : forall a s n m, matrix a n m -> matrix s n m -> (0 < n)%nat -> (1 < m)%nat -> two_valued a ->
  exists q, label_ranking_loss (T2 a) s None = Ok (Num q) /\ ((q == 0)%Q <-> separated a s).
Proof.
  intros a s n m MA MS N M T. destruct (C41_ranking_loss a s n m None MA MS N M T I) as (q & E & V). exists q. split; auto.
  rewrite separated_rows. apply (averages_extreme misorder (fun r => row_separated (fst r) (snd r))); auto.
  - now apply (rows_ne a s n m).
  - intros [y t] v J P. destruct (rows_in a s n m y t MA MS J) as [L1 L2]. refine (misorder_perfect y t v _ P). now rewrite L1, L2.
  - left. intros [y t] v J P. apply (misorder_bounds y t v P).
Qed.
Print Assumptions C131_ranking_loss.
(** The average precision is 1 exactly then. *)
Theorem C131_precision : forall a s n m, matrix a n m -> matrix s n m -> (0 < n)%nat -> two_valued a ->
  exists q, lrap_score (T2 a) s None = Ok (Num q) /\ ((q == 1)%Q <-> separated a s).
Proof.
  intros a s n m MA MS N T. destruct (C43_precision a s n m MA MS N T) as (q & E & V & _). exists q. split; auto.
  rewrite separated_rows. apply (averages_extreme precision (fun r => row_separated (fst r) (snd r))); auto.
  - now apply (rows_ne a s n m).
  - intros [y t] v J P. destruct (rows_in a s n m y t MA MS J) as [L1 L2]. refine (precision_perfect y t v _ P). now rewrite L1, L2.
  - right. intros [y t] v J P. apply (precision_bounds y t v P).
Qed.
Print Assumptions C131_precision.
(** The coverage error is at least the average number of relevant labels, and equal to it exactly then. *)
Theorem C131_coverage : forall a s n m, matrix a n m -> matrix s n m -> (0 < n)%nat -> (1 < m)%nat -> two_valued a ->
  exists q r, coverage_error (T2 a) s None = Ok (Num q) /\ averages relevants a None r /\ (r <= q)%Q /\ ((q == r)%Q <-> separated a s).
Proof.
  intros a s n m MA MS N M T. destruct (C42_coverage a s n m None MA MS N M T I) as (q & E & vs & F & V).
  set (rs := map (fun p => nat_q (List.length (relevant (fst p) (snd p)))) (combine a s)).
  assert (LN : forall r, In r (combine a s) -> List.length (fst r) = List.length (snd r)).
  { intros [y t] J. destruct (rows_in a s n m y t MA MS J) as [L1 L2]. cbn. now rewrite L1, L2. }
  assert (NE := rows_ne a s n m MA MS N).
  assert (HR : forall r, In r (combine a s) -> relevants (fst r) (nat_q (List.length (relevant (fst r) (snd r))))).
  { intros r J. exists (List.length (relevant (fst r) (snd r))). split; [apply hm_rel; auto|reflexivity]. }
  assert (LE : Forall2 Qle rs vs /\ (Forall2 Qeq rs vs <-> forall r, In r (combine a s) -> row_separated (fst r) (snd r))).
  { unfold rs. clear E V MA MS NE. revert LN HR. induction F as [|r v rows vs P F IH]; intros LN HR.
    - split; [constructor|]. split; [intros _ r []|constructor].
    - cbn [map]. destruct IH as [I1 I2]; [intros b J; apply LN; now right|intros b J; apply HR; now right|].
      destruct r as [y t]. cbn [fst snd] in *. destruct (coverage_perfect y t v _ (LN (y, t) (or_introl eq_refl)) P (HR (y, t) (or_introl eq_refl))) as [C1 C2]. cbn [fst snd] in *.
      split; [constructor; auto|]. split.
      + intros H b [<-|J]; inversion H; subst; cbn [fst snd]; [apply C2; now symmetry|]. apply I2; auto.
      + intro H. constructor; [symmetry; apply C2; apply (H (y, t)); now left|]. apply I2. intros b J. apply H. now right. }
  destruct LE as [LE SE]. assert (NR : rs <> []) by (unfold rs; destruct (combine a s); [congruence|discriminate]).
  destruct (mean_same rs vs NR LE) as [M1 M2]. exists q, (mean rs). split; auto. split.
  - exists rs. split; [|reflexivity]. unfold rs. pose proof (proj1 MA) as LA. pose proof (proj1 MS) as LS. assert (LL : List.length a = List.length s) by congruence.
    clear - HR LL. revert s HR LL. induction a as [|y a IH]; intros [|t s] HR LL; try discriminate; cbn [combine map]; [constructor|].
    constructor; [apply (HR (y, t)); now left|]. apply IH; [intros r J; apply HR; now right|cbn in LL; congruence].
  - rewrite V. split; auto. rewrite separated_rows, <- SE, <- M2. split; intro H; now symmetry.
Qed.
Print Assumptions C131_coverage.
(** So the three measures call the same rankings perfect. *)
Theorem C131_agree : forall a s n m, matrix a n m -> matrix s n m -> (0 < n)%nat -> (1 < m)%nat -> two_valued a ->
  exists loss prec cov r, label_ranking_loss (T2 a) s None = Ok (Num loss) /\ lrap_score (T2 a) s None = Ok (Num prec) /\
    coverage_error (T2 a) s None = Ok (Num cov) /\ averages relevants a None r /\
    ((loss == 0)%Q <-> (prec == 1)%Q) /\ ((loss == 0)%Q <-> (cov == r)%Q).
Proof.
  intros a s n m MA MS N M T. destruct (C131_ranking_loss a s n m MA MS N M T) as (l & E1 & H1). destruct (C131_precision a s n m MA MS N T) as (p & E2 & H2).
  destruct (C131_coverage a s n m MA MS N M T) as (c & r & E3 & R & _ & H3). exists l, p, c, r. repeat (split; auto); tauto.
Qed.
Print Assumptions C131_agree.
(** The area under the ROC curve is 1 exactly when every positive sample is scored above every negative one. *)
Theorem C131_auc : forall y s given p, List.length y = List.length s -> pos_in_force y given p ->
  (exists i, pos_sample p y i) -> (exists i, neg_sample p y i) ->
  exists q, roc_auc_score true y s given = Ok q /\ ((q == 1)%Q <-> split_by_score p y s).
Proof.
  intros y s g p L PF [i HI] [j HJ].
  pose proof (hm_exists_pos p y s L) as HP. pose proof (hm_exists_neg p y s L) as HN.
  set (P := count _ _) in HP. set (N := count _ _) in HN.
  assert (P0 : (0 < P)%nat) by (destruct P; [exfalso; eapply hm_zero_inv; eauto|lia]). assert (N0 : (0 < N)%nat) by (destruct N; [exfalso; eapply hm_zero_inv; eauto|lia]).
  destruct (auc_pairs y s g p _ _ _ _ L PF HP HN P0 N0 (hm_gt p y s) (hm_eq p y s)) as (q & E & V). exists q. split; auto. rewrite V.
  pose proof (pairs_split p y s _ _ _ _ _ L HP HN (hm_gt p y s) (hm_eq p y s) (hm_lt p y s)) as SP.
  pose proof (hm_gt p y s) as HG. pose proof (hm_eq p y s) as HE. pose proof (hm_lt p y s) as HL.
  match type of HG with how_many _ ?k => set (gt := k) in * end. match type of HE with how_many _ ?k => set (eq := k) in * end.
  match type of HL with how_many _ ?k => set (lt := k) in * end.
  rewrite ratio_one by nia. split.
  - intro G. assert (gt = P * N)%nat by nia. intros u v U W.
    pose proof (hm_prod _ _ _ _ HP HN) as HX. destruct HG as (lg & NG & LG & IG). destruct HX as (lx & NX & LX & IX).
    assert (IN : incl lg lx) by (intros z Hz; apply IX; apply IG in Hz; tauto).
    assert (IN' : incl lx lg) by (apply NoDup_length_incl; [auto|lia|auto]).
    assert (Hz : In (u, v) lx) by (apply IX; cbn; auto). apply IN', IG in Hz. cbn in Hz. tauto.
  - intro S. assert (Z : gt = (P * N)%nat).
    { eapply hm_unique; [exact HG|]. eapply hm_ext; [|exact (hm_prod _ _ _ _ HP HN)]. intros [u v]. cbn. split; [|tauto]. intros [U W]. split; auto. }
    nia.
Qed.
Print Assumptions C131_auc.
