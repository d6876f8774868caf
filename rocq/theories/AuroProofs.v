(** Proofs about AURO. *)
From Verif Require Import Base BaseFacts IndexModel MLModel MLSpec MLProofs MLProofs2 MLProofs3 MLProps MiscModel MiscSpec QueryModel QuerySpec
  QueryProofs QueryProofs2 QueryProofs5 MetricModel MLQueryModel MLQuerySpec MLQueryProofs AuroModel AuroSpec.
From Coq Require Import QArith Qabs Qfield Lqa.
Local Open Scope Z_scope.

Lemma zsum_count w : (forall x, In x w -> x = 0 \/ x = 1) -> zsum w = Z.of_nat (count (Z.eqb 1) w).
Proof.
  induction w as [|a w IH]; intro H; [reflexivity|]. cbn [zsum fold_right]. fold (zsum w). rewrite IH by (intros; apply H; now right).
  unfold count. cbn [filter]. destruct (H a (or_introl eq_refl)) as [-> | ->]; cbn [Z.eqb Pos.eqb length]; lia.
Qed.

Lemma fl_neg_lt a b : fl_lt (fl_neg a) (fl_neg b) = fl_lt b a.
Proof.
  destruct a as [x|[]|], b as [y|[]|]; cbn; auto. f_equal. destruct (Qle_bool (- y) (- x)) eqn:A, (Qle_bool x y) eqn:B; auto.
  - apply Qle_bool_iff in A. apply Qle_bool_false in B. lra.
  - apply Qle_bool_iff in B. apply Qle_bool_false in A. lra.
Qed.
Lemma fl_argmax_spec l : l <> [] -> (forall x, In x l -> x <> NaN) -> exists k, fl_argmax l = Ok k /\ (k < length l)%nat /\
  forall x, In x l -> fl_lt (nth k l NaN) x = false.
Proof.
  intros NE NN. destruct (fl_argmin_spec (map fl_neg l)) as (k & E & L & _ & H). { intro X. destruct l; [contradiction|discriminate]. }
  rewrite map_length in L. exists k. split; [exact E|]. split; [exact L|]. intros x I.
  assert (G : fl_lt (fl_neg x) (nth k (map fl_neg l) NaN) = false).
  { apply H; [|now apply in_map]. intros z J. apply in_map_iff in J. destruct J as (v & <- & J). specialize (NN v J). destruct v as [q|[]|]; cbn; congruence. }
  change NaN with (fl_neg NaN) in G at 1. rewrite map_nth, fl_neg_lt in G. exact G.
Qed.

(** Whatever the scores: two different labels, the second unlabelled. *)
Lemma labels_any argsort pres w m : sorts argsort -> length pres = S m -> length w = m ->
  (exists j j', (j < m)%nat /\ (j' < m)%nat /\ j <> j' /\ nth j w 0 <> 0 /\ nth j' w 0 <> 0) ->
  exists y1 y2, auro_labels argsort pres w = Ok (y1, y2) /\ (y1 < m)%nat /\ (y2 < m)%nat /\ y1 <> y2 /\ nth y2 w 0 <> 0.
Proof.
  intros Hs Lp Lw (j & j' & Hj & Hj' & NJ & Nj & Nj'). unfold auro_labels.
  set (masked := map _ (combine (removelast pres) w)). assert (LM : length masked = m) by (unfold masked; rewrite map_length, combine_length, removelast_len; lia).
  set (dists := map _ masked). assert (LD : length dists = m) by (unfold dists; now rewrite map_length). clearbody dists. clearbody masked.
  destruct (fl_argmin_spec (map fl_neg masked)) as (y1 & E1 & L1 & _). { intro X. destruct masked; [cbn in LM; lia|discriminate]. }
  rewrite map_length, LM in L1. unfold fl_argmax. rewrite E1. cbn [bind].
  destruct (Hs dists) as [PERM _]. rewrite LD in PERM. set (f := fun j => negb (nth j w 0 =? 0) && negb (Nat.eqb j y1)).
  assert (FC : forall a, f a = true <-> nth a w 0 <> 0 /\ a <> y1).
  { intro a. unfold f. rewrite andb_true_iff, !negb_true_iff, Z.eqb_neq, Nat.eqb_neq. reflexivity. }
  assert (EX : exists a, In a (filter f (argsort dists))).
  { destruct (Nat.eq_dec j y1) as [->|N]; [exists j'|exists j]; apply filter_In; (split; [apply (Permutation_in _ (Permutation_sym PERM)); unfold range; apply in_seq; lia|apply FC; auto]). }
  destruct (filter f (argsort dists)) as [|y2 rest] eqn:E2; [destruct EX as (a & [])|].
  assert (I2 : In y2 (filter f (argsort dists))) by (rewrite E2; now left). apply filter_In in I2. destruct I2 as [J2 F2]. apply FC in F2.
  apply (Permutation_in _ PERM) in J2. unfold range in J2. apply in_seq in J2.
  exists y1, y2. split; [reflexivity|]. split; [auto|]. split; [lia|]. split; [intro Y; apply (proj2 F2); auto|]. apply F2.
Qed.

Section Labels.
  Context (argsort : list fl -> list nat) (Hs : sorts argsort) (pres : list fl) (w : list Z) (m : nat).
  Hypothesis Lp : length pres = S m.
  Hypothesis Lw : length w = m.
  Hypothesis Fin : all_finite pres.

  Definition masked := map (fun e => if snd e =? 0 then Inf true else fst e) (combine (removelast pres) w).
  Definition dists := map (fun v => fl_abs (fl_sub v (last pres NaN))) masked.

  Lemma last_fin : exists d, last pres NaN = Num d.
  Proof. apply Fin. destruct (exists_last (l := pres)) as (p & z & E). { intro X. rewrite X in Lp. discriminate. } rewrite E, last_last. apply in_or_app. right. now left. Qed.
  Lemma masked_length : length masked = m.
  Proof. unfold masked. rewrite map_length, combine_length, removelast_len. lia. Qed.
  Lemma masked_nth j : (j < m)%nat -> nth j masked NaN = if nth j w 0 =? 0 then Inf true else nth j pres NaN.
  Proof.
    intro Hj. apply nth_error_nth. unfold masked. rewrite nth_error_map.
    rewrite (combine_nth_ok (removelast pres) w j (nth j pres NaN) (nth j w 0)); [reflexivity| |apply nth_error_nth'; lia].
    rewrite removelast_nth by lia. apply nth_error_nth'. lia.
  Qed.
  Lemma pres_nth j : (j < S m)%nat -> exists q, nth j pres NaN = Num q.
  Proof. intro H. apply Fin. apply nth_In. lia. Qed.
  Lemma dists_nth j : (j < m)%nat -> exists d, last pres NaN = Num d /\
    (nth j w 0 = 0 -> nth j dists NaN = Inf false) /\ (nth j w 0 <> 0 -> exists q, nth j pres NaN = Num q /\ nth j dists NaN = Num (Qabs (q - d))).
  Proof.
    intro Hj. destruct last_fin as (d & Hd). exists d. split; [exact Hd|].
    assert (E : nth j dists NaN = fl_abs (fl_sub (nth j masked NaN) (last pres NaN))).
    { apply nth_error_nth. unfold dists. rewrite nth_error_map. rewrite (nth_error_nth' masked NaN) by (rewrite masked_length; lia). reflexivity. }
    rewrite E, masked_nth, Hd by auto. destruct (pres_nth j ltac:(lia)) as (q & Q1). split; intro H.
    - rewrite H. reflexivity.
    - replace (nth j w 0 =? 0) with false by lia. rewrite Q1. exists q. split; reflexivity.
  Qed.

  Lemma labels_ok : (exists j j', (j < m)%nat /\ (j' < m)%nat /\ j <> j' /\ nth j w 0 <> 0 /\ nth j' w 0 <> 0) ->
    exists y1 y2, auro_labels argsort pres w = Ok (y1, y2) /\ (y1 < m)%nat /\ (y2 < m)%nat /\ y1 <> y2 /\ nth y1 w 0 <> 0 /\ nth y2 w 0 <> 0 /\
      (forall j q q1, (j < m)%nat -> nth j w 0 <> 0 -> nth j pres NaN = Num q -> nth y1 pres NaN = Num q1 -> (q <= q1)%Q) /\
      (forall j d q q2, (j < m)%nat -> nth j w 0 <> 0 -> j <> y1 -> last pres NaN = Num d -> nth j pres NaN = Num q -> nth y2 pres NaN = Num q2 ->
         (Qabs (q2 - d) <= Qabs (q - d))%Q).
  Proof.
    intros (j & j' & Hj & Hj' & NJ & Nj & Nj'). unfold auro_labels. fold masked. fold dists.
    destruct (fl_argmax_spec masked) as (y1 & E1 & L1 & G1).
    { intro X. pose proof masked_length as Y. rewrite X in Y. cbn in Y. lia. }
    { intros x I. apply In_nth with (d := NaN) in I. destruct I as (a & La & <-). rewrite masked_length in La. rewrite masked_nth by auto.
      destruct (nth a w 0 =? 0); [discriminate|]. destruct (pres_nth a ltac:(lia)) as (q & ->). discriminate. }
    rewrite masked_length in L1. rewrite E1. cbn [bind].
    assert (G : forall a, (a < m)%nat -> fl_lt (nth y1 masked NaN) (nth a masked NaN) = false). { intros a La. apply G1, nth_In. rewrite masked_length. lia. }
    assert (W1 : nth y1 w 0 <> 0).
    { intro X. pose proof (G j Hj) as C. rewrite !masked_nth in C by auto. rewrite X in C. cbn [Z.eqb] in C. replace (nth j w 0 =? 0) with false in C by lia.
      destruct (pres_nth j ltac:(lia)) as (q & Q1). rewrite Q1 in C. discriminate. }
    destruct (Hs dists) as [PERM SORT]. assert (LD : length dists = m) by (unfold dists; rewrite map_length; apply masked_length).
    assert (NN : forall x, In x dists -> x <> NaN).
    { intros x I. apply In_nth with (d := NaN) in I. destruct I as (a & La & <-). rewrite LD in La. destruct (dists_nth a La) as (d & _ & D0 & D1).
      destruct (Z.eq_dec (nth a w 0) 0) as [Z0|Z0]; [rewrite (D0 Z0); discriminate|]. destruct (D1 Z0) as (q & _ & ->). discriminate. }
    specialize (SORT NN). rewrite LD in PERM.
    set (f := fun j => negb (nth j w 0 =? 0) && negb (Nat.eqb j y1)).
    assert (FC : forall a, f a = true <-> nth a w 0 <> 0 /\ a <> y1).
    { intro a. unfold f. rewrite andb_true_iff, !negb_true_iff, Z.eqb_neq, Nat.eqb_neq. reflexivity. }
    assert (EX : exists a, In a (argsort dists) /\ f a = true).
    { destruct (Nat.eq_dec j y1) as [->|N]; [exists j'|exists j]; (split; [apply (Permutation_in _ (Permutation_sym PERM)); unfold range; apply in_seq; lia|apply FC; auto]). }
    assert (FIRST : exists y2 rest, filter f (argsort dists) = y2 :: rest /\ In y2 (argsort dists) /\ f y2 = true /\
      forall a, In a (argsort dists) -> f a = true -> a = y2 \/ exists pre mid post, argsort dists = pre ++ y2 :: mid ++ a :: post).
    { clear - EX. destruct EX as (a & I & Fa). induction (argsort dists) as [|b s IH]; [destruct I|]. cbn [filter]. destruct (f b) eqn:Fb.
      - exists b, (filter f s). split; [reflexivity|]. split; [now left|]. split; [auto|]. intros c [->|Ic] Fc; [now left|]. right. apply in_split in Ic. destruct Ic as (mid & post & ->).
        exists [], mid, post. reflexivity.
      - assert (I' : In a s) by (destruct I as [->|I]; [congruence|auto]). destruct (IH I') as (y2 & rest & E & J & F2 & H). exists y2, rest. split; [auto|]. split; [now right|]. split; [auto|].
        intros c [->|Ic] Fc; [congruence|]. destruct (H c Ic Fc) as [->|(pre & mid & post & ->)]; [now left|]. right. exists (b :: pre), mid, post. reflexivity. }
    destruct FIRST as (y2 & rest & E2 & J2 & F2 & H2). rewrite E2. apply FC in F2. destruct F2 as [W2 N2].
    assert (IN : forall a, (a < m)%nat -> In a (argsort dists)). { intros a La. apply (Permutation_in _ (Permutation_sym PERM)). unfold range. apply in_seq. lia. }
    assert (L2 : (y2 < m)%nat). { apply (Permutation_in _ PERM) in J2. unfold range in J2. apply in_seq in J2. lia. }
    exists y1, y2. split; [reflexivity|]. split; [auto|]. split; [auto|]. split; [auto|]. split; [auto|]. split; [auto|]. split.
    - intros a q q1 La Na Qa Q1. pose proof (G a La) as C. rewrite !masked_nth in C by auto. replace (nth a w 0 =? 0) with false in C by lia. replace (nth y1 w 0 =? 0) with false in C by lia.
      rewrite Qa, Q1 in C. cbn in C. apply negb_false_iff, Qle_bool_iff in C. exact C.
    - intros a d q q2 La Na Ny Hd Qa Q2. assert (Fa : f a = true) by (apply FC; auto). destruct (H2 a (IN a La) Fa) as [->|(pre & mid & post & E)]; [rewrite Qa in Q2; injection Q2 as ->; apply Qle_refl|].
      pose proof (SORT _ _ _ _ _ E) as C. destruct (dists_nth a La) as (d1 & Hd1 & _ & D1). destruct (dists_nth y2 L2) as (d2 & Hd2 & _ & D2).
      rewrite Hd in Hd1, Hd2. injection Hd1 as <-. injection Hd2 as <-. destruct (D1 Na) as (qa & Qa' & Da).
      destruct (D2 W2) as (qb & Qb' & Db). rewrite Qa in Qa'. rewrite Q2 in Qb'. injection Qa' as <-. injection Qb' as <-. rewrite Da, Db in C. cbn in C. apply negb_false_iff, Qle_bool_iff in C. exact C.
  Qed.
End Labels.

Lemma filter_sorted (f : nat -> bool) k : forall a, StronglySorted Z.lt (map Z.of_nat (filter f (seq a k))) /\ forall x, In x (filter f (seq a k)) -> (a <= x)%nat.
Proof.
  induction k as [|k IH]; intro a; [split; [constructor|intros x []]|]. cbn [seq filter]. destruct (IH (S a)) as [S1 G1]. split.
  - destruct (f a); [|exact S1]. cbn [map]. constructor; [exact S1|]. rewrite Forall_forall. intros z Hz. apply in_map_iff in Hz. destruct Hz as (x & <- & Hx). apply G1 in Hx. lia.
  - intros x Hx. destruct (f a).
    + destruct Hx as [->|Hx]; [lia|]. apply G1 in Hx. lia.
    + apply G1 in Hx. lia.
Qed.

Lemma two_pairs u m i : ml_reachable (Z.of_nat m) u -> (2 <= pairs_of u i)%nat ->
  exists j j', (j < m)%nat /\ (j' < m)%nat /\ j <> j' /\ In (i, Z.of_nat j) (pairs u) /\ In (i, Z.of_nat j') (pairs u).
Proof.
  intros R H. pose proof (reachable_good _ _ R) as G. assert (N : NoDup (pairs u)) by (apply pairs_NoDup; apply G). unfold pairs_of in H.
  apply (NoDup_filter (fun p => fst p =? i)) in N.
  assert (I : forall p, In p (filter (fun p => fst p =? i) (pairs u)) -> In p (pairs u) /\ fst p = i /\ 0 <= snd p < Z.of_nat m).
  { intros p Hp. apply filter_In in Hp. destruct Hp as [Hp E]. pose proof (good_range _ _ p G Hp) as Rg. split; [auto|]. split; lia. }
  destruct (filter _ (pairs u)) as [|[a j] [|[b j'] r]]; cbn in H; try lia. inversion N as [|? ? NI]; subst.
  destruct (I (a, j) (or_introl eq_refl)) as (A1 & A2 & A3). destruct (I (b, j') (or_intror (or_introl eq_refl))) as (B1 & B2 & B3). cbn in *. subst a b.
  exists (Z.to_nat j), (Z.to_nat j'). rewrite !Z2Nat.id by lia. split; [lia|]. split; [lia|]. split; [|auto]. intro E. apply NI. left. f_equal. lia.
Qed.

Lemma sorted_nth_lt l : forall a b x z, StronglySorted Z.lt l -> (a < b)%nat -> nth_error l a = Some x -> nth_error l b = Some z -> x < z.
Proof.
  induction l as [|v l IH]; intros a b x z SS Hab A C; [destruct a; discriminate|]. inversion SS as [|? ? S1 F]; subst. rewrite Forall_forall in F.
  destruct a as [|a]; destruct b as [|b]; try lia; cbn in A, C.
  - injection A as <-. apply F. eapply nth_error_In; eauto.
  - apply (IH a b x z S1 ltac:(lia) A C).
Qed.

Lemma nth_error_same {A} (l : list A) : forall l', (forall k, nth_error l k = nth_error l' k) -> l = l'.
Proof.
  induction l as [|a l IH]; intros [|b l'] H; [reflexivity|specialize (H 0%nat); discriminate|specialize (H 0%nat); discriminate|].
  pose proof (H 0%nat) as H0. cbn in H0. injection H0 as ->. f_equal. apply IH. intro k. exact (H (S k)).
Qed.

Section Select.
  Context {B M : Type} (argsort : list fl -> list nat) (fit : option M -> list B -> list (list Q) -> res M)
          (scores : M -> list B -> nat * list (list fl)) (X : list B) (y : list (list Q)) (m : nat) (st : auro M)
          (L U : ml_pool) (l u : mlic) (model : option nat) (y_mat : option (list (list Q))).
  Let n := length y.
  Hypothesis Hs : sorts argsort.
  Hypothesis HX : length X = n.
  Hypothesis HU : check_ml_ind (Z.of_nat n) (Z.of_nat m) U = Ok u.
  Hypothesis HL : check_ml_ind (Z.of_nat n) (Z.of_nat m) L = Ok l.
  Hypothesis Ru : ml_reachable (Z.of_nat m) u.
  Hypothesis Wu : within n u.
  Hypothesis Nu : (2 <= ml_pool_len U)%nat.

  Lemma prepare : exists W rows xs,
    ml_mask u n m 1 false = Ok W /\ rows = filter (fun a => 1 <? zsum (nth a W [])) (range n) /\ mapM (py_nth X) rows = Ok xs /\
    with_two n u (map Z.of_nat rows) /\ rows_of X (map Z.of_nat rows) xs /\
    forall a, In a rows -> (a < n)%nat /\ zsum (nth a W []) = Z.of_nat (pairs_of u (Z.of_nat a)) /\ length (nth a W []) = m /\
      forall b, (b < m)%nat -> (In (Z.of_nat a, Z.of_nat b) (pairs u) <-> nth b (nth a W []) 0 <> 0).
  Proof.
    destruct (dense_mask_lemma (Z.of_nat m) u n m 1 Ru) as (W & EW & SW & CW).
    { intros p Hp. split; [exact (Wu p Hp)|]. pose proof (reachable_good _ _ Ru) as G. exact (proj2 (good_range _ _ p G Hp)). }
    assert (ROW : forall a, (a < n)%nat -> length (nth a W []) = m /\ zsum (nth a W []) = Z.of_nat (pairs_of u (Z.of_nat a)) /\
      forall b, (b < m)%nat -> (In (Z.of_nat a, Z.of_nat b) (pairs u) <-> nth b (nth a W []) 0 <> 0)).
    { intros a La. destruct (mask_row u n m W (Z.of_nat a) SW CW ltac:(lia)) as (w & E & Lw & Hw).
      rewrite row_of_ok in E by (rewrite (proj1 SW); lia). injection E as E. rewrite Nat2Z.id in E. rewrite E. split; [exact Lw|]. split.
      - rewrite zsum_count.
        + f_equal. apply (mask_count (Z.of_nat m) u m (Z.of_nat a) w Ru eq_refl Lw). intros b Hb. apply (Hw b Hb).
        + intros x Hx. apply In_nth with (d := 0) in Hx. destruct Hx as (b & Lb & <-). rewrite Lw in Lb. destruct (Hw b Lb) as [H1 H2].
          destruct (In_dec (fun p q : Z * Z => ltac:(repeat decide equality)) (Z.of_nat a, Z.of_nat b) (pairs u)); [right|left]; tauto.
      - intros b Hb. destruct (Hw b Hb) as [H1 H2]. split; intro H.
        + apply H1 in H. lia.
        + destruct (In_dec (fun p q : Z * Z => ltac:(repeat decide equality)) (Z.of_nat a, Z.of_nat b) (pairs u)) as [D|D]; [auto|]. apply H2 in D. contradiction. }
    exists W, (filter (fun a => 1 <? zsum (nth a W [])) (range n)).
    set (rows := filter _ _). assert (IR : forall a, In a rows <-> (a < n)%nat /\ (2 <= pairs_of u (Z.of_nat a))%nat).
    { intro a. unfold rows, range. rewrite filter_In, in_seq. split; intros [H1 H2].
      - split; [lia|]. destruct (ROW a ltac:(lia)) as (_ & Z1 & _). rewrite Z1 in H2. lia.
      - split; [lia|]. destruct (ROW a ltac:(lia)) as (_ & Z1 & _). rewrite Z1. lia. }
    destruct (mapM_each (py_nth X) (fun a x => nth_error X a = Some x) rows) as (xs & E & F).
    { intros a Ha. apply IR in Ha. unfold py_nth. destruct (nth_error X a) as [x|] eqn:Ex; [eauto|]. apply nth_error_None in Ex. lia. }
    exists xs. split; [exact EW|]. split; [reflexivity|]. split; [exact E|]. split; [|split].
    - split; [apply filter_sorted|]. intro i. rewrite in_map_iff. split.
      + intros (a & <- & Ha). apply IR in Ha. lia.
      + intros [Hi H2]. exists (Z.to_nat i). split; [lia|]. apply IR. rewrite Z2Nat.id by lia. split; [lia|auto].
    - split; [rewrite map_length; symmetry; exact (Forall2_length_eq _ _ _ F)|]. intros r i Hr. rewrite nth_error_map in Hr.
      destruct (nth_error rows r) as [a|] eqn:Ea; [|discriminate]. injection Hr as <-. rewrite Nat2Z.id.
      destruct (Forall2_nth_error _ _ _ F _ _ Ea) as (x & Ex & Hx). congruence.
    - intros a Ha. apply IR in Ha. destruct (ROW a (proj1 Ha)) as (R1 & R2 & R3). split; [tauto|]. auto.
  Qed.

  Lemma with_two_unique ids ids' : with_two n u ids -> with_two n u ids' -> ids = ids'.
  Proof.
    intros (S1 & I1) (S2 & I2). assert (I : forall i, In i ids <-> In i ids') by (intro i; rewrite I1, I2; reflexivity). clear I1 I2.
    revert ids' S2 I. induction S1 as [|a s SS IH F]; intros s' S2 I.
    - destruct s' as [|b s']; [reflexivity|]. exfalso. apply (I b). now left.
    - destruct S2 as [|b s' S2 F2]; [exfalso; apply (I a); now left|]. rewrite Forall_forall in F, F2.
      assert (a = b) as <-.
      { assert (A : In a (b :: s')) by (apply I; now left). assert (C : In b (a :: s)) by (apply I; now left).
        destruct A as [A|A]; [auto|]. destruct C as [C|C]; [auto|]. apply F in C. apply F2 in A. lia. }
      f_equal. apply IH; [exact S2|]. intro i. split; intro Hi.
      + assert (A : In i (a :: s')) by (apply I; now right). destruct A as [<-|A]; [|auto]. apply F in Hi. lia.
      + assert (A : In i (a :: s)) by (apply I; now right). destruct A as [<-|A]; [|auto]. apply F2 in Hi. lia.
  Qed.

  Lemma rows_unique ids xs xs' : (forall i, In i ids -> 0 <= i < Z.of_nat n) -> rows_of X ids xs -> rows_of X ids xs' -> xs = xs'.
  Proof.
    intros R (L1 & H1) (L2 & H2). apply nth_error_same. intro k. destruct (nth_error ids k) as [i|] eqn:E.
    - rewrite (H1 _ _ E), (H2 _ _ E). reflexivity.
    - apply nth_error_None in E. rewrite (proj2 (nth_error_None xs k)), (proj2 (nth_error_None xs' k)) by lia. reflexivity.
  Qed.

  Lemma select_run a t : model_used fit X y m l st model y_mat a t -> exists W rows xs,
    ml_mask u n m 1 false = Ok W /\ rows = filter (fun a => 1 <? zsum (nth a W [])) (range n) /\
    with_two n u (map Z.of_nat rows) /\ rows_of X (map Z.of_nat rows) xs /\
    (forall a, In a rows -> (a < n)%nat /\ zsum (nth a W []) = Z.of_nat (pairs_of u (Z.of_nat a)) /\ length (nth a W []) = m /\
      forall b, (b < m)%nat -> (In (Z.of_nat a, Z.of_nat b) (pairs u) <-> nth b (nth a W []) 0 <> 0)) /\
    auro_select argsort fit scores X y m st L U model y_mat =
      ({| heap := set_nth a (Some t) (heap st); own := a |}, auro_pick argsort m (scores t xs) rows W).
  Proof.
    intro MU. destruct prepare as (W & rows & xs & EW & ER & EX & T & R & P). exists W, rows, xs. split; [auto|]. split; [auto|]. split; [auto|]. split; [auto|]. split; [auto|].
    unfold auro_select. fold n. replace (ml_pool_len U <=? 1)%nat with false by lia. rewrite HU, HL. cbn [bind]. rewrite EW. cbn [bind]. rewrite <- ER. rewrite EX. cbn [bind].
    unfold model_used in MU. destruct model as [b|].
    - destruct MU as [-> [Hb|(Hb & xs' & ys & ids & G & F)]]; cbn [heap own]; rewrite (nth_error_nth _ _ None Hb); [reflexivity|].
      destruct y_mat; rewrite G; cbn [bind fst snd]; rewrite F; reflexivity.
    - destruct MU as (-> & old & Ho & xs' & ys & ids & G & F). rewrite (nth_error_nth _ _ None Ho).
      assert (C : (ld <- get_Xy false (mcont l) X (match y_mat with Some ym => ym | None => y end) (Z.of_nat m) 0%Q ;; fit old (fst (fst ld)) (snd (fst ld))) = Ok t).
      { rewrite G. cbn [bind fst snd]. exact F. }
      destruct old; rewrite C; reflexivity.
  Qed.

  Lemma select_choice a t ids xs : model_used fit X y m l st model y_mat a t ->
    with_two n u ids -> ids <> [] -> rows_of X ids xs -> score_shape (length ids) m (scores t xs) ->
    exists r i y1 y2 pres,
      nth_error ids r = Some i /\ nth_error (map lr_scores (snd (scores t xs))) r = Some pres /\
      auro_select argsort fit scores X y m st L U model y_mat =
        ({| heap := set_nth a (Some t) (heap st); own := a |}, Ok (APick i y1 y2)) /\
      least_queried u i /\ (y1 < m)%nat /\ y1 <> y2 /\ In (i, Z.of_nat y2) (pairs u) /\
      (all_finite pres ->
        In (i, Z.of_nat y1) (pairs u) /\
        (forall j q q1, In (i, Z.of_nat j) (pairs u) -> nth_error pres j = Some (Num q) -> nth_error pres y1 = Some (Num q1) -> (q <= q1)%Q) /\
        (forall j d d', In (i, Z.of_nat j) (pairs u) -> j <> y1 -> dummy_distance pres y2 d -> dummy_distance pres j d' -> (d <= d')%Q)).
  Proof.
    intros MU T NE RX (S1 & S2 & S3). destruct (select_run a t MU) as (W & rows & xs' & EW & ER & T' & RX' & P & RUN).
    assert (EI : ids = map Z.of_nat rows) by (eapply with_two_unique; eauto). subst ids.
    assert (xs' = xs) as ->. { apply (rows_unique (map Z.of_nat rows)); auto. intros i Hi. apply (proj2 T) in Hi. tauto. }
    rewrite RUN. unfold auro_pick, lr_predict. rewrite S1. rewrite Nat.mul_comm, Nat.mod_mul by discriminate. cbn [Nat.eqb guard bind fst snd].
    set (fs := snd (scores t xs)) in *. set (pres := map lr_scores fs).
    set (sums := map (fun a => inject_Z (zsum (nth a W []))) rows). rewrite map_length in S2.
    assert (NR : rows <> []) by (intro Z0; apply NE; now rewrite Z0).
    destruct (argmax_spec sums) as (k & Ek & Lk & Gk). { intro Z0. apply NR. unfold sums in Z0. now apply map_eq_nil in Z0. }
    rewrite Ek. cbn [bind]. unfold sums in Lk. rewrite map_length in Lk.
    assert (Lp : forall r p, nth_error pres r = Some p -> length p = S m).
    { intros r p E. unfold pres in E. rewrite nth_error_map in E. destruct (nth_error fs r) as [row|] eqn:Er; [|discriminate]. injection E as <-.
      rewrite lr_scores_length, (S3 row) by (eapply nth_error_In; eauto). rewrite S1, Nat.mul_comm. apply Nat.div_mul. discriminate. }
    assert (G : forallb (fun p => Nat.eqb (length p - 1) m) pres = true).
    { apply forallb_forall. intros q Hq. apply In_nth_error in Hq. destruct Hq as (c & Hc). rewrite (Lp c q Hc). apply Nat.eqb_eq. lia. }
    rewrite G. cbn [guard bind]. unfold py_nth.
    destruct (nth_error pres k) as [p|] eqn:Ep; [|apply nth_error_None in Ep; unfold pres in Ep; rewrite map_length in Ep; lia].
    destruct (nth_error rows k) as [i|] eqn:Ei; [|apply nth_error_None in Ei; lia]. cbn [bind].
    destruct (P i (nth_error_In _ _ Ei)) as (Li & Zi & Lw & Hw).
    pose proof (Lp k p Ep) as Lpp.
    assert (P2 : (2 <= pairs_of u (Z.of_nat i))%nat). { apply (proj2 T). apply in_map. eapply nth_error_In; eauto. }
    assert (TWO : exists j j', (j < m)%nat /\ (j' < m)%nat /\ j <> j' /\ nth j (nth i W []) 0 <> 0 /\ nth j' (nth i W []) 0 <> 0).
    { destruct (two_pairs u m (Z.of_nat i) Ru P2) as (j & j' & Hj & Hj' & N & A & A'). exists j, j'. rewrite <- (Hw j Hj), <- (Hw j' Hj'). auto. }
    destruct (labels_any argsort p (nth i W []) m Hs Lpp Lw TWO) as (y1 & y2 & EL & L1 & L2 & N12 & W2). rewrite EL. cbn [bind fst snd].
    exists k, (Z.of_nat i), y1, y2, p. split; [rewrite nth_error_map, Ei; reflexivity|]. split; [exact Ep|]. split; [reflexivity|].
    split; [|split; [auto|split; [auto|split; [now apply Hw|]]]].
    - assert (SV : forall r b, nth_error rows r = Some b -> (nth r sums 0 = inject_Z (Z.of_nat (pairs_of u (Z.of_nat b))))%Q).
      { intros r b Er. apply nth_error_nth. unfold sums. rewrite nth_error_map, Er. cbn. f_equal. f_equal. apply P. eapply nth_error_In; eauto. }
      assert (SMALL : forall i', pairs_of u i' <> 0%nat -> 0 <= i' < Z.of_nat n).
      { intros i' Hi'. destruct (filter (fun p => fst p =? i') (pairs u)) as [|q rest] eqn:E; [exfalso; apply Hi'; unfold pairs_of; now rewrite E|].
        assert (Iq : In q (filter (fun p => fst p =? i') (pairs u))) by (rewrite E; now left). apply filter_In in Iq. destruct Iq as [Iq Fq]. specialize (Wu q Iq). lia. }
      assert (CMP : forall i', (2 <= pairs_of u i')%nat -> exists r, nth_error rows r = Some (Z.to_nat i') /\ (r < length rows)%nat /\ Z.of_nat (Z.to_nat i') = i' /\
        ((pairs_of u i' < pairs_of u (Z.of_nat i))%nat \/ pairs_of u i' = pairs_of u (Z.of_nat i) /\ (k <= r)%nat)).
      { intros i' Hi'. assert (B' : 0 <= i' < Z.of_nat n) by (apply SMALL; lia). assert (I' : In i' (map Z.of_nat rows)) by (apply (proj2 T); auto).
        apply in_map_iff in I'. destruct I' as (b & <- & Ib). apply In_nth_error in Ib. destruct Ib as (r & Er). exists r. rewrite Nat2Z.id.
        assert (Lr : (r < length rows)%nat) by (apply nth_error_Some; congruence). split; [exact Er|]. split; [exact Lr|]. split; [reflexivity|].
        destruct (Gk r) as [Lt|[Eq Le]]; [unfold sums; now rewrite map_length| |]; rewrite (SV r b Er), (SV k i Ei) in *.
        - left. rewrite <- Zlt_Qlt in Lt. lia.
        - right. rewrite inject_Z_injective in Eq. split; [lia|auto]. }
      split.
      + intro i'. destruct (le_lt_dec 2 (pairs_of u i')) as [H2|H2]; [|lia]. destruct (CMP i' H2) as (r & _ & _ & _ & C). lia.
      + intros i' Hlt. destruct (le_lt_dec 2 (pairs_of u i')) as [H2|H2]; [|lia]. destruct (CMP i' H2) as (r & Er & Lr & Ei' & [C|[C Hle]]); [auto|]. exfalso.
        destruct (Nat.eq_dec k r) as [->|Nr]; [rewrite Er in Ei; injection Ei as Ei; lia|].
        destruct T as [SO _]. assert (Q : Z.of_nat i < i').
        { rewrite <- Ei'. apply (sorted_nth_lt (map Z.of_nat rows) k r); [exact SO|lia| |]; rewrite nth_error_map; [now rewrite Ei|now rewrite Er]. }
        lia.
    - intro Fin. destruct (labels_ok argsort Hs p (nth i W []) m Lpp Lw Fin TWO) as (y1' & y2' & EL' & _ & _ & _ & W1 & _ & BEST & NEAR).
      rewrite EL in EL'. injection EL' as <- <-. split; [now apply Hw|].
      assert (RG : forall j, In (Z.of_nat i, Z.of_nat j) (pairs u) -> (j < m)%nat). { intros j Hj. pose proof (good_range _ _ _ (reachable_good _ _ Ru) Hj) as Rg. cbn in Rg. lia. }
      split.
      + intros j q q1 Hj Q1 Q2. apply (BEST j q q1); [auto|apply Hw; auto|now apply nth_error_nth|now apply nth_error_nth].
      + intros j d d' Hj Nj (s2 & t2 & A1 & A2 & A3) (s3 & t3 & B1 & B2 & B3). rewrite A2 in B2. injection B2 as <-. rewrite A3, B3.
        apply (NEAR j t2 s3 s2); [auto|apply Hw; auto|auto|auto|now apply nth_error_nth|now apply nth_error_nth].
  Qed.

  (** No instance with two unlabelled labels. *)
  Lemma select_none a t : model_used fit X y m l st model y_mat a t -> (forall i, (pairs_of u i <= 1)%nat) ->
    (fst (scores t []) mod num_sub = 0)%nat ->
    auro_select argsort fit scores X y m st L U model y_mat = ({| heap := set_nth a (Some t) (heap st); own := a |}, Err ValueErr).
  Proof.
    intros MU Z1 S1. destruct (select_run a t MU) as (W & rows & xs & EW & ER & T & RX & P & RUN).
    assert (rows = []) as R0. { destruct rows as [|b rows]; [reflexivity|]. exfalso. assert (I : In (Z.of_nat b) (map Z.of_nat (b :: rows))) by now left.
      apply (proj2 T) in I. specialize (Z1 (Z.of_nat b)). lia. }
    rewrite RUN. rewrite R0 in *. destruct RX as [LX _]. cbn in LX. destruct xs; [|discriminate].
    unfold auro_pick, lr_predict. rewrite S1. reflexivity.
  Qed.
End Select.
