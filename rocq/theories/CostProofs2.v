(** Proofs about POSS, the hierarchical completion and the random selection of CostModel. *)
From Verif Require Import Base BaseFacts CostModel CostSpec CostProofs.
From Coq Require Import QArith Lqa Lia.
Local Open Scope Z_scope.

(** ** Order on values *)

Lemma v_le_iff a b : v_le a b = true <-> at_most a b.
Proof. destruct a, b; cbn; try tauto; try (split; congruence); try (split; [discriminate|tauto]). apply Qle_bool_iff. Qed.
Lemma q_lt_iff a b : q_lt a b = true <-> (a < b)%Q.
Proof.
  unfold q_lt. rewrite negb_true_iff. split; intros H.
  - destruct (Qlt_le_dec a b) as [G|G]; [exact G|]. apply Qle_bool_iff in G. congruence.
  - destruct (Qle_bool b a) eqn:E; [|reflexivity]. apply Qle_bool_iff in E. lra.
Qed.
Lemma q_lt_false a b : q_lt a b = false <-> (b <= a)%Q.
Proof. unfold q_lt. rewrite negb_false_iff. apply Qle_bool_iff. Qed.
Lemma at_most_refl a : at_most a a.
Proof. destruct a; cbn; [lra|auto]. Qed.
Lemma at_most_trans a b c : at_most a b -> at_most b c -> at_most a c.
Proof. destruct a, b, c; cbn; intros; try tauto; lra. Qed.
Lemma at_most_total a b : at_most a b \/ at_most b a.
Proof. destruct a as [a|], b as [b|]; cbn; auto. destruct (Qlt_le_dec a b); [left|right]; lra. Qed.

Definition below (a b : option Q * Q) : Prop := at_most (fst a) (fst b) /\ (snd a <= snd b)%Q.

Lemma no_better_iff a b : no_better a b = true <-> below b a.
Proof. unfold no_better, below. rewrite andb_true_iff, v_le_iff, Qle_bool_iff. tauto. Qed.
Lemma below_trans a b c : below a b -> below b c -> below a c.
Proof. intros [H1 H2] [H3 H4]. split; [eapply at_most_trans; eauto|lra]. Qed.
Lemma below_refl a : below a a.
Proof. split; [apply at_most_refl|lra]. Qed.
Lemma beats_below a b : beats a b = true -> below a b.
Proof.
  unfold beats, v_lt. rewrite orb_true_iff, !andb_true_iff, negb_true_iff, v_le_iff, Qle_bool_iff, q_lt_iff.
  intros [[H1 H2]|[H1 H2]]; split; auto; try lra.
  destruct (at_most_total (fst a) (fst b)) as [G|G]; [exact G|]. apply v_le_iff in G. congruence.
Qed.
(** Below without beating means equal. *)
Lemma below_not_beats a b : below a b -> beats a b = false -> below b a.
Proof.
  intros [H1 H2] N. unfold beats, v_lt in N. apply orb_false_iff in N. destruct N as [N1 N2].
  apply andb_false_iff in N1. apply andb_false_iff in N2. split.
  - destruct N1 as [N1|N1]; [|apply Qle_bool_iff in H2; congruence].
    apply negb_false_iff in N1. apply v_le_iff. exact N1.
  - destruct N2 as [N2|N2]; [apply v_le_iff in H1; congruence|]. apply q_lt_false. exact N2.
Qed.

(** ** Fitness *)

Lemma sum_on_eq s x : sum_on s x = sum_q (chosen s x).
Proof.
  revert x. induction s as [|b s IH]; intros [|a x]; try (destruct b); try reflexivity.
  - cbn [sum_on]. rewrite chosen_cons, IH. reflexivity.
  - cbn [sum_on]. rewrite chosen_cons, IH. reflexivity.
Qed.

Lemma fitness_cost values costs budget s : snd (fitness values costs budget s) = cost_of costs s.
Proof. apply sum_on_eq. Qed.
Lemma fitness_value values costs budget s : value_is values costs budget s (fst (fitness values costs budget s)).
Proof.
  unfold fitness. cbn [fst]. rewrite !sum_on_eq. fold (cost_of costs s).
  destruct (Qeq_bool (cost_of costs s) 0) eqn:E; cbn [orb].
  - left. apply Qeq_bool_iff. exact E.
  - destruct (q_lt budget (cost_of costs s)) eqn:L.
    + right. apply q_lt_iff. exact L.
    + split; [|split; [apply q_lt_false; exact L|reflexivity]].
      intros G. apply Qeq_bool_iff in G. congruence.
Qed.
Lemma value_is_fitness values costs budget s x : value_is values costs budget s (Some x) ->
  exists x', fst (fitness values costs budget s) = Some x' /\ (x' == x)%Q.
Proof.
  intros (H1 & H2 & H3). unfold fitness. cbn [fst]. rewrite !sum_on_eq. fold (cost_of costs s).
  destruct (Qeq_bool (cost_of costs s) 0) eqn:E; [apply Qeq_bool_iff in E; contradiction|]. cbn [orb].
  rewrite (proj2 (q_lt_false _ _) H2). exists (sum_q (chosen s values)). split; [reflexivity|]. rewrite H3. reflexivity.
Qed.
Lemma fitness_none values costs budget : length values = length costs ->
  fitness values costs budget (repeat false (length values)) = (None, 0%Q).
Proof.
  intros H. unfold fitness. replace (sum_on (repeat false (length values)) costs) with 0%Q; [reflexivity|].
  rewrite H. clear H. induction costs; cbn; auto.
Qed.

Lemma mutate_flips mask s : length mask = length s -> flips mask s (mutate s mask).
Proof.
  intros H. unfold flips, mutate. split; [rewrite map_length, combine_length; lia|].
  intros i Hi. change false with (xorb false false) at 1.
  change (xorb false false) with ((fun p : bool * bool => xorb (fst p) (snd p)) (false, false)).
  rewrite map_nth. rewrite combine_nth by auto. reflexivity.
Qed.
Lemma flips_unique mask s a b : flips mask s a -> flips mask s b -> a = b.
Proof.
  intros [L1 H1] [L2 H2]. apply nth_ext with (d := false) (d' := false); [lia|].
  intros i Hi. rewrite H1, H2 by lia. reflexivity.
Qed.

(** ** The population *)

Section Poss.
  Variables (values costs : list Q) (budget : Q).
  Hypothesis Hl : length values = length costs.
  Hypothesis H0 : (0 <= budget)%Q.
  Let fit := fitness values costs budget.

  Record good (gen : list (list bool)) (pop : list member) : Prop := {
    g_mem : forall m, In m pop -> length (fst m) = length values /\ snd m = fit (fst m) /\ In (fst m) gen;
    g_low : exists m, In m pop /\ (snd (snd m) <= 0)%Q;
    g_budget : forall m, In m pop -> (snd (snd m) <= budget)%Q;
    g_gen : forall s, In s gen -> exists m, In m pop /\ below (snd m) (fit s);
    g_anti : ForallOrdPairs (fun a b => ~ below (snd a) (snd b) /\ ~ below (snd b) (snd a)) pop
  }.

  Definition start := [(repeat false (length values), (@None Q, 0%Q))].

  Lemma good_start : good [repeat false (length values)] start.
  Proof.
    constructor.
    - intros m [<-|[]]. cbn [fst snd]. rewrite repeat_length. split; [reflexivity|].
      split; [symmetry; apply fitness_none; exact Hl|left; reflexivity].
    - eexists. split; [left; reflexivity|]. cbn. lra.
    - intros m [<-|[]]. exact H0.
    - intros s [<-|[]]. eexists. split; [left; reflexivity|]. cbn [snd]. unfold fit.
      rewrite fitness_none by exact Hl. apply below_refl.
    - repeat constructor.
  Qed.

  Lemma FOP_filter {A} (R : A -> A -> Prop) f l : ForallOrdPairs R l -> ForallOrdPairs R (filter f l).
  Proof.
    induction 1 as [|a l Ha Hl' IH]; cbn; [constructor|]. destruct (f a); auto. constructor; auto.
    apply Forall_forall. intros x Hx. apply filter_In in Hx. rewrite Forall_forall in Ha. apply Ha. tauto.
  Qed.
  Lemma FOP_snoc {A} (R : A -> A -> Prop) l x : ForallOrdPairs R l -> Forall (fun a => R a x) l -> ForallOrdPairs R (l ++ [x]).
  Proof.
    induction 1 as [|a l Ha Hl' IH]; intros F; cbn; [constructor; constructor|].
    inversion F; subst. constructor; auto. apply Forall_app. auto.
  Qed.

  Lemma good_round gen pop d pop' : good gen pop -> length (snd d) = length values ->
    poss_round values costs budget pop d = Ok pop' ->
    exists parent, nth_error pop (fst d) = Some parent /\
      good (mutate (fst parent) (snd d) :: gen) pop'.
  Proof.
    intros G Hd. unfold poss_round, py_nth. destruct (nth_error pop (fst d)) as [parent|] eqn:En; [|discriminate].
    cbn [bind]. intros E. exists parent. split; [reflexivity|].
    pose proof (nth_error_In _ _ En) as Hp.
    destruct (g_mem _ _ G parent Hp) as (Lp & _ & _).
    set (s := mutate (fst parent) (snd d)) in *. fold fit in E.
    assert (Ls : length s = length values).
    { unfold s, mutate. rewrite map_length, combine_length. lia. }
    destruct (existsb (fun m => beats (snd m) (fit s)) pop) eqn:B.
    - injection E as <-. apply existsb_exists in B. destruct B as (m & Hm & B). apply beats_below in B.
      destruct G. constructor; auto.
      + intros x Hx. destruct (g_mem0 x Hx) as (? & ? & ?). repeat split; auto. right; auto.
      + intros x [<-|Hx]; eauto.
    - injection E as <-.
      assert (NB : forall m, In m pop -> beats (snd m) (fit s) = false).
      { intros m Hm. destruct (beats (snd m) (fit s)) eqn:Bm; [|reflexivity].
        assert (X : existsb (fun m => beats (snd m) (fit s)) pop = true) by (apply existsb_exists; eauto). congruence. }
      assert (Hs : (snd (fit s) <= budget)%Q).
      { destruct (g_low _ _ G) as (m & Hm & Lm). apply Qnot_lt_le. intros C.
        specialize (NB m Hm). unfold beats in NB. apply orb_false_iff in NB. destruct NB as [_ NB].
        assert (Fs : fst (fit s) = None).
        { unfold fit, fitness in *. cbn [fst snd] in *. rewrite (proj2 (q_lt_iff _ _) C). rewrite orb_true_r. reflexivity. }
        rewrite Fs in NB. cbn [v_le andb] in NB. apply q_lt_false in NB. lra. }
      assert (K : forall m, In m pop -> In m (filter (fun m => negb (no_better (snd m) (fit s))) pop ++ [(s, fit s)])
                                        \/ below (fit s) (snd m)).
      { intros m Hm. destruct (no_better (snd m) (fit s)) eqn:N.
        - right. apply no_better_iff. exact N.
        - left. apply in_or_app. left. apply filter_In. rewrite N. auto. }
      assert (Is : In (s, fit s) (filter (fun m => negb (no_better (snd m) (fit s))) pop ++ [(s, fit s)]))
        by (apply in_or_app; right; left; reflexivity).
      constructor.
      + intros m Hm. apply in_app_iff in Hm. destruct Hm as [Hm|[<-|[]]].
        * apply filter_In in Hm. destruct (g_mem _ _ G m (proj1 Hm)) as (? & ? & ?). repeat split; auto. right; auto.
        * cbn [fst snd]. repeat split; auto. left; auto.
      + destruct (g_low _ _ G) as (m & Hm & Lm). destruct (K m Hm) as [Km|[_ Km]].
        * exists m. auto.
        * exists (s, fit s). split; auto. cbn [snd]. lra.
      + intros m Hm. apply in_app_iff in Hm. destruct Hm as [Hm|[<-|[]]]; [|exact Hs].
        apply filter_In in Hm. apply (g_budget _ _ G). tauto.
      + intros x [<-|Hx].
        * exists (s, fit s). split; auto. apply below_refl.
        * destruct (g_gen _ _ G x Hx) as (m & Hm & Bm). destruct (K m Hm) as [Km|Km]; [eauto|].
          exists (s, fit s). split; auto. eapply below_trans; eauto.
      + apply FOP_snoc; [apply FOP_filter, G|]. apply Forall_forall. intros m Hm. apply filter_In in Hm.
        destruct Hm as [Hm Nm]. apply negb_true_iff in Nm. cbn [snd].
        assert (N2 : ~ below (fit s) (snd m)) by (rewrite <- no_better_iff; congruence).
        split; [|exact N2]. intros C. apply N2. apply below_not_beats; auto.
  Qed.

  Lemma rounds_good draws : forall gen pop pop', good gen pop -> Forall (fun d => length (snd d) = length values) draws ->
    poss_rounds values costs budget pop draws = Ok pop' ->
    exists gen', good gen' pop' /\ (forall s, In s gen -> In s gen') /\
      forall d1 d d2 mid parent, draws = d1 ++ d :: d2 -> poss_rounds values costs budget pop d1 = Ok mid ->
        nth_error mid (fst d) = Some parent -> In (mutate (fst parent) (snd d)) gen'.
  Proof.
    induction draws as [|d draws IH]; intros gen pop pop' G F E.
    - injection E as <-. exists gen. split; [exact G|]. split; [auto|].
      intros d1 d d2 mid parent X. destruct d1; discriminate.
    - apply Forall_cons_iff in F. destruct F as [H1 H2]. cbn [poss_rounds] in E.
      destruct (poss_round values costs budget pop d) as [pop1|] eqn:E1; [|discriminate]. cbn [bind] in E.
      destruct (good_round _ _ _ _ G H1 E1) as (parent & En & G1).
      destruct (IH _ _ _ G1 H2 E) as (gen' & G' & I1 & I2).
      exists gen'. split; [exact G'|]. split; [intros; apply I1; right; auto|].
      intros d1 x d2 mid p Ed Em Hp. destruct d1 as [|y d1]; cbn in Ed; injection Ed as <- Ed.
      + injection Em as <-. rewrite En in Hp. injection Hp as <-. apply I1. left; reflexivity.
      + cbn [poss_rounds] in Em. rewrite E1 in Em. cbn [bind] in Em. eapply I2; eauto.
  Qed.

  Lemma argmin_from_ok l : forall pre best bv, nth_error pre best = Some bv ->
    (forall x, In x pre -> at_most bv x) ->
    exists v, nth_error (pre ++ l) (argmin_from best bv (length pre) l) = Some v /\ forall x, In x (pre ++ l) -> at_most v x.
  Proof.
    induction l as [|a l IH]; intros pre best bv Hn Hm; cbn [argmin_from].
    - rewrite app_nil_r. eauto.
    - replace (pre ++ a :: l) with ((pre ++ [a]) ++ l) by (rewrite <- app_assoc; reflexivity).
      replace (S (length pre)) with (length (pre ++ [a])) by (rewrite app_length; cbn; lia).
      unfold v_lt. destruct (v_le bv a) eqn:V; cbn [negb].
      + apply v_le_iff in V. apply IH.
        * rewrite nth_error_app1; auto. apply nth_error_Some. congruence.
        * intros x Hx. apply in_app_iff in Hx. destruct Hx as [Hx|[<-|[]]]; auto.
      + assert (L : at_most a bv).
        { destruct (at_most_total bv a) as [G|G]; [apply v_le_iff in G; congruence|exact G]. }
        apply IH.
        * rewrite nth_error_app2 by lia. rewrite Nat.sub_diag. reflexivity.
        * intros x Hx. apply in_app_iff in Hx. destruct Hx as [Hx|[<-|[]]]; [|apply at_most_refl].
          eapply at_most_trans; eauto.
  Qed.
  Lemma argmin_ok l : l <> [] -> exists i v, argmin l = Ok i /\ nth_error l i = Some v /\ forall x, In x l -> at_most v x.
  Proof.
    destruct l as [|a l]; [congruence|]. intros _. cbn [argmin].
    destruct (argmin_from_ok l [a] 0%nat a) as (v & Hv & M); auto.
    { intros x [<-|[]]. apply at_most_refl. }
    eauto.
  Qed.

  Lemma filter_all {A} (f : A -> bool) l : (forall x, In x l -> f x = true) -> filter f l = l.
  Proof.
    induction l as [|a l IH]; intros H; [reflexivity|]. cbn. rewrite H by (left; auto). f_equal. apply IH.
    intros; apply H; right; auto.
  Qed.

  Lemma select_of_good gen pop : good gen pop -> exists i m,
    argmin (map (fun m => fst (snd m)) (filter (fun m => Qle_bool (snd (snd m)) budget) pop)) = Ok i /\
    nth_error pop i = Some m /\ forall m', In m' pop -> at_most (fst (snd m)) (fst (snd m')).
  Proof.
    intros G. rewrite filter_all by (intros; apply Qle_bool_iff; apply (g_budget _ _ G); auto).
    destruct (argmin_ok (map (fun m : member => fst (snd m)) pop)) as (i & v & E & En & M).
    { destruct (g_low _ _ G) as (m & Hm & _). destruct pop; [contradiction|discriminate]. }
    rewrite nth_error_map in En. destruct (nth_error pop i) as [m|] eqn:Ei; [|discriminate].
    cbn in En. injection En as <-. exists i, m. repeat split; auto.
    intros m' Hm'. apply M. apply in_map_iff. eauto.
  Qed.
End Poss.

(** ** Hierarchical completion *)

Lemma pair_mem_iff p s : pair_mem p s = true <-> In p s.
Proof.
  unfold pair_mem. rewrite existsb_exists. split.
  - intros (q & Hq & E). apply andb_prop in E. destruct E as [E1 E2].
    apply Nat.eqb_eq in E1. apply Nat.eqb_eq in E2. destruct p, q; cbn in *; subst. exact Hq.
  - intros H. exists p. split; auto. rewrite !Nat.eqb_refl. reflexivity.
Qed.
Lemma pair_mem_false p s : pair_mem p s = false <-> ~ In p s.
Proof. rewrite <- pair_mem_iff. destruct (pair_mem p s); split; congruence. Qed.

Lemma pair_add_spec s p : exists e, pair_add s p = s ++ e /\ (forall q, In q (s ++ e) <-> In q s \/ q = p) /\
  (NoDup s -> NoDup (s ++ e)).
Proof.
  unfold pair_add. destruct (pair_mem p s) eqn:E.
  - exists []. rewrite app_nil_r. apply pair_mem_iff in E. repeat split; auto. intros [H| ->]; auto.
  - exists [p]. apply pair_mem_false in E. repeat split; auto.
    + intros H. apply in_app_iff in H. destruct H as [H|[->|[]]]; auto.
    + intros [H| ->]; apply in_or_app; [left|right; left]; auto.
    + intros N. apply NoDup_snoc; auto.
Qed.
Lemma fold_pair_add l : forall s, exists e, fold_left pair_add l s = s ++ e /\
  (forall q, In q (s ++ e) <-> In q s \/ In q l) /\ (NoDup s -> NoDup (s ++ e)).
Proof.
  induction l as [|p l IH]; intros s; cbn [fold_left].
  - exists []. rewrite app_nil_r. repeat split; auto. intros [H|[]]; auto.
  - destruct (pair_add_spec s p) as (e & -> & M & N). destruct (IH (s ++ e)) as (e' & -> & M' & N').
    exists (e ++ e'). rewrite app_assoc. split; [reflexivity|]. split; [|auto].
    intros q. rewrite M', M. cbn. intuition congruence.
Qed.

Lemma foldM_spec {S A} (I : list A -> S -> Prop) (f : S -> A -> res S) l : forall done s,
  I done s ->
  (forall done x s, In x l -> I done s -> exists s', f s x = Ok s' /\ I (done ++ [x]) s') ->
  exists s', foldM f s l = Ok s' /\ I (done ++ l) s'.
Proof.
  induction l as [|x l IH]; intros done s H0 Hs; cbn [foldM].
  - exists s. rewrite app_nil_r. auto.
  - destruct (Hs done x s) as (s1 & E & H1); auto; [left; auto|]. rewrite E. cbn [bind].
    destruct (IH (done ++ [x]) s1 H1) as (s' & E' & H').
    { intros; apply Hs; auto. right; auto. }
    exists s'. rewrite <- app_assoc in H'. auto.
Qed.

Lemma entry_ok {A} n m (a : list (list A)) i j d : matrix_of n m a -> (i < n)%nat -> (j < m)%nat ->
  entry a i j = Ok (nth j (nth i a []) d).
Proof.
  intros [L F] Hi Hj. unfold entry, py_nth.
  rewrite (nth_error_nth' a [] ) by lia. cbn [bind].
  rewrite Forall_forall in F. assert (Lr : length (nth i a []) = m) by (apply F, nth_In; lia).
  rewrite (nth_error_nth' _ d) by lia. reflexivity.
Qed.

Lemma out_row (tree : list (list Z)) n m j d : matrix_of n m tree -> nth d (nth j tree []) 0 = 1 -> (j < n)%nat /\ (d < m)%nat.
Proof.
  intros [L F] H. destruct (le_lt_dec n j) as [G|G].
  - rewrite (nth_overflow tree) in H by lia. destruct d; discriminate.
  - split; auto. rewrite Forall_forall in F.
    assert (Lr : length (nth j tree []) = m) by (apply F, nth_In; lia).
    destruct (le_lt_dec m d) as [G'|G']; auto. rewrite nth_overflow in H by lia. discriminate.
Qed.

Section Mark.
  Variables (n C : nat) (tree y : list (list Z)) (lab : list (nat * nat)).
  Hypothesis Ht : matrix_of C C tree.
  Hypothesis Hy : matrix_of n C y.

  Lemma mark_pair_ok add p : (fst p < n)%nat -> (snd p < C)%nat -> exists add',
    mark_pair C tree y lab add p = Ok add' /\
    forall q, In q add' <-> In q add \/ (implied tree y [p] q /\ ~ In q lab).
  Proof.
    intros Hi Hj. unfold mark_pair. rewrite (entry_ok n C y _ _ 0 Hy Hi Hj). cbn [bind].
    fold (label_of y (fst p) (snd p)).
    assert (P : forall q, implied tree y [p] q <-> fst q = fst p /\
       ((label_of y (fst p) (snd p) = 1 /\ child tree (snd p) (snd q)) \/
        (label_of y (fst p) (snd p) = -1 /\ child tree (snd q) (snd p)))).
    { intros q. unfold implied. split.
      - intros (j & [E|[]] & H). rewrite E. cbn [fst snd]. split; [reflexivity|exact H].
      - intros (E & H). exists (snd p). rewrite E. split; [left; apply surjective_pairing|]. exact H. }
    destruct (label_of y (fst p) (snd p) =? 1) eqn:E1; [apply Z.eqb_eq in E1|apply Z.eqb_neq in E1].
    - destruct (foldM_spec
        (fun done add' => forall q, In q add' <-> In q add \/
            (fst q = fst p /\ In (snd q) done /\ child tree (snd p) (snd q) /\ ~ In q lab))
        (fun add d => t <- entry tree (snd p) d ;;
             Ok (if (t =? 1) && negb (pair_mem (fst p, d) lab) then pair_add add (fst p, d) else add))
        (seq 0 C) [] add) as (add' & -> & M).
      + intros q. cbn. tauto.
      + intros done d s Hd M. apply in_seq in Hd. rewrite (entry_ok C C tree _ _ 0 Ht Hj) by lia. cbn [bind].
        eexists. split; [reflexivity|]. fold (child tree (snd p) d).
        destruct (nth d (nth (snd p) tree []) 0 =? 1) eqn:T; cbn [andb].
        * apply Z.eqb_eq in T. destruct (pair_mem (fst p, d) lab) eqn:PM; cbn [negb].
          -- apply pair_mem_iff in PM. intros q. rewrite M, in_app_iff. split; [tauto|].
             intros [?|(Eq & [?|[Ed|[]]] & ? & N)]; try tauto. exfalso. apply N. rewrite (surjective_pairing q), Eq, <- Ed. exact PM.
          -- apply pair_mem_false in PM. destruct (pair_add_spec s (fst p, d)) as (e & -> & Me & _).
             intros q. rewrite Me, M, in_app_iff. split.
             ++ intros [?| ->]; [tauto|]. right. cbn [fst snd]. split; [reflexivity|]. split; [right; left; reflexivity|]. split; auto.
             ++ intros [?|(Eq & [?|[Ed|[]]] & ? & N)]; try tauto. right. rewrite (surjective_pairing q), Eq, <- Ed. reflexivity.
        * apply Z.eqb_neq in T. intros q. rewrite M, in_app_iff. split; [tauto|].
          intros [?|(Eq & [?|[<-|[]]] & Ch & N)]; try tauto; unfold child in Ch; contradiction.
      + exists add'. split; [reflexivity|]. intros q. rewrite M, P. cbn [app].
        split.
        * intros [?|(?&?&?&?)]; [tauto|]. right. split; auto.
        * intros [?|((Eq & [[_ Ch]|[X _]]) & N)]; [tauto| |lia]. right. repeat split; auto.
          apply in_seq. destruct (out_row tree C C _ _ Ht Ch). lia.
    - destruct (label_of y (fst p) (snd p) =? -1) eqn:E2; [apply Z.eqb_eq in E2|apply Z.eqb_neq in E2].
      + destruct (foldM_spec
          (fun done add' => forall q, In q add' <-> In q add \/
              (fst q = fst p /\ In (snd q) done /\ child tree (snd q) (snd p) /\ ~ In q lab))
          (fun add u => t <- entry tree u (snd p) ;;
               Ok (if (t =? 1) && negb (pair_mem (fst p, u) lab) then pair_add add (fst p, u) else add))
          (seq 0 C) [] add) as (add' & -> & M).
        * intros q. cbn. tauto.
        * intros done d s Hd M. apply in_seq in Hd. rewrite (entry_ok C C tree _ _ 0 Ht) by lia. cbn [bind].
          eexists. split; [reflexivity|].
          destruct (nth (snd p) (nth d tree []) 0 =? 1) eqn:T; cbn [andb].
          -- apply Z.eqb_eq in T. destruct (pair_mem (fst p, d) lab) eqn:PM; cbn [negb].
             ++ apply pair_mem_iff in PM. intros q. rewrite M, in_app_iff. split; [tauto|].
                intros [?|(Eq & [?|[Ed|[]]] & ? & N)]; try tauto. exfalso. apply N. rewrite (surjective_pairing q), Eq, <- Ed. exact PM.
             ++ apply pair_mem_false in PM. destruct (pair_add_spec s (fst p, d)) as (e & -> & Me & _).
                intros q. rewrite Me, M, in_app_iff. split.
                ** intros [?| ->]; [tauto|]. right. cbn [fst snd]. split; [reflexivity|]. split; [right; left; reflexivity|]. split; auto.
                ** intros [?|(Eq & [?|[Ed|[]]] & ? & N)]; try tauto. right. rewrite (surjective_pairing q), Eq, <- Ed. reflexivity.
          -- apply Z.eqb_neq in T. intros q. rewrite M, in_app_iff. split; [tauto|].
             intros [?|(Eq & [?|[<-|[]]] & Ch & N)]; try tauto; unfold child in Ch; contradiction.
        * exists add'. split; [reflexivity|]. intros q. rewrite M, P. cbn [app].
          split.
          -- intros [?|(?&?&?&?)]; [tauto|]. right. split; auto.
          -- intros [?|((Eq & [[X _]|[_ Ch]]) & N)]; [tauto|lia|]. right. repeat split; auto.
             apply in_seq. destruct (out_row tree C C _ _ Ht Ch). lia.
      + exists add. split; [reflexivity|]. intros q. rewrite P. split; [tauto|].
        intros [?|((_ & [[X _]|[X _]]) & _)]; [tauto|lia|lia].
  Qed.

  Lemma implied_app l l' q : implied tree y (l ++ l') q <-> implied tree y l q \/ implied tree y l' q.
  Proof.
    unfold implied. split.
    - intros (j & H & R). apply in_app_iff in H. destruct H; [left|right]; exists j; auto.
    - intros [(j & H & R)|(j & H & R)]; exists j; split; auto; apply in_or_app; auto.
  Qed.

  Lemma mark_ok q0 : Forall (fun p => (fst p < n)%nat /\ (snd p < C)%nat) q0 -> exists extra,
    hierarchical_mark C q0 lab tree y = Ok (q0 ++ extra) /\ (NoDup q0 -> NoDup (q0 ++ extra)) /\
    forall q, In q (q0 ++ extra) <-> In q q0 \/ (implied tree y q0 q /\ ~ In q lab).
  Proof.
    intros F. unfold hierarchical_mark. destruct Ht as [L1 L2].
    replace (Nat.eqb (length tree) C) with true by (symmetry; apply Nat.eqb_eq; auto).
    replace (forallb (fun r : list Z => Nat.eqb (length r) C) tree) with true.
    2:{ symmetry. apply forallb_forall. rewrite Forall_forall in L2. intros x Hx. apply Nat.eqb_eq. auto. }
    cbn [andb guard bind].
    destruct (foldM_spec (fun done add => forall q, In q add <-> implied tree y done q /\ ~ In q lab)
       (mark_pair C tree y lab) q0 [] []) as (add & -> & M).
    - intros q. split; [contradiction|]. intros ((j & [] & _) & _).
    - intros done p s Hp M. rewrite Forall_forall in F. destruct (F p Hp) as [F1 F2].
      destruct (mark_pair_ok s p F1 F2) as (s' & -> & M'). exists s'. split; [reflexivity|].
      intros q. rewrite M', M, implied_app. tauto.
    - cbn [bind app] in *. destruct (fold_pair_add add q0) as (e & -> & Me & Ne).
      exists e. split; [reflexivity|]. split; [exact Ne|]. intros q. rewrite Me, M. tauto.
  Qed.
End Mark.

(** ** Random selection *)

Lemma pairs_cost_snoc costs l p : (pairs_cost costs (l ++ [p]) == pairs_cost costs l + nth (snd p) costs 0)%Q.
Proof. unfold pairs_cost. rewrite map_app, sum_q_app. cbn. ring. Qed.

Definition drop (p : nat * nat) (l : list (nat * nat)) :=
  filter (fun q => negb (Nat.eqb (fst p) (fst q) && Nat.eqb (snd p) (snd q))) l.
Lemma drop_in p l q : In q (drop p l) <-> In q l /\ q <> p.
Proof.
  unfold drop. rewrite filter_In, negb_true_iff, andb_false_iff, !Nat.eqb_neq. destruct p, q; cbn. split.
  - intros (H & [N|N]); split; auto; congruence.
  - intros (H & N). split; auto. destruct (Nat.eq_dec n n1) as [->|]; auto.
Qed.
Lemma drop_perm p l : NoDup l -> In p l -> Permutation l (p :: drop p l).
Proof.
  intros N H. apply NoDup_Permutation; auto.
  - constructor; [rewrite drop_in; tauto|]. apply NoDup_filter. exact N.
  - intros q. cbn. rewrite drop_in. split.
    + intros Hq. destruct (Nat.eq_dec (fst p) (fst q)) as [E1|E1]; [destruct (Nat.eq_dec (snd p) (snd q)) as [E2|E2]|].
      * left. destruct p, q; cbn in *; congruence.
      * right. split; auto. congruence.
      * right. split; auto. congruence.
    + intros [<-|[? _]]; auto.
Qed.

Lemma sum_q_perm l l' : Permutation l l' -> (sum_q l == sum_q l')%Q.
Proof.
  induction 1 as [|x l l' _ IH|x y l|l l' l'' _ IH1 _ IH2]; [reflexivity| | |].
  - change (x + sum_q l == x + sum_q l')%Q. rewrite IH. reflexivity.
  - change (y + (x + sum_q l) == x + (y + sum_q l))%Q. ring.
  - rewrite IH1. exact IH2.
Qed.
Lemma pairs_cost_perm costs l l' : Permutation l l' -> (pairs_cost costs l == pairs_cost costs l')%Q.
Proof. intros H. apply sum_q_perm. apply Permutation_map. exact H. Qed.

Section RandomLoop.
  Variables (costs : list Q) (budget : Q).

  Lemma random_loop_some draws : forall left got spent r,
    (spent == pairs_cost costs got)%Q -> (spent <= budget)%Q -> NoDup (got ++ left) ->
    random_loop costs budget left got spent draws = Ok (Some r) ->
    NoDup r /\ (forall p, In p r -> In p (got ++ left)) /\ (pairs_cost costs r <= budget)%Q /\
    exists p, In p (got ++ left) /\ ~ In p r /\ (budget < pairs_cost costs (r ++ [p]))%Q.
  Proof.
    induction draws as [|d draws IH]; intros left got spent r Hs Hb N E; destruct left as [|x left]; try discriminate.
    cbn [random_loop] in E. unfold py_nth in E at 1.
    destruct (nth_error (x :: left) d) as [p|] eqn:En; [|discriminate]. cbn [bind] in E.
    unfold py_nth in E. destruct (nth_error costs (snd p)) as [c|] eqn:Ec; [|discriminate]. cbn [bind] in E.
    assert (Nc : nth (snd p) costs 0%Q = c) by (apply nth_error_nth; exact Ec).
    pose proof (nth_error_In _ _ En) as Hp. apply NoDup_app_inv in N. destruct N as (N1 & N2 & N3).
    destruct (q_lt budget (spent + c)) eqn:L.
    - injection E as <-. apply q_lt_iff in L. repeat split; auto.
      + intros q Hq. apply in_or_app; auto.
      + rewrite <- Hs. exact Hb.
      + exists p. split; [apply in_or_app; auto|]. split; [intros Hg; eapply N3; eauto|].
        rewrite pairs_cost_snoc, Nc, <- Hs. exact L.
    - apply q_lt_false in L. fold (drop p (x :: left)) in E.
      pose proof (drop_perm p (x :: left) N2 Hp) as Pm.
      assert (P2 : Permutation (got ++ x :: left) ((got ++ [p]) ++ drop p (x :: left))).
      { rewrite <- app_assoc. apply Permutation_app_head. exact Pm. }
      destruct (IH (drop p (x :: left)) (got ++ [p]) (spent + c)%Q r) as (R1 & R2 & R3 & q & R4 & R5 & R6); auto.
      + rewrite pairs_cost_snoc, Nc, Hs. reflexivity.
      + eapply Permutation_NoDup; [exact P2|]. apply NoDup_app_intro; auto.
      + repeat split; auto.
        * intros z Hz. eapply Permutation_in; [apply Permutation_sym, P2|]. auto.
        * exists q. repeat split; auto. eapply Permutation_in; [apply Permutation_sym, P2|]. auto.
  Qed.

  (** Legal draws: each a position among the pairs that are left. *)
  Definition legal (n : nat) (draws : list nat) : Prop :=
    forall k, (k < length draws)%nat -> (nth k draws 0 < n - k)%nat.

  Lemma legal_tl n d draws : legal n (d :: draws) -> (d < n)%nat /\ legal (n - 1) draws.
  Proof.
    intros H. split.
    - specialize (H 0%nat). cbn in H. lia.
    - intros k Hk. specialize (H (S k)). cbn in H. lia.
  Qed.

  Hypothesis Hc : Forall (fun c => 0 <= c)%Q costs.

  Lemma pairs_cost_nonneg l : (0 <= pairs_cost costs l)%Q.
  Proof.
    unfold pairs_cost. induction l as [|p l IH]; [cbn; lra|].
    change (0 <= nth (snd p) costs 0 + sum_q (map (fun p => nth (snd p) costs 0) l))%Q.
    assert (0 <= nth (snd p) costs 0)%Q.
    { destruct (le_lt_dec (length costs) (snd p)) as [G|G]; [rewrite nth_overflow by lia; lra|].
      rewrite Forall_forall in Hc. apply Hc. apply nth_In. exact G. }
    lra.
  Qed.

  Lemma random_loop_outcome draws : forall left got spent,
    (spent == pairs_cost costs got)%Q -> NoDup left ->
    Forall (fun p => (snd p < length costs)%nat) left ->
    length draws = length left -> legal (length left) draws ->
    ((budget < pairs_cost costs (got ++ left))%Q -> (spent <= budget)%Q ->
       exists r, random_loop costs budget left got spent draws = Ok (Some r)) /\
    ((pairs_cost costs (got ++ left) <= budget)%Q -> random_loop costs budget left got spent draws = Err ValueErr).
  Proof.
    induction draws as [|d draws IH]; intros left got spent Hs N F L Lg.
    - destruct left; [|discriminate]. split; [|reflexivity]. intros H1 H2. rewrite app_nil_r in H1. lra.
    - destruct left as [|x left]; [discriminate|].
      destruct (legal_tl _ _ _ Lg) as [Hd Lg'].
      destruct (nth_error (x :: left) d) as [p|] eqn:En; [|apply nth_error_None in En; cbn in *; lia].
      pose proof (nth_error_In _ _ En) as Hp. rewrite Forall_forall in F.
      destruct (nth_error costs (snd p)) as [c|] eqn:Ec; [|apply nth_error_None in Ec; specialize (F p Hp); lia].
      assert (Nc : nth (snd p) costs 0%Q = c) by (apply nth_error_nth; exact Ec).
      assert (RL : random_loop costs budget (x :: left) got spent (d :: draws) =
        if q_lt budget (spent + c) then Ok (Some got)
        else random_loop costs budget (drop p (x :: left)) (got ++ [p]) (spent + c) draws).
      { cbn [random_loop]. unfold py_nth at 1. rewrite En. cbn [bind]. unfold py_nth. rewrite Ec. reflexivity. }
      rewrite RL.
      pose proof (drop_perm p (x :: left) N Hp) as Pm.
      assert (P2 : Permutation (got ++ x :: left) ((got ++ [p]) ++ drop p (x :: left))).
      { rewrite <- app_assoc. apply Permutation_app_head. exact Pm. }
      pose proof (pairs_cost_perm costs _ _ P2) as E2.
      assert (Hs' : (spent + c == pairs_cost costs (got ++ [p]))%Q) by (rewrite pairs_cost_snoc, Nc, Hs; reflexivity).
      pose proof (Permutation_length Pm) as Lp. cbn [length] in Lp, L, Lg'.
      destruct (IH (drop p (x :: left)) (got ++ [p]) (spent + c)%Q Hs') as [I1 I2].
      + apply NoDup_filter. exact N.
      + apply Forall_forall. intros q Hq. apply drop_in in Hq. apply F. tauto.
      + lia.
      + replace (length (drop p (x :: left))) with (S (length left) - 1)%nat by lia. exact Lg'.
      + destruct (q_lt budget (spent + c)) eqn:Q1.
        * apply q_lt_iff in Q1. split; [intros; eauto|]. intros C. exfalso.
          pose proof (pairs_cost_nonneg (drop p (x :: left))) as Nn.
          assert (pairs_cost costs ((got ++ [p]) ++ drop p (x :: left)) ==
                  pairs_cost costs (got ++ [p]) + pairs_cost costs (drop p (x :: left)))%Q
            by (unfold pairs_cost; rewrite map_app; apply sum_q_app).
          lra.
        * apply q_lt_false in Q1. split.
          -- intros C _. apply I1; lra.
          -- intros C. apply I2; lra.
  Qed.
End RandomLoop.
