(** Properties C52-C55 and C63-C65: budgeted selection and hierarchical labels. *)
From Verif Require Import Base BaseFacts CostModel CostSpec CostProofs CostProofs2 CostProofs3.
From Coq Require Import QArith Lqa Lia.
Local Open Scope Z_scope.

(** ** C52: the knapsack *)

Theorem C52_optimal : forall values costs capacity,
  length values = length costs -> Forall (fun c => 0 <= c) costs -> 0 <= capacity ->
  exists best flag, select_Knapsack_01 values costs capacity = Ok (best, flag) /\
                    optimal values costs capacity flag best.
Proof.
  intros values costs capacity Hl Hc H0. eexists _, _. split; [apply knapsack_run; auto|].
  apply knapsack_optimal; auto.
Qed.
Print Assumptions C52_optimal.

(** Among the best choices the returned one is determined: at the last item where another best choice differs, the
    returned one takes the item. *)
Theorem C52_ties : forall values costs capacity best flag fl w,
  length values = length costs -> Forall (fun c => 0 <= c) costs -> 0 <= capacity ->
  select_Knapsack_01 values costs capacity = Ok (best, flag) -> optimal values costs capacity fl w ->
  w == best /\
  (fl = flag \/
   exists i, (i < length costs)%nat /\ nth i flag false = true /\ nth i fl false = false /\
             forall k, (i < k < length costs)%nat -> nth k fl false = nth k flag false).
Proof.
  intros values costs capacity best flag fl w Hl Hc H0 E O.
  rewrite knapsack_run in E by auto. injection E as <- <-. apply knapsack_tie; auto.
Qed.
Print Assumptions C52_ties.

Lemma knapsack_cases : forall values costs capacity,
  select_Knapsack_01 values costs capacity =
    if negb (Nat.eqb (length values) (length costs)) then Err AssertErr
    else if capacity <? -1 then Err ValueErr
    else if (capacity <? 0) || existsb (fun c => c <? 0) costs then Err IndexErr
    else select_Knapsack_01 values costs capacity.
Proof.
  intros values costs capacity. destruct (Nat.eqb (length values) (length costs)) eqn:L; cbn [negb].
  2:{ unfold select_Knapsack_01. rewrite L. reflexivity. }
  destruct (capacity <? -1) eqn:C1.
  { unfold select_Knapsack_01. rewrite L. apply Z.ltb_lt in C1.
    replace (-1 <=? capacity) with false by (symmetry; apply Z.leb_gt; lia). reflexivity. }
  destruct (capacity <? 0) eqn:C2.
  { unfold select_Knapsack_01. rewrite L. apply Z.ltb_lt in C2. apply Z.ltb_ge in C1.
    replace (-1 <=? capacity) with true by (symmetry; apply Z.leb_le; lia).
    replace (0 <=? capacity) with false by (symmetry; apply Z.leb_gt; lia). reflexivity. }
  cbn [orb]. destruct (existsb (fun c => c <? 0) costs) eqn:X; [|reflexivity].
  apply Z.ltb_ge in C2. apply Nat.eqb_eq in L. apply existsb_exists in X. destruct X as (c & Hc & X).
  apply knapsack_neg; auto. apply Exists_exists. exists c. split; auto. apply Z.ltb_lt. exact X.
Qed.
(** Exactly when it returns, and how it fails. *)
Theorem C52_domain : forall values costs capacity,
  (length values <> length costs -> select_Knapsack_01 values costs capacity = Err AssertErr) /\
  (length values = length costs ->
   (capacity < -1 -> select_Knapsack_01 values costs capacity = Err ValueErr) /\
   (capacity = -1 \/ 0 <= capacity /\ Exists (fun c => c < 0) costs -> select_Knapsack_01 values costs capacity = Err IndexErr) /\
   (0 <= capacity -> Forall (fun c => 0 <= c) costs -> exists best flag, select_Knapsack_01 values costs capacity = Ok (best, flag))).
Proof.
  intros values costs capacity. rewrite knapsack_cases. split.
  { intro L. apply Nat.eqb_neq in L. rewrite L. reflexivity. }
  intro L. rewrite L, Nat.eqb_refl. cbn [negb]. split; [|split].
  - intro C. apply Z.ltb_lt in C. rewrite C. reflexivity.
  - intros C. replace (capacity <? -1) with false by (symmetry; apply Z.ltb_ge; lia).
    replace ((capacity <? 0) || existsb (fun c => c <? 0) costs) with true; [reflexivity|]. symmetry. apply orb_true_iff.
    destruct C as [->|[_ X]]; [left; reflexivity|right]. apply existsb_exists. apply Exists_exists in X. destruct X as (c & I & X). exists c. split; [auto|now apply Z.ltb_lt].
  - intros C P. replace (capacity <? -1) with false by (symmetry; apply Z.ltb_ge; lia).
    replace ((capacity <? 0) || existsb (fun c => c <? 0) costs) with false.
    + destruct (C52_optimal values costs capacity L P C) as (b & f & E & _). eauto.
    + symmetry. apply orb_false_iff. split; [apply Z.ltb_ge; lia|]. apply not_true_is_false. intro X. apply existsb_exists in X. destruct X as (c & I & X).
      rewrite Forall_forall in P. specialize (P c I). apply Z.ltb_lt in X. lia.
Qed.
Print Assumptions C52_domain.

(** Three items, the second already labelled (value -infinity); the free item of value 0 is taken as well. *)
Example C52_example :
  exists v, select_Knapsack_01 [Some 3; None; Some 4; Some 5; Some 0]%Q [2; 1; 3; 4; 0] 6
    = Ok (v, [true; false; false; true; true]) /\ v == 8.
Proof. eexists. split; [vm_compute; reflexivity|]. reflexivity. Qed.

(** ** C53: POSS *)

(** The draws of a run: a parent among the current members and a mutation mask for all items. *)
Definition possible (values costs : list Q) (budget : Q) (draws : list (nat * list bool)) : Prop :=
  Forall (fun d => length (snd d) = length values) draws /\
  forall d1 d d2 pop, draws = d1 ++ d :: d2 ->
    poss_rounds values costs budget (start values) d1 = Ok pop -> (fst d < length pop)%nat.

Theorem C53_budget : forall values costs budget draws v s,
  length values = length costs -> (0 <= budget)%Q -> possible values costs budget draws ->
  select_POSS values costs budget draws = Ok (v, s) ->
  length s = length values /\ (cost_of costs s <= budget)%Q /\ value_is values costs budget s v.
Proof.
  intros values costs budget draws v s Hl H0 (Hd & _) E. unfold select_POSS in E.
  rewrite Hl, Nat.eqb_refl in E. cbn [guard bind] in E. rewrite <- Hl in E. fold (start values) in E.
  destruct (poss_rounds values costs budget (start values) draws) as [pop|] eqn:R; [|discriminate]. cbn [bind] in E.
  destruct (rounds_good values costs budget Hl H0 draws _ _ _ (good_start values costs budget Hl H0) Hd R) as (gen & G & _ & _).
  destruct (select_of_good _ _ _ Hl _ _ G) as (i & m & Ea & En & M). rewrite Ea in E. cbn [bind] in E.
  unfold py_nth in E. rewrite En in E. cbn [bind] in E. injection E as <- <-.
  apply nth_error_In in En. destruct (g_mem _ _ _ _ _ G m En) as (L & F & _).
  split; [exact L|]. rewrite F. split.
  - rewrite <- (fitness_cost values costs budget), <- F. apply (g_budget _ _ _ _ _ G). exact En.
  - apply fitness_value.
Qed.
Print Assumptions C53_budget.

(** No solution generated on the way, costing something and within the budget, is better than the returned one. *)
Theorem C53_best : forall values costs budget draws v s d1 d d2 pop parent s',
  length values = length costs -> (0 <= budget)%Q -> possible values costs budget draws ->
  select_POSS values costs budget draws = Ok (v, s) ->
  draws = d1 ++ d :: d2 -> poss_rounds values costs budget (start values) d1 = Ok pop ->
  nth_error pop (fst d) = Some parent -> flips (snd d) (fst parent) s' ->
  ~ cost_of costs s' == 0 -> (cost_of costs s' <= budget)%Q ->
  at_most v (Some (sum_q (chosen s' values))).
Proof.
  intros values costs budget draws v s d1 d d2 pop parent s' Hl H0 (Hd & _) E Ed Ep En0 Fl N0 Nb. unfold select_POSS in E.
  rewrite Hl, Nat.eqb_refl in E. cbn [guard bind] in E. rewrite <- Hl in E. fold (start values) in E.
  destruct (poss_rounds values costs budget (start values) draws) as [pop'|] eqn:R; [|discriminate]. cbn [bind] in E.
  destruct (rounds_good values costs budget Hl H0 draws _ _ _ (good_start values costs budget Hl H0) Hd R) as (gen & G & _ & A).
  pose proof (A d1 d d2 pop parent Ed Ep En0) as Hg.
  destruct (select_of_good _ _ _ Hl _ _ G) as (i & m & Ea & En & M). rewrite Ea in E. cbn [bind] in E.
  unfold py_nth in E. rewrite En in E. cbn [bind] in E. injection E as <- <-.
  assert (Hd1 : Forall (fun d => length (snd d) = length values) d1)
    by (rewrite Ed in Hd; apply Forall_app in Hd; tauto).
  assert (Hdd : length (snd d) = length values)
    by (rewrite Ed in Hd; apply Forall_app in Hd; destruct Hd as [_ Hd]; inversion Hd; auto).
  destruct (rounds_good values costs budget Hl H0 d1 _ _ _ (good_start values costs budget Hl H0) Hd1 Ep) as (gen1 & G1 & _ & _).
  destruct (g_mem _ _ _ _ _ G1 parent (nth_error_In _ _ En0)) as (Lp & _ & _).
  assert (s' = mutate (fst parent) (snd d)) as ->.
  { eapply flips_unique; [exact Fl|]. apply mutate_flips. lia. }
  destruct (g_gen _ _ _ _ _ G _ Hg) as (m' & Hm' & B1 & _).
  eapply at_most_trans; [apply (M m' Hm')|]. eapply at_most_trans; [exact B1|].
  destruct (value_is_fitness values costs budget (mutate (fst parent) (snd d)) (sum_q (chosen (mutate (fst parent) (snd d)) values)))
    as (x & Ex & Eq).
  { split; auto. split; auto. reflexivity. }
  rewrite Ex. cbn. lra.
Qed.
Print Assumptions C53_best.

(** During the run every member is within the budget, carries its value, and none is at least as good as another in
    both value and cost. *)
Theorem C53_population : forall values costs budget draws pop,
  length values = length costs -> (0 <= budget)%Q -> possible values costs budget draws ->
  poss_rounds values costs budget (start values) draws = Ok pop ->
  Forall (fun m => length (fst m) = length values /\ (cost_of costs (fst m) <= budget)%Q /\
                   value_is values costs budget (fst m) (fst (snd m)) /\ snd (snd m) = cost_of costs (fst m)) pop /\
  forall i j a b, nth_error pop i = Some a -> nth_error pop j = Some b -> i <> j ->
    ~ (at_most (fst (snd a)) (fst (snd b)) /\ (cost_of costs (fst a) <= cost_of costs (fst b))%Q).
Proof.
  intros values costs budget draws pop Hl H0 (Hd & _) R.
  destruct (rounds_good values costs budget Hl H0 draws _ _ _ (good_start values costs budget Hl H0) Hd R) as (gen & G & _ & _).
  assert (P : forall m, In m pop -> snd (snd m) = cost_of costs (fst m)).
  { intros m Hm. destruct (g_mem _ _ _ _ _ G m Hm) as (_ & F & _). rewrite F. apply fitness_cost. }
  split.
  - apply Forall_forall. intros m Hm. destruct (g_mem _ _ _ _ _ G m Hm) as (L & F & _).
    split; [exact L|]. split; [rewrite <- P by auto; apply (g_budget _ _ _ _ _ G); auto|].
    split; [rewrite F; apply fitness_value|auto].
  - intros i j a b Ha Hb Nij [C1 C2].
    rewrite <- !P in C2 by (eapply nth_error_In; eauto).
    assert (B : below (snd a) (snd b)) by (split; auto).
    pose proof (g_anti _ _ _ _ _ G) as FO. clear - FO Ha Hb Nij B.
    revert i j Ha Hb Nij. induction FO as [|x l Hx FO IH]; intros i j Ha Hb Nij.
    + destruct i; discriminate.
    + rewrite Forall_forall in Hx. destruct i as [|i], j as [|j]; cbn in Ha, Hb; try congruence.
      * injection Ha as ->. apply nth_error_In in Hb. apply (proj1 (Hx b Hb)). exact B.
      * injection Hb as ->. apply nth_error_In in Ha. apply (proj2 (Hx a Ha)). exact B.
      * eapply IH; eauto.
Qed.
Print Assumptions C53_population.

(** It always returns. *)
Theorem C53_total : forall values costs budget draws,
  length values = length costs -> (0 <= budget)%Q -> possible values costs budget draws ->
  exists v s, select_POSS values costs budget draws = Ok (v, s).
Proof.
  intros values costs budget draws Hl H0 (Hd & Hr). unfold select_POSS.
  rewrite Hl, Nat.eqb_refl. cbn [guard bind]. rewrite <- Hl. fold (start values).
  assert (R : exists pop, poss_rounds values costs budget (start values) draws = Ok pop).
  { clear Hd. revert Hr. generalize (start values) as p0. induction draws as [|d draws IH]; intros p0 Hr; [eexists; reflexivity|].
    cbn [poss_rounds]. assert (L : (fst d < length p0)%nat) by (apply (Hr [] d draws p0); reflexivity).
    assert (E : exists p1, poss_round values costs budget p0 d = Ok p1).
    { unfold poss_round, py_nth, member. destruct (nth_error p0 (fst d)) eqn:En; [|apply nth_error_None in En; lia].
      cbn [bind]. match goal with |- context [if ?b then _ else _] => destruct b end; eauto. }
    destruct E as (p1 & E). rewrite E. cbn [bind]. apply IH.
    intros d1 x d2 pop Ed Ep. apply (Hr (d :: d1) x d2 pop); [cbn; congruence|]. cbn [poss_rounds]. rewrite E. exact Ep. }
  destruct R as (pop & R). rewrite R. cbn [bind].
  destruct (rounds_good values costs budget Hl H0 draws _ _ _ (good_start values costs budget Hl H0) Hd R) as (gen & G & _ & _).
  destruct (select_of_good _ _ _ Hl _ _ G) as (i & m & Ea & En & M). rewrite Ea. cbn [bind].
  unfold py_nth. rewrite En. cbn [bind]. eauto.
Qed.
Print Assumptions C53_total.

(** Items that cost nothing are never selected on their own: whatever their value, if all costs are zero the result is
    worth infinity. *)
Theorem C53_free_items_refuted : forall values costs budget draws v s,
  length values = length costs -> (0 <= budget)%Q -> possible values costs budget draws ->
  Forall (fun c => c == 0) costs -> select_POSS values costs budget draws = Ok (v, s) -> v = None.
Proof.
  intros values costs budget draws v s Hl H0 Hd Hz E.
  destruct (C53_budget _ _ _ _ _ _ Hl H0 Hd E) as (_ & _ & V). destruct v as [x|]; [|reflexivity].
  exfalso. destruct V as (N & _). apply N. unfold cost_of.
  assert (F : Forall (fun c => c == 0) (chosen s costs)) by (apply chosen_Forall; exact Hz).
  induction F as [|c l Hc F IH]; [reflexivity|]. change (c + sum_q l == 0). rewrite Hc, IH. reflexivity.
Qed.
Print Assumptions C53_free_items_refuted.

Definition poss_draws : list (nat * list bool) :=
  [(0, [true; false; false]); (1, [false; true; false]); (0, [false; false; true]); (1, [true; false; true])]%nat.
Example C53_example_possible : possible [-3; -4; -1]%Q [2; 2; 1]%Q 3%Q poss_draws.
Proof.
  split; [repeat constructor|]. intros d1 d d2 pop E R.
  destruct d1 as [|? [|? [|? [|? d1]]]]; cbn in E; injection E as <- E; subst;
    try (vm_compute in R; injection R as <-; cbn; lia).
  destruct d1; discriminate.
Qed.
Example C53_example : select_POSS [-3; -4; -1]%Q [2; 2; 1]%Q 3%Q poss_draws = Ok (Some (-3 + 0)%Q, [true; false; false]).
Proof. vm_compute. reflexivity. Qed.

(** ** C54: hierarchical completion *)

Theorem C54_exact : forall n C queried labelled tree y,
  matrix_of C C tree -> matrix_of n C y -> Forall (fun p => (fst p < n)%nat /\ (snd p < C)%nat) queried -> NoDup queried ->
  exists r, hierarchical_mark C queried labelled tree y = Ok r /\ NoDup r /\
    forall p, In p r <-> In p queried \/ (implied tree y queried p /\ ~ In p labelled).
Proof.
  intros n C q lab tree y Ht Hy F N. destruct (mark_ok n C tree y lab Ht Hy q F) as (e & E & N' & M). eauto.
Qed.
Print Assumptions C54_exact.

(** The caller's set: a collection is extended in place, anything else is left alone. *)
Theorem C54_caller : forall n C coll queried labelled tree y,
  matrix_of C C tree -> matrix_of n C y -> Forall (fun p => (fst p < n)%nat /\ (snd p < C)%nat) queried ->
  exists r, hierarchical_mark C queried labelled tree y = Ok r /\
    mark_call coll C queried labelled tree y = Ok (if coll then r else queried, r) /\
    (mark_call coll C queried labelled tree y = Ok (queried, r) <->
     coll = false \/ forall p, implied tree y queried p -> In p queried \/ In p labelled).
Proof.
  intros n C coll q lab tree y Ht Hy F. destruct (mark_ok n C tree y lab Ht Hy q F) as (e & E & _ & M).
  exists (q ++ e). split; [exact E|]. unfold mark_call. rewrite E. cbn [bind]. split; [reflexivity|].
  split.
  - intros X. destruct coll; [|left; reflexivity]. right. injection X as X. intros p Hp.
    assert (e = []) by (rewrite <- (app_nil_r q) in X at 2; apply app_inv_head in X; exact X). subst e.
    rewrite app_nil_r in M. destruct (pair_mem p lab) eqn:Nl; [right; apply pair_mem_iff; exact Nl|].
    apply pair_mem_false in Nl. left. apply M. right. auto.
  - intros [->|H]; [reflexivity|]. destruct coll; [|reflexivity].
    destruct e as [|x e]; [rewrite app_nil_r; reflexivity|].
    (* an added pair is not among the queried ones *)
    exfalso. revert E. unfold hierarchical_mark.
    destruct (guard _ _); [|discriminate]. cbn [bind].
    destruct (foldM (mark_pair C tree y lab) [] q) as [add|]; [|discriminate]. cbn [bind]. intros E. injection E as E.
    assert (G : forall l s, (forall p, In p l -> In p s) -> fold_left pair_add l s = s).
    { induction l as [|p l IH]; intros s Hs; [reflexivity|]. cbn [fold_left].
      unfold pair_add at 2. rewrite (proj2 (pair_mem_iff p s)) by (apply Hs; left; auto).
      apply IH. intros z Hz. apply Hs. right. auto. }
    rewrite G in E.
    + apply (f_equal (@length _)) in E. rewrite app_length in E. cbn in E. lia.
    + intros p Hp. destruct (fold_pair_add add q) as (e' & E1 & M1 & _).
      assert (Hq : In p (q ++ x :: e)) by (rewrite <- E, E1; apply M1; auto).
      apply M in Hq. destruct Hq as [Hq|[Hq Nl]]; [exact Hq|]. destruct (H p Hq); [auto|contradiction].
Qed.
Print Assumptions C54_caller.

(** A tree of the wrong shape is rejected. *)
Theorem C54_rejects : forall C queried labelled tree y, ~ matrix_of C C tree ->
  hierarchical_mark C queried labelled tree y = Err AssertErr.
Proof.
  intros C q lab tree y N. unfold hierarchical_mark.
  destruct (Nat.eqb (length tree) C && forallb (fun r : list Z => Nat.eqb (length r) C) tree) eqn:E; [|reflexivity].
  exfalso. apply N. apply andb_prop in E. destruct E as [E1 E2]. split; [apply Nat.eqb_eq; auto|].
  apply Forall_forall. intros r Hr. rewrite forallb_forall in E2. apply Nat.eqb_eq. auto.
Qed.
Print Assumptions C54_rejects.

(** One level only: a grandchild of a positive label is not added, although the child that is added is positive too. *)
Definition chain3 : list (list Z) := [[0; 1; 0]; [0; 0; 1]; [0; 0; 0]].
Theorem C54_transitive_refuted :
  hierarchical_mark 3 [(0, 0)]%nat [] chain3 [[1; 1; 1]] = Ok [(0, 0); (0, 1)]%nat.
Proof. reflexivity. Qed.
Print Assumptions C54_transitive_refuted.

Example C54_example :
  hierarchical_mark 3 [(0, 0); (1, 2)]%nat [(1, 0)]%nat chain3 [[1; 1; 1]; [-1; -1; -1]]
    = Ok [(0, 0); (1, 2); (0, 1); (1, 1)]%nat.
Proof. reflexivity. Qed.

(** ** C55: random selection within a budget *)

Theorem C55_budget : forall C cost budget pool draws r,
  NoDup pool -> (0 <= budget)%Q ->
  cost_random_select C cost budget pool draws = Ok (Some r) ->
  exists costs, class_costs C cost = Ok costs /\
    NoDup r /\ (forall p, In p r -> In p pool) /\ (pairs_cost costs r <= budget)%Q /\
    exists p, In p pool /\ ~ In p r /\ (budget < pairs_cost costs (r ++ [p]))%Q.
Proof.
  intros C cost budget pool draws r N H0 E. unfold cost_random_select in E.
  destruct (class_costs C cost) as [costs|] eqn:Ec; [|discriminate]. cbn [bind] in E.
  exists costs. split; [reflexivity|].
  apply (random_loop_some costs budget draws pool [] 0%Q r) in E; auto. reflexivity.
Qed.
Print Assumptions C55_budget.

(** With enough draws it ends: with a selection when the pool costs more than the budget, otherwise with an error. *)
Theorem C55_outcome : forall C cost budget pool draws costs,
  NoDup pool -> (0 <= budget)%Q -> class_costs C cost = Ok costs -> Forall (fun c => 0 <= c)%Q costs ->
  Forall (fun p => (snd p < C)%nat) pool ->
  length draws = length pool -> (forall k, (k < length draws)%nat -> (nth k draws 0 < length pool - k)%nat) ->
  ((budget < pairs_cost costs pool)%Q -> exists r, cost_random_select C cost budget pool draws = Ok (Some r)) /\
  ((pairs_cost costs pool <= budget)%Q -> cost_random_select C cost budget pool draws = Err ValueErr).
Proof.
  intros C cost budget pool draws costs N H0 Ec Hc Hp L Lg. unfold cost_random_select. rewrite Ec. cbn [bind].
  assert (Lc : length costs = C).
  { destruct cost as [c|]; cbn in Ec.
    - destruct (Nat.eqb (length c) C) eqn:E; [|discriminate]. injection Ec as <-. apply Nat.eqb_eq. exact E.
    - injection Ec as <-. apply repeat_length. }
  destruct (random_loop_outcome costs budget Hc draws pool [] 0%Q) as [A B]; auto; try reflexivity; try (rewrite Lc; exact Hp).
Qed.
Print Assumptions C55_outcome.

(** Without costs every class costs one; costs of the wrong number are rejected. *)
Theorem C55_costs : forall C cost, class_costs C cost =
  match cost with
  | None => Ok (repeat 1%Q C)
  | Some c => if Nat.eqb (length c) C then Ok c else Err AssertErr
  end.
Proof. reflexivity. Qed.
Print Assumptions C55_costs.

Example C55_example :
  cost_random_select 2 (Some [1; 2])%Q 3%Q [(0, 0); (0, 1); (1, 1)]%nat [1; 0; 0]%nat = Ok (Some [(0, 1); (0, 0)]%nat).
Proof. reflexivity. Qed.
Example C55_example_pool :
  cost_random_select 2 (Some [1; 2])%Q 5%Q [(0, 0); (0, 1); (1, 1)]%nat [1; 0; 0]%nat = Err ValueErr.
Proof. reflexivity. Qed.

(** ** C63: QueryCostSensitivePerformance *)

(** A pair among the [budget - 1] best of its class. *)
Definition near_top (budget : nat) (orders : list (list nat)) (p : nat * nat) : Prop :=
  (snd p < length orders)%nat /\ In (fst p) (firstn (budget - 1) (rev (nth (snd p) orders []))).
(** [orders] sorts the columns of the score. *)
Definition sorts_columns (n C : nat) (score : nat -> nat -> option Q) (orders : list (list nat)) : Prop :=
  length orders = C /\ forall j, (j < C)%nat -> increasing (fun i => score i j) n (nth j orders []).
Definition uncertain (unl : list (nat * nat)) (u : nat -> nat -> Q) (i j : nat) : option Q :=
  if pair_mem (i, j) unl then Some (u i j) else None.

Lemma sorts_perm n C score orders : sorts_columns n C score orders -> Forall (fun o => Permutation o (seq 0 n)) orders.
Proof.
  intros [L H]. apply Forall_forall. intros o Ho. apply (In_nth _ _ []) in Ho. destruct Ho as (j & Hj & <-).
  apply H. lia.
Qed.

Theorem C63_select : forall n C budget unl u costs orders,
  length costs = C -> Forall (fun c => 0 <= c) costs -> (C <= budget)%nat -> (C <= n)%nat ->
  sorts_columns n C (uncertain unl u) orders ->
  exists sel w, knapsack_select (performance_score n C unl u) costs budget orders = Ok sel /\
    NoDup sel /\
    (forall p, In p sel -> In p unl /\ (fst p < n)%nat /\ (snd p < C)%nat /\ near_top budget orders p) /\
    pairs_cost_z costs sel <= Z.of_nat budget /\
    w == sum_q (map (fun p => u (fst p) (snd p)) sel) /\
    forall S, NoDup S -> (forall p, In p S -> In p unl /\ near_top budget orders p) ->
      pairs_cost_z costs S <= Z.of_nat budget -> (sum_q (map (fun p => u (fst p) (snd p)) S) <= w)%Q.
Proof.
  intros n C budget unl u costs orders Hc Hcost Hb Hn Hs.
  pose proof (sorts_perm _ _ _ _ Hs) as Hp. destruct Hs as [Ho Hs].
  set (score := performance_score n C unl u).
  assert (Hm : matrix_of n C score) by apply (matrix_map (uncertain unl u)).
  destruct (select_run n C budget score costs orders Hm Hc Ho Hp Hb Hn Hcost) as (fl & w & E & _ & O).
  assert (ND : NoDup (cand_pairs budget orders)).
  { apply cand_NoDup. eapply Forall_impl; [|exact Hp]. intros o P.
    eapply Permutation_NoDup; [apply Permutation_sym, P|apply seq_NoDup]. }
  destruct (optimal_set (val score) (cst costs) _ _ _ _ ND O) as (N & I & Ct & W & M).
  assert (V : forall p, (fst p < n)%nat -> (snd p < C)%nat -> val score p = uncertain unl u (fst p) (snd p)).
  { intros p H1 H2. apply (matrix_nth (uncertain unl u) n C); auto. }
  assert (VS : forall S, (forall p, In p S -> In p (cand_pairs budget orders)) -> (forall p, In p S -> In p unl) ->
     map (val score) S = map Some (map (fun p => u (fst p) (snd p)) S)).
  { intros S H1 H2. rewrite map_map. apply map_ext_in. intros p Hpp.
    destruct (cand_range n C budget costs orders Hc Ho Hp Hb Hn p (H1 p Hpp)) as [R1 R2]. rewrite V by auto. unfold uncertain.
    rewrite <- surjective_pairing. rewrite (proj2 (pair_mem_iff p unl) (H2 p Hpp)). reflexivity. }
  set (sel := chosen fl (cand_pairs budget orders)) in *.
  assert (U : forall p, In p sel -> In p unl).
  { intros p Hsel. destruct W as (q & Eq & _).
    assert (X : In (val score p) (map Some q)) by (rewrite <- Eq; apply in_map; exact Hsel).
    apply in_map_iff in X. destruct X as (x & Ex & _).
    destruct (cand_range n C budget costs orders Hc Ho Hp Hb Hn p (I p Hsel)) as [R1 R2]. rewrite V in Ex by auto.
    unfold uncertain in Ex. rewrite <- surjective_pairing in Ex.
    destruct (pair_mem p unl) eqn:PM; [apply pair_mem_iff; exact PM|discriminate]. }
  exists sel, w. split; [exact E|]. split; [exact N|]. split.
  { intros p Hsel. split; [auto|].
    destruct (cand_range n C budget costs orders Hc Ho Hp Hb Hn p (I p Hsel)) as [R1 R2]. split; [exact R1|]. split; [exact R2|].
    apply cand_in. rewrite <- surjective_pairing. auto. }
  split; [exact Ct|]. split.
  - rewrite (VS sel I U) in W. eapply worth_unique; [exact W|]. eexists. split; reflexivity.
  - intros S NS HS CS. apply (M S); auto.
    + intros p H. rewrite (surjective_pairing p). apply cand_in. apply (HS p H).
    + rewrite (VS S); [eexists; split; reflexivity| |intros p H; apply (HS p H)].
      intros p H. rewrite (surjective_pairing p). apply cand_in. apply (HS p H).
Qed.
Print Assumptions C63_select.

(** With fewer instances or less budget than classes it fails. *)
Theorem C63_small_refuted : forall n C budget unl u costs orders,
  length costs = C -> sorts_columns n C (uncertain unl u) orders -> (Nat.min budget n < C)%nat ->
  knapsack_select (performance_score n C unl u) costs budget orders = Err IndexErr.
Proof.
  intros n C budget unl u costs orders Hc Hs H. pose proof (sorts_perm _ _ _ _ Hs) as Hp. destruct Hs as [Ho Hs].
  apply (select_err n C); auto.
Qed.
Print Assumptions C63_small_refuted.

(** "If the cost of each label is 1, the budget is the batch size": with one class the budget is never spent. *)
Theorem C63_batch_refuted : forall n budget unl u costs orders sel,
  length costs = 1%nat -> Forall (fun c => 0 <= c) costs -> sorts_columns n 1 (uncertain unl u) orders ->
  knapsack_select (performance_score n 1 unl u) costs budget orders = Ok sel ->
  (length sel <= budget - 1)%nat.
Proof.
  intros n budget unl u costs orders sel Hc Hcost Hs E.
  destruct (le_lt_dec 1 (Nat.min budget n)) as [H|H].
  2:{ rewrite (C63_small_refuted n 1) in E by auto. discriminate. }
  destruct (C63_select n 1 budget unl u costs orders) as (sel' & w & E' & N & I & _); auto; try lia.
  rewrite E in E'. injection E' as <-. destruct Hs as [Ho _].
  assert (incl (map fst sel) (firstn (budget - 1) (rev (nth 0 orders [])))).
  { intros k Hk. apply in_map_iff in Hk. destruct Hk as (p & <- & Hpp). destruct (I p Hpp) as (_ & _ & J & _ & K).
    replace (snd p) with 0%nat in K by lia. exact K. }
  assert (NoDup (map fst sel)).
  { clear -N I. induction sel as [|p sel IH]; [constructor|]. inversion N; subst. cbn. constructor.
    - intros C. apply in_map_iff in C. destruct C as (q & E & Hq). apply H1.
      destruct (I p (or_introl eq_refl)) as (_ & _ & J & _). destruct (I q (or_intror Hq)) as (_ & _ & J' & _).
      replace p with q; auto. rewrite (surjective_pairing p), (surjective_pairing q), E. f_equal. lia.
    - apply IH; auto. intros; apply I; right; auto. }
  pose proof (NoDup_incl_length H1 H0) as L. rewrite map_length, firstn_length in L. lia.
Qed.
Print Assumptions C63_batch_refuted.

Definition perf_unl : list (nat * nat) := [(0, 0); (1, 0); (2, 1); (1, 1)]%nat.
Definition perf_u (i j : nat) : Q := inject_Z (Z.of_nat (i + j + 1)).
Example C63_example_sorted : sorts_columns 3 2 (uncertain perf_unl perf_u) [[2; 0; 1]; [0; 1; 2]]%nat.
Proof.
  split; [reflexivity|]. intros j Hj. destruct j as [|[|j]]; [| |lia]; (split; [cbn|]).
  - apply perm_trans with [2; 1; 0]%nat; [repeat constructor|]. apply Permutation_sym, (Permutation_rev [0; 1; 2]%nat).
  - intros a b H. cbn in H. destruct a as [|[|[|a]]], b as [|[|[|b]]]; try lia; cbn; auto; vm_compute; congruence.
  - reflexivity.
  - intros a b H. cbn in H. destruct a as [|[|[|a]]], b as [|[|[|b]]]; try lia; cbn; auto; vm_compute; congruence.
Qed.
Example C63_example :
  knapsack_select (performance_score 3 2 perf_unl perf_u) [1; 2] 4 [[2; 0; 1]; [0; 1; 2]]%nat = Ok [(2, 1); (1, 1)]%nat.
Proof. vm_compute. reflexivity. Qed.

(** ** C64: QueryCostSensitiveHALC *)

Definition informative (unl : list (nat * nat)) (info : nat -> nat -> option Q) (i j : nat) : option Q :=
  if pair_mem (i, j) unl then info i j else Some 0%Q.

(** The selection is distinct, in range, within the budget and optimal for the scores the code works with, in which
    labelled pairs are worth 0. *)
Theorem C64_select : forall n C budget unl info costs orders,
  length costs = C -> Forall (fun c => 0 <= c) costs -> (C <= budget)%nat -> (C <= n)%nat ->
  sorts_columns n C (informative unl info) orders ->
  exists sel w, knapsack_select (halc_score n C unl info) costs budget orders = Ok sel /\
    NoDup sel /\
    (forall p, In p sel -> (fst p < n)%nat /\ (snd p < C)%nat /\ near_top budget orders p /\
                           (In p unl -> info (fst p) (snd p) <> None)) /\
    pairs_cost_z costs sel <= Z.of_nat budget /\
    worth (map (fun p => informative unl info (fst p) (snd p)) sel) w /\
    forall S w', NoDup S -> (forall p, In p S -> near_top budget orders p) ->
      pairs_cost_z costs S <= Z.of_nat budget ->
      worth (map (fun p => informative unl info (fst p) (snd p)) S) w' -> (w' <= w)%Q.
Proof.
  intros n C budget unl info costs orders Hc Hcost Hb Hn Hs.
  pose proof (sorts_perm _ _ _ _ Hs) as Hp. destruct Hs as [Ho Hs].
  set (score := halc_score n C unl info).
  assert (Hm : matrix_of n C score) by apply (matrix_map (informative unl info)).
  destruct (select_run n C budget score costs orders Hm Hc Ho Hp Hb Hn Hcost) as (fl & w & E & _ & O).
  assert (ND : NoDup (cand_pairs budget orders)).
  { apply cand_NoDup. eapply Forall_impl; [|exact Hp]. intros o P.
    eapply Permutation_NoDup; [apply Permutation_sym, P|apply seq_NoDup]. }
  destruct (optimal_set (val score) (cst costs) _ _ _ _ ND O) as (N & I & Ct & W & M).
  assert (VS : forall S, (forall p, In p S -> In p (cand_pairs budget orders)) ->
     map (val score) S = map (fun p => informative unl info (fst p) (snd p)) S).
  { intros S H1. apply map_ext_in. intros p Hpp.
    destruct (cand_range n C budget costs orders Hc Ho Hp Hb Hn p (H1 p Hpp)) as [R1 R2].
    apply (matrix_nth (informative unl info) n C); auto. }
  set (sel := chosen fl (cand_pairs budget orders)) in *. rewrite (VS sel I) in W.
  exists sel, w. split; [exact E|]. split; [exact N|]. split.
  { intros p Hsel. destruct (cand_range n C budget costs orders Hc Ho Hp Hb Hn p (I p Hsel)) as [R1 R2].
    split; [exact R1|]. split; [exact R2|]. split; [apply cand_in; rewrite <- surjective_pairing; auto|].
    intros Hu Hi. destruct W as (q & Eq & _).
    assert (X : In (informative unl info (fst p) (snd p)) (map Some q)).
    { rewrite <- Eq. apply (in_map (fun p => informative unl info (fst p) (snd p))). exact Hsel. }
    apply in_map_iff in X. destruct X as (x & Ex & _). unfold informative in Ex. rewrite <- surjective_pairing in Ex.
    rewrite (proj2 (pair_mem_iff p unl) Hu) in Ex. congruence. }
  split; [exact Ct|]. split; [exact W|].
  intros S w' NS HS CS WS.
  assert (IS : forall p, In p S -> In p (cand_pairs budget orders)).
  { intros p H. rewrite (surjective_pairing p). apply cand_in. apply (HS p H). }
  apply (M S); auto. rewrite (VS S IS). exact WS.
Qed.
Print Assumptions C64_select.

(** Labelled pairs are queried again: whenever the candidates fit in the budget, all of them are selected, labelled or
    not. *)
Theorem C64_labelled_refuted : forall n C budget unl info costs orders,
  length costs = C -> Forall (fun c => 0 <= c) costs -> (C <= budget)%nat -> (C <= n)%nat ->
  sorts_columns n C (informative unl info) orders ->
  (forall i j, exists q, info i j = Some q /\ (0 <= q)%Q) ->
  (forall S, NoDup S -> (forall p, In p S -> near_top budget orders p) -> pairs_cost_z costs S <= Z.of_nat budget) ->
  exists sel, knapsack_select (halc_score n C unl info) costs budget orders = Ok sel /\
    forall p, In p sel <-> near_top budget orders p.
Proof.
  intros n C budget unl info costs orders Hc Hcost Hb Hn Hs Hq Hall.
  pose proof (sorts_perm _ _ _ _ Hs) as Hp. destruct Hs as [Ho Hs].
  set (score := halc_score n C unl info).
  assert (Hm : matrix_of n C score) by apply (matrix_map (informative unl info)).
  assert (Cn : forall p, In p (cand_pairs budget orders) <-> near_top budget orders p).
  { intros p. rewrite (surjective_pairing p) at 1. apply cand_in. }
  exists (cand_pairs budget orders). split; [|exact Cn].
  apply (select_all n C budget score costs orders Hm Hc Ho Hp Hb Hn Hcost).
  - apply (Hall (cand_pairs budget orders)); [|intros p; apply Cn].
    apply cand_NoDup. eapply Forall_impl; [|exact Hp]. intros o P.
    eapply Permutation_NoDup; [apply Permutation_sym, P|apply seq_NoDup].
  - intros p Hpp. destruct (cand_range n C budget costs orders Hc Ho Hp Hb Hn p Hpp) as [R1 R2].
    assert (V : val score p = informative unl info (fst p) (snd p)) by (apply (matrix_nth (informative unl info) n C); auto).
    rewrite V. unfold informative. destruct (pair_mem _ unl); [apply Hq|]. exists 0%Q. split; [reflexivity|lra].
Qed.
Print Assumptions C64_labelled_refuted.

(** Three instances, one class; only instance 1 is unlabelled, and instance 2 is queried as well. *)
Example C64_example :
  knapsack_select (halc_score 3 1 [(1, 0)]%nat (fun _ _ => Some 5%Q)) [1] 3 [[0; 2; 1]]%nat = Ok [(1, 0); (2, 0)]%nat.
Proof. vm_compute. reflexivity. Qed.

(** ** C65: the uncertainty of the descendants *)

(** A label without children counts itself. *)
Theorem C65_leaf : forall fuel tree u j row x,
  nth_error tree j = Some row -> Forall (fun e => e = 0%nat) row -> nth_error u j = Some (Some x) ->
  exists v, cal_Udes (S fuel) tree u j = Ok (Some (Some v)) /\ v == x.
Proof.
  intros fuel tree u j row x H1 H2 H3. unfold cal_Udes. rewrite (udes_leaf _ _ _ _ _ _ row (Some x)) by auto.
  exists (0 + x)%Q. split; [destruct fuel; reflexivity|ring].
Qed.
Print Assumptions C65_leaf.

(** A label whose children are all beyond the first two labels counts nothing, however uncertain its descendants. *)
Theorem C65_children_refuted : forall fuel tree u j rest,
  nth_error tree j = Some (0 :: 0 :: rest)%nat -> Forall (fun e => e = 0 \/ e = 1)%nat rest -> In 1%nat rest ->
  cal_Udes (S fuel) tree u j = Ok (Some (Some 0%Q)).
Proof.
  intros fuel tree u j rest H1 H2 H3. unfold cal_Udes.
  rewrite (udes_inner _ _ _ _ _ _ (0 :: 0 :: rest)%nat 0 0 rest)%nat; auto.
  - cbn [app]. replace (concat _) with (@nil nat); [destruct fuel; reflexivity|].
    symmetry. apply concat_nil_Forall. apply Forall_forall. intros l Hl. apply in_map_iff in Hl.
    destruct Hl as (e & <- & He). assert (X : (e = 0 \/ e = 1)%nat).
    { destruct He as [<-|[<-|He]]; auto. rewrite Forall_forall in H2. auto. }
    destruct X as [->| ->]; reflexivity.
  - intros F. inversion F as [|? ? _ F1]. inversion F1 as [|? ? _ F2]. rewrite Forall_forall in F2.
    specialize (F2 1%nat H3). discriminate.
Qed.
Print Assumptions C65_children_refuted.

(** A label whose only child is the leaf 0 counts it once for every label that is not its child. *)
Theorem C65_repeated_refuted : forall tree u j m row0 x,
  (m >= 1)%nat -> nth_error tree j = Some (1 :: repeat 0 m)%nat -> nth_error tree 0 = Some row0 ->
  Forall (fun e => e = 0%nat) row0 -> nth_error u 0 = Some (Some x) ->
  exists v, cal_Udes (S m) tree u j = Ok (Some (Some v)) /\ v == inject_Z (Z.of_nat m) * x.
Proof.
  intros tree u j m row0 x Hm H1 H2 H3 H4. unfold cal_Udes. destruct m as [|m]; [lia|].
  rewrite (udes_inner _ _ _ _ _ _ (1 :: repeat 0 (S m))%nat 1 0 (repeat 0 m))%nat; auto.
  - cbn [app]. replace (concat _) with (repeat 0%nat (S m)).
    + assert (G : forall k a, exists v, udes_loop k tree u (repeat 0%nat k) (Some a) = Ok (Some (Some v)) /\
                                        v == a + inject_Z (Z.of_nat k) * x).
      { induction k as [|k IH]; intros a; [exists a; split; [reflexivity|cbn; ring]|].
        cbn [repeat]. rewrite (udes_leaf _ _ _ _ _ _ row0 (Some x)) by auto. cbn [plus_neg].
        destruct (IH (a + x)%Q) as (v & -> & E). exists v. split; [reflexivity|]. rewrite E.
        rewrite Nat2Z.inj_succ. unfold Z.succ. rewrite inject_Z_plus. ring. }
      destruct (G (S m) 0%Q) as (v & E & Ev). exists v. split; [exact E|]. rewrite Ev. ring.
    + assert (F : forall (f : nat -> list nat) k, f 0%nat = [0%nat] -> concat (map f (repeat 0%nat k)) = repeat 0%nat k).
      { intros f k E. induction k as [|k IH]; [reflexivity|]. cbn [repeat map concat]. rewrite E, IH. reflexivity. }
      set (f := fun e => if Nat.eqb (nth e (1 :: repeat 0 (S m))%nat 0%nat) 1 then [e] else []).
      change (repeat 0%nat (S m) = f 1%nat ++ concat (map f (repeat 0%nat (S m)))).
      rewrite (F f (S m) eq_refl). reflexivity.
  - constructor; [auto|]. apply Forall_forall. intros e He. apply repeat_spec in He. auto.
  - intros F. inversion F. discriminate.
Qed.
Print Assumptions C65_repeated_refuted.

(** Label 3 is the parent of labels 2 and 0 in turn; the uncertainty of each label is its number plus one. *)
Example C65_example_ignored :
  cal_Udes 5 [[0; 0; 0; 0]; [0; 0; 0; 0]; [0; 0; 0; 0]; [0; 0; 1; 0]]%nat [Some 1; Some 2; Some 3; Some 4]%Q 3
    = Ok (Some (Some 0%Q)).
Proof. reflexivity. Qed.
Example C65_example_repeated : exists v,
  cal_Udes 5 [[0; 0; 0; 0]; [0; 0; 0; 0]; [0; 0; 0; 0]; [1; 0; 0; 0]]%nat [Some 1; Some 2; Some 3; Some 4]%Q 3
    = Ok (Some (Some v)) /\ v == 3.
Proof. eexists. split; reflexivity. Qed.
