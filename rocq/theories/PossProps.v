(** C53: what select_POSS finds, compared with the best choice that select_Knapsack_01 finds. *)
From Verif Require Import Base CostModel CostSpec CostProofs CostProofs2 CostProps BudgetProps.
From Coq Require Import QArith Lqa.
Local Open Scope Z_scope.

Lemma sum_inject l : (sum_q (map inject_Z l) == inject_Z (total_cost l))%Q.
Proof. unfold sum_q, total_cost. induction l as [|x l IH]; cbn; [reflexivity|]. rewrite IH, inject_Z_plus. reflexivity. Qed.
Lemma sum_opp l : (sum_q (map Qopp l) == - sum_q l)%Q.
Proof. unfold sum_q. induction l as [|x l IH]; cbn; [reflexivity|]. rewrite IH. ring. Qed.
Lemma worth_opp fl values : worth (chosen fl (map (fun q => Some (- q)%Q) values)) (- sum_q (chosen fl values)).
Proof. exists (map Qopp (chosen fl values)). split; [rewrite chosen_map, map_map; reflexivity|]. symmetry. apply sum_opp. Qed.

(** The values are negative and small is good: never below what the exact method reaches with the values of the opposite sign. *)
Theorem C53_knapsack : forall values costs budget draws x s best flag,
  length values = length costs -> Forall (fun c => 0 <= c) costs -> 0 <= budget ->
  possible values (map inject_Z costs) (inject_Z budget) draws ->
  select_POSS values (map inject_Z costs) (inject_Z budget) draws = Ok (Some x, s) ->
  select_Knapsack_01 (map (fun q => Some (- q)%Q) values) costs budget = Ok (best, flag) -> (- best <= x)%Q.
Proof.
  intros values costs budget draws x s best flag L P B PO E K.
  assert (L' : length values = length (map inject_Z costs)) by now rewrite map_length.
  assert (B' : (0 <= inject_Z budget)%Q) by (change 0%Q with (inject_Z 0); rewrite <- Zle_Qle; lia).
  destruct (C53_budget values (map inject_Z costs) (inject_Z budget) draws _ _ L' B' PO E) as (LS & CS & _ & _ & V).
  destruct (C52_optimal (map (fun q => Some (- q)%Q) values) costs budget ltac:(now rewrite map_length) P B) as (b & f & Eb & _ & _ & O). rewrite K in Eb. injection Eb as <- <-.
  assert (X : (- sum_q (chosen s values) <= best)%Q); [|lra].
  apply (O s); [|apply worth_opp]. split; [lia|]. unfold cost_of in CS. rewrite chosen_map, sum_inject, <- Zle_Qle in CS. exact CS.
Qed.
Print Assumptions C53_knapsack.

(** It reaches it as soon as the best choice is the first one tried, whatever is tried afterwards; a choice of free items is never taken. *)
Theorem C53_reaches : forall values costs budget draws best flag,
  length values = length costs -> Forall (fun c => 0 <= c) costs -> 0 <= budget ->
  select_Knapsack_01 (map (fun q => Some (- q)%Q) values) costs budget = Ok (best, flag) -> total_cost (chosen flag costs) <> 0 ->
  possible values (map inject_Z costs) (inject_Z budget) ((0%nat, flag) :: draws) ->
  exists x s, select_POSS values (map inject_Z costs) (inject_Z budget) ((0%nat, flag) :: draws) = Ok (Some x, s) /\ (x == - best)%Q.
Proof.
  intros values costs budget draws best flag L P B K NZ PO.
  assert (L' : length values = length (map inject_Z costs)) by now rewrite map_length.
  assert (B' : (0 <= inject_Z budget)%Q) by (change 0%Q with (inject_Z 0); rewrite <- Zle_Qle; lia).
  destruct (C53_total values (map inject_Z costs) (inject_Z budget) _ L' B' PO) as (v & s & E).
  destruct (C52_optimal (map (fun q => Some (- q)%Q) values) costs budget ltac:(now rewrite map_length) P B) as (b & f & Eb & [LF CF] & W & O). rewrite K in Eb. injection Eb as <- <-.
  assert (WB : (best == - sum_q (chosen flag values))%Q).
  { pose proof (worth_opp flag values) as (q & Eq & Q1). destruct W as (q' & Eq' & Q2). rewrite Eq in Eq'. rewrite Q2, Q1.
    assert (q = q'); [|subst; reflexivity]. clear - Eq'. revert q' Eq'. induction q as [|a q IH]; intros [|b q'] H; try discriminate; [auto|]. cbn in H. injection H as -> H. f_equal. auto. }
  assert (A : at_most v (Some (sum_q (chosen flag values)))).
  { apply (C53_best values (map inject_Z costs) (inject_Z budget) _ v s [] (0%nat, flag) draws (start values) (hd (repeat false (length values), (None, 0%Q)) (start values)) flag L' B' PO E); try reflexivity.
    - split; [unfold start; cbn; rewrite repeat_length; lia|]. intros i I. unfold start in *. cbn in *. rewrite repeat_length in I.
      assert (R : nth i (repeat false (length values)) false = false) by (clear; revert i; induction (length values) as [|k IH]; intros [|i]; cbn; auto). rewrite R. now destruct (nth i flag false).
    - unfold cost_of. rewrite chosen_map, sum_inject. intro Z0. apply NZ. change 0%Q with (inject_Z 0) in Z0. now apply (proj1 (inject_Z_injective _ _)).
    - unfold cost_of. rewrite chosen_map, sum_inject, <- Zle_Qle. exact CF. }
  destruct v as [x|]; [|destruct A]. exists x, s. split; [exact E|]. cbn in A.
  pose proof (C53_knapsack values costs budget _ x s best flag L P B PO E K). lra.
Qed.
Print Assumptions C53_reaches.

(** Three items within a budget of 6: the best choice, the first and the last, is tried first. *)
Example C53_reaches_example :
  possible [-3; -4; -5]%Q (map inject_Z [2; 3; 4]) (inject_Z 6) [(0%nat, [true; false; true])] /\
  (exists b, select_Knapsack_01 (map (fun q => Some (- q)%Q) [-3; -4; -5]%Q) [2; 3; 4] 6 = Ok (b, [true; false; true]) /\ (b == 8)%Q) /\
  exists x, select_POSS [-3; -4; -5]%Q (map inject_Z [2; 3; 4]) (inject_Z 6) [(0%nat, [true; false; true])]
    = Ok (Some x, [true; false; true]) /\ (x == -8)%Q.
Proof.
  split; [|split; eexists; (split; [vm_compute; reflexivity|reflexivity])].
  split; [now repeat constructor|]. intros [|d1 [|d1' l]] d d2 pop E R; try discriminate.
  cbn in E. injection E as <- <-. cbn in R. injection R as <-. cbn. lia.
Qed.

(** One that is tried and does not reach it. *)
Example C53_knapsack_example :
  exists x, select_POSS [-3; -4; -5]%Q (map inject_Z [2; 3; 4]) (inject_Z 6) [(0%nat, [true; true; false])]
    = Ok (Some x, [true; true; false]) /\ (x == -7)%Q.
Proof. eexists. split; [vm_compute; reflexivity|reflexivity]. Qed.

Lemma rounds_app values costs budget d1 d2 : forall pop, poss_rounds values costs budget pop (d1 ++ d2) =
  (p <- poss_rounds values costs budget pop d1 ;; poss_rounds values costs budget p d2).
Proof. induction d1 as [|d d1 IH]; intro pop; [reflexivity|]. cbn [poss_rounds app]. destruct (poss_round values costs budget pop d); cbn [bind]; auto. Qed.

(** More rounds never make the result worse. *)
Theorem C53_longer : forall values costs budget draws more v s v' s',
  length values = length costs -> (0 <= budget)%Q -> possible values costs budget (draws ++ more) ->
  select_POSS values costs budget draws = Ok (v, s) -> select_POSS values costs budget (draws ++ more) = Ok (v', s') -> at_most v' v.
Proof.
  intros values costs budget draws more v s v' s' Hl H0 (Hd & _) E E'. unfold select_POSS in E, E'.
  rewrite Hl, Nat.eqb_refl in E, E'. cbn [guard bind] in E, E'. rewrite <- Hl in E, E'. fold (start values) in E, E'. rewrite rounds_app in E'.
  apply Forall_app in Hd. destruct Hd as [D1 D2].
  destruct (poss_rounds values costs budget (start values) draws) as [pop|] eqn:R; [|discriminate]. cbn [bind] in E, E'.
  destruct (poss_rounds values costs budget pop more) as [pop'|] eqn:R'; [|discriminate]. cbn [bind] in E'.
  destruct (rounds_good values costs budget Hl H0 draws _ _ _ (good_start values costs budget Hl H0) D1 R) as (gen & G & _ & _).
  destruct (rounds_good values costs budget Hl H0 more _ _ _ G D2 R') as (gen' & G' & S & _).
  destruct (select_of_good _ _ _ Hl _ _ G) as (i & m & Ea & En & _). rewrite Ea in E. cbn [bind] in E. unfold py_nth in E. rewrite En in E. cbn [bind] in E. injection E as <- <-.
  destruct (select_of_good _ _ _ Hl _ _ G') as (i' & m' & Ea' & En' & M). rewrite Ea' in E'. cbn [bind] in E'. unfold py_nth in E'. rewrite En' in E'. cbn [bind] in E'. injection E' as <- <-.
  destruct (g_mem _ _ _ _ _ G m (nth_error_In _ _ En)) as (_ & F & I).
  destruct (g_gen _ _ _ _ _ G' _ (S _ I)) as (m2 & I2 & B & _). rewrite F.
  eapply at_most_trans; [apply (M _ I2)|exact B].
Qed.
Print Assumptions C53_longer.

(** After the second round the better pair has replaced the first one. *)
Example C53_longer_example :
  (exists x, select_POSS [-3; -4; -5]%Q [2; 3; 4]%Q 6%Q [(0%nat, [true; true; false])] = Ok (Some x, [true; true; false]) /\ (x == -7)%Q) /\
  exists x, select_POSS [-3; -4; -5]%Q [2; 3; 4]%Q 6%Q ([(0%nat, [true; true; false])] ++ [(1%nat, [false; true; true])]) = Ok (Some x, [true; false; true]) /\ (x == -8)%Q.
Proof. split; eexists; (split; [vm_compute; reflexivity|reflexivity]). Qed.
