(** C52: what the knapsack choice is worth does not depend on the order in which the items are listed. *)
From Verif Require Import Base CostModel CostSpec CostProps BudgetProps.
From Coq Require Import QArith Lqa Permutation.
Local Open Scope Z_scope.

Lemma chosen_cons {A} b (fl : list bool) (x : A) l : chosen (b :: fl) (x :: l) = if b then x :: chosen fl l else chosen fl l.
Proof. unfold chosen. cbn. now destruct b. Qed.
(** Every choice can be made from the reordered items. *)
Lemma chosen_perm {A} (l l' : list A) : Permutation l l' -> forall fl, length fl = length l ->
  exists fl', length fl' = length l' /\ Permutation (chosen fl l) (chosen fl' l').
Proof.
  induction 1 as [|x l l' P IH|x y l|l l' l'' P1 IH1 P2 IH2]; intros fl L.
  - exists fl. split; auto.
  - destruct fl as [|b fl]; [discriminate|]. destruct (IH fl) as (fl' & L' & P'); [now injection L|]. exists (b :: fl'). split; [cbn; congruence|].
    rewrite !chosen_cons. destruct b; auto.
  - destruct fl as [|b [|c fl]]; try discriminate. exists (c :: b :: fl). split; [cbn in *; congruence|]. rewrite !chosen_cons. destruct b, c; auto. apply perm_swap.
  - destruct (IH1 fl L) as (fl1 & L1 & Q1). destruct (IH2 fl1 L1) as (fl2 & L2 & Q2). exists fl2. split; [auto|]. now transitivity (chosen fl1 l').
Qed.
Lemma total_perm l l' : Permutation l l' -> total_cost l = total_cost l'.
Proof. unfold total_cost. induction 1; cbn; lia. Qed.
Lemma sum_perm l l' : Permutation l l' -> (sum_q l == sum_q l')%Q.
Proof. unfold sum_q. induction 1; cbn; [reflexivity|now rewrite IHPermutation|ring|etransitivity; eauto]. Qed.
Lemma worth_perm l l' w : Permutation l l' -> worth l w -> worth l' w.
Proof.
  intros P (q & -> & W). apply Permutation_sym in P. destruct (Permutation_map_inv _ _ P) as (q' & -> & P'). exists q'. split; [reflexivity|].
  rewrite W. now apply sum_perm.
Qed.

Theorem C52_order : forall items items' capacity best flag best' flag',
  Permutation items items' -> Forall (fun i => 0 <= snd i) items -> 0 <= capacity ->
  select_Knapsack_01 (map fst items) (map snd items) capacity = Ok (best, flag) ->
  select_Knapsack_01 (map fst items') (map snd items') capacity = Ok (best', flag') -> (best == best')%Q.
Proof.
  assert (H : forall items items' capacity best flag best' flag', Permutation items items' -> Forall (fun i => 0 <= snd i) items -> 0 <= capacity ->
    select_Knapsack_01 (map fst items) (map snd items) capacity = Ok (best, flag) ->
    select_Knapsack_01 (map fst items') (map snd items') capacity = Ok (best', flag') -> (best <= best')%Q).
  { intros items items' cap best flag best' flag' P N C E E'.
    assert (N' : Forall (fun i => 0 <= snd i) items') by (rewrite Forall_forall in *; intros i I; apply N; now apply (Permutation_in _ (Permutation_sym P))).
    destruct (C52_optimal (map fst items) (map snd items) cap ltac:(now rewrite !map_length) ltac:(now apply Forall_map) C) as (b & f & Eb & [F1 F2] & W & _). rewrite E in Eb. injection Eb as <- <-.
    destruct (C52_optimal (map fst items') (map snd items') cap ltac:(now rewrite !map_length) ltac:(now apply Forall_map) C) as (b & f & Eb & _ & _ & O). rewrite E' in Eb. injection Eb as <- <-.
    rewrite map_length in F1. destruct (chosen_perm items items' P flag F1) as (fl & LF & PF). rewrite chosen_map in F2. rewrite chosen_map in W.
    apply (O fl best); [split; [now rewrite map_length|]|]; rewrite chosen_map.
    - now rewrite <- (total_perm _ _ (Permutation_map snd PF)).
    - now apply (worth_perm _ _ _ (Permutation_map fst PF)). }
  intros items items' cap best flag best' flag' P N C E E'. apply Qle_antisym; [exact (H _ _ _ _ _ _ _ P N C E E')|].
  assert (N' : Forall (fun i => 0 <= snd i) items') by (rewrite Forall_forall in *; intros i I; apply N; now apply (Permutation_in _ (Permutation_sym P))).
  exact (H _ _ _ _ _ _ _ (Permutation_sym P) N' C E' E).
Qed.
Print Assumptions C52_order.

(** The chosen items may be others: of two equally good items the later one in the list is taken. *)
Theorem C52_order_refuted : exists items items' capacity best flag best' flag', Permutation items items' /\
  select_Knapsack_01 (map fst items) (map snd items) capacity = Ok (best, flag) /\
  select_Knapsack_01 (map fst items') (map snd items') capacity = Ok (best', flag') /\ (best == best')%Q /\
  ~ Permutation (chosen flag items) (chosen flag' items').
Proof.
  exists [(Some 1%Q, 1); (Some 1%Q, 2)], [(Some 1%Q, 2); (Some 1%Q, 1)], 2. do 4 eexists. split; [apply perm_swap|].
  split; [vm_compute; reflexivity|]. split; [vm_compute; reflexivity|]. split; [reflexivity|].
  intro P. apply Permutation_length_1 in P. discriminate.
Qed.
Print Assumptions C52_order_refuted.

Example C52_order_example : exists b b',
  select_Knapsack_01 [Some 3%Q; Some 4%Q; Some 5%Q] [2; 3; 4] 6 = Ok (b, [true; false; true]) /\ select_Knapsack_01 [Some 5%Q; Some 3%Q; Some 4%Q] [4; 2; 3] 6 = Ok (b', [true; true; false]) /\ (b == b')%Q.
Proof. eexists _, _. split; [vm_compute; reflexivity|]. split; [vm_compute; reflexivity|reflexivity]. Qed.
