(** C99: the paired t-test does not depend on the order in which the pairs (the folds) are listed. *)
From Verif Require Import Base TtestModel TtestSpec TtestProofs TtestProps.
From Coq Require Import QArith Lqa Permutation.
Local Open Scope Q_scope.

Lemma sum2_perm f (p p' : list (Q * Q)) : Permutation p p' -> sum2 f (map fst p) (map snd p) == sum2 f (map fst p') (map snd p').
Proof. induction 1 as [|[x y] p p' P IH|[x y] [x' y'] p|p1 p2 p3 P1 IH1 P2 IH2]; cbn; [reflexivity|now rewrite IH|ring|now rewrite IH1]. Qed.
Lemma same_in (p : list (Q * Q)) c : same_difference (map fst p) (map snd p) c <-> forall x y, In (x, y) p -> x - y == c.
Proof.
  unfold same_difference. split.
  - intros H x y I. apply In_nth_error in I. destruct I as (i & I). apply (H i); [exact (map_nth_error fst i p I)|exact (map_nth_error snd i p I)].
  - intros H i x y A B. rewrite nth_error_map in A, B. destruct (nth_error p i) as [[u v]|] eqn:E; [|discriminate]. cbn in A, B. injection A as <-. injection B as <-.
    apply H. exact (nth_error_In _ _ E).
Qed.

Theorem C99_order : forall tail (p p' : list (Q * Q)) al, student_ok tail -> Permutation p p' ->
  paired_ttest tail (Vec (map fst p')) (Vec (map snd p')) al = paired_ttest tail (Vec (map fst p)) (Vec (map snd p)) al.
Proof.
  intros tail p p' al K P. pose proof (Permutation_length P) as L.
  assert (LL : forall q : list (Q * Q), length (map fst q) = length (map snd q)) by (intro q; now rewrite !map_length).
  destruct (C99_spread _ _ (LL p)) as [S0 S1].
  assert (ES : spread (map fst p') (map snd p') == spread (map fst p) (map snd p)).
  { unfold spread, squares, total. rewrite !map_length, L, !(sum2_perm _ _ _ P). reflexivity. }
  destruct (Qlt_le_dec 0 (spread (map fst p) (map snd p))) as [G|Z].
  - destruct (le_lt_dec 2 (length p)) as [N|N].
    + set (t2 := (inject_Z (Z.of_nat (length p)) - 1) * (TtestSpec.total (map fst p) (map snd p) * TtestSpec.total (map fst p) (map snd p)) / spread (map fst p) (map snd p)).
      assert (T : t_squared (map fst p) (map snd p) t2) by (unfold t_squared, t2; rewrite map_length; field; lra).
      assert (T' : t_squared (map fst p') (map snd p') t2).
      { unfold t_squared in *. rewrite ES, T, !map_length, L. unfold TtestSpec.total. rewrite !(sum2_perm _ _ _ P). reflexivity. }
      rewrite (C99_decision tail (map fst p) (map snd p) al t2 K (LL p) ltac:(now rewrite map_length) G T).
      rewrite (C99_decision tail (map fst p') (map snd p') al t2 K (LL p') ltac:(rewrite map_length; lia) ltac:(rewrite ES; exact G) T').
      rewrite !map_length, L. reflexivity.
    + assert (p' = p) as ->; [|reflexivity]. destruct p as [|a [|b p]]; cbn in N; [|apply Permutation_length_1_inv in P; auto|lia]. apply Permutation_nil in P. auto.
  - destruct (proj1 S1 ltac:(lra)) as (c & C). assert (C' : same_difference (map fst p') (map snd p') c).
    { apply same_in. intros x y I. apply (proj1 (same_in p c) C). now apply (Permutation_in _ (Permutation_sym P)). }
    rewrite (C99_degenerate tail _ _ al c (LL p) C), (C99_degenerate tail _ _ al c (LL p') C'), !map_length, L. reflexivity.
Qed.
Print Assumptions C99_order.

(** Pairing the same numbers otherwise may change the decision. *)
Theorem C99_pairing_refuted : exists tail a b b' al, student_ok tail /\ Permutation b b' /\
  paired_ttest tail (Vec a) (Vec b) al <> paired_ttest tail (Vec a) (Vec b') al.
Proof.
  exists tail2, [1; 2; 3], [2; 3; 4], [4; 3; 2], (1 # 4). split; [exact (proj1 C99_tail_ok)|].
  split; [change [4; 3; 2] with (List.rev [2; 3; 4]); apply Permutation_rev|]. vm_compute. discriminate.
Qed.
Print Assumptions C99_pairing_refuted.

Example C99_order_example : Permutation [(1, 2); (2, 4); (3, 3)] [(2, 4); (1, 2); (3, 3)] /\
  paired_ttest tail2 (Vec [1; 2; 3]) (Vec [2; 4; 3]) (1 # 4) = Ok 1%Z /\ paired_ttest tail2 (Vec [2; 1; 3]) (Vec [4; 2; 3]) (1 # 4) = Ok 1%Z.
Proof. split; [apply perm_swap|]. split; vm_compute; reflexivity. Qed.
