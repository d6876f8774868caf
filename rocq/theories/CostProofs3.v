(** Proofs about the selection step of HALC and Performance, and about HALC's descendant sums. *)
From Verif Require Import Base BaseFacts CostModel CostSpec CostProofs CostProofs2.
From Coq Require Import QArith Lqa Lia.
Local Open Scope Z_scope.

Lemma chosen_map {A B} (f : A -> B) fl l : chosen fl (map f l) = map f (chosen fl l).
Proof.
  revert l. induction fl as [|b fl IH]; intros [|x l]; try reflexivity.
  cbn [map]. rewrite !chosen_cons, IH. destruct b; reflexivity.
Qed.
Lemma chosen_incl {A} fl (l : list A) x : In x (chosen fl l) -> In x l.
Proof.
  revert l. induction fl as [|b fl IH]; intros [|y l] H; try contradiction.
  rewrite chosen_cons in H. destruct b; [destruct H; [left|right]|right]; auto.
Qed.
Lemma chosen_NoDup {A} fl (l : list A) : NoDup l -> NoDup (chosen fl l).
Proof.
  intros N. revert fl. induction N as [|y l Hy N IH]; intros [|b fl]; try constructor.
  rewrite chosen_cons. destruct b; auto. constructor; auto. intros H. apply chosen_incl in H. contradiction.
Qed.
Lemma chosen_filter {A} (f : A -> bool) l : chosen (map f l) l = filter f l.
Proof. induction l as [|x l IH]; [reflexivity|]. cbn [map filter]. rewrite chosen_cons, IH. reflexivity. Qed.
Lemma chosen_all {A} (l : list A) : chosen (repeat true (length l)) l = l.
Proof. induction l as [|x l IH]; [reflexivity|]. cbn [length repeat]. rewrite chosen_cons, IH. reflexivity. Qed.

Lemma worth_perm l l' w : Permutation l l' -> worth l w -> worth l' w.
Proof.
  intros P. revert w. induction P as [|x l l' _ IH|x y l|l l' l'' _ IH1 _ IH2]; intros w W; auto.
  - apply worth_cons in W. destruct W as (q & w' & -> & W & E).
    eapply worth_eq; [apply worth_cons_intro, IH, W|]. rewrite E. reflexivity.
  - apply worth_cons in W. destruct W as (q & w' & -> & W & E).
    apply worth_cons in W. destruct W as (q' & w'' & -> & W & E').
    eapply worth_eq; [apply worth_cons_intro, worth_cons_intro, W|]. rewrite E, E'. ring.
Qed.
Lemma total_cost_perm l l' : Permutation l l' -> total_cost l = total_cost l'.
Proof.
  induction 1 as [|x l l' _ IH|x y l|l l' l'' _ IH1 _ IH2]; [reflexivity| | |congruence].
  - change (x + total_cost l = x + total_cost l'). lia.
  - change (y + (x + total_cost l) = x + (y + total_cost l)). lia.
Qed.

Lemma filter_perm S ps : NoDup S -> NoDup ps -> (forall p, In p S -> In p ps) ->
  Permutation (filter (fun p => pair_mem p S) ps) S.
Proof.
  intros N1 N2 I. apply NoDup_Permutation; auto using NoDup_filter.
  intros p. rewrite filter_In, pair_mem_iff. split; [tauto|]. auto.
Qed.

Lemma optimal_set (val : nat * nat -> option Q) (cost : nat * nat -> Z) ps cap fl w :
  NoDup ps -> optimal (map val ps) (map cost ps) cap fl w ->
  NoDup (chosen fl ps) /\ (forall p, In p (chosen fl ps) -> In p ps) /\
  total_cost (map cost (chosen fl ps)) <= cap /\ worth (map val (chosen fl ps)) w /\
  forall S w', NoDup S -> (forall p, In p S -> In p ps) -> total_cost (map cost S) <= cap ->
     worth (map val S) w' -> (w' <= w)%Q.
Proof.
  intros N ((L & F) & W & M). rewrite chosen_map in F. rewrite chosen_map in W.
  split; [apply chosen_NoDup; exact N|]. split; [intros p; apply chosen_incl|]. split; [exact F|]. split; [exact W|].
  intros S w' NS I C W'.
  pose proof (filter_perm S ps NS N I) as P.
  apply (M (map (fun p => pair_mem p S) ps)).
  - split; [rewrite !map_length; reflexivity|]. rewrite chosen_map, chosen_filter.
    rewrite (total_cost_perm _ _ (Permutation_map cost P)). exact C.
  - rewrite chosen_map, chosen_filter. eapply worth_perm; [apply Permutation_map, Permutation_sym, P|]. exact W'.
Qed.

(** ** Candidates *)

Definition cand_pairs (budget : nat) (orders : list (list nat)) : list (nat * nat) :=
  concat (map (fun jo => map (fun k => (k, fst jo)) (firstn (budget - 1) (rev (snd jo))))
              (combine (seq 0 (length orders)) orders)).

Lemma in_combine_seq {A} (l : list A) d : forall s j x,
  In (j, x) (combine (seq s (length l)) l) <-> (s <= j < s + length l)%nat /\ x = nth (j - s) l d.
Proof.
  induction l as [|a l IH]; intros s j x; cbn [length seq combine].
  - split; [contradiction|]. lia.
  - cbn [In]. rewrite IH. split.
    + intros [E|[H ->]].
      * injection E as <- <-. split; [lia|]. rewrite Nat.sub_diag. reflexivity.
      * split; [lia|]. replace (j - s)%nat with (S (j - S s)) by lia. reflexivity.
    + intros [H ->]. destruct (Nat.eq_dec s j) as [->|Nq].
      * left. rewrite Nat.sub_diag. reflexivity.
      * right. split; [lia|]. replace (j - s)%nat with (S (j - S s)) by lia. reflexivity.
Qed.

Lemma cand_in budget orders k j : In (k, j) (cand_pairs budget orders) <->
  (j < length orders)%nat /\ In k (firstn (budget - 1) (rev (nth j orders []))).
Proof.
  unfold cand_pairs. rewrite in_concat. split.
  - intros (l & Hl & Hk). apply in_map_iff in Hl. destruct Hl as ([j' o] & <- & Hc).
    apply (in_combine_seq orders [] 0) in Hc. destruct Hc as [H1 ->]. rewrite Nat.sub_0_r in *.
    apply in_map_iff in Hk. destruct Hk as (k' & E & Hk). cbn [fst snd] in *. injection E as -> ->. split; [lia|exact Hk].
  - intros [H1 H2]. exists (map (fun k => (k, j)) (firstn (budget - 1) (rev (nth j orders [])))). split.
    + apply in_map_iff. exists (j, nth j orders []). split; [reflexivity|].
      apply (in_combine_seq orders [] 0). split; [lia|]. rewrite Nat.sub_0_r. reflexivity.
    + apply in_map_iff. eauto.
Qed.

Lemma firstn_NoDup {A} n (l : list A) : NoDup l -> NoDup (firstn n l).
Proof.
  intros N. rewrite <- (firstn_skipn n l) in N. apply NoDup_app_inv in N. tauto.
Qed.
Lemma firstn_In {A} n (l : list A) x : In x (firstn n l) -> In x l.
Proof. intros H. rewrite <- (firstn_skipn n l). apply in_or_app. auto. Qed.

Lemma cand_NoDup budget orders : Forall (@NoDup nat) orders -> NoDup (cand_pairs budget orders).
Proof.
  unfold cand_pairs. generalize (budget - 1)%nat as b. intros b. generalize 0%nat as s. induction orders as [|o orders IH]; intros s F; [constructor|].
  apply Forall_cons_iff in F. destruct F as [F1 F2]. cbn [length seq combine map concat fst snd].
  apply NoDup_app_intro.
  - apply FinFun.Injective_map_NoDup; [intros a a2 E; congruence|]. apply firstn_NoDup, NoDup_rev, F1.
  - apply IH. exact F2.
  - intros [k j] H1 H2. apply in_map_iff in H1. destruct H1 as (k' & E & _). injection E as -> <-.
    apply in_concat in H2. destruct H2 as (l & Hl & Hk). apply in_map_iff in Hl. destruct Hl as ([j o'] & <- & Hc).
    apply (in_combine_seq orders [] (S s)) in Hc. apply in_map_iff in Hk. destruct Hk as (k' & E & _).
    cbn in E. injection E as _ E. lia.
Qed.

Lemma class_candidates_ok budget order j : (j < budget)%nat -> (j < length order)%nat ->
  class_candidates budget order j = Ok (map (fun k => (k, j)) (firstn (budget - 1) (rev order))).
Proof.
  intros H1 H2. unfold class_candidates, py_nth.
  destruct (nth_error (firstn budget (rev order)) j) eqn:E.
  - cbn [bind]. rewrite firstn_firstn. replace (Nat.min (budget - 1) budget) with (budget - 1)%nat by lia. reflexivity.
  - apply nth_error_None in E. rewrite firstn_length, rev_length in E. lia.
Qed.
Lemma class_candidates_err budget order j : (budget <= j \/ length order <= j)%nat ->
  class_candidates budget order j = Err IndexErr.
Proof.
  intros H1. unfold class_candidates, py_nth. rewrite (proj2 (nth_error_None _ _)); [reflexivity|].
  rewrite firstn_length, rev_length. lia.
Qed.

Lemma mapM_err {A B} (f : A -> res B) l e : (forall x, In x l -> f x = Err e \/ exists y, f x = Ok y) ->
  (exists x, In x l /\ f x = Err e) -> mapM f l = Err e.
Proof.
  induction l as [|x l IH]; intros H (x0 & Hi & E); [contradiction|]. cbn [mapM].
  destruct (H x (or_introl eq_refl)) as [->|(y & Ey)]; [reflexivity|]. rewrite Ey. cbn [bind].
  rewrite IH; [reflexivity|intros; apply H; right; auto|]. destruct Hi as [->|Hi]; [congruence|eauto].
Qed.

Section Select.
  Variables (n C budget : nat) (score : list (list (option Q))) (costs : list Z) (orders : list (list nat)).
  Hypothesis Hs : matrix_of n C score.
  Hypothesis Hc : length costs = C.
  Hypothesis Ho : length orders = C.
  Hypothesis Hp : Forall (fun o => Permutation o (seq 0 n)) orders.

  Definition val (p : nat * nat) : option Q := nth (snd p) (nth (fst p) score []) None.
  Definition cst (p : nat * nat) : Z := nth (snd p) costs 0.

  Lemma order_length j : (j < C)%nat -> length (nth j orders []) = n.
  Proof.
    intros H. rewrite Forall_forall in Hp. assert (I : In (nth j orders []) orders) by (apply nth_In; lia).
    rewrite (Permutation_length (Hp _ I)). apply seq_length.
  Qed.

  Lemma select_err : (Nat.min budget n < C)%nat -> knapsack_select score costs budget orders = Err IndexErr.
  Proof.
    intros H. unfold knapsack_select. rewrite (mapM_err _ _ IndexErr); [reflexivity| |].
    - intros [j o] Hj. apply (in_combine_seq orders [] 0) in Hj. destruct Hj as [Hj ->]. cbn [fst snd].
      rewrite Nat.sub_0_r. assert (Lo : length (nth j orders []) = n) by (apply order_length; lia).
      destruct (le_lt_dec budget j); [left; apply class_candidates_err; auto|].
      destruct (le_lt_dec n j); [left; apply class_candidates_err; lia|].
      right. rewrite class_candidates_ok by lia. eauto.
    - exists (C - 1, nth (C - 1) orders [])%nat. split.
      + apply (in_combine_seq orders [] 0). split; [lia|]. rewrite Nat.sub_0_r. reflexivity.
      + cbn [fst snd]. apply class_candidates_err. rewrite order_length by lia. lia.
  Qed.

  Hypothesis Hb : (C <= budget)%nat.
  Hypothesis Hn : (C <= n)%nat.
  Hypothesis Hcost : Forall (fun c => 0 <= c) costs.

  Lemma cand_range p : In p (cand_pairs budget orders) -> (fst p < n)%nat /\ (snd p < C)%nat.
  Proof.
    destruct p as [k j]. intros H. apply cand_in in H. destruct H as [H1 H2]. cbn [fst snd]. split; [|lia].
    apply firstn_In in H2. apply in_rev in H2. rewrite Forall_forall in Hp.
    apply (Permutation_in _ (Hp (nth j orders []) (nth_In _ _ H1))) in H2. apply in_seq in H2. lia.
  Qed.

  Lemma select_run : exists fl w, knapsack_select score costs budget orders = Ok (chosen fl (cand_pairs budget orders)) /\
    select_Knapsack_01 (map val (cand_pairs budget orders)) (map cst (cand_pairs budget orders)) (Z.of_nat budget) = Ok (w, fl) /\
    optimal (map val (cand_pairs budget orders)) (map cst (cand_pairs budget orders)) (Z.of_nat budget) fl w.
  Proof.
    unfold knapsack_select.
    rewrite (mapM_all _ (fun jo => map (fun k => (k, fst jo)) (firstn (budget - 1) (rev (snd jo))))).
    2:{ intros [j o] Hj. apply (in_combine_seq orders [] 0) in Hj. destruct Hj as [Hj ->]. cbn [fst snd].
        rewrite Nat.sub_0_r. apply class_candidates_ok; [lia|]. rewrite order_length by lia. lia. }
    cbn [bind]. fold (cand_pairs budget orders).
    rewrite (mapM_all _ val).
    2:{ intros p H. apply cand_range in H. apply (entry_ok n C); tauto. }
    cbn [bind]. rewrite (mapM_all _ cst).
    2:{ intros p H. apply cand_range in H. unfold py_nth, cst. rewrite (nth_error_nth' costs 0) by lia. reflexivity. }
    cbn [bind].
    assert (L : length (map val (cand_pairs budget orders)) = length (map cst (cand_pairs budget orders)))
      by (rewrite !map_length; reflexivity).
    assert (F : Forall (fun c => 0 <= c) (map cst (cand_pairs budget orders))).
    { apply Forall_forall. intros c Hc'. apply in_map_iff in Hc'. destruct Hc' as (p & <- & Hin).
      apply cand_range in Hin. rewrite Forall_forall in Hcost. apply Hcost. apply nth_In. lia. }
    rewrite knapsack_run by (auto; lia). cbn [bind snd].
    eexists _, _. split; [reflexivity|]. split; [reflexivity|]. apply knapsack_optimal; auto. lia.
  Qed.

  (** When all candidates fit and none has a negative value, all are taken. *)
  Lemma select_all :
    total_cost (map cst (cand_pairs budget orders)) <= Z.of_nat budget ->
    (forall p, In p (cand_pairs budget orders) -> exists q, val p = Some q /\ (0 <= q)%Q) ->
    knapsack_select score costs budget orders = Ok (cand_pairs budget orders).
  Proof.
    intros Ht Hv. destruct select_run as (fl & w & -> & Ek & Ho').
    set (ps := cand_pairs budget orders) in *.
    assert (Hq : exists qs, map val ps = map Some qs /\ Forall (fun q => 0 <= q)%Q qs).
    { clear -Hv. induction ps as [|p ps IH]; [exists []; split; [reflexivity|constructor]|].
      destruct (Hv p) as (q & E & H); [left; auto|]. destruct IH as (qs & E' & F); [intros; apply Hv; right; auto|].
      exists (q :: qs). cbn. rewrite E, E'. split; [reflexivity|]. constructor; auto. }
    destruct Hq as (qs & Eq & Fq).
    assert (Lc : length (map cst ps) = length ps) by apply map_length.
    assert (T : optimal (map val ps) (map cst ps) (Z.of_nat budget) (repeat true (length ps)) (sum_q qs)).
    { split; [split|split].
      - rewrite repeat_length. symmetry. exact Lc.
      - rewrite chosen_map, chosen_all. exact Ht.
      - rewrite chosen_map, chosen_all, Eq. exists qs. split; reflexivity.
      - intros fl' w' _ (q' & E & Ew). rewrite Eq, chosen_map in E. rewrite Ew.
        assert (q' = chosen fl' qs).
        { clear -E. revert E. generalize (chosen fl' qs) as l. intros l. revert q'.
          induction l as [|x l IH]; intros [|y q'] E; try discriminate; auto. cbn in E. injection E as <- E. f_equal. auto. }
        subst q'. clear -Fq. revert fl'. induction Fq as [|q qs H _ IH]; intros [|b fl']; try (cbn; lra).
        + change (0 <= q + sum_q qs)%Q. specialize (IH []). cbn in IH. fold (sum_q qs) in IH. lra.
        + rewrite chosen_cons. specialize (IH fl'). destruct b.
          * change (q + sum_q (chosen fl' qs) <= q + sum_q qs)%Q. lra.
          * change (sum_q (chosen fl' qs) <= q + sum_q qs)%Q. lra. }
    assert (F : Forall (fun c => 0 <= c) (map cst ps)).
    { apply Forall_forall. intros c Hc'. apply in_map_iff in Hc'. destruct Hc' as (p & <- & Hin).
      apply cand_range in Hin. rewrite Forall_forall in Hcost. apply Hcost. apply nth_In. lia. }
    destruct (knapsack_tie (map val ps) (map cst ps) (Z.of_nat budget)) with (fl := repeat true (length ps)) (w := sum_q qs)
      as [_ [E|(i & I1 & _ & I2 & _)]]; auto; try lia.
    - rewrite !map_length. reflexivity.
    - rewrite knapsack_run in Ek by (auto; try (rewrite !map_length; reflexivity); lia). injection Ek as _ <-.
      rewrite <- E, chosen_all. reflexivity.
    - exfalso. rewrite Lc in I1. rewrite (nth_indep _ false true) in I2 by (rewrite repeat_length; exact I1).
      rewrite nth_repeat in I2. discriminate.
  Qed.
End Select.

(** ** Scores *)

Lemma matrix_map {A} (f : nat -> nat -> A) n C :
  matrix_of n C (map (fun i => map (fun j => f i j) (seq 0 C)) (seq 0 n)).
Proof.
  split; [rewrite map_length, seq_length; reflexivity|]. apply Forall_forall. intros r Hr.
  apply in_map_iff in Hr. destruct Hr as (i & <- & _). rewrite map_length, seq_length. reflexivity.
Qed.
Lemma matrix_nth {A} (f : nat -> nat -> A) n C i j d : (i < n)%nat -> (j < C)%nat ->
  nth j (nth i (map (fun i => map (fun j => f i j) (seq 0 C)) (seq 0 n)) []) d = f i j.
Proof.
  intros Hi Hj. rewrite nth_indep with (d' := map (fun j => f 0%nat j) (seq 0 C)) by (rewrite map_length, seq_length; auto).
  rewrite map_nth with (f := fun i => map (fun j => f i j) (seq 0 C)) (d := 0%nat). rewrite seq_nth by auto. cbn [plus].
  rewrite nth_indep with (d' := f i 0%nat) by (rewrite map_length, seq_length; auto).
  rewrite map_nth with (d := 0%nat). rewrite seq_nth by auto. reflexivity.
Qed.

(** ** cal_Udes *)

Lemma zero_row row : existsb (fun e => negb (Nat.eqb e 0)) row = false <-> Forall (fun e => e = 0%nat) row.
Proof.
  rewrite <- not_true_iff_false, existsb_exists, Forall_forall. split.
  - intros H e He. destruct (Nat.eq_dec e 0) as [|N]; auto. exfalso. apply H. exists e. split; auto.
    apply negb_true_iff, Nat.eqb_neq. exact N.
  - intros H (e & He & N). apply H in He. subst. discriminate.
Qed.

Lemma udes_leaf fuel tree u t que acc row x : nth_error tree t = Some row -> Forall (fun e => e = 0%nat) row ->
  nth_error u t = Some x ->
  udes_loop (S fuel) tree u (t :: que) acc = udes_loop fuel tree u que (plus_neg acc x).
Proof.
  intros H1 H2 H3. cbn [udes_loop]. unfold py_nth. rewrite H1. cbn [bind].
  rewrite (proj2 (zero_row row) H2), H3. reflexivity.
Qed.

Lemma udes_inner fuel tree u t que acc row b0 b1 rest : nth_error tree t = Some row -> row = b0 :: b1 :: rest ->
  Forall (fun e => e = 0 \/ e = 1)%nat row -> ~ Forall (fun e => e = 0%nat) row ->
  udes_loop (S fuel) tree u (t :: que) acc =
  udes_loop fuel tree u (que ++ concat (map (fun e => if Nat.eqb (nth e row 0%nat) 1 then [e] else []) row)) acc.
Proof.
  intros H1 Er H2 H3. cbn [udes_loop]. unfold py_nth at 1. rewrite H1. cbn [bind].
  destruct (existsb (fun e => negb (Nat.eqb e 0)) row) eqn:E; [|apply zero_row in E; contradiction].
  rewrite (mapM_all _ (fun e => if Nat.eqb (nth e row 0%nat) 1 then [e] else [])).
  - reflexivity.
  - intros e He. rewrite Forall_forall in H2. unfold py_nth.
    rewrite (nth_error_nth' row 0%nat); [reflexivity|]. rewrite Er. cbn. specialize (H2 e He). lia.
Qed.
