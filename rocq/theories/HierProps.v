(** C102: what the completion of labels by the hierarchy really reveals. *)
From Coq Require Import List ZArith Lia Bool.
From Verif Require Import Base BaseFacts CostModel CostSpec CostProofs CostProofs2 CostProofs3 HierModel HierSpec HierProofs.
Import ListNotations.
Local Open Scope Z_scope.

(** Which labels a hierarchy settles, for every tree, every consistent labelling and every set of known pairs: a positive
    one exactly if a known label at or below it is positive, a negative one exactly if a known label at or above it is
    negative. *)
Theorem C102_settled tree n C known y i d :
  matrix_of C C tree -> labelling n C y -> consistent (child tree) n y -> (i < n)%nat -> (d < C)%nat ->
  (forall q, In q known -> (fst q < n)%nat /\ (snd q < C)%nat) ->
  (settled (child tree) n C known y (i, d) <->
   (label_of y i d = 1 /\ exists e, In (i, e) known /\ above (child tree) d e /\ label_of y i e = 1) \/
   (label_of y i d = -1 /\ exists a, In (i, a) known /\ above (child tree) a d /\ label_of y i a = -1)).
Proof. intros Ht L K Hi Hd B. split; [now apply settled_only|now apply settled_if]. Qed.
Print Assumptions C102_settled.

(** What [hierarchical_multilabel_mark] adds to a single queried pair is never settled by it: the added labels
    could have been either way, whatever the tree. *)
Theorem C102_unsettled tree n C y i j r :
  matrix_of C C tree -> acyclic (child tree) -> labelling n C y -> consistent (child tree) n y ->
  (i < n)%nat -> (j < C)%nat -> hierarchical_mark C [(i, j)] [] tree y = Ok r ->
  forall p, In p r -> p <> (i, j) -> ~ settled (child tree) n C [(i, j)] y p.
Proof.
  intros Ht Ac L K Hi Hj E p Ip Np S.
  assert (F : Forall (fun p => (fst p < n)%nat /\ (snd p < C)%nat) [(i, j)]) by (repeat constructor; assumption).
  destruct (mark_ok n C tree y [] Ht (proj1 L) _ F) as (e & E' & _ & M). rewrite E in E'. injection E' as ->.
  apply M in Ip. destruct Ip as [[Ip|[]]|[Ip _]]; [congruence|].
  destruct p as [i' d]. destruct Ip as (j' & [Q|[]] & H). cbn [fst snd] in *. injection Q as <- <-.
  assert (Hd : (d < C)%nat) by (destruct H as [[_ H]|[_ H]]; apply (out_row tree C C) in H; tauto).
  apply C102_settled in S; auto.
  2: { intros q [<-|[]]. auto. }
  destruct H as [[Lj Hc]|[Lj Hc]]; destruct S as [(Ld & e' & [Q|[]] & Ab & Le)|(Ld & e' & [Q|[]] & Ab & Le)]; injection Q as <-.
  - now apply (Ac j d).
  - congruence.
  - congruence.
  - now apply (Ac d j).
Qed.
Print Assumptions C102_unsettled.

(** With the tree turned round (entry [i, j] set when [j] is the parent of [i], against the documentation) everything
    that is added is settled by the queried pairs. *)
Theorem C102_transposed tree n C y queried labelled r :
  matrix_of C C tree -> labelling n C y -> consistent (fun p c => child tree c p) n y ->
  Forall (fun p => (fst p < n)%nat /\ (snd p < C)%nat) queried ->
  hierarchical_mark C queried labelled tree y = Ok r ->
  forall p, In p r -> settled (fun p c => child tree c p) n C queried y p.
Proof.
  intros Ht L K F E p Ip.
  destruct (mark_ok n C tree y labelled Ht (proj1 L) _ F) as (e & E' & _ & M). rewrite E in E'. injection E' as ->.
  assert (B : forall q, In q queried -> (fst q < n)%nat /\ (snd q < C)%nat) by (apply Forall_forall; exact F).
  apply M in Ip. destruct Ip as [Ip|[Ip _]].
  - intros y' _ _ A. now apply A.
  - destruct p as [i d]. destruct Ip as (j & Ij & H). cbn [fst snd] in *.
    destruct (B _ Ij) as [Hi Hj]. cbn [fst snd] in Hi, Hj.
    assert (Hd : (d < C)%nat) by (destruct H as [[_ H]|[_ H]]; apply (out_row tree C C) in H; tauto).
    apply settled_if; auto. destruct H as [[Lj Hc]|[Lj Hc]].
    + left. split; [now apply (K i d j)|]. exists j. repeat split; auto. now apply above_one.
    + right. split; [|exists j; repeat split; auto; now apply above_one].
      destruct (proj2 L i d Hi Hd) as [X|X]; [|exact X]. apply (K i j d Hi Hc) in X. congruence.
Qed.
Print Assumptions C102_transposed.

(** Rounds of selecting and completing: whatever is selected from the pool, labelled and unlabelled pairs stay disjoint
    with the same union, and the labelled pairs are the first ones, the selected ones and the neighbours (child of a
    positive, parent of a negative) of selected ones. *)
Theorem C102_rounds tree n C y queries : forall L U,
  matrix_of C C tree -> matrix_of n C y ->
  NoDup L -> NoDup U -> (forall p, In p L -> ~ In p U) ->
  (forall p, In p (L ++ U) -> (fst p < n)%nat /\ (snd p < C)%nat) ->
  (forall i d d', In (i, d) (L ++ U) -> (d' < C)%nat -> In (i, d') (L ++ U)) ->
  Forall (fun q => forall p, In p q -> In p (L ++ U)) queries ->
  exists L' U', cost_rounds C tree y (L, U) queries = Ok (L', U') /\
    NoDup L' /\ NoDup U' /\ (forall p, In p L' -> ~ In p U') /\
    (forall p, In p (L' ++ U') <-> In p (L ++ U)) /\
    (forall p, In p L' <-> In p L \/ exists q, In q queries /\ (In p q \/ implied tree y q p)).
Proof.
  induction queries as [|q queries IH]; intros L U Ht Hy NL NU Dj Rg Cl F.
  - exists L, U. unfold cost_rounds; cbn [foldM]. split; [reflexivity|]. split; [exact NL|].
    split; [exact NU|]. split; [exact Dj|]. split; [reflexivity|].
    intro p. split; [auto|]. intros [H|(q & [] & _)]; exact H.
  - inversion F as [|? ? F1 F2]; subst. unfold cost_rounds; cbn [foldM cost_round].
    assert (Fq : Forall (fun p => (fst p < n)%nat /\ (snd p < C)%nat) q) by (apply Forall_forall; auto).
    destruct (mark_ok n C tree y L Ht Hy q Fq) as (e & E & _ & M). rewrite E. cbn [bind].
    destruct (fold_pair_add (q ++ e) L) as (e1 & E1 & M1 & N1). rewrite E1.
    set (U1 := filter (fun p => negb (pair_mem p (q ++ e))) U).
    assert (HU : forall p, In p U1 <-> In p U /\ ~ In p (q ++ e)).
    { intro p. unfold U1. rewrite filter_In, negb_true_iff, pair_mem_false. tauto. }
    assert (Im : forall p, implied tree y q p -> In p (L ++ U)).
    { intros [i d] (j & Ij & H). cbn [fst snd] in *. apply (Cl i j); [now apply F1|].
      destruct H as [[_ H]|[_ H]]; apply (out_row tree C C) in H; tauto. }
    assert (Sub : forall p, In p (q ++ e) -> In p (L ++ U)).
    { intros p H. apply M in H. destruct H as [H|[H _]]; auto. }
    assert (Un : forall p, In p ((L ++ e1) ++ U1) <-> In p (L ++ U)).
    { intro p. rewrite in_app_iff, M1, HU. split.
      - intros [[H|H]|[H _]]; [apply in_or_app; auto|auto|apply in_or_app; auto].
      - intro H. destruct (pair_mem p (q ++ e)) eqn:Q.
        + apply pair_mem_iff in Q. auto.
        + apply pair_mem_false in Q. apply in_app_or in H. destruct H; auto. }
    destruct (IH (L ++ e1) U1) as (L' & U' & R1 & R2 & R3 & R4 & R5 & R6); auto.
    + apply NoDup_filter. exact NU.
    + intros p H1 H2. apply M1 in H1. apply HU in H2. destruct H1 as [H1|H1]; [|tauto]. now apply (Dj p H1).
    + intros p H. apply Rg, Un, H.
    + intros i d d' H Hd. apply Un. apply (Cl i d); [now apply Un|exact Hd].
    + eapply Forall_impl; [|exact F2]. intros a Ha p Hp. apply Un. auto.
    + exists L', U'. split; [exact R1|]. split; [exact R2|]. split; [exact R3|]. split; [exact R4|].
      split; [intro p; rewrite R5; apply Un|].
      intro p. rewrite R6, M1. split.
      * intros [[H|H]|(q' & I & H)]; [auto| |].
        -- apply M in H. right. exists q. split; [now left|]. tauto.
        -- right. exists q'. split; [now right|exact H].
      * intros [H|(q' & [<-|I] & H)]; [auto| |].
        -- left. destruct (pair_mem p L) eqn:Q; [left; now apply pair_mem_iff|]. apply pair_mem_false in Q.
           right. apply M. tauto.
        -- right. exists q'. auto.
Qed.
Print Assumptions C102_rounds.

(** Non-vacuity: three labels, 0 the parent of 1 and 2; an instance with 0 and 1 and one with none. *)
Definition ex_tree : list (list Z) := [[0; 1; 1]; [0; 0; 0]; [0; 0; 0]].
Definition ex_y : list (list Z) := [[1; 1; -1]; [-1; -1; -1]].

Lemma ex_above b a : above (child ex_tree) b a -> b = a \/ (b = 0%nat /\ (a = 1%nat \/ a = 2%nat)).
Proof.
  intro H. induction H as [|a b c Hr H IH]; [now left|]. right. unfold child in Hr.
  destruct a as [|[|[|[|a]]]]; destruct b as [|[|[|[|b]]]]; cbn in Hr; try discriminate; intuition (subst; try discriminate; auto).
Qed.

Example C102_case : matrix_of 3 3 ex_tree /\ acyclic (child ex_tree) /\ labelling 2 3 ex_y /\
  consistent (child ex_tree) 2 ex_y /\
  hierarchical_mark 3 [(0, 0)]%nat [] ex_tree ex_y = Ok [(0, 0); (0, 1); (0, 2)]%nat /\
  label_of ex_y 0 1 <> label_of ex_y 0 2 /\
  hierarchical_mark 3 [(1, 1)]%nat [] ex_tree ex_y = Ok [(1, 1); (1, 0)]%nat /\
  settled (child ex_tree) 2 3 [(0, 1)]%nat ex_y (0, 0)%nat.
Proof.
  assert (Ht : matrix_of 3 3 ex_tree) by (split; [reflexivity|repeat constructor]).
  assert (L : labelling 2 3 ex_y).
  { split; [split; [reflexivity|repeat constructor]|]. intros i j Hi Hj.
    destruct i as [|[|i]]; [| |lia]; destruct j as [|[|[|j]]]; cbn; auto; lia. }
  assert (K : consistent (child ex_tree) 2 ex_y).
  { intros i p c Hi R. unfold child in R. destruct p as [|[|[|[|p]]]]; destruct c as [|[|[|[|c]]]]; cbn in R; try discriminate;
      destruct i as [|[|i]]; cbn; auto; lia. }
  split; [exact Ht|]. split.
  { intros a b R Ab. apply ex_above in Ab. unfold child in R.
    destruct a as [|[|[|[|a]]]]; destruct b as [|[|[|[|b]]]]; cbn in R; try discriminate; intuition discriminate. }
  split; [exact L|]. split; [exact K|]. split; [reflexivity|]. split; [discriminate|]. split; [reflexivity|].
  apply C102_settled; auto; try lia.
  - intros q [<-|[]]. cbn. lia.
  - left. split; [reflexivity|]. exists 1%nat. split; [now left|]. split; [|reflexivity]. apply above_one. reflexivity.
Qed.

Definition ex_grid : list (nat * nat) := [(0, 0); (0, 1); (0, 2); (1, 0); (1, 1); (1, 2)]%nat.

Example C102_rounds_case :
  cost_rounds 3 ex_tree ex_y ([], ex_grid) [[(0, 0)]; [(1, 1)]]%nat =
    Ok ([(0, 0); (0, 1); (0, 2); (1, 1); (1, 0)], [(1, 2)])%nat /\ NoDup ex_grid /\
  (forall i d d', In (i, d) ([] ++ ex_grid) -> (d' < 3)%nat -> In (i, d') ([] ++ ex_grid)).
Proof.
  split; [reflexivity|]. split; [repeat constructor; cbn; intuition congruence|].
  intros i d d' H Hd. cbn in H. destruct d' as [|[|[|d']]]; try lia; cbn; intuition congruence.
Qed.
