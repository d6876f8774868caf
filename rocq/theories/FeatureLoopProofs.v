(** Proofs about the loop that acquires feature values. *)
From Verif Require Import Base BaseFacts SetFacts IndexModel MLModel MLSpec MLProofs MLProofs2 MLProofs3 MLProps MiscModel QueryModel QuerySpec MLQuerySpec
  FeatureModel FeatureSpec FeatureProofs3 StateModel StateSpec StateProofs StateProofs2 SelfModel SelfProofs
  FeatureLoopModel FeatureLoopSpec.
From Coq Require Import String QArith.
Local Open Scope Z_scope.

Lemma pairs_nd m c : ml_reachable m c -> NoDup (pairs c).
Proof. intro R. apply reachable_good in R. apply pairs_NoDup. apply R. Qed.
Lemma pairs_len m c : ml_reachable m c -> List.length (mcont c) = List.length (pairs c).
Proof.
  intro R. apply reachable_good in R. destruct R as (_ & _ & _ & F & _).
  rewrite (pairs_map m c F) at 1. apply map_length.
Qed.

(** The pairs a choice stands for. *)
Definition sel_pairs (U : mlic) (a : ml_choice) (p : Z * Z) : Prop :=
  match a with TheRest => In p (pairs U) | Chosen l => exists i j, l = [IPair i j] /\ p = (i, j) end.

Definition fine (train : list Z) (f : nat) (U : mlic) (a : ml_choice) : Prop :=
  match a with
  | TheRest => (List.length (pairs U) <= 1)%nat
  | Chosen l => (2 <= List.length (pairs U))%nat /\ exists i j, l = [IPair i j] /\ entries train f (i, j)
  end.

Lemma one_ok f i j : 0 <= j < Z.of_nat f -> forallb (scalar_ok (Z.of_nat f)) [IPair i j] = true /\
  flat_map (denoted (Z.of_nat f)) [IPair i j] = [(i, j)].
Proof.
  intro H. split; cbn [forallb scalar_ok flat_map denoted app andb].
  - rewrite !andb_true_iff. lia.
  - reflexivity.
Qed.

(** One call of [update] and [difference_update] with one entry. *)
Lemma add_one f c i j : ml_reachable (Z.of_nat f) c -> 0 <= j < Z.of_nat f ->
  exists c' w, ml_update true c [IPair i j] = (c', Ok w) /\ ml_reachable (Z.of_nat f) c' /\
    forall p, In p (pairs c') <-> In p (pairs c) \/ p = (i, j).
Proof.
  intros R Hj. destruct (one_ok f i j Hj) as [F1 F2].
  destruct (ml_update_any (Z.of_nat f) c true [IPair i j] (reachable_good _ _ R)) as (_ & (w & E) & H); auto; [right; discriminate|].
  assert (R1 : ml_reachable (Z.of_nat f) (fst (ml_update true c [IPair i j]))) by exact (mr_step _ c (MUpdate [IPair i j]) R Logic.I).
  destruct (ml_update true c [IPair i j]) as [c' r]; cbn [fst snd] in *. subst r. exists c', w. split; [reflexivity|]. split; [exact R1|].
  intro p. rewrite H, F2. cbn [In]. split; (intros [K|K]; [now left|right]); [destruct K as [<-|[]]; reflexivity|left; congruence].
Qed.

Lemma drop_one f c i j : ml_reachable (Z.of_nat f) c -> 0 <= j < Z.of_nat f ->
  exists c' w, ml_difference_update true c [IPair i j] = (c', Ok w) /\ ml_reachable (Z.of_nat f) c' /\
    forall p, In p (pairs c') <-> In p (pairs c) /\ p <> (i, j).
Proof.
  intros R Hj. destruct (one_ok f i j Hj) as [F1 F2].
  destruct (ml_difference_any (Z.of_nat f) c true [IPair i j] (reachable_good _ _ R)) as (_ & (w & E) & H); auto; [right; discriminate|].
  assert (R1 : ml_reachable (Z.of_nat f) (fst (ml_difference_update true c [IPair i j]))) by exact (mr_step _ c (MDiff [IPair i j]) R Logic.I).
  destruct (ml_difference_update true c [IPair i j]) as [c' r]; cbn [fst snd] in *. subst r. exists c', w. split; [reflexivity|]. split; [exact R1|].
  intro p. rewrite H, F2. cbn [In]. split; (intros [K1 K2]; split; [exact K1|]); [intro; subst; tauto|intros [<-|[]]; tauto].
Qed.

(** [update] with an empty collection or record. *)
Lemma none_added f c : ml_reachable (Z.of_nat f) c -> ml_update false c [] = (c, Ok []) /\ ml_difference_update false c [] = (c, Ok []).
Proof.
  intro R. apply reachable_good in R. destruct R as (_ & S & P & _). unfold ml_update, ml_difference_update, flatten_idx. cbn [bind].
  rewrite S. replace (0 <? Z.of_nat f) with true by lia. split; reflexivity.
Qed.

(** [update] with a collection: as with the list of its entries. *)
Lemma coll_as_list f c l : ml_reachable (Z.of_nat f) c -> l <> [] ->
  ml_update false c l = ml_update true c l /\ ml_difference_update false c l = ml_difference_update true c l.
Proof.
  intros R N. apply reachable_good in R. destruct R as (_ & S & _).
  assert (E : flatten_idx false (lsize c) l = flatten_idx true (lsize c) l).
  { unfold flatten_idx. rewrite S. destruct l as [|x l]; [congruence|]. reflexivity. }
  unfold ml_update, ml_difference_update. rewrite E. auto.
Qed.

(** The two updates of a round. *)
Lemma exchanged train f L U a : parts train f L U -> fine train f U a ->
  exists L' U', ml_round L U (match a with TheRest => Itself | Chosen l => Listed l end) = ((L', U'), Ok tt) /\
    parts train f L' U' /\
    (forall p, In p (pairs L') <-> In p (pairs L) \/ sel_pairs U a p) /\
    (forall p, In p (pairs U') <-> In p (pairs U) /\ ~ sel_pairs U a p) /\
    (a = TheRest -> mcont U' = []).
Proof.
  intros (RL & RU & D & G) Fi.
  assert (K : exists L' U', ml_round L U (match a with TheRest => Itself | Chosen l => Listed l end) = ((L', U'), Ok tt) /\
    ml_reachable (Z.of_nat f) L' /\ ml_reachable (Z.of_nat f) U' /\
    (forall p, In p (pairs L') <-> In p (pairs L) \/ sel_pairs U a p) /\
    (forall p, In p (pairs U') <-> In p (pairs U) /\ ~ sel_pairs U a p)).
  { destruct a as [|l]; cbn [sel_pairs].
    - destruct (mcont U) as [|x xs] eqn:EU.
      + exists L, U. destruct (none_added f L RL) as [E1 _]. destruct (none_added f U RU) as [_ E2].
        unfold ml_round. rewrite EU, E1, E2. split; [reflexivity|]. split; [exact RL|]. split; [exact RU|].
        assert (P : pairs U = []) by (unfold pairs; now rewrite EU). rewrite P. cbn [In]. split; intro p; tauto.
      + assert (N : mcont U <> []) by (rewrite EU; discriminate).
        destruct (own_ok _ U (reachable_good _ _ RU)) as [F1 F2].
        destruct (ml_update_any _ L true (mcont U) (reachable_good _ _ RL) (or_intror N) F1) as (_ & (w1 & E1) & H1).
        destruct (ml_difference_any _ U true (mcont U) (reachable_good _ _ RU) (or_intror N) F1) as (_ & (w2 & E2) & H2).
        assert (R1 : ml_reachable (Z.of_nat f) (fst (ml_update true L (mcont U)))) by exact (mr_step _ L (MUpdate (mcont U)) RL Logic.I).
        assert (R2 : ml_reachable (Z.of_nat f) (fst (ml_difference_update true U (mcont U)))) by exact (mr_step _ U (MDiff (mcont U)) RU Logic.I).
        unfold ml_round. rewrite (proj1 (coll_as_list f L _ RL N)), (proj2 (coll_as_list f U _ RU N)).
        destruct (ml_update true L (mcont U)) as [L' r1]; destruct (ml_difference_update true U (mcont U)) as [U' r2]; cbn [fst snd] in *.
        subst r1 r2. exists L', U'. rewrite F2 in H1, H2. split; [reflexivity|]. split; [exact R1|]. split; [exact R2|].
        split; [exact H1|exact H2].
    - destruct Fi as (_ & i & j & -> & Hi & Hj). cbn [fst snd] in Hi, Hj.
      destruct (add_one f L i j RL Hj) as (L' & w1 & E1 & R1 & H1). destruct (drop_one f U i j RU Hj) as (U' & w2 & E2 & R2 & H2).
      exists L', U'. unfold ml_round. rewrite E1, E2. split; [reflexivity|]. split; [exact R1|]. split; [exact R2|].
      assert (Q1 : forall p, (exists i0 j0, [IPair i j] = [IPair i0 j0] /\ p = (i0, j0)) <-> p = (i, j)).
      { intro p. split; [intros (i0 & j0 & Q2 & ->); injection Q2 as -> ->; reflexivity|intros ->; eauto]. }
      split; intro p; rewrite Q1; auto. }
  destruct K as (L' & U' & E & R1 & R2 & H1 & H2). exists L', U'. split; [exact E|].
  assert (In1 : forall p, sel_pairs U a p -> In p (pairs L) \/ In p (pairs U)).
  { intros p Hp. destruct a as [|l]; cbn [sel_pairs] in Hp; [now right|]. destruct Fi as (_ & i & j & -> & He).
    destruct Hp as (i0 & j0 & Q1 & ->). injection Q1 as <- <-. now apply G. }
  assert (Dec : forall p, sel_pairs U a p \/ ~ sel_pairs U a p).
  { intro p. destruct a as [|l]; cbn [sel_pairs].
    - destruct (in_dec pair_dec p (pairs U)); tauto.
    - destruct Fi as (_ & i & j & -> & _). destruct (pair_dec p (i, j)) as [->|N]; [left; eauto|right].
      intros (i0 & j0 & Q1 & ->). now injection Q1 as <- <-. }
  split.
  { split; [exact R1|]. split; [exact R2|]. split.
    - intros p P1 P2. apply H1 in P1. apply H2 in P2. destruct P1 as [P1|P1]; [|tauto]. exact (D p P1 (proj1 P2)).
    - intro p. rewrite G, H1, H2. specialize (In1 p). destruct (Dec p) as [K|K]; tauto. }
  split; [exact H1|]. split; [exact H2|]. intros ->. apply (no_pairs _ _ (reachable_good _ _ R2)).
  intros p Hp. apply H2 in Hp. cbn [sel_pairs] in Hp. tauto.
Qed.

Lemma completed_ok train native complete X n f L : rows_ok n train -> has_shape X n f -> ml_reachable (Z.of_nat f) L ->
  (forall p, In p (pairs L) -> In (fst p) train) -> mcont L <> [] ->
  forall M, completed train native complete X L = Ok M -> made_from complete X train L M.
Proof.
  intros [ND IN] SX R Ht NE M E. unfold completed in E.
  destruct (map_ml_lemma (Z.of_nat f) train native L R NE ND Ht) as (c & w & m' & E1 & R1 & H1 & _). rewrite E1 in E. cbn [bind fst] in E.
  destruct (rows_at_ok X n f train SX IN) as (rows & E2 & R2 & _). rewrite E2 in E. cbn [bind] in E.
  exists rows, c. split; [exact R2|]. split; [exact E|]. split; [eauto|]. intros r j. rewrite H1. cbn [fst snd].
  split; [intros (i & K1 & K2 & K3); split; eauto|intros (K2 & i & K3 & K1); eauto].
Qed.
