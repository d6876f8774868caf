(** Property C120. *)
From Verif Require Import Base BaseFacts IndexModel MLModel MLSpec MLProps MLProofs3 OracleModel OracleSpec OracleProofs OracleProofs2 OracleProps SplitModel ToolModel GivenModel GivenSpec GivenProps MakeModel MakeSpec.
From Verif Require ThreadModel ThreadProps.
From Coq Require Import String QArith Lia.
Local Open Scope Z_scope.

(** ** Label sets *)

(** A list of indexes gives the set of the pairs it stands for, with as many labels as the label matrix has columns, or the
    given shape says; an index outside is refused. *)
Theorem C120_pairs : forall y l given m, l <> [] -> 0 < m ->
  (given = None /\ (exists Y, y = YMat Y /\ columns Y = m) \/ exists n rest, given = Some (n :: m :: rest)) ->
  (forallb (scalar_ok m) l = true ->
     exists c, tb_labels y (map ETup l) given = Ok c /\ ml_reachable m c /\ NoDup (pairs c) /\
       forall p, In p (pairs c) <-> exists x, In x l /\ denotes m x p) /\
  (forallb (scalar_ok m) l = false -> tb_labels y (map ETup l) given = Err AssertErr).
Proof.
  intros y l given m NE Hm G.
  assert (E : tb_labels y (map ETup l) given = rmap fst (ml_init (MList l) (Some m))).
  { assert (S : py_nth (label_shape y given) 1 = Ok m) by (destruct G as [(-> & Y & -> & <-)|(n & rest & ->)]; reflexivity).
    unfold tb_labels. destruct l as [|x l]; [congruence|]. cbn [map]. change (py_nth (ETup x :: map ETup l) 0) with (@Ok el (ETup x)). cbn [bind is_tup].
    rewrite S. cbn [bind as_labels]. rewrite <- (map_cons ETup), (mapM_map_ok tuple ETup (fun x => x)) by reflexivity. now rewrite map_id. }
  rewrite E. destruct (C05_construction l m NE Hm) as [A B]. split; intro H.
  - destruct (A H) as (c & w & -> & R & N & I & _). exists c. cbn. auto.
  - now rewrite (B H).
Qed.
Print Assumptions C120_pairs.

(** One-dimensional indexes, which the documentation offers, are always refused, whatever the order and the shape, though
    the class itself takes them (C07). *)
Theorem C120_flat_refuted : forall y k ks given, tb_labels y (map EKey (k :: ks)) given = Err TypeErr.
Proof. reflexivity. Qed.
Print Assumptions C120_flat_refuted.

(** An empty set cannot be made. *)
Theorem C120_empty_refuted : forall y given, tb_labels y [] given = Err IndexErr.
Proof. reflexivity. Qed.
Print Assumptions C120_empty_refuted.

(** With one label per instance the shape must be given. *)
Theorem C120_vector : forall y x l, tb_labels (YVec y) (map ETup (x :: l)) None = Err IndexErr.
Proof. reflexivity. Qed.
Print Assumptions C120_vector.

(** ** Oracles *)

Lemma latest_rows {V} (f : nat -> V) n i : forall a, (latest Z.eq_dec i (map (fun j => (Z.of_nat j, f j)) (seq a n)) =
  if (Z.of_nat a <=? i) && (i <? Z.of_nat (a + n)) then Some (f (Z.to_nat i)) else None)%Z.
Proof.
  induction n as [|n IH]; intro a; cbn [seq map latest].
  - replace (_ && _) with false by lia. reflexivity.
  - rewrite IH. destruct (Z.eq_dec (Z.of_nat a) i) as [<-|Hn].
    + replace ((Z.of_nat (S a) <=? Z.of_nat a) && _) with false by lia. 
      replace (_ && _) with true by lia. rewrite Nat2Z.id. destruct (Z.eq_dec _ _); congruence.
    + replace (S a + n)%nat with (a + S n)%nat by lia. destruct (Z.eq_dec _ _) as [X|_]; [congruence|].
      destruct ((Z.of_nat (S a) <=? i) && _) eqn:C1; destruct ((Z.of_nat a <=? i) && _) eqn:C2; auto; exfalso; lia.
Qed.

Lemma oracle_made n m y examples cost : matrix n m y -> (forall X, examples = Some X -> List.length X = n) -> usable n m cost ->
  exists o, mo_init y examples None cost = Ok o /\ answers o n m y cost.
Proof.
  intros (Hn & Hm & L & F) HX HC.
  assert (I : exists o, mo_init y examples None cost = Ok o /\ mo_m o = m).
  { unfold mo_init. destruct y as [|r y]; [cbn in L; lia|]. inversion F as [|? ? Lr F']; subst. destruct r as [|a r]; [cbn in Hm; lia|].
    set (m := List.length (a :: r)) in *. rewrite (proj2 (forallb_forall _ _)).
    2: { intros x Ix. rewrite Forall_forall in F. apply Nat.eqb_eq, F, Ix. }
    cbn [negb]. unfold mo_build. replace (same_length _ _ _ _) with true.
    - cbn [negb]. eexists. split; reflexivity.
    - symmetry. apply same_length_spec. split; [|split]; [intros X ->; now apply HX|discriminate|]. intros cs E.
      destruct cost as [|arr l|arr rows]; cbn in E; [discriminate| |]; cbn in HC.
      + rewrite HC, Nat.eqb_refl in E. injection E as <-. cbn. now rewrite repeat_length.
      + injection E as <-. rewrite map_length. apply HC. }
  destruct I as (o & E & Em). exists o. split; auto. intros ps NE P.
  apply (C22_answers _ _ _ _ _ _ [] _ _ _ E). split; [destruct ps; [congruence|discriminate]|]. split; [now rewrite !map_length|].
  rewrite Em. clear NE. induction P as [|[i j] ps [Pi Pj] P IH]; cbn [map combine]; constructor; auto. cbn [fst snd] in *.
  split; [discriminate|]. split; [cbn; rewrite andb_true_iff; lia|].
  assert (Hi : (Z.to_nat i < n)%nat) by lia. assert (Hj : (Z.to_nat j < m)%nat) by lia.
  exists (nth (Z.to_nat i) y []), (initial_cost m cost (Z.to_nat i)). split.
  - unfold row_known. cbn [ins_of pair_at fst]. unfold initial_rows. rewrite latest_rows. change (ins_of _) with i. rewrite (proj2 (Z.leb_le _ _)), (proj2 (Z.ltb_lt _ _)) by (rewrite ?L; lia). reflexivity.
  - cbn [pair_at denoted fst snd]. assert (Rl : List.length (nth (Z.to_nat i) y []) = m) by (rewrite Forall_forall in F; apply F, nth_In; lia).
    split; [|split].
    + unfold initial_cost. destruct cost as [|arr l|arr rows]; auto; cbn in HC.
      * rewrite HC, Nat.eqb_refl. eauto.
      * destruct HC as (-> & Lrows & _). rewrite (nth_error_nth' rows []) by lia. cbn. eauto.
    + constructor; [|constructor]. cbn [fst snd]. apply nth_error_nth'. exact (eq_ind_r (fun k => (Z.to_nat j < k)%nat) Hj Rl).
    + constructor; [|constructor]. cbn [fst snd]. unfold initial_cost, price. cbn [fst snd]. destruct cost as [|arr l|arr rows]; cbn in HC; cbn.
      * reflexivity.
      * rewrite HC, Nat.eqb_refl. cbn. apply nth_error_nth'. lia.
      * destruct HC as (-> & Lrows & Fr). rewrite (nth_error_nth' rows []) by lia. cbn. apply nth_error_nth'.
        rewrite Forall_forall in Fr. rewrite Fr; [lia|]. apply nth_In. lia.
Qed.

(** The oracle of a toolbox with a label matrix answers with the labels at cost 1: a cost matrix is dropped. *)
Theorem C120_oracle : forall P (b : tbox P) n m y cost, b_query b = AllLabels -> b_y b = YMat y -> matrix n m y ->
  exists o, tb_matrix_oracle b false cost = Ok (Some o) /\ answers o n m y MCNone.
Proof.
  intros P b n m y cost Q Y M. unfold tb_matrix_oracle. rewrite Q, Y.
  destruct (oracle_made n m y None MCNone M) as (o & -> & A); [discriminate|exact I|]. exists o. auto.
Qed.
Print Assumptions C120_oracle.

(** Asked for with examples it uses the costs, but no question by example is ever answered. *)
Theorem C120_oracle_examples_refuted : forall P (b : tbox P) n m y X cost,
  b_query b = AllLabels -> b_y b = YMat y -> matrix n m y -> b_X b = Some X -> List.length X = n -> usable n m cost ->
  exists o, tb_matrix_oracle b true cost = Ok (Some o) /\ answers o n m y cost /\ forall qs, exists e, mo_query_ex o qs = Err e.
Proof.
  intros P b n m y X cost Q Y M EX LX U. unfold tb_matrix_oracle. rewrite Q, Y, EX.
  destruct (oracle_made n m y (Some X) cost M) as (o & -> & A); [intros X' E; now injection E as <-|auto|]. exists o. split; auto. split; auto.
  intro qs. apply C21_multilabel_refuted.
Qed.
Print Assumptions C120_oracle_examples_refuted.

(** The oracle of a toolbox that asks for features answers with the features, at the given costs. *)
Theorem C120_features : forall P (b : tbox P) n d X ex cost, b_query b = Features -> b_X b = Some X -> matrix n d X -> usable n d cost ->
  exists o, tb_matrix_oracle b ex cost = Ok (Some o) /\ answers o n d X cost.
Proof.
  intros P b n d X ex cost Q EX M U. unfold tb_matrix_oracle. rewrite Q, EX.
  destruct (oracle_made n d X None cost M) as (o & -> & A); [discriminate|auto|]. exists o. auto.
Qed.
Print Assumptions C120_features.

(** ** Threaded experiments *)

Lemma els_instances l : mapM el_of (instances l) = Ok (map (fun i => EKey (KInt i)) l).
Proof. unfold instances. now rewrite (mapM_map_ok el_of (fun i => Scalar (KInt i)) (fun i => EKey (KInt i))). Qed.
Lemma els_elements l : mapM el_of (elements l) = Ok (map ETup (map pair_at l)).
Proof. unfold elements. rewrite (mapM_map_ok el_of (fun p => Tup [fst p; snd p]) (fun p => ETup (pair_at p))) by reflexivity. now rewrite map_map. Qed.

Lemma fold_instances l i : nth i (map instances l) [] = instances (nth i l []).
Proof. exact (map_nth instances l [] i). Qed.
Lemma fold_elements l i : nth i (map elements l) [] = elements (nth i l []).
Proof. exact (map_nth elements l [] i). Qed.
Lemma mapM_seq {A} (f : nat -> res A) (Pr : nat -> A -> Prop) n :
  (forall i, (i < n)%nat -> exists a, f i = Ok a /\ Pr i a) ->
  exists l, mapM f (seq 0 n) = Ok l /\ List.length l = n /\ forall i a, nth_error l i = Some a -> Pr i a.
Proof.
  intro H. assert (G : forall k s, (s + k <= n)%nat -> exists l, mapM f (seq s k) = Ok l /\ List.length l = k /\ forall i a, nth_error l i = Some a -> Pr (s + i)%nat a).
  { induction k as [|k IH]; intros s Hs; [exists []; cbn; repeat split; auto; intros [|i] a; discriminate|].
    destruct (H s ltac:(lia)) as (a & Ea & Pa). destruct (IH (S s) ltac:(lia)) as (l & El & Ll & Pl). exists (a :: l). cbn. rewrite Ea. cbn. rewrite El. cbn.
    split; auto. split; [lia|]. intros [|i] b Eb; cbn in Eb; [injection Eb as <-; now rewrite Nat.add_0_r|]. rewrite Nat.add_succ_r. now apply (Pl i b). }
  destruct (G n 0%nat ltac:(lia)) as (l & E & L & P). exists l. auto.
Qed.

Lemma threads_made (b : stored) q Pr : b_flag b = true -> b_split b = Some q -> even q ->
  (forall i, (i < List.length (q_label q))%nat -> exists r, make_round (b_y b) q i = Ok r /\ Pr i r) ->
  exists rs, List.length rs = List.length (q_label q) /\ (forall i r, nth_error rs i = Some r -> Pr i r) /\
    tb_threads b None None = Ok (rs, Z.of_nat (List.length (q_label q))) /\
    forall k, tb_threads b None (Some k) = if 0 <? k then Ok (rs, k) else Err AssertErr.
Proof.
  intros Fl Sp (E1 & E2 & E3) H. destruct (mapM_seq _ _ _ H) as (rs & E & L & Prs). exists rs. split; auto. split; auto.
  unfold tb_threads. rewrite Fl, Sp, E1, E2, E3, !Nat.eqb_refl. cbn [guard bind andb]. rewrite E. cbn [bind]. split; auto.
  intro k. destruct (0 <? k); reflexivity.
Qed.

(** With one label per instance every round gets the training and testing instances of its fold and the two sets of
    instances of its fold; as many threads as folds, or as given. *)
Theorem C120_threads : forall (b : stored) q y lab unl, b_flag b = true -> b_split b = Some q -> even q -> b_y b = YVec y ->
  q_label q = map instances lab -> q_unlabel q = map instances unl ->
  exists rs, List.length rs = List.length lab /\
    (forall i r, nth_error rs i = Some r ->
       nth_error (q_train q) i = Some (r_train r) /\ nth_error (q_test q) i = Some (r_test r) /\
       exists l u, r_label r = MIdx l /\ r_unlabel r = MIdx u /\ holds_instances l (nth i lab []) /\ holds_instances u (nth i unl [])) /\
    tb_threads b None None = Ok (rs, Z.of_nat (List.length lab)) /\
    forall k, tb_threads b None (Some k) = if 0 <? k then Ok (rs, k) else Err AssertErr.
Proof.
  intros b q y lab unl Fl Sp Ev Y EL EU.
  assert (LL : List.length (q_label q) = List.length lab) by now rewrite EL, map_length. rewrite <- LL. apply threads_made; auto.
  intros i Hi. destruct Ev as (E1 & E2 & E3). unfold make_round, py_nth. rewrite (nth_error_nth' (q_train q) []), (nth_error_nth' (q_test q) []) by lia.
  rewrite (nth_error_nth' (q_label q) []), (nth_error_nth' (q_unlabel q) []) by lia. cbn [bind]. rewrite EL, EU.
  rewrite !fold_instances, !els_instances. cbn [bind]. destruct (C114_instances (nth i lab []) (nth i unl [])) as (l & u & Hl & Hu & _ & T).
  specialize (T (y_columns (b_y b))). unfold numbers in T. rewrite T. cbn [bind fst snd]. eexists. split; [reflexivity|]. cbn.
  split; auto. split; auto. exists l, u. auto.
Qed.
Print Assumptions C120_threads.

(** With a label matrix every round gets the two sets of pairs of its fold. *)
Theorem C120_threads_pairs : forall (b : stored) q n m y lab unl, b_flag b = true -> b_split b = Some q -> even q -> b_y b = YMat y -> matrix n m y ->
  q_label q = map elements lab -> q_unlabel q = map elements unl ->
  (forall l, In l (lab ++ unl) -> l <> [] /\ Forall (fun p => 0 <= snd p < Z.of_nat m) l) ->
  exists rs, List.length rs = List.length lab /\
    (forall i r, nth_error rs i = Some r ->
       nth_error (q_train q) i = Some (r_train r) /\ nth_error (q_test q) i = Some (r_test r) /\
       exists l u, r_label r = MMl l /\ r_unlabel r = MMl u /\ NoDup (pairs l) /\ NoDup (pairs u) /\
         (forall p, In p (pairs l) <-> In p (nth i lab [])) /\ (forall p, In p (pairs u) <-> In p (nth i unl []))) /\
    tb_threads b None None = Ok (rs, Z.of_nat (List.length lab)) /\
    forall k, tb_threads b None (Some k) = if 0 <? k then Ok (rs, k) else Err AssertErr.
Proof.
  intros b q n m y lab unl Fl Sp Ev Y M EL EU H.
  assert (LL : List.length (q_label q) = List.length lab) by now rewrite EL, map_length.
  assert (LU : List.length (q_unlabel q) = List.length unl) by now rewrite EU, map_length. rewrite <- LL. apply threads_made; auto.
  intros i Hi. destruct Ev as (E1 & E2 & E3). unfold make_round, py_nth. rewrite (nth_error_nth' (q_train q) []), (nth_error_nth' (q_test q) []) by lia.
  rewrite (nth_error_nth' (q_label q) []), (nth_error_nth' (q_unlabel q) []) by lia. cbn [bind]. rewrite EL, EU.
  rewrite !fold_elements, !els_elements. cbn [bind]. rewrite Y. cbn [y_columns].
  assert (C : columns y = Z.of_nat m).
  { destruct M as (Hn & Hm & L & F). unfold columns. destruct y as [|r y']; [cbn in L; lia|]. inversion F; subst. reflexivity. }
  rewrite C. destruct M as (Hn & Hm & _).
  destruct (H (nth i lab [])) as [N1 F1]; [apply in_or_app; left; apply nth_In; lia|].
  destruct (H (nth i unl [])) as [N2 F2]; [apply in_or_app; right; apply nth_In; lia|].
  destruct (C114_threads_pairs (Z.of_nat m) (map pair_at (nth i lab [])) (map pair_at (nth i unl []))) as [T _]; [lia|..].
  { destruct (nth i lab []); [congruence|discriminate]. }
  { destruct (nth i unl []); [congruence|discriminate]. }
  destruct T as (l & u & T & _ & _ & Hl & Hu).
  { apply forallb_forall. intros x Ix. apply in_app_or in Ix. rewrite Forall_forall in F1, F2.
    assert (K : exists p, x = pair_at p /\ 0 <= snd p < Z.of_nat m) by (destruct Ix as [Ix|Ix]; apply in_map_iff in Ix; destruct Ix as (p & <- & Ip); eauto).
    destruct K as (p & -> & Hp). cbn. rewrite andb_true_iff. lia. }
  unfold tuples in T. rewrite T. cbn [bind fst snd]. eexists. split; [reflexivity|]. cbn. split; auto. split; auto. exists l, u. split; auto. split; auto.
  assert (K : forall c s, holds_pairs (Z.of_nat m) c (map pair_at s) -> NoDup (pairs c) /\ forall p, In p (pairs c) <-> In p s).
  { intros c s (_ & N & _ & I). split; auto. intro p. rewrite I. split.
    - intros (x & Ix & D). apply in_map_iff in Ix. destruct Ix as ([a b0] & <- & Ip). cbn in D. destruct p. cbn in D. intuition congruence.
    - intro Ip. exists (pair_at p). split; [now apply in_map|]. destruct p. cbn. auto. }
  destruct (K _ _ Hl), (K _ _ Hu). auto.
Qed.
Print Assumptions C120_threads_pairs.

(** A toolbox that asks for features cannot run in threads when it has one label per instance. *)
Theorem C120_threads_features_refuted : forall (b : stored) q y lab unl target k, b_flag b = true -> b_split b = Some q -> even q -> b_y b = YVec y ->
  q_label q = map elements lab -> q_unlabel q = map elements unl -> lab <> [] -> (forall l, In l (lab ++ unl) -> l <> []) ->
  tb_threads b target k = Err AssertErr.
Proof.
  intros b q y lab unl target k Fl Sp (E1 & E2 & E3) Y EL EU NE H.
  assert (LL : List.length (q_label q) = List.length lab) by now rewrite EL, map_length.
  assert (LU : List.length (q_unlabel q) = List.length unl) by now rewrite EU, map_length.
  unfold tb_threads. rewrite Fl, Sp, E1, E2, E3, !Nat.eqb_refl. cbn [guard bind andb]. rewrite LL in *.
  assert (Pos : (0 < List.length lab)%nat) by (destruct lab; [congruence|cbn; lia]).
  destruct (List.length lab) as [|n] eqn:En; [lia|]. cbn [seq mapM].
  assert (R : make_round (b_y b) q 0 = Err AssertErr); [|now rewrite R].
  unfold make_round, py_nth. rewrite (nth_error_nth' (q_train q) []), (nth_error_nth' (q_test q) []) by lia.
  rewrite (nth_error_nth' (q_label q) []), (nth_error_nth' (q_unlabel q) []) by lia. cbn [bind]. rewrite EL, EU.
  rewrite !fold_elements, !els_elements. cbn [bind]. rewrite Y. cbn [y_columns].
  destruct (C114_threads_features_refuted (map pair_at (nth 0 lab [])) (map pair_at (nth 0 unl []))) as [T _].
  { assert (K : nth 0 lab [] <> []) by (apply H, in_or_app; left; apply nth_In; lia). destruct (nth 0 lab []); [congruence|discriminate]. }
  { assert (K : nth 0 unl [] <> []) by (apply H, in_or_app; right; apply nth_In; lia). destruct (nth 0 unl []); [congruence|discriminate]. }
  unfold tuples in T. now rewrite T.
Qed.
Print Assumptions C120_threads_features_refuted.

(** Without features, or without a split, there is no threaded experiment; nor with a function that lacks a parameter. *)
Theorem C120_threads_refused : forall (b : stored) target k,
  (b_flag b = false \/ b_split b = None -> tb_threads b target k = Err GenericErr) /\
  (forall names w rs kk, target = Some names ->
     In w ["round"; "train_id"; "test_id"; "Ucollection"; "Lcollection"; "saver"; "examples"; "labels"; "global_parameters"]%string -> ~ In w names ->
     tb_threads b target k <> Ok (rs, kk)).
Proof.
  intros b target k. split.
  - unfold tb_threads. intros [->| ->]; auto. now destruct (b_flag b).
  - intros names w rs kk -> Iw Nw E. unfold tb_threads in E. destruct (guard (b_flag b) GenericErr); [|discriminate]. cbn [bind] in E.
    destruct (b_split b) as [q|]; [|discriminate]. destruct (guard _ AssertErr); [|discriminate]. cbn [bind] in E.
    destruct (mapM _ _); [|discriminate]. cbn [bind] in E. destruct (match k with Some _ => _ | None => _ end); [|discriminate]. cbn [bind] in E.
    destruct (ThreadModel.set_target_function names) as [[]|e] eqn:S; [|discriminate].
    destruct ThreadProps.C45_checks as (C & _). pose proof (proj1 (C names) S w Iw). auto.
Qed.
Print Assumptions C120_threads_refused.

Definition ybox (q : qtype) (y : ylab) (s : option (quad (list (list item)))) : stored :=
  {| b_y := y; b_X := Some [[3; 4; 5]; [6; 7; 8]]; b_flag := true; b_names := []; b_query := q; b_split := s; b_count := Some 1; b_path := None |}.
Example C120_case_pairs : exists c, tb_labels (YMat [[1; 0]; [0; 1]]) [ETup (IPair 0 1); ETup (IOne 1)] None = Ok c /\ pairs c = [(0, 1); (1, 0); (1, 1)].
Proof. eexists. split; reflexivity. Qed.
Example C120_case_class : exists c w, ml_construct_1d [1; 2] 2 2 OrdF = Ok (c, w) /\ pairs c = [(1, 0); (0, 1)].
Proof. do 2 eexists. split; reflexivity. Qed.
Example C120_case_oracle : exists o, tb_matrix_oracle (ybox AllLabels (YMat [[1; 0]; [0; 1]]) None) false (MCVec true [5; 6]%Q) = Ok (Some o) /\
  mo_query o [IPair 0 1; IPair 1 1] = Ok ([[0]; [1]], [[1]; [1]]%Q).
Proof. eexists. split; reflexivity. Qed.
Example C120_case_matrix : matrix 2 2 [[1; 0]; [0; 1]] /\ usable 2 2 (MCVec true [5; 6]%Q).
Proof. repeat split; try (cbn; lia). repeat constructor. Qed.
Example C120_case_features : exists o, tb_matrix_oracle (ybox Features (YVec [1; 0]) None) false (MCVec true [5; 6; 7]%Q) = Ok (Some o) /\
  mo_query o [IPair 1 2] = Ok ([[8]], [[7]]%Q).
Proof. eexists. split; reflexivity. Qed.
Definition qsplit (l u : list item) : quad (list (list item)) :=
  {| q_train := [instances [0; 1]]; q_test := [instances []]; q_label := [l]; q_unlabel := [u] |}.
Example C120_case_threads : exists rs, tb_threads (ybox AllLabels (YVec [1; 0]) (Some (qsplit (instances [0]) (instances [1])))) None None = Ok (rs, 1) /\ List.length rs = 1%nat.
Proof. eexists. split; reflexivity. Qed.
Example C120_case_threads_features :
  tb_threads (ybox Features (YVec [1; 0]) (Some (qsplit (elements [(0, 0)]) (elements [(1, 1)])))) None None = Err AssertErr.
Proof. reflexivity. Qed.
