(** Theorems about the random and the greedy strategies and QUIRE: C49, C50, C51 and C69. *)
From Verif Require Import Base BaseFacts IndexModel MLModel MLProofs MLProofs2 SplitModel SplitSpec SplitProofs MiscModel MiscSpec MiscProofs MiscProps
  QueryModel QuerySpec QueryProofs QueryProofs2 QueryProofs3 QueryProofs4 QueryNumpy QueryProofs5.
From Coq Require Import QArith Qabs Lqa.
Local Open Scope Z_scope.

(** ** C49 *)

Lemma take_perm {A} (l : list A) ps : NoDup ps -> (forall p, In p ps -> (p < length l)%nat) ->
  exists sel, take l ps = Ok sel /\ length sel = length ps /\ (forall x, In x sel -> In x l) /\ (NoDup l -> NoDup sel).
Proof.
  intros ND B. destruct (take_ok l ps B) as (sel & E & F). exists sel. split; [auto|]. split; [symmetry; eapply Forall2_length_eq; eauto|]. split.
  - clear - F. induction F as [|p x ps sel E F IH]; intros y []; auto. subst y. eapply nth_error_In; eauto.
  - intro NL. clear - ND F NL. induction F as [|p x ps sel E F IH]; [constructor|]. inversion ND as [|? ? N1 N2]; subst. constructor; auto.
    intro J. apply N1. clear - F J E NL. induction F as [|q y ps sel E' F IH]; [destruct J|]. destruct J as [->|J]; [left|right; auto].
    apply (proj1 (NoDup_nth_error l) NL); [apply nth_error_Some; congruence|congruence].
Qed.

Lemma draw {A} (l : list A) batch sh : shuffle (length l) sh -> 0 <= batch <= Z.of_nat (length l) ->
  exists perm sel, randperm (Z.of_nat (length l) - 1) (Some batch) sh = Ok perm /\ take l perm = Ok sel /\
    length sel = Z.to_nat batch /\ (forall x, In x sel -> In x l) /\ (NoDup l -> NoDup sel).
Proof.
  intros S B. unfold randperm. destruct (Z.gtb_spec batch (Z.of_nat (length l) - 1 + 1)); [lia|]. exists (py_slice_to sh batch).
  assert (LS : length sh = length l) by (rewrite (Permutation_length S), seq_length; auto).
  destruct (take_perm l (py_slice_to sh batch)) as (sel & E & LE & I & N).
  - apply slice_to_NoDup. eapply Permutation_NoDup; [symmetry; exact S|apply seq_NoDup].
  - intros p J. apply slice_to_sub, (Permutation_in _ S), in_seq in J. lia.
  - exists sel. split; [reflexivity|]. split; [auto|]. split; [|auto]. rewrite LE. unfold py_slice_to. destruct (Z.ltb_spec batch 0); [lia|]. rewrite firstn_length. lia.
Qed.

(** Instances from a collection: whatever the shuffle gives. *)
Theorem C49_instances : forall (A : Type) (l : list A) batch sh, NoDup l -> 0 <= batch -> shuffle (length l) sh ->
  exists sel, random_select (PColl l) batch sh = Ok sel /\
    Z.of_nat (length sel) = Z.min batch (Z.of_nat (length l)) /\ NoDup sel /\ forall x, In x sel -> In x l.
Proof.
  intros A l batch sh ND B S. unfold random_select, items. destruct (Z.leb_spec (Z.of_nat (length l)) batch).
  - exists l. repeat split; auto. lia.
  - destruct (draw l batch sh S ltac:(lia)) as (perm & sel & E1 & E2 & L & I & N). rewrite E1. cbn [bind]. rewrite E2. exists sel. repeat split; auto. lia.
Qed.
Print Assumptions C49_instances.

(** Every choice is possible: any arrangement of [batch] different members is what some shuffle gives. *)
Theorem C49_any : forall (A : Type) (l sel : list A), NoDup sel -> (forall x, In x sel -> In x l) -> (length sel < length l)%nat ->
  exists sh, shuffle (length l) sh /\ random_select (PColl l) (Z.of_nat (length sel)) sh = Ok sel.
Proof.
  intros A l sel ND I L.
  assert (P : exists ps, NoDup ps /\ Forall2 (fun p x => nth_error l p = Some x) ps sel).
  { clear L. induction sel as [|x sel IH]; [exists []; split; constructor|]. inversion ND as [|? ? N1 N2]; subst.
    destruct IH as (ps & NP & F); [auto|intros y J; apply I; now right|]. destruct (In_nth_error _ _ (I x (or_introl eq_refl))) as [p E].
    exists (p :: ps). split; constructor; auto. intro J. apply N1. clear - F J E. induction F as [|q y ps sel E' F IH]; [destruct J|].
    destruct J as [->|J]; [left; congruence|right; auto]. }
  destruct P as (ps & NP & F). pose proof (Forall2_length_eq _ _ _ F) as LE.
  set (rest := filter (fun p => negb (existsb (Nat.eqb p) ps)) (seq 0 (length l))). exists (ps ++ rest).
  assert (S : shuffle (length l) (ps ++ rest)).
  { unfold shuffle. apply NoDup_Permutation.
    - apply NoDup_app_intro; auto; [apply NoDup_filter, seq_NoDup|]. intros p J K. apply filter_In in K. destruct K as [_ K].
      apply negb_true_iff in K. assert (existsb (Nat.eqb p) ps = true) by (apply existsb_exists; exists p; split; [auto|apply Nat.eqb_refl]). congruence.
    - apply seq_NoDup.
    - intro p. rewrite in_app_iff. unfold rest. rewrite filter_In. split.
      + intros [J|[J _]]; auto. apply in_seq. split; [lia|]. clear - F J. induction F as [|q y ps sel E' F IH]; [destruct J|]. destruct J as [->|J]; auto.
        apply nth_error_Some. congruence.
      + intro J. destruct (existsb (Nat.eqb p) ps) eqn:E; [|right; auto]. left. apply existsb_exists in E. destruct E as (q & Q & EQ). apply Nat.eqb_eq in EQ. now subst. }
  split; [auto|]. unfold random_select, items, randperm. destruct (Z.leb_spec (Z.of_nat (length l)) (Z.of_nat (length sel))); [lia|].
  destruct (Z.gtb_spec (Z.of_nat (length sel)) (Z.of_nat (length l) - 1 + 1)); [lia|]. cbn [bind]. unfold py_slice_to. destruct (Z.ltb_spec (Z.of_nat (length sel)) 0); [lia|].
  rewrite Nat2Z.id, <- LE, firstn_app, firstn_all, Nat.sub_diag. cbn [firstn]. rewrite app_nil_r.
  clear - F. unfold take. induction F as [|p x ps sel E F IH]; [reflexivity|]. cbn [mapM]. unfold py_nth at 1. rewrite E. cbn [bind]. rewrite IH. reflexivity.
Qed.
Print Assumptions C49_any.

(** The documentation allows any iterable; a list and an array fail as soon as a real choice is to be made. *)
Theorem C49_iterable_refuted : forall (A : Type) (l : list A) batch sh, shuffle (length l) sh -> 0 <= batch < Z.of_nat (length l) ->
  random_select (PList l) batch sh = Err TypeErr /\ random_select (PArray l) batch sh = Err AttrErr.
Proof.
  intros A l batch sh S B. unfold random_select, items, randperm. destruct (Z.leb_spec (Z.of_nat (length l)) batch); [lia|].
  destruct (Z.gtb_spec batch (Z.of_nat (length l) - 1 + 1)); [lia|]. split; reflexivity.
Qed.
Print Assumptions C49_iterable_refuted.

(** Instance-label pairs, and whole instances that have an entry in the collection. *)
Theorem C49_multi_label : forall n m c batch sh, NoDup (mcont c) -> 0 <= batch < Z.of_nat (length (mcont c)) ->
  (shuffle (length (mcont c)) sh ->
   exists sel, ml_random n m (MPColl c) batch TInsLab sh = Ok (Chosen sel) /\
     Z.of_nat (length sel) = batch /\ NoDup sel /\ forall x, In x sel -> In x (mcont c)) /\
  (shuffle (length (ml_instance_index c)) sh -> batch <= Z.of_nat (length (ml_instance_index c)) ->
   exists sel, ml_random n m (MPColl c) batch TIns sh = Ok (Chosen (map IOne sel)) /\
     Z.of_nat (length sel) = batch /\ NoDup sel /\ forall i, In i sel -> exists x, In x (mcont c) /\ ins_of x = i).
Proof.
  intros n m c batch sh ND B. unfold ml_random, ml_pool_len. destruct (Z.leb_spec (Z.of_nat (length (mcont c))) batch); [lia|]. cbn [check_ml_ind bind]. split.
  - intro S. destruct (draw (mcont c) batch sh S ltac:(lia)) as (perm & sel & E1 & E2 & L & I & N). rewrite E1. cbn [bind]. rewrite E2. cbn [bind].
    exists sel. repeat split; auto. lia.
  - intros S LE. rewrite map_length. destruct (draw (ml_instance_index c) batch sh S ltac:(lia)) as (perm & sel & E1 & E2 & L & I & N). rewrite E1. cbn [bind].
    assert (E3 : take (map IOne (ml_instance_index c)) perm = Ok (map IOne sel)).
    { clear - E2. revert sel E2. unfold take. induction perm as [|p perm IH]; intros sel E; cbn [mapM] in *; [injection E as <-; reflexivity|].
      unfold py_nth at 1 in E. unfold py_nth at 1. rewrite nth_error_map. destruct (nth_error (ml_instance_index c) p) as [x|]; cbn in *; [|discriminate].
      destruct (mapM (py_nth (ml_instance_index c)) perm) as [r|e]; cbn in E; [|discriminate]. injection E as <-. rewrite (IH r eq_refl). reflexivity. }
    rewrite E3. cbn [bind]. exists sel. split; [reflexivity|]. split; [lia|]. split; [apply N, zunique_NoDup|].
    intros i J. apply I in J. unfold ml_instance_index in J. apply zunique_in, in_map_iff in J. destruct J as (x & <- & J). eauto.
Qed.
Print Assumptions C49_multi_label.

(** Asked for whole instances, the strategy counts pairs to decide whether there are enough of them: with
    fewer instances than asked for but more pairs it fails, and with no more pairs it returns the pool. *)
Theorem C49_whole_instances_refuted : forall n m c batch sh,
  (Z.of_nat (length (ml_instance_index c)) < batch < Z.of_nat (length (mcont c)) -> ml_random n m (MPColl c) batch TIns sh = Err ValueErr) /\
  (Z.of_nat (length (mcont c)) <= batch -> forall t, t <> TOther -> ml_random n m (MPColl c) batch t sh = Ok TheRest) /\
  (forall p, ml_random n m p batch TOther sh = Err ValueErr).
Proof.
  intros n m c batch sh. unfold ml_random, ml_pool_len. split; [|split].
  - intro B. destruct (Z.leb_spec (Z.of_nat (length (mcont c))) batch); [lia|]. cbn [check_ml_ind bind]. rewrite map_length. unfold randperm.
    destruct (Z.gtb_spec batch (Z.of_nat (length (ml_instance_index c)) - 1 + 1)); [reflexivity|lia].
  - intros B t T. destruct (Z.leb_spec (Z.of_nat (length (mcont c))) batch); [|lia]. destruct t; [reflexivity|reflexivity|contradiction].
  - reflexivity.
Qed.
Print Assumptions C49_whole_instances_refuted.

(** Non-vacuity. *)
Example C49_case : shuffle 4 [2; 0; 3; 1]%nat /\
  random_select (PColl [10; 20; 30; 40]) 2 [2; 0; 3; 1]%nat = Ok [30; 10] /\
  (let c := {| mcont := [IPair 5 0; IPair 5 1; IPair 7 1; IPair 2 0]; is_set := true; lsize := Some 2 |} in
   ml_random 9 2 (MPColl c) 2 TInsLab [2; 0; 3; 1]%nat = Ok (Chosen [IPair 7 1; IPair 5 0]) /\
   ml_random 9 2 (MPColl c) 2 TIns [2; 0; 1]%nat = Ok (Chosen [IOne 7; IOne 2]) /\
   ml_random 9 2 (MPColl {| mcont := [IPair 5 0; IPair 5 1; IPair 5 2; IPair 2 0]; is_set := true; lsize := Some 3 |}) 3 TIns [0; 1]%nat = Err ValueErr).
Proof.
  split; [|repeat split; reflexivity]. unfold shuffle. cbn. apply NoDup_Permutation.
  - repeat constructor; cbn; intuition lia.
  - repeat constructor; cbn; intuition lia.
  - intro x. cbn. intuition.
Qed.

(** ** C50 *)

(** The states of a strategy object: new, or after a call in which everything labelled or picked before is
    labelled. [K] is what was labelled or picked up to now. *)
Inductive core_history (train : list Z) (dist : nat -> nat -> Q) : coreset -> list Z -> Prop :=
| ch_new : core_history train dist {| ctrain := train; cdist := dist; min_distances := None; already_selected := [] |} []
| ch_call s K L U batch s' got :
    core_history train dist s K -> split_into train L U -> L <> [] -> (forall x, In x K -> In x L) ->
    0 <= batch <= Z.of_nat (length U) -> coreset_select s L U batch = (s', Ok got) ->
    core_history train dist s' (L ++ got).

Lemma ff_rest dist n C ps : farthest_first dist n C ps -> NoDup ps /\ forall p, In p ps -> (p < n)%nat /\ ~ In p C.
Proof.
  induction 1 as [C|C p ps P N M F [ND I]]; [split; [constructor|intros p []]|]. split.
  - constructor; auto. intro J. apply I in J. apply J. now left.
  - intros q [<-|J]; auto. apply I in J. split; [tauto|]. intro K. apply J. now right.
Qed.

Lemma core_history_inv train dist s K : NoDup train ->
  (forall p q, (p < length train)%nat -> (q < length train)%nat -> (- (100) < dist p q)%Q) -> core_history train dist s K ->
  ctrain s = train /\ cdist s = dist /\ exists C, ((fresh s /\ C = []) \/ centred s C) /\ forall p, In p C -> exists x, nth_error train p = Some x /\ In x K.
Proof.
  intros ND POS H. induction H as [|s K L U batch s' got H IH SP NE KL B E].
  - split; [reflexivity|]. split; [reflexivity|]. exists []. split; [left; split; [split; reflexivity|auto]|intros p []].
  - destruct IH as (ET & ED & C & ST & CK).
    destruct (located_all train L) as [ps LOC]; [intros x J; apply SP; now left|].
    assert (CP : forall p, In p C -> In p ps).
    { intros p J. destruct (CK p J) as (x & EX & XK). apply (located_in train L ps ND LOC p x EX). auto. }
    destruct (coreset_ok train dist s C L U ps batch ET ED ST SP LOC NE CP POS B) as (s2 & new & EQ & LN & FF & ET2 & ED2 & AS & CE).
    rewrite E in EQ. injection EQ as <- ->. split; [auto|]. split; [auto|]. exists (rev new ++ ps). split; [now right|].
    intros p J. apply in_app_iff in J. destruct J as [J|J].
    + apply in_rev in J. destruct (ff_rest _ _ _ _ FF) as [_ I]. destruct (I p J) as [PL _]. exists (nth p train 0). split; [now apply nth_error_nth'|].
      apply in_app_iff. right. now apply (in_map (fun p => nth p train 0)).
    + pose proof (located_lt _ _ _ LOC p J) as PL. exists (nth p train 0). assert (EX : nth_error train p = Some (nth p train 0)) by now apply nth_error_nth'.
      split; auto. apply in_app_iff. left. now apply (located_in train L ps ND LOC p _ EX).
Qed.

(** In every round, from every state that earlier rounds can leave: [batch] different unlabelled points, each
    the farthest from everything labelled or picked before it. *)
Theorem C50_rounds : forall train dist s K L U batch,
  (forall p q, (p < length train)%nat -> (q < length train)%nat -> (- (100) < dist p q)%Q) ->
  core_history train dist s K -> split_into train L U -> L <> [] -> (forall x, In x K -> In x L) -> 0 <= batch <= Z.of_nat (length U) ->
  exists s' got ps new, coreset_select s L U batch = (s', Ok got) /\
    Z.of_nat (length got) = batch /\ NoDup got /\ (forall x, In x got -> In x U) /\
    located train L ps /\ located train got new /\ farthest_first dist (length train) ps new.
Proof.
  intros train dist s K L U batch POS H SP NE KL B. pose proof SP as (ND & NU & IN & DJ).
  destruct (core_history_inv train dist s K ND POS H) as (ET & ED & C & ST & CK).
  destruct (located_all train L) as [ps LOC]; [intros x J; apply IN; now left|].
  assert (CP : forall p, In p C -> In p ps).
  { intros p J. destruct (CK p J) as (x & EX & XK). apply (located_in train L ps ND LOC p x EX). auto. }
  destruct (coreset_ok train dist s C L U ps batch ET ED ST SP LOC NE CP POS B) as (s' & new & EQ & LN & FF & _).
  destruct (ff_rest _ _ _ _ FF) as [NN NI]. destruct (located_map train new) as (got & LG & EG); [intros p J; now apply NI|]. rewrite <- EG in EQ.
  exists s', got, ps, new. split; [auto|]. pose proof (Forall2_length_eq _ _ _ LG) as LL. split; [lia|].
  assert (GU : forall x, In x got -> In x U).
  { intros x J. clear - LG J NI SP LOC ND. induction LG as [|y p got new E F IH]; [destruct J|]. destruct J as [->|J]; [|apply IH; auto; intros q Q0; apply NI; now right].
    apply (split_positions _ _ _ _ SP LOC p x E). apply NI. now left. }
  split; [|split; [exact GU|split; [auto|split; auto]]].
  clear - LG NN ND. induction LG as [|y p got new E F IH]; [constructor|]. inversion NN as [|? ? N1 N2]; subst. constructor; auto.
  intro J. apply N1. apply (located_in train got new ND F p y E). auto.
Qed.
Print Assumptions C50_rounds.

(** Asked for more points than are unlabelled, it gives the first training point again and again if that one
    was unlabelled, and fails an assertion otherwise. *)
Lemma coreset_loop_app a b : forall s U nb, coreset_loop (a + b) s U nb =
  match coreset_loop a s U nb with (s', Ok nb') => coreset_loop b s' U nb' | r => r end.
Proof.
  induction a as [|a IH]; intros s U nb; [reflexivity|]. cbn [Nat.add coreset_loop].
  destruct (match min_distances s with None => Err TypeErr | Some d => argmax d end) as [ind|e]; [|reflexivity].
  destruct (mem ind (already_selected s)); [reflexivity|]. destruct (nth_error (ctrain s) ind); [|reflexivity].
  destruct (negb (existsb (Z.eqb z) U)); [reflexivity|]. apply IH.
Qed.

Theorem C50_oversize_refuted : forall train dist s K L U batch,
  (forall p q, (p < length train)%nat -> (q < length train)%nat -> (- (100) < dist p q)%Q) ->
  core_history train dist s K -> split_into train L U -> L <> [] -> (forall x, In x K -> In x L) -> Z.of_nat (length U) < batch ->
  exists s', 
    (In (hd 0 train) L -> coreset_select s L U batch = (s', Err AssertErr)) /\
    (~ In (hd 0 train) L -> exists got, Permutation got U /\
       coreset_select s L U batch = (s', Ok (got ++ repeat (hd 0 train) (Z.to_nat batch - length U)))).
Proof.
  intros train dist s K L U batch POS H SP NE KL B. pose proof SP as (ND & NU & IN & DJ).
  destruct (core_history_inv train dist s K ND POS H) as (ET & ED & C & ST & CK).
  destruct (located_all train L) as [ps LOC]; [intros x J; apply IN; now left|].
  assert (CP : forall p, In p C -> In p ps).
  { intros p J. destruct (CK p J) as (x & EX & XK). apply (located_in train L ps ND LOC p x EX). auto. }
  destruct (coreset_ok train dist s C L U ps (Z.of_nat (length U)) ET ED ST SP LOC NE CP POS ltac:(lia)) as (s1 & new & EQ & LN & FF & ET1 & ED1 & AS1 & CE1).
  rewrite Nat2Z.id in LN. destruct (positions_left _ _ _ _ SP LOC) as (us & P & NDU & USI). pose proof (Permutation_length P) as PL. rewrite map_length in PL.
  destruct (ff_rest _ _ _ _ FF) as [NN NI].
  assert (PN : Permutation new us).
  { apply NoDup_Permutation_bis; auto; [lia|]. intros p J. apply USI. now apply NI. }
  assert (ALL : forall p, In p (rev new ++ ps) <-> (p < length train)%nat).
  { intro p. rewrite in_app_iff, <- in_rev. split.
    - intros [J|J]; [now apply NI|now apply (located_lt _ _ _ LOC)].
    - intro J. destruct (in_dec Nat.eq_dec p ps); [now right|left]. apply (Permutation_in p (Permutation_sym PN)), USI. auto. }
  assert (N0 : (0 < length train)%nat).
  { destruct L as [|x L']; [contradiction|]. destruct train; [|cbn; lia]. exfalso. apply (proj2 (IN x)). left. now left. }
  assert (HD : nth 0 train 0 = hd 0 train) by (destruct train; reflexivity).
  assert (E0 : nth_error train 0 = Some (hd 0 train)) by (rewrite <- HD; now apply nth_error_nth').
  assert (SEL : coreset_select s L U batch = coreset_loop (Z.to_nat batch - length U) s1 U (map (fun p => nth p train 0) new)).
  { unfold coreset_select in *. rewrite ET in *. rewrite (located_item _ _ _ ND LOC) in *. destruct (min_distances (update_distances s ps)) as [d|]; [|discriminate].
    rewrite Nat2Z.id in EQ. replace (Z.to_nat batch) with (length U + (Z.to_nat batch - length U))%nat at 1 by lia. rewrite coreset_loop_app, EQ. reflexivity. }
  destruct (in_dec Nat.eq_dec 0%nat ps) as [J|J].
  - exists s1. pose proof (proj2 (located_in train L ps ND LOC 0%nat _ E0) J) as HL. split; [|contradiction]. intros _. rewrite SEL.
    replace (Z.to_nat batch - length U)%nat with (S (Z.to_nat batch - length U - 1)) by lia.
    eapply (core_exhausted_bad train dist U ps); eauto.
  - assert (HL : ~ In (hd 0 train) L) by (intro HL; apply J; apply (located_in train L ps ND LOC 0%nat _ E0); auto).
    destruct (core_exhausted train dist L U ps SP LOC POS (Z.to_nat batch - length U) s1 _ (map (fun p => nth p train 0) new) ET1 ED1 CE1 AS1 ALL N0 J) as (s2 & E2).
    exists s2. split; [contradiction|]. intros _. exists (map (fun p => nth p train 0) new). split.
    + rewrite (Permutation_map _ PN). exact P.
    + rewrite SEL, E2, HD. reflexivity.
Qed.
Print Assumptions C50_oversize_refuted.

(** What is refused: nothing labelled on the first call, and a labelled index that is not a training one. *)
Theorem C50_rejects : forall train dist U batch,
  let s := {| ctrain := train; cdist := dist; min_distances := None; already_selected := [] |} in
  coreset_select s [] U batch = (s, Err TypeErr) /\
  forall s' L x, ctrain s' = train -> NoDup train -> In x L -> ~ In x train -> coreset_select s' L U batch = (s', Err ValueErr).
Proof.
  intros train dist U batch s. split; [reflexivity|]. intros s' L x ET ND J N. unfold coreset_select. rewrite ET.
  assert (E : mapM (fun x => match np_where train x with [p] => Ok p | _ => Err ValueErr end) L = Err ValueErr); [|now rewrite E].
  induction L as [|y L IH]; [destruct J|]. cbn [mapM]. destruct J as [->|J].
  - rewrite (where_none train x N). reflexivity.
  - destruct (in_dec Z.eq_dec y train) as [I|I].
    + destruct (In_nth_error _ _ I) as [p E]. rewrite (where_one train y p ND E). cbn [bind]. rewrite (IH J). reflexivity.
    + rewrite (where_none train y I). reflexivity.
Qed.
Print Assumptions C50_rejects.

(** Non-vacuity: points on a line, two rounds. *)
Definition line_dist (p q : nat) : Q := Qabs (inject_Z (Z.of_nat p) - inject_Z (Z.of_nat q)).
Example C50_case :
  let s0 := {| ctrain := [10; 11; 12; 13; 14; 15]; cdist := line_dist; min_distances := None; already_selected := [] |} in
  exists s1, coreset_select s0 [12] [10; 11; 13; 14; 15] 2 = (s1, Ok [15; 10]) /\
  core_history [10; 11; 12; 13; 14; 15] line_dist s1 [12; 15; 10] /\ snd (coreset_select s1 [12; 15; 10] [11; 13; 14] 2) = Ok [11; 13].
Proof.
  cbv zeta. eexists. split; [reflexivity|]. split; [|reflexivity].
  eapply (ch_call _ _ {| ctrain := [10; 11; 12; 13; 14; 15]; cdist := line_dist; min_distances := None; already_selected := [] |} [] [12] [10; 11; 13; 14; 15] 2 _ [15; 10]); [constructor| |discriminate|intros x []|cbn; lia|reflexivity].
  split; [repeat constructor; cbn; lia|]. split; [repeat constructor; cbn; lia|]. split; [intro x; cbn; intuition|]. intros x [<-|[]]. cbn. lia.
Qed.

(** ** C51 *)

Theorem C51_select : forall g L U density batch fuel,
  split_into (gtrain g) L U -> length density = length (gtrain g) -> 0 < batch < Z.of_nat (length U) -> (Z.to_nat batch <= fuel)%nat ->
  exists den' got ps new d', density_select fuel g density L U batch = (den', Ok (Some got)) /\
    Z.of_nat (length got) = batch /\ NoDup got /\ (forall x, In x got -> In x U) /\ length den' = length density /\
    located (gtrain g) L ps /\ located (gtrain g) got new /\
    densest_first (gneighbors g) (fun q => nth q density 0%Q) (fun q => (q < length (gtrain g))%nat /\ ~ In q ps) new d'.
Proof.
  intros g L U density batch fuel SP LD B F. pose proof SP as (ND & NU & IN & DJ).
  destruct (located_all (gtrain g) L) as [ps LOC]; [intros x J; apply IN; now left|].
  destruct (density_select_ok g L U ps density batch fuel SP LOC LD B F) as (new & den' & d' & EQ & LN & DF & LD' & _).
  destruct (densest_rest _ _ _ _ _ DF) as [NN NI]. destruct (located_map (gtrain g) new) as (got & LG & EG); [intros p J; now apply NI|]. rewrite <- EG in EQ.
  exists den', got, ps, new, d'. split; [auto|]. pose proof (Forall2_length_eq _ _ _ LG) as LL. split; [lia|].
  assert (GU : forall x, In x got -> In x U).
  { intros x J. clear - LG J NI SP LOC ND. induction LG as [|y p got new E F IH]; [destruct J|]. destruct J as [->|J]; [|apply IH; auto; intros q Q0; apply NI; now right].
    apply (split_positions _ _ _ _ SP LOC p x E). apply NI. now left. }
  split; [|repeat (split; [auto|]); auto].
  clear - LG NN ND. induction LG as [|y p got new E F IH]; [constructor|]. inversion NN as [|? ? N1 N2]; subst. constructor; auto.
  intro J. apply N1. apply (located_in (gtrain g) got new ND F p y E). auto.
Qed.
Print Assumptions C51_select.

(** With no more than [batch] unlabelled points all of them are returned and the densities are kept; a batch
    that is not positive is refused; a labelled index that is not a training one too. *)
Theorem C51_rest : forall g L U density batch fuel,
  (batch <= 0 -> density_select fuel g density L U batch = (density, Err AssertErr)) /\
  (0 < batch -> Z.of_nat (length U) <= batch -> density_select fuel g density L U batch = (density, Ok (Some U))) /\
  (0 < batch < Z.of_nat (length U) -> (exists x, In x L /\ ~ In x (gtrain g)) -> density_select fuel g density L U batch = (density, Err IndexErr)).
Proof.
  intros g L U density batch fuel. unfold density_select. split; [|split].
  - intro B. destruct (Z.ltb_spec 0 batch); [lia|]. reflexivity.
  - intros B C. destruct (Z.ltb_spec 0 batch); [|lia]. destruct (Z.leb_spec (Z.of_nat (length U)) batch); [|lia]. reflexivity.
  - intros B (x & J & N). destruct (Z.ltb_spec 0 batch); [|lia]. destruct (Z.leb_spec (Z.of_nat (length U)) batch); [lia|]. cbn [negb].
    assert (E : mapM (fun i => py_nth (np_where (gtrain g) i) 0) L = Err IndexErr); [|now rewrite E].
    induction L as [|y L IH]; [destruct J|]. cbn [mapM]. destruct J as [->|J].
    + rewrite (where_none _ x N). reflexivity.
    + destruct (np_where (gtrain g) y) as [|p l]; [reflexivity|]. unfold py_nth at 1. cbn [nth_error bind]. rewrite (IH J). reflexivity.
Qed.
Print Assumptions C51_rest.

(** Rounds in which what was chosen becomes labelled make up one greedy run from the first densities. *)
Inductive density_history (g : graph) : list Q -> list Z -> list Z -> list Z -> Prop :=
| dh_end den L U : split_into (gtrain g) L U -> density_history g den L U []
| dh_call den L U batch fuel den1 got L1 U1 outs :
    split_into (gtrain g) L U -> 0 < batch < Z.of_nat (length U) ->
    density_select fuel g den L U batch = (den1, Ok (Some got)) ->
    (forall x, In x L1 <-> In x L \/ In x got) -> density_history g den1 L1 U1 outs ->
    density_history g den L U (got ++ outs).

Lemma density_history_split g den L U outs : density_history g den L U outs -> split_into (gtrain g) L U.
Proof. intro H. inversion H; auto. Qed.

Lemma density_fuel k : forall f g labelled U batch den arr got d r, density_loop f g labelled U batch den arr got = (d, Ok (Some r)) ->
  density_loop (f + k) g labelled U batch den arr got = (d, Ok (Some r)).
Proof.
  induction f as [|f IH]; intros g labelled U batch den arr got d r E.
  - cbn [density_loop] in E. destruct (batch <=? Z.of_nat (length got)) eqn:B; [|discriminate]. destruct k; cbn [density_loop Nat.add]; rewrite B; auto.
  - cbn [density_loop Nat.add] in *. destruct (batch <=? Z.of_nat (length got)); [auto|]. destruct (argmax den); [|discriminate].
    destruct (nth_error (gtrain g) a); [|discriminate]. destruct (negb (existsb (Z.eqb z) U)); [discriminate|].
    destruct (min_of (assign (gneighbors g a) (fun x => (x - nth a den 0)%Q) den)); [|discriminate].
    destruct (min_of (assign labelled (fun _ => (a0 - 1)%Q) (assign (gneighbors g a) (fun x => (x - nth a den 0)%Q) den))); [|discriminate]. apply IH. exact E.
Qed.

Theorem C51_history : forall g den L U outs, length den = length (gtrain g) -> density_history g den L U outs ->
  NoDup outs /\ (forall x, In x outs -> In x U) /\
  exists ps new d', located (gtrain g) L ps /\ located (gtrain g) outs new /\
    densest_first (gneighbors g) (fun q => nth q den 0%Q) (fun q => (q < length (gtrain g))%nat /\ ~ In q ps) new d'.
Proof.
  intros g den L U outs LD H.
  assert (G : exists ps new d', located (gtrain g) L ps /\ located (gtrain g) outs new /\
    densest_first (gneighbors g) (fun q => nth q den 0%Q) (fun q => (q < length (gtrain g))%nat /\ ~ In q ps) new d').
  { induction H as [den L U SP|den L U batch fuel den1 got L1 U1 outs SP B E IN1 H IH].
    - destruct (located_all (gtrain g) L) as [ps LOC]; [intros x J; apply SP; now left|]. exists ps, [], (fun q => nth q den 0%Q). repeat split; auto; constructor.
    - pose proof SP as (ND & NU & IN & DJ). destruct (located_all (gtrain g) L) as [ps LOC]; [intros x J; apply IN; now left|].
      destruct (density_select_ok g L U ps den batch (fuel + Z.to_nat batch) SP LOC LD B ltac:(lia)) as (new & den' & d' & EQ & LN & DF & LD' & RD).
      assert (E2 : density_select (fuel + Z.to_nat batch) g den L U batch = (den1, Ok (Some got))).
      { unfold density_select in *. destruct (negb (0 <? batch)); [auto|]. destruct (Z.of_nat (length U) <=? batch); [auto|].
        destruct (mapM _ L); [|discriminate]. destruct (min_of den); [|discriminate]. apply density_fuel. exact E. }
      rewrite EQ in E2. injection E2 as <- <-. destruct (IH ltac:(lia)) as (ps1 & new1 & d1 & LOC1 & LG1 & DF1).
      destruct (densest_rest _ _ _ _ _ DF) as [NN NI].
      assert (PS1 : forall q, (q < length (gtrain g))%nat -> (In q ps1 <-> In q ps \/ In q new)).
      { intros q QL. assert (EX : nth_error (gtrain g) q = Some (nth q (gtrain g) 0)) by now apply nth_error_nth'.
        rewrite <- (located_in _ _ _ ND LOC1 q _ EX), IN1, (located_in _ _ _ ND LOC q _ EX).
        destruct (located_map (gtrain g) new) as (l & LL & EL); [intros p J; now apply NI|]. rewrite <- EL, (located_in _ _ _ ND LL q _ EX). reflexivity. }
      destruct (densest_ext _ _ _ _ _ DF1 d' (fun q => ((q < length (gtrain g))%nat /\ ~ In q ps) /\ ~ In q new)) as (d2 & DF2 & _).
      + intro q. cbn beta. split; [intros [[A A'] A'']; split; auto; rewrite PS1 by auto; tauto|intros [A A']; rewrite PS1 in A' by auto; tauto].
      + intros q [A A']. rewrite PS1 in A' by auto. symmetry. apply RD; tauto.
      + destruct (densest_app _ _ _ _ _ DF new1 d2 DF2) as (d3 & DF3 & _). exists ps, (new ++ new1), d3. split; [auto|]. split; [|auto].
        apply Forall2_app; auto. destruct (located_map (gtrain g) new) as (l & LL & EL); [intros p J; now apply NI|]. rewrite <- EL. exact LL. }
  pose proof (density_history_split _ _ _ _ _ H) as SP. pose proof SP as (ND & _). destruct G as (ps & new & d' & LOC & LG & DF). destruct (densest_rest _ _ _ _ _ DF) as [NN NI].
  split; [|split; [|exists ps, new, d'; auto]].
  - clear - LG NN ND. induction LG as [|y p got new E F IH]; [constructor|]. inversion NN as [|? ? N1 N2]; subst. constructor; auto.
    intro J. apply N1. apply (located_in (gtrain g) got new ND F p y E). auto.
  - intros x J. clear - LG J NI SP LOC ND. induction LG as [|y p got new E F IH]; [destruct J|]. destruct J as [->|J]; [|apply IH; auto; intros q Q0; apply NI; now right].
    apply (split_positions _ _ _ _ SP LOC p x E). apply NI. now left.
Qed.
Print Assumptions C51_history.

(** Non-vacuity: a path of five points, the densities of the two ends are lower. *)
Example C51_case :
  let g := {| gtrain := [10; 11; 12; 13; 14]; gneighbors := fun p => match p with 0 => [1] | 4 => [3] | p => [p - 1; p + 1] end%nat |} in
  split_into (gtrain g) [11] [10; 12; 13; 14] /\
  snd (density_select 2 g [1; 3; 3; 2; 1]%Q [11] [10; 12; 13; 14] 2) = Ok (Some [12; 10]).
Proof.
  cbv zeta. split; [|reflexivity]. cbn [gtrain]. split; [repeat constructor; cbn; lia|]. split; [repeat constructor; cbn; lia|].
  split; [intro x; cbn; intuition|]. intros x [<-|[]]. cbn. lia.
Qed.

(** ** C69 *)

Definition bounded (x : fl) : Prop := match x with Inf true => False | _ => True end.

Lemma quire_loop_ok eva : forall us best low, (forall p, In p us -> bounded (eva p)) ->
  (low = Inf false /\ best = None) \/ (exists b z, low = Num z /\ best = Some b /\ eva b = Num z) ->
  (exists p x, quire_loop eva best low us = Some p /\ eva p = Num x /\ (In p us \/ best = Some p) /\
     (forall q y, In q us -> eva q = Num y -> (x <= y)%Q) /\ (forall z, low = Num z -> (x <= z)%Q)) \/
  (quire_loop eva best low us = None /\ best = None /\ forall p x, In p us -> eva p <> Num x).
Proof.
  induction us as [|p us IH]; intros best low H ST; cbn [quire_loop].
  - destruct ST as [[-> ->]|(b & z & -> & -> & E)]; [right; repeat split; auto; intros p x []|]. left. exists b, z.
    repeat split; auto; [intros q y []|intros w W; injection W as <-; lra].
  - assert (HP := H p (or_introl eq_refl)). assert (HU : forall q, In q us -> bounded (eva q)) by (intros q J; apply H; now right).
    assert (KEEP : fl_lt (eva p) low = false -> (forall x, eva p = Num x -> exists z, low = Num z /\ (z <= x)%Q) ->
      (exists p0 x, quire_loop eva best low us = Some p0 /\ eva p0 = Num x /\ (In p0 (p :: us) \/ best = Some p0) /\
         (forall q y, In q (p :: us) -> eva q = Num y -> (x <= y)%Q) /\ (forall z, low = Num z -> (x <= z)%Q)) \/
      (quire_loop eva best low us = None /\ best = None /\ forall p0 x, In p0 (p :: us) -> eva p0 <> Num x)).
    { intros _ KP. destruct (IH best low HU ST) as [(r & x & E & ER & IR & MN & LW)|(E & EB & NN)].
      - left. exists r, x. split; [auto|]. split; [auto|]. split; [destruct IR as [IR|IR]; [left; now right|now right]|]. split; [|auto].
        intros q y [<-|J] EY; [|eauto]. destruct (KP y EY) as (z & EZ & LE). specialize (LW z EZ). lra.
      - right. split; [auto|]. split; [auto|]. intros q x [<-|J]; [|auto]. intro EX. destruct (KP x EX) as (z & EZ & LE).
        destruct ST as [[-> _]|(b & z' & _ & EB' & _)]; congruence. }
    assert (TAKE : forall x, eva p = Num x -> (forall z, low = Num z -> (x < z)%Q) ->
      (exists p0 y, quire_loop eva (Some p) (Num x) us = Some p0 /\ eva p0 = Num y /\ (In p0 (p :: us) \/ best = Some p0) /\
         (forall q w, In q (p :: us) -> eva q = Num w -> (y <= w)%Q) /\ (forall z, low = Num z -> (y <= z)%Q))).
    { intros x EX LT. destruct (IH (Some p) (Num x) HU) as [(r & y & E & ER & IR & MN & LW)|(E & EB & _)]; [right; exists p, x; auto| |discriminate].
      specialize (LW x eq_refl). exists r, y. split; [auto|]. split; [auto|]. split; [left; destruct IR as [IR|IR]; [now right|injection IR as ->; now left]|]. split.
      - intros q w [<-|J] EW; [rewrite EX in EW; injection EW as <-; auto|eauto].
      - intros z EZ. specialize (LT z EZ). lra. }
    destruct (eva p) as [x|b|] eqn:EX.
    + destruct ST as [[-> ->]|(b & z & -> & -> & EB)].
      * cbn [fl_lt negb]. left. apply TAKE; auto. discriminate.
      * cbn [fl_lt]. destruct (Qle_bool z x) eqn:LE; cbn [negb].
        -- apply Qle_bool_iff in LE. apply KEEP; [cbn; rewrite (proj2 (Qle_bool_iff z x) LE); reflexivity|]. intros w W. injection W as <-. eauto.
        -- left. apply TAKE; auto. intros w W. injection W as <-. apply Qnot_le_lt. intro C. apply Qle_bool_iff in C. congruence.
    + destruct b; [contradiction|]. assert (F : fl_lt (Inf false) low = false) by (destruct low as [|[]|]; reflexivity). rewrite F. apply KEEP; [auto|discriminate].
    + assert (F : fl_lt NaN low = false) by (destruct low as [|[]|]; reflexivity). rewrite F. apply KEEP; [auto|discriminate].
Qed.

(** QUIRE chooses one unlabelled instance of smallest evaluation, provided one of them has a finite value. *)
Theorem C69_minimal : forall train eva L U us, split_into train L U -> (2 <= length U)%nat -> located train U us ->
  (forall p, In p us -> bounded (eva p)) -> (exists p x, In p us /\ eva p = Num x) ->
  exists p x v, quire_select train eva L U = Ok [v] /\ In v U /\ nth_error train p = Some v /\ eva p = Num x /\
    forall q y, In q us -> eva q = Num y -> (x <= y)%Q.
Proof.
  intros train eva L U us SP LU LOC BD (p0 & x0 & I0 & E0). pose proof SP as (ND & NU & IN & DJ).
  destruct (located_all train L) as [ps LOCL]; [intros x J; apply IN; now left|]. unfold quire_select.
  destruct (Nat.leb_spec (length U) 1); [lia|]. rewrite (located_first _ _ _ ND LOCL), (located_first _ _ _ ND LOC). cbn [bind].
  destruct (quire_loop_ok eva us None (Inf false) BD (or_introl (conj eq_refl eq_refl))) as [(p & x & E & EP & [IP|IP] & MN & _)|(_ & _ & NN)]; [|discriminate|exfalso; eapply NN; eauto].
  rewrite E. pose proof (located_lt _ _ _ LOC p IP) as PL. destruct (nth_error train p) as [v|] eqn:EV; [|apply nth_error_None in EV; lia].
  unfold py_nth. rewrite EV. cbn [bind]. exists p, x, v. split; [auto|]. split; [now apply (located_in train U us ND LOC p v EV)|]. auto.
Qed.
Print Assumptions C69_minimal.

(** If no unlabelled instance has one, the last training instance is chosen, labelled or not. *)
Theorem C69_not_finite_refuted : forall train eva L U us, split_into train L U -> (2 <= length U)%nat -> located train U us ->
  (forall p, In p us -> eva p = NaN \/ eva p = Inf false) -> quire_select train eva L U = Ok [last train 0].
Proof.
  intros train eva L U us SP LU LOC BD. pose proof SP as (ND & NU & IN & DJ).
  destruct (located_all train L) as [ps LOCL]; [intros x J; apply IN; now left|]. unfold quire_select.
  destruct (Nat.leb_spec (length U) 1); [lia|]. rewrite (located_first _ _ _ ND LOCL), (located_first _ _ _ ND LOC). cbn [bind].
  destruct (quire_loop_ok eva us None (Inf false)) as [(p & x & E & EP & [IP|IP] & MN & _)|(E & _ & NN)];
    [intros p J; destruct (BD p J) as [-> | ->]; exact I|left; auto|destruct (BD p IP); congruence|discriminate|]. rewrite E.
  assert (NT : train <> []). { destruct U as [|u U']; [cbn in LU; lia|]. intros ->. apply (proj2 (IN u)). right. now left. }
  destruct (exists_last NT) as (l & z & ->). rewrite last_last, app_length. cbn [length]. unfold py_nth.
  rewrite nth_error_app2 by lia. replace (length l + 1 - 1 - length l)%nat with 0%nat by lia. reflexivity.
Qed.
Print Assumptions C69_not_finite_refuted.

(** One or no unlabelled instance is returned as it is. *)
Theorem C69_small : forall train eva L U, (length U <= 1)%nat -> quire_select train eva L U = Ok U.
Proof. intros train eva L U H. unfold quire_select. destruct (Nat.leb_spec (length U) 1); [reflexivity|lia]. Qed.
Print Assumptions C69_small.

Example C69_case :
  quire_select [5; 6; 7; 8] (fun p => match p with 0 => NaN | 1 => Num 3 | _ => Num 2 end%nat) [8] [5; 6; 7] = Ok [7] /\
  quire_select [5; 6; 7; 8] (fun _ => NaN) [8] [5; 6; 7] = Ok [8] /\ split_into [5; 6; 7; 8] [8] [5; 6; 7] /\ located [5; 6; 7; 8] [5; 6; 7] [0; 1; 2]%nat.
Proof.
  split; [reflexivity|]. split; [reflexivity|]. split; [|repeat constructor].
  split; [repeat constructor; cbn; lia|]. split; [repeat constructor; cbn; lia|]. split; [intro x; cbn; intuition|]. intros x [<-|[]]. cbn. lia.
Qed.
