(** Property C104: a collection given to its own methods; selections that are the pool itself. *)
From Verif Require Import Base BaseFacts IndexModel IndexSpec IndexProofs MLModel MLSpec MLProofs SelfModel SelfSpec SelfProofs.
Local Open Scope nat_scope.

(** [c.update(c)] ends, changes nothing and warns once for every element. *)
Theorem C104_update_self : forall c turns, reachable c -> List.length (elems c) <= turns ->
  ic_update_self turns c = Some (c, Ok (repeat WRepeat (List.length (elems c)))).
Proof.
  intros c turns R L. apply WF_reachable in R. unfold elems in *. rewrite map_length in *.
  unfold ic_update_self. rewrite live_add by (auto; lia). now rewrite Nat.sub_0_r.
Qed.
Print Assumptions C104_update_self.

(** [c.difference_update(c)] ends without an error or a warning and leaves the elements at every
    second position, in their order; the result is again a collection to which C01-C04 apply. *)
Theorem C104_difference_self : forall c turns, reachable c -> List.length (elems c) <= turns ->
  exists c', ic_difference_self turns c = Some (c', Ok []) /\
    every_second (elems c) (elems c') /\
    List.length (elems c') = List.length (elems c) / 2 /\
    etype c' = etype c /\ reachable c'.
Proof.
  intros c turns R0 L. pose proof (WF_reachable c R0) as R. unfold elems in *. rewrite map_length in *.
  eexists. split; [apply difference_self; auto|]. cbn [cont etype]. rewrite seconds_map.
  split; [apply seconds_every|]. split; [|split; [reflexivity|now apply seconds_reachable]].
  now rewrite seconds_length, map_length.
Qed.
Print Assumptions C104_difference_self.

(** So the documented effect, removing all elements of the argument, is not the effect of the call with the collection
    itself as soon as it has two elements; with the list of its elements, or a copy, it is. *)
Theorem C104_difference_self_refuted : forall c turns, reachable c -> List.length (elems c) <= turns ->
  (forall c' w, ic_difference_self turns c = Some (c', Ok w) ->
     (elems c' = [] <-> List.length (elems c) <= 1)) /\
  elems (fst (ic_difference_update c (cont c))) = [] /\
  elems (fst (ic_difference_update c (cont (fst (ic_init (DColl c)))))) = [].
Proof.
  intros c turns R L. destruct (C104_difference_self c turns R L) as (c1 & E & _ & N & _ & _). split; [|split].
  - intros c' w E'. rewrite E in E'. injection E' as <- <-. rewrite <- length_zero_iff_nil, N.
    rewrite Nat.div_small_iff by lia. lia.
  - apply no_elems. intros k Hk. apply (diff_takes c (cont c) (WF_reachable c R)) in Hk.
    destruct Hk as [H1 H2]. exact (H2 H1).
  - assert (E1 : cont (fst (ic_init (DColl c))) = cont c).
    { cbn. now destruct (cont c). }
    rewrite E1. apply no_elems. intros k Hk. apply (diff_takes c (cont c) (WF_reachable c R)) in Hk.
    destruct Hk as [H1 H2]. exact (H2 H1).
Qed.
Print Assumptions C104_difference_self_refuted.

Lemma times_lemma r : forall c turns, WF c -> List.length (cont c) <= turns ->
  exists c', difference_self_times r turns c = Some c' /\
    forall i, nth_error (elems c') i = nth_error (elems c) ((i + 1) * 2 ^ r - 1).
Proof.
  induction r as [|r IH]; intros c turns W L; cbn [difference_self_times].
  - exists c. split; auto. intro i. f_equal. cbn. lia.
  - rewrite (difference_self c turns W L).
    destruct (IH {| cont := seconds_of (cont c); etype := etype c |} turns) as (c' & E & H).
    + destruct W as [N T]. split; unfold elems in *; cbn [cont etype].
      * rewrite seconds_map. clear - N. induction (map norm (cont c)) as [|x|x y l IHl] using pair_ind; try constructor.
        -- intro Hy. apply seconds_in in Hy. inversion N as [|? ? _ N1]; subst. now inversion N1.
        -- apply IHl. inversion N as [|? ? _ N1]; subst. now inversion N1.
      * intros k Hk. apply T. rewrite seconds_map in Hk. now apply seconds_in in Hk.
    + cbn [cont]. rewrite seconds_length. pose proof (Nat.div_le_upper_bound (List.length (cont c)) 2 (List.length (cont c))). lia.
    + exists c'. split; auto. intro i. rewrite H. unfold elems. cbn [cont]. rewrite seconds_map, (seconds_every (map norm (cont c)) _).
      f_equal. cbn [Nat.pow]. assert (1 <= 2 ^ r) by (clear; induction r; cbn; lia). nia.
Qed.

(** Made [r] times, the call leaves the elements at the positions 2^r, 2·2^r, 3·2^r … (counted from
    one): the collection only becomes empty once 2^r exceeds its size. *)
Theorem C104_difference_self_repeated : forall c turns r, reachable c -> List.length (elems c) <= turns ->
  exists c', difference_self_times r turns c = Some c' /\
    (forall i, nth_error (elems c') i = nth_error (elems c) ((i + 1) * 2 ^ r - 1)) /\
    (elems c' = [] <-> List.length (elems c) < 2 ^ r).
Proof.
  intros c turns r R L. unfold elems in L. rewrite map_length in L.
  destruct (times_lemma r c turns (WF_reachable c R) L) as (c' & E & H). exists c'. split; [exact E|]. split; [exact H|].
  assert (P : 1 <= 2 ^ r) by (clear; induction r; cbn; lia). specialize (H 0). cbn [Nat.add] in H. rewrite Nat.mul_1_l in H.
  split; intro A.
  - rewrite A in H. cbn in H. symmetry in H. apply nth_error_None in H. lia.
  - rewrite (proj2 (nth_error_None (elems c) _)) in H by lia. destruct (elems c'); [reflexivity|discriminate].
Qed.
Print Assumptions C104_difference_self_repeated.

(** One round whose selection is a new list: the selected items move from one collection to the other, and
    disjoint collections stay disjoint. *)
Theorem C104_round_listed : forall lab unl vs T turns, reachable lab -> reachable unl ->
  (forall v, In v vs -> acceptable lab T v) -> incl (map norm vs) (elems unl) ->
  disjoint (elems lab) (elems unl) ->
  exists lab' unl', ic_round turns lab unl (Listed vs) = Some (lab', unl') /\
    (forall k, In k (elems lab') <-> In k (elems lab) \/ In k (map norm vs)) /\
    (forall k, In k (elems unl') <-> In k (elems unl) /\ ~ In k (map norm vs)) /\
    disjoint (elems lab') (elems unl') /\
    (forall k, In k (elems lab') \/ In k (elems unl') <-> In k (elems lab) \/ In k (elems unl)).
Proof.
  intros lab unl vs T turns R1 R2 A I D. apply WF_reachable in R1, R2.
  destruct (update_puts T lab vs R1 A) as (_ & _ & H1). destruct (diff_takes unl vs R2) as (_ & _ & H2).
  eexists _, _. split; [reflexivity|]. split; [exact H1|]. split; [exact H2|]. split.
  - intros k K1 K2. apply H1 in K1. apply H2 in K2. destruct K1 as [K1|K1]; [|tauto]. exact (D k K1 (proj1 K2)).
  - intro k. rewrite H1, H2. destruct (in_dec key_dec k (map norm vs)) as [K|K]; [|tauto].
    split; intros [?|?]; auto; tauto.
Qed.
Print Assumptions C104_round_listed.

(** One round whose selection is the pool itself: everything becomes labelled, but every second item
    also stays in the pool, so that the two collections overlap unless the pool had at most one
    item. *)
Theorem C104_round_itself : forall lab unl T turns, reachable lab -> reachable unl ->
  (forall v, In v (cont unl) -> acceptable lab T v) -> List.length (elems unl) <= turns ->
  exists lab' unl', ic_round turns lab unl Itself = Some (lab', unl') /\
    (forall k, In k (elems lab') <-> In k (elems lab) \/ In k (elems unl)) /\
    every_second (elems unl) (elems unl') /\
    incl (elems unl') (elems lab') /\
    (disjoint (elems lab') (elems unl') <-> List.length (elems unl) <= 1).
Proof.
  intros lab unl T turns R1 R2 A L.
  destruct (C104_difference_self unl turns R2 L) as (c & E & S & N & _ & _).
  apply WF_reachable in R1. destruct (update_puts T lab (cont unl) R1 A) as (_ & _ & H1).
  unfold ic_round. rewrite E. eexists _, _. split; [reflexivity|]. split; [exact H1|]. split; [exact S|].
  assert (I : incl (elems c) (elems (fst (ic_update lab (cont unl))))).
  { intros k Hk. apply H1. right. apply In_nth_error in Hk. destruct Hk as [i Hi]. rewrite S in Hi.
    now apply nth_error_In in Hi. }
  split; [exact I|].
  split; intro D.
  - enough (List.length (elems unl) / 2 = 0) by (apply Nat.div_small_iff in H; lia).
    rewrite <- N. apply length_zero_iff_nil. destruct (elems c) as [|k l]; auto.
    destruct (D k); [apply I|]; now left.
  - assert (elems c = []) as ->. { apply length_zero_iff_nil. rewrite N. apply Nat.div_small. lia. }
    intros k _ [].
Qed.
Print Assumptions C104_round_itself.

(** Multi-label collections flatten their argument first, so both calls do what is documented. *)
Theorem C104_multi_label_self : forall m c, ml_reachable m c ->
  ml_update_self c = (c, Ok (repeat WRepeat (List.length (pairs c)))) /\
  mcont (fst (ml_difference_self c)) = [] /\ (exists w, snd (ml_difference_self c) = Ok w).
Proof.
  intros m c R. apply reachable_good in R. split; [now apply (update_self_ml m)|].
  destruct (own_ok m c R) as [E1 E2].
  destruct (ml_difference_any m c false (mcont c) R (or_introl eq_refl) E1) as (G & K & H).
  split; [|exact K]. apply (no_pairs m _ G). intros p Hp. apply H in Hp. rewrite E2 in Hp. tauto.
Qed.
Print Assumptions C104_multi_label_self.

(** One round over multi-label collections, with any selection of unlabelled pairs or with the pool itself: the two
    collections exchange exactly the selected pairs. *)
Theorem C104_multi_label_round : forall m lab unl s, ml_reachable m lab -> ml_reachable m unl ->
  disjoint (pairs lab) (pairs unl) ->
  match s with
  | Itself => True
  | Listed l => l <> [] /\ forallb (scalar_ok m) l = true /\ incl (flat_map (denoted m) l) (pairs unl)
  end ->
  let sel := match s with Itself => pairs unl | Listed l => flat_map (denoted m) l end in
  exists lab' unl', ml_round lab unl s = ((lab', unl'), Ok tt) /\
    (forall p, In p (pairs lab') <-> In p (pairs lab) \/ In p sel) /\
    (forall p, In p (pairs unl') <-> In p (pairs unl) /\ ~ In p sel) /\
    disjoint (pairs lab') (pairs unl') /\
    List.length (pairs lab') + List.length (pairs unl') = List.length (pairs lab) + List.length (pairs unl).
Proof.
  intros m lab unl s R1 R2 D H sel. apply reachable_good in R1, R2.
  set (chk := match s with Itself => false | Listed _ => true end).
  set (vs := match s with Itself => mcont unl | Listed l => l end).
  assert (F : forallb (scalar_ok m) vs = true /\ flat_map (denoted m) vs = sel /\ (chk = false \/ vs <> []) /\ incl sel (pairs unl)).
  { destruct s as [|l]; cbn [vs chk sel].
    - destruct (own_ok m unl R2) as [E1 E2]. unfold incl. auto.
    - destruct H as (H1 & H2 & H3). auto. }
  destruct F as (F1 & F2 & F3 & F4).
  destruct (ml_update_any m lab chk vs R1 F3 F1) as (U1 & (w1 & U2) & U3).
  destruct (ml_difference_any m unl chk vs R2 F3 F1) as (V1 & (w2 & V2) & V3). rewrite F2 in U3, V3.
  exists (fst (ml_update chk lab vs)), (fst (ml_difference_update chk unl vs)).
  split.
  { unfold ml_round. assert (X : match s with Listed l => (true, l) | Itself => (false, mcont unl) end = (chk, vs)) by now destruct s.
    rewrite X. destruct (ml_update chk lab vs) as [a ra]; cbn [fst snd] in *. subst ra.
    destruct (ml_difference_update chk unl vs) as [b rb]; cbn [fst snd] in *. now subst rb. }
  split; [exact U3|]. split; [exact V3|].
  assert (D' : disjoint (pairs (fst (ml_update chk lab vs))) (pairs (fst (ml_difference_update chk unl vs)))).
  { intros p P1 P2. apply U3 in P1. apply V3 in P2. destruct P1 as [P1|P1]; [|tauto]. exact (D p P1 (proj1 P2)). }
  split; [exact D'|].
  assert (NU := pairs_NoDup _ (proj2 (proj2 (proj2 (proj2 U1))))).
  assert (NV := pairs_NoDup _ (proj2 (proj2 (proj2 (proj2 V1))))).
  assert (N1 := pairs_NoDup _ (proj2 (proj2 (proj2 (proj2 R1))))).
  assert (N2 := pairs_NoDup _ (proj2 (proj2 (proj2 (proj2 R2))))).
  rewrite <- !app_length. apply Permutation_length. apply NoDup_Permutation.
  - apply NoDup_app_intro; auto.
  - apply NoDup_app_intro; auto.
  - intro p. rewrite !in_app_iff, U3, V3. destruct (in_dec pair_dec p sel) as [K|K]; [|tauto].
    specialize (F4 p K). tauto.
Qed.
Print Assumptions C104_multi_label_round.

(** A pool of five instances: removing the pool from itself leaves the second and the fourth; a round
    with the pool itself leaves them in both collections. *)
Example C104_case :
  let unl := fst (ic_init (DList (map (fun z => VKey (KInt z)) [10; 11; 12; 13; 14]%Z))) in
  let lab := fst (ic_init (DList [VKey (KInt 3)])) in
  reachable unl /\ reachable lab /\ (forall v, In v (cont unl) -> acceptable lab TInt v) /\
  option_map (fun r => (elems (fst r), snd r)) (ic_difference_self 5 unl) = Some ([KInt 11; KInt 13], Ok []) /\
  option_map (fun r => (elems (fst r), elems (snd r))) (ic_round 5 lab unl Itself) =
    Some ([KInt 3; KInt 10; KInt 11; KInt 12; KInt 13; KInt 14], [KInt 11; KInt 13]) /\
  option_map elems (difference_self_times 2 5 unl) = Some [KInt 13].
Proof.
  cbn zeta. split; [constructor|]. split; [constructor|]. split.
  - intros v Hv. vm_compute in Hv. repeat destruct Hv as [<-|Hv]; try (split; reflexivity). destruct Hv.
  - vm_compute. auto.
Qed.

Example C104_multi_label_case :
  let unl := {| mcont := [IPair 4 1; IPair 4 2; IPair 7 0]; is_set := true; lsize := Some 3%Z |} in
  let lab := {| mcont := [IPair 4 0]; is_set := true; lsize := Some 3%Z |} in
  ml_reachable 3 unl /\ ml_reachable 3 lab /\ disjoint (pairs lab) (pairs unl) /\
  ml_round lab unl Itself =
    (({| mcont := [IPair 4 0; IPair 4 1; IPair 4 2; IPair 7 0]; is_set := true; lsize := Some 3%Z |},
      {| mcont := []; is_set := true; lsize := Some 3%Z |}), Ok tt).
Proof.
  cbn zeta. split.
  { eapply (mr_list 3 [IPair 4 1; IPair 4 2; IPair 7 0] (Some 3%Z) _ []); [discriminate|reflexivity|reflexivity]. }
  split.
  { eapply (mr_list 3 [IPair 4 0] (Some 3%Z) _ []); [discriminate|reflexivity|reflexivity]. }
  split; [|reflexivity]. intros p [<-|[]] H. cbn in H. repeat destruct H as [H|H]; try discriminate. destruct H.
Qed.
