(** Properties C24 and C25: knowledge repositories. *)
From Verif Require Import Base BaseFacts IndexModel IndexProofs MLModel StateModel Dict OracleModel OracleSpec
  OracleProofs RepoModel RepoSpec RepoProofs RepoProofs2.
From Coq Require Import String QArith.
Local Open Scope Z_scope.

(** ** C24 *)

(** Retrieval returns, in order, what was stored last for each index; removed and unknown indexes are
    skipped (and reported). *)
Theorem C24_retrieve : forall A (labels : list A) indexes examples r h ks,
  er_init labels indexes examples = Ok r ->
  let now := content (life labels indexes examples h) in
  er_retrieve (er_run r h) ks =
  Ok (flat_map (fun k => match now k with Some (_, Some v) => if is_some examples then [v] else [] | _ => [] end) ks,
      flat_map (fun k => match now k with Some (l, _) => [l] | None => [] end) ks,
      filter (fun k => match now k with Some _ => false | None => true end) ks).
Proof.
  intros A labels indexes examples r h ks H. apply er_init_spec in H. destruct H as [H _].
  destruct (er_run_spec _ h r _ H) as [AG _]. now apply er_retrieve_spec.
Qed.
Print Assumptions C24_retrieve.

(** Membership. *)
Theorem C24_contains : forall A (labels : list A) indexes examples r h k,
  er_init labels indexes examples = Ok r ->
  er_contains (er_run r h) k = is_some (content (life labels indexes examples h) k).
Proof.
  intros A labels indexes examples r h k H. apply er_init_spec in H. destruct H as [H _].
  destruct (er_run_spec _ h r _ H) as [AG _]. unfold er_contains, has. rewrite (ag_lab _ _ _ AG).
  fold (life labels indexes examples h). destruct (content _ k) as [[? ?]|]; reflexivity.
Qed.
Print Assumptions C24_contains.

(** Training data: every listed index, in order, with its latest label and example; if a listed index has
    no label any more, a KeyError. *)
Theorem C24_training : forall A (labels : list A) indexes examples r h,
  er_init labels indexes examples = Ok r ->
  let now := content (life labels indexes examples h) in
  let idx := index_list (life labels indexes examples h) in
  er_training (er_run r h) =
  if forallb (fun k => is_some (now k)) idx then
    Ok (flat_map (fun k => match now k with Some (_, Some v) => if is_some examples then [v] else [] | _ => [] end) idx,
        flat_map (fun k => match now k with Some (l, _) => [l] | None => [] end) idx, idx)
  else Err KeyErr.
Proof.
  intros A labels indexes examples r h H. apply er_init_spec in H. destruct H as [H _].
  destruct (er_run_spec _ h r _ H) as [AG _]. now apply er_training_spec.
Qed.
Print Assumptions C24_training.

(** When no index is stored twice without being removed in between, training data are always available
    and each index occurs once, exactly when it is stored. *)
Theorem C24_training_fresh : forall A (labels : list A) indexes examples r h,
  er_init labels indexes examples = Ok r ->
  (forall pre k v post, life labels indexes examples h = pre ++ (k, Some v) :: post -> content pre k = None) ->
  exists xs ls idx, er_training (er_run r h) = Ok (xs, ls, idx) /\ NoDup idx /\
    (forall k, In k idx <-> content (life labels indexes examples h) k <> None) /\
    Forall2 (fun k l => exists x, content (life labels indexes examples h) k = Some (l, x)) idx ls /\
    (is_some examples = true -> Forall2 (fun k x => exists l, content (life labels indexes examples h) k = Some (l, Some x)) idx xs).
Proof.
  intros A labels indexes examples r h H FR.
  pose proof (er_init_spec _ _ _ _ H) as [HA _]. destruct (er_run_spec _ h r _ HA) as [AG _].
  fold (life labels indexes examples h) in AG.
  pose proof (C24_training A labels indexes examples r h H) as T. cbv zeta in T.
  set (es := life labels indexes examples h) in *.
  assert (I : NoDup (index_list es) /\ forall k, In k (index_list es) <-> content es k <> None).
  { clear - FR. induction es as [|e es IH] using rev_ind; [split; [constructor|cbn; tauto]|].
    destruct IH as [N E].
    { intros pre k v post X. apply (FR pre k v (post ++ [e])). rewrite X, <- app_assoc. reflexivity. }
    rewrite index_list_snoc. destruct e as [k [v|]]; cbn [fst snd].
    - assert (C : content es k = None) by (apply (FR es k v []); reflexivity).
      split.
      + apply NoDup_snoc; auto. rewrite E. congruence.
      + intro j. rewrite in_app_iff, E, content_snoc. cbn. destruct (key_dec j k) as [->|n]; [|intuition congruence].
        intuition congruence.
    - split.
      + clear - N. induction (index_list es) as [|j l IH]; cbn; auto. inversion N; subst. destruct (key_dec k j); auto.
        constructor; auto. intro X. destruct (key_dec k j); [contradiction|].
        destruct (key_dec k j) as [|nk]; [contradiction|]. apply drop_first_in in X; auto.
      + intro j. rewrite content_snoc. cbn. destruct (key_dec j k) as [->|n].
        * split; [|congruence]. intro X. exfalso. clear - X N. induction (index_list es) as [|j l IH]; [contradiction|].
          cbn in X. inversion N; subst. destruct (key_dec k j) as [->|]; [contradiction|].
          destruct X as [->|X]; [congruence|auto].
        * rewrite drop_first_in by auto. apply E. }
  destruct I as [N E].
  assert (F : forallb (fun k => is_some (content es k)) (index_list es) = true).
  { apply forallb_forall. intros k J. apply E in J. destruct (content es k); [reflexivity|congruence]. }
  rewrite F in T. do 3 eexists. split; [exact T|]. split; [exact N|]. split; [exact E|].
  rewrite forallb_forall in F. split.
  - clear - F. induction (index_list es) as [|k l IH]; cbn; [constructor|]. pose proof (F k (or_introl eq_refl)) as Fk.
    destruct (content es k) as [[a x]|] eqn:C; [|discriminate]. cbn. constructor; eauto. apply IH. intros; apply F; now right.
  - intro X. rewrite X in *. clear - F AG. induction (index_list es) as [|k l IH]; cbn; [constructor|]. pose proof (F k (or_introl eq_refl)) as Fk.
    destruct (content es k) as [[a x]|] eqn:C; [|discriminate].
    destruct (ag_example _ _ _ _ _ _ AG eq_refl C) as [v ->]. cbn. constructor; eauto. apply IH. intros; apply F; now right.
Qed.
Print Assumptions C24_training_fresh.

(** Adding an index that is already stored and then discarding it makes training data unavailable. *)
Theorem C24_duplicate_refuted : forall A (labels : list A) indexes examples r h k l c x,
  er_init labels indexes examples = Ok r ->
  content (life labels indexes examples h) k <> None ->
  (is_some examples = true -> x <> None) ->
  er_training (er_run r (h ++ [EAdd k l c x; EDiscard k])) = Err KeyErr.
Proof.
  intros A labels indexes examples r h k l c x H S X.
  rewrite (C24_training A labels indexes examples r _ H).
  assert (L : life labels indexes examples (h ++ [EAdd k l c x; EDiscard k]) =
              (life labels indexes examples h ++ [(k, Some (l, if is_some examples then x else None))]) ++ [(k, None)]).
  { unfold life. rewrite flat_map_app. cbn [flat_map events_of]. rewrite <- !app_assoc.
    destruct (is_some examples); [|reflexivity]. destruct x; [reflexivity|]. now destruct (X eq_refl). }
  rewrite L. set (es := life labels indexes examples h) in *.
  replace (forallb _ _) with false; auto. symmetry. apply not_true_iff_false. intro F. rewrite forallb_forall in F.
  specialize (F k). rewrite content_snoc in F. cbn [fst snd] in F. destruct (key_dec k k); [|contradiction].
  assert (J : In k (index_list ((es ++ [(k, Some (l, if is_some examples then x else None))]) ++ [(k, None)]))).
  { rewrite !index_list_snoc. cbn [fst snd]. apply content_listed in S. clear - S.
    induction (index_list es) as [|j idx IH]; [contradiction|]. cbn. destruct (key_dec k j) as [->|n].
    - apply in_app_iff. right. now left.
    - destruct S as [->|S]; [congruence|]. right. auto. }
  specialize (F J). discriminate.
Qed.
Print Assumptions C24_duplicate_refuted.

(** Money and history: exactly the accepted calls are counted; a refused list call has no effect at all. *)
Theorem C24_accounting : forall A (labels : list A) indexes examples r h,
  er_init labels indexes examples = Ok r ->
  (e_cost (er_run r h) == fold_right Qplus 0 (flat_map (paid (is_some examples)) h))%Q /\
  e_costs (er_run r h) = flat_map (paid (is_some examples)) h /\
  e_num (er_run r h) = List.length (flat_map (logged (is_some examples)) h) /\
  e_hist (er_run r h) = flat_map (logged (is_some examples)) h /\
  forall ks ls cs xs, accepted (is_some examples) ks ls cs xs = false ->
    exists e, er_update (er_run r h) ks ls cs xs = (er_run r h, Err e).
Proof.
  intros A labels indexes examples r h H. apply er_init_spec in H. destruct H as (H & C & CS & N & Y).
  destruct (er_run_spec _ h r _ H) as (AG & C' & CS' & N' & Y'). rewrite C, CS, N, Y in *.
  split; [now rewrite C', Qplus_0_l|]. split; auto. split; auto. split; auto.
  intros ks ls cs xs AC. pose proof (er_update_spec _ _ _ ks ls cs xs AG) as U. now rewrite AC in U.
Qed.
Print Assumptions C24_accounting.

(** Examples as keys: if every index always comes with its own feature vector, discarding or retrieving by
    example is discarding or retrieving by index (missing ones are skipped). *)
Theorem C24_by_example : forall A (labels : list A) indexes xs r h (feature : key -> vec) k ks,
  er_init labels indexes (Some xs) = Ok r ->
  (forall a b, feature a = feature b -> a = b) ->
  (forall j l v, In (j, Some (l, Some v)) (life labels indexes (Some xs) h) -> v = feature j) ->
  let now := content (life labels indexes (Some xs) h) in
  er_discard_ex (er_run r h) (feature k) =
    match now k with Some _ => er_discard (er_run r h) k | None => (er_run r h, Ok true) end /\
  er_retrieve_ex (er_run r h) (map feature ks) = er_retrieve (er_run r h) (filter (fun j => is_some (now j)) ks).
Proof.
  intros A labels indexes xs r h feature k ks H Inj C now.
  assert (C0 : consistent feature (paired true indexes labels (Some xs)) /\ consistent feature (flat_map (events_of true) h)).
  { apply consistent_app. exact C. }
  assert (I : inv2 (er_run r h) (life labels indexes (Some xs) h)).
  { apply (inv2_run feature Inj); auto. apply (inv2_init feature Inj); auto. tauto. }
  split.
  - now apply (discard_ex_spec feature Inj).
  - now apply (retrieve_ex_spec feature Inj).
Qed.
Print Assumptions C24_by_example.

(** [clear]: a repository with examples becomes an empty one without examples. *)
Theorem C24_clear : forall A (labels : list A) indexes xs r h h' ks,
  er_init labels indexes (Some xs) = Ok r ->
  let r' := er_run (fst (er_clear (er_run r h))) h' in
  let now := content (flat_map (events_of false) h') in
  snd (er_clear (er_run r h)) = Ok tt /\
  er_retrieve r' ks = Ok ([], flat_map (fun k => match now k with Some (l, _) => [l] | None => [] end) ks,
                          filter (fun k => match now k with Some _ => false | None => true end) ks) /\
  e_idx r' = index_list (flat_map (events_of false) h') /\
  e_hist r' = flat_map (logged false) h' /\ e_costs r' = flat_map (paid false) h'.
Proof.
  intros A labels indexes xs r h h' ks H r' now.
  apply er_init_spec in H. destruct H as (H & _). destruct (er_run_spec _ h r _ H) as (AG & _).
  destruct (ag_exa _ _ _ AG eq_refl) as (d & Ed & _).
  assert (AE : agrees false (fst (er_clear (er_run r h))) []).
  { unfold er_clear. rewrite Ed. split; cbn; auto; try discriminate; try constructor. }
  split; [unfold er_clear; now rewrite Ed|].
  destruct (er_run_spec false h' _ _ AE) as (AG' & _ & CS & _ & Y). cbn [app] in AG'. fold r' in AG', CS, Y.
  split; [|split; [apply (ag_idx _ _ _ AG')|]].
  - rewrite (er_retrieve_spec _ _ _ ks AG'). f_equal. f_equal. f_equal. clear. induction ks as [|k ks IH]; cbn; auto.
    rewrite IH. destruct (content _ k) as [[? [?|]]|]; reflexivity.
  - unfold er_clear in *. rewrite Ed in *. cbn in CS, Y. auto.
Qed.
Print Assumptions C24_clear.

(** Without examples [clear] raises AttributeError and the labels stay. *)
Theorem C24_clear_refuted : forall A (labels : list A) indexes r h ks,
  er_init labels indexes None = Ok r ->
  snd (er_clear (er_run r h)) = Err AttrErr /\
  er_retrieve (fst (er_clear (er_run r h))) ks = er_retrieve (er_run r h) ks.
Proof.
  intros A labels indexes r h ks H.
  assert (E : e_exa (er_run r h) = None /\ e_inst (er_run r h) = false).
  { assert (E0 : e_exa r = None /\ e_inst r = false).
    { unfold er_init in H. destruct (negb _); [discriminate|]. injection H as <-. auto. }
    assert (AddE : forall r k (l : A) c x, e_exa r = None /\ e_inst r = false ->
              e_exa (fst (er_add r k l c x)) = None /\ e_inst (fst (er_add r k l c x)) = false).
    { intros r0 k l c x [X Y]. unfold er_add. rewrite Y. cbn. auto. }
    assert (LoopE : forall es (r : erepo A), e_exa r = None /\ e_inst r = false ->
              e_exa (fst (er_loop r es)) = None /\ e_inst (fst (er_loop r es)) = false).
    { induction es as [|[[[k l] c] x] es IH]; intros r0 X; cbn [er_loop]; auto. pose proof (AddE r0 k l c x X) as Y.
      destruct (er_add r0 k l c x) as [r1 [u|e]]; cbn [fst] in *; auto. }
    clear H. revert r E0. induction h as [|o h IH]; intros r E0; auto. cbn [er_run fold_left]. apply IH.
    destruct o as [k l c x|kk ll cc xx|k l c x|k]; cbn [er_step].
    - now apply AddE.
    - unfold er_update. destruct (negb _); auto.
      match goal with |- context[er_loop r ?e] => pose proof (LoopE e r E0) as Y; destruct (er_loop r e) as [r1 [u|e0]] end; cbn [fst] in *; auto.
    - unfold er_update_one. destruct x as [[|a [|b v]]|]; auto;
        match goal with |- context[er_add r ?a ?b ?c ?d] => pose proof (AddE r a b c d E0) as Y; destruct (er_add r a b c d) as [r1 [u|e0]] end; cbn [fst] in *; auto.
    - destruct E0 as [X Y]. unfold er_discard. destruct (negb _); auto. destruct (negb _); cbn; auto. rewrite Y. cbn. auto. }
  destruct E as [E I]. unfold er_clear. rewrite E. cbn [fst snd]. split; auto.
  induction ks as [|k ks IH]; cbn [er_retrieve]; auto. cbn [set_stores e_lab e_inst]. rewrite IH, I. reflexivity.
Qed.
Print Assumptions C24_clear_refuted.

Example C24_example :
  exists r, er_init [KStr "a"; KStr "b"] [KInt 10; KInt 20] (Some [[1; 2]; [3; 4]]) = Ok r /\
    er_training (er_run r [EUpdate [KInt 30; KInt 40] [KStr "c"; KStr "d"] (Some [1; 2]%Q) (Some [[5; 6]; [7; 8]]); EDiscard (KInt 10);
                           EAdd (KInt 50) (KStr "e") None None])
      = Ok ([[3; 4]; [5; 6]; [7; 8]], [KStr "b"; KStr "c"; KStr "d"], [KInt 20; KInt 30; KInt 40]) /\
    er_training (er_run r [EAdd (KInt 10) (KStr "z") None (Some [1; 2]); EDiscard (KInt 10)]) = Err KeyErr /\
    er_retrieve (er_run r [EAdd (KInt 10) (KStr "z") None (Some [1; 2])]) [KInt 7; KInt 10] = Ok ([[1; 2]], [KStr "z"], [KInt 7]) /\
    er_discard_ex r [3; 4] = er_discard r (KInt 20).
Proof. eexists. split; [reflexivity|]. repeat split; reflexivity. Qed.

(** ** C25 *)

(** Which data a repository accepts: at least one label, all of them numbers or all of them vectors of one length, one index
    for each, and, when there are examples, one for each, all of one length which is not zero. Anything else is refused with
    a ValueError. *)
Theorem C25_construction : forall labels indexes (examples : option (list vec)),
  let good := List.length indexes = List.length labels /\ labels <> [] /\
    (Forall (fun l => exists v, l = LNum v) labels \/ exists n, Forall (fun l => exists v, l = LVec v /\ List.length v = n) labels) /\
    match examples with
    | Some xs => List.length xs = List.length labels /\ exists d, (0 < d)%nat /\ Forall (fun x => List.length x = d) xs
    | None => True
    end in
  (good -> exists r, mr_init labels indexes examples = Ok r /\ mr_training r = (examples, labels, indexes)) /\
  (~ good -> mr_init labels indexes examples = Err ValueErr).
Proof.
  intros labels indexes examples good.
  assert (LS : labels <> [] /\ (Forall (fun l => exists v, l = LNum v) labels \/ (exists n, Forall (fun l => exists v, l = LVec v /\ List.length v = n) labels)) ->
     exists w, label_shape labels = Ok w).
  { intros [NE S]. unfold label_shape. destruct labels as [|[v|v] ls]; [congruence| |].
    - destruct S as [F|(n & F)].
      + match goal with |- exists w, (if ?b then _ else _) = _ => replace b with true end; [eauto|]. symmetry. apply forallb_forall. intros x Ix.
        rewrite Forall_forall in F. destruct (F x Ix) as (? & ->). reflexivity.
      + apply Forall_inv in F. destruct F as (? & X & _). discriminate.
    - destruct S as [F|(n & F)].
      + apply Forall_inv in F. destruct F as (? & X). discriminate.
      + match goal with |- exists w, (if ?b then _ else _) = _ => replace b with true end; [eauto|]. symmetry. apply forallb_forall. intros x Ix.
        pose proof (Forall_inv F) as (v' & X & L). injection X as <-. rewrite Forall_forall in F. destruct (F x Ix) as (u & -> & Lu).
        cbn. now rewrite Lu, L, Nat.eqb_refl. }
  assert (LS' : forall w, label_shape labels = Ok w -> labels <> [] /\
     (Forall (fun l => exists v, l = LNum v) labels \/ (exists n, Forall (fun l => exists v, l = LVec v /\ List.length v = n) labels))).
  { intros w H. unfold label_shape in H. destruct labels as [|[v|v] ls]; [discriminate| |]; (split; [discriminate|]);
      (match type of H with (if ?b then _ else _) = _ => destruct b eqn:B end; [|discriminate]); rewrite forallb_forall in B.
    - left. apply Forall_forall. intros x Ix. specialize (B x Ix). destruct x; [eauto|discriminate].
    - right. exists (List.length v). apply Forall_forall. intros x Ix. specialize (B x Ix). destruct x as [q|u]; cbn in B; [discriminate|].
      destruct (Nat.eqb_spec (List.length u) (List.length v)); [eauto|discriminate]. }
  assert (LE : forall x, label_shape labels = Err x -> x = ValueErr).
  { intros x H. unfold label_shape in H. destruct labels as [|[v|v] ls]; [congruence| |];
      (match type of H with (if ?b then _ else _) = _ => destruct b end; congruence). }
  assert (W : forall xs, let d := match xs with x :: _ => List.length x | [] => O end in
     (xs <> [] /\ exists d, (0 < d)%nat /\ Forall (fun x : vec => List.length x = d) xs) <->
     forallb (fun x => Nat.eqb (List.length x) d) xs && Nat.ltb 0 d = true).
  { intros xs d. rewrite andb_true_iff, forallb_forall. unfold d. destruct xs as [|x xs]; [split; [intros [? _]; congruence|intros [_ X]; discriminate]|]. split.
    - intros [_ (n & Pn & F)]. pose proof (Forall_inv F) as Lx. cbn beta in Lx. subst n. split; [|now apply Nat.ltb_lt]. intros u Iu. apply Nat.eqb_eq.
      rewrite Forall_forall in F. auto.
    - intros [A B]. split; [discriminate|]. exists (List.length x). apply Nat.ltb_lt in B. split; auto. apply Forall_forall. intros u Iu. apply Nat.eqb_eq. auto. }
  split.
  - intros (LI & NE & S & X). unfold mr_init.
    assert (SL : same_length labels (Some indexes) examples (@None (list unit)) = true).
    { apply same_length_spec. repeat split; try discriminate; [intros l E; now injection E as <-|]. intros l ->. apply X. }
    rewrite SL. cbn [negb]. destruct (LS (conj NE S)) as (w & ->). cbn [bind]. destruct examples as [xs|].
    + destruct X as [LX EX]. assert (NX : xs <> []) by (intros ->; destruct labels; [congruence|discriminate]).
      specialize (W xs). cbn zeta in W. destruct xs as [|x0 xs]; [congruence|]. rewrite (proj1 W (conj NX EX)). cbn [guard bind].
      eexists. split; [reflexivity|]. reflexivity.
    + cbn [guard bind]. eexists. split; reflexivity.
  - intro NG. unfold mr_init. destruct (same_length labels (Some indexes) examples (@None (list unit))) eqn:SL; [|reflexivity].
    apply same_length_spec in SL. destruct SL as (L1 & L2 & _). cbn [negb]. destruct (label_shape labels) as [w|x] eqn:E; [|cbn [bind]; f_equal; eauto].
    cbn [bind]. destruct (LS' _ eq_refl) as [NE S]. destruct examples as [xs|].
    + specialize (W xs). cbn zeta in W.
      destruct (forallb (fun x : vec => Nat.eqb (List.length x) match xs with x :: _ => List.length x | [] => O end) xs && Nat.ltb 0 match xs with x :: _ => List.length x | [] => O end) eqn:B.
      * exfalso. apply NG. destruct (proj2 W B) as [_ EX]. repeat split; auto.
      * destruct xs as [|x0 xs]; [reflexivity|]. unfold guard.
        match goal with |- bind (if ?b then _ else _) _ = _ => replace b with false by (symmetry; exact B) end. reflexivity.
    + exfalso. apply NG. repeat split; auto.
Qed.
Print Assumptions C25_construction.

Example C25_construction_applies : exists r,
  mr_init [LVec [1; 0]; LVec [0; 0]] [4; 7] (Some [[1]; [2]]) = Ok r /\ mr_init [] [] None = Err ValueErr /\ mr_init [LNum 1; LVec [1]] [1; 2] None = Err ValueErr.
Proof. eexists. repeat split; reflexivity. Qed.

(** The three stores always describe the same entries, row by row, and indexes stay unique, for every
    history in which no entry came without a fitting example. *)
Theorem C25_aligned : forall labels indexes examples r h es,
  mr_init labels indexes examples = Ok r -> NoDup indexes -> sized_discards (m_feat r) h ->
  entries_after (m_width r) (is_some examples) (m_feat r) (initial_entries labels indexes examples) h = Some es ->
  mr_training (fst (mr_run r h)) =
    (if is_some examples then Some (map e_example es) else None, map e_label es, map e_index es) /\
  NoDup (map e_index es).
Proof.
  intros labels indexes examples r h es H N SD E. pose proof (mr_init_spec _ _ _ _ H N) as HO.
  destruct (mr_run_spec _ _ _ h r _ es HO SD E) as [W I D Y X XX U L]. split; auto.
  unfold mr_training. rewrite I, Y, X. destruct examples; cbn [is_some] in *; [rewrite XX by auto|]; reflexivity.
Qed.
Print Assumptions C25_aligned.

(** That covers every history of successful calls. *)
Theorem C25_successful : forall labels indexes examples r h,
  mr_init labels indexes examples = Ok r -> NoDup indexes -> sized_discards (m_feat r) h ->
  Forall (fun a => exists b, a = Ok b) (snd (mr_run r h)) ->
  exists es, entries_after (m_width r) (is_some examples) (m_feat r) (initial_entries labels indexes examples) h = Some es.
Proof.
  intros labels indexes examples r h H N SD F. eapply all_ok_entries; eauto. now apply mr_init_spec.
Qed.
Print Assumptions C25_successful.

(** ... and every history, whether calls fail or not, of a repository without examples. *)
Theorem C25_without_examples : forall labels indexes r h,
  mr_init labels indexes None = Ok r ->
  exists es, entries_after (m_width r) false (m_feat r) (initial_entries labels indexes None) h = Some es.
Proof.
  intros labels indexes r h _. generalize (initial_entries labels indexes None) as es.
  assert (AE : forall w d new es, exists x, add_entries w false d es new = Some x).
  { induction new as [|[[l k] x] new IH]; intros es; cbn; [eauto|]. destruct (in_dec _ _ _); auto.
    destruct (right_label_dec w l); eauto. }
  induction h as [|o h IH]; intro es; cbn; [eauto|].
  assert (O : exists es', op_entries (m_width r) false (m_feat r) es o = Some es').
  { destruct o as [l k c x|ls ks cs xs|k x]; cbn [op_entries].
    - destruct (AE (m_width r) (m_feat r) [(l, k, x)] es) as [p ->]. cbn. eauto.
    - destruct (_ && _ && _); [|eauto]. match goal with |- context[add_entries ?w false ?d es ?n] => destruct (AE w d n es) as [p ->] end. cbn. eauto.
    - destruct (match k with Some _ => _ | None => _ end); eauto. destruct x; eauto. destruct k; eauto. }
  destruct O as [es' ->]. apply IH.
Qed.
Print Assumptions C25_without_examples.

(** Retrieval by a list of indexes returns the label and example of each index; an unknown index is an
    IndexError. *)
Theorem C25_retrieve : forall labels indexes examples r h es ks,
  mr_init labels indexes examples = Ok r -> NoDup indexes -> sized_discards (m_feat r) h ->
  entries_after (m_width r) (is_some examples) (m_feat r) (initial_entries labels indexes examples) h = Some es ->
  (forall found, Forall2 (fun k e => In e es /\ e_index e = k) ks found ->
     mr_retrieve (fst (mr_run r h)) ks =
       Ok (if is_some examples then Some (map e_example found) else None, map e_label found)) /\
  ((exists k, In k ks /\ ~ In k (map e_index es)) -> mr_retrieve (fst (mr_run r h)) ks = Err IndexErr).
Proof.
  intros labels indexes examples r h es ks H N SD E. pose proof (mr_init_spec _ _ _ _ H N) as HO.
  destruct (mr_run_spec _ _ _ h r _ es HO SD E) as [W I D Y X XX U L].
  set (r' := fst (mr_run r h)) in *. unfold mr_retrieve, positions. rewrite X.
  assert (P : forall k, match positions_from 0 k (map e_index es) with
     | [] => ~ In k (map e_index es)
     | [p] => exists e, nth_error es p = Some e /\ e_index e = k
     | _ => False end).
  { intro k. pose proof (positions_nodup 0 k _ U) as Q. destruct (positions_from 0 k (map e_index es)) as [|p [|q ps]]; auto.
    destruct Q as [_ Q]. rewrite Nat.sub_0_r, nth_error_map in Q. destruct (nth_error es p) as [e|]; [|discriminate].
    exists e. split; auto. now injection Q. }
  split.
  - intros found F.
    assert (M : exists ps, mapM (fun k => match positions_from 0 k (map e_index es) with p :: _ => Ok p | [] => Err IndexErr end) ks = Ok ps /\
                 Forall2 (fun p e => nth_error es p = Some e) ps found).
    { induction F as [|k e ks found [He <-] F IH]; [exists []; split; constructor|].
      destruct IH as (ps & M & G). pose proof (P (e_index e)) as Q.
      cbn [mapM]. destruct (positions_from 0 (e_index e) (map e_index es)) as [|p [|q qs]]; [| |contradiction].
      - exfalso. apply Q. now apply in_map.
      - destruct Q as (e' & Ee & EI). exists (p :: ps). cbn [bind]. rewrite M. split; auto. constructor; auto.
        assert (e' = e); [|congruence]. apply nth_error_In in Ee. clear - U He Ee EI.
        induction es as [|a es IH]; [contradiction|]. cbn in *. inversion U; subst.
        destruct He as [->|He], Ee as [->|Ee]; auto; exfalso; apply H1; [rewrite <- EI|rewrite EI]; now apply in_map. }
    destruct M as (ps & -> & G). cbn [bind]. unfold mr_rows. rewrite I, Y.
    assert (R : forall {T} (g : mentry -> T), mapM (py_nth (map g es)) ps = Ok (map g found)).
    { intros T g. clear - G. induction G as [|p e ps found Hp G IH]; [reflexivity|]. cbn [mapM map]. unfold py_nth at 1.
      rewrite nth_error_map, Hp. cbn [option_map bind]. rewrite IH. reflexivity. }
    rewrite R. destruct examples; cbn [is_some] in *; [|reflexivity]. rewrite XX by auto. rewrite R. reflexivity.
  - intros (k & J & K).
    assert (M : mapM (fun k => match positions_from 0 k (map e_index es) with p :: _ => Ok p | [] => Err IndexErr end) ks = Err IndexErr).
    { induction ks as [|j ks IH]; [contradiction|]. cbn [mapM]. destruct J as [->|J].
      - pose proof (P k) as Q. destruct (positions_from 0 k (map e_index es)) as [|p [|q qs]]; [reflexivity| |contradiction].
        destruct Q as (e & Ee & <-). exfalso. apply K. apply in_map. eapply nth_error_In; eauto.
      - destruct (positions_from 0 j (map e_index es)); [reflexivity|]. cbn [bind]. rewrite IH by auto. reflexivity. }
    now rewrite M.
Qed.
Print Assumptions C25_retrieve.

(** Retrieval by a bare index also claims that the index of the very first row is missing. *)
Theorem C25_bare_index_refuted : forall labels indexes examples r h e es,
  mr_init labels indexes examples = Ok r -> NoDup indexes -> sized_discards (m_feat r) h ->
  entries_after (m_width r) (is_some examples) (m_feat r) (initial_entries labels indexes examples) h = Some (e :: es) ->
  mr_retrieve_one (fst (mr_run r h)) (e_index e) =
    Ok (true, (if is_some examples then Some [e_example e] else None, [e_label e])).
Proof.
  intros labels indexes examples r h e es H N SD E. pose proof (mr_init_spec _ _ _ _ H N) as HO.
  destruct (mr_run_spec _ _ _ h r _ _ HO SD E) as [W I D Y X XX U L].
  unfold mr_retrieve_one, positions. rewrite X. pose proof (positions_nodup 0 (e_index e) _ U) as Q.
  cbn [map positions_from] in *. rewrite Z.eqb_refl in *. destruct (positions_from 1 (e_index e) (map e_index es)); [|contradiction].
  cbn [Nat.eqb bind]. unfold mr_rows. rewrite I, Y. destruct examples; cbn [is_some] in *; [rewrite XX by auto|]; reflexivity.
Qed.
Print Assumptions C25_bare_index_refuted.

(** An entry whose example is missing is refused, but its label and index stay: examples then belong to
    the wrong index. *)
Theorem C25_missing_example_refuted : forall labels indexes xs r h es l0 k0 c0 l1 k1 c1 x1,
  mr_init labels indexes (Some xs) = Ok r -> NoDup indexes -> sized_discards (m_feat r) h ->
  entries_after (m_width r) true (m_feat r) (initial_entries labels indexes (Some xs)) h = Some es ->
  ~ In k0 (map e_index es) -> ~ In k1 (map e_index es) -> k1 <> k0 ->
  right_label (m_width r) l0 -> right_label (m_width r) l1 -> List.length x1 = m_feat r ->
  let r' := fst (mr_run r h) in
  let r0 := fst (mr_add r' l0 k0 c0 None) in
  snd (mr_add r' l0 k0 c0 None) = Err GenericErr /\
  (exists X y i, mr_training r0 = (Some X, y, i) /\ List.length X = List.length es /\
     List.length y = S (List.length es) /\ List.length i = S (List.length es)) /\
  mr_retrieve r0 [k0] = Err IndexErr /\
  mr_retrieve (fst (mr_add r0 l1 k1 c1 (Some x1))) [k0] = Ok (Some [x1], [l0]).
Proof.
  intros labels indexes xs r h es l0 k0 c0 l1 k1 c1 x1 H N SD E K0 K1 NE RL0 RL1 LX r' r0.
  pose proof (mr_init_spec _ _ _ _ H N) as HO. destruct (mr_run_spec _ _ _ h r _ _ HO SD E) as [W I D Y X XX U L].
  fold r' in W, I, D, Y, X, XX. specialize (XX eq_refl).
  assert (Z0 : zmem k0 (map e_index es) = false) by (apply not_true_iff_false; now rewrite zmem_in).
  assert (Z1 : zmem k1 (map e_index es ++ [k0]) = false).
  { apply not_true_iff_false. rewrite zmem_in, in_app_iff. cbn. intuition congruence. }
  apply label_fits_spec in RL0, RL1.
  assert (R0 : mr_add r' l0 k0 c0 None = (r0, Err GenericErr)).
  { unfold r0, mr_add. rewrite X, Z0, W, RL0, I. reflexivity. }
  assert (F0 : m_y r0 = map e_label es ++ [l0] /\ m_idx r0 = map e_index es ++ [k0] /\ m_X r0 = map e_example es /\
               m_inst r0 = true /\ m_width r0 = m_width r /\ m_feat r0 = m_feat r).
  { unfold r0, mr_add. rewrite X, Z0, W, RL0, I. cbn. rewrite Y, XX, ?D, ?W. auto 10. }
  destruct F0 as (Y0 & X0 & XX0 & I0 & W0 & D0).
  assert (PO : forall n l, positions_from n k0 (map e_index es ++ k0 :: l) = (n + List.length es)%nat :: positions_from (S (n + List.length es)) k0 l).
  { clear - K0. induction es as [|e es IH]; intros n l; cbn [map app positions_from List.length].
    - rewrite Z.eqb_refl, Nat.add_0_r. reflexivity.
    - assert ((e_index e =? k0) = false) as -> by (apply Z.eqb_neq; intro Z; apply K0; now left).
      rewrite IH by (intro J; apply K0; now right).
      replace (S n + List.length es)%nat with (n + S (List.length es))%nat by lia. reflexivity. }
  split; [now rewrite R0|]. split; [|split].
  - unfold mr_training. rewrite I0, Y0, X0, XX0. do 3 eexists. split; [reflexivity|]. rewrite !app_length, !map_length. cbn. lia.
  - unfold mr_retrieve, positions. rewrite X0. cbn [mapM]. rewrite PO. cbn [bind mapM]. unfold mr_rows. rewrite I0, XX0.
    cbn [mapM]. unfold py_nth at 1. rewrite (proj2 (nth_error_None _ _)); [reflexivity|]. rewrite map_length. cbn. lia.
  - unfold mr_add. rewrite X0, Z1, W0, RL1, I0, D0, LX, Nat.eqb_refl. cbn [fst].
    unfold mr_retrieve, positions. cbn [m_idx mapM]. rewrite <- app_assoc. cbn [app]. rewrite PO. cbn [bind mapM].
    unfold mr_rows. cbn [m_inst m_X m_y]. rewrite Y0, XX0. cbn [mapM Nat.add]. unfold py_nth.
    rewrite nth_error_app2 by (rewrite map_length; lia). rewrite map_length, Nat.sub_diag. cbn [nth_error bind rmap].
    rewrite <- app_assoc, nth_error_app2 by (rewrite map_length; lia). rewrite map_length, Nat.sub_diag. reflexivity.
Qed.
Print Assumptions C25_missing_example_refuted.

(** Costs: every new entry is paid once; repeated indexes, discards and refused labels cost nothing; the
    total is the sum of the recorded costs, after any history. *)
Theorem C25_costs : forall labels indexes examples r h,
  mr_init labels indexes examples = Ok r ->
  (m_cost (fst (mr_run r h)) == fold_right Qplus 0 (present (m_costs (fst (mr_run r h)))))%Q /\
  (forall l k c x, let r' := fst (mr_run r h) in
     m_costs (fst (mr_add r' l k c x)) =
       if in_dec Z.eq_dec k (m_idx r') then m_costs r'
       else if right_label_dec (m_width r') l then m_costs r' ++ [c] else m_costs r') /\
  (forall k x, m_costs (fst (mr_discard (fst (mr_run r h)) k x)) = m_costs (fst (mr_run r h))).
Proof.
  intros labels indexes examples r h H.
  assert (PA : forall a b, (fold_right Qplus 0 (present (a ++ b)) == fold_right Qplus 0 (present a) + fold_right Qplus 0 (present b))%Q).
  { intros a b. unfold present. rewrite flat_map_app. induction (flat_map _ a) as [|q l IH]; cbn; [now rewrite Qplus_0_l|].
    rewrite IH. now rewrite Qplus_assoc. }
  set (ok := fun r => (m_cost r == fold_right Qplus 0 (present (m_costs r)))%Q).
  assert (AddC : forall r l k c x, m_costs (fst (mr_add r l k c x)) =
     if in_dec Z.eq_dec k (m_idx r) then m_costs r else if right_label_dec (m_width r) l then m_costs r ++ [c] else m_costs r).
  { intros r0 l k c x. unfold mr_add. destruct (in_dec Z.eq_dec k (m_idx r0)) as [J|J].
    - apply zmem_in in J. now rewrite J.
    - assert (zmem k (m_idx r0) = false) as -> by (apply not_true_iff_false; now rewrite zmem_in).
      destruct (right_label_dec (m_width r0) l) as [R|R].
      + rewrite (proj2 (label_fits_spec _ _) R). destruct (m_inst r0); [|reflexivity]. destruct x as [v|]; [|reflexivity].
        destruct (Nat.eqb _ _); reflexivity.
      + destruct (label_fits (m_width r0) l) eqn:F; [reflexivity|]. apply label_fits_spec in F. contradiction. }
  assert (AddO : forall r l k c x, ok r -> ok (fst (mr_add r l k c x))).
  { unfold ok. intros r0 l k c x O. unfold mr_add. destruct (zmem k (m_idx r0)); auto. destruct (label_fits _ _); auto.
    assert (G : (match c with Some q => (m_cost r0 + q)%Q | None => m_cost r0 end == fold_right Qplus 0 (present (m_costs r0 ++ [c])))%Q).
    { rewrite PA. rewrite <- O. destruct c; cbn; now rewrite ?Qplus_0_r. }
    destruct (m_inst r0); [|exact G]. destruct x as [v|]; [|exact G]. destruct (Nat.eqb _ _); exact G. }
  assert (LoopO : forall new r, ok r -> ok (fst (mr_loop r new))).
  { induction new as [|[[[l k] c] x] new IH]; intros r0 O; cbn [mr_loop]; auto. pose proof (AddO r0 l k c x O) as P.
    destruct (mr_add r0 l k c x) as [r1 [b|e]]; cbn [fst] in *; auto. }
  assert (Keep : forall r mask, m_costs (fst (mr_keep r mask)) = m_costs r /\ m_cost (fst (mr_keep r mask)) = m_cost r).
  { intros r0 mask. unfold mr_keep. destruct (select mask (m_y r0)), (select mask (m_idx r0)); auto.
    destruct (m_inst r0); auto. destruct (select mask (m_X r0)); auto. }
  assert (Disc : forall r k x, m_costs (fst (mr_discard r k x)) = m_costs r /\ m_cost (fst (mr_discard r k x)) = m_cost r).
  { intros r0 k x. unfold mr_discard. destruct k as [k|]; [destruct (negb (zmem k (m_idx r0))); [auto|]|];
      (destruct x as [x|]; [|auto]); (destruct (negb (m_inst r0)); [auto|]); destruct (find_example _ _); auto; destruct (Nat.ltb _ _); auto. }
  split; [|split; [intros; apply AddC|intros; apply Disc]].
  assert (O0 : ok r).
  { unfold mr_init in H. destruct (negb _); [discriminate|]. destruct (label_shape labels); [|discriminate]. cbn [bind] in H.
    match goal with H : context[guard ?b _] |- _ => destruct b end; [|discriminate]. cbn [guard bind] in H. injection H as <-. unfold ok. cbn. reflexivity. }
  clear H. revert r O0. induction h as [|o h IH]; intros r O0; [exact O0|]. cbn [mr_run].
  assert (S : ok (fst (mr_step r o))).
  { destruct o as [l k c x|ls ks cs xs|k x]; cbn [mr_step].
    - now apply AddO.
    - unfold mr_update. destruct (negb _); auto.
      match goal with |- context[mr_loop r ?e] => pose proof (LoopO e r O0) as P; destruct (mr_loop r e) as [r1 [u|e0]] end; exact P.
    - unfold ok. destruct (Disc r k x) as [-> ->]. exact O0. }
  destruct (mr_step r o) as [r1 a]. cbn [fst] in S. specialize (IH r1 S). destruct (mr_run r1 h) as [r2 t]. exact IH.
Qed.
Print Assumptions C25_costs.

(** The query history grows by one record per successful list update, and by nothing else. *)
Theorem C25_history : forall labels indexes examples r h,
  mr_init labels indexes examples = Ok r ->
  m_num (fst (mr_run r h)) = List.length (m_hist (fst (mr_run r h))) /\
  m_hist (fst (mr_run r h)) =
    flat_map (fun oa => match oa with (MUpdate ls ks cs xs, Ok _) => [(ls, cs, ks)] | _ => [] end)
             (combine h (snd (mr_run r h))).
Proof.
  intros labels indexes examples r h H.
  assert (H0 : m_num r = O /\ m_hist r = []).
  { unfold mr_init in H. destruct (negb _); [discriminate|]. destruct (label_shape labels); [|discriminate]. cbn [bind] in H.
    match goal with H : context[guard ?b _] |- _ => destruct b end; [|discriminate]. cbn [guard bind] in H. injection H as <-. auto. }
  clear H.
  assert (Add : forall r l k c x, m_num (fst (mr_add r l k c x)) = m_num r /\ m_hist (fst (mr_add r l k c x)) = m_hist r).
  { intros r0 l k c x. unfold mr_add. destruct (zmem k (m_idx r0)); auto. destruct (label_fits _ _); auto.
    destruct (m_inst r0); auto. destruct x as [v|]; auto. destruct (Nat.eqb _ _); auto. }
  assert (Loop : forall new r, m_num (fst (mr_loop r new)) = m_num r /\ m_hist (fst (mr_loop r new)) = m_hist r).
  { induction new as [|[[[l k] c] x] new IH]; intros r0; cbn [mr_loop]; auto. pose proof (Add r0 l k c x) as P.
    destruct (mr_add r0 l k c x) as [r1 [b|e]]; cbn [fst] in *; auto. destruct (IH r1) as [-> ->]. auto. }
  assert (Keep : forall r mask, m_num (fst (mr_keep r mask)) = m_num r /\ m_hist (fst (mr_keep r mask)) = m_hist r).
  { intros r0 mask. unfold mr_keep. destruct (select mask (m_y r0)), (select mask (m_idx r0)); auto.
    destruct (m_inst r0); auto. destruct (select mask (m_X r0)); auto. }
  assert (Disc : forall r k x, m_num (fst (mr_discard r k x)) = m_num r /\ m_hist (fst (mr_discard r k x)) = m_hist r).
  { intros r0 k x. unfold mr_discard. destruct k as [k|]; [destruct (negb (zmem k (m_idx r0))); [auto|]|];
      (destruct x as [x|]; [|auto]); (destruct (negb (m_inst r0)); [auto|]); destruct (find_example _ _); auto; destruct (Nat.ltb _ _); auto. }
  assert (Step : forall r o, let new := (fun oa => match oa with (MUpdate ls ks cs xs, Ok _) => [(ls, cs, ks)] | _ => [] end) (o, snd (mr_step r o)) in
            m_num (fst (mr_step r o)) = (m_num r + List.length new)%nat /\ m_hist (fst (mr_step r o)) = m_hist r ++ new).
  { intros r0 [l k c x|ls ks cs xs|k x]; cbn [mr_step].
    - cbv zeta. destruct (Add r0 l k c x) as [-> ->]. now rewrite app_nil_r, Nat.add_0_r.
    - unfold mr_update. destruct (negb _); [cbn; now rewrite app_nil_r, Nat.add_0_r|].
      match goal with |- context[mr_loop r0 ?e] => pose proof (Loop e r0) as P; destruct (mr_loop r0 e) as [r1 [u|e0]] end;
        cbn in *; destruct P as [-> ->]; [split; [lia|reflexivity]|now rewrite app_nil_r, Nat.add_0_r].
    - cbv zeta. destruct (Disc r0 k x) as [-> ->]. now rewrite app_nil_r, Nat.add_0_r. }
  assert (G : forall h r,
    m_num (fst (mr_run r h)) = (m_num r + List.length (flat_map (fun oa => match oa with (MUpdate ls ks cs xs, Ok _) => [(ls, cs, ks)] | _ => [] end)
             (combine h (snd (mr_run r h)))))%nat /\
    m_hist (fst (mr_run r h)) = m_hist r ++ flat_map (fun oa => match oa with (MUpdate ls ks cs xs, Ok _) => [(ls, cs, ks)] | _ => [] end)
             (combine h (snd (mr_run r h)))).
  { clear - Step. induction h as [|o h IH]; intro r; [cbn; now rewrite app_nil_r, Nat.add_0_r|].
    cbn [mr_run]. destruct (Step r o) as [S1 S2]. destruct (mr_step r o) as [r1 a]. cbn [fst snd] in S1, S2.
    destruct (IH r1) as [I1 I2]. destruct (mr_run r1 h) as [r2 t]. cbn [fst snd combine flat_map] in *.
    rewrite I1, I2, S1, S2. rewrite app_length, app_assoc. split; [lia|reflexivity]. }
  destruct (G h r) as [G1 G2]. destruct H0 as [N0 Y0]. rewrite N0, Y0 in *. split; [now rewrite G1, G2|exact G2].
Qed.
Print Assumptions C25_history.

(** Retrieval by examples: each stored one, in order, with the label of the first entry having it. *)
Theorem C25_retrieve_by_examples : forall labels indexes xs r h es qs,
  mr_init labels indexes (Some xs) = Ok r -> NoDup indexes -> sized_discards (m_feat r) h ->
  entries_after (m_width r) true (m_feat r) (initial_entries labels indexes (Some xs)) h = Some es ->
  Forall (fun q => List.length q = m_feat r) qs ->
  let first q := find (fun e => if vec_dec (e_example e) q then true else false) es in
  mr_retrieve_ex (fst (mr_run r h)) qs =
    Ok (Some (flat_map (fun q => match first q with Some e => [e_example e] | None => [] end) qs),
        flat_map (fun q => match first q with Some e => [e_label e] | None => [] end) qs).
Proof.
  intros labels indexes xs r h es qs H N SD E FQ first. pose proof (mr_init_spec _ _ _ _ H N) as HO.
  destruct (mr_run_spec _ _ _ h r _ es HO SD E) as [W I D Y X XX U L]. specialize (XX eq_refl). specialize (L eq_refl).
  unfold mr_retrieve_ex. rewrite I. cbn [is_some negb]. rewrite XX.
  assert (P : forall q, List.length q = m_feat r ->
    match find_example (map e_example es) q with
    | None => first q = None
    | Some p => exists e, nth_error es p = Some e /\ first q = Some e end).
  { intros q LQ. unfold first. clear - L LQ. induction L as [|e es Le L IH]; [reflexivity|]. cbn [map find_example find].
    unfold np_all_eq. rewrite Le, LQ, Nat.eqb_refl. destruct (vec_dec (e_example e) q) as [->|n].
    - rewrite (proj2 (zl_ok q q) eq_refl). exists e. auto.
    - destruct (zlist_eqb (e_example e) q) eqn:Z; [apply zl_ok in Z; contradiction|].
      destruct (find_example (map e_example es) q) as [p|]; cbn [option_map]; exact IH. }
  assert (M : exists ps found, flat_map (fun x => match find_example (map e_example es) x with Some p => [p] | None => [] end) qs = ps /\
            Forall2 (fun p e => nth_error es p = Some e) ps found /\
            map e_example found = flat_map (fun q => match first q with Some e => [e_example e] | None => [] end) qs /\
            map e_label found = flat_map (fun q => match first q with Some e => [e_label e] | None => [] end) qs).
  { clear - P FQ. induction FQ as [|q qs LQ FQ IH]; [exists [], []; repeat split; constructor|].
    destruct IH as (ps & found & I1 & I2 & I3 & I4). pose proof (P q LQ) as Pq. cbn [flat_map].
    destruct (find_example (map e_example es) q) as [p|].
    - destruct Pq as (e & Ee & ->). exists (p :: ps), (e :: found). rewrite I1. repeat split; [now constructor|cbn; now rewrite I3|cbn; now rewrite I4].
    - rewrite Pq. exists ps, found. auto. }
  destruct M as (ps & found & -> & G & <- & <-). unfold mr_rows. rewrite I, Y, XX. cbn [is_some].
  assert (R : forall {T} (g : mentry -> T), mapM (py_nth (map g es)) ps = Ok (map g found)).
  { intros T g. clear - G. induction G as [|p e ps found Hp G IH]; [reflexivity|]. cbn [mapM map]. unfold py_nth at 1.
    rewrite nth_error_map, Hp. cbn [option_map bind]. rewrite IH. reflexivity. }
  rewrite !R. reflexivity.
Qed.
Print Assumptions C25_retrieve_by_examples.

(** A one-element example is broadcast: discarding it removes the first row all of whose features equal it,
    although no such example was stored. *)
Theorem C25_broadcast_refuted : forall labels indexes x xs r a,
  mr_init labels indexes (Some (x :: xs)) = Ok r -> NoDup indexes -> x <> [] -> (forall b, In b x -> b = a) ->
  m_idx (fst (mr_discard r None (Some [a]))) = tl indexes /\ m_X (fst (mr_discard r None (Some [a]))) = xs.
Proof.
  intros labels indexes x xs r a H N NE C.
  assert (Q : np_all_eq x [a] = true).
  { unfold np_all_eq. destruct (Nat.eqb_spec (List.length x) (List.length [a])) as [E|E].
    - destruct x as [|b [|c x]]; try discriminate. cbn. rewrite (C b) by now left. now rewrite Z.eqb_refl.
    - assert (F : forallb (Z.eqb a) x = true) by (apply forallb_forall; intros b J; rewrite (C b J); apply Z.eqb_refl).
      destruct x as [|b [|c x]]; [contradiction|now destruct E|exact F]. }
  pose proof (mr_init_spec _ _ _ _ H N) as [W I D Y X XX U L]. specialize (XX eq_refl). cbn [is_some] in I.
  unfold mr_init in H. destruct (same_length _ _ _ _) eqn:SL; [|discriminate]. cbn [negb] in H.
  destruct (label_shape labels); [|discriminate]. cbn [bind] in H.
  match type of H with context[guard ?b _] => destruct b end; [|discriminate]. cbn [guard bind] in H. injection H as H.
  apply same_length_spec in SL. destruct SL as (S1 & S2 & _). specialize (S1 _ eq_refl). specialize (S2 _ eq_refl).
  assert (XE : m_X r = x :: xs) by now rewrite <- H. assert (IE : m_idx r = indexes) by now rewrite <- H.
  assert (YE : m_y r = labels) by now rewrite <- H.
  unfold mr_discard. rewrite I, XE. cbn [negb find_example]. rewrite Q.
  assert (SEL : forall {T} (l : list T) k n, List.length l = n ->
            select (map (fun i => negb (Nat.eqb i 0)) (seq (S k) n)) l = Ok l).
  { induction l as [|t l IH]; intros k n <-; [reflexivity|]. cbn. now rewrite (IH (S k) _ eq_refl). }
  destruct indexes as [|i indexes]; [rewrite <- S1 in S2; discriminate|].
  destruct labels as [|l labels]; [discriminate|]. cbn [List.length] in *. injection S1 as S1. injection S2 as S2.
  rewrite IE. cbn [List.length Nat.ltb Nat.leb seq map Nat.eqb negb]. unfold mr_keep. rewrite YE, IE, XE, I. cbn [select].
  rewrite !SEL by congruence. cbn. auto.
Qed.
Print Assumptions C25_broadcast_refuted.

Example C25_example :
  exists r, mr_init [LNum 1; LNum 0] [10; 20] (Some [[1; 2]; [3; 4]]) = Ok r /\
    let h := [MUpdate [LNum 5; LNum 6] [30; 40] (Some [1; 2]%Q) (Some [[5; 6]; [7; 8]]); MAdd (LNum 9) 10 None None;
              MDiscard (Some 20) None; MDiscard None (Some [5; 6]); MAdd (LVec [1]) 50 None (Some [0; 0])] in
    mr_training (fst (mr_run r h)) = (Some [[1; 2]; [7; 8]], [LNum 1; LNum 6], [10; 40]) /\
    entries_after None true 2 (initial_entries [LNum 1; LNum 0] [10; 20] (Some [[1; 2]; [3; 4]])) h =
      Some [(10, LNum 1, [1; 2]); (40, LNum 6, [7; 8])] /\
    mr_retrieve (fst (mr_run r h)) [40] = Ok (Some [[7; 8]], [LNum 6]) /\
    mr_retrieve (fst (mr_add (fst (mr_add r (LNum 7) 70 None None)) (LNum 8) 80 None (Some [8; 8]))) [70] = Ok (Some [[8; 8]], [LNum 7]).
Proof. eexists. split; [reflexivity|]. repeat split; reflexivity. Qed.
