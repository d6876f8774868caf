(** Properties C20-C23 and C26: oracles, pools of oracles, majority votes. *)
From Verif Require Import Base BaseFacts IndexModel IndexProofs MLModel MLSpec StateModel StateProofs Dict
  OracleModel OracleSpec OracleProofs OracleProofs2 VoteProofs.
From Coq Require Import String QArith.
Local Open Scope Z_scope.

(** ** C20 *)

(** After any history of [add_knowledge] calls (successful or not), a query answers for every index, in
    order, the label and cost recorded last. *)
Theorem C20_answers : forall labels examples indexes cost o h ks ls cs,
  or_init labels examples indexes cost = Ok o ->
  (or_query (or_run o h) ks = Ok (ls, cs) <->
   List.length ls = List.length cs /\
   Forall2 (fun k lc => latest key_dec k (known (o_type o) labels examples indexes cost h) = Some lc) ks (combine ls cs)).
Proof.
  intros labels examples indexes cost o h ks ls cs H. rewrite (or_query_history _ _ _ _ _ h ks H).
  rewrite <- (mapM_iff (fun k => match latest key_dec k (known (o_type o) labels examples indexes cost h) with
                                 | Some v => Ok v | None => Err TypeErr end)).
  2:{ intros x y. destruct (latest _ _ _); split; congruence. }
  destruct (mapM _ ks) as [r|e]; cbn.
  - split; intro X.
    + injection X as X. apply split_combine_iff in X. destruct X as [L ->]. auto.
    + destruct X as [L X]. injection X as ->. f_equal. now apply split_combine_iff.
  - split; [discriminate|intros [_ X]; discriminate].
Qed.
Print Assumptions C20_answers.

(** A query fails exactly when some index is unknown, and the failure is a TypeError (not a KeyError). *)
Theorem C20_unknown_index : forall labels examples indexes cost o h ks,
  or_init labels examples indexes cost = Ok o ->
  (forall e, or_query (or_run o h) ks = Err e ->
     e = TypeErr /\ exists k, In k ks /\ ~ In k (map fst (known (o_type o) labels examples indexes cost h))) /\
  ((exists k, In k ks /\ ~ In k (map fst (known (o_type o) labels examples indexes cost h))) ->
     or_query (or_run o h) ks = Err TypeErr).
Proof.
  intros labels examples indexes cost o h ks H. rewrite (or_query_history _ _ _ _ _ h ks H).
  rewrite mapM_all_err. set (kn := known _ _ _ _ _ _).
  destruct (forallb (fun x => is_some (latest key_dec x kn)) ks) eqn:F; cbn.
  - split; [discriminate|]. intros (k & I & N). rewrite forallb_forall in F. apply F in I.
    apply latest_none with (dec := key_dec) in N. rewrite N in I. discriminate.
  - split; auto. intros e E. injection E as <-. split; auto.
    assert (X : existsb (fun x => negb (is_some (latest key_dec x kn))) ks = true).
    { clear - F. induction ks as [|k ks IH]; cbn in *; [discriminate|].
      destruct (is_some (latest key_dec k kn)); cbn in *; auto. }
    apply existsb_exists in X. destruct X as (k & I & N). exists k. split; auto.
    apply latest_none with (dec := key_dec). destruct (latest key_dec k kn); [discriminate|auto].
Qed.
Print Assumptions C20_unknown_index.

(** Last write wins; entries not mentioned are unchanged. *)
Theorem C20_last_write : forall labels examples indexes cost o h l k x c,
  or_init labels examples indexes cost = Ok o ->
  snd (or_teach (or_run o h) (TOne l k x c)) = Ok tt ->
  or_query (or_run o (h ++ [TOne l k x c])) [k] =
    Ok ([l], [if is_some cost then match c with Some q => q | None => 1%Q end else 1%Q]) /\
  forall ks, ~ In k ks -> or_query (or_run o (h ++ [TOne l k x c])) ks = or_query (or_run o h) ks.
Proof.
  intros labels examples indexes cost o h l k x c H OK.
  destruct (or_init_spec _ _ _ _ _ H) as (I & C & _). destruct (or_run_spec h o) as (T' & I' & C' & _).
  destruct (or_teach (or_run o h) (TOne l k x c)) as [o' r] eqn:E. cbn in OK. subst r.
  apply or_teach_spec in E. destruct E as (_ & [E _] & _). specialize (E eq_refl). destruct E as [_ E].
  rewrite T', I', C', I, C in E.
  assert (L : learned (o_type o) (is_some examples) (is_some cost) (TOne l k x c) =
              [(k, (l, if is_some cost then match c with Some q => q | None => 1%Q end else 1%Q))]).
  { unfold learned. cbn [offered forallb] in *. rewrite andb_true_r in E. cbn [prefix_ok]. rewrite E. reflexivity. }
  assert (K : known (o_type o) labels examples indexes cost (h ++ [TOne l k x c]) =
              known (o_type o) labels examples indexes cost h ++
              [(k, (l, if is_some cost then match c with Some q => q | None => 1%Q end else 1%Q))]).
  { unfold known. rewrite flat_map_app. cbn [flat_map]. rewrite L. cbn [app]. now rewrite app_assoc. }
  split.
  - rewrite (or_query_history _ _ _ _ _ _ _ H), K. cbn. rewrite latest_app. cbn.
    destruct (key_dec k k); [|contradiction]. reflexivity.
  - intros ks N. rewrite !(or_query_history _ _ _ _ _ _ _ H), K. f_equal.
    clear - N. induction ks as [|k' ks IH]; cbn; auto. rewrite IH by (cbn in N; tauto).
    rewrite latest_app. cbn. destruct (key_dec k' k) as [->|]; [exfalso; apply N; now left|]. reflexivity.
Qed.
Print Assumptions C20_last_write.

(** Which calls succeed; a call with lists of different lengths changes no answer. *)
Theorem C20_outcomes : forall labels examples indexes cost o h c,
  or_init labels examples indexes cost = Ok o ->
  (snd (or_teach (or_run o h) c) = Ok tt <->
   well_formed c = true /\
   forallb (entry_ok (o_type o) (is_some examples) (is_some cost)) (offered c) = true) /\
  (well_formed c = false -> forall ks, or_query (or_run o (h ++ [c])) ks = or_query (or_run o h) ks).
Proof.
  intros labels examples indexes cost o h c H.
  destruct (or_init_spec _ _ _ _ _ H) as (I & C & _). destruct (or_run_spec h o) as (T' & I' & C' & _).
  split.
  - destruct (or_teach (or_run o h) c) as [o' r] eqn:E. apply or_teach_spec in E. destruct E as (_ & E & _).
    rewrite T', I', C', I, C in E. exact E.
  - intros W ks. rewrite !(or_query_history _ _ _ _ _ _ _ H).
    assert (K : known (o_type o) labels examples indexes cost (h ++ [c]) = known (o_type o) labels examples indexes cost h).
    { unfold known. rewrite flat_map_app. cbn [flat_map]. unfold learned.
      replace (offered c) with (@nil (key * key * option vec * option Q)); [cbn; now rewrite app_nil_r|].
      destruct c as [|ls ks' xs cs]; [discriminate|]. unfold offered. now rewrite W. }
    now rewrite K.
Qed.
Print Assumptions C20_outcomes.

(** As many as labels, where given. *)
Definition fits {A T} (labels : list A) (l : option (list T)) : Prop := forall x, l = Some x -> List.length x = List.length labels.

(** An oracle can be made exactly from at least one label and as many examples, indexes and costs, where given; anything else is a
    ValueError. *)
Theorem C20_construction : forall labels examples indexes cost,
  ((exists o, or_init labels examples indexes cost = Ok o) <-> labels <> [] /\ fits labels examples /\ fits labels indexes /\ fits labels cost) /\
  forall e, or_init labels examples indexes cost = Err e -> e = ValueErr.
Proof.
  intros labels examples indexes cost. unfold or_init.
  assert (S1 : forall T (l : option (list T)), match l with None => true | Some x => Nat.eqb (List.length x) (List.length labels) end = true <-> fits labels l).
  { intros T [x|]; unfold fits; [rewrite Nat.eqb_eq|]; split; try congruence; intros; try congruence. auto. }
  assert (SL : same_length labels examples indexes cost = true <-> fits labels examples /\ fits labels indexes /\ fits labels cost).
  { unfold same_length. rewrite !andb_true_iff, !S1. tauto. }
  assert (NL : np_asarray (map VKey labels) = [] <-> labels = []).
  { unfold np_asarray. destruct labels; [cbn; tauto|]. split; [|discriminate]. destruct (existsb _ _); discriminate. }
  destruct (same_length labels examples indexes cost) eqn:E; cbn [negb].
  - destruct (np_asarray (map VKey labels)) as [|l0 l] eqn:El.
    + split; [|congruence]. split; [intros [o D]; discriminate|]. intros [D _]. tauto.
    + split; [|discriminate]. split; [intros _|eauto]. split; [|tauto]. intro D. apply NL in D. discriminate.
  - split; [|congruence]. split; [intros [o D]; discriminate|]. intros [_ D]. apply SL in D. discriminate.
Qed.
Print Assumptions C20_construction.

Example C20_example :
  let o := or_init [KInt 1; KInt 0] None None (Some [2%Q; 3%Q]) in
  exists o0, o = Ok o0 /\
    or_query (or_run o0 [TOne (KInt 7) (KInt 1) None (Some 5%Q); TMany [KInt 4; KStr "x"] [KInt 9; KInt 0] None (Some [1%Q; 1%Q]);
                         TOne (KInt 8) (KInt 0) None None])
             [KInt 1; KInt 0; KInt 9; KInt 1] = Ok ([KInt 7; KInt 1; KInt 4; KInt 7], [5%Q; 2%Q; 1%Q; 5%Q]) /\
    or_query o0 [KInt 5] = Err TypeErr.
Proof. eexists. split; [reflexivity|]. split; reflexivity. Qed.

(** ** C21 *)

(** Answers by example: each vector is resolved to the index it was last supplied with. *)
Theorem C21_by_example : forall labels xs indexes cost o h qs,
  or_init labels (Some xs) indexes cost = Ok o -> qs <> [] ->
  (forall ks, Forall2 (fun x k => latest vec_dec x (known_examples (o_type o) labels xs indexes cost h) = Some k) qs ks ->
     or_query_ex (or_run o h) qs = or_query (or_run o h) ks) /\
  ((exists x, In x qs /\ ~ In x (map fst (known_examples (o_type o) labels xs indexes cost h))) ->
     or_query_ex (or_run o h) qs = Err TypeErr).
Proof.
  intros labels xs indexes cost o h qs H NE. destruct (or_history _ _ _ _ _ h H) as (I & _ & _ & X).
  unfold or_query_ex. rewrite I. cbn [is_some negb].
  replace (match qs with [] => [[]] | _ :: _ => qs end) with qs by (destruct qs; [contradiction|reflexivity]).
  clear NE. split.
  - intros ks F.
    assert (M : mapM (fun x => match exa_get x (o_exa (or_run o h)) with Some k => Ok k | None => Err TypeErr end) qs = Ok ks).
    { apply (mapM_iff _ (fun x k => latest vec_dec x (known_examples (o_type o) labels xs indexes cost h) = Some k)); auto.
      intros x y. rewrite (X xs x eq_refl). destruct (latest _ _ _); split; congruence. }
    now rewrite M.
  - intros (x & Hx & N). rewrite mapM_all_err.
    assert (F : forallb (fun x => is_some (exa_get x (o_exa (or_run o h)))) qs = false).
    { apply not_true_iff_false. intro F. rewrite forallb_forall in F. apply F in Hx. rewrite (X xs x eq_refl) in Hx.
      apply latest_none with (dec := vec_dec) in N. rewrite N in Hx. discriminate. }
    now rewrite F.
Qed.
Print Assumptions C21_by_example.

(** What is refused: any question by example to an oracle made without examples, and an empty list of examples, which is taken
    for one vector without features. *)
Theorem C21_refused : forall labels indexes cost,
  (forall o h qs, or_init labels None indexes cost = Ok o -> or_query_ex (or_run o h) qs = Err GenericErr) /\
  (forall xs o h, or_init labels (Some xs) indexes cost = Ok o ->
     ~ In [] (map fst (known_examples (o_type o) labels xs indexes cost h)) -> or_query_ex (or_run o h) [] = Err TypeErr).
Proof.
  intros labels indexes cost. split.
  - intros o h qs H. destruct (or_history _ _ _ _ _ h H) as (I & _). unfold or_query_ex. rewrite I. reflexivity.
  - intros xs o h H N. destruct (or_history _ _ _ _ _ h H) as (I & _ & _ & X). unfold or_query_ex. rewrite I. cbn [is_some negb mapM bind].
    rewrite (X xs [] eq_refl). apply latest_none with (dec := vec_dec) in N. rewrite N. reflexivity.
Qed.
Print Assumptions C21_refused.
Example C21_refused_example : exists o, or_init [KInt 1; KInt 0] (Some [[3; 4]; [5; 6]]) None None = Ok o /\ ~ In [] (map fst (known_examples (o_type o) [KInt 1; KInt 0] [[3; 4]; [5; 6]] None None [])).
Proof. eexists. split; [reflexivity|]. cbn. intuition discriminate. Qed.

(** If every index always comes with its own feature vector, asking by vector is asking by index, after
    any history. *)
Theorem C21_same_as_index : forall labels xs indexes cost o h (feature : key -> vec) ks,
  or_init labels (Some xs) indexes cost = Ok o ->
  (forall k k', feature k = feature k' -> k = k') ->
  (forall x k, In (x, k) (initial_examples labels xs indexes) -> x = feature k) ->
  (forall c l k x q, In c h -> In (l, k, Some x, q) (offered c) -> x = feature k) ->
  ks <> [] ->
  or_query_ex (or_run o h) (map feature ks) = or_query (or_run o h) ks.
Proof.
  intros labels xs indexes cost o h feature ks H Inj Hi Hh NE.
  set (ke := known_examples (o_type o) labels xs indexes cost h).
  set (kn := known (o_type o) labels (Some xs) indexes cost h).
  assert (F : forall x k, In (x, k) ke -> x = feature k).
  { unfold ke, known_examples. intros x k I. rewrite in_app_iff in I. destruct I as [I|I]; auto.
    apply in_flat_map in I. destruct I as (c & Ic & I). specialize (fun l q => Hh c l k x q Ic).
    clear - I Hh. induction (offered c) as [|[[[l k'] x'] q] es IH]; [contradiction|].
    cbn in I. destruct x' as [x'|]; [|contradiction]. destruct (ty_eqb (key_ty l) (o_type o)); [|contradiction].
    destruct I as [I|I].
    - injection I as -> ->. apply (Hh l q). now left.
    - destruct (implb _ _); [|contradiction]. apply IH; auto. intros l' q' J. apply (Hh l' q'). now right. }
  assert (G : forall k, In k (map fst kn) -> In (feature k) (map fst ke)).
  { intros k I. apply in_map_iff in I. destruct I as ([k0 v] & Ek & I). cbn in Ek. subst k0.
    assert (S : exists x, In (x, k) ke).
    { unfold kn, known in I. rewrite in_app_iff in I. unfold ke, known_examples.
      destruct I as [I|I].
      - unfold initial_facts in I. apply in_map_iff in I. destruct I as (i & E & J). injection E as <- _.
        eexists. apply in_app_iff. left. unfold initial_examples. apply in_map_iff. exists i. split; [reflexivity|auto].
      - apply in_flat_map in I. destruct I as (c & Ic & I).
        assert (exists x, In (x, k) (examples_of (o_type o) (is_some cost) (offered c))) as [x J].
        { clear - I. unfold learned in I. induction (offered c) as [|[[[l k'] x'] q] es IH]; cbn in I; [contradiction|].
          destruct (ty_eqb (key_ty l) (o_type o) && is_some x' && implb (is_some cost) (is_some q)) eqn:OK; [|contradiction].
          rewrite !andb_true_iff in OK. destruct OK as [[O1 O2] O3]. destruct x' as [x'|]; [|discriminate].
          cbn. rewrite O1, O3. destruct I as [I|I].
          - injection I as <- _. exists x'. now left.
          - destruct (IH I) as [x J]. exists x. now right. }
        exists x. apply in_app_iff. right. apply in_flat_map. eauto. }
    destruct S as [x S]. rewrite <- (F _ _ S). apply in_map_iff. exists (x, k). auto. }
  assert (L : forall k, In k (map fst kn) -> latest vec_dec (feature k) ke = Some k).
  { intros k I. apply G in I. destruct (latest vec_dec (feature k) ke) as [k'|] eqn:E.
    - f_equal. apply latest_in, F in E. symmetry. auto.
    - apply latest_none in E. contradiction. }
  destruct (C21_by_example labels xs indexes cost o h (map feature ks) H) as [P1 P2].
  { destruct ks; [contradiction|discriminate]. }
  fold ke in P1, P2.
  destruct (C20_unknown_index labels (Some xs) indexes cost o h ks H) as [_ U]. fold kn in U.
  destruct (in_dec (fun a b : bool => bool_dec a b) false
              (map (fun k => if in_dec key_dec k (map fst kn) then true else false) ks)) as [I|N].
  - apply in_map_iff in I. destruct I as (k & E & Ik). destruct (in_dec key_dec k (map fst kn)) as [|Nk]; [discriminate|].
    rewrite U by eauto.
    destruct (in_dec vec_dec (feature k) (map fst ke)) as [J|J].
    + (* the vector is known (only its cost was missing), its index is not *)
      destruct (in_dec (fun a b : bool => bool_dec a b) false
        (map (fun k => if in_dec vec_dec (feature k) (map fst ke) then true else false) ks)) as [I2|N2].
      * apply in_map_iff in I2. destruct I2 as (k2 & E2 & Ik2).
        destruct (in_dec vec_dec (feature k2) (map fst ke)) as [|J2]; [discriminate|].
        apply P2. exists (feature k2). split; [now apply in_map|auto].
      * rewrite (P1 ks).
        -- apply U. eauto.
        -- clear - N2 F Inj. induction ks as [|a ks IH]; cbn; constructor.
           ++ destruct (latest vec_dec (feature a) ke) as [k'|] eqn:E.
              ** f_equal. apply latest_in, F in E. symmetry. auto.
              ** exfalso. apply N2. left. destruct (in_dec vec_dec (feature a) (map fst ke)) as [X|]; auto.
                 apply latest_none in E. contradiction.
           ++ apply IH. intro X. apply N2. now right.
    + apply P2. exists (feature k). split; [now apply in_map|auto].
  - apply P1. clear - N L. induction ks as [|a ks IH]; cbn; constructor.
    + apply L. destruct (in_dec key_dec a (map fst kn)) as [|X] eqn:E; auto. exfalso. apply N. left. now rewrite E.
    + apply IH. intro X. apply N. now right.
Qed.
Print Assumptions C21_same_as_index.

(** The multi-label oracle never answers by example. *)
Theorem C21_multilabel_refuted : forall A (o : moracle A) qs, exists e, mo_query_ex o qs = Err e.
Proof. intros. apply mo_query_ex_fails. Qed.
Print Assumptions C21_multilabel_refuted.

Example C21_example :
  exists o, or_init [KInt 1; KInt 0] (Some [[3; 4]; [5; 6]]) (Some [KInt 10; KInt 20]) None = Ok o /\
    or_query_ex (or_run o [TOne (KInt 2) (KInt 30) (Some [7; 8]) None]) [[7; 8]; [3; 4]] = Ok ([KInt 2; KInt 1], [1%Q; 1%Q]) /\
    or_query (or_run o [TOne (KInt 2) (KInt 30) (Some [7; 8]) None]) [KInt 30; KInt 10] = Ok ([KInt 2; KInt 1], [1%Q; 1%Q]).
Proof. eexists. split; [reflexivity|]. split; reflexivity. Qed.

Example C21_multilabel_example :
  exists o, mo_init [[1; 0]; [0; 1]] (Some [[3; 4]; [5; 6]]) None MCNone = Ok o /\
    mo_query_ex o [([3; 4], None)] = Err TypeErr /\ mo_query o [IOne 0] = Ok ([[1; 0]], [[1%Q; 1%Q]]).
Proof. eexists. split; [reflexivity|]. split; reflexivity. Qed.

(** ** C22 *)

(** A query returns for each index, in order, exactly the requested in-range labels of the stored row with
    their costs, and nothing else is ever answered. *)
Theorem C22_answers : forall A (labels : list (list A)) examples indexes cost o h ks lss css,
  mo_init labels examples indexes cost = Ok o ->
  (mo_query (mo_run o h) ks = Ok (lss, css) <->
   ks <> [] /\ List.length lss = List.length css /\
   Forall2 (right_answer (mo_m o) (row_known (mo_m o) labels examples indexes cost h)) ks (combine lss css)).
Proof.
  intros A labels examples indexes cost o h ks lss css H.
  destruct (mo_history _ _ _ _ _ h H) as (M & _ & _ & RK & CF).
  rewrite (mo_query_spec _ _ _ _ CF). rewrite M.
  assert (E : forall k a, right_answer (mo_m o) (fun i => mind_get i (mo_ind (mo_run o h))) k a <->
                          right_answer (mo_m o) (row_known (mo_m o) labels examples indexes cost h) k a).
  { intros k a. unfold right_answer. now rewrite RK. }
  assert (F : forall l r, Forall2 (right_answer (mo_m o) (fun i => mind_get i (mo_ind (mo_run o h)))) l r <->
                          Forall2 (right_answer (mo_m o) (row_known (mo_m o) labels examples indexes cost h)) l r).
  { intros l r. split; induction 1; constructor; auto; now apply E. }
  now rewrite F.
Qed.
Print Assumptions C22_answers.

(** With usable costs (none, one per label, or an array with one row per example) every well-formed query
    about stored instances succeeds. *)
Theorem C22_answered : forall A (labels : list (list A)) examples indexes cost o ks,
  mo_init labels examples indexes cost = Ok o ->
  (match cost with
   | MCNone => True
   | MCVec _ l => List.length l = mo_m o
   | MCMat arr rows => arr = true /\ Forall (fun r => List.length r = mo_m o) rows
   end) ->
  ks <> [] ->
  (forall k, In k ks -> (forall i j, k <> ILong i j) /\ scalar_ok (Z.of_nat (mo_m o)) k = true /\
     In (ins_of k) (match indexes with Some l => l | None => zrange (Z.of_nat (List.length labels)) end)) ->
  exists lss css, mo_query o ks = Ok (lss, css).
Proof.
  intros A labels examples indexes cost o ks H CO NE HK.
  destruct (mo_init_spec _ _ _ _ _ H) as (_ & _ & _ & NL & Mp & RL & D).
  destruct (mo_history _ _ _ _ _ [] H) as (_ & _ & _ & _ & CF).
  assert (SL : forall l, indexes = Some l -> List.length l = List.length labels).
  { unfold mo_init in H. destruct labels as [|[|a r] rest]; try discriminate.
    destruct (negb _); [discriminate|]. unfold mo_build in H.
    destruct (same_length _ _ _ _) eqn:E; [|discriminate]. apply same_length_spec in E. tauto. }
  assert (ML : forall arr rows, cost = MCMat arr rows -> List.length rows = List.length labels).
  { intros arr rows ->. clear - H. unfold mo_init in H. destruct labels as [|[|a r] rest]; try discriminate.
    destruct (negb _); [discriminate|]. unfold mo_build in H.
    destruct (same_length _ _ _ _) eqn:E; [|discriminate]. apply same_length_spec in E. destruct E as (_ & _ & E).
    specialize (E _ eq_refl). now rewrite map_length in E. }
  assert (Row : forall k, In k ks -> exists row c, mind_get (ins_of k) (mo_ind o) = Some (row, c) /\
            List.length row = mo_m o /\ (c = None \/ exists cs, c = Some (CArr cs) /\ List.length cs = mo_m o)).
  { intros k Hk. destruct (HK k Hk) as (_ & _ & I). rewrite D.
    destruct (latest Z.eq_dec (ins_of k) (initial_rows (mo_m o) labels indexes cost)) as [[row c]|] eqn:E.
    - exists row, c. split; auto. apply latest_in in E. unfold initial_rows in E. apply in_map_iff in E.
      destruct E as (i & E & Hi). injection E as _ <- <-. apply in_seq in Hi. split.
      + rewrite Forall_forall in RL. apply RL. apply nth_In. lia.
      + unfold initial_cost. destruct cost as [|arr l|arr rows]; auto.
        * rewrite CO, Nat.eqb_refl. right. eauto.
        * destruct CO as [-> CO]. specialize (ML _ _ eq_refl). destruct (nth_error rows i) as [r|] eqn:En.
          -- right. exists r. split; auto. rewrite Forall_forall in CO. apply CO. eapply nth_error_In; eauto.
          -- apply nth_error_None in En. lia.
    - exfalso. apply latest_none in E. apply E. unfold initial_rows. rewrite map_map. cbn.
      destruct indexes as [l|].
      + apply In_nth with (d := 0) in I. destruct I as (j & Hj & <-). apply in_map_iff. exists j. split; auto.
        apply in_seq. rewrite SL in Hj by auto. lia.
      + apply in_zrange in I. apply in_map_iff. exists (Z.to_nat (ins_of k)). split; [lia|]. apply in_seq. lia. }
  assert (One : forall k, In k ks -> exists a, right_answer (mo_m o) (fun i => mind_get i (mo_ind o)) k a).
  { intros k Hk. destruct (HK k Hk) as (HL & S & _). destruct (Row k Hk) as (row & c & G & LR & HC).
    assert (B : forall p, In p (denoted (Z.of_nat (mo_m o)) k) -> (Z.to_nat (snd p) < mo_m o)%nat).
    { intros p Hp. destruct k as [i|i j|i js|i js|i j]; cbn in Hp, S.
      - apply in_map_iff in Hp. destruct Hp as (j & <- & Hj). apply in_zrange in Hj. cbn. lia.
      - destruct Hp as [<-|[]]. rewrite andb_true_iff in S. cbn. lia.
      - apply in_map_iff in Hp. destruct Hp as (j & <- & Hj). apply filter_In in Hj. cbn. lia.
      - apply in_map_iff in Hp. destruct Hp as (j & <- & Hj). apply filter_In in Hj. cbn. lia.
      - exfalso. now apply (HL i j). }
    assert (T : forall {X} (r : list X), List.length r = mo_m o ->
       exists ls, Forall2 (fun p l => nth_error r (Z.to_nat (snd p)) = Some l) (denoted (Z.of_nat (mo_m o)) k) ls).
    { intros X r Lr. clear - B Lr. induction (denoted _ k) as [|p ps IH]; [exists []; constructor|].
      destruct IH as [ls F]; [intros q Hq; apply B; now right|].
      destruct (nth_error r (Z.to_nat (snd p))) as [v|] eqn:E; [exists (v :: ls); constructor; auto|].
      apply nth_error_None in E. specialize (B p (or_introl eq_refl)). lia. }
    destruct (T A row LR) as [ls F1].
    destruct HC as [->|(cs & -> & LC)].
    - exists (ls, map (fun _ => 1%Q) (denoted (Z.of_nat (mo_m o)) k)). split; auto. split; auto.
      exists row, None. split; auto. split; auto. split; auto. cbn. clear. induction (denoted _ k); cbn; constructor; auto.
    - destruct (T Q cs LC) as [qs F2]. exists (ls, qs). split; auto. split; auto. exists row, (Some (CArr cs)).
      split; auto. split; eauto. }
  assert (All : exists r, Forall2 (right_answer (mo_m o) (fun i => mind_get i (mo_ind o))) ks r).
  { clear - One. induction ks as [|k ks IH]; [exists []; constructor|].
    destruct IH as [r F]; [intros; apply One; now right|]. destruct (One k (or_introl eq_refl)) as [a Ha].
    exists (a :: r). constructor; auto. }
  destruct All as [r F]. destruct (List.split r) as [lss css] eqn:ES. apply split_combine_iff in ES. destruct ES as [L ->].
  exists lss, css. change o with (mo_run o []) at 1. apply (mo_query_spec _ _ _ _ CF). auto.
Qed.
Print Assumptions C22_answered.

(** Entries added for existing indexes are skipped and change nothing. *)
Theorem C22_no_overwrite : forall A (labels : list (list A)) examples indexes cost o h l k x c v,
  mo_init labels examples indexes cost = Ok o ->
  row_known (mo_m o) labels examples indexes cost h k = Some v ->
  mo_teach (mo_run o h) (l, k, x, c) = (mo_run o h, Ok true).
Proof.
  intros A labels examples indexes cost o h l k x c v H R.
  destruct (mo_history _ _ _ _ _ h H) as (_ & _ & _ & RK & _). cbn. unfold mo_add_one. now rewrite RK, R.
Qed.
Print Assumptions C22_no_overwrite.

(** A usable entry for a new index is stored; an unusable one is refused and changes no answer. *)
Theorem C22_new_entry : forall A (labels : list (list A)) examples indexes cost o h l k x c,
  mo_init labels examples indexes cost = Ok o ->
  row_known (mo_m o) labels examples indexes cost h k = None ->
  let usable := row_ok (mo_m o) (is_some examples) (match cost with MCNone => false | _ => true end)
                       (common_cost (mo_m o) cost) (l, k, x, c) in
  (usable = true -> snd (mo_teach (mo_run o h) (l, k, x, c)) = Ok false /\
     row_known (mo_m o) labels examples indexes cost (h ++ [(l, k, x, c)]) k =
       Some (l, stored_cost (match cost with MCNone => false | _ => true end) (common_cost (mo_m o) cost) c)) /\
  (usable = false -> (exists e, snd (mo_teach (mo_run o h) (l, k, x, c)) = Err e) /\
     forall ks, mo_query (mo_run o (h ++ [(l, k, x, c)])) ks = mo_query (mo_run o h) ks).
Proof.
  intros A labels examples indexes cost o h l k x c H R usable.
  destruct (mo_history _ _ _ _ _ h H) as (M & I & C & RK & CF).
  destruct (mo_init_spec _ _ _ _ _ H) as (I0 & C0 & L0 & _).
  assert (L : mo_label_cost (mo_run o h) = common_cost (mo_m o) cost).
  { rewrite <- L0. clear. revert o. induction h as [|e h IH]; intro o; [reflexivity|].
    change (mo_run o (e :: h)) with (mo_run (fst (mo_teach o e)) h). rewrite IH. destruct e as [[[l k] x] c]. cbn.
    destruct (mo_add_one o l k x c) as [o1 r] eqn:E. apply mo_add_one_spec in E. cbn. tauto. }
  destruct (mo_teach (mo_run o h) (l, k, x, c)) as [o1 r] eqn:E. pose proof E as E'. cbn in E'.
  apply mo_add_one_spec in E'. rewrite RK, R, M, I, C, L in E'. destruct E' as (M1 & I1 & C1 & L1 & E').
  assert (Run : mo_run o (h ++ [(l, k, x, c)]) = o1).
  { unfold mo_run in *. rewrite fold_left_app. cbn [fold_left]. rewrite E. reflexivity. }
  cbn [snd]. split; intro U.
  - destruct E' as [(_ & D & ->)|(X & _)]; [|unfold usable in U; unfold has_cost in X; rewrite X in U; discriminate].
    split; auto. destruct (mo_history _ _ _ _ _ (h ++ [(l, k, x, c)]) H) as (_ & _ & _ & RK' & _).
    rewrite <- RK', Run, D. unfold mind_get, mind_set. rewrite dget_dset by apply Z.eqb_eq. now rewrite Z.eqb_refl.
  - destruct E' as [(X & _)|(_ & D & X)]; [unfold usable in U; unfold has_cost in X; rewrite X in U; discriminate|].
    split; auto. intro ks. rewrite Run. unfold mo_query. destruct (check_index ks); cbn; auto. f_equal.
    assert (Q1 : forall q, mo_query_one o1 q = mo_query_one (mo_run o h) q).
    { intro q. unfold mo_query_one. rewrite M1, C1, D, M, C. reflexivity. }
    clear - Q1. induction ks as [|q ks IH]; cbn; auto. now rewrite Q1, IH.
Qed.
Print Assumptions C22_new_entry.

(** Costs given as nested lists instead of an array make every query fail, although they are accepted. *)
Theorem C22_list_costs_refuted : forall A (labels : list (list A)) examples indexes rows o k,
  mo_init labels examples indexes (MCMat false rows) = Ok o ->
  exists e, mo_query o [k] = Err e.
Proof.
  intros A labels examples indexes rows o k H. destruct (mo_query o [k]) as [[lss css]|e] eqn:E; eauto. exfalso.
  apply (C22_answers A labels examples indexes (MCMat false rows) o [] [k] lss css H) in E.
  destruct E as (_ & L & F). inversion F as [|? a ? ? Hr HF]; subst. destruct Hr as (_ & _ & row & c & G & P & _).
  unfold row_known in G. cbn [filter map earliest] in G.
  destruct (latest Z.eq_dec (ins_of k) (initial_rows (mo_m o) labels indexes (MCMat false rows))) as [v|] eqn:El; [|discriminate].
  injection G as ->. apply latest_in in El. unfold initial_rows in El. apply in_map_iff in El.
  destruct El as (i & E & Hi). injection E as _ _ <-. apply in_seq in Hi. cbn in P. destruct (nth_error rows i) as [r|] eqn:En; cbn in P.
  - destruct P as [P|[cs P]]; discriminate.
  - apply nth_error_None in En. apply mo_init_cost_rows in H. lia.
Qed.
Print Assumptions C22_list_costs_refuted.

(** Scalar label indexes out of range are refused. *)
Theorem C22_scalar_range : forall A (labels : list (list A)) examples indexes cost o h k,
  mo_init labels examples indexes cost = Ok o -> scalar_ok (Z.of_nat (mo_m o)) k = false ->
  exists e, mo_query (mo_run o h) [k] = Err e.
Proof.
  intros A labels examples indexes cost o h k H S. destruct (mo_query (mo_run o h) [k]) as [[lss css]|e] eqn:E; eauto.
  exfalso. apply (C22_answers A labels examples indexes cost o h [k] lss css H) in E.
  destruct E as (_ & _ & F). inversion F as [|? a ? ? Hr HF]; subst. destruct Hr as (_ & X & _). congruence.
Qed.
Print Assumptions C22_scalar_range.

Example C22_example :
  exists o, mo_init [[1; 0; 5]; [0; 1; 6]] None (Some [10; 20]) (MCMat true [[1; 2; 3]; [4; 5; 6]]%Q) = Ok o /\
    mo_query (mo_run o [([9; 9; 9], 10, None, Some (CArr [7; 7; 7]%Q)); ([3; 4; 5], 30, None, Some (CArr [7; 8; 9]%Q))])
      [IPair 10 2; IOne 30; IManyL 20 [2; 0; 7]] =
    Ok ([[5]; [3; 4; 5]; [6; 0]], [[3]; [7; 8; 9]; [6; 4]]%Q) /\
    mo_query o [IPair 10 3] = Err AssertErr.
Proof. eexists. split; [reflexivity|]. split; reflexivity. Qed.

Example C22_list_costs_example :
  exists o, mo_init [[1; 0]; [0; 1]] None None (MCMat false [[1; 2]; [4; 5]]%Q) = Ok o /\ mo_query o [IOne 0] = Err TypeErr.
Proof. eexists. split; reflexivity. Qed.

(** ** C23 *)

(** After any sequence of operations the history is exactly the list of successful queries, and the total
    cost is the sum of all costs they returned. *)
Theorem C23_accounting : forall h,
  p_hist (pool_run pool_new h) = bookkeeping [] h /\
  (p_cost (pool_run pool_new h) == total_cost (bookkeeping [] h))%Q.
Proof.
  intro h. destruct (pool_run_spec h pool_new []) as [A B]; [split; reflexivity|].
  split; [exact A|]. cbn [pool_new p_cost] in B. now rewrite Qplus_0_l in B.
Qed.
Print Assumptions C23_accounting.

(** A query that fails leaves the pool as it was; one that succeeds returns what was recorded. *)
Theorem C23_failed_query : forall p ks n ns,
  (forall e, snd (pool_query p ks n) = Err e -> fst (pool_query p ks n) = p) /\
  (forall e, snd (pool_query_s p ks ns) = Err e -> fst (pool_query_s p ks ns) = p) /\
  (forall r, snd (pool_query p ks n) = Ok r -> exists m, n = Some m /\
     p_hist (fst (pool_query p ks n)) = p_hist p ++ [([m], [r], ks)]) /\
  (forall rs, snd (pool_query_s p ks ns) = Ok rs ->
     p_hist (fst (pool_query_s p ks ns)) =
       p_hist p ++ [(match ns with Some l => l | None => map fst (p_dict p) end, rs, ks)]).
Proof.
  intros p ks n ns. unfold pool_query, pool_query_s. repeat split.
  - intros e. destruct n; [destruct (pool_ask p ks s)|]; cbn; auto; discriminate.
  - intros e. destruct (mapM _ _); cbn; auto; discriminate.
  - intros r. destruct n as [m|]; [destruct (pool_ask p ks m)|]; cbn; try discriminate. intro E. injection E as ->. eauto.
  - intros rs. destruct (mapM _ _); cbn; try discriminate. intro E. now injection E as ->.
Qed.
Print Assumptions C23_failed_query.

(** Answers of a pool: the latest oracle added under each name answers. *)
Theorem C23_answers : forall h ks,
  let added := flat_map (fun o => match o with PAdd n o => [(n, o)] | _ => [] end) h in
  let ask n := match latest string_dec n added with Some o => or_query o ks | None => Err KeyErr end in
  (forall n, snd (pool_query (pool_run pool_new h) ks (Some n)) = ask n) /\
  (forall ns, snd (pool_query_s (pool_run pool_new h) ks (Some ns)) = mapM ask ns) /\
  snd (pool_query_s (pool_run pool_new h) ks None) = mapM ask (first_names (map fst added)).
Proof.
  intros h ks added ask.
  assert (PM : pool_matches (pool_run pool_new h) added) by (apply (pool_names h pool_new []); split; reflexivity).
  split; [|split].
  - intro n. unfold pool_query, pool_ask, ask. destruct PM as [-> _]. destruct (latest _ _ _); cbn; auto.
    destruct (or_query _ _); reflexivity.
  - intro ns. unfold pool_query_s. rewrite (pool_ask_all _ added) by auto. fold ask. destruct (mapM ask ns); reflexivity.
  - unfold pool_query_s. rewrite (pool_ask_all _ added) by auto. fold ask. destruct PM as [_ ->].
    destruct (mapM ask _); reflexivity.
Qed.
Print Assumptions C23_answers.

(** The report shows for every oracle how often it answered and what that cost; it never fails, and the
    costs shown sum to the total. *)
Theorem C23_report : forall h,
  exists table, pool_repr (pool_run pool_new h) = Ok table /\
    map fst table = first_names (flat_map (fun o => match o with PAdd n _ => [n] | _ => [] end) h) /\
    (forall n, In n (map fst table) -> exists q,
       dget String.eqb n table = Some (List.length (answers_of n (bookkeeping [] h)), q) /\
       (q == fold_right Qplus 0 (flat_map snd (answers_of n (bookkeeping [] h))))%Q) /\
    (fold_right Qplus 0 (map (fun e => snd (snd e)) table) == p_cost (pool_run pool_new h))%Q.
Proof.
  intro h. destruct (C23_accounting h) as [Hh Hc].
  set (added := flat_map (fun o => match o with PAdd n o => [(n, o)] | _ => [] end) h).
  assert (PM : pool_matches (pool_run pool_new h) added) by (apply (pool_names h pool_new []); split; reflexivity).
  assert (AN : map fst added = flat_map (fun o => match o with PAdd n _ => [n] | _ => [] end) h).
  { unfold added. clear. induction h as [|[n o| |] h IH]; cbn; congruence. }
  unfold pool_repr. rewrite Hh. set (es := flat_map _ (bookkeeping [] h)).
  set (d0 := map (fun e => (fst e, (O, 0%Q))) (p_dict (pool_run pool_new h))).
  assert (K0 : map fst d0 = first_names (map fst added)).
  { unfold d0. rewrite map_map. cbn. apply PM. }
  assert (IN : forall e, In e es -> In (fst e) (map fst d0)).
  { intros [n r] I. cbn. unfold es in I. apply in_flat_map in I. destruct I as (b & Ib & I). apply in_combine_l in I.
    rewrite K0. apply first_names_in. destruct (bookkeeping_names h [] b n Ib I) as [[]|[o X]].
    rewrite AN. apply in_flat_map. eexists. split; [exact X|]. now left. }
  destruct (repr_fold es d0 IN) as (table & F & K & P). exists table. split; [exact F|].
  split; [rewrite K, K0; now f_equal|]. split.
  - intros n I. destruct (P n O 0%Q) as (q & G & E).
    { rewrite K in I. unfold d0 in *. clear - I. induction (p_dict (pool_run pool_new h)) as [|[k v] d IH]; [contradiction|].
      cbn in *. destruct (String.eqb_spec n k) as [->|ne]; auto. destruct I as [<-|I]; [congruence|auto]. }
    exists q. split; [exact G|]. rewrite E, Qplus_0_l. reflexivity.
  - rewrite Hc. rewrite (repr_sum es d0 table F). unfold d0. rewrite map_map. cbn.
    assert (Z0 : (fold_right Qplus 0 (map (fun _ : string * oracle => 0) (p_dict (pool_run pool_new h))) == 0)%Q).
    { clear. induction (p_dict _) as [|x l IH]; cbn; [reflexivity|]. rewrite IH. reflexivity. }
    rewrite Z0, Qplus_0_l. unfold es, total_cost.
    assert (W : forall b, In b (bookkeeping [] h) -> List.length (fst (fst b)) = List.length (snd (fst b))) by apply bookkeeping_lengths.
    clear - W. induction (bookkeeping [] h) as [|b bs IH]; cbn; [reflexivity|].
    rewrite flat_map_app, fold_right_Qplus_app, IH by (intros; apply W; now right).
    apply Qplus_comp; [|reflexivity]. unfold record_cost.
    specialize (W b (or_introl eq_refl)). destruct b as [[ns rs] ks]. cbn [fst snd] in *. clear - W.
    revert ns W. induction rs as [|r rs IH]; intros [|n ns] W; try discriminate; cbn; [reflexivity|].
    rewrite !fold_right_Qplus_app, IH by (now injection W). reflexivity.
Qed.
Print Assumptions C23_report.

Example C23_example :
  exists a b, or_init [KInt 1; KInt 0] None None (Some [2; 3]%Q) = Ok a /\ or_init [KInt 5; KInt 6] None None None = Ok b /\
    let p := pool_run pool_new [PAdd "a" a; PAdd "b" b; PQuery [KInt 0] (Some "a"); PQuery [KInt 7] (Some "a");
                                PQueryS [KInt 1; KInt 0] None; PQuery [KInt 0] (Some "zz")]%string in
    p_hist p = [(["a"], [([KInt 1], [2%Q])], [KInt 0]);
                (["a"; "b"], [([KInt 0; KInt 1], [3; 2]%Q); ([KInt 6; KInt 5], [1; 1]%Q)], [KInt 1; KInt 0])]%string /\
    Qeq (p_cost p) 9 /\
    exists qa qb, pool_repr p = Ok [("a", (2%nat, qa)); ("b", (1%nat, qb))]%string /\ Qeq qa 7 /\ Qeq qb 2.
Proof.
  eexists. eexists. split; [reflexivity|]. split; [reflexivity|]. split; [reflexivity|]. split; [reflexivity|].
  eexists. eexists. split; [reflexivity|]. split; reflexivity.
Qed.

(** ** C26 *)

(** The result is the most frequent answer, the earliest given among equally frequent ones, with its
    count; weights never influence it. *)
Theorem C26_majority_vote : forall ls w n l,
  majority_vote ls w = Ok (n, l) <->
  (forall ws, w = Some ws -> List.length ws = List.length ls) /\ winner ls n l.
Proof. intros. apply majority_vote_lemma. Qed.
Print Assumptions C26_majority_vote.

Theorem C26_failures : forall ls w e,
  majority_vote ls w = Err e <->
  (e = AssertErr /\ exists ws, w = Some ws /\ List.length ws <> List.length ls) \/
  (e = IndexErr /\ ls = [] /\ forall ws, w = Some ws -> ws = []).
Proof.
  intros ls w e. unfold majority_vote. destruct (match w with None => true | Some w0 => _ end) eqn:EW; cbn [guard bind].
  - destruct (most_common (counter ls)) as [[l n]|] eqn:E.
    + split; [discriminate|]. intros [(_ & ws & -> & N)|(_ & -> & _)]; [apply Nat.eqb_eq in EW; congruence|discriminate].
    + apply most_common_none in E. subst ls. split; intro H.
      * injection H as <-. right. split; auto. split; auto. intros ws ->. destruct ws; [auto|discriminate].
      * destruct H as [(_ & ws & -> & N)|(-> & _)]; [apply Nat.eqb_eq in EW; congruence|reflexivity].
  - destruct w as [ws|]; [|discriminate]. apply Nat.eqb_neq in EW. split; intro H.
    + injection H as <-. left. split; auto. exists ws. auto.
    + destruct H as [(-> & _)|(-> & -> & X)]; [reflexivity|]. rewrite (X ws eq_refl) in EW. contradiction.
Qed.
Print Assumptions C26_failures.

Theorem C26_weights_ignored : forall ls ws, List.length ws = List.length ls ->
  majority_vote ls (Some ws) = majority_vote ls None.
Proof. intros ls ws L. unfold majority_vote. now rewrite L, Nat.eqb_refl. Qed.
Print Assumptions C26_weights_ignored.

(** The helper asks every oracle of the list once, votes on the first labels and reports the whole cost. *)
Theorem C26_vote_of_list : forall os ks n l c,
  get_majority_vote_list os ks = Ok (n, l, c) ->
  exists rs ls, Forall2 (fun o r => or_query o ks = Ok r) os rs /\ heads rs ls /\ winner ls n l /\
    (c == fold_right Qplus 0 (flat_map snd rs))%Q.
Proof.
  intros os ks n l c. unfold get_majority_vote_list. destruct (mapM_res (fun o => or_query o ks) os) as [[rs M]|[e M]].
  - rewrite (query_results_list_eq _ _ _ M). intro H. apply votes_of_results in H. destruct H as (ls & A & B & C).
    exists rs, ls. split; auto. now apply mapM_inv.
  - destruct (query_results_list_err _ _ _ M) as [e' ->]. discriminate.
Qed.
Print Assumptions C26_vote_of_list.

Theorem C26_vote_of_list_total : forall os ks rs ls n l,
  Forall2 (fun o r => or_query o ks = Ok r) os rs -> heads rs ls -> winner ls n l ->
  exists c, get_majority_vote_list os ks = Ok (n, l, c).
Proof.
  intros os ks rs ls n l F A W. unfold get_majority_vote_list.
  rewrite (query_results_list_eq os ks rs).
  - now apply votes_of_results_conv with (ls := ls).
  - apply (mapM_iff _ (fun o r => or_query o ks = Ok r)); auto. tauto.
Qed.
Print Assumptions C26_vote_of_list_total.

(** With a pool, exactly one entry is added to its history and its cost grows by the cost reported. *)
Theorem C26_vote_of_pool : forall p ks names p' n l c,
  get_majority_vote_pool p ks names = (p', Ok (n, l, c)) ->
  exists rs ls, snd (pool_query_s p ks names) = Ok rs /\ heads rs ls /\ winner ls n l /\
    p_hist p' = p_hist p ++ [(match names with Some x => x | None => map fst (p_dict p) end, rs, ks)] /\
    (c == fold_right Qplus 0 (flat_map snd rs))%Q /\ (p_cost p' == p_cost p + c)%Q /\ p_dict p' = p_dict p.
Proof.
  intros p ks names p' n l c. unfold get_majority_vote_pool, query_results_pool, pool_query_s.
  destruct (mapM (pool_ask p ks) _) as [rs|e]; [|intro H; discriminate].
  intro H.
  assert (H' : (r <- rmap (@List.split _ _) (mapM (fun r : list key * list Q => match fst r with [] => Err IndexErr | l :: _ => Ok (l, qsum (snd r)) end) rs) ;;
   vote_of r) = Ok (n, l, c) /\
   p' = pool_record p match names with Some x => x | None => map fst (p_dict p) end rs ks (qsum (List.concat (map snd rs)))).
  { destruct (rmap _ _); cbn in H |- *; injection H as <- E; [split; auto|discriminate]. }
  destruct H' as [V ->]. apply votes_of_results in V. destruct V as (ls & A & B & C).
  exists rs, ls. cbn. repeat split; auto; try apply B.
  rewrite C, qsum_fold_right, flat_map_concat_map. reflexivity.
Qed.
Print Assumptions C26_vote_of_pool.

Example C26_example :
  majority_vote [KInt 3; KInt 1; KInt 2; KInt 2; KInt 1] (Some [9; 0; 0; 0; 0]%Q) = Ok (2%nat, KInt 1) /\
  winner [KInt 3; KInt 1; KInt 2; KInt 2; KInt 1] 2 (KInt 1) /\
  exists a b c, or_init [KInt 1; KInt 0] None None (Some [2; 3]%Q) = Ok a /\ or_init [KInt 5; KInt 6] None None None = Ok b /\
    or_init [KInt 5; KInt 0] None None None = Ok c /\
    exists q, get_majority_vote_list [a; b; c] [KInt 0] = Ok (2%nat, KInt 5, q) /\ Qeq q 4.
Proof.
  split; [reflexivity|]. split.
  - apply (proj1 (C26_majority_vote [KInt 3; KInt 1; KInt 2; KInt 2; KInt 1] (Some [9; 0; 0; 0; 0]%Q) 2 (KInt 1))). reflexivity.
  - do 3 eexists. repeat (split; [reflexivity|]). eexists. split; reflexivity.
Qed.
