(** Proofs about the element repository. *)
From Verif Require Import Base BaseFacts IndexModel IndexProofs MLModel StateModel Dict OracleModel OracleSpec
  OracleProofs RepoModel RepoSpec.
From Coq Require Import QArith.
Local Open Scope Z_scope.

Lemma zl_ok : forall a b : vec, zlist_eqb a b = true <-> a = b.
Proof.
  induction a as [|x a IH]; intros [|y b]; cbn; try (split; [discriminate|discriminate]); [tauto|].
  rewrite andb_true_iff, IH, Z.eqb_eq. split; [intros []; congruence|intro H; injection H; auto].
Qed.

Lemma drop_first_eq k l : remove_first k l = drop_first k l.
Proof.
  induction l as [|j l IH]; cbn; auto. rewrite IH. destruct (key_dec k j) as [->|n].
  - now rewrite key_eqb_refl.
  - apply key_eqb_neq in n. now rewrite n.
Qed.

Lemma drop_first_in k j l : k <> j -> (In j (drop_first k l) <-> In j l).
Proof.
  intro n. induction l as [|i l IH]; cbn; [tauto|]. destruct (key_dec k i) as [->|]; cbn; [|tauto].
  split; [auto|intros [->|]; [contradiction|auto]].
Qed.

Lemma drop_first_notin k l : ~ In k l -> drop_first k l = l.
Proof.
  induction l as [|i l IH]; cbn; auto. intro H. destruct (key_dec k i) as [->|]; [tauto|]. rewrite IH; tauto.
Qed.

Lemma existsb_key k l : existsb (key_eqb k) l = true <-> In k l.
Proof.
  rewrite existsb_exists. split.
  - intros (x & I & E). apply key_eqb_eq in E. now subst.
  - intro I. exists k. split; auto. apply key_eqb_refl.
Qed.

Section Element.
  Context {A : Type}.
  Implicit Types (r : erepo A) (es : list (key * option (A * option vec))).

  Lemma content_snoc es e k : content (es ++ [e]) k = if key_dec k (fst e) then snd e else content es k.
  Proof.
    unfold content. rewrite latest_app. destruct e as [j v]. cbn. destruct (key_dec k j); cbn; auto. now destruct v.
  Qed.

  Lemma index_list_snoc es e : index_list (es ++ [e]) =
    match snd e with Some _ => index_list es ++ [fst e] | None => drop_first (fst e) (index_list es) end.
  Proof. unfold index_list. rewrite fold_left_app. reflexivity. Qed.

  (** Stored indexes are listed. *)
  Lemma content_listed es k : content es k <> None -> In k (index_list es).
  Proof.
    induction es as [|e es IH] using rev_ind; [cbn; tauto|]. rewrite content_snoc, index_list_snoc.
    destruct e as [j v]. cbn. destruct (key_dec k j) as [->|n]; intro H.
    - destruct v; [|congruence]. apply in_app_iff. right. now left.
    - destruct v; [apply in_app_iff; auto|]. apply drop_first_in; auto.
  Qed.

  Definition has_examples (inst : bool) es : Prop :=
    inst = true -> forall k l x, In (k, Some (l, x)) es -> exists v, x = Some v.

  Record agrees (inst : bool) r es : Prop := {
    ag_inst : e_inst r = inst;
    ag_lab : forall k, dget key_eqb k (e_lab r) = option_map fst (content es k);
    ag_labn : NoDup (map fst (e_lab r));
    ag_ind : inst = true -> exists d, e_ind r = Some d /\ NoDup (map fst d) /\
               forall k, dget key_eqb k d = match content es k with Some (_, x) => x | None => None end;
    ag_exa : inst = true -> exists d, e_exa r = Some d /\ NoDup (map fst d);
    ag_full : has_examples inst es;
    ag_idx : e_idx r = index_list es
  }.

  Lemma ag_example inst r es k l x : agrees inst r es -> inst = true -> content es k = Some (l, x) -> exists v, x = Some v.
  Proof.
    intros H I C. unfold content in C. destruct (latest key_dec k es) as [[v|]|] eqn:E; try discriminate.
    injection C as ->. apply latest_in in E. eapply (ag_full _ _ _ H I); eauto.
  Qed.

  Lemma agrees_store inst r es k l c x : agrees inst r es ->
    (inst = true -> x <> None) ->
    agrees inst (er_store r (match x with Some v => if inst then option_map (dset zlist_eqb v k) (e_exa r) else e_exa r | None => e_exa r end)
                           (match x with Some v => if inst then option_map (dset key_eqb k v) (e_ind r) else e_ind r | None => e_ind r end)
                           k l c)
                (es ++ [(k, Some (l, if inst then x else None))]).
  Proof.
    intros [I L LN D E F X] HX. split; cbn.
    - auto.
    - intro j. rewrite dget_dset by apply key_eqb_eq. rewrite content_snoc. cbn. rewrite L.
      destruct (key_dec j k) as [->|n]; [now rewrite key_eqb_refl|]. apply key_eqb_neq in n. now rewrite n.
    - apply dset_nodup; auto. apply key_eqb_eq.
    - intros ->. destruct x as [v|]; [|now destruct (HX eq_refl)]. destruct (D eq_refl) as (d & -> & N & G).
      exists (dset key_eqb k v d). split; auto. split; [apply dset_nodup; auto; apply key_eqb_eq|].
      intro j. rewrite dget_dset by apply key_eqb_eq. rewrite content_snoc. cbn. rewrite G.
      destruct (key_dec j k) as [->|n]; [now rewrite key_eqb_refl|]. apply key_eqb_neq in n. now rewrite n.
    - intros ->. destruct x as [v|]; [|now destruct (HX eq_refl)]. destruct (E eq_refl) as (d & -> & N).
      eexists. split; [reflexivity|]. apply dset_nodup; auto. apply zl_ok.
    - intros -> j l' x' J. apply in_app_iff in J. destruct J as [J|[J|[]]]; [eapply F; eauto|]. injection J as <- <- <-.
      destruct x; eauto. now destruct (HX eq_refl).
    - rewrite index_list_snoc. cbn. now rewrite X.
  Qed.

  Lemma er_add_spec inst r es k l c x : agrees inst r es ->
    (exists e, er_add r k l c x = (r, Err e) /\ inst = true /\ (forall v, x <> Some (inl v))) \/
    (exists r', er_add r k l c x = (r', Ok tt) /\ (inst = true -> exists v, x = Some (inl v)) /\
       agrees inst r' (es ++ [(k, Some (l, if inst then match x with Some (inl v) => Some v | _ => None end else None))]) /\
       e_cost r' = match c with Some q => (e_cost r + q)%Q | None => e_cost r end /\
       e_costs r' = match c with Some q => e_costs r ++ [q] | None => e_costs r end /\
       e_num r' = e_num r /\ e_hist r' = e_hist r).
  Proof.
    intro H. unfold er_add. rewrite (ag_inst _ _ _ H). destruct inst.
    - destruct x as [[v|u]|].
      + right. eexists. split; [reflexivity|]. split; [eauto|]. split; [|cbn; auto].
        apply (agrees_store true r es k l c (Some v)); auto. discriminate.
      + left. exists TypeErr. split; auto. split; auto. discriminate.
      + left. exists GenericErr. split; auto. split; auto. discriminate.
    - right. eexists. split; [reflexivity|]. split; [discriminate|]. split; [|cbn; auto].
      apply (agrees_store false r es k l c None); auto. discriminate.
  Qed.

  Definition zip (ks : list key) (ls : list A) (cs : option (list Q)) (xs : option (list vec)) n :=
    combine (combine (combine ks ls) (column n cs)) (map (option_map (@inl vec unit)) (column n xs)).

  Lemma er_loop_spec inst : forall ks ls cs xs r es, agrees inst r es ->
    List.length ks = List.length ls ->
    (forall l, cs = Some l -> List.length l = List.length ls) ->
    (forall l, xs = Some l -> List.length l = List.length ls) ->
    (inst = true -> xs <> None \/ ls = []) ->
    exists r', er_loop r (zip ks ls cs xs (List.length ls)) = (r', Ok tt) /\
      agrees inst r' (es ++ paired inst ks ls xs) /\
      (e_cost r' == e_cost r + fold_right Qplus 0 (match cs with Some l => l | None => [] end))%Q /\
      e_costs r' = e_costs r ++ match cs with Some l => l | None => [] end /\
      e_num r' = e_num r /\ e_hist r' = e_hist r.
  Proof.
    induction ks as [|k ks IH]; intros [|l ls] cs xs r es H L LC LX HI; try discriminate.
    - exists r. cbn. rewrite app_nil_r. split; auto. split; auto. split; [|split; auto].
      + destruct cs as [[|q cs]|]; cbn; rewrite ?Qplus_0_r; try reflexivity. specialize (LC _ eq_refl). discriminate.
      + destruct cs as [[|q cs]|]; cbn; rewrite ?app_nil_r; auto. specialize (LC _ eq_refl). discriminate.
    - cbn [List.length] in *.
      set (c := match cs with Some (q :: _) => Some q | _ => None end).
      set (x := match xs with Some (v :: _) => Some v | _ => None end).
      assert (Z : zip (k :: ks) (l :: ls) cs xs (S (List.length ls)) =
        (k, l, c, option_map inl x) :: zip ks ls (option_map (@tl Q) cs) (option_map (@tl vec) xs) (List.length ls)).
      { unfold zip, column, c, x. destruct cs as [[|q cs]|]; [specialize (LC _ eq_refl); discriminate| |];
          (destruct xs as [[|v xs]|]; [specialize (LX _ eq_refl); discriminate| |]); reflexivity. }
      rewrite Z. cbn [er_loop].
      assert (HX : inst = true -> x <> None).
      { intro T. unfold x. destruct (HI T) as [N|N]; [|discriminate]. destruct xs as [[|v xs]|]; try congruence.
        specialize (LX _ eq_refl). discriminate. }
      destruct (er_add_spec inst r es k l c (option_map inl x) H) as [(e & _ & T & N)|(r1 & E & _ & H1 & C1 & S1 & N1 & Y1)].
      + exfalso. specialize (HX T). destruct x as [v|]; [|congruence]. now apply (N v).
      + rewrite E.
        destruct (IH ls (option_map (@tl Q) cs) (option_map (@tl vec) xs) r1 _ H1) as (r' & E' & H' & C' & S' & N' & Y').
        * now injection L.
        * intros l0 E0. destruct cs as [[|q cs]|]; try discriminate; injection E0 as <-; specialize (LC _ eq_refl); cbn in *; lia.
        * intros l0 E0. destruct xs as [[|q xs']|]; try discriminate; injection E0 as <-; specialize (LX _ eq_refl); cbn in *; lia.
        * intro T. left. unfold x in HX. destruct xs; [discriminate|]. now specialize (HX T).
        * exists r'. split; auto. split; [|split; [|split; [|split; congruence]]].
          -- replace (es ++ paired inst (k :: ks) (l :: ls) xs) with
               ((es ++ [(k, Some (l, if inst then match option_map (@inl vec unit) x with Some (inl v) => Some v | _ => None end else None))]) ++
                 paired inst ks ls (option_map (@tl vec) xs)); auto.
             rewrite <- app_assoc. cbn. f_equal. f_equal. f_equal. f_equal. f_equal. destruct inst; auto. unfold x.
             destruct xs as [[|]|]; reflexivity.
          -- rewrite C', C1. unfold c. destruct cs as [[|q cs]|]; cbn; [specialize (LC _ eq_refl); discriminate| |reflexivity].
             now rewrite Qplus_assoc.
          -- rewrite S', S1. unfold c. destruct cs as [[|q cs]|]; cbn; [specialize (LC _ eq_refl); discriminate| |reflexivity].
             now rewrite <- app_assoc.
  Qed.

  Definition empty_repo (inst : bool) : erepo A :=
    {| e_inst := inst; e_idx := []; e_exa := if inst then Some [] else None; e_ind := if inst then Some [] else None;
       e_lab := []; e_cost := 0%Q; e_costs := []; e_num := O; e_hist := [] |}.

  Lemma agrees_empty inst : agrees inst (empty_repo inst) [].
  Proof.
    split; cbn; auto.
    - constructor.
    - intros ->. exists []. split; auto. split; [constructor|auto].
    - intros ->. exists []. split; auto. constructor.
    - intros _ k l x [].
  Qed.

  Lemma loop_explicit inst : forall ks ls xs r, e_inst r = inst ->
    List.length ks = List.length ls -> (forall l, xs = Some l -> List.length l = List.length ls) ->
    (inst = is_some xs) ->
    er_loop r (zip ks ls None xs (List.length ls)) =
    ({| e_inst := inst; e_idx := e_idx r ++ ks;
        e_exa := match xs with Some xs => option_map (dset_all zlist_eqb (combine xs ks)) (e_exa r) | None => e_exa r end;
        e_ind := match xs with Some xs => option_map (dset_all key_eqb (combine ks xs)) (e_ind r) | None => e_ind r end;
        e_lab := dset_all key_eqb (combine ks ls) (e_lab r);
        e_cost := e_cost r; e_costs := e_costs r; e_num := e_num r; e_hist := e_hist r |}, Ok tt).
  Proof.
    induction ks as [|k ks IH]; intros [|l ls] xs r I L LX HI; try discriminate.
    - subst inst. cbn. destruct r as [i0 x0 exa0 ind0 lab0 c0 cs0 n0 hi0]; cbn in *. subst. rewrite app_nil_r. destruct xs as [[|]|]; cbn.
      + destruct exa0, ind0; reflexivity.
      + specialize (LX _ eq_refl). discriminate.
      + reflexivity.
    - injection L as L. destruct xs as [[|v xs]|]; cbn in HI.
      + specialize (LX _ eq_refl). discriminate.
      + change (zip (k :: ks) (l :: ls) None (Some (v :: xs)) (List.length (l :: ls))) with
          ((k, l, None, Some (inl v)) :: zip ks ls None (Some xs) (List.length ls)).
        cbn [er_loop]. unfold er_add. rewrite I, HI.
        rewrite HI in *. rewrite (IH ls (Some xs)); cbn; auto; [|intros l0 E0; injection E0 as <-; specialize (LX _ eq_refl); cbn in LX; lia].
        rewrite <- app_assoc. destruct (e_exa r), (e_ind r); reflexivity.
      + change (zip (k :: ks) (l :: ls) None None (List.length (l :: ls))) with
          ((k, l, None, None) :: zip ks ls None None (List.length ls)).
        cbn [er_loop]. unfold er_add. rewrite I, HI.
        rewrite HI in *. rewrite (IH ls None); cbn; auto; [|discriminate].
        rewrite <- app_assoc. reflexivity.
  Qed.

  Lemma er_init_spec labels indexes examples r : er_init labels indexes examples = Ok r ->
    agrees (is_some examples) r (paired (is_some examples) indexes labels examples) /\
    e_cost r = 0%Q /\ e_costs r = [] /\ e_num r = O /\ e_hist r = [].
  Proof.
    unfold er_init. destruct (same_length _ _ _ _) eqn:E; [|discriminate]. apply same_length_spec in E.
    destruct E as (E1 & E2 & _). specialize (E1 _ eq_refl). cbn [negb]. intro H. injection H as <-.
    split; [|cbn; auto].
    destruct (er_loop_spec (is_some examples) indexes labels None examples (empty_repo (is_some examples)) [] (agrees_empty _))
      as (r' & R & AG & _); auto; [discriminate|intros T; left; destruct examples; discriminate|].
    rewrite (loop_explicit (is_some examples)) in R by auto. injection R as <-. cbn [app] in AG.
    replace (match examples with Some _ => true | None => false end) with (is_some examples) by (destruct examples; auto).
    destruct examples; exact AG.
  Qed.

  Lemma accepted_same inst ks (ls : list A) cs xs : accepted inst ks ls cs xs = true <->
    same_length ls (Some ks) cs xs = true /\ (inst = true -> xs <> None \/ ls = []).
  Proof.
    unfold accepted. rewrite !andb_true_iff, same_length_spec, Nat.eqb_eq. split.
    - intros [[H1 H2] H3]. repeat split.
      + intros l E. now injection E as <-.
      + intros l ->. now apply Nat.eqb_eq.
      + intros l ->. now apply Nat.eqb_eq.
      + intros ->. destruct xs; [left; discriminate|]. right. cbn in H3. apply Nat.eqb_eq in H3. now destruct ls.
    - intros [(H1 & H2 & H3) H4]. repeat split; auto.
      + destruct cs; auto. apply Nat.eqb_eq. auto.
      + destruct xs; [apply Nat.eqb_eq; auto|]. destruct inst; auto. destruct (H4 eq_refl) as [X| ->]; [congruence|reflexivity].
  Qed.

  (** A refused list call changes nothing. *)
  Lemma er_update_spec inst r es ks ls cs xs : agrees inst r es ->
    if accepted inst ks ls cs xs then
      exists r', er_update r ks ls cs xs = (r', Ok tt) /\ agrees inst r' (es ++ paired inst ks ls xs) /\
        (e_cost r' == e_cost r + fold_right Qplus 0 (match cs with Some l => l | None => [] end))%Q /\
        e_costs r' = e_costs r ++ match cs with Some l => l | None => [] end /\
        e_num r' = S (e_num r) /\ e_hist r' = e_hist r ++ [(ls, cs, ks)]
    else exists e, er_update r ks ls cs xs = (r, Err e).
  Proof.
    intro H. unfold er_update. destruct (accepted inst ks ls cs xs) eqn:AC.
    - apply accepted_same in AC. destruct AC as [S HI]. rewrite S. cbn [negb]. apply same_length_spec in S.
      destruct S as (S1 & S2 & S3). specialize (S1 _ eq_refl).
      destruct (er_loop_spec inst ks ls cs xs r es H) as (r' & R & AG & C & CS & N & Y); auto.
      fold (zip ks ls cs xs (List.length ls)). rewrite R. eexists. split; [reflexivity|].
      split; [|cbn; rewrite N, Y; auto]. destruct AG. split; cbn; auto.
    - destruct (same_length ls (Some ks) cs xs) eqn:S; cbn [negb]; [|eauto].
      assert (B : inst = true /\ xs = None /\ ls <> []).
      { destruct inst.
        - destruct xs as [xs|].
          + exfalso. assert (accepted true ks ls cs (Some xs) = true) by (apply accepted_same; split; auto; left; discriminate).
            congruence.
          + destruct ls; [|split; auto; split; auto; discriminate]. exfalso.
            assert (accepted true ks [] cs None = true) by (apply accepted_same; split; auto). congruence.
        - exfalso. assert (accepted false ks ls cs xs = true) by (apply accepted_same; split; auto; discriminate). congruence. }
      destruct B as (-> & -> & NE). apply same_length_spec in S. destruct S as (S1 & S2 & _). specialize (S1 _ eq_refl).
      destruct ls as [|l ls]; [congruence|]. destruct ks as [|k ks]; [discriminate|]. cbn [List.length].
      assert (Z : exists c rest, combine (combine (combine (k :: ks) (l :: ls)) (column (S (List.length ls)) cs))
          (map (option_map (@inl vec unit)) (column (S (List.length ls)) None)) = (k, l, c, None) :: rest).
      { destruct cs as [[|q cs]|]; [specialize (S2 _ eq_refl); discriminate| |]; cbn; eauto. }
      destruct Z as (c & rest & ->). cbn [er_loop]. unfold er_add. rewrite (ag_inst _ _ _ H). eauto.
  Qed.

  Lemma er_discard_spec inst r es k : agrees inst r es ->
    agrees inst (fst (er_discard r k)) (es ++ [(k, None)]) /\
    e_cost (fst (er_discard r k)) = e_cost r /\ e_costs (fst (er_discard r k)) = e_costs r /\
    e_num (fst (er_discard r k)) = e_num r /\ e_hist (fst (er_discard r k)) = e_hist r.
  Proof.
    intro H. pose proof (content_listed es k) as CL. destruct H as [I L LN D E F X].
    assert (FX : has_examples inst (es ++ [(k, None)])).
    { intros T j l x J. apply in_app_iff in J. destruct J as [J|[J|[]]]; [eapply F; eauto|discriminate]. }
    unfold er_discard. destruct (existsb (key_eqb k) (e_idx r)) eqn:EX; cbn [negb fst].
    - assert (IDX : remove_first k (e_idx r) = index_list (es ++ [(k, None)])).
      { rewrite index_list_snoc. cbn. now rewrite drop_first_eq, X. }
      unfold has. rewrite L. destruct (content es k) as [[l x]|] eqn:C; cbn [option_map negb fst].
      + assert (LB : forall j, dget key_eqb j (ddel key_eqb k (e_lab r)) = option_map fst (content (es ++ [(k, None)]) j)).
        { intro j. rewrite dget_ddel by (auto; apply key_eqb_eq). rewrite content_snoc, L. cbn.
          destruct (key_dec j k) as [->|n]; [now rewrite key_eqb_refl|]. apply key_eqb_neq in n. now rewrite n. }
        assert (LBN : NoDup (map fst (ddel key_eqb k (e_lab r)))) by now apply ddel_nodup.
        rewrite I. destruct inst.
        * destruct (D eq_refl) as (d & Ed & N & G). destruct (E eq_refl) as (d' & Ed' & N'). rewrite Ed, Ed'. cbn [dflt].
          rewrite G, C.
          assert (exists v, x = Some v) as [v ->].
          { unfold content in C. destruct (latest key_dec k es) as [[w|]|] eqn:E0; try discriminate.
            injection C as ->. apply latest_in in E0. eapply (F eq_refl); eauto. }
          assert (DB : forall j, dget key_eqb j (ddel key_eqb k d) =
            match content (es ++ [(k, None)]) j with Some (_, x) => x | None => None end).
          { intro j. rewrite dget_ddel by (auto; apply key_eqb_eq). rewrite content_snoc, G. cbn.
            destruct (key_dec j k) as [->|n]; [now rewrite key_eqb_refl|]. apply key_eqb_neq in n. now rewrite n. }
          destruct (negb _); cbn [fst]; (split; [|cbn; auto]); split; cbn [set_stores e_inst e_lab e_ind e_exa e_idx]; auto; intros _;
            try (eexists; split; [reflexivity|]; split; [now apply ddel_nodup|exact DB]);
            try (eexists; split; [reflexivity|]; auto using ddel_nodup).
        * split; [|cbn; auto]. split; cbn [fst set_stores e_inst e_lab e_ind e_exa e_idx]; auto; discriminate.
      + assert (CC : forall j, content (es ++ [(k, None)]) j = content es j).
        { intro j. rewrite content_snoc. cbn. destruct (key_dec j k); congruence. }
        split; [|cbn; auto]. split; cbn [set_stores e_inst e_lab e_ind e_exa e_idx]; auto.
        * intro j. now rewrite L, CC.
        * intro T. destruct (D T) as (d & Ed & N & G). exists d. split; auto. split; auto. intro j. now rewrite G, CC.
    - assert (NI : ~ In k (e_idx r)) by (rewrite <- existsb_key; congruence).
      assert (C : content es k = None).
      { destruct (content es k) eqn:C0; auto. exfalso. apply NI. rewrite X. apply CL. discriminate. }
      assert (CC : forall j, content (es ++ [(k, None)]) j = content es j).
      { intro j. rewrite content_snoc. cbn. destruct (key_dec j k); congruence. }
      split; [|auto]. split; auto.
      + intro j. now rewrite L, CC.
      + intro T. destruct (D T) as (d & Ed & N & G). exists d. split; auto. split; auto. intro j. now rewrite G, CC.
      + rewrite index_list_snoc. cbn. rewrite drop_first_notin; auto. now rewrite <- X.
  Qed.

  Lemma er_update_one_spec inst r es k l c x : agrees inst r es ->
    agrees inst (fst (er_update_one r k l c x)) (es ++ events_of inst (EUpdateOne k l c x)) /\
    (e_cost (fst (er_update_one r k l c x)) == e_cost r + fold_right Qplus 0 (paid inst (EUpdateOne k l c x)))%Q /\
    e_costs (fst (er_update_one r k l c x)) = e_costs r ++ paid inst (EUpdateOne k l c x) /\
    e_num (fst (er_update_one r k l c x)) = (e_num r + List.length (logged inst (EUpdateOne k l c x)))%nat /\
    e_hist (fst (er_update_one r k l c x)) = e_hist r ++ logged inst (EUpdateOne k l c x).
  Proof.
    intro H.
    assert (Stay : forall P : Prop, P -> True) by auto. clear Stay.
    assert (Same : agrees inst r (es ++ []) /\ (e_cost r == e_cost r + fold_right Qplus 0 [])%Q /\ e_costs r = e_costs r ++ [] /\
       e_num r = (e_num r + 0)%nat /\ e_hist r = e_hist r ++ []).
    { rewrite !app_nil_r. cbn. rewrite Qplus_0_r. repeat split; auto; try apply H; try lia. }
    unfold er_update_one, er_add. rewrite (ag_inst _ _ _ H).
    assert (New : forall inst' : bool, inst = false -> agrees inst (er_log (er_store r (e_exa r) (e_ind r) k l c) [l] (option_map (fun q => [q]) c) [k]) (es ++ [(k, Some (l, None))])).
    { intros _ ->. pose proof (agrees_store false r es k l c None H) as G. destruct G; [discriminate|]. split; auto. }
    destruct inst.
    - cbn [events_of paid logged]. replace (match c with Some _ => [] | None => [] end) with (@nil Q) by (destruct c; auto).
      destruct x as [[|a [|b v]]|]; exact Same.
    - destruct x as [[|a [|b v]]|]; cbn [events_of paid logged].
      + destruct c; exact Same.
      + cbn [fst]. split; [now apply (New true)|]. destruct c; cbn; repeat split; rewrite ?app_nil_r, ?Qplus_0_r; try reflexivity; lia.
      + destruct c; exact Same.
      + cbn [fst]. split; [now apply (New true)|]. destruct c; cbn; repeat split; rewrite ?app_nil_r, ?Qplus_0_r; try reflexivity; lia.
  Qed.

  Lemma er_step_spec inst r es o : agrees inst r es ->
    agrees inst (er_step r o) (es ++ events_of inst o) /\
    (e_cost (er_step r o) == e_cost r + fold_right Qplus 0 (paid inst o))%Q /\
    e_costs (er_step r o) = e_costs r ++ paid inst o /\
    e_num (er_step r o) = (e_num r + List.length (logged inst o))%nat /\
    e_hist (er_step r o) = e_hist r ++ logged inst o.
  Proof.
    intro H.
    assert (Same : agrees inst r (es ++ []) /\ (e_cost r == e_cost r + fold_right Qplus 0 [])%Q /\ e_costs r = e_costs r ++ [] /\
       e_num r = (e_num r + 0)%nat /\ e_hist r = e_hist r ++ []).
    { rewrite !app_nil_r. cbn. rewrite Qplus_0_r. repeat split; auto; try apply H; try lia. }
    destruct o as [k l c x|ks ls cs xs|k l c x|k]; cbn [er_step].
    - cbn [events_of paid logged].
      destruct (er_add_spec inst r es k l c (option_map inl x) H) as [(e & E & T & N)|(r' & E & T & AG & C & CS & NM & HI)]; rewrite E; cbn [fst].
      + destruct x as [v|]; [exfalso; now apply (N v)|]. rewrite T in *. cbn [is_some negb andb].
        destruct c; exact Same.
      + replace (inst && negb (is_some x)) with false.
        2:{ destruct inst; auto. destruct (T eq_refl) as [v Ev]. destruct x; [auto|discriminate]. }
        split; [|rewrite C, CS, NM, HI; destruct c; cbn; rewrite ?app_nil_r, ?Qplus_0_r; repeat split; try reflexivity; lia].
        replace (if inst then x else None) with (if inst then match option_map (@inl vec unit) x with Some (inl v) => Some v | _ => None end else None); auto.
        destruct x; reflexivity.
    - cbn [events_of paid logged]. pose proof (er_update_spec inst r es ks ls cs xs H) as U.
      destruct (accepted inst ks ls cs xs) eqn:AC.
      + destruct U as (r' & E & AG & C & CS & NM & HI). rewrite E. cbn [fst].
        assert (P : match cs with Some l => if accepted inst ks ls (Some l) xs then l else [] | None => [] end = match cs with Some l => l | None => [] end).
        { destruct cs; auto. now rewrite AC. }
        rewrite P. split; auto. split; auto. split; auto. cbn. split; auto. lia.
      + destruct U as [e E]. rewrite E. cbn [fst].
        assert (P : match cs with Some l => if accepted inst ks ls (Some l) xs then l else [] | None => [] end = []).
        { destruct cs; auto. now rewrite AC. }
        rewrite P. exact Same.
    - apply er_update_one_spec; auto.
    - cbn [events_of paid logged]. destruct (er_discard_spec inst r es k H) as (AG & C & CS & NM & HI).
      rewrite C, CS, NM, HI. split; auto. cbn. rewrite Qplus_0_r, !app_nil_r. repeat split; auto; try reflexivity. 
  Qed.

  Lemma er_run_spec inst : forall h r es, agrees inst r es ->
    agrees inst (er_run r h) (es ++ flat_map (events_of inst) h) /\
    (e_cost (er_run r h) == e_cost r + fold_right Qplus 0 (flat_map (paid inst) h))%Q /\
    e_costs (er_run r h) = e_costs r ++ flat_map (paid inst) h /\
    e_num (er_run r h) = (e_num r + List.length (flat_map (logged inst) h))%nat /\
    e_hist (er_run r h) = e_hist r ++ flat_map (logged inst) h.
  Proof.
    induction h as [|o h IH]; intros r es H.
    - cbn. rewrite !app_nil_r, Qplus_0_r. repeat split; try apply H; try reflexivity. lia.
    - change (er_run r (o :: h)) with (er_run (er_step r o) h). destruct (er_step_spec inst r es o H) as (AG & C & CS & NM & HI).
      destruct (IH _ _ AG) as (AG' & C' & CS' & NM' & HI'). cbn [flat_map]. rewrite app_assoc.
      split; auto. rewrite C', C, CS', CS, NM', NM, HI', HI, !app_assoc, app_length.
      repeat split; auto; try lia.
      assert (Q : forall a b, (fold_right Qplus 0 (a ++ b) == fold_right Qplus 0 a + fold_right Qplus 0 b)%Q).
      { induction a as [|q a IHa]; intro b; cbn; [now rewrite Qplus_0_l|]. rewrite IHa. now rewrite Qplus_assoc. }
      rewrite Q. now rewrite Qplus_assoc.
  Qed.

  Lemma er_retrieve_spec inst r es ks : agrees inst r es ->
    er_retrieve r ks = Ok (flat_map (fun k => match content es k with Some (_, Some v) => if inst then [v] else [] | _ => [] end) ks,
                           flat_map (fun k => match content es k with Some (l, _) => [l] | None => [] end) ks,
                           filter (fun k => match content es k with Some _ => false | None => true end) ks).
  Proof.
    intro H. induction ks as [|k ks IH]; [reflexivity|]. cbn [er_retrieve]. rewrite (ag_lab _ _ _ H).
    cbn [flat_map filter]. destruct (content es k) as [[l x]|] eqn:C; cbn [option_map fst].
    - rewrite (ag_inst _ _ _ H). destruct inst eqn:T.
      + destruct (ag_ind _ _ _ H eq_refl) as (d & -> & _ & G). cbn [dflt]. rewrite G, C.
        destruct (ag_example _ _ _ _ _ _ H eq_refl C) as [v ->]. cbn [bind]. rewrite IH. reflexivity.
      + cbn [bind]. rewrite IH. cbn [bind fst snd app]. destruct x; reflexivity.
    - rewrite IH. reflexivity.
  Qed.

  Lemma er_training_spec inst r es : agrees inst r es ->
    er_training r =
    if forallb (fun k => is_some (content es k)) (index_list es) then
      Ok (flat_map (fun k => match content es k with Some (_, Some v) => if inst then [v] else [] | _ => [] end) (index_list es),
          flat_map (fun k => match content es k with Some (l, _) => [l] | None => [] end) (index_list es), index_list es)
    else Err KeyErr.
  Proof.
    intro H. unfold er_training. rewrite (ag_idx _ _ _ H). rewrite (ag_inst _ _ _ H).
    set (f := fun k => bind _ _).
    assert (M : mapM f (index_list es) = if forallb (fun k => is_some (content es k)) (index_list es) then
      Ok (flat_map (fun k => match content es k with Some (l, x) => [(if inst then match x with Some v => [v] | None => [] end else [], l)] | None => [] end) (index_list es)) else Err KeyErr).
    { generalize (index_list es) as idx. induction idx as [|k idx IH]; [reflexivity|]. cbn [mapM forallb flat_map].
      assert (Fk : f k = match content es k with Some (l, x) => Ok (if inst then match x with Some v => [v] | None => [] end else [], l) | None => Err KeyErr end).
      { unfold f. rewrite (ag_lab _ _ _ H). destruct inst eqn:T.
        - destruct (ag_ind _ _ _ H eq_refl) as (d & -> & _ & G). cbn [dflt]. rewrite G.
          destruct (content es k) as [[l x]|] eqn:C; [|reflexivity].
          destruct (ag_example _ _ _ _ _ _ H eq_refl C) as [v ->]. reflexivity.
        - cbn. destruct (content es k) as [[l x]|]; reflexivity. }
      rewrite Fk, IH. destruct (content es k) as [[l x]|]; [|reflexivity]. cbn [bind is_some andb].
      destruct (forallb _ idx); reflexivity. }
    rewrite M. destruct (forallb _ _) eqn:FA; [|reflexivity]. cbn [bind]. f_equal. f_equal. f_equal.
    - clear. induction (index_list es) as [|k l IH]; [reflexivity|]. cbn [flat_map]. rewrite flat_map_app, IH. f_equal.
      destruct (content es k) as [[a [v|]]|]; destruct inst; reflexivity.
    - clear. induction (index_list es) as [|k l IH]; [reflexivity|]. cbn [flat_map]. rewrite map_app, IH. f_equal.
      destruct (content es k) as [[a x]|]; reflexivity.
  Qed.
End Element.

(** ** Examples belonging to indexes *)
Section ByExample.
  Context {A : Type} (feature : key -> vec) (feature_inj : forall k k', feature k = feature k' -> k = k').
  Implicit Types (r : erepo A) (es : list (key * option (A * option vec))).

  Definition consistent es : Prop := forall k l v, In (k, Some (l, Some v)) es -> v = feature k.

  Lemma consistent_app es es' : consistent (es ++ es') <-> consistent es /\ consistent es'.
  Proof.
    unfold consistent. split.
    - intro H. split; intros k l v I; apply (H k l v), in_app_iff; auto.
    - intros [H1 H2] k l v I. apply in_app_iff in I. destruct I; eauto.
  Qed.

  Lemma content_feature es k l v : content es k = Some (l, Some v) -> consistent es -> v = feature k.
  Proof.
    intros C H. unfold content in C. destruct (latest key_dec k es) as [[w|]|] eqn:E; try discriminate.
    injection C as ->. apply latest_in in E. eapply H; eauto.
  Qed.

  Definition exa_ok r es : Prop :=
    forall v k, dget zlist_eqb v (dflt (e_exa r)) = Some k <-> exists l, content es k = Some (l, Some v).

  Definition inv2 r es : Prop := agrees true r es /\ exa_ok r es.

  Lemma inv2_add r es k l c v : inv2 r es -> consistent (es ++ [(k, Some (l, Some v))]) ->
    inv2 (fst (er_add r k l c (Some (inl v)))) (es ++ [(k, Some (l, Some v))]).
  Proof using feature_inj.
    intros [AG EX] C. pose proof C as C0. apply consistent_app in C. destruct C as [C1 C2].
    assert (V : v = feature k) by (apply (C2 k l v); now left).
    destruct (er_add_spec true r es k l c (Some (inl v)) AG) as [(e & _ & _ & N)|(r' & E & _ & AG' & _)]; [now destruct (N v)|].
    rewrite E. split; [exact AG'|]. unfold er_add in E. rewrite (ag_inst _ _ _ AG) in E. injection E as <-. cbn.
    destruct (ag_exa _ _ _ AG eq_refl) as (d & Ed & Nd). unfold exa_ok in EX. rewrite Ed in EX. cbn [dflt] in EX.
    unfold exa_ok. cbn [er_store e_exa]. rewrite Ed. cbn [option_map dflt].
    intros v' k'. rewrite dget_dset by apply zl_ok. rewrite content_snoc. cbn [fst snd].
    destruct (zlist_eqb v' v) eqn:Ev.
    - apply zl_ok in Ev. subst v'. split.
      + intro X. injection X as <-. destruct (key_dec k k); [eauto|contradiction].
      + destruct (key_dec k' k) as [->|n]; intros [l' X]; auto. exfalso. apply n, feature_inj.
        rewrite <- V. symmetry. eapply content_feature; eauto.
    - assert (NV : v' <> v) by (intro Z; apply zl_ok in Z; congruence).
      rewrite EX. destruct (key_dec k' k) as [->|n]; [|tauto]. split.
      + intros [l' X]. exfalso. apply NV. rewrite V. eapply content_feature; eauto.
      + intros [l' X]. congruence.
  Qed.

  Lemma inv2_loop : forall ks ls cs xs r es, inv2 r es ->
    List.length ks = List.length ls -> (forall l, cs = Some l -> List.length l = List.length ls) ->
    List.length xs = List.length ls ->
    consistent (es ++ paired true ks ls (Some xs)) ->
    inv2 (fst (er_loop r (zip ks ls cs (Some xs) (List.length ls)))) (es ++ paired true ks ls (Some xs)).
  Proof using feature_inj.
    induction ks as [|k ks IH]; intros [|l ls] cs xs r es H L LC LX C; try discriminate.
    - cbn. now rewrite app_nil_r.
    - destruct xs as [|v xs]; [discriminate|]. cbn [List.length] in *.
      set (c := match cs with Some (q :: _) => Some q | _ => None end).
      assert (Z : zip (k :: ks) (l :: ls) cs (Some (v :: xs)) (S (List.length ls)) =
        (k, l, c, Some (inl v)) :: zip ks ls (option_map (@tl Q) cs) (Some xs) (List.length ls)).
      { unfold zip, column, c. destruct cs as [[|q cs]|]; [specialize (LC _ eq_refl); discriminate| |]; reflexivity. }
      rewrite Z. cbn [er_loop paired option_map tl] in *.
      replace (es ++ (k, Some (l, Some v)) :: paired true ks ls (Some xs)) with
        ((es ++ [(k, Some (l, Some v))]) ++ paired true ks ls (Some xs)) in * by now rewrite <- app_assoc.
      pose proof (inv2_add r es k l c v H) as A1. apply consistent_app in C as C'. specialize (A1 (proj1 C')).
      assert (E : exists r', er_add r k l c (Some (inl v)) = (r', Ok tt)).
      { unfold er_add. rewrite (ag_inst _ _ _ (proj1 H)). eauto. }
      destruct E as [r' E]. rewrite E in *. cbn [fst] in A1. apply IH; auto.
      intros l0 E0. destruct cs as [[|q cs]|]; try discriminate; injection E0 as <-; specialize (LC _ eq_refl); cbn in *; lia.
  Qed.

  Lemma inv2_init labels indexes xs r : er_init labels indexes (Some xs) = Ok r ->
    consistent (paired true indexes labels (Some xs)) -> inv2 r (paired true indexes labels (Some xs)).
  Proof using feature_inj.
    intros H C. split; [exact (proj1 (er_init_spec _ _ _ _ H))|].
    unfold er_init in H. destruct (same_length _ _ _ _) eqn:E; [|discriminate]. apply same_length_spec in E.
    destruct E as (E1 & E2 & _). specialize (E1 _ eq_refl). specialize (E2 _ eq_refl). cbn [negb] in H. injection H as <-.
    pose proof (inv2_loop indexes labels None xs (empty_repo true) []) as P. cbn [app] in P.
    assert (I0 : inv2 (empty_repo true) []).
    { split; [apply agrees_empty|]. intros v k. cbn. split; [discriminate|intros [l X]; discriminate]. }
    specialize (P I0 E1 ltac:(discriminate) E2 C).
    rewrite (loop_explicit true) in P by (auto; intros l E0; now injection E0 as <-). destruct P as [_ P]. exact P.
  Qed.

  Lemma inv2_discard r es k : inv2 r es -> consistent es ->
    inv2 (fst (er_discard r k)) (es ++ [(k, None)]).
  Proof using feature_inj.
    intros [AG EX] C. destruct (er_discard_spec true r es k AG) as [AG' _]. split; auto.
    destruct (ag_exa _ _ _ AG eq_refl) as (d & Ed & Nd). destruct (ag_ind _ _ _ AG eq_refl) as (d2 & Ed2 & Nd2 & G).
    unfold exa_ok in *. rewrite Ed in EX. cbn [dflt] in EX.
    assert (Same : content es k = None -> forall v k', dget zlist_eqb v d = Some k' <-> exists l, content (es ++ [(k, None)]) k' = Some (l, Some v)).
    { intros N v k'. rewrite EX, content_snoc. cbn. destruct (key_dec k' k) as [->|]; [|tauto]. rewrite N.
      split; intros [l X]; discriminate. }
    unfold er_discard. destruct (existsb (key_eqb k) (e_idx r)) eqn:IX; cbn [negb].
    - unfold has. rewrite (ag_lab _ _ _ AG). destruct (content es k) as [[l x]|] eqn:CK; cbn [option_map negb fst].
      + rewrite (ag_inst _ _ _ AG), Ed2, Ed. cbn [dflt]. rewrite G, CK.
        destruct (ag_example _ _ _ _ _ _ AG eq_refl CK) as [v ->].
        assert (X : dget zlist_eqb v d = Some k) by (apply EX; eauto). rewrite X. cbn [negb fst set_stores e_exa option_map dflt].
        intros v' k'. rewrite dget_ddel by (auto; apply zl_ok). rewrite content_snoc. cbn.
        destruct (zlist_eqb v' v) eqn:Ev.
        * apply zl_ok in Ev. subst v'. split; [discriminate|]. destruct (key_dec k' k) as [->|n]; intros [l' Y]; [discriminate|].
          exfalso. apply n, feature_inj. transitivity v; [symmetry|]; eapply content_feature; eauto.
        * rewrite EX. destruct (key_dec k' k) as [->|n]; [|tauto]. split; [|intros [l' Y]; discriminate].
          intros [l' Y]. rewrite CK in Y. injection Y as -> ->. assert (zlist_eqb v' v' = true) by now apply zl_ok. congruence.
      + cbn [set_stores e_exa]. rewrite Ed. cbn [dflt]. apply Same; auto.
    - cbn [fst]. rewrite Ed. cbn [dflt]. apply Same. destruct (content es k) eqn:CK; auto. exfalso.
      assert (In k (e_idx r)) by (rewrite (ag_idx _ _ _ AG); apply content_listed; congruence).
      apply existsb_key in H. congruence.
  Qed.

  Lemma inv2_step r es o : inv2 r es -> consistent (es ++ events_of true o) -> inv2 (er_step r o) (es ++ events_of true o).
  Proof using feature_inj.
    intros H C. destruct o as [k l c x|ks ls cs xs|k l c x|k]; cbn [er_step events_of] in *.
    - destruct x as [v|]; cbn [option_map is_some negb andb] in *.
      + now apply inv2_add.
      + rewrite app_nil_r. unfold er_add. rewrite (ag_inst _ _ _ (proj1 H)). exact H.
    - pose proof (er_update_spec true r es ks ls cs xs (proj1 H)) as U. destruct (accepted true ks ls cs xs) eqn:AC.
      + apply accepted_same in AC. destruct AC as [S HI]. unfold er_update. rewrite S. cbn [negb].
        apply same_length_spec in S. destruct S as (S1 & S2 & S3). specialize (S1 _ eq_refl).
        fold (zip ks ls cs xs (List.length ls)).
        assert (P : inv2 (fst (er_loop r (zip ks ls cs xs (List.length ls)))) (es ++ paired true ks ls xs)).
        { destruct xs as [xs|].
          - apply inv2_loop; auto.
          - destruct (HI eq_refl) as [X| ->]; [congruence|]. destruct ks; [|discriminate]. cbn. now rewrite app_nil_r. }
        destruct (er_loop r _) as [r' [u|e]]; cbn [fst] in *; auto. destruct P as [P1 P2]. split; [|exact P2].
        destruct P1. split; auto.
      + destruct U as [e ->]. cbn. now rewrite app_nil_r.
    - rewrite app_nil_r. unfold er_update_one, er_add. rewrite (ag_inst _ _ _ (proj1 H)).
      destruct x as [[|a [|b v]]|]; exact H.
    - apply inv2_discard; auto. now apply consistent_app in C.
  Qed.

  Lemma inv2_run : forall h r es, inv2 r es -> consistent (es ++ flat_map (events_of true) h) ->
    inv2 (er_run r h) (es ++ flat_map (events_of true) h).
  Proof using feature_inj.
    induction h as [|o h IH]; intros r es H C; [cbn; now rewrite app_nil_r|].
    change (er_run r (o :: h)) with (er_run (er_step r o) h). cbn [flat_map] in *. rewrite app_assoc in *.
    apply IH; auto. apply inv2_step; auto. now apply consistent_app in C.
  Qed.

  (** Discarding by example is discarding by index. *)
  Lemma discard_ex_spec r es k : inv2 r es -> consistent es ->
    er_discard_ex r (feature k) = match content es k with Some _ => er_discard r k | None => (r, Ok true) end.
  Proof using feature_inj.
    intros [AG EX] C. unfold er_discard_ex. rewrite (ag_inst _ _ _ AG). cbn [negb]. unfold exa_ok in EX.
    destruct (dget zlist_eqb (feature k) (dflt (e_exa r))) as [k'|] eqn:D.
    - apply EX in D. destruct D as [l CK]. assert (k' = k) by (apply feature_inj; symmetry; eapply content_feature; eauto).
      subst k'. rewrite CK. unfold er_discard, has.
      assert (IN : existsb (key_eqb k) (e_idx r) = true).
      { apply existsb_key. rewrite (ag_idx _ _ _ AG). apply content_listed. congruence. }
      rewrite IN. cbn [negb]. rewrite (ag_lab _ _ _ AG), CK. cbn [option_map negb]. rewrite (ag_inst _ _ _ AG).
      destruct (ag_ind _ _ _ AG eq_refl) as (d2 & Ed2 & _ & G). rewrite Ed2. cbn [dflt]. rewrite G, CK. cbn [negb].
      assert (X : dget zlist_eqb (feature k) (dflt (e_exa r)) = Some k) by (apply EX; eauto). rewrite X. cbn [negb].
      reflexivity.
    - destruct (content es k) as [[l x]|] eqn:CK; auto. exfalso.
      destruct (ag_example _ _ _ _ _ _ AG eq_refl CK) as [v ->].
      assert (V : v = feature k) by (eapply content_feature; eauto). subst v.
      assert (X : dget zlist_eqb (feature k) (dflt (e_exa r)) = Some k) by (apply EX; eauto). congruence.
  Qed.

  Lemma retrieve_ex_spec r es ks : inv2 r es -> consistent es ->
    er_retrieve_ex r (map feature ks) = er_retrieve r (filter (fun k => is_some (content es k)) ks).
  Proof using feature_inj.
    intros [AG EX] C. unfold er_retrieve_ex. rewrite (ag_inst _ _ _ AG). cbn [negb]. f_equal.
    induction ks as [|k ks IH]; cbn; auto. rewrite IH.
    destruct (content es k) as [[l x]|] eqn:CK; cbn [is_some].
    - destruct (ag_example _ _ _ _ _ _ AG eq_refl CK) as [v ->].
      assert (V : v = feature k) by (eapply content_feature; eauto). subst v.
      assert (X : dget zlist_eqb (feature k) (dflt (e_exa r)) = Some k) by (apply EX; eauto). rewrite X. reflexivity.
    - destruct (dget zlist_eqb (feature k) (dflt (e_exa r))) as [k'|] eqn:D; auto. exfalso.
      apply EX in D. destruct D as [l CK']. assert (k' = k) by (apply feature_inj; symmetry; eapply content_feature; eauto).
      congruence.
  Qed.
End ByExample.
