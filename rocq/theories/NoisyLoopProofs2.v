From Verif Require Import Base BaseFacts IndexModel IndexSpec IndexProofs MLModel StateModel StateSpec StateProofs Dict OracleModel OracleSpec OracleProofs2 VoteProofs RepoModel NoisyLoopModel NoisyLoopSpec NoisyLoopProofs.
From Coq Require Import String QArith Lia.
Local Open Scope Z_scope.

Definition pt (k : Z) : list pyval := [VNp (KInt k)].
Definition left_of (us : list Z) (asked : list (Z * Z)) : list Z :=
  filter (fun x => negb (existsb (Z.eqb x) (map fst asked))) us.

Lemma left_snoc us asked k z :
  filter (fun x => negb (x =? k)) (left_of us asked) = left_of us (asked ++ [(k, z)]).
Proof.
  unfold left_of. rewrite map_app. cbn [map fst]. induction us as [|u us IH]; [reflexivity|]. cbn [filter].
  rewrite existsb_app. cbn [existsb]. rewrite Bool.orb_false_r.
  destruct (existsb (Z.eqb u) (map fst asked)) eqn:E; cbn [negb orb filter].
  - exact IH.
  - destruct (u =? k); cbn [negb]; [exact IH|now rewrite IH].
Qed.

Lemma left_in us asked k : In k (left_of us asked) <-> In k us /\ ~ In k (map fst asked).
Proof.
  unfold left_of. rewrite filter_In. destruct (existsb (Z.eqb k) (map fst asked)) eqn:E; cbn; split; intros [A B]; split; auto; try discriminate.
  - exfalso. apply B. apply existsb_exists in E. destruct E as (x & H & E). apply Z.eqb_eq in E. now subst.
  - intro H. rewrite <- Bool.not_true_iff_false in E. apply E. apply existsb_exists. exists k. split; auto. apply Z.eqb_refl.
Qed.

Lemma prefixes_snoc {A} (l : list A) x : prefixes (l ++ [x]) = prefixes l ++ [l ++ [x]].
Proof.
  unfold prefixes. rewrite app_length, Nat.add_1_r, seq_S, map_app. cbn [map Nat.add]. f_equal.
  - apply map_ext_in. intros i Hi. apply in_seq in Hi. rewrite firstn_app.
    replace (S i - List.length l)%nat with O by lia. now rewrite firstn_O, app_nil_r.
  - f_equal. rewrite firstn_all2; [reflexivity|]. rewrite app_length. cbn. lia.
Qed.

Section Loop.
  Context {T : Type}.
  Variables (strat : T -> icol -> icol -> T * res answer) (train : list Z -> list mlabel -> res Q).
  Variables (tr te : list pyval) (L0 U0 : icol) (ls us : list Z) (ys : list Z) (p0 : pool) (c0 : scrit).
  Hypothesis sel : selects_unlabelled strat.
  Hypothesis (LNE : ls <> []) (APART : forall k, In k ls -> In k us -> False).

  Definition taught (asked : list (Z * Z)) : list mlabel := map LNum ys ++ map (fun e => LNum (snd e)) asked.
  Definition known (asked : list (Z * Z)) : list Z := ls ++ map fst asked.

  (** [k] rounds are in the saver; the oracles were also asked for [extra]. *)
  Record inv (s : nstate T) (recs extra : list (list string * list (list key * list Q) * list key))
             (asked : list (Z * Z)) (k : nat) : Prop := {
    i_wl : WF (lab s); i_wu : WF (unl s);
    i_l : ids (lab s) (known asked); i_u : ids (unl s) (left_of us asked);
    i_w : m_width (repo s) = None; i_i : m_inst (repo s) = false;
    i_y : m_y (repo s) = taught asked; i_x : m_idx (repo s) = known asked; i_c : m_cost (repo s) = 0%Q;
    i_d : p_dict (oracles s) = p_dict p0;
    i_h : p_hist (oracles s) = p_hist p0 ++ recs ++ extra;
    i_p : (p_cost (oracles s) == p_cost p0 + total_cost (recs ++ extra))%Q;
    i_t : Forall2 (taught_by p0) recs asked;
    i_f : fits s = map (fun pre => (known pre, taught pre)) (prefixes asked);
    i_k : (k <= List.length asked)%nat;
    i_s : map queried (s_states (sav s)) = map (fun e => pt (fst e)) (firstn k asked);
    i_sc : (s_cost (sav s) == total_cost (firstn k recs))%Q;
    i_sl : s_L (sav s) = L0; i_su : s_U (sav s) = U0; i_st : s_train (sav s) = tr; i_se : s_test (sav s) = te;
    i_in : forall e, In e asked -> In (fst e) us;
    i_nd : NoDup (map fst asked) }.

  (** Between rounds the record is complete, and replaying it gives the two collections. *)
  Record live (s : nstate T) recs asked : Prop := {
    l_inv : inv s recs [] asked (List.length asked);
    l_rep : sio_replay ic_update ic_difference_update (sav s) (List.length asked) = Ok (lab s, unl s);
    l_len : List.length (s_states (sav s)) = List.length asked;
    l_n : sc_name (crit s) = sc_name c0; l_v : sc_value (crit s) = sc_value c0;
    l_un : sc_unlabel (crit s) = if Nat.eqb (List.length asked) 0 then sc_unlabel c0 else List.length (left_of us asked);
    l_co : sc_name c0 = NCost -> (asked = [] -> sc_acost (crit s) = sc_acost c0) /\
             (asked <> [] -> (sc_acost (crit s) == total_cost recs)%Q) }.

  Lemma foldM_snoc {A B} (f : B -> A -> res B) l : forall b x b1 b2,
    foldM f b l = Ok b1 -> f b1 x = Ok b2 -> foldM f b (l ++ [x]) = Ok b2.
  Proof.
    induction l as [|a l IH]; intros b x b1 b2 H1 H2; cbn in *.
    - injection H1 as ->. rewrite H2. reflexivity.
    - destruct (f b a) as [b'|]; [|discriminate]. cbn in *. eapply IH; eauto.
  Qed.

  Lemma firstn_snoc_all {A} (l : list A) x : firstn (List.length (l ++ [x])) (l ++ [x]) = l ++ [x].
  Proof. apply firstn_all. Qed.

  Lemma inv_lengths s recs extra asked k : inv s recs extra asked k -> List.length recs = List.length asked.
  Proof. intro H. pose proof (i_t _ _ _ _ _ H) as F. clear - F. induction F; cbn; auto. Qed.

  Lemma turn_cases s recs asked s' o : live s recs asked -> turn strat train s = (s', o) ->
    match o with
    | Ok _ => exists r e, live s' (recs ++ [r]) (asked ++ [e]) /\
        exists q, train (known (asked ++ [e])) (taught (asked ++ [e])) = Ok q
    | Err x =>
        (exists extra, (List.length extra <= 1)%nat /\ inv s' recs extra asked (List.length asked) /\
           ((exists x', snd (strat (own s) (lab s) (unl s)) = Err x') \/
            (snd (strat (own s) (lab s) (unl s)) = Ok Alone /\ x = ValueErr /\ extra = []) \/
            exists k names, snd (strat (own s) (lab s) (unl s)) = Ok (Two k names) /\
              forall n z c, snd (get_majority_vote_pool (oracles s) [KInt k] (Some names)) <> Ok (n, KInt z, c))) \/
        (exists r e, inv s' (recs ++ [r]) [] (asked ++ [e]) (List.length asked) /\
           train (known (asked ++ [e])) (taught (asked ++ [e])) = Err x) \/
        (exists r e, inv s' (recs ++ [r]) [] (asked ++ [e]) (List.length (asked ++ [e])) /\ sc_name c0 = NPercent)
    end.
  Proof.
    intros [I RP LEN LN LV LU LC] H. pose proof I as [WL WU IL IU RW RI RY RX RC PD PH PC FT FF _ SS SC SL SU STR STE IN ND].
    pose proof (inv_lengths _ _ _ _ _ I) as LR.
    unfold turn in H. destruct (strat (own s) (lab s) (unl s)) as [own1 a] eqn:SE.
    destruct a as [[k names|]|x].
    2:{ injection H as <- <-. left. exists []. split; [cbn; lia|]. split; [constructor; auto|]. right. left. repeat split. }
    2:{ injection H as <- <-. left. exists []. split; [cbn; lia|]. split; [constructor; auto|]. left. exists x. reflexivity. }
    assert (KU : In k (left_of us asked)).
    { pose proof (sel (own s) (lab s) (unl s) k names) as S. rewrite SE in S. specialize (S eq_refl).
      unfold ids in IU. rewrite IU in S. apply in_map_iff in S. destruct S as (q & E & S). now injection E as ->. }
    apply left_in in KU. destruct KU as [KU KA].
    destruct (get_majority_vote_pool (oracles s) [KInt k] (Some names)) as [p v] eqn:VE.
    destruct v as [[[n l] c]|x].
    2:{ injection H as <- <-. left. destruct (vote_fails _ _ _ _ _ VE) as (extra & E1 & E2 & E3 & E4).
        exists extra. split; [exact E1|].
        split; [|right; right; exists k, names; split; [reflexivity|intros n z c; rewrite VE; discriminate]]. constructor; cbn; auto.
        - congruence.
        - rewrite E3, PH, app_nil_r, app_assoc. reflexivity.
        - rewrite E4, PC, !total_cost_app. unfold total_cost at 2. cbn. ring. }
    destruct (vote_ok _ _ _ _ _ _ _ VE) as (rs & E1 & E2 & E3 & E4 & E5 & lsv & E6 & E7).
    destruct (as_label l) as [z|x] eqn:AL.
    2:{ injection H as <- <-. left. exists [(names, rs, [KInt k])]. split; [cbn; lia|].
        split; [|right; right; exists k, names; split; [reflexivity|intros n' z c'; rewrite VE; cbn; intro X; injection X as -> -> ->; discriminate]].
        constructor; cbn; auto.
        - congruence.
        - rewrite E2, PH, app_nil_r, app_assoc. reflexivity.
        - rewrite E4, E3, PC, !total_cost_app. unfold total_cost at 2 4. cbn. ring. }
    destruct l as [zz|]; [|discriminate]. cbn in AL. injection AL as <-.
    assert (NK : ~ In k (known asked)).
    { unfold known. rewrite in_app_iff. intros [A|A]; [apply (APART k); auto|contradiction]. }
    destruct (repo_adds (repo s) k zz RW RI) as (r & MU & RW' & RI' & RY' & RX' & RC'); [now rewrite RX|].
    rewrite MU in H.
    destruct (add_int (lab s) (known asked) k WL IL) as (L & w & AU & WL' & IL'); [unfold known; destruct ls; [congruence|discriminate]|exact NK|].
    rewrite AU in H.
    destruct (drop_int (unl s) (left_of us asked) k WU IU) as (U & w' & DU & WU' & IU'). rewrite DU in H.
    set (e := (k, zz)). set (rec := (names, rs, [KInt k])).
    assert (KS : known asked ++ [k] = known (asked ++ [e])) by (unfold known; rewrite map_app, app_assoc; reflexivity).
    assert (TS : taught asked ++ [LNum zz] = taught (asked ++ [e])) by (unfold taught; rewrite map_app, app_assoc; reflexivity).
    rewrite (left_snoc us asked k zz) in IU'. fold e in IU'.
    rewrite KS in IL'. rewrite RY, TS in RY'. rewrite RX, KS in RX'. rewrite RC in RC'.
    unfold mr_training in H. rewrite RY', RX' in H.
    assert (TB : taught_by p0 rec e).
    { cbn. split; [reflexivity|]. split; [|exists lsv, n; auto]. rewrite <- PD. exact E5. }
    assert (CORE : forall s', lab s' = L -> unl s' = U -> repo s' = r -> oracles s' = p ->
       fits s' = fits s ++ [(known (asked ++ [e]), taught (asked ++ [e]))] ->
       forall k', (k' <= List.length (asked ++ [e]))%nat ->
       map queried (s_states (sav s')) = map (fun e => pt (fst e)) (firstn k' (asked ++ [e])) ->
       (s_cost (sav s') == total_cost (firstn k' (recs ++ [rec])))%Q ->
       s_L (sav s') = L0 -> s_U (sav s') = U0 -> s_train (sav s') = tr -> s_test (sav s') = te ->
       inv s' (recs ++ [rec]) [] (asked ++ [e]) k').
    { intros s1 H1 H2 H3 H4 H5 k' H6 H7 H8 H9 H10 H11 H12. constructor; try congruence; rewrite ?H1, ?H2, ?H3, ?H4; auto.
      - rewrite E2, PH, !app_nil_r, app_assoc. reflexivity.
      - rewrite E4, E3, PC, !app_nil_r, !total_cost_app. unfold rec. unfold total_cost at 3. cbn. ring.
      - apply Forall2_app; auto.
      - rewrite H5, FF, prefixes_snoc, map_app. reflexivity.
      - intros x Hx. apply in_app_iff in Hx. destruct Hx as [Hx|[<-|[]]]; auto.
      - rewrite map_app. cbn [map]. apply NoDup_app_intro; auto; [repeat constructor; auto|].
        intros x Hx [E|[]]. cbn in E. subst. contradiction. }
    destruct (train (known (asked ++ [e])) (taught (asked ++ [e]))) as [q|x] eqn:TR.
    2:{ injection H as <- <-. right. left. exists rec, e. split; [|exact TR]. apply CORE; cbn; auto.
        - rewrite app_length. lia.
        - rewrite SS. rewrite firstn_app, Nat.sub_diag, firstn_O, app_nil_r. reflexivity.
        - rewrite SC, firstn_app, <- LR, Nat.sub_diag, firstn_O, app_nil_r. reflexivity. }
    cbv zeta in H. set (st := EState _) in H.
    assert (SA : exists v1, sio_add (sav s) st = (v1, Ok tt) /\ s_states v1 = s_states (sav s) ++ [st] /\
        s_cost v1 = (s_cost (sav s) + c)%Q /\ s_L v1 = L0 /\ s_U v1 = U0 /\ s_train v1 = tr /\ s_test v1 = te).
    { unfold st. cbn. eexists. split; [reflexivity|]. cbn. auto 10. }
    destruct SA as (v1 & SA & V1 & V2 & V3 & V4 & V5 & V6). rewrite SA in H.
    assert (SEL : sel_of st = Ok (pt k)) by reflexivity.
    assert (REP : sio_replay ic_update ic_difference_update v1 (List.length (asked ++ [e])) = Ok (L, U)).
    { unfold sio_replay in RP |- *. rewrite V1, V3, V4. rewrite SL, SU in RP.
      rewrite <- LEN, firstn_all in RP.
      replace (List.length (asked ++ [e])) with (List.length (s_states (sav s) ++ [st])) by (rewrite !app_length; cbn; lia).
      rewrite firstn_all. eapply foldM_snoc; [exact RP|].
      unfold replay_one. rewrite SEL. cbn [bind fst snd]. unfold pt. rewrite DU, AU. reflexivity. }
    assert (LV1 : List.length (s_states v1) = List.length (asked ++ [e])) by (rewrite V1, !app_length; cbn; lia).
    assert (WS : sio_workspace ic_update ic_difference_update v1 None = Ok (tr, te, L, U)).
    { unfold sio_workspace. rewrite LV1.
      replace ((0 <=? _) && (_ <=? _))%bool with true
        by (symmetry; apply andb_true_intro; split; apply Z.leb_le; lia).
      rewrite Nat2Z.id, REP. cbn. now rewrite V5, V6. }
    assert (WS0 : sio_workspace ic_update ic_difference_update v1 (Some 0) = Ok (tr, te, L0, U0)).
    { unfold sio_workspace.
      replace ((0 <=? 0) && (0 <=? _))%bool with true
        by (symmetry; apply andb_true_intro; split; apply Z.leb_le; lia).
      cbn. now rewrite V3, V4, V5, V6. }
    assert (Q1 : (s_cost v1 == total_cost (firstn (List.length (asked ++ [e])) (recs ++ [rec])))%Q).
    { replace (List.length (asked ++ [e])) with (List.length (recs ++ [rec])) by (rewrite !app_length; cbn; lia).
      rewrite firstn_all, V2, SC, total_cost_app, E3, <- LR, firstn_all. unfold total_cost at 3. cbn. ring. }
    assert (S1 : map queried (s_states v1) = map (fun e => pt (fst e)) (firstn (List.length (asked ++ [e])) (asked ++ [e]))).
    { rewrite firstn_all, V1, !map_app, SS, firstn_all. reflexivity. }
    assert (UL : ic_len U = List.length (left_of us (asked ++ [e]))) by (apply len_ids; auto).
    assert (NZ : Nat.eqb (List.length (asked ++ [e])) 0 = false) by (apply Nat.eqb_neq; rewrite app_length; cbn; lia).
    assert (QQ : (s_cost v1 == total_cost (recs ++ [rec]))%Q).
    { rewrite Q1. replace (List.length (asked ++ [e])) with (List.length (recs ++ [rec])) by (rewrite !app_length; cbn; lia).
      now rewrite firstn_all. }
    unfold sc_update in H. rewrite WS, WS0 in H.
    assert (LIVE : forall c1, sc_name c1 = sc_name c0 -> sc_value c1 = sc_value c0 -> sc_unlabel c1 = ic_len U ->
       (sc_name c0 = NCost -> sc_acost c1 = s_cost v1) ->
       live {| lab := L; unl := U; repo := r; sav := v1; crit := c1; oracles := p; own := own1;
               fits := fits s ++ [(known (asked ++ [e]), taught (asked ++ [e]))] |} (recs ++ [rec]) (asked ++ [e])).
    { intros c1 A1 A2 A3 A4. constructor; cbn [lab unl sav crit]; auto.
      - rewrite NZ. congruence.
      - intro N. split; intro X; [destruct asked; discriminate|]. now rewrite (A4 N). }
    destruct (sc_name (crit s)) eqn:NM;
      try (injection H as <- <-; exists rec, e; split; [apply LIVE; cbn; congruence|eauto]).
    destruct (ic_len U0) as [|m].
    - injection H as <- <-. right. right. exists rec, e. split; [|congruence]. apply CORE; cbn; auto.
    - injection H as <- <-; exists rec, e; split; [apply LIVE; cbn; congruence|eauto].
  Qed.

  (** Every round was begun with less than [v] spent. *)
  Definition thrifty (v : Q) (recs : list (list string * list (list key * list Q) * list key)) : Prop :=
    forall i, (i < List.length recs)%nat -> (total_cost (firstn i recs) < v)%Q.

  Lemma thrifty_snoc v recs r : thrifty v recs -> (total_cost recs < v)%Q -> thrifty v (recs ++ [r]).
  Proof.
    intros H C i Hi. rewrite app_length in Hi. cbn in Hi. rewrite firstn_app.
    destruct (Nat.eq_dec i (List.length recs)) as [->|N].
    - rewrite Nat.sub_diag, firstn_O, app_nil_r, firstn_all. exact C.
    - replace (i - List.length recs)%nat with O by lia. rewrite firstn_O, app_nil_r. apply H. lia.
  Qed.

  Section Cost.
    Variable v : Q.
    Hypothesis (HN : sc_name c0 = NCost) (HV : sc_value c0 = Some v) (HA : (sc_acost c0 == 0)%Q) (HU : sc_unlabel c0 <> O).

    Lemma spent_now s recs asked : live s recs asked -> (sc_acost (crit s) == total_cost recs)%Q.
    Proof.
      intros [I _ _ _ _ _ C]. destruct (C HN) as [C1 C2]. pose proof (inv_lengths _ _ _ _ _ I) as LR.
      destruct asked as [|e asked]; [|now apply C2]. rewrite C1 by reflexivity. destruct recs; [|discriminate].
      rewrite HA. reflexivity.
    Qed.

    Lemma stop_now s recs asked t : live s recs asked ->
      exists b, sc_is_stop (crit s) t = Ok b /\ (b = true <-> (asked <> [] /\ left_of us asked = []) \/ (v <= total_cost recs)%Q).
    Proof.
      intro LI. pose proof (spent_now _ _ _ LI) as SP. destruct LI as [I _ _ LN LV LU _]. unfold sc_is_stop.
      rewrite LN, HN, LV, HV. cbn [ge_value].
      assert (Z : Nat.eqb (sc_unlabel (crit s)) 0 = true <-> asked <> [] /\ left_of us asked = []).
      { rewrite Nat.eqb_eq, LU. destruct asked as [|e asked]; cbn [List.length Nat.eqb].
        - split; [contradiction|intros [X _]; congruence].
        - split; [intro X; split; [discriminate|now apply length_zero_iff_nil]|intros [_ ->]; reflexivity]. }
      destruct (Nat.eqb (sc_unlabel (crit s)) 0).
      - exists true. split; [reflexivity|]. split; auto. intros _. left. now apply Z.
      - exists (Qle_bool v (sc_acost (crit s))). split; [reflexivity|]. rewrite Qle_bool_iff, SP.
        split; [auto|]. intros [X|X]; [|exact X]. apply Z in X. discriminate.
    Qed.
  End Cost.

  Lemma rounds_cases clock : forall n j s recs asked s' o, live s recs asked ->
    rounds strat train clock n j s = (s', o) ->
    match o with
    | Failed x => exists recs' extra asked' k, (List.length extra <= 1)%nat /\ (List.length asked' <= S k)%nat /\
                    inv s' recs' extra asked' k
    | _ => exists recs' asked', live s' recs' asked'
    end.
  Proof.
    induction n as [|n IH]; intros j s recs asked s' o LI H; cbn [rounds] in H.
    - destruct (sc_is_stop (crit s) (clock j)) as [[|]|x]; injection H as <- <-; eauto.
      exists recs, [], asked, (List.length asked). split; [cbn; lia|]. split; [lia|apply LI].
    - destruct (sc_is_stop (crit s) (clock j)) as [[|]|x]; try (injection H as <- <-).
      + eauto.
      + destruct (turn strat train s) as [s1 o1] eqn:TE. pose proof (turn_cases _ _ _ _ _ LI TE) as C.
        destruct o1 as [[]|x].
        * destruct C as (r & e & C & _). exact (IH _ _ _ _ _ _ C H).
        * injection H as <- <-. destruct C as [(extra & E & I & _)|[(r & e & I & _)|(r & e & I & _)]].
          -- exists recs, extra, asked, (List.length asked). auto.
          -- exists (recs ++ [r]), [], (asked ++ [e]), (List.length asked). rewrite app_length. cbn.
             split; [lia|]. split; [lia|exact I].
          -- exists (recs ++ [r]), [], (asked ++ [e]), (List.length (asked ++ [e])).
             split; [cbn; lia|]. split; [lia|exact I].
      + exists recs, [], asked, (List.length asked). split; [cbn; lia|]. split; [lia|apply LI].
  Qed.

  Section CostRounds.
    Variable v : Q.
    Hypothesis (HN : sc_name c0 = NCost) (HV : sc_value c0 = Some v) (HA : (sc_acost c0 == 0)%Q) (HU : sc_unlabel c0 <> O).

    Lemma rounds_cost clock : forall n j s recs asked s' o, live s recs asked -> thrifty v recs ->
      rounds strat train clock n j s = (s', o) ->
      match o with
      | Failed x => exists recs' extra asked' k, (List.length extra <= 1)%nat /\ (List.length asked' <= S k)%nat /\
                      inv s' recs' extra asked' k /\ thrifty v (recs' ++ extra)
      | Done => exists recs' asked', live s' recs' asked' /\ thrifty v recs' /\
                  ((v <= total_cost recs')%Q \/ (asked' <> [] /\ left_of us asked' = []))
      | Running => exists recs' asked', live s' recs' asked' /\ thrifty v recs' /\ (total_cost recs' < v)%Q /\
                    List.length asked' = (n + List.length asked)%nat
      end.
    Proof.
      induction n as [|n IH]; intros j s recs asked s' o LI TH H; cbn [rounds] in H;
        destruct (stop_now v HN HV HA HU s recs asked (clock j) LI) as (b & B & BI); rewrite B in H; destruct b.
      - injection H as <- <-. exists recs, asked. split; [exact LI|]. split; [exact TH|]. destruct (proj1 BI eq_refl); auto.
      - injection H as <- <-. exists recs, asked. split; [exact LI|]. split; [exact TH|]. split; [|reflexivity].
        apply Qnot_le_lt. intro X. assert (false = true) by (apply BI; auto). discriminate.
      - injection H as <- <-. exists recs, asked. split; [exact LI|]. split; [exact TH|]. destruct (proj1 BI eq_refl); auto.
      - assert (LT : (total_cost recs < v)%Q).
        { apply Qnot_le_lt. intro X. assert (false = true) by (apply BI; auto). discriminate. }
        destruct (turn strat train s) as [s1 o1] eqn:TE. pose proof (turn_cases _ _ _ _ _ LI TE) as C.
        destruct o1 as [[]|x].
        + destruct C as (r & e & C & _). pose proof (IH _ _ _ _ _ _ C (thrifty_snoc _ _ _ TH LT) H) as R.
          destruct o; auto. destruct R as (recs' & asked' & R1 & R2 & R3 & R4). exists recs', asked'.
          repeat (split; [assumption|]). rewrite R4, app_length. cbn. lia.
        + injection H as <- <-. destruct C as [(extra & E & I & _)|[(r & e & I & _)|(r & e & I & _)]].
          * exists recs, extra, asked, (List.length asked). split; [exact E|]. split; [lia|]. split; [exact I|].
            destruct extra as [|x1 [|]]; [now rewrite app_nil_r|now apply thrifty_snoc|cbn in E; lia].
          * exists (recs ++ [r]), [], (asked ++ [e]), (List.length asked). rewrite app_length. cbn.
            split; [lia|]. split; [lia|]. split; [exact I|]. rewrite app_nil_r. now apply thrifty_snoc.
          * exists (recs ++ [r]), [], (asked ++ [e]), (List.length (asked ++ [e])).
            split; [cbn; lia|]. split; [lia|]. split; [exact I|]. rewrite app_nil_r. now apply thrifty_snoc.
    Qed.
  End CostRounds.
End Loop.
