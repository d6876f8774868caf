(** Proofs about the loop that acquires feature values: the rounds. *)
From Verif Require Import Base BaseFacts SetFacts IndexModel MLModel MLSpec MLProofs MLProofs2 MLProofs3 MLProps MiscModel QueryModel QuerySpec MLQuerySpec
  FeatureModel FeatureSpec FeatureProofs3 StateModel StateSpec StateProofs StateProofs2 SelfModel SelfProofs
  FeatureLoopModel FeatureLoopSpec FeatureLoopProofs.
From Coq Require Import String QArith.
Local Open Scope Z_scope.

Lemma one_entry {T} (s : fstate T) sel q : 
  let v := fst (sio_add (sav s) (EState (state_init (inl sel) (SNum q) None None))) in
  sio_add (sav s) (EState (state_init (inl sel) (SNum q) None None)) = (v, Ok tt) /\
  s_states v = s_states (sav s) ++ [EState (state_init (inl sel) (SNum q) None None)] /\
  s_L v = s_L (sav s) /\ s_U v = s_U (sav s) /\ s_train v = s_train (sav s) /\ s_test v = s_test (sav s) /\
  s_numq v = (s_numq (sav s) + List.length sel)%nat.
Proof. cbn. repeat split. Qed.

Section Rounds.
  Context {T : Type}.
  Variables (train : list Z) (native : bool) (strat : fmat -> T -> mlic -> mlic -> T * res ml_choice)
            (complete : fmat -> mlic -> res fmat) (score : fmat -> res Q) (X : fmat) (n f : nat) (J : T -> Prop).
  Hypothesis HX : data n f X.
  Hypothesis Ht : rows_ok n train.
  Hypothesis Nt : train <> [].
  Hypothesis Law : lawful strat X train f J.
  Variables (tr te : list mlidx) (L0 U0 : mlic).
  Hypothesis P0 : parts train f L0 U0.
  Notation turn := (feature_turn train native strat complete score X).
  Notation rounds := (feature_rounds train native strat complete score X).

  Lemma nonempty L U : parts train f L U -> pairs U = [] -> mcont L <> [].
  Proof.
    intros (RL & RU & D & G) E N. pose proof (reachable_good _ _ RL) as (_ & _ & Hf & _).
    destruct train as [|i l]; [congruence|].
    assert (K : In (i, 0) (pairs L) \/ In (i, 0) (pairs U)) by (apply G; split; [now left|cbn; lia]).
    rewrite E in K. unfold pairs in K. rewrite N in K. destruct K as [[]|[]].
  Qed.

  (** The record is behind the collections by the entries [P]. *)
  Definition behind (s : fstate T) (P : list (Z * Z)) : Prop :=
    exists L U, rebuilt (sav s) = Ok (tr, te, L, U) /\ parts train f L U /\
      (forall p, In p (pairs U) <-> In p (pairs (unl s)) \/ In p P) /\
      (forall p, In p P -> In p (pairs (lab s))) /\ NoDup P /\ (List.length P <= 1)%nat.

  (** At the head of the loop. *)
  Definition inv (s : fstate T) : Prop :=
    parts train f (lab s) (unl s) /\ J (own s) /\ s_L (sav s) = L0 /\ s_U (sav s) = U0 /\ s_train (sav s) = tr /\ s_test (sav s) = te /\
    (forall p, In p (pairs L0) -> In p (pairs (lab s))) /\
    List.length (fits s) = List.length (s_states (sav s)) /\
    exists P, behind s P /\ (pairs (unl s) <> [] -> P = []) /\ (pairs U0 <> [] -> pairs (unl s) = [] -> P <> []).

  (** After an exception. *)
  Definition hurt (s : fstate T) : Prop :=
    parts train f (lab s) (unl s) /\ (forall p, In p (pairs L0) -> In p (pairs (lab s))) /\ exists P, behind s P.

  Lemma inv_start c t : J t -> inv {| lab := L0; unl := U0; sav := sio_new tr te L0 U0; crit := c; own := t; fits := [] |}.
  Proof.
    intro Jt. split; [exact P0|]. split; [exact Jt|]. do 4 (split; [reflexivity|]). split; [auto|]. split; [reflexivity|].
    exists []. split.
    - exists L0, U0. split; [reflexivity|]. split; [exact P0|]. cbn [unl]. split; [intro p; cbn [In]; tauto|]. split; [intros p []|].
      split; [constructor|]. cbn. lia.
    - split; [reflexivity|]. cbn [unl]. congruence.
  Qed.

  Lemma fine_of s : inv s -> forall a, snd (strat X (own s) (lab s) (unl s)) = Ok a -> fine train f (unl s) a.
  Proof.
    intros (P & Jt & _) a E. pose proof (proj2 (Law _ _ _ Jt P)) as H. rewrite E in H. destruct a; exact H.
  Qed.

  (** Replaying one more record. *)
  Lemma replay_more v v' e L U : proper e -> s_states v' = s_states v ++ [e] -> s_L v' = s_L v -> s_U v' = s_U v ->
    s_train v' = s_train v -> s_test v' = s_test v -> rebuilt v = Ok (tr, te, L, U) -> parts train f L U ->
    (queried e = [] -> rebuilt v' = Ok (tr, te, L, U)) /\
    (forall i j, queried e = [IPair i j] -> entries train f (i, j) ->
       exists L' U', rebuilt v' = Ok (tr, te, L', U') /\ parts train f L' U' /\
         (forall p, In p (pairs L') <-> In p (pairs L) \/ p = (i, j)) /\ (forall p, In p (pairs U') <-> In p (pairs U) /\ p <> (i, j))).
  Proof.
    intros Pe E1 E2 E3 E4 E5 W (RL & RU & D & G). split.
    - intro Q1. destruct (none_added f L RL) as [A1 _]. destruct (none_added f U RU) as [_ A2].
      unfold rebuilt. eapply (workspace_snoc rec_update rec_difference v e); eauto; rewrite Q1; unfold rec_update, rec_difference; eassumption.
    - intros i j Q1 He. pose proof He as [_ Hj]. cbn [snd] in Hj.
      destruct (add_one f L i j RL Hj) as (L' & w1 & A1 & R1 & H1). destruct (drop_one f U i j RU Hj) as (U' & w2 & A2 & R2 & H2).
      exists L', U'. split.
      { unfold rebuilt. eapply (workspace_snoc rec_update rec_difference v e); eauto; rewrite Q1; unfold rec_update, rec_difference; eassumption. }
      split; [|split; [exact H1|exact H2]].
      split; [exact R1|]. split; [exact R2|]. split.
      + intros p Q2 Q3. apply H1 in Q2. apply H2 in Q3. destruct Q2 as [Q2|Q2]; [|tauto]. exact (D p Q2 (proj1 Q3)).
      + intro p. rewrite G, H1, H2. destruct (pair_dec p (i, j)) as [->|Np]; [|tauto].
        apply G in He. tauto.
  Qed.

  (** One turn: it raises before anything happened, or it exchanges the entries of the choice. *)
  Lemma turn_cases s : inv s ->
    match strat X (own s) (lab s) (unl s) with
    | (t, Err e) => turn s = ({| lab := lab s; unl := unl s; sav := sav s; crit := crit s; own := t; fits := fits s |}, Err e)
    | (t, Ok a) => exists L U, fine train f (unl s) a /\ J t /\ parts train f L U /\ mcont L <> [] /\
        (forall p, In p (pairs L) <-> In p (pairs (lab s)) \/ sel_pairs (unl s) a p) /\
        (forall p, In p (pairs U) <-> In p (pairs (unl s)) /\ ~ sel_pairs (unl s) a p) /\
        (a = TheRest -> mcont U = []) /\
        match completed train native complete X L with
        | Err e => turn s = ({| lab := L; unl := U; sav := sav s; crit := crit s; own := t; fits := fits s |}, Err e)
        | Ok M => made_from complete X train L M /\
            match score M with
            | Err e => turn s = ({| lab := L; unl := U; sav := sav s; crit := crit s; own := t; fits := fits s ++ [M] |}, Err e)
            | Ok q =>
                let v := fst (sio_add (sav s) (EState (state_init (inl (match a with TheRest => [] | Chosen l => l end)) (SNum q) None None))) in
                let co := sc_update rec_update rec_difference ml_len (crit s) v in
                turn s = ({| lab := L; unl := U; sav := v; crit := fst co; own := t; fits := fits s ++ [M] |}, snd co)
            end
        end
    end.
  Proof.
    intro I. pose proof (fine_of s I) as Fi. destruct I as (P & Jt & _).
    pose proof (proj1 (Law _ _ _ Jt P)) as J1. unfold feature_turn.
    destruct (strat X (own s) (lab s) (unl s)) as [t [a|e]]; [|reflexivity]. cbn [fst snd] in *.
    specialize (Fi a eq_refl). destruct (exchanged train f _ _ a P Fi) as (L & U & E & P1 & H1 & H2 & H3).
    exists L, U. split; [exact Fi|]. split; [exact J1|]. split; [exact P1|].
    assert (NE : mcont L <> []).
    { destruct a as [|l].
      - apply (nonempty L U P1). unfold pairs. now rewrite (H3 eq_refl).
      - destruct Fi as (_ & i & j & -> & _). intro N. assert (K : In (i, j) (pairs L)) by (apply H1; right; cbn; eauto).
        unfold pairs in K. rewrite N in K. destruct K. }
    split; [exact NE|]. split; [exact H1|]. split; [exact H2|]. split; [exact H3|]. rewrite E.
    destruct (completed train native complete X L) as [M|e] eqn:EM; [|reflexivity].
    split.
    { eapply (completed_ok train native complete X n f); eauto; try apply P1; [apply HX|].
      intros p Hp. destruct P1 as (_ & _ & _ & G). apply (proj2 (G p)). now left. }
    destruct (score M) as [q|e]; [|reflexivity]. cbn zeta.
    assert (S1 : match a with TheRest => mcont U | Chosen l => l end = match a with TheRest => [] | Chosen l => l end).
    { destruct a; [now apply H3|reflexivity]. }
    rewrite S1. destruct (one_entry s (match a with TheRest => [] | Chosen l => l end) q) as (A1 & _). rewrite A1 at 1.
    destruct (sc_update _ _ _ _ _) as [c o]. reflexivity.
  Qed.

  Lemma length_le_1 {A} (l : list A) : (List.length l <= 1)%nat -> l = [] \/ exists x, l = [x].
  Proof. destruct l as [|x [|y l]]; cbn; intros; [auto|eauto|lia]. Qed.

  (** How far the record is behind after the collections were exchanged: not recorded yet, and recorded. *)
  Lemma behind_moved s a L U t c fs : inv s -> fine train f (unl s) a ->
    (forall p, In p (pairs L) <-> In p (pairs (lab s)) \/ sel_pairs (unl s) a p) ->
    (forall p, In p (pairs U) <-> In p (pairs (unl s)) /\ ~ sel_pairs (unl s) a p) ->
    (exists P, behind {| lab := L; unl := U; sav := sav s; crit := c; own := t; fits := fs |} P) /\
    forall v q, v = fst (sio_add (sav s) (EState (state_init (inl (match a with TheRest => [] | Chosen l => l end)) (SNum q) None None))) ->
      exists P, behind {| lab := L; unl := U; sav := v; crit := c; own := t; fits := fs |} P /\
        (pairs U <> [] -> P = []) /\ (pairs U0 <> [] -> pairs U = [] -> P <> []).
  Proof.
    intros ((RL & RU & D & G) & Jt & _ & _ & _ & _ & _ & _ & P & (Lr & Ur & W & Pr & HU & HP & NP & LP) & B1 & B2) Fi H1 H2.
    assert (KU : pairs (unl s) = [] \/ exists p, In p (pairs (unl s))) by (destruct (pairs (unl s)); [auto|right; eexists; now left]).
    split.
    - destruct a as [|l]; cbn [sel_pairs] in *.
      + assert (EU : forall p, ~ In p (pairs U)) by (intros p Hp; apply H2 in Hp; tauto).
        destruct KU as [E|[p0 K]].
        * exists P, Lr, Ur. cbn [sav lab unl]. split; [exact W|]. split; [exact Pr|]. split.
          { intro p. rewrite HU, E. cbn [In]. specialize (EU p). tauto. }
          split; [intros p Hp; apply H1; left; auto|]. auto.
        * assert (P = []) as -> by (apply B1; intro E; rewrite E in K; destruct K). cbn in Fi.
          exists (pairs (unl s)), Lr, Ur. cbn [sav lab unl]. split; [exact W|]. split; [exact Pr|]. split.
          { intro p. rewrite HU. cbn [In]. specialize (EU p). tauto. }
          split; [intros p Hp; apply H1; now right|]. split; [eapply pairs_nd; eassumption|exact Fi].
      + destruct Fi as (F2 & i & j & -> & He).
        assert (S1 : forall p, (exists i0 j0, [IPair i j] = [IPair i0 j0] /\ p = (i0, j0)) <-> p = (i, j)).
        { intro p. split; [intros (i0 & j0 & Q2 & ->); injection Q2 as -> ->; reflexivity|intros ->; eauto]. }
        assert (P = []) as -> by (apply B1; intro E; rewrite E in F2; cbn in F2; lia).
        exists (if in_dec pair_dec (i, j) (pairs (unl s)) then [(i, j)] else []), Lr, Ur. cbn [sav lab unl].
        split; [exact W|]. split; [exact Pr|]. split; [|split; [|split]].
        * intro p. rewrite HU, H2, S1. cbn [In]. destruct (in_dec _ _ _) as [K|K]; cbn [In].
          -- destruct (pair_dec p (i, j)) as [->|Np]; [tauto|]. split; [intros [Q1|[]]; auto|intros [Q1|[Q1|[]]]; [tauto|congruence]].
          -- split; [intros [Q1|[]]; left; split; [exact Q1|congruence]|intros [[Q1 _]|[]]; now left].
        * intros p. rewrite H1, S1. destruct (in_dec _ _ _); cbn [In]; [intros [<-|[]]; auto|tauto].
        * destruct (in_dec _ _ _); repeat constructor. tauto.
        * destruct (in_dec _ _ _); cbn; lia.
    - intros v q Ev. destruct (one_entry s (match a with TheRest => [] | Chosen l => l end) q) as (_ & A1 & A2 & A3 & A4 & A5 & _).
      rewrite <- Ev in *. set (e := EState _) in A1.
      assert (Pe : proper e) by (split; [eexists; reflexivity|exact Logic.I]).
      destruct (replay_more (sav s) v e Lr Ur Pe A1 A2 A3 A4 A5 W Pr) as [K1 K2].
      destruct a as [|l]; cbn [sel_pairs] in *.
      + specialize (K1 eq_refl). assert (EU : forall p, ~ In p (pairs U)) by (intros p Hp; apply H2 in Hp; tauto).
        assert (EU' : pairs U = []) by (destruct (pairs U) as [|p l]; [reflexivity|destruct (EU p); now left]).
        destruct KU as [E|[p0 K]].
        * exists P. split; [|split; [congruence|intros Q1 _; now apply B2]].
          exists Lr, Ur. cbn [sav lab unl]. split; [exact K1|]. split; [exact Pr|]. split.
          { intro p. rewrite HU, E, EU'. cbn [In]. tauto. }
          split; [intros p Hp; apply H1; left; auto|]. auto.
        * assert (P = []) as -> by (apply B1; intro E; rewrite E in K; destruct K).
          exists (pairs (unl s)). split; [|split; [congruence|intros _ _ Q1; rewrite Q1 in K; destruct K]].
          exists Lr, Ur. cbn [sav lab unl]. split; [exact K1|]. split; [exact Pr|]. split.
          { intro p. rewrite HU, EU'. cbn [In]. tauto. }
          split; [intros p Hp; apply H1; now right|]. split; [eapply pairs_nd; eassumption|exact Fi].
      + destruct Fi as (F2 & i & j & -> & He). destruct (K2 i j eq_refl He) as (L' & U' & W' & Pr' & H1' & H2').
        assert (S1 : forall p, (exists i0 j0, [IPair i j] = [IPair i0 j0] /\ p = (i0, j0)) <-> p = (i, j)).
        { intro p. split; [intros (i0 & j0 & Q2 & ->); injection Q2 as -> ->; reflexivity|intros ->; eauto]. }
        assert (P = []) as -> by (apply B1; intro E; rewrite E in F2; cbn in F2; lia).
        assert (NU : pairs U <> []).
        { pose proof (pairs_nd _ _ RU) as N2. destruct (pairs (unl s)) as [|a [|b l]]; cbn in F2; try lia.
          intro E. assert (Na : forall p, ~ In p (pairs U)) by (rewrite E; auto). 
          assert (Ea : a = (i, j)). { destruct (pair_dec a (i, j)); auto. exfalso. apply (Na a). apply H2. rewrite S1. split; [now left|assumption]. }
          assert (Eb : b = (i, j)). { destruct (pair_dec b (i, j)); auto. exfalso. apply (Na b). apply H2. rewrite S1. split; [right; now left|assumption]. }
          inversion N2 as [|? ? N3 _]. apply N3. left. congruence. }
        exists []. split; [|split; [reflexivity|congruence]].
        exists L', U'. cbn [sav lab unl]. split; [exact W'|]. split; [exact Pr'|]. split.
        { intro p. rewrite H2', HU, H2, S1. cbn [In]. tauto. }
        split; [intros p []|]. split; [constructor|cbn; lia].
  Qed.

  Lemma turn_inv s : inv s ->
    match turn s with
    | (s1, Ok _) => inv s1
    | (s1, Err _) => hurt s1
    end.
  Proof.
    intro I. pose proof (turn_cases s I) as TC.
    assert (K0 : parts train f (lab s) (unl s) /\ (forall p, In p (pairs L0) -> In p (pairs (lab s))) /\ exists P, behind s P).
    { destruct I as (H1 & _ & _ & _ & _ & _ & H2 & _ & P & H3 & _). eauto. }
    destruct (strat X (own s) (lab s) (unl s)) as [t [a|e]].
    2:{ rewrite TC. destruct K0 as (K1 & K2 & P & K3). split; [exact K1|]. split; [exact K2|]. exists P. exact K3. }
    destruct TC as (L & U & Fi & Jt & P1 & NE & H1 & H2 & H3 & TC).
    assert (ML : forall p, In p (pairs L0) -> In p (pairs L)) by (intros p Hp; apply H1; left; now apply K0).
    destruct (completed train native complete X L) as [M|e].
    2:{ rewrite TC. split; [exact P1|]. split; [exact ML|]. eapply behind_moved; eauto. }
    destruct TC as [MF TC]. destruct (score M) as [q|e].
    2:{ rewrite TC. split; [exact P1|]. split; [exact ML|]. eapply behind_moved; eauto. }
    cbn zeta in TC. rewrite TC. set (v := fst (sio_add _ _)) in *. set (co := sc_update _ _ _ _ v).
    destruct (behind_moved s a L U t (fst co) (fits s ++ [M]) I Fi H1 H2) as [_ BM].
    destruct (BM v q eq_refl) as (P & B & B1 & B2).
    destruct (snd co) as [u|e].
    - destruct (one_entry s (match a with TheRest => [] | Chosen l => l end) q) as (_ & A1 & A2 & A3 & A4 & A5 & _). fold v in A1, A2, A3, A4, A5.
      destruct I as (_ & _ & S1 & S2 & S3 & S4 & _ & S5 & _).
      split; [exact P1|]. split; [exact Jt|]. cbn [sav fits lab unl own]. rewrite A2, A3, A4, A5.
      do 4 (split; [assumption|]). split; [exact ML|]. split.
      { rewrite A1, !app_length, S5. reflexivity. }
      exists P. auto.
    - split; [exact P1|]. split; [exact ML|]. exists P. exact B.
  Qed.

  Lemma rounds_inv clock k : forall j s, inv s ->
    match rounds clock k j s with
    | (s1, Failed _) => hurt s1
    | (s1, _) => inv s1
    end.
  Proof.
    assert (IH0 : forall s, inv s -> hurt s).
    { intros s (H1 & _ & _ & _ & _ & _ & H2 & _ & P & H3 & _). split; auto. split; auto. eauto. }
    induction k as [|k IH]; intros j s I; cbn [feature_rounds]; destruct (sc_is_stop (crit s) (clock j)) as [[|]|e]; auto.
    pose proof (turn_inv s I) as TI. destruct (turn s) as [s1 [u|e]]; [now apply IH|exact TI].
  Qed.
End Rounds.
