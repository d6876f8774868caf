(** Proofs about the loop that acquires feature values: the stopping criterion, the trained matrices, hidden values. *)
From Verif Require Import Base BaseFacts SetFacts IndexModel MLModel MLSpec MLProofs MLProofs2 MLProofs3 MLProps MiscModel QueryModel QuerySpec MLQuerySpec
  FeatureModel FeatureSpec FeatureProofs3 StateModel StateSpec StateProofs StateProofs2 SelfModel SelfProofs
  FeatureLoopModel FeatureLoopSpec FeatureLoopProofs FeatureLoopProofs2.
From Coq Require Import String QArith.
Local Open Scope Z_scope.

Lemma set_eq_length {A} (l l' : list A) : NoDup l -> NoDup l' -> (forall x, In x l <-> In x l') -> List.length l = List.length l'.
Proof.
  intros N N' H. apply Nat.le_antisymm; apply NoDup_incl_length; auto; intros x; apply H.
Qed.

Lemma first_workspace (v : sio mlic mlidx) : sio_workspace rec_update rec_difference v (Some 0) = Ok (s_train v, s_test v, s_L v, s_U v).
Proof.
  unfold sio_workspace. replace (_ && _)%bool with true by (symmetry; apply andb_true_iff; split; apply Z.leb_le; lia).
  reflexivity.
Qed.

Section Rounds.
  Context {T : Type}.
  Variables (train : list Z) (native : bool) (strat : fmat -> T -> mlic -> mlic -> T * res ml_choice)
            (complete : fmat -> mlic -> res fmat) (score : fmat -> res Q) (X : fmat) (n f : nat) (J : T -> Prop).
  Hypothesis HX : data n f X.
  Hypothesis Ht : rows_ok n train.
  Hypothesis Nt : train <> [].
  Hypothesis Law : lawful strat X train f J.
  Variables (tr te : list mlidx) (L0 U0 : mlic).
  Hypothesis P0 : parts train f L0 U0.
  Notation turn := (feature_turn train native strat complete score X).
  Notation rounds := (feature_rounds train native strat complete score X).
  Notation INV := (inv train f J tr te L0 U0).
  Notation TC := (turn_cases train native strat complete score X n f J HX Ht Nt Law tr te L0 U0 P0).
  Notation TI := (turn_inv train native strat complete score X n f J HX Ht Nt Law tr te L0 U0 P0).

  (** What the rebuilt unlabelled collection looks like at the head of the loop. *)
  Lemma left_count s : INV s -> exists L U, rebuilt (sav s) = Ok (tr, te, L, U) /\ parts train f L U /\
    (pairs (unl s) <> [] -> same_entries U (unl s) /\ same_entries L (lab s)) /\
    (pairs U0 <> [] -> (0 < List.length (pairs U))%nat) /\
    (pairs (unl s) = [] -> (List.length (pairs U) <= 1)%nat).
  Proof.
    intros (P & Jt & _ & _ & _ & _ & _ & _ & Pn & (L & U & W & Pr & HU & HP & NP & LP) & B1 & B2).
    exists L, U. split; [exact W|]. split; [exact Pr|]. split; [|split].
    - intro N. rewrite (B1 N) in *. assert (SU : same_entries U (unl s)) by (intro p; rewrite HU; cbn; tauto). split; [exact SU|].
      intro p. destruct P as (_ & _ & D & G). destruct Pr as (_ & _ & D' & G'). specialize (SU p).
      split; intro K.
      + assert (E : entries train f p) by (apply G'; now left). apply G in E. destruct E as [E|E]; [exact E|]. exfalso. apply (D' p K). now apply SU.
      + assert (E : entries train f p) by (apply G; now left). apply G' in E. destruct E as [E|E]; [exact E|]. exfalso. apply (D p K). now apply SU.
    - intro N. assert (K : exists p, In p (pairs U)).
      { destruct (pairs (unl s)) as [|p l] eqn:E.
        - specialize (B2 N eq_refl). destruct Pn as [|p l]; [congruence|]. exists p. apply HU. right. now left.
        - exists p. apply HU. left. now left. }
      destruct K as [p K]. destruct (pairs U); [destruct K|cbn; lia].
    - intro E. rewrite E in HU. destruct Pr as (_ & RU & _).
      assert (K : List.length (pairs U) = List.length Pn).
      { apply set_eq_length; auto; [eapply pairs_nd; eassumption|]. intro p. rewrite HU. cbn. tauto. }
      lia.
  Qed.

  (** The criterion after a turn. *)
  Lemma crit_after s s1 : INV s -> pairs U0 <> [] -> turn s = (s1, Ok tt) ->
    exists tr' te' L U, rebuilt (sav s1) = Ok (tr', te', L, U) /\
    sc_name (crit s1) = sc_name (crit s) /\ sc_value (crit s1) = sc_value (crit s) /\ sc_start (crit s1) = sc_start (crit s) /\
    sc_unlabel (crit s1) = List.length (pairs U) /\
    sc_iter (crit s1) = (if match sc_name (crit s) with NNum => true | _ => false end then List.length (s_states (sav s1)) else sc_iter (crit s)) /\
    (sc_name (crit s) = NPercent -> (sc_percent (crit s1) == inject_Z (Z.of_nat (List.length (pairs U0)) - Z.of_nat (List.length (pairs U))) / inject_Z (Z.of_nat (List.length (pairs U0))))%Q).
  Proof.
    intros I NU H. pose proof (TC s I) as C. pose proof (TI s I) as I1. rewrite H in I1.
    destruct (strat X (own s) (lab s) (unl s)) as [t [a|e]]; [|congruence].
    destruct C as (L & U & _ & _ & _ & _ & _ & _ & _ & C).
    destruct (completed train native complete X L) as [M|e]; [|congruence]. destruct C as [_ C].
    destruct (score M) as [q|e]; [|congruence]. cbn zeta in C. rewrite C in H. clear C.
    set (v := fst (sio_add _ _)) in *.
    assert (S1 : sav s1 = v) by (injection H as <- _; reflexivity).
    assert (S2 : crit s1 = fst (sc_update rec_update rec_difference ml_len (crit s) v)) by (injection H as <- _; reflexivity).
    destruct (left_count s1 I1) as (Lr & Ur & W & Pr & _). rewrite S1 in *. exists tr, te, Lr, Ur. split; [exact W|].
    assert (SU : s_U v = U0) by (rewrite <- S1; apply I1).
    assert (LN : List.length (mcont Ur) = List.length (pairs Ur)) by (eapply pairs_len; apply Pr).
    assert (LN0 : List.length (mcont U0) = List.length (pairs U0)) by (eapply pairs_len; apply P0).
    rewrite S2. unfold sc_update. unfold rebuilt in W. rewrite W, first_workspace, SU. unfold ml_len. rewrite LN, LN0.
    destruct (sc_name (crit s)) eqn:EN; cbn [fst sc_name sc_value sc_start sc_unlabel sc_iter sc_percent]; rewrite ?EN;
      try (repeat (split; [reflexivity|]); discriminate).
    destruct (List.length (pairs U0)) as [|k] eqn:EK; [destruct (pairs U0); [congruence|discriminate]|].
    cbn [fst sc_name sc_value sc_start sc_unlabel sc_iter sc_percent]. rewrite ?EN.
    repeat (split; [reflexivity|]). intros _.
    rewrite (Qmake_Qdiv _ (Pos.of_succ_nat k)). replace (Z.pos (Pos.of_succ_nat k)) with (Z.of_nat (S k)) by (cbn; lia).
    reflexivity.
  Qed.

  Lemma turn_grows s : INV s -> forall p, In p (pairs (lab s)) -> In p (pairs (lab (fst (turn s)))).
  Proof.
    intros I p Hp. pose proof (TC s I) as C.
    destruct (strat X (own s) (lab s) (unl s)) as [t [a|e]]; [|rewrite C; exact Hp].
    destruct C as (L & U & _ & _ & _ & _ & H1 & _ & _ & C). assert (K : In p (pairs L)) by (apply H1; now left).
    destruct (completed train native complete X L) as [M|e]; [|rewrite C; exact K]. destruct C as [_ C].
    destruct (score M) as [q|e]; cbn zeta in C; rewrite C; exact K.
  Qed.

  Lemma rounds_grow clock k : forall j s, INV s -> forall p, In p (pairs (lab s)) -> In p (pairs (lab (fst (rounds clock k j s)))).
  Proof.
    induction k as [|k IH]; intros j s I p Hp; cbn [feature_rounds]; destruct (sc_is_stop (crit s) (clock j)) as [[|]|e]; auto.
    pose proof (TI s I) as I1. pose proof (turn_grows s I p Hp) as K.
    destruct (turn s) as [s1 [u|e]]; cbn [fst] in *; auto.
  Qed.

  (** At most one entry is acquired per turn, exactly one if only unknown entries are asked for. *)
  Lemma turn_count s : INV s ->
    let s1 := fst (turn s) in
    (List.length (pairs (lab s1)) <= S (List.length (pairs (lab s))))%nat /\
    (asks_unknown strat X train f J -> snd (turn s) = Ok tt ->
     List.length (pairs (lab s1)) = (List.length (pairs (lab s)) + Nat.min 1 (List.length (pairs (unl s))))%nat).
  Proof.
    intros I s1. subst s1. pose proof (TC s I) as C. pose proof (fine_of train strat X f J Law tr te L0 U0 s I) as FO.
    pose proof I as (P & Jt & _).
    destruct (strat X (own s) (lab s) (unl s)) as [t [a|e]] eqn:ES; cbn [snd fst] in *.
    2:{ rewrite C. cbn [fst snd lab]. split; [lia|congruence]. }
    destruct C as (L & U & Fi & _ & P1 & _ & H1 & H2 & _ & C).
    assert (NL : NoDup (pairs (lab s))) by (eapply pairs_nd; apply P).
    assert (NU : NoDup (pairs (unl s))) by (eapply pairs_nd; apply P).
    assert (NL1 : NoDup (pairs L)) by (eapply pairs_nd; apply P1).
    assert (K : (List.length (pairs L) <= S (List.length (pairs (lab s))))%nat /\
      (asks_unknown strat X train f J -> List.length (pairs L) = (List.length (pairs (lab s)) + Nat.min 1 (List.length (pairs (unl s))))%nat)).
    { destruct a as [|l]; cbn [sel_pairs] in *.
      - cbn in Fi. assert (E : List.length (pairs L) = List.length (pairs (lab s) ++ pairs (unl s))).
        { apply set_eq_length; auto; [apply NoDup_app_intro; auto; intros x Q1 Q2; exact (proj1 (proj2 (proj2 P)) x Q1 Q2)|]. intro p. rewrite in_app_iff. apply H1. }
        rewrite app_length in E. split; [lia|]. intros _. lia.
      - destruct Fi as (F2 & i & j & -> & He).
        assert (S1 : forall p, (exists i0 j0, [IPair i j] = [IPair i0 j0] /\ p = (i0, j0)) <-> p = (i, j)).
        { intro p. split; [intros (i0 & j0 & Q2 & ->); injection Q2 as -> ->; reflexivity|intros ->; eauto]. }
        split.
        + change (S (List.length (pairs (lab s)))) with (List.length ((i, j) :: pairs (lab s))).
          apply NoDup_incl_length; auto. intros p Hp. apply H1 in Hp. rewrite S1 in Hp. destruct Hp as [Hp| ->]; [now right|now left].
        + intro AU. assert (In (i, j) (pairs (unl s))).
          { apply (AU (own s) (lab s) (unl s) [IPair i j]); auto; [now rewrite ES|now left]. }
          assert (NI : ~ In (i, j) (pairs (lab s))) by (intro; destruct P as (_ & _ & D & _); eapply D; eassumption).
          replace (Nat.min 1 (List.length (pairs (unl s)))) with 1%nat by lia.
          transitivity (List.length ((i, j) :: pairs (lab s))); [|cbn; lia].
          apply set_eq_length; auto; [constructor; auto|]. intro p. rewrite H1, S1. cbn [In]. intuition congruence. }
    assert (E : lab (fst (turn s)) = L).
    { destruct (completed train native complete X L) as [M|e]; [|now rewrite C]. destruct C as [_ C].
      destruct (score M) as [q|e]; cbn zeta in C; now rewrite C. }
    rewrite E. split; [apply K|]. intros AU _. now apply K.
  Qed.

  Lemma split_count' s : INV s -> (List.length (pairs (lab s)) + List.length (pairs (unl s)) = List.length (pairs L0) + List.length (pairs U0))%nat.
  Proof.
    intros (P & _). rewrite <- !app_length. 
    apply set_eq_length.
    - apply NoDup_app_intro; [eapply pairs_nd; apply P|eapply pairs_nd; apply P|]; intros x Q1 Q2; exact (proj1 (proj2 (proj2 P)) x Q1 Q2).
    - apply NoDup_app_intro; [eapply pairs_nd; apply P0|eapply pairs_nd; apply P0|]; intros x Q1 Q2; exact (proj1 (proj2 (proj2 P0)) x Q1 Q2).
    - intro p. rewrite !in_app_iff. destruct P as (_ & _ & _ & G). destruct P0 as (_ & _ & _ & G0). now rewrite <- G, <- G0.
  Qed.

  (** The number of turns and of acquired entries. *)
  Lemma turn_fits s : INV s -> 
    match turn s with
    | (s1, Ok _) => List.length (fits s1) = S (List.length (fits s))
    | (s1, Err _) => (List.length (fits s1) <= S (List.length (fits s)))%nat /\ (List.length (fits s) <= List.length (fits s1))%nat /\
        (List.length (s_states (sav s1)) <= List.length (fits s1) <= S (List.length (s_states (sav s1))))%nat /\
        (List.length (fits s) <= List.length (s_states (sav s1)))%nat
    end.
  Proof.
    intro I. pose proof (TC s I) as C. destruct I as (_ & _ & _ & _ & _ & _ & _ & EF & _).
    destruct (strat X (own s) (lab s) (unl s)) as [t [a|e]]; [|rewrite C; cbn [fits sav]; lia].
    destruct C as (L & U & _ & _ & _ & _ & _ & _ & _ & C).
    destruct (completed train native complete X L) as [M|e]; [|rewrite C; cbn [fits sav]; lia]. destruct C as [_ C].
    destruct (score M) as [q|e]; cbn zeta in C; rewrite C.
    - destruct (one_entry s (match a with TheRest => [] | Chosen l => l end) q) as (_ & A1 & _). set (v := fst (sio_add _ _)) in *.
      destruct (snd (sc_update _ _ _ _ _)); cbn [fits sav]; rewrite ?A1, !app_length; cbn [List.length]; lia.
    - cbn [fits sav]. rewrite app_length. cbn [List.length]. lia.
  Qed.

  Lemma no_rounds clock j s : fst (rounds clock 0 j s) = s.
  Proof. cbn [feature_rounds]. destruct (sc_is_stop _ _) as [[|]|]; reflexivity. Qed.

  Lemma rounds_keep clock k : forall j s, INV s -> exists l, fits (fst (rounds clock k j s)) = fits s ++ l.
  Proof.
    induction k as [|k IH]; intros j s I; [exists []; now rewrite no_rounds, app_nil_r|]. cbn [feature_rounds].
    destruct (sc_is_stop _ _) as [[|]|]; [exists []; now rewrite app_nil_r| |exists []; now rewrite app_nil_r].
    pose proof (TC s I) as C. pose proof (TI s I) as I2.
    assert (K : exists l, fits (fst (turn s)) = fits s ++ l).
    { destruct (strat X (own s) (lab s) (unl s)) as [t [a|e]]; [|rewrite C; exists []; cbn; now rewrite app_nil_r].
      destruct C as (L & U & _ & _ & _ & _ & _ & _ & _ & C).
      destruct (completed train native complete X L) as [M|e]; [|rewrite C; exists []; cbn; now rewrite app_nil_r].
      destruct C as [_ C]. exists [M]. destruct (score M) as [q|e]; cbn zeta in C; now rewrite C. }
    destruct K as [l K]. destruct (turn s) as [s2 [u|e]]; cbn [fst] in *; [|eauto].
    destruct (IH (S j) s2 I2) as [l' K']. rewrite K', K, <- app_assoc. eauto.
  Qed.

  (** The [i]-th matrix was made of the entries known after turn [i]. *)
  Lemma rounds_fits clock k : forall j s i M, INV s -> (List.length (fits s) <= i)%nat ->
    nth_error (fits (fst (rounds clock k j s))) i = Some M ->
    made_from complete X train (lab (fst (rounds clock (S (i - List.length (fits s))) j s))) M.
  Proof.
    induction k as [|k IH]; intros j s i M I Hi H; cbn [feature_rounds] in H.
    { assert (K : nth_error (fits s) i = Some M) by (destruct (sc_is_stop _ _) as [[|]|]; exact H).
      assert (N : nth_error (fits s) i <> None) by congruence. apply nth_error_Some in N. lia. }
    cbn [feature_rounds]. destruct (sc_is_stop (crit s) (clock j)) as [[|]|e] eqn:ES; cbn [fst] in H.
    1,3: assert (N : nth_error (fits s) i <> None) by congruence; apply nth_error_Some in N; lia.
    pose proof (TC s I) as C. pose proof (TI s I) as I1. pose proof (turn_fits s I) as TF.
    destruct (turn s) as [s1 o] eqn:ET.
    assert (MF : (i = List.length (fits s))%nat -> nth_error (fits s1) i = Some M -> made_from complete X train (lab s1) M).
    { intros -> HM. destruct (strat X (own s) (lab s) (unl s)) as [t [a|e]].
      2:{ injection C as -> _.
          cbn [fits] in HM. assert (N : nth_error (fits s) (List.length (fits s)) <> None) by congruence. apply nth_error_Some in N. lia. }
      destruct C as (L & U & _ & _ & _ & _ & _ & _ & _ & C).
      destruct (completed train native complete X L) as [M'|e].
      2:{ injection C as -> _. cbn [fits] in HM. assert (N : nth_error (fits s) (List.length (fits s)) <> None) by congruence. apply nth_error_Some in N. lia. }
      destruct C as [MF C]. assert (K : lab s1 = L /\ fits s1 = fits s ++ [M']).
      { destruct (score M') as [q|e]; cbn zeta in C; injection C as -> _; auto. }
      destruct K as [-> K]. rewrite K, nth_error_app2, Nat.sub_diag in HM by lia. cbn in HM. congruence. }
    destruct o as [u|e]; cbn [fst] in *.
    - destruct (Nat.eq_dec i (List.length (fits s))) as [E|E].
      + rewrite E, Nat.sub_diag. rewrite no_rounds.
        apply MF; auto. 
        destruct (rounds_keep clock k (S j) s1 I1) as [l P]. rewrite P, nth_error_app1 in H; [exact H|]. rewrite TF. lia.
      + replace (i - List.length (fits s))%nat with (S (i - List.length (fits s1)))%nat by lia.
        apply IH; auto. lia.
    - assert (E : i = List.length (fits s)).
      { assert (N : nth_error (fits s1) i <> None) by congruence. apply nth_error_Some in N. lia. }
      auto.
  Qed.

  (** A limit on the number of turns. *)
  Lemma rounds_num clock m k : pairs U0 <> [] -> forall j s, INV s -> sc_name (crit s) = NNum -> sc_value (crit s) = Some (inject_Z (Z.of_nat m)) ->
    sc_iter (crit s) = List.length (fits s) -> sc_unlabel (crit s) <> O -> (List.length (fits s) <= m)%nat ->
    match rounds clock k j s with
    | (s1, Done) => List.length (fits s1) = m
    | (s1, Running) => (List.length (fits s) + k = List.length (fits s1))%nat /\ (List.length (fits s1) < m)%nat
    | (s1, Failed e) => (List.length (s_states (sav s1)) <= m)%nat
    end.
  Proof.
    intro NU. induction k as [|k IH]; intros j s I E1 E2 E3 E4 Hm; cbn [feature_rounds];
      unfold sc_is_stop; rewrite (proj2 (Nat.eqb_neq _ _) E4), E1, E2; cbn [ge_value]; rewrite E3.
    - destruct (Qle_bool _ _) eqn:Q1.
      + apply Qle_bool_iff in Q1. rewrite <- Zle_Qle in Q1. lia.
      + assert (~ (inject_Z (Z.of_nat m) <= inject_Z (Z.of_nat (List.length (fits s))))%Q) by (rewrite <- Qle_bool_iff; congruence).
        rewrite <- Zle_Qle in H. lia.
    - destruct (Qle_bool _ _) eqn:Q1.
      + apply Qle_bool_iff in Q1. rewrite <- Zle_Qle in Q1. lia.
      + assert (Lm : (List.length (fits s) < m)%nat).
        { assert (~ (inject_Z (Z.of_nat m) <= inject_Z (Z.of_nat (List.length (fits s))))%Q) by (rewrite <- Qle_bool_iff; congruence).
          rewrite <- Zle_Qle in H. lia. }
        pose proof (TI s I) as I1. pose proof (turn_fits s I) as TF. destruct (turn s) as [s1 [[]|e]] eqn:ET.
        * destruct (crit_after s s1 I NU ET) as (tr' & te' & L & U & W & C1 & C2 & _ & C4 & C5 & _).
          assert (LE : List.length (fits s1) = List.length (s_states (sav s1))) by apply I1.
          destruct (left_count s1 I1) as (L' & U' & W' & _ & _ & K & _). specialize (K NU).
          assert (HK : match rounds clock k (S j) s1 with
            | (s2, Done) => List.length (fits s2) = m
            | (s2, Running) => (List.length (fits s1) + k = List.length (fits s2))%nat /\ (List.length (fits s2) < m)%nat
            | (s2, Failed e) => (List.length (s_states (sav s2)) <= m)%nat
            end).
          { apply IH; auto; try congruence.
            - rewrite C5, E1. now rewrite LE.
            - rewrite C4. assert (U = U') by congruence. subst. lia.
            - lia. }
          destruct (rounds clock k (S j) s1) as [s2 [| |e]]; auto. lia.
        * lia.
  Qed.

  (** Without a limit, or with a share of the entries that cannot be reached, the loop does not stop by itself. *)
  Lemma rounds_endless clock k : pairs U0 <> [] -> forall j s, INV s -> unreachable U0 (crit s) -> sc_unlabel (crit s) <> O ->
    (sc_name (crit s) = NPercent -> (sc_percent (crit s) <= inject_Z (Z.of_nat (List.length (pairs U0)) - 1) / inject_Z (Z.of_nat (List.length (pairs U0))))%Q) ->
    snd (rounds clock k j s) <> Done.
  Proof.
    intros NU.
    assert (PU : (0 < List.length (pairs U0))%nat) by (destruct (pairs U0); [congruence|cbn; lia]).
    assert (PQ : (0 < inject_Z (Z.of_nat (List.length (pairs U0))))%Q) by (change 0%Q with (inject_Z 0); rewrite <- Zlt_Qlt; lia).
    induction k as [|k IH]; intros j s I UR E4 PC; cbn [feature_rounds].
    all: assert (ST : sc_is_stop (crit s) (clock j) <> Ok true).
    1,3: unfold sc_is_stop; rewrite (proj2 (Nat.eqb_neq _ _) E4); destruct UR as [-> |(EN & v & EV & LV)]; [discriminate|];
      rewrite EN, EV; destruct (_ || _)%bool; [discriminate|]; intro Q1; injection Q1 as Q1; apply Qle_bool_iff in Q1; specialize (PC EN);
      apply (Qlt_not_le _ _ LV); eapply Qle_trans; eassumption.
    - destruct (sc_is_stop _ _) as [[|]|]; cbn; congruence.
    - destruct (sc_is_stop _ _) as [[|]|]; cbn [snd]; try congruence.
      pose proof (TI s I) as I1. destruct (turn s) as [s1 [[]|e]] eqn:ET; cbn [snd]; [|discriminate].
      destruct (crit_after s s1 I NU ET) as (tr' & te' & L & U & W & C1 & C2 & _ & C4 & _ & C6).
      destruct (left_count s1 I1) as (L' & U' & W' & _ & _ & K & _). specialize (K NU). assert (U = U') by congruence. subst U'.
      apply IH; auto.
      + unfold unreachable in *. now rewrite C1, C2.
      + rewrite C4. lia.
      + intro EN. rewrite C1 in EN. rewrite (C6 EN). unfold Qdiv. apply Qmult_le_compat_r.
        * rewrite <- Zle_Qle. lia.
        * apply Qinv_le_0_compat. apply Qlt_le_weak, PQ.
  Qed.

  (** Nothing fails if the strategy, the completion and the classifier do not. *)
  Lemma completed_total : 
    sound_completion complete X train f ->
    forall L U, parts train f L U -> mcont L <> [] -> exists M, completed train native complete X L = Ok M.
  Proof.
    intros HC L U (R & RU & D & G) NE. destruct Ht as [ND IN].
    assert (Hin : forall p, In p (pairs L) -> In (fst p) train) by (intros p Hp; apply (proj2 (G p)); now left).
    destruct (map_ml_lemma (Z.of_nat f) train native L R NE ND Hin) as (c & w & m' & E1 & R1 & H1 & _).
    destruct (rows_at_ok X n f train (proj1 HX) IN) as (rows & E2 & R2 & _). unfold completed. rewrite E1. cbn [bind fst]. rewrite E2. cbn [bind].
    apply HC; eauto.
    - intro E. pose proof (pairs_len _ _ R) as PL. destruct (pairs L) as [|[i j] l] eqn:EP; [destruct (mcont L); [congruence|discriminate]|].
      assert (K : In i train) by (apply (Hin (i, j)); now left). apply In_nth_error in K. destruct K as [r K].
      assert (B : In (Z.of_nat r, j) (pairs c)).
      { apply H1. exists i. cbn [fst snd]. split; [now left|]. split; [lia|]. now rewrite Nat2Z.id. }
      rewrite E in B. destruct B.
    - intros r j K. apply H1 in K. cbn [fst snd] in K. destruct K as (i & K1 & K2 & K3). split.
      + assert (N : nth_error train (Z.to_nat r) <> None) by congruence. apply nth_error_Some in N. lia.
      + assert (B : entries train f (i, j)) by (apply G; now left). exact (proj2 B).
  Qed.

  Lemma turn_total :
    sound_strategy strat X train f J -> sound_completion complete X train f ->
    (forall M, exists q, score M = Ok q) -> pairs U0 <> [] ->
    forall s, INV s -> exists s1, turn s = (s1, Ok tt).
  Proof.
    intros HS HC HQ NU s I. pose proof (TC s I) as C. pose proof I as (P & Jt & S1 & S2 & S3 & S4 & _).
    destruct (HS _ _ _ Jt P) as [a E]. destruct (strat X (own s) (lab s) (unl s)) as [t r]. cbn [snd] in E. subst r.
    destruct C as (L & U & Fi & Jt' & P1 & NE & H1 & H2 & _ & C). destruct (completed_total HC L U P1 NE) as [M EM]. rewrite EM in C. destruct C as [_ C].
    destruct (HQ M) as [q EQ]. rewrite EQ in C. cbn zeta in C. rewrite C. set (v := fst (sio_add _ _)).
    destruct (behind_moved train complete score X f J tr te L0 U0 s a L U t (crit s) [] I Fi H1 H2) as [_ BM].
    destruct (BM v q eq_refl) as (Pn & (Lr & Ur & W & _) & _). cbn [sav] in W.
    destruct (one_entry s (match a with TheRest => [] | Chosen l => l end) q) as (_ & _ & _ & A3 & _). fold v in A3.
    assert (K : snd (sc_update rec_update rec_difference ml_len (crit s) v) = Ok tt).
    { unfold sc_update. unfold rebuilt in W. rewrite W, first_workspace. destruct (sc_name (crit s)); try reflexivity.
      rewrite A3, S2. unfold ml_len. rewrite (pairs_len (Z.of_nat f)) by apply P0. destruct (pairs U0); [congruence|reflexivity]. }
    rewrite K. eauto.
  Qed.

  Lemma rounds_total :
    sound_strategy strat X train f J -> sound_completion complete X train f ->
    (forall M, exists q, score M = Ok q) -> pairs U0 <> [] ->
    forall clock k j s, INV s -> (forall c now, sc_name c = sc_name (crit s) -> sc_value c = sc_value (crit s) -> exists b, sc_is_stop c now = Ok b) ->
    forall e, snd (rounds clock k j s) <> Failed e.
  Proof.
    intros HS HC HQ NU clock. induction k as [|k IH]; intros j s I HB e; cbn [feature_rounds]; destruct (HB (crit s) (clock j) eq_refl eq_refl) as [[|] ->]; cbn [snd]; try discriminate.
    destruct (turn_total HS HC HQ NU s I) as [s1 E]. rewrite E. pose proof (TI s I) as I1. rewrite E in I1.
    destruct (crit_after s s1 I NU E) as (_ & _ & _ & _ & _ & C1 & C2 & _). apply IH; auto. rewrite C1, C2. exact HB.
  Qed.

  (** The values at entries that are still unknown do not matter. *)
  Section Hidden.
    Variable X' : fmat.
    Hypothesis HX' : data n f X'.
    Hypothesis PS : private_strategy strat X X' n train f J.
    Hypothesis PC : private_completion complete (List.length train) f.

    Lemma rows_finite Y rows : data n f Y -> rows_at Y train = Ok rows -> data (List.length train) f rows /\ rows_of Y train rows.
    Proof.
      intros [SY FY] E. destruct Ht as [_ IN]. destruct (rows_at_ok Y n f train SY IN) as (rows' & E' & R & S1 & F1).
      assert (rows' = rows) by congruence. subst rows'. split; [split; auto|exact R].
    Qed.

    Lemma completed_same L U : parts train f L U -> mcont L <> [] -> agree n f L X X' ->
      completed train native complete X L = completed train native complete X' L.
    Proof.
      intros (R & RU & D & G) NE (DX & DX' & AG). destruct Ht as [ND IN].
      assert (Hin : forall p, In p (pairs L) -> In (fst p) train) by (intros p Hp; apply (proj2 (G p)); now left).
      destruct (map_ml_lemma (Z.of_nat f) train native L R NE ND Hin) as (c & w & m' & E1 & R1 & H1 & _).
      destruct (rows_at_ok X n f train (proj1 DX) IN) as (rows & E2 & _). destruct (rows_at_ok X' n f train (proj1 DX') IN) as (rows' & E2' & _).
      destruct (rows_finite X rows DX E2) as [D2 R2]. destruct (rows_finite X' rows' DX' E2') as [D2' R2'].
      unfold completed. rewrite E1. cbn [bind fst]. rewrite E2, E2'. cbn [bind].
      apply PC; eauto.
      - intros r j K. apply H1 in K. cbn [fst snd] in K. destruct K as (i & K1 & K2 & K3). split.
        + assert (N : nth_error train (Z.to_nat r) <> None) by congruence. apply nth_error_Some in N. lia.
        + assert (B : entries train f (i, j)) by (apply G; now left). exact (proj2 B).
      - split; [exact D2|]. split; [exact D2'|]. intros r j K. apply H1 in K. cbn [fst snd] in K. destruct K as (i & K1 & K2 & K3).
        destruct (AG i j K1) as (x & y & C1 & C2 & FE). exists x, y.
        assert (RC : forall Y rows0, data n f Y -> rows_of Y train rows0 -> cell rows0 (Z.to_nat r) (Z.to_nat j) = cell Y (Z.to_nat i) (Z.to_nat j)).
        { intros Y rows0 _ [_ RO]. unfold cell. now rewrite (RO _ _ K3). }
        rewrite (RC X rows DX R2), (RC X' rows' DX' R2'). auto.
    Qed.

    Lemma turn_lab s t a L U : strat X (own s) (lab s) (unl s) = (t, Ok a) ->
      ml_round (lab s) (unl s) (match a with TheRest => Itself | Chosen l => Listed l end) = ((L, U), Ok tt) -> lab (fst (turn s)) = L.
    Proof.
      intros E1 E2. unfold feature_turn. rewrite E1, E2. destruct (completed train native complete X L) as [M|]; [|reflexivity].
      destruct (score M); [|reflexivity]. match goal with |- context[let (_, _) := ?x in _] => destruct x as [v [o|o]] end; [|reflexivity].
      match goal with |- context[let (_, _) := ?x in _] => destruct x end. reflexivity.
    Qed.

    Lemma turn_same s : INV s -> agree n f (lab (fst (turn s))) X X' -> feature_turn train native strat complete score X' s = turn s.
    Proof.
      intros I AG. assert (A0 : agree n f (lab s) X X').
      { destruct AG as (A1 & A2 & A3). split; [exact A1|]. split; [exact A2|]. intros i j K. apply A3. now apply turn_grows. }
      pose proof I as (P & Jt & _). pose proof (PS _ _ _ Jt P A0) as ES. pose proof (TC s I) as C.
      pose proof (fine_of train strat X f J Law tr te L0 U0 s I) as FO.
      unfold feature_turn at 1. rewrite <- ES. pose proof (turn_lab s) as TL.
      destruct (strat X (own s) (lab s) (unl s)) as [t [a|e]] eqn:E1; [|now rewrite C].
      destruct C as (_ & _ & Fi & _).
      destruct (exchanged train f _ _ a P Fi) as (L & U & E & P1 & H1 & _ & NE). rewrite (TL t a L U eq_refl E) in AG.
      assert (CS : completed train native complete X L = completed train native complete X' L).
      { apply (completed_same L U P1); [|exact AG]. destruct a as [|l].
        - apply (nonempty train strat complete score X n f J Ht Nt Law L0 U0 P0 L U P1). unfold pairs. now rewrite (NE eq_refl).
        - destruct Fi as (_ & i & j & -> & _). intro N. assert (K : In (i, j) (pairs L)) by (apply H1; right; cbn; eauto).
          unfold pairs in K. rewrite N in K. destruct K. }
      unfold feature_turn. rewrite E1, E, CS. reflexivity.
    Qed.

    Lemma rounds_same clock k : forall j s, INV s -> agree n f (lab (fst (rounds clock k j s))) X X' ->
      feature_rounds train native strat complete score X' clock k j s = rounds clock k j s.
    Proof.
      induction k as [|k IH]; intros j s I AG; cbn [feature_rounds] in *; destruct (sc_is_stop (crit s) (clock j)) as [[|]|e]; auto.
      pose proof (TI s I) as I1. pose proof (turn_same s I) as TS.
      assert (A1 : agree n f (lab (fst (turn s))) X X').
      { destruct (turn s) as [s1 [u|e]]; cbn [fst] in *; [|exact AG]. destruct AG as (G1 & G2 & G3). split; [exact G1|]. split; [exact G2|].
        intros a b K. apply G3. now apply rounds_grow. }
      rewrite (TS A1). destruct (turn s) as [s1 [u|e]]; auto.
    Qed.
  End Hidden.
End Rounds.
