(** Proofs about the cost-sensitive main loop: all turns. *)
From Verif Require Import Base BaseFacts SetFacts IndexModel MLModel MLSpec MLProofs MLProofs2 MLProofs3 MLProps CostModel CostSpec CostProofs CostProofs2 CostProofs3
  CostProps StateModel StateSpec StateProofs StateProofs2 SelfProofs CostLoopModel CostLoopSpec CostLoopProofs.
From Coq Require Import String QArith Sorted.
Local Open Scope Z_scope.

Lemma holds_dec c p : holds c p \/ ~ holds c p.
Proof. unfold holds. destruct (in_dec pair_dec (Z.of_nat (fst p), Z.of_nat (snd p)) (pairs c)); tauto. Qed.

Section Turns.
  Context {B M T : Type}.
  Variables (X : list B) (y tree : list (list Z)) (n C : nat) (train : list nat) (budget : Q) (fit : nat -> list B -> list Z -> res M)
    (score : list M -> res Q) (strat : T -> list M -> mlic -> mlic -> T * res (list (nat * nat))) (J : T -> Prop) (Pr : list (nat * nat) -> Prop).
  Hypothesis HD : data X y tree n C train.
  Hypothesis HA : answers n C train strat J (fun _ _ l => in_data n C l /\ Pr l).
  Variables (tr te : list mlidx) (L0 U0 : mlic) (c0 : scrit).
  Hypothesis K0 : collection n C L0.
  Hypothesis K1 : collection n C U0.
  Hypothesis A0 : apart L0 U0.
  Hypothesis T0 : of_train train U0.
  Notation turn := (cost_turn X y tree C budget fit score strat).
  Notation rounds := (cost_turns X y tree C budget fit score strat).
  Notation upd := (ml_update true).
  Notation dif := (ml_difference_update true).
  Notation len := (fun c : mlic => List.length (mcont c)).
  Notation aft := (after tree y L0 U0).

  Definition rec (r : list (nat * nat)) (q : Q) : StateModel.entry mlidx :=
    EState (state_init (inl (map to_idx r)) (SNum q) None (Some (SNum budget))).

  Lemma rec_facts r q (v : sio mlic mlidx) : let v' := fst (sio_add v (rec r q)) in
    sio_add v (rec r q) = (v', Ok tt) /\ proper (rec r q) /\ queried (rec r q) = map to_idx r /\ spent (rec r q) = budget /\
    s_states v' = s_states v ++ [rec r q] /\ s_cost v' = (s_cost v + budget)%Q /\
    s_L v' = s_L v /\ s_U v' = s_U v /\ s_train v' = s_train v /\ s_test v' = s_test v.
  Proof. cbn. repeat split; auto. eexists. reflexivity. Qed.

  (** The recorded performances are those of the classifiers fitted to what was labelled at the time. *)
  Definition told (v : sio mlic mlidx) (asks : list (list (nat * nat))) : Prop :=
    forall k e, nth_error (s_states v) k = Some e ->
      exists L U ms q st, rebuilt_at v (S k) = Ok (tr, te, L, U) /\ aft (firstn (S k) asks) L U /\
        fitted X y C fit L ms /\ score ms = Ok q /\ e = EState st /\ sget "performance"%string (sdict st) = Some (SNum q).

  Definition counted (s : cstate M T) : Prop :=
    sc_name (crit s) = sc_name c0 /\ sc_value (crit s) = sc_value c0 /\ sc_start (crit s) = sc_start c0 /\
    (turns (sav s) = 0%nat /\ crit s = c0 \/
     sc_unlabel (crit s) = len (unl s) /\
     (sc_name c0 = NCost -> sc_acost (crit s) = s_cost (sav s)) /\
     (sc_name c0 = NNum -> sc_iter (crit s) = turns (sav s))).

  (** At the head of the loop, after the queries [asks]. *)
  Definition inv (s : cstate M T) (asks : list (list (nat * nat))) : Prop :=
    collection n C (lab s) /\ collection n C (unl s) /\ apart (lab s) (unl s) /\ J (own s) /\ fitted X y C fit (lab s) (mods s) /\
    List.length asks = turns (sav s) /\ aft asks (lab s) (unl s) /\ Forall (fun a => in_data n C a /\ Pr a /\ a <> []) asks /\
    s_L (sav s) = L0 /\ s_U (sav s) = U0 /\ s_train (sav s) = tr /\ s_test (sav s) = te /\
    rebuilt (sav s) = Ok (tr, te, lab s, unl s) /\
    (s_cost (sav s) == inject_Z (Z.of_nat (turns (sav s))) * budget)%Q /\ told (sav s) asks /\ counted s.

  (** After an exception: [extra] is what the query in progress asked for. *)
  Definition hurt (s : cstate M T) (asks extra : list (list (nat * nat))) : Prop :=
    collection n C (lab s) /\ collection n C (unl s) /\ apart (lab s) (unl s) /\ List.length (mods s) = C /\
    List.length asks = turns (sav s) /\ (List.length extra <= 1)%nat /\ aft (asks ++ extra) (lab s) (unl s) /\
    Forall (fun a => in_data n C a /\ Pr a /\ a <> []) (asks ++ extra) /\
    (s_cost (sav s) == inject_Z (Z.of_nat (turns (sav s))) * budget)%Q /\ told (sav s) asks /\
    exists L U, rebuilt (sav s) = Ok (tr, te, L, U) /\ aft asks L U.

  Lemma after_none : aft [] L0 U0.
  Proof. split; intro p; split; auto. - intros [H|(a & [] & _)]; auto. - intro H. split; [exact H|]. intros (a & [] & _). - tauto. Qed.

  Lemma after_more asks a L U L' U' : aft asks L U ->
    (forall p, holds L' p <-> holds L p \/ brought tree y a p) -> (forall p, holds U' p <-> holds U p /\ ~ brought tree y a p) ->
    aft (asks ++ [a]) L' U'.
  Proof.
    intros [H1 H2] H3 H4. assert (E : forall p, (exists b, In b (asks ++ [a]) /\ brought tree y b p) <->
      (exists b, In b asks /\ brought tree y b p) \/ brought tree y a p).
    { intro p. split.
      - intros (b & Hb & H). apply in_app_iff in Hb. destruct Hb as [Hb|[<-|[]]]; [left; eauto|now right].
      - intros [(b & Hb & H)|H]; [exists b|exists a]; (split; [apply in_app_iff; cbn [In]; auto|exact H]). }
    split; intro p; rewrite E; [rewrite H3, H1|rewrite H4, H2]; tauto.
  Qed.

  Lemma inv_start t ms : J t -> fitted X y C fit L0 ms ->
    inv {| lab := L0; unl := U0; mods := ms; own := t; sav := sio_new tr te L0 U0; crit := c0 |} [].
  Proof.
    intros Jt F. split; [exact K0|]. split; [exact K1|]. split; [exact A0|]. split; [exact Jt|]. split; [exact F|].
    split; [reflexivity|]. split; [apply after_none|]. split; [constructor|]. do 5 (split; [reflexivity|]).
    split; [reflexivity|]. split; [intros [|k] e E; discriminate|]. do 3 (split; [reflexivity|]). left. auto.
  Qed.

  (** One turn. *)
  Lemma turn_cases s asks : inv s asks ->
    match strat (own s) (mods s) (lab s) (unl s) with
    | (t, Err e) => turn s = ({| lab := lab s; unl := unl s; mods := mods s; own := t; sav := sav s; crit := crit s |}, Err e)
    | (t, Ok []) => turn s = ({| lab := lab s; unl := unl s; mods := mods s; own := t; sav := sav s; crit := crit s |}, Err ValueErr)
    | (t, Ok sel) => exists r L U w1 w2, J t /\ in_data n C sel /\ Pr sel /\ sel <> [] /\ r <> [] /\
        collection n C L /\ collection n C U /\ apart L U /\
        (forall p, holds L p <-> holds (lab s) p \/ brought tree y sel p) /\
        (forall p, holds U p <-> holds (unl s) p /\ ~ brought tree y sel p) /\
        upd (lab s) (map to_idx r) = (L, Ok w1) /\ dif (unl s) (map to_idx r) = (U, Ok w2) /\
        match fit_all X y C fit L (mods s) with
        | (ms, Err e) => List.length ms = C /\ (exists j xs ys, (j < C)%nat /\ shown X y L j xs ys /\ fit j xs ys = Err e) /\
            turn s = ({| lab := L; unl := U; mods := ms; own := t; sav := sav s; crit := crit s |}, Err e)
        | (ms, Ok _) => fitted X y C fit L ms /\
            match score ms with
            | Err e => turn s = ({| lab := L; unl := U; mods := ms; own := t; sav := sav s; crit := crit s |}, Err e)
            | Ok q =>
                let v := fst (sio_add (sav s) (rec r q)) in
                let co := sc_update upd dif len (crit s) v in
                turn s = ({| lab := L; unl := U; mods := ms; own := t; sav := v; crit := fst co |}, snd co)
            end
        end
    end.
  Proof.
    intros (KL & KU & A & Jt & F & _ & Af & _). assert (TU : of_train train (unl s)) by (intros p Hp; apply T0; now apply Af).
    destruct (HA (own s) (mods s) (lab s) (unl s) Jt KL KU A TU) as [J1 H1].
    unfold cost_turn. destruct (strat (own s) (mods s) (lab s) (unl s)) as [t [sel|e]]; [|reflexivity]. cbn [fst snd] in *.
    destruct sel as [|p0 sel]; [reflexivity|]. set (l := p0 :: sel) in *. destruct (H1 l eq_refl) as [Hd Hp].
    assert (Nl : l <> []) by discriminate. destruct HD as (HX & Hy & Ht & _).
    destruct (mark_list_ok n C l (lab s) tree y KL Hy Ht Hd Nl) as (r & Er & Nr & Dr & Ir). rewrite Er. cbn [mcont].
    destruct (put n C (lab s) r KL Dr Nr) as (L & w1 & E1 & E1' & C1 & G1). rewrite E1.
    destruct (take n C (unl s) r KU Dr Nr) as (U & w2 & E2 & E2' & C2 & G2). rewrite E2.
    assert (G1' : forall p, holds L p <-> holds (lab s) p \/ brought tree y l p).
    { intro p. rewrite G1, Ir. unfold brought. destruct (holds_dec (lab s) p); tauto. }
    assert (G2' : forall p, holds U p <-> holds (unl s) p /\ ~ brought tree y l p).
    { intro p. rewrite G2, Ir. unfold brought. split; [|tauto]. intros [Q1 Q2]. split; [exact Q1|].
      destruct (holds_dec (lab s) p) as [Q3|Q3]; [exfalso; exact (A _ Q3 Q1)|tauto]. }
    exists r, L, U, w1, w2. split; [exact J1|]. split; [exact Hd|]. split; [exact Hp|]. split; [exact Nl|]. split; [exact Nr|].
    split; [exact C1|]. split; [exact C2|]. split.
    { intros q Q1 Q2. destruct (coll_bounds n C L q C1 Q1) as (p & -> & _). apply (G1' p) in Q1. apply (G2' p) in Q2.
      destruct Q1 as [Q1|Q1]; [exact (A _ Q1 (proj1 Q2))|tauto]. }
    split; [exact G1'|]. split; [exact G2'|]. split; [exact E1'|]. split; [exact E2'|].
    pose proof (fit_all_ok X y n C fit HX Hy L (mods s) C1 (proj1 F)) as FA.
    destruct (fit_all X y C fit L (mods s)) as [ms [u|e]]; [|split; [apply FA|split; [apply FA|reflexivity]]].
    split; [exact FA|]. destruct (score ms) as [q|e]; [|reflexivity]. cbn zeta.
    change (EState (state_init (inl (map to_idx r)) (SNum q) None (Some (SNum budget)))) with (rec r q).
    destruct (rec_facts r q (sav s)) as (A1 & _). rewrite A1 at 1.
    match goal with |- context[let (_, _) := ?x in _] => destruct x end. reflexivity.
  Qed.

  Lemma rebuilt_last v : rebuilt_at v (turns v) = rebuilt v.
  Proof. reflexivity. Qed.

  Lemma told_more s asks a r q ms L U w1 w2 : inv s asks -> r <> [] ->
    upd (lab s) (map to_idx r) = (L, Ok w1) -> dif (unl s) (map to_idx r) = (U, Ok w2) -> aft (asks ++ [a]) L U ->
    fitted X y C fit L ms -> score ms = Ok q ->
    let v := fst (sio_add (sav s) (rec r q)) in
    rebuilt v = Ok (tr, te, L, U) /\ told v (asks ++ [a]).
  Proof.
    intros (_ & _ & _ & _ & _ & La & _ & _ & S1 & S2 & S3 & S4 & W & _ & Tl & _) Nr E1 E2 Af F Sc v.
    destruct (rec_facts r q (sav s)) as (_ & P1 & P2 & _ & A1 & _ & A3 & A4 & A5 & A6). fold v in A1, A3, A4, A5, A6.
    assert (W' : rebuilt v = Ok (tr, te, L, U)).
    { unfold rebuilt. eapply (workspace_snoc upd dif (sav s) (rec r q)); eauto; rewrite P2; eassumption. }
    split; [exact W'|]. intros k e E. rewrite A1 in E. unfold turns in La.
    destruct (Nat.lt_ge_cases k (List.length (s_states (sav s)))) as [Hk|Hk].
    - rewrite nth_error_app1 in E by exact Hk. destruct (Tl k e E) as (L1 & U1 & ms1 & q1 & st1 & T1 & T2 & T3).
      exists L1, U1, ms1, q1, st1. split.
      + unfold rebuilt_at in *. rewrite (workspace_older upd dif (sav s) (rec r q) (S k) v); auto.
      + rewrite firstn_app. replace (S k - List.length asks)%nat with 0%nat by lia. cbn [firstn]. rewrite app_nil_r. auto.
    - rewrite nth_error_app2 in E by exact Hk. destruct (k - List.length (s_states (sav s)))%nat as [|k'] eqn:Ek; [|destruct k'; discriminate].
      injection E as <-. exists L, U, ms, q. eexists. split.
      + replace (S k) with (turns v) by (unfold turns; rewrite A1, app_length; cbn; lia). now rewrite rebuilt_last.
      + rewrite firstn_all2 by (rewrite app_length; cbn; lia). split; [exact Af|]. split; [exact F|]. split; [exact Sc|].
        split; reflexivity.
  Qed.

  Lemma zero_space s asks : inv s asks -> sio_workspace upd dif (sav s) (Some 0) = Ok (tr, te, L0, U0).
  Proof.
    intros (_ & _ & _ & _ & _ & _ & _ & _ & S1 & S2 & S3 & S4 & _). unfold sio_workspace, sio_replay.
    replace ((0 <=? 0) && (0 <=? Z.of_nat (List.length (s_states (sav s))))) with true by lia.
    cbn. rewrite S1, S2, S3, S4. reflexivity.
  Qed.

  (** The criterion after a recorded turn. *)
  Lemma criterion s v L U : counted s -> rebuilt v = Ok (tr, te, L, U) -> sio_workspace upd dif v (Some 0) = Ok (tr, te, L0, U0) ->
    let co := sc_update upd dif len (crit s) v in
    (sc_name c0 = NPercent -> pairs U0 <> []) ->
    snd co = Ok tt /\ sc_name (fst co) = sc_name c0 /\ sc_value (fst co) = sc_value c0 /\ sc_start (fst co) = sc_start c0 /\ sc_unlabel (fst co) = len U /\
     (sc_name c0 = NCost -> sc_acost (fst co) = s_cost v) /\ (sc_name c0 = NNum -> sc_iter (fst co) = turns v).
  Proof.
    intros (N1 & N2 & N3 & _) W W0 co HP. unfold co, sc_update. unfold rebuilt in W. rewrite W, W0.
    destruct (sc_name (crit s)) eqn:En; rewrite <- N1 in *; cbn [fst snd sc_name sc_value sc_start sc_unlabel sc_acost sc_iter];
      try (repeat split; auto; discriminate).
    assert (Z0 : mcont U0 <> []). { intro E. apply HP; [reflexivity|]. unfold pairs. now rewrite E. }
    destruct (mcont U0) as [|x l]; [congruence|]. cbn [List.length].
    cbn [fst snd sc_name sc_value sc_start sc_unlabel sc_acost sc_iter]. repeat split; auto; discriminate.
  Qed.

  Lemma turn_inv s asks : (sc_name c0 = NPercent -> pairs U0 <> []) -> inv s asks ->
    match turn s with
    | (s1, Ok _) => exists a, inv s1 (asks ++ [a])
    | (s1, Err _) => exists extra, hurt s1 asks extra
    end.
  Proof.
    intros HP I. pose proof (turn_cases s asks I) as TC. pose proof (zero_space s asks I) as Z0.
    pose proof I as (KL & KU & A & Jt & F & La & Af & Fo & S1 & S2 & S3 & S4 & W & Co & Tl & Cn).
    assert (H0 : forall t, hurt {| lab := lab s; unl := unl s; mods := mods s; own := t; sav := sav s; crit := crit s |} asks []).
    { intro t. split; [exact KL|]. split; [exact KU|]. split; [exact A|]. split; [apply F|]. split; [exact La|]. split; [cbn; lia|].
      rewrite app_nil_r. split; [exact Af|]. split; [exact Fo|]. split; [exact Co|]. split; [exact Tl|]. exists (lab s), (unl s). auto. }
    destruct (strat (own s) (mods s) (lab s) (unl s)) as [t [[|p0 sel]|e]]; [rewrite TC; eauto| |rewrite TC; eauto].
    set (l := p0 :: sel) in *. destruct TC as (r & L & U & w1 & w2 & J1 & Hd & Hp & Nl & Nr & C1 & C2 & A1 & G1 & G2 & E1 & E2 & TC).
    pose proof (after_more asks l _ _ _ _ Af G1 G2) as Af'.
    assert (Fo' : Forall (fun a => in_data n C a /\ Pr a /\ a <> []) (asks ++ [l])) by (apply Forall_app; split; auto).
    assert (H1 : forall ms, List.length ms = C -> hurt {| lab := L; unl := U; mods := ms; own := t; sav := sav s; crit := crit s |} asks [l]).
    { intros ms Lm. split; [exact C1|]. split; [exact C2|]. split; [exact A1|]. split; [exact Lm|]. split; [exact La|]. split; [cbn; lia|].
      split; [exact Af'|]. split; [exact Fo'|]. split; [exact Co|]. split; [exact Tl|]. exists (lab s), (unl s). auto. }
    destruct (fit_all X y C fit L (mods s)) as [ms [u|e]].
    2:{ destruct TC as (Lm & _ & ->). eauto. }
    destruct TC as [Fm TC]. destruct (score ms) as [q|e] eqn:Es; [|rewrite TC; exists [l]; apply H1; apply Fm].
    cbn zeta in TC. rewrite TC. destruct (told_more s asks l r q ms L U w1 w2 I Nr E1 E2 Af' Fm Es) as [W' Tl'].
    destruct (rec_facts r q (sav s)) as (_ & _ & _ & _ & B1 & B2 & B3 & B4 & B5 & B6).
    set (v := fst (sio_add (sav s) (rec r q))) in *.
    assert (Z1 : sio_workspace upd dif v (Some 0) = Ok (tr, te, L0, U0)).
    { change (Some 0) with (Some (Z.of_nat 0)). rewrite (workspace_older upd dif (sav s) (rec r q) 0 v); auto. lia. }
    destruct (criterion s v L U Cn W' Z1 HP) as (O1 & O2 & O3 & O4 & O5 & O6 & O7).
    destruct (sc_update upd dif len (crit s) v) as [k o]. cbn [fst snd] in *. subst o. exists l.
    assert (Tv : turns v = S (turns (sav s))) by (unfold turns; rewrite B1, app_length; cbn; lia).
    split; [exact C1|]. split; [exact C2|]. split; [exact A1|]. split; [exact J1|]. split; [exact Fm|]. cbn [sav lab unl crit].
    split; [rewrite app_length, Tv, La; cbn; lia|]. split; [exact Af'|]. split; [exact Fo'|].
    split; [congruence|]. split; [congruence|]. split; [congruence|]. split; [congruence|]. split; [exact W'|].
    split; [rewrite B2, Co, Tv, Nat2Z.inj_succ; unfold Z.succ; rewrite inject_Z_plus; ring|]. split; [exact Tl'|].
    split; [exact O2|]. split; [exact O3|]. split; [exact O4|]. right. auto.
  Qed.

  Lemma inv_hurt s asks : inv s asks -> hurt s asks [].
  Proof.
    intros (KL & KU & A & Jt & F & La & Af & Fo & S1 & S2 & S3 & S4 & W & Co & Tl & Cn).
    split; [exact KL|]. split; [exact KU|]. split; [exact A|]. split; [apply F|]. split; [exact La|]. split; [cbn; lia|].
    rewrite app_nil_r. split; [exact Af|]. split; [exact Fo|]. split; [exact Co|]. split; [exact Tl|]. exists (lab s), (unl s). auto.
  Qed.

  Lemma turns_inv clock k : (sc_name c0 = NPercent -> pairs U0 <> []) -> forall j s asks, inv s asks ->
    match rounds clock k j s with
    | (s1, Failed _) => exists asks1 extra, hurt s1 (asks ++ asks1) extra
    | (s1, _) => exists asks1, inv s1 (asks ++ asks1)
    end.
  Proof.
    intro HP. induction k as [|k IH]; intros j s asks I; cbn [cost_turns]; destruct (sc_is_stop (crit s) (clock j)) as [[|]|e];
      try (exists []; rewrite app_nil_r; exact I); try (exists [], []; rewrite app_nil_r; exact (inv_hurt _ _ I)).
    pose proof (turn_inv s asks HP I) as TI. destruct (turn s) as [s1 [u|e]].
    - destruct TI as [a I1]. specialize (IH (S j) s1 _ I1). destruct (rounds clock k (S j) s1) as [s2 [| |e]].
      + destruct IH as [al I2]. exists (a :: al). now rewrite <- app_assoc in I2.
      + destruct IH as [al I2]. exists (a :: al). now rewrite <- app_assoc in I2.
      + destruct IH as (al & extra & I2). exists (a :: al), extra. now rewrite <- app_assoc in I2.
    - destruct TI as [extra H]. exists [], extra. now rewrite app_nil_r.
  Qed.
End Turns.
