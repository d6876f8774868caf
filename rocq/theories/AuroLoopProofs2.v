(** Proofs about the main loop with AURO: all rounds. *)
From Verif Require Import Base BaseFacts SetFacts IndexModel MLModel MLSpec MLProofs MLProofs2 MLProofs3 MLProps MiscModel QueryModel MLQueryModel MLQuerySpec
  MLQueryProofs StateModel StateSpec StateProofs StateProofs2 AuroModel AuroSpec AuroProofs AuroProps MultiLoopProofs CostLoopModel CostLoopSpec CostLoopProofs
  AuroLoopModel AuroLoopSpec AuroLoopProofs.
From Coq Require Import String QArith Sorted.
Local Open Scope Z_scope.

Lemma asked_app al a p : asked (al ++ [a]) p <-> asked al p \/ In p (two a).
Proof.
  unfold asked. split.
  - intros (b & Hb & H). apply in_app_iff in Hb. destruct Hb as [Hb|[<-|[]]]; [left; eauto|now right].
  - intros [(b & Hb & H)|H]; [exists b|exists a]; (split; [apply in_app_iff; cbn [In]; auto|exact H]).
Qed.

Lemma asked_flat al p : asked al p <-> In p (flat_map two al).
Proof. unfold asked. rewrite in_flat_map. reflexivity. Qed.

Section Rounds.
  Context {B M : Type}.
  Variables (X : list B) (y : list (list Q)) (n m : nat) (argsort : list fl -> list nat)
    (fit : option M -> list B -> list (list Q) -> res M) (refit : M -> list B -> list (list Q) -> res M)
    (scores : M -> list B -> nat * list (list fl)) (judge : M -> res Q) (addr : nat).
  Hypothesis HX : List.length X = n.
  Hypothesis Hy : has_shape y n m.
  Hypothesis HA : sorts argsort.
  Hypothesis HS : sound_scores scores m.
  Variables (tr te : list mlidx) (L0 U0 : mlic) (t0 : M).
  Hypothesis K0 : collection n m L0.
  Hypothesis K1 : collection n m U0.
  Hypothesis A0 : apart L0 U0.
  Notation round := (auro_round X y m argsort fit refit scores judge addr).
  Notation rounds := (auro_rounds X y m argsort fit refit scores judge addr).
  Notation upd := (ml_update true).
  Notation dif := (ml_difference_update true).
  Notation learnt := (learns refit X y m t0).
  Notation hist := (history refit judge X y m t0 tr te L0 U0).

  Definition rec (a : question) (q : Q) : StateModel.entry mlidx := EState (state_init (inl (map to_idx (two a))) (SNum q) None None).

  Lemma rec_facts a q (v : sio mlic mlidx) : let v' := fst (sio_add v (rec a q)) in
    sio_add v (rec a q) = (v', Ok tt) /\ proper (rec a q) /\ queried (rec a q) = map to_idx (two a) /\
    s_states v' = s_states v ++ [rec a q] /\
    s_L v' = s_L v /\ s_U v' = s_U v /\ s_train v' = s_train v /\ s_test v' = s_test v.
  Proof. cbn. repeat split; auto. eexists. reflexivity. Qed.

  (** After the questions [asks]. *)
  Definition inv (s : astate M) (asks : list question) : Prop :=
    collection n m (lab s) /\ collection n m (unl s) /\ apart (lab s) (unl s) /\ moved_by asks L0 U0 (lab s) (unl s) /\
    Forall (proper_question n m) asks /\ NoDup (flat_map two asks) /\ (forall p, asked asks p -> holds U0 p) /\ has_shape (qry s) n m /\ answered y (qry s) asks /\
    (exists t, nth_error (heap (strat s)) addr = Some (Some t) /\ learnt asks t) /\
    s_L (sav s) = L0 /\ s_U (sav s) = U0 /\ s_train (sav s) = tr /\ s_test (sav s) = te /\
    rebuilt (sav s) = Ok (tr, te, lab s, unl s) /\ hist (sav s) asks.

  (** After an exception: [extra] is the question in progress. *)
  Definition hurt (s : astate M) (asks extra : list question) : Prop :=
    (List.length extra <= 1)%nat /\
    collection n m (lab s) /\ collection n m (unl s) /\ apart (lab s) (unl s) /\ moved_by (asks ++ extra) L0 U0 (lab s) (unl s) /\
    Forall (proper_question n m) (asks ++ extra) /\ NoDup (flat_map two (asks ++ extra)) /\ (forall p, asked (asks ++ extra) p -> holds U0 p) /\
    has_shape (qry s) n m /\ answered y (qry s) (asks ++ extra) /\
    (exists t, nth_error (heap (strat s)) addr = Some (Some t) /\ (learnt asks t \/ learnt (asks ++ extra) t)) /\
    hist (sav s) asks /\ exists L U, rebuilt (sav s) = Ok (tr, te, L, U) /\ moved_by asks L0 U0 L U.

  Lemma inv_hurt s asks : inv s asks -> hurt s asks [].
  Proof.
    intros (I1 & I2 & I3 & I4 & I5 & I6 & I7 & I8 & I9 & (t & I10 & I11) & _ & _ & _ & _ & I12 & I13). unfold hurt. rewrite app_nil_r.
    split; [cbn; lia|]. do 9 (split; [assumption|]). split; [exists t; auto|]. split; [exact I13|]. exists (lab s), (unl s). auto.
  Qed.

  Lemma moved_more asks a L U L' U' : moved_by asks L0 U0 L U ->
    (forall p, holds L' p <-> holds L p \/ In p (two a)) -> (forall p, holds U' p <-> holds U p /\ ~ In p (two a)) ->
    moved_by (asks ++ [a]) L0 U0 L' U'.
  Proof. intros [H1 H2] H3 H4. split; intro p; rewrite asked_app; [rewrite H3, H1|rewrite H4, H2]; tauto. Qed.

  Lemma answered_more qy qy' asks a v1 v2 : answered y qy asks -> reply y a v1 v2 -> one a <> other a ->
    (forall p, In p (two a) -> ~ asked asks p) ->
    (forall i j, value qy' i j = if Nat.eqb i (who a) && Nat.eqb j (one a) then v1 else if Nat.eqb i (who a) && Nat.eqb j (other a) then v2 else value qy i j) ->
    answered y qy' (asks ++ [a]).
  Proof.
    intros [H1 H2] R N Fr V.
    assert (Old : forall i j, ~ In (i, j) (two a) -> value qy' i j = value qy i j).
    { intros i j H. rewrite V. destruct (Nat.eqb_spec i (who a)) as [->|]; cbn [andb]; [|reflexivity].
      destruct (Nat.eqb_spec j (one a)) as [->|]; [exfalso; apply H; now left|].
      destruct (Nat.eqb_spec j (other a)) as [->|]; [exfalso; apply H; right; now left|reflexivity]. }
    split.
    - intros i j H. rewrite asked_app in H. rewrite Old by tauto. apply H1. tauto.
    - intros b Hb. apply in_app_iff in Hb. destruct Hb as [Hb|[<-|[]]].
      + rewrite !Old; [now apply H2| |]; intro Q0; apply (Fr _ Q0); exists b; (split; [exact Hb|]); [right|]; now left.
      + rewrite !V, !Nat.eqb_refl. cbn [andb]. replace (Nat.eqb (other a) (one a)) with false by (symmetry; apply Nat.eqb_neq; lia). exact R.
  Qed.

  Lemma hist_more v asks a q t L U L' U' w1 w2 : hist v asks ->
    s_L v = L0 -> s_U v = U0 -> s_train v = tr -> s_test v = te -> rebuilt v = Ok (tr, te, L, U) ->
    moved_by asks L0 U0 L U -> holds U (who a, one a) -> holds U (who a, other a) -> least_queried U (Z.of_nat (who a)) ->
    upd L (map to_idx (two a)) = (L', Ok w1) -> dif U (map to_idx (two a)) = (U', Ok w2) ->
    learnt (asks ++ [a]) t -> judge t = Ok q ->
    let v' := fst (sio_add v (rec a q)) in rebuilt v' = Ok (tr, te, L', U') /\ hist v' (asks ++ [a]).
  Proof.
    intros [Hl Hh] S1 S2 S3 S4 W Mo P1 P2 LQ E1 E2 Le J v'. destruct (rec_facts a q v) as (_ & R1 & R2 & R3 & R4 & R5 & R6 & R7). fold v' in R3, R4, R5, R6, R7.
    split.
    - unfold rebuilt. eapply (workspace_snoc upd dif v (rec a q)); eauto; rewrite R2; eassumption.
    - unfold turns in Hl. split; [unfold turns; rewrite R3, !app_length, Hl; reflexivity|]. intros k b Eb.
      assert (Old : forall i, (i <= List.length (s_states v))%nat -> rebuilt_at v' i = rebuilt_at v i).
      { intros i Hi. unfold rebuilt_at. now apply (workspace_older upd dif v (rec a q)). }
      destruct (Nat.lt_ge_cases k (List.length asks)) as [Hk|Hk].
      + rewrite nth_error_app1 in Eb by exact Hk. destruct (Hh k b Eb) as (L1 & U1 & t1 & q1 & st1 & G1 & G2 & G3 & G4 & G5 & G6 & G7 & G8 & G9).
        exists L1, U1, t1, q1, st1. rewrite Old by lia. rewrite R3, nth_error_app1 by lia.
        rewrite !firstn_app. replace (k - List.length asks)%nat with 0%nat by lia. replace (S k - List.length asks)%nat with 0%nat by lia.
        change (firstn 0 [a]) with (@nil question). rewrite !app_nil_r. tauto.
      + rewrite nth_error_app2 in Eb by exact Hk. destruct (k - List.length asks)%nat as [|k'] eqn:Ek; [|destruct k'; discriminate]. injection Eb as <-.
        exists L, U, t, q. eexists. rewrite Old by lia. rewrite R3, nth_error_app2 by lia.
        replace k with (List.length (s_states v)) by lia.
        split; [exact W|]. rewrite <- Hl. rewrite firstn_app, Nat.sub_diag, firstn_all. change (firstn 0 [a]) with (@nil question). rewrite app_nil_r.
        rewrite (firstn_all2 (n := S (List.length asks))) by (rewrite app_length; cbn; lia).
        split; [exact Mo|]. split; [exact P1|]. split; [exact P2|]. split; [exact LQ|]. split; [exact Le|]. split; [exact J|].
        split; [reflexivity|]. split; reflexivity.
  Qed.

  Lemma round_inv s asks : inv s asks ->
    match round s with
    | (s1, Ok _) => exists a, inv s1 (asks ++ [a]) /\ askable n (unl s) = S (askable n (unl s1))
    | (s1, Err e) =>
        (e = ValueErr /\ hurt s1 asks [] /\ lab s1 = lab s /\ unl s1 = unl s /\ sav s1 = sav s /\ forall i, (pairs_of (unl s) i <= 1)%nat) \/
        ((exists a, hurt s1 asks [a]) /\ ((exists t xs ys, refit t xs ys = Err e) \/ exists t, judge t = Err e))
    end.
  Proof.
    intro I. pose proof I as (KL & KU & A & Mo & Pr & Nd & In0 & Sq & An & (t & Ht & Le) & S1 & S2 & S3 & S4 & W & Hh).
    pose proof (select_cases X y n m argsort fit scores addr HX Hy HA HS (strat s) (lab s) (unl s) t (qry s) KL KU Ht) as SC. cbn zeta in SC.
    unfold auro_round. destruct (auro_select _ _ _ _ _ _ _ _ _ _ _) as [st r]. cbn [fst snd] in SC. destruct SC as [Eh SC].
    assert (Ht' : nth_error (heap st) addr = Some (Some t)) by now rewrite Eh.
    destruct SC as [(a & -> & Bi & B1 & B2 & N & P1 & P2 & LQ)|(Few & R)].
    2:{ assert (Hu : hurt {| lab := lab s; unl := unl s; qry := qry s; strat := st; sav := sav s |} asks []).
        { unfold hurt. rewrite app_nil_r. cbn [lab unl qry strat sav]. split; [cbn; lia|]. do 9 (split; [assumption|]). split; [exists t; auto|]. split; [exact Hh|]. exists (lab s), (unl s). auto. }
        destruct R as [->| ->]; left; cbn [lab unl sav]; auto 8. }
    rewrite Nat2Z.id.
    destruct (answer_ok y (qry s) n m a Hy Sq Bi B1 B2 N) as (qy & v1 & v2 & Ea & Rp & Sq' & V). rewrite Ea.
    change [IPair (Z.of_nat (who a)) (Z.of_nat (one a)); IPair (Z.of_nat (who a)) (Z.of_nat (other a))] with (map to_idx (two a)).
    assert (Dt : in_data n m (two a)) by (intros p [<-|[<-|[]]]; cbn; auto).
    assert (Nt : two a <> []) by discriminate.
    destruct (put n m (lab s) (two a) KL Dt Nt) as (L & w1 & _ & E1 & C1 & G1). rewrite E1.
    destruct (take n m (unl s) (two a) KU Dt Nt) as (U & w2 & _ & E2 & C2 & G2). rewrite E2.
    assert (V1 : value qy (who a) (one a) = v1) by (rewrite V, !Nat.eqb_refl; reflexivity).
    assert (V2 : value qy (who a) (other a) = v2).
    { rewrite V, !Nat.eqb_refl. cbn [andb]. replace (Nat.eqb (other a) (one a)) with false by (symmetry; apply Nat.eqb_neq; lia). reflexivity. }
    destruct (lesson_ok X y qy n m a v1 v2 HX Sq' Rp Bi B1 B2 N V1 V2) as (x & row & ids & Ex & Les). rewrite Ex. cbn [bind fst snd].
    assert (Fr : forall p, In p (two a) -> ~ asked asks p).
    { intros p Hp Q0. assert (Hu : holds (unl s) p) by (destruct Hp as [<-|[<-|[]]]; assumption). apply Mo in Hu. tauto. }
    assert (A1 : apart L U).
    { intros q Q1 Q2. destruct (coll_bounds n m L q C1 Q1) as (p & -> & _). apply (G1 p) in Q1. apply (G2 p) in Q2.
      destruct Q1 as [Q1|Q1]; [exact (A _ Q1 (proj1 Q2))|tauto]. }
    pose proof (moved_more asks a _ _ _ _ Mo G1 G2) as Mo'.
    assert (Pr' : Forall (proper_question n m) (asks ++ [a])).
    { apply Forall_app. split; [exact Pr|]. constructor; [|constructor]. repeat split; assumption. }
    assert (Nd' : NoDup (flat_map two (asks ++ [a]))).
    { rewrite flat_map_app. apply NoDup_app_intro; [exact Nd| |].
      - cbn. constructor; [|constructor; [tauto|constructor]]. intros [Q0|[]]. injection Q0. lia.
      - intros p H1 H2. cbn in H2. apply (Fr p); [cbn; tauto|]. now apply asked_flat. }
    assert (In1 : forall p, asked (asks ++ [a]) p -> holds U0 p).
    { intros p Hp. apply asked_app in Hp. destruct Hp as [Hp|Hp]; [now apply In0|].
      assert (Hu : holds (unl s) p) by (destruct Hp as [<-|[<-|[]]]; assumption). now apply Mo in Hu. }
    pose proof (answered_more (qry s) qy asks a v1 v2 An Rp N Fr V) as An'.
    unfold refit_at. rewrite (nth_error_nth _ _ None Ht').
    assert (Hu : forall st' t', nth_error (heap st') addr = Some (Some t') -> learnt asks t' \/ learnt (asks ++ [a]) t' ->
      hurt {| lab := L; unl := U; qry := qy; strat := st'; sav := sav s |} asks [a]).
    { intros st' t' Q1 Q2. split; [cbn; lia|]. cbn [lab unl qry strat sav]. do 9 (split; [assumption|]). split; [exists t'; auto|]. split; [exact Hh|]. exists (lab s), (unl s). auto. }
    destruct (refit t [x] [row]) as [t1|e] eqn:Er.
    2:{ right. split; [exists a; eapply Hu; eauto|left; eauto]. }
    assert (Le' : learnt (asks ++ [a]) t1) by (eapply learns_more; eauto).
    assert (Hm : nth_error (heap (set_model addr st t1)) addr = Some (Some t1)).
    { cbn [heap set_model]. rewrite MLProofs3.nth_error_set_nth, Nat.eqb_refl. rewrite (proj2 (Nat.ltb_lt _ _)); [reflexivity|].
      apply nth_error_Some. congruence. }
    destruct (judge t1) as [q|e] eqn:Ej.
    2:{ right. split; [exists a; eapply Hu; eauto|right; eauto]. }
    change (EState _) with (rec a q). destruct (rec_facts a q (sav s)) as (R1 & _ & _ & _ & R4 & R5 & R6 & R7). rewrite R1.
    destruct (hist_more (sav s) asks a q t1 (lab s) (unl s) L U w1 w2) as [W' Hh']; auto.
    exists a. split; [|cbn [unl]; now apply (askable_take n m _ _ a)].
    split; [exact C1|]. split; [exact C2|]. split; [exact A1|]. cbn [lab unl qry strat sav]. do 6 (split; [assumption|]).
    split; [exists t1; auto|]. split; [congruence|]. split; [congruence|]. split; [congruence|]. split; [congruence|]. auto.
  Qed.

  Lemma rounds_inv k : forall s asks, inv s asks ->
    match rounds k s with
    | (s1, Failed e) => exists al extra, hurt s1 (asks ++ al) extra /\
        ((e = ValueErr /\ extra = [] /\ List.length al = askable n (unl s) /\ (askable n (unl s) < k)%nat /\ forall i, (pairs_of (unl s1) i <= 1)%nat) \/
         (List.length extra = 1%nat /\ ((exists t xs ys, refit t xs ys = Err e) \/ exists t, judge t = Err e)))
    | (s1, Done) => exists al, inv s1 (asks ++ al) /\ List.length al = k /\ askable n (unl s) = (k + askable n (unl s1))%nat
    end.
  Proof.
    induction k as [|k IH]; intros s asks I; cbn [auro_rounds].
    - exists []. rewrite app_nil_r. auto.
    - pose proof (round_inv s asks I) as R. destruct (round s) as [s1 [u|e]].
      + destruct R as (a & I1 & E). specialize (IH s1 _ I1). destruct (rounds k s1) as [s2 [|e]].
        * destruct IH as (al & I2 & Ll & E2). exists (a :: al). rewrite <- app_assoc in I2. split; [exact I2|]. cbn [List.length]. lia.
        * destruct IH as (al & extra & H & D). exists (a :: al), extra. rewrite <- app_assoc in H. split; [exact H|].
          destruct D as [(D1 & D2 & D3 & D4 & D5)|D]; [left|right; exact D]. cbn [List.length]. repeat split; auto; lia.
      + destruct R as [(-> & H & _ & EU & _ & Few)|((a & H) & D)].
        * exists [], []. rewrite app_nil_r. split; [exact H|]. left. rewrite EU. pose proof (askable_none n _ Few). cbn [List.length]. repeat split; auto; lia.
        * exists [], [a]. rewrite app_nil_r. split; [exact H|]. right. auto.
  Qed.

  Lemma inv_start st : nth_error (heap st) addr = Some (Some t0) ->
    inv {| lab := L0; unl := U0; qry := y; strat := st; sav := sio_new tr te L0 U0 |} [].
  Proof.
    intro H. split; [exact K0|]. split; [exact K1|]. split; [exact A0|]. cbn [lab unl qry strat sav].
    assert (N0 : forall p, ~ asked [] p) by (intros p (a & [] & _)).
    split; [split; intro p; specialize (N0 p); tauto|]. split; [constructor|]. split; [constructor|]. split; [intros p Hp; destruct (N0 p Hp)|].
    split; [exact Hy|]. split; [split; [reflexivity|intros a []]|]. split; [exists t0; split; [exact H|constructor]|].
    do 4 (split; [reflexivity|]). split; [reflexivity|]. split; [reflexivity|]. intros [|k] a E; discriminate.
  Qed.
End Rounds.
