(** Proofs about workspaces, stopping criteria and the main loop. *)
From Verif Require Import Base BaseFacts SetFacts IndexModel IndexSpec IndexProofs MLModel MLSpec MLProofs
  StateModel StateSpec StateProofs.
From Coq Require Import String QArith ZifyBool.
Local Open Scope Z_scope.

Lemma foldM_app {A B} (f : A -> B -> res A) l1 : forall l2 a,
  foldM f a (l1 ++ l2) = match foldM f a l1 with Ok a' => foldM f a' l2 | Err e => Err e end.
Proof.
  induction l1 as [|x l1 IH]; intros l2 a; cbn; auto. destruct (f a x); cbn; auto.
Qed.

(** *** stopping criteria *)
Section Crit.
  Context {C E : Type}.
  Variables (upd diff : C -> list E -> C * res (list warning)) (clen : C -> nat).
  Notation sc_update := (sc_update upd diff clen).

  Definition crit_ok (n : crit_name) (v : option Q) : Prop :=
    match n, v with
    | NNone, _ => True
    | NBad, _ => False
    | NPercent, Some q => (0 <= q <= 1)%Q
    | _, Some _ => True
    | _, None => False
    end.
  Definition crit_value (v : option Q) : Q := match v with Some q => q | None => 0%Q end.

  Lemma update_keeps c s : sc_name (fst (sc_update c s)) = sc_name c /\
    sc_value (fst (sc_update c s)) = sc_value c /\ sc_start (fst (sc_update c s)) = sc_start c.
  Proof.
    unfold StateModel.sc_update. destruct (sio_workspace upd diff s None) as [[[[? ?] ?] u]|]; auto.
    destruct (sio_workspace upd diff s (Some 0)) as [[[[? ?] ?] u0]|]; auto.
    destruct (sc_name c) eqn:N; cbn; auto. destruct (clen u0); cbn; auto.
  Qed.

  Lemma updates_keep ss : forall c, let c' := fold_left (fun c s => fst (sc_update c s)) ss c in
    sc_name c' = sc_name c /\ sc_value c' = sc_value c /\ sc_start c' = sc_start c.
  Proof.
    induction ss as [|s ss IH]; intro c; cbn; auto.
    destruct (IH (fst (sc_update c s))) as (A & B & D). destruct (update_keeps c s) as (A' & B' & D').
    cbn zeta in *. rewrite A, B, D. auto.
  Qed.

  Lemma percent_le v a n : (v <= a # Pos.of_succ_nat n)%Q <->
    (v * inject_Z (Z.of_nat (S n)) <= inject_Z a)%Q.
  Proof.
    destruct v as [p q]. unfold Qle, Qmult, inject_Z. cbn [Qnum Qden].
    rewrite Zpos_P_of_succ_nat. rewrite <- Nat2Z.inj_succ, Pos.mul_1_r, Z.mul_1_r. lia.
  Qed.

  Lemma stop_after_update c s c' now tr te l u l0 u0 :
    sio_workspace upd diff s None = Ok (tr, te, l, u) ->
    sio_workspace upd diff s (Some 0) = Ok (tr, te, l0, u0) ->
    sc_update c s = (c', Ok tt) -> crit_ok (sc_name c) (sc_value c) ->
    exists b, sc_is_stop c' now = Ok b /\
      (b = true <-> should_stop (sc_name c) (crit_value (sc_value c)) (clen u) (clen u0)
                      (List.length (s_states s)) (s_cost s) (now - sc_start c)).
  Proof.
    intros W W0 Hu V. unfold StateModel.sc_update in Hu. rewrite W, W0 in Hu.
    unfold should_stop. destruct (Nat.eqb_spec (clen u) 0) as [Z0|Z0].
    - exists true. split; [|tauto].
      assert (sc_unlabel c' = clen u).
      { destruct (sc_name c); try (injection Hu as <-; reflexivity). destruct (clen u0); [discriminate|].
        injection Hu as <-. reflexivity. }
      unfold sc_is_stop. rewrite H, Z0. reflexivity.
    - unfold sc_is_stop. destruct (sc_name c) eqn:N; unfold crit_ok in V.
      + injection Hu as <-. cbn. destruct (Nat.eqb_spec (clen u) 0); [contradiction|]. exists false.
        split; auto. split; [discriminate|tauto].
      + injection Hu as <-. cbn. destruct (Nat.eqb_spec (clen u) 0); [contradiction|].
        destruct (sc_value c) as [v|]; [|contradiction]. eexists. split; [reflexivity|].
        rewrite Qle_bool_iff. cbn [crit_value]. tauto.
      + injection Hu as <-. cbn. destruct (Nat.eqb_spec (clen u) 0); [contradiction|].
        destruct (sc_value c) as [v|]; [|contradiction]. eexists. split; [reflexivity|].
        rewrite Qle_bool_iff. cbn [crit_value]. tauto.
      + destruct (clen u0) as [|m] eqn:U0; [discriminate|]. injection Hu as <-. cbn -[Z.of_nat].
        destruct (Nat.eqb_spec (clen u) 0); [contradiction|].
        destruct (sc_value c) as [v|]; [|contradiction]. destruct V as [V0 V1].
        apply Qle_bool_iff in V0, V1. rewrite V0, V1. cbn -[Z.of_nat]. eexists. split; [reflexivity|].
        rewrite Qle_bool_iff, percent_le. cbn [crit_value]. tauto.
      + injection Hu as <-. cbn. destruct (Nat.eqb_spec (clen u) 0); [contradiction|].
        destruct (sc_value c) as [v|]; [|contradiction]. eexists. split; [reflexivity|].
        rewrite Qle_bool_iff. cbn [crit_value]. tauto.
      + contradiction.
  Qed.

  Lemma update_ok c s tr te l u l0 u0 :
    sio_workspace upd diff s None = Ok (tr, te, l, u) ->
    sio_workspace upd diff s (Some 0) = Ok (tr, te, l0, u0) ->
    (sc_name c = NPercent -> clen u0 <> 0%nat) ->
    snd (sc_update c s) = Ok tt.
  Proof.
    intros W W0 H. unfold StateModel.sc_update. rewrite W, W0. destruct (sc_name c); auto.
    destruct (clen u0); auto. now specialize (H eq_refl).
  Qed.

  Lemma should_stop_mono name v u u0 n c t u' n' c' t' :
    (u' <= u)%nat -> (n <= n')%nat -> (c <= c')%Q -> (t <= t')%Q ->
    should_stop name v u u0 n c t -> should_stop name v u' u0 n' c' t'.
  Proof.
    intros Hu Hn Hc Ht [H|H]; [left; lia|].
    unfold should_stop. destruct name; try contradiction; right.
    - eapply Qle_trans; [exact H|]. rewrite <- Zle_Qle. lia.
    - eapply Qle_trans; eauto.
    - eapply Qle_trans; [exact H|]. rewrite <- Zle_Qle. lia.
    - eapply Qle_trans; eauto.
  Qed.

  Lemma init_facts n v t c : sc_init n v t = Ok c ->
    sc_name c = n /\ sc_value c = (match n with NNum => option_map int_of v | _ => v end) /\
    sc_start c = t /\ sc_unlabel c = 100%nat /\ sc_iter c = 0%nat /\ sc_acost c = 0%Q /\ sc_percent c = 0%Q.
  Proof.
    destruct n; cbn; try discriminate; try (destruct v; try discriminate);
      intro H; injection H as <-; cbn; repeat split; auto.
  Qed.

  Lemma reset_lemma n v t now c0 c1 ss : sc_init n v t = Ok c0 -> sc_init n v now = Ok c1 ->
    sc_reset (fold_left (fun c s => fst (sc_update c s)) ss c0) now = c1.
  Proof.
    intros H0 H1. destruct (updates_keep ss c0) as (A & B & _).
    destruct (init_facts _ _ _ _ H0) as (F1 & F2 & _).
    destruct (init_facts _ _ _ _ H1) as (G1 & G2 & G3 & G4 & G5 & G6 & G7).
    unfold sc_reset. cbn zeta in *. rewrite A, B, F1, F2. destruct c1; cbn in *. congruence.
  Qed.
End Crit.

(** *** any collection with set semantics *)
Section Coll.
  Context {C E K : Type}.
  Variables (upd diff : C -> list E -> C * res (list warning)) (clen : C -> nat).
  Variables (invL invU : C -> Prop) (els : C -> list K) (ok : list E -> Prop) (den : list E -> K -> Prop).
  Variable kdec : forall a b : K, {a = b} + {a <> b}.
  Variable dden : forall l k, {den l k} + {~ den l k}.
  Hypothesis upd_ok : forall c l, invL c -> ok l ->
    exists c' w, upd c l = (c', Ok w) /\ invL c' /\ forall k, In k (els c') <-> In k (els c) \/ den l k.
  Hypothesis diff_ok : forall c l, invU c -> ok l ->
    exists c' w, diff c l = (c', Ok w) /\ invU c' /\ forall k, In k (els c') <-> In k (els c) /\ ~ den l k.
  Hypothesis clen_els : forall c, invU c -> NoDup (els c) /\ clen c = List.length (els c).

  Definition den_all (es : list (entry E)) (k : K) : Prop := exists e, In e es /\ den (queried e) k.
  Definition ok_entry (e : entry E) : Prop := proper e /\ ok (queried e).

  Lemma replay_ok es : Forall ok_entry es -> forall L U, invL L -> invU U ->
    exists L' U', foldM (replay_one upd diff) (L, U) es = Ok (L', U') /\ invL L' /\ invU U' /\
      (forall k, In k (els L') <-> In k (els L) \/ den_all es k) /\
      (forall k, In k (els U') <-> In k (els U) /\ ~ den_all es k).
  Proof.
    induction 1 as [|e es [P O] F IH]; intros L U IL IU.
    - exists L, U. cbn. repeat split; auto; unfold den_all; cbn; try tauto; try (intros [?|(? & [] & _)]; auto).
      intros (? & [] & _).
    - destruct (upd_ok L (queried e) IL O) as (L1 & w1 & E1 & I1 & S1).
      destruct (diff_ok U (queried e) IU O) as (U1 & w2 & E2 & I2 & S2).
      destruct (IH L1 U1 I1 I2) as (L' & U' & R & J1 & J2 & T1 & T2).
      exists L', U'. cbn [foldM]. unfold replay_one at 1. rewrite (proper_sel e P). cbn [bind fst snd].
      rewrite E2, E1. cbn [bind]. split; [exact R|]. repeat split; auto.
      + rewrite T1, S1. intros [[H|H]|(e' & H1 & H2)]; auto; right; [exists e|exists e']; cbn; auto.
      + rewrite T1, S1. intros [H|(e' & [<-|H1] & H2)]; auto. right. exists e'. auto.
      + apply T2 in H. destruct H as [H _]. apply S2 in H. tauto.
      + apply T2 in H. destruct H as [H H']. apply S2 in H. intros (e' & [<-|H1] & H2); [tauto|].
        apply H'. exists e'. auto.
      + intros [H H']. apply T2. rewrite S2. repeat split; auto.
        * intro X. apply H'. exists e. cbn. auto.
        * intros (e' & H1 & H2). apply H'. exists e'. cbn. auto.
  Qed.

  Lemma workspace_ok s k : invL (s_L s) -> invU (s_U s) ->
    0 <= k <= Z.of_nat (List.length (s_states s)) -> Forall ok_entry (firstn (Z.to_nat k) (s_states s)) ->
    exists L' U', sio_workspace upd diff s (Some k) = Ok (s_train s, s_test s, L', U') /\ invL L' /\ invU U' /\
      (forall x, In x (els L') <-> In x (els (s_L s)) \/ den_all (firstn (Z.to_nat k) (s_states s)) x) /\
      (forall x, In x (els U') <-> In x (els (s_U s)) /\ ~ den_all (firstn (Z.to_nat k) (s_states s)) x).
  Proof.
    intros IL IU Hk F. destruct (replay_ok _ F (s_L s) (s_U s) IL IU) as (L' & U' & R & J1 & J2 & T1 & T2).
    exists L', U'. unfold sio_workspace. replace ((0 <=? k) && (k <=? Z.of_nat (List.length (s_states s)))) with true by lia.
    unfold sio_replay. rewrite R. cbn. auto.
  Qed.

  Lemma workspace_none s : sio_workspace upd diff s None = sio_workspace upd diff s (Some (Z.of_nat (List.length (s_states s)))).
  Proof. reflexivity. Qed.

  Lemma workspace_zero s : sio_workspace upd diff s (Some 0) = Ok (s_train s, s_test s, s_L s, s_U s).
  Proof.
    unfold sio_workspace. replace ((0 <=? 0) && (0 <=? Z.of_nat (List.length (s_states s)))) with true by lia. reflexivity.
  Qed.

  Lemma workspace_range s k : ~ (0 <= k <= Z.of_nat (List.length (s_states s))) ->
    sio_workspace upd diff s (Some k) = Err AssertErr.
  Proof.
    intro H. unfold sio_workspace. replace ((0 <=? k) && (k <=? Z.of_nat (List.length (s_states s)))) with false by lia.
    reflexivity.
  Qed.

  Lemma dict_poison s d it : (exists pre post, s_states s = pre ++ EDict d :: post /\
      match it with None => True | Some k => Z.of_nat (List.length pre) < k end) ->
    exists e, sio_workspace upd diff s it = Err e.
  Proof.
    intros (pre & post & Hs & Hk). unfold sio_workspace.
    set (k := match it with None => Z.of_nat (List.length (s_states s)) | Some k => k end).
    destruct (_ && _) eqn:B; [|eauto].
    assert (Hk' : (List.length pre < Z.to_nat k)%nat).
    { unfold k. destruct it; [lia|]. rewrite Hs, app_length. cbn. lia. }
    unfold sio_replay. rewrite Hs, firstn_app.
    replace (Z.to_nat k - List.length pre)%nat with (S (Z.to_nat k - List.length pre - 1)) by lia.
    cbn [firstn]. rewrite foldM_app. destruct (foldM _ _ (firstn (Z.to_nat k) pre)); cbn; eauto.
  Qed.

  Lemma incl_len (a b : C) : invU a -> invU b -> incl (els a) (els b) -> (clen a <= clen b)%nat.
  Proof.
    intros Ia Ib H. destruct (clen_els a Ia) as [N1 ->]. destruct (clen_els b Ib) as [N2 ->].
    now apply NoDup_incl_length.
  Qed.

  Lemma conserve L0 U0 L U (D : K -> Prop) : (forall k, D k \/ ~ D k) ->
    (forall x, In x (els L) <-> In x (els L0) \/ D x) -> (forall x, In x (els U) <-> In x (els U0) /\ ~ D x) ->
    (forall x, D x -> In x (els U0)) -> (forall x, In x (els L0) -> ~ In x (els U0)) ->
    (forall x, In x (els L) -> ~ In x (els U)) /\
    (forall x, In x (els L) \/ In x (els U) <-> In x (els L0) \/ In x (els U0)).
  Proof.
    intros Dd HL HU Hq Hd. split.
    - intros x Hx Hy. apply HL in Hx. apply HU in Hy. destruct Hx as [Hx|Hx]; [apply (Hd x); tauto|tauto].
    - intro x. rewrite HL, HU. specialize (Hq x). destruct (Dd x); intuition.
  Qed.

  Lemma den_all_dec es k : den_all es k \/ ~ den_all es k.
  Proof.
    induction es as [|e es [(e' & H1 & H2)|H]].
    - right. intros (e & [] & _).
    - left. exists e'. cbn; auto.
    - destruct (dden (queried e) k).
      + left. exists e. cbn. auto.
      + right. intros (e' & [<-|H1] & H2); [tauto|]. apply H. exists e'. auto.
  Qed.

  (** *** the main loop *)
  Variables (strat : list (list E) -> C -> C -> list E) (perf : list (list E) -> C -> sval E) (clock : nat -> Q).
  Variables (L0 U0 : C) (tr te : list E) (name : crit_name) (v : option Q) (t0 : Q) (c0 : @scrit).
  Hypothesis IL0 : invL L0.
  Hypothesis IU0 : invU U0.
  Hypothesis strat_ok : forall hist L U, invU U -> incl (els U) (els U0) -> els U <> [] ->
    ok (strat hist L U) /\ (exists k, den (strat hist L U) k) /\ (forall k, den (strat hist L U) k -> In k (els U)).
  Hypothesis U0ne : els U0 <> [].
  Hypothesis Hc0 : sc_init name v t0 = Ok c0.
  Hypothesis Vok : crit_ok name v.

  Definition stop_at (s : sio C E) (U : C) (i : nat) : Prop :=
    should_stop name (crit_value (sc_value c0)) (clen U) (clen U0) i 0 (clock i - t0).

  Definition entry_of (hist : list (list E)) (sel : list E) (L' : C) : entry E :=
    EState (state_init (inl sel) (perf hist L') None None).

  Lemma entry_proper hist sel L' : proper (entry_of hist sel L') /\ queried (entry_of hist sel L') = sel /\
    spent (entry_of hist sel L') = 0%Q.
  Proof. cbn. repeat split; eauto. Qed.

  (** Loop invariant: the record replays to the current sets. *)
  Definition inv (hist : list (list E)) (L U : C) (s : sio C E) (c : @scrit) : Prop :=
    s_L s = L0 /\ s_U s = U0 /\ s_train s = tr /\ s_test s = te /\ (s_cost s == 0)%Q /\
    List.length (s_states s) = List.length hist /\ map queried (s_states s) = hist /\
    Forall ok_entry (s_states s) /\ sio_workspace upd diff s None = Ok (tr, te, L, U) /\
    invL L /\ invU U /\ incl (els U) (els U0) /\
    (forall x, den_all (s_states s) x -> In x (els U0)) /\
    (clen U + List.length hist <= clen U0)%nat /\
    sc_name c = sc_name c0 /\ sc_value c = sc_value c0 /\ sc_start c = t0 /\
    (exists b, sc_is_stop c (clock (List.length hist)) = Ok b /\ (b = true <-> stop_at s U (List.length hist))) /\
    (forall i, (i < List.length hist)%nat -> exists Li Ui, sio_workspace upd diff s (Some (Z.of_nat i)) = Ok (tr, te, Li, Ui) /\
       ~ stop_at s Ui i).

  Lemma workspace_snoc s e tr' te' L U L1 U1 w1 w2 s' : proper e ->
    s_states s' = s_states s ++ [e] -> s_L s' = s_L s -> s_U s' = s_U s -> s_train s' = s_train s -> s_test s' = s_test s ->
    sio_workspace upd diff s None = Ok (tr', te', L, U) ->
    upd L (queried e) = (L1, Ok w1) -> diff U (queried e) = (U1, Ok w2) ->
    sio_workspace upd diff s' None = Ok (tr', te', L1, U1).
  Proof.
    intros P H1 H2 H3 H4 H5 W E1 E2. unfold sio_workspace in *.
    destruct (_ && _) eqn:B in W; [|discriminate].
    rewrite H1, app_length. cbn [List.length].
    replace ((0 <=? Z.of_nat (List.length (s_states s) + 1)) && (Z.of_nat (List.length (s_states s) + 1) <=? Z.of_nat (List.length (s_states s) + 1)))
      with true by lia.
    unfold sio_replay in *. rewrite H1, H2, H3, H4, H5, !Nat2Z.id in *.
    rewrite firstn_all2 by (rewrite app_length; cbn; lia). rewrite firstn_all2 in W by lia.
    rewrite foldM_app. destruct (foldM _ _ (s_states s)) as [[La Ua]|]; [|discriminate].
    cbn in W. injection W as <- <- <- <-. cbn [foldM]. unfold replay_one. rewrite (proper_sel e P). cbn [bind fst snd].
    rewrite E2, E1. reflexivity.
  Qed.

  Lemma workspace_older s e i s' : s_states s' = s_states s ++ [e] -> s_L s' = s_L s -> s_U s' = s_U s ->
    s_train s' = s_train s -> s_test s' = s_test s ->
    (i <= List.length (s_states s))%nat ->
    sio_workspace upd diff s' (Some (Z.of_nat i)) = sio_workspace upd diff s (Some (Z.of_nat i)).
  Proof.
    intros H1 H2 H3 H4 H5 Hi. unfold sio_workspace, sio_replay. rewrite H1, H2, H3, H4, H5, app_length.
    replace (Z.of_nat i <=? Z.of_nat (List.length (s_states s) + _)) with true by lia.
    replace (Z.of_nat i <=? Z.of_nat (List.length (s_states s))) with true by lia.
    rewrite firstn_app, Nat2Z.id. replace (i - List.length (s_states s))%nat with 0%nat by lia.
    cbn [firstn]. now rewrite app_nil_r.
  Qed.

  Lemma should_stop_cost n q u u0 i c c' t : (c == c')%Q -> should_stop n q u u0 i c t -> should_stop n q u u0 i c' t.
  Proof.
    intros Hc [H|H]; [now left|right]. destruct n; auto. now rewrite <- Hc.
  Qed.

  (** One round of the loop, for any selection inside the unlabelled set and any recorded performance. *)
  Lemma inv_step hist L U s c sel pv : inv hist L U s c -> ~ stop_at s U (List.length hist) ->
    ok sel -> (exists k, den sel k) -> (forall k, den sel k -> In k (els U)) ->
    exists L1 w1 U1 w2 s' c', upd L sel = (L1, Ok w1) /\ diff U sel = (U1, Ok w2) /\
      sio_add s (EState (state_init (inl sel) pv None None)) = (s', Ok tt) /\
      s_states s' = s_states s ++ [EState (state_init (inl sel) pv None None)] /\
      sc_update upd diff clen c s' = (c', Ok tt) /\ (clen U1 < clen U)%nat /\ inv (hist ++ [sel]) L1 U1 s' c'.
  Proof.
    clear strat_ok strat perf. intros I NSt So (k & Sk) Ss.
    pose proof I as (I1 & I2 & I3 & I4 & I5 & I6 & I7 & I8 & I9 & I10 & I11 & I12 & I13 & I14 & I15 & I16 & I17 & (b0 & I18 & I18') & I19).
    destruct (upd_ok L sel I10 So) as (L1 & w1 & E1 & J1 & S1).
    destruct (diff_ok U sel I11 So) as (U1 & w2 & E2 & J2 & S2).
    set (e := EState (state_init (inl sel) pv None None)).
    assert (P : proper e) by (cbn; eauto). assert (Pq : queried e = sel) by reflexivity. assert (Ps : spent e = 0%Q) by reflexivity.
    destruct (add_proper s e P) as (A0 & A1 & A2 & A3 & A4 & A5 & A6 & A7 & A8).
    destruct (sio_add s e) as [s' r]. cbn [fst snd] in *. subst r.
    assert (Hlt : (clen U1 < clen U)%nat).
    { destruct (clen_els U I11) as [N1 ->]. destruct (clen_els U1 J2) as [N2 ->].
      apply (NoDup_incl_length (l := k :: els U1)).
      - constructor; auto. rewrite S2. tauto.
      - intros x [<-|Hx]; [now apply Ss|]. apply S2 in Hx. tauto. }
    assert (W' : sio_workspace upd diff s' None = Ok (tr, te, L1, U1)).
    { eapply workspace_snoc with (e := e); eauto; rewrite Pq; eauto. }
    assert (W0 : sio_workspace upd diff s' (Some 0) = Ok (tr, te, L0, U0)).
    { unfold sio_workspace. cbn [Z.to_nat]. replace ((0 <=? 0) && (0 <=? Z.of_nat (List.length (s_states s')))) with true by lia.
      unfold sio_replay. cbn. congruence. }
    assert (Hup : snd (sc_update upd diff clen c s') = Ok tt).
    { eapply update_ok; eauto. intros _ X. destruct (clen_els U0 IU0) as [_ Y]. rewrite X in Y.
      destruct (els U0); [congruence|discriminate]. }
    destruct (update_keeps upd diff clen c s') as (K1 & K2 & K3).
    destruct (sc_update upd diff clen c s') as [c' r] eqn:Eu. cbn [fst snd] in *. subst r.
    exists L1, w1, U1, w2, s', c'. do 4 (split; [assumption || reflexivity|]). split; [first [reflexivity|assumption]|]. split; [assumption|].
    assert (Hlen : List.length (hist ++ [sel]) = S (List.length hist)) by (rewrite app_length; cbn; lia).
    assert (V' : crit_ok (sc_name c) (sc_value c)).
    { rewrite I15, I16. destruct (init_facts _ _ _ _ Hc0) as (F1 & F2 & _). rewrite F1, F2.
      destruct name; auto. now destruct v. }
    destruct (stop_after_update upd diff clen c s' c' (clock (List.length (hist ++ [sel]))) tr te L1 U1 L0 U0 W' W0 Eu V')
      as (b & B1 & B2).
    assert (Hl' : List.length (s_states s') = List.length (hist ++ [sel])).
    { rewrite A1, !app_length, I6. reflexivity. }
    assert (Hcost : (s_cost s' == 0)%Q) by (rewrite A2, I5, Ps; reflexivity).
    unfold inv. rewrite A4, A5, A6, A7, K1, K2, K3. repeat (split; [assumption|]).
    split; [rewrite A1, map_app, I7; cbn [map]; now rewrite Pq|].
    split; [rewrite A1; apply Forall_app; split; [assumption|constructor; [split; [exact P|now rewrite Pq]|constructor]]|].
    split; auto. split; auto. split; auto.
    split. { intros x Hx. apply S2 in Hx. apply I12. tauto. }
    split. { rewrite A1. intros x (e' & H1 & H2). apply in_app_iff in H1. destruct H1 as [H1|[<-|[]]].
             - apply I13. exists e'. auto.
             - apply I12. apply Ss. now rewrite Pq in H2. }
    split. { rewrite Hlen. lia. }
    split; auto. split; auto. split; auto. split.
    - exists b. split; [exact B1|]. rewrite B2. unfold stop_at. rewrite <- I16, <- Hl', I17.
      destruct (init_facts _ _ _ _ Hc0) as (F1 & F2 & _). rewrite I15, F1.
      split; apply should_stop_cost; [exact Hcost|now symmetry].
    - intros i Hi. destruct (Nat.eq_dec i (List.length hist)) as [->|Hn].
      + exists L, U. rewrite (workspace_older s e) by (auto; lia). split; [|exact NSt].
        rewrite <- I6. exact I9.
      + destruct (I19 i) as (Li & Ui & H1 & H2); [lia|]. exists Li, Ui. split; auto.
        rewrite (workspace_older s e) by (auto; lia). exact H1.
  Qed.

  Lemma inv_nonempty hist L U s c : inv hist L U s c -> ~ stop_at s U (List.length hist) -> els U <> [].
  Proof.
    clear strat_ok strat perf. intros I N X. apply N. left. destruct I as (_ & _ & _ & _ & _ & _ & _ & _ & _ & _ & IU & _).
    destruct (clen_els U IU) as [_ ->]. now rewrite X.
  Qed.

  Lemma loop_lemma fuel : forall hist L U s c, inv hist L U s c -> (clen U <= fuel)%nat ->
    exists hist' L' U' s' c', al_loop upd diff clen fuel strat perf clock hist L U s c = Done L' U' s' c' /\
      inv hist' L' U' s' c' /\ stop_at s' U' (List.length hist').
  Proof.
    induction fuel as [|fuel IH]; intros hist L U s c I Hf; cbn [al_loop];
      pose proof I as (I1 & I2 & I3 & I4 & I5 & I6 & I7 & I8 & I9 & I10 & I11 & I12 & I13 & I14 & I15 & I16 & I17 & (b & I18 & I18') & I19);
      rewrite I18; destruct b.
    - exists hist, L, U, s, c. repeat (split; auto). now apply I18'.
    - exfalso. enough (false = true) by discriminate. apply I18'. left. lia.
    - exists hist, L, U, s, c. repeat (split; auto). now apply I18'.
    - assert (NSt : ~ stop_at s U (List.length hist)) by (intro X; apply I18' in X; discriminate).
      pose proof (inv_nonempty _ _ _ _ _ I NSt) as Une.
      destruct (strat_ok hist L U I11 I12 Une) as (So & Sk & Ss).
      destruct (inv_step hist L U s c (strat hist L U)
                  (perf hist (fst (upd L (strat hist L U)))) I NSt So Sk Ss)
        as (L1 & w1 & U1 & w2 & s' & c' & E1 & E2 & E3 & _ & E4 & Hlt & I').
      rewrite E1 in E3. cbn [fst] in E3. rewrite E1, E2, E3, E4. apply IH; [exact I'|lia].
  Qed.

  Lemma inv_init : inv [] L0 U0 (sio_new tr te L0 U0) c0.
  Proof.
    clear strat_ok strat perf.
    destruct (init_facts _ _ _ _ Hc0) as (F1 & F2 & F3 & F4 & F5 & F6 & F7).
    unfold inv. cbn [sio_new s_L s_U s_train s_test s_cost s_states List.length map].
    split; auto. split; auto. split; auto. split; auto. split; [reflexivity|]. split; auto. split; auto.
    split; [constructor|]. split; [reflexivity|]. split; auto. split; auto. split; [apply incl_refl|].
    split; [intros x (e & [] & _)|]. split; [lia|]. split; auto. split; auto. split; auto. split.
    - assert (U0n : clen U0 <> 0%nat).
      { destruct (clen_els U0 IU0) as [_ ->]. destruct (els U0); [congruence|discriminate]. }
      unfold sc_is_stop, stop_at, should_stop. rewrite F4. cbn [Nat.eqb]. rewrite F1, F5, F6, F7.
      assert (V' : crit_ok name (sc_value c0)) by (rewrite F2; destruct name; auto; now destruct v).
      unfold crit_ok in V'. destruct name.
      + exists false. split; auto. split; [discriminate|tauto].
      + destruct (sc_value c0) as [q|]; [|contradiction]. eexists; split; [reflexivity|]. rewrite Qle_bool_iff. cbn [crit_value]. tauto.
      + destruct (sc_value c0) as [q|]; [|contradiction]. eexists; split; [reflexivity|]. rewrite Qle_bool_iff. cbn [crit_value]. tauto.
      + destruct (sc_value c0) as [q|]; [|contradiction]. destruct V' as [V0 V1].
        apply Qle_bool_iff in V0 as V0', V1. rewrite V0', V1. cbn [negb orb]. eexists; split; [reflexivity|].
        rewrite Qle_bool_iff. cbn [crit_value]. rewrite Z.sub_diag. split.
        * intro X. right. assert (q == 0)%Q by (apply Qle_antisym; auto). rewrite H. rewrite Qmult_0_l. apply Qle_refl.
        * intros [X|X]; [contradiction|]. apply Qnot_lt_le. intro Y.
          apply (Qlt_irrefl 0). eapply Qlt_le_trans; [|exact X]. rewrite <- (Qmult_0_l (inject_Z (Z.of_nat (clen U0)))).
          apply Qmult_lt_compat_r; auto. change 0%Q with (inject_Z 0). rewrite <- Zlt_Qlt. lia.
      + destruct (sc_value c0) as [q|]; [|contradiction]. eexists; split; [reflexivity|]. rewrite Qle_bool_iff, F3. cbn [crit_value]. tauto.
      + contradiction.
    - cbn. intros i Hi. lia.
  Qed.

  Lemma inv_partition hist L U s c : inv hist L U s c -> (forall x, In x (els L0) -> ~ In x (els U0)) ->
    forall i, (i <= List.length hist)%nat -> exists Li Ui,
      sio_workspace upd diff s (Some (Z.of_nat i)) = Ok (tr, te, Li, Ui) /\
      (forall x, In x (els Li) -> ~ In x (els Ui)) /\
      (forall x, In x (els Li) \/ In x (els Ui) <-> In x (els L0) \/ In x (els U0)) /\
      ((i < List.length hist)%nat -> ~ stop_at s Ui i) /\ (i = List.length hist -> Li = L /\ Ui = U).
  Proof.
    clear strat_ok strat perf.
    intros (I1 & I2 & I3 & I4 & I5 & I6 & I7 & I8 & I9 & I10 & I11 & I12 & I13 & I14 & I15 & I16 & I17 & I18 & I19) Hd i Hi.
    assert (F : Forall ok_entry (firstn (Z.to_nat (Z.of_nat i)) (s_states s))).
    { rewrite <- (firstn_skipn (Z.to_nat (Z.of_nat i)) (s_states s)) in I8. now apply Forall_app in I8. }
    destruct (workspace_ok s (Z.of_nat i)) as (Li & Ui & W & _ & _ & T1 & T2); try (rewrite ?I1, ?I2; auto; lia); auto.
    rewrite I1, I3, I4 in *. rewrite I2 in T2. exists Li, Ui. split; auto.
    assert (X : (forall x, In x (els Li) -> ~ In x (els Ui)) /\
                (forall x, In x (els Li) \/ In x (els Ui) <-> In x (els L0) \/ In x (els U0))).
    { eapply conserve with (D := den_all (firstn (Z.to_nat (Z.of_nat i)) (s_states s))); eauto.
      + intro k. apply den_all_dec.
      + intros x (e & H1 & H2). apply I13. exists e. split; auto.
        rewrite <- (firstn_skipn (Z.to_nat (Z.of_nat i)) (s_states s)). apply in_or_app. now left. }
    destruct X as [X1 X2]. split; auto. split; auto. split.
    - intros Hlt Y. destruct (I19 i Hlt) as (La & Ua & Wa & Na). rewrite W in Wa. injection Wa as <- <-. contradiction.
    - intros ->. rewrite workspace_none, I6, W in I9. injection I9 as -> ->. auto.
  Qed.

  Lemma main_loop_lemma :
    (forall x, In x (els L0) -> ~ In x (els U0)) ->
    exists n L U s c,
      al_loop upd diff clen (clen U0) strat perf clock [] L0 U0 (sio_new tr te L0 U0) c0 = Done L U s c /\
      List.length (s_states s) = n /\ (n <= clen U0)%nat /\
      sio_workspace upd diff s None = Ok (tr, te, L, U) /\
      (forall i, (i <= n)%nat -> exists Li Ui,
         sio_workspace upd diff s (Some (Z.of_nat i)) = Ok (tr, te, Li, Ui) /\
         (should_stop name (crit_value (sc_value c0)) (clen Ui) (clen U0) i 0 (clock i - t0) <-> i = n) /\
         (forall x, In x (els Li) -> ~ In x (els Ui)) /\
         (forall x, In x (els Li) \/ In x (els Ui) <-> In x (els L0) \/ In x (els U0))).
  Proof.
    intro Hd. destruct (loop_lemma (clen U0) [] L0 U0 _ c0 inv_init ltac:(lia)) as (hist & L & U & s & c & R & I & St).
    pose proof I as (I1 & I2 & I3 & I4 & I5 & I6 & I7 & I8 & I9 & I10 & I11 & I12 & I13 & I14 & I15 & I16 & I17 & I18 & I19).
    exists (List.length hist), L, U, s, c. split; auto. split; auto. split; [lia|]. split; auto.
    intros i Hi. destruct (inv_partition _ _ _ _ _ I Hd i Hi) as (Li & Ui & W & X1 & X2 & X3 & X4).
    exists Li, Ui. split; auto. split; auto. split.
    - intro X. destruct (Nat.eq_dec i (List.length hist)) as [|Hn]; auto. exfalso. apply X3; [lia|exact X].
    - intros ->. destruct (X4 eq_refl) as [-> ->]. exact St.
  Qed.
End Coll.
