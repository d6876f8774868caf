(** Configuring an experiment (C82). *)
From Verif Require Import Base BaseFacts StateModel StateProofs ExpConf.
From Coq Require Import String QArith.
Local Open Scope Z_scope.
Local Open Scope string_scope.

(** *** What a user expects *)

(** A keyword argument or its default; the keyword arguments without some. *)
Definition arg (k : string) (d : cval) (kw : kwargs) : cval := match sget k kw with Some v => v | None => d end.
Definition but (ks : list string) (kw : kwargs) : kwargs := fold_left (fun kw k => sdel k kw) ks kw.

(** How a strategy given by name is to be asked for a selection. *)
Definition wanted (s : string) (kw : kwargs) : res ask :=
  let cls args := QClass s args in
  if s =? "QueryInstanceQBC" then
    Ok (AModel (cls [("method", arg "method" (VStr "query_by_bagging") kw);
                     ("disagreement", arg "disagreement" (VStr "vote_entropy") (but ["method"] kw))]))
  else if s =? "QueryInstanceUncertainty" then Ok (AModel (cls [("measure", arg "measure" (VStr "entropy") kw)]))
  else if s =? "QueryExpectedErrorReduction" then Ok (AModel (cls []))
  else if (s =? "QueryInstanceRandom") || (s =? "QueryRandom") then Ok (APlain (QClass "QueryInstanceRandom" []))
  else if s =? "QueryInstanceGraphDensity" then
    match arg "metric" (VStr "manhattan") kw with
    | VNone => Err GenericErr
    | m => Ok (APerFold s [("metric", m)] (but ["metric"] kw))
    end
  else if s =? "QueryInstanceQUIRE" then Ok (APerFold s (but ["metric"] kw) [])
  else if s =? "QueryInstanceBMDR" then
    let kw3 := but ["beta"; "gamma"; "rho"] kw in
    Ok (ASolver (cls ([("beta", arg "beta" (VQ 1000) kw); ("gamma", arg "gamma" (VQ (1#10)) (but ["beta"] kw));
                       ("rho", arg "rho" (VQ 1) (but ["beta"; "gamma"] kw))] ++ kw3)%list)
                (arg "qp_sover" (VStr "ECOS") kw3))
  else if s =? "QueryInstanceSPAL" then
    let kw5 := but ["mu"; "gamma"; "rho"; "lambda_init"; "lambda_pace"] kw in
    Ok (ASolver (cls ([("mu", arg "mu" (VQ (1#10)) kw); ("gamma", arg "gamma" (VQ (1#10)) (but ["mu"] kw));
                       ("rho", arg "rho" (VQ 1) (but ["mu"; "gamma"] kw));
                       ("lambda_init", arg "lambda_init" (VQ (1#10)) (but ["mu"; "gamma"; "rho"] kw));
                       ("lambda_pace", arg "lambda_pace" (VQ (1#100)) (but ["mu"; "gamma"; "rho"; "lambda_init"] kw))] ++ kw5)%list)
                (arg "qp_sover" (VStr "ECOS") kw5))
  else
    let kw4 := but ["mode"; "data_path"; "cls_est"; "train_slt"] kw in
    Ok (APlain (cls ([("mode", arg "mode" (VStr "LAL_iterative") kw); ("data_path", arg "data_path" (VStr ".") (but ["mode"] kw));
                      ("cls_est", arg "cls_est" (VQ 50) (but ["mode"; "data_path"] kw));
                      ("train_slt", arg "train_slt" (VBool true) (but ["mode"; "data_path"; "cls_est"] kw))] ++ kw4)%list)).

(** Calls that do not set the strategy; calls that do not give a callable. *)
Definition no_strategy (k : ccall) : Prop := match k with CStrategy _ _ => False | _ => True end.
Definition no_callable (k : ccall) : Prop := match k with CStrategy (SCall _) _ => False | _ => True end.
(** A split of four lists of one length; a valid metric. *)
Definition good_split (k : ccall) : Prop := match k with CSplit a b l u => a = b /\ b = l /\ l = u | _ => False end.
Definition good_metric (k : ccall) : Prop := match k with CMetric m _ => In m metric_names | _ => False end.

(** *** Lemmas *)
Lemma one_of_iff l s : is_one_of l s = true <-> In s l.
Proof.
  unfold is_one_of. rewrite existsb_exists. split.
  - intros (x & H & E). apply String.eqb_eq in E. now subst.
  - intro H. exists s. split; auto. apply String.eqb_refl.
Qed.

Lemma run_app make c h1 h2 : conf_run make c (h1 ++ h2)%list = conf_run make (conf_run make c h1) h2.
Proof. apply fold_left_app. Qed.

(** What the strategy part of a configuration is. *)
Definition same_strategy (c c' : conf) : Prop :=
  e_custom c' = e_custom c /\ e_need c' = e_need c /\ e_name c' = e_name c /\ e_args c' = e_args c /\ e_obj c' = e_obj c /\
  e_qmetric c' = e_qmetric c /\ e_qkwargs c' = e_qkwargs c /\ e_solver c' = e_solver c.

Lemma keep_strategy make k c : no_strategy k -> same_strategy c (fst (conf_step make c k)).
Proof.
  destruct k; cbn [no_strategy conf_step]; [tauto| |]; intros _.
  - unfold set_metric. destruct (negb _); cbn; repeat split.
  - unfold set_split. destruct (_ && _)%bool; cbn; repeat split.
Qed.

Lemma keep_strategies make h : forall c, Forall no_strategy h -> same_strategy c (conf_run make c h).
Proof.
  induction h as [|k h IH]; intros c F; [repeat split|]. inversion F as [|? ? A B]; subst. cbn.
  pose proof (keep_strategy make k c A) as (A1 & A2 & A3 & A4 & A5 & A6 & A7 & A8).
  destruct (IH (fst (conf_step make c k)) B) as (B1 & B2 & B3 & B4 & B5 & B6 & B7 & B8).
  unfold conf_run in *. unfold same_strategy. repeat split; congruence.
Qed.

Lemma ask_same make c c' : same_strategy c c' -> ask_of make c' = ask_of make c.
Proof.
  intros (A1 & A2 & A3 & A4 & A5 & A6 & A7 & A8). unfold ask_of, per_fold. rewrite A1, A2, A3, A4, A5, A6, A7, A8. reflexivity.
Qed.

Lemma build_custom make c o : e_custom (fst (build make c o)) = e_custom c.
Proof. unfold build. destruct (make o); reflexivity. Qed.

Lemma named_custom make c s kw : e_custom (fst (set_strategy make c (SName s) kw)) = e_custom c.
Proof.
  cbn [set_strategy]. destruct (negb _); auto. cbn zeta.
  repeat match goal with
  | |- context [if ?b then _ else _] => destruct b
  | |- context [match e_split c with _ => _ end] => destruct (e_split c)
  | |- context [let (_, _) := pop ?k ?d ?kw in _] => destruct (pop k d kw)
  | |- context [match build make ?c ?o with _ => _ end] => destruct (build make c o) as [? [|]] eqn:?E
  end; cbn; rewrite ?build_custom; auto;
  match goal with E : build make ?c ?o = (?c2, _) |- _ =>
    pose proof (build_custom make c o) as B; rewrite E in B; cbn in B; exact B end.
Qed.

Lemma no_callable_custom make h : forall c, Forall no_callable h -> e_custom (conf_run make c h) = e_custom c.
Proof.
  induction h as [|k h IH]; intros c F; auto. inversion F as [|? ? A B]; subst. cbn.
  change (e_custom (conf_run make (fst (conf_step make c k)) h) = e_custom c). rewrite IH by auto.
  destruct k as [[s|id] kw|m kw|a b l u]; cbn in *; try tauto.
  - apply named_custom.
  - unfold set_metric. destruct (negb _); reflexivity.
  - unfold set_split. destruct (_ && _)%bool; reflexivity.
Qed.

Lemma pop_eq k d kw : pop k d kw = (arg k d kw, sdel k kw).
Proof. reflexivity. Qed.

Ltac pick s :=
  match goal with |- context [s =? ?n] =>
    let E := fresh "E" in destruct (s =? n) eqn:E; [apply String.eqb_eq in E; subst s|] end.

(** What a successful call leaves. *)
Lemma named_result make c s kw c' : set_strategy make c (SName s) kw = (c', Ok tt) -> e_custom c' = e_custom c /\
  (e_custom c = false -> (forall o, make o = Ok tt) -> ask_of make c' = wanted s kw).
Proof.
  intro H. split; [rewrite <- (named_custom make c s kw), H; reflexivity|]. intros Cu Mk.
  assert (V : is_one_of strategy_names s = true).
  { cbn [set_strategy] in H. destruct (is_one_of strategy_names s); [reflexivity|discriminate]. }
  apply one_of_iff in V. cbn in V.
  repeat (destruct V as [<-|V]; [cbn in H; unfold build in H; rewrite ?Mk in H; try (destruct (e_split c); [|discriminate]);
    injection H as <-; unfold ask_of, per_fold; cbn; rewrite ?Mk, ?Cu; cbn; try reflexivity;
    try (destruct (e_need c); reflexivity); unfold arg; destruct (sget "metric" kw) as [[]|]; cbn; rewrite ?Mk; reflexivity|]).
  destruct V.
Qed.

Lemma strategy_keeps make c s kw : e_split (fst (set_strategy make c s kw)) = e_split c /\
  e_metric (fst (set_strategy make c s kw)) = e_metric c.
Proof.
  destruct s as [s|id].
  - cbn [set_strategy]. destruct (negb _); auto. cbn zeta. unfold build.
    repeat match goal with
    | |- context [match e_split c with _ => _ end] => destruct (e_split c) eqn:?
    | |- context [let (_, _) := pop ?k ?d ?kw in _] => destruct (pop k d kw)
    | |- context [match make ?o with _ => _ end] => destruct (make o)
    | |- context [if ?b then _ else _] => destruct b
    end; cbn; split; congruence.
  - unfold set_strategy, build. destruct (pop _ _ _). destruct (make _); cbn; auto.
Qed.

(** *** Theorems *)

(** The selection is asked of the strategy set last, with the arguments given for it, whatever was configured before. *)
Theorem C82_last_strategy : forall make metric split c h1 s kw c' h2,
  new_conf metric split = Ok c -> (forall o, make o = Ok tt) ->
  Forall no_callable h1 -> set_strategy make (conf_run make c h1) (SName s) kw = (c', Ok tt) -> Forall no_strategy h2 ->
  ask_of make (conf_run make c (h1 ++ CStrategy (SName s) kw :: h2)) = wanted s kw.
Proof.
  intros make metric split c h1 s kw c' h2 Hc Mk F1 H F2. rewrite run_app.
  change (conf_run make (conf_run make c h1) (CStrategy (SName s) kw :: h2))
    with (conf_run make (fst (set_strategy make (conf_run make c h1) (SName s) kw)) h2).
  rewrite H. cbn [fst]. rewrite (ask_same make c' _ (keep_strategies make h2 c' F2)).
  apply (named_result make _ _ _ _ H); auto. rewrite no_callable_custom by auto.
  unfold new_conf in Hc. destruct split as [[[[a b] l] u]|]; [destruct (_ && _)%bool; [|discriminate]|]; injection Hc as <-; reflexivity.
Qed.
Print Assumptions C82_last_strategy.

(** A callable is asked with the keyword arguments it was made with, unless it is named like a strategy made per fold. *)
Theorem C82_callable : forall make c h1 id kw h2, make (QUser id (but ["strategyname"] kw)) = Ok tt ->
  arg "strategyname" VNone kw <> VStr "QueryInstanceGraphDensity" -> arg "strategyname" VNone kw <> VStr "QueryInstanceQUIRE" ->
  Forall no_strategy h2 ->
  snd (set_strategy make (conf_run make c h1) (SCall id) kw) = Ok tt /\
  ask_of make (conf_run make c (h1 ++ CStrategy (SCall id) kw :: h2)) =
    Ok (ACustom (QUser id (but ["strategyname"] kw)) (but ["strategyname"] kw)).
Proof.
  intros make c h1 id kw h2 Mk N1 N2 F2. rewrite run_app.
  change (conf_run make (conf_run make c h1) (CStrategy (SCall id) kw :: h2))
    with (conf_run make (fst (set_strategy make (conf_run make c h1) (SCall id) kw)) h2).
  rewrite (ask_same make _ _ (keep_strategies make h2 _ F2)). set (c1 := conf_run make c h1).
  unfold set_strategy. rewrite pop_eq. unfold build. change (sdel "strategyname" kw) with (but ["strategyname"] kw). rewrite Mk.
  cbn [fst snd]. split; auto. unfold ask_of, per_fold. cbn.
  set (nm := match arg "strategyname" VNone kw with VStr s => s | VNone => "user-defined strategy" | _ => "?" end).
  assert (X1 : (nm =? "QueryInstanceGraphDensity") = false).
  { apply String.eqb_neq. unfold nm. destruct (arg "strategyname" VNone kw); congruence. }
  assert (X2 : (nm =? "QueryInstanceQUIRE") = false).
  { apply String.eqb_neq. unfold nm. destruct (arg "strategyname" VNone kw); congruence. }
  rewrite X1, X2. destruct (e_need c1); reflexivity.
Qed.
Print Assumptions C82_callable.

(** Setting a strategy again is never refused, although the code has an exception for it. *)
Theorem C82_again_refuted : forall make c h s kw, (forall o, make o = Ok tt) ->
  In s strategy_names -> e_split (conf_run make c h) <> None ->
  snd (set_strategy make (conf_run make c h) (SName s) kw) = Ok tt.
Proof.
  intros make c h s kw Mk V Sp. set (c1 := conf_run make c h) in *. cbn in V.
  do 10 (destruct V as [<-|V]; [cbn; unfold build; rewrite ?Mk; try reflexivity; (destruct (e_split c1); [reflexivity|congruence])|]).
  destruct V.
Qed.
Print Assumptions C82_again_refuted.

(** After a callable, a strategy given by name is asked with the callable's arguments and without the model; one that is made per
    fold is not asked at all: the callable stays in use. *)
Theorem C82_after_callable_refuted : forall make c id kw s kw2 h, (forall o, make o = Ok tt) -> In s strategy_names ->
  e_split c <> None -> arg "metric" (VStr "manhattan") kw2 <> VNone -> Forall no_strategy h ->
  ask_of make (conf_run make c (CStrategy (SCall id) kw :: CStrategy (SName s) kw2 :: h)) =
    Ok (ACustom (match wanted s kw2 with
                 | Ok (AModel o) | Ok (ASolver o _) | Ok (APlain o) => o
                 | _ => QUser id (but ["strategyname"] kw)
                 end) (but ["strategyname"] kw)).
Proof.
  intros make c id kw s kw2 h Mk V Sp Nm F.
  change (conf_run make c (CStrategy (SCall id) kw :: CStrategy (SName s) kw2 :: h))
    with (conf_run make (fst (set_strategy make (fst (set_strategy make c (SCall id) kw)) (SName s) kw2)) h).
  rewrite (ask_same make _ _ (keep_strategies make h _ F)).
  assert (E : fst (set_strategy make c (SCall id) kw) =
    {| e_custom := true; e_split := e_split c; e_metric := e_metric c; e_need := e_need c;
       e_name := e_name (fst (set_strategy make c (SCall id) kw));
       e_args := but ["strategyname"] kw; e_obj := Some (QUser id (but ["strategyname"] kw)); e_qmetric := e_qmetric c;
       e_qkwargs := e_qkwargs c; e_solver := e_solver c |}).
  { unfold set_strategy. rewrite pop_eq. unfold build. rewrite Mk. reflexivity. }
  rewrite E. set (nm := e_name (fst _)). clearbody nm. clear E. cbn in V. unfold arg in Nm.
  destruct (e_split c) as [n|] eqn:Es; [|congruence].
  repeat (destruct V as [<-|V]; [cbn; unfold build; rewrite ?Mk; unfold ask_of, per_fold; cbn;
     try (destruct (e_need c); reflexivity); unfold arg; cbn; destruct (sget "metric" kw2) as [[]|]; cbn; rewrite ?Mk; try reflexivity; congruence|]).
  destruct V.
Qed.
Print Assumptions C82_after_callable_refuted.

(** A graph-density or QUIRE strategy before the split is refused with AttributeError; the refused call still replaces the
    strategy: after the split the experiment is accepted but its first query fails. *)
Theorem C82_refused_call_refuted : forall make metric c s0 kw0 c0 s kw n m h, (forall o, make o = Ok tt) ->
  new_conf metric None = Ok c -> set_strategy make c (SName s0) kw0 = (c0, Ok tt) ->
  s = "QueryInstanceGraphDensity" \/ s = "QueryInstanceQUIRE" -> In m metric_names ->
  let before := [CStrategy (SName s0) kw0] in
  let rest := CSplit n n n n :: CMetric m [] :: h in
  Forall no_strategy h ->
  snd (set_strategy make c0 (SName s) kw) = Err AttrErr /\
  ask_of make (conf_run make c (before ++ rest)) = wanted s0 kw0 /\
  ready (conf_run make c (before ++ CStrategy (SName s) kw :: rest)) = Ok tt /\
  ask_of make (conf_run make c (before ++ CStrategy (SName s) kw :: rest)) = Err NameErr.
Proof.
  intros make metric c s0 kw0 c0 s kw n m h Mk Hc H0 Hs Hm before rest F.
  assert (Sc : e_split c0 = None /\ e_need c0 = false /\ e_custom c0 = false).
  { injection Hc as <-. assert (V : is_one_of strategy_names s0 = true).
    { cbn [set_strategy] in H0. destruct (is_one_of strategy_names s0); [reflexivity|discriminate]. }
    apply one_of_iff in V. cbn in V.
    repeat (destruct V as [<-|V]; [cbn in H0; unfold build in H0; rewrite ?Mk in H0; try discriminate; injection H0 as <-; auto|]).
    destruct V. }
  destruct Sc as (Sp & Ne & Cu).
  assert (F' : Forall no_strategy rest) by (repeat constructor; auto).
  assert (R : set_strategy make c0 (SName s) kw = (with_name c0 s, Err AttrErr)).
  { destruct Hs as [->| ->]; cbn; rewrite Sp; reflexivity. }
  assert (St : conf_run make c before = c0).
  { change (fst (set_strategy make c (SName s0) kw0) = c0). now rewrite H0. }
  split; [now rewrite R|]. split; [|rewrite run_app, St; split].
  - change (before ++ rest)%list with ([] ++ CStrategy (SName s0) kw0 :: rest)%list.
    eapply C82_last_strategy with (c' := c0); eauto; constructor.
  - change (conf_run make c0 (CStrategy (SName s) kw :: rest)) with (conf_run make (fst (set_strategy make c0 (SName s) kw)) rest).
    rewrite R. cbn [fst]. unfold rest.
    assert (G : forall h c, e_split c <> None -> e_metric c <> None -> Forall no_strategy h -> ready (conf_run make c h) = Ok tt).
    { clear. induction h as [|k h IH]; intros c A B F; cbn.
      - unfold ready. destruct (e_split c); [|congruence]. destruct (e_metric c); congruence.
      - inversion F as [|? ? F1 F2]; subst. change (ready (conf_run make (fst (conf_step make c k)) h) = Ok tt). apply IH; auto.
        + destruct k; cbn in *; [tauto| |]; [unfold set_metric|unfold set_split]; destruct (_ : bool); cbn; auto; discriminate.
        + destruct k; cbn in *; [tauto| |]; [unfold set_metric|unfold set_split]; destruct (_ : bool); cbn; auto; discriminate. }
    change (ready (conf_run make (fst (set_metric (fst (set_split (with_name c0 s) n n n n)) m [])) h) = Ok tt).
    unfold set_split. rewrite Nat.eqb_refl. cbn [andb fst]. unfold set_metric. rewrite (proj2 (one_of_iff _ _) Hm). cbn [negb fst].
    apply G; auto; discriminate.
  - change (conf_run make c0 (CStrategy (SName s) kw :: rest)) with (conf_run make (fst (set_strategy make c0 (SName s) kw)) rest).
    rewrite R. cbn [fst]. rewrite (ask_same make _ _ (keep_strategies make rest _ F')). unfold ask_of, per_fold.
    destruct Hs as [->| ->]; cbn; rewrite Ne, Cu; reflexivity.
Qed.
Print Assumptions C82_refused_call_refuted.

(** The solver of BMDR and SPAL cannot be chosen with the keyword [qp_solver]. *)
Theorem C82_solver_refuted : forall make metric split c h1 s kw c' h2,
  new_conf metric split = Ok c -> (forall o, make o = Ok tt) -> s = "QueryInstanceBMDR" \/ s = "QueryInstanceSPAL" ->
  sget "qp_sover" kw = None ->
  Forall no_callable h1 -> set_strategy make (conf_run make c h1) (SName s) kw = (c', Ok tt) -> Forall no_strategy h2 ->
  exists o, ask_of make (conf_run make c (h1 ++ CStrategy (SName s) kw :: h2)) = Ok (ASolver o (VStr "ECOS")).
Proof.
  intros make metric split c h1 s kw c' h2 Hc Mk Hs Q F1 H F2.
  rewrite (C82_last_strategy make metric split c h1 s kw c' h2 Hc Mk F1 H F2).
  assert (G : forall (ks : list string) (kw : kwargs), sget "qp_sover" kw = None -> sget "qp_sover" (but ks kw) = None).
  { assert (D : forall k (kw : kwargs), sget "qp_sover" kw = None -> sget "qp_sover" (sdel k kw) = None).
    { clear. intros k kw0. induction kw0 as [|[k' x] d IH]; [auto|]. cbn [sget sdel].
      destruct (String.eqb "qp_sover" k') eqn:E1; [discriminate|]. intro H. destruct (String.eqb k k'); cbn [sget]; auto. rewrite E1. auto. }
    unfold but. induction ks as [|k ks IH]; intros kw1 X; [exact X|]. cbn [fold_left]. apply IH, D, X. }
  destruct Hs as [->| ->]; unfold wanted; cbn -[but]; eexists; f_equal; f_equal; unfold arg; now rewrite G.
Qed.
Print Assumptions C82_solver_refuted.

(** [start_query] is accepted exactly when a split and a metric were set; the metric given to the constructor does not count. *)
Lemma ready_iff make h : forall c, ready (conf_run make c h) = Ok tt <->
  (e_split c <> None \/ exists k, In k h /\ good_split k) /\ (e_metric c <> None \/ exists k, In k h /\ good_metric k).
Proof.
  induction h as [|k h IH]; intro c.
  - cbn. unfold ready. destruct (e_split c), (e_metric c); split; try discriminate; intuition (try discriminate; try congruence);
      repeat match goal with H : exists _, _ /\ _ |- _ => destruct H as (? & [] & _) end.
  - change (conf_run make c (k :: h)) with (conf_run make (fst (conf_step make c k)) h). rewrite IH.
    assert (S : e_split (fst (conf_step make c k)) <> None <-> e_split c <> None \/ good_split k).
    { destruct k as [s kw|m kw|a b l u]; cbn [conf_step good_split].
      - destruct (strategy_keeps make c s kw) as [-> _]. tauto.
      - unfold set_metric. destruct (negb _); cbn; tauto.
      - unfold set_split. destruct (Nat.eqb_spec a b), (Nat.eqb_spec b l), (Nat.eqb_spec l u); cbn; subst; try tauto;
          split; intuition (try congruence). }
    assert (M : e_metric (fst (conf_step make c k)) <> None <-> e_metric c <> None \/ good_metric k).
    { destruct k as [s kw|m kw|a b l u]; cbn [conf_step good_metric].
      - destruct (strategy_keeps make c s kw) as [_ ->]. tauto.
      - unfold set_metric. pose proof (one_of_iff metric_names m) as X. destruct (is_one_of metric_names m); cbn [negb fst e_metric].
        + intuition congruence.
        + intuition congruence.
      - unfold set_split. destruct (_ && _)%bool; cbn; tauto. }
    rewrite S, M. cbn [In]. split; intros [A B]; split.
    + destruct A as [[A|A]|(k' & A & A')]; eauto.
    + destruct B as [[B|B]|(k' & B & B')]; eauto.
    + destruct A as [A|(k' & [<-|A] & A')]; eauto.
    + destruct B as [B|(k' & [<-|B] & B')]; eauto.
Qed.

Theorem C82_ready : forall make metric split c h, new_conf metric split = Ok c ->
  (ready (conf_run make c h) = Ok tt <-> (split <> None \/ exists k, In k h /\ good_split k) /\ exists k, In k h /\ good_metric k) /\
  (ready (conf_run make c h) = Ok tt \/ ready (conf_run make c h) = Err GenericErr).
Proof.
  intros make metric split c h Hc. split.
  - rewrite ready_iff. assert (E : e_metric c = None /\ (e_split c <> None <-> split <> None)).
    { unfold new_conf in Hc. destruct split as [[[[a b] l] u]|]; [destruct (_ && _)%bool; [|discriminate]|]; injection Hc as <-; cbn;
        split; auto; intuition discriminate. }
    destruct E as [-> ->]. intuition congruence.
  - unfold ready. destruct (e_split (conf_run make c h)), (e_metric (conf_run make c h)); auto.
Qed.
Print Assumptions C82_ready.

(** So an experiment for which only the constructor was given a metric does not start. *)
Theorem C82_constructor_metric_refuted : forall make metric split c h, new_conf metric split = Ok c ->
  (forall k, In k h -> match k with CMetric _ _ => False | _ => True end) ->
  ready (conf_run make c h) = Err GenericErr.
Proof.
  intros make metric split c h Hc H. destruct (C82_ready make metric split c h Hc) as [[A _] [B|B]]; auto.
  exfalso. destruct (A B) as [_ (k & Hk & G)]. specialize (H k Hk). destruct k; contradiction.
Qed.
Print Assumptions C82_constructor_metric_refuted.

(** The metric used is the last valid one. *)
Theorem C82_last_metric : forall make c h1 m kw h2, In m metric_names ->
  (forall k, In k h2 -> match k with CMetric m' _ => ~ In m' metric_names | _ => True end) ->
  e_metric (conf_run make c (h1 ++ CMetric m kw :: h2)) = Some m.
Proof.
  intros make c h1 m kw h2 Hm H2. rewrite run_app. set (c1 := conf_run make c h1).
  change (conf_run make c1 (CMetric m kw :: h2)) with (conf_run make (fst (set_metric c1 m kw)) h2).
  unfold set_metric. rewrite (proj2 (one_of_iff _ _) Hm). cbn [negb fst].
  match goal with |- e_metric (conf_run make ?d h2) = _ => assert (E : e_metric d = Some m) by reflexivity; revert E; generalize d end.
  induction h2 as [|k h2 IH]; intros d E; [exact E|].
  change (e_metric (conf_run make (fst (conf_step make d k)) h2) = Some m). apply IH; [intros k' Hk'; apply H2; now right|].
  specialize (H2 k (or_introl eq_refl)). destruct k as [s kw'|m' kw'|a b l u]; cbn [conf_step].
  - destruct (strategy_keeps make d s kw') as [_ ->]. exact E.
  - unfold set_metric. pose proof (one_of_iff metric_names m') as X. destruct (is_one_of metric_names m'); cbn [negb fst]; auto.
    exfalso. apply H2. now apply X.
  - unfold set_split. destruct (_ && _)%bool; exact E.
Qed.
Print Assumptions C82_last_metric.

(** Unknown names and splits of different lengths are refused and change nothing. *)
Theorem C82_refused : forall make c s kw m a b l u,
  (~ In s strategy_names -> set_strategy make c (SName s) kw = (c, Err NotImplErr)) /\
  (~ In m metric_names -> set_metric c m kw = (c, Err NotImplErr)) /\
  (~ (a = b /\ b = l /\ l = u) -> set_split c a b l u = (c, Err ValueErr)) /\
  (a = b /\ b = l /\ l = u -> snd (set_split c a b l u) = Ok tt /\ e_split (fst (set_split c a b l u)) = Some a).
Proof.
  intros make c s kw m a b l u. split; [|split; [|split]]; intros H.
  - cbn [set_strategy]. destruct (is_one_of strategy_names s) eqn:E; auto. apply one_of_iff in E. contradiction.
  - unfold set_metric. destruct (is_one_of metric_names m) eqn:E; auto. apply one_of_iff in E. contradiction.
  - unfold set_split. destruct (Nat.eqb_spec a b), (Nat.eqb_spec b l), (Nat.eqb_spec l u); cbn; auto. exfalso. auto.
  - destruct H as (-> & -> & ->). unfold set_split. rewrite Nat.eqb_refl. auto.
Qed.
Print Assumptions C82_refused.

(** The metrics that are accepted, and the splits accepted by the constructor. *)
Theorem C82_accepted : forall c kw m metric,
  (snd (set_metric c m kw) = Ok tt <->
   In m ["accuracy_score"; "roc_auc_score"; "get_fps_tps_thresholds"; "hamming_loss"; "one_error"; "coverage_error";
         "label_ranking_loss"; "label_ranking_average_precision_score"; "zero_one_loss"]) /\
  (forall a b l u, (exists c, new_conf metric (Some (a, b, l, u)) = Ok c /\ e_split c = Some a) <-> a = b /\ b = l /\ l = u) /\
  (exists c, new_conf metric None = Ok c /\ e_split c = None).
Proof.
  intros c kw m metric. split; [|split].
  - unfold set_metric. change (In m _) with (In m metric_names). rewrite <- (one_of_iff metric_names m).
    destruct (is_one_of metric_names m); cbn; split; auto; discriminate.
  - intros a b l u. unfold new_conf. destruct (Nat.eqb_spec a b), (Nat.eqb_spec b l), (Nat.eqb_spec l u); cbn [andb];
      (split; [intros (c' & E & _); try discriminate; auto|intros (-> & -> & ->); try congruence]). eexists. split; reflexivity.
  - eexists. split; reflexivity.
Qed.
Print Assumptions C82_accepted.

Example C82_example : exists c, let make _ := Ok tt in
  new_conf "accuracy_score" (Some (10, 10, 10, 10)%nat) = Ok c /\
  ask_of make (conf_run make c [CStrategy (SName "QueryInstanceGraphDensity") []; CMetric "roc_auc_score" [];
                                CStrategy (SName "QueryInstanceUncertainty") [("measure", VStr "margin")]]) =
    Ok (AModel (QClass "QueryInstanceUncertainty" [("measure", VStr "margin")])) /\
  ask_of make (conf_run make c [CStrategy (SCall 7) [("p", VQ 1)]; CStrategy (SName "QueryInstanceQUIRE") []]) =
    Ok (ACustom (QUser 7 [("p", VQ 1)]) [("p", VQ 1)]).
Proof. eexists. cbn zeta. split; [reflexivity|]. split; reflexivity. Qed.
