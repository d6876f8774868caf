(** C107: the main loop that acquires feature values. *)
From Verif Require Import Base BaseFacts SetFacts IndexModel MLModel MLSpec MLProofs MLProofs2 MLProofs3 MLProps MiscModel QueryModel QuerySpec MLQuerySpec
  FeatureModel FeatureSpec FeatureProofs FeatureProofs3 FeatureProps StateModel StateSpec SelfModel
  FeatureLoopModel FeatureLoopSpec FeatureLoopProofs FeatureLoopProofs2 FeatureLoopProofs3 FeatureLoopProofs4.
From Coq Require Import String QArith.
Local Open Scope Z_scope.

Lemma loop_rounds {T} train native strat complete score X tr te L U c (t : T) clock k :
  let r := feature_rounds train native strat complete score X clock k 0
             {| lab := L; unl := U; sav := sio_new tr te L U; crit := c; own := t; fits := [] |} in
  let s := fst (feature_loop train native strat complete score X tr te L U c t clock k) in
  snd (feature_loop train native strat complete score X tr te L U c t clock k) = snd r /\
  lab s = lab (fst r) /\ unl s = unl (fst r) /\ sav s = sav (fst r) /\ own s = own (fst r) /\ fits s = fits (fst r).
Proof. unfold feature_loop. destruct (feature_rounds _ _ _ _ _ _ _ _ _ _) as [s [| |e]]; cbn; repeat split. Qed.

(** Unpack a loop: its state is that of the rounds, which satisfy the invariant. *)
Lemma loop_facts {T} train native (strat : fmat -> T -> mlic -> mlic -> T * res ml_choice) complete score X n f (J : T -> Prop) tr te L U c t clock k s o :
  setting n f X train L U -> lawful strat X train f J -> J t ->
  feature_loop train native strat complete score X tr te L U c t clock k = (s, o) ->
  exists s1, feature_rounds train native strat complete score X clock k 0
      {| lab := L; unl := U; sav := sio_new tr te L U; crit := c; own := t; fits := [] |} = (s1, o) /\
    lab s = lab s1 /\ unl s = unl s1 /\ sav s = sav s1 /\ fits s = fits s1 /\
    inv train f J tr te L U {| lab := L; unl := U; sav := sio_new tr te L U; crit := c; own := t; fits := [] |} /\
    match o with Failed _ => hurt train f tr te L s1 | _ => inv train f J tr te L U s1 end.
Proof.
  intros (HX & Ht & Nt & P) Law Jt H.
  pose proof (loop_rounds train native strat complete score X tr te L U c t clock k) as LR. cbn zeta in LR. rewrite H in LR. cbn [fst snd] in LR.
  pose proof (inv_start train complete score X f J tr te L U P c t Jt) as I0.
  pose proof (rounds_inv train native strat complete score X n f J HX Ht Nt Law tr te L U P clock k 0 _ I0) as RI.
  destruct (feature_rounds _ _ _ _ _ _ _ _ _ _) as [s1 o1]. cbn [fst snd] in LR. destruct LR as (-> & E1 & E2 & E3 & _ & E5).
  exists s1. split; [reflexivity|]. repeat (split; [assumption|]). destruct o1; exact RI.
Qed.

(** However the loop is left, the known and the unknown entries are a division of the entries of the training set, and no
    known entry was lost. *)
Theorem C107_pool : forall T train native (strat : fmat -> T -> mlic -> mlic -> T * res ml_choice) complete score X n f J tr te L U c t clock k s o,
  setting n f X train L U -> lawful strat X train f J -> J t ->
  feature_loop train native strat complete score X tr te L U c t clock k = (s, o) ->
  parts train f (lab s) (unl s) /\ forall p, In p (pairs L) -> In p (pairs (lab s)).
Proof.
  intros T train native strat complete score X n f J tr te L U c t clock k s o HS Law Jt H.
  destruct (loop_facts _ _ _ _ _ _ _ _ _ _ _ _ _ _ _ _ _ _ _ HS Law Jt H) as (s1 & _ & -> & -> & _ & _ & _ & I).
  destruct o; [split; apply I|split; apply I|]. destruct I as (I1 & I2 & _). auto.
Qed.
Print Assumptions C107_pool.

(** The [i]-th classifier was trained on the completion of the training rows in which exactly the entries known after
    the first [i + 1] rounds are marked as observed. *)
Theorem C107_training : forall T train native (strat : fmat -> T -> mlic -> mlic -> T * res ml_choice) complete score X n f J tr te L U c t clock k s o i M,
  setting n f X train L U -> lawful strat X train f J -> J t ->
  feature_loop train native strat complete score X tr te L U c t clock k = (s, o) -> nth_error (fits s) i = Some M ->
  made_from complete X train (lab (fst (feature_loop train native strat complete score X tr te L U c t clock (S i)))) M.
Proof.
  intros T train native strat complete score X n f J tr te L U c t clock k s o i M HS Law Jt H HM.
  destruct (loop_facts _ _ _ _ _ _ _ _ _ _ _ _ _ _ _ _ _ _ _ HS Law Jt H) as (s1 & R & _ & _ & _ & EF & I0 & _).
  destruct (loop_rounds train native strat complete score X tr te L U c t clock (S i)) as (_ & -> & _).
  destruct HS as (HX & Ht & Nt & P).
  pose proof (rounds_fits train native strat complete score X n f J HX Ht Nt Law tr te L U P clock k 0 _ i M I0) as RF.
  cbn [fits List.length] in RF. rewrite Nat.sub_0_r in RF. apply RF; [lia|]. rewrite R. cbn [fst]. now rewrite <- EF.
Qed.
Print Assumptions C107_training.

(** With a limit on the number of queries the loop stops after exactly that many rounds, one classifier and one record each,
    even if all entries are known long before. *)
Theorem C107_rounds : forall T train native (strat : fmat -> T -> mlic -> mlic -> T * res ml_choice) complete score X n f J tr te L U c t clock k s o m t0,
  setting n f X train L U -> lawful strat X train f J -> J t -> pairs U <> [] -> sc_init NNum (Some (inject_Z (Z.of_nat m))) t0 = Ok c ->
  feature_loop train native strat complete score X tr te L U c t clock k = (s, o) ->
  match o with
  | Done => List.length (fits s) = m /\ List.length (s_states (sav s)) = m
  | Running => (k < m)%nat /\ List.length (fits s) = k
  | Failed _ => (List.length (s_states (sav s)) <= m)%nat
  end.
Proof.
  intros T train native strat complete score X n f J tr te L U c t clock k s o m t0 HS Law Jt NU HC H.
  destruct (loop_facts _ _ _ _ _ _ _ _ _ _ _ _ _ _ _ _ _ _ _ HS Law Jt H) as (s1 & R & _ & _ & EV & EF & I0 & I1).
  rewrite EV, EF. destruct HS as (HX & Ht & Nt & P). cbn in HC. injection HC as <-.
  pose proof (rounds_num train native strat complete score X n f J HX Ht Nt Law tr te L U P clock m k NU 0 _ I0) as RN.
  cbn [crit sc_name sc_value sc_iter sc_unlabel fits List.length] in RN. rewrite R in RN.
  assert (IO : int_of (inject_Z (Z.of_nat m)) = inject_Z (Z.of_nat m)) by (unfold int_of, inject_Z; cbn [Qnum Qden]; now rewrite Z.quot_1_r).
  cbn [crit] in RN. rewrite IO in RN. specialize (RN eq_refl eq_refl eq_refl ltac:(discriminate) ltac:(lia)).
  destruct o as [| |e]; [lia| |exact RN]. split; [exact RN|]. destruct I1 as (_ & _ & _ & _ & _ & _ & _ & E & _). lia.
Qed.
Print Assumptions C107_rounds.

(** A round makes at most one more entry known, so in [k] rounds at most [k]; exactly one while there are unknown entries if the
    strategy asks for unknown entries only. *)
Lemma rounds_count {T} train native (strat : fmat -> T -> mlic -> mlic -> T * res ml_choice) complete score X n f J tr te L U clock :
  setting n f X train L U -> lawful strat X train f J -> forall k j s, inv train f J tr te L U s ->
  match feature_rounds train native strat complete score X clock k j s with
  | (s1, Failed _) => (List.length (fits s) <= List.length (s_states (sav s1)))%nat /\
      (List.length (pairs (lab s1)) <= List.length (pairs (lab s)) + S (List.length (s_states (sav s1)) - List.length (fits s)))%nat
  | (s1, _) => (List.length (fits s) <= List.length (fits s1))%nat /\
      (List.length (pairs (lab s1)) <= List.length (pairs (lab s)) + (List.length (fits s1) - List.length (fits s)))%nat /\
      (asks_unknown strat X train f J -> List.length (pairs (lab s1)) =
         (List.length (pairs (lab s)) + Nat.min (List.length (fits s1) - List.length (fits s)) (List.length (pairs (unl s))))%nat)
  end.
Proof.
  intros (HX & Ht & Nt & P) Law. induction k as [|k IH]; intros j s I; cbn [feature_rounds];
    pose proof (proj1 (proj2 (proj2 (proj2 (proj2 (proj2 (proj2 (proj2 I)))))))) as EF; destruct (sc_is_stop (crit s) (clock j)) as [[|]|e];
    rewrite ?Nat.sub_diag; cbn [Nat.min]; try (split; [lia|split; [lia|intros _; lia]]); try lia.
  pose proof (turn_inv train native strat complete score X n f J HX Ht Nt Law tr te L U P s I) as I1.
  pose proof (turn_fits train native strat complete score X n f J HX Ht Nt Law tr te L U P s I) as TF.
  destruct (turn_count train native strat complete score X n f J HX Ht Nt Law tr te L U P s I) as [T1 T2].
  pose proof (split_count' train f J tr te L U P s I) as C0.
  destruct (feature_turn train native strat complete score X s) as [s1 [[]|e]]; cbn [fst snd] in *; [|lia].
  pose proof (split_count' train f J tr te L U P s1 I1) as C1.
  specialize (IH (S j) s1 I1). destruct (feature_rounds _ _ _ _ _ _ _ _ _ _) as [s2 [| |e]]; [| |lia].
  all: destruct IH as (A & B & D); split; [lia|]; split; [lia|]; intro AU; specialize (D AU); specialize (T2 AU eq_refl); lia.
Qed.
Theorem C107_acquired : forall T train native (strat : fmat -> T -> mlic -> mlic -> T * res ml_choice) complete score X n f J tr te L U c t clock k s o,
  setting n f X train L U -> lawful strat X train f J -> J t ->
  feature_loop train native strat complete score X tr te L U c t clock k = (s, o) ->
  match o with
  | Failed _ => (List.length (pairs (lab s)) <= List.length (pairs L) + S (List.length (s_states (sav s))))%nat
  | _ => (List.length (pairs (lab s)) <= List.length (pairs L) + List.length (fits s))%nat /\
         (asks_unknown strat X train f J ->
          List.length (pairs (lab s)) = (List.length (pairs L) + Nat.min (List.length (fits s)) (List.length (pairs U)))%nat)
  end.
Proof.
  intros T train native strat complete score X n f J tr te L U c t clock k s o HS Law Jt H.
  destruct (loop_facts _ _ _ _ _ _ _ _ _ _ _ _ _ _ _ _ _ _ _ HS Law Jt H) as (s1 & R & -> & _ & -> & -> & I0 & _).
  pose proof (rounds_count train native strat complete score X n f J tr te L U clock HS Law k 0 _ I0) as RC. rewrite R in RC.
  cbn [fits lab unl List.length] in RC. destruct o as [| |e]; [| |lia].
  all: rewrite Nat.sub_0_r in RC; tauto.
Qed.
Print Assumptions C107_acquired.

(** While there are unknown entries, the record rebuilds the two collections. *)
Theorem C107_record : forall T train native (strat : fmat -> T -> mlic -> mlic -> T * res ml_choice) complete score X n f J tr te L U c t clock k s o,
  setting n f X train L U -> lawful strat X train f J -> J t ->
  feature_loop train native strat complete score X tr te L U c t clock k = (s, o) -> (forall e, o <> Failed e) -> pairs (unl s) <> [] ->
  exists L' U', rebuilt (sav s) = Ok (tr, te, L', U') /\ same_entries L' (lab s) /\ same_entries U' (unl s).
Proof.
  intros T train native strat complete score X n f J tr te L U c t clock k s o HS Law Jt H NF NU.
  destruct (loop_facts _ _ _ _ _ _ _ _ _ _ _ _ _ _ _ _ _ _ _ HS Law Jt H) as (s1 & R & EL & EU & EV & _ & I0 & I1). rewrite EL, EU, EV in *.
  assert (I : inv train f J tr te L U s1) by (destruct o as [| |e]; auto; now destruct (NF e)).
  destruct (left_count train complete score X f J tr te L U s1 I) as (L' & U' & W & _ & C & _). exists L', U'. split; [exact W|]. split; apply C; assumption.
Qed.
Print Assumptions C107_record.

(** "The record rebuilds the two collections": not once all entries are known. The last entry is recorded as an empty
    selection, so that the record still counts it as unknown. *)
Theorem C107_record_refuted : forall T train native (strat : fmat -> T -> mlic -> mlic -> T * res ml_choice) complete score X n f J tr te L U c t clock k s o,
  setting n f X train L U -> lawful strat X train f J -> J t -> pairs U <> [] ->
  feature_loop train native strat complete score X tr te L U c t clock k = (s, o) -> (forall e, o <> Failed e) -> pairs (unl s) = [] ->
  exists L' U' p, rebuilt (sav s) = Ok (tr, te, L', U') /\ pairs U' = [p] /\ ~ In p (pairs L') /\ In p (pairs (lab s)).
Proof.
  intros T train native strat complete score X n f J tr te L U c t clock k s o HS Law Jt NU H NF EU0.
  destruct (loop_facts _ _ _ _ _ _ _ _ _ _ _ _ _ _ _ _ _ _ _ HS Law Jt H) as (s1 & R & EL & EU & EV & _ & I0 & I1). rewrite EL, EU, EV in *.
  assert (I : inv train f J tr te L U s1) by (destruct o as [| |e]; auto; now destruct (NF e)).
  destruct (left_count train complete score X f J tr te L U s1 I) as (L' & U' & W & Pr & _ & C1 & C2). specialize (C1 NU). specialize (C2 EU0).
  destruct (pairs U') as [|p [|]] eqn:EP; cbn [List.length] in *; try lia. exists L', U', p. split; [exact W|]. split; [exact EP|].
  destruct Pr as (_ & _ & D & G). split; [intro K; apply (D p K); rewrite EP; now left|].
  assert (E : entries train f p) by (apply G; right; rewrite EP; now left).
  destruct I as ((_ & _ & _ & G1) & _). apply G1 in E. rewrite EU0 in E. destruct E as [E|[]]. exact E.
Qed.
Print Assumptions C107_record_refuted.

(** However the loop is left, the record is at most one entry behind. *)
Theorem C107_behind : forall T train native (strat : fmat -> T -> mlic -> mlic -> T * res ml_choice) complete score X n f J tr te L U c t clock k s o,
  setting n f X train L U -> lawful strat X train f J -> J t ->
  feature_loop train native strat complete score X tr te L U c t clock k = (s, o) ->
  exists L' U' missed, rebuilt (sav s) = Ok (tr, te, L', U') /\ (List.length missed <= 1)%nat /\
    (forall p, In p (pairs U') <-> In p (pairs (unl s)) \/ In p missed) /\ (forall p, In p (pairs (lab s)) <-> In p (pairs L') \/ In p missed).
Proof.
  intros T train native strat complete score X n f J tr te L U c t clock k s o HS Law Jt H.
  destruct (loop_facts _ _ _ _ _ _ _ _ _ _ _ _ _ _ _ _ _ _ _ HS Law Jt H) as (s1 & R & -> & -> & -> & _ & I0 & I1).
  assert (K : parts train f (lab s1) (unl s1) /\ exists P, behind train f tr te s1 P).
  { destruct o as [| |e]; [| |destruct I1 as (I1 & _ & I2); auto]; destruct I1 as (I1 & _ & _ & _ & _ & _ & _ & _ & P & I2 & _); eauto. }
  destruct K as ((RL & RU & D & G) & P & L' & U' & W & (RL' & RU' & D' & G') & HU & HP & NP & LP). exists L', U', P. split; [exact W|]. split; [exact LP|].
  split; [exact HU|]. intro p. split; intro Hp.
  - assert (E : entries train f p) by (apply G; now left). apply G' in E. destruct E as [E|E]; [now left|]. apply HU in E. destruct E as [E|E]; [|now right].
    destruct (D p Hp E).
  - destruct Hp as [Hp|Hp]; [|now apply HP]. assert (E : entries train f p) by (apply G'; now left). apply G in E. destruct E as [E|E]; [exact E|].
    exfalso. apply (D' p Hp). apply HU. now left.
Qed.
Print Assumptions C107_behind.

(** Hence, without a limit, or with a share of entries that only all of them reach, the loop never ends by itself. *)
Theorem C107_endless_refuted : forall T train native (strat : fmat -> T -> mlic -> mlic -> T * res ml_choice) complete score X n f J tr te L U c t clock k name v t0,
  setting n f X train L U -> lawful strat X train f J -> J t -> pairs U <> [] ->
  sc_init name v t0 = Ok c -> unreachable U c ->
  snd (feature_loop train native strat complete score X tr te L U c t clock k) <> Done.
Proof.
  intros T train native strat complete score X n f J tr te L U c t clock k name v t0 HS Law Jt NU HC UR.
  destruct (feature_loop train native strat complete score X tr te L U c t clock k) as [s o] eqn:H.
  destruct (loop_facts _ _ _ _ _ _ _ _ _ _ _ _ _ _ _ _ _ _ _ HS Law Jt H) as (s1 & R & _ & _ & _ & _ & I0 & _). cbn [snd].
  destruct HS as (HX & Ht & Nt & P).
  assert (C : sc_unlabel c <> O /\ (sc_percent c == 0)%Q).
  { unfold sc_init in HC. destruct name; try discriminate; try (injection HC as <-; cbn; split; [discriminate|reflexivity]).
    destruct v; [|discriminate]. injection HC as <-. cbn. split; [discriminate|reflexivity]. }
  destruct C as [C1 C2].
  pose proof (rounds_endless train native strat complete score X n f J HX Ht Nt Law tr te L U P clock k NU 0 _ I0 UR C1) as RE.
  rewrite R in RE. apply RE. intros _. cbn [crit]. rewrite C2.
  assert (PU : (0 < List.length (pairs U))%nat) by (destruct (pairs U); [congruence|cbn; lia]).
  apply Qle_shift_div_l; [change 0%Q with (inject_Z 0); rewrite <- Zlt_Qlt; lia|]. rewrite Qmult_0_l. change 0%Q with (inject_Z 0). rewrite <- Zle_Qle. lia.
Qed.
Print Assumptions C107_endless_refuted.

(** Nothing fails if the strategy, the completion and the classifier do not and the limit is meaningful. *)
Theorem C107_total : forall T train native (strat : fmat -> T -> mlic -> mlic -> T * res ml_choice) complete score X n f J tr te L U c t clock k,
  setting n f X train L U -> lawful strat X train f J -> J t -> pairs U <> [] ->
  sound_strategy strat X train f J -> sound_completion complete X train f -> (forall M, exists q, score M = Ok q) ->
  (exists v, sc_value c = Some v /\ (sc_name c = NPercent -> (0 <= v <= 1)%Q)) ->
  forall e, snd (feature_loop train native strat complete score X tr te L U c t clock k) <> Failed e.
Proof.
  intros T train native strat complete score X n f J tr te L U c t clock k HS Law Jt NU S1 S2 S3 (v & EV & BV) e.
  destruct (feature_loop train native strat complete score X tr te L U c t clock k) as [s o] eqn:H.
  destruct (loop_facts _ _ _ _ _ _ _ _ _ _ _ _ _ _ _ _ _ _ _ HS Law Jt H) as (s1 & R & _ & _ & _ & _ & I0 & _). cbn [snd].
  destruct HS as (HX & Ht & Nt & P).
  pose proof (rounds_total train native strat complete score X n f J HX Ht Nt Law tr te L U P S1 S2 S3 NU clock k 0 _ I0) as RT.
  rewrite R in RT. apply RT. cbn [crit snd]. intros c' now E1 E2. unfold sc_is_stop. rewrite E1, E2, EV. destruct (Nat.eqb _ _); [eauto|].
  destruct (sc_name c); cbn [ge_value]; eauto. destruct (BV eq_refl) as [B1 B2].
  rewrite (proj2 (Qle_bool_iff v 1) B2), (proj2 (Qle_bool_iff 0 v) B1). cbn. eauto.
Qed.
Print Assumptions C107_total.

(** If the strategy and the completion do not look at hidden values, neither does the loop: changing the values of the entries
    that are unknown at the end changes nothing. *)
Theorem C107_blind : forall T train native (strat : fmat -> T -> mlic -> mlic -> T * res ml_choice) complete score X X' n f J tr te L U c t clock k,
  setting n f X train L U -> lawful strat X train f J -> J t -> data n f X' ->
  private_strategy strat X X' n train f J -> private_completion complete (List.length train) f ->
  agree n f (lab (fst (feature_loop train native strat complete score X tr te L U c t clock k))) X X' ->
  feature_loop train native strat complete score X' tr te L U c t clock k = feature_loop train native strat complete score X tr te L U c t clock k.
Proof.
  intros T train native strat complete score X X' n f J tr te L U c t clock k HS Law Jt HX' PS PC AG.
  destruct (loop_rounds train native strat complete score X tr te L U c t clock k) as (_ & EL & _). rewrite EL in AG.
  destruct HS as (HX & Ht & Nt & P). pose proof (inv_start train complete score X f J tr te L U P c t Jt) as I0.
  unfold feature_loop. now rewrite (rounds_same train native strat complete score X n f J HX Ht Nt Law tr te L U P X' PS PC clock k 0 _ I0 AG).
Qed.
Print Assumptions C107_blind.

(** The three strategies of the package meet the contract; the random one asks for unknown entries only. *)
Theorem C107_strategies : forall X n f train native, data n f X -> rows_ok n train -> train <> [] ->
  (forall steps max_in max_out, steps_ok f steps -> (1 <= max_out <= max_in)%nat ->
     lawful (afasmc_strategy steps max_in max_out f native) X train f (used X f train steps max_in max_out) /\
     used X f train steps max_in max_out {| af_train := Some (NdArray train); af_mats := [] |}) /\
  (forall svd ranks, svd_ok f svd -> ranks <> [] ->
     lawful (stability_strategy svd ranks f native) X train f (fun t => t = Some (NdArray train))) /\
  lawful (random_strategy f) X train f proper_draws /\ asks_unknown (random_strategy f) X train f proper_draws.
Proof.
  intros X n f train native HX Ht Nt. split; [|split].
  - intros steps max_in max_out HS HM. split; [eapply afasmc_lawful; eauto|]. exists []. reflexivity.
  - intros svd ranks HS NR. eapply stability_lawful; eauto.
  - eapply random_lawful; eauto.
Qed.
Print Assumptions C107_strategies.

Lemma rows_exact X n f train rows : data n f X -> rows_ok n train -> rows_of X train rows -> data (List.length train) f rows.
Proof.
  intros [SX FX] [_ IN] RO. destruct (rows_at_ok X n f train SX IN) as (rows' & _ & [L1 N1] & S1 & F1).
  destruct RO as [L2 N2]. assert (rows' = rows) as <-; [|split; auto].
  apply (nth_ext _ _ [] []); [lia|]. intros r Hr. destruct (nth_error train r) as [i|] eqn:E; [|apply nth_error_None in E; lia].
  apply nth_error_nth'  with (d := []) in Hr as Q1. assert (Hr2 : (r < List.length rows)%nat) by lia.
  apply nth_error_nth'  with (d := []) in Hr2 as Q2. rewrite (N1 r i E) in Q1. rewrite (N2 r i E) in Q2. congruence.
Qed.
(** AFASMC for the queries and the completion: nothing fails, hidden values are not used, and every classifier was trained on
    the true values of the entries known at the time. *)
Theorem C107_afasmc : forall train native steps max_in max_out score X n f tr te L U c clock k,
  setting n f X train L U -> pairs U <> [] -> steps_ok f steps -> (1 <= max_out <= max_in)%nat ->
  let loop X := feature_loop train native (afasmc_strategy steps max_in max_out f native) (afasmc_completion steps max_in max_out f) score X tr te L U c
                  {| af_train := Some (NdArray train); af_mats := [] |} clock in
  (forall X', agree n f (lab (fst (loop X k))) X X' -> loop X' k = loop X k) /\
  ((forall M, exists q, score M = Ok q) -> (exists v, sc_value c = Some v /\ (sc_name c = NPercent -> (0 <= v <= 1)%Q)) ->
   forall e, snd (loop X k) <> Failed e) /\
  (forall i M, nth_error (fits (fst (loop X k))) i = Some M ->
   forall r a j, nth_error train r = Some a -> In (a, Z.of_nat j) (pairs (lab (fst (loop X (S i))))) ->
   exists x y, cell M r j = Some x /\ cell X (Z.to_nat a) j = Some y /\ feq x y).
Proof.
  intros train native steps max_in max_out score X n f tr te L U c clock k HS NU OK HM loop. pose proof HS as (HX & Ht & Nt & P).
  pose proof (afasmc_lawful X n f train HX Ht Nt steps max_in max_out OK HM native) as Law.
  assert (Jt : used X f train steps max_in max_out {| af_train := Some (NdArray train); af_mats := [] |}) by (exists []; reflexivity).
  destruct (afasmc_completion_facts steps max_in max_out (List.length train) f OK HM) as [PC CF].
  assert (RD : forall rows, rows_of X train rows -> data (List.length train) f rows) by (intros; eapply rows_exact; eauto).
  split; [|split].
  - intros X' AG. pose proof AG as (_ & HX' & _).
    eapply (C107_blind _ train native _ _ score X X' n f (used X f train steps max_in max_out)); eauto. eapply afasmc_private; eauto.
  - intros SQ SC. eapply (C107_total _ train native _ _ score X n f (used X f train steps max_in max_out)); eauto.
    + intros t0 L1 U1 J1 P1. eapply afasmc_never_fails; eauto.
    + intros rows omega RO R _ IN. destruct (CF rows omega (RD rows RO) R IN) as (M & E & _). eauto.
  - intros i M HM' r a j Hr Hp. unfold loop in *.
    destruct (feature_loop train native (afasmc_strategy steps max_in max_out f native) (afasmc_completion steps max_in max_out f) score X tr te L U c
                  {| af_train := Some (NdArray train); af_mats := [] |} clock k) as [s o] eqn:H. cbn [fst] in HM'.
    destruct (C107_training _ _ _ _ _ _ _ _ _ _ _ _ _ _ _ _ _ _ _ _ _ _ HS Law Jt H HM') as (rows & omega & RO & E & R & K).
    assert (IN : forall r0 j0, In (r0, j0) (pairs omega) -> 0 <= r0 < Z.of_nat (List.length train) /\ 0 <= j0 < Z.of_nat f).
    { intros r0 j0 Q1. apply K in Q1. destruct Q1 as (Q1 & i0 & Q2 & Q3). split.
      - assert (N : nth_error train (Z.to_nat r0) <> None) by congruence. apply nth_error_Some in N. lia.
      - match type of Q3 with In _ (pairs (lab (fst ?x))) => destruct x as [s2 o2] eqn:H2 end. cbn [fst] in Q3.
        destruct (C107_pool _ _ _ _ _ _ _ _ _ _ _ _ _ _ _ _ _ _ _ _ HS Law Jt H2) as [(_ & _ & _ & G) _].
        assert (B : entries train f (i0, j0)) by (apply G; now left). exact (proj2 B). }
    destruct (CF rows omega (RD rows RO) R IN) as (M' & E' & _ & A). assert (M' = M) by congruence. subst M'.
    assert (Q1 : In (Z.of_nat r, Z.of_nat j) (pairs omega)) by (apply K; split; [lia|]; rewrite Nat2Z.id; eauto).
    destruct (A _ _ Q1) as (x & y & C1 & C2 & FE). rewrite !Nat2Z.id in C1, C2. exists x, y. split; [exact C1|]. split; [|exact FE].
    destruct RO as [_ RO]. unfold cell in *. now rewrite (RO _ _ Hr) in C2.
Qed.
Print Assumptions C107_afasmc.

(** The iterative completion refuses a matrix without missing entries: with it the loop cannot learn the last entry. *)
Lemma svd_refuses svd sv n f X train L U M : setting n f X train L U -> pairs U = [] -> made_from (svd_completion svd sv f) X train L M -> False.
Proof.
  intros (HX & Ht & Nt & (RL & RU & D & G)) EU (rows & omega & [RO _] & E & R & K). unfold svd_completion in E. rewrite RO in E.
  assert (IN : forall r j, In (r, j) (pairs omega) -> 0 <= r < Z.of_nat (List.length train) /\ 0 <= j < Z.of_nat f).
  { intros r0 j0 Q1. apply K in Q1. destruct Q1 as (Q1 & i0 & Q2 & Q3). split.
    - assert (N : nth_error train (Z.to_nat r0) <> None) by congruence. apply nth_error_Some in N. lia.
    - assert (B : entries train f (i0, j0)) by (apply G; now left). exact (proj2 B). }
  destruct (known_mask (List.length train) f omega R IN) as (mask & EM & SM & ZM & CM). rewrite EM in E. cbn [bind] in E.
  destruct (C75_rejects (fun S _ _ _ => (0%Q, S)) 0 0 svd sv rows mask) as [_ Q1]; [|congruence].
  right. right. left. intro Q1. apply in_concat in Q1. destruct Q1 as (row & Q1 & Q2). apply In_nth_error in Q1, Q2. destruct Q1 as [r Q1], Q2 as [j Q2].
  assert (C : cell mask r j = Some 0) by (unfold cell; now rewrite Q1).
  destruct (cell_inside _ _ _ _ _ _ SM C) as [Hr Hj].
  destruct (nth_error train r) as [i|] eqn:Ei; [|apply nth_error_None in Ei; lia].
  assert (Q3 : cell mask r j = Some 1); [|congruence]. apply CM; auto. apply K. split; [lia|]. exists i. rewrite Nat2Z.id. split; [exact Ei|].
  assert (B : entries train f (i, Z.of_nat j)) by (split; cbn [fst snd]; [eapply nth_error_In; eauto|lia]).
  apply G in B. rewrite EU in B. destruct B as [B|[]]. exact B.
Qed.
Lemma rounds_svd {T} train native (strat : fmat -> T -> mlic -> mlic -> T * res ml_choice) svd sv score X n f J tr te L U clock :
  setting n f X train L U -> lawful strat X train f J -> forall k j s, inv train f J tr te L U s -> pairs (unl s) <> [] ->
  match feature_rounds train native strat (svd_completion svd sv f) score X clock k j s with
  | (s1, Failed _) => True
  | (s1, _) => pairs (unl s1) <> []
  end.
Proof.
  intros (HX & Ht & Nt & P) Law. induction k as [|k IH]; intros j s I NE; cbn [feature_rounds]; destruct (sc_is_stop (crit s) (clock j)) as [[|]|e]; auto.
  pose proof (turn_inv train native strat (svd_completion svd sv f) score X n f J HX Ht Nt Law tr te L U P s I) as I1.
  pose proof (turn_cases train native strat (svd_completion svd sv f) score X n f J HX Ht Nt Law tr te L U P s I) as C.
  destruct (feature_turn train native strat (svd_completion svd sv f) score X s) as [s1 [u|e]] eqn:ET; [|exact Logic.I].
  apply IH; [exact I1|]. intro E. destruct (strat X (own s) (lab s) (unl s)) as [t [a|e]]; [|discriminate].
  destruct C as (L1 & U1 & _ & _ & P1 & _ & _ & _ & _ & C).
  destruct (completed train native (svd_completion svd sv f) X L1) as [M|e]; [|discriminate]. destruct C as [MF C].
  assert (EU : unl s1 = U1) by (destruct (score M); cbn zeta in C; injection C as -> _; reflexivity).
  eapply (svd_refuses svd sv n f X train L1 U1 M); eauto; [|now rewrite <- EU]. split; [exact HX|]. auto.
Qed.
Theorem C107_last_refuted : forall T train native (strat : fmat -> T -> mlic -> mlic -> T * res ml_choice) svd sv score X n f J tr te L U c t clock k s o,
  setting n f X train L U -> lawful strat X train f J -> J t -> pairs U <> [] ->
  feature_loop train native strat (svd_completion svd sv f) score X tr te L U c t clock k = (s, o) -> (forall e, o <> Failed e) -> pairs (unl s) <> [].
Proof.
  intros T train native strat svd sv score X n f J tr te L U c t clock k s o HS Law Jt NU H NF.
  destruct (loop_facts _ _ _ _ _ _ _ _ _ _ _ _ _ _ _ _ _ _ _ HS Law Jt H) as (s1 & R & _ & -> & _ & _ & I0 & _).
  pose proof (rounds_svd train native strat svd sv score X n f J tr te L U clock HS Law k 0 _ I0 NU) as K. rewrite R in K.
  destruct o as [| |e]; auto. now destruct (NF e).
Qed.
Print Assumptions C107_last_refuted.

(** "The classifier is trained on the known values": with the iterative completion and a decomposition that reproduces its
    argument every classifier is trained on the complete true data. *)
Theorem C107_leak_refuted : forall T train native (strat : fmat -> T -> mlic -> mlic -> T * res ml_choice) svd sv score X n f J tr te L U c t clock k s o i M,
  setting n f X train L U -> lawful strat X train f J -> J t ->
  sv_min sv = None -> sv_max sv = None -> (0 < sv_iters sv)%nat -> (forall r A, has_shape A (List.length train) f -> svd r A = Ok A) ->
  feature_loop train native strat (svd_completion svd sv f) score X tr te L U c t clock k = (s, o) -> nth_error (fits s) i = Some M ->
  forall r a j, nth_error train r = Some a -> (j < f)%nat -> exists x y, cell M r j = Some x /\ cell X (Z.to_nat a) j = Some y /\ feq x y.
Proof.
  intros T train native strat svd sv score X n f J tr te L U c t clock k s o i M HS Law Jt L1 L2 IT ID H HM r a j Hr Hj.
  destruct (C107_training _ _ _ _ _ _ _ _ _ _ _ _ _ _ _ _ _ _ _ _ _ _ HS Law Jt H HM) as (rows & omega & RO & E & R & K).
  match type of K with context[pairs (lab (fst ?x))] => destruct x as [s2 o2] eqn:H2 end. cbn [fst] in K.
  destruct (C107_pool _ _ _ _ _ _ _ _ _ _ _ _ _ _ _ _ _ _ _ _ HS Law Jt H2) as [(_ & _ & _ & G) _].
  assert (IN : forall r j, In (r, j) (pairs omega) -> 0 <= r < Z.of_nat (List.length train) /\ 0 <= j < Z.of_nat f).
  { intros r0 j0 Q1. apply K in Q1. destruct Q1 as (Q1 & i0 & Q2 & Q3). split.
    - assert (N : nth_error train (Z.to_nat r0) <> None) by congruence. apply nth_error_Some in N. lia.
    - assert (B : entries train f (i0, j0)) by (apply G; now left). exact (proj2 B). }
  destruct (known_mask (List.length train) f omega R IN) as (mask & EM & SM & ZM & _).
  destruct HS as (HX & Ht & Nt & P).
  destruct (rows_exact X n f train rows HX Ht RO) as (SR & FR).
  unfold svd_completion in E. rewrite (proj1 SR), EM in E. cbn [bind] in E.
  assert (Hr' : (r < List.length train)%nat) by (apply nth_error_Some; congruence).
  destruct (impute_reveals svd sv rows mask (List.length train) f SR SM FR ZM L1 L2 IT ID true M E r j Hr' Hj) as (x & y & C1 & C2 & FE).
  exists x, y. split; [exact C1|]. split; [|exact FE]. destruct RO as [_ RO]. unfold cell in *. now rewrite (RO _ _ Hr) in C2.
Qed.
Print Assumptions C107_leak_refuted.

(** *** A concrete case *)
Definition ex_fl : fmat := [[Num 1; Num 2]; [Num 3; Num 4]; [Num 5; Num 6]].
Definition ex_L := match ml_init (MList [IPair 2 0]) (Some 2) with Ok (c, _) => c | Err _ => {| lsize := None; mcont := []; is_set := true |} end.
Definition ex_U := match ml_init (MList [IPair 2 1; IPair 0 0; IPair 0 1]) (Some 2) with Ok (c, _) => c | Err _ => {| lsize := None; mcont := []; is_set := true |} end.
Definition ex_five : scrit := {| sc_name := NNum; sc_value := Some (inject_Z 5); sc_start := 0; sc_iter := 0; sc_acost := 0; sc_unlabel := 100; sc_percent := 0 |}.
Definition ex_none : scrit := {| sc_name := NNone; sc_value := None; sc_start := 0; sc_iter := 0; sc_acost := 0; sc_unlabel := 100; sc_percent := 0 |}.
Definition ex_af (X : fmat) := feature_loop [2; 0] true (afasmc_strategy ex_const 10 2 2 true) (afasmc_completion ex_const 10 2 2) (fun _ => Ok (1 # 2)%Q) X
  [] [] ex_L ex_U ex_five {| af_train := Some (NdArray [2; 0]); af_mats := [] |} (fun _ => 0%Q) 9.
Definition ex_rnd (complete : fmat -> mlic -> res fmat) (c : scrit) (k : nat) := feature_loop [2; 0] true (random_strategy 2) complete (fun _ => Ok (1 # 2)%Q) ex_fl
  [] [] ex_L ex_U c (fun _ m => seq 0 m) (fun _ => 0%Q) k.
Lemma ex_setting : setting 3 2 ex_fl [2; 0] ex_L ex_U.
Proof.
  split; [|split; [|split]].
  - split; [split; [reflexivity|intros r H; repeat destruct H as [<-|H]; try reflexivity; contradiction]|].
    intros [|[|[|a]]] [|[|b]] v E; cbn in E; try discriminate; try (injection E as <-; eauto); try (destruct a; discriminate); destruct b; discriminate.
  - split; [repeat constructor; cbn; intuition lia|]. intros i [<-|[<-|[]]]; lia.
  - discriminate.
  - split; [apply (mr_list 2 [IPair 2 0] (Some 2) ex_L []); [discriminate|reflexivity|reflexivity]|].
    split; [apply (mr_list 2 [IPair 2 1; IPair 0 0; IPair 0 1] (Some 2) ex_U []); [discriminate|reflexivity|reflexivity]|].
    change (pairs ex_L) with [(2, 0)]. change (pairs ex_U) with [(2, 1); (0, 0); (0, 1)]. split.
    + intros p [<-|[]] H. repeat destruct H as [H|H]; try discriminate. contradiction.
    + intros [i j]. unfold entries. cbn [fst snd In]. split.
      * intros [[<-|[<-|[]]] H]; assert (j = 0 \/ j = 1) as [-> | ->] by lia; auto.
      * intros [[H|[]]|[H|[H|[H|[]]]]]; injection H as <- <-; split; auto; lia.
Qed.
(** AFASMC with a constant completion asks for the known entry (2, 0) again and again, and the unknown values in row 0 do not
    matter; the random strategy learns all entries in three rounds and goes on for two more; its last record is empty,
    so that (0, 1) counts as unknown in the record; without a limit it does not stop; the iterative completion fails at the third entry
    and hands the hidden values to the classifier. *)
Example C107_case :
  setting 3 2 ex_fl [2; 0] ex_L ex_U /\ sc_init NNum (Some (inject_Z 5)) 0 = Ok ex_five /\ unreachable ex_U ex_none /\
  snd (ex_af ex_fl) = Done /\ map queried (s_states (sav (fst (ex_af ex_fl)))) = [[IPair 2 1]; [IPair 2 0]; [IPair 2 0]; [IPair 2 0]; [IPair 2 0]] /\
  ex_af [[Num 8; Num 9]; [Num 3; Num 4]; [Num 5; Num 6]] = ex_af ex_fl /\
  (let s := fst (ex_rnd (afasmc_completion ex_const 10 2 2) ex_five 9) in
   snd (ex_rnd (afasmc_completion ex_const 10 2 2) ex_five 9) = Done /\ pairs (unl s) = [] /\ List.length (fits s) = 5%nat /\
   map queried (s_states (sav s)) = [[IPair 2 1]; [IPair 0 0]; []; []; []] /\
   exists L U, rebuilt (sav s) = Ok ([], [], L, U) /\ pairs U = [(0, 1)]) /\
  snd (ex_rnd (afasmc_completion ex_const 10 2 2) ex_none 50) = Running /\
  (let sv := {| sv_rank := 2; sv_thr := 1 # 100000; sv_iters := 20; sv_grow := true; sv_min := None; sv_max := None |} in
   snd (ex_rnd (svd_completion ex_id sv 2) ex_five 9) = Failed AssertErr /\
   fits (fst (ex_rnd (svd_completion ex_id sv 2) ex_five 9)) = [[[Num 5; Num 6]; [Num 1; Num 2]]; [[Num 5; Num 6]; [Num 1; Num 2]]]).
Proof.
  split; [exact ex_setting|]. split; [reflexivity|]. split; [now left|]. split; [vm_compute; reflexivity|]. split; [vm_compute; reflexivity|].
  split; [vm_compute; reflexivity|]. split.
  { cbn zeta. split; [vm_compute; reflexivity|]. split; [vm_compute; reflexivity|]. split; [vm_compute; reflexivity|]. split; [vm_compute; reflexivity|].
    eexists _, _. split; vm_compute; reflexivity. }
  split; [vm_compute; reflexivity|]. split; vm_compute; reflexivity.
Qed.
