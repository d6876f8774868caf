(** C108: the main loop of a cost-sensitive experiment with a label hierarchy. *)
From Verif Require Import Base BaseFacts SetFacts IndexModel MLModel MLSpec MLProofs MLProofs2 MLProofs3 MLProps CostModel CostSpec CostProofs CostProofs2 CostProofs3
  CostProps StateModel StateSpec StateProofs StateProofs2 SelfProofs CostLoopModel CostLoopSpec CostLoopProofs CostLoopProofs2 CostLoopProofs3.
From Verif Require MetricModel MetricProofs.
From Coq Require Import String QArith Sorted Lqa.
Local Open Scope Z_scope.

Lemma main_facts {B M T} (X : list B) y tree n C train budget (fit : nat -> list B -> list Z -> res M) score
    (strat : T -> list M -> mlic -> mlic -> T * res (list (nat * nat))) J Pr tr te L0 U0 ms0 t c clock k s o :
  setting X y tree n C train L0 U0 ms0 -> answers n C train strat J (fun _ _ l => in_data n C l /\ Pr l) -> J t ->
  cost_main X y tree C budget fit score strat tr te L0 U0 ms0 t c clock k = (s, o) ->
  (exists asks extra, hurt X y tree n C budget fit score Pr tr te L0 U0 s asks extra /\
    match o with Failed _ => True | _ => extra = [] /\ rebuilt (sav s) = Ok (tr, te, lab s, unl s) /\ fitted X y C fit (lab s) (mods s) end) /\
  match fit_all X y C fit L0 ms0 with
  | (ms, Err e) => o = Failed e /\ lab s = L0 /\ unl s = U0 /\ sav s = sio_new tr te L0 U0
  | (ms, Ok _) => let s0 := {| lab := L0; unl := U0; mods := ms; own := t; sav := sio_new tr te L0 U0; crit := c |} in
      inv X y tree n C budget fit score J Pr tr te L0 U0 c s0 [] /\
      exists s1, cost_turns X y tree C budget fit score strat clock k 0 s0 = (s1, o) /\ lab s = lab s1 /\ unl s = unl s1 /\ sav s = sav s1 /\
        own s = own s1 /\ (o = Done -> crit s = sc_reset (crit s1) (clock k) /\ sc_name (crit s1) = sc_name c /\ sc_value (crit s1) = sc_value c)
  end.
Proof.
  intros (HD & HV & NU & Hm) HA Jt H. pose proof HV as (K0 & K1 & A0 & G). unfold cost_main in H.
  assert (T0 : of_train train U0) by (intros p Hp; apply (proj1 (G p)); now right).
  pose proof (fit_all_ok X y n C fit (proj1 HD) (proj1 (proj2 HD)) L0 ms0 K0 Hm) as FA.
  destruct (fit_all X y C fit L0 ms0) as [ms [u|e]].
  - pose proof (inv_start X y tree n C budget fit score J Pr tr te L0 U0 c K0 K1 A0 t ms Jt FA) as I0.
    pose proof (turns_inv X y tree n C train budget fit score strat J Pr HD HA tr te L0 U0 c T0 clock k (fun _ => NU) 0 _ _ I0) as TI.
    destruct (cost_turns _ _ _ _ _ _ _ _ _ _ _ _) as [s1 o1] eqn:ER. injection H as E1 ->. split.
    + destruct o as [| |e]; subst s.
      * destruct TI as [al I1]. exists al, []. split; [exact (inv_hurt _ _ _ _ _ _ _ _ _ _ _ _ _ _ _ _ _ I1)|].
        split; [reflexivity|]. split; apply I1.
      * destruct TI as [al I1]. exists al, []. split; [exact (inv_hurt _ _ _ _ _ _ _ _ _ _ _ _ _ _ _ _ _ I1)|].
        split; [reflexivity|]. split; apply I1.
      * destruct TI as (al & ex & I1). exists al, ex. auto.
    + split; [exact I0|]. exists s1. split; [exact ER|]. subst s. destruct o; cbn [lab unl sav own crit]; do 4 (split; [reflexivity|]); try discriminate. intros _. destruct TI as [al I1]. repeat split; apply I1.
  - injection H as <- <-. split; [|auto]. exists [], []. split; [|exact Logic.I]. cbn. split; [exact K0|]. split; [exact K1|]. split; [exact A0|].
    split; [apply FA|]. split; [reflexivity|]. split; [apply Nat.le_0_l|]. split; [apply (after_none X y tree n fit L0 U0)|]. split; [constructor|]. split; [reflexivity|].
    split; [intros [|i] e0 E; discriminate|]. exists L0, U0. split; [reflexivity|apply (after_none X y tree n fit L0 U0)].
Qed.

(** However the loop is left, the labelled and the unlabelled pairs are a division of the pairs of the training set, and no
    label was lost, if the strategy asks for pairs of training instances. *)
Theorem C108_pool : forall B M T (X : list B) y tree n C train budget (fit : nat -> list B -> list Z -> res M) score
    (strat : T -> list M -> mlic -> mlic -> T * res (list (nat * nat))) J tr te L0 U0 ms0 t c clock k s o,
  setting X y tree n C train L0 U0 ms0 -> answers n C train strat J (fun _ _ l => in_data n C l /\ in_train train l) -> J t ->
  cost_main X y tree C budget fit score strat tr te L0 U0 ms0 t c clock k = (s, o) ->
  division n C train (lab s) (unl s) /\ forall p, holds L0 p -> holds (lab s) p.
Proof.
  intros B M T X y tree n C train budget fit score strat J tr te L0 U0 ms0 t c clock k s o HS HA Jt H.
  destruct (main_facts X y tree n C train budget fit score strat J _ tr te L0 U0 ms0 t c clock k s o HS HA Jt H) as [(asks & extra & I & _) _].
  destruct I as (KL & KU & A & _ & _ & _ & Af & Fo & _). destruct HS as ((_ & _ & HT & _) & HV & _). split.
  - refine (division_after tree y n C train L0 U0 _ _ _ HV HT KL KU A Af _). eapply Forall_impl; [|exact Fo]. cbn. tauto.
  - intros p Hp. apply Af. now left.
Qed.
Print Assumptions C108_pool.

(** However it is left, what is labelled is what was labelled before, the pairs that were asked for and the pairs that the
    label tree adds to these; the others of the pool are unlabelled. There is one record per query, except for a query in
    progress when an exception left the loop, and the records rebuild the labelled and the unlabelled pairs. *)
Theorem C108_marked : forall B M T (X : list B) y tree n C train budget (fit : nat -> list B -> list Z -> res M) score
    (strat : T -> list M -> mlic -> mlic -> T * res (list (nat * nat))) J Pr tr te L0 U0 ms0 t c clock k s o,
  setting X y tree n C train L0 U0 ms0 -> answers n C train strat J (fun _ _ l => in_data n C l /\ Pr l) -> J t ->
  cost_main X y tree C budget fit score strat tr te L0 U0 ms0 t c clock k = (s, o) ->
  exists asks extra L U, List.length asks = turns (sav s) /\ (List.length extra <= 1)%nat /\
    Forall (fun a => in_data n C a /\ Pr a /\ a <> []) (asks ++ extra) /\
    after tree y L0 U0 (asks ++ extra) (lab s) (unl s) /\
    rebuilt (sav s) = Ok (tr, te, L, U) /\ after tree y L0 U0 asks L U /\
    (s_cost (sav s) == inject_Z (Z.of_nat (turns (sav s))) * budget)%Q /\
    match o with Failed _ => True | _ => extra = [] /\ L = lab s /\ U = unl s end.
Proof.
  intros B M T X y tree n C train budget fit score strat J Pr tr te L0 U0 ms0 t c clock k s o HS HA Jt H.
  destruct (main_facts X y tree n C train budget fit score strat J Pr tr te L0 U0 ms0 t c clock k s o HS HA Jt H) as [(asks & extra & I & Q1) _].
  destruct I as (_ & _ & _ & _ & La & Le & Af & Fo & Co & _ & L & U & W & Af').
  destruct o as [| |e]; [| |exists asks, extra, L, U; tauto].
  all: destruct Q1 as (-> & W' & _); exists asks, [], (lab s), (unl s); rewrite app_nil_r in *; tauto.
Qed.
Print Assumptions C108_marked.

(** At the end each classifier is the one fitted to the instances whose label of that class is known, in their order; and each
    recorded performance is that of the classifiers so fitted to the labels known after that query. *)
Theorem C108_training : forall B M T (X : list B) y tree n C train budget (fit : nat -> list B -> list Z -> res M) score
    (strat : T -> list M -> mlic -> mlic -> T * res (list (nat * nat))) J tr te L0 U0 ms0 t c clock k s o,
  setting X y tree n C train L0 U0 ms0 -> answers n C train strat J (fun _ _ l => in_data n C l) -> J t ->
  cost_main X y tree C budget fit score strat tr te L0 U0 ms0 t c clock k = (s, o) ->
  match o with Failed _ => True | _ => fitted X y C fit (lab s) (mods s) end /\
  forall i e, nth_error (s_states (sav s)) i = Some e ->
    exists L U ms q st, rebuilt_at (sav s) (S i) = Ok (tr, te, L, U) /\ fitted X y C fit L ms /\ score ms = Ok q /\
      e = EState st /\ sget "performance"%string (sdict st) = Some (SNum q).
Proof.
  intros B M T X y tree n C train budget fit score strat J tr te L0 U0 ms0 t c clock k s o HS HA Jt H.
  assert (HA' : answers n C train strat J (fun _ _ l => in_data n C l /\ True)).
  { intros a b L U Q1 Q2 Q3 Q4 Q5. destruct (HA a b L U Q1 Q2 Q3 Q4 Q5) as [Q6 Q7]. split; [exact Q6|]. intros l El. split; auto. }
  destruct (main_facts X y tree n C train budget fit score strat J _ tr te L0 U0 ms0 t c clock k s o HS HA' Jt H) as [(asks & extra & I & Q1) _].
  destruct I as (_ & _ & _ & _ & _ & _ & _ & _ & _ & To & _). split; [destruct o; tauto|].
  intros i e E. destruct (To i e E) as (L & U & ms & q & st & G1 & _ & G2). exists L, U, ms, q, st. tauto.
Qed.
Print Assumptions C108_training.

(** With a limit [v] on the costs and a positive budget [b] each query counts as [b]: the loop does not start another one once
    the queries made count as [v] or no pair is unlabelled, and it does while neither is the case. *)
Theorem C108_rounds : forall B M T (X : list B) y tree n C train budget (fit : nat -> list B -> list Z -> res M) score
    (strat : T -> list M -> mlic -> mlic -> T * res (list (nat * nat))) J tr te L0 U0 ms0 t c clock k s o v now,
  setting X y tree n C train L0 U0 ms0 -> answers n C train strat J (fun _ _ l => in_data n C l) -> J t ->
  sc_init NCost (Some v) now = Ok c ->
  cost_main X y tree C budget fit score strat tr te L0 U0 ms0 t c clock k = (s, o) ->
  let paid i := (inject_Z (Z.of_nat i) * budget)%Q in
  (turns (sav s) <= k)%nat /\
  (turns (sav s) = 0%nat \/ (paid (turns (sav s) - 1)%nat < v)%Q) /\
  match o with
  | Done => pairs (unl s) = [] \/ (v <= paid (turns (sav s)))%Q
  | Running => turns (sav s) = k /\ pairs (unl s) <> [] /\ (paid k < v)%Q
  | Failed _ => True
  end.
Proof.
  intros B M T X y tree n C train budget fit score strat J tr te L0 U0 ms0 t c clock k s o v now HS HA Jt HC H paid.
  assert (HA' : answers n C train strat J (fun _ _ l => in_data n C l /\ True)).
  { intros a b L U Q1 Q2 Q3 Q4 Q5. destruct (HA a b L U Q1 Q2 Q3 Q4 Q5) as [Q6 Q7]. split; [exact Q6|]. intros l El. split; auto. }
  destruct (main_facts X y tree n C train budget fit score strat J _ tr te L0 U0 ms0 t c clock k s o HS HA' Jt H) as [_ Q1].
  destruct (fit_all X y C fit L0 ms0) as [ms [u|e]].
  2:{ destruct Q1 as (-> & _ & _ & ->). cbn. split; [apply Nat.le_0_l|]. auto. }
  destruct Q1 as (I0 & s1 & R & _ & EU & ES & _). destruct HS as (HD & (K0 & K1 & A0 & G) & NU & _).
  assert (T0 : of_train train U0) by (intros p Hp; apply (proj1 (G p)); now right).
  cbn in HC. injection HC as Hc. symmetry in Hc.
  pose proof (rounds_count X y tree n C train budget fit score strat J _ HD HA' tr te L0 U0 c v K1 T0 NU (f_equal sc_name Hc) (f_equal sc_value Hc) (f_equal sc_acost Hc)
    ltac:(rewrite Hc; discriminate) clock k 0 _ _ I0) as RC. rewrite R in RC. cbn [sav turns List.length s_states sio_new] in RC. rewrite EU, ES.
  unfold turns in *. cbn in RC. destruct RC as (H1 & H2 & H3). split; [lia|]. split; [exact H2|]. destruct o; auto. destruct H3 as (-> & H3). auto.
Qed.
Print Assumptions C108_rounds.

(** When the loop ends by its criterion, the criterion is as new; and the strategy was called once for each record. *)
Theorem C108_next_run : forall B M T (X : list B) y tree n C train budget (fit : nat -> list B -> list Z -> res M) score
    (strat : T -> list M -> mlic -> mlic -> T * res (list (nat * nat))) J tr te L0 U0 ms0 t c clock k s name v now (f : T -> nat),
  setting X y tree n C train L0 U0 ms0 -> answers n C train strat J (fun _ _ l => in_data n C l) -> J t ->
  sc_init name v now = Ok c ->
  cost_main X y tree C budget fit score strat tr te L0 U0 ms0 t c clock k = (s, Done) ->
  sc_init name v (clock k) = Ok (crit s) /\
  ((forall t ms L U, f (fst (strat t ms L U)) = S (f t)) -> f (own s) = (f t + turns (sav s))%nat).
Proof.
  intros B M T X y tree n C train budget fit score strat J tr te L0 U0 ms0 t c clock k s name v now f HS HA Jt HC H.
  assert (HA' : answers n C train strat J (fun _ _ l => in_data n C l /\ True)).
  { intros a b L U Q1 Q2 Q3 Q4 Q5. destruct (HA a b L U Q1 Q2 Q3 Q4 Q5) as [Q6 Q7]. split; [exact Q6|]. intros l El. split; auto. }
  destruct (main_facts X y tree n C train budget fit score strat J _ tr te L0 U0 ms0 t c clock k s _ HS HA' Jt H) as [_ Q1].
  destruct (fit_all X y C fit L0 ms0) as [ms [u|e]]; [|destruct Q1 as (Q1 & _); discriminate].
  destruct Q1 as (I0 & s1 & R & _ & _ & ES & EO & D). destruct (D eq_refl) as (-> & N1 & N2). split.
  - unfold sc_reset. rewrite N1, N2. destruct name; cbn in HC |- *; try discriminate HC; try (injection HC as <-; reflexivity).
    destruct v; [|discriminate HC]. injection HC as <-. reflexivity.
  - intro Hf. rewrite EO, ES. destruct HS as (HD & (K0 & K1 & A0 & G) & NU & _).
    assert (T0 : of_train train U0) by (intros p Hp; apply (proj1 (G p)); now right).
    pose proof (rounds_own X y tree n C train budget fit score strat J _ HD HA' tr te L0 U0 c T0 NU f Hf clock k 0 _ _ I0) as RO.
    rewrite R in RO. cbn [own sav] in RO. unfold turns in *. cbn [s_states sio_new List.length] in RO. lia.
Qed.
Print Assumptions C108_next_run.

(** If no single query costs more than the budget, the queries together cost at most what is recorded. *)
Theorem C108_spent : forall B M T (X : list B) y tree n C train budget (fit : nat -> list B -> list Z -> res M) score
    (strat : T -> list M -> mlic -> mlic -> T * res (list (nat * nat))) J costs tr te L0 U0 ms0 t c clock k s o,
  setting X y tree n C train L0 U0 ms0 -> answers n C train strat J (fun _ _ l => in_data n C l /\ (price costs l <= budget)%Q) -> J t ->
  cost_main X y tree C budget fit score strat tr te L0 U0 ms0 t c clock k = (s, o) ->
  exists asks L U, List.length asks = turns (sav s) /\ rebuilt (sav s) = Ok (tr, te, L, U) /\ after tree y L0 U0 asks L U /\
    (price costs (List.concat asks) <= s_cost (sav s))%Q.
Proof.
  intros B M T X y tree n C train budget fit score strat J costs tr te L0 U0 ms0 t c clock k s o HS HA Jt H.
  destruct (C108_marked _ _ _ X y tree n C train budget fit score strat J _ tr te L0 U0 ms0 t c clock k s o HS HA Jt H)
    as (asks & extra & L & U & La & _ & Fo & _ & W & Af & Co & _).
  exists asks, L, U. split; [exact La|]. split; [exact W|]. split; [exact Af|]. rewrite Co, <- La.
  apply Forall_app in Fo. destruct Fo as [Fo _]. clear -Fo.
  induction Fo as [|a l (_ & Ha & _) _ IH]; [cbn [List.length List.concat Z.of_nat]; setoid_replace (inject_Z 0 * budget)%Q with 0%Q by (unfold inject_Z; ring); apply Qle_refl|].
  assert (E : (price costs (List.concat (a :: l)) == price costs a + price costs (List.concat l))%Q).
  { unfold price, pairs_cost. cbn [List.concat]. rewrite map_app. apply sum_q_app. }
  rewrite E. cbn [List.length]. rewrite Nat2Z.inj_succ. unfold Z.succ. rewrite inject_Z_plus, Qmult_plus_distr_l, Qmult_1_l. lra.
Qed.
Print Assumptions C108_spent.

(** With a limit on the costs, a strategy that asks for something while there is something to ask for, and classifiers that can
    be fitted and judged, no exception leaves the loop; it ends after at most [k] queries if [k] of them count as [v]. *)
Theorem C108_total : forall B M T (X : list B) y tree n C train budget (fit : nat -> list B -> list Z -> res M) score
    (strat : T -> list M -> mlic -> mlic -> T * res (list (nat * nat))) J tr te L0 U0 ms0 t c clock k s o v now,
  setting X y tree n C train L0 U0 ms0 -> answers n C train strat J (fun _ _ l => in_data n C l) -> forthcoming n C train strat J -> J t ->
  trainable fit score -> sc_init NCost (Some v) now = Ok c -> (v <= inject_Z (Z.of_nat k) * budget)%Q ->
  cost_main X y tree C budget fit score strat tr te L0 U0 ms0 t c clock k = (s, o) -> o = Done.
Proof.
  intros B M T X y tree n C train budget fit score strat J tr te L0 U0 ms0 t c clock k s o v now HS HA HF Jt HT HC Hk H.
  pose proof (C108_rounds _ _ _ X y tree n C train budget fit score strat J tr te L0 U0 ms0 t c clock k s o v now HS HA Jt HC H) as R.
  cbn zeta in R. destruct o as [| |e]; [|reflexivity|exfalso].
  - destruct R as (_ & _ & _ & _ & R). exfalso. lra.
  - assert (HA' : answers n C train strat J (fun _ _ l => in_data n C l /\ True)).
    { intros a b L U Q1 Q2 Q3 Q4 Q5. destruct (HA a b L U Q1 Q2 Q3 Q4 Q5) as [Q6 Q7]. split; [exact Q6|]. intros l El. split; auto. }
    destruct (main_facts X y tree n C train budget fit score strat J _ tr te L0 U0 ms0 t c clock k s _ HS HA' Jt H) as [_ Q1].
    destruct HS as ((HX & Hy & HT1 & Htr) & (K0 & K1 & A0 & G) & NU & Hm). pose proof (fit_all_ok X y n C fit HX Hy L0 ms0 K0 Hm) as FA.
    destruct (fit_all X y C fit L0 ms0) as [ms [u|e']].
    2:{ destruct FA as (_ & j & xs & ys & _ & _ & E). destruct (proj1 HT j xs ys) as [m Em]. congruence. }
    destruct Q1 as (I0 & s1 & R1 & _).
    assert (T0 : of_train train U0) by (intros p Hp; apply (proj1 (G p)); now right).
    cbn in HC. injection HC as Hc. symmetry in Hc.
    apply (rounds_fine X y tree n C train budget fit score strat J _ (conj HX (conj Hy (conj HT1 Htr))) HA' tr te L0 U0 c v K1 T0 NU (f_equal sc_name Hc) (f_equal sc_value Hc) (f_equal sc_acost Hc)
      ltac:(rewrite Hc; discriminate) clock k HF HT 0 _ _ I0 e). now rewrite R1.
Qed.
Print Assumptions C108_total.

(** [QueryCostSensitiveRandom] asks for unlabelled pairs, each once, for at most the budget. When what is unlabelled does not cost
    more than the budget it raises a ValueError, which leaves the loop with everything as it was. *)
Theorem C108_random : forall M n C train cost costs budget, class_costs C cost = Ok costs -> (0 <= budget)%Q ->
  answers (M := M) n C train (random_cost_strategy C cost budget) fair_draws
    (fun _ U l => in_data n C l /\ NoDup l /\ (forall p, In p l -> holds U p) /\ in_train train l /\ (price costs l <= budget)%Q).
Proof. intros M n C train cost costs budget. apply random_answers. Qed.
Print Assumptions C108_random.

Theorem C108_random_last : forall B M (X : list B) y tree n C cost costs budget (fit : nat -> list B -> list Z -> res M) score s,
  class_costs C cost = Ok costs -> Forall (fun c => 0 <= c)%Q costs -> (0 <= budget)%Q ->
  fair_draws (own s) -> collection n C (unl s) -> (price costs (map to_pair (mcont (unl s))) <= budget)%Q ->
  let (s1, r) := cost_turn X y tree C budget fit score (random_cost_strategy C cost budget) s in
  r = Err ValueErr /\ lab s1 = lab s /\ unl s1 = unl s /\ mods s1 = mods s /\ sav s1 = sav s /\ crit s1 = crit s.
Proof.
  intros B M X y tree n C cost costs budget fit score s Ec Hc Hb Jt KU P. unfold cost_turn.
  pose proof (random_ends n C cost costs budget (own s) (mods s) (lab s) (unl s) Ec Hc Hb Jt KU P) as E.
  destruct (random_cost_strategy C cost budget (own s) (mods s) (lab s) (unl s)) as [t r]. cbn [snd] in E. subst r. cbn. auto 10.
Qed.
Print Assumptions C108_random_last.


(** [QueryCostSensitivePerformance] asks for unlabelled pairs, each once, for at most the budget; with positive uncertainties and
    labels that the budget can pay for it always asks for something. *)
Theorem C108_performance : forall M n C train costs budget u orders,
  List.length costs = C -> Forall (fun c => 0 <= c) costs -> (C <= budget)%nat -> (C <= n)%nat -> sorter n C orders ->
  answers (M := M) n C train (performance_cost_strategy n C costs budget u orders) (fun _ => True)
    (fun _ U l => in_data n C l /\ NoDup l /\ (forall p, In p l -> holds U p) /\ in_train train l /\ pairs_cost_z costs l <= Z.of_nat budget) /\
  (Forall (fun c => c <= Z.of_nat budget) costs -> (2 <= budget)%nat -> (forall ms i j, (0 < u ms i j)%Q) ->
   forthcoming (M := M) n C train (performance_cost_strategy n C costs budget u orders) (fun _ => True)).
Proof.
  intros M n C train costs budget u orders Hl Hc Hb Hn Ho. split; [now apply performance_answers|].
  intros Hc' H2 Hu. apply performance_forthcoming; auto. rewrite Forall_forall in *. intros x Hx. split; auto.
Qed.
Print Assumptions C108_performance.

(** A run: instance 0 labelled, instance 1 not, instance 2 kept for the test; two labels, the second a child of the first.
    The strategy asks for the first unlabelled pair. *)
Definition run_y : list (list Z) := [[1; -1]; [1; 1]; [-1; 1]].
Definition run_tree : list (list Z) := [[0; 1]; [0; 0]].
Definition run_L : mlic := {| mcont := [IPair 0 0; IPair 0 1]; is_set := true; lsize := Some 2 |}.
Definition run_U : mlic := {| mcont := [IPair 1 0; IPair 1 1]; is_set := true; lsize := Some 2 |}.
Definition run_fit (j : nat) (xs : list nat) (ys : list Z) : res nat := Ok (List.length xs).
Definition run_score (ms : list nat) : res Q := Ok (inject_Z (Z.of_nat (list_sum ms))).
Definition first_strategy (t : unit) (ms : list nat) (L U : mlic) : unit * res (list (nat * nat)) :=
  (t, Ok (firstn 1 (map to_pair (mcont U)))).
Definition run_main (tree : list (list Z)) (budget limit : Q) (k : nat) : cstate nat unit * CostLoopModel.outcome :=
  cost_main [0; 1; 2]%nat run_y tree 2 budget run_fit run_score first_strategy [] [] run_L run_U [7; 7]%nat tt
    {| sc_name := NCost; sc_value := Some limit; sc_start := 0%Q; sc_iter := 0; sc_acost := 0%Q; sc_unlabel := 100; sc_percent := 0%Q |}
    (fun _ => 0%Q) k.

Lemma run_setting tree : matrix_of 2 2 tree -> setting (M := nat) [0; 1; 2]%nat run_y tree 3 2 [0; 1]%nat run_L run_U [7; 7]%nat.
Proof.
  intro Ht. split; [|split; [|split; [discriminate|reflexivity]]].
  - split; [reflexivity|]. split; [split; [reflexivity|repeat constructor]|]. split; [exact Ht|]. repeat constructor.
  - split; [|split; [|split]].
    + split; [apply (mr_list 2 [IPair 0 0; IPair 0 1] (Some 2) run_L []); [discriminate|reflexivity|reflexivity]|].
      intros q [<-|[<-|[]]]; cbn; lia.
    + split; [apply (mr_list 2 [IPair 1 0; IPair 1 1] (Some 2) run_U []); [discriminate|reflexivity|reflexivity]|].
      intros q [<-|[<-|[]]]; cbn; lia.
    + intros q [<-|[<-|[]]] [E|[E|[]]]; discriminate.
    + intros [i j]. unfold holds. cbn [fst snd]. cbn. split.
      * intros [[E|[E|[]]]|[E|[E|[]]]]; injection E as E1 E2; split; lia.
      * intros [[<-|[<-|[]]] Hj]; destruct j as [|[|j]]; [auto|auto|lia|auto|auto|lia].
Qed.

Lemma first_answers costs budget train : (forall j, (nth j costs 0 <= budget)%Q) -> (0 <= budget)%Q ->
  answers 3 2 train first_strategy (fun _ => True)
    (fun _ U l => in_data 3 2 l /\ in_train train l /\ (price costs l <= budget)%Q) /\
  forthcoming 3 2 train first_strategy (fun _ => True).
Proof.
  intros Hc Hb.
  assert (F : forall U l, collection 3 2 U -> l = firstn 1 (map to_pair (mcont U)) -> forall p, In p l -> holds U p).
  { intros U l KU -> p Hp. destruct (to_pairs 3 2 U KU) as (_ & I & _). apply I. destruct (map to_pair (mcont U)); [destruct Hp|].
    cbn in Hp. destruct Hp as [<-|[]]. now left. }
  split.
  - intros t ms L U _ _ KU _ TU. split; [exact Logic.I|]. intros l E. cbn [first_strategy snd] in E. injection E as E. symmetry in E.
    pose proof (F U l KU E) as F1. split; [intros p Hp; eapply holds_bounds; eauto|]. split; [intros p Hp; apply TU; auto|].
    subst l. destruct (map to_pair (mcont U)) as [|q r]; [exact Hb|]. cbn [firstn]. unfold price, pairs_cost. cbn [map sum_q fold_right].
    rewrite Qplus_0_r. apply Hc.
  - intros t ms L U _ _ _ KU _ _ Nu. cbn [first_strategy snd]. eexists. split; [reflexivity|]. intro E.
    destruct KU as [R _]. apply reachable_good in R. destruct R as (_ & _ & _ & Fo & _). rewrite (pairs_map _ U Fo) in E.
    destruct (pairs U); [congruence|discriminate].
Qed.

Example C108_example :
  setting (M := nat) [0; 1; 2]%nat run_y run_tree 3 2 [0; 1]%nat run_L run_U [7; 7]%nat /\
  answers 3 2 [0; 1]%nat first_strategy (fun _ => True) (fun _ U l => in_data 3 2 l /\ in_train [0; 1]%nat l /\ (price [1; 3]%Q l <= 4)%Q) /\
  forthcoming 3 2 [0; 1]%nat first_strategy (fun _ => True) /\ trainable run_fit run_score.
Proof.
  split; [apply run_setting; split; [reflexivity|repeat constructor]|].
  destruct (first_answers [1; 3]%Q 4 [0; 1]%nat) as [H1 H2].
  - intros [|[|[|j]]]; cbn; unfold Qle; cbn; lia.
  - unfold Qle; cbn; lia.
  - split; [exact H1|]. split; [exact H2|]. split; intros; eexists; reflexivity.
Qed.
Example C108_example_run :
  let (s, o) := run_main run_tree 4 10 9 in
  o = Done /\ turns (sav s) = 1%nat /\ pairs (unl s) = [] /\ (s_cost (sav s) == 4)%Q /\ mods s = [2; 2]%nat.
Proof. vm_compute. repeat split. Qed.
Example C108_example_flat :
  let (s, o) := run_main [[0; 0]; [0; 0]] 4 3 9 in
  o = Done /\ turns (sav s) = 1%nat /\ pairs (unl s) = [(1, 1)] /\ mods s = [2; 1]%nat.
Proof. vm_compute. repeat split. Qed.

Lemma run_free b : (0 < b)%Q -> exists s, run_main run_tree b b 1 = (s, Done) /\ (s_cost (sav s) == b)%Q /\
  mcont (lab s) = [IPair 0 0; IPair 0 1; IPair 1 0; IPair 1 1].
Proof.
  intro Hb. assert (E : Qle_bool b 0 = false).
  { destruct (Qle_bool b 0) eqn:E; [|reflexivity]. apply Qle_bool_iff in E. lra. }
  unfold run_main, cost_main. lazy -[Qle_bool Qplus cost_turns Qeq]. unfold cost_turns, sc_is_stop. cbn [crit sc_unlabel Nat.eqb sc_name sc_value sc_acost ge_value].
  change {| Qnum := 0; Qden := 1 |} with 0%Q. rewrite E. lazy -[Qle_bool Qplus Qeq]. eexists. split; [reflexivity|]. lazy -[Qplus Qeq]. split; [ring|reflexivity].
Qed.
(** The recorded cost is not the price of what was learnt: labels of any price [w] may come with a query for one label
    that costs 1, and 1 is recorded. Nor is it the price of what was asked: with a budget [b] of at least 1, [b] is recorded. *)
Theorem C108_recorded_cost_refuted : forall w b, (1 <= b)%Q -> (0 <= w)%Q ->
  exists (X : list nat) y tree train L0 U0 ms0 (fit : nat -> list nat -> list Z -> res nat) score
    (strat : unit -> list nat -> mlic -> mlic -> unit * res (list (nat * nat))) clock s,
  setting X y tree 3 2 train L0 U0 ms0 /\
  answers 3 2 train strat (fun _ => True) (fun L U l => in_data 3 2 l /\ in_train train l /\ (pairs U = pairs U0 -> price [1; w]%Q l == 1)) /\
  (exists c, sc_init NCost (Some b) 0 = Ok c /\
    cost_main X y tree 2 b fit score strat [] [] L0 U0 ms0 tt c clock 1 = (s, Done)) /\
  (forall p, holds (lab s) p -> ~ holds L0 p -> In p [(1, 0); (1, 1)]%nat) /\
  holds (lab s) (1, 0)%nat /\ holds (lab s) (1, 1)%nat /\ ~ holds L0 (1, 0)%nat /\ ~ holds L0 (1, 1)%nat /\
  (price [1; w]%Q [(1, 0); (1, 1)]%nat == 1 + w)%Q /\ (s_cost (sav s) == b)%Q.
Proof.
  intros w b Hb Hw. exists [0; 1; 2]%nat, run_y, run_tree, [0; 1]%nat, run_L, run_U, [7; 7]%nat, run_fit, run_score, first_strategy, (fun _ => 0%Q).
  destruct (run_free b) as (s & Er & Ec & Els); [lra|]. exists s.
  split; [apply run_setting; split; [reflexivity|repeat constructor]|]. split.
  { destruct (first_answers [0; 0]%Q 4 [0; 1]%nat) as [H1 _].
    - intros [|[|[|j]]]; cbn; unfold Qle; cbn; lia.
    - unfold Qle; cbn; lia.
    - intros t ms L U Q1 Q2 Q3 Q4 Q5. destruct (H1 t ms L U Q1 Q2 Q3 Q4 Q5) as [H2 H3]. split; [exact H2|].
      intros l El. destruct (H3 l El) as (G1 & G2 & _). split; [exact G1|]. split; [exact G2|]. intro EU.
      cbn [first_strategy snd] in El. injection El as <-. pose proof (proj1 Q3) as R. apply reachable_good in R.
      destruct R as (_ & _ & _ & Fo & _). rewrite (pairs_map _ U Fo), EU. cbn. unfold price, pairs_cost, sum_q. cbn [map snd nth fold_right]. ring. }
  split.
  { eexists. split; [reflexivity|]. exact Er. }
  assert (P : pairs (lab s) = [(0, 0); (0, 1); (1, 0); (1, 1)]).
  { unfold pairs. rewrite Els. reflexivity. }
  unfold holds. rewrite P. split; [|split; [|split; [|split; [|split; [|split]]]]].
  - intros [i j] Hi Hn. cbn in Hi, Hn. destruct Hi as [E|[E|[E|[E|[]]]]]; injection E as E1 E2;
      [exfalso; apply Hn; left; f_equal; lia|exfalso; apply Hn; right; left; f_equal; lia|left; f_equal; lia|right; left; f_equal; lia].
  - cbn; auto.
  - cbn; auto.
  - cbn. intros [E|[E|[]]]; discriminate.
  - cbn. intros [E|[E|[]]]; discriminate.
  - unfold price, pairs_cost, sum_q. cbn [map snd nth fold_right]. ring.
  - exact Ec.
Qed.
Print Assumptions C108_recorded_cost_refuted.

(** A sort of the columns. *)
Definition leb_neg (a b : option Q) : bool :=
  match a, b with None, _ => true | Some _, None => false | Some a, Some b => Qle_bool a b end.
Definition column_sort (C : nat) (sc : list (list (option Q))) : list (list nat) :=
  map (fun j => MetricModel.isort (fun a b => leb_neg (nth j (nth a sc []) None) (nth j (nth b sc []) None)) (seq 0 (List.length sc))) (seq 0 C).
Lemma sorted_nth {A} (R : A -> A -> Prop) d l : StronglySorted R l -> forall a b, (a < b < List.length l)%nat -> R (nth a l d) (nth b l d).
Proof.
  induction 1 as [|x l _ IH F]; intros a b Hab; [cbn in Hab; lia|]. destruct b as [|b]; [lia|]. cbn [List.length] in Hab.
  destruct a as [|a]; cbn [nth]; [rewrite Forall_forall in F; apply F, nth_In; lia|apply IH; lia].
Qed.
Lemma column_sorter n C : sorter n C (column_sort C).
Proof.
  intros sc o. subst o. unfold column_sort. split; [now rewrite map_length, seq_length|]. intros j Hj.
  set (m := map (fun i => map (fun j => sc i j) (seq 0 C)) (seq 0 n)). set (f := fun j => MetricModel.isort _ _).
  rewrite (nth_indep _ [] (f 0%nat)) by now rewrite map_length, seq_length. rewrite map_nth, seq_nth by exact Hj. cbn [Nat.add].
  assert (E : forall a, (a < n)%nat -> nth j (nth a m []) None = sc a j).
  { intros a Ha. unfold m. rewrite (nth_indep _ [] (map (fun j => sc 0%nat j) (seq 0 C))) by now rewrite map_length, seq_length.
    rewrite (map_nth (fun i => map (fun j => sc i j) (seq 0 C))), seq_nth by exact Ha. cbn [Nat.add].
    rewrite (nth_indep _ None (sc a 0%nat)) by now rewrite map_length, seq_length. now rewrite map_nth, seq_nth. }
  assert (Lm : List.length m = n) by (unfold m; now rewrite map_length, seq_length).
  assert (P : Permutation (f j) (seq 0 n)) by (unfold f; rewrite <- Lm; apply MetricProofs.isort_perm).
  split; [exact P|]. intros a b Hab. assert (Lf : List.length (f j) = n) by (rewrite (Permutation_length P); apply seq_length).
  assert (In1 : forall x, (x < n)%nat -> (nth x (f j) 0 < n)%nat).
  { intros x Hx. assert (In (nth x (f j) 0%nat) (seq 0 n)) as I by (eapply Permutation_in; [exact P|]; apply nth_In; lia). apply in_seq in I. lia. }
  assert (So : StronglySorted (fun a b => le_neg (nth j (nth a m []) None) (nth j (nth b m []) None)) (f j)).
  { apply MetricProofs.isort_sorted.
    - intros x z. destruct (nth j (nth x m []) None), (nth j (nth z m []) None); cbn; auto; try discriminate. apply Qle_bool_iff.
    - intros x z. destruct (nth j (nth x m []) None) as [u|], (nth j (nth z m []) None) as [w|]; cbn; auto; try discriminate.
      intro Q1. destruct (Qlt_le_dec w u) as [Q2|Q2]; [lra|]. apply Qle_bool_iff in Q2. congruence.
    - intros x z w. destruct (nth j (nth x m []) None), (nth j (nth z m []) None), (nth j (nth w m []) None); cbn; auto; try tauto. intros; lra. }
  pose proof (sorted_nth _ 0%nat _ So a b Hab) as R. cbn beta in R. rewrite !E in R by (apply In1; lia). exact R.
Qed.

(** [QueryCostSensitiveHALC] values the pairs that are not unlabelled as well, those of the test set among them, so that with it the
    loop may label pairs of the test set: instance 0 is labelled, 1 unlabelled, 2 kept for the test. *)
Definition halc_L : mlic := {| mcont := [IPair 0 0]; is_set := true; lsize := Some 1 |}.
Definition halc_U : mlic := {| mcont := [IPair 1 0]; is_set := true; lsize := Some 1 |}.
Definition halc_run := cost_main [0; 1; 2]%nat [[1]; [1]; [-1]] [[0]] 1 4 run_fit run_score
    (halc_cost_strategy 3 1 [1] 4 (fun _ _ _ => Some 1%Q) (column_sort 1)) [] [] halc_L halc_U [7]%nat tt
    {| sc_name := NCost; sc_value := Some 4%Q; sc_start := 0%Q; sc_iter := 0; sc_acost := 0%Q; sc_unlabel := 100; sc_percent := 0%Q |}
    (fun _ => 0%Q) 1.
Theorem C108_halc_refuted :
  exists (X : list nat) y tree train costs budget info orders (fit : nat -> list nat -> list Z -> res nat) score L0 U0 ms0 c clock s,
  setting X y tree 3 1 train L0 U0 ms0 /\ sorter 3 1 orders /\ (forall ms i j, info ms i j = Some 1%Q) /\
  sc_init NCost (Some (inject_Z (Z.of_nat budget))) 0 = Ok c /\
  cost_main X y tree 1 (inject_Z (Z.of_nat budget)) fit score (halc_cost_strategy 3 1 costs budget info orders) [] [] L0 U0 ms0 tt c clock 1 = (s, Done) /\
  ~ In 2%nat train /\ holds (lab s) (2, 0)%nat /\ exists xs ys, shown X y (lab s) 0 xs ys /\ In 2%nat xs.
Proof.
  exists [0; 1; 2]%nat, [[1]; [1]; [-1]], [[0]], [0; 1]%nat, [1], 4%nat, (fun _ _ _ => Some 1%Q), (column_sort 1), run_fit, run_score, halc_L, halc_U, [7]%nat.
  eexists _, (fun _ => 0%Q), (fst halc_run). split; [|split; [apply column_sorter|split; [reflexivity|split; [reflexivity|split; [vm_compute; reflexivity|]]]]].
  - split; [|split; [|split; [discriminate|reflexivity]]].
    + split; [reflexivity|]. split; [split; [reflexivity|repeat constructor]|]. split; [split; [reflexivity|repeat constructor]|]. repeat constructor.
    + split; [|split; [|split]].
      * split; [apply (mr_list 1 [IPair 0 0] (Some 1) halc_L []); [discriminate|reflexivity|reflexivity]|]. intros q [<-|[]]; cbn; lia.
      * split; [apply (mr_list 1 [IPair 1 0] (Some 1) halc_U []); [discriminate|reflexivity|reflexivity]|]. intros q [<-|[]]; cbn; lia.
      * intros q [<-|[]] [E|[]]; discriminate.
      * intros [i j]. unfold holds. cbn. split.
        -- intros [[E|[]]|[E|[]]]; injection E as E1 E2; split; lia.
        -- intros [[<-|[<-|[]]] Hj]; destruct j; [auto|lia|auto|lia].
  - split; [intros [E|[E|[]]]; discriminate|].
    assert (P : pairs (lab (fst halc_run)) = [(0, 0); (1, 0); (2, 0)]) by (vm_compute; reflexivity).
    split; [unfold holds; rewrite P; cbn; auto|]. exists [0; 1; 2]%nat, [1; 1; -1]. split; [|cbn; auto].
    exists [0; 1; 2]%nat. split; [repeat constructor|]. split.
    + intro i. unfold holds. rewrite P. cbn. split.
      * intros [<-|[<-|[<-|[]]]]; auto.
      * intros [E|[E|[E|[]]]]; injection E as E; [left|right; left|right; right; left]; lia.
    + split; [repeat constructor|reflexivity].
Qed.
Print Assumptions C108_halc_refuted.

Example C108_example_performance :
  sorter 3 2 (column_sort 2) /\
  answers (M := nat) 3 2 [0; 1]%nat (performance_cost_strategy 3 2 [1; 3] 4 (fun _ _ _ => 1%Q) (column_sort 2)) (fun _ => True)
    (fun _ U l => in_data 3 2 l /\ NoDup l /\ (forall p, In p l -> holds U p) /\ in_train [0; 1]%nat l /\ pairs_cost_z [1; 3] l <= 4).
Proof.
  split; [apply column_sorter|].
  exact (proj1 (C108_performance nat 3 2 [0; 1]%nat [1; 3] 4 (fun _ _ _ => 1%Q) (column_sort 2) eq_refl ltac:(repeat constructor; lia) ltac:(lia) ltac:(lia) (column_sorter 3 2))).
Qed.
Example C108_example_random : fair_draws (fun _ m => repeat 0%nat m) /\ class_costs 2 (Some [1; 3]%Q) = Ok [1; 3]%Q.
Proof.
  split; [|reflexivity]. intros k m. split; [apply repeat_length|]. intros i Hi. rewrite nth_repeat. lia.
Qed.
