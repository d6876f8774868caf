(** Proofs about the cost-sensitive main loop: when it ends, and the strategies of the package. *)
From Verif Require Import Base BaseFacts SetFacts IndexModel MLModel MLSpec MLProofs MLProofs2 MLProofs3 MLProps CostModel CostSpec CostProofs CostProofs2 CostProofs3
  CostProps StateModel StateSpec StateProofs StateProofs2 SelfProofs CostLoopModel CostLoopSpec CostLoopProofs CostLoopProofs2.
From Coq Require Import String QArith Sorted Lqa.
Local Open Scope Z_scope.

Lemma division_after tree y n C train L0 U0 asks L U : division n C train L0 U0 -> matrix_of C C tree ->
  collection n C L -> collection n C U -> apart L U ->
  after tree y L0 U0 asks L U -> Forall (fun a => in_data n C a /\ in_train train a) asks -> division n C train L U.
Proof.
  intros (K0 & K1 & _ & G) Ht KL KU A [H1 H2] Fo. split; [exact KL|]. split; [exact KU|]. split; [exact A|]. intro p.
  assert (Bt : (exists a, In a asks /\ brought tree y a p) -> In (fst p) train /\ (snd p < C)%nat).
  { intros (a & Ha & Hb). rewrite Forall_forall in Fo. destruct (Fo a Ha) as [Hd Hn]. destruct Hb as [Hb|Hb].
    - split; [now apply Hn|now apply Hd].
    - split; [|exact (proj2 (implied_bounds tree y C n a p Ht Hd Hb))]. destruct Hb as (j & Hj & _). now apply (Hn (fst p, j)). }
  rewrite <- G. split.
  - intros [Q1|Q1]; [apply H1 in Q1; destruct Q1 as [Q1|Q1]; [now left|apply G; now apply Bt]|apply H2 in Q1; right; apply Q1].
  - intros Q1. destruct (holds_dec L p) as [Q2|Q2]; [now left|]. right. apply H2. rewrite H1 in Q2. destruct Q1 as [Q1|Q1]; tauto.
Qed.

Section Rounds.
  Context {B M T : Type}.
  Variables (X : list B) (y tree : list (list Z)) (n C : nat) (train : list nat) (budget : Q) (fit : nat -> list B -> list Z -> res M)
    (score : list M -> res Q) (strat : T -> list M -> mlic -> mlic -> T * res (list (nat * nat))) (J : T -> Prop) (Pr : list (nat * nat) -> Prop).
  Hypothesis HD : data X y tree n C train.
  Hypothesis HA : answers n C train strat J (fun _ _ l => in_data n C l /\ Pr l).
  Variables (tr te : list mlidx) (L0 U0 : mlic) (c0 : scrit) (v : Q).
  Hypothesis K0 : collection n C L0.
  Hypothesis K1 : collection n C U0.
  Hypothesis A0 : apart L0 U0.
  Hypothesis T0 : of_train train U0.
  Hypothesis NU : pairs U0 <> [].
  Hypothesis N0 : sc_name c0 = NCost.
  Hypothesis V0 : sc_value c0 = Some v.
  Hypothesis C0 : sc_acost c0 = 0%Q.
  Hypothesis S0 : sc_unlabel c0 <> 0%nat.
  Hypothesis Bp : (0 < budget)%Q.
  Notation turn := (cost_turn X y tree C budget fit score strat).
  Notation rounds := (cost_turns X y tree C budget fit score strat).
  Notation inv := (inv X y tree n C budget fit score J Pr tr te L0 U0 c0).
  Notation hurt := (hurt X y tree n C budget fit score Pr tr te L0 U0).
  Notation paid k := (inject_Z (Z.of_nat k) * budget)%Q.

  Lemma nopercent : sc_name c0 = NPercent -> pairs U0 <> [].
  Proof. auto. Qed.

  (** The test of the loop. *)
  Lemma stop_test s asks now : inv s asks ->
    exists b, sc_is_stop (crit s) now = Ok b /\
      (b = true <-> pairs (unl s) = [] \/ (v <= paid (turns (sav s)))%Q).
  Proof.
    intros (_ & KU & _ & _ & _ & La & Af & _ & _ & _ & _ & _ & _ & Co & _ & (N1 & N2 & _ & H)). unfold sc_is_stop.
    rewrite N1, N0, N2, V0. cbn [ge_value].
    assert (E : forall c, collection n C c -> (List.length (mcont c) = 0%nat <-> pairs c = [])).
    { intros c [R _]. apply reachable_good in R. destruct R as (_ & _ & _ & F & _). rewrite (pairs_map _ c F), map_length.
      destruct (pairs c); cbn; split; congruence. }
    destruct H as [[H1 H2]|(H1 & H2 & _)].
    - rewrite H2. replace (Nat.eqb (sc_unlabel c0) 0) with false by (symmetry; now apply Nat.eqb_neq).
      exists (Qle_bool v (sc_acost c0)). split; [reflexivity|]. rewrite Qle_bool_iff, C0, H1.
      destruct asks; [|rewrite H1 in La; discriminate]. split.
      + intro Q1. right. cbn [List.length Z.of_nat] in *. setoid_replace (inject_Z 0 * budget)%Q with 0%Q by (unfold inject_Z; ring). exact Q1.
      + intros [Q1|Q1]; [|cbn [List.length Z.of_nat] in Q1; setoid_replace (inject_Z 0 * budget)%Q with 0%Q in Q1 by (unfold inject_Z; ring); exact Q1]. exfalso. apply NU. destruct (pairs U0) as [|q l] eqn:EU; [reflexivity|].
        destruct (coll_bounds n C U0 q K1) as (p & -> & _); [rewrite EU; now left|].
        assert (Hp : holds (unl s) p). { apply Af. split; [unfold holds; rewrite EU; now left|]. intros (a & [] & _). }
        unfold holds in Hp. rewrite Q1 in Hp. destruct Hp.
    - rewrite H1. destruct (Nat.eqb_spec (List.length (mcont (unl s))) 0) as [Ez|Nz].
      + exists true. split; [reflexivity|]. split; [|reflexivity]. intros _. left. now apply E.
      + exists (Qle_bool v (sc_acost (crit s))). split; [reflexivity|]. rewrite Qle_bool_iff, (H2 N0), Co.
        split; [now right|]. intros [Q1|Q1]; [exfalso; apply Nz; now apply E|exact Q1].
  Qed.

  Lemma turn_count s asks : inv s asks ->
    match turn s with
    | (s1, Ok _) => turns (sav s1) = S (turns (sav s)) /\ exists a, inv s1 (asks ++ [a])
    | (s1, Err _) => turns (sav s1) = turns (sav s) /\ exists extra, hurt s1 asks extra
    end.
  Proof.
    clear S0.
    intro I. pose proof (turn_inv X y tree n C train budget fit score strat J Pr HD HA tr te L0 U0 c0 T0 s asks nopercent I) as TI.
    assert (La : List.length asks = turns (sav s)) by apply I.
    destruct (turn s) as [s1 [u|e]].
    - destruct TI as [a I1]. split; [|eauto]. assert (La1 : List.length (asks ++ [a]) = turns (sav s1)) by apply I1.
      rewrite app_length in La1. cbn in La1. lia.
    - destruct TI as [ex I1]. split; [|eauto]. assert (La1 : List.length asks = turns (sav s1)) by apply I1. lia.
  Qed.

  Lemma rounds_count clock k : forall j s asks, inv s asks ->
    let (s1, o) := rounds clock k j s in
    (turns (sav s) <= turns (sav s1) <= turns (sav s) + k)%nat /\
    (turns (sav s1) = turns (sav s) \/ (paid (turns (sav s1) - 1) < v)%Q) /\
    match o with
    | Done => pairs (unl s1) = [] \/ (v <= paid (turns (sav s1)))%Q
    | Running => turns (sav s1) = (turns (sav s) + k)%nat /\ pairs (unl s1) <> [] /\ (paid (turns (sav s1)) < v)%Q
    | Failed _ => True
    end.
  Proof.
    induction k as [|k IH]; intros j s asks I; cbn [cost_turns];
      (destruct (stop_test s asks (clock j) I) as (b & E & Hb); rewrite E; destruct b;
       [split; [lia|split; [now left|now apply Hb]]|]).
    - split; [lia|]. split; [now left|]. split; [lia|]. split; [intro Q1; assert (false = true) by (apply Hb; now left); discriminate|].
      destruct (Qlt_le_dec (paid (turns (sav s))) v) as [Q1|Q1]; [exact Q1|]. assert (false = true) by (apply Hb; now right). discriminate.
    - assert (Lt : (paid (turns (sav s)) < v)%Q).
      { destruct (Qlt_le_dec (paid (turns (sav s))) v) as [Q1|Q1]; [exact Q1|]. assert (false = true) by (apply Hb; now right). discriminate. }
      pose proof (turn_count s asks I) as TC. destruct (turn s) as [s1 [u|e]].
      + destruct TC as (Tc & a & I1). specialize (IH (S j) s1 _ I1). destruct (rounds clock k (S j) s1) as [s2 o].
        destruct IH as (H1 & H2 & H3). rewrite Tc in *. split; [lia|]. split.
        * right. destruct H2 as [H2|H2]; [|exact H2]. rewrite H2. replace (S (turns (sav s)) - 1)%nat with (turns (sav s)) by lia. exact Lt.
        * destruct o; auto. destruct H3 as (H4 & H5 & H6). split; [lia|]. auto.
      + destruct TC as (Tc & _). rewrite Tc. split; [lia|]. split; [now left|exact Logic.I].
  Qed.

  Lemma turn_fine s asks : forthcoming n C train strat J -> trainable fit score -> inv s asks -> pairs (unl s) <> [] ->
    exists s1, turn s = (s1, Ok tt).
  Proof.
    intros HF [HT HS] I Nu. pose proof I as (KL & KU & A & Jt & F & _ & Af & _).
    assert (TU : of_train train (unl s)) by (intros p Hp; apply T0; now apply Af).
    destruct (HF (own s) (mods s) (lab s) (unl s) Jt (proj1 F) KL KU A TU Nu) as (l & El & Nl).
    pose proof (turn_cases X y tree n C train budget fit score strat J Pr HD HA tr te L0 U0 c0 T0 s asks I) as TC.
    destruct (strat (own s) (mods s) (lab s) (unl s)) as [t r]. cbn [snd] in El. subst r.
    destruct l as [|p0 l]; [congruence|]. destruct TC as (r & L & U & w1 & w2 & _ & _ & _ & _ & _ & _ & _ & _ & _ & _ & E1 & E2 & TC).
    destruct (fit_all X y C fit L (mods s)) as [ms [u|e]].
    2:{ destruct TC as (_ & (j & xs & ys & _ & _ & E) & _). destruct (HT j xs ys) as [m Em]. congruence. }
    destruct TC as [Fm TC]. destruct (HS ms) as [q Eq]. rewrite Eq in TC. cbn zeta in TC. rewrite TC.
    pose proof (turn_inv X y tree n C train budget fit score strat J Pr HD HA tr te L0 U0 c0 T0 s asks nopercent I) as TI.
    rewrite TC in TI.
    assert (W : rebuilt (fst (sio_add (sav s) (rec budget r q))) = Ok (tr, te, L, U)).
    { destruct I as (_ & _ & _ & _ & _ & _ & _ & _ & S1 & S2 & S3 & S4 & W & _).
      destruct (rec_facts budget r q (sav s)) as (_ & P1 & P2 & _ & B1 & _ & B3 & B4 & B5 & B6).
      unfold rebuilt. eapply (workspace_snoc (ml_update true) (ml_difference_update true) (sav s) (rec budget r q)); eauto; rewrite P2; eassumption. }
    assert (Z1 : sio_workspace (ml_update true) (ml_difference_update true) (fst (sio_add (sav s) (rec budget r q))) (Some 0) = Ok (tr, te, L0, U0)).
    { destruct (rec_facts budget r q (sav s)) as (_ & _ & _ & _ & B1 & _ & B3 & B4 & B5 & B6).
      change (Some 0) with (Some (Z.of_nat 0)). rewrite (workspace_older (ml_update true) (ml_difference_update true) (sav s) (rec budget r q) 0 _); auto; [|lia].
      exact (zero_space X y tree n C budget fit score J Pr tr te L0 U0 c0 s asks I). }
    destruct (criterion tr te L0 U0 c0 s _ L U ltac:(apply I) W Z1 nopercent) as (O1 & _). rewrite O1. eauto.
  Qed.

  Lemma rounds_fine clock k : forthcoming n C train strat J -> trainable fit score ->
    forall j s asks, inv s asks -> forall e, snd (rounds clock k j s) <> Failed e.
  Proof.
    intros HF HT. induction k as [|k IH]; intros j s asks I e; cbn [cost_turns];
      (destruct (stop_test s asks (clock j) I) as (b & E & Hb); rewrite E; destruct b; [discriminate|]); [discriminate|].
    assert (Nu : pairs (unl s) <> []) by (intro Q1; assert (false = true) by (apply Hb; now left); discriminate).
    destruct (turn_fine s asks HF HT I Nu) as [s1 Et]. pose proof (turn_count s asks I) as TC. rewrite Et in *.
    destruct TC as (_ & a & I1). eapply IH. exact I1.
  Qed.
  (** A measure of the strategy's state that grows by one with each call. *)
  Variable f : T -> nat.
  Hypothesis Hf : forall t ms L U, f (fst (strat t ms L U)) = S (f t).

  Lemma turn_own s asks : inv s asks -> f (own (fst (turn s))) = S (f (own s)).
  Proof.
    intro I. pose proof (turn_cases X y tree n C train budget fit score strat J Pr HD HA tr te L0 U0 c0 T0 s asks I) as TC.
    pose proof (Hf (own s) (mods s) (lab s) (unl s)) as E. destruct (strat (own s) (mods s) (lab s) (unl s)) as [t [[|p l]|e]]; cbn [fst] in E;
      [rewrite TC; exact E| |rewrite TC; exact E].
    destruct TC as (r & L & U & w1 & w2 & _ & _ & _ & _ & _ & _ & _ & _ & _ & _ & _ & _ & TC).
    destruct (fit_all X y C fit L (mods s)) as [ms [u|e]]; [|destruct TC as (_ & _ & ->); exact E].
    destruct TC as [_ TC]. destruct (score ms) as [q|e]; rewrite TC; exact E.
  Qed.

  Lemma rounds_own clock k : forall j s asks, inv s asks ->
    let (s1, o) := rounds clock k j s in
    match o with Failed _ => (f (own s) + (turns (sav s1) - turns (sav s)) <= f (own s1) <= S (f (own s) + (turns (sav s1) - turns (sav s))))%nat
    | _ => f (own s1) = (f (own s) + (turns (sav s1) - turns (sav s)))%nat end /\ (turns (sav s) <= turns (sav s1))%nat.
  Proof.
    clear S0.
    induction k as [|k IH]; intros j s asks I; cbn [cost_turns]; destruct (sc_is_stop (crit s) (clock j)) as [[|]|e];
      try (split; lia).
    pose proof (turn_count s asks I) as TC. pose proof (turn_own s asks I) as TO. destruct (turn s) as [s1 [u|e]]; cbn [fst] in TO.
    - destruct TC as (Tc & a & I1). specialize (IH (S j) s1 _ I1). destruct (rounds clock k (S j) s1) as [s2 [| |e]]; lia.
    - destruct TC as (Tc & _). lia.
  Qed.
End Rounds.

(** The strategies. *)
Lemma random_answers {M} n C train cost costs budget : class_costs C cost = Ok costs -> (0 <= budget)%Q ->
  answers (M := M) n C train (random_cost_strategy C cost budget) fair_draws
    (fun _ U l => in_data n C l /\ NoDup l /\ (forall p, In p l -> holds U p) /\ in_train train l /\ (price costs l <= budget)%Q).
Proof.
  intros Ec Hb t ms L U Jt KL KU A TU. split; [intros k m; apply Jt|]. intros l E. unfold random_cost_strategy in E. cbn [fst snd] in E.
  destruct (to_pairs n C U KU) as (N & I & _).
  destruct (cost_random_select C cost budget (map to_pair (mcont U)) _) as [[l'|]|] eqn:Es; try discriminate. injection E as ->.
  destruct (C55_budget C cost budget _ _ l N Hb Es) as (costs' & Ec' & N' & I' & P & _). rewrite Ec in Ec'. injection Ec' as <-.
  assert (IU : forall p, In p l -> holds U p) by (intros p Hp; apply I; now apply I').
  split; [intros p Hp; eapply holds_bounds; [exact KU|now apply IU]|]. split; [exact N'|]. split; [exact IU|]. split; [|exact P]. intros p Hp. apply TU. auto.
Qed.

Lemma random_ends {M} n C cost costs budget t (ms : list M) L U : class_costs C cost = Ok costs -> Forall (fun c => 0 <= c)%Q costs -> (0 <= budget)%Q ->
  fair_draws t -> collection n C U -> (price costs (map to_pair (mcont U)) <= budget)%Q ->
  snd (random_cost_strategy C cost budget t ms L U) = Err ValueErr.
Proof.
  intros Ec Hc Hb Jt KU P. destruct (to_pairs n C U KU) as (N & I & _). unfold random_cost_strategy. cbn [snd].
  set (pool := map to_pair (mcont U)) in *. destruct (Jt 0%nat (List.length pool)) as [J1 J2].
  destruct (C55_outcome C cost budget pool (t 0%nat (List.length pool)) costs N Hb Ec Hc) as [_ H].
  - apply Forall_forall. intros p Hp. apply I in Hp. apply (holds_bounds n C U p KU Hp).
  - exact J1.
  - intros k Hk. rewrite J1 in Hk. now apply J2.
  - rewrite (H P). reflexivity.
Qed.

Lemma sorter_uncertain n C orders unl u : sorter n C orders ->
  sorts_columns n C (uncertain unl u) (orders (performance_score n C unl u)).
Proof. intro H. exact (H (uncertain unl u)). Qed.

Lemma pairs_cost_z_one costs p : pairs_cost_z costs [p] = nth (snd p) costs 0.
Proof. unfold pairs_cost_z. cbn. lia. Qed.

Lemma performance_answers {M} n C train costs budget u orders : List.length costs = C -> Forall (fun c => 0 <= c) costs ->
  (C <= budget)%nat -> (C <= n)%nat -> sorter n C orders ->
  answers (M := M) n C train (performance_cost_strategy n C costs budget u orders) (fun _ => True)
    (fun _ U l => in_data n C l /\ NoDup l /\ (forall p, In p l -> holds U p) /\ in_train train l /\ pairs_cost_z costs l <= Z.of_nat budget).
Proof.
  intros Hl Hc Hb Hn Ho t ms L U _ KL KU A TU. split; [exact Logic.I|]. intros l E. unfold performance_cost_strategy in E. cbn [snd] in E.
  destruct (to_pairs n C U KU) as (N & I & _).
  destruct (C63_select n C budget (map to_pair (mcont U)) (u ms) costs _ Hl Hc Hb Hn (sorter_uncertain n C orders _ _ Ho))
    as (sel & w & E' & N' & I' & P & _). rewrite E in E'. injection E' as <-.
  split; [intros p Hp; split; apply (I' p Hp)|]. split; [exact N'|]. assert (IU : forall p, In p l -> holds U p) by (intros p Hp; apply I; now apply I').
  split; [exact IU|]. split; [|exact P]. intros p Hp. apply TU. auto.
Qed.

Lemma nth_last (l : list nat) d : l <> [] -> nth (List.length l - 1) l d = last l d.
Proof.
  induction l as [|a [|b l] IH]; [congruence|reflexivity|]. intros _. change (last (a :: b :: l) d) with (last (b :: l) d).
  rewrite <- IH by discriminate. cbn [List.length]. rewrite !Nat.sub_succ, !Nat.sub_0_r. reflexivity.
Qed.

Lemma performance_forthcoming {M} n C train costs budget u orders : List.length costs = C -> Forall (fun c => 0 <= c <= Z.of_nat budget) costs ->
  (C <= budget)%nat -> (2 <= budget)%nat -> (C <= n)%nat -> sorter n C orders ->
  (forall ms i j, (0 < u ms i j)%Q) ->
  forthcoming (M := M) n C train (performance_cost_strategy n C costs budget u orders) (fun _ => True).
Proof.
  intros Hl Hc Hb H2 Hn Ho Hu t ms L U _ _ KL KU A TU Nu. unfold performance_cost_strategy. cbn [snd].
  destruct (to_pairs n C U KU) as (N & I & _).
  assert (Hc' : Forall (fun c => 0 <= c) costs) by (eapply Forall_impl; [|exact Hc]; cbn; lia).
  pose proof (sorter_uncertain n C orders (map to_pair (mcont U)) (u ms) Ho) as So.
  destruct (C63_select n C budget _ (u ms) costs _ Hl Hc' Hb Hn So) as (sel & w & E & _ & _ & _ & W & Best).
  rewrite E. exists sel. split; [reflexivity|]. intros ->. cbn in W.
  (* an unlabelled pair, and the best of its column *)
  assert (Ex : exists p, holds U p).
  { destruct (pairs U) as [|q l] eqn:Ep; [congruence|]. destruct (coll_bounds n C U q KU) as (p & -> & _); [rewrite Ep; now left|].
    exists p. unfold holds. rewrite Ep. now left. }
  destruct Ex as [p Hp]. destruct (holds_bounds n C U p KU Hp) as [B1 B2]. destruct So as [S1 S2].
  destruct (S2 (snd p) B2) as [Pe Mo]. set (ord := nth (snd p) _ []) in *.
  assert (Lo : List.length ord = n) by (rewrite (Permutation_length Pe); apply seq_length).
  set (top := nth (n - 1) ord 0%nat).
  assert (Ht : In (top, snd p) (map to_pair (mcont U))).
  { assert (Ip : In (fst p) ord) by (eapply Permutation_in; [apply Permutation_sym; exact Pe|apply in_seq; lia]).
    apply (In_nth _ _ 0%nat) in Ip. destruct Ip as (a & Ha & Ea).
    destruct (Nat.eq_dec a (n - 1)) as [->|Na].
    - unfold top. rewrite Ea. apply I. now destruct p.
    - assert (Le := Mo a (n - 1)%nat ltac:(lia)). fold top in Le. rewrite Ea in Le. unfold uncertain in Le.
      rewrite <- surjective_pairing in Le. rewrite (proj2 (pair_mem_iff p _) (proj2 (I p) Hp)) in Le.
      destruct (pair_mem (top, snd p) _) eqn:Pm; [now apply pair_mem_iff|destruct Le]. }
  assert (Q1 : (sum_q (map (fun p => u ms (fst p) (snd p)) [(top, snd p)]) <= w)%Q).
  { apply Best.
    - repeat constructor; auto.
    - intros q [<-|[]]. split; [exact Ht|]. split; [cbn [snd]; rewrite S1; exact B2|]. cbn [fst snd]. fold ord.
      assert (Er : rev ord = top :: rev (removelast ord)).
      { assert (No : ord <> []) by (intro E0; rewrite E0 in Lo; cbn in Lo; lia).
        rewrite (app_removelast_last 0%nat No) at 1. rewrite rev_app_distr. cbn. f_equal.
        unfold top. rewrite <- Lo. symmetry. now apply nth_last. }
      rewrite Er. destruct (budget - 1)%nat as [|b] eqn:Eb; [lia|]. now left.
    - rewrite pairs_cost_z_one. cbn [snd]. rewrite Forall_forall in Hc. apply Hc. apply nth_In. lia. }
  cbn in Q1. specialize (Hu ms top (snd p)). lra.
Qed.
