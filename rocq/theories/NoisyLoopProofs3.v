From Verif Require Import Base BaseFacts IndexModel IndexSpec IndexProofs MLModel StateModel StateSpec StateProofs Dict OracleModel OracleSpec OracleProofs2 VoteProofs RepoModel NoisyLoopModel NoisyLoopSpec NoisyLoopProofs NoisyLoopProofs2.
From Coq Require Import String QArith Lia.
Local Open Scope Z_scope.

Lemma vote_succeeds p k names : can_answer p k names ->
  exists n z c, snd (get_majority_vote_pool p [KInt k] (Some names)) = Ok (n, KInt z, c).
Proof.
  intros [NE A].
  assert (M : exists rs zs, mapM (pool_ask p [KInt k]) names = Ok rs /\ heads rs (map KInt zs) /\ List.length zs = List.length names).
  { clear NE. induction names as [|n names IH]; [exists [], []; repeat split; constructor|].
    destruct IH as (rs & zs & H1 & H2 & H3); [intros; apply A; now right|].
    destruct (A n (or_introl eq_refl)) as (o & z & c & G & Q). exists (([KInt z], [c]) :: rs), (z :: zs).
    split; [|split].
    - cbn [mapM]. unfold pool_ask at 1. rewrite G, Q. cbn [bind]. now rewrite H1.
    - cbn. constructor; auto. exists []. reflexivity.
    - cbn. now rewrite H3. }
  destruct M as (rs & zs & M & H & LZ).
  assert (W : exists n l, winner (map KInt zs) n l).
  { destruct (most_common (counter (map KInt zs))) as [b|] eqn:E; [apply most_common_winner in E; eauto|].
    apply most_common_none in E. destruct zs; [destruct names; [congruence|discriminate]|discriminate]. }
  destruct W as (n & l & W).
  assert (IL : exists z, l = KInt z).
  { destruct W as (_ & _ & pre & post & E & _). assert (J : In l (map KInt zs)) by (rewrite E; apply in_app_iff; right; now left).
    apply in_map_iff in J. destruct J as (z & <- & _). eauto. }
  destruct IL as [z ->]. destruct (votes_of_results_conv rs _ n (KInt z) H W) as [c V].
  exists n, z, c. unfold get_majority_vote_pool, query_results_pool, pool_query_s. rewrite M.
  cbn [snd fst]. destruct (rmap _ _) as [r|] eqn:R; [|discriminate]. exact V.
Qed.

Lemma can_answer_dict p q k names : p_dict p = p_dict q -> can_answer p k names -> can_answer q k names.
Proof. intros E [A B]. split; auto. intros n Hn. rewrite <- E. auto. Qed.

Section Loop.
  Context {T : Type}.
  Variables (strat : T -> icol -> icol -> T * res answer) (train : list Z -> list mlabel -> res Q).
  Variables (tr te : list pyval) (L0 U0 : icol) (ls us : list Z) (ys : list Z) (p0 : pool) (c0 : scrit).
  Hypothesis sel : selects_unlabelled strat.
  Hypothesis (LNE : ls <> []) (APART : forall k, In k ls -> In k us -> False).
  Variable v : Q.
  Hypothesis (HN : sc_name c0 = NCost) (HV : sc_value c0 = Some v) (HA : (sc_acost c0 == 0)%Q) (HU : sc_unlabel c0 <> O).

  Hypothesis LIKE : like_the_package strat (fun k names => In k us -> can_answer p0 k names).
  Hypothesis TRAIN : forall a b, exists q, train a b = Ok q.

  Notation live := (live tr te L0 U0 ls us ys p0 c0).
  Notation inv := (inv tr te L0 U0 ls us ys p0).

  Lemma turn_full s recs asked s' o : live s recs asked -> turn strat train s = (s', o) ->
    match o with
    | Ok _ => (2 <= List.length (left_of us asked))%nat
    | Err x => (List.length (left_of us asked) <= 1)%nat /\ x = ValueErr /\ inv s' recs [] asked (List.length asked)
    end.
  Proof.
    intros LI TE.
    pose proof (i_u _ _ _ _ _ _ _ _ _ _ _ _ _ (l_inv _ _ _ _ _ _ _ _ _ _ _ _ LI)) as IU.
    pose proof (i_wu _ _ _ _ _ _ _ _ _ _ _ _ _ (l_inv _ _ _ _ _ _ _ _ _ _ _ _ LI)) as WU.
    pose proof (i_d _ _ _ _ _ _ _ _ _ _ _ _ _ (l_inv _ _ _ _ _ _ _ _ _ _ _ _ LI)) as PD.
    pose proof (LIKE (own s) (lab s) (unl s) _ IU (nodup_ids _ _ WU IU)) as LK.
    pose proof (turn_cases strat train tr te L0 U0 ls us ys p0 c0 sel LNE APART s recs asked s' o LI TE) as C.
    destruct (Nat.leb (List.length (left_of us asked)) 1) eqn:LB.
    - apply Nat.leb_le in LB. destruct o as [[]|x].
      + exfalso. unfold turn in TE. destruct (strat (own s) (lab s) (unl s)) as [w a]. cbn in LK. subst a. discriminate.
      + split; [exact LB|]. destruct C as [(extra & E & I & W)|C].
        * destruct W as [(x' & W)|[(W & -> & ->)|(k & names & W & _)]]; [congruence|auto|congruence].
        * exfalso. unfold turn in TE. destruct (strat (own s) (lab s) (unl s)) as [w a]. cbn in LK. subst a.
          destruct C as [(r & e & I & _)|(r & e & _ & P)]; [|congruence].
          injection TE as <- _.
          pose proof (i_l _ _ _ _ _ _ _ _ _ _ _ _ _ I) as I1. cbn in I1.
          pose proof (i_l _ _ _ _ _ _ _ _ _ _ _ _ _ (l_inv _ _ _ _ _ _ _ _ _ _ _ _ LI)) as I2.
          unfold ids in I1, I2. rewrite I2 in I1. apply (f_equal (@List.length key)) in I1.
          unfold known in I1. rewrite !map_length, !app_length, !map_length, app_length in I1. cbn in I1. lia.
    - apply Nat.leb_gt in LB. destruct LK as (k & names & SE & KU & CA). destruct o as [[]|x]; [lia|]. exfalso.
      destruct C as [(extra & E & I & W)|[(r & e & _ & X)|(r & e & _ & P)]].
      + destruct W as [(x' & W)|[(W & _)|(k' & names' & W & V)]]; [congruence|congruence|].
        rewrite SE in W. injection W as -> ->.
        destruct (vote_succeeds (oracles s) k' names') as (n & z & c & VS); [|now apply (V n z c)].
        apply (can_answer_dict p0); auto. apply CA. apply left_in in KU. tauto.
      + destruct (TRAIN (known ls (asked ++ [e])) (taught ys (asked ++ [e]))) as [q Hq]. congruence.
      + congruence.
  Qed.

  Hypothesis NU : NoDup us.

  Lemma left_le (s : nstate T) recs asked : live s recs asked ->
    (List.length (left_of us asked) + List.length asked = List.length us)%nat.
  Proof.
    intro LI. pose proof (l_inv _ _ _ _ _ _ _ _ _ _ _ _ LI) as I.
    pose proof (i_in _ _ _ _ _ _ _ _ _ _ _ _ _ I) as IN. pose proof (i_nd _ _ _ _ _ _ _ _ _ _ _ _ _ I) as ND.
    assert (P : Permutation.Permutation us (left_of us asked ++ map fst asked)).
    { apply Permutation.NoDup_Permutation; auto.
      - apply NoDup_app_intro; auto; [now apply NoDup_filter|]. intros x A B. apply left_in in A. tauto.
      - intro x. rewrite in_app_iff, left_in. split.
        + intro A. destruct (in_dec Z.eq_dec x (map fst asked)); auto.
        + intros [A|A]; [tauto|]. apply in_map_iff in A. destruct A as (e & <- & A). auto. }
    apply Permutation.Permutation_length in P. rewrite P, app_length, map_length. reflexivity.
  Qed.

  Lemma rounds_full clock : forall n j s recs asked s' o, live s recs asked -> thrifty v recs ->
    (asked <> [] -> left_of us asked <> []) -> (List.length (left_of us asked) <= n)%nat -> (1 <= n)%nat ->
    rounds strat train clock n j s = (s', o) ->
    exists recs' asked', inv s' recs' [] asked' (List.length asked') /\ thrifty v recs' /\
      (asked' <> [] -> left_of us asked' <> []) /\
      match o with
      | Running => False
      | Done => (v <= total_cost recs')%Q
      | Failed x => x = ValueErr /\ (List.length (left_of us asked') <= 1)%nat /\ (total_cost recs' < v)%Q
      end.
  Proof.
    induction n as [|n IH]; intros j s recs asked s' o LI TH LE LN N1 H; [lia|]; cbn [rounds] in H;
      destruct (stop_now tr te L0 U0 ls us ys p0 c0 v HN HV HA HU s recs asked (clock j) LI) as (b & B & BI); rewrite B in H; destruct b.
    - injection H as <- <-; exists recs, asked; split; [apply LI|]; split; [exact TH|]; split; [exact LE|];
      destruct (proj1 BI eq_refl) as [[A1 A2]|A]; [now apply LE in A1|exact A].
    - assert (LT : (total_cost recs < v)%Q).
      { apply Qnot_le_lt. intro X. assert (false = true) by (apply BI; auto). discriminate. }
      destruct (turn strat train s) as [s1 o1] eqn:TE. pose proof (turn_full _ _ _ _ _ LI TE) as F.
      pose proof (turn_cases strat train tr te L0 U0 ls us ys p0 c0 sel LNE APART s recs asked s1 o1 LI TE) as C.
      destruct o1 as [[]|x].
      + destruct C as (r & e & C & _). assert (LL : S (List.length (left_of us (asked ++ [e]))) = List.length (left_of us asked)).
        { pose proof (left_le _ _ _ LI) as X1. pose proof (left_le _ _ _ C) as X2. rewrite app_length in X2. cbn in X2. lia. }
        refine (IH _ _ _ _ _ _ C (thrifty_snoc _ _ _ TH LT) _ _ _ H); [|lia|lia].
        intros _ X. rewrite X in LL. cbn in LL. lia.
      + injection H as <- <-. destruct F as (F1 & -> & F3). exists recs, asked. split; [exact F3|]. split; [exact TH|]. split; [exact LE|]. auto.
  Qed.
End Loop.

(** ** The start *)
Lemma start_live {T} y tr te L U ls us p c (t : T) : halves y L U ls us ->
  exists r ys, first_repository y L = Ok r /\ true_labels y ls ys /\ NoDup us /\
    live tr te L U ls us ys p c {| lab := L; unl := U; repo := r; sav := sio_new tr te L U; crit := c; oracles := p; own := t; fits := [] |} [] [].
Proof.
  intros (RL & RU & IL & IU & NE & AP & BL). apply WF_reachable in RL, RU.
  destruct (first_repo y L ls IL NE BL) as (r & ys & E & TL & W & I & Y & X & C).
  exists r, ys. split; [exact E|]. split; [exact TL|]. split; [exact (nodup_ids _ _ RU IU)|].
  assert (LU : left_of us [] = us).
  { unfold left_of. cbn. clear. induction us as [|u us IH]; cbn; [reflexivity|now rewrite IH]. }
  constructor; cbn; auto.
  - constructor; cbn; auto.
    + unfold known. cbn. now rewrite app_nil_r.
    + now rewrite LU.
    + unfold taught. cbn. now rewrite app_nil_r.
    + unfold known. cbn. now rewrite app_nil_r.
    + now rewrite app_nil_r.
    + unfold total_cost. cbn. ring.
    + reflexivity.
    + intros e [].
    + constructor.
  - intro N. split; [auto|congruence].
Qed.

(** ** Alignment with any strategy *)
Lemma add_again c l k : WF c -> ids c l -> In k l ->
  exists c' w, ic_update c [VNp (KInt k)] = (c', Ok w) /\ WF c' /\ ids c' l.
Proof.
  intros W I H. unfold ic_update, ic_loop. destruct (ic_add c (VNp (KInt k))) as [c1 o] eqn:E.
  assert (J : In (norm (VNp (KInt k))) (elems c)) by (unfold ids in I; rewrite I; change (In (KInt k) (map KInt l)); now apply in_map).
  pose proof (WF_add c (VNp (KInt k)) W) as W1. pose proof (elems_add c (VNp (KInt k)) W) as EA.
  pose proof (add_present c (VNp (KInt k)) W J) as P. rewrite E in *. cbn [fst snd] in *.
  injection P as -> ->. exists c, ([WRepeat] ++ []). split; [reflexivity|]. auto.
Qed.

Section Aligned.
  Context {T : Type}.
  Variables (strat : T -> icol -> icol -> T * res answer) (train : list Z -> list mlabel -> res Q).
  Definition aligned (s : nstate T) : Prop :=
    WF (lab s) /\ WF (unl s) /\ (exists u, ids (unl s) u) /\ ids (lab s) (m_idx (repo s)) /\ m_idx (repo s) <> [] /\
    List.length (m_y (repo s)) = List.length (m_idx (repo s)) /\ m_width (repo s) = None /\ m_inst (repo s) = false.

  Lemma aligned_turn s s' o : aligned s -> turn strat train s = (s', o) -> aligned s'.
  Proof.
    intros (WL & WU & (u & IU) & IL & NE & LY & MW & MI) H.
    assert (SAME : forall s1, lab s1 = lab s -> unl s1 = unl s -> repo s1 = repo s -> aligned s1).
    { intros s1 E1 E2 E3. unfold aligned. rewrite E1, E2, E3. repeat (split; [eauto|]). auto. }
    unfold turn in H. destruct (strat (own s) (lab s) (unl s)) as [own1 [[k names|]|x]];
      try (injection H as <- _; apply SAME; reflexivity).
    destruct (get_majority_vote_pool (oracles s) [KInt k] (Some names)) as [p [[[n l] c]|x]];
      [|injection H as <- _; apply SAME; reflexivity].
    destruct (as_label l) as [z|x] eqn:AL; [|injection H as <- _; apply SAME; reflexivity].
    destruct l as [zz|]; [|discriminate]. injection AL as <-.
    assert (STEP : exists r L w, mr_update (repo s) [LNum zz] [k] None None = (r, Ok tt) /\
      ic_update (lab s) [VNp (KInt k)] = (L, Ok w) /\ WF L /\ ids L (m_idx r) /\ m_idx r <> [] /\
      List.length (m_y r) = List.length (m_idx r) /\ m_width r = None /\ m_inst r = false).
    { destruct (in_dec Z.eq_dec k (m_idx (repo s))) as [J|J].
      - destruct (repo_skips (repo s) k zz J) as (r & A1 & A2 & A3 & A4 & A5 & _).
        destruct (add_again (lab s) _ k WL IL J) as (L & w & B1 & B2 & B3). exists r, L, w.
        rewrite A2, A3, A4, A5. repeat (split; [assumption|]). assumption.
      - destruct (repo_adds (repo s) k zz MW MI J) as (r & A1 & A2 & A3 & A4 & A5 & _).
        destruct (add_int (lab s) _ k WL IL NE J) as (L & w & B1 & B2 & B3). exists r, L, w.
        rewrite A4, A5, !app_length, LY. repeat (split; [assumption|]).
        split; [destruct (m_idx (repo s)); discriminate|]. auto. }
    destruct STEP as (r & L & w & A1 & A2 & A3 & A4 & A5 & A6 & A7 & A8). rewrite A1, A2 in H.
    destruct (drop_int (unl s) u k WU IU) as (U & w' & B1 & B2 & B3). rewrite B1 in H.
    assert (NEW : forall s1, lab s1 = L -> unl s1 = U -> repo s1 = r -> aligned s1).
    { intros s1 E1 E2 E3. unfold aligned. rewrite E1, E2, E3. repeat (split; [eauto|]). auto. }
    destruct (mr_training r) as [[xs yy] ii]. destruct (train ii yy) as [q|x]; [|injection H as <- _; apply NEW; reflexivity].
    destruct (sio_add _ _) as [v1 [[]|x]]; [|injection H as <- _; apply NEW; reflexivity].
    destruct (sc_update _ _ _ _ _) as [c1 o1]. injection H as <- _. apply NEW; reflexivity.
  Qed.

  Lemma aligned_rounds clock : forall n j s s' o, aligned s -> rounds strat train clock n j s = (s', o) -> aligned s'.
  Proof.
    induction n as [|n IH]; intros j s s' o A H; cbn [rounds] in H;
      destruct (sc_is_stop (crit s) (clock j)) as [[|]|x]; try (injection H as <- _; exact A).
    destruct (turn strat train s) as [s1 [[]|x]] eqn:TE; apply aligned_turn in TE; auto.
    - eapply IH; eauto.
    - injection H as <- _. exact TE.
  Qed.
End Aligned.
