(** C106: the main loop with noisy oracles. *)
From Verif Require Import Base BaseFacts IndexModel IndexSpec IndexProofs MLModel StateModel StateSpec StateProofs Dict OracleModel OracleSpec OracleProofs2 RepoModel NoisyLoopModel NoisyLoopSpec NoisyLoopProofs NoisyLoopProofs2 NoisyLoopProofs3.
From Coq Require Import String QArith Lia.
Local Open Scope Z_scope.

Lemma loop_inv {T} (strat : T -> icol -> icol -> T * res answer) train y tr te L U p c t clock n s o ls us :
  halves y L U ls us -> noisy_loop strat train y tr te L U p c t clock n = Ok (s, o) ->
  exists r ys s1, first_repository y L = Ok r /\ true_labels y ls ys /\ NoDup us /\
    live tr te L U ls us ys p c {| lab := L; unl := U; repo := r; sav := sio_new tr te L U; crit := c; oracles := p; own := t; fits := [] |} [] [] /\
    rounds strat train clock n 0 {| lab := L; unl := U; repo := r; sav := sio_new tr te L U; crit := c; oracles := p; own := t; fits := [] |} = (s1, o) /\
    lab s = lab s1 /\ unl s = unl s1 /\ repo s = repo s1 /\ sav s = sav s1 /\ oracles s = oracles s1 /\ fits s = fits s1.
Proof.
  intros HV H. destruct (start_live y tr te L U ls us p c t HV) as (r & ys & E & TL & NU & LI).
  unfold noisy_loop in H. rewrite E in H. cbn [bind] in H.
  destruct (rounds strat train clock n 0 _) as [s1 o1] eqn:R. exists r, ys, s1.
  assert (o1 = o) as -> by (destruct o1; congruence).
  repeat (split; [assumption|]).
  destruct o; injection H as <-; cbn; auto 10.
Qed.

(** The loop starts on every split. *)
Theorem C106_starts : forall T (strat : T -> icol -> icol -> T * res answer) train y tr te L U p c t clock n ls us,
  halves y L U ls us -> exists s o, noisy_loop strat train y tr te L U p c t clock n = Ok (s, o).
Proof.
  intros T strat train y tr te L U p c t clock n ls us HV.
  destruct (start_live y tr te L U ls us p c t HV) as (r & ys & E & _).
  unfold noisy_loop. rewrite E. cbn [bind]. destruct (rounds _ _ _ _ _ _) as [s1 o1]. eauto.
Qed.
Print Assumptions C106_starts.

(** Whatever the strategy, the oracles and the model do, and however the loop is left, the repository holds
    exactly the labelled instances, in their order, with one label each. *)
Theorem C106_aligned : forall T (strat : T -> icol -> icol -> T * res answer) train y tr te L U p c t clock n s o ls us,
  halves y L U ls us -> noisy_loop strat train y tr te L U p c t clock n = Ok (s, o) ->
  exists labels l, mr_training (repo s) = (None, labels, l) /\ ids (lab s) l /\ NoDup l /\ List.length labels = List.length l.
Proof.
  intros T strat train y tr te L U p c t clock n s o ls us HV H.
  destruct (loop_inv _ _ _ _ _ _ _ _ _ _ _ _ _ _ _ _ HV H) as (r & ys & s1 & E & TL & NU & LI & R & EL & EU & ER & _).
  assert (A : aligned s1).
  { refine (aligned_rounds strat train clock n 0 _ s1 o _ R). pose proof (l_inv _ _ _ _ _ _ _ _ _ _ _ _ LI) as I.
    unfold aligned. split; [apply (i_wl _ _ _ _ _ _ _ _ _ _ _ _ _ I)|]. split; [apply (i_wu _ _ _ _ _ _ _ _ _ _ _ _ _ I)|].
    split; [eexists; apply (i_u _ _ _ _ _ _ _ _ _ _ _ _ _ I)|].
    rewrite (i_x _ _ _ _ _ _ _ _ _ _ _ _ _ I), (i_y _ _ _ _ _ _ _ _ _ _ _ _ _ I). split; [apply (i_l _ _ _ _ _ _ _ _ _ _ _ _ _ I)|].
    unfold known, taught. cbn [map]. rewrite !app_nil_r. split; [apply HV|].
    split; [rewrite map_length; clear - TL; induction TL; cbn; auto|].
    split; [apply (i_w _ _ _ _ _ _ _ _ _ _ _ _ _ I)|apply (i_i _ _ _ _ _ _ _ _ _ _ _ _ _ I)]. }
  destruct A as (WL & _ & _ & IL & _ & LY & _ & MI). rewrite ER, EL.
  exists (m_y (repo s1)), (m_idx (repo s1)). unfold mr_training. rewrite MI.
  split; [reflexivity|]. split; [exact IL|]. split; [exact (nodup_ids _ _ WL IL)|exact LY].
Qed.
Print Assumptions C106_aligned.

Lemma loop_facts {T} (strat : T -> icol -> icol -> T * res answer) train y tr te L U p c t clock n s o ls us :
  halves y L U ls us -> selects_unlabelled strat -> noisy_loop strat train y tr te L U p c t clock n = Ok (s, o) ->
  exists ys recs extra asked k, true_labels y ls ys /\ NoDup us /\ (List.length extra <= 1)%nat /\ (List.length asked <= S k)%nat /\
    ((forall e, o <> Failed e) -> extra = [] /\ k = List.length asked /\
       sio_workspace ic_update ic_difference_update (sav s) None = Ok (tr, te, lab s, unl s)) /\
    inv tr te L U ls us ys p s recs extra asked k.
Proof.
  intros HV SEL H.
  destruct (loop_inv _ _ _ _ _ _ _ _ _ _ _ _ _ _ _ _ HV H) as (r & ys & s1 & E & TL & NU & LI & R & EL & EU & ER & ES & EO & EF).
  destruct HV as (_ & _ & _ & _ & NE & AP & _).
  pose proof (rounds_cases strat train tr te L U ls us ys p c SEL NE AP clock n 0 _ _ _ _ _ LI R) as C.
  assert (CONV : forall recs extra asked k, inv tr te L U ls us ys p s1 recs extra asked k -> inv tr te L U ls us ys p s recs extra asked k).
  { intros recs extra asked k I. destruct I. constructor; rewrite ?EL, ?EU, ?ER, ?ES, ?EO, ?EF; assumption. }
  assert (LIVE : (exists recs' asked', live tr te L U ls us ys p c s1 recs' asked') ->
    exists ys recs extra asked k, true_labels y ls ys /\ NoDup us /\ (List.length extra <= 1)%nat /\ (List.length asked <= S k)%nat /\
    ((forall e, o <> Failed e) -> extra = [] /\ k = List.length asked /\
       sio_workspace ic_update ic_difference_update (sav s) None = Ok (tr, te, lab s, unl s)) /\
    inv tr te L U ls us ys p s recs extra asked k).
  { intros (recs & asked & [I RP LEN _ _ _ _]). exists ys, recs, [], asked, (List.length asked).
    split; [exact TL|]. split; [exact NU|]. split; [cbn; lia|]. split; [lia|]. split; [|auto]. intros _.
    split; [reflexivity|]. split; [reflexivity|]. rewrite EL, EU, ES. unfold sio_workspace. rewrite LEN.
    replace ((0 <=? _) && (_ <=? _))%bool with true by (symmetry; apply andb_true_intro; split; apply Z.leb_le; lia).
    rewrite Nat2Z.id, RP. cbn. now rewrite (i_st _ _ _ _ _ _ _ _ _ _ _ _ _ I), (i_se _ _ _ _ _ _ _ _ _ _ _ _ _ I). }
  destruct o as [| |x]; [exact (LIVE C)|exact (LIVE C)|].
  destruct C as (recs & extra & asked & k & C1 & C2 & C3). exists ys, recs, extra, asked, k.
  repeat (split; [assumption|]). split; [|auto]. intro X. exfalso. now apply (X x).
Qed.

(** The training set: the instances labelled at the start with their true labels, then the instances asked for,
    in order, each with the label most of its oracles gave. The true label of no other instance is used. Every
    model was fitted on such a set, one per round. The oracles record one line per round, and at most one more,
    for a round that failed. *)
Theorem C106_training : forall T (strat : T -> icol -> icol -> T * res answer) train y tr te L U p c t clock n s o ls us,
  halves y L U ls us -> selects_unlabelled strat -> noisy_loop strat train y tr te L U p c t clock n = Ok (s, o) ->
  exists ys lines more asked,
    true_labels y ls ys /\
    p_hist (oracles s) = p_hist p ++ lines ++ more /\
    (List.length more <= 1)%nat /\ (more <> [] -> exists e, o = Failed e) /\
    Forall2 (taught_by p) lines asked /\
    mr_training (repo s) = (None, map LNum (ys ++ map snd asked), ls ++ map fst asked) /\
    fits s = map (fun pre => (ls ++ map fst pre, map LNum (ys ++ map snd pre))) (prefixes asked).
Proof.
  intros T strat train y tr te L U p c t clock n s o ls us HV SEL H.
  destruct (loop_facts _ _ _ _ _ _ _ _ _ _ _ _ _ _ _ _ HV SEL H) as (ys & recs & extra & asked & k & TL & _ & X & _ & F & I).
  assert (TE : forall a, taught ys a = map LNum (ys ++ map snd a)).
  { intro a. unfold taught. now rewrite map_app, map_map. }
  exists ys, recs, extra, asked. split; [exact TL|]. split; [apply (i_h _ _ _ _ _ _ _ _ _ _ _ _ _ I)|]. split; [exact X|].
  split; [|split; [apply (i_t _ _ _ _ _ _ _ _ _ _ _ _ _ I)|split]].
  - intro NE. destruct o as [| |e]; [| |eauto]; destruct F as (F & _); try discriminate; congruence.
  - unfold mr_training. rewrite (i_i _ _ _ _ _ _ _ _ _ _ _ _ _ I), (i_y _ _ _ _ _ _ _ _ _ _ _ _ _ I), (i_x _ _ _ _ _ _ _ _ _ _ _ _ _ I), TE. reflexivity.
  - rewrite (i_f _ _ _ _ _ _ _ _ _ _ _ _ _ I). apply map_ext. intro a. now rewrite TE.
Qed.
Print Assumptions C106_training.

(** The instances asked for go from the unlabelled to the labelled ones: each of them was unlabelled at the start,
    none is asked for twice, and nothing else moves. *)
Theorem C106_pool : forall T (strat : T -> icol -> icol -> T * res answer) train y tr te L U p c t clock n s o ls us,
  halves y L U ls us -> selects_unlabelled strat -> noisy_loop strat train y tr te L U p c t clock n = Ok (s, o) ->
  exists ks us', ids (lab s) (ls ++ ks) /\ ids (unl s) us' /\ NoDup ks /\ NoDup us' /\
    (forall k, In k ks -> In k us) /\ (forall k, In k us' <-> In k us /\ ~ In k ks).
Proof.
  intros T strat train y tr te L U p c t clock n s o ls us HV SEL H.
  destruct (loop_facts _ _ _ _ _ _ _ _ _ _ _ _ _ _ _ _ HV SEL H) as (ys & recs & extra & asked & k & TL & NU & X & _ & F & I).
  exists (map fst asked), (left_of us asked).
  split; [apply (i_l _ _ _ _ _ _ _ _ _ _ _ _ _ I)|]. split; [apply (i_u _ _ _ _ _ _ _ _ _ _ _ _ _ I)|].
  split; [apply (i_nd _ _ _ _ _ _ _ _ _ _ _ _ _ I)|]. split; [now apply NoDup_filter|].
  split; [|intro; apply left_in]. intros a Ha. apply in_map_iff in Ha. destruct Ha as (e & <- & Ha).
  exact (i_in _ _ _ _ _ _ _ _ _ _ _ _ _ I e Ha).
Qed.
Print Assumptions C106_pool.

(** The accounts. The oracles charge the cost of everything asked for; unless an exception ended the loop, the saver
    records the same total, one query per round, and its workspace is the two collections. When an exception ends
    the loop, at most the last round is missing in the saver. The repository is told no cost. *)
Theorem C106_accounts : forall T (strat : T -> icol -> icol -> T * res answer) train y tr te L U p c t clock n s o ls us,
  halves y L U ls us -> selects_unlabelled strat -> noisy_loop strat train y tr te L U p c t clock n = Ok (s, o) ->
  exists lines more asked k,
    p_hist (oracles s) = p_hist p ++ lines ++ more /\ (List.length more <= 1)%nat /\ Forall2 (taught_by p) lines asked /\
    (p_cost (oracles s) == p_cost p + total_cost (lines ++ more))%Q /\
    (k <= List.length lines <= S k)%nat /\
    map queried (s_states (sav s)) = map (fun e => [VNp (KInt (fst e))]) (firstn k asked) /\
    (s_cost (sav s) == total_cost (firstn k lines))%Q /\
    m_cost (repo s) = 0%Q /\
    ((forall e, o <> Failed e) -> more = [] /\ k = List.length lines /\
       (s_cost (sav s) == p_cost (oracles s) - p_cost p)%Q /\
       sio_workspace ic_update ic_difference_update (sav s) None = Ok (tr, te, lab s, unl s)).
Proof.
  intros T strat train y tr te L U p c t clock n s o ls us HV SEL H.
  destruct (loop_facts _ _ _ _ _ _ _ _ _ _ _ _ _ _ _ _ HV SEL H) as (ys & recs & extra & asked & k & TL & NU & X & K & F & I).
  pose proof (inv_lengths _ _ _ _ _ _ _ _ _ _ _ _ _ I) as LR. pose proof (i_k _ _ _ _ _ _ _ _ _ _ _ _ _ I) as IK.
  exists recs, extra, asked, k. split; [apply (i_h _ _ _ _ _ _ _ _ _ _ _ _ _ I)|]. split; [exact X|].
  split; [apply (i_t _ _ _ _ _ _ _ _ _ _ _ _ _ I)|]. split; [apply (i_p _ _ _ _ _ _ _ _ _ _ _ _ _ I)|].
  split; [lia|]. split; [apply (i_s _ _ _ _ _ _ _ _ _ _ _ _ _ I)|]. split; [apply (i_sc _ _ _ _ _ _ _ _ _ _ _ _ _ I)|].
  split; [apply (i_c _ _ _ _ _ _ _ _ _ _ _ _ _ I)|].
  intro NF. destruct (F NF) as (-> & -> & W). split; [reflexivity|]. split; [auto|]. split; [|exact W].
  rewrite (i_p _ _ _ _ _ _ _ _ _ _ _ _ _ I), (i_sc _ _ _ _ _ _ _ _ _ _ _ _ _ I), app_nil_r, <- LR, firstn_all. ring.
Qed.
Print Assumptions C106_accounts.

Lemma cost_crit v now c : sc_init NCost (Some v) now = Ok c ->
  sc_name c = NCost /\ sc_value c = Some v /\ (sc_acost c == 0)%Q /\ sc_unlabel c <> O.
Proof. intro H. injection H as <-. cbn. repeat split; auto; discriminate. Qed.

Lemma hist_tail {A} (a b b' : list A) : a ++ b = a ++ b' -> b = b'.
Proof. apply app_inv_head. Qed.

(** The cost limit [v]: every round is begun with less than [v] spent; when the loop is left by its
    condition, at least [v] is spent or nothing is left to ask for; while it runs, less than [v] is spent. *)
Theorem C106_limit : forall T (strat : T -> icol -> icol -> T * res answer) train y tr te L U p c t clock n s o ls us v now lines,
  halves y L U ls us -> selects_unlabelled strat -> sc_init NCost (Some v) now = Ok c ->
  noisy_loop strat train y tr te L U p c t clock n = Ok (s, o) ->
  p_hist (oracles s) = p_hist p ++ lines ->
  (forall i, (i < List.length lines)%nat -> (total_cost (firstn i lines) < v)%Q) /\
  (o = Done -> (v <= total_cost lines)%Q \/ (us <> [] /\ ids (unl s) [])) /\
  (o = Running -> (total_cost lines < v)%Q /\ List.length lines = n).
Proof.
  intros T strat train y tr te L U p c t clock n s o ls us v now lines HV SEL HC H HL.
  destruct (loop_inv _ _ _ _ _ _ _ _ _ _ _ _ _ _ _ _ HV H) as (r & ys & s1 & E & TL & NU & LI & R & EL & EU & ER & ES & EO & EF).
  destruct HV as (_ & _ & _ & _ & NE & AP & _). destruct (cost_crit _ _ _ HC) as (C1 & C2 & C3 & C4).
  assert (T0 : thrifty v []) by (intros i Hi; cbn in Hi; lia).
  pose proof (rounds_cost strat train tr te L U ls us ys p c SEL NE AP v C1 C2 C3 C4 clock n 0 _ _ _ _ _ LI T0 R) as C.
  rewrite EO in HL. rewrite EU. destruct o as [| |x].
  - destruct C as (recs & asked & LV & TH & LT & LEN). destruct LV as [I _ _ _ _ _ _].
    pose proof (i_h _ _ _ _ _ _ _ _ _ _ _ _ _ I) as HH. rewrite app_nil_r, HL in HH. apply hist_tail in HH. subst lines.
    pose proof (inv_lengths _ _ _ _ _ _ _ _ _ _ _ _ _ I) as LR.
    split; [exact TH|]. split; [discriminate|]. intros _. split; [exact LT|]. cbn in LEN. lia.
  - destruct C as (recs & asked & LV & TH & D). destruct LV as [I _ _ _ _ _ _].
    pose proof (i_h _ _ _ _ _ _ _ _ _ _ _ _ _ I) as HH. rewrite app_nil_r, HL in HH. apply hist_tail in HH. subst lines.
    split; [exact TH|]. split; [|discriminate]. intros _. destruct D as [D|[D1 D2]]; [auto|]. right.
    pose proof (i_u _ _ _ _ _ _ _ _ _ _ _ _ _ I) as IU. rewrite D2 in IU. split; [|exact IU].
    destruct asked as [|e asked]; [congruence|]. pose proof (i_in _ _ _ _ _ _ _ _ _ _ _ _ _ I e (or_introl eq_refl)) as J.
    intros ->. destruct J.
  - destruct C as (recs & extra & asked & k & X1 & X2 & I & TH).
    pose proof (i_h _ _ _ _ _ _ _ _ _ _ _ _ _ I) as HH. rewrite HL in HH. apply hist_tail in HH. subst lines.
    split; [exact TH|]. split; discriminate.
Qed.
Print Assumptions C106_limit.

(** So when every round costs at least [q], fewer than [v / q + 1] rounds are begun. *)
Theorem C106_rounds : forall T (strat : T -> icol -> icol -> T * res answer) train y tr te L U p c t clock n s o ls us v now lines q,
  halves y L U ls us -> selects_unlabelled strat -> sc_init NCost (Some v) now = Ok c ->
  noisy_loop strat train y tr te L U p c t clock n = Ok (s, o) ->
  p_hist (oracles s) = p_hist p ++ lines -> (forall r, In r lines -> (q <= record_cost r)%Q) -> lines <> [] ->
  (inject_Z (Z.of_nat (List.length lines) - 1) * q < v)%Q.
Proof.
  intros T strat train y tr te L U p c t clock n s o ls us v now lines q HV SEL HC H HL HQ NE.
  destruct (C106_limit _ _ _ _ _ _ _ _ _ _ _ _ _ _ _ _ _ _ _ _ HV SEL HC H HL) as (TH & _).
  assert (LN : (0 < List.length lines)%nat) by (destruct lines; [congruence|cbn; lia]).
  specialize (TH (List.length lines - 1)%nat ltac:(lia)). eapply Qle_lt_trans; [|exact TH].
  assert (B : forall l, (forall r, In r l -> (q <= record_cost r)%Q) -> (inject_Z (Z.of_nat (List.length l)) * q <= total_cost l)%Q).
  { clear. intros l. induction l as [|r l IH]; intro HQ; [unfold total_cost; cbn; rewrite Qmult_0_l; apply Qle_refl|].
    cbn [List.length]. rewrite Nat2Z.inj_succ. unfold Z.succ. rewrite inject_Z_plus. unfold total_cost. cbn [map fold_right].
    fold (total_cost l). setoid_replace ((inject_Z (Z.of_nat (List.length l)) + inject_Z 1) * q)%Q
      with (q + inject_Z (Z.of_nat (List.length l)) * q)%Q by (unfold inject_Z at 2; ring).
    apply Qplus_le_compat; [apply HQ; now left|apply IH; intros; apply HQ; now right]. }
  replace (Z.of_nat (List.length lines) - 1) with (Z.of_nat (List.length (firstn (List.length lines - 1) lines)))
    by (rewrite firstn_length; lia).
  apply B. intros r0 Hr. apply HQ. rewrite <- (firstn_skipn (List.length lines - 1) lines). apply in_app_iff. now left.
Qed.
Print Assumptions C106_rounds.

(** With the strategies of the package, oracles that know the instances, and a model that can be fitted, the loop ends
    within as many rounds as there are unlabelled instances: by its limit, or, when at most one instance is left and
    less than the limit is spent, with a ValueError. An instance always stays unlabelled. *)
Theorem C106_ends : forall T (strat : T -> icol -> icol -> T * res answer) train y tr te L U p c t clock n s o ls us v now lines,
  halves y L U ls us -> selects_unlabelled strat -> like_the_package strat (fun k names => In k us -> can_answer p k names) ->
  (forall a b, exists q, train a b = Ok q) -> sc_init NCost (Some v) now = Ok c ->
  us <> [] -> (List.length us <= n)%nat ->
  noisy_loop strat train y tr te L U p c t clock n = Ok (s, o) ->
  p_hist (oracles s) = p_hist p ++ lines ->
  (exists k us', ids (unl s) (k :: us')) /\
  ((o = Done /\ (v <= total_cost lines)%Q) \/
   (o = Failed ValueErr /\ (total_cost lines < v)%Q /\ exists k, ids (unl s) [k])).
Proof.
  intros T strat train y tr te L U p c t clock n s o ls us v now lines HV SEL LK TR HC NEU LN H HL.
  destruct (loop_inv _ _ _ _ _ _ _ _ _ _ _ _ _ _ _ _ HV H) as (r & ys & s1 & E & TL & NU & LI & R & EL & EU & ER & ES & EO & EF).
  destruct HV as (_ & _ & _ & _ & NE & AP & _). destruct (cost_crit _ _ _ HC) as (C1 & C2 & C3 & C4).
  assert (T0 : thrifty v []) by (intros i Hi; cbn in Hi; lia).
  assert (L0 : left_of us [] = us).
  { unfold left_of. cbn. clear. induction us as [|u us IH]; cbn; [reflexivity|now rewrite IH]. }
  assert (N1 : (1 <= n)%nat) by (destruct us; [congruence|cbn in LN; lia]).
  assert (LN' : (List.length (left_of us []) <= n)%nat) by now rewrite L0.
  assert (LE0 : ([] : list (Z * Z)) <> [] -> left_of us [] <> []) by congruence.
  destruct (rounds_full strat train tr te L U ls us ys p c SEL NE AP v C1 C2 C3 C4 LK TR NU clock n 0 _ _ _ _ _ LI T0 LE0 LN' N1 R)
    as (recs & asked & I & TH & LE & D).
  rewrite EO in HL. pose proof (i_h _ _ _ _ _ _ _ _ _ _ _ _ _ I) as HH. rewrite app_nil_r, HL in HH. apply hist_tail in HH. subst lines.
  pose proof (i_u _ _ _ _ _ _ _ _ _ _ _ _ _ I) as IU. rewrite EU.
  assert (ONE : left_of us asked <> []).
  { destruct asked as [|e asked]; [now rewrite L0|]. apply LE. discriminate. }
  destruct (left_of us asked) as [|k us'] eqn:LU; [congruence|]. split; [eauto|].
  destruct o as [| |x]; [destruct D|left; auto|right]. destruct D as (-> & D1 & D2). split; [reflexivity|]. split; [exact D2|].
  destruct us'; [eauto|cbn in D1; lia].
Qed.
Print Assumptions C106_ends.

(** A failing fit comes too late to undo anything: if the model cannot be fitted, the first round ends with the instance
    labelled, stored and paid for, and with nothing recorded in the saver. *)
Theorem C106_unfit : forall T (strat : T -> icol -> icol -> T * res answer) train y tr te L U p c t clock n s o ls us v now x,
  halves y L U ls us -> selects_unlabelled strat -> like_the_package strat (fun k names => In k us -> can_answer p k names) ->
  (forall a b, train a b = Err x) -> sc_init NCost (Some v) now = Ok c -> (0 < v)%Q ->
  (2 <= List.length us)%nat -> (1 <= n)%nat ->
  noisy_loop strat train y tr te L U p c t clock n = Ok (s, o) ->
  o = Failed x /\ exists k line, In k us /\ ids (lab s) (ls ++ [k]) /\ m_idx (repo s) = ls ++ [k] /\
    p_hist (oracles s) = p_hist p ++ [line] /\ (p_cost (oracles s) == p_cost p + record_cost line)%Q /\
    s_states (sav s) = [] /\ List.length (fits s) = 1%nat.
Proof.
  intros T strat train y tr te L U p c t clock n s o ls us v now x HV SEL LK TR HC V0 L2 N1 H.
  destruct (loop_inv _ _ _ _ _ _ _ _ _ _ _ _ _ _ _ _ HV H) as (r & ys & s1 & E & TL & NU & LI & R & EL & EU & ER & ES & EO & EF).
  destruct HV as (_ & _ & _ & _ & NE & AP & _). destruct (cost_crit _ _ _ HC) as (C1 & C2 & C3 & C4).
  assert (L0 : left_of us [] = us).
  { unfold left_of. cbn. clear. induction us as [|u us IH]; cbn; [reflexivity|now rewrite IH]. }
  destruct n as [|n]; [lia|]. cbn [rounds] in R.
  destruct (stop_now tr te L U ls us ys p c v C1 C2 C3 C4 _ [] [] (clock 0%nat) LI) as (b & B & BI). rewrite B in R.
  destruct b.
  { exfalso. destruct (proj1 BI eq_refl) as [[X _]|X]; [congruence|]. unfold total_cost in X. cbn in X. now apply Qle_not_lt in X. }
  destruct (turn strat train _) as [s2 o2] eqn:TE in R.
  pose proof (turn_cases strat train tr te L U ls us ys p c SEL NE AP _ [] [] s2 o2 LI TE) as C.
  destruct o2 as [[]|x2].
  { exfalso. destruct C as (r1 & e & _ & q & C). rewrite TR in C. discriminate. }
  injection R as <- <-.
  destruct C as [(extra & _ & _ & W)|[(r1 & e & I & X)|(r1 & e & _ & X)]].
  - exfalso. pose proof (LK t L U us) as LK1. cbn [own lab unl oracles] in W.
    pose proof (i_u _ _ _ _ _ _ _ _ _ _ _ _ _ (l_inv _ _ _ _ _ _ _ _ _ _ _ _ LI)) as IU. cbn in IU. rewrite L0 in IU.
    specialize (LK1 IU NU). destruct (Nat.leb (List.length us) 1) eqn:LB; [apply Nat.leb_le in LB; lia|].
    destruct LK1 as (k & names & SE & KU & CA).
    destruct W as [(x' & W)|[(W & _)|(k' & names' & W & VV)]]; [congruence|congruence|].
    rewrite SE in W. injection W as <- <-. destruct (vote_succeeds p k names (CA KU)) as (n1 & z & cc & VS). now apply (VV n1 z cc).
  - rewrite TR in X. injection X as ->. split; [reflexivity|]. cbn [app] in I. exists (fst e), r1.
    rewrite EL, ER, EO, ES, EF. split; [apply (i_in _ _ _ _ _ _ _ _ _ _ _ _ _ I); now left|].
    split; [apply (i_l _ _ _ _ _ _ _ _ _ _ _ _ _ I)|]. split; [apply (i_x _ _ _ _ _ _ _ _ _ _ _ _ _ I)|].
    split; [apply (i_h _ _ _ _ _ _ _ _ _ _ _ _ _ I)|]. split.
    + rewrite (i_p _ _ _ _ _ _ _ _ _ _ _ _ _ I). unfold total_cost. cbn. ring.
    + split; [|rewrite (i_f _ _ _ _ _ _ _ _ _ _ _ _ _ I); reflexivity].
      pose proof (i_s _ _ _ _ _ _ _ _ _ _ _ _ _ I) as SS. cbn in SS. now apply map_eq_nil in SS.
  - congruence.
Qed.
Print Assumptions C106_unfit.

(** After a normal end the criterion is as new, so the same one serves the next fold. *)
Theorem C106_reset : forall T (strat : T -> icol -> icol -> T * res answer) train y tr te L U p c t clock n s ls us v now,
  halves y L U ls us -> selects_unlabelled strat -> sc_init NCost (Some v) now = Ok c ->
  noisy_loop strat train y tr te L U p c t clock n = Ok (s, Done) ->
  exists now', sc_init NCost (Some v) now' = Ok (crit s).
Proof.
  intros T strat train y tr te L U p c t clock n s ls us v now HV SEL HC H.
  destruct (start_live y tr te L U ls us p c t HV) as (r & ys & E & TL & NU & LI).
  destruct HV as (_ & _ & _ & _ & NE & AP & _). destruct (cost_crit _ _ _ HC) as (C1 & C2 & C3 & C4).
  unfold noisy_loop in H. rewrite E in H. cbn [bind] in H. destruct (rounds strat train clock n 0 _) as [s1 o1] eqn:R.
  destruct o1; try discriminate. injection H as <-.
  pose proof (rounds_cases strat train tr te L U ls us ys p c SEL NE AP clock n 0 _ _ _ _ _ LI R) as (recs & asked & [_ _ _ LN LV _ _]).
  exists (clock n). cbn. unfold sc_reset. rewrite LN, LV, C1, C2. reflexivity.
Qed.
Print Assumptions C106_reset.

(** ** A case: four instances, two of them disagreeing oracles out of three *)
Definition noisy_first (t : nat) (L U : icol) : nat * res answer :=
  match cont U with
  | [] | [_] => (S t, Ok Alone)
  | v :: _ => match norm v with
              | KInt k => (S t, Ok (Two k ["a"%string; "b"%string; "c"%string]))
              | KStr _ => (S t, Err TypeErr)
              end
  end.

Definition noisy_pool : pool :=
  {| p_dict := [("a"%string, {| o_type := TInt; o_inst := false; o_costf := true; o_exa := [];
                   o_ind := map (fun i => (KInt i, (KInt 0, Some 1%Q))) [0; 1; 2; 3] |});
                ("b"%string, {| o_type := TInt; o_inst := false; o_costf := true; o_exa := [];
                   o_ind := map (fun i => (KInt i, (KInt 1, Some 2%Q))) [0; 1; 2; 3] |});
                ("c"%string, {| o_type := TInt; o_inst := false; o_costf := false; o_exa := [];
                   o_ind := map (fun i => (KInt i, (KInt (i mod 2), None))) [0; 1; 2; 3] |})];
     p_cost := 0%Q; p_hist := [] |}.

Definition noisy_L : icol := fst (ic_init (DList [VKey (KInt 0)])).
Definition noisy_U : icol := fst (ic_init (DList [VKey (KInt 1); VKey (KInt 2); VKey (KInt 3)])).
Definition noisy_crit (v : Q) : scrit :=
  {| sc_name := NCost; sc_value := Some v; sc_start := 0%Q; sc_iter := 0; sc_acost := 0%Q; sc_unlabel := 100; sc_percent := 0%Q |}.

Lemma noisy_first_ok : selects_unlabelled noisy_first /\ like_the_package noisy_first (fun k names => In k [1; 2; 3] -> can_answer noisy_pool k names).
Proof.
  split.
  - intros t L U k names H. unfold noisy_first in H. unfold elems.
    destruct (cont U) as [|v [|w l]]; [discriminate|discriminate|]. cbn [map]. left.
    destruct (norm v) as [z|]; cbn in H; [|discriminate]. injection H as -> _. reflexivity.
  - intros t L U us I N. unfold ids, elems in I. unfold noisy_first.
    destruct us as [|a [|b us]]; destruct (cont U) as [|v [|w l]]; try discriminate; cbn; try reflexivity.
    injection I as E1 E2 E3. rewrite E1. cbn. exists a, ["a"%string; "b"%string; "c"%string].
    split; [reflexivity|]. split; [now left|]. intro J. split; [discriminate|].
    intros n Hn. cbn in J, Hn.
    destruct Hn as [<-|[<-|[<-|[]]]]; destruct J as [<-|[<-|[<-|[]]]]; do 3 eexists; split; reflexivity.
Qed.

Lemma noisy_halves : halves [0; 1; 1; 0] noisy_L noisy_U [0] [1; 2; 3].
Proof.
  split; [apply reach_list|]. split; [apply reach_list|]. split; [reflexivity|]. split; [reflexivity|].
  split; [discriminate|]. split.
  - intros k [<-|[]] H. cbn in H. destruct H as [H|[H|[H|[]]]]; discriminate.
  - intros k [<-|[]]. cbn. lia.
Qed.

(** With a limit of 6 the loop stops after two rounds (each costs 1 + 2 + 1); with a limit of 100 it fails with the
    last instance unlabelled. The label stored for instance 2 is not its true label. *)
Example C106_case : exists s s',
  noisy_loop noisy_first (fun _ _ => Ok (1#2)%Q) [0; 1; 1; 0] [] [] noisy_L noisy_U noisy_pool (noisy_crit 6) 0%nat (fun _ => 0%Q) 9 = Ok (s, Done) /\
  mr_training (repo s) = (None, [LNum 0; LNum 1; LNum 0], [0; 1; 2]) /\ (s_cost (sav s) == 8)%Q /\
  noisy_loop noisy_first (fun _ _ => Ok (1#2)%Q) [0; 1; 1; 0] [] [] noisy_L noisy_U noisy_pool (noisy_crit 100) 0%nat (fun _ => 0%Q) 9
    = Ok (s', Failed ValueErr) /\ ids (unl s') [3].
Proof. do 2 eexists. split; [vm_compute; reflexivity|]. split; [vm_compute; reflexivity|]. split; [vm_compute; reflexivity|].
  split; [vm_compute; reflexivity|]. vm_compute. reflexivity. Qed.

(** So the loop does not always end by its condition. *)
Theorem C106_done_refuted :
  ~ forall T (strat : T -> icol -> icol -> T * res answer) train y tr te L U p c t clock n s o ls us v now,
      halves y L U ls us -> selects_unlabelled strat -> like_the_package strat (fun k names => In k us -> can_answer p k names) ->
      (forall a b, exists q, train a b = Ok q) -> sc_init NCost (Some v) now = Ok c -> (List.length us <= n)%nat ->
      noisy_loop strat train y tr te L U p c t clock n = Ok (s, o) -> o = Done.
Proof.
  intro H. destruct C106_case as (_ & s' & _ & _ & _ & E & _). destruct noisy_first_ok as [S1 S2].
  specialize (H nat noisy_first (fun _ _ => Ok (1#2)%Q) [0; 1; 1; 0] [] [] noisy_L noisy_U noisy_pool (noisy_crit 100) 0%nat (fun _ => 0%Q) 9%nat
    s' (Failed ValueErr) [0] [1; 2; 3] 100%Q 0%Q noisy_halves S1 S2).
  assert (X : Failed ValueErr = Done); [|discriminate]. apply H; auto; [eauto|cbn; lia].
Qed.
Print Assumptions C106_done_refuted.
