(** Theorems about comparing strategies on the folds of one toolbox. *)
From Verif Require Import Base BaseFacts SetFacts IndexModel IndexSpec IndexProofs MLModel StateModel StateSpec StateProofs StateProofs2
  StateProofs3 ExpModel ExpSpec ExpProofs ExpProps SaveProofs CompareModel CompareSpec CompareProofs.
From Coq Require Import Ascii String QArith DecimalString DecimalNat Decimal.
Local Open Scope Z_scope.

Lemma pool_len k : cont (fold_U (k_fold k)) <> [] -> ic_len (s_U (fold_io (k_fold k))) <> 0%nat.
Proof. unfold fold_io, ic_len. cbn. destruct (cont (fold_U (k_fold k))); cbn; congruence. Qed.

Lemma call_alike perf fuel k c d r c' : cont (fold_U (k_fold k)) <> [] -> alike c d ->
  compare_call perf fuel c k = Some (r, c') -> exists d', compare_call perf fuel d k = Some (r, d').
Proof.
  intros NE A. unfold compare_call. destruct (perf _ _) as [p|e]; [|intro H; injection H as <- _; eauto].
  destruct (compare_loop perf fuel k [] _ _ _ c) as [[[io|e] c1]|] eqn:E; intro H; try discriminate; injection H as <- _;
    destruct (loop_alike perf fuel k [] _ _ _ c d _ _ (pool_len k NE) A E) as [d' ->]; eauto.
Qed.
Lemma call_back perf fuel k name v s c0 c r c' : sc_init name v s = Ok c0 -> cont (fold_U (k_fold k)) <> [] -> alike c c0 -> sc_start c = s ->
  compare_call perf fuel c k = Some (r, c') ->
  match r with Ok _ => sc_init name v (k_end k) = Ok c' | Err _ => alike c' c0 /\ sc_start c' = s end.
Proof.
  intros H0 NE A S0. unfold compare_call. destruct (perf _ _) as [p|e]; [|intro H; injection H as <- <-; auto].
  destruct (compare_loop perf fuel k [] _ _ _ c) as [[r1 c1]|] eqn:E; [|discriminate].
  pose proof (init_facts _ _ _ _ H0) as (_ & _ & F3 & _).
  pose proof (loop_back perf c0 name v s H0 fuel k [] _ _ _ c r1 c1 (pool_len k NE) (or_introl (conj eq_refl (conj A (eq_trans S0 (eq_sym F3))))) E) as B.
  destruct r1; intro H; injection H as <- <-; exact B.
Qed.

(** ** Each result is the result of that call alone *)
(** Calls of [main_loop] one after another with one stopping criterion, whatever raises in them and wherever: each gives the
    result it gives with a criterion of its own, made when the last call that returned came to its end. *)
Lemma each_result perf fuel name v : forall ks rs t0 c0 c c', sc_init name v t0 = Ok c0 -> alike c c0 -> sc_start c = t0 ->
  (forall k, In k ks -> cont (fold_U (k_fold k)) <> []) -> compare_all perf fuel c ks = Some (rs, c') ->
  forall i k r, nth_error ks i = Some k -> nth_error rs i = Some r ->
    exists ci c1, sc_init name v (last_end t0 (firstn i (combine ks rs))) = Ok ci /\ compare_call perf fuel ci k = Some (r, c1).
Proof.
  induction ks as [|k0 ks IH]; intros rs t0 c0 c c' H0 A S0 NE H i k r Ek Er; [destruct i; discriminate|].
  cbn [compare_all] in H. destruct (compare_call perf fuel c k0) as [[r0 c1]|] eqn:E0; [|discriminate].
  destruct (compare_all perf fuel c1 ks) as [[rs0 c2]|] eqn:E1; [|discriminate]. injection H as <- <-.
  pose proof (NE k0 (or_introl eq_refl)) as NE0. pose proof (call_back perf fuel k0 name v t0 c0 c r0 c1 H0 NE0 A S0 E0) as B.
  destruct i as [|i].
  - injection Ek as <-. injection Er as <-. destruct (call_alike perf fuel k0 c c0 r0 c1 NE0 A E0) as [d' D]. exists c0, d'. auto.
  - cbn [nth_error] in Ek, Er. cbn [combine firstn]. unfold last_end. cbn [fold_left snd fst]. destruct r0 as [x|e].
    + apply (IH rs0 (k_end k0) c1 c1 c2 B (alike_refl c1)); auto. apply (init_facts _ _ _ _ B). intros; apply NE; now right.
    + destruct B as [B1 B2]. apply (IH rs0 t0 c0 c1 c2 H0 B1 B2); auto. intros; apply NE; now right.
Qed.

Theorem C113_each : forall perf fuel name v t0 c0 ks rs c, sc_init name v t0 = Ok c0 ->
  (forall k, In k ks -> cont (fold_U (k_fold k)) <> []) -> compare_all perf fuel c0 ks = Some (rs, c) ->
  forall i k r, nth_error ks i = Some k -> nth_error rs i = Some r ->
    exists ci c', sc_init name v (last_end t0 (firstn i (combine ks rs))) = Ok ci /\ compare_call perf fuel ci k = Some (r, c').
Proof. intros perf fuel name v t0 c0 ks rs c H0 NE H. eapply each_result; eauto using alike_refl. apply (init_facts _ _ _ _ H0). Qed.
Print Assumptions C113_each.

(** Without a time limit, what a strategy gives on a fold does not depend on what ran before it. *)
Lemma init_alike name v s t c d : name <> NTime -> sc_init name v s = Ok c -> sc_init name v t = Ok d -> alike c d.
Proof.
  intros N H1 H2. destruct (init_facts _ _ _ _ H1) as (A & B & _ & D & E & F & G), (init_facts _ _ _ _ H2) as (A' & B' & _ & D' & E' & F' & G').
  split; [congruence|]. split; [congruence|]. split; [congruence|]. intro now. unfold sc_is_stop. rewrite A, A', B, B', D, D', E, E', F, F', G, G'.
  destruct name; try reflexivity. congruence.
Qed.
Theorem C113_alone : forall perf fuel name v t0 c0 ks rs c, sc_init name v t0 = Ok c0 -> name <> NTime ->
  (forall k, In k ks -> cont (fold_U (k_fold k)) <> []) -> compare_all perf fuel c0 ks = Some (rs, c) ->
  forall i k r, nth_error ks i = Some k -> nth_error rs i = Some r -> exists c', compare_call perf fuel c0 k = Some (r, c').
Proof.
  intros perf fuel name v t0 c0 ks rs c H0 NT NE H i k r Ek Er.
  destruct (C113_each perf fuel name v t0 c0 ks rs c H0 NE H i k r Ek Er) as (ci & c' & Hi & E).
  eapply call_alike; [apply NE; eapply nth_error_In, Ek| |exact E]. eapply init_alike; eauto.
Qed.
Print Assumptions C113_alone.

(** ** All calls begin alike *)
(** Whatever ran before and whatever the strategies do: two results for the same fold have the same initial point, the same
    training and test indexes and the same first sets. *)
Theorem C113_same_start : forall perf fuel c d k1 k2 x1 x2 c1 c2, k_fold k1 = k_fold k2 ->
  compare_call perf fuel c k1 = Some (Ok x1, c1) -> compare_call perf fuel d k2 = Some (Ok x2, c2) ->
  Ok (x_init x1) = perf (cont (fold_L (k_fold k1))) (f_test (k_fold k1)) /\ x_init x1 = x_init x2 /\
  s_train (x_io x1) = s_train (x_io x2) /\ s_test (x_io x1) = s_test (x_io x2) /\
  step_sets (x_io x1) 0 (fold_L (k_fold k1)) (fold_U (k_fold k1)) /\ step_sets (x_io x2) 0 (fold_L (k_fold k1)) (fold_U (k_fold k1)).
Proof.
  intros perf fuel c d k1 k2 x1 x2 c1 c2 F. unfold compare_call. rewrite <- F.
  destruct (perf (cont (fold_L (k_fold k1))) (f_test (k_fold k1))) as [p|]; [|discriminate].
  destruct (compare_loop perf fuel k1 [] _ _ _ c) as [[[io1|] d1]|] eqn:E1; try discriminate.
  destruct (compare_loop perf fuel k2 [] _ _ _ d) as [[[io2|] d2]|] eqn:E2; try discriminate.
  intros H1 H2. injection H1 as <- <-. injection H2 as <- <-. cbn [x_init x_io].
  destruct (loop_kept _ _ _ _ _ _ _ _ _ _ E1) as (A & B & C & D), (loop_kept _ _ _ _ _ _ _ _ _ _ E2) as (A' & B' & C' & D').
  split; [reflexivity|]. split; [reflexivity|]. split; [congruence|]. split; [congruence|].
  unfold step_sets. rewrite !workspace_zero, A, B, A', B'. split; reflexivity.
Qed.
Print Assumptions C113_same_start.

(** ** The results *)
Definition picked (k : call) (d : list pyval) (h : list (list pyval)) (L U : icol) : list pyval :=
  match k_strat k d h L U with Ok sel => sel | Err _ => [] end.

Lemma calm_call perf fuel k ls us name v t0 c0 : calm perf k ls us -> sc_init name v t0 = Ok c0 -> crit_ok name v -> (List.length us <= fuel)%nat ->
  exists x c', compare_call perf fuel c0 k = Some (Ok x, c') /\ sc_init name v (k_end k) = Ok c' /\
    Ok (x_init x) = perf (cont (fold_L (k_fold k))) (f_test (k_fold k)) /\ keeps_indexes (k_fold k) ls us (x_io x) /\
    stopped name (crit_value (sc_value c0)) t0 (k_clock k) us (x_io x) /\
    forall i, (i < List.length (s_states (x_io x)))%nat -> exists L U L' U' sel p e,
      step_sets (x_io x) i L U /\ step_sets (x_io x) (S i) L' U' /\ nth_error (s_states (x_io x)) i = Some e /\
      k_strat k (cont L) (firstn i (map queried (s_states (x_io x)))) L U = Ok sel /\
      perf (cont L') (f_test (k_fold k)) = Ok p /\ records e sel p.
Proof.
  intros (Hf & Sv & Pf & St) H0 V Fu.
  set (pf := fun d te => match perf d te with Ok p => p | Err _ => SNum 0%Q end).
  assert (Pf' : forall d te, perf d te = Ok (pf d te)) by (intros d te; unfold pf; destruct (Pf d te) as [p ->]; reflexivity).
  assert (K : forall d h L U, k_strat k d h L U = Ok (picked k d h L U)) by (intros d h L U; unfold picked; destruct (St d h L U) as (sel & -> & _); reflexivity).
  assert (Se : selects (picked k)).
  { intros d h L U NE. destruct (St d h L U) as (sel & E & Q). rewrite K in E. injection E as ->. apply Q, NE. }
  destruct (fold_result pf fuel (picked k) (k_clock k) name v t0 c0 (k_fold k) ls us Hf Se H0 V Fu) as (L & U & io & c & R & Kp & Sp & Re).
  unfold run_fold in R. injection R as R.
  pose proof (loop_is_al perf k (picked k) pf Sv Pf' K fuel _ _ _ _ _ _ _ _ _ R) as E.
  unfold compare_call. rewrite Pf', E. do 2 eexists. split; [reflexivity|]. cbn [x_init x_io]. split.
  - assert (NE : cont (fold_U (k_fold k)) <> []) by (apply (fold_facts _ _ _ Hf)).
    pose proof (init_facts _ _ _ _ H0) as (_ & _ & F3 & _).
    exact (loop_back perf c0 name v t0 H0 fuel k [] _ _ _ c0 _ _ (pool_len k NE) (or_introl (conj eq_refl (conj (alike_refl c0) eq_refl))) E).
  - split; [reflexivity|]. split; [exact Kp|]. split; [exact Sp|]. intros i Hi. destruct (Re i Hi) as (L1 & U1 & L2 & U2 & e & A & B & C & D).
    exists L1, U1, L2, U2, (picked k (cont L1) (firstn i (map queried (s_states io))) L1 U1), (pf (cont L2) (f_test (k_fold k))), e. auto 10.
Qed.

(** Calls in which nothing raises: each gives the performance of the model fitted on the first labelled set, and for each query
    the strategy's selection and the performance after it; the sets partition the fold's indexes, and the call ends at the
    first step at which the criterion holds, the time being counted from the end of the call before it. *)
Theorem C113_results : forall perf fuel name v t0 c0 ks idx, sc_init name v t0 = Ok c0 -> crit_ok name v ->
  Forall2 (fun k p => calm perf k (fst p) (snd p)) ks idx -> (forall p, In p idx -> (List.length (snd p) <= fuel)%nat) ->
  exists xs c, compare_all perf fuel c0 ks = Some (map Ok xs, c) /\ List.length xs = List.length ks /\
    forall i k ls us x, nth_error ks i = Some k -> nth_error idx i = Some (ls, us) -> nth_error xs i = Some x ->
      Ok (x_init x) = perf (cont (fold_L (k_fold k))) (f_test (k_fold k)) /\ keeps_indexes (k_fold k) ls us (x_io x) /\
      stopped name (crit_value (sc_value c0)) (last (t0 :: map k_end (firstn i ks)) t0) (k_clock k) us (x_io x) /\
      forall j, (j < List.length (s_states (x_io x)))%nat -> exists L U L' U' sel p e,
        step_sets (x_io x) j L U /\ step_sets (x_io x) (S j) L' U' /\ nth_error (s_states (x_io x)) j = Some e /\
        k_strat k (cont L) (firstn j (map queried (s_states (x_io x)))) L U = Ok sel /\
        perf (cont L') (f_test (k_fold k)) = Ok p /\ records e sel p.
Proof.
  intros perf fuel name v t0 c0 ks idx H0 V F. revert t0 c0 H0.
  induction F as [|k [ls us] ks idx Hk F IH]; intros t0 c0 H0 Fu.
  - exists [], c0. split; [reflexivity|]. split; [reflexivity|]. intros [|i] ? ? ? ? X; discriminate.
  - cbn [fst snd] in Hk. destruct (calm_call perf fuel k ls us name v t0 c0 Hk H0 V (Fu _ (or_introl eq_refl))) as (x & c1 & E & H1 & R).
    destruct (IH (k_end k) c1 H1 (fun p Hp => Fu p (or_intror Hp))) as (xs & c2 & E2 & L2 & R2).
    exists (x :: xs), c2. cbn [compare_all]. rewrite E, E2. split; [reflexivity|]. split; [cbn; congruence|].
    assert (VC : sc_value c1 = sc_value c0) by (destruct (init_facts _ _ _ _ H0) as (_ & -> & _), (init_facts _ _ _ _ H1) as (_ & -> & _); reflexivity).
    intros [|i] k' ls' us' x' Ek Ei Ex; cbn [nth_error] in Ek, Ei, Ex.
    + injection Ek as <-. injection Ei as <- <-. injection Ex as <-. exact R.
    + specialize (R2 i k' ls' us' x' Ek Ei Ex). rewrite VC in R2. cbn [firstn map].
      replace (last (t0 :: k_end k :: map k_end (firstn i ks)) t0) with (last (k_end k :: map k_end (firstn i ks)) (k_end k)); [exact R2|].
      change (last (t0 :: k_end k :: map k_end (firstn i ks)) t0) with (last (k_end k :: map k_end (firstn i ks)) t0).
      clear. generalize (map k_end (firstn i ks)) as l. intro l. generalize (k_end k) at 1 3 as a. revert l. 
      assert (G : forall (l : list Q) a d d', last (a :: l) d = last (a :: l) d').
      { induction l as [|b l IH]; intros a d d'; [reflexivity|]. change (last (b :: l) d = last (b :: l) d'). apply IH. }
      intros l a. apply G.
Qed.
Print Assumptions C113_results.

(** ** Equal numbers of queries *)
Lemma filter_one (l : list key) v : NoDup l -> In v l -> S (List.length (filter (fun k => negb (key_eqb k v)) l)) = List.length l.
Proof.
  induction l as [|a l IH]; intros N I; [destruct I|]. inversion N as [|? ? Na Nl]; subst. cbn [filter].
  destruct (key_eqb a v) eqn:E.
  - apply key_eqb_eq in E. subst a. cbn [negb List.length]. f_equal. clear IH I N Nl. induction l as [|b l IH]; [reflexivity|].
    cbn [filter]. destruct (key_eqb b v) eqn:E; [apply key_eqb_eq in E; subst b; elim Na; now left|]. cbn. f_equal. apply IH. intro H. apply Na. now right.
  - cbn [negb List.length]. f_equal. apply IH; [exact Nl|]. destruct I as [->|I]; [rewrite key_eqb_refl in E; discriminate|exact I].
Qed.

Lemma next_sets (io : sio icol pyval) i L U L' U' e l : step_sets io i L U -> step_sets io (S i) L' U' -> nth_error (s_states io) i = Some e -> sel_of e = Ok l ->
  exists w, ic_difference_update U l = (U', Ok w).
Proof.
  unfold step_sets, sio_workspace. intros H1 H2 En Es. assert (B : (i < List.length (s_states io))%nat) by (apply nth_error_Some; congruence).
  destruct (Z.leb_spec 0 (Z.of_nat i)); [|lia]. destruct (Z.leb_spec (Z.of_nat i) (Z.of_nat (List.length (s_states io)))); [|lia].
  destruct (Z.leb_spec 0 (Z.of_nat (S i))); [|lia]. destruct (Z.leb_spec (Z.of_nat (S i)) (Z.of_nat (List.length (s_states io)))); [|lia].
  cbn [andb] in H1, H2. rewrite Nat2Z.id in H1, H2. unfold sio_replay in *.
  assert (FS : firstn (S i) (s_states io) = firstn i (s_states io) ++ [e]).
  { clear - En. revert i En. induction (s_states io) as [|a l IH]; intros [|i] En; try discriminate; cbn in En; [injection En as ->; reflexivity|].
    change (a :: firstn (S i) l = a :: (firstn i l ++ [e])). f_equal. apply IH, En. }
  rewrite FS, foldM_app in H2. destruct (MLModel.foldM _ (s_L io, s_U io) (firstn i (s_states io))) as [[L0 U0]|]; [|discriminate].
  cbn [bind fst snd] in H1. injection H1 as -> ->. cbn [MLModel.foldM] in H2. unfold replay_one in H2. rewrite Es in H2. cbn [bind fst snd] in H2.
  destruct (ic_difference_update U l) as [U1 [w|]]; [|discriminate]. destruct (ic_update L l) as [L1 [w'|]]; [|discriminate].
  cbn [bind fst snd] in H2. injection H2 as -> ->. eauto.
Qed.
Lemma records_sel e sel p : records e sel p -> sel_of e = Ok sel.
Proof. destruct e as [s|d]; [|intros []]. intros [H _]. unfold sel_of. rewrite H. reflexivity. Qed.

Lemma pool_sizes perf k ls us x : calm perf k ls us -> one_by_one k -> keeps_indexes (k_fold k) ls us (x_io x) ->
  step_sets (x_io x) 0 (fold_L (k_fold k)) (fold_U (k_fold k)) ->
  (forall i, (i < List.length (s_states (x_io x)))%nat -> exists L U, step_sets (x_io x) i L U /\ cont U <> []) ->
  (forall i, (i < List.length (s_states (x_io x)))%nat -> exists L U L' U' sel p e,
      step_sets (x_io x) i L U /\ step_sets (x_io x) (S i) L' U' /\ nth_error (s_states (x_io x)) i = Some e /\
      k_strat k (cont L) (firstn i (map queried (s_states (x_io x)))) L U = Ok sel /\ perf (cont L') (f_test (k_fold k)) = Ok p /\ records e sel p) ->
  forall i L U, (i <= List.length (s_states (x_io x)))%nat -> step_sets (x_io x) i L U -> WF U /\ (ic_len U + i = List.length us)%nat.
Proof.
  intros (Hf & _ & _ & St) One _ S0 NE Re i. destruct (fold_facts _ _ _ Hf) as (_ & WU & _ & _ & _ & _ & _ & LU & _).
  induction i as [|i IH]; intros L U B H.
  - unfold step_sets in H, S0. cbn [Z.of_nat] in H, S0. rewrite S0 in H. injection H as <- <-. rewrite Nat.add_0_r. auto.
  - destruct (Re i ltac:(lia)) as (L1 & U1 & L2 & U2 & sel & p & e & H1 & H2 & En & Es & _ & R).
    destruct (IH L1 U1 ltac:(lia) H1) as [W1 Len1]. unfold step_sets in H, H2. rewrite H in H2. injection H2 as <- <-.
    destruct (next_sets _ _ _ _ _ _ _ _ H1 H En (records_sel _ _ _ R)) as [w D].
    destruct (One _ _ _ _ _ Es) as [y ->]. destruct (NE i ltac:(lia)) as (L3 & U3 & H3 & NE3). unfold step_sets in H1, H3. rewrite H1 in H3. injection H3 as <- <-.
    destruct (St (cont L1) (firstn i (map queried (s_states (x_io x)))) L1 U1) as (sel' & Es' & Q). rewrite Es in Es'. injection Es' as <-. destruct (Q NE3) as [_ Q2].
    specialize (Q2 y (or_introl eq_refl)). unfold ic_difference_update, ic_loop in D. pose proof (WF_discard U1 y W1) as WD. pose proof (elems_discard U1 y W1) as ED.
    destruct (ic_discard U1 y) as [U4 [w4|]]; [|discriminate]. injection D as -> _. cbn [fst] in WD, ED. split; [exact WD|].
    destruct (ic_clen U WD) as [_ ->]. rewrite ED. destruct (ic_clen U1 W1) as [ND1 L1']. rewrite L1' in Len1. rewrite <- Len1, <- (filter_one _ _ ND1 Q2). lia.
Qed.

(** Strategies that ask for one instance at a time make the same number of queries on a fold, whatever they choose, unless the
    criterion is a time limit; so no result is cut when they are drawn together. *)
Theorem C113_equal_length : forall perf fuel name v t0 c0 ks idx xs c i j ki kj ls us xi xj, sc_init name v t0 = Ok c0 -> crit_ok name v -> name <> NTime ->
  Forall2 (fun k p => calm perf k (fst p) (snd p)) ks idx -> (forall p, In p idx -> (List.length (snd p) <= fuel)%nat) ->
  compare_all perf fuel c0 ks = Some (map Ok xs, c) ->
  nth_error ks i = Some ki -> nth_error ks j = Some kj -> one_by_one ki -> one_by_one kj -> nth_error idx i = Some (ls, us) -> nth_error idx j = Some (ls, us) ->
  nth_error xs i = Some xi -> nth_error xs j = Some xj -> List.length (s_states (x_io xi)) = List.length (s_states (x_io xj)).
Proof.
  intros perf fuel name v t0 c0 ks idx xs c i j ki kj ls us xi xj H0 V NT F Fu E Ki Kj Oi Oj Ii Ij Xi Xj.
  destruct (C113_results perf fuel name v t0 c0 ks idx H0 V F Fu) as (xs' & c' & E' & _ & R). rewrite E in E'. injection E' as E' _.
  assert (XX : xs = xs') by (clear - E'; revert xs' E'; induction xs as [|a l IH]; intros [|b l'] H; try discriminate; [reflexivity|]; injection H as -> H; f_equal; auto). subst xs'.
  assert (NEall : forall k, In k ks -> cont (fold_U (k_fold k)) <> []).
  { intros k Hk. apply In_nth_error in Hk. destruct Hk as [m Hm]. clear - F Hm. revert m Hm.
    induction F as [|k0 p ks idx Hk F IH]; intros [|m] Hm; try discriminate; [injection Hm as <-; apply (fold_facts _ _ _ (proj1 Hk))|eauto]. }
  assert (Key : forall m k x, nth_error ks m = Some k -> nth_error idx m = Some (ls, us) -> nth_error xs m = Some x -> one_by_one k ->
    (List.length (s_states (x_io x)) <= List.length us)%nat /\
    forall n, (n <= List.length (s_states (x_io x)))%nat -> (should_stop name (crit_value (sc_value c0)) (List.length us - n) (List.length us) n 0 0 <-> n = List.length (s_states (x_io x)))).
  { intros m k x Km Im Xm O. destruct (R m k ls us x Km Im Xm) as (_ & Kp & (SL & Sp) & Re).
    assert (Cm : calm perf k ls us).
    { clear - F Km Im. revert m Km Im. induction F as [|k0 p ks idx Hk F IH]; intros [|m] Km Im; try discriminate; [injection Km as <-; injection Im as ->; exact Hk|eauto]. }
    assert (S0 : step_sets (x_io x) 0 (fold_L (k_fold k)) (fold_U (k_fold k))).
    { assert (Rm : nth_error (map (@Ok result) xs) m = Some (Ok x)) by (rewrite nth_error_map, Xm; reflexivity).
      destruct (C113_each perf fuel name v t0 c0 ks (map Ok xs) c H0 NEall E m k (Ok x) Km Rm) as (ci & c1 & _ & Ec).
      apply (C113_same_start perf fuel ci ci k k x x c1 c1 eq_refl Ec Ec). }
    assert (TT : forall u n t t', should_stop name (crit_value (sc_value c0)) u (List.length us) n 0 t <-> should_stop name (crit_value (sc_value c0)) u (List.length us) n 0 t').
    { intros u n t t'. unfold should_stop. destruct name; try reflexivity. congruence. }
    assert (NE : forall n, (n < List.length (s_states (x_io x)))%nat -> exists L U, step_sets (x_io x) n L U /\ cont U <> []).
    { intros n Hn. destruct (Sp n ltac:(lia)) as (L & U & H & S1). exists L, U. split; [exact H|]. intro X.
      assert (n = List.length (s_states (x_io x))); [|lia]. apply S1. left. unfold ic_len. rewrite X. reflexivity. }
    split; [exact SL|]. intros n Hn. destruct (Sp n Hn) as (L & U & H & S1). rewrite (TT _ _ 0%Q (k_clock k n - last (t0 :: map k_end (firstn m ks)) t0)%Q).
    destruct (pool_sizes perf k ls us x Cm O Kp S0 NE Re n L U Hn H) as [_ Len]. replace (List.length us - n)%nat with (ic_len U) by lia. exact S1. }
  destruct (Key i ki xi Ki Ii Xi Oi) as [_ Si]. destruct (Key j kj xj Kj Ij Xj Oj) as [_ Sj].
  destruct (Nat.lt_trichotomy (List.length (s_states (x_io xi))) (List.length (s_states (x_io xj)))) as [H|[H|H]]; [|exact H|].
  - apply Sj; [lia|]. apply Si; auto.
  - symmetry. apply Si; [lia|]. apply Sj; auto.
Qed.
Print Assumptions C113_equal_length.

(** ** The files *)
Fixpoint has_char (a : Ascii.ascii) (s : string) : bool :=
  match s with EmptyString => false | String b s' => Ascii.eqb a b || has_char a s' end.
Lemma has_app a s t : has_char a (s ++ String a t)%string = true.
Proof. induction s as [|b s IH]; cbn; [now rewrite Ascii.eqb_refl|]. rewrite IH. apply orb_true_r. Qed.
Lemma decimal_plain n : has_char "_"%char (NilZero.string_of_uint (Nat.to_uint n)) = false.
Proof.
  assert (G : forall d, has_char "_"%char (NilEmpty.string_of_uint d) = false) by (induction d; cbn; auto).
  unfold NilZero.string_of_uint. destruct (Nat.to_uint n); try reflexivity; apply G.
Qed.
Lemma cut_last a b d e : has_char "_"%char d = false -> has_char "_"%char e = false -> (a ++ String "_" d = b ++ String "_" e)%string -> a = b /\ d = e.
Proof.
  intros D E. revert b. induction a as [|x a IH]; intros [|y b] H; cbn in H.
  - injection H as ->. auto.
  - injection H as <- H. rewrite H in D. rewrite has_app in D. discriminate.
  - injection H as -> H. rewrite <- H in E. rewrite has_app in E. discriminate.
  - injection H as -> H. destruct (IH b H) as [-> ->]. auto.
Qed.
Lemma decimal_inj r s : NilZero.string_of_uint (Nat.to_uint r) = NilZero.string_of_uint (Nat.to_uint s) -> r = s.
Proof. intro E. apply file_name_inj. unfold sio_file_name. rewrite E. reflexivity. Qed.
Lemma append_assoc a : forall b c, ((a ++ b) ++ c = a ++ b ++ c)%string.
Proof. induction a as [|x a IH]; intros b c; [reflexivity|]. cbn. now rewrite IH. Qed.

(** Two calls save to the same file exactly if their strategies are of the same class and their rounds are the same: two
    strategies of one class with different arguments replace each other's results. *)
Theorem C113_files : forall cls1 r1 cls2 r2, compare_file cls1 r1 = compare_file cls2 r2 <-> cls1 = cls2 /\ r1 = r2.
Proof.
  intros cls1 r1 cls2 r2. split; [|intros [-> ->]; reflexivity]. unfold compare_file. intro E.
  assert (A : forall c n, (c ++ "_" ++ n ++ ".pkl" = (c ++ String "_" n) ++ ".pkl")%string) by (intros c n; rewrite append_assoc; reflexivity).
  rewrite !A in E. apply append_inj_r in E. apply cut_last in E; try apply decimal_plain. destruct E as [-> E]. split; [reflexivity|apply decimal_inj, E].
Qed.
Print Assumptions C113_files.

(** ** What an exception leaves behind *)
Definition ints (l : list Z) : icdata := DList (map (fun z => VNp (KInt z)) l).
Definition ex_fold (us : list Z) : fold := {| f_train := []; f_test := []; f_label := ints [0; 1]; f_unlabel := ints us |}.
Definition ex_perf (d _ : list pyval) : res (sval pyval) := Ok (SNum (inject_Z (Z.of_nat (List.length d)))).
Definition ex_first (_ : list pyval) (_ : list (list pyval)) (_ U : icol) : res (list pyval) := Ok (firstn 1 (cont U)).
Definition ex_last (_ : list pyval) (_ : list (list pyval)) (_ U : icol) : res (list pyval) := Ok (firstn 1 (List.rev (cont U))).
Definition ex_breaks (_ : list pyval) (h : list (list pyval)) (_ U : icol) : res (list pyval) :=
  match h with [] => Ok (firstn 1 (cont U)) | _ => Err ValueErr end.
Definition ex_call st us t e : call := {| k_fold := ex_fold us; k_strat := st; k_clock := fun n => (t + inject_Z (Z.of_nat n))%Q; k_save := fun _ => Ok tt; k_end := e |}.
Definition queries (r : res result) : option (list (list pyval)) := match r with Ok x => Some (map queried (s_states (x_io x))) | Err _ => None end.
Definition np (z : Z) : pyval := VNp (KInt z).

(** "A call has the whole time limit" is false after a call that raised: the time of that call counts as well. Here the second
    call begins 20 after the first, whose limit was 10, and makes no query. *)
Theorem C113_time_refuted : exists perf fuel t0 c0 k1 k2 r1 r2 c ck x c', sc_init NTime (Some 10%Q) t0 = Ok c0 /\
  (forall k, In k [k1; k2] -> cont (fold_U (k_fold k)) <> []) /\
  compare_all perf fuel c0 [k1; k2] = Some ([Err r1; Ok r2], c) /\ s_states (x_io r2) = [] /\
  sc_init NTime (Some 10%Q) (k_clock k2 0) = Ok ck /\ compare_call perf fuel ck k2 = Some (Ok x, c') /\ List.length (s_states (x_io x)) = 3%nat.
Proof.
  exists ex_perf, 9%nat, 0%Q. eexists. exists (ex_call ex_breaks [2; 3; 4] 0 15), (ex_call ex_first [2; 3; 4] 20 30). do 6 eexists.
  split; [reflexivity|]. split; [intros k [<-|[<-|[]]]; discriminate|]. split; [vm_compute; reflexivity|]. split; [reflexivity|].
  split; [reflexivity|]. split; [vm_compute; reflexivity|]. reflexivity.
Qed.
Print Assumptions C113_time_refuted.

(** The pools must not be empty: with a percentage an empty pool gives ZeroDivisionError, and the criterion it leaves stops
    the next call before its first query. *)
Theorem C113_empty_refuted : exists perf fuel t0 c0 k1 k2 r2 c x c', sc_init NPercent (Some 1%Q) t0 = Ok c0 /\
  cont (fold_U (k_fold k1)) = [] /\ cont (fold_U (k_fold k2)) <> [] /\
  compare_all perf fuel c0 [k1; k2] = Some ([Err ZeroDivErr; Ok r2], c) /\ s_states (x_io r2) = [] /\
  compare_call perf fuel c0 k2 = Some (Ok x, c') /\ List.length (s_states (x_io x)) = 3%nat.
Proof.
  exists ex_perf, 9%nat, 0%Q. eexists. exists (ex_call ex_first [] 0 15), (ex_call ex_first [2; 3; 4] 20 30). do 4 eexists.
  split; [reflexivity|]. split; [reflexivity|]. split; [discriminate|]. split; [vm_compute; reflexivity|]. split; [reflexivity|]. split; [vm_compute; reflexivity|]. reflexivity.
Qed.
Print Assumptions C113_empty_refuted.

(** ** Cases *)
(** A strategy that raises in its second round, and two others after it, with two queries each. *)
Example C113_case : exists c0, sc_init NNum (Some 2%Q) 0 = Ok c0 /\ NNum <> NTime /\
  let ks := [ex_call ex_breaks [2; 3; 4] 0 1; ex_call ex_first [2; 3; 4] 2 3; ex_call ex_last [2; 3; 4] 4 5] in
  (forall k, In k ks -> cont (fold_U (k_fold k)) <> []) /\
  match compare_all ex_perf 9 c0 ks with
  | Some (rs, _) => map queries rs = [None; Some [[np 2]; [np 3]]; Some [[np 4]; [np 3]]]
  | None => False
  end.
Proof. eexists. split; [reflexivity|]. split; [discriminate|]. split; [intros k [<-|[<-|[<-|[]]]]; discriminate|]. vm_compute. reflexivity. Qed.
Definition ex_one (_ : list pyval) (_ : list (list pyval)) (_ U : icol) : res (list pyval) := Ok [match cont U with [] => np 0 | a :: _ => a end].
Example C113_calm_case : calm ex_perf (ex_call ex_one [2; 3; 4] 2 3) [0; 1] [2; 3; 4] /\ one_by_one (ex_call ex_one [2; 3; 4] 2 3) /\ crit_ok NNum (Some 2%Q).
Proof.
  split; [|split; [|exact Logic.I]].
  - split; [|split; [|split]].
    + split; [reflexivity|]. split; [reflexivity|]. split; [discriminate|]. split; [discriminate|]. split; [repeat constructor; cbn; intuition lia|].
      intros x H1 H2. cbn in H1, H2. lia.
    + reflexivity.
    + intros d te. eexists. reflexivity.
    + intros d h L U. eexists. split; [reflexivity|]. intro NE. split; [discriminate|].
      intros x [<-|[]]. unfold elems. destruct (cont U) as [|a l]; [congruence|]. now left.
  - intros d h L U sel H. injection H as <-. eauto.
Qed.
Example C113_files_case : compare_file "QueryInstanceQBC" 12 = "QueryInstanceQBC_12.pkl"%string.
Proof. reflexivity. Qed.
