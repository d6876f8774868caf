(** C58 and C78, continued: what the analysers refuse, and what is left behind by a refused addition. *)
From Verif Require Import Base BaseFacts StateModel StateProofs MiscModel MiscSpec FeatureModel AnalyserModel AnalyserSpec AnalyserProofs AnalyserProofs2 AnalyserProofs3 AnalyserProofs4 AnalyserProps.
From Coq Require Import String QArith Qround Qreduction Lqa.
Local Open Scope Z_scope.

(** A value that is not a single number, and a run with such a value among its first [n] performances or as its initial
    point. *)
Definition is_number (v : aval) : Prop := exists x, v = AVal x.
Definition odd_run (n : nat) (r : arun) : Prop :=
  (exists p, r_ip r = Some p /\ ~ is_number p) \/
  (exists j s v, (j < n)%nat /\ nth_error (r_states r) j = Some s /\ holds "performance" s v /\ ~ is_number v).

Lemma num_of_err v : ~ is_number v -> num_of v = Err TypeErr.
Proof. destruct v; [intro H; exfalso; apply H; now exists x|reflexivity|reflexivity]. Qed.
Lemma num_of_cases v : num_of v = Err TypeErr \/ exists x, num_of v = Ok x.
Proof. destruct v; cbn; eauto. Qed.

Lemma in_firstn {A} n : forall (l : list A) x, In x (firstn n l) -> In x l.
Proof. induction n as [|n IH]; intros [|y l] x H; cbn in *; [tauto|tauto|tauto|]. destruct H as [->|H]; auto. Qed.

(** No summary of runs with a performance that is not a number. *)
Theorem C58_not_numbers runs n : shortest n (map r_states runs) ->
  (forall r s, In r runs -> In s (r_states r) -> exists v, holds "performance" s v) ->
  (exists r, In r runs /\ odd_run n r) -> stateio_summary runs = Err TypeErr.
Proof.
  intros SH H (r & Hr & O). unfold stateio_summary. destruct runs as [|r0 runs]; [destruct Hr|].
  assert (ML : min_len (map r_states (r0 :: runs)) = n) by (eapply shortest_unique; [apply min_len_spec; discriminate|exact SH]). rewrite ML.
  rewrite (mapM_error (fold_perf n) (r0 :: runs) TypeErr); [reflexivity| |].
  - intros r' Hr'. unfold fold_perf.
    match goal with |- context [mapM ?f ?l] => assert (X : mapM f l = Err TypeErr \/ exists y, mapM f l = Ok y) end.
    { match goal with |- mapM ?f ?l = _ \/ _ => destruct (MetricProofs7.mapM_res f l) as [(vs & Ev & _)|(s & e & Hs & Es & Em)]; [eauto|] end.
      left. rewrite Em. f_equal. apply in_firstn in Hs. destruct (H r' s Hr' Hs) as (v & Hv). red in Hv. rewrite Hv in Es.
      destruct (num_of_cases v) as [E|(x & E)]; congruence. }
    destruct X as [-> |[y ->]]; [auto|]. cbn [bind]. destruct (r_ip r') as [p|]; [|eauto]. destruct (num_of_cases p) as [-> |[x ->]]; cbn [bind]; eauto.
  - exists r. split; [auto|]. unfold fold_perf. destruct O as [(p & Ep & Np)|(j & s & v & Hj & Ej & Hv & Nv)].
    + match goal with |- context [mapM ?f ?l] => destruct (MetricProofs7.mapM_res f l) as [(vs & Ev & _)|(s & e & Hs & Es & Em)] end.
      * rewrite Ev. cbn [bind]. rewrite Ep, (num_of_err p Np). reflexivity.
      * rewrite Em. cbn [bind]. f_equal. apply in_firstn in Hs. destruct (H r s Hr Hs) as (v & Hv). red in Hv. rewrite Hv in Es.
        destruct (num_of_cases v) as [E|(x & E)]; congruence.
    + match goal with |- context [mapM ?f ?l] => rewrite (mapM_error f l TypeErr) end; [reflexivity| |].
      * intros s' Hs'. apply in_firstn in Hs'. destruct (H r s' Hr Hs') as (v' & Hv'). red in Hv'. rewrite Hv'. apply num_of_cases.
      * exists s. split; [|red in Hv; rewrite Hv; now apply num_of_err].
        apply nth_error_In with j. now rewrite nth_firstn.
Qed.
Print Assumptions C58_not_numbers.
Definition odd : arun := {| r_ip := None; r_states := [{| a_dict := [("performance"%string, ASeq [Num 1; Num 2])]; a_batch := 1 |}] |}.
Example C58_not_numbers_example : shortest 1 (map r_states [odd; run3]) /\ odd_run 1 odd /\ stateio_summary [odd; run3] = Err TypeErr /\
  num_add an_new "m" (MRuns [odd; run3]) =
    ({| an_data := [("m"%string, DRuns [[ASeq [Num 1; Num 2]]; [AVal (Num (1#2)); AVal (Num (3#4))]])]; an_sum := []; an_all := Some true |}, Err TypeErr).
Proof.
  split; [|split; [|split; reflexivity]].
  - split; [intros l [<-|[<-|[]]]; cbn; lia|]. exists (r_states odd). split; [now left|reflexivity].
  - right. do 3 eexists. split; [apply Nat.lt_0_1|]. split; [reflexivity|]. split; [reflexivity|]. intros (x & X). discriminate.
Qed.

(** A list of performances must hold numbers only, a list of pairs tuples only; the folds of the former must have the same
    length. *)
Theorem C58_mixed_lists ls :
  ((exists f t, In f ls /\ In (ITup t) f) -> list_summary1 ls = Err TypeErr) /\
  ((forall f i, In f ls -> In i f -> exists x, i = INum x) -> (exists f f', In f ls /\ In f' ls /\ List.length f <> List.length f') ->
   list_summary1 ls = Err TypeErr) /\
  ((exists f x, In f ls /\ In (INum x) f) -> (forall f t, In f ls -> In (ITup t) f -> (2 <= List.length t)%nat) -> list_summary2 ls = Err TypeErr).
Proof.
  assert (C1 : forall i, item_num i = Err TypeErr \/ exists x, item_num i = Ok x) by (intros [x|t]; cbn; eauto).
  assert (C1' : forall f, mapM item_num f = Err TypeErr \/ exists y, mapM item_num f = Ok y).
  { intro f. destruct (MetricProofs7.mapM_res item_num f) as [(vs & Ev & _)|(s & e & Hs & Es & Em)]; [eauto|]. left. rewrite Em. destruct (C1 s) as [E|(x & E)]; congruence. }
  split; [|split].
  - intros (f & t & Hf & Ht). unfold list_summary1. rewrite (mapM_error (mapM item_num) ls TypeErr); [reflexivity|auto|].
    exists f. split; auto. apply mapM_error; [auto|]. exists (ITup t). auto.
  - intros N (f & f' & Hf & Hf' & D). unfold list_summary1.
    destruct (MetricProofs7.mapM_res (mapM item_num) ls) as [(m & Em & F)|(s & e & Hs & Es & Em)].
    + rewrite Em. cbn [bind]. destruct (same_len m) eqn:E; [|reflexivity]. exfalso. apply same_len_iff in E. destruct E as (k & E).
      assert (L : forall g, In g ls -> List.length g = k).
      { intros g Hg. clear - F E Hg. induction F as [|g' l' ls' m' E' F IH]; [destruct Hg|]. destruct Hg as [->|Hg].
        - rewrite <- (E l' (or_introl eq_refl)). clear - E'. revert l' E'. induction g as [|i g IH]; intros l' E'; cbn [mapM] in E'.
          + injection E' as <-. reflexivity.
          + destruct (item_num i); [|discriminate]. cbn [bind] in E'. destruct (mapM item_num g) as [ys|]; [|discriminate]. cbn [bind] in E'.
            injection E' as <-. cbn [List.length]. f_equal. now apply IH.
        - apply IH; auto. intros r Hr. apply E. now right. }
      apply D. now rewrite (L f Hf), (L f' Hf').
    + exfalso. destruct (MetricProofs7.mapM_res item_num s) as [(vs & Ev & _)|(i & e' & Hi & Ei & Em')]; [congruence|].
      destruct (N s i Hs Hi) as (x & ->). discriminate.
  - intros (f & x & Hf & Hx) T. unfold list_summary2.
    assert (C2 : forall f i, In f ls -> In i f -> item_part 1 i = Err TypeErr \/ exists y, item_part 1 i = Ok y).
    { intros g [y|t] Hg Hi; [now left|]. right. cbn [item_part]. unfold py_nth. pose proof (T g t Hg Hi) as L. destruct t as [|a [|b t]]; cbn in L; try lia. cbn. eauto. }
    rewrite (mapM_error (mapM (item_part 1)) ls TypeErr); [reflexivity| |].
    + intros g Hg. destruct (MetricProofs7.mapM_res (item_part 1) g) as [(vs & Ev & _)|(s & e & Hs & Es & Em)]; [eauto|]. left. rewrite Em. destruct (C2 g s Hg Hs) as [E|(y & E)]; congruence.
    + exists f. split; auto. apply mapM_error; [eauto|]. exists (INum x). auto.
Qed.
Print Assumptions C58_mixed_lists.
Example C58_mixed_lists_example : list_summary1 [[INum (Num 1)]; [ITup [[Num 1]; [Num 2]]]] = Err TypeErr /\
  list_summary1 [[INum (Num 1)]; [INum (Num 1); INum (Num 2)]] = Err TypeErr /\
  list_summary2 [[ITup [[Num 1]; [Num 2]]; INum (Num 1)]] = Err TypeErr.
Proof. repeat split. Qed.

(** Which of the two analysers takes which results, and what a refused addition leaves behind: nothing but the note that the
    results last given were runs, although they may have been lists. *)
Theorem C78_kinds a n :
  (* something else *)
  num_add a n MOther = (a, Err TypeErr) /\ cost_add a n MOther = (a, Err TypeErr) /\
  (* empty lists *)
  (num_add a n (MRuns []) = (set_all a true, Err IndexErr) /\ cost_add a n (MRuns []) = (set_all a true, Err IndexErr) /\
   num_add a n (MLists []) = (set_all a true, Err IndexErr) /\ cost_add a n (MLists []) = (set_all a true, Err IndexErr)) /\
  (forall ls, num_add a n (MLists ([] :: ls)) = (set_all a true, Err IndexErr) /\ cost_add a n (MLists ([] :: ls)) = (set_all a true, Err IndexErr)) /\
  (* tuples of two or more elements first *)
  (forall t f ls, (2 <= List.length t)%nat -> num_add a n (MLists ((ITup t :: f) :: ls)) = (set_all a true, Err ValueErr)) /\
  (* numbers, or tuples of one element, first *)
  (forall i f ls, (exists x, i = INum x) \/ (exists t, i = ITup t /\ (List.length t <= 1)%nat) ->
     cost_add a n (MLists ((i :: f) :: ls)) = (set_all a true, Err ValueErr)) /\
  (* the state after such a failure *)
  (an_data (set_all a true) = an_data a /\ an_sum (set_all a true) = an_sum a /\ an_all (set_all a true) = Some true).
Proof.
  split; [reflexivity|]. split; [reflexivity|]. split; [repeat split|]. split; [split; reflexivity|]. split; [|split; [|repeat split]].
  - intros t f ls L. unfold num_add, type_of_list. cbn [py_nth nth_error bind]. replace (Nat.ltb 1 (List.length t)) with true by (symmetry; apply Nat.ltb_lt; lia). reflexivity.
  - intros i f ls [(x & ->)|(t & -> & L)]; [reflexivity|]. unfold cost_add, type_of_list. cbn [py_nth nth_error bind].
    replace (Nat.ltb 1 (List.length t)) with false by (symmetry; apply Nat.ltb_ge; lia). reflexivity.
Qed.
Print Assumptions C78_kinds.

(** A successful addition to the analyser against the cost: runs are recorded as (cost, performance) in this order, without
    the initial points; lists as they are. *)
Theorem C78_cost_added a n r a' : cost_add a n r = (a', Ok tt) ->
  (exists c m s, (r = MContainer c \/ r = MRuns c /\ c <> []) /\ stateio_summary c = Ok s /\
     Forall2 (fun r line => Forall2 (fun s t => exists x y, t = [x; y] /\ holds "cost" s x /\ holds "performance" s y) (r_states r) line) c m /\
     sget n (an_data a') = Some (DPairs m) /\ sget n (an_sum a') = Some s /\ an_all a' = Some true) \/
  (exists t f ls s, r = MLists ((ITup t :: f) :: ls) /\ (2 <= List.length t)%nat /\ list_summary2 ((ITup t :: f) :: ls) = Ok s /\
     sget n (an_data a') = Some (DLists ((ITup t :: f) :: ls)) /\ sget n (an_sum a') = Some s /\ an_all a' = Some false).
Proof.
  intro H. assert (G : forall V (v : V) l, sget n (sset n v l) = Some v) by (intros; rewrite sget_sset, String.eqb_refl; reflexivity).
  assert (NR : forall c, cost_runs (set_all a true) n c = (a', Ok tt) -> exists m s, stateio_summary c = Ok s /\
     Forall2 (fun r line => Forall2 (fun s t => exists x y, t = [x; y] /\ holds "cost" s x /\ holds "performance" s y) (r_states r) line) c m /\
     sget n (an_data a') = Some (DPairs m) /\ sget n (an_sum a') = Some s /\ an_all a' = Some true).
  { intros c E. unfold cost_runs in E. destruct (extract_many _ c) as [m|] eqn:EX; [|discriminate]. unfold finish in E. destruct (stateio_summary c) as [s|]; [|discriminate].
    injection E as <-. exists m, s. split; [reflexivity|]. split; [|cbn [set_sum set_data an_data an_sum an_all set_all]; rewrite !G; auto].
    destruct (MetricProofs7.mapM_res (fun r => mapM (fun s => mapM (fun k => value_of k s) ["cost"%string; "performance"%string]) (r_states r)) c) as [(vs & Ev & F)|(s0 & e & Hs & Es & Em)];
      unfold extract_many in EX; [|congruence]. assert (vs = m) by congruence. subst vs. clear - F.
    eapply F2_impl; [|exact F]. intros r line E. cbn beta in E.
    destruct (MetricProofs7.mapM_res (fun s => mapM (fun k => value_of k s) ["cost"%string; "performance"%string]) (r_states r)) as [(vs & Ev & F')|(s0 & e & Hs & Es & Em)]; [|congruence].
    assert (vs = line) by congruence. subst vs. eapply F2_impl; [|exact F']. intros s t E'. cbn [mapM] in E'.
    destruct (value_of "cost" s) as [x|] eqn:Ex; [|discriminate]. cbn [bind] in E'. destruct (value_of "performance" s) as [y|] eqn:Ey; [|discriminate]. cbn [bind] in E'.
    injection E' as <-. exists x, y. split; [reflexivity|]. split; now apply value_of_iff. }
  unfold cost_add in H. destruct r as [c|[|x c]|l|]; try discriminate.
  - left. exists c. destruct (NR c H) as (m & s & R). exists m, s. auto.
  - left. exists (x :: c). destruct (NR _ H) as (m & s & R). exists m, s. split; [right; split; [reflexivity|discriminate]|exact R].
  - right. destruct l as [|[|[x|t] f] ls]; try discriminate. unfold type_of_list in H. cbn [py_nth nth_error bind] in H.
    destruct (Nat.ltb 1 (List.length t)) eqn:B; [|discriminate]. apply Nat.ltb_lt in B. unfold finish in H. destruct (list_summary2 ((ITup t :: f) :: ls)) as [s|] eqn:ES; [|discriminate].
    injection H as <-. exists t, f, ls, s. cbn [set_sum set_data an_data an_sum an_all set_all]. rewrite !G. auto 8.
Qed.
Print Assumptions C78_cost_added.
Example C78_cost_added_example : exists a' a'', cost_add an_new "x" (MRuns [run1; run2]) = (a', Ok tt) /\
  cost_add a' "y" (MLists [[ITup [[Num 1]; [Num 2]]]]) = (a'', Ok tt) /\
  sget "x"%string (an_data a'') = Some (DPairs [[[AVal (Num 2); AVal (Num (3#4))]; [AVal (Num 1); AVal (Num (7#8))]; [AVal (Num 4); AVal (Num 1)]];
                                                [[AVal (Num 1); AVal (Num (1#2))]; [AVal (Num 3); AVal (Num (3#4))]]]) /\ an_all a'' = Some false.
Proof. do 2 eexists. split; [reflexivity|]. split; [reflexivity|]. split; reflexivity. Qed.

(** Conversely runs whose states all hold a numeric performance and a cost are always accepted by both analysers, under every
    name, unless only some have an initial point. *)
Theorem C78_accepts a n runs k data : runs <> [] -> shortest k (map r_states runs) -> Forall2 (performances k) runs data ->
  (forall r s, In r runs -> In s (r_states r) -> (exists v, holds "performance" s v) /\ exists v, holds "cost" s v) ->
  (forall r, In r data -> r <> []) -> (forall r r', In r runs -> In r' runs -> r_ip r = None -> r_ip r' = None) ->
  forall res, res = MRuns runs \/ res = MContainer runs -> snd (num_add a n res) = Ok tt /\ snd (cost_add a n res) = Ok tt.
Proof.
  intros NE SH F H N1 N2. destruct (summary_lemma runs k data NE SH F N1 N2) as (s & ES & _).
  destruct (extract_one_ok "performance" runs) as (m & EM & _); [intros; now apply (H r s0)|].
  destruct (extract_many_ok ["cost"%string; "performance"%string] runs) as (m' & EM' & _).
  { intros r s0 key Hr Hs [<-|[<-|[]]]; now apply (H r s0). }
  assert (A : snd (num_runs (set_all a true) n runs) = Ok tt) by (unfold num_runs; rewrite EM, ES; reflexivity).
  assert (B : snd (cost_runs (set_all a true) n runs) = Ok tt) by (unfold cost_runs; rewrite EM', ES; reflexivity).
  intros res [-> | ->]; unfold num_add, cost_add; [destruct runs; [congruence|]|]; auto.
Qed.
Print Assumptions C78_accepts.

(** Pairs given as lists are accepted by the analyser against the cost. *)
Theorem C78_accepts_pairs a n (folds : list (list (list Q * Q))) : folds <> [] -> (forall f, In f folds -> f <> []) ->
  snd (cost_add a n (MLists (map (map (fun t => ITup [map Num (fst t); [Num (snd t)]])) folds))) = Ok tt.
Proof.
  intros NE H. destruct (pairs_summary folds NE H) as (s & ES & _). destruct folds as [|[|t f] folds]; [congruence|exfalso; now apply (H []); [left|]|].
  cbn [map] in *. unfold cost_add, type_of_list. cbn [py_nth nth_error bind List.length Nat.ltb Nat.leb]. rewrite ES. reflexivity.
Qed.
Print Assumptions C78_accepts_pairs.
Example C78_accepts_pairs_example : snd (cost_add an_new "m" (MLists [[ITup [[Num 1; Num 2]; [Num (1#2)]]]])) = Ok tt.
Proof. reflexivity. Qed.

(** The interval of the curves against the cost may not be 0. Without a given interval this is also the case if the queries of
    some fold cost nothing at all. *)
Theorem C58_zero_interval interp a shift start interval data :
  Forall2 (fun p m => fst p = fst m /\ shows_costs (snd p) (snd m)) (an_data a) data -> data <> [] -> (forall m, In m data -> snd m <> []) ->
  (forall m f, In m data -> In f (snd m) -> (forall t c, In t f -> In c (fst t) -> (0 <= c)%Q)) ->
  (match interval with Some i => (i == 0)%Q | None => exists m f, In m data /\ In f (snd m) /\ (total (spent f) == 0)%Q end) ->
  cost_plot interp a shift start interval = Err ValueErr.
Proof.
  intros FD NE N1 N2 Z. unfold cost_plot.
  assert (E : mapM (fun p => f <- cost_fold (snd p) ;; Ok (fst p, f)) (an_data a) = Ok (map (fun m => (fst m, map folded (snd m))) data)).
  { apply mapM_Forall2. clear - FD. induction FD as [|p m l data (E1 & E2) F IH]; [constructor|]. cbn [map]. constructor; auto.
    rewrite (cost_fold_ok _ _ E2). cbn [bind]. now rewrite E1. }
  rewrite E. cbn [bind]. rewrite map_map. cbn [fst snd].
  assert (ET : map (fun x : string * list (list (list Q * Q)) => map fold_total (map folded (snd x))) data = map (fun m => map (fun f => total (spent f)) (snd m)) data).
  { apply map_ext. intro m. rewrite map_map. apply map_ext. apply total_perm_spent. }
  rewrite ET. destruct (least_spec (List.concat (map (fun m => map (fun f => total (spent f)) (snd m)) data))) as (eff & EL & L).
  { destruct data as [|m data]; [congruence|]. cbn [map List.concat]. pose proof (N1 m (or_introl eq_refl)). destruct (snd m); [congruence|discriminate]. }
  rewrite EL. cbn [bind]. set (step := match interval with Some i => i | None => (eff / 100)%Q end).
  assert (S0 : (step == 0)%Q).
  { unfold step. destruct interval as [i|]; [exact Z|]. destruct Z as (m & f & Hm & Hf & Z).
    assert (Up : (eff <= 0)%Q).
    { rewrite <- Z. apply L. apply in_concat. exists (map (fun f => total (spent f)) (snd m)). split; [now apply (in_map (fun m => map (fun f => total (spent f)) (snd m)))|].
      now apply (in_map (fun f => total (spent f))). }
    assert (Lo : (0 <= eff)%Q).
    { destruct L as [I _]. apply in_concat in I. destruct I as (l & Il & Ie). apply in_map_iff in Il. destruct Il as (m' & <- & Hm').
      apply in_map_iff in Ie. destruct Ie as (f' & <- & Hf'). specialize (N2 m' f' Hm' Hf'). unfold spent. clear - N2.
      assert (T : forall l, (forall c, In c l -> (0 <= c)%Q) -> (0 <= total l)%Q).
      { induction l as [|c l IH]; intro Hc; [cbn; lra|]. cbn [total fold_right]. pose proof (Hc c (or_introl eq_refl)). assert (0 <= total l)%Q by (apply IH; intros; apply Hc; now right). unfold total in *. lra. }
      apply T. intros c Hc. apply in_map_iff in Hc. destruct Hc as (t & <- & Ht). apply T. intros c Hc. eauto. }
    assert (EZ : (eff == 0)%Q) by lra. rewrite EZ. reflexivity. }
  apply Qeq_bool_iff in S0. rewrite S0. reflexivity.
Qed.
Print Assumptions C58_zero_interval.
Example C58_zero_interval_example : forall interp,
  cost_plot interp (fst (cost_add an_new "m" (MLists [[ITup [[Num 0]; [Num (1#2)]]]; [ITup [[Num 3]; [Num (1#2)]]]]))) 0 None None = Err ValueErr.
Proof. reflexivity. Qed.

(** Runs without any common point - some run has no states, and there are no initial points - have NaN as mean and deviation;
    no exception is raised. *)
Theorem C58_no_data_refuted runs : runs <> [] -> (exists r, In r runs /\ r_states r = []) -> (forall r, In r runs -> r_ip r = None) ->
  exists s, stateio_summary runs = Ok s /\ su_mean s = NaN /\ su_var s = NaN /\ su_len s = 0%nat.
Proof.
  intros NE (r & Hr & E) I. unfold stateio_summary. destruct runs as [|r0 runs]; [congruence|].
  assert (ML : min_len (map r_states (r0 :: runs)) = 0%nat).
  { eapply shortest_unique; [apply min_len_spec; discriminate|]. split; [intros; lia|]. exists []. split; [|reflexivity]. rewrite <- E. now apply in_map. }
  rewrite ML. assert (EM : mapM (fold_perf 0) (r0 :: runs) = Ok (map (fun _ => []) (r0 :: runs))).
  { apply mapM_Forall2. clear - I. induction (r0 :: runs) as [|x l IH]; [constructor|]. cbn [map]. constructor; [|apply IH; intros; apply I; now right].
    unfold fold_perf. cbn [firstn mapM bind]. now rewrite (I x (or_introl eq_refl)). }
  rewrite EM. cbn [bind]. assert (SL : same_len (map (fun _ : arun => @nil fl) (r0 :: runs)) = true).
  { apply same_len_iff. exists 0%nat. intros l Hl. apply in_map_iff in Hl. destruct Hl as (? & <- & _). reflexivity. }
  rewrite SL. cbn [guard bind]. eexists. split; [reflexivity|]. cbn [su_mean su_var su_len]. repeat split.
Qed.
Print Assumptions C58_no_data_refuted.
Example C58_no_data_example : exists s, stateio_summary [{| r_ip := None; r_states := [] |}; run3] = Ok s /\ su_mean s = NaN.
Proof. eexists. split; reflexivity. Qed.
