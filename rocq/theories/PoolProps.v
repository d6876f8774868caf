(** C97: pools of oracles that charge for single labels.

  - The history of a pool holds exactly the queries that all asked oracles answered, in order, whatever becomes of the cost.
  - While the costs of every query form a table, the total cost is the sum of everything that was charged.
  - A query whose costs do not form a table is recorded, but then fails with a ValueError and its cost is missing from the
    total (numpy 1.24 and later); before, the total becomes an array, or the call fails in the same way.
  - The summary shows for every oracle how often it answered and the sum of what it charged, for every history; so its sum may
    differ from the total.  The full history has one column for each query and counts the same answers. *)
From Coq Require Import String.
From Verif Require Import Base BaseFacts IndexModel MLModel MLProofs StateModel Dict OracleModel OracleSpec OracleProofs OracleProofs2
PoolModel PoolSpec PoolProofs.
From Coq Require Import QArith Lqa.
Local Open Scope Q_scope.

Theorem C97_history {O K A : Type} (ask : O -> K -> res (A * list (list Q))) (lax : bool) h :
  mp_hist (mp_run ask lax mp_new h) = ledger ask [] (flat_map told h).
Proof. destruct (run_ledger ask lax h mp_new [] matches_new) as [H _]. exact H. Qed.
Print Assumptions C97_history.

Lemma cost_general {O K A : Type} (ask : O -> K -> res (A * list (list Q))) (lax : bool) h : forall p added c, matches p added -> mp_cost p = One c ->
  (forall q, In q (ledger ask added (flat_map told h)) -> lax = true -> table (rows_of q)) ->
  exists c', mp_cost (mp_run ask lax p h) = One c' /\ c' == c + charged (filter (fun q => tabular (rows_of q)) (ledger ask added (flat_map told h))).
Proof.
  induction h as [|a h IH]; intros p added c M C T; cbn [flat_map].
  - exists c. split; [exact C|]. unfold charged. cbn. ring.
  - change (mp_run ask lax p (a :: h)) with (mp_run ask lax (mp_step ask lax p a) h). cbn [flat_map] in T.
    assert (G : forall added' s, matches s added' -> added' = added ++ adds a -> s = mp_step ask lax p a -> forall es,
               ledger ask added (told a ++ flat_map told h) = es ++ ledger ask added' (flat_map told h) ->
               (exists c1, mp_cost s = One c1 /\ c1 == c + charged (filter (fun q => tabular (rows_of q)) es)) ->
               exists c', mp_cost (mp_run ask lax s h) = One c' /\
                 c' == c + charged (filter (fun q => tabular (rows_of q)) (ledger ask added (told a ++ flat_map told h)))).
    { intros added' s Ms -> -> es E (c1 & C1 & E1). destruct (IH _ _ _ Ms C1) as (c' & C' & E').
      - intros q Hq. apply T. rewrite E. apply in_app_iff. now right.
      - exists c'. split; [exact C'|]. rewrite E', E, filter_app, charged_app, E1. ring. }
    assert (S1 : forall ks ns names rs, fst (mp_query_s ask lax p ks ns) = mp_step ask lax p a -> told a = [Asked ks ns] -> adds a = [] ->
               names = match ns with Some l => l | None => first_names (map fst added) end ->
               mapM (reply ask added ks) names = Ok rs ->
               exists c', mp_cost (mp_run ask lax (mp_step ask lax p a) h) = One c' /\
                 c' == c + charged (filter (fun q => tabular (rows_of q)) (ledger ask added (told a ++ flat_map told h)))).
    { intros ks ns names rs E1 E2 E3 -> E4. apply (G (added ++ adds a) _ (matches_step ask lax p a added M) eq_refl eq_refl [(match ns with Some l => l | None => first_names (map fst added) end, rs, ks)]).
      - rewrite E2, E3, app_nil_r. cbn [app ledger]. cbv zeta. rewrite E4. reflexivity.
      - rewrite <- E1, (query_s_state ask lax p ks ns added M). cbv zeta. rewrite E4. unfold mp_record. cbn [filter]. rewrite tabular_even. unfold rows_of at 1. cbn [fst snd].
        destruct (even (flat_map snd rs)) eqn:Ev.
        + destruct (total_even lax _ Ev) as (t & -> & Et). cbn [bind]. rewrite C. cbn [charge fst mp_cost]. eexists. split; [reflexivity|].
          rewrite Et. unfold charged, rows_of. cbn [flat_map fst snd]. rewrite app_nil_r. reflexivity.
        + unfold np_total. rewrite Ev. destruct lax eqn:Lx.
          * exfalso. assert (Tq : table (flat_map snd rs)).
            { apply (T (match ns with Some l => l | None => first_names (map fst added) end, rs, ks)); [|reflexivity]. rewrite E2. cbn [app ledger]. cbv zeta. rewrite E4. now left. }
            apply even_table in Tq. congruence.
          * cbn [bind fst mp_cost]. exists c. split; [exact C|]. unfold charged. cbn. ring. }
    assert (S0 : forall ks ns names e, fst (mp_query_s ask lax p ks ns) = mp_step ask lax p a -> told a = [Asked ks ns] -> adds a = [] ->
               names = match ns with Some l => l | None => first_names (map fst added) end ->
               mapM (reply ask added ks) names = Err e ->
               exists c', mp_cost (mp_run ask lax (mp_step ask lax p a) h) = One c' /\
                 c' == c + charged (filter (fun q => tabular (rows_of q)) (ledger ask added (told a ++ flat_map told h)))).
    { intros ks ns names e E1 E2 E3 -> E4. apply (G (added ++ adds a) _ (matches_step ask lax p a added M) eq_refl eq_refl []).
      - rewrite E2, E3, app_nil_r. cbn [app ledger]. cbv zeta. rewrite E4. reflexivity.
      - rewrite <- E1, (query_s_state ask lax p ks ns added M). cbv zeta. rewrite E4. exists c. split; [exact C|]. unfold charged. cbn. ring. }
    destruct a as [n o|ks [n|]|ks ns].
    + apply (G (added ++ [(n, o)]) _ (matches_add p added n o M) eq_refl eq_refl []); [reflexivity|]. exists c. split; [exact C|]. unfold charged. cbn. ring.
    + destruct (mapM (reply ask added ks) [n]) as [rs|e] eqn:E.
      * exact (S1 ks (Some [n]) [n] rs (eq_sym (query_as_s ask lax p ks n)) eq_refl eq_refl eq_refl E).
      * exact (S0 ks (Some [n]) [n] e (eq_sym (query_as_s ask lax p ks n)) eq_refl eq_refl eq_refl E).
    + refine (G added p M _ eq_refl [] eq_refl _); [symmetry; apply app_nil_r|]. exists c. split; [exact C|]. unfold charged. cbn. ring.
    + destruct (mapM (reply ask added ks) (match ns with Some l => l | None => first_names (map fst added) end)) as [rs|e] eqn:E.
      * exact (S1 ks ns _ rs eq_refl eq_refl eq_refl eq_refl E).
      * exact (S0 ks ns _ e eq_refl eq_refl eq_refl eq_refl E).
Qed.

Theorem C97_cost {O K A : Type} (ask : O -> K -> res (A * list (list Q))) (lax : bool) h :
  (forall q, In q (ledger ask [] (flat_map told h)) -> table (rows_of q)) ->
  exists c, mp_cost (mp_run ask lax mp_new h) = One c /\ c == charged (ledger ask [] (flat_map told h)).
Proof.
  intro T. destruct (cost_general ask lax h mp_new [] 0 matches_new eq_refl) as (c & C & E); [auto|]. exists c. split; [exact C|]. rewrite E, Qplus_0_l.
  assert (F : filter (fun q => tabular (rows_of q)) (ledger ask [] (flat_map told h)) = ledger ask [] (flat_map told h)).
  { revert T. generalize (ledger ask [] (flat_map told h)). induction l as [|q l IH]; intro T; [reflexivity|]. cbn [filter].
    rewrite (proj2 (tabular_table _) (T q (or_introl eq_refl))). f_equal. apply IH. intros; apply T; now right. }
  now rewrite F.
Qed.
Print Assumptions C97_cost.

(** Where rows of different lengths are refused, the total misses exactly the queries with such costs. *)
Theorem C97_cost_missing {O K A : Type} (ask : O -> K -> res (A * list (list Q))) (lax : bool) h :
  lax = false ->
  exists c, mp_cost (mp_run ask lax mp_new h) = One c /\ c == charged (filter (fun q => tabular (rows_of q)) (ledger ask [] (flat_map told h))).
Proof.
  intro L. destruct (cost_general ask lax h mp_new [] 0 matches_new eq_refl) as (c & C & E); [intros; congruence|]. exists c. split; [exact C|]. now rewrite E, Qplus_0_l.
Qed.
Print Assumptions C97_cost_missing.

(** One call after any history: [names] are the asked oracles. *)
Definition after {O K A} (p : mpool O K A) (names : list string) (rs : list (A * list (list Q))) (ks : K) (c : amount) : mpool O K A :=
  {| mp_dict := mp_dict p; mp_cost := c; mp_hist := mp_hist p ++ [(names, rs, ks)] |}.
Theorem C97_call {O K A : Type} (ask : O -> K -> res (A * list (list Q))) (lax : bool) h ks ns :
  let p := mp_run ask lax mp_new h in
  let added := flat_map adds h in
  let names := match ns with Some l => l | None => first_names (map fst added) end in
  match mapM (reply ask added ks) names with
  | Err e => mp_query_s ask lax p ks ns = (p, Err e)
  | Ok rs =>
      let rows := flat_map snd rs in
      (table rows -> forall c, mp_cost p = One c ->
         exists c', mp_query_s ask lax p ks ns = (after p names rs ks (One c'), Ok rs) /\ c' == c + sum (List.concat rows)) /\
      (~ table rows -> lax = false -> mp_query_s ask lax p ks ns = (after p names rs ks (mp_cost p), Err ValueErr)) /\
      (~ table rows -> lax = true -> forall c, mp_cost p = One c ->
         (forall m, (forall r, In r rows -> List.length r = 1%nat \/ List.length r = m) ->
            exists l, mp_query_s ask lax p ks ns = (after p names rs ks (Many l), Ok rs) /\ List.length l = m /\
              forall k, (k < m)%nat -> nth k l 0 == c + sum (map (stretched k) rows)) /\
         ((forall m, exists r, In r rows /\ List.length r <> 1%nat /\ List.length r <> m) ->
            mp_query_s ask lax p ks ns = (after p names rs ks (mp_cost p), Err ValueErr)))
  end.
Proof.
  intros p added names. destruct (run_ledger ask lax h mp_new [] matches_new) as [_ M]. cbn [app] in M. fold p added in M.
  assert (Q0 : mp_query_s ask lax p ks ns = match mapM (reply ask added ks) names with Err e => (p, Err e) | Ok rs => let '(p', x) := mp_record lax p names rs ks in (p', _ <- x ;; Ok rs) end).
  { unfold mp_query_s. rewrite (proj2 M). fold names. now rewrite (asks_replies ask p added ks names M). }
  destruct (mapM (reply ask added ks) names) as [rs|e]; [|exact Q0]. cbv zeta. set (rows := flat_map snd rs) in *. rewrite Q0. unfold mp_record, after. fold rows.
  split; [|split].
  - intros T c C. apply even_table in T. destruct (total_even lax rows T) as (t & -> & Et). rewrite C. cbn [bind charge]. eexists. split; [reflexivity|]. now rewrite Et.
  - intros N L. unfold np_total. assert (E : even rows = false) by (destruct (even rows) eqn:E; [apply even_table in E; tauto|reflexivity]). rewrite E, L. reflexivity.
  - intros N L c C. assert (E : even rows = false) by (destruct (even rows) eqn:E; [apply even_table in E; tauto|reflexivity]).
    unfold np_total. rewrite E, L, C. destruct rows as [|r0 rows]; [discriminate|]. split.
    + intros m Hm. assert (M1 : m <> 1%nat). { intros ->. apply N. intros a b Ha Hb. destruct (Hm a Ha), (Hm b Hb); congruence. }
      destruct (fold_ok m rows M1 r0 Hm) as (s & F & _ & I & S0). rewrite F. cbn [bind charge]. eexists. split; [reflexivity|]. rewrite map_length.
      assert (Ls : List.length s = m).
      { apply I. clear - N Hm. assert (D : (exists r, In r (r0 :: rows) /\ List.length r = m) \/ forall r, In r (r0 :: rows) -> List.length r = 1%nat).
        { revert Hm. generalize (r0 :: rows). induction l as [|x l IH]; intro Hm; [right; intros r []|]. destruct (Nat.eq_dec (List.length x) m) as [Ex|D]; [left; exists x; split; [now left|exact Ex]|].
          destruct IH as [(r & Hr & E)|IH]; [intros; apply Hm; now right|left; exists r; split; [now right|exact E]|].
          right. intros r [<-|Hr]; [|auto]. destruct (Hm x (or_introl eq_refl)); [auto|contradiction]. }
        destruct D as [D|D]; [exact D|]. exfalso. apply N. intros a b Ha Hb. rewrite (D a), (D b); auto. }
      split; [exact Ls|]. intros k Hk. rewrite (nth_indep _ 0 (c + 0)) by (rewrite map_length; lia). rewrite (map_nth (fun x => c + x)).
      specialize (S0 k Hk). unfold stretched at 1 in S0. rewrite Ls in S0. destruct (Nat.eqb_spec m 1); [contradiction|]. now rewrite S0.
    + intro D. destruct (foldM broadcast r0 rows) as [s|e] eqn:F.
      * exfalso. destruct (D (List.length s)) as (r & Hr & D1 & D2). destruct (fold_len rows r0 s F r Hr); contradiction.
      * cbn [bind]. assert (e = ValueErr) as ->; [|reflexivity]. clear - F. revert r0 F. induction rows as [|b rows IH]; cbn [foldM]; intros a F; [discriminate|].
        destruct (broadcast a b) as [t|e0] eqn:B; cbn [bind] in F; [eauto|]. injection F as <-. unfold broadcast in B.
        destruct (Nat.eqb (List.length a) (List.length b)); [discriminate|]. destruct a as [|x [|x' a]], b as [|y [|y' b]]; congruence.
Qed.
Print Assumptions C97_call.
(** Asking one oracle is asking a list of one. *)
Theorem C97_single {O K A : Type} (ask : O -> K -> res (A * list (list Q))) (lax : bool) h ks n :
  let p := mp_run ask lax mp_new h in
  let x := mp_query_s ask lax p ks (Some [n]) in
  fst (mp_query ask lax p ks (Some n)) = fst x /\
  (forall r, snd (mp_query ask lax p ks (Some n)) = Ok r <-> snd x = Ok [r]) /\
  (forall e, snd (mp_query ask lax p ks (Some n)) = Err e <-> snd x = Err e) /\
  mp_query ask lax p ks None = (p, Err ValueErr).
Proof.
  cbv zeta. split; [apply query_as_s|]. unfold mp_query, mp_query_s. cbn [mapM]. destruct (mp_ask ask _ ks n) as [r|e]; cbn [bind].
  - destruct (mp_record lax _ [n] [r] ks) as [p' [u|e]]; cbn [bind snd]; (split; [|split]); try reflexivity; intros; split; intro H; try discriminate; try (injection H as <-; reflexivity).
  - cbn [snd]. split; [|split]; try reflexivity; intros; split; intro H; try discriminate; (injection H as <-; reflexivity).
Qed.
Print Assumptions C97_single.

(** The summary never fails. *)
Theorem C97_report {O K A : Type} (ask : O -> K -> res (A * list (list Q))) (lax : bool) h :
  exists t, mp_repr (mp_run ask lax mp_new h) = Ok t /\
    map fst t = names_of (flat_map told h) /\
    (forall n, In n (names_of (flat_map told h)) -> exists c,
       dget String.eqb n t = Some (List.length (given_by n (ledger ask [] (flat_map told h))), c) /\
       c == sum (List.concat (flat_map snd (given_by n (ledger ask [] (flat_map told h)))))) /\
    sum (map (fun e => snd (snd e)) t) == charged (ledger ask [] (flat_map told h)).
Proof.
  destruct (run_ledger ask lax h mp_new [] matches_new) as [H M]. cbn [app mp_new mp_hist] in H, M. set (p := mp_run ask lax mp_new h) in *.
  set (qs := ledger ask [] (flat_map told h)) in *. unfold mp_repr. rewrite H.
  assert (AN : map fst (flat_map adds h) = flat_map (fun e => match e with Added n _ => [n] | _ => [] end) (flat_map told h)).
  { clear. induction h as [|a h IH]; [reflexivity|]. cbn [flat_map]. rewrite map_app, flat_map_app, IH. f_equal. destruct a as [n o|ks [n|]|ks ns]; reflexivity. }
  change (flat_map (fun q : line K A => combine (fst (fst q)) (snd (fst q))) qs) with (lines_of qs).
  set (d0 := map _ (mp_dict p)). assert (K0 : map fst d0 = names_of (flat_map told h)).
  { unfold d0. rewrite map_map. cbn [fst]. transitivity (map fst (mp_dict p)); [apply map_ext; reflexivity|]. destruct M as [_ ->]. unfold names_of. now rewrite AN. }
  change (fun e : string * (A * list (list Q)) => (fst e, ([], map qsum (snd (snd e))))) with (@flat A).
  destruct (repr_fold (map flat (lines_of qs)) d0) as (t & F & Kt & P).
  { intros e He. apply in_map_iff in He. destruct He as (e0 & <- & He). cbn [flat fst]. rewrite K0. apply first_names_in.
    unfold lines_of in He. apply in_flat_map in He. destruct He as (q & Hq & He). destruct e0 as [n r]. apply in_combine_l in He. cbn [fst].
    destruct (ledger_names ask _ [] q n Hq He) as [[]|I]. exact I. }
  exists t. split; [exact F|]. split; [now rewrite Kt|]. split.
  - intros n Hn. destruct (P n 0%nat 0) as (c & G & E).
    { rewrite <- K0 in Hn. unfold d0 in *. clear - Hn. induction (mp_dict p) as [|[k v] d IH]; [contradiction|]. cbn in *.
      destruct (String.eqb_spec n k) as [->|D]; [reflexivity|]. destruct Hn as [<-|Hn]; [congruence|auto]. }
    exists c. rewrite asked_of_flat in G, E. rewrite map_length in G. split; [exact G|]. rewrite E, Qplus_0_l. apply flat_costs.
  - unfold sum. rewrite (repr_sum _ d0 t F).
    assert (Z0 : fold_right Qplus 0 (map (fun e => snd (snd e)) d0) == 0).
    { unfold d0. rewrite map_map. cbn [snd]. clear. induction (mp_dict p) as [|x l IH]; cbn [map fold_right]; [reflexivity|]. rewrite IH. reflexivity. }
    rewrite Z0, Qplus_0_l. apply lines_costs. intros q Hq. exact (ledger_lengths ask _ _ q Hq).
Qed.
Print Assumptions C97_report.

(** The full history: rows in order of addition, a column for each answered query with the last result of every oracle, or
    nothing if it was not asked, and how often it was named. *)
Theorem C97_full {O K A : Type} (ask : O -> K -> res (A * list (list Q))) (lax : bool) h :
  let names := names_of (flat_map told h) in
  let qs := ledger ask [] (flat_map told h) in
  mp_full (mp_run ask lax mp_new h) =
    Ok (names,
        map (fun q => map (fun n => match last_of n q with Some r => Some (snd q, r) | None => None end) names) qs,
        map (fun n => count_occ string_dec (flat_map (fun q => fst (fst q)) qs) n) names).
Proof.
  destruct (run_ledger ask lax h mp_new [] matches_new) as [H M]. cbn [app mp_new mp_hist] in H, M. cbv zeta. set (p := mp_run ask lax mp_new h) in *.
  set (qs := ledger ask [] (flat_map told h)) in *. unfold mp_full. rewrite H.
  assert (AN : map fst (flat_map adds h) = flat_map (fun e => match e with Added n _ => [n] | _ => [] end) (flat_map told h)).
  { clear. induction h as [|a h IH]; [reflexivity|]. cbn [flat_map]. rewrite map_app, flat_map_app, IH. f_equal. destruct a as [n o|ks [n|]|ks ns]; reflexivity. }
  assert (EN : map fst (mp_dict p) = names_of (flat_map told h)) by (destruct M as [_ ->]; unfold names_of; now rewrite AN). rewrite EN.
  set (names := names_of (flat_map told h)) in *.
  destruct (count_fold (flat_map (fun q : answered K A => fst (fst q)) qs) (map (fun n => (n, 0%nat)) names)) as (d & F & Kd & P).
  { intros n Hn. rewrite map_map, map_id. apply first_names_in. apply in_flat_map in Hn. destruct Hn as (q & Hq & Hn).
    destruct (ledger_names ask _ [] q n Hq Hn) as [[]|I]. exact I. }
  change (flat_map (fun q : line K A => fst (fst q)) qs) with (flat_map (fun q : answered K A => fst (fst q)) qs). rewrite F. cbn [bind].
  assert (E1 : mapM (fun q => mapM (full_cell q) names) qs = Ok (map (fun q => map (fun n => match last_of n q with Some r => Some (snd q, r) | None => None end) names) qs)).
  { assert (W : forall q, In q qs -> List.length (fst (fst q)) = List.length (snd (fst q))) by (intros q Hq; exact (ledger_lengths ask _ _ q Hq)).
    clear - W. induction qs as [|q qs IH]; [reflexivity|]. cbn [mapM map]. rewrite IH by (intros; apply W; now right).
    assert (E : mapM (full_cell q) names = Ok (map (fun n => match last_of n q with Some r => Some (snd q, r) | None => None end) names)); [|now rewrite E].
    specialize (W q (or_introl eq_refl)). clear - W. induction names as [|n names IH]; [reflexivity|]. cbn [mapM map]. rewrite IH.
    assert (E : full_cell q n = Ok (match last_of n q with Some r => Some (snd q, r) | None => None end)); [|now rewrite E].
    unfold full_cell, last_asked, last_of, range. rewrite (dget_fold_index (fst (fst q)) (snd (fst q)) 0 [] n W). cbn [dget].
    pose proof (latest_index n (fst (fst q)) (snd (fst q)) 0 W) as L. destruct (latest string_dec n (combine (fst (fst q)) (seq 0 _))) as [i|]; [|now rewrite L].
    destruct L as (_ & r & Hr & ->). rewrite Nat.sub_0_r in Hr. unfold py_nth. now rewrite Hr. }
  rewrite E1. cbn [bind]. f_equal. f_equal.
  assert (ND : NoDup names). { unfold names, names_of. clear. generalize (flat_map (fun e : event O K => match e with Added n _ => [n] | _ => [] end) (flat_map told h)). induction l as [|x l IH]; cbn [first_names]; constructor; [rewrite filter_In, String.eqb_refl; intros [_ ?]; discriminate|now apply NoDup_filter]. }
  assert (Kd' : map fst d = names) by (rewrite Kd, map_map, map_id; reflexivity).
  assert (P' : forall n, In n names -> dget String.eqb n d = Some (count_occ string_dec (flat_map (fun q : answered K A => fst (fst q)) qs) n)).
  { intros n Hn. apply (P n 0%nat). clear - Hn. induction names as [|m l IH]; [contradiction|]. cbn. destruct (String.eqb_spec n m) as [->|D]; [reflexivity|]. destruct Hn; [congruence|auto]. }
  clear - ND Kd' P'. revert ND Kd' P'. generalize names. induction d as [|[k v] d IH]; intros [|m l] ND E P'; try discriminate; [reflexivity|].
  cbn [map fst] in E. injection E as -> E. cbn [map snd]. inversion ND; subst. f_equal.
  - specialize (P' m (or_introl eq_refl)). cbn in P'. rewrite String.eqb_refl in P'. now injection P'.
  - apply IH; auto. intros n Hn. specialize (P' n (or_intror Hn)). cbn in P'. destruct (String.eqb_spec n m) as [Enm|D]; [subst n; contradiction|exact P'].
Qed.
Print Assumptions C97_full.
(** ** Two multi-label oracles *)
Definition costs1 : moracle Z := match mo_init [[1; 0; 1]; [0; 0; 1]]%Z None None MCNone with Ok o => o | Err _ => {| mo_m := 0; mo_inst := false; mo_costf := false; mo_label_cost := None; mo_exa := []; mo_ind := [] |} end.
Definition costs2 : moracle Z := match mo_init [[1; 1; 1]; [0; 1; 1]]%Z None None (MCVec false [1; 2; 4]) with Ok o => o | Err _ => costs1 end.
Definition ml_ask (o : moracle Z) (ks : list mlidx) : res (list (list Z) * list (list Q)) := mo_query o ks.
(** Each answers one row for each index, as assumed of the oracles of a pool. *)
Lemma ml_one_each o ks r : ml_ask o ks = Ok r -> List.length (fst r) = List.length ks /\ List.length (snd r) = List.length ks.
Proof.
  unfold ml_ask, mo_query. destruct (check_index ks); cbn [bind]; [|discriminate]. destruct (mapM (mo_query_one o) ks) as [l|e] eqn:E; cbn [rmap]; [|discriminate].
  intro H. injection H as <-. apply mapM_len in E. rewrite E. rewrite split_length_l, split_length_r. auto.
Qed.
Definition asking : list (mact (moracle Z) (list mlidx)) :=
  [MAdd "a" costs1; MAdd "b" costs2; MQueryS [IManyL 0 [0; 1]; IManyL 1 [1; 2]] None;
   MQuery [IPair 0 1; IManyL 1 [0; 1]] (Some "a"); MQuery [IPair 1 2] (Some "b")]%string%Z.

(** The second query is recorded and shown, but not in the total. *)
Theorem C97_total_refuted :
  exists c t, mp_cost (mp_run ml_ask false mp_new asking) = One c /\ mp_repr (mp_run ml_ask false mp_new asking) = Ok t /\
    c == 17 /\ sum (map (fun e => snd (snd e)) t) == 20 /\ List.length (mp_hist (mp_run ml_ask false mp_new asking)) = 3%nat.
Proof. eexists. eexists. split; [vm_compute; reflexivity|]. split; [vm_compute; reflexivity|]. split; [reflexivity|]. split; reflexivity. Qed.
Print Assumptions C97_total_refuted.
(** Before numpy 1.24 the total becomes an array. *)
Theorem C97_array_refuted :
  exists l, mp_cost (mp_run ml_ask true mp_new asking) = Many l /\ Forall2 Qeq l [19; 19].
Proof. eexists. split; [vm_compute; reflexivity|]. repeat constructor. Qed.
Print Assumptions C97_array_refuted.

Example C97_witness_table : forall q, In q (ledger ml_ask [] (flat_map told (firstn 3 asking))) -> table (rows_of q).
Proof. intros q Hq. vm_compute in Hq. destruct Hq as [<-|[]]. apply tabular_table. vm_compute. reflexivity. Qed.
Example C97_witness_full : match mp_full (mp_run ml_ask false mp_new asking) with
  | Ok (names, cols, counts) => names = ["a"; "b"]%string /\ counts = [2; 2]%nat /\ map (map (fun c => match c with Some _ => true | None => false end)) cols = [[true; true]; [true; false]; [false; true]]
  | Err _ => False end.
Proof. vm_compute. auto. Qed.
