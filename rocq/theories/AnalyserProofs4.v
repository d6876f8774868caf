(** The analysers as a whole. *)
From Verif Require Import Base BaseFacts StateModel StateProofs MiscModel MiscSpec FeatureModel AnalyserModel AnalyserSpec AnalyserProofs AnalyserProofs2 AnalyserProofs3.
From Coq Require Import String QArith Qround Qreduction Lqa.
Local Open Scope Z_scope.

(** ** Containers *)
Lemma add_folds_ok srcs : forall c runs, Forall2 gives srcs runs -> exists ws, add_folds c srcs = (c ++ runs, Ok ws) /\
  List.length ws = List.length (filter (fun s => match s with APath (FRun r) => match check_batch r with Some _ => false | None => true end | _ => false end) srcs).
Proof.
  induction srcs as [|s srcs IH]; intros c runs F; inversion F as [|x r l l' G F']; subst; clear F.
  - exists []. rewrite app_nil_r. split; reflexivity.
  - destruct (IH (c ++ [r]) l' F') as (ws & E & L). cbn [add_folds].
    destruct G as [->| ->]; cbn [add_fold]; rewrite E, <- app_assoc; cbn [app].
    + exists ws. split; [reflexivity|exact L].
    + eexists. split; [reflexivity|]. rewrite app_length, L. cbn [filter]. destruct (check_batch r); reflexivity.
Qed.
Lemma add_folds_err pre : forall c runs s post e, Forall2 gives pre runs -> (forall c, add_fold c s = Err e) ->
  add_folds c (pre ++ s :: post) = (c ++ runs, Err e).
Proof.
  induction pre as [|p pre IH]; intros c runs s post e F B; inversion F as [|x r l l' G F']; subst; clear F; cbn [app add_folds].
  - rewrite B, app_nil_r. reflexivity.
  - destruct G as [->| ->]; cbn [add_fold]; rewrite (IH (c ++ [r]) l' s post e F' B), <- app_assoc; reflexivity.
Qed.
Lemma unsteady r : check_batch r = None <-> forall b, ~ steady b r.
Proof.
  split.
  - intros E b S. apply check_batch_iff in S. congruence.
  - intro H. destruct (check_batch r) as [b|] eqn:E; [|reflexivity]. apply check_batch_iff in E. destruct (H b E).
Qed.

(** ** Lists of pairs *)
Lemma fsum_eq l : forall qs, Forall2 is_num l qs -> is_num (fsum l) (total qs).
Proof.
  induction l as [|x l IH]; intros qs F; inversion F as [|? q ? qs' (p & -> & E) F']; subst; [exists 0%Q; split; reflexivity|].
  destruct (IH qs' F') as (t & Et & Ht). unfold fsum in *. cbn [fold_right]. rewrite Et. eexists. split; [reflexivity|].
  rewrite Qred_correct. change (total (q :: qs')) with (q + total qs')%Q. rewrite E, Ht. reflexivity.
Qed.
Lemma is_nums l qs : Forall2 is_num l qs -> exists ps, l = map Num ps /\ Forall2 Qeq ps qs.
Proof.
  induction 1 as [|x q l qs (p & -> & E) F (ps & -> & Fp)]; [exists []; split; [reflexivity|constructor]|].
  exists (p :: ps). split; [reflexivity|constructor; auto].
Qed.
Lemma is_num_eq x p q : is_num x p -> (p == q)%Q -> is_num x q.
Proof. intros (r & -> & E) H. exists r. split; [reflexivity|lra]. Qed.
Lemma fmean_is l qs : Forall2 is_num l qs -> qs <> [] -> is_num (fmean l) (mean qs).
Proof.
  intros F NE. destruct (is_nums l qs F) as (ps & -> & Fp). apply is_num_eq with (mean ps); [|now apply mean_eq].
  apply fmean_nums. destruct ps; [inversion Fp; subst; congruence|discriminate].
Qed.
Lemma fvar_is l qs : Forall2 is_num l qs -> qs <> [] -> is_num (fvar0 l) (variance qs).
Proof.
  intros F NE. destruct (is_nums l qs F) as (ps & -> & Fp). apply is_num_eq with (variance ps); [|now apply variance_eq].
  apply fvar_nums. destruct ps; [inversion Fp; subst; congruence|discriminate].
Qed.
Lemma pairs_summary (folds : list (list (list Q * Q))) : folds <> [] -> (forall f, In f folds -> f <> []) ->
  exists s, list_summary2 (map (map (fun t => ITup [map Num (fst t); [Num (snd t)]])) folds) = Ok s /\
    shortest (su_len s) folds /\ su_folds s = List.length folds /\
    is_num (su_mean s) (mean (map (fun f => mean (map snd f)) folds)) /\
    is_num (su_var s) (variance (map (fun f => mean (map snd f)) folds)) /\ su_ip s = None /\
    Forall2 (fun f c => exists x, c = [AVal x] /\ is_num x (total (spent f))) folds (su_costs s).
Proof.
  intros NE H. unfold list_summary2.
  assert (E1 : mapM (mapM (item_part 1)) (map (map (fun t => ITup [map Num (fst t); [Num (snd t)]])) folds) = Ok (map (map (fun t => [Num (snd t)])) folds)).
  { apply mapM_Forall2. clear. induction folds as [|f folds IH]; [constructor|]. cbn [map]. constructor; auto.
    apply mapM_Forall2. induction f as [|t f IHf]; [constructor|]. cbn [map]. constructor; auto. }
  assert (E0 : mapM (mapM (item_part 0)) (map (map (fun t => ITup [map Num (fst t); [Num (snd t)]])) folds) = Ok (map (map (fun t => map Num (fst t))) folds)).
  { apply mapM_Forall2. clear. induction folds as [|f folds IH]; [constructor|]. cbn [map]. constructor; auto.
    apply mapM_Forall2. induction f as [|t f IHf]; [constructor|]. cbn [map]. constructor; auto. }
  rewrite E1, E0. cbn [bind]. eexists. split; [reflexivity|]. cbn [su_len su_folds su_mean su_var su_ip su_costs].
  assert (M : Forall2 is_num (map (fun l => fmean (map fsum l)) (map (map (fun t : list Q * Q => [Num (snd t)])) folds)) (map (fun f => mean (map snd f)) folds)).
  { clear - H. induction folds as [|f folds IH]; [constructor|]. cbn [map]. constructor; [|apply IH; intros; apply H; now right].
    apply fmean_is; [|pose proof (H f (or_introl eq_refl)); destruct f; [congruence|discriminate]].
    rewrite map_map. clear. induction f as [|t f IHf]; [constructor|]. cbn [map]. constructor; auto.
    eexists. split; [reflexivity|]. rewrite Qred_correct. lra. }
  split; [|split; [now rewrite map_length|split; [|split; [|split; [reflexivity|]]]]].
  - assert (N : map (map (fun t : list Q * Q => ITup [map Num (fst t); [Num (snd t)]])) folds <> []) by (destruct folds; [congruence|discriminate]).
    pose proof (min_len_spec _ N) as [L (l & Il & Ll)]. split.
    + intros f Hf. rewrite <- (map_length (fun t : list Q * Q => ITup [map Num (fst t); [Num (snd t)]]) f). apply L. now apply in_map.
    + apply in_map_iff in Il. destruct Il as (f & <- & Hf). exists f. split; auto. rewrite map_length in Ll. exact Ll.
  - apply fmean_is; auto. destruct folds; [congruence|discriminate].
  - apply fvar_is; auto. destruct folds; [congruence|discriminate].
  - clear. induction folds as [|f folds IH]; [constructor|]. cbn [map]. constructor; auto. eexists. split; [reflexivity|].
    apply fsum_eq. unfold spent. rewrite map_map. clear. induction f as [|t f IHf]; [constructor|]. cbn [map]. constructor; auto. apply fsum_nums.
Qed.

(** ** The cost plot *)
Lemma total_perm_spent f : fold_total (folded f) = total (spent f).
Proof. unfold fold_total. rewrite folded_spent. reflexivity. Qed.
Lemma cost_plot_lemma interp a shift start interval all data ips :
  Forall2 (fun p m => fst p = fst m /\ shows_costs (snd p) (snd m)) (an_data a) data -> an_all a = Some all -> data <> [] ->
  Forall2 (fun (m : string * list (list (list Q * Q))) ip => starts all (an_sum a) start (fst m) ip) data ips ->
  (forall m, In m data -> snd m <> []) ->
  (forall m f, In m data -> In f (snd m) -> f <> [] /\ (forall t c, In t f -> In c (fst t) -> (0 <= c)%Q)) ->
  exists eff, least_of eff (List.concat (map (fun m => map (fun f => total (spent f)) (snd m)) data)) /\
    forall step, step = match interval with Some i => i | None => (eff / 100)%Q end -> (0 < step)%Q ->
    exists cs, cost_plot interp a shift start interval = Ok cs /\ List.length cs = List.length data /\
      forall k m ip, nth_error data k = Some m -> nth_error ips k = Some ip ->
        exists xs ys, nth_error cs k = Some (fst m, xs, ys) /\ cost_averages interp ip eff step shift (snd m) (xs, ys).
Proof.
  intros FD EA NE FI N1 N2. unfold cost_plot.
  assert (E : mapM (fun p => f <- cost_fold (snd p) ;; Ok (fst p, f)) (an_data a) = Ok (map (fun m => (fst m, map folded (snd m))) data)).
  { apply mapM_Forall2. clear - FD. induction FD as [|p m l data (E1 & E2) F IH]; [constructor|]. cbn [map]. constructor; auto.
    rewrite (cost_fold_ok _ _ E2). cbn [bind]. now rewrite E1. }
  rewrite E. cbn [bind]. rewrite map_map. cbn [fst snd].
  assert (ET : map (fun x : string * list (list (list Q * Q)) => map fold_total (map folded (snd x))) data = map (fun m => map (fun f => total (spent f)) (snd m)) data).
  { apply map_ext. intro m. rewrite map_map. apply map_ext. apply total_perm_spent. }
  rewrite ET. destruct (least_spec (List.concat (map (fun m => map (fun f => total (spent f)) (snd m)) data))) as (eff & EL & L).
  { destruct data as [|m data]; [congruence|]. cbn [map List.concat]. pose proof (N1 m (or_introl eq_refl)). destruct (snd m); [congruence|discriminate]. }
  exists eff. split; auto. rewrite EL. cbn [bind]. intros step -> P. set (step := match interval with Some i => i | None => (eff / 100)%Q end) in *.
  replace (Qeq_bool step 0) with false; [|symmetry; destruct (Qeq_bool step 0) eqn:B; [apply Qeq_bool_eq in B; lra|reflexivity]].
  cbn [negb guard bind]. rewrite EA. apply cost_curves_ok; auto.
  intros m f Hm Hf. destruct (N2 m f Hm Hf) as [A B]. split; auto. split; auto. apply L.
  apply in_concat. exists (map (fun f => total (spent f)) (snd m)). split; [now apply (in_map (fun m => map (fun f => total (spent f)) (snd m)))|].
  now apply (in_map (fun f => total (spent f))).
Qed.

(** ** Number of queries: the whole plot *)
Lemma num_plot_lemma a shift sh k ts : (0 < k)%nat -> an_data a <> [] -> methods a ts -> (an_all a <> None) -> shift_used a shift sh ->
  exists cs, num_plot a shift None (Z.of_nat k) = Ok cs /\ Forall2 (one_rel k sh) ts cs.
Proof.
  intros Hk NE F A S. unfold num_plot. destruct (an_data a) as [|p l] eqn:ED; [congruence|]. destruct (an_all a) as [all|] eqn:EA; [|congruence].
  unfold methods in F. rewrite ED in F.
  assert (C : (if all then check_plotting (p :: l) else Ok tt) = Ok tt) by (destruct all; [now apply check_passes with ts|reflexivity]).
  rewrite C. cbn [bind]. destruct (plain_curves all (an_sum a) k Hk (p :: l) ts sh F) as (cs & E & R). exists cs. split; auto.
  unfold shift_used in S. destruct shift as [s|]; [now subst s|]. rewrite EA, ED in S.
  rewrite (shift_first all (an_sum a) None (Z.of_nat k) p l sh); auto.
  - intros ->. destruct S as [[_ ->]|[X _]]; [reflexivity|discriminate].
  - intros ->. destruct S as [[X _]|(_ & n & d & l' & su & EL & G & C')]; [discriminate|]. exists su. injection EL as -> ->. cbn [fst]. split; auto.
    destruct C' as [[-> ->]|[N ->]]; [reflexivity|]. destruct (su_ip su); [reflexivity|congruence].
Qed.
Lemma start_shift all sums s step shift p l : (all = true -> exists su, sget (fst p) sums = Some su) ->
  exists sh, num_curves all sums (Some s) step shift (p :: l) = num_curves all sums (Some s) step (Some sh) (p :: l).
Proof.
  intro H. destruct shift as [x|]; [now exists x|]. destruct all.
  - destruct H as (su & G); [reflexivity|]. exists (match su_ip su with None => 1%Q | Some _ => 0%Q end).
    apply shift_first; [right; eauto|discriminate|]. intros _. exists su. auto.
  - exists 1%Q. apply shift_first; [right; eauto|auto|discriminate].
Qed.
Lemma num_start_lemma a shift s k ts : (0 < k)%nat -> an_data a <> [] -> methods a ts ->
  (an_all a = Some false \/ an_all a = Some true /\ forall n d, In (n, d) (an_data a) -> exists su, sget n (an_sum a) = Some su) ->
  ((forall t n, In t ts -> table (snd t) n -> (n mod k = 0)%nat) ->
    exists cs, num_plot a shift (Some s) (Z.of_nat k) = Ok cs /\ Forall2 (from_start k s) ts cs) /\
  ((exists t n, In t ts /\ table (snd t) n /\ (n mod k <> 0)%nat) -> num_plot a shift (Some s) (Z.of_nat k) = Err ValueErr).
Proof.
  intros Hk NE F A. unfold num_plot. destruct (an_data a) as [|p l] eqn:ED; [congruence|].
  unfold methods in F. rewrite ED in F.
  assert (X : exists all, an_all a = Some all /\ (all = true -> exists su, sget (fst p) (an_sum a) = Some su)).
  { destruct A as [->|[-> H]]; [exists false; split; [reflexivity|discriminate]|exists true; split; [reflexivity|]]. intros _. destruct p as [n d]. apply (H n d). now left. }
  destruct X as (all & -> & HS).
  assert (C : (if all then check_plotting (p :: l) else Ok tt) = Ok tt) by (destruct all; [now apply check_passes with ts|reflexivity]).
  rewrite C. cbn [bind]. destruct (start_shift all (an_sum a) s (Z.of_nat k) shift p l HS) as (sh & ->). split; intro H.
  - now apply start_curves.
  - now apply start_fails with ts.
Qed.

(** Bad methods. *)
Lemma curves_err all sums start step l : (exists p, In p l /\ exists e, matrix_of (snd p) = Err e) -> forall shift, exists e, num_curves all sums start step shift l = Err e.
Proof.
  induction l as [|[n d] l IH]; intros (p & Hp & e & E) shift; [destruct Hp|]. cbn [num_curves].
  destruct (matrix_of d) as [m|e0] eqn:Em; [|eexists; reflexivity]. cbn [bind]. destruct (col_means m) as [pts|e0]; [|eexists; reflexivity]. cbn [bind].
  destruct (step =? 0); cbn [negb guard bind]; [eexists; reflexivity|].
  match goal with |- exists e, (sh <- ?X ;; _) = _ => destruct X as [sh|e0] end; cbn [bind]; [|eexists; reflexivity].
  match goal with |- exists e, (_ <- ?X ;; _) = _ => destruct X as [u|e0] end; cbn [bind]; [|eexists; reflexivity].
  destruct Hp as [<-|Hp]; [cbn [snd] in E; congruence|].
  destruct (IH (ex_intro _ p (conj Hp (ex_intro _ e E))) (Some match start with Some _ => 0%Q | None => sh end)) as (e1 & ->). eexists. reflexivity.
Qed.
Lemma plot_err a shift start step : (exists p, In p (an_data a) /\ exists e, matrix_of (snd p) = Err e) -> exists e, num_plot a shift start step = Err e.
Proof.
  intros H. unfold num_plot. destruct (an_data a) as [|q l] eqn:ED; [eexists; reflexivity|]. destruct (an_all a) as [all|]; [|eexists; reflexivity].
  match goal with |- exists e, (_ <- ?X ;; _) = _ => destruct X as [u|e0] end; cbn [bind]; [|eexists; reflexivity].
  apply curves_err. exact H.
Qed.
Lemma check_nonfinite l : (forall p, In p l -> exists m, matrix_of (snd p) = Ok m) ->
  (exists p m r x, In p l /\ matrix_of (snd p) = Ok m /\ In r m /\ In x r /\ forall q, x <> Num q) -> check_plotting l = Err ValueErr.
Proof.
  induction l as [|[n d] l IH]; intros A (p & m & r & x & Hp & Em & Hr & Hx & N); [destruct Hp|]. cbn [check_plotting].
  destruct (A (n, d) (or_introl eq_refl)) as (m0 & E0). cbn [snd] in E0. rewrite E0. cbn [bind].
  destruct (existsb (existsb not_finite) m0) eqn:B; [reflexivity|]. destruct Hp as [<-|Hp].
  - exfalso. cbn [snd] in Em. assert (m = m0) by congruence. subst m0. assert (X : existsb (existsb not_finite) m = true); [|congruence].
    apply existsb_exists. exists r. split; auto. apply existsb_exists. exists x. split; auto. destruct x; [destruct (N q eq_refl)| |]; reflexivity.
  - apply IH; [intros q Hq; apply A; now right|]. exists p, m, r, x. auto.
Qed.
