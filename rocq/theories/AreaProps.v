(** Theorems about the shaded areas and the summary tables: C95. *)
From Coq Require Import String.
From Verif Require Import Base BaseFacts StateModel StateProofs MiscModel MiscSpec FeatureModel AnalyserModel AnalyserSpec AnalyserProofs AnalyserProofs2 AnalyserProofs3 AnalyserProofs4 AnalyserProps AreaModel AreaSpec AreaProofs.
From Coq Require Import QArith Qround Qreduction Lqa.
Local Open Scope Z_scope.

(** ** C95. Shading changes neither the curves nor whether the plot works. *)
Theorem C95_curves : forall a shift start step,
  match num_plot a shift start step with
  | Ok cs => exists ds, num_plot_area a shift start step = Ok ds /\ map fst ds = cs
  | Err e => num_plot_area a shift start step = Err e
  end.
Proof.
  intros a shift start step. pose proof (plot_rel a shift start step) as H. destruct (num_plot a shift start step); [|exact H]. destruct H as (ds & E & M & _). eauto.
Qed.
Print Assumptions C95_curves.

(** Without a start point every area lies around its curve, one deviation wide. *)
Theorem C95_area : forall a shift k ts ds, (0 < k)%nat -> methods a ts -> num_plot_area a shift None (Z.of_nat k) = Ok ds ->
  Forall2 (fun t d => exists xs ys vs, d = ((fst t, xs, ys), (xs, ys, vs)) /\ List.length vs = List.length ys /\ spreads k (snd t) vs) ts ds.
Proof.
  intros a shift k ts ds Hk M E. pose proof (plot_rel a shift None (Z.of_nat k)) as H. destruct (num_plot a shift None (Z.of_nat k)); [|congruence].
  destruct H as (ds' & E' & _ & F). assert (ds' = ds) by congruence. subst ds'. clear E E'. unfold methods in M. revert ds F. induction M as [|p t l ts (En & Sh & n & T) M IH]; intros ds F; inversion F as [|? d ? ds' X F']; subst; [constructor|].
  constructor; [|auto]. destruct X as (m & pts & std & xs & ys & vs & axs & Em & Ep & Es & -> & Lv & La & -> & ->). rewrite (matrix_of_shows _ _ _ Sh T) in Em. injection Em as <-.
  destruct (vars_len _ _ Ep) as (std' & Es' & Ls). assert (std' = std) by congruence. subst std'.
  exists xs, ys, (if Z.of_nat k =? 1 then std else every (Z.of_nat k) std). split; [now rewrite En|]. split; [exact Lv|]. eapply vs_ok; [exact Hk|reflexivity|]. eapply vars_ok; eauto.
Qed.
Print Assumptions C95_area.

(** With a start point the points of the curve are at [k], [2k], ... but the areas at [1], [k+1], ...: they fit exactly for an
    interval of 1. *)
Theorem C95_area_start : forall a shift s k ts ds, (0 < k)%nat -> methods a ts -> num_plot_area a shift (Some s) (Z.of_nat k) = Ok ds ->
  Forall2 (fun t d => exists xs ys axs vs, d = ((fst t, xs, s :: ys), (axs, ys, vs)) /\ List.length xs = Datatypes.S (List.length ys) /\
    List.length axs = List.length ys /\ List.length vs = List.length ys /\ spreads k (snd t) vs /\
    (forall j x, nth_error xs j = Some x -> (x == inject_Z (Z.of_nat (j * k)))%Q) /\
    (forall j x, nth_error axs j = Some x -> (x == inject_Z (Z.of_nat (j * k + 1)))%Q) /\
    (ys <> [] -> (Forall2 Qeq axs (tl xs) <-> k = 1%nat))) ts ds.
Proof.
  intros a shift s k ts ds Hk M E. pose proof (plot_rel a shift (Some s) (Z.of_nat k)) as H. destruct (num_plot a shift (Some s) (Z.of_nat k)) as [cs|] eqn:EP; [|congruence].
  destruct H as (ds' & E' & MC & F). assert (ds' = ds) by congruence. subst ds'. clear E'.
  assert (XS : Forall2 (fun t c => exists xs ys, c = (fst t, xs, s :: ys) /\ List.length xs = Datatypes.S (List.length ys) /\ forall j x, nth_error xs j = Some x -> (x == inject_Z (Z.of_nat (j * k)))%Q) ts cs).
  { clear F E MC ds. unfold num_plot in EP. destruct (an_data a) as [|p0 l0] eqn:ED; [discriminate|]. unfold methods in M. rewrite ED in M. destruct (an_all a) as [all|]; [|discriminate].
    match type of EP with (_ <- ?X ;; _) = _ => destruct X as [u|] end; cbn [bind] in EP; [|discriminate]. clear ED. revert shift cs EP. induction M as [|[nm d] t l ts (En & Sh & n & T) M IH]; intros shift cs EP.
    - cbn in EP. injection EP as <-. constructor.
    - cbn [num_curves] in EP. cbn [snd] in Sh. rewrite (matrix_of_shows _ _ _ Sh T) in EP. cbn [bind] in EP. destruct (col_means _) as [pts|]; [|discriminate]. cbn [bind] in EP.
      destruct (guard _ ZeroDivErr); [|discriminate]. cbn [bind] in EP. match type of EP with (_ <- ?X ;; _) = _ => destruct X as [sh|] end; cbn [bind] in EP; [|discriminate].
      match type of EP with (_ <- guard ?X ?Y ;; _) = _ => destruct X eqn:EL end; cbn [guard bind] in EP; [|discriminate]. apply Nat.eqb_eq in EL.
      match type of EP with (_ <- ?X ;; _) = _ => destruct X as [cs'|] eqn:ER end; cbn [bind] in EP; [|discriminate]. injection EP as <-. constructor; [|eapply IH; exact ER].
      cbn [fst] in En. subst nm. eexists _, _. split; [reflexivity|]. split; [rewrite EL; reflexivity|]. intros j x Hx. rewrite nth_error_map in Hx. destruct (arange_spec k (Datatypes.S (List.length pts)) Hk) as [_ HA].
      destruct (nth_error (arange _ _) j) as [z|] eqn:Ez; [|discriminate]. apply HA in Ez. cbn [option_map] in Hx. injection Hx as <-. rewrite Ez. ring. }
  clear E EP. unfold methods in M. revert ds cs F MC XS. induction M as [|p t l ts (En & Sh & n & T) M IH]; intros ds cs F MC XS; inversion F as [|? d ? ds' X F']; subst; [constructor|].
  cbn [map] in XS. inversion XS as [|? ? ? ? XC XS']; subst. constructor; [|eapply IH; eauto].
  destruct X as (m & pts & std & xs & ys & vs & axs & Em & Ep & Es & -> & Lv & La & -> & AX & _). rewrite (matrix_of_shows _ _ _ Sh T) in Em. injection Em as <-.
  destruct (vars_len _ _ Ep) as (std' & Es' & Ls). assert (std' = std) by congruence. subst std'. cbn [fst] in XC. destruct XC as (xs' & ys' & E0 & LX & HX). injection E0 as En' <- <-.
  exists xs, ys, axs, (if Z.of_nat k =? 1 then std else every (Z.of_nat k) std). split; [now rewrite En'|]. split; [exact LX|]. split; [exact La|]. split; [exact Lv|].
  split; [eapply vs_ok; [exact Hk|reflexivity|]; eapply vars_ok; eauto|]. split; [exact HX|].
  assert (HA : forall j x, nth_error axs j = Some x -> (x == inject_Z (Z.of_nat (j * k + 1)))%Q).
  { intros j x Hx. rewrite AX, nth_error_map in Hx. destruct (arange_spec k (List.length pts) Hk) as [_ HA]. destruct (nth_error (arange _ _) j) as [z|] eqn:Ez; [|discriminate]. apply HA in Ez.
    cbn [option_map] in Hx. injection Hx as <-. rewrite Ez, Nat2Z.inj_add, inject_Z_plus. change (inject_Z (Z.of_nat 1)) with 1%Q. ring. }
  split; [exact HA|]. intro NE. destruct xs as [|x0 xs]; [discriminate|]. cbn [tl]. cbn [List.length] in LX. split.
  - intro F2. destruct axs as [|a0 axs]; [destruct ys; [congruence|discriminate]|]. inversion F2 as [|? x1 ? ? Q1 _]; subst. pose proof (HA 0%nat a0 eq_refl) as A0. pose proof (HX 1%nat x1 eq_refl) as A1. rewrite Q1, A1 in A0. unfold Qeq in A0. cbn in A0. lia.
  - intro K. assert (LL : List.length axs = List.length xs) by lia. assert (G : forall j u v, nth_error axs j = Some u -> nth_error xs j = Some v -> (u == v)%Q).
    { intros j u v Hu Hv. rewrite (HA j u Hu), (HX (Datatypes.S j) v Hv). subst k. replace (Datatypes.S j * 1)%nat with (j * 1 + 1)%nat by lia. reflexivity. }
    clear - LL G. revert xs LL G. induction axs as [|u axs IH]; intros [|v xs] LL G; try discriminate; constructor; [apply (G 0%nat); reflexivity|]. apply IH; [cbn in LL; lia|]. intros j. apply (G (Datatypes.S j)).
Qed.
Print Assumptions C95_area_start.

(** Against the cost: the curves do not depend on the shading; the areas have the middle of the curves and the deviation over
    the folds, but they are not shifted with the curves. *)
Theorem C95_cost_area : forall interp a shift start interval all data ips,
  Forall2 (fun p m => fst p = fst m /\ shows_costs (snd p) (snd m)) (an_data a) data -> an_all a = Some all ->
  Forall2 (fun (m : string * list (list (list Q * Q))) ip => starts all (an_sum a) start (fst m) ip) data ips ->
  match cost_plot interp a shift start interval with
  | Err e => cost_plot_area interp a shift start interval = Err e
  | Ok cs => exists ds, cost_plot_area interp a shift start interval = Ok ds /\ map fst ds = cs /\
      forall k m ip, nth_error data k = Some m -> nth_error ips k = Some ip ->
        exists xs ys axs vs, nth_error ds k = Some ((fst m, xs, ys), (axs, ys, vs)) /\ xs = map (fun x => x + shift)%Q axs /\
          cost_spreads interp ip (snd m) axs vs
  end.
Proof.
  intros interp a shift start interval all data ips FD EA FI.
  assert (E : mapM (fun p => f <- cost_fold (snd p) ;; Ok (fst p, f)) (an_data a) = Ok (map (fun m => (fst m, map folded (snd m))) data)).
  { apply mapM_Forall2. clear - FD. induction FD as [|p m l data (E1 & E2) F IH]; [constructor|]. cbn [map]. constructor; auto.
    rewrite (cost_fold_ok _ _ E2). cbn [bind]. now rewrite E1. }
  pose proof (cost_plot_rel interp a shift start interval _ all E EA) as H. destruct (cost_plot interp a shift start interval) as [cs|e]; [|exact H].
  destruct H as (ds & ED & MD & F). exists ds. split; [exact ED|]. split; [exact MD|]. clear E ED MD EA FD. revert ds F. induction FI as [|m ip data ips S FI IH]; intros ds F k m0 ip0 E1 E2; [destruct k; discriminate|].
  cbn [map] in F. inversion F as [|? d ? ds' X F']; subst. destruct k as [|k].
  - cbn in E1, E2. injection E1 as <-. injection E2 as <-. destruct X as (ip' & c & grid & vs & EI & -> & E3 & E4). cbn [fst snd] in *. rewrite (starts_ip _ _ _ _ _ S) in EI. injection EI as <-.
    exists (fst c), (snd c), grid, vs. split; [reflexivity|]. split; [exact E3|]. split; [rewrite E4; now rewrite map_length|].
    exists (map (fun f => fst (axis_for ip (folded f))) (snd m)). split; [apply axes_ok|]. intros j x Hj. rewrite E4, nth_error_map, Hj. cbn [option_map]. eexists. split; [reflexivity|]. rewrite axes_values. reflexivity.
  - cbn [nth_error] in *. eapply IH; eauto.
Qed.
Print Assumptions C95_cost_area.
(** So a shifted curve lies beside its area. *)
Theorem C95_cost_shift_refuted : forall interp a shift start interval ds n xs ys axs ays vs, ~ (shift == 0)%Q ->
  cost_plot_area interp a shift start interval = Ok ds -> In ((n, xs, ys), (axs, ays, vs)) ds -> ys <> [] -> ~ Forall2 Qeq axs xs.
Proof.
  intros interp a shift start interval ds n xs ys axs ays vs NS E HI NE F2. unfold cost_plot_area in E. destruct (mapM _ (an_data a)) as [data|]; [|discriminate]. cbn [bind] in E.
  destruct (least _) as [eff|]; [|discriminate]. cbn [bind] in E. destruct (guard _ _); [|discriminate]. cbn [bind] in E. destruct (an_all a) as [all|]; [|discriminate].
  pose proof (areas_curves interp all (an_sum a) start eff (match interval with Some i => i | None => (eff / 100)%Q end) shift data) as A.
  destruct (cost_curves _ _ _ _ _ _ _ _) as [cs|e] in A; [|congruence]. destruct A as (ds' & E' & _ & F). assert (ds' = ds) by congruence. subst ds'.
  assert (X : exists c grid vs', ((n, xs, ys), (axs, ays, vs)) = ((n, fst c, snd c), (grid, snd c, vs')) /\ fst c = map (fun x => x + shift)%Q grid /\ vs' = vs' /\ List.length (snd c) = List.length grid).
  { clear - F HI E. revert E. assert (G : forall l ds, cost_areas interp all (an_sum a) start eff (match interval with Some i => i | None => (eff / 100)%Q end) shift l = Ok ds -> forall d, In d ds ->
      exists n c grid vs', d = ((n, fst c, snd c), (grid, snd c, vs')) /\ fst c = map (fun x => x + shift)%Q grid /\ List.length (snd c) = List.length grid).
    { clear. induction l as [|[n folds] l IH]; intros ds E d Hd; cbn [cost_areas] in E; [injection E as <-; destruct Hd|].
      match type of E with (_ <- ?X ;; _) = _ => destruct X as [ip|] end; cbn [bind] in E; [|discriminate]. destruct (cost_area _ _ _ _ _ _) as [c|] eqn:EC; cbn [bind] in E; [|discriminate].
      destruct (cost_areas _ _ _ _ _ _ _ l) as [cs|] eqn:ER; cbn [bind] in E; [|discriminate]. injection E as <-. destruct Hd as [<-|Hd]; [|eapply IH; eauto].
      unfold cost_area in EC. destruct (mapM _ _) as [fs|] in EC; [|discriminate]. cbn [bind] in EC. destruct (greatest fs) as [g|]; [|discriminate]. cbn [bind] in EC. injection EC as <-.
      exists n. eexists (_, _), _, _. cbn [fst snd]. split; [reflexivity|]. split; [reflexivity|]. now rewrite map_length. }
    intro E. destruct (G _ _ E _ HI) as (n' & c & grid & vs' & E1 & E2 & E3). exists c, grid, vs'. injection E1 as -> -> -> -> -> ->. auto. }
  destruct X as (c & grid & vs' & E1 & E2 & _ & E3). injection E1 as -> -> -> _ _. destruct grid as [|g grid]; [destruct (snd c); [congruence|discriminate]|].
  rewrite E2 in F2. cbn [map] in F2. inversion F2 as [|? ? ? ? Q1 _]; subst. apply NS. lra.
Qed.
Print Assumptions C95_cost_shift_refuted.
Example C95_area_example :
  (exists ds, num_plot_area (many [("a"%string, lists [[0; 1]; [2; 3]]%Q)]) None None 1 = Ok ds /\ Forall2 (fun d v => Forall2 is_num (snd (snd d)) v) ds [[1; 1]]%Q) /\
  (exists ds, num_plot_area (many [("a"%string, lists [[0; 1]; [2; 3]]%Q)]) None (Some (Num 0)) 2 = Ok ds /\
     Forall2 (fun d x => Forall2 Qeq (snd (fst (fst d))) x) ds [[0; 2]]%Q /\ Forall2 (fun d x => Forall2 Qeq (fst (fst (snd d))) x) ds [[1]]%Q) /\
  (exists ds, cost_plot_area next_perf (fst (cost_add an_new "m" (MRuns [run1; run2]))) 5 None (Some 2%Q) = Ok ds /\
     Forall2 (fun d x => Forall2 Qeq (snd (fst (fst d))) x) ds [[5; 7]]%Q /\ Forall2 (fun d x => Forall2 Qeq (fst (fst (snd d))) x) ds [[0; 2]]%Q).
Proof.
  split; [eexists; split; [vm_compute; reflexivity|]; repeat constructor; eexists; split; reflexivity|]. split.
  - eexists. split; [reflexivity|]. split; repeat constructor.
  - eexists. split; [vm_compute; reflexivity|]. split; repeat constructor.
Qed.

(** ** Tables *)

Definition num_inv (a : analyser) (l : list (string * aresults)) : Prop :=
  map fst (an_data a) = firsts (map fst l) /\
  (forall n, In n (map fst l) -> exists r su, latest n l r /\ summary_of r su /\ sget n (an_sum a) = Some su) /\
  match rev l with [] => an_all a = None | (_, r) :: _ => an_all a = Some (match r with MLists _ => false | _ => true end) end.

Lemma latest_snoc {R} n k (r : R) l x : n <> k -> latest n l x -> latest n (l ++ [(k, r)]) x.
Proof. intros N (l1 & l2 & -> & H). exists l1, (l2 ++ [(k, r)]). split; [now rewrite <- app_assoc|]. rewrite map_app, in_app_iff. cbn. intuition congruence. Qed.
Lemma latest_new {R} k (r : R) l : latest k (l ++ [(k, r)]) r.
Proof. exists l, []. split; [reflexivity|intros []]. Qed.
Lemma num_data a n r a' : num_add a n r = (a', Ok tt) -> exists d su, an_data a' = sset n d (an_data a) /\ an_sum a' = sset n su (an_sum a) /\ summary_of r su /\
  an_all a' = Some (match r with MLists _ => false | _ => true end).
Proof.
  intro H. assert (NR : forall c, num_runs (set_all a true) n c = (a', Ok tt) -> exists d su, an_data a' = sset n d (an_data a) /\ an_sum a' = sset n su (an_sum a) /\ stateio_summary c = Ok su /\ an_all a' = Some true).
  { intros c E. unfold num_runs in E. destruct (extract_one _ c) as [m|]; [|discriminate]. unfold finish in E. destruct (stateio_summary c) as [s|]; [|discriminate]. injection E as <-. do 2 eexists. repeat split. }
  unfold num_add in H. destruct r as [c|[|x c]|l|]; try discriminate; try (apply NR in H; exact H).
  destruct (type_of_list l) as [[|[|j]]|e]; try discriminate. unfold finish in H. destruct (list_summary1 l) as [s|] eqn:ES; [|discriminate]. injection H as <-. do 2 eexists. repeat split. exact ES.
Qed.
Lemma num_inv_step a l n r a' : num_inv a l -> num_add a n r = (a', Ok tt) -> num_inv a' (l ++ [(n, r)]).
Proof.
  intros (I1 & I2 & I3) H. destruct (num_data _ _ _ _ H) as (d & su & ED & ES & S & A). unfold num_inv. rewrite ED. rewrite map_app, rev_app_distr. cbn [map fst rev app].
  split; [now apply sset_firsts|]. split; [|exact A].
  intros k Hk. rewrite ES, sget_sset. destruct (String.eqb_spec k n) as [->|N].
  - exists r, su. split; [apply latest_new|auto].
  - apply in_app_iff in Hk. destruct Hk as [Hk|[E|[]]]; [|congruence]. destruct (I2 k Hk) as (r0 & s0 & L & R). exists r0, s0. split; [now apply latest_snoc|exact R].
Qed.
Lemma num_inv_run l : forall a a' l0, num_inv a l0 -> adds num_add a l a' -> num_inv a' (l0 ++ l).
Proof.
  induction l as [|[n r] l IH]; intros a a' l0 I H; inversion H as [|? ? ? a1 ? ? E R]; subst; [now rewrite app_nil_r|].
  replace (l0 ++ (n, r) :: l) with ((l0 ++ [(n, r)]) ++ l) by now rewrite <- app_assoc. eapply IH; [|exact R]. eapply num_inv_step; eauto.
Qed.
Lemma num_inv_new : num_inv an_new [].
Proof. split; [reflexivity|]. split; [intros n []|reflexivity]. Qed.

(** The table after any history of successful additions: one row for each name, in the order of first use, about the results
    added last under the name; batch sizes are shown exactly if the very last addition was of runs. *)
Theorem C95_table : forall l n r a, adds num_add an_new (l ++ [(n, r)]) a ->
  exists rows col, num_table a = Ok (rows, col) /\ map nr_name rows = firsts (map fst (l ++ [(n, r)])) /\
    (forall row, In row rows -> exists res su, latest (nr_name row) (l ++ [(n, r)]) res /\ summary_of res su /\
       nr_len row = su_len su /\ nr_folds row = su_folds su /\ nr_mean row = su_mean su /\ nr_var row = su_var su) /\
    (given_as_runs r -> exists bs, col = Some bs /\ Forall2 (fun row b => exists res su, latest (nr_name row) (l ++ [(n, r)]) res /\ summary_of res su /\
       b = if su_flag su then Some (su_batch su) else None) rows bs) /\
    (~ given_as_runs r -> col = None).
Proof.
  intros l n r a H. pose proof (num_inv_run _ _ _ [] num_inv_new H) as (I1 & I2 & I3). cbn [app] in *. rewrite rev_app_distr in I3. cbn [rev app] in I3.
  set (L := l ++ [(n, r)]) in *. assert (K : forall p, In p (an_data a) -> exists res su, latest (fst p) L res /\ summary_of res su /\ sget (fst p) (an_sum a) = Some su).
  { intros p Hp. apply I2. apply firsts_in. rewrite <- I1. now apply in_map. }
  assert (R : exists rows, mapM (fun p => match sget (fst p) (an_sum a) with None => Err KeyErr | Some su => Ok {| nr_name := fst p; nr_len := su_len su; nr_folds := su_folds su; nr_mean := su_mean su; nr_var := su_var su |} end) (an_data a) = Ok rows /\
    map nr_name rows = map fst (an_data a) /\ (forall row, In row rows -> exists res su, latest (nr_name row) L res /\ summary_of res su /\ nr_len row = su_len su /\ nr_folds row = su_folds su /\ nr_mean row = su_mean su /\ nr_var row = su_var su) /\
    exists bs, mapM (fun p => match sget (fst p) (an_sum a) with None => Err KeyErr | Some su => Ok (if su_flag su then Some (su_batch su) else None) end) (an_data a) = Ok bs /\
      Forall2 (fun row b => exists res su, latest (nr_name row) L res /\ summary_of res su /\ b = if su_flag su then Some (su_batch su) else None) rows bs).
  { clear - K. induction (an_data a) as [|p d IH]; [exists []; repeat split; [intros row []|]; exists []; split; [reflexivity|constructor]|].
    destruct IH as (rows & E & N & P & bs & EB & FB); [intros; apply K; now right|]. destruct (K p (or_introl eq_refl)) as (res & su & L1 & S1 & G1).
    cbn [mapM]. rewrite G1, E, EB. cbn [bind]. eexists. split; [reflexivity|]. split; [cbn [map nr_name]; now rewrite N|]. split.
    - intros row [<-|Hr]; [exists res, su; cbn [nr_name nr_len nr_folds nr_mean nr_var]; auto 8|auto].
    - eexists. split; [reflexivity|]. constructor; [exists res, su; cbn [nr_name]; auto|exact FB]. }
  destruct R as (rows & E & N & P & bs & EB & FB). unfold num_table. rewrite E. cbn [bind]. rewrite I3. destruct r as [c|c|ls|]; cbn [given_as_runs].
  - rewrite EB. exists rows, (Some bs). split; [reflexivity|]. split; [congruence|]. split; [exact P|]. split; [eauto|tauto].
  - rewrite EB. exists rows, (Some bs). split; [reflexivity|]. split; [congruence|]. split; [exact P|]. split; [eauto|tauto].
  - exists rows, None. split; [reflexivity|]. split; [congruence|]. split; [exact P|]. split; [tauto|reflexivity].
  - exfalso. destruct (I2 n) as (res & su & (l1 & l2 & E2 & NI) & S & _); [unfold L; rewrite map_app, in_app_iff; right; now left|].
    assert (res = MOther); [|subst; exact S]. destruct (exists_last (l := (n, res) :: l2)) as (q & [x y] & EQ); [discriminate|]. unfold L in E2. rewrite EQ in E2. rewrite app_assoc in E2. apply app_inj_tail in E2. destruct E2 as [_ E2]. injection E2 as <- <-.
    destruct q as [|q0 q]; [cbn in EQ; congruence|]. cbn in EQ. injection EQ as _ ->. exfalso. apply NI. rewrite map_app, in_app_iff. right. now left.
Qed.
Print Assumptions C95_table.

(** A new analyser cannot be shown; the cost analyser neither, with another exception. *)
Theorem C95_empty : num_table an_new = Err AttrErr /\ cost_table an_new = Err ValueErr.
Proof. split; reflexivity. Qed.
Print Assumptions C95_empty.

Lemma table_rows a rows col : num_table a = Ok (rows, col) -> map nr_name rows = map fst (an_data a) /\ forall p, In p (an_data a) -> exists su, sget (fst p) (an_sum a) = Some su.
Proof.
  unfold num_table. intro H. match type of H with (_ <- ?X ;; _) = _ => destruct X as [rows'|] eqn:E end; cbn [bind] in H; [|discriminate].
  assert (rows' = rows). { destruct (an_all a) as [[|]|]; [|congruence|discriminate]. match type of H with (_ <- ?X ;; _) = _ => destruct X end; cbn [bind] in H; [congruence|discriminate]. } subst rows'. clear H.
  revert rows E. induction (an_data a) as [|p d IH]; intros rows E; cbn [mapM] in E; [injection E as <-; split; [reflexivity|intros p []]|].
  destruct (sget (fst p) (an_sum a)) as [su|] eqn:G; [|discriminate]. cbn [bind] in E. match type of E with (_ <- ?X ;; _) = _ => destruct X as [rows'|] end; cbn [bind] in E; [|discriminate]. injection E as <-.
  destruct (IH rows' eq_refl) as [N P]. split; [cbn [map nr_name]; now rewrite N|]. intros q [<-|Hq]; [eauto|auto].
Qed.
Lemma rows_same sums (d d' : list (string * adata)) : map fst d = map fst d' ->
  mapM (fun p : string * adata => match sget (fst p) sums with None => Err KeyErr | Some su => Ok {| nr_name := fst p; nr_len := su_len su; nr_folds := su_folds su; nr_mean := su_mean su; nr_var := su_var su |} end) d =
  mapM (fun p : string * adata => match sget (fst p) sums with None => Err KeyErr | Some su => Ok {| nr_name := fst p; nr_len := su_len su; nr_folds := su_folds su; nr_mean := su_mean su; nr_var := su_var su |} end) d'.
Proof.
  revert d'. induction d as [|p d IH]; intros [|p' d'] E; try discriminate; [reflexivity|]. cbn [map] in E. injection E as E1 E2. cbn [mapM]. rewrite E1, (IH d' E2). reflexivity.
Qed.
Lemma col_some sums (d : list (string * adata)) : (forall p : string * adata, In p d -> exists su, sget (fst p) sums = Some su) ->
  exists bs, mapM (fun p : string * adata => match sget (fst p) sums with None => Err KeyErr | Some su => Ok (if su_flag su then Some (su_batch su) else None) end) d = Ok bs.
Proof.
  induction d as [|p d IH]; intro H; [eexists; reflexivity|]. destruct IH as (bs & E); [intros; apply H; now right|]. destruct (H p (or_introl eq_refl)) as (su & G). cbn [mapM]. rewrite G, E. eexists. reflexivity.
Qed.

Lemma rows_missing sums (d : list (string * adata)) : (exists p : string * adata, In p d /\ sget (fst p) sums = None) ->
  mapM (fun p : string * adata => match sget (fst p) sums with None => Err KeyErr | Some su => Ok {| nr_name := fst p; nr_len := su_len su; nr_folds := su_folds su; nr_mean := su_mean su; nr_var := su_var su |} end) d = Err KeyErr.
Proof.
  induction d as [|p d IH]; intros (q & Hq & G); [destruct Hq|]. cbn [mapM]. destruct (sget (fst p) sums) eqn:E; [|reflexivity]. cbn [bind]. rewrite IH; [reflexivity|]. exists q. split; [|exact G]. destruct Hq as [->|Hq]; [congruence|exact Hq].
Qed.
Lemma table_missing a : (exists p, In p (an_data a) /\ sget (fst p) (an_sum a) = None) -> num_table a = Err KeyErr.
Proof. intro H. unfold num_table. rewrite rows_missing by exact H. reflexivity. Qed.
Lemma sget_in {V} n (d : list (string * V)) : sget n d <> None <-> In n (map fst d).
Proof.
  induction d as [|[k v] d IH]; [cbn; tauto|]. cbn [sget map fst In]. destruct (String.eqb_spec n k) as [->|N]; [split; [intros _; now left|intros _; discriminate]|]. rewrite IH. intuition congruence.
Qed.

Lemma add_frame a n r a' o : num_add a n r = (a', o) -> (an_data a' = an_data a \/ exists d, an_data a' = sset n d (an_data a)) /\ (an_sum a' = an_sum a \/ exists d su, an_data a' = sset n d (an_data a) /\ an_sum a' = sset n su (an_sum a)).
Proof.
  assert (FI : forall a1 d s, finish (set_data a1 n d) n s = (a', o) -> an_data a1 = an_data a -> an_sum a1 = an_sum a ->
    (an_data a' = an_data a \/ exists d, an_data a' = sset n d (an_data a)) /\ (an_sum a' = an_sum a \/ exists d su, an_data a' = sset n d (an_data a) /\ an_sum a' = sset n su (an_sum a))).
  { intros a1 d s E E1 E2. unfold finish in E. destruct s as [s|]; injection E as <- _; cbn [set_sum set_data an_data an_sum]; rewrite E1, E2; (split; [right; eexists; reflexivity|first [now left|right; do 2 eexists; split; reflexivity]]). }
  intro H. unfold num_add, num_runs in H. destruct r as [c|[|x c]|l|]; try (injection H as <- _; split; now left).
  - destruct (extract_one _ c); [exact (FI _ _ _ H eq_refl eq_refl)|injection H as <- _; split; now left].
  - destruct (extract_one _ _); [exact (FI _ _ _ H eq_refl eq_refl)|injection H as <- _; split; now left].
  - destruct (type_of_list l) as [[|[|j]]|]; try (injection H as <- _; split; now left). exact (FI (set_all a false) _ _ H eq_refl eq_refl).
Qed.
Lemma many_sums l : forall k, In k (map fst (an_sum (many l))) -> In k (map fst (an_data (many l))).
Proof.
  unfold many. assert (G : forall l a, (forall k, In k (map fst (an_sum a)) -> In k (map fst (an_data a))) -> forall k, In k (map fst (an_sum (fold_left (fun a p => fst (num_add a (fst p) (snd p))) l a))) -> In k (map fst (an_data (fold_left (fun a p => fst (num_add a (fst p) (snd p))) l a)))).
  { induction l0 as [|[n r] l0 IH]; intros a I; [exact I|]. cbn [fold_left fst snd]. apply IH. destruct (num_add a n r) as [a' o] eqn:E. cbn [fst]. destruct (add_frame _ _ _ _ _ E) as [[D|(d & D)] [SU|(d' & su & D' & SU)]]; intro k; rewrite SU.
    - rewrite D. auto.
    - rewrite D'. rewrite !sset_keys. intuition.
    - rewrite D, sset_keys. auto.
    - rewrite D'. rewrite !sset_keys. intuition. }
  apply G. intros k [].
Qed.

(** A failing addition never changes a row. Either the same rows are still shown, or, if data were stored under a new name
    before the failure, nothing can be shown any more. *)
Theorem C95_failed : forall h a n r a' e rows col, a = many h -> num_table a = Ok (rows, col) -> num_add a n r = (a', Err e) ->
  (exists col', num_table a' = Ok (rows, col')) \/ (num_table a' = Err KeyErr /\ ~ In n (map nr_name rows) /\ sget n (an_data a') <> None).
Proof.
  intros h a n r a' e rows col EM T H. destruct (table_rows a rows col T) as [N P].
  assert (SUM : an_sum a' = an_sum a). { assert (FI : forall a1 s a2, finish a1 n s = (a2, Err e) -> an_sum a2 = an_sum a1) by (intros a1 s a2 E; unfold finish in E; destruct s; [discriminate|congruence]).
    unfold num_add, num_runs in H. destruct r as [c|[|x c]|l|]; try (injection H as <- _; reflexivity).
    - destruct (extract_one _ c); [apply FI in H; exact H|injection H as <- _; reflexivity].
    - destruct (extract_one _ _); [apply FI in H; exact H|injection H as <- _; reflexivity].
    - destruct (type_of_list l) as [[|[|j]]|]; try (injection H as <- _; reflexivity). apply FI in H. exact H. }
  assert (DAT : an_data a' = an_data a \/ exists d, an_data a' = sset n d (an_data a)).
  { assert (FI : forall a1 s a2, finish a1 n s = (a2, Err e) -> an_data a2 = an_data a1) by (intros a1 s a2 E; unfold finish in E; destruct s; [discriminate|congruence]).
    unfold num_add, num_runs in H. destruct r as [c|[|x c]|l|]; try (injection H as <- _; now left).
    - destruct (extract_one _ c); [apply FI in H; right; eexists; exact H|injection H as <- _; now left].
    - destruct (extract_one _ _); [apply FI in H; right; eexists; exact H|injection H as <- _; now left].
    - destruct (type_of_list l) as [[|[|j]]|]; try (injection H as <- _; now left). apply FI in H. right. eexists. exact H. }
  assert (ALL : an_all a' <> None). { unfold num_table in T. destruct (mapM _ (an_data a)) in T; [|discriminate]. cbn [bind] in T. destruct (an_all a) eqn:EA; [|discriminate].
    assert (FI : forall a1 s a2, finish a1 n s = (a2, Err e) -> an_all a2 = an_all a1) by (intros a1 s a2 E; unfold finish in E; destruct s; [discriminate|congruence]).
    unfold num_add, num_runs in H. destruct r as [c|[|x c]|l|]; try (injection H as <- _; cbn; congruence).
    - destruct (extract_one _ c); [apply FI in H; rewrite H; discriminate|injection H as <- _; discriminate].
    - destruct (extract_one _ _); [apply FI in H; rewrite H; discriminate|injection H as <- _; discriminate].
    - destruct (type_of_list l) as [[|[|j]]|]; try (injection H as <- _; discriminate). apply FI in H. rewrite H. discriminate. }
  assert (SAME : map fst (an_data a') = map fst (an_data a) -> exists col', num_table a' = Ok (rows, col')).
  { intro E. unfold num_table in *. rewrite SUM, (rows_same (an_sum a) (an_data a') (an_data a) E). match type of T with (_ <- ?X ;; _) = _ => destruct X as [rows'|] end; cbn [bind] in T |- *; [|discriminate].
    assert (rows' = rows). { destruct (an_all a) as [[|]|]; [|congruence|discriminate]. match type of T with (_ <- ?X ;; _) = _ => destruct X end; cbn [bind] in T; [congruence|discriminate]. } subst rows'.
    destruct (an_all a') as [[|]|]; [|eauto|congruence]. destruct (col_some (an_sum a) (an_data a')) as (bs & ->); [|eexists; reflexivity].
    intros p Hp. assert (I : In (fst p) (map fst (an_data a))) by (rewrite <- E; now apply in_map). apply in_map_iff in I. destruct I as (q & <- & Hq). now apply P. }
  destruct DAT as [E|(d & E)]; [left; apply SAME; now rewrite E|]. pose proof (sset_names n d (an_data a)) as SN. rewrite <- E in SN. destruct (existsb (String.eqb n) (map fst (an_data a))) eqn:B; [left; now apply SAME|].
  assert (NI : ~ In n (map fst (an_data a))) by (intro X; apply has_name in X; congruence). destruct (sget n (an_sum a)) as [su|] eqn:G.
  - exfalso. apply NI. subst a. apply many_sums. apply sget_in. congruence.
  - right. split; [|split; [congruence|rewrite E, sget_sset, String.eqb_refl; discriminate]]. apply table_missing. rewrite SUM.
    assert (I : In n (map fst (an_data a'))) by (rewrite SN; apply in_or_app; right; now left). apply in_map_iff in I. destruct I as (p & <- & Hp). eauto.
Qed.
Print Assumptions C95_failed.

(** ... until results are added under that name successfully: other additions do not help. *)
Theorem C95_stuck : forall l a n, sget n (an_data a) <> None -> sget n (an_sum a) = None -> ~ In n (map fst l) ->
  num_table (fold_left (fun a p => fst (num_add a (fst p) (snd p))) l a) = Err KeyErr.
Proof.
  induction l as [|[k r] l IH]; intros a n D S NI.
  - cbn [fold_left]. apply table_missing. apply sget_in in D. apply in_map_iff in D. destruct D as (p & <- & Hp). eauto.
  - cbn [fold_left fst snd]. destruct (num_add a k r) as [a' o] eqn:E. cbn [fst]. assert (N : n <> k) by (intros ->; apply NI; now left).
    destruct (C78_frame a k r a' o n (or_introl E) N) as [E1 E2]. apply (IH a' n); [now rewrite E1|now rewrite E2|]. intro X. apply NI. now right.
Qed.
Print Assumptions C95_stuck.

(** A failing addition can make a column of batch sizes appear, although no method was given as runs. *)
Theorem C95_column_refuted : exists l n r a e rows bs, (forall k x, In (k, x) l -> ~ given_as_runs x) /\ num_add (many l) n r = (a, Err e) /\
  num_table (many l) = Ok (rows, None) /\ num_table a = Ok (rows, Some bs).
Proof.
  exists [("a"%string, lists [[0; 1]]%Q)], "b"%string, (MLists []). do 4 eexists. split; [intros k x [E|[]]; injection E as <- <-; tauto|]. split; [reflexivity|]. split; reflexivity.
Qed.
Print Assumptions C95_column_refuted.
Example C95_table_example :
  (exists a, adds num_add an_new ([("a"%string, lists [[0; 1]; [2; 3]]%Q)] ++ [("b"%string, MRuns [run1])]) a /\
     exists rows, num_table a = Ok (rows, Some [None; Some 1%nat]) /\ map nr_name rows = ["a"; "b"]%string /\ map nr_len rows = [2; 3]%nat) /\
  num_table (fst (num_add an_new "a" (MRuns [{| r_ip := Some (AObj 0); r_states := [] |}]))) = Err KeyErr.
Proof.
  split; [|reflexivity]. eexists. split; [econstructor; [reflexivity|]; econstructor; [reflexivity|]; constructor|]. eexists. split; [vm_compute; reflexivity|]. split; reflexivity.
Qed.

(** ** The cost table *)
Lemma costs_only_ok d folds : shows_costs d folds -> costs_only d = Ok (map spent folds).
Proof.
  intros [->|(m & -> & F)]; unfold costs_only.
  - apply mapM_Forall2. induction folds as [|f folds IH]; [constructor|]. cbn [map]. constructor; auto.
    apply mapM_Forall2. unfold spent. induction f as [|t f IHf]; [constructor|]. cbn [map]. constructor; auto.
    cbn [item_part py_nth nth_error bind]. rewrite mapM_fin. reflexivity.
  - apply mapM_Forall2. induction F as [|r f m folds Fr F IH]; [constructor|]. cbn [map]. constructor; auto.
    apply mapM_Forall2. unfold spent. induction Fr as [|v t r f (c & -> & H) Fr IHr]; [constructor|]. cbn [map]. constructor; auto.
    cbn [py_nth nth_error bind]. destruct H as [->|(q & -> & E)]; cbn [aval_nums].
    + rewrite mapM_fin. reflexivity.
    + cbn [fin bind]. rewrite E. reflexivity.
Qed.
Lemma qunique_in l : forall x, In x l -> exists y, In y (qunique l) /\ (x == y)%Q.
Proof.
  induction l as [|a l IH]; intros x H; [destruct H|]. cbn [qunique]. destruct (existsb (Qeq_bool a) l) eqn:B.
  - destruct H as [<-|H]; [|auto]. apply existsb_exists in B. destruct B as (b & Hb & E). apply Qeq_bool_iff in E. destruct (IH b Hb) as (y & Hy & E'). exists y. split; [exact Hy|]. now rewrite E.
  - destruct H as [<-|H]; [exists a; split; [now left|reflexivity]|]. destruct (IH x H) as (y & Hy & E). exists y. split; [now right|exact E].
Qed.
Lemma qunique_sub l x : In x (qunique l) -> In x l.
Proof. induction l as [|a l IH]; [intros []|]. cbn [qunique]. destruct (existsb (Qeq_bool a) l); [right; auto|]. intros [->|H]; [now left|right; auto]. Qed.
Lemma qunique_same l q : l <> [] -> (forall x, In x l -> (x == q)%Q) -> exists y, qunique l = [y] /\ (y == q)%Q.
Proof.
  induction l as [|a l IH]; intros NE H; [congruence|]. cbn [qunique]. destruct l as [|b l]; [exists a; split; [reflexivity|apply H; now left]|].
  destruct (existsb (Qeq_bool a) (b :: l)) eqn:B; [apply IH; [discriminate|intros; apply H; now right]|]. exfalso. assert (X : existsb (Qeq_bool a) (b :: l) = true); [|congruence].
  apply existsb_exists. exists b. split; [now left|]. apply Qeq_bool_iff. rewrite (H a), (H b); [reflexivity|right; now left|now left].
Qed.

(** The table of the cost analyser shows one row per method, in order; as budget the amount that all its folds spend, and
    'Not same budget' when there is no such amount. *)
Theorem C95_budget : forall a data, Forall2 (fun p m => fst p = fst m /\ shows_costs (snd p) (snd m)) (an_data a) data -> (exists m, In m data /\ snd m <> []) ->
  (forall n d, In (n, d) (an_data a) -> sget n (an_sum a) <> None) ->
  exists rows, cost_table a = Ok rows /\
    Forall2 (fun m row => cr_name row = fst m /\ (exists su, sget (fst m) (an_sum a) = Some su /\ cr_folds row = su_folds su /\ cr_mean row = su_mean su /\ cr_var row = su_var su) /\
      match cr_budget row with Some q => budget (snd m) q | None => ~ exists q, budget (snd m) q end) data rows.
Proof.
  intros a data F NE HS. unfold cost_table.
  assert (E : mapM (fun p => f <- costs_only (snd p) ;; Ok (fst p, map qsum f)) (an_data a) = Ok (map (fun m => (fst m, map (fun f => total (spent f)) (snd m))) data)).
  { apply mapM_Forall2. clear - F. induction F as [|p m l data (E1 & E2) F IH]; [constructor|]. cbn [map]. constructor; auto. rewrite (costs_only_ok _ _ E2). cbn [bind]. rewrite E1, map_map. reflexivity. }
  rewrite E. cbn [bind]. rewrite map_map. cbn [snd].
  destruct (least_spec (List.concat (map (fun m => map (fun f => total (spent f)) (snd m)) data))) as (eff & EL & _).
  { destruct NE as (m & Hm & NE). intro X. destruct (snd m) as [|f fs] eqn:Em; [congruence|]. assert (Y : In (total (spent f)) (List.concat (map (fun m => map (fun f => total (spent f)) (snd m)) data))); [|rewrite X in Y; destruct Y].
    apply in_concat. exists (map (fun f => total (spent f)) (snd m)). split; [now apply (in_map (fun m => map (fun f => total (spent f)) (snd m)))|]. rewrite Em. now left. }
  rewrite EL. cbn [bind]. clear E EL NE eff. assert (HS' : forall m, In m data -> exists su, sget (fst m) (an_sum a) = Some su).
  { clear - F HS. induction F as [|[n d] m l data (E1 & _) F IH]; intros m' [].
    - subst m'. cbn [fst] in E1. rewrite <- E1. destruct (sget n (an_sum a)) eqn:G; [eauto|]. exfalso. eapply HS; [now left|exact G].
    - apply IH; [|assumption]. intros; eapply HS; right; eauto. }
  clear F HS. induction data as [|m data IH]; [exists []; split; [reflexivity|constructor]|]. destruct IH as (rows & E & FR); [intros; apply HS'; now right|]. destruct (HS' m (or_introl eq_refl)) as (su & G).
  cbn [map mapM fst snd]. rewrite G. cbn [bind]. rewrite E. cbn [bind]. eexists. split; [reflexivity|]. constructor; [|exact FR]. cbn [cr_name cr_folds cr_mean cr_var cr_budget]. split; [reflexivity|]. split; [eauto|].
  set (l := map (fun f => total (spent f)) (snd m)). assert (ALT : forall q, budget (snd m) q -> exists y, qunique l = [y]).
  { intros q [N H]. destruct (qunique_same l q) as (y & -> & _); [unfold l; destruct (snd m); [congruence|discriminate]| |eauto]. intros x Hx. apply in_map_iff in Hx. destruct Hx as (f & <- & Hf). auto. }
  destruct (qunique l) as [|q [|q' ql]] eqn:EU.
  - intros (q & B). destruct (ALT q B) as (y & X). discriminate.
  - split.
    + intro X. unfold l in EU. rewrite X in EU. discriminate.
    + intros f Hf. destruct (qunique_in l (total (spent f))) as (y & Hy & Ey); [unfold l; now apply (in_map (fun f => total (spent f)))|]. rewrite EU in Hy. destruct Hy as [<-|[]]. exact Ey.
  - intros (q0 & B). destruct (ALT q0 B) as (y & X). discriminate.
Qed.
Print Assumptions C95_budget.
Example C95_budget_example : exists rows, cost_table (fst (cost_add (fst (cost_add an_new "m" (MRuns [run1; run2]))) "k" (MLists [[ITup [[Num 1; Num 2]; [Num (1#2)]]]; [ITup [[Num 1]; [Num (1#4)]]; ITup [[Num 2]; [Num 0]]]]))) = Ok rows /\
  map cr_name rows = ["m"; "k"]%string /\ map cr_folds rows = [2; 2]%nat /\ match nth_error rows 1 with Some r => match cr_budget r with Some q => (q == 3)%Q | None => False end | None => False end.
Proof. eexists. split; [vm_compute; reflexivity|]. repeat split; reflexivity. Qed.
