(** Proofs about shaded areas and summary tables. *)
From Coq Require Import String.
From Verif Require Import Base BaseFacts StateModel StateProofs MiscModel MiscSpec FeatureModel AnalyserModel AnalyserSpec AnalyserProofs AnalyserProofs2 AnalyserProofs3 AnalyserProofs4 AreaModel AreaSpec.
From Coq Require Import QArith Qround Qreduction Lqa.
Local Open Scope Z_scope.

Lemma every_len step (l l' : list fl) : List.length l = List.length l' -> List.length (every step l) = List.length (every step l').
Proof. intro E. unfold every. now rewrite !map_length, E. Qed.
Lemma vars_len m pts : col_means m = Ok pts -> exists vs, col_vars m = Ok vs /\ List.length vs = List.length pts.
Proof. unfold col_means, col_vars. destruct m as [|r m]; [discriminate|]. intro E. injection E as <-. eexists. split; [reflexivity|]. now rewrite !map_length. Qed.
Lemma vars_ok m n vs : table m n -> col_vars (map (map Num) m) = Ok vs -> forall j v, nth_error vs j = Some v -> is_num v (variance (column 0%Q m j)).
Proof.
  intros [NE H] E. destruct m as [|r m]; [congruence|]. unfold col_vars in E. cbn [map] in E. injection E as <-. intros j v Hv. rewrite nth_error_map in Hv.
  rewrite map_length, (H r (or_introl eq_refl)) in Hv. destruct (nth_error (seq 0 n) j) as [i|] eqn:Es; [|discriminate].
  assert (Hj : (j < n)%nat). { rewrite <- (seq_length n 0). apply nth_error_Some. congruence. }
  pose proof (nth_error_nth _ _ 0%nat Es) as N. rewrite seq_nth in N by auto. cbn in N. subst i. cbn [option_map] in Hv.
  assert (EV : v = fvar0 (map Num (column 0%Q (r :: m) j))).
  { assert (v = fvar0 (map (fun r0 => nth j r0 NaN) (map (map Num) (r :: m)))) by (symmetry; injection Hv as Hv; exact Hv). subst v. f_equal. unfold column. rewrite !map_map.
    apply map_ext_in. intros x Hx. rewrite (nth_indep _ NaN (Num 0%Q)) by (rewrite map_length, (H x Hx); auto). apply map_nth. }
  rewrite EV. apply fvar_nums. discriminate.
Qed.
Lemma vs_ok k m n vs : (0 < k)%nat -> List.length vs = n -> (forall j v, nth_error vs j = Some v -> is_num v (variance (column 0%Q m j))) ->
  spreads k m (if Z.of_nat k =? 1 then vs else every (Z.of_nat k) vs).
Proof.
  intros Hk L H. unfold spreads. destruct (Z.eqb_spec (Z.of_nat k) 1) as [E|E].
  - assert (k = 1%nat) by lia. subst k. intros j v Hj. rewrite Nat.mul_1_r. auto.
  - destruct (every_spec k vs Hk) as [L' N]. intros j v Hj.
    assert (B : (j * k < List.length vs)%nat). { apply ceil_lt; auto. rewrite <- L'. apply nth_error_Some. congruence. }
    rewrite N in Hj by auto. auto.
Qed.

(** How the area of a method lies to its curve. *)
Definition shaded (start : option fl) (step : Z) (p : string * adata) (d : curve * area) : Prop :=
  exists m pts std xs ys vs axs, matrix_of (snd p) = Ok m /\ col_means m = Ok pts /\ col_vars m = Ok std /\
    vs = (if step =? 1 then std else every step std) /\ List.length vs = List.length ys /\ List.length axs = List.length ys /\
    d = ((fst p, xs, match start with Some s => s :: ys | None => ys end), (axs, ys, vs)) /\
    match start with None => axs = xs | Some _ => axs = map (fun x => x + 0 + 1)%Q (arange (List.length pts) step) /\ 0 < step end.

Lemma drawn_rel all sums start step : forall l shift,
  match num_curves all sums start step shift l with
  | Err e => num_drawn all sums start step shift l = Err e
  | Ok cs => exists ds, num_drawn all sums start step shift l = Ok ds /\ map fst ds = cs /\ Forall2 (shaded start step) l ds
  end.
Proof.
  induction l as [|[n d] l IH]; intro shift; [exists []; split; [reflexivity|]; split; [reflexivity|constructor]|].
  cbn [num_curves num_drawn]. destruct (matrix_of d) as [m|e] eqn:EM; [|reflexivity]. cbn [bind]. destruct (col_means m) as [pts|e] eqn:EP.
  2:{ unfold col_means in EP. destruct m; [|discriminate]. injection EP as <-. reflexivity. }
  destruct (vars_len m pts EP) as (std & ES & LS). rewrite ES. cbn [bind]. destruct (Z.eqb_spec step 0) as [|NZ]; [reflexivity|]. cbn [negb guard bind].
  match goal with |- context [sh <- ?X ;; _] => destruct X as [sh0|e] end; cbn [bind]; [|reflexivity].
  set (sh := match start with Some _ => 0%Q | None => sh0 end). set (ys := if step =? 1 then pts else every step pts). set (vs := if step =? 1 then std else every step std).
  set (xs := map _ (arange (match start with Some _ => _ | None => _ end) step)). set (cys := match start with Some s => s :: ys | None => ys end).
  destruct (Nat.eqb_spec (List.length xs) (List.length cys)) as [EL|NL]; [|reflexivity]. cbn [guard bind].
  set (axs := match start with Some _ => map (fun x => x + sh + 1)%Q _ | None => _ end).
  assert (LV : List.length vs = List.length ys) by (unfold vs, ys; destruct (step =? 1); [exact LS|now apply every_len]).
  assert (LA : List.length axs = List.length ys /\ (start <> None -> 0 < step)).
  { unfold axs. destruct start as [s|].
    - assert (P : 0 < step). { destruct (Z.ltb_spec 0 step); [assumption|]. exfalso. unfold xs, cys, arange in EL. destruct (Z.ltb_spec 0 step); [lia|]. discriminate. }
      split; [|auto]. rewrite map_length. assert (K : step = Z.of_nat (Z.to_nat step)) by lia. unfold ys. rewrite K.
      destruct (arange_spec (Z.to_nat step) (List.length pts) ltac:(lia)) as [-> _]. destruct (Z.eqb_spec (Z.of_nat (Z.to_nat step)) 1) as [E1|E1].
      + assert (E2 : Z.to_nat step = 1%nat) by lia. rewrite E2, Nat.div_1_r. lia.
      + destruct (every_spec (Z.to_nat step) pts ltac:(lia)) as [-> _]. reflexivity.
    - split; [|congruence]. unfold xs, cys in EL. exact EL. }
  destruct LA as [LA PS]. rewrite LA, LV, Nat.eqb_refl. cbn [andb guard bind]. specialize (IH (Some sh)).
  destruct (num_curves all sums start step (Some sh) l) as [cs|e]; [|rewrite IH; reflexivity]. destruct IH as (ds & -> & <- & F). cbn [bind].
  eexists. split; [reflexivity|]. split; [reflexivity|]. constructor; [|exact F]. exists m, pts, std, xs, ys, vs, axs. cbn [fst snd].
  split; [exact EM|]. split; [exact EP|]. split; [exact ES|]. split; [reflexivity|]. split; [exact LV|]. split; [exact LA|]. split; [reflexivity|].
  unfold axs, xs, sh. destruct start; [split; [reflexivity|apply PS; discriminate]|reflexivity].
Qed.

Lemma plot_rel a shift start step :
  match num_plot a shift start step with
  | Err e => num_plot_area a shift start step = Err e
  | Ok cs => exists ds, num_plot_area a shift start step = Ok ds /\ map fst ds = cs /\ Forall2 (shaded start step) (an_data a) ds
  end.
Proof.
  unfold num_plot, num_plot_area. destruct (an_data a) as [|p l]; [reflexivity|]. destruct (an_all a) as [all|]; [|reflexivity].
  match goal with |- context [_ <- ?X ;; _] => destruct X as [u|e] end; cbn [bind]; [|reflexivity]. apply drawn_rel.
Qed.

(** ** Cost *)
Lemma qvar_eq l : qvar l = variance l. Proof. reflexivity. Qed.
Lemma area_curve interp ip eff step shift folds :
  match cost_curve interp ip eff step shift folds with
  | Err e => cost_area interp ip eff step shift folds = Err e
  | Ok c => exists grid vs, cost_area interp ip eff step shift folds = Ok (c, (grid, snd c, vs)) /\ fst c = map (fun x => x + shift)%Q grid /\
      vs = map (fun x => variance (map (fun f => interp (fst (axis_for ip f)) (snd (axis_for ip f)) x) folds)) grid
  end.
Proof.
  unfold cost_curve, cost_area. fold (axis_for ip). destruct (mapM _ _) as [firsts|e]; [|reflexivity]. cbn [bind]. destruct (greatest firsts) as [a|e]; [|reflexivity]. cbn [bind].
  eexists _, _. split; [reflexivity|]. split; [reflexivity|]. apply map_ext. intro x. rewrite map_map. apply qvar_eq.
Qed.
Definition cost_ip (all : bool) (sums : list (string * summary)) (start : option Q) (n : string) : res (option Q) :=
  match start with
  | Some s => Ok (Some s)
  | None => if all then match sget n sums with
                        | None => Err KeyErr
                        | Some su => match su_ip su with
                                     | None => Ok None
                                     | Some v => q <- aval_nums v ;; q <- one_num q ;; Ok (Some q)
                                     end
                        end
            else Ok None
  end.
Lemma starts_ip all sums start n ip : starts all sums start n ip -> cost_ip all sums start n = Ok ip.
Proof.
  unfold starts, cost_ip. destruct start as [s|]; [now intros ->|]. destruct all; [|now intros ->].
  intros (su & -> & [[-> ->]|(q & -> & ->)]); reflexivity.
Qed.
Lemma areas_curves interp all sums start eff step shift : forall l,
  match cost_curves interp all sums start eff step shift l with
  | Err e => cost_areas interp all sums start eff step shift l = Err e
  | Ok cs => exists ds, cost_areas interp all sums start eff step shift l = Ok ds /\ map fst ds = cs /\
      Forall2 (fun p d => exists ip c grid vs, cost_ip all sums start (fst p) = Ok ip /\ d = ((fst p, fst c, snd c), (grid, snd c, vs)) /\ fst c = map (fun x => x + shift)%Q grid /\
        vs = map (fun x => variance (map (fun f => interp (fst (axis_for ip f)) (snd (axis_for ip f)) x) (snd p))) grid) l ds
  end.
Proof.
  induction l as [|[n folds] l IH]; [exists []; split; [reflexivity|]; split; [reflexivity|constructor]|]. cbn [cost_curves cost_areas]. fold (cost_ip all sums start n).
  destruct (cost_ip all sums start n) as [ip|e] eqn:EI; [|reflexivity]. cbn [bind]. pose proof (area_curve interp ip eff step shift folds) as A.
  destruct (cost_curve interp ip eff step shift folds) as [c|e]; [|rewrite A; reflexivity]. destruct A as (grid & vs & -> & E1 & E2). cbn [bind].
  destruct (cost_curves interp all sums start eff step shift l) as [cs|e]; [|rewrite IH; reflexivity]. destruct IH as (ds & -> & <- & F). cbn [bind fst snd].
  eexists. split; [reflexivity|]. split; [reflexivity|]. constructor; [|exact F]. exists ip, c, grid, vs. cbn [fst snd]. auto.
Qed.
Lemma cost_plot_rel interp a shift start interval data all :
  mapM (fun p => f <- cost_fold (snd p) ;; Ok (fst p, f)) (an_data a) = Ok data -> an_all a = Some all ->
  match cost_plot interp a shift start interval with
  | Err e => cost_plot_area interp a shift start interval = Err e
  | Ok cs => exists ds, cost_plot_area interp a shift start interval = Ok ds /\ map fst ds = cs /\
      Forall2 (fun p d => exists ip c grid vs, cost_ip all (an_sum a) start (fst p) = Ok ip /\ d = ((fst p, fst c, snd c), (grid, snd c, vs)) /\ fst c = map (fun x => x + shift)%Q grid /\
        vs = map (fun x => variance (map (fun f => interp (fst (axis_for ip f)) (snd (axis_for ip f)) x) (snd p))) grid) data ds
  end.
Proof.
  intros ED EA. unfold cost_plot, cost_plot_area. rewrite ED. cbn [bind]. destruct (least _) as [eff|e]; [|reflexivity]. cbn [bind].
  match goal with |- context [_ <- guard ?X ?E ;; _] => destruct (guard X E) as [u|e] end; cbn [bind]; [|reflexivity]. rewrite EA. apply areas_curves.
Qed.
Lemma axes_values (interp : list Q -> list Q -> Q -> Q) ip folds x :
  map (fun f => interp (fst (axis_for ip f)) (snd (axis_for ip f)) x) (map folded folds) =
  map (fun p => interp (snd p) (reached ip (fst p)) x) (combine folds (map (fun f => fst (axis_for ip (folded f))) folds)).
Proof.
  induction folds as [|f folds IH]; [reflexivity|]. cbn [map combine fst snd]. rewrite <- IH. f_equal.
  unfold axis_for, reached. destruct ip; cbn [fst snd initial app]; rewrite folded_perf; reflexivity.
Qed.
Lemma axes_ok ip folds : Forall2 (fun f ax => cost_axis ip (spent f) ax) folds (map (fun f => fst (axis_for ip (folded f))) folds).
Proof.
  induction folds as [|f folds IH]; [constructor|]. cbn [map]. constructor; [|exact IH].
  unfold axis_for. destruct ip; cbn [fst cost_axis]; rewrite folded_spent; [eexists; split; [reflexivity|]|]; apply prefix_acc.
Qed.

(** ** Tables *)
Lemma firsts_in l x : In x (firsts l) <-> In x l.
Proof.
  induction l as [|y l IH]; [reflexivity|]. cbn [firsts In]. rewrite filter_In, IH. destruct (String.eqb_spec y x) as [->|N]; cbn [negb]; intuition congruence.
Qed.
Lemma firsts_snoc l x : firsts (l ++ [x]) = if existsb (String.eqb x) l then firsts l else firsts l ++ [x].
Proof.
  induction l as [|y l IH]; [reflexivity|]. cbn [app firsts existsb]. rewrite IH. rewrite (String.eqb_sym x y). destruct (existsb (String.eqb x) l); [now rewrite orb_true_r|]. rewrite orb_false_r.
  rewrite filter_app. cbn [filter]. destruct (String.eqb y x); cbn [negb]; [now rewrite app_nil_r|reflexivity].
Qed.
Lemma sset_names {V} n (v : V) d : map fst (sset n v d) = if existsb (String.eqb n) (map fst d) then map fst d else map fst d ++ [n].
Proof.
  induction d as [|[k w] d IH]; [reflexivity|]. cbn [sset map fst existsb]. rewrite (String.eqb_sym n k). destruct (String.eqb_spec k n) as [->|N].
  - cbn [map fst orb]. reflexivity.
  - cbn [map fst orb]. rewrite IH. destruct (existsb _ _); reflexivity.
Qed.
Lemma has_name n l : existsb (String.eqb n) l = true <-> In n l.
Proof. rewrite existsb_exists. split; [intros (x & H & E); apply String.eqb_eq in E; now subst|intro H; exists n; split; [exact H|apply String.eqb_refl]]. Qed.
Lemma sset_firsts {V} n (v : V) d l : map fst d = firsts l -> map fst (sset n v d) = firsts (l ++ [n]).
Proof.
  intro E. rewrite sset_names, firsts_snoc, E. destruct (existsb (String.eqb n) (firsts l)) eqn:A, (existsb (String.eqb n) l) eqn:B; try reflexivity; exfalso.
  - apply has_name in A. apply (proj1 (firsts_in l n)), has_name in A. congruence.
  - apply has_name in B. apply (proj2 (firsts_in l n)), has_name in B. congruence.
Qed.
