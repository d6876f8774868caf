(** Proofs about the curves against the cost. *)
From Verif Require Import Base BaseFacts StateModel MiscModel MiscSpec FeatureModel AnalyserModel AnalyserSpec AnalyserProofs.
From Coq Require Import String QArith Qround Qreduction Lqa.
Local Open Scope Z_scope.

Lemma least_spec l : l <> [] -> exists x, least l = Ok x /\ least_of x l.
Proof.
  destruct l as [|q l]; [congruence|]. intros _. cbn [least]. exists (fold_left qmin l q). split; [reflexivity|].
  assert (H : forall l a, (fold_left qmin l a <= a)%Q /\ (forall y, In y l -> (fold_left qmin l a <= y)%Q) /\ (fold_left qmin l a = a \/ In (fold_left qmin l a) l)).
  { clear. induction l as [|y l IH]; intro a; cbn [fold_left]; [split; [lra|split; [intros y []|auto]]|].
    destruct (IH (qmin a y)) as (L & F & E). assert (M : (qmin a y <= a)%Q /\ (qmin a y <= y)%Q /\ (qmin a y = a \/ qmin a y = y)).
    { unfold qmin. destruct (Qle_bool a y) eqn:B; [apply Qle_bool_iff in B; split; [lra|split; [auto|auto]]|].
      assert (~ (a <= y)%Q) by (intro X; apply Qle_bool_iff in X; congruence). split; [lra|split; [lra|auto]]. }
    destruct M as (M1 & M2 & M3). split; [lra|]. split; [intros z [<-|Hz]; [lra|auto]|].
    destruct E as [E|E]; [|right; now right]. rewrite E. destruct M3 as [->| ->]; [auto|right; now left]. }
  destruct (H l q) as (L & F & E). split.
  - destruct E as [->|E]; [now left|now right].
  - intros y [<-|Hy]; auto.
Qed.
Lemma greatest_spec l : l <> [] -> exists x, greatest l = Ok x /\ greatest_of x l.
Proof.
  destruct l as [|q l]; [congruence|]. intros _. cbn [greatest]. exists (fold_left qmax2 l q). split; [reflexivity|].
  assert (H : forall l a, (a <= fold_left qmax2 l a)%Q /\ (forall y, In y l -> (y <= fold_left qmax2 l a)%Q) /\ (fold_left qmax2 l a = a \/ In (fold_left qmax2 l a) l)).
  { clear. induction l as [|y l IH]; intro a; cbn [fold_left]; [split; [lra|split; [intros y []|auto]]|].
    destruct (IH (qmax2 a y)) as (L & F & E). assert (M : (a <= qmax2 a y)%Q /\ (y <= qmax2 a y)%Q /\ (qmax2 a y = a \/ qmax2 a y = y)).
    { unfold qmax2. destruct (Qle_bool a y) eqn:B; [apply Qle_bool_iff in B; split; [lra|split; [lra|auto]]|].
      assert (~ (a <= y)%Q) by (intro X; apply Qle_bool_iff in X; congruence). split; [lra|split; [lra|auto]]. }
    destruct M as (M1 & M2 & M3). split; [lra|]. split; [intros z [<-|Hz]; [lra|auto]|].
    destruct E as [E|E]; [|right; now right]. rewrite E. destruct M3 as [->| ->]; [auto|right; now left]. }
  destruct (H l q) as (L & F & E). split.
  - destruct E as [->|E]; [now left|now right].
  - intros y [<-|Hy]; auto.
Qed.

Lemma ceil_above (j : Z) q : (j < Qceiling q <-> (inject_Z j < q)%Q).
Proof.
  pose proof (Qle_ceiling q) as L. pose proof (Qceiling_lt q) as U. split; intro H.
  - assert (inject_Z j <= inject_Z (Qceiling q - 1))%Q by (rewrite <- Zle_Qle; lia). lra.
  - rewrite Zlt_Qlt. lra.
Qed.
Lemma qrange_spec a b step : (0 < step)%Q ->
  (forall j x, nth_error (qrange a b step) j = Some x -> x = (a + inject_Z (Z.of_nat j) * step)%Q /\ (a <= x < b)%Q) /\
  (forall j, (a + inject_Z (Z.of_nat j) * step < b)%Q -> (j < List.length (qrange a b step))%nat).
Proof.
  intro P. unfold qrange. set (K := Qceiling ((b - a) / step)).
  assert (C : forall j : nat, (Z.of_nat j < K <-> (a + inject_Z (Z.of_nat j) * step < b)%Q)).
  { intro j. unfold K. rewrite ceil_above. split; intro H.
    - assert (inject_Z (Z.of_nat j) * step < (b - a) / step * step)%Q by (apply Qmult_lt_compat_r; auto).
      assert (((b - a) / step) * step == b - a)%Q by (field; lra). lra.
    - apply Qlt_shift_div_l; auto. lra. }
  split.
  - intros j x H. rewrite nth_error_map in H. destruct (nth_error (seq 0 (Z.to_nat K)) j) as [i|] eqn:E; [|discriminate].
    assert (Hj : (j < Z.to_nat K)%nat). { rewrite <- (seq_length (Z.to_nat K) 0). apply nth_error_Some. congruence. }
    pose proof (nth_error_nth _ _ 0%nat E) as N. rewrite seq_nth in N by auto. cbn in N. subst i. cbn [option_map] in H.
    assert (X : x = (a + inject_Z (Z.of_nat j) * step)%Q) by congruence. split; auto. rewrite X.
    assert (0 <= inject_Z (Z.of_nat j))%Q by (change 0%Q with (inject_Z 0); rewrite <- Zle_Qle; lia).
    split; [nra|]. apply C. lia.
  - intros j H. rewrite map_length, seq_length. apply C in H. lia.
Qed.

Lemma prefix_acc l : accumulates l (prefix_sums l).
Proof.
  unfold prefix_sums. split; [now rewrite map_length, seq_length|]. intros j x H. rewrite nth_error_map in H.
  destruct (nth_error (seq 0 (List.length l)) j) as [i|] eqn:E; [|discriminate].
  assert (Hj : (j < List.length l)%nat). { rewrite <- (seq_length (List.length l) 0). apply nth_error_Some. congruence. }
  pose proof (nth_error_nth _ _ 0%nat E) as N. rewrite seq_nth in N by auto. cbn in N. subst i. cbn [option_map] in H.
  assert (X : x = qsum (firstn (j + 1) l)) by congruence. rewrite X. replace (j + 1)%nat with (Datatypes.S j) by lia. reflexivity.
Qed.
Lemma total_firstn_le l : (forall c, In c l -> (0 <= c)%Q) -> forall n, (0 <= total (firstn n l) <= total l)%Q.
Proof.
  induction l as [|c l IH]; intros H n; [destruct n; cbn; lra|]. pose proof (H c (or_introl eq_refl)).
  destruct n as [|n].
  - change (total (firstn 0 (c :: l))) with 0%Q. change (total (c :: l)) with (c + total l)%Q. pose proof (IH (fun x Hx => H x (or_intror Hx)) 0%nat) as [_ L]. cbn in L. lra.
  - change (total (firstn (Datatypes.S n) (c :: l))) with (c + total (firstn n l))%Q. change (total (c :: l)) with (c + total l)%Q.
    pose proof (IH (fun x Hx => H x (or_intror Hx)) n). lra.
Qed.
Lemma acc_ends l ax : l <> [] -> (forall c, In c l -> (0 <= c)%Q) -> accumulates l ax -> ax <> [] /\ (last ax 0 == total l)%Q.
Proof.
  intros NE P [L H]. assert (NA : ax <> []) by (destruct ax; [destruct l; [congruence|discriminate]|discriminate]). split; auto.
  destruct (exists_last NA) as (ax' & x & ->). rewrite last_last. rewrite app_length in L. cbn in L.
  assert (E : nth_error (ax' ++ [x]) (List.length ax') = Some x) by (rewrite nth_error_app2, Nat.sub_diag; [reflexivity|lia]).
  rewrite (H _ _ E). rewrite firstn_all2 by lia. reflexivity.
Qed.

(** What is read from the data. *)
Definition folded (f : list (list Q * Q)) : list (Q * Q) := map (fun t => (total (fst t), snd t)) f.
Lemma mapM_fin l : mapM fin (map Num l) = Ok l.
Proof. induction l as [|q l IH]; [reflexivity|]. cbn [map mapM fin bind]. now rewrite IH. Qed.
Lemma cost_fold_ok d folds : shows_costs d folds -> cost_fold d = Ok (map folded folds).
Proof.
  intros [->|(m & -> & F)]; unfold cost_fold.
  - apply mapM_Forall2. induction folds as [|f folds IH]; [constructor|]. cbn [map]. constructor; auto.
    apply mapM_Forall2. unfold folded. induction f as [|t f IHf]; [constructor|]. cbn [map]. constructor; auto.
    cbn [item_part py_nth nth_error bind]. rewrite mapM_fin. cbn [bind mapM fin one_num]. reflexivity.
  - apply mapM_Forall2. induction F as [|r f m folds Fr F IH]; [constructor|]. cbn [map]. constructor; auto.
    apply mapM_Forall2. unfold folded. induction Fr as [|v t r f (c & -> & H) Fr IHr]; [constructor|]. cbn [map]. constructor; auto.
    cbn [py_nth nth_error bind]. destruct H as [->|(q & -> & E)]; cbn [aval_nums].
    + rewrite mapM_fin. cbn [bind mapM fin one_num]. reflexivity.
    + cbn [fin bind one_num]. rewrite E. reflexivity.
Qed.
Lemma folded_spent f : map fst (folded f) = spent f.
Proof. unfold folded, spent. rewrite map_map. reflexivity. Qed.
Lemma folded_perf f : map snd (folded f) = map snd f.
Proof. unfold folded. rewrite map_map. reflexivity. Qed.

Section Curves.
  Variable interp : list Q -> list Q -> Q -> Q.

  Definition axis_for (ip : option Q) (f : list (Q * Q)) : list Q * list Q :=
    match ip with Some p => (0%Q :: prefix_sums (map fst f), p :: map snd f) | None => (prefix_sums (map fst f), map snd f) end.

  Lemma cost_curve_ok ip eff step shift folds : (0 < step)%Q -> folds <> [] ->
    (forall f, In f folds -> f <> [] /\ (forall t c, In t f -> In c (fst t) -> (0 <= c)%Q) /\ (eff <= total (spent f))%Q) ->
    exists c, cost_curve interp ip eff step shift (map folded folds) = Ok c /\ cost_averages interp ip eff step shift folds c.
  Proof.
    intros P NE H. unfold cost_curve. fold (axis_for ip). rewrite map_map.
    set (ax := fun f => fst (axis_for ip (folded f))).
    assert (SP : forall f, In f folds -> spent f <> [] /\ forall c, In c (spent f) -> (0 <= c)%Q).
    { intros f Hf. destruct (H f Hf) as (N & PC & _). split; [destruct f; [congruence|discriminate]|].
      intros c Hc. apply in_map_iff in Hc. destruct Hc as (t & <- & Ht). assert (A : forall c, In c (fst t) -> (0 <= c)%Q) by (intros; eapply PC; eauto).
      pose proof (total_firstn_le (fst t) A (List.length (fst t))) as [L _]. now rewrite firstn_all in L. }
    assert (AX : forall f, cost_axis ip (spent f) (ax f)).
    { intro f. unfold ax, axis_for. destruct ip; cbn [fst cost_axis]; rewrite folded_spent; [eexists; split; [reflexivity|]|]; apply prefix_acc. }
    assert (ND : forall f, In f folds -> ax f <> []).
    { intros f Hf. unfold ax, axis_for. destruct ip; [discriminate|]. cbn [fst]. rewrite folded_spent. 
      destruct (acc_ends (spent f) _ (proj1 (SP f Hf)) (proj2 (SP f Hf)) (prefix_acc _)) as [N _]. auto. }
    assert (E1 : mapM (fun a => py_nth (fst a) 0) (map (fun x => axis_for ip (folded x)) folds) = Ok (map (fun f => hd 0%Q (ax f)) folds)).
    { apply mapM_Forall2. clear - ND. induction folds as [|f folds IH]; [constructor|]. cbn [map]. constructor.
      - pose proof (ND f (or_introl eq_refl)) as N. fold (ax f). destruct (ax f); [congruence|reflexivity].
      - apply IH. intros; apply ND; now right. }
    change (mapM (fun a => py_nth (fst a) 0) (map (fun x => axis_for ip (folded x)) folds)) with (mapM (fun a : list Q * list Q => py_nth (fst a) 0) (map (fun x => axis_for ip (folded x)) folds)).
    rewrite E1. cbn [bind]. destruct (greatest_spec (map (fun f => hd 0%Q (ax f)) folds)) as (first & E2 & G); [destruct folds; [congruence|discriminate]|].
    rewrite E2. cbn [bind]. eexists. split; [reflexivity|].
    destruct (qrange_spec first eff step P) as [Q1 Q2].
    exists (map ax folds), (qrange first eff step), first. cbn [fst snd].
    split. { clear - AX. induction folds as [|f folds IH]; [constructor|]. cbn [map]. constructor; auto. }
    split. { rewrite map_map. exact G. }
    split; [reflexivity|]. split; [|split; [exact Q2|now rewrite map_length]].
    intros j x Hj. destruct (Q1 j x Hj) as (X & X1 & X2). split; auto. split; auto. split.
    - intros a Ha. apply in_map_iff in Ha. destruct Ha as (f & <- & Hf). split.
      + assert (hd 0%Q (ax f) <= first)%Q by (apply G; apply in_map_iff; exists f; auto). lra.
      + destruct (H f Hf) as (_ & _ & T). assert (LT : (last (ax f) 0 == total (spent f))%Q); [|lra].
        specialize (AX f). unfold cost_axis in AX. destruct ip as [p|].
        * destruct AX as (l & -> & A). destruct (acc_ends (spent f) l (proj1 (SP f Hf)) (proj2 (SP f Hf)) A) as [N L].
          rewrite <- L. destruct l; [congruence|reflexivity].
        * now apply acc_ends in AX; try apply SP.
    - rewrite nth_error_map, Hj. cbn [option_map]. f_equal. unfold qmean, mean, MiscModel.qmean. unfold qlen. rewrite !map_length, combine_length, map_length, Nat.min_id.
      f_equal. unfold qsum, total. f_equal. rewrite map_map. clear. induction folds as [|f folds IH]; [reflexivity|]. cbn [map combine fst snd]. rewrite <- IH. f_equal.
      unfold ax, axis_for, reached. destruct ip; cbn [fst snd initial app]; rewrite folded_perf; reflexivity.
  Qed.

  Lemma cost_curves_ok all sums start eff step shift : (0 < step)%Q -> forall data ips,
    Forall2 (fun (m : string * list (list (list Q * Q))) ip => starts all sums start (fst m) ip) data ips ->
    (forall m, In m data -> snd m <> []) ->
    (forall m f, In m data -> In f (snd m) -> f <> [] /\ (forall t c, In t f -> In c (fst t) -> (0 <= c)%Q) /\ (eff <= total (spent f))%Q) ->
    exists cs, cost_curves interp all sums start eff step shift (map (fun m => (fst m, map folded (snd m))) data) = Ok cs /\
      List.length cs = List.length data /\
      forall k m ip, nth_error data k = Some m -> nth_error ips k = Some ip ->
        exists xs ys, nth_error cs k = Some (fst m, xs, ys) /\ cost_averages interp ip eff step shift (snd m) (xs, ys).
  Proof.
    intros P data ips F. induction F as [|m ip data ips S F IH]; intros NE H.
    - exists []. split; [reflexivity|]. split; [reflexivity|]. intros [|k] m ip E; discriminate.
    - destruct IH as (cs & Ec & Lc & Hc); [intros; apply NE; now right|intros; eapply H; [right; eauto|auto]|].
      destruct (cost_curve_ok ip eff step shift (snd m) P) as ([xs ys] & E & R); [apply NE; now left|intros; eapply H; [now left|auto]|].
      exists ((fst m, xs, ys) :: cs). split; [|split; [cbn; now rewrite Lc|]].
      + cbn [map cost_curves].
        assert (EI : match start with
          | Some s => Ok (Some s)
          | None => if all then match sget (fst m) sums with
                                | None => Err KeyErr
                                | Some su => match su_ip su with
                                             | None => Ok None
                                             | Some v => q <- aval_nums v ;; q <- one_num q ;; Ok (Some q)
                                             end
                                end
                    else Ok None
          end = Ok ip).
        { unfold starts in S. destruct start as [s|]; [now rewrite S|]. destruct all; [|now rewrite S].
          destruct S as (su & -> & [[-> ->]|(q & -> & ->)]); reflexivity. }
        rewrite EI. cbn [bind]. rewrite E. cbn [bind]. rewrite Ec. reflexivity.
      + intros [|k] m0 ip0 E1 E2; cbn in E1, E2.
        * injection E1 as <-. injection E2 as <-. exists xs, ys. split; [reflexivity|exact R].
        * cbn [nth_error]. eapply Hc; eauto.
  Qed.
End Curves.
