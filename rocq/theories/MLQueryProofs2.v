(** The choice made by AUDI. *)
From Verif Require Import Base BaseFacts IndexModel MLModel MLSpec MLProofs MLProofs2 MLProofs3 MLProps MiscModel MiscSpec QueryModel QuerySpec
  QueryProofs QueryProofs5 MetricModel MLQueryModel MLQuerySpec MLQueryProofs.
From Coq Require Import QArith Qabs Qfield Lqa.
Local Open Scope Z_scope.

Section Audi.
  Context {B M : Type} (argsort : list fl -> list nat) (fit : list B -> list (list Q) -> res M)
          (scores : M -> list B -> nat * list (list fl)) (X : list B) (y : list (list Q)) (m : nat)
          (L U : ml_pool) (l u : mlic) (model : lr_arg M) (eps : Q) (t : M).
  Let n := length y.
  Hypothesis Hargs : forall d, Permutation (argsort d) (range (length d)).
  Hypothesis Hy : has_shape y n m.
  Hypothesis HX : length X = n.
  Hypothesis HU : check_ml_ind (Z.of_nat n) (Z.of_nat m) U = Ok u.
  Hypothesis HL : check_ml_ind (Z.of_nat n) (Z.of_nat m) L = Ok l.
  Hypothesis Ru : ml_reachable (Z.of_nat m) u.
  Hypothesis Rl : ml_reachable (Z.of_nat m) l.
  Hypothesis Wu : within n u.
  Hypothesis Wl : within n l.
  Hypothesis Nu : (2 <= ml_pool_len U)%nat.
  Hypothesis Pu : pairs u <> [].
  Hypothesis Ht : trained_on fit X y m l model t.

  Lemma ins_range i : In i (instances u) -> 0 <= i < Z.of_nat n.
  Proof. intro H. apply instances_in in H. destruct H as (j & H). exact (Wu _ H). Qed.

  Lemma get_u : exists xs mat, get_Xy false (mcont u) X y (Z.of_nat m) 0%Q = Ok (xs, mat, instances u) /\ rows_of X (instances u) xs.
  Proof.
    assert (Hc : mcont u <> []). { intro E. apply Pu. unfold pairs. now rewrite E. }
    assert (Hx : forall x, In x (mcont u) -> (forall i j, x <> ILong i j) /\ 0 <= ins_of x < Z.of_nat n /\ scalar_ok (Z.of_nat m) x = true).
    { intros x Hx. pose proof (reachable_good _ _ Ru) as (_ & _ & _ & F & _). rewrite Forall_forall in F. specialize (F x Hx).
      destruct x as [ | i j | | | ]; cbn in F; try contradiction. split; [congruence|]. apply in_pairs in Hx. split; [exact (Wu _ Hx)|]. cbn. lia. }
    destruct (C09_get_Xy Q B X y m 0%Q false (mcont u) Hy ltac:(auto) HX Hx) as (xs & mat & ids & E & E2 & Ll & Rr).
    destruct (C09_labelmatrix Q y m 0%Q false (mcont u) Hy ltac:(auto) Hx) as (mat' & ids' & E' & Ei & _).
    rewrite E2 in E'. injection E' as <- <-. rewrite (pairs_ins _ _ Ru) in Ei. fold (instances u) in Ei. subst ids.
    exists xs, mat. split; auto. split; auto.
  Qed.

  Lemma audi_lemma : exists xs, rows_of X (instances u) xs /\
    (score_shape (length (instances u)) m (scores t xs) ->
     exists r i j pres,
       nth_error (instances u) r = Some i /\ nth_error (map lr_scores (snd (scores t xs))) r = Some pres /\
       audi_select argsort fit scores X y m L U model eps = Ok (Chosen [IPair i j]) /\
       In (i, j) (pairs u) /\
       ((forall i, ~ full_instance m l i) -> r = 0%nat) /\
       (forall full, full <> [] -> NoDup full -> (forall i, In i full <-> full_instance m l i) ->
        forall r' i' pres', nth_error (instances u) r' = Some i' -> nth_error (map lr_scores (snd (scores t xs))) r' = Some pres' ->
        (inconsistent (mean_positive y full) eps (predicted_positive pres') (pairs_of u i') <=
         inconsistent (mean_positive y full) eps (predicted_positive pres) (pairs_of u i))%Q) /\
       (all_finite pres -> forall j', In (i, j') (pairs u) ->
        exists d d', dummy_distance pres (Z.to_nat j) d /\ dummy_distance pres (Z.to_nat j') d' /\ (d <= d')%Q)).
  Proof.
    destruct get_u as (xs & mat & Eg & Rx). exists xs. split; auto. intros (S1 & S2 & S3).
    destruct (dense_mask_lemma (Z.of_nat m) u n m 1 Ru) as (W & EW & SW & CW).
    { intros p Hp. split; [exact (Wu p Hp)|]. pose proof (reachable_good _ _ Ru) as G. exact (proj2 (good_range _ _ p G Hp)). }
    (* mask rows *)
    destruct (mapM_each (row_of W) (fun i w => length w = m /\ forall b, (b < m)%nat ->
        (In (i, Z.of_nat b) (pairs u) <-> nth b w 0 = 1) /\ (~ In (i, Z.of_nat b) (pairs u) <-> nth b w 0 = 0)) (instances u)) as (ws & Ews & Fws).
    { intros i Hi. destruct (mask_row u n m W i SW CW (ins_range i Hi)) as (w & E & A & C). exists w. auto. }
    assert (Lws : length ws = length (instances u)) by exact (mapM_length _ _ _ Ews).
    (* the averages *)
    destruct (C10_instances _ _ Rl) as (full & bro & Ef & _ & If & _ & Nf & _).
    assert (Rf : forall i, In i full -> 0 <= i < Z.of_nat n).
    { intros i Hi. pose proof (proj1 (If i) Hi 0) as H0. pose proof (reachable_good _ _ Rl) as (_ & _ & Hm & _).
      exact (Wl _ (H0 ltac:(lia))). }
    pose proof (average_full y full Rf) as Ea.
    set (avg := match full with [] => NaN | _ => Num (mean_positive y full) end) in *.
    set (fs := snd (scores t xs)) in *.
    set (pres := map lr_scores fs).
    set (labs := map (fun r => lr_labels (lr_scores r)) fs).
    set (insvals := map (fun e => inconsistency avg eps (count (Z.eqb 1) (fst e)) (count (Z.eqb 1) (snd e))) (combine labs ws)).
    assert (Li : length insvals = length (instances u)).
    { unfold insvals. rewrite map_length, combine_length. unfold labs. rewrite map_length. lia. }
    assert (Ni : instances u <> []).
    { destruct (pairs u) as [|[a b] ps] eqn:E; [congruence|]. intro X0.
      assert (In a (instances u)) by (apply instances_in; exists b; rewrite E; now left). rewrite X0 in H. destruct H. }
    assert (Lp : forall r p, nth_error pres r = Some p -> length p = S m).
    { intros r p E. unfold pres in E. rewrite nth_error_map in E. destruct (nth_error fs r) as [row|] eqn:Er; [|discriminate]. injection E as <-.
      rewrite lr_scores_length, (S3 row) by (eapply nth_error_In; eauto). rewrite S1, Nat.mul_comm. apply Nat.div_mul. discriminate. }
    (* values *)
    assert (Vi : forall r i p, nth_error (instances u) r = Some i -> nth_error pres r = Some p ->
      nth_error insvals r = Some (inconsistency avg eps (predicted_positive p) (pairs_of u i)) /\
      exists w, nth_error ws r = Some w /\ length w = m /\ forall b, (b < m)%nat ->
        (In (i, Z.of_nat b) (pairs u) <-> nth b w 0 = 1) /\ (~ In (i, Z.of_nat b) (pairs u) <-> nth b w 0 = 0)).
    { intros r i p Er Ep. assert (exists w, nth_error ws r = Some w) as (w & Ew).
      { destruct (nth_error ws r) eqn:E; eauto. apply nth_error_None in E. assert (nth_error (instances u) r <> None) by congruence.
        apply nth_error_Some in H. lia. }
      assert (Fw : length w = m /\ forall b, (b < m)%nat ->
        (In (i, Z.of_nat b) (pairs u) <-> nth b w 0 = 1) /\ (~ In (i, Z.of_nat b) (pairs u) <-> nth b w 0 = 0)).
      { revert Er Ew. clear -Fws. revert r. induction Fws as [|a b la lb Hab F IH]; intros [|r]; cbn; try discriminate; [|apply IH].
        intros E1 E2. injection E1 as <-. injection E2 as <-. exact Hab. }
      split; [|exists w; split; auto]. unfold insvals. rewrite nth_error_map.
      unfold pres in Ep. rewrite nth_error_map in Ep. destruct (nth_error fs r) as [row|] eqn:Erow; [|discriminate]. injection Ep as <-.
      rewrite (combine_nth_ok labs ws r (lr_labels (lr_scores row)) w); [|unfold labs; rewrite nth_error_map, Erow; reflexivity|exact Ew].
      cbn [option_map fst snd]. do 2 f_equal.
      - unfold lr_labels, predicted_positive, count. clear. generalize (last (lr_scores row) NaN) as d. intro d.
        generalize (removelast (lr_scores row)). intro q. induction q as [|a q IH]; cbn [map filter length]; auto.
        destruct (fl_lt d a); cbn [Z.eqb Pos.eqb length]; now rewrite IH.
      - apply (mask_count (Z.of_nat m) u m i w Ru eq_refl); [apply Fw|]. intros b Hb. apply (proj2 Fw b Hb). }
    destruct (fl_argmin_spec insvals) as (r & Er & Lr & H0 & Hmin). { intro E. apply Ni. destruct (instances u); auto. rewrite E in Li. discriminate. }
    destruct (nth_error (instances u) r) as [i|] eqn:Ei; [|apply nth_error_None in Ei; lia].
    assert (Lpres : length pres = length (instances u)) by (unfold pres; rewrite map_length; exact S2).
    destruct (nth_error pres r) as [p|] eqn:Ep; [|apply nth_error_None in Ep; lia].
    destruct (Vi r i p Ei Ep) as (Vr & w & Ew & Lw & Hw). pose proof (Lp r p Ep) as Lpp.
    assert (Iu : In i (instances u)) by (eapply nth_error_In; eauto).
    assert (Ld : length (dummy_distances p w) = length w).
    { unfold dummy_distances. rewrite map_length, combine_length, removelast_len. lia. }
    assert (Dn : forall j, (j < m)%nat -> nth j (dummy_distances p w) NaN =
        fl_abs (fl_sub (if nth j w 0 =? 0 then Inf true else nth j p NaN) (last p NaN))).
    { intros j Hj. apply nth_error_nth. unfold dummy_distances. rewrite nth_error_map.
      rewrite (combine_nth_ok (removelast p) w j (nth j p NaN) (nth j w 0)); [reflexivity| |apply nth_error_nth'; lia].
      rewrite removelast_nth by lia. apply nth_error_nth'. lia. }
    destruct (nearest_unknown argsort (dummy_distances p w) w Hargs Ld) as (k & Ek & Lk & Nk & Gk).
    { apply instances_in in Iu. destruct Iu as (j & Hj). pose proof (good_range _ _ _ (reachable_good _ _ Ru) Hj) as R. cbn in R.
      exists (Z.to_nat j). split; [lia|]. assert (X1 : nth (Z.to_nat j) w 0 = 1).
      { apply (proj1 (Hw (Z.to_nat j) ltac:(lia))). rewrite Z2Nat.id by lia. exact Hj. } lia. }
    assert (Ink : In (i, Z.of_nat k) (pairs u)).
    { destruct (In_dec (fun p q : Z * Z => ltac:(repeat decide equality)) (i, Z.of_nat k) (pairs u)) as [D|D]; auto.
      exfalso. apply Nk. apply (proj2 (Hw k ltac:(lia))). exact D. }
    exists r, i, (Z.of_nat k), p. split; auto. split; [exact Ep|]. split; [|split; [exact Ink|split; [|split]]].
    - (* the program *)
      unfold audi_select. fold n. replace (ml_pool_len U <=? 1)%nat with false by lia. rewrite HU, HL. cbn [bind].
      rewrite Eg. cbn [bind fst snd]. rewrite EW. cbn [bind].
      assert (Et : (match model with LRTrained t => Ok t | _ => ld <- get_Xy false (mcont l) X y (Z.of_nat m) 0%Q ;; fit (fst (fst ld)) (snd (fst ld)) end) = Ok t).
      { generalize Ht. unfold trained_on. clear. destruct model as [| |t']; [| |now intros ->]; intros (a & b & c & E1 & E2); rewrite E1; exact E2. }
      rewrite Et. cbn [bind]. unfold lr_predict. rewrite S1. rewrite Nat.mul_comm, Nat.mod_mul by discriminate. cbn [Nat.eqb guard bind fst snd].
      fold fs pres labs. rewrite Ef. cbn [bind]. rewrite Ea. cbn [bind]. rewrite Ews. cbn [bind]. fold insvals. rewrite Er. cbn [bind].
      assert (G : forallb (fun p => Nat.eqb (length p - 1) m) pres = true).
      { apply forallb_forall. intros q Hq. apply In_nth_error in Hq. destruct Hq as (a & Ha). rewrite (Lp a q Ha). apply Nat.eqb_eq. lia. }
      rewrite G. cbn [guard bind]. unfold py_nth. rewrite Ep, Ew. cbn [bind]. rewrite Ek. cbn [bind]. rewrite Ei. reflexivity.
    - intro H. apply H0. assert (F0 : full = []). { destruct full as [|a full']; auto. exfalso. apply (H a). exact (proj1 (If a) (or_introl eq_refl)). }
      assert (A0 : avg = NaN) by (unfold avg; now rewrite F0).
      unfold insvals. destruct labs as [|a la], ws as [|b lb]; cbn; auto. rewrite A0. reflexivity.
    - intros full' F' N' I' r' i' p' Er' Ep'.
      assert (P : Permutation full full'). { apply NoDup_Permutation; auto. intro a. rewrite I', If. reflexivity. }
      assert (F0 : full <> []). { intro E. rewrite E in P. apply Permutation_nil in P. congruence. }
      assert (A0 : avg = Num (mean_positive y full)) by (unfold avg; destruct full; congruence).
      destruct (Vi r' i' p' Er' Ep') as (Vr' & _). rewrite A0 in Vr, Vr'.
      destruct (inconsistency_num (mean_positive y full) eps (predicted_positive p) (pairs_of u i)) as (q & Eq & Hq); [now apply pairs_of_pos|].
      destruct (inconsistency_num (mean_positive y full) eps (predicted_positive p') (pairs_of u i')) as (q' & Eq' & Hq');
        [apply pairs_of_pos; eapply nth_error_In; eauto|].
      rewrite Eq in Vr. rewrite Eq' in Vr'.
      rewrite <- !(inconsistent_compat _ _ _ _ _ (mean_perm y _ _ P)).
      assert (C : fl_lt (Num q') (nth r insvals NaN) = false).
      { apply Hmin; [|eapply nth_error_In; eauto]. intros x Hx. apply In_nth_error in Hx. destruct Hx as (a & Ha).
        assert (La : (a < length (instances u))%nat) by (rewrite <- Li; apply nth_error_Some; congruence).
        destruct (nth_error (instances u) a) as [ia|] eqn:E1; [|apply nth_error_None in E1; lia].
        destruct (nth_error pres a) as [pa|] eqn:E2; [|apply nth_error_None in E2; lia].
        destruct (Vi a ia pa E1 E2) as (Va & _). rewrite A0 in Va. rewrite Ha in Va.
        destruct (inconsistency_num (mean_positive y full) eps (predicted_positive pa) (pairs_of u ia)) as (qa & Eqa & _);
          [apply pairs_of_pos; eapply nth_error_In; eauto|]. rewrite Eqa in Va. congruence. }
      rewrite (nth_error_nth _ _ _ Vr) in C. cbn in C. apply negb_false_iff, Qle_bool_iff in C. lra.
    - intros Fin j' Hj'. pose proof (good_range _ _ _ (reachable_good _ _ Ru) Hj') as Rj. cbn in Rj.
      assert (Fn : forall a, (a < S m)%nat -> exists q, nth a p NaN = Num q). { intros a Ha. apply Fin, nth_In. lia. }
      assert (exists d, last p NaN = Num d) as (d & Hd).
      { destruct (Fn m ltac:(lia)) as (d & E). exists d. rewrite <- E. rewrite <- (rev_involutive p) at 1.
        assert (p <> []) by (intro X0; rewrite X0 in Lpp; discriminate). destruct (exists_last H) as (p0 & z & Ez). rewrite Ez, rev_involutive, last_last.
        rewrite Ez, app_length in Lpp. cbn in Lpp. rewrite app_nth2 by lia. replace (m - length p0)%nat with 0%nat by lia. reflexivity. }
      assert (Wv : forall a, (a < m)%nat -> nth a w 0 <> 0 -> exists q, nth_error p a = Some (Num q) /\ nth a (dummy_distances p w) NaN = Num (Qabs (q - d))).
      { intros a Ha Na. destruct (Fn a ltac:(lia)) as (q & E). exists q. split; [rewrite (nth_error_nth' p NaN) by lia; now rewrite E|].
        rewrite (Dn a Ha), E, Hd. replace (nth a w 0 =? 0) with false by lia. reflexivity. }
      assert (Wz : forall a, (a < m)%nat -> nth a w 0 = 0 -> nth a (dummy_distances p w) NaN = Inf false).
      { intros a Ha Na. rewrite (Dn a Ha), Hd, Na. reflexivity. }
      assert (Nj : nth (Z.to_nat j') w 0 <> 0). { rewrite (proj1 (proj1 (Hw (Z.to_nat j') ltac:(lia)))); [lia|]. rewrite Z2Nat.id by lia. exact Hj'. }
      destruct (Wv k ltac:(lia) Nk) as (q & Eq & Dq). destruct (Wv (Z.to_nat j') ltac:(lia) Nj) as (q' & Eq' & Dq').
      exists (Qabs (q - d)), (Qabs (q' - d)). split; [|split].
      + exists q, d. rewrite Nat2Z.id. split; auto. split; auto. reflexivity.
      + exists q', d. split; auto. split; auto. reflexivity.
      + assert (C : fl_lt (nth (Z.to_nat j') (dummy_distances p w) NaN) (nth k (dummy_distances p w) NaN) = false).
        { apply Gk; [| |lia].
          - intros x Hx. apply In_nth with (d := NaN) in Hx. destruct Hx as (a & La & <-). rewrite Ld, Lw in La.
            destruct (Z.eq_dec (nth a w 0) 0) as [Za|Za]; [rewrite (Wz a La Za); discriminate|]. destruct (Wv a La Za) as (qa & _ & E). rewrite E. discriminate.
          - intros a b La Lb Na Zb. rewrite Lw in *. destruct (Wv a La Na) as (qa & _ & E). rewrite E, (Wz b Lb Zb). reflexivity. }
        rewrite Dq, Dq' in C. cbn in C. apply negb_false_iff, Qle_bool_iff in C. exact C.
  Qed.

  (** A score matrix of another width makes the last step fail. *)
  Lemma audi_width q : (forall xs, length xs = length (instances u) ->
      fst (scores t xs) = (num_sub * q)%nat /\ length (snd (scores t xs)) = length xs /\
      forall r, In r (snd (scores t xs)) -> length r = fst (scores t xs)) ->
    q <> 0%nat -> q <> S m -> audi_select argsort fit scores X y m L U model eps = Err IndexErr.
  Proof.
    clear Hargs. intros Hs Q0 Qm. destruct get_u as (xs & mat & Eg & Rx & Rx').
    destruct (Hs xs Rx) as (S1 & S2 & S3).
    destruct (dense_mask_lemma (Z.of_nat m) u n m 1 Ru) as (W & EW & SW & CW).
    { intros p Hp. split; [exact (Wu p Hp)|]. pose proof (reachable_good _ _ Ru) as G. exact (proj2 (good_range _ _ p G Hp)). }
    destruct (mapM_each (row_of W) (fun _ _ => True) (instances u)) as (ws & Ews & _).
    { intros i Hi. destruct (mask_row u n m W i SW CW (ins_range i Hi)) as (w & E & _). exists w. auto. }
    assert (Lws : length ws = length (instances u)) by exact (mapM_length _ _ _ Ews).
    destruct (C10_instances _ _ Rl) as (full & bro & Ef & _ & If & _ & Nf & _).
    assert (Rf : forall i, In i full -> 0 <= i < Z.of_nat n).
    { intros i Hi. pose proof (proj1 (If i) Hi 0) as H0. pose proof (reachable_good _ _ Rl) as (_ & _ & Hm & _).
      exact (Wl _ (H0 ltac:(lia))). }
    pose proof (average_full y full Rf) as Ea.
    set (avg := match full with [] => NaN | _ => Num (mean_positive y full) end) in *.
    assert (Ni : instances u <> []).
    { destruct (pairs u) as [|[a b] ps] eqn:E; [congruence|]. intro X0.
      assert (In a (instances u)) by (apply instances_in; exists b; rewrite E; now left). rewrite X0 in H. destruct H. }
    set (fs := snd (scores t xs)) in *.
    set (labs := map (fun r => lr_labels (lr_scores r)) fs).
    set (insvals := map (fun e => inconsistency avg eps (count (Z.eqb 1) (fst e)) (count (Z.eqb 1) (snd e))) (combine labs ws)).
    assert (Li : length insvals = length (instances u)).
    { unfold insvals. rewrite map_length, combine_length. unfold labs. rewrite map_length. lia. }
    destruct (fl_argmin_spec insvals) as (r & Er & _). { intro E. apply Ni. destruct (instances u); auto. rewrite E in Li. discriminate. }
    unfold audi_select. fold n. replace (ml_pool_len U <=? 1)%nat with false by lia. rewrite HU, HL. cbn [bind].
    rewrite Eg. cbn [bind fst snd]. rewrite EW. cbn [bind].
    assert (Et : match model with
         | LRTrained t => Ok t
         | _ => ld <- get_Xy false (mcont l) X y (Z.of_nat m) 0%Q ;; fit (fst (fst ld)) (snd (fst ld))
         end = Ok t).
    { pose proof Ht as T. unfold trained_on in T. destruct model; try (now rewrite T); destruct T as (a & b & c & E1 & E2); rewrite E1; cbn; exact E2. }
    rewrite Et. cbn [bind]. unfold lr_predict. rewrite S1, Nat.mul_comm, Nat.mod_mul by discriminate. cbn [guard Nat.eqb bind fst snd].
    fold fs labs. rewrite Ef. cbn [bind]. rewrite Ea. cbn [bind]. rewrite Ews. cbn [bind]. fold insvals. rewrite Er. cbn [bind].
    assert (G : forallb (fun p => (length p - 1 =? m)%nat) (map lr_scores fs) = false).
    { destruct fs as [|r0 fs'] eqn:Efs; [destruct (instances u); cbn in *; [congruence|lia]|]. cbn [map forallb].
      rewrite lr_scores_length, (S3 r0) by now left. rewrite S1, Nat.mul_comm, Nat.div_mul by discriminate.
      replace (q - 1 =? m)%nat with false by lia. reflexivity. }
    rewrite G. reflexivity.
  Qed.
End Audi.
