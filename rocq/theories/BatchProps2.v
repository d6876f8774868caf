(** Theorems about QueryInstanceBMDR and QueryInstanceSPAL, continued: C86 (the quadratic program) and C87 (ADMM). *)
From Verif Require Import Base BaseFacts IndexModel MiscModel MiscSpec QueryModel QuerySpec QueryProofs QueryNumpy BatchModel BatchSpec BatchSums
  BatchProofs BatchProofs2 BatchProofs3 BatchProofs4 BatchProps.
From Coq Require Import QArith Qabs Lqa Qfield Qminmax.
Local Open Scope Z_scope.

(** ** C86 *)

(** The loss that the program charges for an instance is that of its worst label. *)
Theorem C86_risk : forall f, worst_risk f (f * f + 2 * Qabs f)%Q.
Proof.
  intro f. destruct (Qlt_le_dec f 0) as [N|N].
  - exists 1%Q. pose proof (Qabs_neg f ltac:(lra)) as A. split; [left; reflexivity|]. split; [rewrite A; ring|]. intros s' [E|E]; rewrite E, A; change (-1)%Q with (- (1))%Q; lra.
  - exists (-1)%Q. pose proof (Qabs_pos f ltac:(lra)) as A. split; [right; reflexivity|]. split; [rewrite A; ring|]. intros s' [E|E]; rewrite E, A; change (-1)%Q with (- (1))%Q; lra.
Qed.
Print Assumptions C86_risk.

(** What may be selected: a share between 0 and 1 of every unlabelled instance, [batch] in all (for SPAL counted by easiness). *)
Theorem C86_feasible : forall scale K L U batch ws tau x, length ws = length U ->
  (feasible (program scale K L U batch ws tau) x <->
   length x = length U /\ Forall (fun v => 0 <= v <= 1)%Q x /\ (dot ws x == inject_Z batch)%Q).
Proof. intros scale K L U batch ws tau x LW. unfold feasible. rewrite program_size by exact LW. reflexivity. Qed.
Print Assumptions C86_feasible.

(** The objective, for every selection, up to a constant: the discrepancy between the labelled and selected and the remaining
    instances, and the risk of the selected ones, less a quarter of [scale] times the energy of the selection.  [scale] is
    beta for BMDR and mu for SPAL, and the weights of BMDR are all one. *)
Theorem C86_objective : forall scale K L U batch ws tau,
  mirrored K -> 0 < batch < Z.of_nat (length U) -> length ws = length U ->
  let l := inject_Z (Z.of_nat (length L)) in let u := inject_Z (Z.of_nat (length U)) in let b := inject_Z batch in
  let c := ((l + b) * (u - b) / (l + u))%Q in
  exists const, forall x, length x = length U ->
    (objective (program scale K L U batch ws tau) x ==
       scale / 2 * (c * c) * discrepancy K L U b x
       + total (map (fun p => fst p * fst (snd p) *
                              (let f := predicts K (combine L tau) (snd (snd p)) in f * f + 2 * Qabs f)) (combine ws (combine x U)))
       - scale / 4 * energy K (combine U x) (combine U x) + const)%Q.
Proof.
  intros scale K L U batch ws tau S B LW l u b c.
  exists (- (scale / 2 * energy K (base L U b) (base L U b)))%Q. intros x LX.
  rewrite (objective_lemma scale K L U batch ws tau x S B LW LX). fold l u b. unfold of_nat. fold l u. fold c. unfold risk. ring.
Qed.
Print Assumptions C86_objective.

(** Data for which that last term decides the query: one labelled instance, two unlabelled ones, one of them to be queried. *)
Definition K1 : list (list Q) := [[3; 3; 0]; [3; 4; 0]; [0; 0; 1]]%Q.
Definition tau1 : list Q := [10 # 31].
Definition L1 : list Z := [0].
Definition U1 : list Z := [1; 2].
Definition risks (x : list Q) : Q :=
  total (map (fun p => fst p * (let f := predicts K1 (combine L1 tau1) (snd p) in f * f + 2 * Qabs f))%Q (combine x U1)).

Ltac crunch :=
  cbn; change (Pos.to_nat 1) with 1%nat; change (Pos.to_nat 2) with 2%nat; unfold of_nat, risk; cbn -[Qabs Qplus Qmult];
  repeat match goal with |- context [Qabs ?q] => let v := eval vm_compute in (Qabs q) in change (Qabs q) with v end.

Lemma K1_mirrored : mirrored K1.
Proof.
  intros i j. unfold entry, K1.
  destruct (Z.to_nat i) as [|[|[|?]]]; destruct (Z.to_nat j) as [|[|[|?]]]; cbn; try reflexivity;
    try (destruct n; reflexivity); repeat match goal with |- context [match ?n with O => _ | S _ => _ end] => destruct n end; reflexivity.
Qed.

(** BMDR is documented to query representative and informative instances, by the discrepancy and the risk.  The program it
    solves prefers another instance than the one that minimises these, however the two are weighted. *)
Theorem C86_preference_refuted :
  let p := program 1000 K1 L1 U1 1 (repeat 1%Q 2) tau1 in
  (exists x, feasible p x /\ (forall w, feasible p w -> (objective p x <= objective p w)%Q) /\ (nth 1 x 0 < nth 0 x 0)%Q) /\
  (forall c x, (0 < c)%Q -> feasible p x ->
     (forall w, feasible p w -> (c * discrepancy K1 L1 U1 1 x + risks x <= c * discrepancy K1 L1 U1 1 w + risks w)%Q) ->
     (nth 0 x 0 < nth 1 x 0)%Q).
Proof.
  cbn zeta. set (p := program 1000 K1 L1 U1 1 (repeat 1%Q 2) tau1).
  assert (FE : forall x, feasible p x <-> exists a b, x = [a; b] /\ (0 <= a <= 1)%Q /\ (0 <= b <= 1)%Q /\ (a + b == 1)%Q).
  { intro x. unfold p. rewrite C86_feasible by reflexivity. split.
    - intros (L & F & D). destruct x as [|a [|b [|? ?]]]; try discriminate. inversion F as [|? ? A F']; subst. inversion F' as [|? ? B ?]; subst.
      exists a, b. split; [reflexivity|]. split; [exact A|]. split; [exact B|]. unfold dot in D. cbn in D. change (inject_Z 1) with 1%Q in D. lra.
    - intros (a & b & -> & A & B & D). split; [reflexivity|]. split; [repeat constructor; tauto|]. unfold dot. cbn. change (inject_Z 1) with 1%Q. lra. }
  assert (OB : forall a b, (objective p [a; b] == 250 * (4 * a * a + b * b) + (1000 * ((1 # 3) * 3 - (2 # 3) * 4) + (2760 # 961)) * a
                               + (1000 * (- (2 # 3))) * b)%Q).
  { intros a b. unfold objective, quadratic, dot. crunch. field. }
  assert (DI : forall a b, (discrepancy K1 L1 U1 1 [a; b] ==
      (3 # 4) + 3 * (a / 2 - (1 - a)) + 4 * (a / 2 - (1 - a)) * (a / 2 - (1 - a)) + (b / 2 - (1 - b)) * (b / 2 - (1 - b)))%Q).
  { intros a b. unfold discrepancy, energy, difference, entry. crunch. field. }
  assert (RI : forall a b, (risks [a; b] == (2760 # 961) * a)%Q).
  { intros a b. unfold risks, predicts, entry. crunch. field. }
  split.
  - set (a0 := ((3 - 2 * (2760 # 961000)) / 5)%Q). exists [a0; (1 - a0)%Q]. split; [|split].
    + apply FE. exists a0, (1 - a0)%Q. split; [reflexivity|]. assert (H : (0 <= a0 <= 1)%Q) by (unfold a0; split; vm_compute; discriminate). split; [exact H|]. split; lra.
    + intros w J. apply FE in J as (a & b & -> & A & B & D). rewrite !OB. assert (EB : (b == 1 - a)%Q) by lra. rewrite EB.
      assert (SQ : (0 <= (a - a0) * (a - a0))%Q) by apply sq_nonneg.
      match goal with |- (?l <= ?r)%Q => assert (ED : (r == l + 1250 * ((a - a0) * (a - a0)))%Q) end; [unfold a0; field|]. rewrite ED. lra.
    + cbn. unfold a0. vm_compute. reflexivity.
  - intros c x C J M. apply FE in J as (a & b & -> & A & B & D). cbn. destruct (Qlt_le_dec a b) as [G|G]; [exact G|exfalso].
    specialize (M [(2 # 5); (3 # 5)]%Q). rewrite !DI, !RI in M.
    assert (F' : feasible p [(2 # 5); (3 # 5)]%Q).
    { apply FE. exists (2 # 5)%Q, (3 # 5)%Q. split; [reflexivity|]. repeat split; vm_compute; discriminate. }
    specialize (M F'). assert (EB : (b == 1 - a)%Q) by lra. rewrite EB in M.
    assert (AH : (1 # 2 <= a)%Q) by lra.
    assert (SQ : (0 <= c * ((a - (2 # 5)) * (a - (2 # 5))))%Q) by (apply Qmult_le_0_compat; [lra|apply sq_nonneg]).
    match type of M with (?l <= ?r)%Q =>
      assert (ED : (l == r + (45 # 4) * (c * ((a - (2 # 5)) * (a - (2 # 5)))) + (2760 # 961) * (a - (2 # 5)))%Q) end; [field|]. rewrite ED in M. lra.
Qed.
Print Assumptions C86_preference_refuted.

(** The matrix is symmetric and positive semidefinite, as that of a kernel is. *)
Example C86_case : mirrored K1 /\ semidefinite K1 [0; 1; 2].
Proof.
  split; [exact K1_mirrored|]. intro x.
  destruct x as [|a [|b [|c x]]]; unfold energy, entry; crunch.
  - apply Qle_refl.
  - pose proof (sq_nonneg a). lra.
  - pose proof (sq_nonneg a). pose proof (sq_nonneg (a + b)). pose proof (sq_nonneg b). lra.
  - pose proof (sq_nonneg a). pose proof (sq_nonneg (a + b)). pose proof (sq_nonneg b). pose proof (sq_nonneg c). lra.
Qed.

(** ** C87 *)

(** The model of the first round, if its linear system is solved: what it says of a labelled instance, plus [gamma] times the
    instance's coefficient, is the label. *)
Theorem C87_start : forall num K gamma y L, mirrored K ->
  (forall A r, (exists x, solves A r x) -> solves A r (inv_dot num A r)) ->
  (exists x, length x = length L /\ forall a, (a < length L)%nat ->
     (predicts K (combine L x) (nth a L 0%Z) + gamma * nth a x 0 == inject_Z (nth (Z.to_nat (nth a L 0%Z)) y 0%Z))%Q) ->
  length (start num K gamma y L) = length L /\ forall a, (a < length L)%nat ->
    (predicts K (combine L (start num K gamma y L)) (nth a L 0%Z) + gamma * nth a (start num K gamma y L) 0 ==
     inject_Z (nth (Z.to_nat (nth a L 0%Z)) y 0%Z))%Q.
Proof.
  intros num K gamma y L S H (x & LX & HX).
  set (A := map (fun a => map (fun b => kat K (nth a L 0%Z) (nth b L 0%Z) + gamma * (if Nat.eqb a b then 1 else 0))%Q (seq 0 (length L))) (seq 0 (length L))).
  assert (SO : forall x, length x = length L -> forall a, (a < length L)%nat ->
    (dot (map (fun b => kat K (nth a L 0%Z) (nth b L 0%Z) + gamma * (if Nat.eqb a b then 1 else 0)) (seq 0 (length L))) x ==
     predicts K (combine L x) (nth a L 0%Z) + gamma * nth a x 0)%Q).
  { clear - S. intros x LX a Ha. rewrite dot_sum by (rewrite map_length, seq_length; exact LX). rewrite map_length, seq_length.
    rewrite predicts_sum by exact LX. rewrite (sum_ext _ _ (fun b => nth b x 0 * entry K (nth b L 0%Z) (nth a L 0%Z) + (if Nat.eqb a b then gamma * nth a x 0 else 0))%Q).
    - rewrite sum_plus. apply Qplus_comp; [reflexivity|].
      assert (G : forall n, (sum n (fun i => if Nat.eqb a i then gamma * nth a x 0 else 0) == if Nat.ltb a n then gamma * nth a x 0 else 0)%Q).
      { induction n; [reflexivity|]. cbn [sum]. rewrite IHn. destruct (Nat.eqb_spec a n); destruct (Nat.ltb_spec a n); destruct (Nat.ltb_spec a (Datatypes.S n)); try lia; ring. }
      rewrite G. destruct (Nat.ltb_spec a (length L)); [reflexivity|lia].
    - intros b Hb. rewrite (nth_indep _ 0%Q ((fun b => kat K (nth a L 0%Z) (nth b L 0%Z) + gamma * (if Nat.eqb a b then 1 else 0))%Q 0%nat)) by (rewrite map_length, seq_length; exact Hb).
      rewrite (map_nth (fun b => kat K (nth a L 0%Z) (nth b L 0%Z) + gamma * (if Nat.eqb a b then 1 else 0))%Q), seq_nth by exact Hb. cbn [plus].
      change (kat K (nth a L 0%Z) (nth b L 0%Z)) with (entry K (nth a L 0%Z) (nth b L 0%Z)). rewrite (S (nth a L 0) (nth b L 0)).
      destruct (Nat.eqb_spec a b); [subst; ring|ring]. }
  assert (FS : forall x, solves A (labels y L) x <-> length x = length L /\ forall a, (a < length L)%nat ->
     (predicts K (combine L x) (nth a L 0%Z) + gamma * nth a x 0 == inject_Z (nth (Z.to_nat (nth a L 0%Z)) y 0%Z))%Q).
  { intro w. unfold solves. rewrite labels_length.
    assert (EL : labels y L = map (fun a => inject_Z (nth (Z.to_nat (nth a L 0)) y 0)) (seq 0 (length L))).
    { unfold labels. rewrite <- (map_map (fun a => nth a L 0) (fun i => inject_Z (nth (Z.to_nat i) y 0))). f_equal.
      clear. apply nth_ext with (d := 0) (d' := 0); [rewrite map_length, seq_length; reflexivity|]. intros a Ha.
      rewrite (nth_indep (map _ _) 0 (nth 0 L 0)) by (rewrite map_length, seq_length; exact Ha).
      rewrite (map_nth (fun a => nth a L 0)), seq_nth by exact Ha. reflexivity. }
    rewrite EL. unfold A. split; intros [LW HW]; (split; [exact LW|]).
    - intros a Ha. rewrite <- SO by auto.
      assert (G : forall V (f : nat -> list Q) (g : nat -> Q), Forall2 (fun row v => (dot row w == v)%Q) (map f V) (map g V) -> forall a, In a V -> (dot (f a) w == g a)%Q).
      { clear. induction V as [|v V IH]; intros f g F a J; [destruct J|]. cbn [map] in F. inversion F; subst. destruct J as [<-|J]; auto. }
      exact (G _ _ _ HW a (proj2 (in_seq _ _ _) (conj (Nat.le_0_l a) Ha))).
    - assert (G : forall V, (forall a, In a V -> (a < length L)%nat) -> Forall2 (fun row v => (dot row w == v)%Q)
        (map (fun a => map (fun b => kat K (nth a L 0%Z) (nth b L 0%Z) + gamma * (if Nat.eqb a b then 1 else 0))%Q (seq 0 (length L))) V)
        (map (fun a => inject_Z (nth (Z.to_nat (nth a L 0)) y 0)) V)).
      { induction V as [|v V IH]; intro I; cbn [map]; constructor; [|apply IH; intros a J; apply I; right; exact J].
        rewrite SO by (auto; apply I; left; reflexivity). apply HW, I. left. reflexivity. }
      apply G. intros a J. apply in_seq in J. lia. }
  apply FS. unfold start. fold A. apply H. exists x. apply FS. split; [exact LX|exact HX].
Qed.
Print Assumptions C87_start.

(** Between two rounds of BMDR the model is trained by at most 1000 alternating steps, each of which finds the best model for
    the current values and then the best values for that model, for the loss on the labelled instances and the worst risk of
    the chosen ones; provided the linear systems are solved. *)
Theorem C87_bmdr : forall np num s K y beta gamma rho L U batch rs sel i r r',
  0 < batch < Z.of_nat (length U) -> mirrored K -> semidefinite K L -> (0 <= gamma)%Q -> (0 <= rho)%Q ->
  bmdr_select np num s K y beta gamma rho L U batch = (rs, Ok sel) ->
  nth_error rs i = Some r -> nth_error rs (S i) = Some r' ->
  let cols := r_chosen r in
  (forall z delta, solves (bmdr_A K gamma rho L cols) (bmdr_r K rho y L cols z delta)
                     (pinv_dot num (bmdr_A K gamma rho L cols) (bmdr_r K rho y L cols z delta))) ->
  exists t, says K L (r_state r) cols t /\
    alternates (converged num) K gamma rho y L cols (repeat 1%Q (length cols)) (Z.to_nat 1000) t (repeat 0%Q (length cols)) (r_state r').
Proof.
  intros np num s K y beta gamma rho L U batch rs sel i r r' B S P G0 R0 E J J' cols HS.
  pose proof (bmdr_run _ _ _ _ _ _ _ _ _ _ _ _ _ B E) as R.
  destruct (run_next _ _ _ _ _ _ _ _ _ R i r r' J J') as (next & T & ->). apply bmdr_turn_inv in T as [_ ->].
  exists (vdot K L cols (r_state r)). split; [apply vdot_predicts|]. apply bmdr_admm; auto.
  - unfold max_iter. apply Nat.ltb_lt. reflexivity.
  - apply vdot_length.
  - apply repeat_length.
Qed.
Print Assumptions C87_bmdr.

(** The same for SPAL, which trains on the instances of enough weight and counts their risks by weight. *)
Theorem C87_spal : forall np num s K y mu gamma rho lam L U batch rs sel i r r',
  numpy_ok np -> sized s ->
  0 < batch < Z.of_nat (length U) -> mirrored K -> semidefinite K L -> (0 <= gamma)%Q -> (0 <= rho)%Q ->
  spal_select np num s K y mu gamma rho lam L U batch = (rs, Ok sel) ->
  nth_error rs i = Some r -> nth_error rs (S i) = Some r' ->
  exists ps cols ws,
    trained_on (r_scores r) ps /\ Forall2 (fun p c => nth_error U p = Some c) ps cols /\
    Forall2 (fun p w => (w == Qmax 0 (nth p (r_scores r) 0))%Q) ps ws /\
    ((forall z delta, solves (spal_A K gamma rho L cols) (spal_r K rho y L cols z delta)
                        (pinv_dot num (spal_A K gamma rho L cols) (spal_r K rho y L cols z delta))) ->
     (forall w, In w ws -> 0 < sqrt num (w + rho / 2) /\ sqrt num (w + rho / 2) * sqrt num (w + rho / 2) == w + rho / 2)%Q ->
     exists t, says K L (fst (r_state r)) cols t /\
       alternates (converged num) K gamma rho y L cols ws (Z.to_nat 1000) t (repeat 0%Q (length cols)) (fst (r_state r'))).
Proof.
  intros np num s K y mu gamma rho lam L U batch rs sel i r r' NP SZ B S P G0 R0 E J J'.
  pose proof (spal_run _ _ _ _ _ _ _ _ _ _ _ _ _ _ B E) as R. pose proof (spal_inv _ _ _ _ _ _ _ _ _ _ _ _ _ _ NP SZ B R) as IV.
  assert (IJ : In r rs) by (eapply nth_error_In; eauto).
  destruct (run_next _ _ _ _ _ _ _ _ _ R i r r' J J') as (next & T & ->).
  destruct (spal_turn_inv _ _ _ _ _ _ _ _ _ _ _ _ _ _ _ NP SZ B (IV r IJ) T) as (dr & ps & _ & LD & SC & TR & ->). cbn zeta.
  assert (LS : length (r_scores r) = length U) by (rewrite SC, !map2_length, vdot_length; lia).
  assert (PS : forall p, In p ps -> (p < length U)%nat).
  { intros p Q. destruct TR as [(_ & _ & H)|(_ & q & -> & H & _)]; [apply H in Q; lia|destruct Q as [<-|[]]; lia]. }
  exists ps, (map (fun p => nth p U 0) ps), (map (fun p => nth p (map cut (r_scores r)) 0%Q) ps). split; [exact TR|].
  split; [|split].
  - clear - PS. induction ps as [|p ps IH]; constructor; [|apply IH; intros q Q; apply PS; right; exact Q].
    apply nth_error_nth'. apply PS. left. reflexivity.
  - rewrite <- LS in PS. clear - PS. induction ps as [|p ps IH]; constructor; [|apply IH; intros q Q; apply PS; right; exact Q].
    rewrite nth_cut by (apply PS; left; reflexivity). destruct (cut_cases (nth p (r_scores r) 0%Q)) as [[H ->]|[H ->]].
    + rewrite Q.max_r by exact H. reflexivity.
    + rewrite Q.max_l by lra. reflexivity.
  - intros HS HW. eexists. split; [apply vdot_predicts|]. cbn [fst]. apply spal_admm; auto.
    + rewrite !map_length. reflexivity.
    + intros w Q. split; [|apply HW, Q]. apply in_map_iff in Q as (p & <- & Q). rewrite nth_cut by (rewrite LS; apply PS, Q).
      destruct (cut_cases (nth p (r_scores r) 0%Q)) as [[H ->]|[H ->]]; [exact H|lra].
    + unfold max_iter. apply Nat.ltb_lt. reflexivity.
    + apply vdot_length.
    + apply repeat_length.
Qed.
Print Assumptions C87_spal.

(** ** A solver and data that meet the assumptions *)
Definition s1 : solver := fun _ p => Value true (map (fun q => 1 / (1 + Qabs q))%Q (qp_q p)).
Definition div1 (A : list (list Q)) (r : list Q) : list Q :=
  match A, r with [[a]], [v] => [Qred (v / a)] | _, _ => repeat 0%Q (length r) end.
Definition num1 : numeric := {| inv_dot := div1; pinv_dot := div1; converged := fun _ _ _ _ => true; sqrt := fun x => x |}.
Definition y1 : list Z := [1; -1; 1].

Example C85_case :
  numpy_ok (np0 (fun x => x)) /\ sized s1 /\ capable s1 /\ signed_labels [3; 5; 3] = Ok [1; -1; 1] /\
  (exists r r', bmdr_select (np0 (fun x => x)) num1 s1 K1 y1 1000 (1 # 10) 1 L1 U1 1 = ([r; r'], Ok [2])) /\
  (exists r r', spal_select (np0 (fun x => x)) num1 s1 K1 y1 1 (1 # 10) 1 (1 # 10) L1 U1 1 = ([r; r'], Ok [2])).
Proof.
  split; [apply np0_ok|]. split; [intros gp p f x E; unfold s1 in E; injection E as _ <-; apply map_length|].
  split; [split; [intros p _; do 2 eexists; reflexivity|intro p; discriminate]|]. split; [reflexivity|].
  split; do 2 eexists; vm_compute; reflexivity.
Qed.

Lemma div1_solves a v : ~ (a == 0)%Q -> solves [[a]] [v] (div1 [[a]] [v]).
Proof.
  intro N. split; [reflexivity|]. constructor; [|constructor]. unfold dot. cbn -[Qplus Qmult Qdiv Qred]. rewrite Qred_correct. field. exact N.
Qed.

Example C87_case :
  mirrored K1 /\ semidefinite K1 L1 /\
  (forall c z delta, In c U1 -> solves (bmdr_A K1 (1 # 10) 1 L1 [c]) (bmdr_r K1 1 y1 L1 [c] z delta)
     (pinv_dot num1 (bmdr_A K1 (1 # 10) 1 L1 [c]) (bmdr_r K1 1 y1 L1 [c] z delta))) /\
  (forall c z delta, In c U1 -> solves (spal_A K1 (1 # 10) 1 L1 [c]) (spal_r K1 1 y1 L1 [c] z delta)
     (pinv_dot num1 (spal_A K1 (1 # 10) 1 L1 [c]) (spal_r K1 1 y1 L1 [c] z delta))).
Proof.
  split; [exact K1_mirrored|]. split; [|split].
  - intro x. destruct x as [|a x]; unfold energy, entry; crunch; [apply Qle_refl|]. pose proof (sq_nonneg a). lra.
  - intros c z delta [<-|[<-|[]]]; apply div1_solves; vm_compute; discriminate.
  - intros c z delta [<-|[<-|[]]]; apply div1_solves; vm_compute; discriminate.
Qed.
