(** BMDR and SPAL with opposite labels. *)
From Verif Require Import Base BaseFacts MiscModel QueryModel BatchModel BatchProps SignSpec.
From Coq Require Import QArith Qabs Lqa Qfield.
Local Open Scope Z_scope.

Lemma equal_refl l : equal l l.
Proof. induction l; constructor; auto. reflexivity. Qed.

Lemma map2_rel {A B C} (R : A -> A -> Prop) (S : B -> B -> Prop) (T : C -> C -> Prop) (f g : A -> B -> C) :
  (forall a a' b b', R a a' -> S b b' -> T (f a b) (g a' b')) ->
  forall a a' b b', Forall2 R a a' -> Forall2 S b b' -> Forall2 T (map2 f a b) (map2 g a' b').
Proof.
  intros H a a' b b' Ra. revert b b'. induction Ra as [|x x' a a' Rx Ra IH]; intros b b' Sb; [constructor|].
  inversion Sb as [|y y' b0 b0' Sy Sb']; subst; [constructor|]. unfold map2. cbn. constructor; [cbn; auto|]. now apply IH.
Qed.
Lemma map_rel {A A' B} (R : A -> A' -> Prop) (T : B -> B -> Prop) (f : A -> B) (g : A' -> B) :
  (forall a a', R a a' -> T (f a) (g a')) -> forall a a', Forall2 R a a' -> Forall2 T (map f a) (map g a').
Proof. intros H a a' F. induction F; cbn; constructor; auto. Qed.
Lemma same_rel {A} (l : list A) : Forall2 eq l l.
Proof. induction l; constructor; auto. Qed.

Lemma qsum_equal l l' : equal l l' -> (qsum l' == qsum l)%Q.
Proof. intro F. induction F; cbn; [reflexivity|]. unfold qsum in *. cbn. now rewrite H, IHF. Qed.
Lemma qsum_opposite l l' : opposite l l' -> (qsum l' == - qsum l)%Q.
Proof. intro F. induction F; [reflexivity|]. unfold qsum in *. cbn [fold_right]. rewrite H, IHF. ring. Qed.

Lemma vdot_opposite K rows cols v v' : opposite v v' -> opposite (vdot K rows cols v) (vdot K rows cols v').
Proof.
  intro F. unfold vdot, opposite. apply (map_rel eq); [|apply same_rel]. intros j _ <-. apply qsum_opposite.
  eapply map2_rel; [|exact F|apply (same_rel rows)]. cbn. intros a a' b _ E <-. rewrite E. ring.
Qed.
Lemma mdot_opposite K rows cols v v' : opposite v v' -> opposite (mdot K rows cols v) (mdot K rows cols v').
Proof.
  intro F. unfold mdot, opposite. apply (map_rel eq); [|apply same_rel]. intros j _ <-. apply qsum_opposite.
  eapply map2_rel; [|exact F|apply (same_rel cols)]. cbn. intros a a' b _ E <-. rewrite E. ring.
Qed.
Lemma map2_opposite (f : Q -> Q -> Q) : (forall a a' b b', (a' == - a -> b' == - b -> f a' b' == - f a b)%Q) ->
  forall a a' b b', opposite a a' -> opposite b b' -> opposite (map2 f a b) (map2 f a' b').
Proof. intros H a a' b b' A B. eapply map2_rel; [|exact A|exact B]. cbn. intros. now apply H. Qed.
Lemma scale_opposite c l l' : opposite l l' -> opposite (map (Qmult c) l) (map (Qmult c) l').
Proof. intro F. eapply map_rel; [|exact F]. cbn. intros a a' ->. ring. Qed.
Lemma plus_opposite a a' b b' : opposite a a' -> opposite b b' -> opposite (map2 Qplus a b) (map2 Qplus a' b').
Proof. apply map2_opposite. intros ? ? ? ? -> ->. ring. Qed.
Lemma repeat_opposite n : opposite (repeat 0%Q n) (repeat 0%Q n).
Proof. induction n; constructor; auto. reflexivity. Qed.

Lemma risk_even f f' : (f' == - f)%Q -> (risk f' == risk f)%Q.
Proof. intro E. unfold risk. rewrite E, Qabs_opp. ring. Qed.

(** ** The z updates are odd. *)
Lemma cut_eq x y : (x == y)%Q -> (cut x == cut y)%Q.
Proof.
  intro E. unfold cut. destruct (Qle_bool 0 x) eqn:A, (Qle_bool 0 y) eqn:B; auto; try reflexivity.
  - apply Qle_bool_iff in A. assert (0 <= y)%Q as C by (now rewrite <- E). apply Qle_bool_iff in C. congruence.
  - apply Qle_bool_iff in B. assert (0 <= x)%Q as C by (now rewrite E). apply Qle_bool_iff in C. congruence.
Qed.
Lemma cut_neg x : (x <= 0)%Q -> (cut x == 0)%Q.
Proof. intro L. unfold cut. destruct (Qle_bool 0 x) eqn:A; [|reflexivity]. apply Qle_bool_iff in A. lra. Qed.
Lemma sgn1_cases v : (0 <= v /\ sgn1 v = 1)%Q \/ (v < 0 /\ sgn1 v = -1)%Q.
Proof.
  unfold sgn1. destruct (Qle_bool 0 v) eqn:A; [left; split; auto; now apply Qle_bool_iff|right]. split; auto.
  apply Qnot_le_lt. intro L. apply Qle_bool_iff in L. congruence.
Qed.
(** [sgn1 v * c] is odd where [c] vanishes at [v = 0]. *)
Lemma sgn1_odd v v' c c' : (v' == - v)%Q -> (c' == c)%Q -> (v == 0 -> c == 0)%Q -> (sgn1 v' * c' == - (sgn1 v * c))%Q.
Proof.
  intros E C Z. rewrite C. destruct (sgn1_cases v) as [[A ->]|[A ->]], (sgn1_cases v') as [[B ->]|[B ->]]; rewrite E in B; try ring; try lra.
Qed.
Lemma bmdr_z_odd rho t t' d d' : (0 < rho)%Q -> (t' == - t)%Q -> (d' == - d)%Q -> (bmdr_z rho t' d' == - bmdr_z rho t d)%Q.
Proof.
  intros R T D. unfold bmdr_z. set (v := ((rho * t - d) / (rho + 2))%Q). set (v' := ((rho * t' - d') / (rho + 2))%Q).
  assert (E : (v' == - v)%Q) by (unfold v, v'; rewrite T, D; field; lra).
  apply sgn1_odd; auto.
  - apply cut_eq. rewrite E, Qabs_opp. reflexivity.
  - intro Z. apply cut_neg. rewrite Z. cbn [Qabs Z.abs]. assert (0 <= 2 / (rho + 2))%Q by (apply Qle_shift_div_l; lra). change (Qabs 0) with 0%Q. lra.
Qed.
Lemma sign_odd v v' : (v' == - v)%Q -> (sign v' == - sign v)%Q.
Proof.
  intro E. unfold sign. destruct (Qeq_bool v 0) eqn:A.
  - apply Qeq_bool_iff in A. assert (v' == 0)%Q as B by (rewrite E, A; reflexivity). apply Qeq_bool_iff in B. rewrite B. reflexivity.
  - assert (~ v == 0)%Q as NA by (intro W; apply Qeq_bool_iff in W; congruence).
    destruct (Qeq_bool v' 0) eqn:B; [apply Qeq_bool_iff in B; destruct NA; rewrite E in B; lra|].
    destruct (sgn1_cases v) as [[C ->]|[C ->]], (sgn1_cases v') as [[F ->]|[F ->]]; rewrite E in F; try reflexivity; exfalso; [apply NA; lra|lra].
Qed.
Lemma spal_z_odd num rho m m' t t' d d' : odd num -> (m' == m)%Q -> (t' == - t)%Q -> (d' == - d)%Q ->
  (spal_z num rho m' t' d' == - spal_z num rho m t d)%Q.
Proof.
  intros (_ & _ & _ & SQ) M T D. unfold spal_z.
  assert (S : (sqrt num (m' + rho / 2) == sqrt num (m + rho / 2))%Q) by (apply SQ; now rewrite M).
  set (k := sqrt num (m + rho / 2)%Q) in *. set (k' := sqrt num (m' + rho / 2)%Q) in *.
  assert (V : ((rho * t' - d') / (2 * k') == - ((rho * t - d) / (2 * k)))%Q).
  { rewrite S, T, D. unfold Qdiv. ring. }
  rewrite (sign_odd _ _ V).
  assert (C : (cut (Qabs ((rho * t' - d') / (2 * k')) - m' / k') == cut (Qabs ((rho * t - d) / (2 * k)) - m / k))%Q).
  { apply cut_eq. rewrite V, Qabs_opp, M, S. reflexivity. }
  rewrite C, S. unfold Qdiv. ring.
Qed.

(** ** ADMM is odd. *)
Lemma combine_rel ws ws' v v' : equal ws ws' -> opposite v v' ->
  Forall2 (fun a b => (fst b == fst a)%Q /\ (snd b == - snd a)%Q) (combine ws v) (combine ws' v').
Proof.
  intro W. revert v v'. induction W; intros v v' V; [constructor|]. inversion V as [|a a' l1 l1' Ha Hl]; subst; [constructor|].
  cbn. constructor; [cbn; auto|]. apply IHW. exact Hl.
Qed.
Lemma admm_odd num K L rho cols A r r' upd : odd num ->
  (forall z z' d d', opposite z z' -> opposite d d' -> opposite (r z d) (r' z' d')) ->
  (forall w w' t t' d d', (w' == w -> t' == - t -> d' == - d -> upd w' t' d' == - upd w t d)%Q) ->
  forall iters ws ws' tau tau' z z' d d', equal ws ws' -> opposite tau tau' -> opposite z z' -> opposite d d' ->
  opposite (admm num K L rho cols ws A r upd iters tau z d) (admm num K L rho cols ws' A r' upd iters tau' z' d').
Proof.
  intros (O1 & O2 & O3 & O4) R U. induction iters as [|k IH]; intros ws ws' tau tau' z z' d d' W T Z D; cbn [admm]; auto.
  set (t1 := pinv_dot num A (r z d)). set (t1' := pinv_dot num A (r' z' d')).
  assert (T1 : opposite t1 t1') by (apply O2, R; auto).
  pose proof (vdot_opposite K L cols _ _ T1) as V. set (v := vdot K L cols t1) in *. set (v' := vdot K L cols t1') in *.
  set (z1 := map2 _ (combine ws v) d). set (z1' := map2 _ (combine ws' v') d').
  assert (Z1 : opposite z1 z1').
  { unfold z1, z1'. eapply map2_rel with (R := fun a b => (fst b == fst a)%Q /\ (snd b == - snd a)%Q); [|clear - W V|exact D].
    - cbn. intros [a b] [a' b'] e e' [P P'] E. cbn in *. now apply U.
    - now apply combine_rel. }
  set (d1 := map2 Qplus d _). set (d1' := map2 Qplus d' _).
  assert (D1 : opposite d1 d1').
  { unfold d1, d1'. apply plus_opposite; auto. apply map2_opposite; auto. intros ? ? ? ? -> ->. ring. }
  rewrite (O3 _ _ _ _ _ _ _ _ V Z1 Z D1). destruct (converged num v' z1' z' d1'); auto.
Qed.

(** ** Rounds *)
Lemma rounds_rel {St} (R : St -> St -> Prop) np turn turn' U batch :
  (forall l l', equal l l' -> argsort np l = argsort np l') ->
  (forall s s', R s s' -> match turn s, turn' s' with
     | Ok (sc, nx), Ok (sc', nx') => equal sc sc' /\ forall sel, R (nx sel) (nx' sel)
     | Err e, Err e' => e = e' | _, _ => False end) ->
  forall fuel iter last s s', R s s' ->
  snd (rounds np turn U batch fuel iter last s) = snd (rounds np turn' U batch fuel iter last s').
Proof.
  intros AS T. induction fuel as [|k IH]; intros iter last s s' H; [reflexivity|]. cbn [rounds].
  specialize (T s s' H). destruct (turn s) as [[sc nx]|e], (turn' s') as [[sc' nx']|e']; try contradiction; [|now subst].
  destruct T as [E N]. rewrite (AS _ _ E). destruct (ps <- nlargestarg (argsort np sc') batch ;; take U ps) as [sel|e]; [|reflexivity].
  destruct (same_set last sel || (15 <? iter + 1)); [reflexivity|]. specialize (IH (iter + 1) sel _ _ (N sel)).
  destruct (rounds np turn U batch k (iter + 1) sel (nx sel)), (rounds np turn' U batch k (iter + 1) sel (nx' sel)). exact IH.
Qed.

Lemma labels_opposite y L : opposite (labels y L) (labels (map Z.opp y) L).
Proof.
  unfold labels, opposite. apply (map_rel eq); [|apply same_rel]. intros i _ <-.
  pose proof (map_nth Z.opp y 0 (Z.to_nat i)) as E. change (- 0) with 0 in E. rewrite E. now rewrite inject_Z_opp.
Qed.
Lemma start_opposite num K gamma y L : odd num -> opposite (start num K gamma y L) (start num K gamma (map Z.opp y) L).
Proof. intros (O & _). unfold start. apply O, labels_opposite. Qed.

Lemma program_even scale K L U batch ws ws' tau tau' : equal ws ws' -> opposite tau tau' ->
  same_program (program scale K L U batch ws tau) (program scale K L U batch ws' tau').
Proof.
  intros W T. unfold program. split; [reflexivity|]. split; cbn [qp_q qp_sum]; [|auto].
  eapply map2_rel with (R := fun a b => (b == a)%Q) (S := fun a b => (b == a)%Q); [| |].
  - cbn. intros ? ? ? ? -> ->. reflexivity.
  - apply equal_refl.
  - eapply map2_rel; [|exact W|exact (vdot_opposite K L U _ _ T)]. cbn. intros a a' f f' -> F. now rewrite (risk_even f f' F).
Qed.
Lemma relax_even p p' : same_program p p' -> same_program (relax p) (relax p').
Proof. intros (A & B & _). split; [exact A|]. split; [exact B|exact I]. Qed.
Lemma attempt_even np s p p' : by_value np s -> same_program p p' -> attempt s p = attempt s p'.
Proof. intros [S _] E. unfold attempt. now rewrite (S _ _ _ E), (S true _ _ E). Qed.
Lemma value_even np s p p' a : by_value np s -> same_program p p' -> value_of s p a = value_of s p' a.
Proof. intros S E. unfold value_of. now rewrite (attempt_even np s _ _ S (relax_even _ _ E)). Qed.

(** ** Selections *)
Lemma bmdr_even np num s K y beta gamma rho L U batch : odd num -> by_value np s -> (0 < rho)%Q ->
  snd (bmdr_select np num s K y beta gamma rho L U batch) = snd (bmdr_select np num s K (map Z.opp y) beta gamma rho L U batch).
Proof.
  intros O B R. unfold bmdr_select. destruct (negb _); [reflexivity|]. destruct (_ <=? _); [reflexivity|]. destruct (negb _); [reflexivity|].
  apply (rounds_rel opposite); [apply B| |now apply start_opposite].
  intros tau tau' T. unfold bmdr_turn. pose proof (program_even beta K L U batch _ _ tau tau' (equal_refl (ones (length U))) T) as P.
  rewrite (value_even np s _ _ _ B P).
  assert (F : bmdr_first s (program beta K L U batch (ones (length U)) tau) = bmdr_first s (program beta K L U batch (ones (length U)) tau')).
  { unfold bmdr_first. now rewrite (proj1 B _ _ _ P), (attempt_even np s _ _ B (relax_even _ _ P)). }
  rewrite F. destruct (value_of _ _ _) as [dr|e]; cbn [bind]; [|reflexivity]. split; [apply equal_refl|]. intro sel.
  apply admm_odd; auto; [| |apply equal_refl|now apply vdot_opposite|apply repeat_opposite].
  - intros z z' d d' Z D. unfold bmdr_r. apply plus_opposite; [apply plus_opposite|].
    + apply vdot_opposite, labels_opposite.
    + now apply scale_opposite, mdot_opposite.
    + now apply scale_opposite, mdot_opposite.
  - intros w w' t t' d d' _ T' D. now apply bmdr_z_odd.
Qed.

Lemma easiness_even lam dr f f' : (f' == - f)%Q -> (easiness lam dr f' == easiness lam dr f)%Q.
Proof.
  intro F. unfold easiness. pose proof (risk_even f f' F) as E.
  destruct (Qlt_le_dec (dr * risk f') lam) as [A|A], (Qlt_le_dec (dr * risk f) lam) as [B|B]; rewrite E in A; try lra; try reflexivity.
  rewrite E. reflexivity.
Qed.

Lemma spal_even np num s K y mu gamma rho lam L U batch : odd num -> by_value np s ->
  snd (spal_select np num s K y mu gamma rho lam L U batch) = snd (spal_select np num s K (map Z.opp y) mu gamma rho lam L U batch).
Proof.
  intros O B. unfold spal_select. destruct (negb _); [reflexivity|]. destruct (_ <=? _); [reflexivity|]. destruct (negb _); [reflexivity|].
  apply (rounds_rel (fun a b => opposite (fst a) (fst b) /\ equal (snd a) (snd b))); [apply B| |].
  2: { split; [now apply start_opposite|apply equal_refl]. }
  intros [th es] [th' es'] [T W]. cbn [fst snd] in T, W. unfold spal_turn. cbn [fst snd].
  pose proof (program_even mu K L U batch _ _ th th' W T) as P.
  rewrite (value_even np s _ _ _ B P), (attempt_even np s _ _ B P). destruct (value_of _ _ _) as [dr|e]; cbn [bind]; [|reflexivity].
  set (e1 := map2 (easiness lam) dr (vdot K L U th)). set (e2 := map2 (easiness lam) dr (vdot K L U th')).
  assert (E : equal e1 e2).
  { unfold e1, e2. eapply map2_rel; [|apply (same_rel dr)|apply (vdot_opposite K L U _ _ T)]. cbn. intros a _ f f' <- F. now apply easiness_even. }
  assert (M : equal (map2 Qmult dr e1) (map2 Qmult dr e2)).
  { eapply map2_rel; [|apply (same_rel dr)|exact E]. cbn. intros a _ f f' <- F. now rewrite F. }
  set (m1 := map2 Qmult dr e1) in *. set (m2 := map2 Qmult dr e2) in *.
  assert (M0 : equal (map cut m1) (map cut m2)).
  { eapply map_rel; [|exact M]. cbn. intros. now apply cut_eq. }
  assert (NT : forall p, (nth p (map cut m2) 0 == nth p (map cut m1) 0)%Q).
  { intro p. clear - M0. revert p. induction M0; intros [|p]; cbn; auto; reflexivity. }
  assert (Len : length (map cut m1) = length (map cut m2)) by (clear - M0; induction M0; cbn; congruence).
  assert (F : filter (fun p => negb (Qle_bool (nth p (map cut m1) 0%Q) (1 # 1000))) (seq 0 (length (map cut m1))) =
              filter (fun p => negb (Qle_bool (nth p (map cut m2) 0%Q) (1 # 1000))) (seq 0 (length (map cut m2)))).
  { rewrite Len. apply filter_ext. intro p. f_equal. apply Bool.eq_true_iff_eq. rewrite !Qle_bool_iff. now rewrite NT. }
  rewrite <- F. rewrite (proj2 B _ _ M0).
  destruct (match filter _ _ with [] => _ | _ => _ end) as [valid|e]; cbn [bind]; [|reflexivity].
  split; [exact M|]. intros _. cbn [fst snd]. split; [|exact E].
  apply admm_odd; auto.
  - intros z z' d d' Z D. unfold spal_r. apply plus_opposite; [apply plus_opposite|].
    + now apply scale_opposite, mdot_opposite.
    + now apply mdot_opposite.
    + apply scale_opposite, mdot_opposite, labels_opposite.
  - intros w w' t t' d d' A1 A2 A3. now apply spal_z_odd.
  - apply (map_rel eq); [|apply same_rel]. intros p _ <-. apply NT.
  - now apply vdot_opposite.
  - apply repeat_opposite.
Qed.
