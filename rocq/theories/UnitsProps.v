(** Property C135: what the scaling functions do to data given in other units. *)
From Verif Require Import Base MiscModel MiscSpec MiscProofs MiscProps.
From Coq Require Import QArith Lqa Qfield.
Local Open Scope Q_scope.
Local Notation length := List.length.

(** The same data with column [j] in another unit: [x] is written [a j * x + b j]. *)
Definition converted (a b : nat -> Q) (m : nat) (rows rows' : list (list Q)) : Prop :=
  rect rows m /\ rect rows' m /\ length rows = length rows' /\
  forall i j x y, (j < m)%nat -> at_ rows i j x -> at_ rows' i j y -> y == a j * x + b j.

Lemma at_there rows rows' m i j x : rect rows m -> rect rows' m -> length rows = length rows' -> at_ rows i j x -> exists y, at_ rows' i j y.
Proof.
  intros [_ R] [_ R'] L (r & Er & Ex). assert (Hi : (i < length rows')%nat) by (rewrite <- L; apply nth_error_Some; congruence).
  destruct (nth_error rows' i) as [r'|] eqn:Er'; [|apply nth_error_None in Er'; lia]. rewrite Forall_forall in R, R'.
  pose proof (R r (nth_error_In _ _ Er)) as L1. pose proof (R' r' (nth_error_In _ _ Er')) as L2.
  assert (Hj : (j < length r')%nat) by (rewrite L2, <- L1; apply nth_error_Some; congruence).
  destruct (nth_error r' j) as [y|] eqn:Ey; [|apply nth_error_None in Ey; lia]. exists y, r'. auto.
Qed.
Lemma at_same rows i j x y : at_ rows i j x -> at_ rows i j y -> x = y.
Proof. intros (r & E1 & E2) (r' & E3 & E4). congruence. Qed.

(** [minmax_scale] gives the same for every unit and zero of a column; a unit that counts the other way mirrors the column. *)
Theorem C135_minmax : forall a b m rows rows' lo hi out out' i j x x',
  converted a b m rows rows' -> lo < hi -> (j < m)%nat -> minmax_scale (XMat rows) lo hi = Ok (XMat out) -> minmax_scale (XMat rows') lo hi = Ok (XMat out') ->
  at_ out i j x -> at_ out' i j x' ->
  (0 < a j -> x' == x) /\ (a j < 0 -> (exists k l u v, at_ rows k j u /\ at_ rows l j v /\ ~ u == v) -> x' == lo + hi - x).
Proof.
  intros a b m rows rows' lo hi out out' i j x x' (R & R' & L & CV) LT Hj E E' X X'.
  destruct (minmax_entries rows m lo hi R LT) as (o & Eo & _ & _ & H). rewrite E in Eo. injection Eo as <-.
  destruct (minmax_entries rows' m lo hi R' LT) as (o & Eo & _ & _ & H'). rewrite E' in Eo. injection Eo as <-.
  destruct (H j Hj) as (mn & mx & (i1 & I1) & (i2 & I2) & B & V). destruct (H' j Hj) as (mn' & mx' & (k1 & J1) & (k2 & J2) & B' & V').
  destruct (V i x X) as (z & Z & ->). destruct (V' i x' X') as (z' & Z' & ->).
  pose proof (CV i j z z' Hj Z Z') as EZ.
  destruct (at_there rows rows' m _ _ _ R R' L I1) as (y1 & Y1). destruct (at_there rows rows' m _ _ _ R R' L I2) as (y2 & Y2).
  destruct (at_there rows' rows m _ _ _ R' R (eq_sym L) J1) as (w1 & W1). destruct (at_there rows' rows m _ _ _ R' R (eq_sym L) J2) as (w2 & W2).
  pose proof (CV _ _ _ _ Hj I1 Y1) as C1. pose proof (CV _ _ _ _ Hj I2 Y2) as C2. pose proof (CV _ _ _ _ Hj W1 J1) as C3. pose proof (CV _ _ _ _ Hj W2 J2) as C4.
  pose proof (B' _ _ Y1) as b1. pose proof (B' _ _ Y2) as b2. pose proof (B _ _ W1) as b3. pose proof (B _ _ W2) as b4. pose proof (B _ _ Z) as b5.
  pose proof (B _ _ I1) as b6. clear B' V V' H H'. unfold rescale. cbn [fst snd]. set (A := a j) in *. set (T := b j) in *. split.
  - intro PA. assert (M1 : mn' == A * mn + T) by nra. assert (M2 : mx' == A * mx + T) by nra.
    destruct (Qeq_bool (mx - mn) 0) eqn:Q1; destruct (Qeq_bool (mx' - mn') 0) eqn:Q2.
    + apply Qeq_bool_iff in Q1, Q2. assert (z == mn) by lra. rewrite EZ, M1, H. field.
    + apply Qeq_bool_iff in Q1. exfalso. assert (K : mx' - mn' == 0) by (rewrite M1, M2; setoid_replace mx with mn by lra; ring). apply Qeq_bool_iff in K. congruence.
    + apply Qeq_bool_neq in Q1. apply Qeq_bool_iff in Q2. exfalso. apply Q1. assert (K : A * (mx - mn) == 0) by lra. apply Qmult_integral in K. destruct K; [lra|auto].
    + apply Qeq_bool_neq in Q1. rewrite EZ, M1, M2. field. split; [exact Q1|]. intro K. apply Q1. assert (K2 : A * (mx - mn) == 0) by lra. apply Qmult_integral in K2. destruct K2; [lra|auto].
  - intros NA (k & l & u & v & U1 & U2 & NE). pose proof (B _ _ U1) as b7. pose proof (B _ _ U2) as b8. assert (NM : ~ mx - mn == 0) by (intro K; apply NE; lra).
    assert (M1 : mn' == A * mx + T) by nra. assert (M2 : mx' == A * mn + T) by nra.
    assert (NM' : ~ A * mn + T - (A * mx + T) == 0) by (intro K; apply NM; assert (K2 : A * (mx - mn) == 0) by lra; apply Qmult_integral in K2; destruct K2; [lra|auto]).
    destruct (Qeq_bool (mx - mn) 0) eqn:Q1; [apply Qeq_bool_iff in Q1; contradiction|]. destruct (Qeq_bool (mx' - mn') 0) eqn:Q2; [apply Qeq_bool_iff in Q2; rewrite M1, M2 in Q2; contradiction|].
    rewrite EZ, M1, M2. field. split; [exact NM|exact NM'].
Qed.
Print Assumptions C135_minmax.

Lemma total_affine A T l l' : Forall2 (fun x y => y == A * x + T) l l' -> total l' == A * total l + inject_Z (Z.of_nat (length l)) * T.
Proof.
  unfold total. induction 1 as [|x y l l' E F IH]; [cbn; ring|]. cbn [fold_right List.length]. rewrite IH, E, Nat2Z.inj_succ. unfold Z.succ. rewrite inject_Z_plus. ring.
Qed.
Lemma len_same {A B} (R : A -> B -> Prop) l l' : Forall2 R l l' -> length l = length l'.
Proof. induction 1; cbn; auto. Qed.
Lemma mean_affine A T l l' : l <> [] -> Forall2 (fun x y => y == A * x + T) l l' -> mean l' == A * mean l + T.
Proof.
  intros NE F. unfold mean. rewrite (total_affine A T l l' F), <- (len_same _ _ _ F).
  assert (~ inject_Z (Z.of_nat (length l)) == 0). { intro K. destruct l; [contradiction|]. unfold Qeq in K. cbn in K. lia. } field. auto.
Qed.
Lemma variance_affine A T l l' : l <> [] -> Forall2 (fun x y => y == A * x + T) l l' -> variance l' == A * A * variance l.
Proof.
  intros NE F. pose proof (mean_affine A T l l' NE F) as M. unfold variance.
  rewrite (mean_affine (A * A) 0 (map (fun x => (x - mean l) * (x - mean l)) l) (map (fun x => (x - mean l') * (x - mean l')) l')); [ring|intro K; apply map_eq_nil in K; contradiction|].
  set (ml := mean l) in *. set (ml' := mean l') in *. clearbody ml ml'. clear NE. induction F as [|x y l l' E F IH]; cbn; constructor; [|auto]. rewrite E, M. ring.
Qed.
Lemma columns_affine a b m rows rows' j : converted a b m rows rows' -> (j < m)%nat ->
  Forall2 (fun x y => y == a j * x + b j) (column 0%Q rows j) (column 0%Q rows' j).
Proof.
  intros ((_ & R) & (_ & R') & L & CV) Hj. assert (G : forall k, forall r r', nth_error rows k = Some r -> nth_error rows' k = Some r' -> nth j r' 0 == a j * nth j r 0 + b j).
  { intros k r r' E E'. rewrite Forall_forall in R, R'. apply (CV k j); [auto|exists r|exists r']; (split; [auto|]); apply nth_error_nth';
      [rewrite (R r (nth_error_In _ _ E))|rewrite (R' r' (nth_error_In _ _ E'))]; auto. }
  clear - L G. unfold column. revert rows' L G. induction rows as [|r rows IH]; intros [|r' rows'] L G; try discriminate; cbn; constructor.
  - now apply (G 0%nat).
  - apply IH; [cbn in L; lia|]. intros k. apply (G (S k)).
Qed.

(** [StandardScale] divides by the variance, so its result still has a unit: a column in units [a] times smaller comes out divided by
    [a]. *)
Theorem C135_standard : forall a b m rows rows' out out' i j x x',
  converted a b m rows rows' -> (j < m)%nat -> ~ a j == 0 -> ~ variance (column 0%Q rows j) == 0 ->
  standard_scale (XMat rows) = Ok out -> standard_scale (XMat rows') = Ok out' ->
  nth_error (column NaN out j) i = Some x -> nth_error (column NaN out' j) i = Some x' ->
  exists u u', x = Num u /\ x' = Num u' /\ u' == u / a j.
Proof.
  intros a b m rows rows' out out' i j x x' CV Hj NA NV E E' X X'. pose proof CV as (R & R' & L & _).
  pose proof (columns_affine a b m rows rows' j CV Hj) as F. assert (NE : column 0%Q rows j <> []) by (destruct R as [NR _]; destruct rows; [contradiction|discriminate]).
  pose proof (mean_affine _ _ _ _ NE F) as M. pose proof (variance_affine _ _ _ _ NE F) as V.
  assert (NV' : ~ variance (column 0%Q rows' j) == 0). { rewrite V. intro K. apply Qmult_integral in K. destruct K as [K|K]; [|contradiction]. apply Qmult_integral in K. tauto. }
  destruct (C36_centred rows m j R Hj NV) as (o & c & Eo & C & _ & _ & FORM). rewrite E in Eo. injection Eo as <-.
  destruct (C36_centred rows' m j R' Hj NV') as (o & c' & Eo & C' & _ & _ & FORM'). rewrite E' in Eo. injection Eo as <-.
  rewrite C, nth_error_map in X. rewrite C', nth_error_map in X'.
  destruct (nth_error c i) as [u|] eqn:Eu; [|discriminate]. destruct (nth_error c' i) as [u'|] eqn:Eu'; [|discriminate]. injection X as <-. injection X' as <-.
  exists u, u'. split; [auto|]. split; [auto|].
  assert (LN : length (column 0%Q rows j) = length c).
  { assert (K : length (column NaN out j) = length c) by (rewrite C; apply map_length). rewrite <- K. unfold column. rewrite !map_length.
    destruct (standard_columns rows m R) as (o & Eo & _ & LO & _). rewrite E in Eo. injection Eo as <-. auto. }
  assert (Hi : (i < length (column 0%Q rows j))%nat) by (rewrite LN; apply nth_error_Some; congruence).
  destruct (nth_error (column 0%Q rows j) i) as [w|] eqn:Ew; [|apply nth_error_None in Ew; lia].
  destruct (nth_error (column 0%Q rows' j) i) as [w'|] eqn:Ew'; [|apply nth_error_None in Ew'; rewrite <- (len_same _ _ _ F) in Ew'; lia].
  rewrite (FORM i w u Ew Eu), (FORM' i w' u' Ew' Eu'), M, V.
  assert (EW : w' == a j * w + b j). { clear - F Ew Ew'. revert i Ew Ew'. induction F as [|p q l l' K F IH]; intros [|i] H1 H2; try discriminate; cbn in *; [congruence|eauto]. }
  rewrite EW. field. split; auto.
Qed.
Print Assumptions C135_standard.

(** Degrees Celsius and Fahrenheit. *)
Definition ex_celsius : list (list Q) := [[0]; [10]; [20]].
Definition ex_fahrenheit : list (list Q) := [[32]; [50]; [68]].
Example ex_degrees : converted (fun _ => 9 # 5) (fun _ => 32) 1 ex_celsius ex_fahrenheit /\ ~ variance (column 0%Q ex_celsius 0) == 0 /\
  minmax_scale (XMat ex_fahrenheit) 0 1 <> minmax_scale (XMat [[0]; [0]; [1]]) 0 1.
Proof.
  split; [|split; vm_compute; discriminate]. split; [split; [discriminate|repeat constructor]|]. split; [split; [discriminate|repeat constructor]|]. split; [reflexivity|].
  intros i j x y Hj (r & Er & Ex) (r' & Er' & Ey). assert (j = 0%nat) by lia. subst j.
  destruct i as [|[|[|i]]]; cbn in Er, Er'; try (now destruct i); injection Er as <-; injection Er' as <-; cbn in Ex, Ey; injection Ex as <-; injection Ey as <-; reflexivity.
Qed.
