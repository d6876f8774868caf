(** C74: what the scores of Adaptive (multi_label.py 1064-1105) are, for every row of values. *)
From Verif Require Import Base BaseFacts MetricModel MiscModel QueryModel MLQueryModel MLQueryProofs BlindModel MLModel.
From Coq Require Import QArith Qabs Lqa.
Local Open Scope Q_scope.

Lemma min_fold l : forall a, a <> NaN -> (forall x, In x l -> x <> NaN) ->
  let m := fold_left (fun a b => if fl_lt b a then b else a) l a in
  In m (a :: l) /\ forall x, In x (a :: l) -> fl_lt x m = false.
Proof.
  induction l as [|y l IH]; intros a Ha H; cbn zeta in *; cbn [fold_left].
  - split; [now left|]. intros x [<-|[]]. apply fl_lt_irrefl.
  - assert (Hy : y <> NaN) by (apply H; now left). assert (Hl : forall x, In x l -> x <> NaN) by (intros; apply H; now right).
    destruct (fl_lt y a) eqn:E.
    + destruct (IH y Hy Hl) as [I M]. split; [destruct I; [right; left; auto|right; right; auto]|].
      intros x [<-|[<-|Hx]]; [|apply M; now left|apply M; now right].
      eapply fl_nlt_trans; [exact Hy| |]; [apply M; now left|]. now apply fl_lt_asym.
    + destruct (IH a Ha Hl) as [I M]. split; [destruct I; [left; auto|right; right; auto]|].
      intros x [<-|[<-|Hx]]; [apply M; now left| |apply M; now right]. eapply fl_nlt_trans; [exact Ha| |exact E]. apply M. now left.
Qed.
Lemma max_fold l : forall a, a <> NaN -> (forall x, In x l -> x <> NaN) ->
  let m := fold_left (fun a b => if fl_lt a b then b else a) l a in
  In m (a :: l) /\ forall x, In x (a :: l) -> fl_lt m x = false.
Proof.
  induction l as [|y l IH]; intros a Ha H; cbn zeta in *; cbn [fold_left].
  - split; [now left|]. intros x [<-|[]]. apply fl_lt_irrefl.
  - assert (Hy : y <> NaN) by (apply H; now left). assert (Hl : forall x, In x l -> x <> NaN) by (intros; apply H; now right).
    destruct (fl_lt a y) eqn:E.
    + destruct (IH y Hy Hl) as [I M]. split; [destruct I; [right; left; auto|right; right; auto]|].
      intros x [<-|[<-|Hx]]; [|apply M; now left|apply M; now right].
      eapply fl_nlt_trans; [exact Hy| |]; [now apply fl_lt_asym|apply M; now left].
    + destruct (IH a Ha Hl) as [I M]. split; [destruct I; [left; auto|right; right; auto]|].
      intros x [<-|[<-|Hx]]; [apply M; now left| |apply M; now right]. eapply fl_nlt_trans; [exact Ha|exact E|]. apply M. now left.
Qed.
Lemma no_nan (f : Q -> fl) r : (forall v, f v <> NaN) -> existsb is_nan (map f r) = false /\ forall x, In x (map f r) -> x <> NaN.
Proof.
  intro H. assert (N : forall x, In x (map f r) -> x <> NaN) by (intros x Hx; apply in_map_iff in Hx; destruct Hx as (v & <- & _); apply H).
  split; [|exact N]. destruct (existsb is_nan (map f r)) eqn:E; [|auto]. apply existsb_exists in E. destruct E as (x & Hx & E). destruct x; try discriminate. now elim (N NaN Hx).
Qed.

Definition pos_of (v : Q) : fl := if Qle_bool v 0 then Inf false else Num v.
Definition neg_of (v : Q) : fl := if Qle_bool 0 v then Inf true else Num v.
Lemma pos_cases v : (v <= 0 /\ pos_of v = Inf false) \/ (0 < v /\ pos_of v = Num v).
Proof. unfold pos_of. destruct (Qle_bool v 0) eqn:E; [left|right]; (split; [|auto]); [now apply Qle_bool_iff|]. apply Qnot_le_lt. intro X. apply Qle_bool_iff in X. congruence. Qed.
Lemma neg_cases v : (0 <= v /\ neg_of v = Inf true) \/ (v < 0 /\ neg_of v = Num v).
Proof. unfold neg_of. destruct (Qle_bool 0 v) eqn:E; [left|right]; (split; [|auto]); [now apply Qle_bool_iff|]. apply Qnot_le_lt. intro X. apply Qle_bool_iff in X. congruence. Qed.

Lemma least r : let m := fl_min (map pos_of r) in
  (forall p, In p r -> 0 < p -> (forall v, In v r -> 0 < v -> p <= v) -> exists d, m = Num d /\ d == p) /\
  ((forall v, In v r -> v <= 0) -> m = Inf false) /\ (m = Inf false \/ exists d, m = Num d).
Proof.
  cbn zeta. destruct (no_nan pos_of r) as [E N]. { intro v. destruct (pos_cases v) as [[_ ->]|[_ ->]]; discriminate. }
  unfold fl_min. rewrite E. destruct (min_fold (map pos_of r) (Inf false) ltac:(discriminate) N) as [I M].
  set (m := fold_left _ (map pos_of r) (Inf false)) in *. clearbody m.
  assert (K : m = Inf false \/ exists v, In v r /\ 0 < v /\ m = Num v).
  { destruct I as [<-|I]; [now left|]. apply in_map_iff in I. destruct I as (v & <- & Hv). destruct (pos_cases v) as [[_ ->]|[P ->]]; [now left|right; now exists v]. }
  split; [|split].
  - intros p Hp Pp L. destruct K as [->|(v & Hv & Pv & ->)].
    + specialize (M (Num p)). cbn in M. discriminate M. right. apply in_map_iff. exists p. split; [|auto]. destruct (pos_cases p) as [[X _]|[_ ->]]; [lra|auto].
    + exists v. split; auto. assert (V : fl_lt (Num p) (Num v) = false). { apply M. right. apply in_map_iff. exists p. split; [|auto]. destruct (pos_cases p) as [[X _]|[_ ->]]; [lra|auto]. }
      cbn in V. apply Bool.negb_false_iff, Qle_bool_iff in V. specialize (L v Hv Pv). lra.
  - intro A. destruct K as [->|(v & Hv & Pv & ->)]; [auto|]. specialize (A v Hv). lra.
  - destruct K as [->|(v & _ & _ & ->)]; [now left|right; now exists v].
Qed.
Lemma greatest r : let m := fl_max (map neg_of r) in
  (forall q, In q r -> q < 0 -> (forall v, In v r -> v < 0 -> v <= q) -> exists d, m = Num d /\ d == q) /\
  ((forall v, In v r -> 0 <= v) -> m = Inf true) /\ (m = Inf true \/ exists d, m = Num d).
Proof.
  cbn zeta. destruct (no_nan neg_of r) as [E N]. { intro v. destruct (neg_cases v) as [[_ ->]|[_ ->]]; discriminate. }
  unfold fl_max. rewrite E. destruct (max_fold (map neg_of r) (Inf true) ltac:(discriminate) N) as [I M].
  set (m := fold_left _ (map neg_of r) (Inf true)) in *. clearbody m.
  assert (K : m = Inf true \/ exists v, In v r /\ v < 0 /\ m = Num v).
  { destruct I as [<-|I]; [now left|]. apply in_map_iff in I. destruct I as (v & <- & Hv). destruct (neg_cases v) as [[_ ->]|[P ->]]; [now left|right; now exists v]. }
  split; [|split].
  - intros p Hp Pp L. destruct K as [->|(v & Hv & Pv & ->)].
    + specialize (M (Num p)). cbn in M. discriminate M. right. apply in_map_iff. exists p. split; [|auto]. destruct (neg_cases p) as [[X _]|[_ ->]]; [lra|auto].
    + exists v. split; auto. assert (V : fl_lt (Num v) (Num p) = false). { apply M. right. apply in_map_iff. exists p. split; [|auto]. destruct (neg_cases p) as [[X _]|[_ ->]]; [lra|auto]. }
      cbn in V. apply Bool.negb_false_iff, Qle_bool_iff in V. specialize (L v Hv Pv). lra.
  - intro A. destruct K as [->|(v & Hv & Pv & ->)]; [auto|]. specialize (A v Hv). lra.
  - destruct K as [->|(v & _ & _ & ->)]; [now left|right; now exists v].
Qed.

(** The separation margin is the smallest positive value minus the largest negative one; the uncertainty, its inverse, is zero when
    the values are all on one side, that is when all labels are predicted alike. *)
Theorem C74_margin : forall r,
  (forall p q, In p r -> 0 < p -> (forall v, In v r -> 0 < v -> p <= v) -> In q r -> q < 0 -> (forall v, In v r -> v < 0 -> v <= q) ->
    exists d, separation r = Num d /\ d == p - q) /\
  ((forall v, In v r -> v <= 0) \/ (forall v, In v r -> 0 <= v) -> inverse (separation r) = Num 0).
Proof.
  intro r. unfold separation. fold pos_of neg_of. change (fun v : Q => if Qle_bool v 0 then Inf false else Num v) with pos_of.
  change (fun v : Q => if Qle_bool 0 v then Inf true else Num v) with neg_of.
  destruct (least r) as (A1 & A2 & A3). destruct (greatest r) as (B1 & B2 & B3). split.
  - intros p q Hp Pp Lp Hq Pq Lq. destruct (A1 p Hp Pp Lp) as (d & -> & D). destruct (B1 q Hq Pq Lq) as (e & -> & E). exists (d - e). split; [reflexivity|]. lra.
  - intros [H|H]; [rewrite (A2 H); destruct B3 as [->|[d ->]]|rewrite (B2 H); destruct A3 as [->|[d ->]]]; reflexivity.
Qed.
Print Assumptions C74_margin.

(** [a] is the largest of zero and of [f v] for the values [v] of the row on the side [P]. *)
Definition worst_of (P : Q -> Prop) (f : Q -> Q) (r : list Q) (a : Q) : Prop :=
  0 <= a /\ (forall v, In v r -> P v -> f v <= a) /\ (a == 0 \/ exists v, In v r /\ P v /\ a == f v).
Lemma qmax_cases a b : (a <= b /\ qmax a b = b) \/ (b < a /\ qmax a b = a).
Proof. unfold qmax. destruct (Qle_bool a b) eqn:E; [left|right]; (split; [|auto]); [now apply Qle_bool_iff|]. apply Qnot_le_lt. intro X. apply Qle_bool_iff in X. congruence. Qed.
Lemma worst_fold (P : Q -> Prop) f g r : (forall v, P v /\ g v == f v \/ ~ P v /\ g v == 0) -> worst_of P f r (fold_right qmax 0 (map g r)).
Proof.
  intro H. induction r as [|v r (I1 & I2 & I3)]; cbn [map fold_right].
  - split; [lra|]. split; [intros v []|now left].
  - set (a := fold_right qmax 0 (map g r)) in *. destruct (qmax_cases (g v) a) as [[L ->]|[L ->]].
    + split; [auto|]. split; [|destruct I3 as [E|(u & Hu & E)]; [now left|right; exists u; split; [now right|auto]]].
      intros u [<-|Hu] Pu; [|auto]. destruct (H v) as [[_ E]|[N _]]; [lra|contradiction].
    + destruct (H v) as [[Pv E]|[N E]]; [|lra]. split; [lra|]. split.
      * intros u [<-|Hu] Pu; [lra|]. pose proof (I2 u Hu Pu). lra.
      * right. exists v. split; [now left|auto].
Qed.

(** The error that decides between the candidates: for each instance of the pool, how far the worst predicted positive label is below 1
    and how far the worst predicted negative one is above -1, neither counted below zero. *)
Theorem C74_error : forall r, exists pos neg, hinge r == pos + neg /\
  worst_of (fun v => 0 <= v) (fun v => 1 - v) r pos /\ worst_of (fun v => v <= 0) (fun v => 1 + v) r neg.
Proof.
  intro r. unfold hinge. eexists _, _. split; [apply Qplus_comm|]. split; apply worst_fold; intro v.
  - destruct (Qle_bool 0 v) eqn:E; [left; split; [now apply Qle_bool_iff|ring]|right; split; [|ring]]. intro X. apply Qle_bool_iff in X. congruence.
  - destruct (Qle_bool v 0) eqn:E; [left; split; [now apply Qle_bool_iff|ring]|right; split; [|ring]]. intro X. apply Qle_bool_iff in X. congruence.
Qed.
Print Assumptions C74_error.

Lemma qsum_scaled {A} (f : A -> Q) c l : qsum (map (fun j => f j / c) l) == qsum (map f l) / c.
Proof. induction l as [|x l IH]; unfold qsum in *; cbn; [unfold Qdiv; ring|]. rewrite IH. unfold Qdiv. ring. Qed.
Lemma qsum_added {A} (f g : A -> Q) l : qsum (map (fun j => f j + g j) l) == qsum (map f l) + qsum (map g l).
Proof. induction l as [|x l IH]; unfold qsum in *; cbn; [ring|]. rewrite IH. ring. Qed.
Lemma row_sum r : forall k, qsum (map (fun j => inject_Z (nth (j - k) r 0%Z)) (seq k (length r))) == inject_Z (zsum r).
Proof.
  induction r as [|x r IH]; intro k; [reflexivity|]. cbn [length seq map]. rewrite Nat.sub_diag. unfold qsum, zsum in *. cbn [fold_right nth]. rewrite inject_Z_plus, <- (IH (S k)).
  rewrite (map_ext_in _ (fun j => inject_Z (nth (j - S k) r 0%Z))); [reflexivity|]. intros j Hj. apply in_seq in Hj. replace (j - k)%nat with (S (j - S k)) by lia. reflexivity.
Qed.

(** The cardinality compared with the number of predicted labels is the mean number of labels of a labelled instance. *)
Theorem C74_cardinality : forall m ly, ly <> [] -> (forall r, In r ly -> length r = m) ->
  average_labels m ly == inject_Z (zsum (map zsum ly)) / inject_Z (Z.of_nat (length ly)).
Proof.
  intros m ly NE H. unfold average_labels. rewrite qsum_scaled. apply Qmult_comp; [|reflexivity]. clear NE.
  induction ly as [|r ly IH]; cbn [map].
  - unfold range. generalize (seq 0 m). intro l. induction l as [|x l IHl]; [reflexivity|]. unfold qsum in *. cbn in *. rewrite IHl. reflexivity.
  - unfold qsum at 2. cbn [fold_right]. rewrite (qsum_added (fun j => inject_Z (nth j r 0%Z)) (fun j => fold_right Qplus 0 (map (fun r0 => inject_Z (nth j r0 0%Z)) ly))).
    fold (@qsum). unfold qsum in IH at 2. rewrite IH by (intros; apply H; now right). change (zsum (zsum r :: map zsum ly)) with (zsum r + zsum (map zsum ly))%Z. rewrite inject_Z_plus.
    apply Qplus_comp; [|reflexivity]. rewrite <- (row_sum r 0). rewrite (H r) by now left. unfold range.
    rewrite (map_ext (fun j => inject_Z (nth (j - 0) r 0%Z)) (fun j => inject_Z (nth j r 0%Z))) by (intro; now rewrite Nat.sub_0_r). reflexivity.
Qed.
Print Assumptions C74_cardinality.

(** The constant classifier of a label answers a probability for the classes -2 .. 1 only; a class is a column, counted from the end when
    it is negative. *)
Theorem C74_constant_class : forall cls, dummy_ok cls = true <-> (-2 <= cls < 2)%Z.
Proof.
  intro c. unfold dummy_ok, py_index. change (Z.of_nat 2) with 2%Z. cbn [Z.opp].
  destruct (Z.leb_spec 0 c), (Z.ltb_spec c 2), (Z.leb_spec (-2) c), (Z.ltb_spec c 0); cbn [andb]; split; intro X; try discriminate; try reflexivity; lia.
Qed.
Print Assumptions C74_constant_class.

(** Three labels, two on the positive side: the margin is 1/2 - (-1/4), and the error 1/2 + 3/4. *)
Example ex_margin : separation [1 # 2; - (1 # 4); 3 # 4] = Num ((1 # 2) - - (1 # 4)) /\ hinge [1 # 2; - (1 # 4); 3 # 4] == 5 # 4 /\
  average_labels 3 [[1; 0; 1]; [0; 0; 1]]%Z == 3 # 2.
Proof. repeat split; vm_compute; reflexivity. Qed.
