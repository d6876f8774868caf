(** Property C136: for two classes the uncertainty measures select the same instances. *)
From Verif Require Import Base BaseFacts MiscSpec QueryModel QuerySpec QueryProofs QueryProps QueryNumpy TwoSpec.
From Coq Require Import QArith Qabs Lqa.
Local Open Scope Z_scope.

Lemma best_batch_mono {A} (U : list A) s s' k sel :
  (forall i j, (i < length U)%nat -> (j < length U)%nat -> (s i <= s j)%Q -> (s' i <= s' j)%Q) -> best_batch U s k sel -> best_batch U s' k sel.
Proof.
  intros H (ps & ND & L & F & M). exists ps. split; [auto|]. split; [auto|]. split; [auto|]. intros p q Hp Hq N. apply H; [auto| |now apply M].
  clear - F Hp. induction F as [|a x ps sel E F IH]; [destruct Hp|]. destruct Hp as [->|Hp]; [apply nth_error_Some; congruence|auto].
Qed.
Lemma best_batch_unique {A} (U : list A) s k sel sel' : (forall i j, (i < length U)%nat -> (j < length U)%nat -> i <> j -> ~ (s i == s j)%Q) ->
  best_batch U s k sel -> best_batch U s k sel' -> Permutation sel sel'.
Proof.
  intros T (ps & ND & L & F & M) (ps' & ND' & L' & F' & M').
  assert (LT : forall ps sel, Forall2 (fun p x => nth_error U p = Some x) ps sel -> forall p, In p ps -> (p < length U)%nat).
  { clear. intros ps sel F. induction F as [|a x ps sel E F IH]; intros p Hp; [destruct Hp|]. destruct Hp as [->|Hp]; [apply nth_error_Some; congruence|auto]. }
  assert (SUB : forall p, In p ps -> In p ps').
  { intros p Hp. destruct (in_dec Nat.eq_dec p ps') as [I|NI]; [auto|exfalso].
    assert (EX : exists q, In q ps' /\ ~ In q ps).
    { destruct (Forall_Exists_dec (fun q => In q ps) (fun q => in_dec Nat.eq_dec q ps) ps') as [FA|EX].
      - exfalso. rewrite Forall_forall in FA. assert (K : (length (p :: ps') <= length ps)%nat); [|cbn in K; lia].
        apply NoDup_incl_length; [constructor; auto|]. intros x [<-|Hx]; auto.
      - apply Exists_exists in EX. exact EX. }
    destruct EX as (q & Hq & NQ). pose proof (M p q Hp (LT _ _ F' q Hq) NQ). pose proof (M' q p Hq (LT _ _ F p Hp) NI).
    apply (T p q (LT _ _ F p Hp) (LT _ _ F' q Hq)); [intros ->; contradiction|lra]. }
  assert (P : Permutation ps ps') by (apply NoDup_Permutation_bis; auto; lia).
  assert (G : forall ps sel, Forall2 (fun p x => nth_error U p = Some x) ps sel -> map Some sel = map (nth_error U) ps).
  { clear. intros ps sel F. induction F as [|a x ps sel E F IH]; cbn; [auto|]. congruence. }
  pose proof (Permutation_map (nth_error U) P) as Q0. rewrite <- (G _ _ F), <- (G _ _ F') in Q0. clear - Q0.
  destruct (Permutation_map_inv Some sel' Q0) as (l3 & E3 & P3). assert (K : forall l l' : list A, map Some l = map Some l' -> l = l').
  { induction l as [|x l IH]; intros [|y l'] H; try discriminate; [auto|]. cbn in H. injection H as -> H. f_equal. auto. }
  apply K in E3. subst l3. now apply Permutation_sym.
Qed.

Lemma two_least a b x : (a + b == 1)%Q -> largest [a; b] x -> (x == (1 # 2) + off_half a)%Q.
Proof.
  intros S [I F]. inversion F as [|? ? F1 F']; subst. inversion F' as [|? ? F2 _]; subst. unfold off_half.
  destruct I as [<-|[<-|[]]].
  - rewrite Qabs_pos by lra. ring.
  - rewrite Qabs_neg by lra. lra.
Qed.
Lemma two_gap a b d : (a + b == 1)%Q -> top_gap [a; b] d -> (d == 2 * off_half a)%Q.
Proof.
  intros S (u & v & rest & P & UV & _ & D). pose proof (Permutation_length P) as L. cbn in L. destruct rest; [|discriminate].
  assert (K : (u = a /\ v = b) \/ (u = b /\ v = a)).
  { pose proof (Permutation_in u (Permutation_sym P) (or_introl eq_refl)) as I. destruct I as [<-|[<-|[]]].
    - left. split; [auto|]. apply Permutation_cons_inv in P. apply Permutation_length_1 in P. auto.
    - right. split; [auto|]. assert (P2 : Permutation [b; a] [b; v]) by (transitivity [a; b]; [constructor|auto]). apply Permutation_cons_inv, Permutation_length_1 in P2. auto. }
  unfold off_half. destruct K as [[-> ->]|[-> ->]]; [rewrite Qabs_pos by lra|rewrite Qabs_neg by lra]; lra.
Qed.
Lemma floor6_pos a : (0 < a)%Q -> floor6 a = a.
Proof. intro H. unfold floor6. destruct (Qlt_le_dec 0 a); [auto|lra]. Qed.
Lemma off_half_eq a b : (a == b)%Q -> (off_half a == off_half b)%Q.
Proof. intro H. unfold off_half. now rewrite H. Qed.

(** With two classes, selecting by least confidence, by margin or by entropy (for a logarithm with which the entropy behaves as it should)
    takes the instances whose probability is closest to one half. *)
Theorem C136_closest : forall (A : Type) np m (U : list A) rows p batch sel,
  numpy_ok np -> m <> Boundary -> (m = Entropy -> entropy_falls (log np)) ->
  length rows = length U -> two_classes p rows -> 0 < batch < Z.of_nat (length U) ->
  snd (select_by_prediction_mat np m U (Mat 2 rows) batch) = Ok sel ->
  best_batch U (fun i => - off_half (p i))%Q (Z.to_nat batch) sel.
Proof.
  intros A np m U rows p batch sel NP NB EN L TC B E.
  assert (F : Forall (fun r => length r = 2%nat) rows).
  { apply Forall_forall. intros r Hr. apply In_nth_error in Hr. destruct Hr as [i Hi]. destruct (TC i r Hi) as (a & b & -> & _). reflexivity. }
  destruct (C47_uncertainty A np m U 2 rows batch NP NB ltac:(lia) F L ltac:(lia)) as (sel' & E' & H). rewrite E in E'. injection E' as <-.
  destruct (Z.leb_spec (Z.of_nat (length U)) batch); [lia|]. destruct H as (score & SC & BB).
  apply (best_batch_mono U score); [|exact BB]. intros i j Hi Hj LE.
  destruct (nth_error rows i) as [ri|] eqn:Ei; [|apply nth_error_None in Ei; lia]. destruct (nth_error rows j) as [rj|] eqn:Ej; [|apply nth_error_None in Ej; lia].
  pose proof (SC i ri Ei) as Si. pose proof (SC j rj Ej) as Sj.
  destruct (TC i ri Ei) as (a & b & -> & Pa & Pb & Sab & Ea). destruct (TC j rj Ej) as (c & d & -> & Pc & Pd & Scd & Ec).
  pose proof (off_half_eq _ _ Ea) as Oa. pose proof (off_half_eq _ _ Ec) as Oc. set (si := score i) in *. set (sj := score j) in *. clearbody si sj.
  destruct m; [| | |contradiction].
  all: inversion Si as [? x ? G1 Q1|? x ? G1 Q1|? ? Q1]; subst; inversion Sj as [? x' ? G2 Q2|? x' ? G2 Q2|? ? Q2]; subst.
  - pose proof (two_least _ _ _ Sab G1). pose proof (two_least _ _ _ Scd G2). lra.
  - pose proof (two_gap _ _ _ Sab G1). pose proof (two_gap _ _ _ Scd G2). lra.
  - pose proof (EN eq_refl) as EF. unfold total in Q1, Q2. cbn [map fold_right] in Q1, Q2. rewrite !floor6_pos in Q1, Q2 by auto.
    destruct (Qlt_le_dec (off_half a) (off_half c)) as [K|K]; [|lra].
    pose proof (EF a b c d Pa Pb Sab Pc Pd Scd K). lra.
Qed.
Print Assumptions C136_closest.

(** So any two of these measures, and the distance to the boundary of a model whose decision values grow with the distance of the
    probability from one half, select the same instances when no two are equally uncertain. *)
Theorem C136_same : forall (A : Type) np np' m m' (U : list A) rows p batch sel sel',
  numpy_ok np -> numpy_ok np' -> m <> Boundary -> m' <> Boundary ->
  (m = Entropy -> entropy_falls (log np)) ->
  (m' = Entropy -> entropy_falls (log np')) ->
  length rows = length U -> two_classes p rows -> 0 < batch < Z.of_nat (length U) ->
  (forall i j, (i < length U)%nat -> (j < length U)%nat -> i <> j -> ~ (off_half (p i) == off_half (p j))%Q) ->
  snd (select_by_prediction_mat np m U (Mat 2 rows) batch) = Ok sel ->
  snd (select_by_prediction_mat np' m' U (Mat 2 rows) batch) = Ok sel' -> Permutation sel sel'.
Proof.
  intros A np np' m m' U rows p batch sel sel' NP NP' NB NB' EN EN' L TC B T E E'.
  apply (best_batch_unique U (fun i => - off_half (p i))%Q (Z.to_nat batch)).
  - intros i j Hi Hj N K. apply (T i j Hi Hj N). lra.
  - exact (C136_closest A np m U rows p batch sel NP NB EN L TC B E).
  - exact (C136_closest A np' m' U rows p batch sel' NP' NB' EN' L TC B E').
Qed.
Print Assumptions C136_same.

Theorem C136_boundary : forall (A : Type) np np' m (U : list A) rows v p batch sel sel',
  numpy_ok np -> numpy_ok np' -> m <> Boundary ->
  (m = Entropy -> entropy_falls (log np)) ->
  length rows = length U -> length v = length U -> two_classes p rows -> 0 < batch < Z.of_nat (length U) ->
  (forall i j, (i < length U)%nat -> (j < length U)%nat -> (Qabs (nth i v 0) <= Qabs (nth j v 0))%Q -> (off_half (p i) <= off_half (p j))%Q) ->
  (forall i j, (i < length U)%nat -> (j < length U)%nat -> i <> j -> ~ (off_half (p i) == off_half (p j))%Q) ->
  snd (select_by_prediction_mat np m U (Mat 2 rows) batch) = Ok sel ->
  snd (select_by_prediction_mat np' Boundary U (Vec v) batch) = Ok sel' -> Permutation sel sel'.
Proof.
  intros A np np' m U rows v p batch sel sel' NP NP' NB EN L LV TC B MO T E E'.
  apply (best_batch_unique U (fun i => - off_half (p i))%Q (Z.to_nat batch)).
  - intros i j Hi Hj N K. apply (T i j Hi Hj N). lra.
  - exact (C136_closest A np m U rows p batch sel NP NB EN L TC B E).
  - destruct (C47_boundary A np' U v batch (Vec v) NP' (or_introl eq_refl) LV ltac:(lia)) as (s & Es & BB). rewrite Es in E'. cbn [snd] in E'. injection E' as <-.
    destruct (Z.leb_spec (Z.of_nat (length U)) batch); [lia|]. revert BB. apply best_batch_mono. intros i j Hi Hj K. cbn beta in K. assert (K2 : (Qabs (nth j v 0) <= Qabs (nth i v 0))%Q) by lra.
    pose proof (MO j i Hj Hi K2). lra.
Qed.
Print Assumptions C136_boundary.

(** With three classes the measures disagree. *)
Theorem C136_three_refuted : exists np rows sel sel', numpy_ok np /\ Forall (fun r => Forall (fun x => (0 < x)%Q) r /\ (total r == 1)%Q) rows /\
  snd (select_by_prediction_mat np LeastConfident [10; 11] (Mat 3 rows) 1) = Ok sel /\
  snd (select_by_prediction_mat np Margin [10; 11] (Mat 3 rows) 1) = Ok sel' /\ ~ Permutation sel sel'.
Proof.
  exists (np0 (fun x => x)), [[4 # 10; 3 # 10; 3 # 10]; [48 # 100; 47 # 100; 5 # 100]]%Q, [10], [11].
  split; [apply np0_ok|]. split; [repeat constructor|]. split; [reflexivity|]. split; [reflexivity|]. intro P. apply Permutation_length_1 in P. discriminate.
Qed.
Print Assumptions C136_three_refuted.

(** Zeros matter: they are replaced by a millionth, so that entropy takes an instance predicted with certainty to be less certain than one
    predicted with probability 99999999/100000000, which least confidence and margin do not. *)
Theorem C136_certain_refuted : forall np, numpy_ok np -> log_bounds (log np) ->
  let rows := [[1; 0]; [99999999 # 100000000; 1 # 100000000]]%Q in
  snd (select_by_prediction_mat np Entropy [10; 11] (Mat 2 rows) 1) = Ok [10] /\
  snd (select_by_prediction_mat np LeastConfident [10; 11] (Mat 2 rows) 1) = Ok [11] /\
  snd (select_by_prediction_mat np Margin [10; 11] (Mat 2 rows) 1) = Ok [11].
Proof.
  intros np NP (B1 & B2 & B3 & B4) rows.
  assert (H : forall m, m <> Boundary -> exists sel score, snd (select_by_prediction_mat np m [10; 11] (Mat 2 rows) 1) = Ok sel /\
     uncertain (log np) m [1; 0]%Q (score 0%nat) /\ uncertain (log np) m [99999999 # 100000000; 1 # 100000000]%Q (score 1%nat) /\ best_batch [10; 11] score 1 sel).
  { intros m M. destruct (C47_uncertainty Z np m [10; 11] 2 rows 1 NP M ltac:(lia) ltac:(repeat constructor) eq_refl ltac:(lia)) as (sel & E & score & SC & BB).
    exists sel, score. split; [exact E|]. split; [now apply SC|]. split; [now apply SC|exact BB]. }
  assert (P : forall score sel, best_batch [10; 11] score 1 sel -> ((score 1%nat < score 0%nat)%Q -> sel = [10]) /\ ((score 0%nat < score 1%nat)%Q -> sel = [11])).
  { intros score sel (ps & ND & L & F & M). destruct ps as [|p [|? ?]]; try discriminate. inversion F as [|? x ? sel' E F']; subst. inversion F'; subst.
    destruct p as [|[|p]]; [| |destruct p; discriminate]; cbn in E; injection E as <-.
    - specialize (M 0%nat 1%nat (or_introl eq_refl)). cbn in M. assert (K : (score 1%nat <= score 0%nat)%Q) by (apply M; [lia|intros [X|[]]; discriminate]). split; [auto|intro; lra].
    - specialize (M 1%nat 0%nat (or_introl eq_refl)). cbn in M. assert (K : (score 0%nat <= score 1%nat)%Q) by (apply M; [lia|intros [X|[]]; discriminate]). split; [intro; lra|auto]. }
  split; [|split].
  - destruct (H Entropy ltac:(discriminate)) as (sel & score & E & S0 & S1 & BB). rewrite E. f_equal. apply P in BB. apply (proj1 BB). clear - S0 S1 B1 B2 B3 B4.
    set (a := score 0%nat) in *. set (b := score 1%nat) in *. clearbody a b.
    inversion S0 as [| |? ? Q0]; subst. inversion S1 as [| |? ? Q1]; subst. cbn [map total fold_right] in Q0, Q1.
    change (floor6 1) with 1%Q in *. change (floor6 0) with (1 # 1000000)%Q in *. rewrite !floor6_pos in Q1 by reflexivity.
    pose proof (B1 (1 + (1 # 1000000000))%Q ltac:(reflexivity)). pose proof (B3 ((1 # 1000000) + (1 # 1000000000))%Q ltac:(reflexivity)).
    pose proof (B2 ((99999999 # 100000000) + (1 # 1000000000))%Q ltac:(reflexivity)). pose proof (B4 ((1 # 100000000) + (1 # 1000000000))%Q ltac:(reflexivity)).
    unfold total in Q0, Q1. cbn [fold_right] in Q0, Q1. lra.
  - destruct (H LeastConfident ltac:(discriminate)) as (sel & score & E & S0 & S1 & BB). rewrite E. f_equal. apply P in BB. apply (proj2 BB). clear - S0 S1.
    set (a := score 0%nat) in *. set (b := score 1%nat) in *. clearbody a b.
    inversion S0 as [? x ? G0 Q0| |]; subst. inversion S1 as [? y ? G1 Q1| |]; subst. apply two_least in G0, G1; try reflexivity.
    assert (off_half 1 == 1 # 2)%Q by reflexivity. assert (off_half (99999999 # 100000000) == 49999999 # 100000000)%Q by reflexivity. lra.
  - destruct (H Margin ltac:(discriminate)) as (sel & score & E & S0 & S1 & BB). rewrite E. f_equal. apply P in BB. apply (proj2 BB). clear - S0 S1.
    set (a := score 0%nat) in *. set (b := score 1%nat) in *. clearbody a b.
    inversion S0 as [|? x ? G0 Q0|]; subst. inversion S1 as [|? y ? G1 Q1|]; subst. apply two_gap in G0, G1; try reflexivity.
    assert (off_half 1 == 1 # 2)%Q by reflexivity. assert (off_half (99999999 # 100000000) == 49999999 # 100000000)%Q by reflexivity. lra.
Qed.
Print Assumptions C136_certain_refuted.

(** A function in the place of the logarithm that meets the hypotheses, and three instances with three measures. *)
Lemma off_half_sq a : (off_half a * off_half a == (a - (1 # 2)) * (a - (1 # 2)))%Q.
Proof. unfold off_half. rewrite <- Qabs_Qmult. apply Qabs_pos. destruct (Qlt_le_dec (a - (1 # 2)) 0).
  - setoid_replace ((a - (1 # 2)) * (a - (1 # 2)))%Q with ((- (a - (1 # 2))) * (- (a - (1 # 2))))%Q by ring. apply Qmult_le_0_compat; lra.
  - apply Qmult_le_0_compat; lra.
 Qed.
Lemma entropy_falls_id : entropy_falls (fun x => x).
Proof.
  intros a b c d Pa Pb S Pc Pd S' H. pose proof (off_half_sq a). pose proof (off_half_sq c). assert (N : (0 <= off_half a)%Q) by apply Qabs_nonneg.
  assert (b == 1 - a)%Q as Eb by lra. assert (d == 1 - c)%Q as Ed by lra. rewrite Eb, Ed. nra.
Qed.
Definition ex_rows : list (list Q) := [[9 # 10; 1 # 10]; [3 # 10; 7 # 10]; [6 # 10; 4 # 10]]%Q.
Example C136_case : numpy_ok (np0 (fun x => x)) /\ entropy_falls (log (np0 (fun x => x))) /\ two_classes (fun i => hd 0%Q (nth i ex_rows [])) ex_rows /\
  (forall i j, (i < 3)%nat -> (j < 3)%nat -> i <> j -> ~ (off_half (hd 0%Q (nth i ex_rows [])) == off_half (hd 0%Q (nth j ex_rows [])))%Q) /\
  map (fun m => snd (select_by_prediction_mat (np0 (fun x => x)) m [10; 11; 12] (Mat 2 ex_rows) 2)) [LeastConfident; Margin; Entropy] = repeat (Ok [11; 12]) 3 /\
  snd (select_by_prediction_mat (np0 (fun x => x)) Boundary [10; 11; 12] (Vec [22 # 10; - 8 # 10; 4 # 10]%Q) 2) = Ok [12; 11].
Proof.
  split; [apply np0_ok|]. split; [apply entropy_falls_id|]. split.
  - intros [|[|[|i]]] row E; cbn in E; try (injection E as <-; eexists _, _; repeat split; reflexivity). destruct i; discriminate.
  - split; [|split; reflexivity]. intros [|[|[|i]]] [|[|[|j]]] I J N; try lia; try contradiction; cbn; intro E; discriminate.
Qed.

(** A function with the four bounds. *)
Definition ex_log (x : Q) : Q := if Qlt_le_dec x (1 # 10000000) then - (19) else if Qlt_le_dec x (1 # 100) then - (13) else 0.
Example C136_bounds : log_bounds ex_log.
Proof.
  unfold log_bounds, ex_log. repeat split; intros x E; destruct (Qlt_le_dec x (1 # 10000000)), (Qlt_le_dec x (1 # 100)); lra.
Qed.
