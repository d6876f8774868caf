(** Lemmas about the committee scores. *)
From Verif Require Import Base BaseFacts IndexModel MLModel MiscModel MiscSpec QueryModel QuerySpec QueryProofs.
From Coq Require Import QArith Qabs Qfield Lqa.
Local Open Scope Z_scope.

Lemma py_nth_default {A} (d : A) X i : (i < length X)%nat -> py_nth X i = Ok (nth i X d).
Proof. intro L. unfold py_nth. now rewrite (nth_error_nth' X d L). Qed.

Lemma mapM_column {A} (d : A) preds i n : (i < n)%nat -> Forall (fun X => length X = n) preds ->
  mapM (fun X => py_nth X i) preds = Ok (column d preds i).
Proof.
  intros L F. induction F as [|X preds E F IH]; [reflexivity|]. cbn [mapM column map]. rewrite (py_nth_default d) by lia. cbn [bind].
  unfold column in IH. rewrite IH. reflexivity.
Qed.

Lemma mapM_pure {A B} (f : A -> res B) (g : A -> B) l : (forall a, In a l -> f a = Ok (g a)) -> mapM f l = Ok (map g l).
Proof.
  induction l as [|a l IH]; intro H; [reflexivity|]. cbn [mapM map]. rewrite (H a (or_introl eq_refl)). cbn [bind].
  rewrite IH by (intros b J; apply H; now right). reflexivity.
Qed.

Lemma total_qsum l : qsum l = total l.
Proof. reflexivity. Qed.

Lemma total_perm l l' : Permutation l l' -> (total l == total l')%Q.
Proof. unfold total. induction 1; cbn [fold_right]; lra. Qed.

Lemma mapM_range {B} (f : nat -> res B) n : (forall i, (i < n)%nat -> exists b, f i = Ok b) ->
  exists r, mapM f (range n) = Ok r /\ length r = n /\ forall i b, (i < n)%nat -> f i = Ok b -> nth_error r i = Some b.
Proof.
  intro H. destruct (mapM_each f (fun i b => f i = Ok b) (range n)) as (r & E & F).
  { intros i J. apply in_range in J. destruct (H i J) as (b & E). eauto. }
  exists r. split; auto. pose proof (Forall2_length_eq _ _ _ F) as L. unfold range in L. rewrite seq_length in L. split; auto.
  intros i b I EB. assert (EJ : nth_error (range n) i = Some i).
  { unfold range. rewrite (nth_error_nth' _ 0%nat) by (rewrite seq_length; lia). rewrite seq_nth by lia. reflexivity. }
  destruct (Forall2_nth_error _ _ _ F i i EJ) as (c & Ec & EF). congruence.
Qed.

(** ** Votes *)
Lemma counter_fst votes v : In v (map fst (counter votes)) <-> In v votes.
Proof.
  induction votes as [|x votes IH]; [reflexivity|]. cbn [counter map fst In]. rewrite <- IH. clear IH. split.
  - intros [<-|J]; [now left|]. right. apply in_map_iff in J. destruct J as (e & <- & J). apply filter_In in J. apply in_map. tauto.
  - intros [<-|J]; [now left|]. destruct (Z.eq_dec x v) as [->|N]; [now left|right]. apply in_map_iff in J. destruct J as (e & <- & J).
    apply in_map, filter_In. split; auto. apply negb_true_iff, Z.eqb_neq. auto.
Qed.

Lemma counter_NoDup votes : NoDup (map fst (counter votes)).
Proof.
  induction votes as [|x votes IH]; [constructor|]. cbn [counter map fst]. constructor.
  - intro J. apply in_map_iff in J. destruct J as (e & E & J). apply filter_In in J. rewrite negb_true_iff, Z.eqb_neq in J. intuition.
  - clear - IH. induction (counter votes) as [|e l IHl]; [constructor|]. cbn [filter]. inversion IH as [|? ? N1 N2]; subst. destruct (negb (x =? fst e)); auto.
    cbn [map]. constructor; auto. intro J. apply N1. apply in_map_iff in J. destruct J as (e' & <- & J). apply filter_In in J. apply in_map. tauto.
Qed.

Lemma count_is votes v : count (Z.eqb v) votes = count_occ Z.eq_dec votes v.
Proof.
  unfold count. induction votes as [|x votes IH]; [reflexivity|]. cbn [filter count_occ].
  destruct (Z.eqb_spec v x) as [H|H]; destruct (Z.eq_dec x v) as [E|E]; try congruence; cbn [length]; congruence.
Qed.

Lemma counter_snd votes v c : In (v, c) (counter votes) -> c = count_occ Z.eq_dec votes v.
Proof.
  revert v c. induction votes as [|x votes IH]; intros v c J; [destruct J|]. cbn [counter] in J. destruct J as [E|J].
  - injection E as <- <-. cbn. destruct (Z.eq_dec x x); [|congruence]. f_equal. apply count_is.
  - apply filter_In in J. cbn [fst] in J. destruct J as [J N]. apply negb_true_iff, Z.eqb_neq in N. cbn. destruct (Z.eq_dec x v); [congruence|]. auto.
Qed.

Lemma counter_terms {B} (f : nat -> B) votes : map (fun e => f (snd e)) (counter votes) = map (fun v => f (count_occ Z.eq_dec votes v)) (map fst (counter votes)).
Proof. rewrite map_map. apply map_ext_in. intros [v c] J. cbn. now rewrite (counter_snd votes v c J). Qed.

(** ** The inequality behind the divergence *)
Lemma Qsq x : (0 <= x * x)%Q.
Proof. destruct x as [n d]. unfold Qle. cbn. nia. Qed.
Lemma Qsq_pos x : ~ (x == 0)%Q -> (0 < x * x)%Q.
Proof. destruct x as [n d]. unfold Qlt, Qeq. cbn. nia. Qed.

Section Kl.
  Variable lg : Q -> Q.
  Hypothesis LG : forall x, (0 < x)%Q -> (1 - 1 / x <= lg x)%Q.
  Let e := (1 # 1000000000)%Q.
  Let f (c : Q) := (c / (c + e))%Q.

  Lemma kl_term p c : (0 <= p)%Q -> (0 <= c)%Q -> (f c * (p - c) <= p * lg ((p + e) / (c + e)))%Q /\
    (~ p == c -> f c * (p - c) < p * lg ((p + e) / (c + e)))%Q.
  Proof.
    intros P C. assert (E : (0 < e)%Q) by reflexivity. assert (PE : (0 < p + e)%Q) by lra. assert (CE : (0 < c + e)%Q) by lra.
    assert (D : (0 < (p + e) / (c + e))%Q) by (apply Qlt_shift_div_l; lra).
    pose proof (LG _ D) as G. assert (I : (1 / ((p + e) / (c + e)) == (c + e) / (p + e))%Q) by (field; split; lra). rewrite I in G.
    assert (A1 : (p * (1 - (c + e) / (p + e)) <= p * lg ((p + e) / (c + e)))%Q).
    { rewrite !(Qmult_comm p). apply Qmult_le_compat_r; auto. }
    assert (A2 : (p * (1 - (c + e) / (p + e)) == f c * (p - c) + (p - c) * (p - c) * (e / ((p + e) * (c + e))))%Q).
    { unfold f. field. split; lra. }
    assert (A3 : (0 <= (p - c) * (p - c))%Q) by apply Qsq.
    assert (A4 : (0 < e / ((p + e) * (c + e)))%Q) by (apply Qlt_shift_div_l; [apply Qmult_lt_0_compat; auto|lra]).
    assert (A5 : ~ p == c -> (0 < (p - c) * (p - c))%Q).
    { intro N. apply Qsq_pos. intro Z0. apply N. lra. }
    set (X := (p * (1 - (c + e) / (p + e)))%Q) in *. set (Y := (f c * (p - c))%Q) in *. set (W := (p * lg ((p + e) / (c + e)))%Q) in *.
    set (S := ((p - c) * (p - c))%Q) in *. set (k := (e / ((p + e) * (c + e)))%Q) in *. clearbody X Y W S k. clear - A1 A2 A3 A4 A5. split.
    - assert (0 <= S * k)%Q by (apply Qmult_le_0_compat; lra). lra.
    - intro N. assert (0 < S * k)%Q by (apply Qmult_lt_0_compat; auto). lra.
  Qed.

  Lemma kl_sum c : (0 <= c)%Q -> forall ps, Forall (fun p => (0 <= p)%Q) ps ->
    (f c * (total ps - inject_Z (Z.of_nat (length ps)) * c) <= total (map (fun p => p * lg ((p + e) / (c + e))) ps))%Q /\
    ((exists p, In p ps /\ ~ p == c)%Q ->
     f c * (total ps - inject_Z (Z.of_nat (length ps)) * c) < total (map (fun p => p * lg ((p + e) / (c + e))) ps))%Q.
  Proof.
    intros C ps F. unfold total. induction F as [|p ps P F [IH1 IH2]].
    - cbn [length map fold_right Z.of_nat]. assert (H : (f c * (0 - inject_Z 0 * c) == 0)%Q) by (unfold inject_Z; ring).
      rewrite H. split; [lra|]. intros (p & [] & _).
    - destruct (kl_term p c P C) as [T1 T2]. cbn [length map fold_right]. rewrite Nat2Z.inj_succ. unfold Z.succ. rewrite inject_Z_plus.
      set (n := inject_Z (Z.of_nat (length ps))) in *. set (t := fold_right Qplus 0%Q ps) in *.
      set (r := fold_right Qplus 0%Q (map _ ps)) in *. set (a := (p * lg ((p + e) / (c + e)))%Q) in *.
      assert (X : (f c * (p + t - (n + inject_Z 1) * c) == f c * (p - c) + f c * (t - n * c))%Q) by (unfold inject_Z; ring).
      rewrite X. split; [lra|]. intros (q & J & N). destruct (Qeq_dec p c) as [E|E].
      + assert (exists p, In p ps /\ ~ p == c)%Q as H by (destruct J as [<-|J]; [contradiction|eauto]). specialize (IH2 H). lra.
      + specialize (T2 E). lra.
  Qed.

  Lemma total_nonneg ps : Forall (fun p => (0 <= p)%Q) ps -> (0 <= total ps)%Q.
  Proof. unfold total. induction 1; cbn [fold_right]; lra. Qed.

  (** For one class: the divergence of the members from their mean. *)
  Lemma kl_class ps : ps <> [] -> Forall (fun p => (0 <= p)%Q) ps ->
    let c := (total ps / inject_Z (Z.of_nat (length ps)))%Q in
    (0 <= total (map (fun p => p * lg ((p + e) / (c + e))) ps))%Q /\
    ((exists p q, In p ps /\ In q ps /\ ~ p == q)%Q -> 0 < total (map (fun p => p * lg ((p + e) / (c + e))) ps))%Q.
  Proof.
    intros NE F c. assert (K : (0 < inject_Z (Z.of_nat (length ps)))%Q).
    { destruct ps; [contradiction|]. cbn [length]. unfold inject_Z, Qlt. cbn. lia. }
    assert (C : (0 <= c)%Q) by (apply Qle_shift_div_l; [auto|]; pose proof (total_nonneg ps F); lra).
    assert (Z1 : (total ps - inject_Z (Z.of_nat (length ps)) * c == 0)%Q) by (unfold c; field; lra).
    assert (Z0 : (f c * (total ps - inject_Z (Z.of_nat (length ps)) * c) == 0)%Q) by (rewrite Z1; ring).
    destruct (kl_sum c C ps F) as [S1 S2]. rewrite Z0 in S1, S2. split; auto. intros (p & q & P & Q0 & N). apply S2.
    destruct (Qeq_dec p c) as [E|E]; [|eauto]. exists q. split; auto. intro E2. apply N. now rewrite E, E2.
  Qed.
End Kl.
