(** Theorems about AURO, which asks which of two labels of an instance is more relevant: C91. *)
From Coq Require Import String.
From Verif Require Import Base BaseFacts IndexModel IndexSpec IndexProofs MLModel MLSpec MLProofs MLProofs2 MLProofs3 MLProps MiscModel MiscSpec QueryModel
  QuerySpec QueryProofs QueryProofs2 QueryProofs5 MetricModel MLQueryModel MLQuerySpec MLQueryProofs MLQueryProps AuroModel AuroSpec AuroProofs.
From Coq Require Import QArith Qabs Qfield Lqa.
Local Open Scope Z_scope.

(** ** C91. The choice: the first of the instances with most unlabelled labels, and two different labels. The second is
    unlabelled. For finite scores the first is unlabelled too and has the highest score of the unlabelled labels, and
    the second is, of the other unlabelled labels, one closest to the dummy. The model used is kept in the strategy. *)
Theorem C91_choice : forall B M argsort fit (scores : M -> list B -> nat * list (list fl)) X y m st L U l u model y_mat a t ids xs,
  sorts argsort -> length X = length y ->
  pool_of (length y) m U u -> pool_of (length y) m L l -> (2 <= ml_pool_len U)%nat ->
  model_used fit X y m l st model y_mat a t ->
  with_two (length y) u ids -> ids <> [] -> rows_of X ids xs -> score_shape (length ids) m (scores t xs) ->
  exists r i y1 y2 pres,
    nth_error ids r = Some i /\ nth_error (map lr_scores (snd (scores t xs))) r = Some pres /\
    auro_select argsort fit scores X y m st L U model y_mat =
      ({| heap := set_nth a (Some t) (heap st); own := a |}, Ok (APick i y1 y2)) /\
    least_queried u i /\ (y1 < m)%nat /\ y1 <> y2 /\ In (i, Z.of_nat y2) (pairs u) /\
    (all_finite pres ->
      In (i, Z.of_nat y1) (pairs u) /\
      (forall j q q1, In (i, Z.of_nat j) (pairs u) -> nth_error pres j = Some (Num q) -> nth_error pres y1 = Some (Num q1) -> (q <= q1)%Q) /\
      (forall j d d', In (i, Z.of_nat j) (pairs u) -> j <> y1 -> dummy_distance pres y2 d -> dummy_distance pres j d' -> (d <= d')%Q)).
Proof.
  intros B M argsort fit scores X y m st L U l u model y_mat a t ids xs Hs HX (U1 & U2 & U3) (L1 & L2 & L3) NU.
  now apply (select_choice argsort fit scores X y m st L U l u model y_mat Hs HX U1 L1 U2 U3 NU).
Qed.
Print Assumptions C91_choice.

(** Refuted: "while pairs are unlabelled, a pair of labels is chosen". When no instance has two unlabelled labels the call
    raises ValueError, after the model has been trained. *)
Theorem C91_none_refuted : forall B M argsort fit (scores : M -> list B -> nat * list (list fl)) X y m st L U l u model y_mat a t,
  sorts argsort -> length X = length y ->
  pool_of (length y) m U u -> pool_of (length y) m L l -> (2 <= ml_pool_len U)%nat ->
  model_used fit X y m l st model y_mat a t -> (forall i, (pairs_of u i <= 1)%nat) -> (fst (scores t []) mod num_sub = 0)%nat ->
  auro_select argsort fit scores X y m st L U model y_mat = ({| heap := set_nth a (Some t) (heap st); own := a |}, Err ValueErr).
Proof.
  intros B M argsort fit scores X y m st L U l u model y_mat a t Hs HX (U1 & U2 & U3) (L1 & L2 & L3) NU.
  now apply (select_none argsort fit scores X y m st L U l u model y_mat HX U1 L1 U2 U3 NU).
Qed.
Print Assumptions C91_none_refuted.

(** A pool with at most one entry is returned as it is and nothing changes, *)
Theorem C91_few : forall B M argsort fit (scores : M -> list B -> nat * list (list fl)) X y m st L U model y_mat,
  (ml_pool_len U <= 1)%nat -> auro_select argsort fit scores X y m st L U model y_mat = (st, Ok ARest).
Proof. intros. unfold auro_select. replace (ml_pool_len U <=? 1)%nat with true by lia. reflexivity. Qed.
Print Assumptions C91_few.

(** even where that entry stands for all the labels of an instance, which can be asked for: refuted "when an instance
    with two unlabelled labels is in the pool, two labels are chosen". *)
Theorem C91_whole_instance_refuted : forall n m, (2 <= m)%nat -> (0 < n)%nat ->
  exists U u, pool_of n m U u /\ pairs_of u 0 = m /\
  forall B M argsort fit (scores : M -> list B -> nat * list (list fl)) X y st L model y_mat,
    auro_select argsort fit scores X y m st L U model y_mat = (st, Ok ARest).
Proof.
  intros n m Hm Hn. destruct (proj1 (C05_construction [IOne 0] (Z.of_nat m) ltac:(discriminate) ltac:(lia)) eq_refl) as (c & w & E & Rc & Nd & I & _).
  exists (MPList [IOne 0]), c. split; [|split].
  - split; [|split; [exact Rc|]].
    + cbn [check_ml_ind]. now rewrite E.
    + intros p Hp. apply I in Hp. destruct Hp as (x & [<-|[]] & D). cbn in D. destruct p. cbn in *. lia.
  - unfold pairs_of. rewrite <- (seq_length m 0), <- (map_length (fun j => (0, Z.of_nat j))). apply Permutation_length, NoDup_Permutation.
    + now apply NoDup_filter.
    + apply FinFun.Injective_map_NoDup; [|apply seq_NoDup]. intros a b H. injection H as H. lia.
    + intros [i j]. rewrite filter_In, in_map_iff. split.
      * intros [Hp _]. apply I in Hp. destruct Hp as (x & [<-|[]] & D). cbn in D. exists (Z.to_nat j). rewrite in_seq. split; [|lia]. f_equal; lia.
      * intros (b & H & Hb). injection H as <- <-. rewrite in_seq in Hb. split; [|reflexivity]. apply I. exists (IOne 0). split; [now left|]. cbn. lia.
  - intros. apply C91_few. cbn. lia.
Qed.
Print Assumptions C91_whole_instance_refuted.

(** Refuted: "[y_mat] is the label matrix used for training": with a model given it is not used at all. *)
Theorem C91_y_mat_refuted : forall B M argsort fit (scores : M -> list B -> nat * list (list fl)) X y m st L U b y_mat y_mat',
  auro_select argsort fit scores X y m st L U (Some b) y_mat = auro_select argsort fit scores X y m st L U (Some b) y_mat'.
Proof. intros. destruct y_mat, y_mat'; reflexivity. Qed.
Print Assumptions C91_y_mat_refuted.

Lemma outcome {B M} argsort fit (scores : M -> list B -> nat * list (list fl)) X y m st L U model y_mat st' r :
  auro_select argsort fit scores X y m st L U model y_mat = (st', r) ->
  (own st' = own st \/ model = Some (own st')) /\ length (heap st') = length (heap st) /\
  forall b, b <> own st' -> nth_error (heap st') b = nth_error (heap st) b.
Proof.
  unfold auro_select. destruct (ml_pool_len U <=? 1)%nat; [intro H; injection H as <- <-; auto|].
  match goal with |- context [match ?c with Ok _ => _ | Err _ => _ end] => destruct c as [[[[l W] rows] data]|e]; [|intro H; injection H as <- <-; auto] end.
  set (st1 := match model with Some a => _ | None => st end).
  assert (S1 : (own st1 = own st \/ model = Some (own st1)) /\ heap st1 = heap st) by (unfold st1; destruct model; cbn; auto).
  destruct S1 as [S1 S2]. clearbody st1.
  match goal with |- context [match ?c with Ok _ => _ | Err _ => _ end = _] => destruct c as [t|e] end; intro H; injection H as <- <-; cbn [heap own]; rewrite ?S2.
  - split; [auto|]. split; [apply set_nth_length|]. intros b Hb. rewrite nth_error_set_nth. destruct (Nat.eqb_spec b (own st1)); [contradiction|auto].
  - auto.
Qed.

(** Whatever happens: the strategy's model is the one it had or the one passed, and no other model changes. *)
Theorem C91_frame : forall B M argsort fit (scores : M -> list B -> nat * list (list fl)) X y m st L U model y_mat st' r,
  auro_select argsort fit scores X y m st L U model y_mat = (st', r) ->
  (own st' = own st \/ model = Some (own st')) /\ length (heap st') = length (heap st) /\
  forall b, b <> own st' -> nth_error (heap st') b = nth_error (heap st) b.
Proof. intros. eapply outcome; eauto. Qed.
Print Assumptions C91_frame.

(** Refuted: "if no model is passed, the strategy trains its default model, and a model passed earlier stays as it was". A
    model passed once is trained again, in place, by the next call without a model; the default model is not used again. *)
Theorem C91_passed_model_refuted : forall B M argsort fit (scores : M -> list B -> nat * list (list fl)) X y m st L U l u b t y_mat L' U' l' u' y_mat' t' ids xs,
  sorts argsort -> length X = length y ->
  pool_of (length y) m U u -> pool_of (length y) m L l -> (2 <= ml_pool_len U)%nat ->
  pool_of (length y) m U' u' -> pool_of (length y) m L' l' -> (2 <= ml_pool_len U')%nat ->
  b <> own st -> nth_error (heap st) b = Some (Some t) ->
  trains fit X (match y_mat' with Some ym => ym | None => y end) m l' (Some t) t' ->
  with_two (length y) u' ids -> ids <> [] -> rows_of X ids xs -> score_shape (length ids) m (scores t' xs) ->
  let st1 := fst (auro_select argsort fit scores X y m st L U (Some b) y_mat) in
  let second := auro_select argsort fit scores X y m st1 L' U' None y_mat' in
  heap st1 = heap st /\
  nth_error (heap (fst second)) b = Some (Some t') /\ nth_error (heap (fst second)) (own st) = nth_error (heap st) (own st) /\
  own (fst second) = b /\ exists i y1 y2, snd second = Ok (APick i y1 y2).
Proof.
  intros B M argsort fit scores X y m st L U l u b t y_mat L' U' l' u' y_mat' t' ids xs Hs HX PU PL NU PU' PL' NU' Nb Hb Tr T NE RX SS.
  assert (E1 : fst (auro_select argsort fit scores X y m st L U (Some b) y_mat) = {| heap := heap st; own := b |}).
  { destruct PU as (U1 & U2 & U3). destruct PL as (L1 & L2 & L3).
    assert (MU : model_used fit X y m l st (Some b) y_mat b t) by (cbn; auto).
    destruct (select_run argsort fit scores X y m st L U l u (Some b) y_mat HX U1 L1 U2 U3 NU b t MU) as (W & rows & xs' & _ & _ & _ & _ & _ & ->).
    cbn [fst]. f_equal. apply nth_error_same. intro k. rewrite nth_error_set_nth. destruct (Nat.eqb_spec k b) as [->|N]; [|reflexivity].
    destruct (b <? length (heap st))%nat eqn:Lb; [now rewrite Hb|]. exfalso. assert (nth_error (heap st) b <> None) as Q by congruence. apply nth_error_Some in Q. lia. }
  cbn zeta. rewrite E1. cbn [heap own]. set (st1 := {| heap := heap st; own := b |}).
  assert (MU : model_used fit X y m l' st1 None y_mat' b t') by (cbn; split; [auto|]; exists (Some t); auto).
  destruct (C91_choice B M argsort fit scores X y m st1 L' U' l' u' None y_mat' b t' ids xs Hs HX PU' PL' NU' MU T NE RX SS) as (r & i & y1 & y2 & pres & _ & _ & E & _).
  rewrite E. cbn [fst snd heap own st1].
  assert (Lb : (b < length (heap st))%nat) by (apply nth_error_Some; congruence).
  split; [reflexivity|]. split; [|split; [|split; [reflexivity|eauto]]].
  - rewrite nth_error_set_nth, Nat.eqb_refl. now apply Nat.ltb_lt in Lb as ->.
  - rewrite nth_error_set_nth. destruct (Nat.eqb_spec (own st) b); [congruence|reflexivity].
Qed.
Print Assumptions C91_passed_model_refuted.

(** The query types. *)
Theorem C91_types : forall s, check_query_type s = true <-> s = "AllLabels"%string \/ s = "PartLabels"%string \/ s = "Features"%string.
Proof.
  intro s. unfold check_query_type. rewrite existsb_exists. split.
  - intros (x & I & E). apply String.eqb_eq in E. subst x. cbn in I. intuition.
  - intro H. exists s. rewrite String.eqb_refl. cbn. intuition.
Qed.
Print Assumptions C91_types.

(** Sorting with the required properties exists: insertion sort. *)
Fixpoint ins_pos (d : list fl) (k : nat) (l : list nat) : list nat :=
  match l with [] => [k] | j :: l' => if fl_lt (nth j d NaN) (nth k d NaN) then j :: ins_pos d k l' else k :: l end.
Definition ins_sort (d : list fl) : list nat := fold_right (ins_pos d) [] (range (length d)).

Lemma ins_pos_perm d k l : Permutation (ins_pos d k l) (k :: l).
Proof. induction l as [|j l IH]; cbn; [auto|]. destruct (fl_lt _ _); [|auto]. rewrite IH. apply perm_swap. Qed.
Lemma ins_pos_sorted d k l : (forall j, In j (k :: l) -> nth j d NaN <> NaN) ->
  StronglySorted (fun a b => fl_lt (nth b d NaN) (nth a d NaN) = false) l ->
  StronglySorted (fun a b => fl_lt (nth b d NaN) (nth a d NaN) = false) (ins_pos d k l).
Proof.
  intros NN S. induction S as [|j l SS IH F]; cbn; [repeat constructor|]. destruct (fl_lt (nth j d NaN) (nth k d NaN)) eqn:E.
  - constructor; [apply IH; intros i [->|Hi]; apply NN; [now left|now right; right]|]. rewrite Forall_forall in *. intros i Hi. apply (Permutation_in _ (ins_pos_perm d k l)) in Hi.
    destruct Hi as [<-|Hi]; [now apply fl_lt_asym|auto].
  - constructor; [now constructor|]. constructor; [exact E|]. rewrite Forall_forall in *. intros i Hi. apply (fl_nlt_trans _ (nth j d NaN)); [apply NN; now right; left|exact E|auto].
Qed.
Lemma ins_sort_ok : sorts ins_sort.
Proof.
  intro d. unfold ins_sort. split.
  - induction (range (length d)) as [|k l IH]; cbn; [auto|]. rewrite ins_pos_perm. now constructor.
  - intros NN. assert (S : StronglySorted (fun a b => fl_lt (nth b d NaN) (nth a d NaN) = false) (fold_right (ins_pos d) [] (range (length d))) /\
      forall j, In j (fold_right (ins_pos d) [] (range (length d))) -> In j (range (length d))).
    { assert (R : forall j, In j (range (length d)) -> nth j d NaN <> NaN). { intros j Hj. unfold range in Hj. apply in_seq in Hj. apply NN, nth_In. lia. }
      revert R. induction (range (length d)) as [|k l IH]; cbn; intro R; [split; [constructor|auto]|]. destruct (IH (fun j Hj => R j (or_intror Hj))) as [I1 I2]. split.
      - apply ins_pos_sorted; [|exact I1]. intros j [->|Hj]; apply R; [now left|right; auto].
      - intros j Hj. apply (Permutation_in _ (ins_pos_perm d k _)) in Hj. destruct Hj as [->|Hj]; [now left|right; auto]. }
    destruct S as [S _]. intros pre a mid b post E. rewrite E in S. clear E. induction pre as [|x pre IH]; cbn in S; inversion S as [|? ? S' F]; subst; [|auto].
    rewrite Forall_forall in F. apply F. apply in_or_app. right. now left.
Qed.

(** Two instances, three labels; instance 1 has most unlabelled labels; its best label is 1, and 2 is closer to the
    dummy than 0. *)
Example C91_witness :
  let y := [[1; 0; 0]; [0; 1; 0]]%Q in
  let U := MPList [IPair 0 1; IPair 1 0; IPair 1 1; IPair 1 2; IPair 0 2] in
  let L := MPList [IPair 0 0] in
  let row := map (fun q => Num q) [1; 0; 0; 0; 0; 9; 0; 0; 0; 0; 2; 0; 0; 0; 0; 3; 0; 0; 0; 0]%Q in
  let scores (t : nat) (xs : list nat) := (20%nat, map (fun _ => row) xs) in
  let fit := (fun (_ : option nat) (_ : list nat) (_ : list (list Q)) => Ok 7%nat) in
  (exists u, pool_of 2 3 U u /\ with_two 2 u [0; 1]) /\ (exists l, pool_of 2 3 L l /\ trains fit [7; 8]%nat y 3 l None 7%nat) /\
  rows_of [7; 8]%nat [0; 1] [7; 8]%nat /\ score_shape 2 3 (scores 7%nat [7; 8]%nat) /\
  auro_select ins_sort fit scores [7; 8]%nat y 3 {| heap := [None]; own := 0 |} L U None None = ({| heap := [Some 7%nat]; own := 0 |}, Ok (APick 1 1 2)).
Proof.
  cbn zeta. split; [|split; [|split; [|split]]].
  - destruct (pool_list 2 3 [IPair 0 1; IPair 1 0; IPair 1 1; IPair 1 2; IPair 0 2]) as (u & P); [discriminate|reflexivity|reflexivity|cbn; intuition; subst; cbn; lia|].
    exists u. split; [exact P|]. destruct P as (E & _). vm_compute in E. injection E as <-. split; [repeat constructor|]. intro i. unfold pairs_of. cbn [pairs mcont].
    split; [intros [<-|[<-|[]]]; (split; [lia|apply Nat.leb_le; vm_compute; reflexivity])|]. intros [H _]. assert (i = 0 \/ i = 1) as [-> | ->] by lia; [now left|now right; left].
  - destruct (pool_list 2 3 [IPair 0 0]) as (l & P); [discriminate|reflexivity|reflexivity|cbn; intuition; subst; cbn; lia|].
    exists l. split; [exact P|]. destruct P as (E & _). vm_compute in E. injection E as <-. eexists _, _, _. split; reflexivity.
  - split; [reflexivity|]. intros [|[|r]] i H; cbn in *; try (injection H as <-; reflexivity). destruct r; discriminate.
  - split; [reflexivity|]. split; [reflexivity|]. intros r Hr. repeat destruct Hr as [<-|Hr]; try reflexivity. destruct Hr.
  - vm_compute. reflexivity.
Qed.
