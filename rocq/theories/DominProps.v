(** C88: CEAL never asks an oracle when a cheaper one is right about every instance it is right about. *)
From Verif Require Import Base IndexModel IndexProofs OracleModel OracleSpec MiscModel MiscSpec MetricSpec QueryModel QuerySpec QueryProofs
  QueryProofs2 QueryNumpy NoisyModel NoisySpec NoisyProofs NoisyProps.
From Coq Require Import String QArith Lqa.
Local Open Scope Z_scope.

Lemma skills y ini o : forall nn ws, Forall2 (fun e w => exists z, nth_error ini (fst e) = Some z /\ ((correct y o z /\ w = snd e) \/ (~ correct y o z /\ w = 0%Q))) nn ws ->
  (forall p d, In (p, d) nn -> (0 < d)%Q) ->
  (0 <= total ws)%Q /\ (forall p d z, In (p, d) nn -> nth_error ini p = Some z -> correct y o z -> (0 < total ws)%Q).
Proof.
  intros nn ws F. induction F as [|[p d] w nn' ws' (z & Ez & H) F IH]; intro P; [split; [cbn; lra|intros p d z []]|].
  destruct (IH (fun p d I => P p d (or_intror I))) as [A B]. pose proof (P p d (or_introl eq_refl)) as D. cbn [total fold_right fst snd] in *. fold (total ws').
  split; [destruct H as [[_ ->]|[_ ->]]; lra|]. intros p' d' z' [E|I] Ez' C.
  - injection E as -> ->. rewrite Ez in Ez'. injection Ez' as ->. destruct H as [[_ ->]|[N _]]; [lra|contradiction].
  - specialize (B p' d' z' I Ez' C). destruct H as [[_ ->]|[_ ->]]; lra.
Qed.
Lemma skills_le y ini a b : (forall z, In z ini -> correct y a z -> correct y b z) -> forall nn wa wb,
  Forall2 (fun e w => exists z, nth_error ini (fst e) = Some z /\ ((correct y a z /\ w = snd e) \/ (~ correct y a z /\ w = 0%Q))) nn wa ->
  Forall2 (fun e w => exists z, nth_error ini (fst e) = Some z /\ ((correct y b z /\ w = snd e) \/ (~ correct y b z /\ w = 0%Q))) nn wb ->
  (forall p d, In (p, d) nn -> (0 < d)%Q) -> (total wa <= total wb)%Q.
Proof.
  intros AB nn wa wb FA. revert wb. induction FA as [|[p d] w nn' wa' (z & Ez & H) FA IH]; intros wb FB P; inversion FB as [|? w' ? wb' (z' & Ez' & H') FB']; subst; [cbn; lra|].
  specialize (IH wb' FB' (fun p d I => P p d (or_intror I))). pose proof (P p d (or_introl eq_refl)) as D. cbn [total fold_right fst snd] in *. fold (total wa'). fold (total wb').
  rewrite Ez in Ez'. injection Ez' as <-. pose proof (AB z (nth_error_In _ _ Ez)) as K.
  destruct H as [[C ->]|[_ ->]], H' as [[_ ->]|[N ->]]; try lra. exfalso. auto.
Qed.

Theorem C88_dominated : forall dist np y c ini knn L U cols predict given ev na nb a b ca cb x, numpy_ok np ->
  let k := neighbours_used given ini in
  ready dist y ini knn c L U cols predict k ->
  (forall x z, In x U -> In z ini -> (0 < dist x z)%Q) -> Forall (Forall (fun q => q < 1)%Q) predict ->
  In na (iterset c) -> member c na = Ok a -> In nb (iterset c) -> member c nb = Ok b ->
  (forall z, In z ini -> correct y a z -> correct y b z) -> price a L ca -> price b L cb -> (cb < ca)%Q -> ((1 # 10000) < ca)%Q ->
  (exists n o x p d z, In n (iterset c) /\ member c n = Ok o /\ In x U /\ In (p, d) (knn (Z.to_nat k) x) /\ nth_error ini p = Some z /\ correct y o z) ->
  ceal_by_mat np (new_ceal y c ini knn) c L U cols predict given ev <> Ok ([x], [na]).
Proof.
  intros dist np y c ini knn L U cols predict given ev na nb a b ca cb x NP k RD DP LT IA MA IB MB AB PA PB CC C4 EX E.
  pose proof RD as RD0. destruct RD0 as (LU & LP & _ & _ & K0 & NN & _).
  destruct (C88_choice dist np y c ini knn L U cols predict given ev NP RD) as (v & i & j & x' & name & VT & BC & EXj & EN & E').
  rewrite E in E'. injection E' as <- <-. fold k in VT. destruct BC as (I1 & J1 & BC).
  assert (P1 : forall row p, In row predict -> largest row p -> (p < 1)%Q).
  { intros row p R [I _]. rewrite Forall_forall in LT. specialize (LT row R). rewrite Forall_forall in LT. auto. }
  assert (DD : forall x, In x U -> forall p d, In (p, d) (knn (Z.to_nat k) x) -> (0 < d)%Q).
  { intros x0 X p d I. destruct (NN x0 X) as (_ & _ & NE & _). destruct (NE p d I) as (z & Ez & ->). apply DP; [auto|eapply nth_error_In; eauto]. }
  assert (KP : forall x, In x U -> (0 < nat_q (List.length (knn (Z.to_nat k) x)))%Q).
  { intros x0 X. destruct (NN x0 X) as (LN & _). rewrite LN. unfold nat_q. rewrite <- (Zlt_Qlt 0). lia. }
  assert (V0 : (0 < v i j)%Q).
  { destruct EX as (n & o & x0 & p & d & z & IN & MO & X0 & ID & Ez & CO). destruct (In_nth_error _ _ IN) as [i0 Ei0]. destruct (In_nth_error _ _ X0) as [j0 Ej0].
    destruct (nth_error predict j0) as [row|] eqn:ER. 2:{ apply nth_error_None in ER. assert (j0 < List.length U)%nat by (apply nth_error_Some; congruence). lia. }
    destruct (VT i0 j0 n o x0 row Ei0 MO Ej0 ER) as (q & pp & cc & m & (ws & F & Q1) & LG & _ & MM & V).
    assert (V1 : (0 < v i0 j0)%Q).
    { rewrite V. pose proof (larger_pos _ _ MM). apply Qlt_shift_div_l; auto. setoid_replace (0 * m)%Q with 0%Q by ring. pose proof (P1 row pp (nth_error_In _ _ ER) LG).
      apply Qmult_lt_0_compat; [|lra]. rewrite Q1. apply Qlt_shift_div_l; [now apply KP|]. setoid_replace (0 * nat_q (List.length (knn (Z.to_nat k) x0)))%Q with 0%Q by ring.
      exact (proj2 (skills y ini o _ _ F (DD x0 X0)) p d z ID Ez CO). }
    destruct (BC i0 j0) as [H|[H _]]; [apply nth_error_Some; congruence|apply nth_error_Some; congruence|lra|lra]. }
  pose proof (nth_error_In _ _ EXj) as XU.
  destruct (nth_error predict j) as [row|] eqn:ER; [|apply nth_error_None in ER; lia]. destruct (In_nth_error _ _ IB) as [ib Eb].
  destruct (VT i j na a x row EN MA EXj ER) as (qa & pa & ca' & ma & (wa & FA & QA) & LA & PRA & LMA & VA).
  destruct (VT ib j nb b x row Eb MB EXj ER) as (qb & pb & cb' & mb & (wb & FB & QB) & LB & PRB & LMB & VB).
  rewrite (price_unique _ _ _ _ PRA PA) in LMA. rewrite (price_unique _ _ _ _ PRB PB) in LMB.
  pose proof (larger_pos _ _ LMA) as MA0. pose proof (larger_pos _ _ LMB) as MB0. pose proof (largest_unique _ _ _ LA LB) as EP.
  pose proof (P1 row pa (nth_error_In _ _ ER) LA) as PP.
  assert (MM : (mb < ma)%Q). { unfold larger in *. destruct LMA as [[X1 X2]|[X1 X2]], LMB as [[Y1 Y2]|[Y1 Y2]]; lra. }
  pose proof (skills_le y ini a b AB _ _ _ FA FB (DD x XU)) as TT.
  assert (QQ : (qa <= qb)%Q).
  { rewrite QA, QB. unfold Qdiv. apply Qmult_le_compat_r; [auto|]. apply Qlt_le_weak, Qinv_lt_0_compat, KP, XU. }
  assert (QP : (0 < qa)%Q).
  { destruct (Qlt_le_dec 0 qa) as [H|H]; [auto|exfalso]. assert (v i j <= 0)%Q; [|lra]. rewrite VA. apply Qle_shift_div_r; [auto|].
    setoid_replace (0 * ma)%Q with 0%Q by ring. assert (K : (0 <= (- qa) * (1 - pa))%Q) by (apply Qmult_le_0_compat; lra). lra. }
  assert (LV : (v i j < v ib j)%Q).
  { rewrite VA, VB, <- EP. apply Qlt_shift_div_l; [auto|]. setoid_replace (qa * (1 - pa) / ma * mb)%Q with (qa * (1 - pa) * (mb / ma))%Q by (field; lra).
    assert (R : (mb / ma < 1)%Q) by (apply Qlt_shift_div_r; lra). assert (W : (0 < qa * (1 - pa))%Q) by (apply Qmult_lt_0_compat; lra).
    apply Qlt_le_trans with (qa * (1 - pa) * 1)%Q; [apply Qmult_lt_l; auto|]. rewrite Qmult_1_r. apply Qmult_le_compat_r; lra. }
  destruct (BC ib j) as [H|[H _]]; [apply nth_error_Some; congruence|auto|lra|lra].
Qed.
Print Assumptions C88_dominated.

(** Oracle 0 is right about instance 0 and asks 2, oracle 1 is right about 0 and 1 and asks 1. *)
Definition priced (ls : list Z) (c : Q) : oracle :=
  match or_init (map KInt ls) None None (Some (map (fun _ => c) ls)) with Ok o => o | Err _ => {| o_type := TInt; o_inst := false; o_costf := false; o_exa := []; o_ind := [] |} end.
Definition dear := priced [1; 0; 0] 2. Definition cheap := priced [1; 1; 0] 1.
Lemma ready2 : ready dist1 y1 [0; 1; 2] knn1 (Listed [dear; cheap]) [0] [3; 4] 2 pred1 2.
Proof.
  assert (KN : forall o, o = dear \/ o = cheap -> Forall (knows o) [0; 1; 2] /\ Forall (knows o) [0]).
  { intros o [-> | ->]; split; repeat constructor; do 2 eexists; vm_compute; reflexivity. }
  destruct ready1 as (A & B & C & D & E & F & G & H & _). repeat (split; [assumption|]). split; [discriminate|].
  repeat constructor; [exists dear|exists cheap]; (split; [reflexivity|]); apply KN; auto.
Qed.
Example C88_dominated_case : ready dist1 y1 [0; 1; 2] knn1 (Listed [dear; cheap]) [0] [3; 4] 2 pred1 2 /\
  (forall x z, In x [3; 4] -> In z [0; 1; 2] -> (0 < dist1 x z)%Q) /\ Forall (Forall (fun q => q < 1)%Q) pred1 /\
  (forall z, In z [0; 1; 2] -> correct y1 dear z -> correct y1 cheap z) /\ price dear [0] 2 /\ price cheap [0] 1 /\ correct y1 dear 0 /\
  ceal_by_mat (np0 (fun x => x)) (new_ceal y1 (Listed [dear; cheap]) [0; 1; 2] knn1) (Listed [dear; cheap]) [0] [3; 4] 2 pred1 (Some 2) None = Ok ([3], [KInt 1]).
Proof.
  split; [exact ready2|]. split; [intros x z _ [<-|[<-|[<-|[]]]]; reflexivity|]. split; [repeat constructor|]. split.
  - intros z [<-|[<-|[<-|[]]]] H; [apply is_correct; vm_compute; reflexivity|apply is_correct; vm_compute; reflexivity|].
    exfalso. revert H. eapply not_correct; [vm_compute; reflexivity|vm_compute; discriminate].
  - split; [exists 0, [], (KInt 1); split; vm_compute; reflexivity|]. split; [exists 0, [], (KInt 1); split; vm_compute; reflexivity|].
    split; [apply is_correct; vm_compute; reflexivity|vm_compute; reflexivity].
Qed.
