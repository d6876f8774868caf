(** Proofs about the main loop with AURO: the parts of one round. *)
From Verif Require Import Base BaseFacts SetFacts IndexModel MLModel MLSpec MLProofs MLProofs2 MLProofs3 MLProps MiscModel QueryModel MLQueryModel MLQuerySpec
  MLQueryProofs StateModel StateSpec AuroModel AuroSpec AuroProofs AuroProps MultiLoopProofs CostLoopModel CostLoopSpec CostLoopProofs AuroLoopModel AuroLoopSpec.
From Coq Require Import String QArith Sorted.
Local Open Scope Z_scope.

(** ** Scores *)
Lemma fmax_fold l a : all_finite l -> (exists q, a = Num q) \/ (a = Inf true /\ l <> []) -> exists q, fold_left fl_fmax l a = Num q.
Proof.
  revert a. induction l as [|x l IH]; intros a F H; cbn [fold_left].
  - destruct H as [H|[_ H]]; [exact H|congruence].
  - apply IH; [intros s Hs; apply F; now right|]. left. destruct (F x (or_introl eq_refl)) as [q ->].
    destruct H as [[q' ->]|[-> _]]; cbn [fl_fmax].
    + destruct (fl_lt (Num q') (Num q)); eauto.
    + cbn. eauto.
Qed.

Lemma finite_pres row m : all_finite row -> List.length row = (num_sub * S m)%nat -> all_finite (lr_scores row).
Proof.
  intros F E s Hs. unfold lr_scores in Hs. apply in_map_iff in Hs. destruct Hs as (k & <- & Hk).
  apply in_seq in Hk. rewrite E, Nat.mul_comm, Nat.div_mul in Hk by discriminate.
  apply fmax_fold; [|right; split; [reflexivity|discriminate]].
  intros x Hx. apply in_map_iff in Hx. destruct Hx as (j & <- & Hj). apply in_seq in Hj. apply F. apply nth_In. rewrite E. unfold num_sub in *. lia.
Qed.

(** ** The selection *)
Lemma set_nth_id {A} k (x : A) l : nth_error l k = Some x -> set_nth k x l = l.
Proof. revert k. induction l as [|a l IH]; intros [|k] H; cbn in *; try discriminate; [congruence|]. f_equal. auto. Qed.

Lemma sorted_filter_z (P : Z -> bool) k len : StronglySorted Z.lt (filter P (map Z.of_nat (seq k len))).
Proof.
  revert k. induction len as [|len IH]; intro k; cbn [seq map filter]; [constructor|]. destruct (P (Z.of_nat k)); [|apply IH].
  constructor; [apply IH|]. apply Forall_forall. intros x Hx. apply filter_In in Hx. destruct Hx as [Hx _]. apply in_map_iff in Hx.
  destruct Hx as (j & <- & Hj). apply in_seq in Hj. lia.
Qed.

Lemma rows_exist {B} (X : list B) ids : (forall i, In i ids -> 0 <= i < Z.of_nat (List.length X)) -> exists xs, rows_of X ids xs.
Proof.
  induction ids as [|i ids IH]; intro H.
  - exists []. split; [reflexivity|]. intros [|r] i; discriminate.
  - destruct IH as (xs & L & E); [intros k Hk; apply H; now right|]. specialize (H i (or_introl eq_refl)).
    destruct (nth_error X (Z.to_nat i)) as [x|] eqn:Ex; [|apply nth_error_None in Ex; lia].
    exists (x :: xs). split; [cbn; now rewrite L|]. intros [|r] k Hk; cbn in *; [injection Hk as <-; now rewrite Ex|]. now apply E.
Qed.

Lemma pairs_of_len c i : (pairs_of c i <= List.length (mcont c))%nat.
Proof.
  unfold pairs_of. transitivity (List.length (pairs c)).
  - induction (pairs c) as [|p l IH]; cbn; [lia|]. destruct (fst p =? i); cbn; lia.
  - unfold pairs. induction (mcont c) as [|x l IH]; cbn; [lia|]. rewrite app_length. destruct x; cbn; lia.
Qed.

Section Select.
  Context {B M : Type}.
  Variables (X : list B) (y : list (list Q)) (n m : nat) (argsort : list fl -> list nat)
    (fit : option M -> list B -> list (list Q) -> res M) (scores : M -> list B -> nat * list (list fl)) (addr : nat).
  Hypothesis HX : List.length X = n.
  Hypothesis Hy : has_shape y n m.
  Hypothesis HA : sorts argsort.
  Hypothesis HS : sound_scores scores m.

  Lemma select_cases st L U t qy : collection n m L -> collection n m U -> nth_error (heap st) addr = Some (Some t) ->
    let r := auro_select argsort fit scores X y m st (MPColl L) (MPColl U) (Some addr) (Some qy) in
    heap (fst r) = heap st /\
    ((exists a, snd r = Ok (APick (Z.of_nat (who a)) (one a) (other a)) /\ (who a < n)%nat /\ (one a < m)%nat /\ (other a < m)%nat /\
        one a <> other a /\ holds U (who a, one a) /\ holds U (who a, other a) /\ least_queried U (Z.of_nat (who a))) \/
     ((forall i, (pairs_of U i <= 1)%nat) /\ (snd r = Ok ARest \/ snd r = Err ValueErr))).
  Proof.
    intros KL KU Hh. cbn zeta. assert (Ly : List.length y = n) by apply Hy.
    assert (PL : pool_of (List.length y) m (MPColl L) L) by (rewrite Ly; split; [reflexivity|]; exact KL).
    assert (PU : pool_of (List.length y) m (MPColl U) U) by (rewrite Ly; split; [reflexivity|]; exact KU).
    assert (HX' : List.length X = List.length y) by congruence.
    destruct (Nat.le_gt_cases (ml_pool_len (MPColl U)) 1) as [Hf|Hf].
    - rewrite (C91_few B M argsort fit scores X y m st (MPColl L) (MPColl U) _ _ Hf). cbn [fst snd]. split; [reflexivity|]. right. split; [|now left].
      intro i. cbn in Hf. pose proof (pairs_of_len U i). lia.
    - set (ids := filter (fun i => Nat.leb 2 (pairs_of U i)) (map Z.of_nat (seq 0 n))).
      assert (W : with_two (List.length y) U ids).
      { split; [apply sorted_filter_z|]. intro i. unfold ids. rewrite filter_In, in_map_iff, Nat.leb_le. rewrite Ly. split; intros [H1 H2]; (split; [|exact H2]).
        - destruct H1 as (j & <- & Hj). apply in_seq in Hj. lia.
        - exists (Z.to_nat i). rewrite Z2Nat.id by lia. split; [reflexivity|]. apply in_seq. lia. }
      assert (Mu : model_used fit X y m L st (Some addr) (Some qy) addr t) by (split; [reflexivity|now left]).
      assert (D : ids = [] \/ ids <> []) by (destruct ids; [now left|right; discriminate]). destruct D as [Ei|Ni].
      + rewrite Ei in W. assert (N : forall i, (pairs_of U i <= 1)%nat).
        { intro i. destruct (Nat.le_gt_cases (pairs_of U i) 1) as [H|H]; [exact H|]. exfalso.
          assert (Q0 : In i []); [|destruct Q0]. apply W. split; [|exact H]. unfold pairs_of in H.
          destruct (filter _ (pairs U)) as [|p l] eqn:Ef; [cbn in H; lia|]. assert (Hp : In p (p :: l)) by now left. rewrite <- Ef in Hp.
          apply filter_In in Hp. destruct Hp as [Hp Hq]. apply KU in Hp. rewrite Ly. lia. }
        rewrite (C91_none_refuted B M argsort fit scores X y m st _ _ L U _ _ addr t HA HX' PU PL Hf Mu N).
        * cbn [fst snd heap]. rewrite (set_nth_id _ _ _ Hh). split; [reflexivity|]. right. split; [exact N|now right].
        * destruct (HS t []) as [(E & _) _]. rewrite E. rewrite Nat.mul_comm. apply Nat.mod_mul. discriminate.
      + destruct (rows_exist X ids) as [xs Hx].
        { intros i Hi. apply W in Hi. lia. }
        assert (Sh : score_shape (List.length ids) m (scores t xs)) by (rewrite <- (proj1 Hx); apply HS).
        destruct (C91_choice B M argsort fit scores X y m st _ _ L U _ _ addr t ids xs HA HX' PU PL Hf Mu W Ni Hx Sh)
          as (r & i & y1 & y2 & pres & E1 & E2 & E3 & LQ & B1 & N12 & I2 & Fin).
        rewrite E3. cbn [fst snd heap]. rewrite (set_nth_id _ _ _ Hh). split; [reflexivity|]. left.
        assert (Hi : In i ids) by (eapply nth_error_In; eauto). apply W in Hi. rewrite Ly in Hi. destruct Hi as [Bi _].
        assert (Fp : all_finite pres).
        { apply nth_error_In in E2. apply in_map_iff in E2. destruct E2 as (row & <- & Hr). apply (finite_pres row m).
          - apply (proj2 (HS t xs)). exact Hr.
          - destruct Sh as (S1 & _ & S3). rewrite <- S1. auto. }
        destruct (Fin Fp) as (I1 & _). exists {| who := Z.to_nat i; one := y1; other := y2 |}. cbn [who one other].
        unfold holds. cbn [fst snd]. rewrite !Z2Nat.id by lia. split; [reflexivity|]. split; [lia|]. split; [exact B1|].
        assert (I2' : holds U (Z.to_nat i, y2)) by (unfold holds; cbn [fst snd]; rewrite Z2Nat.id by lia; exact I2).
        apply (holds_bounds n m U _ KU) in I2'. cbn [fst snd] in I2'. split; [apply I2'|]. split; [exact N12|]. auto.
  Qed.
End Select.

(** ** The answer *)
Lemma q_lt_spec a b : q_lt a b = true <-> (a < b)%Q.
Proof.
  unfold q_lt. rewrite negb_true_iff. split.
  - intro H. apply Qnot_le_lt. intro K. apply Qle_bool_iff in K. congruence.
  - intro H. destruct (Qle_bool b a) eqn:E; [|reflexivity]. apply Qle_bool_iff in E. exfalso. now apply (Qle_not_lt _ _ E).
Qed.

Lemma value_cell (q : list (list Q)) n m i j : has_shape q n m -> (i < n)%nat -> (j < m)%nat -> cell q i j = Some (value q i j).
Proof.
  intros [L R] Hi Hj. unfold cell, value. destruct (nth_error q i) as [r|] eqn:E; [|apply nth_error_None in E; lia].
  rewrite (nth_error_nth q i [] E). apply nth_error_nth'. rewrite (R r); [exact Hj|]. eapply nth_error_In; eauto.
Qed.

Lemma put_cell_shape i j v q n m : has_shape q n m -> (i < n)%nat -> has_shape (put_cell i j v q) n m.
Proof.
  intros [L R] Hi. unfold put_cell. split; [now rewrite MLProofs3.set_nth_length|]. intros r Hr. apply In_nth_error in Hr. destruct Hr as [k Hk].
  rewrite MLProofs3.nth_error_set_nth in Hk. destruct (Nat.eqb_spec k i) as [Ek|N].
  - rewrite (proj2 (Nat.ltb_lt _ _)) in Hk by lia. injection Hk as <-. rewrite MLProofs3.set_nth_length. apply R. apply nth_In. lia.
  - apply R. eapply nth_error_In; eauto.
Qed.

Lemma put_cell_value i j v q n m i' j' : has_shape q n m -> (i < n)%nat -> (j < m)%nat ->
  value (put_cell i j v q) i' j' = if Nat.eqb i' i && Nat.eqb j' j then v else value q i' j'.
Proof.
  intros [L R] Hi Hj. unfold put_cell, value. assert (Lr : List.length (nth i q []) = m) by (apply R; apply nth_In; lia).
  rewrite <- !nth_default_eq. unfold nth_default at 2. rewrite MLProofs3.nth_error_set_nth.
  destruct (Nat.eqb_spec i' i) as [->|N]; cbn [andb].
  - rewrite (proj2 (Nat.ltb_lt _ _)) by lia. unfold nth_default at 1. rewrite MLProofs3.nth_error_set_nth.
    destruct (Nat.eqb_spec j' j) as [->|N'].
    + rewrite (proj2 (Nat.ltb_lt _ _)) by (rewrite nth_default_eq; lia). reflexivity.
    + reflexivity.
  - reflexivity.
Qed.

Lemma answer_ok y qy n m a : has_shape y n m -> has_shape qy n m -> (who a < n)%nat -> (one a < m)%nat -> (other a < m)%nat -> (one a <> other a) ->
  exists qy' v1 v2, answer y (who a) (one a) (other a) qy = Ok qy' /\ reply y a v1 v2 /\ has_shape qy' n m /\
    forall i j, value qy' i j = if Nat.eqb i (who a) && Nat.eqb j (one a) then v1 else if Nat.eqb i (who a) && Nat.eqb j (other a) then v2 else value qy i j.
Proof.
  intros Sy Sq Hi H1 H2 N. pose proof (value_cell y n m _ _ Sy Hi H1) as V1. pose proof (value_cell y n m _ _ Sy Hi H2) as V2.
  unfold cell in *. unfold answer, py_nth. destruct (nth_error y (who a)) as [row|]; [|discriminate]. cbn [bind]. rewrite V1. cbn [bind]. rewrite V2. cbn [bind].
  assert (K : forall v1 v2, has_shape (put_cell (who a) (other a) v2 (put_cell (who a) (one a) v1 qy)) n m /\
    forall i j, value (put_cell (who a) (other a) v2 (put_cell (who a) (one a) v1 qy)) i j =
      if Nat.eqb i (who a) && Nat.eqb j (one a) then v1 else if Nat.eqb i (who a) && Nat.eqb j (other a) then v2 else value qy i j).
  { intros v1 v2. pose proof (put_cell_shape (who a) (one a) v1 qy n m Sq Hi) as S1. split; [now apply put_cell_shape|]. intros i j.
    rewrite (put_cell_value _ _ _ _ n m) by assumption. rewrite (put_cell_value _ _ _ _ n m) by assumption.
    destruct (Nat.eqb_spec i (who a)); cbn [andb]; [|reflexivity]. destruct (Nat.eqb_spec j (one a)) as [->|]; [|reflexivity].
    apply Nat.eqb_neq in N. now rewrite N. }
  unfold reply. set (u1 := value y (who a) (one a)). set (u2 := value y (who a) (other a)).
  destruct (q_lt u1 0) eqn:L1; [apply q_lt_spec in L1|assert (G1 : (0 <= u1)%Q) by (apply Qnot_lt_le; intro Q0; apply q_lt_spec in Q0; congruence)];
    (destruct (q_lt u2 0) eqn:L2; [apply q_lt_spec in L2|assert (G2 : (0 <= u2)%Q) by (apply Qnot_lt_le; intro Q0; apply q_lt_spec in Q0; congruence)]); cbn [andb].
  1:{ do 3 eexists. split; [reflexivity|]. split; [left; repeat split; auto|apply K]. }
  all: destruct (q_lt u2 u1) eqn:L3; [apply q_lt_spec in L3|assert (G3 : (u1 <= u2)%Q) by (apply Qnot_lt_le; intro Q0; apply q_lt_spec in Q0; congruence)].
  all: do 3 eexists; (split; [reflexivity|]); (split; [right|apply K]); ((left; repeat split; now auto) || (right; repeat split; now auto)).
Qed.

(** ** What is learnt *)
Lemma lesson_ok {B} (X : list B) y qy n m a v1 v2 : List.length X = n -> has_shape qy n m -> reply y a v1 v2 ->
  (who a < n)%nat -> (one a < m)%nat -> (other a < m)%nat -> one a <> other a ->
  value qy (who a) (one a) = v1 -> value qy (who a) (other a) = v2 ->
  exists x row ids, get_Xy true (map to_idx (two a)) X qy (Z.of_nat m) 0%Q = Ok ([x], [row], ids) /\ lesson X y m a x row.
Proof.
  intros HX Sq R Hi H1 H2 N V1 V2. assert (Lq : List.length qy = n) by apply Sq.
  assert (Sq' : has_shape qy (List.length qy) m) by now rewrite Lq.
  assert (Hin : forall x, In x (map to_idx (two a)) -> (forall i j, x <> ILong i j) /\ 0 <= ins_of x < Z.of_nat (List.length qy) /\ scalar_ok (Z.of_nat m) x = true).
  { intros x [<-|[<-|[]]]; (split; [discriminate|]); rewrite Lq; cbn; lia. }
  destruct (C09_get_Xy Q B X qy m 0%Q true (map to_idx (two a)) Sq' ltac:(discriminate) ltac:(congruence) Hin) as (xs & mat & ids & E & E1 & Lx & Ex).
  destruct (C09_labelmatrix Q qy m 0%Q true (map to_idx (two a)) Sq' ltac:(discriminate) Hin) as (mat' & ids' & E2 & E3 & E4 & E5).
  rewrite E1 in E2. injection E2 as <- <-. cbn in E3. rewrite Z.eqb_refl in E3. cbn in E3. subst ids.
  destruct E4 as [L4 R4]. destruct mat as [|row [|r2 mat]]; try discriminate L4. destruct xs as [|x [|x2 xs]]; try discriminate Lx.
  exists x, row, [Z.of_nat (who a)]. split; [exact E|]. exists v1, v2. split; [exact R|].
  split; [specialize (Ex 0%nat _ eq_refl); cbn in Ex; rewrite Nat2Z.id in Ex; congruence|]. split; [apply R4; now left|].
  intros j Hj. destruct (E5 0%nat (Z.of_nat (who a)) j eq_refl Hj) as [D1 D2]. rewrite Nat2Z.id in D1. cbn [cell nth_error] in D1, D2.
  rewrite (value_cell qy n m _ _ Sq Hi Hj) in D1.
  assert (Dn : denoted_by (Z.of_nat m) (map to_idx (two a)) (Z.of_nat (who a), Z.of_nat j) <-> j = one a \/ j = other a).
  { unfold denoted_by. cbn [two map In to_idx fst snd]. split.
    - intros (z & [<-|[<-|[]]] & D); cbn in D; injection D; lia.
    - intros [->| ->]; [exists (to_idx (who a, one a))|exists (to_idx (who a, other a))]; (split; [auto|reflexivity]). }
  destruct (Nat.eqb_spec j (one a)) as [->|N1]; [|destruct (Nat.eqb_spec j (other a)) as [->|N2]].
  - rewrite <- V1. apply nth_error_nth. apply D1. apply Dn. now left.
  - rewrite <- V2. apply nth_error_nth. apply D1. apply Dn. now right.
  - apply nth_error_nth. apply D2. rewrite Dn. tauto.
Qed.

(** ** Counting *)
Lemma pairs_of_perm c c' i l : Permutation (pairs c) (l ++ pairs c') ->
  pairs_of c i = (List.length (filter (fun p => fst p =? i)%Z l) + pairs_of c' i)%nat.
Proof.
  intro P. unfold pairs_of. rewrite <- app_length, <- filter_app. apply Permutation_length.
  clear -P. induction P; cbn; [constructor| | |eapply perm_trans; eauto].
  - destruct (_ =? _); auto.
  - destruct (fst x =? i), (fst y =? i); try constructor; auto.
Qed.

Lemma taken_perm n m U U' a : collection n m U -> collection n m U' -> holds U (who a, one a) -> holds U (who a, other a) -> one a <> other a ->
  (forall p, holds U' p <-> holds U p /\ ~ In p (two a)) ->
  Permutation (pairs U) ([(Z.of_nat (who a), Z.of_nat (one a)); (Z.of_nat (who a), Z.of_nat (other a))] ++ pairs U').
Proof.
  intros K K' H1 H2 N H. apply NoDup_Permutation.
  - eapply pairs_nodup. apply K.
  - assert (Z1 : forall j, In (who a, j) (two a) -> ~ In (Z.of_nat (who a), Z.of_nat j) (pairs U')).
    { intros j Hj Q1. apply (H (who a, j)) in Q1. tauto. }
    cbn [app]. constructor; [|constructor; [|eapply pairs_nodup; apply K']].
    + intros [Q1|Q1]; [injection Q1; lia|]. revert Q1. apply Z1. now left.
    + apply Z1. right. now left.
  - intro q. cbn [app In]. split.
    + intro Hq. destruct (coll_bounds n m U q K Hq) as (p & -> & _). destruct (H p) as [_ H'].
      destruct (in_dec (fun x y : nat * nat => ltac:(decide equality; apply Nat.eq_dec)) p (two a)) as [[<-|[<-|[]]]|I]; auto.
      right. right. now apply H'.
    + intros [<-|[<-|Hq]]; [exact H1|exact H2|]. destruct (coll_bounds n m U' q K' Hq) as (p & -> & _). now apply H.
Qed.

Lemma sum_one (f g : nat -> nat) i : forall len k, (k <= i < k + len)%nat -> f i = S (g i) -> (forall j, j <> i -> f j = g j) ->
  list_sum (map f (seq k len)) = S (list_sum (map g (seq k len))).
Proof.
  assert (S0 : forall len k, (i < k)%nat -> (forall j, j <> i -> f j = g j) -> map f (seq k len) = map g (seq k len)).
  { intros len k Hk E. apply map_ext_in. intros j Hj. apply in_seq in Hj. apply E. lia. }
  induction len as [|len IH]; intros k Hk E1 E2; [lia|]. cbn [seq map]. change (list_sum (?x :: ?l)) with (x + list_sum l)%nat.
  destruct (Nat.eq_dec k i) as [->|Nk].
  - rewrite E1, (S0 len (S i)) by (auto; lia). reflexivity.
  - rewrite (E2 k Nk), IH by (auto; lia). lia.
Qed.

Lemma askable_take n m U U' a : collection n m U -> collection n m U' -> holds U (who a, one a) -> holds U (who a, other a) -> one a <> other a ->
  (forall p, holds U' p <-> holds U p /\ ~ In p (two a)) -> askable n U = S (askable n U').
Proof.
  intros K K' H1 H2 N H. pose proof (taken_perm n m U U' a K K' H1 H2 N H) as P. unfold askable. apply (sum_one _ _ (who a)).
  - apply (holds_bounds n m U _ K) in H1. cbn in H1. lia.
  - rewrite (pairs_of_perm U U' _ _ P). cbn [filter fst]. rewrite !Z.eqb_refl. cbn [List.length Nat.add].
    change (S (S ?x)) with (2 + x)%nat. replace (2 + pairs_of U' (Z.of_nat (who a)))%nat with (1 * 2 + pairs_of U' (Z.of_nat (who a)))%nat by lia.
    rewrite Nat.div_add_l by lia. lia.
  - intros j Nj. f_equal. rewrite (pairs_of_perm U U' _ _ P). cbn [filter fst]. replace (_ =? _) with false by lia. reflexivity.
Qed.

Lemma askable_none n U : (forall i, (pairs_of U i <= 1)%nat) -> askable n U = 0%nat.
Proof.
  intro H. unfold askable. generalize (seq 0 n). intro l. induction l as [|k l IH]; [reflexivity|]. cbn [map].
  change (list_sum (?x :: ?l)) with (x + list_sum l)%nat. rewrite IH, Nat.div_small; [reflexivity|]. specialize (H (Z.of_nat k)). lia.
Qed.

Lemma askable_zero n m U : collection n m U -> askable n U = 0%nat -> forall i, (pairs_of U i <= 1)%nat.
Proof.
  intros K E i. destruct (Nat.le_gt_cases (pairs_of U i) 1) as [H|H]; [exact H|]. exfalso.
  assert (Bi : 0 <= i < Z.of_nat n).
  { unfold pairs_of in H. destruct (filter _ (pairs U)) as [|p l] eqn:Ef; [cbn in H; lia|]. assert (Hp : In p (p :: l)) by now left. rewrite <- Ef in Hp.
    apply filter_In in Hp. destruct Hp as [Hp Hq]. apply K in Hp. lia. }
  assert (G : (pairs_of U i / 2 <= askable n U)%nat).
  { unfold askable. clear E. assert (Hin : In (Z.to_nat i) (seq 0 n)) by (apply in_seq; lia). revert Hin. generalize (seq 0 n). intro l.
    induction l as [|k l IH]; intros []; cbn [map]; change (list_sum (?x :: ?l)) with (x + list_sum l)%nat.
    - subst k. rewrite Z2Nat.id by lia. lia.
    - specialize (IH H0). lia. }
  assert (1 <= pairs_of U i / 2)%nat; [|lia]. apply Nat.div_le_lower_bound; lia.
Qed.
