(** Proofs about matrix completion and the choice of a feature. *)
From Verif Require Import Base BaseFacts IndexModel MLModel MLSpec MLProofs MLProofs2 MLProofs3 MiscModel MiscSpec QueryModel QuerySpec
  QueryProofs QueryProofs2 FeatureModel FeatureSpec.
From Coq Require Import QArith Qabs Qreduction Lqa.
Local Open Scope Z_scope.

(** ** Element-wise operations *)
Lemma zipw_nth {A B C} (g : A -> B -> C) l : forall l' k,
  nth_error (zipw g l l') k = match nth_error l k, nth_error l' k with Some a, Some b => Some (g a b) | _, _ => None end.
Proof.
  induction l as [|a l IH]; intros [|b l'] [|k]; cbn; auto. now destruct (nth_error l k).
Qed.
Lemma zipw_length {A B C} (g : A -> B -> C) l : forall l', length l = length l' -> length (zipw g l l') = length l.
Proof. induction l as [|a l IH]; intros [|b l'] E; cbn in *; auto; try discriminate. Qed.

Lemma mzip_cell {A B C} (g : A -> B -> C) M N a b :
  cell (mzip g M N) a b = match cell M a b, cell N a b with Some x, Some y => Some (g x y) | _, _ => None end.
Proof.
  unfold cell, mzip. rewrite zipw_nth. destruct (nth_error M a) as [r|]; auto.
  destruct (nth_error N a) as [r'|]; [|now destruct (nth_error r b)]. apply zipw_nth.
Qed.
Lemma mzip_shape {A B C} (g : A -> B -> C) M N n f : has_shape M n f -> has_shape N n f -> has_shape (mzip g M N) n f.
Proof.
  intros [L1 S1] [L2 S2]. split; [unfold mzip; rewrite zipw_length; congruence|].
  intros r Hr. apply In_nth_error in Hr. destruct Hr as [k Hk]. unfold mzip in Hk. rewrite zipw_nth in Hk.
  destruct (nth_error M k) as [x|] eqn:E1; [|discriminate]. destruct (nth_error N k) as [y|] eqn:E2; [|discriminate].
  injection Hk as <-. apply nth_error_In in E1, E2. rewrite zipw_length; rewrite (S1 x E1); auto. now rewrite (S2 y E2).
Qed.

Lemma shape_cell {A} (M : list (list A)) n f a b : has_shape M n f -> (a < n)%nat -> (b < f)%nat -> exists v, cell M a b = Some v.
Proof.
  intros H Ha Hb. destruct (cell M a b) eqn:E; eauto. exfalso. pose proof (cell_some_shape M n f a b H) as [_ X]. apply X; auto.
Qed.
Lemma cell_inside {A} (M : list (list A)) n f a b v : has_shape M n f -> cell M a b = Some v -> (a < n)%nat /\ (b < f)%nat.
Proof. intros H E. apply (cell_some_shape M n f a b H). congruence. Qed.

(** ** Observed and missing parts *)
Definition one_zero (m : Z) : m = 0 \/ m = 1 -> (inject_Z m == 0 /\ inject_Z (1 - m) == 1)%Q \/ (inject_Z m == 1 /\ inject_Z (1 - m) == 0)%Q.
Proof. intros [->| ->]; [left|right]; split; reflexivity. Qed.

Lemma mix1 q x : feq (fadd (fmul (Num (inject_Z (1 - 1))) (Num q)) (fmul (Num (inject_Z 1)) (Num x))) (Num x).
Proof. unfold feq, fadd, fmul. rewrite !Qred_correct. change (inject_Z (1 - 1)) with 0%Q. change (inject_Z 1) with 1%Q. ring. Qed.
Lemma mix0 q x : feq (fadd (fmul (Num (inject_Z (1 - 0))) (Num q)) (fmul (Num (inject_Z 0)) (Num x))) (Num q).
Proof. unfold feq, fadd, fmul. rewrite !Qred_correct. change (inject_Z (1 - 0)) with 1%Q. change (inject_Z 0) with 0%Q. ring. Qed.

Definition mixture mask R X := mplus (unseen mask R) (seen mask X).

Lemma mixture_cell mask R X a b :
  cell (mixture mask R X) a b =
  match cell mask a b, cell R a b, cell X a b with
  | Some m, Some r, Some x => Some (fadd (fmul (Num (inject_Z (1 - m))) r) (fmul (Num (inject_Z m)) x))
  | _, _, _ => None
  end.
Proof.
  unfold mixture, mplus, unseen, seen. rewrite !mzip_cell. destruct (cell mask a b), (cell R a b), (cell X a b); auto.
Qed.
Lemma mixture_shape mask R X n f : has_shape mask n f -> has_shape R n f -> has_shape X n f -> has_shape (mixture mask R X) n f.
Proof. intros. unfold mixture, mplus, unseen, seen. repeat apply mzip_shape; auto. Qed.
Lemma mixture_finite mask R X : finite R -> finite X -> finite (mixture mask R X).
Proof.
  intros HR HX a b v E. rewrite mixture_cell in E. destruct (cell mask a b), (cell R a b) eqn:E1, (cell X a b) eqn:E2; try discriminate.
  destruct (HR _ _ _ E1) as [p ->]. destruct (HX _ _ _ E2) as [q ->]. injection E as <-. cbn. eauto.
Qed.
Lemma mixture_observed mask R X n f a b : has_shape mask n f -> has_shape R n f -> has_shape X n f ->
  finite R -> finite X -> cell mask a b = Some 1 -> same_at (mixture mask R X) X a b.
Proof.
  intros S1 S2 S3 HR HX E. destruct (cell_inside _ _ _ _ _ _ S1 E) as [Ha Hb].
  destruct (shape_cell R n f a b S2 Ha Hb) as [r Er]. destruct (shape_cell X n f a b S3 Ha Hb) as [x Ex].
  exists (fadd (fmul (Num (inject_Z (1 - 1))) r) (fmul (Num (inject_Z 1)) x)), x. rewrite mixture_cell, E, Er, Ex. split; auto. split; auto.
  destruct (HR _ _ _ Er) as [p ->]. destruct (HX _ _ _ Ex) as [q ->]. apply mix1.
Qed.
Lemma mixture_missing mask R X n f a b : has_shape mask n f -> has_shape R n f -> has_shape X n f ->
  finite R -> finite X -> cell mask a b = Some 0 -> same_at (mixture mask R X) R a b.
Proof.
  intros S1 S2 S3 HR HX E. destruct (cell_inside _ _ _ _ _ _ S1 E) as [Ha Hb].
  destruct (shape_cell R n f a b S2 Ha Hb) as [r Er]. destruct (shape_cell X n f a b S3 Ha Hb) as [x Ex].
  exists (fadd (fmul (Num (inject_Z (1 - 0))) r) (fmul (Num (inject_Z 0)) x)), r. rewrite mixture_cell, E, Er, Ex. split; auto. split; auto.
  destruct (HR _ _ _ Er) as [p ->]. destruct (HX _ _ _ Ex) as [q ->]. apply mix0.
Qed.

(** A matrix is determined by its cells. *)
Lemma cells_ext {A} (M N : list (list A)) n f : has_shape M n f -> has_shape N n f ->
  (forall a b, (a < n)%nat -> (b < f)%nat -> cell M a b = cell N a b) -> M = N.
Proof. intros H1 H2 H. eapply matrix_ext; eauto. Qed.

(** The observed part depends on the observed values only. *)
Lemma seen_same mask X X' n f : has_shape mask n f -> has_shape X n f -> has_shape X' n f -> zero_one mask -> finite X -> finite X' ->
  (forall a b, cell mask a b = Some 1 -> same_at X X' a b) -> seen mask X = seen mask X'.
Proof.
  intros Hm HX HX' Z F F' H. apply (cells_ext _ _ n f); try (apply mzip_shape; auto).
  intros a b Ha Hb. unfold seen. rewrite !mzip_cell. destruct (shape_cell mask n f a b Hm Ha Hb) as [m Em]. rewrite Em.
  destruct (shape_cell X n f a b HX Ha Hb) as [x Ex]. destruct (shape_cell X' n f a b HX' Ha Hb) as [x' Ex'].
  rewrite Ex, Ex'. destruct (F _ _ _ Ex) as [p ->]. destruct (F' _ _ _ Ex') as [q ->]. f_equal. unfold fmul. f_equal. apply Qred_complete.
  destruct (Z _ _ _ Em) as [->| ->].
  - change (inject_Z 0) with 0%Q. ring.
  - destruct (H a b Em) as (y & y' & E1 & E2 & E). rewrite Ex in E1. rewrite Ex' in E2. injection E1 as <-. injection E2 as <-.
    cbn in E. now rewrite E.
Qed.

(** ** The AFASMC search *)
Section SearchProofs.
  Variable step : nat -> nat -> Q * fmat.

  Lemma inner_spec i : forall todo k prev best, (0 < k \/ 0 < todo)%nat ->
    (0 < k)%nat -> (exists k', (k' < k)%nat /\ best = step i k' /\ forall j, (j < k)%nat -> (fst best <= fst (step i j))%Q) ->
    exists b l, inner step i todo k prev best = (b, l) /\ (Nat.pred k <= l < Nat.max k (k + todo))%nat /\
    exists k', (k' <= l)%nat /\ b = step i k' /\ forall j, (j <= l)%nat -> (fst b <= fst (step i j))%Q.
  Proof.
    induction todo as [|todo IH]; intros k prev best H0 Hk (k' & K1 & K2 & K3); cbn [inner].
    - exists best, (Nat.pred k). split; auto. split; [lia|]. exists k'. split; [lia|]. split; auto. intros j Hj. apply K3. lia.
    - replace (Nat.eqb k 0) with false by (symmetry; apply Nat.eqb_neq; lia).
      set (best' := if negb (Qle_bool (fst best) (fst (step i k))) then step i k else best).
      assert (B : exists k', (k' <= k)%nat /\ best' = step i k' /\ forall j, (j <= k)%nat -> (fst best' <= fst (step i j))%Q).
      { subst best'. destruct (Qle_bool (fst best) (fst (step i k))) eqn:E; cbn [negb].
        - exists k'. split; [lia|]. split; auto. intros j Hj. apply Qle_bool_iff in E.
          destruct (Nat.eq_dec j k) as [->|]; auto. apply K3. lia.
        - exists k. split; [lia|]. split; auto. intros j Hj.
          assert (L : (fst (step i k) < fst best)%Q) by (apply Qnot_le_lt; intro X; apply Qle_bool_iff in X; congruence).
          destruct (Nat.eq_dec j k) as [->|]; [lra|]. specialize (K3 j ltac:(lia)). lra. }
      destruct B as (k2 & B1 & B2 & B3).
      destruct (Nat.ltb 0 k && negb (Qle_bool ((1 # 1000000) * prev) (Qabs (fst (step i k) - prev)))).
      + exists best', k. split; auto. split; [lia|]. exists k2. repeat split; auto.
      + destruct (IH (S k) (fst (step i k)) best') as (b & l & E & L & R); [lia|lia| |].
        * exists k2. split; [lia|]. split; auto. intros j Hj. apply B3. lia.
        * exists b, l. split; auto. split; [lia|auto].
  Qed.

  (** A round gives a matrix of smallest objective among its steps. *)
  Lemma inner_start i max_in : (0 < max_in)%nat ->
    exists b l, inner step i max_in 0 0%Q (0%Q, []) = (b, l) /\ (l < max_in)%nat /\
    exists k', (k' <= l)%nat /\ b = step i k' /\ forall j, (j <= l)%nat -> (fst b <= fst (step i j))%Q.
  Proof.
    intro H. destruct max_in as [|m]; [lia|]. cbn [inner]. cbn [Nat.eqb Nat.ltb Nat.leb andb].
    destruct (inner_spec i m 1 (fst (step i 0)) (step i 0)) as (b & l & E & L & R); [lia|lia| |].
    - exists 0%nat. split; [lia|]. split; auto. intros j Hj. replace j with 0%nat by lia. lra.
    - exists b, l. split; auto. split; [lia|auto].
  Qed.

  (** The matrix found by round [i]. *)
  Definition found_by (max_in i : nat) : fmat := snd (fst (inner step i max_in 0 0%Q (0%Q, []))).
  Definition last_step (max_in i : nat) : nat := snd (inner step i max_in 0 0%Q (0%Q, [])).

  Lemma outer_spec max_in : (0 < max_in)%nat -> forall todo i conv best, length conv = max_in -> (i + todo <= max_in)%nat ->
    (i = 0 \/ exists i', (i' < i)%nat /\ snd best = found_by max_in i')%nat -> (0 < i + todo)%nat ->
    exists R, outer step todo i conv best = Ok R /\ exists i', (i' < i + todo)%nat /\ R = found_by max_in i'.
  Proof.
    intros Hm. induction todo as [|todo IH]; intros i conv best L B H H0; cbn [outer].
    - eexists. split; [reflexivity|]. destruct H as [->|(i' & H1 & H2)]; [lia|]. exists i'. split; [lia|auto].
    - rewrite L. assert (Ef : exists o k, inner step i max_in 0 0%Q (0%Q, []) = (o, found_by max_in i, k)).
      { unfold found_by. destruct (inner step i max_in 0 0%Q (0%Q, [])) as [[o x] k]. cbn. eauto. }
      destruct Ef as (o & k & Ef). rewrite Ef. replace (Nat.ltb i max_in) with true by (symmetry; apply Nat.ltb_lt; lia).
      cbv zeta. match goal with |- context [if Nat.ltb 0 i && ?c then Ok (snd ?b) else outer step todo (S i) ?cv ?b] => set (cond := c); set (b' := b); set (cv' := cv) end.
      assert (Sb : exists i', (i' < S i)%nat /\ snd b' = found_by max_in i').
      { subst b'. destruct (Nat.eqb i 0) eqn:E0; [exists i; split; [lia|reflexivity]|].
        apply Nat.eqb_neq in E0. destruct H as [->|(i' & H1 & H2)]; [lia|].
        match goal with |- context [if ?c then _ else best] => destruct c end; [exists i|exists i']; split; auto; lia. }
      destruct (Nat.ltb 0 i && cond).
      + destruct Sb as (i' & S1 & S2). eexists. split; [reflexivity|]. exists i'. split; [lia|auto].
      + destruct (IH (S i) cv' b') as (R & E & i' & I1 & I2); auto; try lia.
        * subst cv'. now rewrite set_nth_length.
        * exists R. split; auto. exists i'. split; [lia|auto].
  Qed.

  Lemma search_spec max_in max_out : (1 <= max_out <= max_in)%nat ->
    exists R i, search step max_in max_out = Ok R /\ (i < max_out)%nat /\ R = found_by max_in i.
  Proof.
    intros H. destruct (outer_spec max_in ltac:(lia) max_out 0 (repeat 0%Q max_in) (0%Q, [])) as (R & E & i & I1 & I2); auto; try lia.
    - apply repeat_length.
    - exists R, i. split; [|split; [lia|auto]]. rewrite <- E. unfold search. destruct max_in; [lia|]. destruct max_out; [lia|reflexivity].
  Qed.

  Lemma found_step max_in i : (0 < max_in)%nat -> exists k, (k < max_in)%nat /\ found_by max_in i = snd (step i k).
  Proof.
    intro H. destruct (inner_start i max_in H) as (b & l & E & L & k & K1 & K2 & _). exists k. split; [lia|].
    unfold found_by. rewrite E. cbn. now rewrite K2.
  Qed.

  Lemma set_nth_same {A} n (x d : A) l k : k <> n -> nth k (set_nth n x l) d = nth k l d.
  Proof.
    intro H. assert (E : nth_error (set_nth n x l) k = nth_error l k).
    { rewrite nth_error_set_nth. now replace (Nat.eqb k n) with false by (symmetry; apply Nat.eqb_neq; auto). }
    destruct (nth_error l k) eqn:E2.
    - now rewrite (nth_error_nth _ _ d E), (nth_error_nth _ _ d E2).
    - apply nth_error_None in E, E2. now rewrite !nth_overflow.
  Qed.

  (** As long as the inner loops run for more steps than there are rounds, the completion of the first round is
      returned. *)
  Lemma outer_first max_in M : forall todo i conv best, length conv = max_in -> (i + todo <= max_in)%nat ->
    (forall j, (j < i + todo)%nat -> (i + todo <= last_step max_in j)%nat) ->
    (forall k, (i <= k)%nat -> nth k conv 0%Q = 0%Q) ->
    (i = 0%nat -> found_by max_in 0 = M) -> ((0 < i)%nat -> best = (0%Q, M)) -> (0 < i + todo)%nat ->
    (forall j, (j < i + todo)%nat -> (0 <= fst (fst (inner step j max_in 0 0%Q (0%Q, []))))%Q) ->
    outer step todo i conv best = Ok M.
  Proof.
    induction todo as [|todo IH]; intros i conv best L B K C F Hb H0 P; cbn [outer].
    - rewrite Hb by lia. reflexivity.
    - rewrite L. pose proof (K i ltac:(lia)) as Ki. pose proof (P i ltac:(lia)) as Pi. unfold last_step in Ki.
      assert (Ef : found_by max_in i = snd (fst (inner step i max_in 0 0%Q (0%Q, [])))) by reflexivity.
      destruct (inner step i max_in 0 0%Q (0%Q, [])) as [[o x] k]. cbn [fst snd] in *.
      replace (Nat.ltb i max_in) with true by (symmetry; apply Nat.ltb_lt; lia). cbv zeta.
      assert (Ck : nth k (set_nth i o conv) 0%Q = 0%Q) by (rewrite set_nth_same by lia; apply C; lia).
      rewrite Ck.
      assert (NB : Nat.ltb 0 i && negb (Qle_bool ((1 # 10000) * previous (set_nth i o conv) k) (Qabs (0 - previous (set_nth i o conv) k))) = false).
      { destruct i as [|i]; [reflexivity|]. apply negb_false_iff, Qle_bool_iff.
        assert (NN : (0 <= previous (set_nth (S i) o conv) k)%Q).
        { unfold previous. destruct k as [|k]; [lia|].
          destruct (Nat.eq_dec k (S i)) as [->|Nk].
          - rewrite (nth_error_nth _ _ _ (x := o)); auto. rewrite nth_error_set_nth, Nat.eqb_refl, L.
            replace (Nat.ltb (S i) max_in) with true by (symmetry; apply Nat.ltb_lt; lia). reflexivity.
          - rewrite set_nth_same by auto. rewrite C by lia. lra. }
        assert (E : (Qabs (0 - previous (set_nth (S i) o conv) k) == previous (set_nth (S i) o conv) k)%Q).
        { rewrite Qabs_neg by lra. ring. }
        rewrite E. lra. }
      rewrite NB. apply IH; auto; try lia.
      + now rewrite set_nth_length.
      + intros j Hj. specialize (K j ltac:(lia)). lia.
      + intros j Hj. rewrite set_nth_same by lia. apply C. lia.
      + intros _. destruct (Nat.eqb i 0) eqn:E0.
        * apply Nat.eqb_eq in E0. subst i. rewrite <- F; auto. now rewrite Ef.
        * apply Nat.eqb_neq in E0. rewrite Hb by lia. cbn [fst]. replace (Qle_bool 0 0) with true by reflexivity. reflexivity.
      + intros j Hj. apply P. lia.
  Qed.

  Lemma search_first max_in max_out : (1 <= max_out <= max_in)%nat ->
    (forall j, (j < max_out)%nat -> (max_out <= last_step max_in j)%nat) ->
    (forall i k, (0 <= fst (step i k))%Q) ->
    search step max_in max_out = Ok (found_by max_in 0).
  Proof.
    intros H K P. unfold search. destruct max_in as [|mi]; [lia|]. destruct max_out as [|mo]; [lia|].
    apply (outer_first (S mi)); auto; try lia.
    - apply repeat_length.
    - intros k _. apply nth_repeat.
    - intros j _. destruct (inner_start j (S mi) ltac:(lia)) as (b & l & E & _ & k & _ & Eb & _). rewrite E. cbn [fst]. rewrite Eb. apply P.
  Qed.

  (** One inner step only: the second round stores outside the array. *)
  Lemma search_overrun max_out : (2 <= max_out)%nat -> search step 1 max_out = Err IndexErr.
  Proof.
    intro H. unfold search. destruct max_out as [|[|mo]]; [lia|lia|].
    change (repeat 0%Q 1) with [0%Q]. remember (S mo) as m. cbn [outer]. cbn [length].
    destruct (inner step 0 1 0 0%Q (0%Q, [])) as [[o x] k]. cbn [Nat.ltb Nat.leb andb set_nth]. subst m.
    cbn [outer length]. destruct (inner step 1 1 0 0%Q (0%Q, [])) as [[o' x'] k']. reflexivity.
  Qed.
End SearchProofs.
