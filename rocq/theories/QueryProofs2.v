(** Proofs about the greedy strategies. *)
From Verif Require Import Base BaseFacts IndexModel MLModel SplitModel MiscModel MiscSpec MiscProofs QueryModel QuerySpec QueryProofs.
From Coq Require Import QArith Qabs Lqa.
Local Open Scope Z_scope.

(** ** argmax, assign, min_of *)
Lemma argmax_from_spec l : forall best bv i,
  let r := argmax_from best bv i l in
  (r = best /\ forall j, (j < length l)%nat -> (nth j l 0 <= bv)%Q) \/
  (exists j, r = (i + j)%nat /\ (j < length l)%nat /\ (bv < nth j l 0)%Q /\
     (forall k, (k < length l)%nat -> (nth k l 0 <= nth j l 0)%Q) /\ forall k, (k < j)%nat -> (nth k l 0 < nth j l 0)%Q).
Proof.
  induction l as [|v l IH]; intros best bv i; cbn [argmax_from]; [left; split; [reflexivity|cbn; lia]|].
  destruct (Qle_bool v bv) eqn:E.
  - apply Qle_bool_iff in E. destruct (IH best bv (S i)) as [[R H]|(j & R & J & B & M & F)].
    + left. split; auto. intros [|j] K; cbn in *; [auto|apply H; lia].
    + right. exists (S j). cbn [nth length]. split; [rewrite R; lia|]. split; [lia|]. split; [auto|]. split.
      * intros [|k] K; cbn in *; [lra|apply M; lia].
      * intros [|k] K; cbn in *; [lra|apply F; lia].
  - assert (B : (bv < v)%Q) by (apply Qnot_le_lt; intro H; apply Qle_bool_iff in H; congruence).
    destruct (IH i v (S i)) as [[R H]|(j & R & J & B' & M & F)].
    + right. exists 0%nat. cbn [nth length]. split; [rewrite R; lia|]. split; [lia|]. split; [auto|]. split; [|lia].
      intros [|k] K; cbn in *; [lra|apply H; lia].
    + right. exists (S j). cbn [nth length]. split; [rewrite R; lia|]. split; [lia|]. split; [lra|]. split.
      * intros [|k] K; cbn in *; [lra|apply M; lia].
      * intros [|k] K; cbn in *; [lra|apply F; lia].
Qed.

Lemma argmax_spec l : l <> [] -> exists p, argmax l = Ok p /\ (p < length l)%nat /\
  forall q, (q < length l)%nat -> (nth q l 0 < nth p l 0)%Q \/ ((nth q l 0 == nth p l 0)%Q /\ (p <= q)%nat).
Proof.
  destruct l as [|v l]; [contradiction|]. intros _. cbn [argmax]. eexists. split; [reflexivity|].
  destruct (argmax_from_spec l 0 v 1) as [[R H]|(j & R & J & B & M & F)]; rewrite R.
  - split; [cbn; lia|]. intros [|q] K; cbn in *; [right; split; [reflexivity|lia]|].
    specialize (H q ltac:(lia)). destruct (Qlt_le_dec (nth q l 0%Q) v); [now left|right; split; [lra|lia]].
  - replace (1 + j)%nat with (S j) by lia. split; [cbn; lia|]. intros [|q] K; cbn in *; [left; auto|].
    destruct (lt_dec q j); [left; apply F; auto|]. specialize (M q ltac:(lia)).
    destruct (Qlt_le_dec (nth q l 0%Q) (nth j l 0%Q)); [now left|right; split; [lra|lia]].
Qed.

Lemma mem_iff p ps : mem p ps = true <-> In p ps.
Proof. unfold mem. rewrite existsb_exists. split; [intros (x & I & E); apply Nat.eqb_eq in E; now subst|intro I; exists p; split; auto; apply Nat.eqb_refl]. Qed.

Lemma assign_length ps f a : length (assign ps f a) = length a.
Proof. unfold assign. rewrite map_length, combine_length, seq_length. lia. Qed.

Lemma nth_combine_seq {B} (a : list B) d : forall k i, (i < length a)%nat -> nth i (combine (seq k (length a)) a) (0%nat, d) = ((k + i)%nat, nth i a d).
Proof. intros k i L. rewrite combine_nth by apply seq_length. now rewrite seq_nth. Qed.

Lemma assign_nth ps f a p : (p < length a)%nat -> nth p (assign ps f a) 0%Q = if mem p ps then f (nth p a 0%Q) else nth p a 0%Q.
Proof.
  intro L. unfold assign. set (F := fun e : nat * Q => if mem (fst e) ps then f (snd e) else snd e).
  rewrite (nth_indep _ 0%Q (F (0%nat, 0%Q))) by (rewrite map_length, combine_length, seq_length; lia).
  rewrite map_nth, nth_combine_seq by auto. reflexivity.
Qed.

Lemma min_of_spec l : l <> [] -> exists m, min_of l = Ok m /\ forall p, (p < length l)%nat -> (m <= nth p l 0)%Q.
Proof.
  destruct l as [|v l]; [contradiction|]. intros _. exists (fold_left qmin l v). split; [reflexivity|].
  intros p L. apply (fold_min l v). apply nth_In. exact L.
Qed.

(** ** Positions *)
Lemma where_from_spec train x : forall k p, In p (where_from k train x) <-> (k <= p)%nat /\ nth_error train (p - k) = Some x.
Proof.
  induction train as [|y train IH]; intros k p; cbn [where_from].
  - split; [intros []|]. intros [_ E]. destruct (p - k)%nat; discriminate.
  - destruct (Z.eqb_spec y x) as [->|N].
    + cbn [In]. rewrite IH. split.
      * intros [<-|[H E]]; [rewrite Nat.sub_diag; auto|]. split; [lia|]. replace (p - k)%nat with (S (p - S k)) by lia. auto.
      * intros [H E]. destruct (Nat.eq_dec k p) as [->|N]; [now left|right]. split; [lia|]. replace (p - k)%nat with (S (p - S k)) in E by lia. auto.
    + rewrite IH. split.
      * intros [H E]. split; [lia|]. replace (p - k)%nat with (S (p - S k)) by lia. auto.
      * intros [H E]. assert (k <> p) by (intros ->; rewrite Nat.sub_diag in E; cbn in E; congruence). split; [lia|].
        replace (p - k)%nat with (S (p - S k)) in E by lia. auto.
Qed.

Lemma where_NoDup train x : forall k, NoDup (where_from k train x).
Proof.
  induction train as [|y train IH]; intro k; cbn; [constructor|]. destruct (y =? x); auto. constructor; auto.
  rewrite where_from_spec. lia.
Qed.

Lemma where_one train x p : NoDup train -> nth_error train p = Some x -> np_where train x = [p].
Proof.
  intros ND E. assert (I : In p (np_where train x)) by (apply where_from_spec; rewrite Nat.sub_0_r; split; [lia|auto]).
  assert (A : forall q, In q (np_where train x) -> q = p).
  { intros q J. apply where_from_spec in J. rewrite Nat.sub_0_r in J. destruct J as [_ J].
    apply (proj1 (NoDup_nth_error train) ND); [apply nth_error_Some; congruence|congruence]. }
  pose proof (where_NoDup train x 0) as N. fold (np_where train x) in N.
  destruct (np_where train x) as [|a [|b l]]; [destruct I|now rewrite (A a (or_introl eq_refl))|].
  exfalso. inversion N as [|? ? H]; subst. apply H. left. rewrite (A a), (A b); cbn; auto.
Qed.

Lemma where_none train x : ~ In x train -> np_where train x = [].
Proof.
  intro N. destruct (np_where train x) as [|p l] eqn:E; auto. exfalso.
  assert (I : In p (np_where train x)) by (rewrite E; now left). apply where_from_spec in I. destruct I as [_ I]. apply nth_error_In in I. auto.
Qed.

Lemma located_all train l : (forall x, In x l -> In x train) -> exists ps, located train l ps.
Proof.
  induction l as [|x l IH]; intro H; [exists []; constructor|]. destruct IH as [ps F]; [intros y J; apply H; now right|].
  destruct (In_nth_error _ _ (H x (or_introl eq_refl))) as [p E]. exists (p :: ps). constructor; auto.
Qed.

Lemma located_in train l ps : NoDup train -> located train l ps -> forall p x, nth_error train p = Some x -> (In x l <-> In p ps).
Proof.
  intros ND F. induction F as [|y q l ps E F IH]; intros p x J; [cbn; tauto|]. cbn [In]. rewrite (IH p x J). split; intros [H|H]; auto; left.
  - subst y. apply (proj1 (NoDup_nth_error train) ND); [apply nth_error_Some; congruence|congruence].
  - subst q. congruence.
Qed.

Lemma located_lt train l ps : located train l ps -> forall p, In p ps -> (p < length train)%nat.
Proof. induction 1 as [|y q l ps E F IH]; intros p []; auto. subst q. apply nth_error_Some. congruence. Qed.

Lemma located_first train l ps : NoDup train -> located train l ps -> mapM (fun i => py_nth (np_where train i) 0) l = Ok ps.
Proof.
  intros ND F. induction F as [|x p l ps E F IH]; [reflexivity|]. cbn [mapM]. rewrite (where_one train x p ND E), IH. reflexivity.
Qed.

Lemma located_item train l ps : NoDup train -> located train l ps ->
  mapM (fun x => match np_where train x with [p] => Ok p | _ => Err ValueErr end) l = Ok ps.
Proof.
  intros ND F. induction F as [|x p l ps E F IH]; [reflexivity|]. cbn [mapM]. rewrite (where_one train x p ND E). cbn [bind]. rewrite IH. reflexivity.
Qed.

Lemma located_map train ps : (forall p, In p ps -> (p < length train)%nat) -> exists l, located train l ps /\ l = map (fun p => nth p train 0) ps.
Proof.
  intro H. eexists. split; [|reflexivity]. induction ps as [|p ps IH]; [constructor|]. constructor.
  - apply nth_error_nth'. apply H. now left.
  - apply IH. intros q J. apply H. now right.
Qed.

(** Values of [U] are at the positions that are not of [L]. *)
Lemma split_positions train L U ps : split_into train L U -> located train L ps ->
  forall p x, nth_error train p = Some x -> (In x U <-> ~ In p ps).
Proof.
  intros (ND & _ & H & D) F p x E. rewrite <- (located_in train L ps ND F p x E). split; [intros I J; exact (D x J I)|].
  intro N. assert (In x train) as I by (eapply nth_error_In; eauto). apply H in I. tauto.
Qed.

(** How many positions are outside [L]. *)
Lemma positions_left train L U ps : split_into train L U -> located train L ps ->
  exists us, Permutation (map (fun p => nth p train 0) us) U /\ NoDup us /\ forall p, In p us <-> (p < length train)%nat /\ ~ In p ps.
Proof.
  intros S F. pose proof S as (ND & NU & H & D).
  destruct (located_all train U) as [us FU]; [intros x J; apply H; now right|].
  exists us. assert (E : map (fun p => nth p train 0) us = U).
  { clear - FU. induction FU as [|x p l us E F IH]; [reflexivity|]. cbn. rewrite (nth_error_nth _ _ 0 E), IH. reflexivity. }
  split; [rewrite E; auto|]. split.
  - rewrite <- E in NU. eapply NoDup_map_inv; eauto.
  - intro p. split.
    + intro J. pose proof (located_lt _ _ _ FU p J) as L0. split; auto. destruct (nth_error train p) as [x|] eqn:X; [|apply nth_error_None in X; lia].
      apply (split_positions train L U ps S F p x X). apply (located_in train U us ND FU p x X). auto.
    + intros [L0 N]. destruct (nth_error train p) as [x|] eqn:X; [|apply nth_error_None in X; lia].
      apply (located_in train U us ND FU p x X). apply (split_positions train L U ps S F p x X). auto.
Qed.

Lemma existsb_in x (U : list Z) : existsb (Z.eqb x) U = true <-> In x U.
Proof. rewrite existsb_exists. split; [intros (y & I & E); apply Z.eqb_eq in E; now subst|intro I; exists x; split; auto; apply Z.eqb_refl]. Qed.

(** Enough room: a duplicate-free list of chosen positions outside [ps] shorter than [us] leaves one. *)
Lemma one_left (us got : list nat) : NoDup us -> (length got < length us)%nat -> exists u, In u us /\ ~ In u got.
Proof.
  intros ND L. destruct (Exists_dec (fun u => ~ In u got) us) as [E|E].
  - intro x. destruct (in_dec Nat.eq_dec x got); [right; tauto|left; auto].
  - apply Exists_exists in E. destruct E as (u & I & N). eauto.
  - exfalso. assert (incl us got). { intros u I. destruct (in_dec Nat.eq_dec u got); auto. exfalso. apply E. apply Exists_exists. eauto. }
    pose proof (NoDup_incl_length ND H). lia.
Qed.
