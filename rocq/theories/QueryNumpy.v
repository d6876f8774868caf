(** One numpy that meets the assumptions, for the examples: stable sorting, full sorting for [partition]. *)
From Verif Require Import Base BaseFacts MetricModel MetricProofs MiscSpec QueryModel QuerySpec.
From Coq Require Import QArith Lqa.

Definition le2 (a b : nat * Q) : bool := Qle_bool (snd a) (snd b).
Definition np0 (lg : Q -> Q) : numpy :=
  {| argsort := fun l => map fst (isort le2 (combine (seq 0 (length l)) l));
     partition := fun _ row => isort Qle_bool row;
     log := lg |}.

Lemma Qle_bool_total a b : Qle_bool a b = false -> (b <= a)%Q.
Proof. intro E. destruct (Qlt_le_dec a b) as [H|H]; auto. apply Qlt_le_weak, Qle_bool_iff in H. congruence. Qed.

Lemma fst_combine (l : list Q) : forall k, map fst (combine (seq k (length l)) l) = seq k (length l).
Proof. induction l as [|x l IH]; intro k; cbn; [reflexivity|]. now rewrite IH. Qed.

Lemma in_combine_nth (l : list Q) : forall k p x, In (p, x) (combine (seq k (length l)) l) -> (k <= p)%nat /\ nth (p - k) l 0%Q = x.
Proof.
  induction l as [|y l IH]; intros k p x H; cbn in H; [destruct H|]. destruct H as [E|H].
  - injection E as <- <-. rewrite Nat.sub_diag. auto.
  - apply IH in H. destruct H as [H E]. split; [lia|]. replace (p - k)%nat with (S (p - S k)) by lia. auto.
Qed.

Lemma sorted_map {A} (R : A -> A -> Prop) (S : nat -> nat -> Prop) (f : A -> nat) l : (forall a b, In a l -> In b l -> R a b -> S (f a) (f b)) ->
  StronglySorted R l -> StronglySorted S (map f l).
Proof.
  intros H SS. induction SS as [|a l SS IH F]; cbn; [constructor|]. constructor.
  - apply IH. intros x y X Y. apply H; now right.
  - rewrite Forall_forall in F |- *. intros b J. apply in_map_iff in J. destruct J as (c & <- & J). apply H; [now left|now right|auto].
Qed.

Lemma sorted_nth (l : list Q) : StronglySorted Qle l -> forall i j, (i < j < length l)%nat -> (nth i l 0 <= nth j l 0)%Q.
Proof.
  induction 1 as [|a l SS IH F]; intros i j [I J]; cbn in J; [lia|]. rewrite Forall_forall in F.
  destruct j as [|j]; [lia|]. destruct i as [|i]; cbn; [apply F, nth_In; lia|apply IH; lia].
Qed.

Lemma np0_ok lg : numpy_ok (np0 lg).
Proof.
  split.
  - intro l. cbn. split.
    + rewrite isort_perm, fst_combine. reflexivity.
    + eapply sorted_map; [|apply (isort_sorted le2 (fun a b => (snd a <= snd b)%Q))].
      * intros [p x] [q y] X Y H. apply (Permutation_in _ (isort_perm _ _)) in X, Y. apply in_combine_nth in X, Y. rewrite Nat.sub_0_r in X, Y.
        cbn [fst snd] in *. destruct X as [_ ->], Y as [_ ->]. exact H.
      * intros x y E. apply Qle_bool_iff. exact E.
      * intros x y E. apply Qle_bool_total. exact E.
      * intros x y z X Y. eapply Qle_trans; eauto.
  - intros ks row KL. cbn. split; [symmetry; apply isort_perm|].
    assert (SS : StronglySorted Qle (isort Qle_bool row)).
    { apply isort_sorted; [intros x y E; now apply Qle_bool_iff|intros x y E; now apply Qle_bool_total|intros x y z; apply Qle_trans]. }
    intros k i K I. pose proof (Permutation_length (isort_perm Qle_bool row)) as L. split; intro H.
    + specialize (KL k K). apply sorted_nth; [auto|lia].
    + apply sorted_nth; auto. lia.
Qed.
