(** Python dicts as association lists in insertion order, with their basic facts. *)
From Verif Require Import Base.

Section Dict.
  Context {K V : Type} (eqb : K -> K -> bool).

  (** [d.get(k)] *)
  Fixpoint dget (k : K) (d : list (K * V)) : option V :=
    match d with
    | [] => None
    | (k', v) :: d' => if eqb k k' then Some v else dget k d'
    end.
  (** [d[k] = v] *)
  Fixpoint dset (k : K) (v : V) (d : list (K * V)) : list (K * V) :=
    match d with
    | [] => [(k, v)]
    | (k', v') :: d' => if eqb k k' then (k', v) :: d' else (k', v') :: dset k v d'
    end.
  (** [d.pop(k)] on a present key *)
  Fixpoint ddel (k : K) (d : list (K * V)) : list (K * V) :=
    match d with
    | [] => []
    | (k', v') :: d' => if eqb k k' then d' else (k', v') :: ddel k d'
    end.
  (** [d.update(items)], [dict(items)] *)
  Definition dset_all (items : list (K * V)) (d : list (K * V)) : list (K * V) :=
    fold_left (fun d e => dset (fst e) (snd e) d) items d.

  Hypothesis eqb_ok : forall a b, eqb a b = true <-> a = b.

  Lemma eqb_same k : eqb k k = true.
  Proof using eqb_ok. now apply eqb_ok. Qed.
  Lemma eqb_neq a b : a <> b -> eqb a b = false.
  Proof using eqb_ok. intro H. destruct (eqb a b) eqn:E; auto. apply eqb_ok in E. contradiction. Qed.

  Lemma dget_dset k v d k' : dget k' (dset k v d) = if eqb k' k then Some v else dget k' d.
  Proof using eqb_ok.
    induction d as [|[a w] d IH]; simpl.
    - reflexivity.
    - destruct (eqb k a) eqn:E; simpl.
      + apply eqb_ok in E. subst a. destruct (eqb k' k); reflexivity.
      + destruct (eqb k' a) eqn:E'; auto. apply eqb_ok in E'. subst a.
        destruct (eqb k' k) eqn:E2; auto. apply eqb_ok in E2. subst k'. rewrite eqb_same in E. discriminate.
  Qed.

  Lemma dget_in k d : dget k d = None <-> ~ In k (map fst d).
  Proof using eqb_ok.
    induction d as [|[a w] d IH]; simpl; [tauto|].
    destruct (eqb k a) eqn:E.
    - apply eqb_ok in E. subst. split; [discriminate|intro H; exfalso; apply H; now left].
    - rewrite IH. split; intro H; [intros [->|H']; [rewrite eqb_same in E; discriminate|tauto]|tauto].
  Qed.

  Lemma dget_some k d : (exists v, dget k d = Some v) <-> In k (map fst d).
  Proof using eqb_ok.
    split.
    - intros [v H]. destruct (in_dec (fun a b => ltac:(destruct (eqb a b) eqn:E; [left; now apply eqb_ok|
        right; intro X; apply eqb_ok in X; congruence])) k (map fst d)) as [I|N]; auto.
      apply dget_in in N. congruence.
    - intro H. destruct (dget k d) eqn:E; eauto. apply dget_in in E. contradiction.
  Qed.

  Lemma dset_keys k v d x : In x (map fst (dset k v d)) <-> x = k \/ In x (map fst d).
  Proof using eqb_ok.
    induction d as [|[a w] d IH]; simpl; [intuition|].
    destruct (eqb k a) eqn:E; simpl; [apply eqb_ok in E; subst; intuition|rewrite IH; intuition].
  Qed.

  Lemma dset_nodup k v d : NoDup (map fst d) -> NoDup (map fst (dset k v d)).
  Proof using eqb_ok.
    induction d as [|[a w] d IH]; simpl; intro H; [repeat constructor; auto|].
    inversion H; subst. destruct (eqb k a) eqn:E; simpl; [constructor; auto|].
    constructor; auto. rewrite dset_keys. intros [->|?]; [rewrite eqb_same in E; discriminate|contradiction].
  Qed.

  Lemma ddel_incl k d x : In x (map fst (ddel k d)) -> In x (map fst d).
  Proof using. induction d as [|[a w] d IH]; simpl; auto. destruct (eqb k a); simpl; tauto. Qed.

  Lemma ddel_nodup k d : NoDup (map fst d) -> NoDup (map fst (ddel k d)).
  Proof using.
    induction d as [|[a w] d IH]; simpl; intro H; auto. inversion H; subst.
    destruct (eqb k a); simpl; auto. constructor; auto. intro X. apply ddel_incl in X. contradiction.
  Qed.

  Lemma dget_ddel k d k' : NoDup (map fst d) -> dget k' (ddel k d) = if eqb k' k then None else dget k' d.
  Proof using eqb_ok.
    induction d as [|[a w] d IH]; simpl; intro H; [destruct (eqb k' k); auto|].
    inversion H; subst. destruct (eqb k a) eqn:E.
    - apply eqb_ok in E. subst a. destruct (eqb k' k) eqn:E'; auto.
      apply eqb_ok in E'. subst. now apply dget_in.
    - simpl. rewrite IH by auto. destruct (eqb k' a) eqn:E'; auto. apply eqb_ok in E'. subst a.
      destruct (eqb k' k) eqn:E2; auto. apply eqb_ok in E2. subst. rewrite eqb_same in E. discriminate.
  Qed.

  Lemma dset_all_nodup items d : NoDup (map fst d) -> NoDup (map fst (dset_all items d)).
  Proof using eqb_ok.
    revert d. induction items as [|e it IH]; simpl; auto. intros. apply IH, dset_nodup; auto.
  Qed.
End Dict.
