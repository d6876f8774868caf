(** [set_after] as a left fold of elementary set updates. *)
From Verif Require Import Base SetSpec.

Definition set_step {K} (S : K -> Prop) (r : request K) : K -> Prop :=
  match r with
  | Put k => fun x => S x \/ x = k
  | Take k => fun x => S x /\ x <> k
  end.
Definition set_fold {K} (S : K -> Prop) rs := fold_left set_step rs S.

Lemma set_fold_ext {K} (rs : list (request K)) : forall S S', (forall k, S k <-> S' k) ->
  forall k, set_fold S rs k <-> set_fold S' rs k.
Proof.
  induction rs as [|r rs IH]; simpl; intros S S' H k; auto.
  apply IH. intro x. destruct r; simpl; rewrite H; reflexivity.
Qed.

Lemma set_fold_app {K} (a b : list (request K)) S k :
  set_fold S (a ++ b) k <-> set_fold (set_fold S a) b k.
Proof. unfold set_fold. now rewrite fold_left_app. Qed.

Lemma last_request_exists {K} (dec : forall a b : K, {a = b} + {a <> b}) (k : K) rs :
  exists o, last_request k rs o.
Proof.
  induction rs as [|r rs IH] using rev_ind.
  - exists None. constructor. intros r [].
  - destruct (dec (about r) k) as [E|E].
    + exists (Some r). apply lr_some with (post := []); auto.
    + destruct IH as [o H]. exists o. destruct H as [rs H|pre r0 post H1 H2].
      * constructor. intros r' Hr. apply in_app_iff in Hr. destruct Hr as [Hr|[<-|[]]]; auto.
      * rewrite <- app_assoc. simpl. constructor; auto.
        intros r' Hr. apply in_app_iff in Hr. destruct Hr as [Hr|[<-|[]]]; auto.
Qed.

Lemma set_fold_last {K} (S : K -> Prop) rs k o : last_request k rs o ->
  (set_fold S rs k <-> match o with Some (Put _) => True | Some (Take _) => False | None => S k end).
Proof.
  assert (X : forall rs S, (forall r, In r rs -> about r <> k) -> (set_fold S rs k <-> S k)).
  { clear. induction rs as [|r rs IH]; simpl; intros S H; [reflexivity|].
    unfold set_fold in *. simpl. rewrite IH by (intros; apply H; now right).
    specialize (H r (or_introl eq_refl)). destruct r; simpl in *; intuition congruence. }
  intros [rs' H|pre r post H1 H2].
  - now apply X.
  - unfold set_fold. rewrite fold_left_app. simpl.
    fold (set_fold S pre). fold (set_fold (set_step (set_fold S pre) r) post).
    rewrite X by exact H2. destruct r; simpl in *; subst; intuition.
Qed.

Lemma set_after_fold {K} (dec : forall a b : K, {a = b} + {a <> b}) (S : K -> Prop) rs k :
  set_after S rs k <-> set_fold S rs k.
Proof.
  unfold set_after. split.
  - intro H. destruct (last_request_exists dec k rs) as [o Ho].
    apply (set_fold_last S rs k o Ho). now apply H.
  - intros H o Ho. now apply (set_fold_last S rs k o Ho).
Qed.

Lemma set_fold_puts {K} (l : list K) : forall S k, set_fold S (map Put l) k <-> S k \/ In k l.
Proof.
  induction l as [|x l IH]; intros S k; simpl; [tauto|].
  unfold set_fold in *. simpl. rewrite IH. simpl. intuition.
Qed.

Lemma set_fold_takes {K} (l : list K) : forall S k, set_fold S (map Take l) k <-> S k /\ ~ In k l.
Proof.
  induction l as [|x l IH]; intros S k; simpl; [tauto|].
  unfold set_fold in *. simpl. rewrite IH. simpl. intuition.
Qed.
