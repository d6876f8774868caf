(** Generic facts on lists used by the proofs. *)
From Verif Require Import Base.

Lemma NoDup_snoc {A} (l : list A) x : NoDup l -> ~ In x l -> NoDup (l ++ [x]).
Proof.
  intros N H. apply (Permutation_NoDup (l := x :: l)).
  - apply Permutation_cons_append.
  - now constructor.
Qed.

Lemma mapM_ok {A B} (f : A -> res B) (g : A -> B) l :
  (forall x, In x l -> f x = Ok (g x)) -> mapM f l = Ok (map g l).
Proof.
  induction l as [|x l IH]; intro H; simpl; auto.
  rewrite H by now left. simpl. rewrite IH; auto. intros; apply H; now right.
Qed.

Lemma mapM_inv {A B} (f : A -> res B) l r : mapM f l = Ok r ->
  Forall2 (fun x y => f x = Ok y) l r.
Proof.
  revert r. induction l as [|x l IH]; simpl; intros r H.
  - injection H as <-. constructor.
  - destruct (f x) eqn:E; try discriminate. simpl in H.
    destruct (mapM f l) eqn:E'; try discriminate. injection H as <-. constructor; auto.
Qed.

Lemma mapM_length {A B} (f : A -> res B) l r : mapM f l = Ok r -> length r = length l.
Proof. intro H. apply mapM_inv in H. now induction H; simpl; congruence. Qed.

Lemma count_app {A} (f : A -> bool) l l' : count f (l ++ l') = count f l + count f l'.
Proof. unfold count. now rewrite filter_app, app_length. Qed.

Lemma count_cons {A} (f : A -> bool) x l : count f (x :: l) = (if f x then 1 else 0) + count f l.
Proof. unfold count. simpl. now destruct (f x). Qed.

Lemma count_le {A} (f : A -> bool) l : count f l <= length l.
Proof. unfold count. induction l as [|x l IH]; simpl; [lia|]. destruct (f x); simpl; lia. Qed.

Lemma count_perm {A} (f : A -> bool) l l' : Permutation l l' -> count f l = count f l'.
Proof.
  induction 1; rewrite ?count_cons; auto; lia.
Qed.

Lemma count_ext_in {A} (f g : A -> bool) l : (forall x, In x l -> f x = g x) -> count f l = count g l.
Proof.
  induction l as [|x l IH]; intro H; rewrite ?count_cons; auto.
  rewrite (H x) by now left. rewrite IH; auto. intros; apply H; now right.
Qed.

Lemma count_map {A B} (f : B -> bool) (g : A -> B) l : count f (map g l) = count (fun x => f (g x)) l.
Proof. induction l as [|x l IH]; simpl; rewrite ?count_cons; auto. Qed.

Lemma count_zero {A} (f : A -> bool) l : count f l = 0 <-> forall x, In x l -> f x = false.
Proof.
  induction l as [|x l IH]; rewrite ?count_cons.
  - unfold count; simpl. intuition.
  - destruct (f x) eqn:E; split; intro H; try lia.
    + specialize (H x (or_introl eq_refl)). congruence.
    + intros y [<-|Hy]; auto. apply IH; auto.
    + simpl. apply IH. intros; apply H; now right.
Qed.

Lemma count_neg {A} (f : A -> bool) l : count f l + count (fun x => negb (f x)) l = length l.
Proof. induction l as [|x l IH]; rewrite ?count_cons; simpl; auto. destruct (f x); simpl; lia. Qed.

Lemma nth_error_range n i : i < n -> nth_error (range n) i = Some i.
Proof.
  intro H. unfold range. rewrite (nth_error_nth' _ 0) by now rewrite seq_length.
  now rewrite seq_nth.
Qed.

Lemma in_range n i : In i (range n) <-> i < n.
Proof. unfold range. rewrite in_seq. lia. Qed.

Lemma in_zrange n i : In i (zrange n) <-> (0 <= i < n)%Z.
Proof.
  unfold zrange. rewrite in_map_iff. split.
  - intros (k & <- & H). apply in_seq in H. lia.
  - intro H. exists (Z.to_nat i). split; [lia|]. apply in_seq. lia.
Qed.

Lemma NoDup_zrange n : NoDup (zrange n).
Proof.
  unfold zrange. apply FinFun.Injective_map_NoDup; [intros a b; lia|apply seq_NoDup].
Qed.

Lemma zrange_length n : length (zrange n) = Z.to_nat n.
Proof. unfold zrange. now rewrite map_length, seq_length. Qed.

Lemma zsum_app l l' : (zsum (l ++ l') = zsum l + zsum l')%Z.
Proof. induction l; simpl; lia. Qed.

Lemma zsum_perm l l' : Permutation l l' -> zsum l = zsum l'.
Proof. induction 1; simpl; lia. Qed.

Lemma NoDup_app_intro {A} (l l' : list A) : NoDup l -> NoDup l' ->
  (forall x, In x l -> ~ In x l') -> NoDup (l ++ l').
Proof.
  induction 1 as [|x l Hx N IH]; simpl; auto. intros N' D. constructor.
  - rewrite in_app_iff. intros [H|H]; [auto|]. apply (D x); auto.
  - apply IH; auto.
Qed.

Lemma NoDup_app_inv {A} (l l' : list A) : NoDup (l ++ l') ->
  NoDup l /\ NoDup l' /\ (forall x, In x l -> ~ In x l').
Proof.
  induction l as [|x l IH]; simpl; intro H.
  - repeat split; auto. constructor.
  - inversion H as [|? ? H1 H2]; subst. destruct (IH H2) as (A1 & A2 & A3). repeat split; auto.
    + constructor; auto. intro. apply H1, in_or_app. now left.
    + intros y [<-|Hy] Hy'; [apply H1, in_or_app; now right | now apply (A3 y)].
Qed.
