(** Proofs about label hierarchies. *)
From Coq Require Import List ZArith Lia Bool.
From Verif Require Import Base BaseFacts CostModel CostSpec CostProofs CostProofs2 CostProofs3 HierSpec.
Import ListNotations.
Local Open Scope nat_scope.

(** Reachability by a boolean relation among the first [C] numbers. *)
Section Reach.
  Variables (C : nat) (r : nat -> nat -> bool).
  Definition grow (f : nat -> bool) (c : nat) : bool := f c || existsb (fun p => f p && r p c) (seq 0 C).
  Fixpoint iter (k : nat) (f : nat -> bool) : nat -> bool := match k with O => f | S k' => grow (iter k' f) end.
  Definition count (f : nat -> bool) : nat := length (filter f (seq 0 C)).

  Lemma filter_le {A} (f g : A -> bool) l : (forall x, f x = true -> g x = true) -> length (filter f l) <= length (filter g l).
  Proof.
    intro H. induction l as [|x l IH]; cbn; [lia|]. specialize (H x).
    destruct (f x); [rewrite H by reflexivity; cbn; lia|]. destruct (g x); cbn; lia.
  Qed.

  Lemma filter_lt {A} (f g : A -> bool) l x : (forall x, f x = true -> g x = true) -> In x l -> f x = false -> g x = true ->
    length (filter f l) < length (filter g l).
  Proof.
    intros H I Fx Gx. induction l as [|z l IH]; [destruct I|]. cbn. destruct I as [->|I].
    - rewrite Fx, Gx. cbn. pose proof (filter_le f g l H). lia.
    - specialize (IH I). pose proof (H z). destruct (f z); [rewrite H0 by reflexivity; cbn; lia|]. destruct (g z); cbn; lia.
  Qed.

  Lemma grow_mono f c : f c = true -> grow f c = true.
  Proof. intro H. unfold grow. now rewrite H. Qed.

  Definition stable (f : nat -> bool) : Prop := forall c, c < C -> grow f c = f c.

  Lemma stable_dec f : stable f \/ exists c, c < C /\ f c = false /\ grow f c = true.
  Proof.
    destruct (existsb (fun c => negb (f c) && grow f c) (seq 0 C)) eqn:E.
    - right. apply existsb_exists in E. destruct E as (c & Hc & E). apply in_seq in Hc. apply andb_prop in E.
      destruct E as [E1 E2]. exists c. split; [lia|]. split; [now apply negb_true_iff|exact E2].
    - left. intros c Hc. destruct (f c) eqn:F; [now apply grow_mono|]. destruct (grow f c) eqn:G; [|reflexivity].
      exfalso. assert (X : existsb (fun c => negb (f c) && grow f c) (seq 0 C) = true).
      { apply existsb_exists. exists c. split; [apply in_seq; lia|]. now rewrite F, G. }
      congruence.
  Qed.

  Lemma stable_grow f : stable f -> stable (grow f).
  Proof.
    intros H c Hc. unfold grow at 1. rewrite (H c Hc).
    assert (E : existsb (fun p => grow f p && r p c) (seq 0 C) = existsb (fun p => f p && r p c) (seq 0 C)).
    { assert (X : forall l, (forall p, In p l -> p < C) ->
        existsb (fun p => grow f p && r p c) l = existsb (fun p => f p && r p c) l).
      { induction l as [|p l IH]; intro B; [reflexivity|]. cbn. rewrite (H p) by (apply B; now left).
        rewrite IH; [reflexivity|]. intros; apply B; now right. }
      apply X. intros p Hp. apply in_seq in Hp. lia. }
    rewrite E. specialize (H c Hc). exact H.
  Qed.

  Lemma iter_stable f k : stable (iter k f) \/ k <= count (iter k f).
  Proof.
    induction k as [|k [IH|IH]]; cbn [iter].
    - right. lia.
    - left. now apply stable_grow.
    - destruct (stable_dec (iter k f)) as [S|(c & Hc & F & G)]; [left; now apply stable_grow|]. right.
      assert (count (iter k f) < count (grow (iter k f))); [|lia].
      unfold count. apply (filter_lt _ _ _ c); auto; [intro; apply grow_mono|apply in_seq; lia].
  Qed.

  Definition reach (f : nat -> bool) : nat -> bool := iter (S C) f.

  Lemma reach_stable f : stable (reach f).
  Proof.
    destruct (iter_stable f (S C)) as [S|L]; [exact S|]. exfalso. unfold count in L.
    assert (length (filter (iter (S C) f) (seq 0 C)) <= C); [|lia].
    pose proof (filter_le (iter (S C) f) (fun _ => true) (seq 0 C) (fun _ _ => eq_refl)) as X.
    assert (Y : forall l : list nat, filter (fun _ => true) l = l) by (induction l as [|x l IH]; cbn; congruence).
    rewrite Y, seq_length in X. exact X.
  Qed.

  Lemma reach_closed f p c : p < C -> c < C -> reach f p = true -> r p c = true -> reach f c = true.
  Proof.
    intros Hp Hc F R. rewrite <- (reach_stable f c Hc). unfold grow.
    assert (X : existsb (fun p => reach f p && r p c) (seq 0 C) = true).
    { apply existsb_exists. exists p. split; [apply in_seq; lia|]. now rewrite F, R. }
    rewrite X. apply orb_true_r.
  Qed.

  Lemma reach_start f c : f c = true -> reach f c = true.
  Proof.
    unfold reach. generalize (S C) as k. induction k as [|k IH]; intro H; cbn [iter]; [exact H|]. apply grow_mono. auto.
  Qed.

  Lemma reach_sound f (P : nat -> Prop) : (forall c, f c = true -> P c) ->
    (forall p c, P p -> r p c = true -> P c) -> forall c, reach f c = true -> P c.
  Proof.
    intros H0 Hs. unfold reach. generalize (S C) as k. induction k as [|k IH]; intros c H; cbn [iter] in H; [now apply H0|].
    unfold grow in H. apply orb_prop in H. destruct H as [H|H]; [now apply IH|].
    apply existsb_exists in H. destruct H as (p & _ & H). apply andb_prop in H. destruct H as [H1 H2].
    apply (Hs p); auto.
  Qed.
End Reach.

(** Ancestors. *)

Lemma above_trans R a b c : above R a b -> above R b c -> above R a c.
Proof. intros H1 H2. induction H1 as [|a b d Hr H IH]; [exact H2|]. eapply above_step; eauto. Qed.

Lemma above_one (R : nat -> nat -> Prop) a b : R a b -> above R a b.
Proof. intro H. eapply above_step; [exact H|apply above_self]. Qed.

Lemma consistent_above R n y i a c : consistent R n y -> i < n -> above R a c -> label_of y i c = 1%Z -> label_of y i a = 1%Z.
Proof. intros K Hi H. induction H as [|a b c Hr H IH]; intro L; [exact L|]. apply (K i a b Hi Hr). now apply IH. Qed.

(** A pair known to be settled. *)
Lemma settled_if R n C known y i d : labelling n C y -> consistent R n y -> i < n -> d < C ->
  (forall q, In q known -> fst q < n /\ snd q < C) ->
  (label_of y i d = 1%Z /\ exists e, In (i, e) known /\ above R d e /\ label_of y i e = 1%Z) \/
  (label_of y i d = (-1)%Z /\ exists a, In (i, a) known /\ above R a d /\ label_of y i a = (-1)%Z) ->
  settled R n C known y (i, d).
Proof.
  intros [M V] K Hi Hd B [(Ld & e & Ie & Ab & Le)|(Ld & a & Ia & Ab & La)] y' [M' V'] K' A; cbn [fst snd].
  - rewrite Ld. apply (consistent_above R n y' i d e K' Hi Ab). pose proof (A _ Ie) as X. cbn [fst snd] in X. congruence.
  - rewrite Ld. destruct (V' i d Hi Hd) as [X|X]; [|exact X].
    apply (consistent_above R n y' i a d K' Hi Ab) in X.
    pose proof (A _ Ia) as Y. cbn [fst snd] in Y. rewrite La in Y. rewrite X in Y. discriminate.
Qed.

(** Changing row [i] at the labels flagged in [f] to [v]. *)
Definition patched (n C : nat) (y : list (list Z)) (i : nat) (f : nat -> bool) (v : Z) : list (list Z) :=
  map (fun i' => map (fun j => if Nat.eqb i' i && f j then v else label_of y i' j) (seq 0 C)) (seq 0 n).

Lemma patched_label n C y i f v i' j : i' < n -> j < C ->
  label_of (patched n C y i f v) i' j = if Nat.eqb i' i && f j then v else label_of y i' j.
Proof. intros Hi Hj. unfold label_of at 1, patched. now apply (matrix_nth (fun i' j => if Nat.eqb i' i && f j then v else label_of y i' j)). Qed.

Lemma patched_labelling n C y i f v : labelling n C y -> (v = 1 \/ v = -1)%Z -> labelling n C (patched n C y i f v).
Proof.
  intros [M V] Hv. split; [apply matrix_map|]. intros i' j Hi Hj. rewrite patched_label by assumption.
  destruct (Nat.eqb i' i && f j); auto.
Qed.

Section Unsettled.
  Variables (tree : list (list Z)) (n C : nat).
  Hypothesis Ht : matrix_of C C tree.
  Let down p c := Z.eqb (nth c (nth p tree []) 0%Z) 1.
  Let up p c := down c p.

  Lemma down_child p c : down p c = true <-> child tree p c.
  Proof. unfold down, child. apply Z.eqb_eq. Qed.

  Lemma child_range p c : child tree p c -> p < C /\ c < C.
  Proof. apply out_row. exact Ht. Qed.

  Lemma below_reach d c : d < C -> c < C -> reach C down (Nat.eqb d) c = true <-> above (child tree) d c.
  Proof.
    intros Hd Hc. split.
    - apply (reach_sound C down (Nat.eqb d) (fun c => above (child tree) d c)).
      + intros x Hx. apply Nat.eqb_eq in Hx. subst. apply above_self.
      + intros p x H R. apply down_child in R. eapply above_trans; [exact H|now apply above_one].
    - intro H. assert (X : forall a, above (child tree) a c -> reach C down (Nat.eqb d) a = true -> a < C -> reach C down (Nat.eqb d) c = true).
      { clear H. intros a H. induction H as [|a b c Hr H IH]; intros F Ha; [exact F|].
        pose proof (child_range a b Hr) as [_ Hb]. apply IH; auto.
        apply (reach_closed C down _ a b); auto. now apply down_child. }
      apply (X d); auto. apply reach_start, Nat.eqb_refl.
  Qed.

  Lemma above_reach d c : d < C -> c < C -> reach C up (Nat.eqb d) c = true <-> above (child tree) c d.
  Proof.
    intros Hd Hc. split.
    - apply (reach_sound C up (Nat.eqb d) (fun c => above (child tree) c d)).
      + intros x Hx. apply Nat.eqb_eq in Hx. subst. apply above_self.
      + intros p x H R. apply down_child in R. eapply above_step; [exact R|exact H].
    - intro H. induction H as [a|a b c Hr H IH].
      + apply reach_start, Nat.eqb_refl.
      + pose proof (child_range a b Hr) as [_ Hb]. apply (reach_closed C up _ b a); auto. now apply down_child.
  Qed.

  (** A positive label with no known positive label below it could be negative. *)
  Lemma could_be_negative known y i d : labelling n C y -> consistent (child tree) n y -> i < n -> d < C ->
    (forall q, In q known -> fst q < n /\ snd q < C) ->
    (forall e, In (i, e) known -> above (child tree) d e -> label_of y i e <> 1%Z) ->
    exists y', labelling n C y' /\ consistent (child tree) n y' /\
      (forall q, In q known -> label_of y' (fst q) (snd q) = label_of y (fst q) (snd q)) /\ label_of y' i d = (-1)%Z.
  Proof.
    intros L K Hi Hd B H.
    exists (patched n C y i (reach C down (Nat.eqb d)) (-1)%Z). split; [|split; [|split]].
    - apply patched_labelling; auto.
    - intros i' p c Hi' R. pose proof (child_range p c R) as [Hp Hc]. rewrite !patched_label by assumption.
      destruct (Nat.eqb i' i) eqn:Ei; cbn [andb]; [|now apply K].
      destruct (reach C down (Nat.eqb d) c) eqn:Ec; [discriminate|].
      destruct (reach C down (Nat.eqb d) p) eqn:Ep; [|now apply K].
      exfalso. rewrite (reach_closed C down _ p c Hp Hc Ep) in Ec; [discriminate|now apply down_child].
    - intros [i' e] I. destruct (B _ I) as [B1 B2]. cbn [fst snd] in *. rewrite patched_label by assumption.
      destruct (Nat.eqb_spec i' i) as [->|]; cbn [andb]; [|reflexivity].
      destruct (reach C down (Nat.eqb d) e) eqn:E; [|reflexivity].
      apply below_reach in E; auto. destruct L as [_ V]. destruct (V i e Hi B2) as [X|X]; [|congruence].
      exfalso. now apply (H e I E).
    - rewrite patched_label by assumption. rewrite Nat.eqb_refl. cbn [andb].
      rewrite reach_start; [reflexivity|apply Nat.eqb_refl].
  Qed.

  (** A negative label with no known negative label above it could be positive. *)
  Lemma could_be_positive known y i d : labelling n C y -> consistent (child tree) n y -> i < n -> d < C ->
    (forall q, In q known -> fst q < n /\ snd q < C) ->
    (forall a, In (i, a) known -> above (child tree) a d -> label_of y i a <> (-1)%Z) ->
    exists y', labelling n C y' /\ consistent (child tree) n y' /\
      (forall q, In q known -> label_of y' (fst q) (snd q) = label_of y (fst q) (snd q)) /\ label_of y' i d = 1%Z.
  Proof.
    intros L K Hi Hd B H.
    exists (patched n C y i (reach C up (Nat.eqb d)) 1%Z). split; [|split; [|split]].
    - apply patched_labelling; auto.
    - intros i' p c Hi' R. pose proof (child_range p c R) as [Hp Hc]. rewrite !patched_label by assumption.
      destruct (Nat.eqb i' i) eqn:Ei; cbn [andb]; [|now apply K].
      destruct (reach C up (Nat.eqb d) p) eqn:Ep; [reflexivity|].
      destruct (reach C up (Nat.eqb d) c) eqn:Ec; [|now apply K].
      exfalso. rewrite (reach_closed C up _ c p Hc Hp Ec) in Ep; [discriminate|now apply down_child].
    - intros [i' e] I. destruct (B _ I) as [B1 B2]. cbn [fst snd] in *. rewrite patched_label by assumption.
      destruct (Nat.eqb_spec i' i) as [->|]; cbn [andb]; [|reflexivity].
      destruct (reach C up (Nat.eqb d) e) eqn:E; [|reflexivity].
      apply above_reach in E; auto. destruct L as [_ V]. destruct (V i e Hi B2) as [X|X]; [congruence|].
      exfalso. now apply (H e I E).
    - rewrite patched_label by assumption. rewrite Nat.eqb_refl. cbn [andb].
      rewrite reach_start; [reflexivity|apply Nat.eqb_refl].
  Qed.

  (** Is there a known label with value [v] in the reach of [d]? *)
  Lemma known_dec known y (i d : nat) v (g : nat -> nat -> bool) : (exists e, In (i, e) known /\ g d e = true /\ label_of y i e = v) \/
    (forall e, In (i, e) known -> g d e = true -> label_of y i e <> v).
  Proof.
    destruct (existsb (fun q => Nat.eqb (fst q) i && g d (snd q) && Z.eqb (label_of y i (snd q)) v) known) eqn:E.
    - left. apply existsb_exists in E. destruct E as ([i' e] & I & E). cbn [fst snd] in E.
      apply andb_prop in E. destruct E as [E E3]. apply andb_prop in E. destruct E as [E1 E2].
      apply Nat.eqb_eq in E1. apply Z.eqb_eq in E3. subst. eauto.
    - right. intros e I G V. assert (X : existsb (fun q => Nat.eqb (fst q) i && g d (snd q) && Z.eqb (label_of y i (snd q)) v) known = true).
      { apply existsb_exists. exists (i, e). split; [exact I|]. cbn [fst snd]. now rewrite Nat.eqb_refl, G, V, Z.eqb_refl. }
      congruence.
  Qed.

  Lemma settled_only known y i d : labelling n C y -> consistent (child tree) n y -> i < n -> d < C ->
    (forall q, In q known -> fst q < n /\ snd q < C) -> settled (child tree) n C known y (i, d) ->
    (label_of y i d = 1%Z /\ exists e, In (i, e) known /\ above (child tree) d e /\ label_of y i e = 1%Z) \/
    (label_of y i d = (-1)%Z /\ exists a, In (i, a) known /\ above (child tree) a d /\ label_of y i a = (-1)%Z).
  Proof.
    intros L K Hi Hd B S. destruct (proj2 L i d Hi Hd) as [Ld|Ld]; [left|right]; split; try exact Ld.
    - destruct (known_dec known y i d 1%Z (fun d e => reach C down (Nat.eqb d) e)) as [(e & I & G & V)|N].
      + exists e. split; [exact I|]. split; [|exact V]. apply below_reach; auto. apply (B _ I).
      + exfalso. destruct (could_be_negative known y i d L K Hi Hd B) as (y' & L' & K' & A & X).
        { intros e I Ab. apply (N e I). apply below_reach; auto. apply (B _ I). }
        specialize (S y' L' K' A). cbn [fst snd] in S. rewrite X, Ld in S. discriminate.
    - destruct (known_dec known y i d (-1)%Z (fun d e => reach C up (Nat.eqb d) e)) as [(e & I & G & V)|N].
      + exists e. split; [exact I|]. split; [|exact V]. apply above_reach; auto. apply (B _ I).
      + exfalso. destruct (could_be_positive known y i d L K Hi Hd B) as (y' & L' & K' & A & X).
        { intros e I Ab. apply (N e I). apply above_reach; auto. apply (B _ I). }
        specialize (S y' L' K' A). cbn [fst snd] in S. rewrite X, Ld in S. discriminate.
  Qed.
End Unsettled.
