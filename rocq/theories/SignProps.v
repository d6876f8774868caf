(** C122: the batches of BMDR and SPAL do not depend on the names of the two classes. *)
From Verif Require Import Base BaseFacts MiscModel QueryModel BatchModel BatchProps BatchProps2 MetricModel QueryNumpy SignSpec SignProofs.
From Coq Require Import QArith Qabs Lqa.
Local Open Scope Z_scope.

Lemma list_ext {A} : forall l l' : list A, (forall i, nth_error l i = nth_error l' i) -> l = l'.
Proof.
  induction l as [|a l IH]; intros [|b l'] H; auto.
  - specialize (H O). discriminate.
  - specialize (H O). discriminate.
  - pose proof (H O) as E. injection E as ->. f_equal. apply IH. intro i. exact (H (S i)).
Qed.

(** The signs kept for labels: two different labels get 1 and -1. *)
Lemma signed_signs y s : signed_labels y = Ok s ->
  length s = length y /\
  (forall i a, nth_error y i = Some a -> exists u, nth_error s i = Some u /\ (u = 1 \/ u = -1)) /\
  (forall i j a b u v, nth_error y i = Some a -> nth_error y j = Some b -> nth_error s i = Some u -> nth_error s j = Some v ->
     (a = b <-> u = v)).
Proof.
  intro H. pose proof (C85_labels y) as C. rewrite H in C. destruct C as (a & b & L & IN & K1 & K2).
  assert (D : (a = -1 /\ b = 1) \/ ~ (a = -1 /\ b = 1)) by lia. destruct D as [D|D].
  - rewrite (K1 D). split; auto. split.
    + intros i v E. exists v. split; auto. apply nth_error_In in E. apply IN in E. lia.
    + intros i j v w u u' E1 E2 E3 E4. rewrite E1 in E3. rewrite E2 in E4. injection E3 as <-. injection E4 as <-. tauto.
  - specialize (K2 D). split; [clear - K2; induction K2; cbn; congruence|].
    assert (P : forall i v, nth_error y i = Some v -> exists u, nth_error s i = Some u /\ ((v = a /\ u = 1) \/ (v = b /\ u = -1))).
    { clear - K2. induction K2 as [|v u y s H K2 IH]; intros [|i] w E; try discriminate; cbn in *; [injection E as <-; eauto|eauto]. }
    split.
    + intros i v E. destruct (P i v E) as (u & U & W). exists u. split; auto. lia.
    + intros i j v w u u' E1 E2 E3 E4. destruct (P i v E1) as (x & X & WX). destruct (P j w E2) as (x' & X' & WX').
      rewrite X in E3. rewrite X' in E4. injection E3 as <-. injection E4 as <-. lia.
Qed.

(** Two labellings that divide the instances alike get the same signs, or opposite ones. *)
Theorem C122_signs : forall y y' s s', signed_labels y = Ok s -> signed_labels y' = Ok s' -> same_classes y y' ->
  s' = s \/ s' = map Z.opp s.
Proof.
  intros y y' s s' H H' [LEN SC]. destruct (signed_signs y s H) as (N & P & E). destruct (signed_signs y' s' H') as (N' & P' & E').
  destruct y as [|a0 y].
  { destruct s as [|? ?]; [|discriminate]. destruct y'; [|discriminate]. destruct s'; [|discriminate]. auto. }
  destruct y' as [|b0 y']; [discriminate|]. destruct s as [|s0 s]; [discriminate|]. destruct s' as [|t0 s']; [discriminate|].
  destruct (P O a0 eq_refl) as (u0 & U0 & V0). injection U0 as <-. destruct (P' O b0 eq_refl) as (w0 & W0 & X0). injection W0 as <-.
  assert (G : forall i u, nth_error (s0 :: s) i = Some u -> exists w, nth_error (t0 :: s') i = Some w /\ ((u = s0 /\ w = t0) \/ (u = - s0 /\ w = - t0))).
  { intros i u U.
    assert (I : (i < length (a0 :: y))%nat) by (rewrite <- N; apply nth_error_Some; congruence).
    destruct (nth_error (a0 :: y) i) as [a|] eqn:A; [|apply nth_error_None in A; lia].
    destruct (nth_error (b0 :: y') i) as [b|] eqn:B; [|apply nth_error_None in B; lia].
    destruct (P i a A) as (u' & U' & VU). rewrite U in U'. injection U' as <-. destruct (P' i b B) as (w & W & VW). exists w. split; auto.
    pose proof (SC O i a0 a b0 b eq_refl A eq_refl B) as S. pose proof (E O i a0 a s0 u eq_refl A eq_refl U) as E1.
    pose proof (E' O i b0 b t0 w eq_refl B eq_refl W) as E2. lia. }
  assert (LL : length (s0 :: s) = length (t0 :: s')) by (rewrite N, N', LEN; reflexivity).
  assert (GN : forall i, nth_error (s0 :: s) i = None -> nth_error (t0 :: s') i = None).
  { intros i Q. apply nth_error_None in Q. apply nth_error_None. rewrite <- LL. exact Q. }
  assert (D : t0 = s0 \/ t0 = - s0) by lia. destruct D as [D|D]; [left|right]; apply list_ext; intro i.
  - destruct (nth_error (s0 :: s) i) as [u|] eqn:U; [|now apply GN]. destruct (G i u U) as (w & -> & W). f_equal. lia.
  - rewrite nth_error_map. destruct (nth_error (s0 :: s) i) as [u|] eqn:U; cbn [option_map]; [|now apply GN].
    destruct (G i u U) as (w & -> & W). f_equal. lia.
Qed.
Print Assumptions C122_signs.

(** BMDR asks for the same instances, whatever the two classes are called. *)
Theorem C122_bmdr : forall np num s K y y' v v' beta gamma rho L U batch,
  odd num -> by_value np s -> (0 < rho)%Q ->
  signed_labels y = Ok v -> signed_labels y' = Ok v' -> same_classes y y' ->
  snd (bmdr_select np num s K v beta gamma rho L U batch) = snd (bmdr_select np num s K v' beta gamma rho L U batch).
Proof.
  intros np num s K y y' v v' beta gamma rho L U batch O B R H H' S.
  destruct (C122_signs y y' v v' H H' S) as [-> | ->]; [reflexivity|]. now apply bmdr_even.
Qed.
Print Assumptions C122_bmdr.

(** So does SPAL. *)
Theorem C122_spal : forall np num s K y y' v v' mu gamma rho lam L U batch,
  odd num -> by_value np s ->
  signed_labels y = Ok v -> signed_labels y' = Ok v' -> same_classes y y' ->
  snd (spal_select np num s K v mu gamma rho lam L U batch) = snd (spal_select np num s K v' mu gamma rho lam L U batch).
Proof.
  intros np num s K y y' v v' mu gamma rho lam L U batch O B H H' S.
  destruct (C122_signs y y' v v' H H' S) as [-> | ->]; [reflexivity|]. now apply spal_even.
Qed.
Print Assumptions C122_spal.

(** Either labelling is accepted if the other is. *)
Theorem C122_accepted : forall y y', same_classes y y' ->
  ((exists v, signed_labels y = Ok v) <-> (exists v, signed_labels y' = Ok v)).
Proof.
  assert (G : forall y y' v, same_classes y y' -> signed_labels y = Ok v -> exists v', signed_labels y' = Ok v').
  { intros y y' v [LEN SC] H. pose proof (C85_labels y) as C. rewrite H in C. destruct C as (a & b & L & IN & _ & _).
    pose proof (C85_labels y') as C'. destruct (signed_labels y') as [v'|e]; [eauto|]. destruct C' as [_ C']. exfalso. apply C'. clear C'.
    destruct (In_nth_error y a) as (i & I); [now apply IN; left|]. destruct (In_nth_error y b) as (j & J); [now apply IN; right|].
    assert (X : forall k c, nth_error y k = Some c -> exists c', nth_error y' k = Some c').
    { intros k c E. destruct (nth_error y' k) eqn:F; [eauto|]. apply nth_error_None in F. assert (k < length y)%nat by (apply nth_error_Some; congruence). lia. }
    destruct (X i a I) as (a' & I'). destruct (X j b J) as (b' & J').
    assert (NE : a' <> b') by (intro W; apply (SC i j a b a' b' I J I' J') in W; lia).
    assert (AL : forall w, In w y' <-> w = a' \/ w = b').
    { intro w. split.
      - intro W. apply In_nth_error in W. destruct W as [k W]. destruct (nth_error y k) as [c|] eqn:E.
        + pose proof (proj1 (IN c) (nth_error_In _ _ E)) as D. destruct D as [-> | ->].
          * left. symmetry. now apply (SC i k a a a' w I E I' W).
          * right. symmetry. now apply (SC j k b b b' w J E J' W).
        + apply nth_error_None in E. assert (k < length y')%nat by (apply nth_error_Some; congruence). lia.
      - intros [-> | ->]; [exact (nth_error_In _ _ I')|exact (nth_error_In _ _ J')]. }
    destruct (Z.lt_total a' b') as [W|[W|W]]; [exists a', b'; auto|contradiction|exists b', a'].
    split; [exact W|]. intro w. rewrite AL. tauto. }
  intros y y' S. split; intros [v H]; [exact (G y y' v S H)|].
  apply (G y' y v); auto. destruct S as [L S]. split; [auto|]. intros i j a b a' b' E1 E2 E3 E4. symmetry. now apply (S i j).
Qed.
Print Assumptions C122_accepted.

(** ** A case: stable sorting, a solver and systems of one unknown *)
Lemma np0_by_value : forall l l', equal l l' -> argsort (np0 (fun x => x)) l = argsort (np0 (fun x => x)) l'.
Proof.
  intros l l' E. cbn. pose (R := fun a b : nat * Q => fst a = fst b /\ (snd b == snd a)%Q).
  assert (I : forall x x' m m', R x x' -> Forall2 R m m' -> Forall2 R (insert le2 x m) (insert le2 x' m')).
  { intros x x' m m' X M. induction M as [|a a' m m' A M IH]; cbn; [constructor; auto|].
    assert (LE : le2 x a = le2 x' a').
    { unfold le2. apply Bool.eq_true_iff_eq. rewrite !Qle_bool_iff. destruct X as [_ X], A as [_ A]. now rewrite X, A. }
    rewrite LE. destruct (le2 x' a'); constructor; auto. }
  assert (S : forall m m', Forall2 R m m' -> Forall2 R (isort le2 m) (isort le2 m')).
  { induction 1; cbn; [constructor|]. apply I; auto. }
  assert (C : forall k, Forall2 R (combine (seq k (length l)) l) (combine (seq k (length l')) l')).
  { induction E; intro k; cbn; constructor; auto. split; auto. }
  specialize (S _ _ (C O)). induction S as [|a b m m' [A _] S IH]; cbn; congruence.
Qed.
Definition s2 : solver := fun _ p => Value true (map (fun q => Qred (1 / (1 + Qabs q)))%Q (qp_q p)).
Lemma s2_by_value : by_value (np0 (fun x => x)) s2.
Proof.
  split; [|exact np0_by_value]. intros gp p p' (_ & E & _). unfold s2. f_equal. induction E as [|a b l l' A E IH]; cbn [map]; [reflexivity|].
  f_equal; auto. apply Qred_complete. now rewrite A.
Qed.
Lemma num1_odd : odd num1.
Proof.
  assert (D : forall A r r', opposite r r' -> opposite (div1 A r) (div1 A r')).
  { intros A r r' O. assert (L : length r = length r') by (induction O; cbn; congruence).
    assert (Z : opposite (repeat 0%Q (length r)) (repeat 0%Q (length r'))) by (rewrite L; apply repeat_opposite).
    unfold div1. destruct A as [|[|a [|? ?]] [|? ?]]; auto. inversion O as [|v v' ? ? E O']; subst; auto.
    inversion O'; subst; auto. constructor; [|constructor]. rewrite !Qred_correct, E. unfold Qdiv. ring. }
  split; [exact D|]. split; [exact D|]. split; [reflexivity|]. intros a b E. exact E.
Qed.
Example C122_case :
  odd num1 /\ by_value (np0 (fun x => x)) s2 /\
  signed_labels [0; 1; 0] = Ok [1; -1; 1] /\ signed_labels [1; -1; 1] = Ok [1; -1; 1] /\ signed_labels [7; 4; 7] = Ok [-1; 1; -1] /\
  same_classes [0; 1; 0] [7; 4; 7] /\
  snd (bmdr_select (np0 (fun x => x)) num1 s2 K1 [1; -1; 1] 1000 (1 # 10) 1 L1 U1 1) = Ok [2] /\
  snd (bmdr_select (np0 (fun x => x)) num1 s2 K1 [-1; 1; -1] 1000 (1 # 10) 1 L1 U1 1) = Ok [2].
Proof.
  split; [exact num1_odd|]. split; [exact s2_by_value|]. do 3 (split; [reflexivity|]). split.
  - split; [reflexivity|]. intros i j a b a' b'.
    destruct i as [|[|[|i]]]; [| | |destruct i; discriminate]; (destruct j as [|[|[|j]]]; [| | |destruct j; discriminate]); cbn;
      intros E1 E2 E3 E4; injection E1 as <-; injection E2 as <-; injection E3 as <-; injection E4 as <-; lia.
  - split; vm_compute; reflexivity.
Qed.
