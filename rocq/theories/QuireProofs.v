(** Proofs about QUIRE's evaluation: sums over lists of positions, inverses of blocks. *)
From Verif Require Import Base BaseFacts MiscModel MiscSpec QueryModel QuireModel MLQuerySpec QuireSpec.
From Coq Require Import QArith Qabs Qfield Lqa Setoid Morphisms.
Local Open Scope Q_scope.

Section Sums.
  Context {A : Type}.
  Definition tot (l : list A) (f : A -> Q) : Q := total (map f l).
  Lemma tot_ext l f g : (forall a, In a l -> (f a == g a)%Q) -> (tot l f == tot l g)%Q.
  Proof. unfold tot. induction l as [|a l IH]; cbn; intro H; [reflexivity|]. unfold total in IH. rewrite IH by auto. rewrite (H a) by auto. reflexivity. Qed.
  Lemma tot_nil f : (tot [] f == 0)%Q. Proof. reflexivity. Qed.
  Lemma tot_cons a l f : (tot (a :: l) f == f a + tot l f)%Q. Proof. reflexivity. Qed.
  Lemma tot_app l l' f : (tot (l ++ l') f == tot l f + tot l' f)%Q.
  Proof. induction l as [|a l IH]; [cbn [app]; rewrite ?tot_nil; ring|]. cbn [app]. rewrite !tot_cons, IH. ring. Qed.
  Lemma tot_plus l f g : (tot l (fun a => f a + g a) == tot l f + tot l g)%Q.
  Proof. induction l as [|a l IH]; [cbn [app]; rewrite ?tot_nil; ring|]. rewrite !tot_cons, IH. ring. Qed.
  Lemma tot_minus l f g : (tot l (fun a => f a - g a) == tot l f - tot l g)%Q.
  Proof. induction l as [|a l IH]; [cbn [app]; rewrite ?tot_nil; ring|]. rewrite !tot_cons, IH. ring. Qed.
  Lemma tot_scal l c f : (tot l (fun a => c * f a) == c * tot l f)%Q.
  Proof. induction l as [|a l IH]; [cbn [app]; rewrite ?tot_nil; ring|]. rewrite !tot_cons, IH. ring. Qed.
  Lemma tot_scal_r l c f : (tot l (fun a => f a * c) == tot l f * c)%Q.
  Proof. induction l as [|a l IH]; [cbn [app]; rewrite ?tot_nil; ring|]. rewrite !tot_cons, IH. ring. Qed.
  Lemma tot_zero l f : (forall a, In a l -> (f a == 0)%Q) -> (tot l f == 0)%Q.
  Proof. induction l as [|a l IH]; intro H; [reflexivity|]. assert (H1 : (f a == 0)%Q) by (apply H; now left). assert (H2 : (tot l f == 0)%Q) by (apply IH; intros b Hb; apply H; now right). rewrite tot_cons, H1, H2. ring. Qed.
  Lemma tot_perm l l' f : Permutation l l' -> (tot l f == tot l' f)%Q.
  Proof. induction 1; rewrite ?tot_cons; [reflexivity|now rewrite IHPermutation|ring|now rewrite IHPermutation1]. Qed.
  Lemma tot_squares l f : (0 <= tot l (fun a => f a * f a))%Q.
  Proof. induction l as [|a l IH]; [rewrite tot_nil; lra|]. rewrite tot_cons. nra. Qed.
  Lemma tot_squares_zero l f : (tot l (fun a => f a * f a) <= 0)%Q -> forall a, In a l -> (f a == 0)%Q.
  Proof.
    induction l as [|b l IH]; [intros _ a []|]. rewrite tot_cons. intros H a. pose proof (tot_squares l f) as P.
    assert (F : (f b == 0)%Q) by nra. intros [->|Ha]; [exact F|]. apply IH; [nra|exact Ha].
  Qed.
End Sums.
Lemma tot_swap {A C} (l : list A) (m : list C) (f : A -> C -> Q) : (tot l (fun a => tot m (f a)) == tot m (fun c => tot l (fun a => f a c)))%Q.
Proof.
  induction l as [|a l IH]; [cbn; symmetry; apply tot_zero; reflexivity|]. rewrite tot_cons, IH.
  rewrite <- tot_plus. apply tot_ext. intros. now rewrite tot_cons.
Qed.
Lemma tot_map {A C} (g : C -> A) (l : list C) (f : A -> Q) : tot (map g l) f = tot l (fun c => f (g c)).
Proof. unfold tot. now rewrite map_map. Qed.
(** A sum with one non-zero place. *)
Lemma tot_delta (l : list nat) a f : NoDup l -> In a l -> (tot l (fun c => (if Nat.eqb a c then f c else 0)) == f a)%Q.
Proof.
  induction l as [|b l IH]; [intros _ []|]. intros N I. rewrite tot_cons. inversion N as [|? ? NI N']; subst. destruct (Nat.eqb_spec a b) as [->|D].
  - rewrite tot_zero; [ring|]. intros c Hc. destruct (Nat.eqb_spec b c); [subst; contradiction|reflexivity].
  - destruct I as [->|I]; [contradiction|]. rewrite IH by auto. ring.
Qed.

(** Left inverses of symmetric matrices. *)
Lemma sym_right (l : list nat) (X Y : nat -> nat -> Q) : NoDup l ->
  (forall a b, In a l -> In b l -> (Y a b == Y b a)%Q) ->
  (forall a b, In a l -> In b l -> (tot l (fun c => X a c * Y c b) == if Nat.eqb a b then 1 else 0)%Q) ->
  (forall a b, In a l -> In b l -> (X a b == X b a)%Q) /\
  (forall a b, In a l -> In b l -> (tot l (fun c => Y a c * X c b) == if Nat.eqb a b then 1 else 0)%Q).
Proof.
  intros N Sy H.
  assert (R : forall a b, In a l -> In b l -> (tot l (fun c => Y a c * X b c) == if Nat.eqb b a then 1 else 0)%Q).
  { intros a b Ha Hb. rewrite <- (H b a Hb Ha). apply tot_ext. intros c Hc. rewrite (Sy a c) by auto. ring. }
  assert (SX : forall a b, In a l -> In b l -> (X a b == X b a)%Q).
  { intros a b Ha Hb.
    transitivity (tot l (fun c => tot l (fun d => X a c * (Y c d * X b d)))).
    - rewrite (tot_ext l _ (fun c => if Nat.eqb b c then X a c else 0)).
      + symmetry. apply tot_delta; auto.
      + intros c Hc. rewrite (tot_scal l (X a c) (fun d => Y c d * X b d)%Q), (R c b) by auto. destruct (Nat.eqb b c); ring.
    - rewrite tot_swap. rewrite (tot_ext l _ (fun d => if Nat.eqb a d then X b d else 0)).
      + apply (tot_delta l a (fun d => X b d)); auto.
      + intros d Hd. rewrite (tot_ext l _ (fun c => X a c * Y c d * X b d)%Q) by (intros; ring). rewrite (tot_scal_r l (X b d) (fun c => X a c * Y c d)%Q), (H a d) by auto.
        destruct (Nat.eqb a d); ring. }
  split; [exact SX|]. intros a b Ha Hb. rewrite (tot_ext l _ (fun c => Y a c * X b c)%Q).
  - rewrite R by auto. rewrite Nat.eqb_sym. reflexivity.
  - intros c Hc. rewrite (SX c b) by auto. reflexivity.
Qed.

(** [X Y = 1] and [Y Z = 1] give [X = Z]. *)
Lemma inv_unique (l : list nat) (X Y Z : nat -> nat -> Q) : NoDup l ->
  (forall a b, In a l -> In b l -> (tot l (fun c => X a c * Y c b) == if Nat.eqb a b then 1 else 0)%Q) ->
  (forall a b, In a l -> In b l -> (tot l (fun c => Y a c * Z c b) == if Nat.eqb a b then 1 else 0)%Q) ->
  forall a b, In a l -> In b l -> (X a b == Z a b)%Q.
Proof.
  intros N H1 H2 a b Ha Hb. transitivity (tot l (fun c => tot l (fun d => X a c * (Y c d * Z d b)))).
  - rewrite (tot_ext l _ (fun c => if Nat.eqb b c then X a c else 0)).
    + symmetry. apply (tot_delta l b (fun c => X a c)); auto.
    + intros c Hc. rewrite (tot_scal l (X a c) (fun d => Y c d * Z d b)%Q), (H2 c b) by auto. rewrite Nat.eqb_sym. destruct (Nat.eqb b c); ring.
  - rewrite tot_swap. rewrite (tot_ext l _ (fun d => if Nat.eqb a d then Z d b else 0)).
    + apply (tot_delta l a (fun d => Z d b)); auto.
    + intros d Hd. rewrite (tot_ext l _ (fun c => X a c * Y c d * Z d b)%Q) by (intros; ring). rewrite (tot_scal_r l (Z d b) (fun c => X a c * Y c d)%Q), (H1 a d) by auto.
      destruct (Nat.eqb a d); ring.
Qed.

Section Blocks.
  Context (n : nat) (K L : nat -> nat -> Q) (lam : Q) (P U : list nat).   (* P: labelled, U: unlabelled *)
  Let A a b := (K a b + (if Nat.eqb a b then lam else 0))%Q.
  Hypothesis Hlam : (0 < lam)%Q.
  Hypothesis Hsym : forall a b, (a < n)%nat -> (b < n)%nat -> (K a b == K b a)%Q.
  Hypothesis Hparts : Permutation (P ++ U) (range n).
  Hypothesis Hinv : forall a b, (a < n)%nat -> (b < n)%nat -> (tot (range n) (fun c => L a c * A c b) == if Nat.eqb a b then 1 else 0)%Q.

  Lemma mem a : In a P \/ In a U <-> (a < n)%nat.
  Proof. rewrite <- in_app_iff. split; intro H; [apply (Permutation_in _ Hparts) in H|apply (Permutation_in _ (Permutation_sym Hparts))]; unfold range in *; rewrite in_seq in *; lia. Qed.
  Lemma pu_nodup : NoDup (P ++ U). Proof. apply (Permutation_NoDup (Permutation_sym Hparts)), seq_NoDup. Qed.
  Lemma p_nodup : NoDup P. Proof. pose proof pu_nodup as N. clear - N. induction P as [|a p IH]; [constructor|]. inversion N; subst. constructor; [rewrite in_app_iff in *; tauto|auto]. Qed.
  Lemma u_nodup : NoDup U. Proof. pose proof pu_nodup as N. clear - N. induction P as [|a p IH]; [exact N|]. inversion N; auto. Qed.
  Lemma pu_disj a : In a P -> In a U -> False.
  Proof. pose proof pu_nodup as N. clear - N. induction P as [|b p IH]; [intros []|]. inversion N; subst. intros [->|H] HU; [rewrite in_app_iff in *; tauto|auto]. Qed.
  Lemma split_sum f : (tot (range n) f == tot P f + tot U f)%Q.
  Proof. rewrite <- tot_app. apply tot_perm. now apply Permutation_sym. Qed.
  Lemma A_sym a b : (a < n)%nat -> (b < n)%nat -> (A a b == A b a)%Q.
  Proof. intros. unfold A. rewrite (Hsym a b) by auto. rewrite Nat.eqb_sym. reflexivity. Qed.
  Lemma L_sym a b : (a < n)%nat -> (b < n)%nat -> (L a b == L b a)%Q.
  Proof. intros Ha Hb. apply (sym_right (range n) L A); try (unfold range; apply seq_NoDup); try (unfold range; rewrite in_seq; lia); intros c d Hc Hd; unfold range in Hc, Hd; rewrite in_seq in *; [apply A_sym|apply Hinv]; lia. Qed.
  Lemma A_right a b : (a < n)%nat -> (b < n)%nat -> (tot (range n) (fun c => A a c * L c b) == if Nat.eqb a b then 1 else 0)%Q.
  Proof. intros Ha Hb. apply (sym_right (range n) L A); try (unfold range; apply seq_NoDup); try (unfold range; rewrite in_seq; lia); intros c d Hc Hd; unfold range in Hc, Hd; rewrite in_seq in *; [apply A_sym|apply Hinv]; lia. Qed.

  (** The matrix computed by the code. *)
  Definition C a b := (A a b - / lam * tot P (fun j => K a j * K j b))%Q.
  Definition C_inverts := forall a b, In a U -> In b U -> (tot U (fun c => C a c * L c b) == if Nat.eqb a b then 1 else 0)%Q.
  (** The labelled block of the kernel kills the coupling. *)
  Definition uncoupled := forall l u, In l P -> In u U -> (tot P (fun j => K l j * K j u) == 0)%Q.

  (** What the product with the block of [L] really is. *)
  Lemma C_product a b : In a U -> In b U ->
    (tot U (fun c => C a c * L c b) == (if Nat.eqb a b then 1 else 0) + / lam * tot P (fun i => tot P (fun j => K a j * K j i) * L i b))%Q.
  Proof.
    intros Ha Hb. assert (La : (a < n)%nat) by (apply mem; auto). assert (Lb : (b < n)%nat) by (apply mem; auto).
    pose proof (A_right a b La Lb) as R. rewrite split_sum in R.
    assert (RP : (tot P (fun c => A a c * L c b) == tot P (fun c => K a c * L c b))%Q).
    { apply tot_ext. intros c Hc. unfold A. destruct (Nat.eqb_spec a c) as [->|]; [exfalso; eapply pu_disj; eauto|ring]. }
    rewrite RP in R. clear RP.
    assert (RL : forall j, In j P -> (tot U (fun c => K j c * L c b) == - (lam * L j b) - tot P (fun i => K j i * L i b))%Q).
    { intros j Hj. assert (Lj : (j < n)%nat) by (apply mem; auto). pose proof (A_right j b Lj Lb) as Q. rewrite split_sum in Q.
      destruct (Nat.eqb_spec j b) as [->|D]; [exfalso; eapply pu_disj; eauto|].
      assert (Q1 : (tot U (fun c => A j c * L c b) == tot U (fun c => K j c * L c b))%Q).
      { apply tot_ext. intros c Hc. unfold A. destruct (Nat.eqb_spec j c) as [->|]; [exfalso; eapply pu_disj; eauto|ring]. }
      assert (Q2 : (tot P (fun c => A j c * L c b) == tot P (fun c => K j c * L c b) + lam * L j b)%Q).
      { rewrite (tot_ext P _ (fun c => K j c * L c b + (if Nat.eqb j c then lam * L c b else 0))%Q).
        - rewrite tot_plus. rewrite (tot_delta P j (fun c => lam * L c b)%Q p_nodup Hj). reflexivity.
        - intros c Hc. unfold A. destruct (Nat.eqb j c); ring. }
      rewrite Q1, Q2 in Q. lra. }
    unfold C. rewrite (tot_ext U _ (fun c => A a c * L c b - / lam * (tot P (fun j => K a j * (K j c * L c b))))%Q).
    2: { intros c Hc. assert (E : tot P (fun j => K a j * (K j c * L c b)) == tot P (fun j => K a j * K j c) * L c b) by (rewrite <- tot_scal_r; apply tot_ext; intros; ring). rewrite E. ring. }
    rewrite tot_minus, tot_scal, tot_swap.
    rewrite (tot_ext P (fun c => tot U _) (fun j => K a j * (- (lam * L j b) - tot P (fun i => K j i * L i b)))%Q).
    2: { intros j Hj. rewrite <- (RL j Hj). rewrite <- tot_scal. reflexivity. }
    rewrite (tot_ext P _ (fun j => (- lam) * (K a j * L j b) - tot P (fun i => K a j * K j i * L i b))%Q).
    2: { intros j Hj. rewrite (tot_ext P (fun i => K a j * K j i * L i b)%Q (fun i => K a j * (K j i * L i b))%Q) by (intros; ring). rewrite tot_scal. ring. }
    rewrite tot_minus, tot_scal, tot_swap.
    rewrite (tot_ext P (fun i => tot P (fun j => K a j * K j i) * L i b)%Q (fun i => tot P (fun j => K a j * K j i * L i b)))%Q by (intros; now rewrite tot_scal_r).
    assert (E : (tot U (fun c => A a c * L c b) == (if Nat.eqb a b then 1 else 0) - tot P (fun c => K a c * L c b))%Q) by lra.
    rewrite E. field. lra.
  Qed.

  Lemma uncoupled_right : uncoupled -> C_inverts.
  Proof.
    intros H a b Ha Hb. rewrite C_product by auto. rewrite tot_zero; [ring|]. intros i Hi.
    rewrite (tot_ext P _ (fun j => K i j * K j a)%Q).
    - rewrite (H i a) by auto. ring.
    - intros j Hj. rewrite (Hsym a j), (Hsym j i) by (apply mem; auto). ring.
  Qed.

  Hypothesis Hpsd : forall x : nat -> Q, (0 <= tot P (fun i => tot P (fun j => x i * x j * K i j)))%Q.

  Lemma right_uncoupled : C_inverts -> uncoupled.
  Proof.
    intro H.
    assert (R0 : forall a b, In a U -> In b U -> (tot P (fun i => tot P (fun j => K a j * K j i) * L i b) == 0)%Q).
    { intros a b Ha Hb. pose proof (H a b Ha Hb) as E. rewrite C_product in E by auto. set (t := tot P _) in *. assert (E1 : (/ lam * t == 0)%Q) by lra.
      assert (E2 : (lam * (/ lam * t) == t)%Q) by (field; lra). rewrite E1 in E2. lra. }
    assert (CS : forall a b, In a U -> In b U -> (C a b == C b a)%Q).
    { intros a b Ha Hb. unfold C. rewrite (A_sym a b) by (apply mem; auto). rewrite (tot_ext P (fun j => K a j * K j b)%Q (fun j => K b j * K j a)%Q); [reflexivity|].
      intros j Hj. rewrite (Hsym a j), (Hsym j b) by (apply mem; auto). ring. }
    assert (LC : forall a b, In a U -> In b U -> (tot U (fun c => L a c * C c b) == if Nat.eqb a b then 1 else 0)%Q).
    { apply (sym_right U C L u_nodup); [|exact H]. intros a b Ha Hb. apply L_sym; apply mem; auto. }
    intros l u Hl Hu.
    set (g := fun i => (- tot U (fun c => L i c * C c u))%Q).
    assert (AG : forall i, In i P -> (tot P (fun j => K i j * g j) + lam * g i == K i u)%Q).
    { intros i Hi. assert (Li : (i < n)%nat) by (apply mem; auto).
      assert (T : forall c, In c U -> (tot P (fun j => K i j * L j c) == - (lam * L i c) - tot U (fun d => K i d * L d c))%Q).
      { intros c Hc. assert (Lc : (c < n)%nat) by (apply mem; auto). pose proof (A_right i c Li Lc) as Q. rewrite split_sum in Q.
        destruct (Nat.eqb_spec i c) as [->|D]; [exfalso; eapply pu_disj; eauto|].
        assert (Q1 : (tot U (fun d => A i d * L d c) == tot U (fun d => K i d * L d c))%Q).
        { apply tot_ext. intros d Hd. unfold A. destruct (Nat.eqb_spec i d) as [->|]; [exfalso; eapply pu_disj; eauto|ring]. }
        assert (Q2 : (tot P (fun d => A i d * L d c) == tot P (fun d => K i d * L d c) + lam * L i c)%Q).
        { rewrite (tot_ext P _ (fun d => K i d * L d c + (if Nat.eqb i d then lam * L d c else 0))%Q).
          - rewrite tot_plus. rewrite (tot_delta P i (fun d => lam * L d c)%Q p_nodup Hi). reflexivity.
          - intros d Hd. unfold A. destruct (Nat.eqb i d); ring. }
        rewrite Q1, Q2 in Q. lra. }
      assert (E1 : (tot P (fun j => K i j * g j) == - tot U (fun c => tot P (fun j => K i j * L j c) * C c u))%Q).
      { unfold g. rewrite (tot_ext P _ (fun j => (- (1)) * tot U (fun c => K i j * L j c * C c u))%Q).
        - rewrite tot_scal, tot_swap. rewrite (tot_ext U (fun c => tot P (fun j => K i j * L j c * C c u)) (fun c => tot P (fun j => K i j * L j c) * C c u)%Q) by (intros; now rewrite tot_scal_r). ring.
        - intros j Hj. rewrite (tot_ext U (fun c => K i j * L j c * C c u)%Q (fun c => K i j * (L j c * C c u))%Q) by (intros; ring). rewrite tot_scal. ring. }
      rewrite E1. rewrite (tot_ext U _ (fun c => (- lam) * (L i c * C c u) - tot U (fun d => K i d * (L d c * C c u)))%Q).
      2: { intros c Hc. rewrite (T c Hc). rewrite (tot_ext U (fun d => K i d * (L d c * C c u))%Q (fun d => K i d * L d c * C c u)%Q) by (intros; ring). rewrite tot_scal_r. ring. }
      rewrite tot_minus, tot_scal, tot_swap.
      rewrite (tot_ext U (fun d => tot U (fun c => K i d * (L d c * C c u))) (fun d => if Nat.eqb u d then K i d else 0)%Q).
      2: { intros d Hd. rewrite tot_scal, (LC d u) by auto. rewrite Nat.eqb_sym. destruct (Nat.eqb u d); ring. }
      rewrite (tot_delta U u (fun d => K i d) u_nodup Hu). unfold g. ring. }
    assert (KG : (tot P (fun i => tot P (fun j => K u j * K j i) * g i) == 0)%Q).
    { unfold g. rewrite (tot_ext P _ (fun i => (- (1)) * tot U (fun c => tot P (fun j => K u j * K j i) * L i c * C c u))%Q).
      - rewrite tot_scal, tot_swap. rewrite tot_zero; [ring|]. intros c Hc. rewrite tot_scal_r. rewrite (R0 u c) by auto. ring.
      - intros i Hi. rewrite (tot_ext U (fun c => tot P (fun j => K u j * K j i) * L i c * C c u)%Q (fun c => tot P (fun j => K u j * K j i) * (L i c * C c u))%Q) by (intros; ring).
        rewrite tot_scal. ring. }
    (* k . (K g) = 0 with k = K g + lam g *)
    set (h := fun i => tot P (fun j => K i j * g j)%Q).
    assert (E0 : (tot P (fun j => K u j * h j) == 0)%Q).
    { rewrite <- KG. unfold h. rewrite (tot_ext P _ (fun j => tot P (fun i => K u j * K j i * g i))%Q).
      - rewrite tot_swap. apply tot_ext. intros i Hi. rewrite tot_scal_r. reflexivity.
      - intros j Hj. rewrite (tot_ext P (fun i => K u j * K j i * g i)%Q (fun i => K u j * (K j i * g i))%Q) by (intros; ring). now rewrite tot_scal. }
    assert (E1 : (tot P (fun j => h j * h j) + lam * tot P (fun j => g j * h j) == 0)%Q).
    { rewrite <- E0. rewrite <- tot_scal, <- tot_plus. apply tot_ext. intros j Hj. rewrite (Hsym u j) by (apply mem; auto). rewrite <- (AG j Hj). fold (h j). ring. }
    assert (E2 : (0 <= tot P (fun j => g j * h j))%Q).
    { pose proof (Hpsd g) as Q. rewrite (tot_ext P (fun j => g j * h j)%Q (fun i => tot P (fun j => g i * g j * K i j))%Q); [exact Q|].
      intros i Hi. unfold h. rewrite <- tot_scal. apply tot_ext. intros; ring. }
    assert (H0 : forall j, In j P -> (h j == 0)%Q).
    { apply tot_squares_zero. nra. }
    transitivity (lam * h l)%Q.
    - rewrite (tot_ext P _ (fun j => lam * (K l j * g j))%Q); [rewrite tot_scal; reflexivity|].
      intros j Hj. rewrite <- (AG j Hj). fold (h j). rewrite (H0 j Hj). ring.
    - rewrite (H0 l Hl). ring.
  Qed.
End Blocks.
