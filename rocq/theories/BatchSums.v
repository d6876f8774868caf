(** Finite sums of rationals, and the minimum of a quadratic function. *)
From Verif Require Import Base MiscModel MiscSpec.
From Coq Require Import QArith Qabs Lqa Setoid Morphisms.
Local Open Scope Z_scope.

Fixpoint sum (n : nat) (f : nat -> Q) : Q := match n with O => 0%Q | S k => (sum k f + f k)%Q end.

Lemma sum_ext n f g : (forall i, (i < n)%nat -> (f i == g i)%Q) -> (sum n f == sum n g)%Q.
Proof. induction n; cbn; intro H; [reflexivity|]. rewrite IHn by auto. rewrite (H n) by lia. reflexivity. Qed.
Lemma sum_plus n f g : (sum n (fun i => f i + g i) == sum n f + sum n g)%Q.
Proof. induction n; cbn; [reflexivity|]. rewrite IHn. ring. Qed.
Lemma sum_minus n f g : (sum n (fun i => f i - g i) == sum n f - sum n g)%Q.
Proof. induction n; cbn; [reflexivity|]. rewrite IHn. ring. Qed.
Lemma sum_scal n c f : (sum n (fun i => c * f i) == c * sum n f)%Q.
Proof. induction n; cbn; [ring|]. rewrite IHn. ring. Qed.
Lemma sum_scal_r n c f : (sum n (fun i => f i * c) == sum n f * c)%Q.
Proof. induction n; cbn; [ring|]. rewrite IHn. ring. Qed.
Lemma sum_zero n f : (forall i, (i < n)%nat -> (f i == 0)%Q) -> (sum n f == 0)%Q.
Proof. induction n; cbn; intro H; [reflexivity|]. rewrite IHn by auto. rewrite (H n) by lia. reflexivity. Qed.
Lemma sum_nonneg n f : (forall i, (i < n)%nat -> (0 <= f i)%Q) -> (0 <= sum n f)%Q.
Proof. induction n; cbn; intro H; [lra|]. specialize (IHn (fun i J => H i ltac:(lia))). specialize (H n ltac:(lia)). lra. Qed.
Lemma sum_le n f g : (forall i, (i < n)%nat -> (f i <= g i)%Q) -> (sum n f <= sum n g)%Q.
Proof. induction n; cbn; intro H; [lra|]. specialize (IHn (fun i J => H i ltac:(lia))). specialize (H n ltac:(lia)). lra. Qed.
Lemma sum_swap n m (f : nat -> nat -> Q) : (sum n (fun i => sum m (f i)) == sum m (fun j => sum n (fun i => f i j)))%Q.
Proof.
  induction n; cbn; [symmetry; apply sum_zero; reflexivity|]. rewrite IHn. rewrite <- sum_plus. reflexivity.
Qed.
Lemma sum_shift n f : (sum (S n) f == f O + sum n (fun i => f (S i)))%Q.
Proof. induction n; cbn; [ring|]. cbn in IHn. rewrite IHn. ring. Qed.

Lemma total_sum {A} (d : A) (f : A -> Q) l : (total (map f l) == sum (length l) (fun i => f (nth i l d)))%Q.
Proof.
  induction l as [|x l IH]; [reflexivity|]. cbn [map total fold_right length]. rewrite sum_shift. cbn [nth].
  change (fold_right Qplus 0 (map f l))%Q with (total (map f l)). rewrite IH. reflexivity.
Qed.

(** ** The quadratic function that ADMM minimises in the model *)
Section Quadratic.
Variables (n m : nat) (K B : nat -> nat -> Q) (y z delta : nat -> Q) (gamma rho : Q).

Definition lin (M : nat -> nat -> Q) (x : nat -> Q) (j : nat) : Q := sum n (fun i => x i * M i j)%Q.
Definition quad (x : nat -> Q) : Q := sum n (fun i => sum n (fun j => x i * x j * K i j))%Q.
Definition F (x : nat -> Q) : Q :=
  (sum n (fun j => (y j - lin K x j) * (y j - lin K x j)) + gamma * quad x
   + sum m (fun c => delta c * (z c - lin B x c)) + rho / 2 * sum m (fun c => (z c - lin B x c) * (z c - lin B x c)))%Q.
(** Half the gradient. *)
Definition G (x : nat -> Q) (i : nat) : Q :=
  (sum n (fun j => x j * (sum n (fun k => K i k * K k j) + rho / 2 * sum m (fun c => B i c * B j c) + gamma * K i j))
   - (sum n (fun j => y j * K j i) + (1 # 2) * sum m (fun c => delta c * B i c) + rho / 2 * sum m (fun c => z c * B i c)))%Q.

Lemma lin_plus M x d j : (lin M (fun i => x i + d i) j == lin M x j + lin M d j)%Q.
Proof. unfold lin. rewrite <- sum_plus. apply sum_ext. intros. ring. Qed.

Lemma lin_pair M N x d : (* sum over columns of products, through the rows *)
  forall p, (sum p (fun c => lin M d c * N c * lin M x c) == sum n (fun i => d i * sum n (fun j => x j * sum p (fun c => M i c * N c * M j c))))%Q.
Proof.
  intro p. transitivity (sum p (fun c => sum n (fun i => sum n (fun j => d i * (x j * (M i c * N c * M j c)))))%Q).
  - apply sum_ext. intros c _. unfold lin. rewrite <- !sum_scal_r. apply sum_ext. intros i _. rewrite <- sum_scal.
    apply sum_ext. intros j _. ring.
  - rewrite sum_swap. apply sum_ext. intros i _. rewrite sum_swap. rewrite <- sum_scal. apply sum_ext. intros j _.
    rewrite <- !sum_scal. reflexivity.
Qed.

Hypothesis sym : forall i j, (i < n)%nat -> (j < n)%nat -> (K i j == K j i)%Q.

Lemma quad_plus x d : (quad (fun i => x i + d i) == quad x + 2 * sum n (fun i => d i * sum n (fun j => x j * K i j)) + quad d)%Q.
Proof.
  unfold quad. transitivity (sum n (fun i => sum n (fun j => x i * x j * K i j) + sum n (fun j => d i * (x j * K i j)) +
     sum n (fun j => x i * (d j * K i j)) + sum n (fun j => d i * d j * K i j)))%Q.
  - apply sum_ext. intros i _. rewrite <- !sum_plus. apply sum_ext. intros j _. ring.
  - rewrite !sum_plus. assert (E : (sum n (fun i => sum n (fun j => x i * (d j * K i j))) == sum n (fun i => sum n (fun j => d i * (x j * K i j))))%Q).
    { rewrite sum_swap. apply sum_ext. intros i Hi. apply sum_ext. intros j Hj. rewrite (sym j i) by auto. ring. }
    rewrite E. assert (E2 : (sum n (fun i => sum n (fun j => d i * (x j * K i j))) == sum n (fun i => d i * sum n (fun j => x j * K i j)))%Q).
    { apply sum_ext. intros i _. apply sum_scal. }
    rewrite E2. ring.
Qed.

Lemma F_plus x d :
  (F (fun i => x i + d i) == F x + 2 * sum n (fun i => d i * G x i)
     + (sum n (fun j => lin K d j * lin K d j) + gamma * quad d + rho / 2 * sum m (fun c => lin B d c * lin B d c)))%Q.
Proof.
  unfold F. rewrite quad_plus.
  assert (E1 : (sum n (fun j => (y j - lin K (fun i => x i + d i) j) * (y j - lin K (fun i => x i + d i) j)) ==
     sum n (fun j => (y j - lin K x j) * (y j - lin K x j)) - 2 * sum n (fun j => lin K d j * y j) + 2 * sum n (fun j => lin K d j * 1 * lin K x j)
     + sum n (fun j => lin K d j * lin K d j))%Q).
  { rewrite <- !sum_scal. rewrite <- sum_minus, <- !sum_plus. apply sum_ext. intros j _. rewrite lin_plus. ring. }
  assert (E2 : (sum m (fun c => delta c * (z c - lin B (fun i => x i + d i) c)) ==
     sum m (fun c => delta c * (z c - lin B x c)) - sum m (fun c => lin B d c * delta c))%Q).
  { rewrite <- sum_minus. apply sum_ext. intros j _. rewrite lin_plus. ring. }
  assert (E3 : (sum m (fun c => (z c - lin B (fun i => x i + d i) c) * (z c - lin B (fun i => x i + d i) c)) ==
     sum m (fun c => (z c - lin B x c) * (z c - lin B x c)) - 2 * sum m (fun c => lin B d c * z c) + 2 * sum m (fun c => lin B d c * 1 * lin B x c)
     + sum m (fun c => lin B d c * lin B d c))%Q).
  { rewrite <- !sum_scal. rewrite <- sum_minus, <- !sum_plus. apply sum_ext. intros j _. rewrite lin_plus. ring. }
  rewrite E1, E2, E3. rewrite !lin_pair.
  assert (L1 : forall M p v, (sum p (fun c => lin M d c * v c) == sum n (fun i => d i * sum p (fun c => v c * M i c)))%Q).
  { intros M p v. transitivity (sum p (fun c => sum n (fun i => d i * (v c * M i c))))%Q.
    - apply sum_ext. intros c _. unfold lin. rewrite <- sum_scal_r. apply sum_ext. intros. ring.
    - rewrite sum_swap. apply sum_ext. intros. apply sum_scal. }
  rewrite !L1.
  assert (EG : (sum n (fun i => d i * G x i) ==
    sum n (fun i => d i * sum n (fun j => x j * sum n (fun c => K i c * 1 * K j c))) +
    rho / 2 * sum n (fun i => d i * sum n (fun j => x j * sum m (fun c => B i c * 1 * B j c))) +
    gamma * sum n (fun i => d i * sum n (fun j => x j * K i j)) -
    sum n (fun i => d i * sum n (fun c => y c * K i c)) - (1 # 2) * sum n (fun i => d i * sum m (fun c => delta c * B i c)) -
    rho / 2 * sum n (fun i => d i * sum m (fun c => z c * B i c)))%Q).
  { rewrite <- !(sum_scal n). rewrite <- !sum_plus, <- !sum_minus. apply sum_ext. intros i Hi. unfold G.
    assert (A1 : (sum n (fun j => x j * (sum n (fun k => K i k * K k j) + rho / 2 * sum m (fun c => B i c * B j c) + gamma * K i j)) ==
      sum n (fun j => x j * sum n (fun c => K i c * 1 * K j c)) + rho / 2 * sum n (fun j => x j * sum m (fun c => B i c * 1 * B j c)) +
      gamma * sum n (fun j => x j * K i j))%Q).
    { rewrite <- !(sum_scal n). rewrite <- !sum_plus. apply sum_ext. intros j Hj.
      assert (X1 : (sum n (fun k => K i k * K k j) == sum n (fun c => K i c * 1 * K j c))%Q)
        by (apply sum_ext; intros k Hk; rewrite (sym k j) by auto; ring).
      assert (X2 : (sum m (fun c => B i c * B j c) == sum m (fun c => B i c * 1 * B j c))%Q) by (apply sum_ext; intros; ring).
      rewrite X1, X2. ring. }
    assert (A2 : (sum n (fun j => y j * K j i) == sum n (fun c => y c * K i c))%Q)
      by (apply sum_ext; intros k Hk; rewrite (sym k i) by auto; ring).
    rewrite A1, A2. ring. }
  rewrite EG. field.
Qed.

Lemma F_least x : (0 <= gamma)%Q -> (0 <= rho)%Q -> (forall d, 0 <= quad d)%Q ->
  (forall i, (i < n)%nat -> (G x i == 0)%Q) -> forall w, (F x <= F w)%Q.
Proof.
  intros Hg Hr Hq HG w.
  assert (E : (F w == F (fun i => x i + (w i - x i)))%Q).
  { unfold F, quad, lin.
    assert (EM : forall (M : nat -> nat -> Q) j, (sum n (fun i => w i * M i j) == sum n (fun i => (x i + (w i - x i)) * M i j))%Q)
      by (intros M j; apply sum_ext; intros; ring).
    apply Qplus_comp; [apply Qplus_comp; [apply Qplus_comp|]|].
    - apply sum_ext. intros j _. rewrite (EM K j). reflexivity.
    - apply Qmult_comp; [reflexivity|]. apply sum_ext. intros i _. apply sum_ext. intros j _. ring.
    - apply sum_ext. intros j _. rewrite (EM B j). reflexivity.
    - apply Qmult_comp; [reflexivity|]. apply sum_ext. intros j _. rewrite (EM B j). reflexivity. }
  rewrite E, F_plus. rewrite (sum_zero n (fun i => ((w i - x i) * G x i)%Q)); [|intros i Hi; rewrite (HG i Hi); ring].
  set (d := fun i => (w i - x i)%Q).
  assert (P1 : (0 <= sum n (fun j => lin K d j * lin K d j))%Q) by (apply sum_nonneg; intros; nra).
  assert (P2 : (0 <= sum m (fun c => lin B d c * lin B d c))%Q) by (apply sum_nonneg; intros; nra).
  assert (P3 : (0 <= gamma * quad d)%Q) by (apply Qmult_le_0_compat; auto).
  assert (P4 : (0 <= rho / 2 * sum m (fun c => lin B d c * lin B d c))%Q).
  { apply Qmult_le_0_compat; auto. apply Qle_shift_div_l; lra. }
  lra.
Qed.
End Quadratic.
