(** Proofs about kernel matrices: sums over coordinates, products of kernels are semidefinite. *)
From Verif Require Import Base BaseFacts MiscModel MiscSpec BatchModel BatchSpec QuireModel QuireSpec QuireProofs QuireProofs2 KernelModel KernelSpec.
From Coq Require Import QArith Qabs Qfield Lqa Setoid Morphisms.
Local Open Scope Q_scope.

(** ** Semidefinite functions *)
Section Psd.
  Context {A : Type}.
  Definition quad (f : A -> A -> Q) (m : list (A * Q)) : Q := tot m (fun a => tot m (fun b => snd a * snd b * f (fst a) (fst b))).
  Definition psd (P : A -> Prop) (f : A -> A -> Q) : Prop := forall m, Forall (fun a => P (fst a)) m -> 0 <= quad f m.

  Lemma psd_one P : psd P (fun _ _ => 1).
  Proof.
    intros m _. unfold quad. assert (E : tot m (fun a => tot m (fun b => snd a * snd b * 1)) == tot m snd * tot m snd).
    { rewrite <- tot_scal_r. apply tot_ext. intros a _. rewrite <- tot_scal. apply tot_ext. intros b _. ring. }
    rewrite E. nra.
  Qed.
  Lemma psd_ext (P : A -> Prop) f g : (forall a b, P a -> P b -> f a b == g a b) -> psd P f -> psd P g.
  Proof.
    intros E H m M. rewrite Forall_forall in M. assert (E' : quad g m == quad f m).
    { unfold quad. apply tot_ext. intros a Ha. apply tot_ext. intros b Hb. now rewrite (E (fst a) (fst b)) by (apply M; auto). }
    rewrite E'. apply H. now apply Forall_forall.
  Qed.
  (** A semidefinite function times an inner product plus a constant. *)
  Lemma psd_step {R : Type} (P : A -> Prop) (ks : list R) (phi : R -> A -> Q) (g c : Q) f :
    0 <= g -> 0 <= c -> psd P f -> psd P (fun a b => (g * tot ks (fun k => phi k a * phi k b) + c) * f a b).
  Proof.
    intros G C H m M. set (w := fun k => map (fun a : A * Q => (fst a, snd a * phi k (fst a))) m).
    assert (E : quad (fun a b => (g * tot ks (fun k => phi k a * phi k b) + c) * f a b) m == g * tot ks (fun k => quad f (w k)) + c * quad f m).
    { assert (E1 : tot ks (fun k => quad f (w k)) == tot m (fun a => tot m (fun b => tot ks (fun k => phi k (fst a) * phi k (fst b)) * (snd a * snd b * f (fst a) (fst b))))).
      { unfold quad. rewrite (tot_ext ks _ (fun k => tot m (fun a => tot m (fun b => phi k (fst a) * phi k (fst b) * (snd a * snd b * f (fst a) (fst b)))))).
        - rewrite tot_swap. apply tot_ext. intros a _. rewrite tot_swap. apply tot_ext. intros b _. now rewrite tot_scal_r.
        - intros k _. unfold w. rewrite tot_map. apply tot_ext. intros a _. rewrite tot_map. apply tot_ext. intros b _. cbn [fst snd]. ring. }
      rewrite E1. unfold quad. rewrite <- !tot_scal, <- tot_plus. apply tot_ext. intros a _. rewrite <- !tot_scal, <- tot_plus. apply tot_ext. intros b _. ring. }
    rewrite E. assert (0 <= tot ks (fun k => quad f (w k))).
    { clear E. induction ks as [|k ks IH]; [rewrite tot_nil; lra|]. rewrite tot_cons. assert (0 <= quad f (w k)); [|lra].
      apply H. unfold w. rewrite Forall_map. exact M. }
    pose proof (H m M). nra.
  Qed.
End Psd.

(** ** Coordinates *)
Lemma combine_nth {C} (g : Q -> Q -> C) d : forall x y, length x = d -> length y = d ->
  map (fun p => g (fst p) (snd p)) (combine x y) = map (fun k => g (nth k x 0) (nth k y 0)) (range d).
Proof.
  unfold range. induction d as [|d IH]; intros [|a x] [|b y]; cbn [length]; intros Hx Hy; try discriminate; [reflexivity|].
  cbn [combine map seq nth fst snd]. f_equal. rewrite <- seq_shift, map_map. rewrite (IH x y) by lia. reflexivity.
Qed.
Lemma dotp_inner d x y : length x = d -> length y = d -> dotp x y = inner d x y.
Proof. intros Hx Hy. unfold dotp, inner, qsum, total. now rewrite (combine_nth Qmult d). Qed.
Lemma sq_diff_distance d x y : length x = d -> length y = d -> sq_diff x y = distance2 d x y.
Proof. intros Hx Hy. unfold sq_diff, distance2, qsum, total. now rewrite (combine_nth (fun a b => (a - b) * (a - b)) d). Qed.
Lemma squares_inner d x : length x = d -> qsum (map (fun a => a * a) x) = inner d x x.
Proof.
  intro Hx. rewrite <- (dotp_inner d x x Hx Hx). unfold dotp. f_equal. clear. induction x as [|a x IH]; [reflexivity|]. cbn. now rewrite IH.
Qed.
Lemma inner_sym d x y : inner d x y == inner d y x.
Proof. unfold inner. change (tot (range d) (fun k => nth k x 0 * nth k y 0) == tot (range d) (fun k => nth k y 0 * nth k x 0)). apply tot_ext. intros. ring. Qed.
Lemma distance_sym d x y : distance2 d x y == distance2 d y x.
Proof. unfold distance2. fold (@tot nat). apply tot_ext. intros. ring. Qed.
Lemma distance_inner d x y : distance2 d x y == inner d x x + inner d y y - 2 * inner d x y.
Proof.
  unfold distance2, inner. set (R := range d). change (tot R (fun k => (nth k x 0 - nth k y 0) * (nth k x 0 - nth k y 0)) == tot R (fun k => nth k x 0 * nth k x 0) + tot R (fun k => nth k y 0 * nth k y 0) - 2 * tot R (fun k => nth k x 0 * nth k y 0)).
  rewrite <- tot_scal, <- tot_plus, <- tot_minus. apply tot_ext. intros. ring.
Qed.
Lemma distance_nonneg d x y : 0 <= distance2 d x y.
Proof. unfold distance2. apply (tot_squares (range d) (fun k => nth k x 0 - nth k y 0)). Qed.
Lemma distance_self d x : distance2 d x x == 0.
Proof. rewrite distance_inner. ring. Qed.
Lemma distance_zero d x y : distance2 d x y == 0 -> forall k, (k < d)%nat -> nth k x 0 == nth k y 0.
Proof.
  intros E k Hk. assert (nth k x 0 - nth k y 0 == 0); [|lra]. apply (tot_squares_zero (range d) (fun k => nth k x 0 - nth k y 0)).
  - unfold distance2 in E. fold (@tot nat) in E. change (tot (range d) (fun k => (nth k x 0 - nth k y 0) * (nth k x 0 - nth k y 0)) == 0) in E. rewrite E. lra.
  - unfold range. apply in_seq. lia.
Qed.

(** ** Tables *)
Lemma sound_data X : sound X = true <-> exists d, data d X.
Proof.
  unfold sound, data. destruct X as [|x X]; [split; [discriminate|intros (d & N & _); congruence]|].
  rewrite Bool.andb_true_iff, Bool.negb_true_iff, Nat.eqb_neq, forallb_forall. split.
  - intros [H1 H2]. exists (length x). split; [discriminate|]. split; [lia|]. intros y Hy. now apply Nat.eqb_eq, H2.
  - intros (d & _ & Hd & H). rewrite (H x) by now left. split; [lia|]. intros y Hy. apply Nat.eqb_eq. now apply H.
Qed.
Lemma pairs_kernel X (g : list Q -> list Q -> Q) f : (forall x y, In x X -> In y X -> g x y == f x y) -> kernel_of X f (pairs g X).
Proof.
  intro E. unfold pairs, kernel_of. split; [apply map_length|]. intros i x Hx. exists (map (g x) X). split; [exact (map_nth_error (fun x => map (g x) X) i X Hx)|].
  split; [apply map_length|]. intros j y Hy. exists (g x y). split; [exact (map_nth_error (g x) j X Hy)|]. apply E; eapply nth_error_In; eauto.
Qed.
Lemma kernel_at X f K i j x y : kernel_of X f K -> nth_error X i = Some x -> nth_error X j = Some y -> at_ K i j == f x y.
Proof.
  intros (_ & H) Hi Hj. destruct (H i x Hi) as (row & Hr & _ & H2). destruct (H2 j y Hj) as (k & Hk & E). unfold at_.
  rewrite (nth_error_nth _ _ _ Hr). now rewrite (nth_error_nth _ _ _ Hk).
Qed.
Lemma kernel_out X f K i j : kernel_of X f K -> (length X <= i)%nat \/ (length X <= j)%nat -> at_ K i j = 0.
Proof.
  intros (L & H) O. unfold at_. destruct (le_lt_dec (length X) i) as [Hi|Hi]; [rewrite (nth_overflow K) by lia; now destruct j|].
  destruct O as [O|O]; [lia|]. destruct (nth_error X i) as [x|] eqn:E; [|apply nth_error_None in E; lia].
  destruct (H i x E) as (row & Hr & Lr & _). rewrite (nth_error_nth _ _ _ Hr). apply nth_overflow. lia.
Qed.

(** ** A semidefinite function of rows gives semidefinite matrices. *)
Definition pos_psd (K : list (list Q)) : Prop := psd (fun _ => True) (at_ K).
(** Entries outside are zero, and can be left out. *)
Lemma kernel_psd X f K : kernel_of X f K -> psd (fun x => In x X) f -> pos_psd K.
Proof.
  intros HK H m _. set (n := length X). set (row := fun i => nth i X []).
  assert (E : quad (at_ K) m == quad f (map (fun a => (row (fst a), snd a)) (filter (fun a => Nat.ltb (fst a) n) m))).
  { unfold quad. rewrite tot_map.
    assert (F : forall (l : list (nat * Q)) (g h : nat * Q -> Q), (forall a, (fst a < n)%nat -> g a == h a) -> (forall a, (n <= fst a)%nat -> g a == 0) ->
                tot l g == tot (filter (fun a => Nat.ltb (fst a) n) l) h).
    { clear. induction l as [|a l IH]; intros g h G1 G2; [reflexivity|]. rewrite tot_cons. cbn [filter]. destruct (Nat.ltb_spec (fst a) n) as [L|L].
      - rewrite tot_cons. rewrite (G1 a L), (IH g h G1 G2). reflexivity.
      - rewrite (G2 a L), (IH g h G1 G2). ring. }
    apply F.
    - intros a Ha. cbn [fst snd]. rewrite tot_map. apply F; cbn [fst snd].
      + intros b Hb. assert (E1 : at_ K (fst a) (fst b) == f (row (fst a)) (row (fst b))); [|now rewrite E1].
        apply (kernel_at X); [exact HK| |]; apply nth_error_nth'; auto.
      + intros b Hb. rewrite (kernel_out X f K) by auto. ring.
    - intros a Ha. apply tot_zero. intros b _. rewrite (kernel_out X f K) by auto. ring. }
  rewrite E. apply H. rewrite Forall_map. apply Forall_forall. intros a Ha. apply filter_In in Ha. destruct Ha as [_ Ha]. apply Nat.ltb_lt in Ha.
  cbn [fst]. apply nth_In. exact Ha.
Qed.
Lemma psd_batch K L : pos_psd K -> BatchSpec.semidefinite K L.
Proof.
  intros H x. specialize (H (map (fun a => (Z.to_nat (fst a), snd a)) (combine L x)) ltac:(apply Forall_forall; auto)).
  unfold quad in H. rewrite tot_map in H. unfold energy, tot in *. erewrite map_ext; [exact H|]. intro a. cbn [fst snd]. f_equal. rewrite map_map.
  apply map_ext. intro b. cbn [fst snd]. reflexivity.
Qed.
Lemma psd_quire K l : pos_psd K -> semidefinite_on l (at_ K).
Proof.
  intros H x. specialize (H (map (fun i => (i, x i)) l) ltac:(apply Forall_forall; auto)).
  unfold quad in H. rewrite tot_map in H. unfold tot in *. erewrite map_ext; [exact H|]. intro a. cbn [fst snd]. f_equal. rewrite map_map.
  apply map_ext. intro b. cbn [fst snd]. reflexivity.
Qed.

(** ** Polynomials of inner products *)
Lemma psd_poly d (P : list Q -> Prop) g c n : 0 <= g -> 0 <= c -> psd P (fun x y => qpow (g * inner d x y + c) n).
Proof.
  intros G C. induction n as [|n IH]; [exact (psd_one P)|]. cbn [qpow].
  exact (psd_step P (range d) (fun k x => nth k x 0) g c _ G C IH).
Qed.
Lemma psd_inner d (P : list Q -> Prop) : psd P (inner d).
Proof.
  apply (psd_ext P (fun x y => qpow (1 * inner d x y + 0) 1)); [intros; cbn [qpow]; ring|]. apply psd_poly; lra.
Qed.
#[global] Instance qpow_ext : Proper (Qeq ==> eq ==> Qeq) qpow.
Proof. intros a b E n ? <-. induction n as [|n IH]; cbn [qpow]; [reflexivity|]. apply Qmult_comp; [exact E|exact IH]. Qed.
