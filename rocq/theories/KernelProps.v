(** C96: kernel matrices.

    - The Gaussian kernel matrix holds the exponential of minus the squared distance over twice the squared width, for all pairs
      of rows; it is symmetric, its diagonal is one and its entries are between zero and one; it is the 'rbf' matrix with gamma
      one over twice the squared width.  A width of zero gives NaN for equal rows and zero for different ones.
    - [calc_kernel_matrix] holds the documented kernel for all pairs of rows, with the documented defaults; a callable's result
      is returned as it is; other kernels raise NotImplementedError.
    - Linear kernels, and polynomial kernels whose gamma and coef0 are not negative, are positive semidefinite, which the
      convex programs of QUIRE, BMDR and SPAL need; with a negative coef0 they need not be.
    - BMDR and SPAL turn labels into 1 and -1; of boolean labels both classes become the same. *)
From Verif Require Import Base BaseFacts MiscModel MiscSpec BatchModel BatchSpec QuireModel QuireSpec QuireProofs QuireProofs2
  KernelModel KernelSpec KernelProofs.
From Coq Require Import QArith Qabs Qfield Lqa Setoid Morphisms.
Local Open Scope Q_scope.

(** ** The Gaussian kernel matrix *)
Definition num_kernel (X : list (list Q)) (f : list Q -> list Q -> fl -> Prop) (K : list (list fl)) : Prop :=
  length K = length X /\
  forall i x, nth_error X i = Some x -> exists row, nth_error K i = Some row /\ length row = length X /\
    forall j y, nth_error X j = Some y -> exists k, nth_error row j = Some k /\ f x y k.
Lemma pairs_num X g (f : list Q -> list Q -> fl -> Prop) : (forall x y, In x X -> In y X -> f x y (g x y)) -> num_kernel X f (pairs g X).
Proof.
  intro E. unfold pairs, num_kernel. split; [apply map_length|]. intros i x Hx. exists (map (g x) X). split; [exact (map_nth_error (fun x => map (g x) X) i X Hx)|].
  split; [apply map_length|]. intros j y Hy. exists (g x y). split; [exact (map_nth_error (g x) j X Hy)|]. apply E; eapply nth_error_In; eauto.
Qed.
Lemma numerator d x y : length x = d -> length y = d ->
  - qsum (map (fun a => a * a) x) * 1 - 1 * qsum (map (fun a => a * a) y) + 2 * dotp x y == - distance2 d x y.
Proof. intros Hx Hy. rewrite (squares_inner d x), (squares_inner d y), (dotp_inner d x y), distance_inner by auto. ring. Qed.

Theorem C96_gaussian expo sigma d X :
  exponential expo -> data d X -> ~ sigma == 0 ->
  exists K, gaussian expo sigma X = Ok K /\
    num_kernel X (fun x y k => exists q, k = Num q /\ q == expo (- (distance2 d x y / (2 * (sigma * sigma)))) /\ 0 < q <= 1) K.
Proof.
  intros (Ext & E0 & Pos & Le) D S0. unfold gaussian. rewrite (proj2 (sound_data X)) by (exists d; exact D). eexists. split; [reflexivity|].
  destruct D as (_ & _ & D). apply pairs_num. intros x y Hx Hy. assert (T : 0 < 2 * (sigma * sigma)) by nra.
  unfold fdiv. destruct (Qeq_bool (2 * (sigma * sigma)) 0) eqn:B; [apply Qeq_bool_iff in B; lra|]. cbn [fexp]. eexists. split; [reflexivity|].
  assert (E : (- qsum (map (fun a => a * a) x) * 1 - 1 * qsum (map (fun a => a * a) y) + 2 * dotp x y) / (2 * (sigma * sigma)) == - (distance2 d x y / (2 * (sigma * sigma)))).
  { rewrite (numerator d) by auto. field. lra. }
  split; [now apply Ext|]. split; [apply Pos|]. apply Le. rewrite E. pose proof (distance_nonneg d x y). assert (0 <= distance2 d x y / (2 * (sigma * sigma))); [|lra].
  apply Qle_shift_div_l; lra.
Qed.
Print Assumptions C96_gaussian.

(** Symmetric, with ones on the diagonal, and the 'rbf' matrix for another parameter. *)
Theorem C96_gaussian_symmetric expo sigma d X K i j x y row row' a b :
  exponential expo -> data d X -> ~ sigma == 0 -> gaussian expo sigma X = Ok K ->
  nth_error X i = Some x -> nth_error X j = Some y ->
  nth_error K i = Some row -> nth_error row j = Some a -> nth_error K j = Some row' -> nth_error row' i = Some b ->
  exists p q, a = Num p /\ b = Num q /\ p == q /\ (i = j -> p == 1).
Proof.
  intros Ex D S0 G Hx Hy Hr Ha Hr' Hb. destruct (C96_gaussian expo sigma d X Ex D S0) as (K' & G' & _ & H). rewrite G in G'. injection G' as <-.
  destruct Ex as (Ext & E0 & _). destruct (H i x Hx) as (r & R1 & _ & R2). rewrite Hr in R1. injection R1 as <-.
  destruct (H j y Hy) as (r' & R1' & _ & R2'). rewrite Hr' in R1'. injection R1' as <-.
  destruct (R2 j y Hy) as (k & K1 & p & -> & P & _). rewrite Ha in K1. injection K1 as ->.
  destruct (R2' i x Hx) as (k' & K1' & q & -> & P' & _). rewrite Hb in K1'. injection K1' as ->.
  exists p, q. split; [reflexivity|]. split; [reflexivity|]. split.
  - rewrite P, P'. apply Ext. now rewrite distance_sym.
  - intros ->. rewrite Hx in Hy. injection Hy as ->. rewrite P, <- E0. apply Ext. rewrite distance_self. field. intro Z0. apply S0. nra.
Qed.
Print Assumptions C96_gaussian_symmetric.

Theorem C96_gaussian_rbf expo sigma d X kw :
  exponential expo -> data d X -> ~ sigma == 0 -> kw_gamma kw = Some (1 / (2 * (sigma * sigma))) ->
  exists K R, gaussian expo sigma X = Ok K /\ calc_kernel expo X CRbf kw = Ok R /\
    Forall2 (Forall2 (fun k r => exists q, k = Num q /\ q == r)) K R.
Proof.
  intros (Ext & E0 & Pos & Le) D S0 G. unfold gaussian, calc_kernel. rewrite (proj2 (sound_data X)) by (exists d; exact D). eexists. eexists.
  split; [reflexivity|]. split; [reflexivity|]. destruct D as (_ & _ & D). assert (T : ~ 2 * (sigma * sigma) == 0) by (intro; apply S0; nra).
  assert (F : forall {A B C} (g : A -> B) (h : A -> C) (r : B -> C -> Prop) l, (forall a, In a l -> r (g a) (h a)) -> Forall2 r (map g l) (map h l)).
  { clear. intros A B C g h r l. induction l as [|a l IH]; intro H; cbn [map]; constructor; [apply H; now left|apply IH; intros; apply H; now right]. }
  unfold pairs. apply F. intros x Hx. apply F. intros y Hy. unfold fdiv. destruct (Qeq_bool (2 * (sigma * sigma)) 0) eqn:B; [apply Qeq_bool_iff in B; tauto|].
  cbn [fexp]. eexists. split; [reflexivity|]. apply Ext. rewrite (numerator d), (sq_diff_distance d), G by auto. cbn [pop]. field. lra.
Qed.
Print Assumptions C96_gaussian_rbf.

(** A width of zero: nothing can be said of equal rows, and others are unrelated. *)
Theorem C96_zero_width expo sigma d X :
  data d X -> sigma == 0 ->
  exists K, gaussian expo sigma X = Ok K /\
    num_kernel X (fun x y k => ((forall c, (c < d)%nat -> nth c x 0 == nth c y 0) /\ k = NaN) \/
                               ((exists c, (c < d)%nat /\ ~ nth c x 0 == nth c y 0) /\ k = Num 0)) K.
Proof.
  intros D S0. unfold gaussian. rewrite (proj2 (sound_data X)) by (exists d; exact D). eexists. split; [reflexivity|].
  destruct D as (_ & _ & D). apply pairs_num. intros x y Hx Hy. pose proof (numerator d x y (D x Hx) (D y Hy)) as E.
  set (t := - qsum (map (fun a => a * a) x) * 1 - 1 * qsum (map (fun a => a * a) y) + 2 * dotp x y) in *. clearbody t. unfold fdiv.
  destruct (Qeq_bool (2 * (sigma * sigma)) 0) eqn:B; [|apply Qeq_bool_neq in B; exfalso; apply B; rewrite S0; ring]. clear B.
  destruct (Qeq_bool t 0) eqn:B.
  - left. split; [|reflexivity]. apply Qeq_bool_iff in B. apply distance_zero. lra.
  - right. apply Qeq_bool_neq in B. pose proof (distance_nonneg d x y) as N. split.
    + assert (Z0 : ~ distance2 d x y == 0) by lra. clear - Z0.
      assert (F : forall l, (exists c, In c l /\ ~ nth c x 0 == nth c y 0) \/ tot l (fun k => (nth k x 0 - nth k y 0) * (nth k x 0 - nth k y 0)) == 0).
      { induction l as [|c l [(e & I & H)|IH]]; [right; reflexivity|left; exists e; split; [now right|exact H]|].
        destruct (Qeq_dec (nth c x 0) (nth c y 0)) as [E|E]; [|left; exists c; split; [now left|exact E]].
        right. rewrite tot_cons, IH, E. ring. }
      destruct (F (range d)) as [(c & I & H)|H]; [exists c; split; [unfold range in I; apply in_seq in I; lia|exact H]|].
      exfalso. apply Z0. exact H.
    + cbn [fexp]. destruct (Qle_bool 0 t) eqn:L; [apply Qle_bool_iff in L; exfalso; apply B; lra|]. reflexivity.
Qed.
Print Assumptions C96_zero_width.

(** Data without rows or columns, or of rows of different lengths, is refused by all built-in kernels. *)
Theorem C96_unsound expo sigma X kw :
  (forall d, ~ data d X) ->
  gaussian expo sigma X = Err ValueErr /\ calc_kernel expo X CRbf kw = Err ValueErr /\ calc_kernel expo X CPoly kw = Err ValueErr /\
  calc_kernel expo X CLinear kw = Err ValueErr.
Proof.
  intro N. assert (B : sound X = false). { destruct (sound X) eqn:B; [|reflexivity]. apply sound_data in B. destruct B as (d & D). destruct (N d D). }
  unfold gaussian, calc_kernel. rewrite B. auto.
Qed.
Print Assumptions C96_unsound.

(** ** [calc_kernel_matrix] *)
Fixpoint power (x : Q) (n : nat) : Q := match n with O => 1 | S m => power x m * x end.
Lemma qpow_power x n : qpow x n == power x n.
Proof. induction n as [|n IH]; cbn [qpow power]; [reflexivity|]. rewrite IH. ring. Qed.
Definition given {A} (o : option A) (default v : A) : Prop := o = Some v \/ (o = None /\ v = default).
Lemma given_pop {A} (o : option A) d v : given o d v -> pop d o = v.
Proof. intros [-> | [-> ->]]; reflexivity. Qed.

Theorem C96_rbf expo d X kw gamma :
  exponential expo -> data d X -> given (kw_gamma kw) 1 gamma ->
  exists K, calc_kernel expo X CRbf kw = Ok K /\ kernel_of X (fun x y => expo (- gamma * distance2 d x y)) K.
Proof.
  intros (Ext & _) D G. unfold calc_kernel. rewrite (proj2 (sound_data X)) by (exists d; exact D). eexists. split; [reflexivity|].
  rewrite (given_pop _ _ _ G). destruct D as (_ & _ & D). apply pairs_kernel. intros x y Hx Hy. now rewrite (sq_diff_distance d) by auto.
Qed.
Print Assumptions C96_rbf.
Theorem C96_poly expo d X kw gamma coef0 degree :
  data d X -> given (kw_gamma kw) 1 gamma -> given (kw_coef0 kw) 1 coef0 -> given (kw_degree kw) 3%nat degree ->
  exists K, calc_kernel expo X CPoly kw = Ok K /\ kernel_of X (fun x y => power (gamma * inner d x y + coef0) degree) K.
Proof.
  intros D G C N. unfold calc_kernel. rewrite (proj2 (sound_data X)) by (exists d; exact D). eexists. split; [reflexivity|].
  rewrite (given_pop _ _ _ G), (given_pop _ _ _ C), (given_pop _ _ _ N). destruct D as (_ & _ & D). apply pairs_kernel. intros x y Hx Hy.
  rewrite (dotp_inner d) by auto. apply qpow_power.
Qed.
Print Assumptions C96_poly.
Theorem C96_linear expo d X kw :
  data d X -> exists K, calc_kernel expo X CLinear kw = Ok K /\ kernel_of X (inner d) K.
Proof.
  intro D. unfold calc_kernel. rewrite (proj2 (sound_data X)) by (exists d; exact D). eexists. split; [reflexivity|].
  destruct D as (_ & _ & D). apply pairs_kernel. intros x y Hx Hy. now rewrite (dotp_inner d) by auto.
Qed.
Print Assumptions C96_linear.
(** Nothing is checked of a callable, neither its argument nor its result. *)
Theorem C96_other expo X kw f :
  calc_kernel expo X (CCall f) kw = Ok (f X X) /\ calc_kernel expo X CElse kw = Err NotImplErr.
Proof. split; reflexivity. Qed.
Print Assumptions C96_other.

(** ** Positive semidefinite *)
Theorem C96_linear_semidefinite expo X kw K :
  calc_kernel expo X CLinear kw = Ok K ->
  mirrored K /\ (forall L, semidefinite K L) /\ (forall l, semidefinite_on l (at_ K)).
Proof.
  intro H. unfold calc_kernel in H. destruct (sound X) eqn:B; [|discriminate]. apply sound_data in B. destruct B as (d & D).
  destruct (C96_linear expo d X kw D) as (K' & E & HK). unfold calc_kernel in E. rewrite (proj2 (sound_data X)) in E by (exists d; exact D).
  rewrite H in E. injection E as <-.
  assert (P : pos_psd K). { apply (kernel_psd X (inner d)); [exact HK|]. apply psd_inner. }
  split; [|split; [intro L; now apply psd_batch|intro l; now apply psd_quire]].
  intros i j. change (at_ K (Z.to_nat i) (Z.to_nat j) == at_ K (Z.to_nat j) (Z.to_nat i)). generalize (Z.to_nat i) as a, (Z.to_nat j) as b. intros a b.
  destruct (nth_error X a) as [x|] eqn:Ea; [|apply nth_error_None in Ea; rewrite !(kernel_out X (inner d)) by auto; reflexivity].
  destruct (nth_error X b) as [y|] eqn:Eb; [|apply nth_error_None in Eb; rewrite !(kernel_out X (inner d)) by auto; reflexivity].
  rewrite (kernel_at _ _ _ _ _ x y HK), (kernel_at _ _ _ _ _ y x HK) by auto. apply inner_sym.
Qed.
Print Assumptions C96_linear_semidefinite.
Theorem C96_poly_semidefinite expo X kw gamma coef0 K :
  given (kw_gamma kw) 1 gamma -> given (kw_coef0 kw) 1 coef0 -> 0 <= gamma -> 0 <= coef0 ->
  calc_kernel expo X CPoly kw = Ok K ->
  mirrored K /\ (forall L, semidefinite K L) /\ (forall l, semidefinite_on l (at_ K)).
Proof.
  intros G C G0 C0 H. unfold calc_kernel in H. destruct (sound X) eqn:B; [|discriminate]. apply sound_data in B. destruct B as (d & D). injection H as <-.
  rewrite (given_pop _ _ _ G), (given_pop _ _ _ C). set (n := pop 3%nat (kw_degree kw)). set (f := fun x y => qpow (gamma * inner d x y + coef0) n).
  set (K := pairs _ X). assert (HK : kernel_of X f K). { unfold K. apply pairs_kernel. destruct D as (_ & _ & D). intros x y Hx Hy. unfold f. now rewrite (dotp_inner d) by auto. }
  assert (P : pos_psd K). { apply (kernel_psd X f); [exact HK|]. now apply psd_poly. } clearbody K.
  split; [|split; [intro L; now apply psd_batch|intro l; now apply psd_quire]].
  intros i j. change (at_ K (Z.to_nat i) (Z.to_nat j) == at_ K (Z.to_nat j) (Z.to_nat i)). generalize (Z.to_nat i) as a, (Z.to_nat j) as b. intros a b.
  destruct (nth_error X a) as [x|] eqn:Ea; [|apply nth_error_None in Ea; rewrite !(kernel_out X f) by auto; reflexivity].
  destruct (nth_error X b) as [y|] eqn:Eb; [|apply nth_error_None in Eb; rewrite !(kernel_out X f) by auto; reflexivity].
  rewrite (kernel_at _ _ _ _ _ x y HK), (kernel_at _ _ _ _ _ y x HK) by auto. unfold f. now rewrite inner_sym.
Qed.
Print Assumptions C96_poly_semidefinite.
(** The matrices that BMDR and SPAL keep when they are given these kernels. *)
Theorem C96_strategies expo X kw gamma coef0 y y' K k :
  given (kw_gamma kw) 1 gamma -> given (kw_coef0 kw) 1 coef0 -> 0 <= gamma -> 0 <= coef0 ->
  k = Linear \/ k = Poly -> new_batch (of_data expo X kw) (length X) y k = Ok (y', K) ->
  mirrored K /\ forall L, semidefinite K L.
Proof.
  intros G C G0 C0 HK H. unfold new_batch in H. destruct (signed_labels y) as [s|e]; cbn [bind] in H; [|discriminate].
  assert (E : kernel_matrix (of_data expo X kw) (length X) k = Ok (of_data expo X kw k) \/ exists e, kernel_matrix (of_data expo X kw) (length X) k = Err e).
  { destruct HK as [-> | ->]; unfold kernel_matrix; cbn [bind]; destruct (_ && _)%bool; eauto. }
  destruct E as [E|(e & E)]; rewrite E in H; cbn [bind] in H; [|discriminate]. injection H as _ <-. clear E.
  assert (Nil : mirrored [] /\ forall L, semidefinite [] L).
  { split; [intros i j; unfold entry; destruct (Z.to_nat i), (Z.to_nat j); reflexivity|]. intros L x. unfold energy.
    assert (Z0 : tot (combine L x) (fun a => tot (combine L x) (fun b => snd a * snd b * entry [] (fst a) (fst b))) == 0).
    { apply tot_zero. intros a _. apply tot_zero. intros b _. unfold entry. destruct (Z.to_nat (fst a)), (Z.to_nat (fst b)); cbn [nth]; ring. }
    unfold tot in Z0. rewrite Z0. lra. }
  destruct HK as [-> | ->]; unfold of_data.
  - destruct (calc_kernel expo X CLinear kw) as [K|e] eqn:E; [|exact Nil]. destruct (C96_linear_semidefinite expo X kw K E) as (M & P & _). auto.
  - destruct (calc_kernel expo X CPoly kw) as [K|e] eqn:E; [|exact Nil]. destruct (C96_poly_semidefinite expo X kw gamma coef0 K G C G0 C0 E) as (M & P & _). auto.
Qed.
Print Assumptions C96_strategies.
(** A negative coef0 makes the programs non-convex. *)
Theorem C96_negative_refuted expo :
  exists X kw K, data 1 X /\ calc_kernel expo X CPoly kw = Ok K /\ ~ forall L, semidefinite K L.
Proof.
  exists [[0]], {| kw_gamma := None; kw_coef0 := Some (- (1)); kw_degree := None |}, [[qpow (1 * (0 * 0 + 0) + - (1)) 3]].
  split. { split; [discriminate|]. split; [lia|]. intros x [<-|[]]. reflexivity. }
  split; [reflexivity|]. intro H. specialize (H [0%Z] [1]). apply Qle_bool_iff in H. vm_compute in H. discriminate.
Qed.
Print Assumptions C96_negative_refuted.

(** ** Labels by type *)
Theorem C96_int_labels y : typed_labels DInt y = signed_labels y.
Proof. reflexivity. Qed.
Print Assumptions C96_int_labels.

Lemma unique_in y a : In a (unique_labels y) <-> In a y.
Proof.
  assert (I : forall x l a, In a (ins x l) <-> a = x \/ In a l).
  { induction l as [|b l IH]; cbn [ins]; intro c; [cbn; intuition|]. destruct (x <? b)%Z; [cbn; intuition|]. destruct (Z.eqb_spec x b) as [->|N]; cbn [In]; [intuition; subst; auto|]. rewrite IH. intuition. }
  unfold unique_labels. induction y as [|b y IH]; cbn [fold_right]; [reflexivity|]. rewrite I, IH. cbn [In]. intuition.
Qed.
(** Boolean labels of both classes are accepted, and then all are 1: the classes cannot be told apart any more. *)
Theorem C96_bool_refuted y :
  Forall (fun v => v = 0%Z \/ v = 1%Z) y -> In 0%Z y -> In 1%Z y ->
  typed_labels DBool y = Ok (map (fun _ => 1%Z) y) /\
  exists s, signed_labels y = Ok s /\ Forall2 (fun v w => w = if (v =? 0)%Z then 1%Z else (-1)%Z) y s.
Proof.
  intros B I0 I1.
  assert (U : unique_labels y = [0%Z; 1%Z]).
  { assert (S1 : forall y, Forall (fun v => v = 0%Z \/ v = 1%Z) y -> unique_labels y = [] \/ unique_labels y = [0%Z] \/ unique_labels y = [1%Z] \/ unique_labels y = [0%Z; 1%Z]).
    { clear. induction y as [|v y IH]; intro B; [now left|]. inversion B as [|? ? Hv B']; subst. unfold unique_labels. cbn [fold_right]. fold (unique_labels y).
      destruct (IH B') as [-> | [-> | [-> | ->]]]; destruct Hv as [-> | ->]; cbn; auto. }
    destruct (S1 y B) as [E|[E|[E|E]]]; [| | |exact E]; rewrite <- unique_in, E in I0, I1; cbn in I0, I1; intuition discriminate. }
  unfold typed_labels, signed_labels. rewrite U. cbn [Z.eqb andb]. split.
  - f_equal. apply map_ext_in. intros v Hv. rewrite Forall_forall in B. destruct (B v Hv) as [-> | ->]; reflexivity.
  - eexists. split; [reflexivity|]. clear U I0 I1. induction B as [|v y Hv B IH]; cbn [map]; constructor; [destruct Hv as [-> | ->]; reflexivity|exact IH].
Qed.
Print Assumptions C96_bool_refuted.

(** ** Witnesses *)
Definition toy_exp (a : Q) : Q := if Qle_bool a 0 then 1 / (1 - a) else 1 + a.
Example C96_witness_exponential : exponential toy_exp.
Proof.
  unfold toy_exp. split; [|split; [|split]].
  - intros a b E. destruct (Qle_bool a 0) eqn:A; destruct (Qle_bool b 0) eqn:B; rewrite ?E; try reflexivity.
    + apply Qle_bool_iff in A. rewrite E in A. apply Qle_bool_iff in A. congruence.
    + apply Qle_bool_iff in B. rewrite <- E in B. apply Qle_bool_iff in B. congruence.
  - reflexivity.
  - intro a. destruct (Qle_bool a 0) eqn:A; [apply Qle_bool_iff in A; apply Qlt_shift_div_l; lra|]. assert (~ a <= 0) by (rewrite <- Qle_bool_iff; congruence). lra.
  - intros a H. destruct (Qle_bool a 0) eqn:A; [apply Qle_shift_div_r; lra|]. exfalso. apply Qle_bool_iff in H. congruence.
Qed.
Definition toy : list (list Q) := [[1; 2]; [0; 1]; [1; 2]].
Example C96_witness_data : data 2 toy.
Proof. split; [discriminate|]. split; [lia|]. intros x [<-|[<-|[<-|[]]]]; reflexivity. Qed.
Definition no_kwargs : kwargs := {| kw_gamma := None; kw_coef0 := None; kw_degree := None |}.
Example C96_witness_poly : calc_kernel toy_exp toy CPoly no_kwargs <> Err ValueErr /\
  match calc_kernel toy_exp toy CPoly no_kwargs with Ok K => Forall2 (Forall2 Qeq) K [[216; 27; 216]; [27; 8; 27]; [216; 27; 216]] | _ => False end.
Proof. split; [discriminate|]. repeat constructor. Qed.
Example C96_witness_gaussian :
  match gaussian toy_exp 1 toy with
  | Ok K => Forall2 (Forall2 (fun k q => match k with Num p => p == q | _ => False end)) K [[1; 1 # 2; 1]; [1 # 2; 1; 1 # 2]; [1; 1 # 2; 1]]
  | _ => False
  end.
Proof. repeat constructor. Qed.
Example C96_witness_bool : typed_labels DBool [0; 1; 1]%Z = Ok [1; 1; 1]%Z. Proof. reflexivity. Qed.
Example C96_witness_batch : exists K, new_batch (of_data toy_exp toy no_kwargs) 3 [0; 1; 1]%Z Linear = Ok ([1; -1; -1]%Z, K).
Proof. eexists. reflexivity. Qed.
