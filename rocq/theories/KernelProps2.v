(** C96, continued: the Gaussian ('rbf') kernel matrix, the default of QUIRE, BMDR and SPAL, is positive semidefinite up to the
    rounding of the exponential.  The exponential is the one of the real numbers of the standard library, and the proof uses
    the axioms of those numbers. *)
From Verif Require Import Base BaseFacts MiscModel MiscSpec BatchModel BatchSpec QuireModel QuireProofs KernelModel KernelSpec KernelProofs
  KernelProps KernelReal.
From Coq Require Import QArith Qabs Reals Qreals Lra.
Local Open Scope Q_scope.

(** [expo] computes the exponential with an error of at most [eps]. *)
Definition rounds (eps : Q) (expo : Q -> Q) : Prop := forall q, (Rabs (Q2R (expo q) - exp (Q2R q)) <= Q2R eps)%R.
(** The quadratic form of a matrix for given positions and weights. *)
Definition form (K : list (list Q)) (m : list (nat * Q)) : Q :=
  total (map (fun a => total (map (fun b => snd a * snd b * at_ K (fst a) (fst b)) m)) m).

Theorem C96_rbf_semidefinite expo eps d X kw gamma K m :
  rounds eps expo -> data d X -> given (kw_gamma kw) 1 gamma -> 0 <= gamma -> calc_kernel expo X CRbf kw = Ok K ->
  Forall (fun a => (fst a < length X)%nat) m ->
  - (eps * (total (map (fun a => Qabs (snd a)) m) * total (map (fun a => Qabs (snd a)) m))) <= form K m.
Proof.
  intros R D G P C M. unfold calc_kernel in C. rewrite (proj2 (sound_data X)) in C by (exists d; exact D). injection C as <-. rewrite (given_pop _ _ _ G).
  set (k := fun x y : list Q => expo (- gamma * sq_diff x y)). destruct D as (_ & _ & D).
  apply Rle_Qle. rewrite Q2R_opp, !Q2R_mult. change (total (map (fun a : nat * Q => Qabs (snd a)) m)) with (tot m (fun a => Qabs (snd a))). rewrite rsum_Q.
  rewrite (rsum_ext m (fun a => Q2R (Qabs (snd a))) (fun a => Rabs (Q2R (snd a)))) by (intros; apply Q2R_abs).
  set (v := map (fun a : nat * Q => (nth (fst a) X [], Q2R (snd a))) m).
  assert (E : Q2R (form (pairs k X) m) = rquad (fun x y => Q2R (k x y)) v).
  { unfold form. change (Q2R (tot m (fun a => tot m (fun b => snd a * snd b * at_ (pairs k X) (fst a) (fst b)))) = rquad (fun x y => Q2R (k x y)) v).
    rewrite rsum_Q. unfold rquad, v. rewrite rsum_map. apply rsum_ext. intros a Ha. rewrite rsum_Q, rsum_map. apply rsum_ext. intros b Hb. cbn [fst snd].
    rewrite !Q2R_mult. f_equal. rewrite Forall_forall in M. apply Qeq_eqR.
    apply (kernel_at X k (pairs k X)); [apply pairs_kernel; intros; reflexivity| |]; apply nth_error_nth'; auto. }
  rewrite E. assert (W : forall a, In a v -> In (fst a) X).
  { unfold v. intros a Ha. apply in_map_iff in Ha. destruct Ha as (b & <- & Hb). cbn [fst]. rewrite Forall_forall in M. apply nth_In. auto. }
  pose proof (rquad_close (fun x y => Q2R (k x y)) (fun x y => exp (- Q2R gamma * Q2R (distance2 d x y))%R) (Q2R eps) v) as B. cbv beta in B.
  assert (N : (0 <= rquad (fun x y => exp (- Q2R gamma * Q2R (distance2 d x y))%R) v)%R).
  { apply (rpsd_gauss d (fun x => In x X) (Q2R gamma)); [apply Qle_Rle in P; unfold Q2R at 1 in P; cbn in P; lra|]. now apply Forall_forall. }
  assert (U : rsum m (fun a => Rabs (Q2R (snd a))) = rsum v (fun a => Rabs (snd a))) by (unfold v; now rewrite rsum_map). rewrite U.
  assert (H : forall a b, In a v -> In b v -> (Rabs (Q2R (k (fst a) (fst b)) - exp (- Q2R gamma * Q2R (distance2 d (fst a) (fst b)))) <= Q2R eps)%R).
  { intros a b Ha Hb. unfold k. rewrite (sq_diff_distance d) by auto. specialize (R (- gamma * distance2 d (fst a) (fst b))).
    rewrite Q2R_mult, Q2R_opp in R. exact R. }
  specialize (B H). lra.
Qed.
Print Assumptions C96_rbf_semidefinite.

(** The contract can be met with any error: round the exponential up to a multiple of one over [n]. *)
Definition rounded (n : positive) (q : Q) : Q := up (exp (Q2R q) * IZR (Zpos n)) # n.
Example C96_rounded n : rounds (1 # n) (rounded n).
Proof.
  intro q. unfold rounded. pose proof (archimed (exp (Q2R q) * IZR (Zpos n))) as (A & B).
  assert (N : (0 < IZR (Zpos n))%R) by (apply IZR_lt; lia). set (e := exp (Q2R q)) in *. clearbody e. unfold Q2R. cbn [Qnum Qden]. set (u := IZR (up (e * IZR (Z.pos n)))) in *. clearbody u. set (r := IZR (Z.pos n)) in *. clearbody r.
  replace (u * / r - e)%R with ((u - e * r) * / r)%R by (field; lra). assert (I : (0 < / r)%R) by (apply Rinv_0_lt_compat; lra).
  rewrite Rabs_right; [|apply Rle_ge, Rmult_le_pos; lra]. rewrite Rmult_1_l. rewrite <- (Rmult_1_l (/ r)) at 2. apply Rmult_le_compat_r; lra.
Qed.
(** Two points at distance one: with weights 1 and -1 the form is twice one minus the rounded exponential of minus one. *)
Example C96_rbf_form : exists K,
  calc_kernel (rounded 1000) [[0]; [1]] CRbf {| kw_gamma := None; kw_coef0 := None; kw_degree := None |} = Ok K /\
  - (1 # 1000) * (2 * 2) <= form K [(0%nat, 1); (1%nat, -1 # 1)].
Proof.
  destruct (calc_kernel (rounded 1000) [[0]; [1]] CRbf {| kw_gamma := None; kw_coef0 := None; kw_degree := None |}) as [K|e] eqn:E; [|discriminate E].
  exists K. split; [reflexivity|].
  pose proof (C96_rbf_semidefinite (rounded 1000) (1 # 1000) 1 [[0]; [1]] {| kw_gamma := None; kw_coef0 := None; kw_degree := None |} 1
    K [(0%nat, 1); (1%nat, -1 # 1)] (C96_rounded 1000)) as H.
  eapply Qle_trans; [|apply H; clear H].
  - apply Qle_bool_iff. vm_compute. reflexivity.
  - split; [discriminate|]. split; [lia|]. intros x [<- | [<- | []]]; reflexivity.
  - right. split; reflexivity.
  - apply Qle_bool_iff. reflexivity.
  - exact E.
  - repeat constructor.
Qed.
