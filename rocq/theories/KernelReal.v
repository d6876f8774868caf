(** The Gaussian kernel is positive semidefinite: proof over the real numbers of the standard library, where the exponential is
    the limit of its series. *)
From Verif Require Import Base BaseFacts MiscModel MiscSpec BatchModel BatchSpec QuireModel QuireProofs KernelModel KernelSpec KernelProofs.
From Coq Require Import QArith Qabs Reals Qreals Lra.
Local Open Scope R_scope.

(** ** Sums of reals over lists *)
Fixpoint rsum {A} (l : list A) (f : A -> R) : R := match l with [] => 0 | a :: l => f a + rsum l f end.
Lemma rsum_ext {A} (l : list A) f g : (forall a, In a l -> f a = g a) -> rsum l f = rsum l g.
Proof. induction l as [|a l IH]; cbn; intro H; [reflexivity|]. rewrite IH by auto. rewrite (H a) by auto. reflexivity. Qed.
Lemma rsum_plus {A} (l : list A) f g : rsum l (fun a => f a + g a) = rsum l f + rsum l g.
Proof. induction l as [|a l IH]; cbn; [lra|]. rewrite IH. lra. Qed.
Lemma rsum_scal {A} (l : list A) c f : rsum l (fun a => c * f a) = c * rsum l f.
Proof. induction l as [|a l IH]; cbn; [lra|]. rewrite IH. lra. Qed.
Lemma rsum_scal_r {A} (l : list A) c f : rsum l (fun a => f a * c) = rsum l f * c.
Proof. induction l as [|a l IH]; cbn; [lra|]. rewrite IH. lra. Qed.
Lemma rsum_zero {A} (l : list A) f : (forall a, In a l -> f a = 0) -> rsum l f = 0.
Proof. induction l as [|a l IH]; cbn; intro H; [reflexivity|]. rewrite IH by auto. rewrite (H a) by auto. lra. Qed.
Lemma rsum_swap {A C} (l : list A) (m : list C) f : rsum l (fun a => rsum m (f a)) = rsum m (fun c => rsum l (fun a => f a c)).
Proof.
  induction l as [|a l IH]; cbn; [symmetry; apply rsum_zero; reflexivity|]. rewrite IH, <- rsum_plus. reflexivity.
Qed.
Lemma rsum_map {A C} (g : C -> A) l f : rsum (map g l) f = rsum l (fun c => f (g c)).
Proof. induction l as [|a l IH]; cbn; [reflexivity|]. now rewrite IH. Qed.
Lemma rsum_le {A} (l : list A) f g : (forall a, In a l -> f a <= g a) -> rsum l f <= rsum l g.
Proof. induction l as [|a l IH]; cbn; intro H; [lra|]. assert (f a <= g a) by auto. assert (rsum l f <= rsum l g) by auto. lra. Qed.
Lemma rsum_Q {A} (l : list A) f : Q2R (tot l f) = rsum l (fun a => Q2R (f a)).
Proof. unfold tot, total. induction l as [|a l IH]; cbn; [unfold Q2R; cbn; lra|]. rewrite Q2R_plus. now rewrite IH. Qed.

Section Psd.
  Context {A : Type}.
  Definition rquad (f : A -> A -> R) (m : list (A * R)) : R := rsum m (fun a => rsum m (fun b => snd a * snd b * f (fst a) (fst b))).
  Definition rpsd (P : A -> Prop) (f : A -> A -> R) : Prop := forall m, Forall (fun a => P (fst a)) m -> 0 <= rquad f m.

  Lemma rpsd_one P : rpsd P (fun _ _ => 1).
  Proof.
    intros m _. unfold rquad. assert (E : rsum m (fun a => rsum m (fun b => snd a * snd b * 1)) = rsum m snd * rsum m snd).
    { rewrite <- rsum_scal_r. apply rsum_ext. intros a _. rewrite <- rsum_scal. apply rsum_ext. intros b _. ring. }
    rewrite E. nra.
  Qed.
  Lemma rpsd_ext (P : A -> Prop) f g : (forall a b, P a -> P b -> f a b = g a b) -> rpsd P f -> rpsd P g.
  Proof.
    intros E H m M. rewrite Forall_forall in M. assert (E' : rquad g m = rquad f m).
    { unfold rquad. apply rsum_ext. intros a Ha. apply rsum_ext. intros b Hb. now rewrite (E (fst a) (fst b)) by (apply M; auto). }
    rewrite E'. apply H. now apply Forall_forall.
  Qed.
  Lemma rpsd_step {C : Type} (P : A -> Prop) (ks : list C) (phi : C -> A -> R) (g : R) f :
    0 <= g -> rpsd P f -> rpsd P (fun a b => g * rsum ks (fun k => phi k a * phi k b) * f a b).
  Proof.
    intros G H m M. set (w := fun k => map (fun a : A * R => (fst a, snd a * phi k (fst a))) m).
    assert (E : rquad (fun a b => g * rsum ks (fun k => phi k a * phi k b) * f a b) m = g * rsum ks (fun k => rquad f (w k))).
    { assert (E1 : rsum ks (fun k => rquad f (w k)) = rsum m (fun a => rsum m (fun b => rsum ks (fun k => phi k (fst a) * phi k (fst b)) * (snd a * snd b * f (fst a) (fst b))))).
      { unfold rquad. rewrite (rsum_ext ks _ (fun k => rsum m (fun a => rsum m (fun b => phi k (fst a) * phi k (fst b) * (snd a * snd b * f (fst a) (fst b)))))).
        - rewrite rsum_swap. apply rsum_ext. intros a _. rewrite rsum_swap. apply rsum_ext. intros b _. now rewrite rsum_scal_r.
        - intros k _. unfold w. rewrite rsum_map. apply rsum_ext. intros a _. rewrite rsum_map. apply rsum_ext. intros b _. cbn [fst snd]. ring. }
      rewrite E1. unfold rquad. rewrite <- rsum_scal. apply rsum_ext. intros a _. rewrite <- rsum_scal. apply rsum_ext. intros b _. ring. }
    rewrite E. apply Rmult_le_pos; [exact G|]. clear E. induction ks as [|k ks IH]; cbn; [lra|]. assert (0 <= rquad f (w k)); [|lra].
    apply H. unfold w. rewrite Forall_map. exact M.
  Qed.
  Lemma rquad_plus f g m : rquad (fun a b => f a b + g a b) m = rquad f m + rquad g m.
  Proof. unfold rquad. rewrite <- rsum_plus. apply rsum_ext. intros a _. rewrite <- rsum_plus. apply rsum_ext. intros b _. ring. Qed.
  Lemma rquad_scal c f m : rquad (fun a b => c * f a b) m = c * rquad f m.
  Proof. unfold rquad. rewrite <- rsum_scal. apply rsum_ext. intros a _. rewrite <- rsum_scal. apply rsum_ext. intros b _. ring. Qed.
  (** Limits of semidefinite functions. *)
  Lemma rsum_limit {C} (l : list C) (F : nat -> C -> R) f : (forall c, Un_cv (fun n => F n c) (f c)) -> Un_cv (fun n => rsum l (F n)) (rsum l f).
  Proof.
    intro H. induction l as [|c l IH]; cbn.
    - intros e He. exists 0%nat. intros. unfold R_dist. rewrite Rminus_diag_eq by reflexivity. rewrite Rabs_R0. exact He.
    - apply (CV_plus (fun n => F n c) (fun n => rsum l (F n))); auto.
  Qed.
  Lemma const_limit c : Un_cv (fun _ => c) c.
  Proof. intros e He. exists 0%nat. intros. unfold R_dist. rewrite Rminus_diag_eq by reflexivity. rewrite Rabs_R0. exact He. Qed.
  Lemma rpsd_limit P (F : nat -> A -> A -> R) f : (forall a b, Un_cv (fun n => F n a b) (f a b)) -> (forall n, rpsd P (F n)) -> rpsd P f.
  Proof.
    intros C H m M. assert (L : Un_cv (fun n => rquad (F n) m) (rquad f m)).
    { unfold rquad. apply (rsum_limit m (fun n a => rsum m (fun b => snd a * snd b * F n (fst a) (fst b)))). intro a.
      apply (rsum_limit m (fun n b => snd a * snd b * F n (fst a) (fst b))). intro b.
      apply (CV_mult (fun _ => snd a * snd b) (fun n => F n (fst a) (fst b))); [apply const_limit|apply C]. }
    destruct (Rle_lt_dec 0 (rquad f m)) as [|N]; [assumption|]. exfalso. destruct (L (- rquad f m) ltac:(lra)) as (n & Hn). specialize (Hn n (le_n n)).
    pose proof (H n m M) as Pn. unfold R_dist in Hn. rewrite Rabs_right in Hn by lra. lra.
  Qed.
End Psd.

(** ** The exponential of an inner product *)
Definition rinner (d : nat) (x y : list Q) : R := rsum (range d) (fun k => Q2R (nth k x 0%Q) * Q2R (nth k y 0%Q)).
Lemma rinner_Q d x y : Q2R (inner d x y) = rinner d x y.
Proof. unfold inner, rinner. change (Q2R (tot (range d) (fun k => (nth k x 0 * nth k y 0)%Q)) = rinner d x y). rewrite rsum_Q. apply rsum_ext. intros. apply Q2R_mult. Qed.
Lemma rpsd_power d P g n : 0 <= g -> rpsd P (fun x y => (g * rinner d x y) ^ n).
Proof. intro G. induction n as [|n IH]; [exact (rpsd_one P)|]. exact (rpsd_step P (range d) (fun k x => Q2R (nth k x 0%Q)) g _ G IH). Qed.
Lemma rpsd_taylor d P g n : 0 <= g -> rpsd P (fun x y => sum_f_R0 (fun k => / INR (fact k) * (g * rinner d x y) ^ k) n).
Proof.
  intro G. assert (T : forall k, rpsd P (fun x y => / INR (fact k) * (g * rinner d x y) ^ k)).
  { intros k m M. rewrite rquad_scal. apply Rmult_le_pos; [|now apply (rpsd_power d P g k G)]. left. apply Rinv_0_lt_compat, INR_fact_lt_0. }
  induction n as [|n IH]; cbn [sum_f_R0]; [apply T|]. intros m M. rewrite rquad_plus. specialize (IH m M). specialize (T (S n) m M). cbv beta in T. lra.
Qed.
Lemma rpsd_exp d P g : 0 <= g -> rpsd P (fun x y => exp (g * rinner d x y)).
Proof.
  intro G. apply (rpsd_limit P (fun n x y => sum_f_R0 (fun k => / INR (fact k) * (g * rinner d x y) ^ k) n)); [|intro n; now apply rpsd_taylor].
  intros x y. pose proof (proj2_sig (exist_exp (g * rinner d x y))) as H. exact H.
Qed.
Lemma rpsd_gauss d P g : 0 <= g -> rpsd P (fun x y => exp (- g * Q2R (distance2 d x y))).
Proof.
  intro G. apply (rpsd_ext P (fun x y => 1 * rsum [tt] (fun _ => exp (- g * rinner d x x) * exp (- g * rinner d y y)) * exp (2 * g * rinner d x y))).
  - intros x y _ _. cbn [rsum]. rewrite Rplus_0_r, Rmult_1_l, <- !exp_plus. f_equal.
    rewrite (Qeq_eqR _ _ (distance_inner d x y)), Q2R_minus, Q2R_plus, Q2R_mult, !rinner_Q. replace (Q2R 2) with 2 by (unfold Q2R; cbn; lra). ring.
  - apply (rpsd_step P [tt] (fun _ x => exp (- g * rinner d x x)) 1 _ Rle_0_1). apply rpsd_exp. lra.
Qed.

(** ** Back to the computed matrix *)
Lemma rsum_abs {A} (l : list A) f : Rabs (rsum l f) <= rsum l (fun a => Rabs (f a)).
Proof. induction l as [|a l IH]; cbn; [rewrite Rabs_R0; lra|]. eapply Rle_trans; [apply Rabs_triang|]. lra. Qed.
(** Functions that differ by at most [e] have sums that differ by at most [e] times the square of the sum of absolute weights. *)
Lemma rquad_close {A} (f g : A -> A -> R) e m : (forall a b, In a m -> In b m -> Rabs (f (fst a) (fst b) - g (fst a) (fst b)) <= e) ->
  rquad g m - e * (rsum m (fun a => Rabs (snd a)) * rsum m (fun a => Rabs (snd a))) <= rquad f m.
Proof.
  intro H. assert (E : rquad f m = rquad g m + rquad (fun a b => f a b - g a b) m).
  { rewrite <- rquad_plus. unfold rquad. apply rsum_ext. intros a _. apply rsum_ext. intros b _. ring. }
  rewrite E. assert (B : Rabs (rquad (fun a b => f a b - g a b) m) <= e * (rsum m (fun a => Rabs (snd a)) * rsum m (fun a => Rabs (snd a)))).
  { unfold rquad. eapply Rle_trans; [apply rsum_abs|]. rewrite <- rsum_scal_r, <- rsum_scal. apply rsum_le. intros a Ha. eapply Rle_trans; [apply rsum_abs|].
    rewrite <- rsum_scal, <- rsum_scal. apply rsum_le. intros b Hb. rewrite !Rabs_mult. specialize (H a b Ha Hb).
    assert (0 <= Rabs (snd a) * Rabs (snd b)) by (apply Rmult_le_pos; apply Rabs_pos). nra. }
  assert (- Rabs (rquad (fun a b => f a b - g a b) m) <= rquad (fun a b => f a b - g a b) m).
  { unfold Rabs. destruct (Rcase_abs _); lra. }
  lra.
Qed.
Lemma Q2R_abs q : Q2R (Qabs q) = Rabs (Q2R q).
Proof.
  apply Qabs_case; intro H; apply Qle_Rle in H; replace (Q2R 0) with 0 in H by (unfold Q2R; cbn; lra).
  - now rewrite Rabs_right by lra.
  - rewrite Q2R_opp. now rewrite Rabs_left1 by lra.
Qed.
