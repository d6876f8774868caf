(** Proofs about the quadratic programs of BMDR and SPAL. *)
From Verif Require Import Base BaseFacts IndexModel MiscModel MiscSpec QueryModel QuerySpec BatchModel BatchSpec BatchProofs.
From Coq Require Import QArith Qabs Lqa Qfield.
Local Open Scope Z_scope.

Lemma total_cons x l : total (x :: l) = (x + total l)%Q.
Proof. reflexivity. Qed.
Lemma total_app a b : (total (a ++ b) == total a + total b)%Q.
Proof. induction a; cbn [app]; rewrite ?total_cons; [cbn; ring|]. rewrite IHa. ring. Qed.
Lemma total_ext {A} (f g : A -> Q) l : (forall x, In x l -> (f x == g x)%Q) -> (total (map f l) == total (map g l))%Q.
Proof.
  induction l as [|x l IH]; intro H; [reflexivity|]. cbn [map]. rewrite !total_cons, IH by (intros; apply H; right; auto).
  rewrite (H x (or_introl eq_refl)). reflexivity.
Qed.
Lemma total_plus {A} (f g : A -> Q) l : (total (map (fun x => f x + g x) l) == total (map f l) + total (map g l))%Q.
Proof. induction l as [|x l IH]; [cbn; ring|]. cbn [map]. rewrite !total_cons, IH. ring. Qed.
Lemma total_scal {A} c (f : A -> Q) l : (total (map (fun x => c * f x) l) == c * total (map f l))%Q.
Proof. induction l as [|x l IH]; [cbn; ring|]. cbn [map]. rewrite !total_cons, IH. ring. Qed.
Lemma total_scal_r {A} c (f : A -> Q) l : (total (map (fun x => f x * c) l) == total (map f l) * c)%Q.
Proof. induction l as [|x l IH]; [cbn; ring|]. cbn [map]. rewrite !total_cons, IH. ring. Qed.

Lemma map2_map {A B C D} (f : B -> C -> D) (g : A -> B) (h : A -> C) l : map2 f (map g l) (map h l) = map (fun x => f (g x) (h x)) l.
Proof. unfold map2. induction l; cbn; f_equal; auto. Qed.
Lemma ones_map {A} (l : list A) : ones (length l) = map (fun _ => 1%Q) l.
Proof. unfold ones. induction l; cbn; f_equal; auto. Qed.

(** Over weighted instances. *)
Definition over (m : list (Z * Q)) (g : Z -> Q) : Q := total (map (fun p => snd p * g (fst p))%Q m).
Lemma over_ext m g h : (forall i, (g i == h i)%Q) -> (over m g == over m h)%Q.
Proof. intro H. apply total_ext. intros p _. rewrite (H (fst p)). reflexivity. Qed.
Lemma over_plus m g h : (over m (fun i => g i + h i) == over m g + over m h)%Q.
Proof. unfold over. rewrite <- total_plus. apply total_ext. intros. ring. Qed.
Lemma over_scal c m g : (over m (fun i => c * g i) == c * over m g)%Q.
Proof. unfold over. rewrite <- total_scal. apply total_ext. intros. ring. Qed.

Lemma energy_over K m m' : (energy K m m' == over m (fun i => over m' (entry K i)))%Q.
Proof.
  unfold energy, over. apply total_ext. intros a _. rewrite <- total_scal. apply total_ext. intros b _. ring.
Qed.
Lemma predicts_over K m j : predicts K m j = over m (fun i => entry K i j).
Proof. reflexivity. Qed.

Lemma vdot_predicts K rows cols v : Forall2 (fun j x => (x == predicts K (combine rows v) j)%Q) cols (vdot K rows cols v).
Proof.
  induction cols as [|j cols IH]; [constructor|]. constructor; [|exact IH]. clear IH. unfold predicts. revert rows.
  induction v as [|x v IH]; intros [|i rows]; try reflexivity. cbn [map2 combine map]. unfold map2 in *. cbn [combine map qsum fold_right].
  rewrite total_cons. cbn [fst snd]. specialize (IH rows). unfold qsum in IH. rewrite IH. reflexivity.
Qed.
Definition at_pred (K : list (list Q)) (rows : list Z) (v : list Q) (j : Z) : Q := qsum (map2 (fun x i => x * kat K i j)%Q v rows).
Lemma vdot_map K rows cols v : vdot K rows cols v = map (at_pred K rows v) cols.
Proof. reflexivity. Qed.
Lemma at_pred_eq K rows v j : (at_pred K rows v j == predicts K (combine rows v) j)%Q.
Proof. pose proof (vdot_predicts K rows [j] v) as H. inversion H; subst. assumption. Qed.

Lemma dot_map h U x : (dot (map h U) x == over (combine U x) h)%Q.
Proof.
  unfold dot, over. revert x. induction U as [|u U IH]; intros [|a x]; try reflexivity. cbn [map combine]. rewrite !total_cons, IH. cbn [fst snd]. ring.
Qed.
Lemma dot_map_r h U x : (dot x (map h U) == over (combine U x) h)%Q.
Proof.
  unfold dot, over. revert x. induction U as [|u U IH]; intros [|a x]; try reflexivity. cbn [map combine]. rewrite !total_cons, IH. cbn [fst snd]. ring.
Qed.
Lemma dot_plus a b x : length a = length b -> (dot (map2 Qplus a b) x == dot a x + dot b x)%Q.
Proof.
  unfold dot, map2. revert b x. induction a as [|u a IH]; intros [|v b] [|w x] E; try discriminate; try (cbn; ring).
  cbn [combine map]. cbn [fst snd]. rewrite !total_cons. cbn [fst snd]. rewrite IH by (cbn in E; lia). ring.
Qed.

Lemma dot_weighted (ws x : list Q) (g : Z -> Q) U : length ws = length U -> length x = length U ->
  (dot (map2 (fun w f => w * risk f) ws (map g U)) x == total (map (fun p => fst p * fst (snd p) * risk (g (snd (snd p)))) (combine ws (combine x U))))%Q.
Proof.
  unfold dot, map2. revert ws x. induction U as [|u U IH]; intros [|w ws] [|a x] E E'; try discriminate; try reflexivity.
  cbn [combine map]. cbn [fst snd]. rewrite !total_cons. cbn [fst snd]. rewrite IH by (cbn in *; lia). ring.
Qed.

Lemma risk_comp a b : (a == b)%Q -> (risk a == risk b)%Q.
Proof. intro H. unfold risk. rewrite H. reflexivity. Qed.

(** ** The objective *)
Section Objective.
Variables (K : list (list Q)) (L U : list Z) (b : Q).
Let l := of_nat (length L).
Let u := of_nat (length U).
Let n := (l + u)%Q.
Hypothesis sym : mirrored K.
Hypotheses (b0 : (0 < b)%Q) (bu : (b < u)%Q).

Lemma l_pos : (0 <= l)%Q.
Proof. unfold l, of_nat. rewrite <- (Zle_Qle 0). lia. Qed.

(** What is common to all selections. *)
Definition base : list (Z * Q) := map (fun i => (i, (u - b) / n)%Q) L ++ map (fun i => (i, - ((l + b) / n))%Q) U.

Lemma difference_over x g : length x = length U ->
  (over (difference L U b x) g == n / ((l + b) * (u - b)) * (over (combine U x) g + over base g))%Q.
Proof.
  intro E. unfold difference, base, over. fold l u. rewrite !map_app, !total_app, !map_map. cbn [fst snd].
  pose proof l_pos as L0.
  assert (S1 : (total (map (fun i => (u - b) / n * g i) L) == (u - b) / n * total (map g L))%Q) by apply total_scal.
  assert (S2 : (total (map (fun i => - ((l + b) / n) * g i) U) == - ((l + b) / n) * total (map g U))%Q) by apply total_scal.
  assert (S3 : (total (map (fun i => 1 / (l + b) * g i) L) == 1 / (l + b) * total (map g L))%Q) by apply total_scal.
  rewrite S1, S2, S3.
  assert (S4 : (total (map (fun p => (snd p / (l + b) - (1 - snd p) / (u - b)) * g (fst p)) (combine U x)) ==
                n / ((l + b) * (u - b)) * total (map (fun p => snd p * g (fst p)) (combine U x)) - 1 / (u - b) * total (map g U))%Q).
  { clear S1 S2 S3. assert (N1 : ~ (l + b == 0)%Q) by lra. assert (N2 : ~ (u - b == 0)%Q) by lra.
    assert (Gen : forall V (z : list Q), length z = length V ->
      (total (map (fun p => (snd p / (l + b) - (1 - snd p) / (u - b)) * g (fst p)) (combine V z)) ==
       n / ((l + b) * (u - b)) * total (map (fun p => snd p * g (fst p)) (combine V z)) - 1 / (u - b) * total (map g V))%Q).
    { clear E. induction V as [|v V IH]; intros [|z0 z] EL; try discriminate; [cbn; field; split; auto|].
      cbn [combine map]. rewrite !total_cons, IH by (cbn in EL; lia). cbn [fst snd]. unfold n. field. split; auto. }
    apply Gen, E. }
  rewrite S4. field. unfold n. repeat split; lra.
Qed.

Lemma discrepancy_eq x : length x = length U ->
  (discrepancy K L U b x == (n / ((l + b) * (u - b))) * (n / ((l + b) * (u - b))) *
     (energy K (combine U x) (combine U x) + 2 * over (combine U x) (fun i => over base (fun j => entry K j i)) + energy K base base))%Q.
Proof.
  intro E. unfold discrepancy. rewrite energy_over.
  rewrite (over_ext _ _ (fun i => n / ((l + b) * (u - b)) * (over (combine U x) (entry K i) + over base (entry K i)))%Q)
    by (intro i; apply difference_over, E).
  rewrite difference_over by exact E. rewrite !over_scal, !over_plus. rewrite <- !energy_over.
  assert (C : (over base (fun i => over (combine U x) (entry K i)) == over (combine U x) (fun i => over base (entry K i)))%Q).
  { assert (Sw : forall m m', (over m (fun i => over m' (entry K i)) == over m' (fun i => over m (entry K i)))%Q).
    { intros m m'. induction m as [|p m IH].
      - unfold over at 1. cbn [map]. induction m' as [|q m' IH']; [reflexivity|]. unfold over in *. cbn [map] in *. rewrite total_cons, <- IH'. cbn. ring.
      - transitivity (snd p * over m' (entry K (fst p)) + over m (fun i => over m' (entry K i)))%Q; [reflexivity|]. rewrite IH.
        rewrite <- over_scal, <- over_plus. apply over_ext. intro i.
        transitivity (snd p * entry K i (fst p) + over m (entry K i))%Q; [|reflexivity]. rewrite (sym (fst p) i). reflexivity. }
    apply Sw. }
  assert (D : (energy K base (combine U x) == over (combine U x) (fun i => over base (entry K i)))%Q) by (rewrite energy_over; exact C).
  rewrite D. rewrite (energy_over K (combine U x) base).
  assert (E2 : (over (combine U x) (fun i => over base (fun j => entry K j i)) == over (combine U x) (fun i => over base (entry K i)))%Q).
  { apply over_ext. intro i. apply over_ext. intro j. apply sym. }
  rewrite E2. ring.
Qed.
End Objective.

Lemma objective_lemma scale K L U batch ws tau x : mirrored K -> 0 < batch < Z.of_nat (length U) ->
  length ws = length U -> length x = length U ->
  let l := of_nat (length L) in let u := of_nat (length U) in let n := (l + u)%Q in let b := inject_Z batch in
  (objective (program scale K L U batch ws tau) x ==
     scale / 2 * (((l + b) * (u - b) / n) * ((l + b) * (u - b) / n)) * discrepancy K L U b x
     - scale / 4 * energy K (combine U x) (combine U x)
     + total (map (fun p => fst p * fst (snd p) * risk (predicts K (combine L tau) (snd (snd p)))) (combine ws (combine x U)))
     - scale / 2 * energy K (base L U b) (base L U b))%Q.
Proof.
  intros S B LW LX l u n b.
  assert (B0 : (0 < b)%Q) by (unfold b; change 0%Q with (inject_Z 0); rewrite <- Zlt_Qlt; lia).
  assert (BU : (b < u)%Q) by (unfold b, u, of_nat; rewrite <- Zlt_Qlt; lia).
  assert (L0 : (0 <= l)%Q) by (unfold l, of_nat; change 0%Q with (inject_Z 0); rewrite <- Zle_Qle; lia).
  rewrite (discrepancy_eq K L U b S B0 BU x LX). fold l u n.
  unfold objective, program. cbn [qp_P qp_q]. fold l u n b.
  assert (QE : (quadratic (map (fun i => map (fun j => (1 # 2) * scale * kat K i j) U) U) x == (1 # 2) * scale * energy K (combine U x) (combine U x))%Q).
  { unfold quadratic. rewrite map_map, dot_map_r, energy_over. rewrite <- over_scal. apply over_ext. intro i.
    rewrite dot_map, over_scal. reflexivity. }
  rewrite QE. rewrite !vdot_map, !ones_map, map2_map.
  rewrite dot_plus by (rewrite map2_length, !map_length; lia). rewrite dot_map, dot_weighted by auto.
  assert (R : (total (map (fun p => fst p * fst (snd p) * risk (at_pred K L tau (snd (snd p)))) (combine ws (combine x U))) ==
               total (map (fun p => fst p * fst (snd p) * risk (predicts K (combine L tau) (snd (snd p)))) (combine ws (combine x U))))%Q).
  { apply total_ext. intros p _. rewrite (risk_comp _ _ (at_pred_eq K L tau (snd (snd p)))). reflexivity. }
  rewrite R.
  assert (G : (over (combine U x) (fun i => scale * ((u - b) / n * at_pred K L (map (fun _ => 1) L) i - (l + b) / n * at_pred K U (map (fun _ => 1) U) i))
             == scale * over (combine U x) (fun i => over (base L U b) (fun j => entry K j i)))%Q).
  { rewrite <- over_scal. apply over_ext. intro i. unfold base. fold l u n. rewrite !at_pred_eq.
    assert (P1 : forall V, (predicts K (combine V (map (fun _ => 1) V)) i == total (map (fun j => entry K j i) V))%Q).
    { induction V as [|v V IH]; [reflexivity|]. unfold predicts in *. cbn [map combine]. rewrite !total_cons, IH. cbn. ring. }
    rewrite !P1. unfold over. rewrite map_app, total_app, !map_map. cbn [fst snd]. rewrite !total_scal. ring. }
  rewrite G. field. unfold n. repeat split; lra.
Qed.
