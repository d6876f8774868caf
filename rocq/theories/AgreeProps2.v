(** Property C131, continued: the ranking measures look at nothing but the order of the scores. *)
From Verif Require Import Base BaseFacts MiscModel MiscSpec MiscProofs MetricModel MetricSpec MetricProofs MetricProofs2 MetricProofs3 MetricProofs4 MetricProofs5 MetricProofs6 MetricProofs7 MetricProps AgreeSpec AgreeProps.
From Coq Require Import QArith Lqa Qfield.
Local Open Scope Z_scope.

Lemma alike_scored s t j a c : row_alike s t -> nth_error s j = Some a -> nth_error t j = Some c -> forall i, scored s a i <-> scored t c i.
Proof.
  intros [L H] A C i. unfold scored. split.
  - intros (x & X & G). destruct (nth_some s t i x L X) as (z & Z). exists z. split; auto. now apply (H j i a x c z).
  - intros (z & Z & G). destruct (nth_some t s i z (eq_sym L) Z) as (x & X). exists x. split; auto. now apply (H j i a x c z).
Qed.
Lemma misorder_alike y s t v v' : row_alike s t -> misorder (y, s) v -> misorder (y, t) v' -> (v == v')%Q.
Proof.
  intros A [T N] [T' N']. destruct (trivial_dec y) as [D|D]; [now rewrite (T D), (T' D)|].
  destruct (N D) as (p & n & k & HP & HN & HK & ->). destruct (N' D) as (p' & n' & k' & HP' & HN' & HK' & ->).
  rewrite (hm_unique _ _ _ HP HP'), (hm_unique _ _ _ HN HN'). replace k' with k; [reflexivity|]. apply (hm_unique _ _ _ HK).
  eapply hm_ext; [|exact HK']. intros [i j]. cbn. split; intros (R & I & a & E & S); (split; auto; split; auto).
  - destruct (nth_some t s i a (eq_sym (proj1 A)) E) as (x & X). exists x. split; auto. now apply (alike_scored s t i x a A X E j).
  - destruct (nth_some s t i a (proj1 A) E) as (x & X). exists x. split; auto. now apply (alike_scored s t i a x A E X j).
Qed.
Lemma total_perm l l' : Permutation l l' -> (total l == total l')%Q.
Proof. unfold total. induction 1; cbn; try lra. Qed.
Lemma mean_perm l l' : Permutation l l' -> (mean l == mean l')%Q.
Proof. intro P. unfold mean. now rewrite (total_perm _ _ P), (Permutation_length P). Qed.
Lemma F2_perm {A B} (R : A -> B -> Prop) l l' m : Permutation l l' -> Forall2 R l m -> exists m', Permutation m m' /\ Forall2 R l' m'.
Proof. intros P F. destruct (Permutation_Forall2 P F) as (m' & P' & F'). eauto. Qed.
Lemma F2_both {A B} (R S : A -> B -> Prop) (E : B -> B -> Prop) l m m' : (forall a b b', R a b -> S a b' -> E b b') -> Forall2 R l m -> Forall2 S l m' -> Forall2 E m m'.
Proof. intros H F. revert m'. induction F; intros m' G; inversion G; subst; constructor; eauto. Qed.
Lemma precision_alike y s t v v' : row_alike s t -> precision (y, s) v -> precision (y, t) v' -> (v == v')%Q.
Proof.
  intros A [T N] [T' N']. destruct (trivial_dec y) as [D|D]; [now rewrite (T D), (T' D)|].
  destruct (N D) as (js & qs & ND & HJ & F & ->). destruct (N' D) as (js' & qs' & ND' & HJ' & F' & ->).
  assert (P : Permutation js' js) by (apply NoDup_Permutation; auto; intro j; rewrite HJ, HJ'; tauto).
  destruct (F2_perm _ _ _ _ P F') as (us & PU & FU). rewrite (mean_perm _ _ PU).
  assert (EQ : Forall2 Qeq qs us).
  { eapply F2_both; [|exact F|exact FU]. cbv beta. intros j q q' (x & a & b & X & HA & HB & ->) (z & a' & b' & Z & HA' & HB' & ->).
    pose proof (alike_scored s t j x z A X Z) as S.
    rewrite (hm_unique _ _ _ HA (hm_ext _ _ _ (fun i => and_iff_compat_l _ (iff_sym (S i))) HA')).
    rewrite (hm_unique _ _ _ HB (hm_ext _ _ _ (fun i => iff_sym (S i)) HB')). reflexivity. }
  unfold mean. now rewrite (total_eq' _ _ EQ), (F2_len _ _ _ EQ).
Qed.
Lemma coverage_alike y s t v v' : List.length y = List.length s -> row_alike s t -> coverage (y, s) v -> coverage (y, t) v' -> (v == v')%Q.
Proof.
  intros L A [T N] [T' N']. destruct (relevant y s) as [|q0 l] eqn:E.
  - assert (Z0 : forall j, ~ rel y j).
    { intros j H. assert (H' := H). destruct H' as (u & J & _). destruct (nth_some y s j u L J) as (x & X).
      assert (In x (relevant y s)) by (apply in_relevant; eauto). rewrite E in H0. destruct H0. }
    now rewrite (T Z0), (T' Z0).
  - destruct (fold_min l q0) as [I B]. rewrite <- E in I, B. apply in_relevant in I. destruct I as (j & J & K). set (q := fold_left qmin l q0) in *.
    destruct (N j _ J K) as (n & HN & ->); [intros i x Ri Xi; apply B; apply in_relevant; eauto|].
    destruct (nth_some s t j q (proj1 A) K) as (c & C).
    destruct (N' j c J C) as (n' & HN' & ->).
    { intros i z Ri Zi. destruct (nth_some t s i z (eq_sym (proj1 A)) Zi) as (x & X). apply (proj2 A j i q x c z K X C Zi). apply B. apply in_relevant. eauto. }
    replace n' with n; [reflexivity|]. apply (hm_unique _ _ _ HN). eapply hm_ext; [|exact HN']. intro i. symmetry. now apply (alike_scored s t j q c).
Qed.

Lemma averages_alike {A} (P S : A -> Q -> Prop) (rows rows' : list A) w q q' : List.length rows = List.length rows' ->
  (forall i a b v v', nth_error rows i = Some a -> nth_error rows' i = Some b -> P a v -> S b v' -> (v == v')%Q) ->
  match w with Some w => ~ (total w == 0)%Q | None => True end ->
  averages P rows w q -> averages S rows' w q' -> (q == q')%Q.
Proof.
  intros L H W (vs & F & E) (vs' & F' & E').
  assert (EQ : Forall2 Qeq vs vs').
  { clear E E' W. revert rows' vs' L H F'. induction F as [|a v rows vs Pa F IH]; intros [|b rows'] vs' L H F'; try discriminate; inversion F' as [|b' v' r' vs2 Sb F2]; subst; constructor.
    - exact (H O a b v v' eq_refl eq_refl Pa Sb).
    - apply (IH rows'); auto. intros i. exact (H (Datatypes.S i)). }
  destruct w as [w|].
  - assert (T : (total (map (fun p => fst p * snd p) (combine vs w)) == total (map (fun p => fst p * snd p) (combine vs' w)))%Q).
    { apply total_eq'. clear -EQ. revert w. induction EQ as [|x y vs vs' X EQ IH]; intros [|u w]; cbn; constructor; auto. now rewrite X. }
    rewrite T, <- E' in E. apply (Qmult_inj_r _ _ _ W). exact E.
  - rewrite E, E'. unfold mean. now rewrite (total_eq' _ _ EQ), (F2_len _ _ _ EQ).
Qed.

(** Two tables of scores that put the labels of each row in the same order (ties included) get the same ranking loss, coverage error and average precision. *)
Theorem C131_order : forall a s t n m w, matrix a n m -> matrix s n m -> matrix t n m -> (0 < n)%nat -> (1 < m)%nat -> two_valued a ->
  good_weights w n ->
  (forall i r r', nth_error s i = Some r -> nth_error t i = Some r' -> row_alike r r') ->
  exists l l' c c' p p',
    label_ranking_loss (T2 a) s w = Ok (Num l) /\ label_ranking_loss (T2 a) t w = Ok (Num l') /\ (l == l')%Q /\
    coverage_error (T2 a) s w = Ok (Num c) /\ coverage_error (T2 a) t w = Ok (Num c') /\ (c == c')%Q /\
    lrap_score (T2 a) s None = Ok (Num p) /\ lrap_score (T2 a) t None = Ok (Num p') /\ (p == p')%Q.
Proof.
  intros a s t n m w MA MS MT N M T W H.
  destruct (C41_ranking_loss a s n m w MA MS N M T W) as (l & El & Vl). destruct (C41_ranking_loss a t n m w MA MT N M T W) as (l' & El' & Vl').
  destruct (C42_coverage a s n m w MA MS N M T W) as (c & Ec & Vc). destruct (C42_coverage a t n m w MA MT N M T W) as (c' & Ec' & Vc').
  destruct (C43_precision a s n m MA MS N T) as (p & Ep & Vp & _). destruct (C43_precision a t n m MA MT N T) as (p' & Ep' & Vp' & _).
  exists l, l', c, c', p, p'.
  assert (LL : List.length (combine a s) = List.length (combine a t)) by (rewrite !combine_length, (proj1 MS), (proj1 MT); reflexivity).
  assert (PTS : forall i r r', nth_error (combine a s) i = Some r -> nth_error (combine a t) i = Some r' ->
     fst r = fst r' /\ row_alike (snd r) (snd r') /\ List.length (fst r) = List.length (snd r)).
  { intros i [y u] [y' u'] R R'. destruct (rows_in a s n m y u MA MS (nth_error_In _ _ R)) as [L1 L2].
    apply combine_nth_both in R, R'. destruct R as [R1 R2]. destruct R' as [R1' R2']. cbn. split; [congruence|]. split; [now apply (H i)|now rewrite L1, L2]. }
  repeat split; auto.
  - refine (averages_alike misorder misorder _ _ w l l' LL _ (good_total _ _ W) Vl Vl'). intros i [y u] [y' u'] v v' R R' P P'. destruct (PTS _ _ _ R R') as (E & A & _). cbn in *. subst y'. now apply (misorder_alike y u u').
  - refine (averages_alike coverage coverage _ _ w c c' LL _ (good_total _ _ W) Vc Vc'). intros i [y u] [y' u'] v v' R R' P P'. destruct (PTS _ _ _ R R') as (E & A & L). cbn in *. subst y'. now apply (coverage_alike y u u').
  - refine (averages_alike precision precision _ _ None p p' LL _ Logic.I Vp Vp'). intros i [y u] [y' u'] v v' R R' P P'. destruct (PTS _ _ _ R R') as (E & A & _). cbn in *. subst y'. now apply (precision_alike y u u').
Qed.
Print Assumptions C131_order.
Example C131_order_witness : row_alike [2#5; 1#2; 2#5]%Q [1; 9; 1]%Q.
Proof.
  split; [reflexivity|]. intros i j a b c d A B C D.
  destruct i as [|[|[|i]]]; [| | |destruct i; discriminate]; (destruct j as [|[|[|j]]]; [| | |destruct j; discriminate]); cbn in A, B, C, D;
    injection A as <-; injection B as <-; injection C as <-; injection D as <-; split; intro G; unfold Qle in *; cbn in *; lia.
Qed.

(** A table of two rows, its scores separated in one case and not in the other. *)
Example C131_separated_witness : separated [[1; 0; 1]; [0; 0; 1]] [[7; 1; 5]; [1; 2; 3]]%Q.
Proof.
  intros [|[|i]] y t A S; [| |destruct i; discriminate]; cbn in A, S; injection A as <-; injection S as <-;
    intros j k u v (z & Z1 & Z2) K U V; red in K;
    (destruct j as [|[|[|j]]]; [| | |destruct j; discriminate]); cbn in Z1, U; injection Z1 as <-; try congruence; injection U as <-;
    (destruct k as [|[|[|k]]]; [| | |destruct k; discriminate]); cbn in K, V; try discriminate; injection V as <-; reflexivity.
Qed.
Example C131_values_witness :
  (exists q, label_ranking_loss (T2 [[1; 0; 1]; [0; 0; 1]]) [[7; 1; 5]; [1; 2; 3]]%Q None = Ok (Num q) /\ (q == 0)%Q) /\
  (exists q, lrap_score (T2 [[1; 0; 1]; [0; 0; 1]]) [[7; 1; 5]; [1; 2; 3]]%Q None = Ok (Num q) /\ (q == 1)%Q) /\
  (exists q, coverage_error (T2 [[1; 0; 1]; [0; 0; 1]]) [[7; 1; 5]; [1; 2; 3]]%Q None = Ok (Num q) /\ (q == 3 # 2)%Q) /\
  (exists q, label_ranking_loss (T2 [[1; 0; 1]; [0; 0; 1]]) [[7; 5; 5]; [1; 2; 3]]%Q None = Ok (Num q) /\ ~ (q == 0)%Q).
Proof. repeat split; eexists; (split; [vm_compute; reflexivity|]); try reflexivity. intro H. vm_compute in H. discriminate. Qed.
