(** Proofs about BlindModel: selections agree when the labels they read agree. *)
From Verif Require Import Base BaseFacts IndexModel MLModel MLSpec MLProofs MLProofs2 MiscModel QueryModel MLQueryModel BatchModel LalModel
  QuireModel NoisyModel OracleModel AuroModel BlindModel BlindSpec.
From Coq Require Import QArith.
Local Open Scope Z_scope.

Lemma label_at_py {A} (y : list A) i :
  (match py_index (length y) i with Some p => py_nth y p | None => Err IndexErr end)
  = match label_at y i with Some v => Ok v | None => Err IndexErr end.
Proof.
  unfold py_index, label_at, py_nth. destruct (i <? 0) eqn:E.
  - replace (0 <=? i) with false by lia. cbn [andb].
    destruct (0 <=? Z.of_nat (length y) + i) eqn:H.
    + replace (- Z.of_nat (length y) <=? i) with true by lia. cbn [andb]. now rewrite Z.add_comm.
    + replace (- Z.of_nat (length y) <=? i) with false by lia. reflexivity.
  - replace (0 <=? i) with true by lia. cbn [andb].
    destruct (i <? Z.of_nat (length y)) eqn:H; auto.
    rewrite andb_false_r. replace (nth_error y (Z.to_nat i)) with (@None A); auto.
    symmetry. apply nth_error_None. lia.
Qed.

Lemma mapM_ext {A B} (f g : A -> res B) l : (forall x, In x l -> f x = g x) -> mapM f l = mapM g l.
Proof.
  induction l as [|a l IH]; intro H; cbn [mapM]; auto.
  rewrite (H a (or_introl eq_refl)), IH; auto. intros x Hx. apply H. now right.
Qed.

Lemma rows_same {A} (L : list Z) (y y' : list A) : same_labels L y y' -> rows y L = rows y' L.
Proof.
  intros (_ & H). unfold rows. apply mapM_ext. intros i Hi. rewrite !label_at_py. now rewrite (H i Hi).
Qed.

(** ** [unique_labels] *)
Fixpoint incr (l : list Z) : Prop := match l with [] => True | x :: l' => (forall z, In z l' -> x < z) /\ incr l' end.
Lemma ins_in x l z : In z (ins x l) <-> z = x \/ In z l.
Proof.
  induction l as [|a l IH]; cbn [ins].
  - split; [intros [H|[]]; auto | intros [H|[]]; left; auto].
  - destruct (x <? a) eqn:E; [|destruct (x =? a) eqn:E2].
    + cbn. intuition.
    + apply Z.eqb_eq in E2. subst. cbn. intuition.
    + cbn. rewrite IH. intuition.
Qed.
Lemma ins_incr x l : incr l -> incr (ins x l).
Proof.
  induction l as [|a l IH]; cbn [ins].
  - cbn. intros _. split; [intros z []|exact I].
  - intros (H & H'). destruct (x <? a) eqn:E; [|destruct (x =? a) eqn:E2].
    + cbn. split; [|split; auto]. intros z [<-|Hz]; [lia|]. specialize (H z Hz). lia.
    + cbn. split; auto.
    + cbn. split; [|apply IH, H']. intros z Hz. apply ins_in in Hz. destruct Hz as [->|Hz]; [lia|]. auto.
Qed.
Lemma unique_in y z : In z (unique_labels y) <-> In z y.
Proof. unfold unique_labels. induction y as [|a y IH]; cbn; [tauto|]. rewrite ins_in, IH. intuition. Qed.
Lemma unique_incr y : incr (unique_labels y).
Proof. unfold unique_labels. induction y as [|a y IH]; cbn; auto. now apply ins_incr. Qed.
Lemma incr_ext a : forall b, incr a -> incr b -> (forall z, In z a <-> In z b) -> a = b.
Proof.
  induction a as [|x a IH]; intros [|w b] Ha Hb H; auto.
  - destruct (proj2 (H w) (or_introl eq_refl)).
  - destruct (proj1 (H x) (or_introl eq_refl)).
  - destruct Ha as (Ha & Ha'), Hb as (Hb & Hb').
    assert (x = w).
    { destruct (proj1 (H x) (or_introl eq_refl)) as [->|Hx]; auto.
      destruct (proj2 (H w) (or_introl eq_refl)) as [->|Hw]; auto.
      specialize (Ha w Hw). specialize (Hb x Hx). lia. }
    subst w. f_equal. apply IH; auto. intro z. split; intro Hz.
    + destruct (proj1 (H z) (or_intror Hz)) as [<-|]; auto. specialize (Ha x Hz). lia.
    + destruct (proj2 (H z) (or_intror Hz)) as [<-|]; auto. specialize (Hb x Hz). lia.
Qed.
Lemma unique_same y y' : same_classes y y' -> unique_labels y = unique_labels y'.
Proof. intro H. apply incr_ext; try apply unique_incr. intro z. rewrite !unique_in. apply H. Qed.

Lemma one_size_unique y : one_size y <-> length (unique_labels (map Base.zsum y)) = 1%nat.
Proof.
  split.
  - intros (s & Hn & H). destruct y as [|r y]; [congruence|].
    replace (unique_labels (map Base.zsum (r :: y))) with [s]; auto.
    apply incr_ext; [cbn; split; [intros z []|exact I]|apply unique_incr|]. intro z. rewrite unique_in, in_map_iff. split.
    + intros [<-|[]]. exists r. split; [apply H; now left|now left].
    + intros (r' & <- & Hr). left. symmetry. apply (H r' Hr).
  - intro H. destruct (unique_labels (map Base.zsum y)) as [|s [|]] eqn:E; cbn in H; try discriminate.
    exists s. split.
    + intros ->. discriminate.
    + intros r Hr. assert (I0 : In (Base.zsum r) [s]). { rewrite <- E. apply unique_in, in_map, Hr. }
      destruct I0 as [I0|[]]. now symmetry.
Qed.

(** ** Instances *)
Section Inst.
  Context {F M : Type}.
  Variable np : numpy.
  Variable k : learner F M.
  Variables (X : list F) (y y' : list Z).

  Lemma model_same given L : same_labels L y y' -> the_model k X y given L = the_model k X y' given L.
  Proof. intro H. unfold the_model. now rewrite (rows_same L y y' H). Qed.

  Lemma uncertainty_same m given L U b : same_labels L y y' ->
    uncertainty_select np k X y m given L U b = uncertainty_select np k X y' m given L U b.
  Proof. intro H. unfold uncertainty_select. now rewrite (model_same given L H). Qed.

  Lemma committee_same kl cols given L U b : same_labels L y y' ->
    committee_select np k X y kl cols given L U b = committee_select np k X y' kl cols given L U b.
  Proof. intro H. unfold committee_select. now rewrite (model_same given L H), (rows_same L y y' H). Qed.

  Lemma reduction_same ll given L U b : same_labels L y y' -> same_classes y y' ->
    reduction_select np k X y ll given L U b = reduction_select np k X y' ll given L U b.
  Proof. intros H C. unfold reduction_select. now rewrite (model_same given L H), (rows_same L y y' H), (unique_same y y' C). Qed.
End Inst.

Lemma bind_ok {A B} (r : res A) (f : A -> res B) v : bind r f = Ok v -> exists a, r = Ok a /\ f a = Ok v.
Proof. destruct r as [a|e]; cbn; [|discriminate]. eauto. Qed.

(** A successful call of error reduction has used every label as the number of a column. *)
Lemma reduction_columns {F M} np (k : learner F M) X y ll given L U b sel mo ux row :
  reduction_select np k X y ll given L U b = Ok sel ->
  b < Z.of_nat (length U) ->
  the_model k X y given L = Ok mo -> rows X U = Ok ux -> nth_error (proba k mo ux) 0 = Some row ->
  forall c, In c y -> - Z.of_nat (length row) <= c < Z.of_nat (length row).
Proof.
  intros H Hb Hm Hu Hr c Hc. unfold reduction_select in H.
  apply bind_ok in H. destruct H as (? & _ & H).
  replace (Z.of_nat (length U) <=? b) with false in H by lia.
  rewrite Hm in H. cbn [bind] in H. rewrite Hu in H. cbn [bind] in H.
  apply bind_ok in H. destruct H as (ly & _ & H). cbv zeta in H. unfold select_smallest in H.
  apply bind_ok in H. destruct H as (? & _ & H).
  replace (Z.of_nat (length U) <=? b) with false in H by lia.
  apply bind_ok in H. destruct H as (sc & H & _).
  assert (I0 : In 0%nat (range (length (proba k mo ux)))).
  { unfold range. apply in_seq. assert (nth_error (proba k mo ux) 0 <> None) by congruence. apply nth_error_Some in H0. lia. }
  assert (P : exists q, reduction k X ll mo (proba k mo ux) L U ly (unique_labels y) 0%nat = Ok q).
  { clear - H I0. revert sc H. induction (range (length (proba k mo ux))) as [|a l IH]; [destruct I0|].
    intros sc H. cbn [mapM] in H. apply bind_ok in H. destruct H as (q & E & H). apply bind_ok in H. destruct H as (qs & E2 & _).
    destruct I0 as [->|I0]; eauto. }
  destruct P as (q & P). unfold reduction in P.
  apply bind_ok in P. destruct P as (ui & _ & P). apply bind_ok in P. destruct P as (xs & _ & P).
  apply bind_ok in P. destruct P as (rest & _ & P). apply bind_ok in P. destruct P as (ts & P & _).
  assert (Ic : In c (unique_labels y)) by now apply unique_in.
  clear H Hm Hc. revert ts P Ic. induction (unique_labels y) as [|d cs IH]; [intros ? ? []|].
  intros ts P Ic. cbn [mapM] in P. apply bind_ok in P. destruct P as (t & E & P). apply bind_ok in P. destruct P as (ts' & E2 & _).
  destruct Ic as [->|Ic]; [|exact (IH ts' E2 Ic)].
  apply bind_ok in E. destruct E as (new & _ & E). cbv zeta in E. unfold py_nth at 1 in E. rewrite Hr in E. cbn [bind] in E.
  unfold py_index in E.
  destruct ((0 <=? c) && (c <? Z.of_nat (length row))) eqn:E3; [lia|].
  destruct ((- Z.of_nat (length row) <=? c) && (c <? 0)) eqn:E4; [lia|discriminate].
Qed.

(** ** MMC and Adaptive *)
Section Multi.
  Context {F : Type}.
  Variable order : list Q -> list nat.
  Variable base : list F -> list Z -> clf F.
  Variable count_fit : list (list Q) -> list Z -> res (list Q -> Z).
  Variables (X : list F) (y y' : list (list Z)) (m : nat).

  Lemma count_same trnf sums : (one_size y <-> one_size y') ->
    count_model count_fit y trnf sums = count_model count_fit y' trnf sums.
  Proof.
    intro H. unfold count_model. rewrite !one_size_unique in H.
    destruct (Nat.eqb_spec (length (unique_labels (map Base.zsum y))) 1) as [E|E];
    destruct (Nat.eqb_spec (length (unique_labels (map Base.zsum y'))) 1) as [E'|E']; auto; tauto.
  Qed.

  Lemma mmc_same L U d : same_labels L y y' -> (one_size y <-> one_size y') ->
    mmc_sequential order base count_fit X y m L U d = mmc_sequential order base count_fit X y' m L U d.
  Proof.
    intros H O. unfold mmc_sequential. rewrite (rows_same L y y' H).
    destruct (length U <=? 1)%nat; auto.
    destruct (rows X L); cbn [bind]; auto. destruct (rows X U); cbn [bind]; auto. destruct (rows y' L); cbn [bind]; auto.
    cbv zeta. now rewrite (count_same _ _ O).
  Qed.

  Lemma adaptive_same real blend betas so L U d : same_labels L y y' ->
    adaptive_sequential base X y m real blend betas so L U d = adaptive_sequential base X y' m real blend betas so L U d.
  Proof. intro H. unfold adaptive_sequential. now rewrite (rows_same L y y' H). Qed.
End Multi.

(** ** LAL *)
Lemma lal_same {F} np (X : list F) y y' dim std ff o L U b : length X = length y -> same_labels L y y' ->
  lal_select np (lal_data X y dim std ff) o L U b = lal_select np (lal_data X y' dim std ff) o L U b.
Proof.
  intros HX H. unfold lal_select. destruct (selector o) as [reg|]; auto.
  unfold select_largest. destruct (guard (0 <? b) AssertErr); cbn [bind]; auto.
  destruct (Z.of_nat (length U) <=? b); auto. f_equal.
  change (rows_exist (lal_data X y' dim std ff)) with (rows_exist (lal_data X y dim std ff)).
  destruct (guard (rows_exist (lal_data X y dim std ff) U) IndexErr); cbn [bind]; auto.
  destruct (guard (rows_exist (lal_data X y dim std ff) L) IndexErr) as [u0|] eqn:G; cbn [bind]; auto.
  unfold lal_data at 1 3. cbn [fit_forest]. rewrite (rows_same L y y' H).
  destruct (rows X L) as [xs|]; cbn [bind]; auto. destruct (rows y' L) as [ys|] eqn:Ey; cbn [bind]; auto.
  destruct (ff xs ys) as [f|]; cbn [bind]; auto. do 2 f_equal.
  assert (E : map (label (lal_data X y dim std ff)) L = map (label (lal_data X y' dim std ff)) L).
  { apply map_ext_in. intros i Hi. cbn [lal_data label]. destruct H as (Hl & H). specialize (H i Hi).
    assert (G2 : rows_exist (lal_data X y dim std ff) L = true) by (destruct (rows_exist (lal_data X y dim std ff) L); auto; discriminate).
    unfold rows_exist in G2. rewrite forallb_forall in G2. specialize (G2 i Hi). cbn [lal_data n_rows] in G2.
    unfold label_at in H. unfold py_index. rewrite <- Hl, HX in *.
    destruct (i <? 0) eqn:N.
    - replace (0 <=? i) with false by lia. cbn [andb]. replace (- Z.of_nat (length y) <=? i) with true by lia. cbn [andb].
      replace (0 <=? Z.of_nat (length y) + i) with true in H by lia. rewrite (Z.add_comm i).
      f_equal. apply nth_error_nth with (d := 0) in H || idtac.
      destruct (nth_error y (Z.to_nat (Z.of_nat (length y) + i))) as [v|] eqn:V.
      + rewrite (nth_error_nth _ _ _ V). symmetry. apply nth_error_nth. now symmetry.
      + apply nth_error_None in V. lia.
    - replace (0 <=? i) with true by lia. cbn [andb]. replace (i <? Z.of_nat (length y)) with true by lia. f_equal.
      destruct (nth_error y (Z.to_nat i)) as [v|] eqn:V.
      + rewrite (nth_error_nth _ _ _ V). symmetry. apply nth_error_nth. now symmetry.
      + apply nth_error_None in V. lia. }
  unfold lal_features. rewrite E. reflexivity.
Qed.

(** ** BMDR and SPAL *)
Lemma batch_labels_same y y' L : (forall i, In i L -> 0 <= i) -> same_labels L y y' -> BatchModel.labels y L = BatchModel.labels y' L.
Proof.
  intros N (Hl & H). unfold BatchModel.labels. apply map_ext_in. intros i Hi. f_equal. specialize (H i Hi). specialize (N i Hi).
  unfold label_at in H. replace (i <? 0) with false in H by lia.
  destruct (nth_error y (Z.to_nat i)) as [v|] eqn:V.
  - rewrite (nth_error_nth _ _ _ V). symmetry. apply nth_error_nth. now symmetry.
  - rewrite !nth_overflow; auto; [rewrite <- Hl|]; now apply nth_error_None.
Qed.

Lemma inside_nonneg n L : inside n L = true -> forall i, In i L -> 0 <= i.
Proof. unfold inside. rewrite forallb_forall. intros H i Hi. specialize (H i Hi). lia. Qed.

Lemma rounds_ext {St} np (t t' : St -> res (list Q * (list Z -> St))) U b : (forall s, t s = t' s) ->
  forall fuel it last s, rounds np t U b fuel it last s = rounds np t' U b fuel it last s.
Proof.
  intros H. induction fuel as [|f IH]; intros; cbn [rounds]; auto. rewrite H.
  destruct (t' s) as [[sc nx]|]; auto. destruct (ps <- nlargestarg (argsort np sc) b;; QueryModel.take U ps); auto.
  destruct (same_set last a || (15 <? it + 1)); auto. now rewrite IH.
Qed.

Lemma bmdr_same np num s K y y' beta gamma rho L U b : same_labels L y y' ->
  bmdr_select np num s K y beta gamma rho L U b = bmdr_select np num s K y' beta gamma rho L U b.
Proof.
  intro H. unfold bmdr_select. destruct (negb (0 <? b)); [reflexivity|]. destruct (Z.of_nat (length U) <=? b); [reflexivity|].
  destruct (inside (length K) L && inside (length K) U) eqn:I0; cbn [negb]; [|reflexivity].
  apply andb_true_iff in I0. pose proof (batch_labels_same y y' L (inside_nonneg _ _ (proj1 I0)) H) as E.
  unfold start. rewrite E. apply rounds_ext. intro tau. unfold bmdr_turn. cbv zeta. unfold bmdr_r. now rewrite E.
Qed.
Lemma spal_same np num s K y y' mu gamma rho lam L U b : same_labels L y y' ->
  spal_select np num s K y mu gamma rho lam L U b = spal_select np num s K y' mu gamma rho lam L U b.
Proof.
  intro H. unfold spal_select. destruct (negb (0 <? b)); [reflexivity|]. destruct (Z.of_nat (length U) <=? b); [reflexivity|].
  destruct (inside (length K) L && inside (length K) U) eqn:I0; cbn [negb]; [|reflexivity].
  apply andb_true_iff in I0. pose proof (batch_labels_same y y' L (inside_nonneg _ _ (proj1 I0)) H) as E.
  unfold start. rewrite E. apply rounds_ext. intro st. unfold spal_turn. cbv zeta. unfold spal_r. now rewrite E.
Qed.

(** The constructor: the two classes decide the signs. *)
Lemma unique_two y a b : In a y -> In b y -> a < b -> (forall c, In c y -> c = a \/ c = b) -> unique_labels y = [a; b].
Proof.
  intros Ha Hb Hab H. apply incr_ext; [apply unique_incr| |].
  - cbn. split; [|split; [intros z []|exact I]]. intros z [<-|[]]; auto.
  - intro z. rewrite unique_in. cbn. split; [intro Hz; destruct (H z Hz); auto|]. intros [<-|[<-|[]]]; auto.
Qed.
Lemma signed_unique y ys : signed_labels y = Ok ys -> exists a b, unique_labels y = [a; b] /\ a < b /\ (forall c, In c y <-> c = a \/ c = b).
Proof.
  unfold signed_labels. intro H. destruct (unique_labels y) as [|a [|b [|]]] eqn:E; try discriminate.
  exists a, b. split; auto. pose proof (unique_incr y) as U. rewrite E in U. cbn in U. split.
  - apply (proj1 U). now left.
  - intro c. rewrite <- unique_in, E. cbn. intuition.
Qed.
Lemma label_in {A} (y : list A) i v : label_at y i = Some v -> In v y.
Proof.
  unfold label_at. destruct (i <? 0); [destruct (0 <=? Z.of_nat (length y) + i); [|discriminate]|]; apply nth_error_In.
Qed.
Lemma label_at_map {A B} (f : A -> B) y i : label_at (map f y) i = option_map f (label_at y i).
Proof.
  unfold label_at. rewrite map_length. destruct (i <? 0); [destruct (0 <=? Z.of_nat (length y) + i); auto|]; rewrite nth_error_map; reflexivity.
Qed.

Lemma signed_same y y' ys ys' L i j a b : same_labels L y y' -> signed_labels y = Ok ys -> signed_labels y' = Ok ys' ->
  In i L -> In j L -> label_at y i = Some a -> label_at y j = Some b -> a <> b -> same_labels L ys ys'.
Proof.
  intros H S S' Hi Hj Ai Bj N.
  destruct (signed_unique _ _ S) as (p & q & E & Hpq & C). destruct (signed_unique _ _ S') as (p' & q' & E' & Hpq' & C').
  pose proof H as (Hl & H0).
  assert (p = p' /\ q = q').
  { pose proof (proj1 (C a) (label_in _ _ _ Ai)). pose proof (proj1 (C b) (label_in _ _ _ Bj)).
    rewrite (H0 i Hi) in Ai. rewrite (H0 j Hj) in Bj.
    pose proof (proj1 (C' a) (label_in _ _ _ Ai)). pose proof (proj1 (C' b) (label_in _ _ _ Bj)). lia. }
  destruct H1 as (<- & <-). unfold signed_labels in S, S'. rewrite E in S. rewrite E' in S'.
  destruct ((p =? -1) && (q =? 1)).
  - injection S as <-. injection S' as <-. exact H.
  - injection S as <-. injection S' as <-. split; [now rewrite !map_length|]. intros z Hz. rewrite !label_at_map. now rewrite (H0 z Hz).
Qed.

Lemma three_classes y a b c : In a y -> In b y -> In c y -> a <> b -> b <> c -> a <> c -> signed_labels y = Err ValueErr /\ (2 < length (unique_labels y))%nat.
Proof.
  intros Ha Hb Hc N1 N2 N3. apply unique_in in Ha, Hb, Hc. pose proof (unique_incr y). unfold signed_labels.
  destruct (unique_labels y) as [|u [|v [|w l]]]; cbn in Ha, Hb, Hc.
  - tauto.
  - exfalso. intuition congruence.
  - exfalso. intuition congruence.
  - split; auto. cbn. lia.
Qed.

(** ** QUIRE *)
Lemma fold_map_ext {A} (f g : A -> Q) l : (forall x, In x l -> f x = g x) -> fold_right Qplus 0%Q (map f l) = fold_right Qplus 0%Q (map g l).
Proof. intro H. f_equal. now apply map_ext_in. Qed.

Lemma quire_eva_same inv det odd K lam y y' lx ux i : (forall l, In l lx -> nth l y 0%Q = nth l y' 0%Q) ->
  quire_eva inv det odd (quire_new inv K lam y) lx ux i = quire_eva inv det odd (quire_new inv K lam y') lx ux i.
Proof.
  intro H. unfold quire_eva. cbv zeta. unfold inv_laa. cbn [quire_new kern lap lmbda labels].
  match goal with |- (if ?c then _ else _) = _ => destruct c end; auto.
  do 5 f_equal. apply map_ext_in. intros l Hl. now rewrite (H l Hl).
Qed.

Lemma quire_loop_ext e e' U : forall best low, (forall p, In p U -> e p = e' p) -> quire_loop e best low U = quire_loop e' best low U.
Proof.
  induction U as [|p U IH]; intros best low H; cbn [quire_loop]; auto. rewrite (H p (or_introl eq_refl)).
  destruct (fl_lt (e' p) low); apply IH; intros; apply H; now right.
Qed.

Lemma where_from_in x train : forall k p, In p (where_from k train x) -> (k <= p)%nat /\ nth_error train (p - k) = Some x.
Proof.
  induction train as [|y t IH]; intros k p H; cbn [where_from] in H; [destruct H|].
  destruct (y =? x) eqn:E.
  - destruct H as [<-|H].
    + split; [lia|]. rewrite Nat.sub_diag. cbn. f_equal. lia.
    + destruct (IH _ _ H) as (L & N). split; [lia|]. replace (p - k)%nat with (S (p - S k)) by lia. exact N.
  - destruct (IH _ _ H) as (L & N). split; [lia|]. replace (p - k)%nat with (S (p - S k)) by lia. exact N.
Qed.
Lemma np_where_in x train p : In p (np_where train x) -> nth_error train p = Some x.
Proof. intro H. destruct (where_from_in x train 0 p H) as (_ & N). now rewrite Nat.sub_0_r in N. Qed.

Lemma mapM_elem {A B} (f : A -> res B) l ys v : mapM f l = Ok ys -> In v ys -> exists x, In x l /\ f x = Ok v.
Proof.
  revert ys. induction l as [|a l IH]; intros ys H Hv; cbn [mapM] in H.
  - injection H as <-. destruct Hv.
  - apply bind_ok in H. destruct H as (q & E & H). apply bind_ok in H. destruct H as (qs & E2 & H). injection H as <-.
    destruct Hv as [<-|Hv]; [exists a; split; auto; now left|]. destruct (IH _ E2 Hv) as (x & Hx & Ex). exists x. split; auto. now right.
Qed.

Lemma quire_same inv det odd K lam y y' train L U :
  (forall i p, In i L -> nth_error train p = Some i -> nth_error y p = nth_error y' p) ->
  quire_query inv det odd (quire_new inv K lam y) train L U = quire_query inv det odd (quire_new inv K lam y') train L U.
Proof.
  intro H. unfold quire_query. destruct (length U <=? 1)%nat; auto.
  destruct (mapM (fun i => py_nth (np_where train i) 0) L) as [lx|] eqn:El; cbn [bind]; auto.
  destruct (mapM (fun i => py_nth (np_where train i) 0) U) as [ux|] eqn:Eu; cbn [bind]; auto.
  unfold quire_select. destruct (length U <=? 1)%nat; auto. rewrite El, Eu. cbn [bind].
  rewrite (quire_loop_ext _ (fun p => quire_eva inv det odd (quire_new inv K lam y') lx ux (index_of p ux))); auto.
  intros p _. apply quire_eva_same. intros l Hl. destruct (mapM_elem _ _ _ _ El Hl) as (i & Hi & E).
  unfold py_nth in E. destruct (nth_error (np_where train i) 0) as [w|] eqn:N; [|discriminate]. injection E as ->.
  apply nth_error_In, np_where_in in N. specialize (H i l Hi N).
  destruct (nth_error y l) as [v|] eqn:V.
  - rewrite (nth_error_nth _ _ _ V). symmetry. apply nth_error_nth. now symmetry.
  - rewrite !nth_overflow; auto; apply nth_error_None; auto.
Qed.
