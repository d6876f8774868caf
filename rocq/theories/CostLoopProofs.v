(** Proofs about the cost-sensitive main loop: one turn. *)
From Verif Require Import Base BaseFacts SetFacts IndexModel MLModel MLSpec MLProofs MLProofs2 MLProofs3 MLProps CostModel CostSpec CostProofs CostProofs2 CostProofs3
  CostProps StateModel StateSpec StateProofs StateProofs2 SelfProofs CostLoopModel CostLoopSpec.
From Coq Require Import QArith Sorted.
Local Open Scope Z_scope.

Lemma coll_bounds n C c q : collection n C c -> In q (pairs c) ->
  exists p, q = (Z.of_nat (fst p), Z.of_nat (snd p)) /\ (fst p < n)%nat /\ (snd p < C)%nat.
Proof.
  intros [R Hn] Hq. pose proof (Hn q Hq) as H1. apply reachable_good in R. destruct R as (_ & _ & _ & F & _).
  rewrite (pairs_map _ c F) in F. rewrite Forall_forall in F.
  assert (K : In (pair_idx q) (map pair_idx (pairs c))) by now apply in_map.
  specialize (F _ K). destruct q as [i j]. cbn in *. exists (Z.to_nat i, Z.to_nat j). cbn [fst snd]. rewrite !Z2Nat.id by lia.
  split; [reflexivity|]. lia.
Qed.

Lemma holds_bounds n C c p : collection n C c -> holds c p -> (fst p < n)%nat /\ (snd p < C)%nat.
Proof.
  intros K H. destruct (coll_bounds n C c _ K H) as ([a b] & E & H1 & H2). injection E as E1 E2. cbn [fst snd] in *. lia.
Qed.

Lemma to_pair_idx p : to_pair (to_idx p) = p.
Proof. destruct p. unfold to_pair, to_idx. cbn [fst snd]. now rewrite !Nat2Z.id. Qed.

(** The pairs of a collection as natural numbers. *)
Lemma to_pairs n C c : collection n C c ->
  NoDup (map to_pair (mcont c)) /\ (forall p, In p (map to_pair (mcont c)) <-> holds c p) /\ map to_idx (map to_pair (mcont c)) = mcont c.
Proof.
  intros K. pose proof (proj1 K) as R. apply reachable_good in R. destruct R as (_ & _ & _ & F & N).
  assert (E : map to_idx (map to_pair (mcont c)) = mcont c).
  { pose proof (coll_bounds n C c) as CB. unfold holds in *. rewrite map_map. rewrite (pairs_map _ c F) at 1 2.
    rewrite map_map. apply map_ext_in. intros q Hq. destruct (CB q K Hq) as ([a b] & -> & _). change (pair_idx _) with (to_idx (a, b)). now rewrite to_pair_idx. }
  split; [|split; [|exact E]].
  - apply (NoDup_map_inv to_idx). now rewrite E.
  - intro p. unfold holds. split.
    + intro H. apply (in_map to_idx) in H. rewrite E in H. unfold pairs. apply in_flat_map. exists (to_idx p). split; [exact H|]. now left.
    + intro H. unfold pairs in H. apply in_flat_map in H. destruct H as (x & Hx & Hp). destruct x; try destruct Hp.
      * injection H as -> ->. change (IPair _ _) with (to_idx p) in Hx. apply (in_map to_pair) in Hx. now rewrite to_pair_idx in Hx.
      * destruct H.
Qed.

Lemma implied_bounds tree y C n sel p : matrix_of C C tree -> in_data n C sel -> implied tree y sel p -> (fst p < n)%nat /\ (snd p < C)%nat.
Proof.
  intros Ht Hs (j & Hj & H). destruct (Hs _ Hj) as [H1 _]. split; [exact H1|].
  destruct H as [[_ H]|[_ H]]; apply (out_row tree C C) in H; tauto.
Qed.

Lemma idx_ok C l : (forall p, In p l -> (snd p < C)%nat) -> forallb (scalar_ok (Z.of_nat C)) (map to_idx l) = true /\
  forall q, In q (flat_map (denoted (Z.of_nat C)) (map to_idx l)) <-> exists p, In p l /\ q = (Z.of_nat (fst p), Z.of_nat (snd p)).
Proof.
  intro H. split.
  - apply forallb_forall. intros x Hx. apply in_map_iff in Hx. destruct Hx as (p & <- & Hp). specialize (H p Hp). cbn. lia.
  - intro q. rewrite in_flat_map. split.
    + intros (x & Hx & Hq). apply in_map_iff in Hx. destruct Hx as (p & <- & Hp). destruct Hq as [<-|[]]. eauto.
    + intros (p & Hp & ->). exists (to_idx p). split; [now apply in_map|now left].
Qed.

(** [hierarchical_multilabel_mark] with a list of pairs. *)
Lemma mark_list_ok n C sel L tree y : collection n C L -> matrix_of n C y -> matrix_of C C tree -> in_data n C sel -> sel <> [] ->
  exists r, mark_list C sel L tree y = Ok {| mcont := map to_idx r; is_set := true; lsize := Some (Z.of_nat C) |} /\ r <> [] /\
    in_data n C r /\ forall p, In p r <-> In p sel \/ (implied tree y sel p /\ ~ holds L p).
Proof.
  intros KL Hy Ht Hs N. destruct sel as [|p0 sel]; [congruence|]. set (l := p0 :: sel) in *.
  assert (HC : 0 < Z.of_nat C) by (pose proof (proj1 KL) as R; apply reachable_good in R; apply R).
  assert (B1 : forall p, In p l -> (snd p < C)%nat) by (intros p Hp; now apply Hs).
  destruct (idx_ok C l B1) as [F1 F2].
  assert (E1 : map to_idx l <> []) by (subst l; discriminate).
  destruct (proj1 (C05_construction (map to_idx l) _ E1 HC) F1) as (c & w & E & R & _ & I & _).
  assert (I' : forall p, holds c p <-> In p l).
  { intro p. unfold holds. rewrite I. split.
    - intros (x & Hx & Hd). apply in_map_iff in Hx. destruct Hx as (q & <- & Hq). cbn in Hd.
      assert (p = q) as -> by (destruct p, q; cbn in *; injection Hd; intros; f_equal; lia). exact Hq.
    - intro H. exists (to_idx p). split; [now apply in_map|]. reflexivity. }
  assert (Kc : collection n C c).
  { split; [exact R|]. intros q Hq. apply I in Hq. destruct Hq as (x & Hx & Hd). apply in_map_iff in Hx. destruct Hx as (p & <- & Hp).
    cbn in Hd. subst q. specialize (Hs p Hp). cbn. lia. }
  destruct (to_pairs n C c Kc) as (N1 & T1 & _). destruct (to_pairs n C L KL) as (_ & T2 & _).
  destruct (C54_exact n C (map to_pair (mcont c)) (map to_pair (mcont L)) tree y Ht Hy) as (r & Er & _ & Ir); auto.
  { apply Forall_forall. intros p Hp. apply T1 in Hp. eapply holds_bounds; eauto. }
  exists r. unfold mark_list. fold l. rewrite E. assert (Ls : lsize c = Some (Z.of_nat C)) by (apply reachable_good in R; apply R).
  rewrite Er, Ls. cbn [bind].
  assert (Ip : forall p, implied tree y (map to_pair (mcont c)) p <-> implied tree y l p).
  { intro p. unfold implied. split; intros (j & Hj & H); exists j; (split; [|exact H]).
    - apply I'. now apply T1.
    - apply T1. now apply I'. }
  assert (Ir' : forall p, In p r <-> In p l \/ (implied tree y l p /\ ~ holds L p)).
  { intro p. rewrite Ir, Ip, T1, T2, I'. reflexivity. }
  split; [subst l; reflexivity|]. split; [|split; [|exact Ir']].
  - intro E0. assert (K : In p0 r) by (apply Ir'; left; now left). rewrite E0 in K. destruct K.
  - intros p Hp. apply Ir' in Hp. destruct Hp as [Hp|[Hp _]]; [now apply Hs|]. eapply implied_bounds; eauto.
Qed.

Lemma coll_same C c l : ml_reachable (Z.of_nat C) c -> l <> [] ->
  ml_update false c l = ml_update true c l /\ ml_difference_update false c l = ml_difference_update true c l.
Proof.
  intros R N. apply reachable_good in R. destruct R as (_ & S & _).
  assert (E : flatten_idx false (lsize c) l = flatten_idx true (lsize c) l).
  { unfold flatten_idx. rewrite S. destruct l as [|x l]; [congruence|]. reflexivity. }
  unfold ml_update, ml_difference_update. rewrite E. auto.
Qed.

(** The two updates. *)
Lemma put n C c r : collection n C c -> in_data n C r -> r <> [] ->
  exists c' w, ml_update false c (map to_idx r) = (c', Ok w) /\ ml_update true c (map to_idx r) = (c', Ok w) /\ collection n C c' /\
    forall p, holds c' p <-> holds c p \/ In p r.
Proof.
  intros [R Hn] Hr N. assert (N' : map to_idx r <> []) by (destruct r; [congruence|discriminate]).
  destruct (idx_ok C r (fun p Hp => proj2 (Hr p Hp))) as [F1 F2].
  destruct (ml_update_any _ c true _ (reachable_good _ _ R) (or_intror N') F1) as (_ & (w & E) & H).
  assert (R1 : ml_reachable (Z.of_nat C) (fst (ml_update true c (map to_idx r)))) by exact (mr_step _ c (MUpdate _) R Logic.I).
  rewrite (proj1 (coll_same C c _ R N')).
  destruct (ml_update true c (map to_idx r)) as [c' o]; cbn [fst snd] in *. subst o. exists c', w. split; [reflexivity|]. split; [reflexivity|].
  split.
  - split; [exact R1|]. intros q Hq. apply H in Hq. destruct Hq as [Hq|Hq]; [now apply Hn|]. apply F2 in Hq. destruct Hq as (p & Hp & ->).
    specialize (Hr p Hp). cbn. lia.
  - intro p. unfold holds. rewrite H, F2. split; intros [K|K]; auto; right.
    + destruct K as (q & Hq & E). assert (p = q) as -> by (destruct p, q; cbn in *; injection E; intros; f_equal; lia). exact Hq.
    + eauto.
Qed.

Lemma take n C c r : collection n C c -> in_data n C r -> r <> [] ->
  exists c' w, ml_difference_update false c (map to_idx r) = (c', Ok w) /\ ml_difference_update true c (map to_idx r) = (c', Ok w) /\
    collection n C c' /\ forall p, holds c' p <-> holds c p /\ ~ In p r.
Proof.
  intros [R Hn] Hr N. assert (N' : map to_idx r <> []) by (destruct r; [congruence|discriminate]).
  destruct (idx_ok C r (fun p Hp => proj2 (Hr p Hp))) as [F1 F2].
  destruct (ml_difference_any _ c true _ (reachable_good _ _ R) (or_intror N') F1) as (_ & (w & E) & H).
  assert (R1 : ml_reachable (Z.of_nat C) (fst (ml_difference_update true c (map to_idx r)))) by exact (mr_step _ c (MDiff _) R Logic.I).
  rewrite (proj2 (coll_same C c _ R N')).
  destruct (ml_difference_update true c (map to_idx r)) as [c' o]; cbn [fst snd] in *. subst o. exists c', w. split; [reflexivity|]. split; [reflexivity|].
  split.
  - split; [exact R1|]. intros q Hq. apply H in Hq. now apply Hn.
  - intro p. unfold holds. rewrite H, F2. split; intros [K1 K2]; (split; [exact K1|]); intro K; apply K2.
    + eauto.
    + destruct K as (q & Hq & E). assert (p = q) as -> by (destruct p, q; cbn in *; injection E; intros; f_equal; lia). exact Hq.
Qed.

(** The fits. *)
Section Fit.
  Context {B M : Type}.
  Variables (X : list B) (y : list (list Z)) (n C : nat) (fit : nat -> list B -> list Z -> res M).
  Hypothesis HX : List.length X = n.
  Hypothesis Hy : matrix_of n C y.

  Lemma sorted_filter (P : nat -> bool) k len : StronglySorted lt (filter P (seq k len)).
  Proof.
    revert k. induction len as [|len IH]; intro k; cbn [seq filter]; [constructor|]. destruct (P k); [|apply IH].
    constructor; [apply IH|]. apply Forall_forall. intros x Hx. apply filter_In in Hx. destruct Hx as [Hx _]. apply in_seq in Hx. lia.
  Qed.

  Lemma cell_nth (mat : list (list Z)) a b v : cell mat a b = Some v -> nth b (nth a mat []) 0 = v.
  Proof.
    unfold cell. destruct (nth_error mat a) as [r|] eqn:E; [|discriminate]. intro H.
    erewrite (nth_error_nth mat a); eauto. now apply nth_error_nth.
  Qed.

  Lemma fit_class_shown L mask j : collection n C L -> ml_mask L n C 1 false = Ok mask -> (j < C)%nat ->
    exists xs ys, shown X y L j xs ys /\ fit_class X y fit mask j = fit j xs ys.
  Proof.
    intros K Em Hj. destruct (dense_mask_lemma _ L n C 1 (proj1 K)) as (mat & E & [S1 S2] & H).
    { intros q Hq. destruct (coll_bounds n C L q K Hq) as (p & -> & H1 & H2). cbn. lia. }
    rewrite Em in E. injection E as <-. set (ids := known_rows mask j).
    assert (I : forall i, In i ids <-> holds L (i, j)).
    { intro i. unfold ids, known_rows. rewrite filter_In, in_seq, S1. unfold holds. cbn [fst snd].
      destruct (in_dec pair_dec (Z.of_nat i, Z.of_nat j) (pairs L)) as [Hin|Hin].
      - destruct (holds_bounds n C L (i, j) K Hin) as [H1 _]. cbn [fst] in H1.
        destruct (H i j H1 Hj) as [H2 _]. rewrite (cell_nth _ _ _ _ (H2 Hin)). cbn. split; [auto|intros _; split; [lia|reflexivity]].
      - split; [|tauto]. intros [H1 H2]. destruct (H i j) as [_ H3]; try lia. rewrite (cell_nth _ _ _ _ (H3 Hin)) in H2. discriminate. }
    assert (Bi : forall i, In i ids -> (i < n)%nat) by (intros i Hi; apply I in Hi; apply (holds_bounds n C L _ K Hi)).
    assert (Ex : exists xs, mapM (py_nth X) ids = Ok xs /\ Forall2 (fun i x => nth_error X i = Some x) ids xs).
    { clear I. induction ids as [|i l IH]; [exists []; split; [reflexivity|constructor]|].
      destruct IH as (xs & E1 & E2); [intros k Hk; apply Bi; now right|]. assert (Hi : (i < n)%nat) by (apply Bi; now left).
      destruct (nth_error X i) as [x|] eqn:Ei; [|apply nth_error_None in Ei; lia].
      exists (x :: xs). cbn [mapM]. unfold py_nth at 1. rewrite Ei, E1. cbn [bind]. split; [reflexivity|]. constructor; auto. }
    destruct Ex as (xs & E1 & E2).
    assert (Ey : mapM (fun i => CostModel.entry y i j) ids = Ok (map (fun i => label_of y i j) ids)).
    { apply mapM_ok. intros i Hi. specialize (Bi i Hi). destruct Hy as [Hn Hr]. unfold CostModel.entry, py_nth, label_of.
      destruct (nth_error y i) as [r|] eqn:Ei; [|apply nth_error_None in Ei; lia]. cbn [bind].
      rewrite Forall_forall in Hr. assert (Lr : List.length r = C) by (apply Hr; eapply nth_error_In; eauto).
      rewrite (nth_error_nth y i [] Ei). destruct (nth_error r j) as [v|] eqn:Ej; [|apply nth_error_None in Ej; lia].
      now rewrite (nth_error_nth r j 0 Ej). }
    exists xs, (map (fun i => label_of y i j) ids). split.
    - exists ids. split; [apply sorted_filter|]. split; [exact I|]. split; [exact E2|reflexivity].
    - unfold fit_class. fold ids. rewrite E1. cbn [bind]. rewrite Ey. reflexivity.
  Qed.

  Lemma set_nth_length (ms : list M) j t : (j < List.length ms)%nat -> List.length (firstn j ms ++ t :: skipn (S j) ms) = List.length ms.
  Proof. intro H. rewrite app_length. cbn [List.length]. rewrite firstn_length, skipn_length. lia. Qed.

  Lemma set_nth_at (ms : list M) j t i : (j < List.length ms)%nat ->
    nth_error (firstn j ms ++ t :: skipn (S j) ms) i = if Nat.eqb i j then Some t else nth_error ms i.
  Proof.
    intro H. destruct (Nat.eqb_spec i j) as [->|N].
    - rewrite nth_error_app2 by (rewrite firstn_length; lia). rewrite firstn_length. replace (j - _)%nat with 0%nat by lia. reflexivity.
    - destruct (Nat.lt_ge_cases i j).
      + rewrite nth_error_app1 by (rewrite firstn_length; lia). rewrite <- (firstn_skipn j ms) at 2.
        rewrite nth_error_app1 by (rewrite firstn_length; lia). reflexivity.
      + rewrite nth_error_app2 by (rewrite firstn_length; lia). rewrite firstn_length.
        replace (i - Nat.min j (List.length ms))%nat with (S (i - S j)) by lia. cbn [nth_error].
        rewrite <- (firstn_skipn (S j) ms) at 2. rewrite nth_error_app2 by (rewrite firstn_length; lia). rewrite firstn_length.
        f_equal. lia.
  Qed.

  Lemma fit_classes_ok mask len : forall k ms, (k + len = C)%nat -> List.length ms = C ->
    match fit_classes X y fit mask (seq k len) ms with
    | (ms', Ok _) => List.length ms' = C /\ forall j m, nth_error ms' j = Some m ->
                       if Nat.ltb j k then nth_error ms j = Some m else fit_class X y fit mask j = Ok m
    | (ms', Err e) => List.length ms' = C /\ exists j, (j < C)%nat /\ fit_class X y fit mask j = Err e
    end.
  Proof.
    induction len as [|len IH]; intros k ms Hk Hl; cbn [seq fit_classes].
    - split; [exact Hl|]. intros j m E. assert (j < C)%nat by (rewrite <- Hl; apply nth_error_Some; congruence).
      replace (Nat.ltb j k) with true by (symmetry; apply Nat.ltb_lt; lia). exact E.
    - destruct (fit_class X y fit mask k) as [t|e] eqn:Ek.
      2:{ split; [exact Hl|]. exists k. split; [lia|exact Ek]. }
      specialize (IH (S k) (firstn k ms ++ t :: skipn (S k) ms)).
      destruct (fit_classes X y fit mask (seq (S k) len) _) as [ms' [u|e]]; [|apply IH; [lia|rewrite set_nth_length; lia]].
      destruct IH as [I1 I2]; [lia|rewrite set_nth_length; lia|]. split; [exact I1|]. intros j m E. specialize (I2 j m E).
      rewrite set_nth_at in I2 by lia. destruct (Nat.ltb_spec j (S k)) as [H1|H1].
      + destruct (Nat.eqb_spec j k) as [->|N].
        * replace (Nat.ltb k k) with false by (symmetry; apply Nat.ltb_ge; lia). congruence.
        * replace (Nat.ltb j k) with true by (symmetry; apply Nat.ltb_lt; lia). exact I2.
      + replace (Nat.ltb j k) with false by (symmetry; apply Nat.ltb_ge; lia). exact I2.
  Qed.

  Lemma fit_all_ok L ms : collection n C L -> List.length ms = C ->
    match fit_all X y C fit L ms with
    | (ms', Ok _) => fitted X y C fit L ms'
    | (ms', Err e) => List.length ms' = C /\ exists j xs ys, (j < C)%nat /\ shown X y L j xs ys /\ fit j xs ys = Err e
    end.
  Proof.
    intros K Hl. unfold fit_all. assert (Ly : List.length y = n) by apply Hy. rewrite Ly.
    destruct (dense_mask_lemma _ L n C 1 (proj1 K)) as (mask & E & _ & _).
    { intros q Hq. destruct (coll_bounds n C L q K Hq) as (p & -> & H1 & H2). cbn. lia. }
    rewrite E. pose proof (fit_classes_ok mask C 0 ms eq_refl Hl) as H.
    destruct (fit_classes X y fit mask (seq 0 C) ms) as [ms' [u|e]].
    - destruct H as [H1 H2]. split; [exact H1|]. intros j m Ej. specialize (H2 j m Ej). cbn in H2.
      assert (Hj : (j < C)%nat) by (rewrite <- H1; apply nth_error_Some; congruence).
      destruct (fit_class_shown L mask j K E Hj) as (xs & ys & S1 & S2). rewrite S2 in H2. eauto.
    - destruct H as (H1 & j & Hj & H2). split; [exact H1|]. destruct (fit_class_shown L mask j K E Hj) as (xs & ys & S1 & S2).
      exists j, xs, ys. rewrite <- S2. auto.
  Qed.
End Fit.
