(** Threshold counts, ROC curve and the area under it. *)
From Verif Require Import Base BaseFacts MiscModel MiscSpec MiscProofs MetricModel MetricSpec MetricProofs MetricProofs2.
From Coq Require Import QArith Lqa Qfield.
Local Open Scope Z_scope.

(** A sample: is it pos_sample, and its score. *)
Notation sample := (bool * Q)%type.
Definition samples (p : Z) (y : list Z) (s : list Q) : list sample := combine (map (fun v => v =? p) y) s.
Definition desc (p : Z) (y : list Z) (s : list Q) : list sample :=
  rev (isort (fun a b => Qle_bool (snd a) (snd b)) (samples p y s)).
(** Counts at a threshold. *)
Definition fp (L : list sample) (t : Q) : nat := count (fun x => negb (fst x) && Qle_bool t (snd x))%bool L.
Definition tp (L : list sample) (t : Q) : nat := count (fun x => fst x && Qle_bool t (snd x))%bool L.

Lemma counts_at_eq L t : counts_at (map fst L) (map snd L) t = (fp L t, tp L t).
Proof.
  unfold counts_at, fp, tp. f_equal.
  - induction L as [|[b q] L IH]; [reflexivity|]. cbn [map combine]. rewrite !count_cons, IH. cbn [fst snd].
    now destruct b, (Qle_bool t q).
  - induction L as [|[b q] L IH]; [reflexivity|]. cbn [map combine]. rewrite !count_cons, IH. cbn [fst snd].
    now destruct b, (Qle_bool t q).
Qed.

Lemma binary_classes_ok y : binary_classes y = true <-> pos_in_force y None 1.
Proof.
  unfold binary_classes, pos_in_force. destruct y as [|v y].
  - split; [discriminate|]. intros (_ & N & _). congruence.
  - rewrite orb_true_iff, !forallb_forall. split.
    + intro H. split; auto. split; [discriminate|]. destruct H as [H|H]; [left|right]; intros x J; apply H in J; rewrite orb_true_iff, !Z.eqb_eq in J; auto.
    + intros (_ & _ & [H|H]); [left|right]; intros x J; rewrite orb_true_iff, !Z.eqb_eq; auto.
Qed.
Lemma pos_label_ok y g p : pos_in_force y g p <->
  match g with None => if binary_classes y then Ok 1 else Err ValueErr | Some p => Ok p end = Ok p.
Proof.
  destruct g as [g|]; cbn [pos_in_force].
  - split; congruence.
  - destruct (binary_classes y) eqn:E.
    + apply binary_classes_ok in E. destruct E as (_ & E). split; [intros [-> _]; auto|]. intro H. injection H as <-. auto.
    + split; [|discriminate]. intros [-> H]. assert (binary_classes y = true) by (apply binary_classes_ok; split; auto). congruence.
Qed.

Lemma fps_tps_eq y s g p : List.length y = List.length s -> pos_in_force y g p ->
  get_fps_tps_thresholds true y s g =
  Ok (map (fp (desc p y s)) (map snd (desc p y s)), map (tp (desc p y s)) (map snd (desc p y s)), map snd (desc p y s)).
Proof.
  intros L P. unfold get_fps_tps_thresholds, same_length. rewrite L, Nat.eqb_refl. cbn [andb guard bind].
  apply pos_label_ok in P. rewrite P. cbn [bind]. fold (samples p y s). fold (desc p y s). rewrite !map_map.
  f_equal. f_equal. f_equal; apply map_ext; intro x; now rewrite counts_at_eq.
Qed.

(** ** The sorted samples *)
Lemma desc_perm p y s : Permutation (desc p y s) (samples p y s).
Proof. unfold desc. rewrite <- Permutation_rev. apply isort_perm. Qed.
Lemma desc_sorted p y s : StronglySorted (fun a b : sample => (snd b <= snd a)%Q) (desc p y s).
Proof.
  unfold desc. apply (sorted_rev (fun a b : sample => (snd a <= snd b)%Q)). apply isort_sorted.
  - intros a b H. now apply Qle_bool_iff.
  - intros a b H. apply Qle_bool_false in H. lra.
  - intros a b c H1 H2. lra.
Qed.
Lemma samples_nth p y s i b q : nth_error (samples p y s) i = Some (b, q) <->
  nth_error s i = Some q /\ (if b then pos_sample p y i else neg_sample p y i).
Proof.
  unfold samples. rewrite combine_nth_both, nth_error_map. unfold pos_sample, neg_sample. destruct (nth_error y i) as [v|]; cbn.
  - split.
    + intros [H1 H2]. split; auto. injection H1 as <-. destruct (Z.eqb_spec v p); [congruence|]. exists v. auto.
    + intros [H1 H2]. split; auto. f_equal. destruct b; [apply Z.eqb_eq; congruence|]. destruct H2 as (u & E & N). injection E as <-. now apply Z.eqb_neq.
  - split; [intros [H _]; discriminate|]. intros [_ H]. destruct b; [discriminate|]. destruct H as (u & E & _); discriminate.
Qed.
Lemma samples_snd p y s : List.length y = List.length s -> map snd (samples p y s) = s.
Proof.
  intro L. unfold samples. assert (E : List.length (map (fun v => v =? p) y) = List.length s) by now rewrite map_length. revert E.
  generalize (map (fun v => v =? p) y). clear. intro l. revert s. induction l; intros [|q s] E; try discriminate; auto. cbn. f_equal. apply IHl. cbn in E. lia.
Qed.

Lemma hm_tp p y s t : how_many (fun i => pos_sample p y i /\ scored s t i) (tp (desc p y s) t).
Proof.
  unfold tp. rewrite (count_perm _ _ _ (desc_perm p y s)). eapply hm_ext; [|apply hm_count]. intro i. cbv beta. split.
  - intros ([b q] & J & E). apply samples_nth in J. destruct J as [J K]. cbn in E. destruct b; [|discriminate]. cbn in E. apply Qle_bool_iff in E.
    split; auto. exists q. auto.
  - intros (K & q & J & E). exists (true, q). rewrite samples_nth. cbn. rewrite Qle_bool_iff. auto.
Qed.
Lemma hm_fp p y s t : how_many (fun i => neg_sample p y i /\ scored s t i) (fp (desc p y s) t).
Proof.
  unfold fp. rewrite (count_perm _ _ _ (desc_perm p y s)). eapply hm_ext; [|apply hm_count]. intro i. cbv beta. split.
  - intros ([b q] & J & E). apply samples_nth in J. destruct J as [J K]. cbn in E. destruct b; [discriminate|]. cbn in E. apply Qle_bool_iff in E.
    split; auto. exists q. auto.
  - intros (K & q & J & E). exists (false, q). rewrite samples_nth. cbn. rewrite Qle_bool_iff. auto.
Qed.

Lemma count_mono {A} (f g : A -> bool) l : (forall x, f x = true -> g x = true) -> (count f l <= count g l)%nat.
Proof.
  intro H. induction l as [|x l IH]; [cbn; lia|]. rewrite !count_cons. specialize (H x). destruct (f x); [rewrite H by auto|destruct (g x)]; lia.
Qed.
Lemma tp_mono L t t' : (t' <= t)%Q -> (tp L t <= tp L t')%nat.
Proof. intro H. apply count_mono. intros x. rewrite !andb_true_iff, !Qle_bool_iff. intros [? ?]. split; auto. lra. Qed.
Lemma fp_mono L t t' : (t' <= t)%Q -> (fp L t <= fp L t')%nat.
Proof. intro H. apply count_mono. intros x. rewrite !andb_true_iff, !Qle_bool_iff. intros [? ?]. split; auto. lra. Qed.

(** At the last threshold everything is counted. *)
Lemma last_lowest L : StronglySorted (fun a b : sample => (snd b <= snd a)%Q) L -> forall x d, In x L -> (snd (last L d) <= snd x)%Q.
Proof.
  induction 1 as [|y L S IH F]; intros x d J; [destruct J|]. destruct L as [|z L].
  - destruct J as [<-|[]]. cbn. lra.
  - change (last (y :: z :: L) d) with (last (z :: L) d). destruct J as [<-|J]; [|now apply IH].
    rewrite Forall_forall in F. apply F. assert (In (last (z :: L) d) (z :: L)); auto.
    clear. revert z. induction L as [|w L IH]; intro z; [now left|]. right. apply IH.
Qed.
Lemma last_map {A B} (f : A -> B) l d : last (map f l) (f d) = f (last l d).
Proof. induction l as [|x [|y l] IH]; auto. Qed.
Lemma last_default {A} (l : list A) d d' : l <> [] -> last l d = last l d'.
Proof. induction l as [|x [|y l] IH]; intro H; [congruence|auto|]. cbn [last]. apply IH. discriminate. Qed.
Lemma last_tp L d : L <> [] -> StronglySorted (fun a b : sample => (snd b <= snd a)%Q) L ->
  last (map (tp L) (map snd L)) d = count fst L.
Proof.
  intros NE SH. rewrite map_map. rewrite (last_default _ d ((fun x => tp L (snd x)) (true, 0%Q))) by (destruct L; [congruence|discriminate]).
  rewrite (last_map (fun x => tp L (snd x))). unfold tp at 1. apply count_ext_in. intros x J. pose proof (last_lowest L SH x (true, 0%Q) J) as H. apply Qle_bool_iff in H. rewrite H.
  now rewrite andb_true_r.
Qed.
Lemma last_fp L d : L <> [] -> StronglySorted (fun a b : sample => (snd b <= snd a)%Q) L ->
  last (map (fp L) (map snd L)) d = count (fun x => negb (fst x)) L.
Proof.
  intros NE SH. rewrite map_map. rewrite (last_default _ d ((fun x => fp L (snd x)) (true, 0%Q))) by (destruct L; [congruence|discriminate]).
  rewrite (last_map (fun x => fp L (snd x))). unfold fp at 1. apply count_ext_in. intros x J. pose proof (last_lowest L SH x (true, 0%Q) J) as H. apply Qle_bool_iff in H. rewrite H.
  now rewrite andb_true_r.
Qed.
Lemma hm_positives p y s : List.length y = List.length s -> how_many (pos_sample p y) (count fst (desc p y s)).
Proof.
  intro L. rewrite (count_perm _ _ _ (desc_perm p y s)). eapply hm_ext; [|apply hm_count]. intro i. cbv beta. split.
  - intros ([b q] & J & E). apply samples_nth in J. destruct b; [tauto|discriminate].
  - intro P. assert (i < List.length s)%nat. { rewrite <- L. apply nth_error_Some. unfold pos_sample in P. rewrite P. discriminate. }
    destruct (nth_error s i) as [q|] eqn:E; [|apply nth_error_None in E; lia]. exists (true, q). rewrite samples_nth. auto.
Qed.
Lemma hm_negatives p y s : List.length y = List.length s -> how_many (neg_sample p y) (count (fun x => negb (fst x)) (desc p y s)).
Proof.
  intro L. rewrite (count_perm _ _ _ (desc_perm p y s)). eapply hm_ext; [|apply hm_count]. intro i. cbv beta. split.
  - intros ([b q] & J & E). apply samples_nth in J. destruct b; [discriminate|tauto].
  - intro P. assert (i < List.length s)%nat. { rewrite <- L. apply nth_error_Some. destruct P as (v & -> & _). discriminate. }
    destruct (nth_error s i) as [q|] eqn:E; [|apply nth_error_None in E; lia]. exists (false, q). rewrite samples_nth. auto.
Qed.

(** ** Pairs *)
(** Twice the worth of a (pos_sample, neg_sample) pair. *)
Definition worth (a b : sample) : nat :=
  if (fst a && negb (fst b))%bool then
    if Qle_bool (snd a) (snd b) then (if Qle_bool (snd b) (snd a) then 1 else 0) else 2
  else 0.
Definition cross (L M : list sample) : nat := list_sum (map (fun a => list_sum (map (worth a) M)) L).

Lemma list_sum_app' l l' : list_sum (l ++ l') = (list_sum l + list_sum l')%nat.
Proof. apply list_sum_app. Qed.
Lemma list_sum_perm l l' : Permutation l l' -> list_sum l = list_sum l'.
Proof. unfold list_sum. induction 1; cbn [fold_right]; lia. Qed.
Lemma list_sum_add {A} (f g : A -> nat) l : list_sum (map (fun x => f x + g x)%nat l) = (list_sum (map f l) + list_sum (map g l))%nat.
Proof. unfold list_sum. induction l; cbn [map fold_right]; lia. Qed.
Lemma cross_app_l L1 L2 M : cross (L1 ++ L2) M = (cross L1 M + cross L2 M)%nat.
Proof. unfold cross. now rewrite map_app, list_sum_app'. Qed.
Lemma cross_app_r L M1 M2 : cross L (M1 ++ M2) = (cross L M1 + cross L M2)%nat.
Proof. unfold cross. rewrite <- list_sum_add. f_equal. apply map_ext. intro a. now rewrite map_app, list_sum_app'. Qed.
Lemma cross_perm L L' M M' : Permutation L L' -> Permutation M M' -> cross L M = cross L' M'.
Proof.
  intros H K. unfold cross. rewrite (list_sum_perm _ _ (Permutation_map (fun a => list_sum (map (worth a) M)) H)).
  f_equal. apply map_ext. intro a. apply list_sum_perm, Permutation_map, K.
Qed.
(** If every pair is worth the same. *)
Lemma cross_const L M c : (forall a b, In a L -> In b M -> worth a b = if (fst a && negb (fst b))%bool then c else O) ->
  cross L M = (c * (count fst L * count (fun x => negb (fst x)) M))%nat.
Proof.
  intro H. unfold cross. induction L as [|a L IH]; [cbn; lia|]. cbn [map list_sum fold_right].
  fold (list_sum (map (fun a => list_sum (map (worth a) M)) L)). rewrite IH by (intros; apply H; auto; now right).
  rewrite count_cons. assert (E : list_sum (map (worth a) M) = (c * ((if fst a then 1 else 0) * count (fun x => negb (fst x)) M))%nat).
  { assert (H' : forall b, In b M -> worth a b = if (fst a && negb (fst b))%bool then c else O) by (intros; apply H; auto; now left).
    clear -H'. induction M as [|b M IH]; [cbn; lia|]. cbn [map list_sum fold_right]. fold (list_sum (map (worth a) M)).
    rewrite IH by (intros; apply H'; now right). rewrite H' by now left. rewrite count_cons. destruct (fst a), (fst b); cbn; lia. }
  rewrite E. nia.
Qed.

(** Adding a group of equally scored samples below all the others. *)
Lemma worth_step G E : (forall g e, In g G -> In e E -> (snd e < snd g)%Q) -> (forall e e', In e E -> In e' E -> (snd e == snd e')%Q) ->
  cross (G ++ E) (G ++ E) = (cross G G + count (fun x => negb (fst x)) E * (2 * count fst G + count fst E))%nat.
Proof.
  intros H K. rewrite cross_app_l, !cross_app_r.
  rewrite (cross_const G E 2), (cross_const E G 0), (cross_const E E 1).
  - nia.
  - intros a b J1 J2. unfold worth. destruct (fst a && negb (fst b))%bool; auto.
    pose proof (K a b J1 J2) as Q1. assert (Qle_bool (snd a) (snd b) = true) as -> by (apply Qle_bool_iff; lra).
    assert (Qle_bool (snd b) (snd a) = true) as -> by (apply Qle_bool_iff; lra). reflexivity.
  - intros a b J1 J2. unfold worth. destruct (fst a && negb (fst b))%bool; auto.
    pose proof (H b a J2 J1) as Q1. assert (Qle_bool (snd a) (snd b) = true) as -> by (apply Qle_bool_iff; lra).
    assert (Qle_bool (snd b) (snd a) = false) as -> by (apply Qle_bool_false_iff; lra). reflexivity.
  - intros a b J1 J2. unfold worth. destruct (fst a && negb (fst b))%bool; auto.
    pose proof (H a b J1 J2) as Q1. assert (Qle_bool (snd a) (snd b) = false) as -> by (apply Qle_bool_false_iff; lra). reflexivity.
Qed.

(** Samples scored at least [t]. *)
Definition upto (L : list sample) (t : Q) : list sample := filter (fun x => Qle_bool t (snd x)) L.
Lemma tp_upto L t : tp L t = count fst (upto L t).
Proof.
  unfold tp, upto. induction L as [|x L IH]; [reflexivity|]. rewrite count_cons, IH. cbn [filter].
  destruct (Qle_bool t (snd x)); [rewrite count_cons|]; destruct (fst x); reflexivity.
Qed.
Lemma fp_upto L t : fp L t = count (fun x => negb (fst x)) (upto L t).
Proof.
  unfold fp, upto. induction L as [|x L IH]; [reflexivity|]. rewrite count_cons, IH. cbn [filter].
  destruct (Qle_bool t (snd x)); [rewrite count_cons|]; destruct (fst x); reflexivity.
Qed.
Lemma filter_split {A} (f g : A -> bool) l : (forall x, f x = true -> g x = true) ->
  Permutation (filter g l) (filter f l ++ filter (fun x => g x && negb (f x))%bool l).
Proof.
  intro H. induction l as [|x l IH]; [auto|]. cbn [filter]. specialize (H x). destruct (f x), (g x); cbn [andb negb app].
  - now constructor.
  - discriminate H; auto.
  - rewrite IH. apply Permutation_middle.
  - auto.
Qed.

(** One step of the curve: no score lies strictly between the two thresholds. *)
Lemma area_step L (G : list sample) (f : sample -> bool) t' :
  (forall x, f x = true -> Qle_bool t' (snd x) = true) ->
  (forall x, In x L -> f x = false -> (snd x <= t')%Q) ->
  (forall x, In x L -> f x = true -> (t' < snd x)%Q \/ forall y, In y L -> Qle_bool t' (snd y) = true -> f y = true) ->
  G = filter f L ->
  (cross (upto L t') (upto L t') =
   cross G G + (fp L t' - count (fun x => negb (fst x)) G) * (count fst G + tp L t'))%nat /\
  (count (fun x => negb (fst x)) G <= fp L t')%nat.
Proof.
  intros I B C ->. set (E := filter (fun x => Qle_bool t' (snd x) && negb (f x))%bool L).
  assert (P : Permutation (upto L t') (filter f L ++ E)) by (apply filter_split; auto).
  rewrite tp_upto, fp_upto, (count_perm _ _ _ P), (count_perm fst _ _ P), (cross_perm _ _ _ _ P P), !count_app.
  split; [|lia]. rewrite worth_step.
  - nia.
  - intros g e J1 J2. apply filter_In in J1, J2. destruct J1 as [J1 F1], J2 as [J2 F2]. apply andb_true_iff in F2. destruct F2 as [F2 F3].
    rewrite negb_true_iff in F3. destruct (C g J1 F1) as [Q1|Q1].
    + specialize (B e J2 F3). lra.
    + rewrite (Q1 e J2 F2) in F3. discriminate.
  - intros e e' J1 J2. apply filter_In in J1, J2. destruct J1 as [J1 F1], J2 as [J2 F2]. apply andb_true_iff in F1, F2.
    rewrite negb_true_iff, Qle_bool_iff in F1, F2. destruct F1 as [F1 F1'], F2 as [F2 F2'].
    pose proof (B e J1 F1'). pose proof (B e' J2 F2'). apply Qle_antisym; lra.
Qed.

(** Twice the area under the count curve, from point [p]. *)
Fixpoint area2 (p : nat * nat) (l : list (nat * nat)) : nat :=
  match l with [] => O | q :: l' => ((fst q - fst p) * (snd p + snd q) + area2 q l')%nat end.
Definition point (L : list sample) (x : sample) : nat * nat := (fp L (snd x), tp L (snd x)).

Lemma area_suffix L : StronglySorted (fun a b : sample => (snd b <= snd a)%Q) L ->
  forall suf pre z, L = pre ++ z :: suf ->
  (cross (upto L (snd z)) (upto L (snd z)) + area2 (point L z) (map (point L) suf))%nat = cross L L.
Proof.
  intros SH. induction suf as [|x suf IH]; intros pre z E.
  - cbn. rewrite Nat.add_0_r. assert (U : upto L (snd z) = L).
    { unfold upto. assert (A : forall x, In x L -> Qle_bool (snd z) (snd x) = true).
      { intros x J. apply Qle_bool_iff. pose proof (last_lowest L SH x z J) as H. rewrite E in H. rewrite last_last in H. exact H. }
      clear -A. induction L as [|x L IH]; [reflexivity|]. cbn. rewrite A by now left. f_equal. apply IH. intros; apply A; now right. }
    now rewrite U.
  - specialize (IH (pre ++ [z]) x). rewrite <- app_assoc in IH. specialize (IH E). rewrite <- IH. clear IH. cbn [map area2].
    assert (ST : forall pre' u v suf', L = pre' ++ u :: v :: suf' -> (snd v <= snd u)%Q /\ forall y, In y L -> (snd u <= snd y)%Q \/ (snd y <= snd v)%Q).
    { intros pre' u v suf' E'. assert (J : forall a b, In a (pre' ++ [u]) -> In b (v :: suf') -> (snd b <= snd a)%Q).
      { intros a b J1 J2. replace (pre' ++ u :: v :: suf') with ((pre' ++ [u]) ++ v :: suf') in E' by now rewrite <- app_assoc.
        clear -SH E' J1 J2. rewrite E' in SH. revert SH J1. generalize (pre' ++ [u]). intro l. induction l as [|c l IH]; intros SH J1; [destruct J1|].
        cbn in SH. apply StronglySorted_inv in SH. destruct SH as [SH F]. destruct J1 as [->|J1]; [|auto].
        rewrite Forall_forall in F. apply F. apply in_app_iff. now right. }
      assert (SP : StronglySorted (fun a b : sample => (snd b <= snd a)%Q) (pre' ++ [u])).
      { replace (pre' ++ u :: v :: suf') with ((pre' ++ [u]) ++ v :: suf') in E' by now rewrite <- app_assoc. rewrite E' in SH.
        clear -SH. induction (pre' ++ [u]) as [|c l IH]; [constructor|]. cbn in SH. apply StronglySorted_inv in SH. destruct SH as [SH F].
        apply Forall_app in F. constructor; [auto|tauto]. }
      assert (SS : StronglySorted (fun a b : sample => (snd b <= snd a)%Q) (v :: suf')).
      { replace (pre' ++ u :: v :: suf') with ((pre' ++ [u]) ++ v :: suf') in E' by now rewrite <- app_assoc. rewrite E' in SH.
        clear -SH. induction (pre' ++ [u]) as [|c l IH]; [auto|]. cbn in SH. apply StronglySorted_inv in SH. tauto. }
      split; [apply J; [apply in_app_iff; right; now left|now left]|].
      intros y K. rewrite E' in K. replace (pre' ++ u :: v :: suf') with ((pre' ++ [u]) ++ v :: suf') in K by now rewrite <- app_assoc.
      apply in_app_iff in K. destruct K as [K|K].
      - left. pose proof (last_lowest _ SP y u K) as H. now rewrite last_last in H.
      - right. apply StronglySorted_inv in SS. destruct SS as [_ F]. destruct K as [->|K]; [lra|]. rewrite Forall_forall in F. auto. }
    destruct (ST pre z x suf E) as [LE BT].
    destruct (area_step L (upto L (snd z)) (fun y => Qle_bool (snd z) (snd y)) (snd x)) as [A1 A2].
    + intros y. rewrite !Qle_bool_iff. lra.
    + intros y J F. apply Qle_bool_false in F. destruct (BT y J); lra.
    + intros y J F. apply Qle_bool_iff in F. destruct (Qlt_le_dec (snd x) (snd z)); [left; lra|right].
      intros w _ F'. apply Qle_bool_iff in F'. apply Qle_bool_iff. lra.
    + reflexivity.
    + rewrite A1. unfold point at 1 2 3 4. cbn [fst snd]. rewrite (fp_upto L (snd z)), (tp_upto L (snd z)). lia.
Qed.
Lemma area_all L : StronglySorted (fun a b : sample => (snd b <= snd a)%Q) L -> area2 (O, O) (map (point L) L) = cross L L.
Proof.
  intro SH. destruct L as [|z L]; [reflexivity|]. pose proof (area_suffix _ SH L [] z eq_refl) as H. set (M := z :: L) in *. change (map (point M) M) with (point M z :: map (point M) L).
  cbn [area2]. rewrite <- H. f_equal.
  destruct (area_step M [] (fun _ => false) (snd z)) as [A1 A2].
  + discriminate.
  + intros y J _. unfold M in SH. apply StronglySorted_inv in SH. destruct SH as [_ F]. destruct J as [->|J]; [lra|]. rewrite Forall_forall in F. auto.
  + discriminate.
  + clear. induction M; auto.
  + rewrite A1. cbn. unfold point. cbn. lia.
Qed.

(** cross counts pairs. *)
Lemma list_sum_count {A} (f : A -> bool) l : list_sum (map (fun x => if f x then 1 else 0)%nat l) = count f l.
Proof. induction l as [|x l IH]; [reflexivity|]. cbn [map list_sum fold_right]. fold (list_sum (map (fun x => if f x then 1 else 0)%nat l)). now rewrite IH, count_cons. Qed.
Definition gt_pair (a b : sample) : bool := (fst a && negb (fst b) && negb (Qle_bool (snd a) (snd b)))%bool.
Definition eq_pair (a b : sample) : bool := (fst a && negb (fst b) && Qle_bool (snd a) (snd b) && Qle_bool (snd b) (snd a))%bool.
Lemma cross_counts L M : cross L M =
  (2 * count (fun p => gt_pair (fst p) (snd p)) (list_prod L M) + count (fun p => eq_pair (fst p) (snd p)) (list_prod L M))%nat.
Proof.
  rewrite !count_prod. unfold cross. induction L as [|a L IH]; [reflexivity|]. cbn [map list_sum fold_right].
  fold (list_sum (map (fun a => list_sum (map (worth a) M)) L)). rewrite IH.
  fold (list_sum (map (fun x => count (gt_pair x) M) L)). fold (list_sum (map (fun x => count (eq_pair x) M) L)).
  assert (E : list_sum (map (worth a) M) = (2 * count (gt_pair a) M + count (eq_pair a) M)%nat); [|lia].
  clear. induction M as [|b M IH]; [reflexivity|]. cbn [map list_sum fold_right]. fold (list_sum (map (worth a) M)). rewrite IH, !count_cons.
  unfold worth, gt_pair, eq_pair. destruct (fst a && negb (fst b))%bool, (Qle_bool (snd a) (snd b)), (Qle_bool (snd b) (snd a)); cbn; lia.
Qed.
Lemma hm_gt p y s : how_many (fun ij => pos_sample p y (fst ij) /\ neg_sample p y (snd ij) /\ above s (fst ij) (snd ij))
  (count (fun ab => gt_pair (fst ab) (snd ab)) (list_prod (samples p y s) (samples p y s))).
Proof.
  eapply hm_ext; [|apply hm_count_prod]. intros [i j]. cbn [fst snd]. unfold above. split.
  - intros ([a u] & [b v] & J & K & F). unfold gt_pair in F. cbn in F. rewrite !andb_true_iff, !negb_true_iff in F.
    destruct F as [[-> ->] F]. apply Qle_bool_false in F. apply samples_nth in J, K. destruct J, K. repeat split; auto. eauto 6.
  - intros (P & N & u & v & J & K & F). exists (true, u), (false, v). rewrite !samples_nth. repeat split; auto.
    unfold gt_pair. cbn. apply negb_true_iff. now apply Qle_bool_false_iff.
Qed.
Lemma hm_eq p y s : how_many (fun ij => pos_sample p y (fst ij) /\ neg_sample p y (snd ij) /\ level s (fst ij) (snd ij))
  (count (fun ab => eq_pair (fst ab) (snd ab)) (list_prod (samples p y s) (samples p y s))).
Proof.
  eapply hm_ext; [|apply hm_count_prod]. intros [i j]. cbn [fst snd]. unfold level. split.
  - intros ([a u] & [b v] & J & K & F). unfold eq_pair in F. cbn in F. rewrite !andb_true_iff, !negb_true_iff in F.
    destruct F as [[[-> ->] F] F']. apply Qle_bool_iff in F, F'. apply samples_nth in J, K. destruct J, K. repeat split; auto.
    exists u, v. repeat split; auto. now apply Qle_antisym.
  - intros (P & N & u & v & J & K & F). exists (true, u), (false, v). rewrite !samples_nth. repeat split; auto.
    unfold eq_pair. cbn. rewrite andb_true_iff, !Qle_bool_iff. split; rewrite F; apply Qle_refl.
Qed.

(** ** The area in the unit square *)
Lemma trapz_area (P N : nat) p l : (0 < P)%nat -> (0 < N)%nat ->
  Sorted (fun a b => (fst a <= fst b)%nat) (p :: l) ->
  (trapz (map (fun x => (qn (fst x) / qn N, qn (snd x) / qn P)%Q) (p :: l)) == nat_q (area2 p l) / (2 * (nat_q P * nat_q N)))%Q.
Proof.
  intros HP HN. revert p. induction l as [|q l IH]; intros p SH.
  - cbn [map trapz area2]. change (nat_q 0) with 0%Q. apply nat_q_pos in HP, HN. field. split; lra.
  - cbn [map trapz area2]. apply Sorted_inv in SH. destruct SH as [S1 S2]. inversion S2 as [|? ? LE]; subst. specialize (IH q S1). cbn [map] in IH. rewrite IH.
    cbn [fst snd]. unfold qn. fold (nat_q (fst q)) (nat_q (fst p)) (nat_q (snd p)) (nat_q (snd q)) (nat_q P) (nat_q N).
    rewrite nat_q_add, nat_q_mul, nat_q_add.
    assert (E : (nat_q (fst q - fst p) == nat_q (fst q) - nat_q (fst p))%Q).
    { replace (fst q) with (fst q - fst p + fst p)%nat at 2 by lia. rewrite nat_q_add. ring. }
    rewrite E. apply nat_q_pos in HP, HN. field. split; lra.
Qed.
Lemma curve_sorted (P N : nat) l : (0 < P)%nat -> (0 < N)%nat ->
  Sorted (fun a b => (fst a <= fst b /\ snd a <= snd b)%nat) l ->
  Sorted (fun a b => lex_le a b = true) (map (fun x => (qn (fst x) / qn N, qn (snd x) / qn P)%Q) l).
Proof.
  intros HP HN. induction 1 as [|x l SH IH H]; cbn; constructor; auto. destruct H as [|y l [L1 L2]]; cbn; constructor.
  unfold lex_le. cbn [fst snd]. apply nat_q_le in L1, L2. apply nat_q_pos in HP, HN. change (qn N) with (nat_q N). change (qn P) with (nat_q P).
  change qn with nat_q.
  assert (D : forall a b c, (0 < c -> a <= b -> a / c <= b / c)%Q).
  { intros a b c C H. apply Qle_shift_div_l; auto. assert (J : (a / c * c == a)%Q) by (field; lra). now rewrite J. }
  pose proof (D _ _ _ HN L1) as D1. pose proof (D _ _ _ HP L2) as D2.
  destruct (Qle_bool (nat_q (fst y) / nat_q N) (nat_q (fst x) / nat_q N)) eqn:F; [|reflexivity]. cbn [negb orb].
  apply Qle_bool_iff in F. assert (E : (nat_q (fst x) / nat_q N == nat_q (fst y) / nat_q N)%Q) by now apply Qle_antisym.
  apply Qeq_bool_iff in E. apply Qle_bool_iff in D2. now rewrite E, D2.
Qed.
Lemma points_sorted L : StronglySorted (fun a b : sample => (snd b <= snd a)%Q) L -> forall M, 
  Sorted (fun a b => (fst a <= fst b /\ snd a <= snd b)%nat) ((O, O) :: map (point M) L).
Proof.
  intros SH M. constructor.
  - induction SH as [|x L SH IH F]; cbn; constructor; auto. destruct F as [|y L E]; cbn; constructor. unfold point. cbn.
    split; [now apply fp_mono|now apply tp_mono].
  - destruct L; cbn; constructor. cbn. lia.
Qed.
