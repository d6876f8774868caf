(** Property C116. *)
From Verif Require Import Base BaseFacts CostModel CostSpec CostProofs CostProofs2 CostProofs3 CostProps MiscModel MiscSpec MiscProps HalcModel HalcSpec.
From Coq Require Import QArith Qabs Lqa Lia.
Local Open Scope Z_scope.

(** The weights of the classes: as many as classes are accepted only if there are as many instances as classes. *)
Theorem C116_weights_refuted : forall n C w,
  halc_weights n C None = Ok (repeat 1%Q C) /\
  (halc_weights n C (Some w) = Ok w <-> List.length w = n) /\ (List.length w <> n -> halc_weights n C (Some w) = Err AssertErr) /\
  (List.length w = C -> C <> n -> halc_weights n C (Some w) = Err AssertErr).
Proof.
  intros n C w. unfold halc_weights, guard. split; auto. destruct (Nat.eqb_spec n (List.length w)) as [E|N]; cbn [bind].
  - split; [split; auto|]. split; [congruence|]. intros; congruence.
  - split; [split; [discriminate|congruence]|]. split; auto.
Qed.
Print Assumptions C116_weights_refuted.

Lemma nth_seq_map {A} (f : nat -> A) n i d : (i < n)%nat -> nth i (map f (seq 0 n)) d = f i.
Proof. intro L. rewrite (nth_indep _ d (f 0%nat)) by (rewrite map_length, seq_length; auto). rewrite map_nth, seq_nth by auto. reflexivity. Qed.

Lemma square_cons d x z a b : square_distance (S d) (x :: a) (z :: b) = ((x - z) * (x - z) + square_distance d a b)%Q.
Proof. unfold square_distance. cbn [seq map fold_right nth]. rewrite <- seq_shift, map_map. reflexivity. Qed.
Lemma sq_diff_spec d : forall a b, List.length a = d -> List.length b = d -> sq_diff a b = square_distance d a b.
Proof.
  induction d as [|d IH]; intros [|x a] [|z b] La Lb; try discriminate; [reflexivity|].
  rewrite square_cons. cbn. rewrite (IH a b) by (cbn in *; lia). reflexivity.
Qed.
Lemma square_sym d a b : (square_distance d a b == square_distance d b a)%Q.
Proof. unfold square_distance. induction (seq 0 d) as [|k l IH]; cbn; [reflexivity|]. rewrite IH. ring. Qed.
Lemma square_same d a : (square_distance d a a == 0)%Q.
Proof. unfold square_distance. induction (seq 0 d) as [|k l IH]; cbn; [reflexivity|]. rewrite IH. ring. Qed.
Lemma square_nonneg d a b : (0 <= square_distance d a b)%Q.
Proof.
  unfold square_distance. induction (seq 0 d) as [|k l IH]; cbn; [lra|].
  assert (H : forall q : Q, (0 <= q * q)%Q) by (intro q; nra). specialize (H (nth k a 0 - nth k b 0)%Q). lra.
Qed.

Lemma nth_skip {A} (d : A) : forall k l i, nth i (skipn k l) d = nth (k + i) l d.
Proof. induction k as [|k IH]; intros [|x l] i; cbn; auto; destruct i; auto. Qed.
Lemma half_row_at X i j : nth j (half_row X i) 0%Q = if (j <=? i)%nat then 0%Q else if (j <? List.length X)%nat then sq_diff (nth j X []) (nth i X []) else 0%Q.
Proof.
  unfold half_row. destruct (Nat.leb_spec j i) as [L|L].
  - rewrite app_nth1 by (rewrite repeat_length; lia). apply nth_repeat.
  - rewrite app_nth2 by (rewrite repeat_length; lia). rewrite repeat_length.
    destruct (Nat.ltb_spec j (List.length X)) as [K|K].
    + rewrite (nth_indep _ 0%Q (sq_diff [] (nth i X []))) by (rewrite map_length, skipn_length; lia).
      rewrite (map_nth (fun r => sq_diff r (nth i X []))). rewrite nth_skip. do 2 f_equal. lia.
    + apply nth_overflow. rewrite map_length, skipn_length. lia.
Qed.

(** The table of distances holds the distance of every two instances, whichever comes first. *)
Theorem C116_distances : forall X d, Forall (fun r => List.length r = d) X ->
  List.length (distances X) = List.length X /\
  forall i j, (i < List.length X)%nat -> (j < List.length X)%nat ->
    List.length (nth i (distances X) []) = List.length X /\
    (value_at 0 (distances X) i j == square_distance d (nth i X []) (nth j X []))%Q.
Proof.
  intros X d F. unfold distances, value_at. split; [now rewrite map_length, seq_length|]. intros i j Hi Hj.
  rewrite nth_seq_map by auto. split; [now rewrite map_length, seq_length|]. rewrite nth_seq_map by auto.
  rewrite !nth_seq_map by auto. rewrite !half_row_at. rewrite Forall_forall in F.
  assert (Li : List.length (nth i X []) = d) by (apply F, nth_In; auto). assert (Lj : List.length (nth j X []) = d) by (apply F, nth_In; auto).
  destruct (Nat.ltb_spec i (List.length X)); [|lia]. destruct (Nat.ltb_spec j (List.length X)); [|lia].
  destruct (Nat.leb_spec j i), (Nat.leb_spec i j); try lia.
  - replace j with i by lia. rewrite square_same. ring.
  - rewrite (sq_diff_spec d) by auto. ring.
  - rewrite (sq_diff_spec d) by auto. rewrite square_sym. ring.
Qed.
Print Assumptions C116_distances.

(** ** Uncertainty *)

(** With a weight for every class: the weight over the decision value, minus infinity for a labelled pair. *)
Theorem C116_uncertainty : forall n C weights decision lab unl, (C <= List.length weights)%nat ->
  exists U, cal_uncertainty n C weights decision lab unl = Ok U /\ List.length U = n /\ Forall (fun r => List.length r = C) U /\
    forall i j, (i < n)%nat -> (j < C)%nat -> value_at None U i j = uncertainty_of weights decision lab unl i j.
Proof.
  intros n C weights decision lab unl L. unfold cal_uncertainty.
  exists (map (fun i => map (uncertainty_of weights decision lab unl i) (seq 0 C)) (seq 0 n)). split.
  - apply mapM_ok. intros i Hi. apply mapM_ok. intros j Hj. apply in_seq in Hj. unfold uncertainty_at, uncertainty_of, py_nth.
    rewrite (nth_error_nth' weights 0%Q) by lia. destruct (pair_mem (i, j) unl), (pair_mem (i, j) lab); reflexivity.
  - split; [now rewrite map_length, seq_length|]. split.
    + apply Forall_forall. intros r Hr. apply in_map_iff in Hr. destruct Hr as (i & <- & _). now rewrite map_length, seq_length.
    + intros i j Hi Hj. unfold value_at. rewrite nth_seq_map by auto. now rewrite nth_seq_map by auto.
Qed.
Print Assumptions C116_uncertainty.

Lemma mapM_err {A B} (f : A -> res B) e l : (forall x, In x l -> (exists y, f x = Ok y) \/ f x = Err e) -> (exists x, In x l /\ f x = Err e) -> mapM f l = Err e.
Proof.
  induction l as [|x l IH]; intros H (a & I & E); [destruct I|]. cbn. destruct (H x (or_introl eq_refl)) as [(b & F)|F]; rewrite F; cbn; auto.
  rewrite IH; auto; [intros; apply H; cbn; auto|]. destruct I as [->|I]; [congruence|]. exists a; auto.
Qed.
Lemma mapM_total {A B} (f : A -> res B) e l : (forall x, In x l -> (exists y, f x = Ok y) \/ f x = Err e) -> (exists r, mapM f l = Ok r) \/ mapM f l = Err e.
Proof.
  induction l as [|x l IH]; intros H; cbn; [eauto|]. destruct (H x (or_introl eq_refl)) as [(b & F)|F]; rewrite F; cbn; auto.
  destruct IH as [(r & R)|R]; [intros; apply H; cbn; auto| |]; rewrite R; cbn; eauto.
Qed.

(** Weights accepted by the constructor, one per instance, do not do if there are fewer instances than classes and the last
    classes have an unlabelled instance: the query raises IndexError. *)
Theorem C116_few_weights_refuted : forall n C y tree w weights decision predicted order lab unl fuel costs budget orders i j,
  halc_weights n C (Some w) = Ok weights -> (n <= j < C)%nat -> (i < n)%nat -> In (i, j) unl ->
  halc_select n C y tree weights decision predicted order lab unl fuel costs budget orders = Err IndexErr.
Proof.
  intros n C y tree w weights decision predicted order lab unl fuel costs budget orders i j W Hj Hi I.
  assert (w = weights /\ List.length weights = n) as [-> L].
  { unfold halc_weights, guard in W. destruct (Nat.eqb_spec n (List.length w)); cbn in W; [injection W as <-; auto|discriminate]. }
  unfold halc_select, cal_information, cal_uncertainty.
  assert (T : forall i j, (exists u, uncertainty_at weights decision lab unl i j = Ok u) \/ uncertainty_at weights decision lab unl i j = Err IndexErr).
  { intros a b. unfold uncertainty_at, py_nth. destruct (pair_mem (a, b) unl); [|cbn; eauto]. destruct (nth_error weights b); cbn; eauto. }
  rewrite (mapM_err _ IndexErr); [reflexivity| |].
  - intros a _. apply mapM_total. intros b _. apply T.
  - exists i. split; [apply in_seq; lia|]. apply mapM_err; [intros b _; apply T|]. exists j. split; [apply in_seq; lia|].
    unfold uncertainty_at, py_nth. replace (pair_mem (i, j) unl) with true.
    + replace (nth_error weights j) with (@None Q); [reflexivity|]. symmetry. apply nth_error_None. lia.
    + symmetry. unfold pair_mem. apply existsb_exists. exists (i, j). cbn. now rewrite !Nat.eqb_refl.
Qed.
Print Assumptions C116_few_weights_refuted.

(** ** Relevance *)

Lemma vote_ok n C y predicted lab j k : label_matrix n C y -> (k < n)%nat -> (j < C)%nat ->
  vote y predicted lab j k = Ok (Z.sgn (opinion y predicted lab j k)).
Proof.
  intros [Ly F] Hk Hj. unfold vote, opinion, entry, py_nth. destruct (pair_mem (k, j) lab); auto.
  rewrite (nth_error_nth' y []) by lia. cbn. rewrite (nth_error_nth' _ 0); [reflexivity|].
  rewrite Forall_forall in F. rewrite (F (nth k y [])); auto. apply nth_In. lia.
Qed.
Lemma sgn_sum f l : zsum (map (fun k => Z.sgn (f k)) l) = Z.of_nat (positive_votes f l) - Z.of_nat (negative_votes f l).
Proof.
  unfold positive_votes, negative_votes, count. induction l as [|k l IH]; auto.
  change (zsum (map (fun k => Z.sgn (f k)) (k :: l))) with (Z.sgn (f k) + zsum (map (fun k => Z.sgn (f k)) l)). rewrite IH. cbn [filter].
  destruct (Z.ltb_spec 0 (f k)), (Z.ltb_spec (f k) 0); cbn [List.length]; lia.
Qed.

Lemma near_of X d order i : Forall (fun r => List.length r = d) X -> sorts_distances X order -> (i < List.length X)%nat ->
  exists near, nsmallestarg (order i) 5 = Ok near /\ nearest X d 5 i near /\
    (In i near \/ forall a, In a near -> (square_distance d (nth i X []) (nth a X []) == 0)%Q).
Proof.
  intros F So Hi. destruct (C116_distances X d F) as [LD D]. destruct (D i i Hi Hi) as [Li _].
  destruct (C33_smallest (nth i (distances X) []) (order i) 5 (So i Hi) eq_refl) as (near & E & Ln & ND & R & _ & M).
  rewrite Li in *. exists near. split; auto.
  assert (N : forall a b, In a near -> (b < List.length X)%nat -> ~ In b near ->
    (square_distance d (nth i X []) (nth a X []) <= square_distance d (nth i X []) (nth b X []))%Q).
  { intros a b Ia Hb Nb. specialize (M a b Ia Hb Nb). destruct (D i a Hi (R a Ia)) as [_ Ea]. destruct (D i b Hi Hb) as [_ Eb].
    unfold value_at in *. rewrite <- Ea, <- Eb. auto. }
  split; [repeat split; auto; lia|].
  destruct (in_dec Nat.eq_dec i near) as [Y|NY]; auto. right. intros a Ia. pose proof (N a i Ia Hi NY) as Z0. rewrite square_same in Z0.
  pose proof (square_nonneg d (nth i X []) (nth a X [])). lra.
Qed.

(** The five instances nearest to an instance, among all instances of the data and with itself, vote on its label: the known
    ones with their label, the others with their prediction. *)
Theorem C116_relevance : forall X d C y predicted order lab i j,
  Forall (fun r => List.length r = d) X -> sorts_distances X order -> label_matrix (List.length X) C y ->
  (i < List.length X)%nat -> (j < C)%nat ->
  exists near flag, nearest X d 5 i near /\
    (In i near \/ forall a, In a near -> (square_distance d (nth i X []) (nth a X []) == 0)%Q) /\
    cal_relevance y predicted order lab i j = Ok flag /\
    let f := opinion y predicted lab j in
    ((positive_votes f near > negative_votes f near)%nat <-> flag = 1) /\
    ((positive_votes f near < negative_votes f near)%nat <-> flag = -1) /\
    (positive_votes f near = negative_votes f near <-> flag = 0).
Proof.
  intros X d C y predicted order lab i j F So Y Hi Hj. destruct (near_of X d order i F So Hi) as (near & E & N & Se).
  exists near, (Z.sgn (zsum (map (fun k => Z.sgn (opinion y predicted lab j k)) near))). split; auto. split; auto. split.
  - unfold cal_relevance. rewrite E. cbn [bind]. rewrite (mapM_ok _ (fun k => Z.sgn (opinion y predicted lab j k))); auto.
    intros k Ik. apply (vote_ok (List.length X) C); auto. apply N; auto.
  - cbn zeta. rewrite sgn_sum. lia.
Qed.
Print Assumptions C116_relevance.

Lemma votes_all f l : (forall k, f k = 1 \/ f k = -1) -> (positive_votes f l + negative_votes f l)%nat = List.length l.
Proof.
  intro H. unfold positive_votes, negative_votes, count. induction l as [|k l IH]; auto. cbn. destruct (H k) as [E|E]; rewrite E; cbn; lia.
Qed.

(** With labels and predictions 1 and -1 and five instances or more there is always a majority. *)
Theorem C116_majority : forall X d C y predicted order lab i j,
  Forall (fun r => List.length r = d) X -> sorts_distances X order -> label_matrix (List.length X) C y ->
  (i < List.length X)%nat -> (j < C)%nat -> (5 <= List.length X)%nat ->
  (forall k, opinion y predicted lab j k = 1 \/ opinion y predicted lab j k = -1) ->
  exists near flag, nearest X d 5 i near /\ List.length near = 5%nat /\ cal_relevance y predicted order lab i j = Ok flag /\
    (flag = 1 \/ flag = -1) /\ (flag = 1 <-> (positive_votes (opinion y predicted lab j) near >= 3)%nat).
Proof.
  intros X d C y predicted order lab i j F So Y Hi Hj L5 H.
  destruct (C116_relevance X d C y predicted order lab i j F So Y Hi Hj) as (near & flag & N & _ & E & P & M & Z0).
  exists near, flag. assert (Ln : List.length near = 5%nat) by (destruct N as (_ & Ln & _); lia).
  pose proof (votes_all _ near H). do 3 (split; auto). lia.
Qed.
Print Assumptions C116_majority.

(** With labels 0 and 1 no label is ever voted irrelevant. *)
Theorem C116_zero_one_refuted : forall X d C y predicted order lab i j,
  Forall (fun r => List.length r = d) X -> sorts_distances X order -> label_matrix (List.length X) C y ->
  (i < List.length X)%nat -> (j < C)%nat ->
  (forall k, opinion y predicted lab j k = 0 \/ opinion y predicted lab j k = 1) ->
  exists near flag, nearest X d 5 i near /\ cal_relevance y predicted order lab i j = Ok flag /\
    (flag = 0 \/ flag = 1) /\ (flag = 1 <-> exists k, In k near /\ opinion y predicted lab j k = 1).
Proof.
  intros X d C y predicted order lab i j F So Y Hi Hj H.
  destruct (C116_relevance X d C y predicted order lab i j F So Y Hi Hj) as (near & flag & N & _ & E & P & M & Z0).
  assert (Ng : negative_votes (opinion y predicted lab j) near = 0%nat).
  { unfold negative_votes, count. clear - H. induction near as [|k l IH]; auto. cbn. destruct (H k) as [->| ->]; auto. }
  assert (Ps : (positive_votes (opinion y predicted lab j) near > 0)%nat <-> exists k, In k near /\ opinion y predicted lab j k = 1).
  { clear - H. unfold positive_votes, count. induction near as [|k l IH]; cbn; [split; [lia|intros (k & [] & _)]|].
    destruct (H k) as [K|K]; rewrite K; cbn.
    - rewrite IH. split; intros (a & I & A); exists a; split; auto. destruct I; auto. congruence.
    - split; [intros _; exists k; auto|lia]. }
  exists near, flag. split; auto. split; auto. rewrite Ng in *. split; [lia|]. rewrite <- Ps. lia.
Qed.
Print Assumptions C116_zero_one_refuted.

(** ** Informativeness *)

Lemma all_done_nth {A} (l : list (option A)) r : all_done l = Some r -> List.length r = List.length l /\ forall i d, (i < List.length l)%nat -> nth i l None = Some (nth i r d).
Proof.
  revert r. induction l as [|[x|] l IH]; intros r E; cbn in E; try discriminate.
  - injection E as <-. split; auto. cbn. lia.
  - destruct (all_done l) as [r'|] eqn:E'; [|discriminate]. injection E as <-. destruct (IH r' eq_refl) as [L H]. split; [cbn; lia|].
    intros [|i] d Hi; cbn in *; auto. apply H. lia.
Qed.
Lemma all_done_map {A} (l : list A) : all_done (map Some l) = Some l.
Proof. induction l as [|x l IH]; cbn; auto. now rewrite IH. Qed.
Lemma Forall2_at {A B} (P : A -> B -> Prop) l m a b i : Forall2 P l m -> (i < List.length l)%nat -> P (nth i l a) (nth i m b).
Proof. intro F. revert i. induction F; intros [|i] L; cbn in *; try lia; auto. apply IHF. lia. Qed.

Lemma pair_mem_in p s : pair_mem p s = true <-> In p s.
Proof.
  unfold pair_mem. rewrite existsb_exists. destruct p as [a b]. split.
  - intros ((c, e) & I & H). cbn in H. apply andb_true_iff in H. destruct H as [H1 H2]. apply Nat.eqb_eq in H1, H2. now subst.
  - intro I. exists (a, b). cbn. now rewrite !Nat.eqb_refl.
Qed.

(** The informativeness of every pair: nothing for a pair that is not unlabelled or on whose label the neighbours tie, twice
    its uncertainty if they say the label is relevant, and its uncertainty with that of its descendants if they say not. *)
Theorem C116_information : forall X d C y tree weights decision predicted order lab unl fuel M,
  Forall (fun r => List.length r = d) X -> sorts_distances X order -> label_matrix (List.length X) C y -> (C <= List.length weights)%nat ->
  cal_information (List.length X) C y tree weights decision predicted order lab unl fuel = Ok (Some M) ->
  let u := uncertainty_of weights decision lab unl in
  List.length M = List.length X /\ Forall (fun r => List.length r = C) M /\
  forall i j, (i < List.length X)%nat -> (j < C)%nat ->
    (~ In (i, j) unl -> value_at None M i j = Some 0%Q) /\
    (In (i, j) unl -> exists near, nearest X d 5 i near /\
       let f := opinion y predicted lab j in
       ((positive_votes f near > negative_votes f near)%nat -> value_at None M i j = twice (u i j)) /\
       ((positive_votes f near < negative_votes f near)%nat ->
          exists D, cal_Udes fuel tree (map (u i) (seq 0 C)) j = Ok (Some D) /\ value_at None M i j = added (u i j) D) /\
       (positive_votes f near = negative_votes f near -> value_at None M i j = Some 0%Q)).
Proof.
  intros X d C y tree weights decision predicted order lab unl fuel M F So Y Lw E u.
  unfold cal_information in E. destruct (C116_uncertainty (List.length X) C weights decision lab unl Lw) as (U & EU & LU & FU & VU).
  rewrite EU in E. cbn [bind] in E. destruct (mapM _ (seq 0 (List.length X))) as [rows|e] eqn:R; [|discriminate]. cbn [bind] in E.
  injection E as E. pose proof (mapM_length _ _ _ R) as LR. rewrite seq_length in LR. apply mapM_inv in R.
  destruct (all_done_nth _ _ E) as [LM HM]. rewrite map_length in LM, HM.
  assert (RowU : forall i, (i < List.length X)%nat -> nth_error U i = Some (map (u i) (seq 0 C))).
  { intros i Hi. rewrite (nth_error_nth' U []) by lia. f_equal. apply nth_ext with (d := None) (d' := u i 0%nat).
    - rewrite map_length, seq_length. rewrite Forall_forall in FU. apply FU, nth_In. lia.
    - intros j Hj. rewrite Forall_forall in FU. rewrite (FU (nth i U [])) in Hj by (apply nth_In; lia).
      rewrite nth_seq_map by auto. apply VU; auto. }
  assert (Cell : forall i, (i < List.length X)%nat -> List.length (nth i M []) = C /\
    forall j, (j < C)%nat -> information_at y tree predicted order lab unl fuel U i j = Ok (Some (value_at None M i j))).
  { intros i Hi. assert (Hr : (i < List.length rows)%nat) by lia. specialize (HM i [] Hr).
    rewrite (nth_indep _ None (all_done [])), map_nth in HM by (rewrite map_length; lia).
    destruct (all_done_nth _ _ HM) as [L1 H1].
    pose proof (Forall2_at _ _ _ 0%nat [] i R) as Ri. rewrite seq_length, seq_nth in Ri by auto. cbn [plus] in Ri. specialize (Ri Hi).
    pose proof (mapM_length _ _ _ Ri) as L2. rewrite seq_length in L2. split; [lia|]. intros j Hj.
    apply mapM_inv in Ri. pose proof (Forall2_at _ _ _ 0%nat None j Ri) as Rj. rewrite seq_length, seq_nth in Rj by auto. specialize (Rj Hj).
    cbn [plus] in Rj. rewrite Rj. f_equal. unfold value_at. apply H1. lia. }
  split; [lia|]. split.
  { apply Forall_forall. intros r Hr. apply (In_nth _ _ []) in Hr. destruct Hr as (i & Hi & <-). apply Cell. lia. }
  intros i j Hi Hj. destruct (Cell i Hi) as [_ V]. specialize (V j Hj). unfold information_at in V.
  split.
  - intro NI. destruct (pair_mem (i, j) unl) eqn:PM; [apply pair_mem_in in PM; tauto|]. congruence.
  - intro I. apply pair_mem_in in I. rewrite I in V.
    destruct (C116_relevance X d C y predicted order lab i j F So Y Hi Hj) as (near & flag & N & _ & EF & P & Q0 & Z0).
    rewrite EF in V. cbn [bind] in V. unfold py_nth in V. rewrite (RowU i Hi) in V. cbn [bind] in V.
    rewrite (nth_error_nth' _ (u i 0%nat)) in V by (rewrite map_length, seq_length; auto). cbn [bind] in V. rewrite nth_seq_map in V by auto.
    exists near. split; auto. cbn zeta in *. split; [|split]; intro G.
    + apply P in G. subst flag. cbn in V. change (value_at None M i j = double (u i j)). congruence.
    + apply Q0 in G. subst flag. cbn in V. destruct (cal_Udes _ _ _ _) as [[D|]|e] eqn:ED; cbn in V; try discriminate.
      exists D. split; [congruence|]. change (value_at None M i j = plus_neg (u i j) D). congruence.
    + apply Z0 in G. subst flag. cbn in V. congruence.
Qed.
Print Assumptions C116_information.

(** The informativeness is there whenever the descendants of every label can be gone through. *)
Theorem C116_finished : forall X d C y tree weights decision predicted order lab unl fuel,
  Forall (fun r => List.length r = d) X -> sorts_distances X order -> label_matrix (List.length X) C y -> (C <= List.length weights)%nat ->
  (forall i j, (i < List.length X)%nat -> (j < C)%nat ->
     exists D, cal_Udes fuel tree (map (uncertainty_of weights decision lab unl i) (seq 0 C)) j = Ok (Some D)) ->
  exists M, cal_information (List.length X) C y tree weights decision predicted order lab unl fuel = Ok (Some M).
Proof.
  intros X d C y tree weights decision predicted order lab unl fuel F So Y Lw T. unfold cal_information.
  destruct (C116_uncertainty (List.length X) C weights decision lab unl Lw) as (U & EU & LU & FU & VU). rewrite EU. cbn [bind].
  assert (Cell : forall i j, (i < List.length X)%nat -> (j < C)%nat -> exists v, information_at y tree predicted order lab unl fuel U i j = Ok (Some v)).
  { intros i j Hi Hj. unfold information_at. destruct (pair_mem (i, j) unl); [|eauto].
    destruct (C116_relevance X d C y predicted order lab i j F So Y Hi Hj) as (near & flag & N & _ & EF & _). rewrite EF. cbn [bind].
    rewrite Forall_forall in FU. assert (LC : List.length (nth i U []) = C) by (apply FU, nth_In; lia).
    unfold py_nth. rewrite (nth_error_nth' U []) by lia. cbn [bind]. rewrite (nth_error_nth' _ None) by lia. cbn [bind].
    replace (nth i U []) with (map (uncertainty_of weights decision lab unl i) (seq 0 C)).
    - destruct (T i j Hi Hj) as (D & ED). destruct (flag =? 1); [eauto|]. destruct (flag =? -1); [|eauto]. rewrite ED. cbn. eauto.
    - apply nth_ext with (d := None) (d' := None); [now rewrite map_length, seq_length|]. intros k Hk. rewrite map_length, seq_length in Hk.
      rewrite nth_seq_map by auto. symmetry. apply VU; auto. }
  assert (Row : forall i l, (i < List.length X)%nat -> (forall j, In j l -> (j < C)%nat) ->
    exists r, mapM (fun j => information_at y tree predicted order lab unl fuel U i j) l = Ok (map Some r)).
  { intros i l Hi. induction l as [|j l IH]; intro H; [exists []; reflexivity|]. destruct (Cell i j Hi (H j (or_introl eq_refl))) as (v & V).
    destruct IH as (r & R); [intros; apply H; cbn; auto|]. exists (v :: r). cbn. rewrite V. cbn. rewrite R. reflexivity. }
  assert (All : forall l, (forall i, In i l -> (i < List.length X)%nat) ->
    exists m, mapM (fun i => mapM (fun j => information_at y tree predicted order lab unl fuel U i j) (seq 0 C)) l = Ok (map (map Some) m)).
  { induction l as [|i l IH]; intro H; [exists []; reflexivity|].
    destruct (Row i (seq 0 C)) as (r & R); [apply H; cbn; auto|intros j Ij; apply in_seq in Ij; lia|].
    destruct IH as (m & E); [intros; apply H; cbn; auto|]. exists (r :: m). cbn. rewrite R. cbn. rewrite E. reflexivity. }
  destruct (All (seq 0 (List.length X))) as (m & E); [intros i Ii; apply in_seq in Ii; lia|]. rewrite E. cbn [bind]. exists m.
  rewrite map_map. rewrite (map_ext _ Some) by (intro; apply all_done_map). now rewrite all_done_map.
Qed.
Print Assumptions C116_finished.

(** A pair whose label the neighbours call relevant counts the same whatever the tree, and whatever the other labels: the
    ancestors of the label, which should count with it, do not. *)
Theorem C116_ancestors_refuted : forall X d C y tree tree' weights weights' decision decision' predicted order lab unl fuel fuel' M M' i j,
  Forall (fun r => List.length r = d) X -> sorts_distances X order -> label_matrix (List.length X) C y ->
  (C <= List.length weights)%nat -> (C <= List.length weights')%nat ->
  cal_information (List.length X) C y tree weights decision predicted order lab unl fuel = Ok (Some M) ->
  cal_information (List.length X) C y tree' weights' decision' predicted order lab unl fuel' = Ok (Some M') ->
  (i < List.length X)%nat -> (j < C)%nat -> cal_relevance y predicted order lab i j = Ok 1 ->
  nth j weights 0%Q = nth j weights' 0%Q -> decision i j = decision' i j ->
  value_at None M i j = value_at None M' i j.
Proof.
  intros X d C y tree tree' weights weights' decision decision' predicted order lab unl fuel fuel' M M' i j F So Y L1 L2 E1 E2 Hi Hj R W De.
  assert (K : forall tree weights decision fuel M, (C <= List.length weights)%nat ->
    cal_information (List.length X) C y tree weights decision predicted order lab unl fuel = Ok (Some M) ->
    value_at None M i j = if pair_mem (i, j) unl then double (uncertainty_of weights decision lab unl i j) else Some 0%Q).
  { clear - F So Y Hi Hj R. intros tree weights decision fuel M L E. unfold cal_information in E.
    destruct (C116_uncertainty (List.length X) C weights decision lab unl L) as (U & EU & LU & FU & VU). rewrite EU in E. cbn [bind] in E.
    destruct (mapM _ (seq 0 (List.length X))) as [rows|e] eqn:Er; [|discriminate]. cbn [bind] in E. injection E as E.
    pose proof (mapM_length _ _ _ Er) as LR. rewrite seq_length in LR. apply mapM_inv in Er.
    destruct (all_done_nth _ _ E) as [LM HM]. rewrite map_length in LM, HM. assert (Hr : (i < List.length rows)%nat) by lia. specialize (HM i [] Hr).
    rewrite (nth_indep _ None (all_done [])), map_nth in HM by (rewrite map_length; lia).
    destruct (all_done_nth _ _ HM) as [L3 H1]. pose proof (Forall2_at _ _ _ 0%nat [] i Er) as Ri. rewrite seq_length, seq_nth in Ri by auto.
    cbn [plus] in Ri. specialize (Ri Hi). pose proof (mapM_length _ _ _ Ri) as L4. rewrite seq_length in L4.
    apply mapM_inv in Ri. pose proof (Forall2_at _ _ _ 0%nat None j Ri) as Rj. rewrite seq_length, seq_nth in Rj by auto. specialize (Rj Hj).
    cbn [plus] in Rj. rewrite (H1 j None) in Rj by lia. unfold value_at at 1. unfold information_at in Rj.
    destruct (pair_mem (i, j) unl); [|congruence]. rewrite R in Rj. cbn [bind] in Rj. unfold py_nth in Rj.
    rewrite (nth_error_nth' U []) in Rj by lia. cbn [bind] in Rj.
    rewrite (nth_error_nth' _ None) in Rj by (rewrite Forall_forall in FU; rewrite (FU (nth i U [])) by (apply nth_In; lia); auto).
    cbn in Rj. rewrite <- VU by auto. unfold value_at. congruence. }
  rewrite (K _ _ _ _ _ L1 E1), (K _ _ _ _ _ L2 E2). unfold uncertainty_of. rewrite W, De. reflexivity.
Qed.
Print Assumptions C116_ancestors_refuted.

(** The query itself: the selected pairs are distinct, inside of the data and within the budget, and no other choice among the
    pairs that are considered is worth more. *)
Theorem C116_select : forall X d C y tree weights decision predicted order lab unl fuel M costs budget orders,
  Forall (fun r => List.length r = d) X -> sorts_distances X order -> label_matrix (List.length X) C y -> (C <= List.length weights)%nat ->
  cal_information (List.length X) C y tree weights decision predicted order lab unl fuel = Ok (Some M) ->
  List.length costs = C -> Forall (fun c => 0 <= c) costs -> (C <= budget)%nat -> (C <= List.length X)%nat ->
  sorts_columns (List.length X) C (value_at None M) orders ->
  exists sel w, halc_select (List.length X) C y tree weights decision predicted order lab unl fuel costs budget orders = Ok (Some sel) /\
    NoDup sel /\ (forall p, In p sel -> (fst p < List.length X)%nat /\ (snd p < C)%nat /\ near_top budget orders p) /\
    pairs_cost_z costs sel <= Z.of_nat budget /\
    worth (map (fun p => value_at None M (fst p) (snd p)) sel) w /\
    forall S w', NoDup S -> (forall p, In p S -> near_top budget orders p) -> pairs_cost_z costs S <= Z.of_nat budget ->
      worth (map (fun p => value_at None M (fst p) (snd p)) S) w' -> (w' <= w)%Q.
Proof.
  intros X d C y tree weights decision predicted order lab unl fuel M costs budget orders F So Y Lw EM Hc Hcost Hb Hn Hs.
  destruct (C116_information X d C y tree weights decision predicted order lab unl fuel M F So Y Lw EM) as (LM & FM & _).
  set (n := List.length X) in *. pose proof (sorts_perm _ _ _ _ Hs) as Hp. destruct Hs as [Ho Hs].
  assert (EQ : M = map (fun i => map (value_at None M i) (seq 0 C)) (seq 0 n)).
  { apply nth_ext with (d := []) (d' := []); [now rewrite map_length, seq_length|]. intros i Hi. rewrite nth_seq_map by lia.
    assert (LC : List.length (nth i M []) = C) by (rewrite Forall_forall in FM; apply FM, nth_In; auto).
    apply nth_ext with (d := None) (d' := None); [now rewrite map_length, seq_length|]. intros j Hj. rewrite nth_seq_map by lia. reflexivity. }
  set (f := value_at None M) in *. clearbody f.
  assert (Hm : matrix_of n C M) by (rewrite EQ; apply (matrix_map f)).
  destruct (select_run n C budget M costs orders Hm Hc Ho Hp Hb Hn Hcost) as (fl & w & E & _ & O).
  assert (ND : NoDup (cand_pairs budget orders)).
  { apply cand_NoDup. eapply Forall_impl; [|exact Hp]. intros o P.
    eapply Permutation_NoDup; [apply Permutation_sym, P|apply seq_NoDup]. }
  destruct (optimal_set (val M) (cst costs) _ _ _ _ ND O) as (N & I & Ct & W & Mx).
  assert (VS : forall S, (forall p, In p S -> In p (cand_pairs budget orders)) -> map (val M) S = map (fun p => f (fst p) (snd p)) S).
  { intros S H1. apply map_ext_in. intros p Hpp.
    destruct (cand_range n C budget costs orders Hc Ho Hp Hb Hn p (H1 p Hpp)) as [R1 R2]. rewrite EQ. apply (matrix_nth f n C); auto. }
  set (sel := chosen fl (cand_pairs budget orders)) in *. rewrite (VS sel I) in W.
  exists sel, w. split.
  { unfold halc_select. rewrite EM. cbn [bind]. rewrite E. reflexivity. }
  split; [exact N|]. split.
  { intros p Hsel. destruct (cand_range n C budget costs orders Hc Ho Hp Hb Hn p (I p Hsel)) as [R1 R2].
    split; [exact R1|]. split; [exact R2|]. apply cand_in; rewrite <- surjective_pairing; auto. }
  split; [exact Ct|]. split; [exact W|]. intros S w' NS HS CS WS.
  assert (IS : forall p, In p S -> In p (cand_pairs budget orders)).
  { intros p H. rewrite (surjective_pairing p). apply cand_in. apply (HS p H). }
  apply (Mx S); auto. rewrite (VS S IS). exact WS.
Qed.
Print Assumptions C116_select.

(** ** A case: six instances on a line, two labels, the second one below the first. *)

Definition hx : list (list Q) := [[0]; [1]; [2]; [10]; [11]; [12]]%Q.
Definition hy : list (list Z) := [[1; 1]; [1; -1]; [1; -1]; [-1; -1]; [-1; -1]; [-1; -1]].
Definition hp (k j : nat) : Z := if (k <? 3)%nat then match j with O => 1 | _ => -1 end else -1.
Definition hd (i j : nat) : Q := match j with O => 2 | _ => 4 end.
Definition ho (i : nat) : list nat := nth i [[0; 1; 2; 3; 4; 5]; [1; 0; 2; 3; 4; 5]; [2; 1; 0; 3; 4; 5]; [3; 4; 5; 2; 1; 0]; [4; 3; 5; 2; 1; 0]; [5; 4; 3; 2; 1; 0]]%nat [].
Definition hlab : list (nat * nat) := [(0, 0); (3, 0); (0, 1); (3, 1)]%nat.
Definition hunl : list (nat * nat) := [(1, 0); (2, 0); (4, 0); (5, 0); (1, 1); (2, 1); (4, 1); (5, 1)]%nat.
Definition htree : list (list nat) := [[0; 1]; [0; 0]]%nat.

Lemma increasing_list (a : list Q) o : Permutation o (seq 0 (List.length a)) ->
  StronglySorted (fun i j => Qle_bool (nth i a 0%Q) (nth j a 0%Q) = true) o -> sorts a o.
Proof. intros P H. split; auto. clear P. induction H; constructor; auto. eapply Forall_impl; [|eassumption]. intros b Hb. now apply Qle_bool_iff. Qed.
Example C116_example_sorted : Forall (fun r => List.length r = 1%nat) hx /\ sorts_distances hx ho /\ label_matrix 6 2 hy.
Proof.
  split; [repeat constructor|]. split; [|split; [reflexivity|repeat constructor]].
  intros i Hi. cbn in Hi. assert (P : forall l, List.length l = 6%nat -> forallb (fun k => existsb (Nat.eqb k) l) (seq 0 6) = true -> Permutation l (seq 0 6)).
  { intros l L H. symmetry. apply NoDup_Permutation_bis; [apply seq_NoDup|rewrite seq_length; lia|].
    intros k Ik. rewrite forallb_forall in H. specialize (H k Ik). apply existsb_exists in H. destruct H as (x & Ix & E). apply Nat.eqb_eq in E. now subst. }
  assert (i = 0 \/ i = 1 \/ i = 2 \/ i = 3 \/ i = 4 \/ i = 5)%nat as K by lia.
  destruct K as [->|[->|[->|[->|[->| ->]]]]]; (apply increasing_list; [apply P; reflexivity|]); cbn [ho nth]; repeat constructor; vm_compute; reflexivity.
Qed.
Example C116_example_relevance : cal_relevance hy hp ho hlab 1 0 = Ok 1 /\ cal_relevance hy hp ho hlab 1 1 = Ok (-1).
Proof. split; reflexivity. Qed.
Definition hm : list (list (option Q)) := match cal_information 6 2 hy htree [1; 1]%Q hd hp ho hlab hunl 10 with Ok (Some m) => m | _ => [] end.
Example C116_example_information : cal_information 6 2 hy htree [1; 1]%Q hd hp ho hlab hunl 10 = Ok (Some hm) /\
  map (map (option_map Qred)) hm =
  [[Some 0; Some 0]; [Some 1; Some (1 # 2)]; [Some 1; Some (1 # 2)]; [Some 0; Some 0]; [Some (3 # 4); Some (1 # 2)]; [Some (3 # 4); Some (1 # 2)]]%Q.
Proof. split; vm_compute; reflexivity. Qed.
Example C116_example_select :
  halc_select 6 2 hy htree [1; 1]%Q hd hp ho hlab hunl 10 [1; 1] 3 [[0; 3; 4; 5; 1; 2]; [0; 3; 1; 2; 4; 5]]%nat = Ok (Some [(2, 0); (1, 0); (4, 1)]%nat).
Proof. vm_compute. reflexivity. Qed.
Example C116_example_weights : halc_weights 6 2 (Some [1; 1]%Q) = Err AssertErr.
Proof. reflexivity. Qed.
Example C116_example_few : halc_select 1 2 [[1; 1]] htree [1]%Q hd hp (fun _ => [0%nat]) [] [(0, 1)]%nat 10 [1; 1] 3 [[0]; [0]]%nat = Err IndexErr.
Proof. reflexivity. Qed.
(** Labels 0 and 1: a label that no neighbour has is not relevant and not irrelevant. *)
Example C116_example_zero_one : cal_relevance [[0; 0]; [0; 0]; [0; 0]; [0; 0]; [0; 0]; [0; 0]] (fun _ _ => 0) ho hlab 1 0 = Ok 0.
Proof. reflexivity. Qed.
