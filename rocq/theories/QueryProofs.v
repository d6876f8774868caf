(** Proofs about selection by score: argsort, partition, batches. *)
From Verif Require Import Base BaseFacts IndexModel MLModel SplitModel MiscModel MiscSpec MiscProofs MiscProps QueryModel QuerySpec.
From Coq Require Import QArith Qabs Lqa.
Local Open Scope Z_scope.

Lemma take_ok {A} (U : list A) ps : (forall p, In p ps -> (p < length U)%nat) ->
  exists sel, take U ps = Ok sel /\ Forall2 (fun p x => nth_error U p = Some x) ps sel.
Proof.
  induction ps as [|p ps IH]; intro H.
  - exists []. split; [reflexivity|constructor].
  - destruct (nth_error U p) as [x|] eqn:E.
    + destruct (IH (fun q J => H q (or_intror J))) as (sel & T & F). exists (x :: sel).
      unfold take in *. cbn [mapM]. unfold py_nth at 1. rewrite E. cbn [bind]. rewrite T. cbn [bind]. split; [reflexivity|constructor; auto].
    + apply nth_error_None in E. specialize (H p (or_introl eq_refl)). lia.
Qed.

Lemma Forall2_length_eq {A B} (R : A -> B -> Prop) l l' : Forall2 R l l' -> length l = length l'.
Proof. induction 1; cbn; auto. Qed.

Lemma largest_batch {A} np (U : list A) scores batch : numpy_ok np -> length scores = length U -> 0 < batch <= Z.of_nat (length U) ->
  exists sel, (ps <- nlargestarg (argsort np scores) batch ;; take U ps) = Ok sel /\
    best_batch U (fun i => nth i scores 0%Q) (Z.to_nat batch) sel.
Proof.
  intros [A0 _] L B. destruct (C33_largest scores (argsort np scores) batch (A0 scores) ltac:(lia)) as (ps & E & LP & ND & I & _ & M).
  rewrite E. cbn [bind]. destruct (take_ok U ps) as (sel & T & F); [intros p J; rewrite <- L; auto|].
  exists sel. split; [exact T|]. exists ps. repeat split; auto; [lia|]. intros p q J K NK. apply M; auto. lia.
Qed.

Lemma smallest_batch {A} np (U : list A) scores batch : numpy_ok np -> length scores = length U -> 0 < batch <= Z.of_nat (length U) ->
  exists sel, (ps <- nsmallestarg (argsort np scores) batch ;; take U ps) = Ok sel /\
    best_batch U (fun i => - nth i scores 0)%Q (Z.to_nat batch) sel.
Proof.
  intros [A0 _] L B. destruct (C33_smallest scores (argsort np scores) batch (A0 scores) ltac:(lia)) as (ps & E & LP & ND & I & _ & M).
  rewrite E. cbn [bind]. destruct (take_ok U ps) as (sel & T & F); [intros p J; rewrite <- L; auto|].
  exists sel. split; [exact T|]. exists ps. repeat split; auto; [lia|]. intros p q J K NK.
  assert (nth p scores 0 <= nth q scores 0)%Q by (apply M; auto; lia). lra.
Qed.

Lemma best_batch_ext {A} (U : list A) s s' k sel : (forall i, (i < length U)%nat -> (s i == s' i)%Q) ->
  best_batch U s k sel -> best_batch U s' k sel.
Proof.
  intros H (ps & ND & L & F & M). exists ps. repeat split; auto. intros p q J K NK.
  assert (P : (p < length U)%nat).
  { clear - J F. induction F as [|a x ps sel E F IH]; [destruct J|]. destruct J as [<-|J]; auto. apply nth_error_Some. congruence. }
  rewrite <- (H p P), <- (H q K). apply M; auto.
Qed.

(** ** Rows *)
Lemma partition_len np ks row : numpy_ok np -> (forall k, In k ks -> (k < length row)%nat) ->
  partitioned ks row (partition np ks row).
Proof. intros [_ P]. apply P. Qed.

Lemma last_largest np row : numpy_ok np -> row <> [] ->
  exists b, nth_error (partition np [length row - 1]%nat row) (length row - 1) = Some b /\ largest row b.
Proof.
  intros NP NE. assert (L0 : (0 < length row)%nat) by (destruct row; [contradiction|cbn; lia]).
  destruct (partition_len np [length row - 1]%nat row NP) as [P S]; [intros k [<-|[]]; lia|].
  set (out := partition np [length row - 1]%nat row) in *. pose proof (Permutation_length P) as LE.
  destruct (nth_error out (length row - 1)) as [b|] eqn:E; [|apply nth_error_None in E; lia].
  exists b. split; [reflexivity|]. assert (I : In b out) by (eapply nth_error_In; eauto). split.
  - eapply Permutation_in; [apply Permutation_sym; eauto|auto].
  - apply Forall_forall. intros y Y. apply (Permutation_in _ P) in Y. destruct (In_nth_error _ _ Y) as [i J].
    assert (i < length out)%nat by (apply nth_error_Some; congruence).
    apply nth_error_nth with (d := 0%Q) in E, J. destruct (Nat.eq_dec i (length row - 1)) as [->|N].
    + rewrite <- E, <- J. lra.
    + destruct (S (length row - 1)%nat i (or_introl eq_refl) ltac:(lia)) as [S1 _]. rewrite E, J in S1. apply S1. lia.
Qed.

Lemma two_last {A} (l : list A) n : length l = S (S n) -> exists rest a b, l = rest ++ [a; b] /\ length rest = n.
Proof.
  intro L. destruct (exists_last (l := l)) as (l1 & b & ->); [destruct l; discriminate|].
  rewrite app_length in L. cbn in L. destruct (exists_last (l := l1)) as (l2 & a & ->); [destruct l1; cbn in L; [lia|discriminate]|].
  rewrite app_length in L. cbn in L. exists l2, a, b. split; [|lia]. now rewrite <- app_assoc.
Qed.

Lemma margin_ok np row cols : numpy_ok np -> length row = cols -> (2 <= cols)%nat ->
  exists x, margin_score np cols row = Ok x /\ top_gap row (- x).
Proof.
  intros NP L C. destruct cols as [|[|n]]; [lia|lia|].
  destruct (partition_len np [S (S n) - 2; S (S n) - 1]%nat row NP) as [P S0]; [intros k [<-|[<-|[]]]; lia|].
  unfold margin_score. set (out := partition np [S (S n) - 2; S (S n) - 1]%nat row) in *.
  replace (S (S n) - 2)%nat with n in * by lia. replace (S (S n) - 1)%nat with (S n) in * by lia.
  pose proof (Permutation_length P) as LE. destruct (two_last out n ltac:(lia)) as (rest & b & a & E & LR).
  unfold py_nth. rewrite E. rewrite (nth_error_app2 rest) by lia. rewrite (nth_error_app2 rest) by lia.
  rewrite LR, Nat.sub_diag. replace (S n - n)%nat with 1%nat by lia. cbn [nth_error bind].
  eexists. split; [reflexivity|]. exists a, b, rest.
  assert (NB : nth n out 0%Q = b) by (rewrite E, app_nth2, LR, Nat.sub_diag by lia; reflexivity).
  assert (NA : nth (S n) out 0%Q = a) by (rewrite E, app_nth2, LR by lia; replace (S n - n)%nat with 1%nat by lia; reflexivity).
  split; [|split; [|split]].
  - rewrite P, E. rewrite Permutation_app_comm. cbn. apply perm_swap.
  - destruct (S0 (S n) n (or_intror (or_introl eq_refl)) ltac:(lia)) as [S1 _]. rewrite NA, NB in S1. apply S1. lia.
  - apply Forall_forall. intros y Y. destruct (In_nth_error _ _ Y) as [i J].
    assert (i < length rest)%nat by (apply nth_error_Some; congruence).
    destruct (S0 n i (or_introl eq_refl) ltac:(lia)) as [S1 _].
    assert (NI : nth i out 0%Q = y) by (rewrite E, app_nth1 by lia; now apply nth_error_nth).
    rewrite NB, NI in S1. apply S1. lia.
  - ring.
Qed.

Lemma least_ok np row cols : numpy_ok np -> length row = cols -> (1 <= cols)%nat ->
  exists x p, least_confident_score np cols row = Ok x /\ largest row p /\ x = (1 - p)%Q.
Proof.
  intros NP <- C. destruct (last_largest np row NP) as (b & E & LG); [destruct row; [cbn in C; lia|discriminate]|].
  unfold least_confident_score. destruct (length row) eqn:L; [lia|]. rewrite <- L in *. unfold py_nth. rewrite E. cbn [bind]. eauto.
Qed.

Lemma clip_floor x : clip x = floor6 x.
Proof.
  unfold clip, floor6. destruct (Qlt_le_dec 0 x) as [H|H]; destruct (Qle_bool x 0) eqn:E; auto.
  - apply Qle_bool_iff in E. lra.
  - assert (Qle_bool x 0 = true) by now apply Qle_bool_iff. congruence.
Qed.

Lemma mapM_each {A B} (f : A -> res B) (R : A -> B -> Prop) l : (forall a, In a l -> exists b, f a = Ok b /\ R a b) ->
  exists r, mapM f l = Ok r /\ Forall2 R l r.
Proof.
  induction l as [|a l IH]; intro H; [exists []; split; [reflexivity|constructor]|].
  destruct (H a (or_introl eq_refl)) as (b & E & Rb). destruct (IH (fun x J => H x (or_intror J))) as (r & E' & F).
  exists (b :: r). cbn. rewrite E. cbn. rewrite E'. split; [reflexivity|constructor; auto].
Qed.

Lemma Forall2_nth_error {A B} (R : A -> B -> Prop) l l' : Forall2 R l l' ->
  forall i a, nth_error l i = Some a -> exists b, nth_error l' i = Some b /\ R a b.
Proof.
  induction 1 as [|a b l l' H F IH]; intros [|i] x E; cbn in *; try discriminate; [|auto].
  injection E as <-. eauto.
Qed.

(** The three measures on a matrix. *)
Lemma measure_scores np m cols rows : numpy_ok np -> (2 <= cols)%nat -> Forall (fun r => length r = cols) rows ->
  m = Margin \/ m = LeastConfident ->
  exists scores, mapM (match m with Margin => margin_score np cols | _ => least_confident_score np cols end) rows = Ok scores /\
    Forall2 (uncertain (log np) m) rows scores.
Proof.
  intros NP C F M. rewrite Forall_forall in F. apply mapM_each. intros row J. specialize (F row J). destruct M as [-> | ->].
  - destruct (margin_ok np row cols NP F C) as (x & E & T). exists x. split; auto. econstructor; eauto. ring.
  - destruct (least_ok np row cols NP F ltac:(lia)) as (x & p & E & LG & ->). eexists. split; eauto. econstructor; eauto. reflexivity.
Qed.

Lemma nth_Forall2 {A} (R : A -> Q -> Prop) (rows : list A) (scores : list Q) : Forall2 R rows scores ->
  forall i row, nth_error rows i = Some row -> R row (nth i scores 0%Q).
Proof. intros F i row E. destruct (Forall2_nth_error _ _ _ F i row E) as (b & E' & H). now rewrite (nth_error_nth _ _ 0%Q E'). Qed.

Lemma entropy_uncertain np row : uncertain (log np) Entropy row (entropy np (map clip row)).
Proof.
  constructor. unfold entropy. rewrite map_map. apply Qopp_comp.
  induction row as [|x row IH]; [reflexivity|]. cbn [map qsum total fold_right]. rewrite clip_floor. apply Qplus_comp; [reflexivity|]. apply IH.
Qed.

(** The margin of a row is determined by its values. *)
Lemma largest_unique row x y : largest row x -> largest row y -> (x == y)%Q.
Proof.
  intros [I F] [I' F']. rewrite Forall_forall in F, F'. apply Qle_antisym; auto.
Qed.

Lemma top_gap_unique row d d' : top_gap row d -> top_gap row d' -> (d == d')%Q.
Proof.
  intros (a & b & rest & P & LE & F & E) (a' & b' & rest' & P' & LE' & F' & E'). rewrite E, E'. clear d d' E E'.
  rewrite Forall_forall in F, F'.
  assert (PP : Permutation (a :: b :: rest) (a' :: b' :: rest')) by (rewrite <- P; auto).
  assert (A1 : (a == a')%Q).
  { apply Qle_antisym.
    - assert (In a (a' :: b' :: rest')) as [H|[H|H]] by (eapply Permutation_in; [apply PP|now left]); try subst a; try lra. specialize (F' _ H). lra.
    - assert (In a' (a :: b :: rest)) as [H|[H|H]] by (eapply Permutation_in; [apply Permutation_sym, PP|now left]); try subst a'; try lra. specialize (F _ H). lra. }
  assert (CNT : forall q : Q, (count (fun x => Qeq_bool x q || negb (Qle_bool x q)) (a :: b :: rest) = count (fun x => Qeq_bool x q || negb (Qle_bool x q)) (a' :: b' :: rest'))%nat).
  { intro q. unfold count. apply Permutation_length. clear - PP. induction PP; cbn; auto.
    - destruct (Qeq_bool x q || negb (Qle_bool x q)); auto.
    - destruct (Qeq_bool x q || negb (Qle_bool x q)), (Qeq_bool y q || negb (Qle_bool y q)); auto. apply perm_swap.
    - eapply Permutation_trans; eauto. }
  assert (T : forall x q, Qeq_bool x q || negb (Qle_bool x q) = true <-> (q <= x)%Q).
  { intros x q. rewrite orb_true_iff, negb_true_iff, Qeq_bool_iff. destruct (Qle_bool x q) eqn:E.
    - apply Qle_bool_iff in E. split; [intros [H|H]; [lra|discriminate]|intro; left; lra].
    - assert (~ (x <= q)%Q) by (intro H; apply Qle_bool_iff in H; congruence). split; [intros _; lra|auto]. }
  assert (G : forall a b a' b' rest rest', (b <= a)%Q -> (b' <= a')%Q -> (forall x, In x rest' -> (x <= b')%Q) ->
    (count (fun x => Qeq_bool x b || negb (Qle_bool x b)) (a :: b :: rest) = count (fun x => Qeq_bool x b || negb (Qle_bool x b)) (a' :: b' :: rest'))%nat -> (b <= b')%Q).
  { clear - T. intros a b a' b' rest rest' H1 H2 H3 H4. destruct (Qlt_le_dec b' b) as [H|H]; auto. exfalso. unfold count in H4. cbn [filter] in H4.
    rewrite (proj2 (T a b) H1), (proj2 (T b b) (Qle_refl b)) in H4. cbn [length] in H4.
    assert (Z0 : filter (fun x => Qeq_bool x b || negb (Qle_bool x b)) rest' = []).
    { clear - T H H3. induction rest' as [|x l IH]; auto. cbn. destruct (Qeq_bool x b || negb (Qle_bool x b)) eqn:E.
      - apply T in E. specialize (H3 x (or_introl eq_refl)). lra.
      - apply IH. intros y J. apply H3. now right. }
    rewrite Z0 in H4. destruct (Qeq_bool b' b || negb (Qle_bool b' b)) eqn:E; [apply T in E; lra|].
    destruct (Qeq_bool a' b || negb (Qle_bool a' b)); cbn in H4; lia. }
  assert (B1 : (b == b')%Q).
  { apply Qle_antisym; [eapply (G a b a' b'); eauto|eapply (G a' b' a b); eauto]. }
  rewrite A1, B1. reflexivity.
Qed.

Lemma skipn_sub {A} k (l : list A) x : In x (skipn k l) -> In x l.
Proof. intro H. rewrite <- (firstn_skipn k l). apply in_app_iff. auto. Qed.
