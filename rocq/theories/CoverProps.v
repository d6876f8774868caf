(** Property C134: the greedy core-set selection covers the data at least half as tightly as the best one. *)
From Verif Require Import Base BaseFacts QueryModel QuerySpec QueryProofs2 QueryProps3 CoverSpec.
From Coq Require Import QArith Qabs Lqa.
Local Open Scope Z_scope.

Lemma nearest_exists dist p C : C <> [] -> exists x, to_nearest dist p C x.
Proof.
  induction C as [|c C IH]; [contradiction|]. intros _. destruct C as [|d C].
  - exists (dist p c). split; [exists c; split; [now left|reflexivity]|]. intros e [<-|[]]. lra.
  - destruct IH as (x & (e & He & E) & M); [discriminate|]. destruct (Qlt_le_dec (dist p c) x) as [K|K].
    + exists (dist p c). split; [exists c; split; [now left|reflexivity]|]. intros g [<-|Hg]; [lra|]. pose proof (M g Hg). lra.
    + exists x. split; [exists e; split; [now right|auto]|]. intros g [<-|Hg]; [auto|now apply M].
Qed.
Lemma to_nearest_same dist p C C' x : (forall c, In c C <-> In c C') -> to_nearest dist p C x -> to_nearest dist p C' x.
Proof. intros S ((c & Hc & E) & M). split; [exists c; split; [now apply S|auto]|]. intros d Hd. apply M. now apply S. Qed.
Lemma ff_same dist n C ps : farthest_first dist n C ps -> forall C', (forall c, In c C <-> In c C') -> farthest_first dist n C' ps.
Proof.
  induction 1 as [C|C p ps P N M F IH]; intros C' S; constructor; auto.
  - now rewrite <- S.
  - intros q x y Hq Nq X Y. apply (M q x y Hq); [now rewrite S| |]; (eapply to_nearest_same; [|eassumption]); intro c; symmetry; apply S.
  - apply IH. intro c. cbn. now rewrite S.
Qed.
Lemma ff_app dist n C ps : farthest_first dist n C ps -> forall qs, farthest_first dist n (ps ++ C) qs -> farthest_first dist n C (ps ++ qs).
Proof.
  induction 1 as [C|C p ps P N M F IH]; intros qs G; [exact G|]. cbn [app]. constructor; auto. apply IH. apply (ff_same _ _ _ _ G).
  intro c. cbn. rewrite !in_app_iff. cbn. tauto.
Qed.

(** A point farther than [r] from everything at the end shows that the picks were all farther than [r] apart. *)
Lemma ff_apart dist n C ps q r : farthest_first dist n C ps -> C <> [] -> (q < n)%nat -> ~ In q C -> ~ In q ps ->
  (forall c, In c C \/ In c ps -> (r < dist q c)%Q) ->
  (forall p c, In p ps -> In c C -> (r < dist p c)%Q) /\ ForallOrdPairs (fun a b => r < dist b a)%Q ps.
Proof.
  induction 1 as [C|C p ps P N M F IH]; intros NE Hq NC NP FAR; [split; [intros p c []|constructor]|].
  destruct (nearest_exists dist q C NE) as [x X]. destruct (nearest_exists dist p C NE) as [y Y].
  assert (XY : (x <= y)%Q) by (apply (M q); auto). assert (RX : (r < x)%Q).
  { destruct X as [(c & Hc & E) _]. rewrite E. apply FAR. now left. }
  destruct IH as [I1 I2]; auto; [discriminate|intros [->|K]; [apply NP; now left|contradiction]|intro K; apply NP; now right| |].
  { intros c [[<-|K]|K]; apply FAR; [right; now left|now left|right; now right]. }
  split.
  - intros p' c [<-|Hp] Hc; [|apply I1; [auto|now right]]. destruct Y as [_ Y]. pose proof (Y c Hc). lra.
  - constructor; [|exact I2]. apply Forall_forall. intros p' Hp. apply I1; [auto|now left].
Qed.

Lemma pigeon {A B} (R : A -> B -> Prop) (xs : list A) : forall ys : list B,
  (forall x, In x xs -> exists y, In y ys /\ R x y) -> ForallOrdPairs (fun a b => forall y, R a y -> R b y -> False) xs -> (length xs <= length ys)%nat.
Proof.
  induction xs as [|x xs IH]; intros ys H O; [cbn; lia|]. inversion O as [|? ? O1 O2]; subst. destruct (H x (or_introl eq_refl)) as (y & Hy & E).
  apply in_split in Hy. destruct Hy as (l1 & l2 & ->). rewrite Forall_forall in O1.
  assert (K : (length xs <= length (l1 ++ l2))%nat).
  { apply IH; [|auto]. intros x' Hx'. destruct (H x' (or_intror Hx')) as (z & Hz & Ez). exists z. split; [|auto].
    rewrite in_app_iff in *. destruct Hz as [Hz|[<-|Hz]]; auto. exfalso. exact (O1 x' Hx' y E Ez). }
  rewrite app_length in *. cbn. lia.
Qed.

Lemma ff_covers dist n C ps A r : metric n dist -> farthest_first dist n C ps -> C <> [] -> (forall c, In c C -> (c < n)%nat) ->
  (length A <= length ps)%nat -> (forall p, (p < n)%nat -> exists c, (In c C \/ In c A) /\ (c < n)%nat /\ (dist p c <= r)%Q) ->
  forall q, (q < n)%nat -> exists c, (In c C \/ In c ps) /\ (dist q c <= 2 * r)%Q.
Proof.
  intros MT F NE CN LA COV q Hq. destruct (ff_rest _ _ _ _ F) as [_ PN].
  assert (R0 : (0 <= r)%Q). { destruct (COV q Hq) as (c & _ & Hc & D). destruct (MT q c Hq Hc) as [P _]. lra. }
  assert (DEC : (exists c, (In c C \/ In c ps) /\ (dist q c <= 2 * r)%Q) \/ forall c, In c C \/ In c ps -> (2 * r < dist q c)%Q).
  { assert (G : forall l, (exists c, In c l /\ (dist q c <= 2 * r)%Q) \/ forall c, In c l -> (2 * r < dist q c)%Q).
    { induction l as [|a l [(c & Hc & E)|H]]; [right; intros c []|left; exists c; split; [now right|auto]|].
      destruct (Qlt_le_dec (2 * r) (dist q a)) as [K|K]; [right; intros c [<-|Hc]; auto|left; exists a; split; [now left|auto]]. }
    destruct (G (C ++ ps)) as [(c & Hc & E)|H]; [left; exists c; split; [now apply in_app_iff|auto]|right; intros c Hc; apply H; now apply in_app_iff]. }
  destruct DEC as [D|FAR]; [exact D|exfalso].
  assert (SELF : ~ (In q C \/ In q ps)). { intro K. pose proof (FAR q K). destruct (MT q q Hq Hq) as (_ & Z & _). lra. }
  destruct (ff_apart dist n C ps q (2 * r) F NE Hq) as [A1 A2]; [tauto|tauto|exact FAR|].
  assert (K : (length (q :: ps) <= length A)%nat).
  { apply (pigeon (fun x a => (x < n)%nat /\ (a < n)%nat /\ (dist x a <= r)%Q)).
    - intros x Hx. assert (Hn : (x < n)%nat) by (destruct Hx as [<-|Hx]; [auto|now apply PN]). destruct (COV x Hn) as (c & [Hc|Hc] & Hcn & D); [|exists c; auto].
      exfalso. assert ((2 * r < dist x c)%Q) by (destruct Hx as [<-|Hx]; [apply FAR; now left|now apply A1]). lra.
    - constructor.
      + apply Forall_forall. intros p Hp a (_ & Ha & D1) (Hn & _ & D2). pose proof (FAR p (or_intror Hp)) as X.
        destruct (MT q p Hq Hn) as (_ & _ & _ & T). pose proof (T a Ha). destruct (MT a p Ha Hn) as (_ & _ & S & _). lra.
      + clear - A2 MT. induction A2 as [|p l H O IH]; constructor; [|auto]. rewrite Forall_forall in *. intros p' Hp' a (Hp & Ha & D1) (Hn & _ & D2).
        pose proof (H p' Hp') as X. destruct (MT p' p Hn Hp) as (_ & _ & _ & T). pose proof (T a Ha). destruct (MT a p Ha Hp) as (_ & _ & S & _). lra. }
  cbn in K. lia.
Qed.

Lemma rounds_ff train dist : NoDup train -> metric (length train) dist -> forall s L s' L', core_rounds train s L s' L' ->
  forall K, core_history train dist s K -> L <> [] -> (forall x, In x K -> In x L) -> (forall x, In x L -> In x train) ->
  exists ps new, located train L ps /\ farthest_first dist (length train) ps new /\ L' = L ++ map (fun p => nth p train 0) new.
Proof.
  intros ND MT s L s' L' CR. induction CR as [s L|s L U batch s1 got s' L' SP B E CR IH]; intros K H NE KL IT.
  - destruct (located_all train L IT) as [ps LOC]. exists ps, []. split; [auto|]. split; [constructor|]. cbn. now rewrite app_nil_r.
  - assert (POS : forall p q, (p < length train)%nat -> (q < length train)%nat -> (- (100) < dist p q)%Q).
    { intros p q Hp Hq. destruct (MT p q Hp Hq) as [P _]. lra. }
    destruct (C50_rounds train dist s K L U batch POS H SP NE KL B) as (s2 & got2 & ps & new & E2 & LG & NG & GU & LOC & LOG & F).
    rewrite E in E2. injection E2 as <- <-.
    destruct (IH (L ++ got)) as (ps2 & new2 & LOC2 & F2 & EL).
    + exact (ch_call _ _ _ _ _ _ _ _ _ H SP NE KL B E).
    + destruct L; [contradiction|discriminate].
    + auto.
    + intros x Hx. apply in_app_iff in Hx. destruct Hx as [Hx|Hx]; [auto|]. apply SP. right. auto.
    + exists ps, (new ++ new2). split; [auto|]. assert (GM : got = map (fun p => nth p train 0) new).
      { clear - LOG. induction LOG as [|x p l l' E F IH]; [reflexivity|]. cbn. f_equal; [symmetry; now apply nth_error_nth|auto]. }
      split; [|rewrite EL, map_app, app_assoc, <- GM; reflexivity].
      apply ff_app; [auto|]. apply (ff_same _ _ _ _ F2). intro c.
      assert (LOC3 : located train (L ++ got) (ps ++ new)) by now apply Forall2_app.
      assert (X : forall a b, located train (L ++ got) a -> located train (L ++ got) b -> In c a -> In c b).
      { intros a b La Lb Hc. pose proof (located_lt _ _ _ La c Hc) as Hn. assert (Ex : nth_error train c = Some (nth c train 0)) by now apply nth_error_nth'.
        apply (located_in train _ b ND Lb c _ Ex). now apply (located_in train _ a ND La c _ Ex). }
      rewrite in_app_iff, or_comm, <- in_app_iff. split; [now apply X|now apply X].
Qed.

(** After any calls, if some choice [A] of as many points as were picked, labelled together with the first labelled points, has every
    training point within [r] of a labelled one, then what the strategy has labelled has every training point within [2 r]. *)
Theorem C134_coverage : forall train dist L s' L' A r, metric (length train) dist -> L <> [] -> (forall x, In x L -> In x train) -> NoDup train ->
  core_rounds train (new_core train dist) L s' L' ->
  (length L + length A <= length L')%nat -> covers train dist r (L ++ A) -> covers train dist (2 * r) L'.
Proof.
  intros train dist L s' L' A r MT NE IT ND CR LA COV.
  destruct (rounds_ff train dist ND MT _ _ _ _ CR [] (ch_new _ _) NE ltac:(intros x []) IT) as (ps & new & LOC & F & EL). subst L'.
  rewrite app_length, map_length in LA.
  (* the positions of those of [A] that are training points *)
  set (at_ := fun x => match find (fun p => Z.eqb (nth p train 0) x) (seq 0 (length train)) with Some p => p | None => 0%nat end).
  assert (AT : forall p x, nth_error train p = Some x -> at_ x = p).
  { intros p x E. assert (Hp : (p < length train)%nat) by (apply nth_error_Some; congruence). unfold at_.
    destruct (find (fun p => Z.eqb (nth p train 0) x) (seq 0 (length train))) as [q|] eqn:Q0.
    - apply find_some in Q0. destruct Q0 as [I J]. apply in_seq in I. apply Z.eqb_eq in J. apply (proj1 (NoDup_nth_error train) ND); [lia|].
      rewrite E, <- J. apply nth_error_nth'. lia.
    - exfalso. assert (X : Z.eqb (nth p train 0) x = false) by (apply (find_none _ _ Q0); apply in_seq; lia).
      rewrite (nth_error_nth _ _ _ E), Z.eqb_refl in X. discriminate. }
  assert (FC : forall q, (q < length train)%nat -> exists c, (In c ps \/ In c new) /\ (dist q c <= 2 * r)%Q).
  { apply (ff_covers dist (length train) ps new (map at_ A) r MT F).
    - intros ->. inversion LOC. subst. contradiction.
    - intros c Hc. exact (located_lt _ _ _ LOC c Hc).
    - rewrite map_length. lia.
    - intros p Hp. assert (Ex : nth_error train p = Some (nth p train 0)) by now apply nth_error_nth'.
      destruct (COV (nth p train 0) (nth_error_In _ _ Ex)) as (c & Hc & p1 & p2 & E1 & E2 & D).
      assert (p1 = p) by (apply (proj1 (NoDup_nth_error train) ND); [apply nth_error_Some; congruence|congruence]). subst p1.
      exists p2. split; [|split; [apply nth_error_Some; congruence|auto]]. apply in_app_iff in Hc. destruct Hc as [Hc|Hc].
      + left. now apply (located_in train L ps ND LOC p2 c E2).
      + right. rewrite <- (AT p2 c E2). now apply in_map. }
  intros x Hx. destruct (In_nth_error _ _ Hx) as [q Eq]. destruct (FC q ltac:(apply nth_error_Some; congruence)) as (c & Hc & D).
  destruct (ff_rest _ _ _ _ F) as [_ PN].
  assert (Hn : (c < length train)%nat) by (destruct Hc as [Hc|Hc]; [now apply (located_lt _ _ _ LOC)|now apply PN]).
  assert (Ec : nth_error train c = Some (nth c train 0)) by now apply nth_error_nth'.
  exists (nth c train 0). split; [|exists q, c; auto]. apply in_app_iff. destruct Hc as [Hc|Hc]; [left|right].
  - now apply (located_in train L ps ND LOC c _ Ec).
  - now apply (in_map (fun p => nth p train 0)).
Qed.
Print Assumptions C134_coverage.

(** The greedy choice is not the tightest one, and the factor 2 cannot be improved: points 0, 2, 3, 4 on a line, the first one labelled.
    The strategy picks the last one, which leaves the second 2 away; picking the third would have left none more than 1 away. *)
Definition ex_places : list Q := [0; 2; 3; 4]%Q.
Definition ex_line (p q : nat) : Q := Qabs (nth p ex_places 0 - nth q ex_places 0)%Q.
Lemma ex_line_metric : metric 4 ex_line.
Proof.
  intros p q _ _. unfold ex_line. split; [apply Qabs_nonneg|]. split; [|split; [rewrite Qabs_Qminus; reflexivity|]].
  - setoid_replace (nth p ex_places 0 - nth p ex_places 0)%Q with 0%Q by ring. reflexivity.
  - intros m _. setoid_replace (nth p ex_places 0 - nth q ex_places 0)%Q with ((nth p ex_places 0 - nth m ex_places 0) + (nth m ex_places 0 - nth q ex_places 0))%Q by ring.
    apply Qabs_triangle.
Qed.
Theorem C134_tightest_refuted : exists train dist L U s' got A,
  metric (length train) dist /\ split_into train L U /\ coreset_select (new_core train dist) L U 1 = (s', Ok got) /\ length A = length got /\
  covers train dist 1 (L ++ A) /\ forall r, covers train dist r (L ++ got) -> (2 <= r)%Q.
Proof.
  exists [20; 21; 22; 23], ex_line, [20], [21; 22; 23]. eexists. exists [23], [22]. split; [exact ex_line_metric|].
  split. { split; [repeat constructor; cbn; lia|]. split; [repeat constructor; cbn; lia|]. split; [intro x; cbn; intuition|]. intros x [<-|[]]. cbn. lia. }
  split; [reflexivity|]. split; [reflexivity|]. split.
  - intros x [<-|[<-|[<-|[<-|[]]]]]; [exists 20|exists 22|exists 22|exists 22]; (split; [cbn; auto|]).
    + exists 0%nat, 0%nat. repeat split. vm_compute. discriminate.
    + exists 1%nat, 2%nat. repeat split. vm_compute. discriminate.
    + exists 2%nat, 2%nat. repeat split. vm_compute. discriminate.
    + exists 3%nat, 2%nat. repeat split. vm_compute. discriminate.
  - intros r COV. destruct (COV 21) as (c & Hc & p & q & Ep & Eq & D); [cbn; auto|].
    assert (P1 : p = 1%nat) by (destruct p as [|[|[|[|p]]]]; cbn in Ep; try discriminate; [reflexivity|now destruct p]). subst p.
    destruct Hc as [<-|[<-|[]]].
    + destruct q as [|[|[|[|q]]]]; cbn in Eq; try discriminate; [|now destruct q]. unfold ex_line in D. cbn in D. exact D.
    + destruct q as [|[|[|[|q]]]]; cbn in Eq; try discriminate; [|now destruct q]. unfold ex_line in D. cbn in D. exact D.
Qed.
Print Assumptions C134_tightest_refuted.

(** Two rounds on that line, and another choice of two points with every point within 1. *)
Example ex_two_rounds : exists s', core_rounds [20; 21; 22; 23] (new_core [20; 21; 22; 23] ex_line) [20] s' [20; 23; 21] /\
  covers [20; 21; 22; 23] ex_line 1 ([20] ++ [22; 23]).
Proof.
  eexists. split.
  - eapply (cr_call _ _ _ [21; 22; 23] 1 _ [23]); [|cbn; lia|reflexivity|eapply (cr_call _ _ _ [21; 22] 1 _ [21]); [|cbn; lia|reflexivity|constructor]].
    + split; [repeat constructor; cbn; lia|]. split; [repeat constructor; cbn; lia|]. split; [intro x; cbn; intuition|]. intros x [<-|[]]. cbn. lia.
    + split; [repeat constructor; cbn; lia|]. split; [repeat constructor; cbn; lia|]. split; [intro x; cbn; intuition|]. intros x [<-|[<-|[]]]; cbn; lia.
  - intros x [<-|[<-|[<-|[<-|[]]]]]; [exists 20|exists 22|exists 22|exists 23]; (split; [cbn; auto|]).
    + exists 0%nat, 0%nat. repeat split. vm_compute. discriminate.
    + exists 1%nat, 2%nat. repeat split. vm_compute. discriminate.
    + exists 2%nat, 2%nat. repeat split. vm_compute. discriminate.
    + exists 3%nat, 3%nat. repeat split. vm_compute. discriminate.
Qed.
