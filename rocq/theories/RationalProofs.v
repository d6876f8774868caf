(** Lemmas for RationalProps. *)
From Verif Require Import Base BaseFacts IndexModel MLModel SplitModel MLProofs3 MiscModel MiscSpec MiscProofs MiscProps
  QueryModel QuerySpec QueryProofs QueryProofs2 QueryProofs3 QueryProofs4 QueryProps QueryProps2 RationalSpec.
From Coq Require Import QArith Qabs Lqa.
Local Open Scope Z_scope.

(** A selection by a score of the instances. *)
Definition top (s : Z -> Q) (U : list Z) (b : Z) (sel : list Z) : Prop :=
  NoDup sel /\ incl sel U /\ Z.of_nat (length sel) = Z.min b (Z.of_nat (length U)) /\
  forall y z, In y sel -> In z U -> ~ In z sel -> (s z <= s y)%Q.

Lemma best_top s U b sel sc : NoDup U -> 0 < b < Z.of_nat (length U) -> (forall i x, nth_error U i = Some x -> (sc i == s x)%Q) ->
  best_batch U sc (Z.to_nat b) sel -> top s U b sel.
Proof.
  intros ND B E BB. destruct (C47_members _ _ _ _ _ BB) as (L & _ & I & N). split; [auto|]. split; [exact I|]. split; [lia|].
  destruct BB as (ps & NP & _ & F & M). intros y z Y Zu Nz.
  destruct (In_nth_error _ _ Zu) as (q & Eq). rewrite <- (E _ _ Eq).
  assert (exists p, In p ps /\ nth_error U p = Some y) as (p & Ip & Ep).
  { clear - F Y. induction F as [|p a ps sel H F IH]; [destruct Y|]. destruct Y as [->|Y]; [exists p; split; [now left|auto]|].
    destruct (IH Y) as (p' & ? & ?). exists p'. split; [now right|auto]. }
  rewrite <- (E _ _ Ep). apply M; auto.
  - apply nth_error_Some. congruence.
  - intro J. apply Nz. clear - F J Eq. induction F as [|p a ps sel H F IH]; [destruct J|]. destruct J as [->|J]; [left; congruence|right; auto].
Qed.
Lemma whole_top s U b : NoDup U -> Z.of_nat (length U) <= b -> top s U b U.
Proof. intros N L. split; [auto|]. split; [apply incl_refl|]. split; [lia|]. intros. contradiction. Qed.

Lemma top_steady s U V b c D sel sel' x : top s U b sel -> top s V c sel' -> NoDup D -> incl V U ->
  (forall y, In y D -> In y sel /\ ~ In y V) -> b <= c + Z.of_nat (length D) -> In x sel -> In x V ->
  In x sel' \/ exists y, In y sel' /\ y <> x /\ (s x == s y)%Q.
Proof.
  intros (N1 & I1 & L1 & T1) (N2 & I2 & L2 & T2) ND IV HD BC X XV.
  destruct (in_dec Z.eq_dec x sel') as [H|H]; [now left|right].
  destruct (Exists_dec (fun y => s x == s y)%Q sel' (fun y => Qeq_dec (s x) (s y))) as [EX|NE].
  { apply Exists_exists in EX. destruct EX as (y & J & E). exists y. split; auto. split; auto. intros ->. contradiction. }
  exfalso.
  assert (INC : incl (x :: sel' ++ D) sel).
  { intros y [<-|J]; auto. apply in_app_iff in J. destruct J as [J|J]; [|now apply HD].
    destruct (in_dec Z.eq_dec y sel) as [K|K]; auto. exfalso. apply NE, Exists_exists. exists y. split; auto.
    apply Qle_antisym; [apply T2; auto|apply T1; auto]. }
  assert (NN : NoDup (x :: sel' ++ D)).
  { constructor.
    - rewrite in_app_iff. intros [J|J]; [auto|]. now apply (proj2 (HD x J)).
    - apply NoDup_app_intro; auto. intros y Y J. apply (proj2 (HD y J)). auto. }
  pose proof (NoDup_incl_length NN INC) as LL. cbn in LL. rewrite app_length in LL.

  destruct (Z.min_spec c (Z.of_nat (length V))) as [[_ M]|[_ M]]; rewrite M in L2; [lia|].
  apply H. refine (NoDup_length_incl (l' := V) N2 _ I2 x XV). lia.
Qed.

(** A way of selecting that always gives a selection by one score is consistent. *)
Lemma top_consistent choose s (tied : Z -> Z -> Prop) : (forall U b, NoDup U -> 0 < b -> exists sel, choose U b = Ok sel /\ top s U b sel) ->
  (forall x y, (s x == s y)%Q -> tied x y) -> consistent choose tied.
Proof.
  intros C T. split.
  - intros U b N B. destruct (C U b N B) as (sel & E & N1 & I1 & L1 & _). eauto.
  - intros U V b c D sel sel' x NU NV IV B B' E E' ND HD BC X XV.
    destruct (C U b NU B) as (s1 & E1 & T1). destruct (C V c NV B') as (s2 & E2 & T2).
    assert (s1 = sel) by congruence. assert (s2 = sel') by congruence. subst s1 s2.
    destruct (top_steady s U V b c D sel sel' x T1 T2 ND IV HD BC X XV) as [H|(y & J & NE & Q)]; eauto 6.
Qed.

Lemma nth_map_score (s : Z -> Q) U i x : nth_error U i = Some x -> nth i (map s U) 0%Q = s x.
Proof. intro E. apply nth_error_nth. now apply map_nth_error. Qed.

Lemma largest_top np s U b scores : numpy_ok np -> NoDup U -> 0 < b ->
  (Z.of_nat (length U) <= b \/ exists l, scores = Ok l /\ length l = length U /\ forall i x, nth_error U i = Some x -> (nth i l 0 == s x)%Q) ->
  exists sel, select_largest np U scores b = Ok sel /\ top s U b sel.
Proof.
  intros NP N B H. unfold select_largest, guard. destruct (Z.ltb_spec 0 b); [|lia]. cbn [bind].
  destruct (Z.leb_spec (Z.of_nat (length U)) b) as [W|W]; [exists U; split; [auto|now apply whole_top]|].
  destruct H as [H|(l & -> & Ll & El)]; [lia|]. cbn [bind]. destruct (largest_batch np U l b NP Ll ltac:(lia)) as (sel & E & BB).
  exists sel. split; auto. refine (best_top s U b sel (fun i => nth i l 0%Q) N _ El BB). lia.
Qed.
