(** Properties C32 to C36: random permutations, extreme positions, argument checks, preprocessing. *)
From Verif Require Import Base BaseFacts IndexModel SplitModel SplitSpec SplitProofs MiscModel MiscSpec MiscProofs.
From Coq Require Import QArith Lqa.
Local Open Scope Z_scope.

(** ** C32 *)

(** Whatever the shuffle gives, [randperm] returns [k] distinct numbers of the range. *)
Theorem C32_distinct : forall n a b k sh,
  bounds n a b -> mixed a b sh -> 0 <= k <= b - a + 1 ->
  exists l, randperm_gen n (RInt k) sh = Ok l /\ Z.of_nat (List.length l) = k /\ NoDup l /\ forall x, In x l -> a <= x <= b.
Proof.
  intros n a b k sh B M K. apply bounds_ok in B. pose proof (mixed_length _ _ _ M) as L. destruct M as [ND I].
  unfold randperm_gen. rewrite B. cbn [bind fst snd]. destruct (Z.gtb_spec k (b - a + 1)); [lia|]. eexists. split; [reflexivity|].
  split; [|split].
  - rewrite slice_to_len. unfold slice_size. destruct (Z.ltb_spec k 0); lia.
  - now apply slice_to_NoDup.
  - intros x J. apply I. eapply slice_to_sub; eauto.
Qed.
Print Assumptions C32_distinct.

(** All of them if [k] is omitted or is the size of the range. *)
Theorem C32_all : forall n a b sh,
  bounds n a b -> mixed a b sh -> a <= b + 1 ->
  exists l, randperm_gen n RNone sh = Ok l /\ randperm_gen n (RInt (b - a + 1)) sh = Ok l /\ mixed a b l.
Proof.
  intros n a b sh B M K. apply bounds_ok in B. pose proof (mixed_length _ _ _ M) as L.
  unfold randperm_gen. rewrite B. cbn [bind fst snd]. destruct (Z.gtb_spec (b - a + 1) (b - a + 1)); [lia|].
  exists (py_slice_to sh (b - a + 1)). split; [reflexivity|]. split; [reflexivity|].
  unfold py_slice_to. destruct (Z.ltb_spec (b - a + 1) 0); [lia|]. rewrite firstn_all2 by lia. exact M.
Qed.
Print Assumptions C32_all.

(** Every selection, in every order, is a possible outcome. *)
Theorem C32_every_outcome : forall n a b k l,
  bounds n a b -> a <= b + 1 -> Z.of_nat (List.length l) = k -> NoDup l -> (forall x, In x l -> a <= x <= b) ->
  exists sh, mixed a b sh /\ randperm_gen n (RInt k) sh = Ok l.
Proof.
  intros n a b k l B AB L ND I. apply bounds_ok in B.
  set (rest := filter (fun x => negb (existsb (Z.eqb x) l)) (arange a b)).
  assert (NDA : NoDup (arange a b)).
  { unfold arange. apply FinFun.Injective_map_NoDup; [intros x y H; lia|]. unfold zrange.
    apply FinFun.Injective_map_NoDup; [intros x y H; lia|apply seq_NoDup]. }
  assert (IA : forall x, In x (arange a b) <-> a <= x <= b).
  { intro x. unfold arange. rewrite in_map_iff. split.
    - intros (y & <- & J). apply in_zrange in J. lia.
    - intro H. exists (x - a). split; [lia|]. apply in_zrange. lia. }
  assert (IR : forall x, In x rest <-> a <= x <= b /\ ~ In x l).
  { intro x. unfold rest. rewrite filter_In, IA, negb_true_iff. split.
    - intros [H E]. split; auto. intro J. assert (T : existsb (Z.eqb x) l = true) by (apply existsb_exists; exists x; split; auto; apply Z.eqb_refl). congruence.
    - intros [H NJ]. split; auto. apply not_true_is_false. intro T. apply existsb_exists in T. destruct T as (y & Jy & E). apply Z.eqb_eq in E. now subst. }
  assert (M : mixed a b (l ++ rest)).
  { split.
    - apply NoDup_app_intro; auto; [now apply NoDup_filter|]. intros x J K. apply IR in K. tauto.
    - intro x. rewrite in_app_iff, IR. split; [intros [J|J]; [auto|tauto]|]. intro H. destruct (in_dec Z.eq_dec x l); tauto. }
  exists (l ++ rest). split; auto. unfold randperm_gen. rewrite B. cbn [bind fst snd].
  pose proof (mixed_length _ _ _ M) as LM. rewrite app_length in LM.
  destruct (Z.gtb_spec k (b - a + 1)); [lia|]. f_equal. unfold py_slice_to. destruct (Z.ltb_spec k 0); [lia|].
  replace (Z.to_nat k) with (List.length l) by lia. rewrite firstn_app, Nat.sub_diag, firstn_all. apply app_nil_r.
Qed.
Print Assumptions C32_every_outcome.

(** Exactly these calls are refused. *)
Theorem C32_rejects : forall n k sh e,
  randperm_gen n k sh = Err e <->
  (e = TypeErr /\ (n = NOther \/ k = ROther)) \/
  (e = ValueErr /\ exists a b z, bounds n a b /\ k = RInt z /\ z > b - a + 1).
Proof.
  intros n k sh e. unfold randperm_gen. split.
  - destruct (rp_bounds n) as [[a b]|e'] eqn:B; cbn [bind fst snd].
    + apply bounds_ok in B. destruct k as [|z|].
      * destruct (Z.gtb_spec (b - a + 1) (b - a + 1)); [lia|discriminate].
      * destruct (Z.gtb_spec z (b - a + 1)); [|discriminate]. intro HE. injection HE as <-. right. split; auto. exists a, b, z. repeat split; auto; lia.
      * intro H. injection H as <-. auto.
    + intro H. injection H as <-. left. destruct n as [| |a0 b0|]; try discriminate. injection B as <-. auto.
  - intros [[-> [-> | ->]]|[-> (a & b & z & B & -> & G)]].
    + reflexivity.
    + destruct (rp_bounds n) as [ab|e'] eqn:B; cbn [bind]; [reflexivity|]. destruct n; try discriminate. now injection B as <-.
    + apply bounds_ok in B. rewrite B. cbn [bind fst snd]. destruct (Z.gtb_spec z (b - a + 1)); [reflexivity|lia].
Qed.
Print Assumptions C32_rejects.

(** A negative [k] is not refused: it leaves out the last [-k] numbers. *)
Theorem C32_negative_refuted : forall n a b k sh,
  bounds n a b -> mixed a b sh -> 0 < k <= b - a + 1 ->
  exists l, randperm_gen n (RInt (- k)) sh = Ok l /\ Z.of_nat (List.length l) = b - a + 1 - k.
Proof.
  intros n a b k sh B M K. apply bounds_ok in B. pose proof (mixed_length _ _ _ M) as L.
  unfold randperm_gen. rewrite B. cbn [bind fst snd]. destruct (Z.gtb_spec (- k) (b - a + 1)); [lia|]. eexists. split; [reflexivity|].
  rewrite slice_to_len. unfold slice_size. destruct (Z.ltb_spec (- k) 0); lia.
Qed.
Print Assumptions C32_negative_refuted.

(** The permutations of positions used in the other models are these. *)
Theorem C32_positions : forall n k sh,
  randperm_gen (NInt n) (match k with Some k => RInt k | None => RNone end) (map Z.of_nat sh) =
  rmap (map Z.of_nat) (randperm n k sh).
Proof.
  intros n k sh. unfold randperm_gen, randperm. cbn [rp_bounds bind fst snd]. replace (n - 0 + 1) with (n + 1) by lia.
  assert (S : forall z, py_slice_to (map Z.of_nat sh) z = map Z.of_nat (py_slice_to sh z)).
  { intro z. unfold py_slice_to. rewrite map_length. destruct (z <? 0); apply firstn_map. }
  destruct k as [k|]; [destruct (k >? n + 1)|destruct (n + 1 >? n + 1)]; cbn [rmap]; rewrite ?S; reflexivity.
Qed.
Print Assumptions C32_positions.

Example C32_example :
  bounds (NTuple (Some 2) 5) 2 5 /\ mixed 2 5 [4; 2; 5; 3] /\
  randperm_gen (NTuple (Some 2) 5) (RInt 2) [4; 2; 5; 3] = Ok [4; 2] /\
  randperm_gen (NTuple (Some 2) 5) (RInt 5) [4; 2; 5; 3] = Err ValueErr /\
  randperm_gen (NTuple (Some 2) 5) (RInt (-1)) [4; 2; 5; 3] = Ok [4; 2; 5].
Proof.
  split; [constructor|]. split; [|repeat split]. split; [repeat constructor; cbn; intuition lia|]. intro x. cbn. lia.
Qed.

(** ** C33 *)

(** For every way to break ties, [nlargestarg] returns [n] distinct positions holding the [n] largest values, in increasing order. *)
Theorem C33_largest : forall a order n,
  sorts a order -> 0 < n <= Z.of_nat (List.length a) ->
  exists l, nlargestarg order n = Ok l /\ Z.of_nat (List.length l) = n /\ NoDup l /\
    (forall i, In i l -> (i < List.length a)%nat) /\
    StronglySorted (fun i j => (nth i a 0 <= nth j a 0)%Q) l /\
    forall i j, In i l -> (j < List.length a)%nat -> ~ In j l -> (nth j a 0 <= nth i a 0)%Q.
Proof.
  intros a order n S N. pose proof (sorts_length _ _ S) as L. unfold nlargestarg, guard. destruct (Z.ltb_spec 0 n); [|lia]. cbn [bind].
  eexists. split; [reflexivity|]. set (c := Z.of_nat (List.length order) - n).
  rewrite <- (slice_app order c) in S. destruct (sorts_app _ _ _ S) as (ND & I & S1 & S2 & S3).
  assert (LL : List.length (py_slice_to order c) = (List.length a - Z.to_nat n)%nat).
  { rewrite slice_to_len. unfold slice_size, c. destruct (Z.ltb_spec (Z.of_nat (List.length order) - n) 0); lia. }
  assert (LR : (List.length (py_slice_to order c) + List.length (py_slice_from order c))%nat = List.length a).
  { rewrite <- app_length, slice_app. exact L. }
  split; [lia|]. split; [apply NoDup_app_inv in ND; tauto|]. split; [intros i J; apply I, in_app_iff; auto|]. split; auto.
  intros i j J Hj NJ. apply S3; auto. apply I in Hj. apply in_app_iff in Hj. tauto.
Qed.
Print Assumptions C33_largest.

Theorem C33_smallest : forall a order n,
  sorts a order -> 0 < n ->
  exists l, nsmallestarg order n = Ok l /\ Z.of_nat (List.length l) = Z.min n (Z.of_nat (List.length a)) /\ NoDup l /\
    (forall i, In i l -> (i < List.length a)%nat) /\
    StronglySorted (fun i j => (nth i a 0 <= nth j a 0)%Q) l /\
    forall i j, In i l -> (j < List.length a)%nat -> ~ In j l -> (nth i a 0 <= nth j a 0)%Q.
Proof.
  intros a order n S N. pose proof (sorts_length _ _ S) as L. unfold nsmallestarg, guard. destruct (Z.ltb_spec 0 n); [|lia]. cbn [bind].
  eexists. split; [reflexivity|].
  rewrite <- (slice_app order n) in S. destruct (sorts_app _ _ _ S) as (ND & I & S1 & S2 & S3).
  split; [rewrite slice_to_len; unfold slice_size; destruct (Z.ltb_spec n 0); lia|].
  split; [apply NoDup_app_inv in ND; tauto|]. split; [intros i J; apply I, in_app_iff; auto|]. split; auto.
  intros i j J Hj NJ. apply S3; auto. apply I in Hj. apply in_app_iff in Hj. tauto.
Qed.
Print Assumptions C33_smallest.

(** Asking [nlargestarg] for more positions than there are does not give all of them: the start of the slice
    turns negative, and [n - len a] positions come back (all only from [2 len a] on). *)
Theorem C33_too_many_refuted : forall a order n,
  sorts a order -> Z.of_nat (List.length a) < n ->
  exists l, nlargestarg order n = Ok l /\ Z.of_nat (List.length l) = Z.min (Z.of_nat (List.length a)) (n - Z.of_nat (List.length a)).
Proof.
  intros a order n S N. pose proof (sorts_length _ _ S) as L. unfold nlargestarg, guard. destruct (Z.ltb_spec 0 n); [|lia]. cbn [bind].
  eexists. split; [reflexivity|]. unfold py_slice_from. destruct (Z.ltb_spec (Z.of_nat (List.length order) - n) 0); [|lia].
  rewrite skipn_length. lia.
Qed.
Print Assumptions C33_too_many_refuted.

Theorem C33_rejects : forall order n e,
  (nlargestarg order n = Err e <-> e = AssertErr /\ n <= 0) /\ (nsmallestarg order n = Err e <-> e = AssertErr /\ n <= 0).
Proof.
  intros order n e. unfold nlargestarg, nsmallestarg, guard. destruct (Z.ltb_spec 0 n); cbn [bind]; split; split.
  all: try discriminate. all: try (intros [_ H0]; lia). all: intro H0; try (injection H0 as <-; auto; fail).
  all: destruct H0 as [-> _]; reflexivity.
Qed.
Print Assumptions C33_rejects.

Example C33_example :
  sorts [3; 1; 2; 1]%Q [1; 3; 2; 0]%nat /\ nlargestarg [1; 3; 2; 0]%nat 2 = Ok [2; 0]%nat /\ nsmallestarg [1; 3; 2; 0]%nat 2 = Ok [1; 3]%nat /\
  nlargestarg [1; 3; 2; 0]%nat 5 = Ok [0]%nat.
Proof.
  split; [|repeat split]. split.
  - cbn. apply NoDup_Permutation; [repeat constructor; cbn; intuition lia|repeat constructor; cbn; intuition lia|]. intro x. cbn. intuition lia.
  - repeat constructor; cbv; discriminate.
Qed.

(** ** C34 *)

Theorem C34_one_to_one : forall (A : Type) (args : list (arg A)),
  check_one_to_one args = true <->
  forall a b, In a args -> In b args -> a <> ANone -> b <> ANone -> size a = size b.
Proof. intros A args. apply one_to_one_none. Qed.
Print Assumptions C34_one_to_one.

(** So a single value goes together with one-element lists. *)
Theorem C34_mixed : forall (A : Type) (x y : A) (l : list A),
  check_one_to_one [AOne x; AOne y] = true /\ (check_one_to_one [AOne x; AList l] = true <-> List.length l = 1%nat) /\
  (check_one_to_one [AList l; ANone; AOne x] = true <-> List.length l = 1%nat).
Proof.
  intros A x y l. split; [reflexivity|]. rewrite !C34_one_to_one. split; split.
  - intro H. symmetry. apply (H (AOne x) (AList l)); cbn; auto; discriminate.
  - intros L a b Ja Jb _ _. destruct Ja as [<-|[<-|[]]], Jb as [<-|[<-|[]]]; cbn; lia.
  - intro H. apply (H (AList l) (AOne x)); cbn; auto; discriminate.
  - intros L a b Ja Jb Na Nb. destruct Ja as [<-|[<-|[<-|[]]]], Jb as [<-|[<-|[<-|[]]]]; cbn; try lia; congruence.
Qed.
Print Assumptions C34_mixed.

Theorem C34_unpack : forall (A : Type) (args : list (arg A)),
  List.length (unpack args) = List.length args /\
  forall i a, nth_error args i = Some a ->
    (forall x, a = AList [x] -> nth_error (unpack args) i = Some (AOne x)) /\
    ((forall x, a <> AList [x]) -> nth_error (unpack args) i = Some a).
Proof.
  intros A args. unfold unpack. split; [apply map_length|]. intros i a H. rewrite nth_error_map, H. split.
  - intros x ->. reflexivity.
  - intro N. cbn. destruct a as [|[|x [|y l]]|x]; try reflexivity. now destruct (N x).
Qed.
Print Assumptions C34_unpack.

Example C34_example : check_one_to_one [AList [1; 2]; ANone; AList [3; 4]] = true /\ check_one_to_one [AList [1; 2]; AList [3]] = false /\
  check_one_to_one [AList (@nil Z); AOne 1] = false /\ unpack [AList [1]; AList [1; 2]; AOne 5] = [AOne 1; AList [1; 2]; AOne 5].
Proof. repeat split. Qed.

(** ** C35 *)

(** Each column is mapped into the range, its smallest value to the lower end and its largest (if different)
    to the upper end, keeping the order. *)
Theorem C35_range : forall rows m lo hi,
  rect rows m -> (lo < hi)%Q ->
  exists out, minmax_scale (XMat rows) lo hi = Ok (XMat out) /\ List.length out = List.length rows /\ rect out m /\
  forall j, (j < m)%nat ->
    (forall i x x', at_ rows i j x -> at_ out i j x' -> (lo <= x' <= hi)%Q /\
       ((forall k y, at_ rows k j y -> (x <= y)%Q) -> (x' == lo)%Q) /\
       ((forall k y, at_ rows k j y -> (y <= x)%Q) -> (exists k y, at_ rows k j y /\ ~ (y == x)%Q) -> (x' == hi)%Q)) /\
    (forall i k x y x' y', at_ rows i j x -> at_ rows k j y -> at_ out i j x' -> at_ out k j y' -> ((x < y)%Q <-> (x' < y')%Q)).
Proof.
  intros rows m lo hi R LT. destruct (minmax_entries rows m lo hi R LT) as (out & E & L & RO & H). exists out. split; auto. split; auto. split; auto.
  intros j Hj. destruct (H j Hj) as (mn & mx & (imn & Imn) & (imx & Imx) & B & V).
  assert (VAL : forall i x x', at_ rows i j x -> at_ out i j x' -> x' = rescale lo hi (mn, if Qeq_bool (mx - mn) 0 then 1%Q else (mx - mn)%Q) x).
  { intros i x x' Ax Ax'. destruct (V i x' Ax') as (x2 & Ax2 & Ex). rewrite (at_fun _ _ _ _ _ Ax Ax2). exact Ex. }
  pose proof (B _ _ Imx) as BM.
  destruct (Qeq_bool (mx - mn) 0) eqn:QZ.
  - apply Qeq_bool_iff in QZ.
    assert (C : forall i x x', at_ rows i j x -> at_ out i j x' -> (x == mn)%Q /\ (x' == lo)%Q).
    { intros i x x' Ax Ax'. specialize (VAL _ _ _ Ax Ax'). specialize (B _ _ Ax). assert (X : (x == mn)%Q) by lra. split; auto.
      rewrite VAL. unfold rescale. cbn [fst snd]. rewrite X. field. }
    split.
    + intros i x x' Ax Ax'. destruct (C _ _ _ Ax Ax') as [C1 C2]. split; [lra|]. split; auto.
      intros _ (k & y & Ay & NE). exfalso. apply NE. specialize (B _ _ Ay). lra.
    + intros i k x y x' y' Ax Ay Ax' Ay'. destruct (C _ _ _ Ax Ax'), (C _ _ _ Ay Ay'). split; intro; lra.
  - assert (P : (0 < mx - mn)%Q).
    { apply Qeq_bool_neq in QZ. assert (mn <= mx)%Q by lra. apply Qnot_le_lt. intro K. apply QZ. lra. }
    assert (F : forall x, (rescale lo hi (mn, (mx - mn)%Q) x == (x - mn) * ((hi - lo) / (mx - mn)) + lo)%Q).
    { intro x. unfold rescale. cbn [fst snd]. field. lra. }
    set (s := ((hi - lo) / (mx - mn))%Q) in *.
    assert (SP : (0 < s)%Q) by (unfold s, Qdiv; apply Qmult_lt_0_compat; [lra|apply Qinv_lt_0_compat; auto]).
    assert (SE : (s * (mx - mn) == hi - lo)%Q) by (unfold s; field; lra).
    split.
    + intros i x x' Ax Ax'. rewrite (VAL _ _ _ Ax Ax'), F. specialize (B _ _ Ax).
      assert (M1 : (0 <= (x - mn) * s)%Q) by (apply Qmult_le_0_compat; lra).
      assert (M2 : (0 <= (mx - x) * s)%Q) by (apply Qmult_le_0_compat; lra).
      assert (M3 : ((x - mn) * s + (mx - x) * s == hi - lo)%Q) by (rewrite <- SE; ring).
      split; [lra|]. split.
      * intro MIN. specialize (MIN _ _ Imn). assert (X : (x == mn)%Q) by lra. rewrite X. ring.
      * intros MAX _. specialize (MAX _ _ Imx). assert (X : (mx - x == 0)%Q) by lra. rewrite X in M3. lra.
    + intros i k x y x' y' Ax Ay Ax' Ay'. rewrite (VAL _ _ _ Ax Ax'), (VAL _ _ _ Ay Ay'), !F. split; intro K.
      * assert ((0 < (y - x) * s)%Q) by (apply Qmult_lt_0_compat; lra). lra.
      * apply Qnot_le_lt. intro K2. assert ((0 <= (x - y) * s)%Q) by (apply Qmult_le_0_compat; lra). lra.
Qed.
Print Assumptions C35_range.

(** The value of each entry. *)
Theorem C35_formula : forall rows m lo hi out i j x x' mn mx,
  rect rows m -> (lo < hi)%Q -> minmax_scale (XMat rows) lo hi = Ok (XMat out) -> (j < m)%nat ->
  at_ rows i j x -> at_ out i j x' ->
  (exists k, at_ rows k j mn) -> (exists k, at_ rows k j mx) -> (forall k y, at_ rows k j y -> (mn <= y <= mx)%Q) -> ~ (mn == mx)%Q ->
  (x' == (x - mn) / (mx - mn) * (hi - lo) + lo)%Q.
Proof.
  intros rows m lo hi out i j x x' mn mx R LT E Hj Ax Ax' [k1 I1] [k2 I2] B NE.
  destruct (minmax_entries rows m lo hi R LT) as (out' & E' & _ & _ & H). rewrite E in E'. injection E' as <-.
  destruct (H j Hj) as (mn' & mx' & (imn & Imn) & (imx & Imx) & B' & V).
  destruct (V i x' Ax') as (x2 & Ax2 & ->). rewrite (at_fun _ _ _ _ _ Ax2 Ax).
  pose proof (B _ _ Imn). pose proof (B _ _ Imx). pose proof (B' _ _ I1). pose proof (B' _ _ I2).
  assert (E1 : (mn' == mn)%Q) by lra. assert (E2 : (mx' == mx)%Q) by lra.
  destruct (Qeq_bool (mx' - mn') 0) eqn:QZ; [apply Qeq_bool_iff in QZ; exfalso; apply NE; lra|].
  unfold rescale. cbn [fst snd]. rewrite E1, E2. reflexivity.
Qed.
Print Assumptions C35_formula.

(** Scaling twice changes nothing. *)
Theorem C35_idempotent : forall rows m lo hi out out2 i j x y,
  rect rows m -> (lo < hi)%Q -> (j < m)%nat -> minmax_scale (XMat rows) lo hi = Ok (XMat out) -> minmax_scale (XMat out) lo hi = Ok (XMat out2) ->
  at_ out i j x -> at_ out2 i j y -> (x == y)%Q.
Proof.
  intros rows m lo hi out out2 i j x y R LT Hj E1 E2 Ax Ay.
  destruct (C35_range rows m lo hi R LT) as (o1 & E & L1 & R1 & H1). rewrite E1 in E. injection E as <-.
  destruct (C35_range out m lo hi R1 LT) as (o2 & E & L2 & R2 & H2). rewrite E2 in E. injection E as <-.
  destruct (H1 j Hj) as [A1 O1], (H2 j Hj) as [A2 O2].
  destruct (minmax_entries rows m lo hi R LT) as (o1 & E & _ & _ & H). rewrite E1 in E. injection E as <-.
  destruct (H j Hj) as (mn & mx & (imn & Imn) & (imx & Imx) & B & _).
  pose proof R as [_ FR]. pose proof R1 as [_ FR1].
  assert (BACK : forall k z, at_ out k j z -> exists w, at_ rows k j w).
  { intros k z Az. eapply (at_same out rows); eauto. }
  destruct (at_same rows out imn j mn m L1 FR1 Hj Imn) as [mn' Imn'], (at_same rows out imx j mx m L1 FR1 Hj Imx) as [mx' Imx'].
  destruct (A1 _ _ _ Imn Imn') as (_ & LO & _). specialize (LO (fun k z Az => proj1 (B k z Az))).
  destruct (BACK _ _ Ax) as [w Aw]. destruct (A1 _ _ _ Aw Ax) as (BX & _ & _).
  assert (BO : forall k z, at_ out k j z -> (lo <= z <= hi)%Q).
  { intros k z Az. destruct (BACK _ _ Az) as [w' Aw']. now destruct (A1 _ _ _ Aw' Az). }
  destruct (Qeq_dec mn mx) as [EQ|NE].
  - assert (XL : (x == lo)%Q).
    { destruct (A1 _ _ _ Aw Ax) as (_ & M & _). apply M. intros k z Az. pose proof (B _ _ Aw). pose proof (B _ _ Az). lra. }
    destruct (A2 _ _ _ Ax Ay) as (_ & M & _). rewrite M; [exact XL|]. intros k z Az. destruct (BO _ _ Az). lra.
  - destruct (A1 _ _ _ Imx Imx') as (_ & _ & HI). specialize (HI (fun k z Az => proj2 (B k z Az)) (ex_intro _ imn (ex_intro _ mn (conj Imn NE)))).
    rewrite (C35_formula out m lo hi out2 i j x y mn' mx' R1 LT E2 Hj Ax Ay); eauto.
    + rewrite LO, HI. field. lra.
    + intros k z Az. destruct (BO _ _ Az). rewrite LO, HI. lra.
    + rewrite LO, HI. lra.
Qed.
Print Assumptions C35_idempotent.

Theorem C35_rejects : forall X lo hi e,
  minmax_scale X lo hi = Err e <->
  (e = ValueErr /\ (hi <= lo)%Q) \/ ((lo < hi)%Q /\ ((e = TypeErr /\ X = XSparse) \/ (e = ValueErr /\ (X = XVec [] \/ X = XMat [])))).
Proof.
  intros X lo hi e. unfold minmax_scale. destruct (Qle_bool hi lo) eqn:QE.
  - apply Qle_bool_iff in QE. split; [intro H; injection H as <-; auto|]. intros [[-> _]|[LT _]]; [reflexivity|]. exfalso. apply (Qlt_not_le _ _ LT QE).
  - assert (LT : (lo < hi)%Q) by (apply Qnot_le_lt; intro K; apply Qle_bool_iff in K; congruence). split.
    + intro H. right. split; auto. destruct X as [[|q l]|[|r rows]|].
      * injection H as <-. auto.
      * discriminate.
      * injection H as <-. auto 6.
      * exfalso. destruct (by_columns (r :: rows) extent) eqn:BC; [discriminate|]. unfold by_columns in BC.
        clear -BC. revert BC. generalize (seq 0 (qwidth (r :: rows))) as s. induction s as [|j s IH]; cbn [mapM]; [discriminate|].
        destruct (extent_spec (qcol (r :: rows) j)) as (mn & mx & -> & _); [discriminate|]. cbn [bind]. destruct (mapM _ s); [discriminate|auto].
      * injection H as <-. auto.
    + intros [[_ K]|[_ [[-> ->]|[-> [->| ->]]]]]; try reflexivity. exfalso. apply (Qlt_not_le _ _ LT K).
Qed.
Print Assumptions C35_rejects.

(** A vector is one column. *)
Theorem C35_vector : forall l lo hi, l <> [] ->
  exists l', minmax_scale (XVec l) lo hi = (if Qle_bool hi lo then Err ValueErr else Ok (XVec l')) /\
    minmax_scale (XMat (map (fun x => [x]) l)) lo hi = (if Qle_bool hi lo then Err ValueErr else Ok (XMat (map (fun x => [x]) l'))).
Proof.
  intros l lo hi NE. unfold minmax_scale. destruct (extent_spec l NE) as (mn & mx & E & _).
  exists (map (rescale lo hi (mn, if Qeq_bool (mx - mn) 0 then 1%Q else (mx - mn)%Q)) l).
  destruct (Qle_bool hi lo); [split; reflexivity|]. rewrite E. cbn [bind]. split; [reflexivity|].
  assert (Q0 : qcol (map (fun x => [x]) l) 0 = l).
  { clear. unfold qcol. rewrite map_map. apply map_id. }
  assert (QW : qwidth (map (fun x => [x]) l) = 1%nat) by (destruct l; [congruence|reflexivity]).
  assert (BC : by_columns (map (fun x => [x]) l) extent = Ok [(mn, if Qeq_bool (mx - mn) 0 then 1%Q else (mx - mn)%Q)]).
  { unfold by_columns. rewrite QW. cbn [seq mapM]. rewrite Q0, E. reflexivity. }
  destruct (map (fun x => [x]) l) eqn:M; [destruct l; [congruence|discriminate]|]. rewrite <- M in *. rewrite BC. cbn [bind].
  f_equal. f_equal. rewrite !map_map. reflexivity.
Qed.
Print Assumptions C35_vector.

Example C35_example : rect [[1; 5]; [3; 5]; [2; 5]]%Q 2 /\
  exists out, minmax_scale (XMat [[1; 5]; [3; 5]; [2; 5]]%Q) 0 10 = Ok (XMat out) /\
    Forall2 (Forall2 Qeq) out [[0; 0]; [10; 0]; [5; 0]]%Q.
Proof.
  split; [split; [discriminate|repeat constructor]|]. eexists. split; [reflexivity|]. repeat constructor.
Qed.

(** ** C36 *)

(** Non-constant columns get mean 0, and variance one over their variance. *)
Theorem C36_centred : forall rows m j,
  rect rows m -> (j < m)%nat -> ~ (variance (column 0%Q rows j) == 0)%Q ->
  exists out col, standard_scale (XMat rows) = Ok out /\ column NaN out j = map Num col /\
    (mean col == 0)%Q /\ (variance col == 1 / variance (column 0%Q rows j))%Q /\
    (forall i x y, nth_error (column 0%Q rows j) i = Some x -> nth_error col i = Some y ->
       (y == (x - mean (column 0%Q rows j)) / variance (column 0%Q rows j))%Q).
Proof.
  intros rows m j R Hj NV. destruct (standard_columns rows m R) as (out & E & _ & _ & C). specialize (C j Hj).
  set (c := column 0%Q rows j) in *. assert (NE : c <> []) by (intro X; destruct R as [N _]; destruct rows; [congruence|discriminate]).
  exists out, (map (fun x => (x - mean c) * / variance c)%Q c). split; auto. split; [|split; [|split]].
  - rewrite C, map_map. apply map_ext. intro x. unfold fdiv. destruct (Qeq_bool (variance c) 0) eqn:B; [apply Qeq_bool_iff in B; tauto|reflexivity].
  - rewrite (mean_lin _ _ _ NE). ring.
  - rewrite (variance_lin _ _ _ NE). field. auto.
  - intros i x y Hx Hy. rewrite nth_error_map, Hx in Hy. injection Hy as <-. reflexivity.
Qed.
Print Assumptions C36_centred.

(** So the documented unit variance is obtained only where the variance was one already. *)
Theorem C36_unit_variance_refuted : forall rows m j out col,
  rect rows m -> (j < m)%nat -> ~ (variance (column 0%Q rows j) == 0)%Q ->
  standard_scale (XMat rows) = Ok out -> column NaN out j = map Num col ->
  ((variance col == 1)%Q <-> (variance (column 0%Q rows j) == 1)%Q).
Proof.
  intros rows m j out col R Hj NV E C. destruct (C36_centred rows m j R Hj NV) as (out' & col' & E' & C' & _ & V & _).
  rewrite E in E'. injection E' as <-. rewrite C in C'.
  assert (EC : col = col').
  { clear -C'. revert col' C'. induction col as [|x col IH]; intros [|y col'] H; try discriminate; auto. injection H as -> H. f_equal. auto. }
  subst col'. rewrite V. set (v := variance (column 0%Q rows j)) in *. split; intro H.
  - assert (X : (1 / v * v == 1)%Q) by (field; auto). rewrite H in X. rewrite Qmult_1_l in X. exact X.
  - rewrite H. reflexivity.
Qed.
Print Assumptions C36_unit_variance_refuted.

(** A constant column becomes NaN throughout, and only such a column does. *)
Theorem C36_constant : forall rows m j out,
  rect rows m -> (j < m)%nat -> standard_scale (XMat rows) = Ok out ->
  ((exists q, Forall (fun x => x == q)%Q (column 0%Q rows j)) <-> Forall (fun x => x = NaN) (column NaN out j)).
Proof.
  intros rows m j out R Hj E. destruct (standard_columns rows m R) as (out' & E' & _ & _ & C). rewrite E in E'. injection E' as <-. specialize (C j Hj).
  set (c := column 0%Q rows j) in *. assert (NE : c <> []) by (intro X; destruct R as [N _]; destruct rows; [congruence|discriminate]).
  rewrite C, Forall_map. split.
  - intros [q F].
    assert (M : (mean c == q)%Q).
    { unfold mean. pose proof (len_pos c NE). assert (T : (total c == inject_Z (Z.of_nat (List.length c)) * q)%Q).
      { clear -F. induction F as [|x c H F IH]; [cbn; ring|]. cbn [total fold_right List.length]. unfold total in IH. rewrite IH, H, Nat2Z.inj_succ. unfold Z.succ.
        rewrite inject_Z_plus. change (inject_Z 1) with 1%Q. ring. }
      rewrite T. field. lra. }
    assert (V : (variance c == 0)%Q).
    { assert (T : forall l, Forall (fun x => x == q)%Q l -> (total (map (fun x => (x - mean c) * (x - mean c)) l) == 0)%Q).
      { induction 1 as [|x l X FL IH]; [reflexivity|]. cbn [map total fold_right]. unfold total in IH. rewrite IH, M, X. ring. }
      specialize (T c F). unfold variance. set (d := mean c) in *.
      unfold mean. rewrite T. unfold Qdiv. ring. }
    eapply Forall_impl; [|exact F]. intros x X. unfold fdiv. apply Qeq_bool_iff in V. rewrite V.
    assert (Z0 : (x - mean c == 0)%Q) by (rewrite M, X; ring). apply Qeq_bool_iff in Z0. now rewrite Z0.
  - intro F. exists (mean c). apply variance_zero; auto. destruct c as [|x c']; [congruence|]. inversion F as [|? ? H _]; subst. unfold fdiv in H.
    destruct (Qeq_bool (variance (x :: c')) 0) eqn:B; [now apply Qeq_bool_iff|discriminate].
Qed.
Print Assumptions C36_constant.

Example C36_example : rect [[0]; [4]]%Q 1 /\ ~ (variance (column 0%Q [[0]; [4]]%Q 0) == 0)%Q /\
  exists out col, standard_scale (XMat [[0]; [4]]%Q) = Ok out /\ column NaN out 0 = map Num col /\ (variance col == 1 # 4)%Q.
Proof.
  assert (R : rect [[0]; [4]]%Q 1) by (split; [discriminate|repeat constructor]).
  assert (V : ~ (variance (column 0%Q [[0]; [4]]%Q 0) == 0)%Q) by (cbv; discriminate).
  split; [exact R|]. split; [exact V|]. destruct (C36_centred _ 1 0 R ltac:(lia) V) as (out & col & E & C & _ & W & _).
  exists out, col. split; [exact E|]. split; [exact C|]. rewrite W. reflexivity.
Qed.
