(** Proofs about 1-d indexes, masks, label-matrix extraction and mapping to the training set. *)
From Verif Require Import Base BaseFacts SetFacts IndexModel IndexSpec IndexProofs
  MLModel MLSpec MLProofs MLProofs2.
From Coq Require Import ZifyBool.
Local Open Scope Z_scope.
Ltac Zify.zify_post_hook ::= Z.div_mod_to_equations.

(** *** 1-d indexes *)
Definition one_dim (o : order) (n m : Z) (p : Z * Z) : Z :=
  match o with OrdC => fst p * m + snd p | _ => fst p + snd p * n end.

Lemma mapM_pairs m c (f : mlidx -> res Z) (g : Z * Z -> Z) : good m c ->
  (forall i j, f (IPair i j) = Ok (g (i, j))) -> mapM f (mcont c) = Ok (map g (pairs c)).
Proof.
  intros (_ & _ & _ & F & _) H. rewrite (pairs_map m c F). generalize (pairs c). intro ps.
  induction ps as [|[i j] ps IH]; simpl; auto. unfold pair_idx at 1; simpl. rewrite H. simpl. now rewrite IH.
Qed.

Lemma onedim_eq m c n o : good m c -> o <> OrdBad ->
  ml_onedim c o (Some n) = Ok (map (one_dim o n m) (pairs c)).
Proof.
  intros G Ho. pose proof G as (_ & G2 & _). unfold ml_onedim. destruct o; try congruence.
  - apply (mapM_pairs m); auto. intros i j. now rewrite G2.
  - apply (mapM_pairs m); auto.
Qed.

Lemma one_dim_range o n m p : 0 <= fst p < n -> 0 <= snd p < m -> 0 <= one_dim o n m p < n * m.
Proof. intros. destruct o; simpl; nia. Qed.

Lemma unravel_one_dim o n m p : o <> OrdBad -> 0 <= fst p < n -> 0 <= snd p < m ->
  unravel n m o (one_dim o n m p) = Ok p.
Proof.
  intros Ho Hi Hj. pose proof (one_dim_range o n m p Hi Hj) as R. unfold unravel.
  replace ((0 <=? one_dim o n m p) && (one_dim o n m p <? n * m)) with true by lia.
  destruct p as [i j]; destruct o; simpl in *; try congruence; do 2 f_equal.
  - rewrite Z.div_add_l by lia. rewrite Z.div_small; lia.
  - rewrite Z.add_comm, Z.mod_add, Z.mod_small; lia.
  - rewrite Z.mod_add, Z.mod_small; lia.
  - rewrite Z.div_add, Z.div_small; lia.
Qed.

Lemma one_dim_unravel o n m a : o <> OrdBad -> 0 <= a < n * m -> 0 < n -> 0 < m ->
  exists p, unravel n m o a = Ok p /\ one_dim o n m p = a /\ 0 <= fst p < n /\ 0 <= snd p < m.
Proof.
  intros Ho Ha Hn Hm. unfold unravel. replace ((0 <=? a) && (a <? n * m)) with true by lia.
  destruct o; try congruence.
  - exists (a / m, a mod m). simpl. repeat split; auto.
    + rewrite (Z.mul_comm (a / m)). symmetry. apply Z.div_mod. lia.
    + apply Z.div_pos; lia.
    + apply Z.div_lt_upper_bound; lia.
    + apply Z.mod_pos_bound; lia.
    + apply Z.mod_pos_bound; lia.
  - exists (a mod n, a / n). simpl. repeat split; auto.
    + rewrite Z.add_comm, (Z.mul_comm (a / n)). symmetry. apply Z.div_mod. lia.
    + apply Z.mod_pos_bound; lia.
    + apply Z.mod_pos_bound; lia.
    + apply Z.div_pos; lia.
    + apply Z.div_lt_upper_bound; lia.
Qed.

Lemma onedim_lemma m c n o : ml_reachable m c -> o <> OrdBad ->
  (forall p, In p (pairs c) -> 0 <= fst p < n) ->
  exists a, ml_onedim c o (Some n) = Ok a /\
    a = map (fun p => match o with OrdC => fst p * m + snd p | _ => fst p + snd p * n end) (pairs c) /\
    NoDup a /\ (forall x, In x a -> 0 <= x < n * m).
Proof.
  intros R Ho Hr. pose proof (reachable_good m c R) as G.
  exists (map (one_dim o n m) (pairs c)). split; [now apply onedim_eq|]. split; [reflexivity|]. split.
  - pose proof (pairs_NoDup c (proj2 (proj2 (proj2 (proj2 G))))) as N.
    assert (Rg : forall p, In p (pairs c) -> 0 <= fst p < n /\ 0 <= snd p < m).
    { intros p Hp. split; auto. now apply (good_range m c). }
    clear Hr. induction N as [|p l Hp N IH]; simpl; constructor.
    + rewrite in_map_iff. intros (q & E & Hq). apply Hp.
      pose proof (unravel_one_dim o n m p Ho) as U1. pose proof (unravel_one_dim o n m q Ho) as U2.
      destruct (Rg p (or_introl eq_refl)). destruct (Rg q (or_intror Hq)).
      specialize (U1 H H0). specialize (U2 H1 H2). rewrite E in U2. rewrite U1 in U2. injection U2 as <-. exact Hq.
    + apply IH. intros; apply Rg; now right.
  - intros x Hx. apply in_map_iff in Hx. destruct Hx as (p & <- & Hp).
    apply one_dim_range; auto. now apply (good_range m c).
Qed.

Lemma flat_map_pair m ps : flat_map (denoted m) (map pair_idx ps) = ps.
Proof. induction ps as [|[i j] ps IH]; simpl; auto. now rewrite IH. Qed.

Lemma init_pairs m ps : 0 < m -> (forall p, In p ps -> 0 <= snd p < m) ->
  exists c w, ml_init (MList (map pair_idx ps)) (Some m) = Ok (c, w) /\ ml_reachable m c /\
    (forall p, In p (pairs c) <-> In p ps) /\ (NoDup ps -> w = []).
Proof.
  intros Hm Hr. destruct ps as [|p ps].
  - simpl. eexists _, _. split; [reflexivity|]. split; [now constructor|]. split; [reflexivity|auto].
  - assert (Sc : forallb (scalar_ok m) (map pair_idx (p :: ps)) = true).
    { apply forallb_forall. intros x Hx. apply in_map_iff in Hx. destruct Hx as (q & <- & Hq).
      specialize (Hr q Hq). destruct q; simpl in *. lia. }
    assert (E : exists c w, ml_init (MList (map pair_idx (p :: ps))) (Some m) = Ok (c, w)).
    { simpl map. unfold ml_init. cbn [bind]. change (pair_idx p :: map pair_idx ps) with (map pair_idx (p :: ps)).
      rewrite flatten_spec. replace (0 <? m) with true by lia. rewrite Sc. cbn. eauto. }
    destruct E as (c & w & E). exists c, w. split; auto.
    destruct (init_list_spec (map pair_idx (p :: ps)) (Some m) c w) as (m' & A & B & C & D & I & W); auto; [discriminate|].
    subst m'. split; [eapply mr_list; eauto; discriminate|]. rewrite flat_map_pair in I, W. split; [exact I|].
    intro N. rewrite W. assert (X : Permutation (pairs c) (p :: ps)).
    { apply NoDup_Permutation; auto. apply pairs_NoDup. apply B. }
    now rewrite (Permutation_length X), Nat.eqb_refl.
Qed.

Lemma construct_1d_lemma n m o a : 0 < n -> 0 < m -> o <> OrdBad ->
  (forall x, In x a -> 0 <= x < n * m) ->
  exists c w, ml_construct_1d a n m o = Ok (c, w) /\ ml_reachable m c /\
    (forall p, In p (pairs c) <-> 0 <= fst p < n /\ 0 <= snd p < m /\
       In (match o with OrdC => fst p * m + snd p | _ => fst p + snd p * n end) a) /\
    (exists b, ml_onedim c o (Some n) = Ok b /\ NoDup b /\ forall x, In x b <-> In x a).
Proof.
  intros Hn Hm Ho Ha. unfold ml_construct_1d.
  set (u := fun x => match unravel n m o x with Ok p => p | Err _ => (0, 0) end).
  assert (U : forall x, In x a -> unravel n m o x = Ok (u x) /\ one_dim o n m (u x) = x /\
                                  0 <= fst (u x) < n /\ 0 <= snd (u x) < m).
  { intros x Hx. destruct (one_dim_unravel o n m x Ho (Ha x Hx) Hn Hm) as (p & E & R). unfold u. now rewrite E. }
  rewrite (mapM_ok _ u) by (intros; now apply U). cbn [bind].
  destruct (init_pairs m (map u a) Hm) as (c & w & E & R & I & _).
  { intros p Hp. apply in_map_iff in Hp. destruct Hp as (x & <- & Hx). now apply U. }
  exists c, w. split; auto. split; auto.
  assert (P : forall p, In p (pairs c) <-> 0 <= fst p < n /\ 0 <= snd p < m /\ In (one_dim o n m p) a).
  { intro p. rewrite I, in_map_iff. split.
    - intros (x & <- & Hx). destruct (U x Hx) as (A & B & C & D). rewrite B. auto.
    - intros (A & B & C). exists (one_dim o n m p). split; auto. unfold u. now rewrite unravel_one_dim. }
  split; [exact P|].
  destruct (onedim_lemma m c n o R Ho) as (b & Eb & Db & Nb & Rb).
  { intros p Hp. apply P in Hp. tauto. }
  exists b. split; auto. split; auto. intro x. subst b. rewrite in_map_iff. split.
  - intros (p & <- & Hp). apply P in Hp. apply Hp.
  - intro Hx. destruct (U x Hx) as (A & B & C & D). exists (u x). split; auto. apply P.
    rewrite B. auto.
Qed.

Lemma construct_1d_reject n m o a : (exists x, In x a /\ ~ 0 <= x < n * m) ->
  ml_construct_1d a n m o = Err ValueErr.
Proof.
  intros (x & Hx & Hn). unfold ml_construct_1d.
  assert (E : mapM (unravel n m o) a = Err ValueErr).
  { induction a as [|y a IH]; [destruct Hx|]. simpl.
    destruct (unravel n m o y) as [q|e] eqn:U.
    - destruct Hx as [->|Hx].
      + unfold unravel in U. replace ((0 <=? x) && (x <? n * m)) with false in U by lia. discriminate.
      + simpl. now rewrite IH.
    - unfold unravel in U. destruct ((0 <=? y) && (y <? n * m)); [destruct o|]; try discriminate; injection U as <-; reflexivity. }
  now rewrite E.
Qed.

(** *** set_nth and cells *)
Lemma set_nth_length {A} n (x : A) l : List.length (set_nth n x l) = List.length l.
Proof. revert n; induction l; intros [|n]; simpl; auto. Qed.

Lemma nth_error_set_nth {A} n (x : A) l k :
  nth_error (set_nth n x l) k =
    if Nat.eqb k n then (if Nat.ltb n (List.length l) then Some x else None) else nth_error l k.
Proof.
  revert n k; induction l as [|y l IH]; intros [|n] [|k]; simpl; auto.
  - now rewrite Nat.eqb_sym; destruct (Nat.eqb _ _).
  - rewrite IH. reflexivity.
Qed.

Lemma nth_error_repeat {A} (x : A) n k : nth_error (repeat x n) k = if Nat.ltb k n then Some x else None.
Proof.
  revert k; induction n as [|n IH]; intros [|k]; simpl; auto. rewrite IH. reflexivity.
Qed.

Lemma py_index_in n i : 0 <= i < Z.of_nat n -> py_index n i = Some (Z.to_nat i).
Proof. intro H. unfold py_index. replace ((0 <=? i) && (i <? Z.of_nat n)) with true by lia. reflexivity. Qed.

(** *** masks *)
Lemma mask_set_spec n m v i j (mat : list (list Z)) : has_shape mat n m ->
  0 <= i < Z.of_nat n -> 0 <= j < Z.of_nat m ->
  exists mat', mask_set n m v i mat j = Ok mat' /\ has_shape mat' n m /\
  forall a b, cell mat' a b = if (Z.of_nat a =? i) && (Z.of_nat b =? j) then Some v else cell mat a b.
Proof.
  intros [L R] Hi Hj. unfold mask_set. rewrite !py_index_in by auto. eexists. split; [reflexivity|].
  set (p := Z.to_nat i) in *. set (q := Z.to_nat j) in *.
  assert (Hp : (p < List.length mat)%nat) by lia.
  assert (Lr : List.length (nth p mat []) = m) by (apply R, nth_In; lia).
  split; [split|].
  - now rewrite set_nth_length.
  - intros r Hr. apply In_nth_error in Hr. destruct Hr as [k Hk].
    rewrite nth_error_set_nth in Hk. destruct (Nat.eqb k p).
    + destruct (Nat.ltb p (List.length mat)); [|discriminate]. injection Hk as <-. now rewrite set_nth_length.
    + apply R. now apply nth_error_In in Hk.
  - intros a b. unfold cell. rewrite nth_error_set_nth.
    destruct (Nat.eqb_spec a p) as [->|Ha].
    + replace (Nat.ltb p (List.length mat)) with true by (symmetry; apply Nat.ltb_lt; lia).
      rewrite nth_error_set_nth, Lr.
      rewrite (nth_error_nth' mat [] Hp).
      destruct (Nat.eqb_spec b q) as [->|Hb].
      * replace (Nat.ltb q m) with true by (symmetry; apply Nat.ltb_lt; lia).
        replace ((Z.of_nat p =? i) && (Z.of_nat q =? j)) with true by lia. reflexivity.
      * replace ((Z.of_nat p =? i) && (Z.of_nat b =? j)) with false by lia. reflexivity.
    + replace ((Z.of_nat a =? i) && (Z.of_nat b =? j)) with false by lia. reflexivity.
Qed.

Definition zz_mem (p : Z * Z) (l : list (Z * Z)) : bool :=
  existsb (fun q => (fst p =? fst q) && (snd p =? snd q)) l.

Lemma zz_mem_in p l : zz_mem p l = true <-> In p l.
Proof.
  unfold zz_mem. rewrite existsb_exists. split.
  - intros (q & Hq & E). destruct p, q; simpl in *. assert (z = z1 /\ z0 = z2) as [-> ->] by lia. exact Hq.
  - intro H. exists p. split; auto. lia.
Qed.

Lemma mask_fold n m v ps : (forall p, In p ps -> 0 <= fst p < Z.of_nat n /\ 0 <= snd p < Z.of_nat m) ->
  forall mat, has_shape mat n m ->
  exists mat', foldM (mask_item n m v) mat (map pair_idx ps) = Ok mat' /\ has_shape mat' n m /\
  forall a b, cell mat' a b = if zz_mem (Z.of_nat a, Z.of_nat b) ps then Some v else cell mat a b.
Proof.
  induction ps as [|[i j] ps IH]; intros Hr mat Hs.
  - simpl. exists mat. auto.
  - destruct (Hr (i, j) (or_introl eq_refl)) as [Hi Hj]. simpl in Hi, Hj.
    destruct (mask_set_spec n m v i j mat Hs Hi Hj) as (m1 & E1 & S1 & C1).
    destruct (IH (fun p Hp => Hr p (or_intror Hp)) m1 S1) as (m2 & E2 & S2 & C2).
    exists m2. split; [cbn; now rewrite E1|]. split; auto.
    intros a b. rewrite C2, C1. simpl. fold (zz_mem (Z.of_nat a, Z.of_nat b) ps).
    destruct ((Z.of_nat a =? i) && (Z.of_nat b =? j)); simpl; auto. destruct (zz_mem _ ps); reflexivity.
Qed.

Lemma zeros_shape n m : has_shape (zeros n m) n m.
Proof.
  unfold zeros. split; [apply repeat_length|]. intros r Hr. apply repeat_spec in Hr. subst. apply repeat_length.
Qed.
Lemma zeros_cell n m a b : (a < n)%nat -> (b < m)%nat -> cell (zeros n m) a b = Some 0.
Proof.
  intros Ha Hb. unfold cell, zeros. rewrite nth_error_repeat.
  replace (Nat.ltb a n) with true by (symmetry; now apply Nat.ltb_lt).
  rewrite nth_error_repeat. now replace (Nat.ltb b m) with true by (symmetry; now apply Nat.ltb_lt).
Qed.

Lemma cell_some_shape {A} (mat : list (list A)) n m a b : has_shape mat n m ->
  (cell mat a b <> None <-> (a < n /\ b < m)%nat).
Proof.
  intros [L R]. unfold cell. destruct (nth_error mat a) as [r|] eqn:E.
  - assert (a < n)%nat by (rewrite <- L; apply nth_error_Some; congruence).
    assert (List.length r = m) by (apply R; now apply nth_error_In in E). subst m.
    rewrite nth_error_Some. tauto.
  - split; [congruence|]. intros [H _]. apply nth_error_None in E. lia.
Qed.

Lemma dense_mask_lemma m c n cols fill : ml_reachable m c ->
  (forall p, In p (pairs c) -> 0 <= fst p < Z.of_nat n /\ snd p < Z.of_nat cols) ->
  exists mat, ml_mask c n cols fill false = Ok mat /\ has_shape mat n cols /\
  forall a b, (a < n)%nat -> (b < cols)%nat ->
    (In (Z.of_nat a, Z.of_nat b) (pairs c) -> cell mat a b = Some fill) /\
    (~ In (Z.of_nat a, Z.of_nat b) (pairs c) -> cell mat a b = Some 0).
Proof.
  intros R Hr. pose proof (reachable_good m c R) as G. pose proof G as (_ & _ & _ & F & _).
  unfold ml_mask. rewrite (pairs_map m c F).
  destruct (mask_fold n cols fill (pairs c)) with (mat := zeros n cols) as (mat & E & S & C).
  { intros p Hp. pose proof (good_range m c p G Hp). specialize (Hr p Hp). intuition. }
  { apply zeros_shape. }
  exists mat. split; auto. split; auto. intros a b Ha Hb. split; intro H.
  - rewrite C. apply zz_mem_in in H. now rewrite H.
  - rewrite C. destruct (zz_mem (Z.of_nat a, Z.of_nat b) (pairs c)) eqn:M.
    + apply zz_mem_in in M. contradiction.
    + now apply zeros_cell.
Qed.

Lemma matrix_ext {A} (x y : list (list A)) n m : has_shape x n m -> has_shape y n m ->
  (forall a b, (a < n)%nat -> (b < m)%nat -> cell x a b = cell y a b) -> x = y.
Proof.
  intros Sx Sy H. pose proof Sx as [Lx Rx]. pose proof Sy as [Ly Ry].
  assert (nth_error_ext : forall {B} (u v : list B), List.length u = List.length v ->
            (forall k, (k < List.length u)%nat -> nth_error u k = nth_error v k) -> u = v).
  { clear. intros B u; induction u as [|p u IH]; intros [|q v] L E; simpl in *; try discriminate; auto.
    pose proof (E 0%nat ltac:(lia)) as E0. simpl in E0. injection E0 as ->. f_equal. apply IH; [lia|].
    intros k Hk. apply (E (S k)). lia. }
  apply nth_error_ext; [lia|]. intros a Ha.
  destruct (nth_error x a) as [r|] eqn:E; [|apply nth_error_None in E; lia].
  destruct (nth_error y a) as [s|] eqn:E'; [|apply nth_error_None in E'; lia].
  f_equal. assert (Lr : List.length r = m) by (apply Rx; now apply nth_error_In in E).
  assert (Ls : List.length s = m) by (apply Ry; now apply nth_error_In in E').
  apply nth_error_ext; [lia|]. intros b Hb.
  specialize (H a b ltac:(lia) ltac:(lia)). unfold cell in H. now rewrite E, E' in H.
Qed.

Lemma in_combine_seq {A} (l : list A) x k :
  In (x, k) (combine l (map Z.of_nat (seq 0 (List.length l)))) <->
  0 <= k /\ nth_error l (Z.to_nat k) = Some x.
Proof.
  assert (X : forall s, In (x, k) (combine l (map Z.of_nat (seq s (List.length l)))) <->
                   Z.of_nat s <= k /\ nth_error l (Z.to_nat k - s) = Some x).
  { induction l as [|y l IH]; intro s; simpl.
    - split; [tauto|]. intros [_ H]. destruct (Z.to_nat k - s)%nat; discriminate.
    - rewrite (IH (S s)). split.
      + intros [E|[H1 H2]].
        * injection E as -> <-. split; [lia|]. replace (Z.to_nat (Z.of_nat s) - s)%nat with 0%nat by lia. reflexivity.
        * split; [lia|]. replace (Z.to_nat k - s)%nat with (S (Z.to_nat k - S s)) by lia. exact H2.
      + intros [H1 H2]. destruct (Z.eq_dec k (Z.of_nat s)) as [->|Hk].
        * left. replace (Z.to_nat (Z.of_nat s) - s)%nat with 0%nat in H2 by lia. simpl in H2. congruence.
        * right. split; [lia|]. replace (Z.to_nat k - s)%nat with (S (Z.to_nat k - S s)) in H2 by lia. exact H2. }
  rewrite (X 0%nat). rewrite Nat.sub_0_r. split; intros [? ?]; split; auto; lia.
Qed.

Lemma in_row_nonzero i r p : In p (row_nonzero i r) <->
  fst p = i /\ 0 <= snd p /\ exists v, nth_error r (Z.to_nat (snd p)) = Some v /\ v <> 0.
Proof.
  unfold row_nonzero. rewrite in_flat_map. destruct p as [a b]. simpl. split.
  - intros ([v k] & H & I). apply in_combine_seq in H. simpl in I. destruct (v =? 0) eqn:E; [destruct I|].
    destruct I as [I|[]]. injection I as <- <-. destruct H. repeat split; auto. exists v. split; auto. lia.
  - intros (-> & Hb & v & E & Hv). exists (v, b). split; [now apply in_combine_seq|]. simpl.
    replace (v =? 0) with false by lia. now left.
Qed.

Lemma in_nonzero mat p : In p (nonzero mat) <->
  0 <= fst p /\ 0 <= snd p /\ exists v, cell mat (Z.to_nat (fst p)) (Z.to_nat (snd p)) = Some v /\ v <> 0.
Proof.
  unfold nonzero. rewrite in_flat_map. destruct p as [a b]. simpl. split.
  - intros ([r i] & H & I). apply in_combine_seq in H. apply in_row_nonzero in I. simpl in *.
    destruct I as (-> & Hb & v & E & Hv). destruct H as [Hi Er]. repeat split; auto.
    exists v. split; auto. unfold cell. now rewrite Er.
  - intros (Ha & Hb & v & E & Hv). unfold cell in E. destruct (nth_error mat (Z.to_nat a)) as [r|] eqn:Er; [|discriminate].
    exists (r, a). split; [now apply in_combine_seq|]. apply in_row_nonzero. simpl. eauto.
Qed.

Lemma NoDup_flat_map {A B} (f : A -> list B) l : NoDup l -> (forall x, In x l -> NoDup (f x)) ->
  (forall x y b, In x l -> In y l -> In b (f x) -> In b (f y) -> x = y) -> NoDup (flat_map f l).
Proof.
  induction 1 as [|x l Hx N IH]; simpl; intros H1 H2; [constructor|]. apply NoDup_app_intro.
  - apply H1; auto.
  - apply IH; auto. intros; eapply H2; eauto.
  - intros b Hb Hb'. apply in_flat_map in Hb'. destruct Hb' as (y & Hy & Hb'). apply Hx.
    rewrite (H2 x y b); auto.
Qed.

Lemma NoDup_combine_r {A B} (l : list A) (l' : list B) : NoDup l' -> NoDup (combine l l').
Proof.
  revert l'. induction l as [|x l IH]; intros [|y l'] N; simpl; try constructor.
  - inversion N; subst. intro H. apply in_combine_r in H. contradiction.
  - inversion N; subst. auto.
Qed.

Lemma NoDup_positions n : NoDup (map Z.of_nat (seq 0 n)).
Proof. apply FinFun.Injective_map_NoDup; [intros a b; lia|apply seq_NoDup]. Qed.

Lemma nonzero_NoDup mat : NoDup (nonzero mat).
Proof.
  unfold nonzero. apply NoDup_flat_map.
  - apply NoDup_combine_r, NoDup_positions.
  - intros [r i] _. simpl. unfold row_nonzero. apply NoDup_flat_map.
    + apply NoDup_combine_r, NoDup_positions.
    + intros [v k] _. simpl. destruct (v =? 0); repeat constructor; simpl; tauto.
    + intros [v k] [v' k'] b H1 H2 B1 B2. simpl in *. destruct (v =? 0), (v' =? 0); simpl in *; try tauto.
      destruct B1 as [<-|[]], B2 as [B2|[]]. injection B2 as ->. apply in_combine_seq in H1, H2.
      destruct H1, H2. congruence.
  - intros [r i] [r' i'] b H1 H2 B1 B2. simpl in *. apply in_row_nonzero in B1, B2.
    destruct B1 as [B1 _], B2 as [B2 _]. assert (i = i') by congruence. subst i'.
    apply in_combine_seq in H1, H2. destruct H1, H2. congruence.
Qed.

Lemma rectangular_spec mat : rectangular mat = true <->
  mat <> [] /\ has_shape mat (List.length mat) (List.length (hd [] mat)).
Proof.
  destruct mat as [|r rs]; simpl.
  - split; [discriminate|]. intros [H _]; congruence.
  - rewrite forallb_forall. split.
    + intro H. split; [discriminate|]. split; auto. intros x [<-|Hx]; auto. apply Nat.eqb_eq. auto.
    + intros [_ [_ H]] x Hx. apply Nat.eqb_eq. apply H. now right.
Qed.

Lemma mask_check mat :
  rectangular mat && Nat.eqb (List.length (zunique (concat mat))) 2 &&
  zmem 0 (zunique (concat mat)) && zmem 1 (zunique (concat mat)) = true <-> mask_ok mat.
Proof.
  rewrite !andb_true_iff, rectangular_spec, !zmem_in, !zunique_in, Nat.eqb_eq. unfold mask_ok. split.
  - intros [[[[H1 H2] H3] H4] H5]. repeat split; auto; try apply H2.
    intros x Hx. rewrite <- zunique_in in Hx, H4, H5.
    pose proof (zunique_NoDup (concat mat)) as N. destruct (zunique (concat mat)) as [|a [|b [|]]]; try discriminate.
    simpl in *. inversion N as [|? ? N1 N2]; subst. simpl in N1. lia.
  - intros (H1 & H2 & H3 & H4 & H5). repeat split; auto; try apply H2.
    assert (P : Permutation (zunique (concat mat)) [0; 1]).
    { apply NoDup_Permutation; auto using zunique_NoDup.
      - repeat constructor; simpl; intuition discriminate.
      - intro x. rewrite zunique_in. simpl. split; [intro H; specialize (H3 x H); intuition|].
        intros [<-|[<-|[]]]; auto. }
    apply Permutation_length in P. exact P.
Qed.

Lemma cell_in_concat {A} (mat : list (list A)) a b v : cell mat a b = Some v -> In v (concat mat).
Proof.
  unfold cell. destruct (nth_error mat a) as [r|] eqn:E; [|discriminate]. intro H.
  apply in_concat. exists r. split; [now apply nth_error_In in E|now apply nth_error_In in H].
Qed.

Lemma mask_roundtrip mat : mask_ok mat ->
  exists c, ml_construct_mask mat = Ok (c, []) /\
  (forall a b, In (a, b) (pairs c) <-> 0 <= a /\ 0 <= b /\ cell mat (Z.to_nat a) (Z.to_nat b) = Some 1) /\
  ml_mask c (List.length mat) (List.length (hd [] mat)) 1 false = Ok mat.
Proof.
  intro M. pose proof M as (H1 & H2 & H3 & H4 & H5). unfold ml_construct_mask.
  pose proof (proj2 (mask_check mat) M) as E. cbn zeta in *. rewrite E.
  set (n := List.length mat) in *. set (k := List.length (hd [] mat)) in *.
  assert (Hk : (0 < k)%nat).
  { apply in_concat in H4. destruct H4 as (r & Hr & H0). destruct H2 as [_ H2]. specialize (H2 r Hr).
    destruct r; [destruct H0|simpl in H2; lia]. }
  assert (NZ : forall p, In p (nonzero mat) ->
     0 <= fst p < Z.of_nat n /\ 0 <= snd p < Z.of_nat k /\ cell mat (Z.to_nat (fst p)) (Z.to_nat (snd p)) = Some 1).
  { intros p Hp. apply in_nonzero in Hp. destruct Hp as (A & B & v & C & D).
    assert (X : cell mat (Z.to_nat (fst p)) (Z.to_nat (snd p)) <> None) by congruence.
    apply (cell_some_shape mat n k) in X; auto. split; [lia|]. split; [lia|].
    destruct (H3 v) as [->| ->]; auto; [|congruence]. eapply cell_in_concat; eauto. }
  destruct (init_pairs (Z.of_nat k) (nonzero mat)) as (c & w & Ei & R & I & W); [lia| |].
  { intros p Hp. apply NZ in Hp. tauto. }
  exists c. rewrite (W (nonzero_NoDup mat)) in Ei. split; auto.
  assert (P : forall a b, In (a, b) (pairs c) <-> 0 <= a /\ 0 <= b /\ cell mat (Z.to_nat a) (Z.to_nat b) = Some 1).
  { intros a b. rewrite I. split.
    - intro H. apply NZ in H. simpl in H. intuition.
    - intros (A & B & C). apply in_nonzero. simpl. repeat split; auto. exists 1. split; auto. lia. }
  split; [exact P|].
  destruct (dense_mask_lemma (Z.of_nat k) c n k 1 R) as (mat' & E' & S' & C').
  { intros [a b] Hp. apply I in Hp. apply NZ in Hp. simpl in *. lia. }
  rewrite E'. f_equal. apply (matrix_ext mat' mat n k); auto. intros a b Ha Hb.
  destruct (C' a b Ha Hb) as [C1 C2].
  destruct (cell mat a b) as [v|] eqn:Ec.
  2:{ exfalso. apply (proj2 (cell_some_shape mat n k a b H2)); auto. }
  destruct (H3 v) as [->| ->]; [eapply cell_in_concat; eauto| |].
  - apply C2. rewrite P. rewrite !Nat2Z.id, Ec. intros (_ & _ & X). discriminate.
  - apply C1. rewrite P. rewrite !Nat2Z.id, Ec. repeat split; lia.
Qed.

Lemma mask_reject mat : ~ mask_ok mat -> ml_construct_mask mat = Err ValueErr.
Proof.
  intro H. unfold ml_construct_mask. cbn zeta.
  destruct (rectangular mat && _ && _ && _) eqn:E; auto. exfalso. apply H. now apply mask_check.
Qed.

(** *** Label matrix extraction *)
Section Extraction.
  Context {A : Type}.
  Variable data : list (list A).
  Variable ncol : nat.
  Variable unknown : A.
  Hypothesis Hshape : has_shape data (List.length data) ncol.

  Lemma copy_cells_length (src : list A) labs row :
    List.length (copy_cells src labs row) = List.length row.
  Proof.
    unfold copy_cells. revert row. induction labs as [|j labs IH]; intro row; simpl; auto.
    rewrite IH. destruct (nth_error src (Z.to_nat j)); auto. apply set_nth_length.
  Qed.

  Lemma copy_cells_spec (src : list A) labs : (forall j, In j labs -> 0 <= j < Z.of_nat ncol) ->
    List.length src = ncol -> forall row, List.length row = ncol -> forall b,
    nth_error (copy_cells src labs row) b = if zmem (Z.of_nat b) labs then nth_error src b else nth_error row b.
  Proof.
    unfold copy_cells. intros Hl Ls. induction labs as [|j labs IH]; intros row Lr b; simpl; auto.
    assert (Hj := Hl j (or_introl eq_refl)).
    destruct (nth_error src (Z.to_nat j)) as [v|] eqn:E; [|apply nth_error_None in E; lia].
    rewrite IH; [|intros; apply Hl; now right|now rewrite set_nth_length].
    fold (zmem (Z.of_nat b) labs). destruct (zmem (Z.of_nat b) labs); [now rewrite orb_true_r|].
    rewrite orb_false_r, nth_error_set_nth. destruct (Nat.eqb_spec b (Z.to_nat j)) as [->|Hb].
    - replace (Z.of_nat (Z.to_nat j) =? j) with true by lia.
      replace (Nat.ltb (Z.to_nat j) (List.length row)) with true by (symmetry; apply Nat.ltb_lt; lia).
      now rewrite E.
    - replace (Z.of_nat b =? j) with false by lia. reflexivity.
  Qed.

  Definition item_ok (x : mlidx) : Prop :=
    match x with ILong _ _ => False | _ => True end /\
    0 <= ins_of x < Z.of_nat (List.length data) /\ scalar_ok (Z.of_nat ncol) x = true.

  Lemma glm_labels_spec x : item_ok x ->
    exists labs, glm_labels (Z.of_nat ncol) x = Ok labs /\
    (forall j, In j labs -> 0 <= j < Z.of_nat ncol) /\
    (forall j, In j labs <-> denotes (Z.of_nat ncol) x (ins_of x, j)).
  Proof.
    intros (N & I & S). destruct x as [i|i k|i js|i js|i k]; simpl in *; try contradiction.
    - eexists; split; [reflexivity|]. split; intro j; rewrite in_zrange; tauto.
    - rewrite S. eexists; split; [reflexivity|]. split.
      + intros j [<-|[]]. lia.
      + intro j. simpl. split; [intros [->|[]]; auto|]. intro E. left. congruence.
    - eexists; split; [reflexivity|]. split; intro j; rewrite filter_In; intuition; lia.
    - eexists; split; [reflexivity|]. split; intro j; rewrite filter_In; intuition; lia.
  Qed.

  Lemma zindex_none x l : zindex x l = None <-> ~ In x l.
  Proof.
    induction l as [|y l IH]; simpl; [tauto|]. destruct (x =? y) eqn:E.
    - split; [discriminate|]. intro H; exfalso; apply H; left; lia.
    - destruct (zindex x l); simpl; split; try discriminate.
      + intro H. exfalso. assert (X : ~ In x l) by tauto. apply IH in X. discriminate.
      + intros _ [H|H]; [lia|]. now apply (proj1 IH).
      + auto.
  Qed.

  Lemma zindex_some x l p : zindex x l = Some p -> nth_error l p = Some x /\ (forall q, (q < p)%nat -> nth_error l q <> Some x).
  Proof.
    revert p. induction l as [|y l IH]; simpl; intros p H; [discriminate|].
    destruct (x =? y) eqn:E.
    - injection H as <-. split; [simpl; f_equal; lia|]. intros q Hq; lia.
    - destruct (zindex x l) as [q|]; [|discriminate]. injection H as <-.
      destruct (IH q eq_refl) as [A1 A2]. split; auto. intros [|k] Hk; simpl.
      + intro F. injection F as ->. lia.
      + apply A2. lia.
  Qed.

  (** The part of the processed list [l] that is visible in the state. *)
  Definition glm_inv (l : list mlidx) (st : list (list A) * list Z) : Prop :=
    snd st = first_occ (map ins_of l) /\
    List.length (fst st) = List.length (snd st) /\
    (forall r i row, nth_error (snd st) r = Some i -> nth_error (fst st) r = Some row ->
       List.length row = ncol /\
       forall b, (b < ncol)%nat ->
       (denoted_by (Z.of_nat ncol) l (i, Z.of_nat b) -> nth_error row b = cell data (Z.to_nat i) b) /\
       (~ denoted_by (Z.of_nat ncol) l (i, Z.of_nat b) -> nth_error row b = Some unknown)).

  Lemma nth_error_app_last {B} (l : list B) x r y : nth_error (l ++ [x]) r = Some y ->
    (r = List.length l /\ y = x) \/ (r < List.length l)%nat /\ nth_error l r = Some y.
  Proof.
    intro H. destruct (Nat.lt_ge_cases r (List.length l)) as [L|L].
    - right. split; auto. now rewrite nth_error_app1 in H.
    - left. rewrite nth_error_app2 in H by auto. destruct (r - List.length l)%nat eqn:E; simpl in H.
      + split; [lia|congruence].
      + destruct n; discriminate.
  Qed.

  Lemma glm_step_inv l st x : glm_inv l st -> item_ok x ->
    exists st', glm_step data (Z.of_nat ncol) unknown st x = Ok st' /\ glm_inv (l ++ [x]) st'.
  Proof.
    intros (I1 & I2 & I3) Hx. destruct (glm_labels_spec x Hx) as (labs & El & Rl & Dl).
    pose proof Hx as (N & Hi & Sx).
    assert (E : glm_step data (Z.of_nat ncol) unknown st x =
      match zindex (ins_of x) (snd st) with
      | None => Ok (fst st ++ [copy_cells (nth (Z.to_nat (ins_of x)) data []) labs (repeat unknown ncol)], snd st ++ [ins_of x])
      | Some r => Ok (set_nth r (copy_cells (nth (Z.to_nat (ins_of x)) data []) labs (nth r (fst st) [])) (fst st), snd st)
      end).
    { unfold glm_step. rewrite El, py_index_in by auto. replace (ins_of x <? Z.of_nat (List.length data)) with true by lia.
      cbn [negb bind]. rewrite Nat2Z.id. destruct x; simpl in N; try contradiction; reflexivity. }
    rewrite E. clear E.
    set (src := nth (Z.to_nat (ins_of x)) data []).
    assert (Hsrc : nth_error data (Z.to_nat (ins_of x)) = Some src) by (apply nth_error_nth'; lia).
    assert (Lsrc : List.length src = ncol) by (apply Hshape; now apply nth_error_In in Hsrc).
    assert (Keep : forall i b, i <> ins_of x -> (denoted_by (Z.of_nat ncol) (l ++ [x]) (i, b) <-> denoted_by (Z.of_nat ncol) l (i, b))).
    { intros i b Hn. rewrite denoted_by_snoc. split; auto. intros [|D]; auto. apply denotes_ins in D. simpl in D. congruence. }
    destruct (zindex (ins_of x) (snd st)) as [r|] eqn:Z.
    - apply zindex_some in Z. destruct Z as [Zr Zf].
      assert (Mem : zmem (ins_of x) (map ins_of l) = true).
      { apply zmem_in. apply first_occ_in. rewrite <- I1. now apply nth_error_In in Zr. }
      eexists. split; [reflexivity|]. split; [|split].
      + cbn [snd]. rewrite map_app. simpl. now rewrite first_occ_snoc, Mem.
      + cbn [fst snd]. now rewrite set_nth_length.
      + cbn [fst snd]. intros q i row Hq Hrow. rewrite nth_error_set_nth in Hrow.
        assert (Hrl : (r < List.length (fst st))%nat).
        { rewrite I2. apply nth_error_Some. congruence. }
        destruct (Nat.eqb_spec q r) as [->|Hqr].
        * replace (Nat.ltb r (List.length (fst st))) with true in Hrow by (symmetry; now apply Nat.ltb_lt).
          injection Hrow as <-. assert (i = ins_of x) by congruence. subst i.
          assert (Hold : nth_error (fst st) r = Some (nth r (fst st) [])) by (now apply nth_error_nth').
          destruct (I3 r (ins_of x) _ Zr Hold) as [Lo Io]. split; [now rewrite copy_cells_length|].
          intros b Hb. rewrite (copy_cells_spec src labs Rl Lsrc _ Lo). rewrite denoted_by_snoc, <- Dl.
          destruct (zmem (Z.of_nat b) labs) eqn:Zm.
          -- apply zmem_in in Zm. split; [intros _|tauto]. unfold cell. now rewrite Hsrc.
          -- apply zmem_not in Zm. destruct (Io b Hb) as [Io1 Io2]. split; intro D; [apply Io1|apply Io2]; tauto.
        * assert (Hn : i <> ins_of x).
          { intros ->. rewrite I1 in Hq, Zr. apply Hqr.
            eapply (proj1 (NoDup_nth_error (first_occ (map ins_of l)))); [apply first_occ_NoDup| |congruence].
            apply nth_error_Some. congruence. }
          destruct (I3 q i row Hq Hrow) as [Lo Io]. split; auto. intros b Hb. rewrite Keep by auto. now apply Io.
    - apply zindex_none in Z.
      assert (Mem : zmem (ins_of x) (map ins_of l) = false).
      { apply zmem_not. rewrite <- first_occ_in, <- I1. exact Z. }
      eexists. split; [reflexivity|]. split; [|split].
      + cbn [snd]. rewrite map_app. simpl. rewrite first_occ_snoc, Mem. now rewrite I1.
      + cbn [fst snd]. rewrite !app_length. simpl. lia.
      + cbn [fst snd]. intros q i row Hq Hrow. apply nth_error_app_last in Hq.
        destruct Hq as [[Hq1 Hq2]|[Hq1 Hq2]].
        * subst i q. rewrite <- I2 in Hrow. rewrite nth_error_app2, Nat.sub_diag in Hrow by lia. simpl in Hrow.
          injection Hrow as <-. split; [now rewrite copy_cells_length, repeat_length|].
          intros b Hb. rewrite (copy_cells_spec src labs Rl Lsrc) by (apply repeat_length).
          rewrite denoted_by_snoc, <- Dl.
          assert (Nold : ~ denoted_by (Z.of_nat ncol) l (ins_of x, Z.of_nat b)).
          { intros (y & Hy & D). apply denotes_ins in D. simpl in D. apply zmem_not in Mem. apply Mem.
            apply in_map_iff. exists y. auto. }
          destruct (zmem (Z.of_nat b) labs) eqn:Zm.
          -- apply zmem_in in Zm. split; [intros _|tauto]. unfold cell. now rewrite Hsrc.
          -- apply zmem_not in Zm. split; [tauto|]. intros _. rewrite nth_error_repeat.
             replace (Nat.ltb b ncol) with true by (symmetry; now apply Nat.ltb_lt). reflexivity.
        * assert (Hn : i <> ins_of x).
          { intros ->. apply Z. now apply nth_error_In in Hq2. }
          rewrite nth_error_app1 in Hrow by lia.
          destruct (I3 q i row Hq2 Hrow) as [Lo Io]. split; auto. intros b Hb. rewrite Keep by auto. now apply Io.
  Qed.

  Lemma glm_loop_inv ks : forall l st, glm_inv l st -> Forall item_ok ks ->
    exists st', glm_loop data (Z.of_nat ncol) unknown st ks = Ok st' /\ glm_inv (l ++ ks) st'.
  Proof.
    induction ks as [|k ks IH]; intros l st I F; simpl.
    - exists st. now rewrite app_nil_r.
    - inversion F as [|? ? Fk Fks]; subst. destruct (glm_step_inv l st k I Fk) as (st1 & E1 & I1).
      rewrite E1. cbn [bind]. destruct (IH (l ++ [k]) st1 I1 Fks) as (st2 & E2 & I2).
      exists st2. split; auto. now rewrite <- app_assoc in I2.
  Qed.

  Lemma glm_reject ks : (exists x, In x ks /\
      (match x with ILong _ _ => True | _ => False end \/ Z.of_nat (List.length data) <= ins_of x \/
       scalar_ok (Z.of_nat ncol) x = false)) ->
    forall st, exists e, glm_loop data (Z.of_nat ncol) unknown st ks = Err e.
  Proof.
    induction ks as [|k ks IH]; intros (x & Hx & Hb) st; [destruct Hx|]. simpl.
    destruct (glm_step data (Z.of_nat ncol) unknown st k) as [st'|e] eqn:E; [|simpl; eauto].
    simpl. destruct Hx as [->|Hx]; [|apply IH; eauto]. exfalso.
    unfold glm_step in E. destruct x as [i|i j|i js|i js|i j]; simpl in *; try discriminate.
    - destruct Hb as [[]|[Hb|Hb]]; [|discriminate]. replace (i <? Z.of_nat (List.length data)) with false in E by lia. discriminate.
    - destruct (i <? Z.of_nat (List.length data)) eqn:L; [|discriminate]. simpl in E.
      destruct Hb as [[]|[Hb|Hb]]; [lia|]. rewrite Hb in E. discriminate.
    - destruct Hb as [[]|[Hb|Hb]]; [|discriminate]. replace (i <? Z.of_nat (List.length data)) with false in E by lia. discriminate.
    - destruct Hb as [[]|[Hb|Hb]]; [|discriminate]. replace (i <? Z.of_nat (List.length data)) with false in E by lia. discriminate.
  Qed.
End Extraction.

(** *** Mapping *)
Lemma zindex_pos x l : In x l -> exists p, zindex x l = Some p /\ nth_error l p = Some x.
Proof.
  intro H. destruct (zindex x l) as [p|] eqn:E.
  - exists p. split; auto. now apply zindex_some in E.
  - apply zindex_none in E. contradiction.
Qed.

Lemma mapM_err {A B} (f : A -> res B) l : (exists x e, In x l /\ f x = Err e) -> exists e, mapM f l = Err e.
Proof.
  induction l as [|y l IH]; intros (x & e & Hx & E); [destruct Hx|]. simpl.
  destruct Hx as [->|Hx].
  - rewrite E. simpl. eauto.
  - destruct (f y); simpl; eauto. destruct IH as [e' E']; eauto. rewrite E'. simpl. eauto.
Qed.

Lemma map_ic_lemma train c : NoDup train -> (forall k, In k (elems c) -> exists x, k = KInt x /\ In x train) ->
  exists c', map_to_train_ic (NdArray train) c = Ok c' /\
  NoDup (elems c') /\
  forall k, In k (elems c') <-> exists p x, k = KInt (Z.of_nat p) /\ nth_error train p = Some x /\ In (KInt x) (elems c).
Proof.
  intros N H. unfold map_to_train_ic.
  set (g := fun v => match norm v with
                     | KInt x => match zindex x train with Some p => Z.of_nat p | None => 0 end
                     | KStr _ => 0 end).
  rewrite (mapM_ok _ g).
  2:{ intros v Hv. destruct (H (norm v)) as (x & E & Hx); [now apply in_map|]. unfold g. rewrite E. simpl train_vals.
      replace (zmem x train) with true by (symmetry; now apply zmem_in). simpl.
      destruct (zindex_pos x train Hx) as (p & Ep & _). now rewrite Ep. }
  cbn [bind]. eexists. split; [reflexivity|]. set (l := map (fun p => VNp (KInt p)) (map g (cont c))).
  split; [apply WF_init_list|]. intro k.
  assert (E : In k (elems (fst (ic_init (DList l)))) <-> In k (map norm l)).
  { destruct l as [|v l0] eqn:El; [simpl; tauto|]. rewrite ic_init_list by discriminate. rewrite np_unique_in.
    rewrite np_asarray_homog; [reflexivity|]. rewrite <- El. intros a b Ha Hb. unfold l in Ha, Hb.
    apply in_map_iff in Ha. apply in_map_iff in Hb. destruct Ha as (pa & <- & _), Hb as (pb & <- & _). reflexivity. }
  rewrite E. unfold l. rewrite !map_map. simpl. rewrite in_map_iff. split.
  - intros (v & <- & Hv). destruct (H (norm v)) as (x & Ev & Hx); [now apply in_map|].
    destruct (zindex_pos x train Hx) as (p & Ep & Np). exists p, x. unfold g. rewrite Ev, Ep. repeat split; auto.
    rewrite <- Ev. now apply in_map.
  - intros (p & x & -> & Np & Hx). unfold elems in Hx. apply in_map_iff in Hx. destruct Hx as (v & Ev & Hv).
    exists v. split; auto. unfold g. rewrite Ev.
    destruct (zindex_pos x train) as (q & Eq & Nq); [now apply nth_error_In in Np|]. rewrite Eq. do 2 f_equal.
    eapply (proj1 (NoDup_nth_error train)); eauto; [apply nth_error_Some|]; congruence.
Qed.

Lemma map_ic_reject t c : (exists k, In k (elems c) /\ forall x, k = KInt x -> ~ In x (train_vals t)) ->
  exists e, map_to_train_ic t c = Err e.
Proof.
  intros (k & Hk & Hn). unfold elems in Hk. apply in_map_iff in Hk. destruct Hk as (v & Ev & Hv).
  unfold map_to_train_ic.
  match goal with |- context [mapM ?f ?l] => destruct (mapM_err f l) as [e Ee] end.
  { exists v, AssertErr. split; auto. rewrite Ev. destruct k as [x|s]; auto.
    specialize (Hn x eq_refl). apply zmem_not in Hn. now rewrite Hn. }
  rewrite Ee. simpl. eauto.
Qed.

Lemma map_ic_pylist train c v x : In v (cont c) -> v = VKey (KInt x) ->
  exists e, map_to_train_ic (PyList train) c = Err e.
Proof.
  intros Hv ->. unfold map_to_train_ic.
  match goal with |- context [mapM ?f ?l] => destruct (mapM_err f l) as [e Ee] end.
  { exists (VKey (KInt x)), (if zmem x train then IndexErr else AssertErr). split; auto. simpl.
    destruct (zmem x train); reflexivity. }
  rewrite Ee. simpl. eauto.
Qed.

Lemma mapM_map_ok {A B C} (f : B -> res C) (h : A -> B) (g : A -> C) l :
  (forall x, In x l -> f (h x) = Ok (g x)) -> mapM f (map h l) = Ok (map g l).
Proof.
  induction l as [|x l IH]; intro H; [reflexivity|]. simpl. rewrite H by now left. simpl.
  now rewrite IH by (intros; apply H; now right).
Qed.

Lemma map_ml_lemma m train native c : ml_reachable m c -> mcont c <> [] -> NoDup train ->
  (forall p, In p (pairs c) -> In (fst p) train) ->
  exists c' w m', map_to_train_ml (NdArray train) native c = Ok (c', w) /\ ml_reachable m' c' /\
  (forall q, In q (pairs c') <-> exists i, In (i, snd q) (pairs c) /\ 0 <= fst q /\ nth_error train (Z.to_nat (fst q)) = Some i) /\
  (exists p, In p (pairs c) /\ snd p = m' - 1) /\ (forall p, In p (pairs c) -> snd p < m').
Proof.
  intros R Hne N H. pose proof (reachable_good m c R) as G. pose proof G as (_ & _ & _ & F & _).
  unfold map_to_train_ml.
  set (pos := fun i => match zindex i train with Some p => Z.of_nat p | None => 0 end).
  assert (E : mapM (fun x => if zmem (ins_of x) (train_vals (NdArray train))
                       then p <- argwhere0 (NdArray train) native (ins_of x) ;;
                            Ok (match x with IPair _ j => IPair p j | IManyT _ js => IManyT p js | other => other end)
                       else Err AssertErr) (mcont c) = Ok (map pair_idx (map (fun p => (pos (fst p), snd p)) (pairs c)))).
  { rewrite (pairs_map m c F) at 1. rewrite map_map. apply mapM_map_ok. intros [i j] Hp. cbn [pair_idx fst snd ins_of].
    specialize (H _ Hp). cbn [fst] in H. destruct (zindex_pos i train H) as (p & Ep & _).
    cbn [train_vals]. replace (zmem i train) with true by (symmetry; now apply zmem_in).
    unfold argwhere0, pos. cbn [train_vals]. rewrite Ep. destruct native; reflexivity. }
  rewrite E. cbn [bind].
  set (qs := map (fun p => (pos (fst p), snd p)) (pairs c)).
  assert (Pne : pairs c <> []).
  { intro X. apply Hne. rewrite (pairs_map m c F), X. reflexivity. }
  assert (Qne : qs <> []) by (intro X; apply Pne; now apply map_eq_nil in X).
  assert (Ql : forall x, In x (map pair_idx qs) -> match x with IOne _ | IPair _ _ => True | _ => False end).
  { intros x Hx. apply in_map_iff in Hx. destruct Hx as (q & <- & _). exact I. }
  assert (M' : exists m', infer_label_size false (map pair_idx qs) = Ok m').
  { unfold infer_label_size. cbn [bind].
    assert (X : existsb len_is_2 (map pair_idx qs) = true).
    { destruct qs; [congruence|reflexivity]. }
    rewrite X. unfold np_max_seconds.
    assert (S : seconds (map pair_idx qs) = map inl (map snd qs)).
    { clear. induction qs as [|q qs IH]; simpl; auto. unfold seconds in *. now rewrite IH. }
    rewrite S.
    assert (A : flat_map (fun a : Z + list Z => match a with inl j => [j] | inr _ => [] end) (map inl (map snd qs)) = map snd qs).
    { clear. induction (map snd qs); simpl; congruence. }
    assert (B : flat_map (fun a : Z + list Z => match a with inl _ => [] | inr js => [List.length js] end) (map inl (map snd qs)) = []).
    { clear. induction (map snd qs); simpl; congruence. }
    rewrite A, B. destruct qs as [|q qs]; [congruence|]. simpl. eauto. }
  destruct M' as [m' Em]. pose proof Em as Em'. apply infer_pairs in Em'; auto. destruct Em' as [(i0 & j0 & Hm1 & Hm2) Hm3].
  assert (Qs : forall q, In q qs <-> In (pair_idx q) (map pair_idx qs)).
  { intro q. rewrite in_map_iff. split; [eauto|]. intros (q' & Eq & Hq). apply pair_idx_inj in Eq. now subst. }
  assert (Qlt : forall q, In q qs -> snd q < m').
  { intros [a b] Hq. apply Qs in Hq. exact (Hm3 _ _ Hq). }
  assert (Qmax : exists q, In q qs /\ snd q = m' - 1).
  { exists (i0, j0). split; [now apply Qs|]. simpl. lia. }
  assert (Qnn : forall q, In q qs -> 0 <= snd q).
  { intros q Hq. unfold qs in Hq. apply in_map_iff in Hq. destruct Hq as (p & <- & Hp). simpl.
    apply (good_range m c p G Hp). }
  assert (Hm' : 0 < m').
  { destruct Qmax as (q & Hq & Eq). specialize (Qnn q Hq). lia. }
  assert (I0 : exists c' w, ml_init (MList (map pair_idx qs)) None = Ok (c', w)).
  { destruct qs as [|q qs']; [congruence|]. simpl map. unfold ml_init.
    change (pair_idx q :: map pair_idx qs') with (map pair_idx (q :: qs')). rewrite Em. cbn [bind].
    rewrite flatten_spec. replace (0 <? m') with true by lia. simpl map at 1.
    assert (Sc : forallb (scalar_ok m') (map pair_idx (q :: qs')) = true).
    { apply forallb_forall. intros x Hx. apply in_map_iff in Hx. destruct Hx as (q0 & <- & Hq).
      specialize (Qlt _ Hq). specialize (Qnn _ Hq). destruct q0; simpl in *. lia. }
    rewrite Sc. cbn. eauto. }
  destruct I0 as (c' & w & E0). exists c', w, m'. split; auto.
  assert (Mne : map pair_idx qs <> []) by (intro X; apply map_eq_nil in X; contradiction).
  destruct (init_list_spec (map pair_idx qs) None c' w Mne E0) as (m'' & A & B & C & D & I & _).
  assert (m'' = m') by congruence. subst m''.
  split; [eapply mr_list; eauto|]. rewrite flat_map_pair in I. split; [|split].
  - intros [a b]. simpl. specialize (I (a, b)). unfold set_of in I. rewrite I. unfold qs. rewrite in_map_iff. split.
    + intros ([i j] & Eq & Hp). simpl in Eq. injection Eq as <- <-. exists i. split; auto.
      destruct (zindex_pos i train (H _ Hp)) as (p & Ep & Np). unfold pos. rewrite Ep, Nat2Z.id. split; [lia|auto].
    + intros (i & Hp & Ha & Np). exists (i, b). split; auto. simpl.
      destruct (zindex_pos i train (H _ Hp)) as (p & Ep & Np'). unfold pos. rewrite Ep. f_equal.
      assert (p = Z.to_nat a); [|lia].
      eapply (proj1 (NoDup_nth_error train)); eauto; [apply nth_error_Some|]; congruence.
  - destruct Qmax as (q & Hq & Eq). unfold qs in Hq. apply in_map_iff in Hq. destruct Hq as (p & <- & Hp). eauto.
  - intros p Hp. apply (Qlt (pos (fst p), snd p)). unfold qs. apply in_map_iff. eauto.
Qed.
