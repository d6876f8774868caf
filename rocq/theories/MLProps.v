(** Properties C05-C11: multi-label index collections and the functions around them. *)
From Verif Require Import Base IndexModel IndexSpec IndexProofs MLModel MLSpec MLProofs MLProofs2 MLProofs3.
Local Open Scope Z_scope.

(** ** C05 *)

(** One call. No duplicates, every stored label in range, exactly the calls of [accepts] succeed, a
    failed call has no effect, and the pairs are the set result of the expanded requests. *)
Theorem C05_one_call : forall m c o, ml_reachable m c -> plain o ->
  let r := ml_step c o in
  NoDup (pairs (fst r)) /\
  (forall p, In p (pairs (fst r)) -> 0 <= snd p < m) /\
  (accepts m o = true <-> exists w, snd r = Ok w) /\
  (accepts m o = false -> fst r = c) /\
  (forall p, In p (pairs (fst r)) <-> set_after (fun q => In q (pairs c)) (effects m o) p).
Proof. exact C05_step_lemma. Qed.
Print Assumptions C05_one_call.

(** Any history of calls. *)
Theorem C05_history : forall m c h, ml_reachable m c -> Forall plain h ->
  NoDup (pairs (ml_run c h)) /\
  (forall p, In p (pairs (ml_run c h)) -> 0 <= snd p < m) /\
  (forall p, In p (pairs (ml_run c h)) <->
             set_after (fun q => In q (pairs c)) (flat_map (effects m) h) p).
Proof. exact C05_history_lemma. Qed.
Print Assumptions C05_history.

Example C05_history_applies :
  let c := {| mcont := []; is_set := true; lsize := Some 3 |} in
  let h := [MAdd (IOne 5); MDiscard (IPair 5 1); MUpdate [IManyL 6 [0; 7; 2]; IPair 5 1; IPair 5 1];
            MAdd (IPair 6 3); MDiff [IOne 5]] in
  ml_reachable 3 c /\ Forall plain h /\ pairs (ml_run c h) = [(6, 0); (6, 2)].
Proof. cbn zeta. split; [constructor; lia|]. split; [repeat constructor; cbn; lia|]. reflexivity. Qed.

(** The stored elements are exactly the pairs (nothing but pairs is ever stored). *)
Theorem C05_only_pairs : forall m c, ml_reachable m c ->
  mcont c = map (fun p => IPair (fst p) (snd p)) (pairs c) /\ lsize c = Some m /\ 0 < m.
Proof.
  intros m c R. pose proof (reachable_good m c R) as (_ & G2 & G3 & G4 & _). split; auto.
  exact (pairs_map m c G4).
Qed.
Print Assumptions C05_only_pairs.

(** Construction from a list of indexes: which lists are accepted and what is stored. *)
Theorem C05_construction : forall l m, l <> [] -> 0 < m ->
  (forallb (scalar_ok m) l = true ->
   exists c w, ml_init (MList l) (Some m) = Ok (c, w) /\ ml_reachable m c /\
     NoDup (pairs c) /\ (forall p, In p (pairs c) <-> exists x, In x l /\ denotes m x p) /\
     (w = [] <-> NoDup (flat_map (denoted m) l))) /\
  (forallb (scalar_ok m) l = false -> ml_init (MList l) (Some m) = Err AssertErr).
Proof.
  intros l m Hl Hm. assert (L : ml_init (MList l) (Some m) =
    if forallb (scalar_ok m) l
    then (let s := dedup_idx (map pair_idx (flat_map (denoted m) l)) in
          Ok ({| mcont := s; is_set := true; lsize := Some m |},
              if Nat.eqb (List.length s) (List.length (flat_map (denoted m) l)) then [] else [WRepeat]))
    else Err AssertErr).
  { destruct l as [|x l]; [congruence|]. unfold ml_init. cbn [bind]. rewrite flatten_spec.
    replace (0 <? m) with true by lia. destruct (forallb (scalar_ok m) (x :: l)); reflexivity. }
  split; intro S; rewrite L, S; [|reflexivity]. rewrite S in L. cbn zeta in L |- *.
  eexists _, _. split; [reflexivity|].
  match goal with |- ml_reachable m ?c /\ _ => set (cc := c) in * end.
  destruct (init_list_spec l (Some m) _ _ Hl L) as (m' & A & B & C & D & I & W). subst m'.
  assert (R : ml_reachable m cc) by (eapply mr_list; eauto).
  split; auto. split; [apply pairs_NoDup; apply B|]. split.
  - intro p. specialize (I p). unfold set_of in I. rewrite I. apply flat_denoted_by. exact S.
  - rewrite W. pose proof (pairs_NoDup cc (proj2 (proj2 (proj2 (proj2 B))))) as N. split.
    + destruct (Nat.eqb_spec (List.length (pairs cc)) (List.length (flat_map (denoted m) l))) as [E|]; [|discriminate].
      intros _. eapply NoDup_incl_NoDup; [exact N|lia|]. intros p Hp. now apply I.
    + intro N'. assert (P : Permutation (pairs cc) (flat_map (denoted m) l)) by (apply NoDup_Permutation; auto).
      now rewrite (Permutation_length P), Nat.eqb_refl.
Qed.
Print Assumptions C05_construction.

(** A label at or above the label size is rejected by [add], by [update] and by [difference_update],
    without effect. *)
Theorem C05_upper_bound : forall m c i j, ml_reachable m c -> m <= j ->
  ml_add c (IPair i j) = (c, Err ValueErr) /\
  (forall l, In (IPair i j) l ->
     fst (ml_update true c l) = c /\ (exists e, snd (ml_update true c l) = Err e) /\
     fst (ml_difference_update true c l) = c /\ exists e, snd (ml_difference_update true c l) = Err e).
Proof.
  intros m c i j R Hj. pose proof (reachable_good m c R) as (_ & G2 & G3 & _). split.
  - unfold ml_add, ml_add2, ml_check. rewrite G2. cbn [existsb]. replace (j >=? m) with true by lia. reflexivity.
  - intros l Hl. unfold ml_update, ml_difference_update. rewrite G2, flatten_spec.
    assert (S : forallb (scalar_ok m) l = false).
    { destruct (forallb (scalar_ok m) l) eqn:E; auto. rewrite forallb_forall in E. specialize (E _ Hl).
      cbn in E. lia. }
    rewrite S. destruct l; [destruct Hl|]. destruct (0 <? m); cbn; repeat split; eauto.
Qed.
Print Assumptions C05_upper_bound.

(** The lower bound is not checked by [add]: a negative label is stored (index_collections.py
    330-336), although [update] with the same pair rejects it. *)
Theorem C05_negative_label_stored_refuted : forall m c i j, ml_reachable m c -> j < 0 ->
  snd (ml_add c (IPair i j)) = Ok [] /\ In (i, j) (pairs (fst (ml_add c (IPair i j)))) /\
  ml_update true c [IPair i j] = (c, Err AssertErr).
Proof.
  intros m c i j R Hj. pose proof (reachable_good m c R) as G. pose proof G as (G1 & G2 & G3 & G4 & G5).
  assert (M : idx_mem (IPair i j) (mcont c) = false).
  { apply idx_mem_not. intro H. rewrite Forall_forall in G4. specialize (G4 _ H). cbn in G4. lia. }
  unfold ml_add, ml_add2, ml_check, ml_insert. rewrite G2. cbn [existsb].
  replace (j >=? m) with false by lia. cbn [orb]. rewrite M, G1. cbn [fst snd]. split; auto. split.
  - apply in_pairs. cbn. apply in_or_app. right. now left.
  - unfold ml_update. rewrite G2, flatten_spec. replace (0 <? m) with true by lia. cbn.
    replace ((0 <=? j) && (j <? m)) with false by lia. reflexivity.
Qed.
Print Assumptions C05_negative_label_stored_refuted.

(** [add] of (i, (j1, ..., jk)) does not add the k pairs: it stores one opaque element, and none of
    the pairs becomes present. *)
Theorem C05_add_label_tuple_refuted : forall m c i js, ml_reachable m c ->
  (forall j, In j js -> j < m) ->
  snd (ml_add c (IManyT i js)) = Ok [] /\
  mcont (fst (ml_add c (IManyT i js))) = mcont c ++ [IManyT i js] /\
  pairs (fst (ml_add c (IManyT i js))) = pairs c.
Proof.
  intros m c i js R Hj. pose proof (reachable_good m c R) as G. pose proof G as (G1 & G2 & G3 & G4 & G5).
  assert (M : idx_mem (IManyT i js) (mcont c) = false).
  { apply idx_mem_not. intro H. rewrite Forall_forall in G4. now specialize (G4 _ H). }
  assert (X : existsb (fun j => j >=? m) js = false).
  { destruct (existsb (fun j => j >=? m) js) eqn:E; auto. apply existsb_exists in E. destruct E as (j & H1 & H2).
    specialize (Hj j H1). lia. }
  unfold ml_add, ml_add2, ml_check, ml_insert. rewrite G2, X, M, G1. cbn. repeat split; auto.
  unfold pairs. cbn. rewrite flat_map_app. cbn. now rewrite app_nil_r.
Qed.
Print Assumptions C05_add_label_tuple_refuted.

(** The copy constructor keeps the pairs and the label size of a non-empty collection, but the copy
    can no longer be changed: adding a new pair or discarding a present one raises. Copying an empty
    collection loses the label size. *)
Theorem C05_copy : forall m c, ml_reachable m c ->
  match mcont c with
  | [] => exists c', ml_init (MColl c) None = Ok (c', [WValidity]) /\ mcont c' = [] /\ lsize c' = None
  | _ => exists c', ml_init (MColl c) None = Ok (c', []) /\ pairs c' = pairs c /\ lsize c' = Some m /\
         (forall i j, 0 <= j < m -> ~ In (i, j) (pairs c) -> ml_add c' (IPair i j) = (c', Err AttrErr)) /\
         (forall i j, In (i, j) (pairs c) -> ml_discard c' (IPair i j) = (c', Err AttrErr))
  end.
Proof.
  intros m c R. pose proof (reachable_good m c R) as (G1 & G2 & G3 & G4 & G5).
  destruct (mcont c) as [|x l] eqn:E.
  - eexists. unfold ml_init. rewrite E. repeat split; reflexivity.
  - eexists. unfold ml_init. rewrite E. split; [reflexivity|]. split; [unfold pairs; cbn; now rewrite E|].
    split; [exact G2|]. split.
    + intros i j Hj Hn. unfold ml_add, ml_add2, ml_check, ml_insert. cbn [lsize mcont is_set]. rewrite G2.
      cbn [existsb]. replace (j >=? m) with false by lia. cbn [orb].
      replace (idx_mem (IPair i j) (x :: l)) with false; auto. symmetry. apply idx_mem_not. rewrite <- E.
      intro H. apply Hn. now apply in_pairs.
    + intros i j Hp. unfold ml_discard, ml_discard2. cbn [mcont is_set].
      replace (idx_mem (IPair i j) (x :: l)) with true; auto. symmetry. apply idx_mem_in. rewrite <- E.
      now apply in_pairs.
Qed.
Print Assumptions C05_copy.

(** ** C06 *)

(** Flattening: the exact result, in order, and the exact rejections. *)
Theorem C06_flatten : forall chk m l,
  flatten_idx chk (Some m) l =
    if (match l with [] => chk | _ => false end) then Err TypeErr
    else if (0 <? m) && forallb (scalar_ok m) l then Ok (flat_map (denoted m) l) else Err AssertErr.
Proof.
  intros. rewrite flatten_spec. destruct (match l with [] => chk | _ => false end); auto.
  destruct (0 <? m); reflexivity.
Qed.
Print Assumptions C06_flatten.

(** The flattened pairs are exactly the denoted ones. *)
Theorem C06_flatten_denotes : forall chk m l ps, flatten_idx chk (Some m) l = Ok ps ->
  forall p, In p ps <-> exists x, In x l /\ denotes m x p.
Proof.
  intros chk m l ps. rewrite flatten_spec. destruct (match l with [] => chk | _ => false end); [discriminate|].
  destruct (0 <? m); [|discriminate]. destruct (forallb (scalar_ok m) l) eqn:S; [|discriminate].
  intro E. injection E as <-. intro p. apply flat_denoted_by. exact S.
Qed.
Print Assumptions C06_flatten_denotes.

(** Integration: one entry per instance in order of first appearance, same pairs, (i,) exactly for
    instances with all labels. *)
Theorem C06_integrate : forall chk m l, 0 < m -> (chk = true -> l <> []) -> forallb (labels_ok m) l = true ->
  exists r, integrate_idx chk (Some m) l = Ok r /\
  map ins_of r = first_occ (map ins_of l) /\
  (forall p, denoted_by m r p <-> denoted_by m l p) /\
  (forall i, In (IOne i) r <-> In i (map ins_of l) /\ forall j, 0 <= j < m -> denoted_by m l (i, j)) /\
  (forall x, In x r -> match x with
                       | IOne _ => True
                       | IManyT i js => NoDup js /\ forall j, In j js <-> denoted_by m l (i, j)
                       | _ => False end).
Proof. exact integrate_spec. Qed.
Print Assumptions C06_integrate.

(** Flattening the integrated list gives every denoted pair exactly once. *)
Theorem C06_flatten_integrate : forall chk chk' m l r, 0 < m -> (chk = true -> l <> []) ->
  forallb (labels_ok m) l = true -> integrate_idx chk (Some m) l = Ok r -> l <> [] ->
  exists ps, flatten_idx chk' (Some m) r = Ok ps /\ NoDup ps /\ forall p, In p ps <-> denoted_by m l p.
Proof. exact flatten_integrated. Qed.
Print Assumptions C06_flatten_integrate.

Example C06_applies :
  let l := [IPair 4 1; IManyL 2 [1; 0]; IOne 7; IPair 4 0] in
  forallb (labels_ok 2) l = true /\ integrate_idx true (Some 2) l = Ok [IOne 4; IOne 2; IOne 7] /\
  flatten_idx true (Some 2) l = Ok [(4, 1); (2, 1); (2, 0); (7, 0); (7, 1); (4, 0)].
Proof. repeat split. Qed.

(** The in-range hypothesis is needed: integration counts labels without looking at their range, so
    out-of-range labels can turn a partially covered instance into a fully covered one. *)
Theorem C06_integrate_out_of_range_refuted : forall i, exists l,
  flatten_idx true (Some 2) l = Ok [(i, 0)] /\ integrate_idx true (Some 2) l = Ok [IOne i].
Proof.
  intro i. exists [IManyL i [0; 5]]. split; [reflexivity|]. cbn. reflexivity.
Qed.
Print Assumptions C06_integrate_out_of_range_refuted.

(** A list of fully specified (i,) and single-label (i, j) indexes gives the label size max j + 1. *)
Theorem C06_inferred_label_size : forall chk l m,
  (forall x, In x l -> match x with IOne _ | IPair _ _ => True | _ => False end) ->
  (infer_label_size chk l = Ok m <->
   (exists i j, In (IPair i j) l /\ m = j + 1) /\ (forall i j, In (IPair i j) l -> j < m)).
Proof. exact infer_pairs. Qed.
Print Assumptions C06_inferred_label_size.

(** ** C07 *)
Theorem C07_onedim : forall m c n o, ml_reachable m c -> o <> OrdBad ->
  (forall p, In p (pairs c) -> 0 <= fst p < n) ->
  exists a, ml_onedim c o (Some n) = Ok a /\
    a = map (fun p => match o with OrdC => fst p * m + snd p | _ => fst p + snd p * n end) (pairs c) /\
    NoDup a /\ (forall x, In x a -> 0 <= x < n * m).
Proof. exact onedim_lemma. Qed.
Print Assumptions C07_onedim.

(** Reading back: the pairs, and the one-dimensional indexes again. *)
Theorem C07_construct : forall n m o a, 0 < n -> 0 < m -> o <> OrdBad ->
  (forall x, In x a -> 0 <= x < n * m) ->
  exists c w, ml_construct_1d a n m o = Ok (c, w) /\ ml_reachable m c /\
    (forall p, In p (pairs c) <-> 0 <= fst p < n /\ 0 <= snd p < m /\
       In (match o with OrdC => fst p * m + snd p | _ => fst p + snd p * n end) a) /\
    (exists b, ml_onedim c o (Some n) = Ok b /\ NoDup b /\ forall x, In x b <-> In x a).
Proof. exact construct_1d_lemma. Qed.
Print Assumptions C07_construct.

(** The two conversions composed in the other direction. *)
Theorem C07_roundtrip : forall m c n o a, ml_reachable m c -> o <> OrdBad -> 0 < n ->
  (forall p, In p (pairs c) -> 0 <= fst p < n) -> ml_onedim c o (Some n) = Ok a ->
  exists c', ml_construct_1d a n m o = Ok (c', []) /\ forall p, In p (pairs c') <-> In p (pairs c).
Proof.
  intros m c n o a R Ho Hn Hr E. pose proof (reachable_good m c R) as G. pose proof G as (_ & _ & Hm & _ & _).
  destruct (onedim_lemma m c n o R Ho Hr) as (a' & E' & D & N & B).
  rewrite E' in E. injection E as <-.
  assert (X : mapM (unravel n m o) a' = Ok (pairs c)).
  { rewrite D. rewrite (mapM_map_ok (unravel n m o) _ (fun p => p)); [now rewrite map_id|].
    intros p Hp. apply (unravel_one_dim o n m p Ho (Hr p Hp)). now apply (good_range m c). }
  unfold ml_construct_1d. rewrite X. cbn [bind].
  destruct (init_pairs m (pairs c) Hm) as (c' & w & Ei & Rc & I & W).
  { intros p Hp. now apply (good_range m c). }
  exists c'. rewrite Ei, (W (pairs_NoDup c (proj2 (proj2 (proj2 (proj2 G)))))). auto.
Qed.
Print Assumptions C07_roundtrip.

Theorem C07_out_of_range : forall n m o a, (exists x, In x a /\ ~ 0 <= x < n * m) ->
  ml_construct_1d a n m o = Err ValueErr.
Proof. exact construct_1d_reject. Qed.
Print Assumptions C07_out_of_range.

(** Order 'F' needs the number of instances; an unknown order is rejected. *)
Theorem C07_bad_arguments : forall c n, ml_onedim c OrdF None = Err ValueErr /\ ml_onedim c OrdBad n = Err ValueErr.
Proof. now split. Qed.
Print Assumptions C07_bad_arguments.

Example C07_applies :
  let c := {| mcont := [IPair 2 1; IPair 0 2]; is_set := true; lsize := Some 3 |} in
  ml_reachable 3 c /\ (forall p, In p (pairs c) -> 0 <= fst p < 4) /\
  ml_onedim c OrdF (Some 4) = Ok [6; 8] /\ ml_onedim c OrdC (Some 4) = Ok [7; 2].
Proof.
  cbn zeta. split; [|split; [|split; reflexivity]].
  - eapply (mr_list 3 [IPair 2 1; IPair 0 2] (Some 3) _ []); [discriminate|reflexivity|reflexivity].
  - cbn. intros p [<-|[<-|[]]]; cbn; lia.
Qed.

(** ** C08 *)
Theorem C08_dense_mask : forall m c n cols fill, ml_reachable m c ->
  (forall p, In p (pairs c) -> 0 <= fst p < Z.of_nat n /\ snd p < Z.of_nat cols) ->
  exists mat, ml_mask c n cols fill false = Ok mat /\ has_shape mat n cols /\
  forall a b, (a < n)%nat -> (b < cols)%nat ->
    (In (Z.of_nat a, Z.of_nat b) (pairs c) -> cell mat a b = Some fill) /\
    (~ In (Z.of_nat a, Z.of_nat b) (pairs c) -> cell mat a b = Some 0).
Proof. exact dense_mask_lemma. Qed.
Print Assumptions C08_dense_mask.

(** From a mask and back. [mask_ok] : a non-empty rectangular matrix of zeros and ones with at least
    one of each. *)
Theorem C08_mask_roundtrip : forall mat, mask_ok mat ->
  exists c, ml_construct_mask mat = Ok (c, []) /\
  (forall a b, In (a, b) (pairs c) <-> 0 <= a /\ 0 <= b /\ cell mat (Z.to_nat a) (Z.to_nat b) = Some 1) /\
  ml_mask c (List.length mat) (List.length (hd [] mat)) 1 false = Ok mat.
Proof. exact mask_roundtrip. Qed.
Print Assumptions C08_mask_roundtrip.

Theorem C08_mask_rejected : forall mat, ~ mask_ok mat -> ml_construct_mask mat = Err ValueErr.
Proof. exact mask_reject. Qed.
Print Assumptions C08_mask_rejected.

Example C08_applies : mask_ok [[0; 1; 0]; [1; 1; 0]] /\ ~ mask_ok [[1; 1]; [1; 1]] /\
  exists c, ml_construct_mask [[0; 1; 0]; [1; 1; 0]] = Ok (c, []) /\ pairs c = [(0, 1); (1, 0); (1, 1)].
Proof.
  split; [|split].
  - unfold mask_ok, has_shape. cbn. split; [discriminate|]. split; [split; auto; intuition; subst; auto|]. intuition.
  - unfold mask_ok. cbn. intuition; discriminate.
  - eexists. split; reflexivity.
Qed.

(** The default sparse mask is all zero whatever the collection holds. *)
Theorem C08_sparse_mask_refuted : forall c n m fill a b, (a < n)%nat -> (b < m)%nat ->
  exists mat, ml_mask c n m fill true = Ok mat /\ cell mat a b = Some 0.
Proof. intros. eexists. split; [reflexivity|]. now apply zeros_cell. Qed.
Print Assumptions C08_sparse_mask_refuted.

(** ** C09 *)
Theorem C09_labelmatrix : forall A (data : list (list A)) ncol unknown chk index,
  has_shape data (List.length data) ncol -> (chk = true -> index <> []) ->
  (forall x, In x index -> (forall i j, x <> ILong i j) /\ 0 <= ins_of x < Z.of_nat (List.length data) /\
                           scalar_ok (Z.of_nat ncol) x = true) ->
  exists mat ids, get_labelmatrix chk index data (Z.of_nat ncol) unknown = Ok (mat, ids) /\
  ids = first_occ (map ins_of index) /\ has_shape mat (List.length ids) ncol /\
  forall r i b, nth_error ids r = Some i -> (b < ncol)%nat ->
    (denoted_by (Z.of_nat ncol) index (i, Z.of_nat b) -> cell mat r b = cell data (Z.to_nat i) b) /\
    (~ denoted_by (Z.of_nat ncol) index (i, Z.of_nat b) -> cell mat r b = Some unknown).
Proof.
  intros A data ncol unknown chk index Hs Hc H.
  destruct (glm_loop_inv data ncol unknown Hs index [] ([], [])) as ([mat ids] & E & I1 & I2 & I3).
  - split; [reflexivity|]. split; [reflexivity|]. intros [|r] i row; discriminate.
  - apply Forall_forall. intros x Hx. destruct (H x Hx) as (H1 & H2 & H3). split; auto.
    destruct x; auto. now apply (H1 i j).
  - cbn [fst snd app] in *. exists mat, ids. split.
    { unfold get_labelmatrix. destruct chk; [|exact E].
      destruct index; [now specialize (Hc eq_refl)|exact E]. }
    split; auto. split.
    + split; auto. intros row Hr. apply In_nth_error in Hr. destruct Hr as [r Hr].
      destruct (nth_error ids r) as [i|] eqn:Ei; [now apply (I3 r i row)|].
      apply nth_error_None in Ei. assert (r < List.length mat)%nat by (apply nth_error_Some; congruence). lia.
    + intros r i b Hi Hb. unfold cell at 1 3.
      destruct (nth_error mat r) as [row|] eqn:Er.
      * now apply (I3 r i row).
      * apply nth_error_None in Er. assert (r < List.length ids)%nat by (apply nth_error_Some; congruence). lia.
Qed.
Print Assumptions C09_labelmatrix.

(** Rejections: a tuple of more than two elements, an instance beyond the matrix, a scalar label out of
    range. *)
Theorem C09_rejections : forall A (data : list (list A)) ncol unknown chk index x,
  In x index ->
  (exists i j, x = ILong i j) \/ Z.of_nat (List.length data) <= ins_of x \/ scalar_ok (Z.of_nat ncol) x = false ->
  exists e, get_labelmatrix chk index data (Z.of_nat ncol) unknown = Err e.
Proof.
  intros A data ncol unknown chk index x Hx Hb.
  destruct (glm_reject data ncol unknown index) with (st := (@nil (list A), @nil Z)) as [e E].
  { exists x. split; auto. destruct Hb as [(i & j & ->)|Hb]; auto. }
  unfold get_labelmatrix. destruct chk; cbn; [|eauto]. destruct index; cbn; eauto.
Qed.
Print Assumptions C09_rejections.

(** No index at all: an exception if the indexes are to be checked, an empty matrix otherwise. *)
Theorem C09_no_index : forall A (data : list (list A)) ncol unknown,
  get_labelmatrix true [] data ncol unknown = Err TypeErr /\ get_labelmatrix false [] data ncol unknown = Ok ([], []).
Proof. intros. split; reflexivity. Qed.
Print Assumptions C09_no_index.

(** [get_Xy_in_multilabel]: row r of the features is the row of the instance of row r of the labels. *)
Theorem C09_get_Xy : forall A B (X : list B) (y : list (list A)) ncol unknown chk index,
  has_shape y (List.length y) ncol -> (chk = true -> index <> []) -> List.length X = List.length y ->
  (forall x, In x index -> (forall i j, x <> ILong i j) /\ 0 <= ins_of x < Z.of_nat (List.length y) /\
                           scalar_ok (Z.of_nat ncol) x = true) ->
  exists xs mat ids, get_Xy chk index X y (Z.of_nat ncol) unknown = Ok (xs, mat, ids) /\
  get_labelmatrix chk index y (Z.of_nat ncol) unknown = Ok (mat, ids) /\
  List.length xs = List.length ids /\
  (forall r i, nth_error ids r = Some i -> nth_error xs r = nth_error X (Z.to_nat i)).
Proof.
  intros A B X y ncol unknown chk index Hs Hc HL H.
  destruct (C09_labelmatrix A y ncol unknown chk index Hs Hc H) as (mat & ids & E & Ei & _).
  unfold get_Xy. rewrite HL, Nat.eqb_refl. cbn [negb]. rewrite E. cbn [bind fst snd].
  assert (R : forall i, In i ids -> 0 <= i < Z.of_nat (List.length y)).
  { intros i Hi. subst ids. apply (proj1 (first_occ_in _ _)) in Hi. apply in_map_iff in Hi.
    destruct Hi as (x & <- & Hx). now apply H. }
  assert (Hmap : exists xs, mapM (fun i => match py_index (List.length y) i with
                         | Some p => py_nth X p | None => Err IndexErr end) ids = Ok xs /\
                 List.length xs = List.length ids /\
                 forall r i, nth_error ids r = Some i -> nth_error xs r = nth_error X (Z.to_nat i)).
  { clear E Ei. induction ids as [|i ids IH]; cbn.
    - exists []. repeat split; auto. intros [|r] i; discriminate.
    - rewrite py_index_in by (apply R; now left).
      destruct (nth_error X (Z.to_nat i)) as [v|] eqn:Ev.
      2:{ apply nth_error_None in Ev. specialize (R i (or_introl eq_refl)). lia. }
      unfold py_nth at 1. rewrite Ev. cbn. destruct IH as (xs & E1 & E2 & E3); [intros; apply R; now right|].
      rewrite E1. cbn. exists (v :: xs). split; auto. split; [cbn; now rewrite E2|].
      intros [|r] k Hk; cbn in *; [injection Hk as <-; now symmetry|]. now apply E3. }
  destruct Hmap as (xs & E1 & E2 & E3). rewrite E1. cbn. exists xs, mat, ids. auto.
Qed.
Print Assumptions C09_get_Xy.

Theorem C09_get_Xy_lengths : forall A B (X : list B) (y : list (list A)) ncol unknown chk index,
  List.length X <> List.length y -> get_Xy chk index X y ncol unknown = Err ValueErr.
Proof. intros. unfold get_Xy. apply Nat.eqb_neq in H. now rewrite H. Qed.
Print Assumptions C09_get_Xy_lengths.

Example C09_applies :
  get_labelmatrix true [IPair 1 0; IOne 0; IManyL 1 [2; 9]; IPair 1 0] [[1; 2; 3]; [4; 5; 6]] 3 (-1)
  = Ok ([[4; -1; 6]; [1; 2; 3]], [1; 0]) /\ has_shape [[1; 2; 3]; [4; 5; 6]] 2 3.
Proof. split; [reflexivity|]. split; [reflexivity|]. cbn. intuition; subst; reflexivity. Qed.

(** ** C10 *)
Theorem C10_instances : forall m c, ml_reachable m c ->
  exists u b, ml_unbroken c = Ok u /\ ml_broken c = Ok b /\
  (forall i, In i u <-> forall j, 0 <= j < m -> In (i, j) (pairs c)) /\
  (forall i, In i b <-> (exists j, In (i, j) (pairs c)) /\ exists j, 0 <= j < m /\ ~ In (i, j) (pairs c)) /\
  NoDup u /\ NoDup b /\ (forall i, In i u -> ~ In i b) /\
  (forall i, In i (ml_instance_index c) <-> exists j, In (i, j) (pairs c)) /\
  Permutation (u ++ b) (ml_instance_index c) /\ StronglySorted Z.lt (ml_instance_index c).
Proof. exact instances_lemma. Qed.
Print Assumptions C10_instances.

Example C10_applies :
  let c := {| mcont := [IPair 5 1; IPair 2 0; IPair 5 0]; is_set := true; lsize := Some 2 |} in
  ml_reachable 2 c /\ ml_unbroken c = Ok [5] /\ ml_broken c = Ok [2] /\ ml_instance_index c = [2; 5].
Proof.
  cbn zeta. split; [|repeat split].
  eapply (mr_list 2 [IPair 5 1; IPair 2 0; IPair 5 0] (Some 2) _ []); [discriminate|reflexivity|reflexivity].
Qed.

(** ** C11 *)
Theorem C11_instance_wise : forall train c, NoDup train ->
  (forall k, In k (elems c) -> exists x, k = KInt x /\ In x train) ->
  exists c', map_to_train_ic (NdArray train) c = Ok c' /\ NoDup (elems c') /\
  forall k, In k (elems c') <->
            exists p x, k = KInt (Z.of_nat p) /\ nth_error train p = Some x /\ In (KInt x) (elems c).
Proof. exact map_ic_lemma. Qed.
Print Assumptions C11_instance_wise.

Theorem C11_rejection : forall t c,
  (exists k, In k (elems c) /\ forall x, k = KInt x -> ~ In x (train_vals t)) ->
  exists e, map_to_train_ic t c = Err e.
Proof. exact map_ic_reject. Qed.
Print Assumptions C11_rejection.

(** Multi-label: positions replace instances, labels are kept; the label size becomes the largest
    label plus one. *)
Theorem C11_multi_label : forall m train native c, ml_reachable m c -> mcont c <> [] -> NoDup train ->
  (forall p, In p (pairs c) -> In (fst p) train) ->
  exists c' w m', map_to_train_ml (NdArray train) native c = Ok (c', w) /\ ml_reachable m' c' /\
  (forall q, In q (pairs c') <-> exists i, In (i, snd q) (pairs c) /\ 0 <= fst q /\
                                           nth_error train (Z.to_nat (fst q)) = Some i) /\
  (exists p, In p (pairs c) /\ snd p = m' - 1) /\ (forall p, In p (pairs c) -> snd p < m').
Proof. exact map_ml_lemma. Qed.
Print Assumptions C11_multi_label.

Theorem C11_label_size_refuted : exists m c c' w, ml_reachable m c /\
  map_to_train_ml (NdArray [10; 20]) true c = Ok (c', w) /\ lsize c = Some m /\ lsize c' <> Some m.
Proof.
  exists 5, {| mcont := [IPair 20 1]; is_set := true; lsize := Some 5 |}. eexists _, _. split; [|split; [reflexivity|split]].
  - eapply (mr_list 5 [IPair 20 1] (Some 5) _ []); [discriminate|reflexivity|reflexivity].
  - reflexivity.
  - discriminate.
Qed.
Print Assumptions C11_label_size_refuted.

(** A plain list [train_idx] (allowed by the documentation) with a native-int element always fails. *)
Theorem C11_plain_list_refuted : forall train c v x, In v (cont c) -> v = VKey (KInt x) ->
  exists e, map_to_train_ic (PyList train) c = Err e.
Proof. exact map_ic_pylist. Qed.
Print Assumptions C11_plain_list_refuted.

Example C11_applies :
  let c := fst (ic_init (DList [VKey (KInt 7); VKey (KInt 3)])) in
  (forall k, In k (elems c) -> exists x, k = KInt x /\ In x [9; 7; 3]) /\
  rmap elems (map_to_train_ic (NdArray [9; 7; 3]) c) = Ok [KInt 1; KInt 2].
Proof.
  cbn zeta. split; [|reflexivity]. cbn. intros k [<-|[<-|[]]]; eexists; split; try reflexivity; cbn; tauto.
Qed.
