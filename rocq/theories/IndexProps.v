(** Properties C01-C04: [IndexCollection] as an ordered, typed, duplicate-free set. *)
From Verif Require Import Base IndexModel IndexSpec IndexProofs.
From Coq Require Import String.
Local Open Scope Z_scope.

(** C01. After any construction and any history of well-typed calls, the collection holds no element
    twice, an element is present iff the last request about it was to put it in (or, if there was no
    such request, iff it was there initially), and no call raised. *)
Theorem C01_set_semantics : forall c T h,
  reachable c ->
  (forall o v, In o h -> In v (inserted o) -> acceptable c T v) ->
  NoDup (elems (ic_run c h)) /\
  (forall k, In k (elems (ic_run c h)) <->
             set_after (fun k => In k (elems c)) (flat_map requests h) k) /\
  (forall pre o post, h = pre ++ o :: post -> exists w, snd (ic_step (ic_run c pre) o) = Ok w).
Proof. exact C01_set_lemma. Qed.
Print Assumptions C01_set_semantics.

Example C01_set_semantics_applies :
  let c := fst (ic_init (DList [VKey (KInt 5); VKey (KInt 1); VKey (KInt 5)])) in
  let h := [OAdd (VKey (KInt 7)); ODiff [VKey (KInt 1); VKey (KInt 9)]; OUpdate [VNp (KInt 1); VKey (KInt 5)];
            ODiscard (VKey (KInt 5))] in
  reachable c /\ (forall o v, In o h -> In v (inserted o) -> acceptable c TInt v) /\
  elems (ic_run c h) = [KInt 7; KInt 1].
Proof.
  cbn zeta. repeat split.
  - apply reach_list.
  - cbn in H. destruct H as [<-|[<-|[<-|[<-|[]]]]]; cbn in H0; intuition; subst; reflexivity.
Qed.

(** C01. New elements go to the end, removal keeps the order of the others (any values, well- or
    ill-typed, any reachable collection). *)
Theorem C01_order_of_add : forall c v, reachable c ->
  elems (fst (ic_add c v)) =
    if andb (ty_eqb (key_ty (norm v)) (match etype c with Some t => t | None => type_of v end))
            (negb (existsb (key_eqb (norm v)) (elems c)))
    then elems c ++ [norm v] else elems c.
Proof.
  intros c v R. rewrite (elems_add c v (WF_reachable c R)). unfold ic_contains, elems, add_ty.
  enough (E : existsb (py_eq v) (cont c) = existsb (key_eqb (norm v)) (map norm (cont c))) by now rewrite E.
  generalize (cont c). intro l. induction l as [|x l IH]; simpl; auto. now rewrite IH.
Qed.
Print Assumptions C01_order_of_add.

Theorem C01_order_of_discard : forall c v, reachable c ->
  elems (fst (ic_discard c v)) = filter (fun k => negb (key_eqb k (norm v))) (elems c).
Proof. intros c v R. exact (elems_discard c v (WF_reachable c R)). Qed.
Print Assumptions C01_order_of_discard.

(** C01. [update]/[difference_update] are the calls one by one, up to and including the first
    failing one, for arbitrary values. *)
Theorem C01_update_one_by_one : forall c vs,
  match snd (ic_update c vs) with
  | Ok _ => fst (ic_update c vs) = ic_run c (map OAdd vs) /\
            (forall pre v post, vs = pre ++ v :: post -> call_ok (ic_run c (map OAdd pre)) (OAdd v))
  | Err e => exists pre v post, vs = pre ++ v :: post /\
             fst (ic_update c vs) = ic_run c (map OAdd (pre ++ [v])) /\
             snd (ic_add (ic_run c (map OAdd pre)) v) = Err e /\
             (forall p u q, pre = p ++ u :: q -> call_ok (ic_run c (map OAdd p)) (OAdd u))
  end.
Proof. intros c vs. exact (loop_run ic_add OAdd vs (fun _ _ => eq_refl) c). Qed.
Print Assumptions C01_update_one_by_one.

Theorem C01_difference_update_one_by_one : forall c vs,
  exists w, snd (ic_difference_update c vs) = Ok w /\
  fst (ic_difference_update c vs) = ic_run c (map ODiscard vs).
Proof.
  intros c vs. pose proof (loop_run ic_discard ODiscard vs (fun _ _ => eq_refl) c) as H.
  unfold ic_difference_update. destruct (ic_loop ic_discard c vs) as [c' [w|e]]; cbn [fst snd] in *.
  - exists w. split; [reflexivity|apply H].
  - exfalso. destruct H as (pre & v & post & _ & _ & E & _). cbn in E. unfold ic_discard in E.
    destruct (ic_contains v _) in E; discriminate.
Qed.
Print Assumptions C01_difference_update_one_by_one.

(** C01. [pop] returns and removes exactly the most recent element; an empty collection raises
    IndexError (the documentation says KeyError). *)
Theorem C01_pop : forall c, reachable c ->
  match ic_pop c with
  | (c', Ok x) => cont c = cont c' ++ [x] /\ etype c' = etype c /\
                  (forall k, In k (elems c') <-> In k (elems c) /\ k <> norm x)
  | (c', Err e) => e = IndexErr /\ c' = c /\ cont c = []
  end.
Proof. intros c R. exact (pop_spec c (WF_reachable c R)). Qed.
Print Assumptions C01_pop.

(** C02. Construction from a list of one element kind: same element set, strictly increasing, and a
    warning iff the list had repetitions. *)
Theorem C02_construction : forall l, l <> [] ->
  (forall v w, In v l -> In w l -> key_ty (norm v) = key_ty (norm w)) ->
  (forall k, In k (elems (fst (ic_init (DList l)))) <-> In k (map norm l)) /\
  StronglySorted key_lt (elems (fst (ic_init (DList l)))) /\
  snd (ic_init (DList l)) = (if ListDec.NoDup_dec key_dec (map norm l) then [] else [WRepeat]).
Proof. exact construct_lemma. Qed.
Print Assumptions C02_construction.

Example C02_construction_applies :
  let l := [VKey (KStr "b"); VKey (KStr "a"); VNp (KStr "b")] in
  l <> [] /\ (forall v w, In v l -> In w l -> key_ty (norm v) = key_ty (norm w)) /\
  elems (fst (ic_init (DList l))) = [KStr "a"; KStr "b"] /\ snd (ic_init (DList l)) = [WRepeat].
Proof.
  cbn zeta. repeat split; try discriminate.
  intros v w [<-|[<-|[<-|[]]]] [<-|[<-|[<-|[]]]]; reflexivity.
Qed.

(** C02. A list mixing ints and strs is silently converted to strs (numpy's coercion). *)
Theorem C02_construction_mixed : forall l,
  (exists v w, In v l /\ In w l /\ key_ty (norm v) <> key_ty (norm w)) ->
  (forall k, In k (elems (fst (ic_init (DList l)))) <->
             exists v, In v l /\ k = KStr (key_str (norm v))) /\
  StronglySorted key_lt (elems (fst (ic_init (DList l)))) /\
  etype (fst (ic_init (DList l))) = Some TStr.
Proof. exact construct_mixed_lemma. Qed.
Print Assumptions C02_construction_mixed.

Example C02_construction_mixed_applies :
  elems (fst (ic_init (DList [VKey (KInt 12); VKey (KStr "a")]))) = [KStr "12"; KStr "a"].
Proof. vm_compute. reflexivity. Qed.

(** C02. Empty construction and copying. *)
Theorem C02_empty_and_copy :
  elems (fst (ic_init DNone)) = [] /\ elems (fst (ic_init (DList []))) = [] /\
  etype (fst (ic_init DNone)) = None /\ etype (fst (ic_init (DList []))) = None /\
  (forall c, cont (fst (ic_init (DColl c))) = cont c /\ snd (ic_init (DColl c)) = [] /\
             (cont c <> [] -> etype (fst (ic_init (DColl c))) = etype c) /\
             (cont c = [] -> etype (fst (ic_init (DColl c))) = None)).
Proof.
  repeat split; simpl; destruct (cont c) eqn:E; simpl; auto; try congruence.
Qed.
Print Assumptions C02_empty_and_copy.

(** C03. Every reachable collection: no duplicates and all elements of the recorded type. *)
Theorem C03_homogeneous : forall c, reachable c ->
  NoDup (elems c) /\ (forall k, In k (elems c) -> etype c = Some (key_ty k)).
Proof. exact homogeneous_lemma. Qed.
Print Assumptions C03_homogeneous.

(** C03. Rejected or redundant calls change nothing. *)
Theorem C03_rejections : forall c v, reachable c ->
  ((exists t, etype c = Some t /\ t <> key_ty (norm v)) -> ic_add c v = (c, Err TypeErr)) /\
  (In (norm v) (elems c) -> ic_add c v = (c, Ok [WRepeat])) /\
  (~ In (norm v) (elems c) -> ic_discard c v = (c, Ok [WInexistent])) /\
  (In (norm v) (elems c) -> snd (ic_discard c v) = Ok []).
Proof.
  intros c v R. split; [|split; [|split]].
  - apply add_rejected.
  - exact (add_present c v (WF_reachable c R)).
  - apply discard_absent.
  - intro H. unfold ic_discard. apply contains_in in H. now rewrite H.
Qed.
Print Assumptions C03_rejections.

Example C03_rejections_applies :
  let c := fst (ic_init (DList [VKey (KInt 4)])) in
  reachable c /\ (exists t, etype c = Some t /\ t <> key_ty (norm (VKey (KStr "x")))) /\
  In (norm (VNp (KInt 4))) (elems c) /\ ~ In (norm (VKey (KInt 3))) (elems c).
Proof.
  cbn zeta. repeat split.
  - apply reach_list.
  - exists TInt. cbn. split; [reflexivity|discriminate].
  - cbn. auto.
  - cbn. intuition discriminate.
Qed.

(** C03. The type of a collection is fixed by what it once held, even after it has been emptied: a value of another type is
    refused by every later call and is never in the collection. *)
Lemma loop_type f : (forall c v t, etype c = Some t -> etype (fst (f c v)) = Some t) -> forall vs c t, etype c = Some t -> etype (fst (ic_loop f c vs)) = Some t.
Proof.
  intro H. induction vs as [|v vs IH]; intros c t E; [exact E|]. cbn. specialize (H c v t E). destruct (f c v) as [c1 [w|e]]; cbn in *; auto.
  specialize (IH c1 t H). destruct (ic_loop f c1 vs) as [c2 [w2|e2]]; cbn in *; auto.
Qed.
Lemma later_type c t : etype c = Some t -> forall c', later c c' -> etype c' = Some t.
Proof.
  intros E c' L. induction L as [|c' o L IH|c' L IH|c' L IH]; auto.
  - assert (A : forall c v t, etype c = Some t -> etype (fst (ic_add c v)) = Some t).
    { intros c0 v t0 E0. unfold ic_add. rewrite E0. destruct (negb _); [reflexivity|]. destruct (ic_contains _ _); reflexivity. }
    assert (D : forall c v t, etype c = Some t -> etype (fst (ic_discard c v)) = Some t).
    { intros c0 v t0 E0. unfold ic_discard. destruct (ic_contains _ _); auto. }
    destruct o; cbn; auto; [now apply loop_type|now apply loop_type].
  - unfold ic_pop. destruct (rev (cont c')); auto.
Qed.
Lemma later_reachable c c' : reachable c -> later c c' -> reachable c'.
Proof. intros R L. induction L; auto using reach_step, reach_pop, reach_clear. Qed.
Theorem C03_type_fixed : forall c k c' v, reachable c -> In k (elems c) -> later c c' -> key_ty (norm v) <> key_ty k ->
  ic_add c' v = (c', Err TypeErr) /\ ~ In (norm v) (elems c').
Proof.
  intros c k c' v R I L N. pose proof (proj2 (homogeneous_lemma c R) k I) as T. pose proof (later_type _ _ T _ L) as T'. split.
  - apply add_rejected. eexists. split; [exact T'|congruence].
  - intro J. apply (proj2 (homogeneous_lemma c' (later_reachable _ _ R L))) in J. congruence.
Qed.
Print Assumptions C03_type_fixed.
Example C03_type_fixed_applies :
  let c := fst (ic_init (DList [VKey (KInt 4)])) in
  reachable c /\ In (KInt 4) (elems c) /\ later c (ic_clear c) /\ elems (ic_clear c) = [] /\ key_ty (norm (VKey (KStr "x"))) <> key_ty (KInt 4).
Proof.
  cbn zeta. split; [apply reach_list|]. split; [cbn; auto|]. split; [apply later_clear, later_now|]. split; [reflexivity|discriminate].
Qed.

(** C03. The numpy quirk: on a collection whose type is not fixed yet, adding a numpy scalar raises,
    and afterwards the empty collection can never be filled again by any history. *)
Theorem C03_numpy_poisoning : forall k h,
  let c := fst (ic_init DNone) in
  let c' := fst (ic_add c (VNp k)) in
  snd (ic_add c (VNp k)) = Err TypeErr /\
  elems (ic_run c' h) = [] /\
  (forall v, snd (ic_add (ic_run c' h) v) = Err TypeErr).
Proof.
  intros k h c c'.
  destruct (add_np_fresh k c eq_refl) as (A1 & A2 & A3). fold c' in A2, A3.
  assert (P : np_ty (match k with KInt _ => TNpInt | KStr _ => TNpStr end))
    by (destruct k; [left|right]; reflexivity).
  assert (F : ic_run c' h = c') by (eapply poisoned_forever; eauto).
  split; [exact A1|]. rewrite F. split.
  - unfold elems. now rewrite A2.
  - intro v. rewrite add_rejected; [reflexivity|]. eexists. split; [exact A3|].
    destruct k, (norm v); discriminate.
Qed.
Print Assumptions C03_numpy_poisoning.

(** C04. Random sampling: for every shuffle, the sample has round(rate*n) distinct elements of the
    collection (those at the first shuffled positions); rates outside (0,1) are rejected. The
    collection is an argument and is not modified (the model returns a new one). *)
Theorem C04_random_sampling : forall c num den sh, reachable c -> 0 < den ->
  Permutation sh (seq 0 (ic_len c)) ->
  if (0 <? num) && (num <? den)
  then exists c', ic_random_sampling c num den sh = Ok c' /\ NoDup (elems c') /\
       Z.of_nat (ic_len c') = round_half_even (num * Z.of_nat (ic_len c)) den /\
       (forall k, In k (elems c') <-> exists p, In p (firstn (ic_len c') sh) /\
                                     nth_error (elems c) p = Some k)
  else ic_random_sampling c num den sh = Err AssertErr.
Proof. intros c num den sh R. exact (sampling_spec c num den sh (WF_reachable c R)). Qed.
Print Assumptions C04_random_sampling.

Example C04_random_sampling_applies :
  let c := fst (ic_init (DList [VKey (KInt 4); VKey (KInt 8); VKey (KInt 6); VKey (KInt 2); VKey (KInt 0)])) in
  Permutation [3; 1; 0; 4; 2]%nat (seq 0 (ic_len c)) /\
  match ic_random_sampling c 1 2 [3; 1; 0; 4; 2]%nat with
  | Ok c' => elems c' = [KInt 2; KInt 6] | Err _ => False end.
Proof.
  split; [|vm_compute; reflexivity].
  apply NoDup_Permutation.
  - repeat constructor; simpl; intuition discriminate.
  - apply seq_NoDup.
  - intro x. simpl. intuition.
Qed.

(** C04. What "round" means: the nearest integer, ties going to the even one. *)
Theorem C04_round : forall num den r, 0 < den ->
  (round_half_even num den = r <->
   2 * Z.abs (num - r * den) <= den /\ (2 * Z.abs (num - r * den) = den -> Z.Even r)).
Proof. exact round_half_even_spec. Qed.
Print Assumptions C04_round.
