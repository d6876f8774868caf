(** Proofs about [IndexCollection]. *)
From Verif Require Import Base BaseFacts SetFacts IndexModel IndexSpec.
From Coq Require Import String OrdersEx Sorting RelationClasses.
Local Open Scope Z_scope.

Lemma key_eqb_eq a b : key_eqb a b = true <-> a = b.
Proof.
  destruct a, b; simpl; split; intro H; try discriminate.
  - apply Z.eqb_eq in H. now subst.
  - injection H as ->. apply Z.eqb_refl.
  - apply String.eqb_eq in H. now subst.
  - injection H as ->. apply String.eqb_refl.
Qed.

Lemma key_eqb_neq a b : key_eqb a b = false <-> a <> b.
Proof. rewrite <- key_eqb_eq. destruct (key_eqb a b); split; congruence. Qed.

Lemma key_eqb_refl a : key_eqb a a = true.
Proof. now apply key_eqb_eq. Qed.

Lemma key_dec (a b : key) : {a = b} + {a <> b}.
Proof.
  destruct (key_eqb a b) eqn:E; [left; now apply key_eqb_eq | right; now apply key_eqb_neq].
Defined.

Lemma ty_eqb_eq a b : ty_eqb a b = true <-> a = b.
Proof. destruct a, b; simpl; split; congruence. Qed.

Lemma key_compare_eq a b : key_compare a b = Eq <-> a = b.
Proof.
  destruct a, b; simpl; split; intro H; try discriminate.
  - apply Z.compare_eq in H. now subst.
  - injection H as ->. apply Z.compare_refl.
  - revert H. destruct (String_as_OT.compare_spec s s0) as [E|L|L]; try discriminate. intros _. f_equal. exact E.
  - injection H as ->. destruct (String_as_OT.compare_spec s0 s0) as [|L|L]; auto;
    exfalso; revert L; apply (@StrictOrder_Irreflexive _ _ String_as_OT.lt_strorder).
Qed.

Lemma str_irr s : ~ String_as_OT.lt s s.
Proof. exact (@StrictOrder_Irreflexive _ _ String_as_OT.lt_strorder s). Qed.

Lemma str_tr s t u : String_as_OT.lt s t -> String_as_OT.lt t u -> String_as_OT.lt s u.
Proof. exact (@StrictOrder_Transitive _ _ String_as_OT.lt_strorder s t u). Qed.

Lemma key_compare_gt a b : key_compare a b = Gt <-> key_compare b a = Lt.
Proof.
  destruct a as [x|s], b as [y|t]; simpl; try (split; congruence).
  - rewrite (Z.compare_antisym x y). destruct (x ?= y); simpl; split; congruence.
  - destruct (String_as_OT.compare_spec s t) as [E|L|L],
             (String_as_OT.compare_spec t s) as [E'|L'|L']; split; intro; try congruence;
    unfold String_as_OT.eq in *; subst; exfalso; eauto using str_irr, str_tr.
    all: try (eapply str_irr; eassumption).
    all: eapply str_irr, str_tr; eassumption.
Qed.

Lemma key_lt_trans a b c : key_lt a b -> key_lt b c -> key_lt a c.
Proof.
  unfold key_lt; destruct a as [x|s], b as [y|t], c as [z|u]; simpl; try congruence; intros H1 H2.
  - rewrite Z.compare_lt_iff in *. lia.
  - revert H1 H2.
    destruct (String_as_OT.compare_spec s t) as [|L1|]; try discriminate.
    destruct (String_as_OT.compare_spec t u) as [|L2|]; try discriminate. intros _ _.
    pose proof (@StrictOrder_Transitive _ _ String_as_OT.lt_strorder _ _ _ L1 L2) as L.
    destruct (String_as_OT.compare_spec s u) as [E|L'|L']; auto; unfold String_as_OT.eq in *;
    subst; exfalso.
    + eapply str_irr; eassumption.
    + eapply str_irr, str_tr; eassumption.
Qed.

Lemma key_lt_irrefl a : ~ key_lt a a.
Proof. unfold key_lt. rewrite (proj2 (key_compare_eq a a) eq_refl). discriminate. Qed.

(** *** np.unique *)

Lemma insert_uniq_in k l x : In x (insert_uniq k l) <-> x = k \/ In x l.
Proof.
  induction l as [|y l IH]; simpl; [intuition|].
  destruct (key_compare k y) eqn:E; simpl.
  - apply key_compare_eq in E. subst. intuition.
  - intuition.
  - rewrite IH. intuition.
Qed.

Lemma insert_uniq_sorted k l :
  StronglySorted key_lt l -> StronglySorted key_lt (insert_uniq k l).
Proof.
  induction 1 as [|y l S IH F]; simpl.
  - constructor; constructor.
  - destruct (key_compare k y) eqn:E.
    + now constructor.
    + constructor; [now constructor|]. constructor; [exact E|].
      eapply Forall_impl; [|exact F]. intros a; now apply key_lt_trans.
    + constructor; [exact IH|]. apply Forall_forall. intros x Hx.
      apply insert_uniq_in in Hx. destruct Hx as [->|Hx].
      * now apply key_compare_gt in E.
      * rewrite Forall_forall in F. now apply F.
Qed.

Lemma np_unique_in ks x : In x (np_unique ks) <-> In x ks.
Proof.
  induction ks as [|k ks IH]; simpl; [reflexivity|].
  rewrite insert_uniq_in, IH. intuition.
Qed.

Lemma np_unique_sorted ks : StronglySorted key_lt (np_unique ks).
Proof. induction ks; simpl; [constructor | now apply insert_uniq_sorted]. Qed.

Lemma sorted_NoDup l : StronglySorted key_lt l -> NoDup l.
Proof.
  induction 1 as [|y l S IH F]; constructor; auto.
  intro H. rewrite Forall_forall in F. now apply (key_lt_irrefl y), F.
Qed.

Lemma np_unique_NoDup ks : NoDup (np_unique ks).
Proof. apply sorted_NoDup, np_unique_sorted. Qed.

Lemma np_unique_length ks : List.length (np_unique ks) = List.length ks <-> NoDup ks.
Proof.
  split; intro H.
  - apply (NoDup_incl_NoDup (np_unique_NoDup ks)); [lia|].
    intros x; apply np_unique_in.
  - apply Permutation_length, NoDup_Permutation; auto using np_unique_NoDup, np_unique_in.
Qed.

Lemma np_unique_nil ks : np_unique ks = [] <-> ks = [].
Proof.
  split; intro H; [|now subst].
  destruct ks as [|k ks]; auto. exfalso.
  assert (X : In k (np_unique (k :: ks))) by (apply np_unique_in; now left).
  rewrite H in X. destruct X.
Qed.

Lemma map_norm_VNp ks : map norm (map VNp ks) = ks.
Proof. rewrite map_map. simpl. apply map_id. Qed.

Lemma ic_init_list l : l <> [] ->
  elems (fst (ic_init (DList l))) = np_unique (np_asarray l).
Proof. destruct l; [congruence|]. intros _. unfold elems; simpl. apply map_norm_VNp. Qed.

Lemma np_asarray_homog l : (forall v w, In v l -> In w l -> key_ty (norm v) = key_ty (norm w)) ->
  np_asarray l = map norm l.
Proof.
  intro H. unfold np_asarray. destruct (existsb is_str (map norm l)) eqn:E; auto.
  apply existsb_exists in E. destruct E as (k & Hk & Ek). apply in_map_iff in Hk.
  destruct Hk as (v & <- & Hv). rewrite map_map. apply map_ext_in. intros w Hw.
  specialize (H _ _ Hv Hw). destruct (norm v); try discriminate. destruct (norm w); try discriminate.
  reflexivity.
Qed.

Lemma np_asarray_length l : List.length (np_asarray l) = List.length l.
Proof. unfold np_asarray. destruct (existsb _ _); now rewrite ?map_length. Qed.

Lemma np_asarray_uniform l a b :
  In a (np_asarray l) -> In b (np_asarray l) -> key_ty a = key_ty b.
Proof.
  unfold np_asarray. destruct (existsb is_str (map norm l)) eqn:E.
  - rewrite !in_map_iff. intros (x & <- & _) (y & <- & _). reflexivity.
  - intros Ha Hb.
    assert (X : forall k, In k (map norm l) -> is_str k = false).
    { intros k Hk. destruct (is_str k) eqn:F; auto.
      assert (existsb is_str (map norm l) = true) by (apply existsb_exists; eauto). congruence. }
    apply X in Ha, Hb. destruct a, b; simpl in *; congruence.
Qed.

(** *** Basic facts on the operations *)

Lemma contains_in v c : ic_contains v c = true <-> In (norm v) (elems c).
Proof.
  unfold ic_contains, elems. rewrite existsb_exists, in_map_iff. split.
  - intros (x & Hx & E). apply key_eqb_eq in E. exists x. now split.
  - intros (x & E & Hx). exists x. split; auto. unfold py_eq. now apply key_eqb_eq.
Qed.

Lemma contains_not v c : ic_contains v c = false <-> ~ In (norm v) (elems c).
Proof. rewrite <- contains_in. destruct (ic_contains v c); split; congruence. Qed.

Lemma remove_first_elems v l k : NoDup (map norm l) ->
  (In k (map norm (remove_first v l)) <-> In k (map norm l) /\ k <> norm v).
Proof.
  induction l as [|x l IH]; simpl; intro N; [intuition|].
  inversion N as [|? ? Nx Nl]; subst.
  unfold py_eq. destruct (key_eqb (norm v) (norm x)) eqn:E.
  - apply key_eqb_eq in E. rewrite E. split.
    + intro H. split; [now right|]. intros ->. contradiction.
    + intros ([H|H] & Hn); [congruence|exact H].
  - apply key_eqb_neq in E. simpl. rewrite IH by exact Nl. split.
    + intros [H|[H Hn]]; [subst; split; [now left|congruence]|intuition].
    + intuition.
Qed.

Lemma remove_first_sub v l x : In x (remove_first v l) -> In x l.
Proof.
  induction l as [|y l IH]; simpl; auto. destruct (py_eq v y); simpl; intuition.
Qed.

Lemma remove_first_NoDup v l : NoDup (map norm l) -> NoDup (map norm (remove_first v l)).
Proof.
  induction l as [|x l IH]; simpl; intro N; auto.
  inversion N as [|? ? Nx Nl]; subst. destruct (py_eq v x); auto.
  simpl. constructor; auto. intro H. apply Nx.
  apply in_map_iff in H. destruct H as (y & E & Hy). rewrite <- E. apply in_map.
  now apply remove_first_sub in Hy.
Qed.

(** *** Invariant: no duplicates, one type. *)
Definition WF (c : icol) : Prop :=
  NoDup (elems c) /\
  (forall k, In k (elems c) -> etype c = Some (key_ty k)).

Lemma WF_init_list l : WF (fst (ic_init (DList l))).
Proof.
  destruct l as [|v l].
  - split; simpl; [constructor | intros k []].
  - split.
    + rewrite ic_init_list by congruence. apply np_unique_NoDup.
    + rewrite ic_init_list by congruence. intros k Hk. simpl.
      destruct (np_unique (np_asarray (v :: l))) as [|k0 u] eqn:E; [destruct Hk|].
      f_equal. apply (np_asarray_uniform (v :: l)); rewrite <- np_unique_in, E; [now left|exact Hk].
Qed.

Lemma WF_add c v : WF c -> WF (fst (ic_add c v)).
Proof.
  intros [N T]. unfold ic_add.
  set (t := match etype c with None => type_of v | Some t => t end).
  assert (T' : forall k, In k (elems c) -> Some t = Some (key_ty k)).
  { intros k Hk. specialize (T k Hk). unfold t. now rewrite T. }
  destruct (ty_eqb (type_of (VKey (norm v))) t) eqn:Et; cbn [negb fst snd].
  2: now split.
  apply ty_eqb_eq in Et.
  match goal with |- context [ic_contains ?a ?b] => destruct (ic_contains a b) eqn:E end.
  - now split.
  - apply contains_not in E. cbn in E. split; unfold elems in *; cbn.
    + rewrite map_app. simpl. now apply NoDup_snoc.
    + intros k. rewrite map_app, in_app_iff. simpl. intros [Hk|[Hk|[]]]; auto.
      subst k. cbn in Et. now rewrite Et.
Qed.

Lemma WF_discard c v : WF c -> WF (fst (ic_discard c v)).
Proof.
  intros [N T]. unfold ic_discard. destruct (ic_contains v c); simpl; [|now split].
  split; unfold elems in *; simpl.
  - now apply remove_first_NoDup.
  - intros k Hk. apply T. apply remove_first_elems in Hk; intuition.
Qed.

Lemma WF_loop f c vs : (forall c v, WF c -> WF (fst (f c v))) -> WF c -> WF (fst (ic_loop f c vs)).
Proof.
  intro Hf. revert c. induction vs as [|v vs IH]; intros c Hc; simpl; auto.
  specialize (Hf c v Hc). destruct (f c v) as [c1 [w|e]]; simpl in *; auto.
  specialize (IH c1 Hf). destruct (ic_loop f c1 vs) as [c2 [w'|e]]; simpl in *; auto.
Qed.

Lemma WF_step c o : WF c -> WF (fst (ic_step c o)).
Proof.
  destruct o; simpl; intro H; auto using WF_add, WF_discard;
  apply WF_loop; auto using WF_add, WF_discard.
Qed.

Lemma WF_pop c : WF c -> WF (fst (ic_pop c)).
Proof.
  intros [N T]. unfold ic_pop. destruct (rev (cont c)) as [|x r] eqn:E; simpl; [now split|].
  assert (E' : cont c = rev r ++ [x]) by (rewrite <- (rev_involutive (cont c)), E; reflexivity).
  unfold WF, elems in *; simpl. rewrite E', map_app in N, T. split.
  - apply NoDup_remove_1 in N. now rewrite app_nil_r in N.
  - intros k Hk. apply T. apply in_or_app. now left.
Qed.

Lemma WF_copy c : WF c -> WF (fst (ic_init (DColl c))).
Proof.
  intro H. simpl. destruct (cont c) eqn:E; simpl.
  - split; [constructor | intros k []].
  - rewrite <- E. destruct c; exact H.
Qed.

Lemma WF_reachable c : reachable c -> WF c.
Proof.
  induction 1; auto using WF_init_list, WF_copy, WF_step, WF_pop.
  - split; simpl; [constructor | intros k []].
  - split; simpl; [constructor | intros k []].
Qed.

(** *** Effect of each request on membership *)

Lemma add_effect c v :
  (etype c = None -> type_of v = key_ty (norm v)) ->
  (forall t, etype c = Some t -> t = key_ty (norm v)) ->
  etype (fst (ic_add c v)) = Some (key_ty (norm v)) /\
  (exists w, snd (ic_add c v) = Ok w) /\
  (forall k, In k (elems (fst (ic_add c v))) <-> In k (elems c) \/ k = norm v).
Proof.
  intros HN HS. unfold ic_add.
  assert (Et : match etype c with None => type_of v | Some t => t end = key_ty (norm v)).
  { destruct (etype c); auto. }
  rewrite Et. cbn [type_of]. rewrite (proj2 (ty_eqb_eq _ _) eq_refl). cbn [negb].
  match goal with |- context [ic_contains ?a ?b] => destruct (ic_contains a b) eqn:E end; cbn.
  - apply contains_in in E. cbn in E. repeat split; eauto.
    + intros [H|H]; auto. subst. exact E.
  - repeat split; eauto; unfold elems; cbn; rewrite map_app, in_app_iff; simpl; intuition.
Qed.

Lemma discard_effect c v : WF c ->
  etype (fst (ic_discard c v)) = etype c /\
  (exists w, snd (ic_discard c v) = Ok w) /\
  (forall k, In k (elems (fst (ic_discard c v))) <-> In k (elems c) /\ k <> norm v).
Proof.
  intros [N T]. unfold ic_discard.
  destruct (ic_contains v c) eqn:E; cbn [fst snd etype]; (split; [reflexivity|split; [eauto|]]); intro k.
  - now apply remove_first_elems.
  - apply contains_not in E. split; [|tauto]. intro H. split; auto. intros ->. contradiction.
Qed.

Definition settled (c : icol) (T : pyty) :=
  (etype c = Some T) \/ (etype c = None).

Lemma acceptable_add c T v : WF c -> acceptable c T v ->
  etype (fst (ic_add c v)) = Some T /\ (exists w, snd (ic_add c v) = Ok w) /\
  (forall k, In k (elems (fst (ic_add c v))) <-> In k (elems c) \/ k = norm v).
Proof.
  intros W A. unfold acceptable in A.
  destruct (add_effect c v) as (H1 & H2 & H3).
  - intro E. rewrite E in A. destruct A; congruence.
  - intros t E. rewrite E in A. destruct A; congruence.
  - repeat split; auto; try now apply H3. rewrite H1. destruct (etype c); destruct A; congruence.
Qed.

Lemma acceptable_mono c c' T v : acceptable c T v ->
  (etype c' = etype c \/ etype c' = Some T) -> acceptable c' T v.
Proof.
  unfold acceptable. intros A [->| ->]; auto. destruct (etype c); intuition.
Qed.

Lemma update_effect T vs : forall c, WF c -> (forall v, In v vs -> acceptable c T v) ->
  let r := ic_update c vs in
  (etype (fst r) = etype c \/ etype (fst r) = Some T) /\ WF (fst r) /\ (exists w, snd r = Ok w) /\
  forall k, In k (elems (fst r)) <->
            set_fold (fun k => In k (elems c)) (map (fun v => Put (norm v)) vs) k.
Proof.
  induction vs as [|v vs IH]; intros c W A; unfold ic_update; cbn [ic_loop].
  - cbn. repeat split; eauto; try apply W; tauto.
  - destruct (acceptable_add c T v W) as (E1 & (w & E2) & E3); [apply A; now left|].
    pose proof (WF_add c v W) as W1.
    destruct (ic_add c v) as [c1 r1]; cbn in *. subst r1.
    destruct (IH c1 W1) as (F1 & F2 & (w' & F3) & F4).
    { intros u Hu. apply (acceptable_mono c); auto. }
    unfold ic_update in *. destruct (ic_loop ic_add c1 vs) as [c2 r2]; cbn in *. subst r2. cbn [fst snd].
    split; [right; destruct F1; congruence|]. split; [exact F2|]. split; [eauto|].
    intro k. rewrite F4. apply set_fold_ext. intro x. simpl. apply E3.
Qed.

Lemma diff_effect vs : forall c, WF c ->
  let r := ic_difference_update c vs in
  etype (fst r) = etype c /\ WF (fst r) /\ (exists w, snd r = Ok w) /\
  forall k, In k (elems (fst r)) <->
            set_fold (fun k => In k (elems c)) (map (fun v => Take (norm v)) vs) k.
Proof.
  induction vs as [|v vs IH]; intros c W; unfold ic_difference_update; cbn [ic_loop].
  - cbn. repeat split; eauto; try apply W; tauto.
  - destruct (discard_effect c v W) as (E1 & (w & E2) & E3).
    pose proof (WF_discard c v W) as W1.
    destruct (ic_discard c v) as [c1 r1]; cbn in *. subst r1.
    destruct (IH c1 W1) as (F1 & F2 & (w' & F3) & F4).
    unfold ic_difference_update in *.
    destruct (ic_loop ic_discard c1 vs) as [c2 r2]; cbn in *. subst r2. cbn [fst snd].
    split; [congruence|]. split; [exact F2|]. split; [eauto|].
    intro k. rewrite F4. apply set_fold_ext. intro x. simpl. apply E3.
Qed.

Lemma step_effect T c o : WF c -> (forall v, In v (inserted o) -> acceptable c T v) ->
  let r := ic_step c o in
  (etype (fst r) = etype c \/ etype (fst r) = Some T) /\ WF (fst r) /\ (exists w, snd r = Ok w) /\
  forall k, In k (elems (fst r)) <-> set_fold (fun k => In k (elems c)) (requests o) k.
Proof.
  intros W A. destruct o as [v|v|vs|vs]; cbn [ic_step requests inserted] in *.
  - destruct (acceptable_add c T v W) as (E1 & E2 & E3); [apply A; now left|].
    cbn. repeat split; auto; try apply WF_add; auto; now apply E3.
  - destruct (discard_effect c v W) as (E1 & E2 & E3).
    cbn. repeat split; auto; try apply WF_discard; auto; now apply E3.
  - now apply update_effect.
  - destruct (diff_effect vs c W) as (E1 & E2 & E3 & E4).
    cbn in *. repeat split; auto; try apply E2; now apply E4.
Qed.

Lemma run_effect T h : forall c, WF c ->
  (forall o v, In o h -> In v (inserted o) -> acceptable c T v) ->
  forall k, In k (elems (ic_run c h)) <->
            set_fold (fun k => In k (elems c)) (flat_map requests h) k.
Proof.
  induction h as [|o h IH]; intros c W A k; cbn; [tauto|].
  destruct (step_effect T c o W) as (E1 & E2 & _ & E4).
  { intros v Hv. apply (A o); auto. now left. }
  fold (ic_run (fst (ic_step c o)) h).
  rewrite (IH (fst (ic_step c o)) E2).
  - unfold set_fold. rewrite fold_left_app. apply set_fold_ext. intro x. apply E4.
  - intros o' v Ho Hv. apply (acceptable_mono c); auto. apply (A o'); auto. now right.
Qed.

Lemma run_no_error T h : forall c, WF c ->
  (forall o v, In o h -> In v (inserted o) -> acceptable c T v) ->
  forall pre o post, h = pre ++ o :: post -> exists w, snd (ic_step (ic_run c pre) o) = Ok w.
Proof.
  induction h as [|o0 h IH]; intros c W A pre o post E.
  - destruct pre; discriminate.
  - destruct (step_effect T c o0 W) as (E1 & E2 & E3 & _).
    { intros v Hv. apply (A o0); auto. now left. }
    destruct pre as [|p pre]; simpl in E; injection E as E0 Eh; subst.
    + exact E3.
    + simpl. apply (IH (fst (ic_step c p)) E2) with (post := post); auto.
      intros o' v Ho Hv. apply (acceptable_mono c); auto. apply (A o'); auto. now right.
Qed.

Lemma C01_set_lemma c T h : reachable c ->
  (forall o v, In o h -> In v (inserted o) -> acceptable c T v) ->
  NoDup (elems (ic_run c h)) /\
  (forall k, In k (elems (ic_run c h)) <-> set_after (fun k => In k (elems c)) (flat_map requests h) k)
  /\ (forall pre o post, h = pre ++ o :: post -> exists w, snd (ic_step (ic_run c pre) o) = Ok w).
Proof.
  intros R A. pose proof (WF_reachable c R) as W. repeat split.
  - clear A R. revert c W. induction h as [|o h IH]; intros c W; simpl; [apply W|].
    apply IH. now apply WF_step.
  - intro H. apply (set_after_fold key_dec). now apply (run_effect T) in H.
  - intro H. apply (set_after_fold key_dec) in H. now apply (run_effect T).
  - now apply (run_no_error T).
Qed.

(** update / difference_update are the one-by-one calls, whatever the values. *)
Definition call_ok (c : icol) (o : icop) : Prop := exists w, snd (ic_step c o) = Ok w.

Lemma loop_run f mk vs : (forall c v, ic_step c (mk v) = f c v) -> forall c,
  match snd (ic_loop f c vs) with
  | Ok _ => fst (ic_loop f c vs) = ic_run c (map mk vs) /\
             (forall pre v post, vs = pre ++ v :: post -> call_ok (ic_run c (map mk pre)) (mk v))
  | Err e => exists pre v post, vs = pre ++ v :: post /\
             fst (ic_loop f c vs) = ic_run c (map mk (pre ++ [v])) /\
             snd (ic_step (ic_run c (map mk pre)) (mk v)) = Err e /\
             (forall p u q, pre = p ++ u :: q -> call_ok (ic_run c (map mk p)) (mk u))
  end.
Proof.
  intro Hf. induction vs as [|v vs IH]; intro c; cbn [ic_loop].
  - cbn. split; auto. intros [|] ? ? ?; discriminate.
  - destruct (f c v) as [c1 [w|e]] eqn:E.
    + specialize (IH c1). assert (Ok1 : call_ok c (mk v)) by (exists w; now rewrite Hf, E).
      assert (C1 : forall l, ic_run c (map mk (v :: l)) = ic_run c1 (map mk l)).
      { intro l. cbn. now rewrite Hf, E. }
      destruct (ic_loop f c1 vs) as [c2 [w2|e]]; cbn [fst snd] in *.
      * destruct IH as [I1 I2]. split; [now rewrite C1|].
        intros [|p pre] u post X; injection X as -> X; [exact Ok1|].
        rewrite C1. now apply (I2 pre u post).
      * destruct IH as (pre & u & post & X & I1 & I2 & I3).
        exists (v :: pre), u, post. subst vs. repeat split.
        -- cbn [app]. rewrite C1. exact I1.
        -- now rewrite C1.
        -- intros [|p0 p] u0 q X; injection X as -> X; [exact Ok1|].
           rewrite C1. now apply (I3 p u0 q).
    + cbn [fst snd]. exists [], v, vs. cbn. rewrite Hf, E. repeat split; auto.
      intros [|] ? ? ?; discriminate.
Qed.

(** The abstract machine for arbitrary (also ill-typed) calls. *)
Lemma add_rejected c v :
  (exists t, etype c = Some t /\ t <> key_ty (norm v)) ->
  ic_add c v = (c, Err TypeErr).
Proof.
  intros (t & E & Hn). unfold ic_add. rewrite E. cbn [type_of].
  destruct (ty_eqb (key_ty (norm v)) t) eqn:F; [apply ty_eqb_eq in F; congruence|].
  cbn. destruct c; cbn in *. now subst.
Qed.

Lemma add_present c v : WF c -> In (norm v) (elems c) ->
  ic_add c v = (c, Ok [WRepeat]).
Proof.
  intros [N T] H. unfold ic_add. rewrite (T _ H). cbn [type_of].
  rewrite (proj2 (ty_eqb_eq _ _) eq_refl). cbn [negb].
  match goal with |- context [ic_contains ?a ?b] => assert (E : ic_contains a b = true) end.
  { apply contains_in. exact H. }
  rewrite E. pose proof (T _ H) as X. destruct c; cbn in *. now subst.
Qed.

Lemma discard_absent c v : ~ In (norm v) (elems c) ->
  ic_discard c v = (c, Ok [WInexistent]).
Proof. intro H. unfold ic_discard. apply contains_not in H. now rewrite H. Qed.

(** A numpy scalar added to a fresh collection. *)
Lemma add_np_fresh k c : etype c = None ->
  snd (ic_add c (VNp k)) = Err TypeErr /\
  cont (fst (ic_add c (VNp k))) = cont c /\
  etype (fst (ic_add c (VNp k))) = Some (match k with KInt _ => TNpInt | KStr _ => TNpStr end).
Proof.
  intro E. unfold ic_add. rewrite E. destruct k; cbn; auto.
Qed.

Definition np_ty (t : pyty) := t = TNpInt \/ t = TNpStr.

Lemma poisoned_step c o t : etype c = Some t -> np_ty t -> cont c = [] ->
  fst (ic_step c o) = c.
Proof.
  intros E P C.
  assert (A : forall v, ic_add c v = (c, Err TypeErr)).
  { intro v. apply add_rejected. exists t. split; auto. destruct (norm v), P; simpl; congruence. }
  assert (D : forall v, ic_discard c v = (c, Ok [WInexistent])).
  { intro v. apply discard_absent. unfold elems. rewrite C. auto. }
  destruct o as [v|v|vs|vs]; simpl.
  - now rewrite A.
  - now rewrite D.
  - unfold ic_update. destruct vs; simpl; auto. now rewrite A.
  - unfold ic_difference_update. induction vs as [|v vs IH]; simpl; auto. rewrite D.
    destruct (ic_loop ic_discard c vs) as [c2 [|]]; simpl in *; auto.
Qed.

Lemma poisoned_forever c h t : etype c = Some t -> np_ty t -> cont c = [] ->
  ic_run c h = c.
Proof.
  intros E P C. induction h as [|o h IH]; simpl; auto. now rewrite (poisoned_step c o t).
Qed.

(** add: exact outcome for every value and reachable collection. *)
Definition add_ty (c : icol) (v : pyval) : pyty :=
  match etype c with Some t => t | None => type_of v end.

Lemma add_app c v : WF c ->
  cont (fst (ic_add c v)) =
    if andb (ty_eqb (key_ty (norm v)) (add_ty c v)) (negb (ic_contains v c))
    then cont c ++ [VKey (norm v)] else cont c.
Proof.
  intros W. unfold ic_add, add_ty.
  replace (match etype c with | Some t => t | None => type_of v end)
    with (match etype c with None => type_of v | Some t => t end) by (destruct (etype c); reflexivity).
  cbn [type_of]. destruct (ty_eqb _ _); cbn [negb andb]; auto.
  change (ic_contains (VKey (norm v)) {| cont := cont c; etype := Some match etype c with
    | None => type_of v | Some t => t end |}) with (ic_contains v c).
  destruct (ic_contains v c); reflexivity.
Qed.

(** pop *)
Lemma pop_spec c : WF c ->
  match ic_pop c with
  | (c', Ok x) => cont c = cont c' ++ [x] /\ etype c' = etype c /\
                  (forall k, In k (elems c') <-> In k (elems c) /\ k <> norm x)
  | (c', Err e) => e = IndexErr /\ c' = c /\ cont c = []
  end.
Proof.
  intros [N T]. unfold ic_pop. destruct (rev (cont c)) as [|x r] eqn:E.
  - repeat split; auto. rewrite <- (rev_involutive (cont c)), E. reflexivity.
  - assert (E' : cont c = rev r ++ [x]) by (rewrite <- (rev_involutive (cont c)), E; reflexivity).
    cbn. split; [exact E'|]. split; [reflexivity|]. intro k. unfold elems in *; cbn.
    rewrite E', map_app in *. cbn in *. rewrite in_app_iff. simpl.
    apply NoDup_remove_2 in N. rewrite app_nil_r in N.
    split; [intro H; split; [now left|intros ->; contradiction]|].
    intros ([H|[H|[]]] & Hn); congruence.
Qed.

(** *** Sampling *)
Lemma round_bounds num den n : 0 < num -> num < den -> 0 <= n ->
  0 <= round_half_even (num * n) den <= n.
Proof.
  intros H1 H2 H3. unfold round_half_even.
  assert (0 <= num * n) by nia.
  assert (D : num * n = den * (num * n / den) + num * n mod den) by (apply Z.div_mod; lia).
  assert (M : 0 <= num * n mod den < den) by (apply Z.mod_pos_bound; lia).
  set (q := num * n / den) in *. set (r := num * n mod den) in *.
  assert (0 <= q) by nia.
  assert (q <= n) by nia.
  assert (r > 0 -> q < n) by nia.
  destruct (Z.compare_spec (2 * r) den); [destruct (Z.even q)|..]; lia.
Qed.

Lemma mapM_nth_ok {A} (l : list A) ps d : (forall p, In p ps -> p < List.length l)%nat ->
  mapM (py_nth l) ps = Ok (map (fun p => nth p l d) ps).
Proof.
  induction ps as [|p ps IH]; intro H; simpl; auto.
  unfold py_nth at 1.
  rewrite (nth_error_nth' l d) by (apply H; now left). simpl.
  rewrite IH by (intros; apply H; now right). reflexivity.
Qed.

Lemma perm_firstn_facts n k sh : Permutation sh (seq 0 n) -> (k <= n)%nat ->
  List.length (firstn k sh) = k /\ NoDup (firstn k sh) /\
  (forall p, In p (firstn k sh) -> p < n)%nat.
Proof.
  intros P Hk.
  assert (L : List.length sh = n) by (rewrite (Permutation_length P); apply seq_length).
  assert (N : NoDup sh) by (apply (Permutation_NoDup (Permutation_sym P)), seq_NoDup).
  repeat split.
  - apply firstn_length_le. lia.
  - rewrite <- (firstn_skipn k sh) in N. now apply NoDup_app_inv in N.
  - intros p Hp. assert (In p sh) by (rewrite <- (firstn_skipn k sh); apply in_or_app; now left).
    apply (Permutation_in _ P) in H. apply in_seq in H. lia.
Qed.

Lemma NoDup_map_nth {A} (l : list A) ps d : NoDup l -> NoDup ps ->
  (forall p, In p ps -> p < List.length l)%nat -> NoDup (map (fun p => nth p l d) ps).
Proof.
  intros Nl. induction 1 as [|p ps Hp N IH]; intro H; simpl; constructor.
  - rewrite in_map_iff. intros (q & E & Hq).
    assert (q = p).
    { eapply (proj1 (NoDup_nth l d)); eauto; apply H; simpl; auto. }
    now subst.
  - apply IH. intros; apply H; now right.
Qed.

Lemma sampling_spec c num den sh : WF c -> 0 < den ->
  Permutation sh (seq 0 (ic_len c)) ->
  if (0 <? num) && (num <? den)
  then exists c', ic_random_sampling c num den sh = Ok c' /\ NoDup (elems c') /\
       Z.of_nat (ic_len c') = round_half_even (num * Z.of_nat (ic_len c)) den /\
       (forall k, In k (elems c') <-> exists p, In p (firstn (ic_len c') sh) /\
                                     nth_error (elems c) p = Some k)
  else ic_random_sampling c num den sh = Err AssertErr.
Proof.
  intros W Hd P. unfold ic_random_sampling.
  destruct ((0 <? num) && (num <? den)) eqn:E; auto.
  apply andb_prop in E. destruct E as [E1 E2]. apply Z.ltb_lt in E1, E2.
  pose proof (round_bounds num den (Z.of_nat (ic_len c)) E1 E2 ltac:(lia)) as B.
  set (k := round_half_even (num * Z.of_nat (ic_len c)) den) in *.
  unfold randperm.
  destruct (k >? Z.of_nat (ic_len c) - 1 + 1) eqn:G; [rewrite Z.gtb_ltb in G; apply Z.ltb_lt in G; lia|].
  unfold py_slice_to. destruct (k <? 0) eqn:K; [apply Z.ltb_lt in K; lia|].
  destruct (perm_firstn_facts (ic_len c) (Z.to_nat k) sh P ltac:(lia)) as (L & N & I).
  set (d := VKey (KInt 0)).
  rewrite (mapM_nth_ok (cont c) _ d) by (unfold ic_len in I; auto). cbn [bind].
  set (ps := firstn (Z.to_nat k) sh) in *.
  set (vs := map (fun p => nth p (cont c) d) ps).
  assert (Lc : List.length (elems c) = ic_len c) by (unfold elems, ic_len; apply map_length).
  assert (Vs : map norm vs = map (fun p => nth p (elems c) (norm d)) ps).
  { unfold vs, elems. rewrite map_map. apply map_ext. intro p. symmetry. apply map_nth. }
  assert (Nv : NoDup (map norm vs)).
  { rewrite Vs. apply NoDup_map_nth; auto; [apply W|]. rewrite Lc. auto. }
  assert (Hom : np_asarray vs = map norm vs).
  { apply np_asarray_homog. intros v w Hv Hw.
    assert (X : forall u, In u vs -> etype c = Some (key_ty (norm u))).
    { intros u Hu. apply W. apply (in_map norm) in Hu. rewrite Vs in Hu. apply in_map_iff in Hu.
      destruct Hu as (p & <- & Hp). apply nth_In. rewrite Lc. now apply I. }
    apply X in Hv, Hw. congruence. }
  set (c' := fst (ic_init (DList vs))).
  assert (El : forall x, In x (elems c') <-> In x (map norm vs)).
  { intro x. unfold c'. destruct (list_eq_dec Nat.eq_dec ps []) as [En|En].
    - unfold vs. rewrite En. simpl. tauto.
    - rewrite ic_init_list, Hom; [apply np_unique_in|].
      intro X. apply map_eq_nil in X. contradiction. }
  assert (W' : WF c') by apply WF_init_list.
  assert (Len : ic_len c' = Z.to_nat k).
  { rewrite <- L. replace (List.length ps) with (List.length (map norm vs)) by
      (rewrite Vs; apply map_length).
    unfold ic_len. rewrite <- (map_length norm (cont c')).
    apply Permutation_length, NoDup_Permutation; auto. apply W'. }
  exists c'. repeat split; auto.
  - apply W'.
  - rewrite Len. lia.
  - rewrite Len. fold ps. intro H. apply El in H. rewrite Vs in H. apply in_map_iff in H.
    destruct H as (p & <- & Hp). exists p. split; auto. apply nth_error_nth'.
    rewrite Lc. now apply I.
  - rewrite Len. fold ps. intros (p & Hp & Ep). apply El. rewrite Vs. apply in_map_iff.
    exists p. split; auto. now apply nth_error_nth with (d := norm d) in Ep.
Qed.

(** *** Order of the elements *)
Lemma elems_add c v : WF c ->
  elems (fst (ic_add c v)) =
    if andb (ty_eqb (key_ty (norm v)) (add_ty c v)) (negb (ic_contains v c))
    then elems c ++ [norm v] else elems c.
Proof.
  intro W. unfold elems at 1. rewrite add_app by exact W.
  destruct (_ && _)%bool; [|reflexivity]. now rewrite map_app.
Qed.

Lemma elems_discard c v : WF c ->
  elems (fst (ic_discard c v)) = filter (fun k => negb (key_eqb k (norm v))) (elems c).
Proof.
  intros [N _]. unfold ic_discard. destruct (ic_contains v c) eqn:E.
  - clear E. unfold elems in *. cbn. induction (cont c) as [|x l IH]; auto.
    simpl in N. inversion N as [|? ? Nx Nl]; subst. specialize (IH Nl). simpl.
    unfold py_eq. destruct (key_eqb (norm v) (norm x)) eqn:F.
    + apply key_eqb_eq in F. rewrite F, key_eqb_refl. simpl.
      symmetry. rewrite <- F in Nx |- *. clear - Nx. induction (map norm l) as [|y m IH]; auto.
      simpl. destruct (key_eqb y (norm v)) eqn:G; simpl.
      * apply key_eqb_eq in G. subst. exfalso. apply Nx. now left.
      * f_equal. apply IH. intro; apply Nx; now right.
    + destruct (key_eqb (norm x) (norm v)) eqn:G.
      * apply key_eqb_eq in G. apply key_eqb_neq in F. congruence.
      * simpl. now rewrite IH.
  - apply contains_not in E. simpl. symmetry. clear N. induction (elems c) as [|y m IH]; auto.
    simpl. destruct (key_eqb y (norm v)) eqn:G; simpl.
    + apply key_eqb_eq in G. subst. exfalso. apply E. now left.
    + f_equal. apply IH. intro; apply E; now right.
Qed.

Lemma homogeneous_lemma c : reachable c ->
  NoDup (elems c) /\ (forall k, In k (elems c) -> etype c = Some (key_ty k)).
Proof. apply WF_reachable. Qed.

Lemma construct_lemma l : l <> [] ->
  (forall v w, In v l -> In w l -> key_ty (norm v) = key_ty (norm w)) ->
  (forall k, In k (elems (fst (ic_init (DList l)))) <-> In k (map norm l)) /\
  StronglySorted key_lt (elems (fst (ic_init (DList l)))) /\
  snd (ic_init (DList l)) = (if ListDec.NoDup_dec key_dec (map norm l) then [] else [WRepeat]).
Proof.
  intros Hl H. rewrite ic_init_list, np_asarray_homog by auto. repeat split.
  - apply np_unique_in.
  - apply np_unique_in.
  - apply np_unique_sorted.
  - destruct l as [|v l]; [congruence|]. unfold ic_init. cbn [snd].
    rewrite np_asarray_homog by auto.
    destruct (ListDec.NoDup_dec key_dec (map norm (v :: l))) as [N|N].
    + apply np_unique_length in N. rewrite N, map_length, Nat.eqb_refl. reflexivity.
    + destruct (Nat.eqb_spec (List.length (np_unique (map norm (v :: l)))) (List.length (v :: l))) as [E|E]; auto.
      exfalso. apply N, np_unique_length. now rewrite map_length.
Qed.

Lemma construct_mixed_lemma l : (exists v w, In v l /\ In w l /\ key_ty (norm v) <> key_ty (norm w)) ->
  (forall k, In k (elems (fst (ic_init (DList l)))) <->
             exists v, In v l /\ k = KStr (key_str (norm v))) /\
  StronglySorted key_lt (elems (fst (ic_init (DList l)))) /\
  etype (fst (ic_init (DList l))) = Some TStr.
Proof.
  intros (v & w & Hv & Hw & Hn).
  assert (Hl : l <> []) by (intros ->; destruct Hv).
  assert (Hs : existsb is_str (map norm l) = true).
  { apply existsb_exists. destruct (norm v) as [zv|sv] eqn:Ev.
    - destruct (norm w) as [zw|sw] eqn:Ew; [simpl in Hn; congruence|].
      exists (KStr sw). split; auto. rewrite <- Ew. now apply in_map.
    - exists (KStr sv). split; auto. rewrite <- Ev. now apply in_map. }
  assert (A : np_asarray l = map (fun k => KStr (key_str k)) (map norm l)).
  { unfold np_asarray. now rewrite Hs. }
  rewrite ic_init_list by auto. split; [|split].
  - intro k. rewrite np_unique_in, A, map_map, in_map_iff. split.
    + intros (x & <- & Hx). eauto.
    + intros (x & Hx & ->). eauto.
  - apply np_unique_sorted.
  - pose proof (proj2 (WF_init_list l)) as W. rewrite ic_init_list in W by auto.
    rewrite (W (KStr (key_str (norm v)))); auto.
    rewrite np_unique_in, A, map_map. now apply in_map with (f := fun x => KStr (key_str (norm x))).
Qed.

(** Python's round: the nearest integer, and the even one of two equally near. *)
Lemma round_half_even_spec num den r : 0 < den ->
  (round_half_even num den = r <->
   2 * Z.abs (num - r * den) <= den /\ (2 * Z.abs (num - r * den) = den -> Z.Even r)).
Proof.
  intro Hd. unfold round_half_even.
  pose proof (Z.div_mod num den ltac:(lia)) as D.
  pose proof (Z.mod_pos_bound num den Hd) as M.
  set (q := num / den) in *. set (m := num mod den) in *. clearbody q m. subst num.
  assert (E1 : den * q + m - q * den = m) by lia.
  assert (E2 : den * q + m - (q + 1) * den = m - den) by lia.
  assert (U : forall s, 2 * Z.abs (den * q + m - s * den) <= den -> s = q \/ s = q + 1).
  { intros s Hs. assert (s < q \/ s = q \/ s = q + 1 \/ q + 1 < s) as [|[|[|]]] by lia; auto; nia. }
  destruct (Z.compare_spec (2 * m) den) as [E|L|G].
  - destruct (Z.even q) eqn:Ev.
    + apply Z.even_spec in Ev. split.
      * intros <-. rewrite E1. split; [lia|auto].
      * intros [H1 H2]. destruct (U r H1) as [->| ->]; auto. exfalso.
        rewrite E2 in H2. assert (Z.Even (q + 1)) by (apply H2; lia).
        apply Z.even_spec in H. rewrite Z.even_add in H. apply Z.even_spec in Ev. rewrite Ev in H. discriminate.
    + split.
      * intros <-. rewrite E2. split; [lia|]. intros _. apply Z.even_spec. rewrite Z.even_add, Ev. reflexivity.
      * intros [H1 H2]. destruct (U r H1) as [->| ->]; auto. exfalso.
        rewrite E1 in H2. assert (Z.Even q) by (apply H2; lia).
        apply Z.even_spec in H. congruence.
  - split.
    + intros <-. rewrite E1. split; lia.
    + intros [H1 H2]. destruct (U r H1) as [->| ->]; auto. rewrite E2 in H1. lia.
  - split.
    + intros <-. rewrite E2. split; lia.
    + intros [H1 H2]. destruct (U r H1) as [->| ->]; auto. rewrite E1 in H1. lia.
Qed.
