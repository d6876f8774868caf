(** Proofs about integration, extraction, masks, 1-d indexes and mapping. *)
From Verif Require Import Base BaseFacts SetFacts IndexModel IndexSpec IndexProofs MLModel MLSpec MLProofs.
Local Open Scope Z_scope.

(** *** first_occ *)
Lemma first_occ_in l x : In x (first_occ l) <-> In x l.
Proof.
  induction l as [|y l IH]; simpl; [tauto|]. rewrite filter_In, IH.
  destruct (y =? x) eqn:E; simpl.
  - apply Z.eqb_eq in E. intuition.
  - apply Z.eqb_neq in E. intuition.
Qed.

Lemma first_occ_NoDup l : NoDup (first_occ l).
Proof.
  induction l as [|y l IH]; simpl; constructor.
  - rewrite filter_In. intros [_ H]. now rewrite Z.eqb_refl in H.
  - now apply NoDup_filter.
Qed.

Lemma first_occ_snoc l x :
  first_occ (l ++ [x]) = if zmem x l then first_occ l else first_occ l ++ [x].
Proof.
  induction l as [|y l IH]; simpl; auto.
  rewrite IH. rewrite (Z.eqb_sym x y). destruct (y =? x) eqn:E; simpl.
  - apply Z.eqb_eq in E. subst. destruct (zmem x l); auto.
    rewrite filter_app. simpl. rewrite Z.eqb_refl. simpl. now rewrite app_nil_r.
  - fold (zmem x l). destruct (zmem x l); auto. rewrite filter_app. simpl. rewrite E. reflexivity.
Qed.

Lemma zmem_in x l : zmem x l = true <-> In x l.
Proof.
  unfold zmem. rewrite existsb_exists. split.
  - intros (y & H & E). apply Z.eqb_eq in E. now subst.
  - intro H. exists x. split; auto. apply Z.eqb_refl.
Qed.
Lemma zmem_not x l : zmem x l = false <-> ~ In x l.
Proof. rewrite <- zmem_in. destruct (zmem x l); split; congruence. Qed.

Lemma zunion_spec xs : forall s, NoDup s ->
  NoDup (zunion s xs) /\ forall x, In x (zunion s xs) <-> In x s \/ In x xs.
Proof.
  unfold zunion. induction xs as [|y xs IH]; simpl; intros s N.
  - split; auto. tauto.
  - unfold zadd at 2 4. destruct (zmem y s) eqn:E.
    + destruct (IH s N) as [A B]. split; auto. intro x. rewrite B. apply zmem_in in E. intuition. subst; auto.
    + apply zmem_not in E. destruct (IH (s ++ [y]) (NoDup_snoc _ _ N E)) as [A B]. split; auto.
      intro x. rewrite B, in_app_iff. simpl. intuition.
Qed.

(** *** dict *)
Lemma dict_get_set {V} k (v : V) d k' :
  dict_get k' (dict_set k v d) = if k' =? k then Some v else dict_get k' d.
Proof.
  induction d as [|[a b] d IH]; simpl.
  - destruct (k' =? k); reflexivity.
  - destruct (k =? a) eqn:E; simpl.
    + apply Z.eqb_eq in E. subst. destruct (k' =? a); reflexivity.
    + rewrite IH. destruct (k' =? a) eqn:F; auto. apply Z.eqb_eq in F. subst.
      rewrite Z.eqb_sym, E. reflexivity.
Qed.

Lemma dict_keys_set {V} k (v : V) d :
  map fst (dict_set k v d) = if zmem k (map fst d) then map fst d else map fst d ++ [k].
Proof.
  induction d as [|[a b] d IH]; simpl; auto.
  destruct (k =? a) eqn:E; simpl.
  - apply Z.eqb_eq in E. subst. reflexivity.
  - rewrite IH. fold (zmem k (map fst d)). destruct (zmem k (map fst d)); reflexivity.
Qed.

Lemma dict_get_none {V} k (d : list (Z * V)) : dict_get k d = None <-> ~ In k (map fst d).
Proof.
  induction d as [|[a b] d IH]; simpl; [tauto|].
  destruct (k =? a) eqn:E.
  - apply Z.eqb_eq in E. subst. split; [discriminate|]. intro H; exfalso; apply H; now left.
  - apply Z.eqb_neq in E. rewrite IH. intuition.
Qed.

Lemma dict_get_in {V} k (v : V) d : NoDup (map fst d) -> (dict_get k d = Some v <-> In (k, v) d).
Proof.
  induction d as [|[a b] d IH]; simpl; intro N.
  - split; [discriminate|tauto].
  - inversion N as [|? ? H1 H2]; subst. destruct (k =? a) eqn:E.
    + apply Z.eqb_eq in E. subst. split.
      * intro H. injection H as ->. now left.
      * intros [H|H]; [congruence|]. exfalso. apply H1. apply in_map_iff. exists (a, v). auto.
    + apply Z.eqb_neq in E. rewrite IH by auto. split; [auto|]. intros [H|H]; [congruence|auto].
Qed.

(** *** integration *)
Definition dict_inv (m : Z) (l : list mlidx) (d : list (Z * list Z)) : Prop :=
  map fst d = first_occ (map ins_of l) /\
  forall i s, dict_get i d = Some s ->
    NoDup s /\ forall j, In j s <-> denoted_by m l (i, j).

Lemma denotes_ins m x p : denotes m x p -> fst p = ins_of x.
Proof. destruct x; simpl; intro H; try (subst p; reflexivity); intuition. Qed.

Lemma denotes_label m x p : labels_ok m x = true -> denotes m x p -> 0 <= snd p < m.
Proof.
  destruct x; simpl; intros H D; try discriminate; try tauto. subst p; simpl; lia.
Qed.

Definition labels_of (m : Z) (x : mlidx) : list Z :=
  match x with
  | IOne _ => zrange m
  | IPair _ j | ILong _ j => [j]
  | IManyT _ js | IManyL _ js => js
  end.

Lemma labels_of_denotes m x j : labels_ok m x = true ->
  (In j (labels_of m x) <-> denotes m x (ins_of x, j)).
Proof.
  destruct x as [i|i k|i js|i js|i k]; simpl; intro H.
  - rewrite in_zrange. tauto.
  - split; [intros [->|[]]; reflexivity|]. intro E. left. congruence.
  - rewrite forallb_forall in H. split; [intro I; specialize (H j I); repeat split; auto; lia|tauto].
  - rewrite forallb_forall in H. split; [intro I; specialize (H j I); repeat split; auto; lia|tauto].
  - discriminate.
Qed.

Lemma integrate_step_eq m d x : labels_ok m x = true ->
  exists s, integrate_step m d x = dict_set (ins_of x) s d /\
  ((forall s0, dict_get (ins_of x) d = Some s0 -> NoDup s0) -> NoDup s) /\
  (match dict_get (ins_of x) d with
   | None => forall j, In j s <-> In j (labels_of m x)
   | Some s0 => NoDup s0 -> (forall j, In j s0 -> 0 <= j < m) ->
                forall j, In j s <-> In j s0 \/ In j (labels_of m x)
   end).
Proof.
  destruct x as [i|i k|i js|i js|i k]; simpl; intro H; try discriminate.
  - exists (zrange m). split; auto. split; [intros; apply NoDup_zrange|].
    destruct (dict_get i d); [|tauto]. intros N R j. split; auto. rewrite in_zrange. intros [I|I]; auto.
  - destruct (dict_get i d) as [s0|] eqn:E.
    + exists (zunion s0 [k]). split; auto. split; [intro N; apply zunion_spec; auto|].
      intros N _. apply zunion_spec; auto.
    + exists (zunion [] [k]). split; auto. split; [intro N; apply zunion_spec; constructor|].
      intro j. rewrite (proj2 (zunion_spec [k] [] (NoDup_nil _)) j). simpl. tauto.
  - destruct (dict_get i d) as [s0|] eqn:E.
    + exists (zunion s0 js). split; auto. split; [intro N; apply zunion_spec; auto|].
      intros N _. apply zunion_spec; auto.
    + exists (zunion [] js). split; auto. split; [intro N; apply zunion_spec; constructor|].
      intro j. rewrite (proj2 (zunion_spec js [] (NoDup_nil _)) j). simpl. tauto.
  - destruct (dict_get i d) as [s0|] eqn:E.
    + exists (zunion s0 js). split; auto. split; [intro N; apply zunion_spec; auto|].
      intros N _. apply zunion_spec; auto.
    + exists (zunion [] js). split; auto. split; [intro N; apply zunion_spec; constructor|].
      intro j. rewrite (proj2 (zunion_spec js [] (NoDup_nil _)) j). simpl. tauto.
Qed.

Lemma denoted_by_snoc m l x p : denoted_by m (l ++ [x]) p <-> denoted_by m l p \/ denotes m x p.
Proof.
  unfold denoted_by. split.
  - intros (y & Hy & D). apply in_app_iff in Hy. destruct Hy as [Hy|[<-|[]]]; eauto.
  - intros [(y & Hy & D)|D]; [exists y|exists x]; split; auto; apply in_app_iff; simpl; auto.
Qed.

Lemma integrate_inv m l : forallb (labels_ok m) l = true ->
  dict_inv m l (fold_left (integrate_step m) l []).
Proof.
  induction l as [|x l IH] using rev_ind; intro H.
  - split; simpl; auto. discriminate.
  - rewrite forallb_app in H. apply andb_prop in H. destruct H as [Hl Hx].
    simpl in Hx. rewrite andb_true_r in Hx. destruct (IH Hl) as [K D]. clear IH.
    rewrite fold_left_app. simpl. set (d := fold_left (integrate_step m) l []) in *.
    destruct (integrate_step_eq m d x Hx) as (s & E & N & I). rewrite E. split.
    + rewrite dict_keys_set, K, map_app. simpl. rewrite first_occ_snoc.
      destruct (zmem (ins_of x) (map ins_of l)) eqn:M.
      * apply zmem_in in M. apply first_occ_in in M. apply zmem_in in M. now rewrite M.
      * apply zmem_not in M. rewrite <- first_occ_in in M. apply zmem_not in M. now rewrite M.
    + intros i s' G. rewrite dict_get_set in G. destruct (i =? ins_of x) eqn:F.
      * injection G as ->. apply Z.eqb_eq in F. subst i. split.
        -- apply N. intros s0 G0. now apply (D _ _ G0).
        -- intro j. rewrite denoted_by_snoc, <- labels_of_denotes by auto.
           destruct (dict_get (ins_of x) d) as [s0|] eqn:G0.
           ++ destruct (D _ _ G0) as [N0 I0]. rewrite I, I0; auto; [reflexivity|].
              intros k Hk. apply I0 in Hk. destruct Hk as (y & Hy & Dy).
              rewrite forallb_forall in Hl. apply (denotes_label m y (ins_of x, k)); auto.
           ++ rewrite I. split; auto. intros [(y & Hy & Dy)|]; auto. exfalso.
              apply dict_get_none in G0. apply G0. rewrite K, first_occ_in. apply in_map_iff.
              exists y. split; auto. apply denotes_ins in Dy. now rewrite <- Dy.
      * destruct (D _ _ G) as [N0 I0]. split; auto. intro j. rewrite I0, denoted_by_snoc.
        split; auto. intros [|Dx]; auto. apply denotes_ins in Dx. simpl in Dx. apply Z.eqb_neq in F. congruence.
Qed.

Lemma full_set_length m s : 0 < m -> NoDup s -> (forall j, In j s -> 0 <= j < m) ->
  (Z.of_nat (List.length s) = m <-> forall j, 0 <= j < m -> In j s).
Proof.
  intros Hm N R. split.
  - intros L j Hj. apply in_zrange in Hj.
    assert (X : incl (zrange m) s).
    { apply NoDup_length_incl; auto; [rewrite zrange_length; lia|]. intros k Hk. apply in_zrange. auto. }
    apply X, Hj.
  - intro F. assert (X : Permutation s (zrange m)).
    { apply NoDup_Permutation; auto using NoDup_zrange. intro j. rewrite in_zrange. split; auto. }
    apply Permutation_length in X. rewrite zrange_length in X. lia.
Qed.

Lemma integrate_spec chk m l : 0 < m -> (chk = true -> l <> []) -> forallb (labels_ok m) l = true ->
  exists r, integrate_idx chk (Some m) l = Ok r /\
  map ins_of r = first_occ (map ins_of l) /\
  (forall p, denoted_by m r p <-> denoted_by m l p) /\
  (forall i, In (IOne i) r <-> In i (map ins_of l) /\ forall j, 0 <= j < m -> denoted_by m l (i, j)) /\
  (forall x, In x r -> match x with
                       | IOne _ => True
                       | IManyT i js => NoDup js /\ forall j, In j js <-> denoted_by m l (i, j)
                       | _ => False end).
Proof.
  intros Hm Hc Hl. unfold integrate_idx.
  assert (C : (if chk then check_index l else Ok tt) = Ok tt).
  { destruct chk; auto. destruct l; auto. exfalso; now apply Hc. }
  rewrite C. cbn [bind]. destruct (0 <? m) eqn:E; [|lia]. cbn [bind].
  destruct (integrate_inv m l Hl) as [K D]. set (d := fold_left (integrate_step m) l []) in *.
  assert (ND : NoDup (map fst d)) by (rewrite K; apply first_occ_NoDup).
  assert (R : forall i s, dict_get i d = Some s -> forall j, In j s -> 0 <= j < m).
  { intros i s G j Hj. apply (D _ _ G) in Hj. destruct Hj as (x & Hx & Dx).
    rewrite forallb_forall in Hl. apply (denotes_label m x (i, j)); auto. }
  exists (map (integrate_out m) d). split; auto. split; [|split; [|split]].
  - rewrite map_map, <- K. apply map_ext. intros [i s]. unfold integrate_out; simpl.
    destruct (_ =? m); reflexivity.
  - intros [i j]. split.
    + intros (x & Hx & Dx). apply in_map_iff in Hx. destruct Hx as ([k s] & <- & Hd).
      apply dict_get_in in Hd; auto. destruct (D _ _ Hd) as [N I].
      unfold integrate_out in Dx; simpl in Dx.
      destruct (Z.of_nat (List.length s) =? m) eqn:L; simpl in Dx.
      * destruct Dx as [-> Dj]. apply I. apply Z.eqb_eq in L. now apply (proj1 (full_set_length m s Hm N (R _ _ Hd)) L).
      * destruct Dx as (-> & Dj & _). now apply I.
    + intros (x & Hx & Dx).
      assert (Hi : In i (map fst d)).
      { rewrite K, first_occ_in. apply in_map_iff. exists x. split; auto. apply denotes_ins in Dx. now rewrite <- Dx. }
      destruct (dict_get i d) as [s|] eqn:G; [|apply dict_get_none in G; contradiction].
      destruct (D _ _ G) as [N I].
      assert (Hj : In j s) by (apply I; exists x; auto).
      exists (integrate_out m (i, s)). split.
      * apply in_map. now apply dict_get_in.
      * unfold integrate_out; simpl. destruct (Z.of_nat (List.length s) =? m) eqn:L; simpl.
        -- split; auto. eapply R; eauto.
        -- repeat split; auto; eapply R; eauto.
  - intro i. rewrite in_map_iff. split.
    + intros ([k s] & Eo & Hd). apply dict_get_in in Hd; auto. destruct (D _ _ Hd) as [N I].
      unfold integrate_out in Eo; simpl in Eo.
      destruct (Z.of_nat (List.length s) =? m) eqn:L; [|discriminate]. injection Eo as ->. split.
      * rewrite <- first_occ_in, <- K. apply in_map_iff. exists (i, s). split; auto. now apply dict_get_in.
      * intros j Hj. apply I. apply Z.eqb_eq in L. now apply (proj1 (full_set_length m s Hm N (R _ _ Hd)) L).
    + intros [Hi Hf]. rewrite <- first_occ_in, <- K in Hi.
      destruct (dict_get i d) as [s|] eqn:G; [|apply dict_get_none in G; contradiction].
      destruct (D _ _ G) as [N I]. exists (i, s). split; [|now apply dict_get_in].
      unfold integrate_out; simpl.
      assert (L : Z.of_nat (List.length s) = m).
      { apply full_set_length; auto; [eapply R; eauto|]. intros j Hj. apply I. auto. }
      apply Z.eqb_eq in L. now rewrite L.
  - intros x Hx. apply in_map_iff in Hx. destruct Hx as ([k s] & <- & Hd).
    apply dict_get_in in Hd; auto. unfold integrate_out; simpl.
    destruct (Z.of_nat (List.length s) =? m) eqn:L; auto.
Qed.

Lemma labels_scalar_ok m x : labels_ok m x = true -> scalar_ok m x = true.
Proof. destruct x; simpl; auto; discriminate. Qed.

Lemma flat_denoted_by m l p : forallb (scalar_ok m) l = true ->
  (In p (flat_map (denoted m) l) <-> denoted_by m l p).
Proof.
  intro H. rewrite forallb_forall in H. rewrite in_flat_map. unfold denoted_by.
  split; intros (x & Hx & D); exists x; split; auto; apply denoted_in; auto.
Qed.

Lemma denoted_NoDup m x : match x with IManyT _ js | IManyL _ js => NoDup js | _ => True end ->
  NoDup (denoted m x).
Proof.
  assert (Inj : forall i (l : list Z), NoDup l -> NoDup (map (fun j => (i : Z, j)) l)).
  { intros i l N. apply FinFun.Injective_map_NoDup; auto. intros a b E; congruence. }
  destruct x; simpl; intro H.
  - apply Inj, NoDup_zrange.
  - constructor; [intros []|constructor].
  - apply Inj, NoDup_filter, H.
  - apply Inj, NoDup_filter, H.
  - constructor; [intros []|constructor].
Qed.

Lemma flatten_integrated chk chk' m l r : 0 < m -> (chk = true -> l <> []) ->
  forallb (labels_ok m) l = true ->
  integrate_idx chk (Some m) l = Ok r -> l <> [] ->
  exists ps, flatten_idx chk' (Some m) r = Ok ps /\ NoDup ps /\ forall p, In p ps <-> denoted_by m l p.
Proof.
  intros Hm Hc Hl E Hn.
  destruct (integrate_spec chk m l Hm Hc Hl) as (r' & E' & K & D & O & F).
  assert (r' = r) by congruence. subst r'. clear E'.
  assert (Sc : forallb (scalar_ok m) r = true).
  { apply forallb_forall. intros x Hx. specialize (F x Hx). destruct x; simpl; auto; contradiction. }
  exists (flat_map (denoted m) r). rewrite flatten_spec. split; [|split].
  - destruct r as [|y r].
    + exfalso. destruct l as [|x l]; [congruence|]. simpl in K. discriminate.
    + destruct (0 <? m) eqn:P; [|lia]. now rewrite Sc.
  - assert (N : NoDup (map ins_of r)) by (rewrite K; apply first_occ_NoDup).
    assert (F' : forall x, In x r -> match x with IManyT _ js | IManyL _ js => NoDup js | _ => True end).
    { intros x Hx. specialize (F x Hx). destruct x; auto; tauto. }
    clear - N F'. induction r as [|x r IH]; simpl; [constructor|].
    simpl in N. inversion N as [|? ? N1 N2]; subst.
    apply NoDup_app_intro.
    + apply denoted_NoDup. apply F'. now left.
    + apply IH; auto. intros; apply F'; now right.
    + intros p Hp Hq. apply N1. apply in_flat_map in Hq. destruct Hq as (y & Hy & Hq).
      assert (X : forall z, In p (denoted m z) -> fst p = ins_of z).
      { clear. intros z Hz. destruct z; simpl in Hz; rewrite ?in_map_iff in Hz; simpl;
        try (destruct Hz as (j & <- & _); reflexivity); destruct Hz as [<-|[]]; reflexivity. }
      apply X in Hp. apply X in Hq. apply in_map_iff. exists y. split; auto. congruence.
  - intro p. rewrite flat_denoted_by by exact Sc. apply D.
Qed.

(** *** Instances *)
Lemma zinsert_in x l y : In y (zinsert x l) <-> y = x \/ In y l.
Proof.
  induction l as [|z l IH]; simpl; [intuition|].
  destruct (x <? z) eqn:E; [simpl; intuition|]. destruct (x =? z) eqn:F.
  - apply Z.eqb_eq in F. subst. simpl. intuition.
  - simpl. rewrite IH. intuition.
Qed.

Lemma zinsert_sorted x l : StronglySorted Z.lt l -> StronglySorted Z.lt (zinsert x l).
Proof.
  induction 1 as [|z l S IH F]; simpl.
  - constructor; constructor.
  - destruct (x <? z) eqn:E.
    + constructor; [now constructor|]. constructor; [lia|]. eapply Forall_impl; [|exact F]. intros; lia.
    + destruct (x =? z) eqn:G; [now constructor|]. constructor; auto.
      apply Forall_forall. intros y Hy. apply zinsert_in in Hy. destruct Hy as [->|Hy]; [lia|].
      rewrite Forall_forall in F. now apply F.
Qed.

Lemma zunique_in l x : In x (zunique l) <-> In x l.
Proof. induction l as [|y l IH]; simpl; [tauto|]. rewrite zinsert_in, IH. intuition. Qed.
Lemma zunique_sorted l : StronglySorted Z.lt (zunique l).
Proof. induction l; simpl; [constructor|now apply zinsert_sorted]. Qed.
Lemma zsorted_NoDup l : StronglySorted Z.lt l -> NoDup l.
Proof.
  induction 1 as [|z l S IH F]; constructor; auto. intro H. rewrite Forall_forall in F.
  specialize (F z H). lia.
Qed.
Lemma zunique_NoDup l : NoDup (zunique l).
Proof. apply zsorted_NoDup, zunique_sorted. Qed.

Lemma good_labels_ok m c : good m c -> forallb (labels_ok m) (mcont c) = true.
Proof.
  intros (_ & _ & _ & F & _). apply forallb_forall. intros x Hx. rewrite Forall_forall in F.
  specialize (F x Hx). destruct x; simpl in *; try contradiction. lia.
Qed.

Lemma good_denoted m c p : good m c -> (denoted_by m (mcont c) p <-> In p (pairs c)).
Proof.
  intros (_ & _ & _ & F & _). rewrite Forall_forall in F. destruct p as [i j]. rewrite in_pairs. split.
  - intros (x & Hx & D). specialize (F x Hx). destruct x; simpl in *; try contradiction. congruence.
  - intro H. exists (IPair i j). split; auto. reflexivity.
Qed.

Lemma instances_lemma m c : ml_reachable m c ->
  exists u b, ml_unbroken c = Ok u /\ ml_broken c = Ok b /\
  (forall i, In i u <-> forall j, 0 <= j < m -> In (i, j) (pairs c)) /\
  (forall i, In i b <-> (exists j, In (i, j) (pairs c)) /\ exists j, 0 <= j < m /\ ~ In (i, j) (pairs c)) /\
  NoDup u /\ NoDup b /\ (forall i, In i u -> ~ In i b) /\
  (forall i, In i (ml_instance_index c) <-> exists j, In (i, j) (pairs c)) /\
  Permutation (u ++ b) (ml_instance_index c) /\ StronglySorted Z.lt (ml_instance_index c).
Proof.
  intro R. apply reachable_good in R. pose proof R as (G1 & G2 & G3 & G4 & G5).
  assert (Hc : false = true -> mcont c <> []) by discriminate.
  destruct (integrate_spec false m (mcont c) G3 Hc (good_labels_ok m c R))
    as (r & E & K & D & O & F).
  unfold ml_unbroken, ml_broken. rewrite G2, E. cbn [bind].
  set (u := map ins_of (filter len_is_1 r)).
  set (b := map ins_of (filter (fun x => negb (len_is_1 x)) r)).
  exists u, b. split; auto. split; auto.
  assert (ND : NoDup (map ins_of r)) by (rewrite K; apply first_occ_NoDup).
  assert (P : Permutation (u ++ b) (map ins_of r)).
  { unfold u, b. clear. induction r as [|x r IH]; simpl; auto. destruct (len_is_1 x); simpl.
    - now constructor.
    - rewrite <- Permutation_middle. now constructor. }
  assert (NDub : NoDup (u ++ b)) by (apply (Permutation_NoDup (Permutation_sym P)); auto).
  apply NoDup_app_inv in NDub. destruct NDub as (N1 & N2 & N3).
  assert (I : forall i, In i (ml_instance_index c) <-> exists j, In (i, j) (pairs c)).
  { intro i. unfold ml_instance_index. rewrite zunique_in, in_map_iff. split.
    - intros (x & <- & Hx). rewrite Forall_forall in G4. specialize (G4 x Hx).
      destruct x as [|a k| | |]; simpl in *; try contradiction. exists k. now apply in_pairs.
    - intros (j & Hj). exists (IPair i j). split; auto. now apply in_pairs. }
  assert (U : forall i, In i u <-> forall j, 0 <= j < m -> In (i, j) (pairs c)).
  { intro i. unfold u. rewrite in_map_iff. split.
    - intros (x & <- & Hx). apply filter_In in Hx. destruct Hx as [Hx L].
      destruct x as [a| | | |]; try discriminate. simpl. apply O in Hx. destruct Hx as [_ Hx].
      intros j Hj. apply (good_denoted m c _ R). auto.
    - intro H. exists (IOne i). split; auto. apply filter_In. split; auto. apply O. split.
      + specialize (H 0 ltac:(lia)). apply in_pairs in H. apply in_map_iff. exists (IPair i 0). auto.
      + intros j Hj. apply (good_denoted m c _ R). auto. }
  assert (PI : Permutation (u ++ b) (ml_instance_index c)).
  { rewrite P, K. apply NoDup_Permutation; auto using first_occ_NoDup.
    - apply zunique_NoDup.
    - intro i. rewrite first_occ_in. unfold ml_instance_index. now rewrite zunique_in. }
  split; [exact U|]. split.
  - intro i. split.
    + intro Hb. assert (Hi : In i (ml_instance_index c)).
      { apply (Permutation_in _ PI). apply in_or_app. now right. }
      split; [now apply I|].
      assert (Hu : ~ In i u) by (intro Hu; now apply (N3 i)).
      unfold b in Hb. apply in_map_iff in Hb. destruct Hb as (x & <- & Hx). apply filter_In in Hx.
      destruct Hx as [Hx L]. specialize (F x Hx). destruct x as [a|a k|a js|a js|a k]; try contradiction.
      * discriminate.
      * simpl in *. destruct F as [Njs Ijs].
        assert (A : Exists (fun j => ~ In j js) (zrange m)).
        { apply neg_Forall_Exists_neg; [intro; apply in_dec, Z.eq_dec|]. intro A. apply Hu. apply U.
          intros j Hj. rewrite Forall_forall in A. apply in_zrange in Hj. specialize (A j Hj).
          apply Ijs in A. now apply (good_denoted m c). }
        apply Exists_exists in A. destruct A as (j & Hj & Nj). exists j. apply in_zrange in Hj.
        split; auto. intro H. apply Nj, Ijs. now apply (good_denoted m c).
    + intros [Hj (j & Hr & Hn)]. apply I in Hj. apply (Permutation_in _ (Permutation_sym PI)) in Hj.
      apply in_app_iff in Hj. destruct Hj as [Hu|Hb]; auto. exfalso. apply Hn. now apply U.
  - repeat split; auto; try apply I. apply zunique_sorted.
Qed.

(** *** Inferring the label size *)
Lemma fold_max_spec l : forall x, x <= fold_left Z.max l x /\
  (forall y, In y l -> y <= fold_left Z.max l x) /\ (fold_left Z.max l x = x \/ In (fold_left Z.max l x) l).
Proof.
  induction l as [|z l IH]; intro x; simpl.
  - repeat split; auto; try lia.
  - destruct (IH (Z.max x z)) as (A & B & C). repeat split.
    + lia.
    + intros y [<-|Hy]; [lia|auto].
    + destruct C as [C|C]; auto. rewrite C. destruct (Z.max_spec x z) as [[_ ->]|[_ ->]]; auto.
Qed.

Lemma infer_pairs chk l m : (forall x, In x l -> match x with IOne _ | IPair _ _ => True | _ => False end) ->
  (infer_label_size chk l = Ok m <->
   (exists i j, In (IPair i j) l /\ m = j + 1) /\ (forall i j, In (IPair i j) l -> j < m)).
Proof.
  intro H. unfold infer_label_size.
  set (scal := flat_map (fun x => match x with IPair _ j => [j] | _ => [] end) l).
  assert (Sc : forall j, In j scal <-> exists i, In (IPair i j) l).
  { intro j. unfold scal. rewrite in_flat_map. split.
    - intros (x & Hx & Hj). destruct x; simpl in Hj; try contradiction. destruct Hj as [->|[]]. eauto.
    - intros (i & Hi). exists (IPair i j). simpl. auto. }
  assert (Se : seconds l = map inl scal).
  { unfold seconds, scal. clear Sc scal. induction l as [|x l IH]; simpl; auto.
    rewrite map_app, <- IH by (intros; apply H; now right). specialize (H x (or_introl eq_refl)).
    destruct x; try contradiction; reflexivity. }
  assert (M : np_max_seconds (map inl scal) = match zmax_list scal with Some m => Ok m | None => Err TypeErr end).
  { unfold np_max_seconds.
    assert (A : flat_map (fun a : Z + list Z => match a with inl j => [j] | inr _ => [] end) (map inl scal) = scal).
    { clear. induction scal; simpl; congruence. }
    assert (B : flat_map (fun a : Z + list Z => match a with inl _ => [] | inr js => [List.length js] end) (map inl scal) = []).
    { clear. induction scal; simpl; congruence. }
    rewrite A, B. destruct scal; reflexivity. }
  assert (E2 : existsb len_is_2 l = true <-> scal <> []).
  { rewrite existsb_exists. split.
    - intros (x & Hx & L) Hs. specialize (H x Hx). destruct x; try contradiction; try discriminate.
      assert (In j scal) by (apply Sc; eauto). rewrite Hs in H0. destruct H0.
    - intro Hs. destruct scal as [|j s]; [congruence|]. destruct (proj1 (Sc j) (or_introl eq_refl)) as [i Hi].
      exists (IPair i j). auto. }
  assert (Res : (if existsb len_is_2 l then m0 <- np_max_seconds (seconds l);; Ok (m0 + 1)
           else if forallb len_is_1 l then Err GenericErr else Err ValueErr) = Ok m <->
         (exists i j, In (IPair i j) l /\ m = j + 1) /\ (forall i j, In (IPair i j) l -> j < m)).
  { rewrite Se, M. destruct (existsb len_is_2 l) eqn:E.
    - assert (Hs : scal <> []) by (now apply E2). destruct scal as [|x s]; [congruence|].
      simpl. destruct (fold_max_spec s x) as (A & B & C). split.
      + intro Q. injection Q as <-. split.
        * assert (I : In (fold_left Z.max s x) (x :: s)) by (destruct C as [->|C]; simpl; auto).
          apply Sc in I. destruct I as [i Hi]. eauto.
        * intros i j Hi. assert (I : In j (x :: s)) by (apply Sc; eauto).
          destruct I as [->|I]; [lia|]. specialize (B j I). lia.
      + intros [(i & j & Hi & ->) U]. f_equal. f_equal.
        assert (I : In j (x :: s)) by (apply Sc; eauto).
        assert (I' : In (fold_left Z.max s x) (x :: s)) by (destruct C as [->|C]; simpl; auto).
        apply Sc in I'. destruct I' as [i' Hi']. specialize (U _ _ Hi').
        assert (j <= fold_left Z.max s x) by (destruct I as [->|I]; [lia|auto]). lia.
    - split; [destruct (forallb _ _); discriminate|]. intros [(i & j & Hi & _) _].
      assert (X : existsb len_is_2 l = true) by (apply existsb_exists; exists (IPair i j); auto). congruence. }
  destruct chk; [|exact Res]. destruct l as [|x l]; [|exact Res].
  simpl. split; [discriminate|]. intros [(i & j & [] & _) _].
Qed.
