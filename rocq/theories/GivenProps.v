(** Property C114: the label sets made from lists of indexes. *)
From Verif Require Import Base BaseFacts IndexModel IndexSpec IndexProofs IndexProps MLModel MLSpec MLProofs MLProofs2 MLProofs3 MLProps MLProps2 SelfProofs
  StateModel ToolModel GivenModel GivenSpec.
Local Open Scope Z_scope.

Lemma all_keys l : all_some (map key_of (map (fun i => EKey (KInt i)) l)) = Some (map KInt l).
Proof. induction l as [|x l IH]; cbn; auto. now rewrite IH. Qed.
Lemma tuples_back l : mapM tuple (map ETup l) = Ok l.
Proof. induction l as [|x l IH]; cbn; auto. now rewrite IH. Qed.
Lemma tuples_pass l : l <> [] -> check (tuples l) = Ok tt.
Proof.
  intro N. destruct l as [|x l]; [congruence|]. unfold check, tuples. cbn [map].
  assert (E : forallb is_tup (ETup x :: map ETup l) = true).
  { cbn. clear N. induction l; cbn; auto. }
  now rewrite E.
Qed.
Lemma numbers_fail l : check (numbers l) = Err TypeErr.
Proof. destruct l; reflexivity. Qed.
Lemma index_numbers l : exists c, as_index (numbers l) = Ok (MIdx c) /\ holds_instances c l.
Proof.
  unfold as_index, numbers. rewrite all_keys. eexists. split; [reflexivity|].
  destruct l as [|x l].
  - exists []. cbn. split; auto. split; [constructor|tauto].
  - set (ls := map VKey (map KInt (x :: l))).
    assert (N : ls <> []) by discriminate.
    assert (En : map norm ls = map KInt (x :: l)) by (unfold ls; rewrite map_map; cbn [norm]; now rewrite map_id).
    assert (T : forall v w, In v ls -> In w ls -> key_ty (norm v) = key_ty (norm w)).
    { assert (T : forall v, In v ls -> key_ty (norm v) = TInt).
      { intros v Hv. apply (in_map norm) in Hv. rewrite En in Hv. apply in_map_iff in Hv. destruct Hv as (z & <- & _). reflexivity. }
      intros v w Hv Hw. now rewrite (T v), (T w). }
    destruct (C02_construction ls N T) as (I & S & _).
    set (c := fst (ic_init (DList ls))) in *. unfold elems in I, S.
    assert (Hs : exists s, map norm (cont c) = map KInt s).
    { assert (K : forall k, In k (map norm (cont c)) -> exists z, k = KInt z).
      { intros k Hk. apply I in Hk. rewrite En in Hk. apply in_map_iff in Hk. destruct Hk as (z & <- & _). eauto. }
      clear - K. induction (map norm (cont c)) as [|k ks IH]; [now exists []|].
      destruct IH as [s ->]; [intros; apply K; now right|]. destruct (K k (or_introl eq_refl)) as [z ->]. now exists (z :: s). }
    destruct Hs as [s Hs]. exists s. split; auto. rewrite Hs in S, I. split.
    + clear - S. induction s as [|z s IH]; [constructor|]. cbn in S. inversion S as [|? ? S1 S2]. subst. constructor; [now apply IH|].
      rewrite Forall_forall in *. intros y Hy. specialize (S2 (KInt y) (in_map KInt s y Hy)). unfold key_lt in S2. cbn in S2. now apply Z.compare_lt_iff.
    + intro i. assert (J : forall l0, In (KInt i) (map KInt l0) <-> In i l0).
      { intro l0. rewrite in_map_iff. split; [intros (z & E & Hz); now injection E as <-|eauto]. }
      rewrite <- !J, I, En. reflexivity.
Qed.

(** Lists of instance numbers make index collections that hold exactly the numbers of each list, in a recorder and in a
    threaded experiment, whatever the labels; an empty list makes an empty collection. *)
Theorem C114_instances : forall L U,
  exists l u, holds_instances l L /\ holds_instances u U /\
    recorder_sets (numbers L) (numbers U) = Ok (MIdx l, MIdx u) /\
    forall columns, thread_sets columns (numbers L) (numbers U) = Ok (MIdx l, MIdx u).
Proof.
  intros L U. destruct (index_numbers L) as (l & El & Hl). destruct (index_numbers U) as (u & Eu & Hu).
  exists l, u. split; auto. split; auto.
  assert (K : forall sz, sets_of sz (numbers L) (numbers U) = Ok (MIdx l, MIdx u)).
  { intro sz. unfold sets_of, numbers at 1 2. rewrite numbers_fail. cbn [bind]. now rewrite El, Eu. }
  split; [apply K|intro; apply K].
Qed.
Print Assumptions C114_instances.

Example C114_instances_case : exists l u,
  recorder_sets (numbers [7; 3; 7]) (numbers []) = Ok (MIdx l, MIdx u) /\ map norm (cont l) = [KInt 3; KInt 7] /\ cont u = [].
Proof. eexists _, _. split; [reflexivity|]. split; reflexivity. Qed.

Lemma labels_made m l : 0 < m -> l <> [] -> forallb (scalar_ok m) l = true ->
  exists c, as_labels (Some m) (tuples l) = Ok c /\ ml_reachable m c /\ holds_pairs m c l.
Proof.
  intros Hm Hl Hs. destruct (proj1 (C05_construction l m Hl Hm) Hs) as (c & w & E & R & N & I & _).
  exists c. unfold as_labels, tuples. rewrite tuples_back. cbn [bind]. rewrite E. split; [reflexivity|]. split; auto.
  destruct (C05_only_pairs m c R) as (E1 & E2 & _). unfold holds_pairs. auto.
Qed.
Lemma labels_bad m l : 0 < m -> l <> [] -> forallb (scalar_ok m) l = false -> as_labels (Some m) (tuples l) = Err AssertErr.
Proof.
  intros Hm Hl Hs. unfold as_labels, tuples. rewrite tuples_back. cbn [bind]. now rewrite (proj2 (C05_construction l m Hl Hm) Hs).
Qed.

(** A threaded experiment makes from two non-empty lists of tuples the multi-label collections of the label matrix that
    hold exactly the pairs the lists stand for, and only a label outside of the matrix is refused. *)
Theorem C114_threads_pairs : forall m L U, 0 < m -> L <> [] -> U <> [] ->
  (forallb (scalar_ok m) (L ++ U) = true ->
   exists l u, thread_sets (Some m) (tuples L) (tuples U) = Ok (MMl l, MMl u) /\ ml_reachable m l /\ ml_reachable m u /\
     holds_pairs m l L /\ holds_pairs m u U) /\
  (forallb (scalar_ok m) (L ++ U) = false -> thread_sets (Some m) (tuples L) (tuples U) = Err AssertErr).
Proof.
  intros m L U Hm HL HU. rewrite forallb_app. split; intro H.
  - apply andb_true_iff in H. destruct H as [A B].
    destruct (labels_made m L Hm HL A) as (l & El & Rl & Pl). destruct (labels_made m U Hm HU B) as (u & Eu & Ru & Pu).
    exists l, u. split; auto. unfold thread_sets, sets_of, tuples at 1 2. rewrite (tuples_pass L HL), (tuples_pass U HU).
    cbn [bind]. now rewrite Eu, El.
  - unfold thread_sets, sets_of, tuples at 1 2. rewrite (tuples_pass L HL), (tuples_pass U HU). cbn [bind].
    destruct (forallb (scalar_ok m) U) eqn:B.
    + destruct (labels_made m U Hm HU B) as (u & Eu & _). rewrite Eu. cbn [bind]. rewrite andb_true_r in H.
      now rewrite (labels_bad m L Hm HL H).
    + now rewrite (labels_bad m U Hm HU B).
Qed.
Print Assumptions C114_threads_pairs.

Example C114_threads_pairs_case : exists l u,
  thread_sets (Some 3) (tuples [IOne 4]) (tuples [IPair 5 2; IManyL 6 [0; 1]]) = Ok (MMl l, MMl u) /\
  pairs l = [(4, 0); (4, 1); (4, 2)] /\ pairs u = [(5, 2); (6, 0); (6, 1)] /\
  thread_sets (Some 3) (tuples [IPair 4 3]) (tuples [IPair 5 2]) = Err AssertErr.
Proof. eexists _, _. split; [reflexivity|]. repeat split. Qed.

(** Pairs with a vector of labels are refused: entries of features cannot be queried in threads unless the labels are a
    matrix, and then only the first features, as many as there are labels. *)
Theorem C114_threads_features_refuted : forall L U, L <> [] -> U <> [] ->
  thread_sets None (tuples L) (tuples U) = Err AssertErr /\
  forall m i f, 0 < m -> m <= f -> In (IPair i f) (L ++ U) -> thread_sets (Some m) (tuples L) (tuples U) = Err AssertErr.
Proof.
  intros L U HL HU. split.
  - unfold thread_sets, sets_of, tuples at 1 2. now rewrite (tuples_pass L HL), (tuples_pass U HU).
  - intros m i f Hm Hf I. apply C114_threads_pairs; auto. destruct (forallb (scalar_ok m) (L ++ U)) eqn:E; auto.
    rewrite forallb_forall in E. specialize (E _ I). cbn in E. lia.
Qed.
Print Assumptions C114_threads_features_refuted.

Example C114_threads_features_case : thread_sets None (tuples [IPair 0 0]) (tuples [IPair 0 1]) = Err AssertErr /\
  thread_sets (Some 2) (tuples [IPair 0 0]) (tuples [IPair 0 1; IPair 0 2]) = Err AssertErr.
Proof. split; reflexivity. Qed.

Lemma index_not_labels a x : as_index a = Ok x -> ~ is_labels x.
Proof.
  destruct a as [[c|c]|l]; cbn [as_index].
  - intro E. injection E as <-. cbn. tauto.
  - destruct (mcont c) as [|y l]; [intro E; injection E as <-; cbn; tauto|].
    destruct (all_some _); [|discriminate]. intro E. injection E as <-. cbn. tauto.
  - destruct (all_some (map key_of l)); [intro E; injection E as <-; cbn; tauto|].
    destruct (all_some (map row_of l)) as [[|r rows]|]; try discriminate.
    destruct (forallb _ _); [|discriminate]. intro E. injection E as <-. cbn. tauto.
Qed.
Lemma pair_rows l : (forall x, In x l -> exists i j, x = IPair i j) -> exists rows,
  all_some (map row_of (map ETup l)) = Some rows /\ rows = map (fun x => match x with IPair i j => [i; j] | _ => [] end) l /\
  forall r, In r rows -> List.length r = 2%nat.
Proof.
  induction l as [|x l IH]; intro H.
  - exists []. cbn. repeat split; auto. intros r [].
  - destruct IH as (rows & E1 & E2 & E3); [intros; apply H; now right|].
    destruct (H x (or_introl eq_refl)) as (i & j & ->). exists ([i; j] :: rows). cbn [map row_of all_some option_map]. rewrite E1.
    split; auto. split; [now rewrite E2|]. intros r [<-|Hr]; auto.
Qed.

(** If one of the lists is empty, tuples are never made a multi-label collection: of pairs, an index collection is made
    whose elements are rows of two numbers. *)
Theorem C114_one_side_empty_refuted : forall size l, l <> [] ->
  (forall a b, sets_of size (tuples []) (tuples l) = Ok (a, b) \/ sets_of size (tuples l) (tuples []) = Ok (a, b) ->
     ~ is_labels a /\ ~ is_labels b) /\
  ((forall x, In x l -> exists i j, x = IPair i j) ->
   exists rows none, sets_of size (tuples []) (tuples l) = Ok (MIdx none, MRows rows) /\ cont none = [] /\
     sets_of size (tuples l) (tuples []) = Ok (MRows rows, MIdx none) /\ NoDup rows /\
     forall i j, In [i; j] rows <-> In (IPair i j) l).
Proof.
  intros size l Hl.
  assert (E1 : sets_of size (tuples []) (tuples l) = (u <- as_index (tuples l);; l0 <- as_index (tuples []);; Ok (l0, u))) by reflexivity.
  assert (E2 : sets_of size (tuples l) (tuples []) = (u <- as_index (tuples []);; l0 <- as_index (tuples l);; Ok (l0, u))).
  { unfold sets_of, tuples at 1 2. rewrite (tuples_pass l Hl). reflexivity. }
  rewrite E1, E2. split.
  - intros a b [H|H]; [destruct (as_index (tuples l)) as [u|] eqn:Eu; [|discriminate]|destruct (as_index (tuples [])) as [u|] eqn:Eu; [|discriminate]];
      cbn [bind] in H; [destruct (as_index (tuples [])) as [v|] eqn:Ev|destruct (as_index (tuples l)) as [v|] eqn:Ev]; try discriminate;
      cbn [bind] in H; injection H as <- <-; split; eapply index_not_labels; eauto.
  - intro H. destruct (pair_rows l H) as (rows & R1 & R2 & R3).
    exists (nodup (list_eq_dec Z.eq_dec) rows), {| cont := []; etype := None |}.
    assert (E : as_index (tuples l) = Ok (MRows (nodup (list_eq_dec Z.eq_dec) rows))).
    { unfold as_index, tuples. rewrite R1. destruct l as [|x l]; [congruence|].
      assert (K : all_some (map key_of (map ETup (x :: l))) = None) by reflexivity. rewrite K.
      destruct rows as [|r rows]; [discriminate|]. rewrite (proj2 (forallb_forall _ _)); auto.
      intros r' Hr'. apply Nat.eqb_eq. rewrite (R3 r), (R3 r'); auto; [now right|now left]. }
    rewrite E. cbn [bind as_index tuples map all_some ic_init fst]. repeat split; auto; [apply NoDup_nodup| |].
    + rewrite nodup_In, R2, in_map_iff. intros (x & Ex & Hx). destruct (H x Hx) as (a & b & ->). now injection Ex as <- <-.
    + rewrite nodup_In, R2, in_map_iff. intro Hx. now exists (IPair i j).
Qed.
Print Assumptions C114_one_side_empty_refuted.

Example C114_one_side_empty_case :
  recorder_sets (tuples []) (tuples [IPair 0 1; IPair 2 0; IPair 0 1]) = Ok (MIdx {| cont := []; etype := None |}, MRows [[2; 0]; [0; 1]]).
Proof. reflexivity. Qed.

(** A collection beside a list is copied so that it can no longer be changed. *)
Theorem C114_mixture_refuted : forall m l U, ml_reachable m l -> pairs l <> [] -> U <> [] -> forallb (scalar_ok m) U = true ->
  exists l' u, thread_sets (Some m) (ACol (CMl l)) (tuples U) = Ok (MMl l', MMl u) /\ pairs l' = pairs l /\ holds_pairs m u U /\
    forall i j, 0 <= j < m -> ~ In (i, j) (pairs l) -> ml_update true l' [IPair i j] = (l', Err AttrErr).
Proof.
  intros m l U R N HU Hs. destruct (C05_only_pairs m l R) as (Em & Es & Hm).
  destruct (labels_made m U Hm HU Hs) as (u & Eu & Ru & Pu).
  set (l' := {| mcont := mcont l; is_set := false; lsize := lsize l |}). exists l', u.
  split; [|split; [reflexivity|split; [exact Pu|]]].
  - unfold thread_sets, sets_of, tuples at 1. cbn [check bind]. rewrite (tuples_pass U HU). cbn [bind]. rewrite Eu. cbn [bind as_labels ml_init].
    destruct (mcont l) as [|x c] eqn:E; [|reflexivity]. exfalso. apply N. unfold pairs. now rewrite E.
  - intros i j Hj Hn. unfold ml_update. assert (El : lsize l' = Some m) by exact Es. rewrite El, flatten_spec. replace (0 <? m) with true by lia.
    cbn [forallb scalar_ok]. replace ((0 <=? j) && (j <? m)) with true by lia.
    cbn [andb flat_map denoted app map pair_idx fst snd ml_loop ml_add2]. rewrite El. cbn [ml_check existsb].
    replace (j >=? m) with false by lia. unfold ml_insert. cbn [pair_idx fst snd orb l' mcont is_set].
    change (pair_idx (i, j)) with (IPair i j). replace (idx_mem (IPair i j) (mcont l)) with false; [reflexivity|]. symmetry. apply idx_mem_not. intro I. apply Hn. now apply in_pairs.
Qed.
Print Assumptions C114_mixture_refuted.

Example C114_mixture_case : exists l l' u, ml_reachable 2 l /\ pairs l = [(0, 0)] /\
  thread_sets (Some 2) (ACol (CMl l)) (tuples [IPair 0 1]) = Ok (MMl l', MMl u) /\ ml_update true l' [IPair 0 1] = (l', Err AttrErr).
Proof.
  exists {| mcont := [IPair 0 0]; is_set := true; lsize := Some 2 |}. eexists _, _.
  split; [|repeat split]. eapply (mr_list 2 [IPair 0 0] (Some 2) _ []); [discriminate|reflexivity|reflexivity].
Qed.

Lemma infer_simple l m : simple l -> size_from l m -> infer_label_size false l = Ok m.
Proof.
  intros S [(i & I) B]. apply infer_pairs.
  - intros x Hx. specialize (S x Hx). destruct x; auto.
  - split; [|exact B]. exists i, (m - 1). split; auto. lia.
Qed.
Lemma size_pos l m : simple l -> size_from l m -> 0 < m.
Proof. intros S [(i & I) _]. specialize (S _ I). cbn in S. lia. Qed.
Lemma simple_ok l m : simple l -> size_from l m -> forallb (scalar_ok m) l = true.
Proof.
  intros S [_ B]. apply forallb_forall. intros x Hx. specialize (S x Hx). destruct x; cbn; auto; try contradiction.
  specialize (B _ _ Hx). lia.
Qed.
Lemma simple_size l : simple l -> (exists i j, In (IPair i j) l) -> exists m, size_from l m.
Proof.
  induction l as [|x l IH]; intros S (i & j & I); [destruct I|].
  assert (S' : simple l) by (intros y Hy; apply S; now right).
  destruct (existsb len_is_2 l) eqn:E.
  - apply existsb_exists in E. destruct E as (y & Hy & Ey). specialize (S' y Hy) as Sy. destruct y as [|a b| | |]; try discriminate; try contradiction.
    destruct (IH S' (ex_intro _ a (ex_intro _ b Hy))) as (m & (i1 & I1) & B). pose proof (S x (or_introl eq_refl)) as Sx.
    destruct x as [c|c d| | |]; try contradiction.
    + exists m. split; [exists i1; now right|]. intros i0 j0 [K|K]; [discriminate|eauto].
    + exists (Z.max m (d + 1)). split.
      * destruct (Z.max_spec m (d + 1)) as [[_ ->]|[_ ->]]; [exists c; left; f_equal; lia|exists i1; now right].
      * intros i0 j0 [K|K]; [injection K as <- <-; lia|]. specialize (B _ _ K). lia.
  - assert (N : forall i0 j0, ~ In (IPair i0 j0) l).
    { intros i0 j0 K. assert (T : existsb len_is_2 l = true) by (apply existsb_exists; now exists (IPair i0 j0)). congruence. }
    destruct I as [->|I]; [|now destruct (N _ _ I)]. exists (j + 1). split; [exists i; left; f_equal; lia|].
    intros i0 j0 [K|K]; [injection K as <- <-; lia|now destruct (N _ _ K)].
Qed.
Lemma labels_inferred l m : l <> [] -> simple l -> size_from l m ->
  exists c, as_labels None (tuples l) = Ok c /\ ml_reachable m c /\ holds_pairs m c l.
Proof.
  intros N S Z. destruct (labels_made m l (size_pos l m S Z) N (simple_ok l m S Z)) as (c & E & R & P).
  exists c. split; auto. unfold as_labels, tuples in *. rewrite tuples_back in *. cbn [bind] in *.
  destruct l as [|x l]; [congruence|]. cbn [ml_init] in *. rewrite (infer_simple _ m S Z). exact E.
Qed.
Lemma labels_whole l : l <> [] -> simple l -> (forall i j, ~ In (IPair i j) l) -> as_labels None (tuples l) = Err GenericErr.
Proof.
  intros N S W. unfold as_labels, tuples. rewrite tuples_back. cbn [bind].
  assert (E : infer_label_size false l = Err GenericErr).
  { apply C06_inferred_whole; [|discriminate]. intros x Hx. specialize (S x Hx). destruct x as [i|i j| | |]; try contradiction; [now exists i|].
    now destruct (W i j). }
  destruct l as [|x l]; [congruence|]. cbn [ml_init]. now rewrite E.
Qed.

(** A recorder made from two non-empty lists of tuples reads the number of labels off each list by itself, and cannot be
    made if one of them names no label. *)
Theorem C114_recorder_pairs : forall L U, L <> [] -> U <> [] -> simple L -> simple U ->
  (forall mL mU, size_from L mL -> size_from U mU ->
   exists l u, recorder_sets (tuples L) (tuples U) = Ok (MMl l, MMl u) /\ ml_reachable mL l /\ ml_reachable mU u /\
     holds_pairs mL l L /\ holds_pairs mU u U) /\
  ((exists i j, In (IPair i j) L) -> exists mL, size_from L mL) /\ ((exists i j, In (IPair i j) U) -> exists mU, size_from U mU) /\
  ((forall i j, ~ In (IPair i j) L) \/ (forall i j, ~ In (IPair i j) U) -> recorder_sets (tuples L) (tuples U) = Err GenericErr).
Proof.
  intros L U HL HU SL SU.
  assert (E : recorder_sets (tuples L) (tuples U) =
    match (u <- as_labels None (tuples U) ;; l <- as_labels None (tuples L) ;; Ok (MMl l, MMl u)) with
    | Err TypeErr => u <- as_index (tuples U) ;; l <- as_index (tuples L) ;; Ok (l, u)
    | r => r end).
  { unfold recorder_sets, sets_of, tuples at 1 2. now rewrite (tuples_pass L HL), (tuples_pass U HU). }
  split; [|split; [now apply simple_size|split; [now apply simple_size|]]].
  - intros mL mU ZL ZU. destruct (labels_inferred L mL HL SL ZL) as (l & El & Rl & Pl).
    destruct (labels_inferred U mU HU SU ZU) as (u & Eu & Ru & Pu). exists l, u. split; auto. now rewrite E, Eu, El.
  - intro W. rewrite E. destruct (existsb len_is_2 U) eqn:B.
    + apply existsb_exists in B. destruct B as (y & Hy & Ey). specialize (SU y Hy) as Sy. destruct y as [|a b| | |]; try discriminate; try contradiction.
      destruct (simple_size U SU) as [m Z]; [eauto|]. destruct (labels_inferred U m HU SU Z) as (u & -> & _). cbn [bind].
      destruct W as [W|W]; [now rewrite (labels_whole L HL SL W)|]. now destruct (W a b).
    + rewrite (labels_whole U HU SU); [reflexivity|]. intros i j K.
      assert (T : existsb len_is_2 U = true) by (apply existsb_exists; now exists (IPair i j)). congruence.
Qed.
Print Assumptions C114_recorder_pairs.

Example C114_recorder_pairs_case : exists l u,
  recorder_sets (tuples [IPair 0 0]) (tuples [IPair 0 1; IPair 1 0; IPair 1 1]) = Ok (MMl l, MMl u) /\ lsize l = Some 1 /\ lsize u = Some 2 /\
  recorder_sets (tuples [IOne 0]) (tuples [IPair 1 0; IPair 1 1]) = Err GenericErr.
Proof. eexists _, _. split; [reflexivity|]. repeat split. Qed.

(** A recorder after some queries (state_io.py 165-186). *)
Definition recorded (train test : list mlidx) (l u : mlic) (perf : sval mlidx) (sels : list (list mlidx)) : sio mlic mlidx :=
  with_states (sio_new train test l u) (map (fun sel => EState (state_init (inl sel) perf None None)) sels).

Lemma pair_denoted m sel p : (forall x, In x sel -> exists i j, x = IPair i j) ->
  (In p (flat_map (denoted m) sel) <-> In (IPair (fst p) (snd p)) sel).
Proof.
  intro P. rewrite in_flat_map. split.
  - intros (x & Hx & D). destruct (P x Hx) as (i & j & ->). cbn in D. destruct D as [<-|[]]. exact Hx.
  - intro H. exists (IPair (fst p) (snd p)). split; auto. cbn. left. now destruct p.
Qed.
Lemma replay_pairs mL mU perf sels : forall l u, good mL l -> good mU u ->
  (forall sel, In sel sels -> sel <> []) ->
  (forall sel x, In sel sels -> In x sel -> exists i j, x = IPair i j /\ 0 <= j < mU) ->
  match foldM (replay_one (ml_update true) (ml_difference_update true)) (l, u) (map (fun sel => EState (state_init (inl sel) perf None None)) sels) with
  | Ok (l', u') => (forall i j sel, In sel sels -> In (IPair i j) sel -> j < mL) /\
                   (forall p, In p (pairs l') <-> In p (pairs l) \/ exists sel, In sel sels /\ In (IPair (fst p) (snd p)) sel) /\
                   (forall p, In p (pairs u') <-> In p (pairs u) /\ ~ exists sel, In sel sels /\ In (IPair (fst p) (snd p)) sel)
  | Err e => e = AssertErr /\ exists i j sel, In sel sels /\ In (IPair i j) sel /\ mL <= j
  end.
Proof.
  induction sels as [|sel sels IH]; intros l u Gl Gu N P.
  - cbn [map foldM]. split; [intros i j sel []|]. split; intro p; split; intro H; auto.
    + destruct H as [H|(x & [] & _)]; auto.
    + split; auto. intros (x & [] & _).
    + tauto.
  - cbn [map foldM].
    pose proof (N sel (or_introl eq_refl)) as Ns.
    assert (Ps : forall x, In x sel -> exists i j, x = IPair i j /\ 0 <= j < mU) by (intros; eapply P; eauto; now left).
    assert (Ps' : forall x, In x sel -> exists i j, x = IPair i j) by (intros x Hx; destruct (Ps x Hx) as (i & j & -> & _); eauto).
    unfold replay_one at 1.
    assert (Es : sel_of (EState (state_init (inl sel) perf None None)) = Ok sel) by reflexivity.
    rewrite Es. cbn [bind fst snd].
    assert (Acc : forallb (scalar_ok mU) sel = true).
    { apply forallb_forall. intros x Hx. destruct (Ps x Hx) as (i & j & -> & Hj). cbn. lia. }
    destruct (ml_difference_any mU u true sel Gu (or_intror Ns) Acc) as (Gu' & [w Ew] & B).
    destruct (ml_difference_update true u sel) as [u1 o]. cbn [fst snd] in *. subst o.
    destruct (forallb (scalar_ok mL) sel) eqn:F.
    + destruct (ml_update_any mL l true sel Gl (or_intror Ns) F) as (Gl' & [w' Ew'] & B').
      destruct (ml_update true l sel) as [l1 o]. cbn [fst snd] in *. subst o. cbn [bind].
      specialize (IH l1 u1 Gl' Gu' (fun s H => N s (or_intror H)) (fun s x H => P s x (or_intror H))).
      destruct (foldM _ _ _) as [[l' u']|e].
      * destruct IH as (I1 & I2 & I3). split; [|split].
        -- intros i j s [<-|Hs] Hx; [|eauto]. rewrite forallb_forall in F. specialize (F _ Hx). cbn in F. lia.
        -- intro p. rewrite I2, B', (pair_denoted mL sel p Ps'). split.
           ++ intros [[H|H]|(s & Hs & H)]; auto; [right; exists sel; split; [now left|auto]|right; exists s; split; [now right|auto]].
           ++ intros [H|(s & [<-|Hs] & H)]; auto. right. eauto.
        -- intro p. rewrite I3, B, (pair_denoted mU sel p Ps'). split.
           ++ intros [[H1 H2] H3]. split; auto. intros (s & [<-|Hs] & H); eauto.
           ++ intros [H1 H2]. split; [split; auto|]; [intro H; apply H2; exists sel; split; [now left|auto]|].
              intros (s & Hs & H). apply H2. exists s. split; [now right|auto].
      * destruct IH as (-> & i & j & s & Hs & Hx & Hj). split; auto. exists i, j, s. split; [now right|]. auto.
    + pose proof Gl as (_ & Sz & Hm & _). unfold ml_update. rewrite Sz, flatten_spec, F.
      destruct sel as [|x sel]; [congruence|]. replace (0 <? mL) with true by lia. cbn [bind]. split; auto.
      assert (G : exists y, In y (x :: sel) /\ scalar_ok mL y = false).
      { clear - F. induction (x :: sel) as [|y k IH]; [discriminate|]. cbn in F. destruct (scalar_ok mL y) eqn:E.
        - destruct IH as (z & Hz & Ez); auto. exists z. split; [now right|auto].
        - exists y. split; [now left|auto]. }
      destruct G as (y & Hy & Ey). destruct (Ps y Hy) as (i & j & -> & Hj). exists i, j, (x :: sel). split; [now left|]. split; auto.
      cbn in Ey. lia.
Qed.

(** So the workspace of a recorder made from lists is rebuilt exactly if no query recorded a label larger than all labels
    of the initially labelled list; otherwise the record cannot be used, although every pair asked was unlabelled. *)
Theorem C114_replay : forall L U mL mU train test perf sels, L <> [] -> U <> [] -> simple L -> simple U ->
  size_from L mL -> size_from U mU ->
  (forall sel, In sel sels -> sel <> []) ->
  (forall sel x, In sel sels -> In x sel -> exists i j, x = IPair i j /\ exists y, In y U /\ denotes mU y (i, j)) ->
  exists l u, recorder_sets (tuples L) (tuples U) = Ok (MMl l, MMl u) /\
    ((forall i j sel, In sel sels -> In (IPair i j) sel -> j < mL) ->
     exists l' u', ml_workspace (recorded train test l u perf sels) None = Ok (train, test, l', u') /\
       (forall p, In p (pairs l') <-> In p (pairs l) \/ exists sel, In sel sels /\ In (IPair (fst p) (snd p)) sel) /\
       (forall p, In p (pairs u') <-> In p (pairs u) /\ ~ exists sel, In sel sels /\ In (IPair (fst p) (snd p)) sel)) /\
    ((exists i j sel, In sel sels /\ In (IPair i j) sel /\ mL <= j) ->
     ml_workspace (recorded train test l u perf sels) None = Err AssertErr).
Proof.
  intros L U mL mU train test perf sels HL HU SL SU ZL ZU N P.
  destruct (C114_recorder_pairs L U HL HU SL SU) as (E & _). destruct (E mL mU ZL ZU) as (l & u & El & Rl & Ru & _).
  exists l, u. split; auto.
  assert (P' : forall sel x, In sel sels -> In x sel -> exists i j, x = IPair i j /\ 0 <= j < mU).
  { intros sel x Hs Hx. destruct (P sel x Hs Hx) as (i & j & -> & y & Hy & D). exists i, j. split; auto.
    specialize (SU y Hy). destruct ZU as [_ B]. destruct y as [a|a b| | |]; try contradiction; cbn in D.
    - tauto.
    - injection D as -> ->. specialize (B _ _ Hy). lia. }
  pose proof (replay_pairs mL mU perf sels l u (reachable_good _ _ Rl) (reachable_good _ _ Ru) N P') as R.
  unfold ml_workspace, sio_workspace, sio_replay, recorded. cbn [with_states s_states s_L s_U s_train s_test sio_new].
  rewrite Nat2Z.id, firstn_all. replace ((0 <=? Z.of_nat _) && (Z.of_nat _ <=? Z.of_nat _)) with true by (rewrite map_length; lia).
  destruct (foldM _ _ _) as [[l' u']|e]; cbn [bind fst snd].
  - destruct R as (R1 & R2 & R3). split; [eauto 6|]. intros (i & j & sel & Hs & Hx & Hj). specialize (R1 i j sel Hs Hx). lia.
  - destruct R as (-> & i & j & sel & Hs & Hx & Hj). split; [|reflexivity]. intro K. specialize (K i j sel Hs Hx). lia.
Qed.
Print Assumptions C114_replay.

Example C114_replay_case : exists l u, recorder_sets (tuples [IPair 0 0]) (tuples [IPair 0 1; IPair 1 0; IPair 1 1]) = Ok (MMl l, MMl u) /\
  ml_workspace (recorded [] [] l u (SOther 0) [[IPair 1 0]]) None <> Err AssertErr /\
  ml_workspace (recorded [] [] l u (SOther 0) [[IPair 1 0]; [IPair 0 1]]) None = Err AssertErr /\
  simple [IPair 0 0] /\ size_from [IPair 0 0] 1 /\ size_from [IPair 0 1; IPair 1 0; IPair 1 1] 2.
Proof.
  eexists _, _. split; [reflexivity|]. split; [vm_compute; discriminate|]. split; [vm_compute; reflexivity|].
  split; [intros x [<-|[]]; lia|]. split; split.
  - exists 0. now left.
  - intros i j [K|[]]. injection K as <- <-. lia.
  - exists 0. now left.
  - intros i j [K|[K|[K|[]]]]; injection K as <- <-; lia.
Qed.
