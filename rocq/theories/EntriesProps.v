(** Property C129: the order in which entries about different indexes are given. *)
From Verif Require Import Base BaseFacts SetSpec SetFacts IndexModel IndexSpec IndexProofs IndexProps MLModel MLSpec StateModel StateProofs Dict
  OracleModel OracleSpec OracleProofs OracleProofs2 OracleProps RepoModel RepoSpec RepoProofs RepoProofs2 RepoProps EntriesSpec.
From Coq Require Import String QArith Permutation.
Local Open Scope Z_scope.
Local Notation length := List.length.

(** ** Permuting calls that are about different indexes *)

Lemma apart_inv {C} (idx : C -> list key) c h : apart idx (c :: h) <-> Forall (fun d => forall k, In k (idx c) -> ~ In k (idx d)) h /\ apart idx h.
Proof. split; [intro H; inversion H; auto|intros [F O]; now constructor]. Qed.

Lemma apart_perm {C} (idx : C -> list key) h h' : Permutation h h' -> apart idx h -> apart idx h'.
Proof.
  induction 1 as [|c h h' P IH|c d h|h1 h2 h3 P1 IH1 P2 IH2]; auto.
  - rewrite !apart_inv. intros [F A]. split; auto. apply Forall_forall. intros d I. rewrite Forall_forall in F. apply F. eapply Permutation_in; [apply Permutation_sym; exact P|exact I].
  - rewrite !apart_inv. intros (F & G & A). inversion F as [|? ? X F']; subst. repeat split; auto.
    constructor; auto. intros k I J. exact (X k J I).
Qed.

Lemma latest_swap {K V} dec (k : K) (a b r : list (K * V)) :
  (forall j, In j (map fst a) -> ~ In j (map fst b)) -> latest dec k (a ++ b ++ r) = latest dec k (b ++ a ++ r).
Proof.
  intro D. rewrite !latest_app. destruct (latest dec k r); auto.
  destruct (latest dec k a) as [v|] eqn:A, (latest dec k b) as [w|] eqn:B; auto.
  exfalso. apply latest_in in A, B. apply (D k); [apply in_map_iff; now exists (k, v)|apply in_map_iff; now exists (k, w)].
Qed.

Lemma latest_calls {C V} (idx : C -> list key) (facts : C -> list (key * V)) h h' :
  (forall c k, In k (map fst (facts c)) -> In k (idx c)) -> Permutation h h' -> apart idx h ->
  forall a k, latest key_dec k (a ++ flat_map facts h) = latest key_dec k (a ++ flat_map facts h').
Proof.
  intros S P. induction P as [|c h h' P IH|c d h|h1 h2 h3 P1 IH1 P2 IH2]; intros A a k; auto.
  - cbn [flat_map]. rewrite !app_assoc. apply IH. now apply apart_inv in A.
  - cbn [flat_map]. rewrite (latest_app _ _ a), (latest_app _ _ a). rewrite (latest_swap _ _ (facts d)); auto.
    apply apart_inv in A. destruct A as [F _]. inversion F as [|? ? X _]; subst. intros j I J. exact (X j (S _ _ I) (S _ _ J)).
  - rewrite IH1 by auto. apply IH2. eapply apart_perm; eauto.
Qed.

Lemma mapM_pointwise {A B} (f g : A -> res B) l : (forall x, In x l -> f x = g x) -> mapM f l = mapM g l.
Proof. induction l as [|x l IH]; intro H; [reflexivity|]. cbn. rewrite (H x), IH; auto; [intros; apply H; now right|now left]. Qed.

(** ** Oracles *)

Lemma prefix_in {T} (p : T -> bool) l x : In x (prefix_ok p l) -> In x l.
Proof. induction l as [|y l IH]; cbn; auto. destruct (p y); cbn; [|tauto]. intros [->|I]; auto. Qed.

Lemma learned_about T i c call k : In k (map fst (learned T i c call)) -> In k (told_about call).
Proof.
  unfold learned. rewrite map_map. intro H. apply in_map_iff in H. destruct H as ([[[l j] x] q] & <- & I). apply prefix_in in I.
  cbn. destruct call as [l' k' x' c'|ls ks xs cs]; cbn [offered told_about] in *.
  - destruct I as [I|[]]. injection I as <- <- _ _. now left.
  - destruct (well_formed (TMany ls ks xs cs)) eqn:W; [|destruct I]. apply in_map_iff in I. destruct I as (n & E & I).
    injection E as _ <- _ _. apply in_seq in I. cbn in W. rewrite !andb_true_iff in W. destruct W as ((W & _) & _).
    apply Nat.eqb_eq in W. apply nth_In. unfold vec in *. lia.
Qed.

Theorem C129_oracle : forall labels examples indexes cost o h h' ks,
  or_init labels examples indexes cost = Ok o ->
  Permutation h h' -> apart told_about h ->
  or_query (or_run o h) ks = or_query (or_run o h') ks.
Proof.
  intros labels examples indexes cost o h h' ks H P A. rewrite !(or_query_history _ _ _ _ _ _ ks H). f_equal.
  apply mapM_pointwise. intros k _. unfold known. now rewrite (latest_calls told_about _ h h' (learned_about _ _ _) P A).
Qed.
Print Assumptions C129_oracle.

(** ** One call with many entries *)

Definition given (wx wc : bool) (e : entry_row) : key * key * option vec * option Q :=
  (lab e, ind e, if wx then Some (ex e) else None, if wc then Some (co e) else None).

Lemma offered_call wx wc es : offered (in_one_call wx wc es) = map (given wx wc) es.
Proof.
  unfold offered, in_one_call. assert (W : well_formed (TMany (map lab es) (map ind es) (wanted wx (map ex es)) (wanted wc (map co es))) = true).
  { cbn. rewrite !map_length, Nat.eqb_refl. destruct wx, wc; cbn; rewrite ?map_length, ?Nat.eqb_refl; reflexivity. }
  rewrite W, map_length. clear W. 
  transitivity (map (fun i => given wx wc (nth i es (KInt 0, KInt 0, [], 0%Q))) (seq 0 (length es))).
  - apply map_ext_in. intros i I. apply in_seq in I. unfold given.
    rewrite (nth_indep (map lab es) (KInt 0) (lab (KInt 0, KInt 0, [], 0%Q))) by (rewrite map_length; lia). rewrite map_nth.
    rewrite (nth_indep (map ind es) (KInt 0) (ind (KInt 0, KInt 0, [], 0%Q))) by (rewrite map_length; lia). rewrite map_nth.
    f_equal; [f_equal|].
    + destruct wx; cbn; auto. f_equal. rewrite (nth_indep (map ex es) [] (ex (KInt 0, KInt 0, [], 0%Q))) by (rewrite map_length; lia). now rewrite map_nth.
    + destruct wc; cbn; auto. f_equal. rewrite (nth_indep (map co es) 0%Q (co (KInt 0, KInt 0, [], 0%Q))) by (rewrite map_length; lia). now rewrite map_nth.
  - rewrite <- (map_map (fun i => nth i es _) (given wx wc)). f_equal. clear. induction es as [|e es IH]; auto.
    cbn [length seq map nth]. f_equal. rewrite <- seq_shift, map_map. exact IH.
Qed.

Lemma prefix_all {T} (p : T -> bool) l : Forall (fun x => p x = true) l -> prefix_ok p l = l.
Proof. induction 1 as [|x l E F IH]; cbn; auto. now rewrite E, IH. Qed.

Lemma latest_perm {K V} dec (k : K) (a b : list (K * V)) : Permutation a b -> NoDup (map fst a) -> latest dec k a = latest dec k b.
Proof.
  intros P N. destruct (latest dec k a) as [v|] eqn:A.
  - apply latest_in in A. assert (B : In (k, v) b) by (eapply Permutation_in; eauto).
    apply in_split in B. destruct B as (b1 & b2 & ->). symmetry. apply latest_mid.
    assert (N' : NoDup (map fst (b1 ++ (k, v) :: b2))) by (eapply Permutation_NoDup; [apply Permutation_map; exact P|exact N]).
    rewrite map_app in N'. cbn in N'. apply NoDup_remove_2 in N'. intro I. apply N'. apply in_app_iff. now right.
  - symmetry. apply latest_none. apply latest_none in A. intro I. apply A. eapply Permutation_in; [apply Permutation_map; apply Permutation_sym; exact P|exact I].
Qed.

Theorem C129_one_call : forall labels examples indexes cost o h rest wx wc es es' ks,
  or_init labels examples indexes cost = Ok o ->
  Permutation es es' -> NoDup (map ind es) ->
  (is_some examples = true -> wx = true) -> (is_some cost = true -> wc = true) ->
  Forall (fun e => key_ty (lab e) = o_type o) es ->
  snd (or_teach (or_run o h) (in_one_call wx wc es)) = Ok tt /\
  or_query (or_run o (h ++ in_one_call wx wc es :: rest)) ks = or_query (or_run o (h ++ in_one_call wx wc es' :: rest)) ks.
Proof.
  intros labels examples indexes cost o h rest wx wc es es' ks H P N X C F.
  assert (OK : forall es, Forall (fun e => key_ty (lab e) = o_type o) es ->
               Forall (fun e => entry_ok (o_type o) (is_some examples) (is_some cost) e = true) (map (given wx wc) es)).
  { intros l G. apply Forall_forall. intros e I. apply in_map_iff in I. destruct I as (e0 & <- & I). rewrite Forall_forall in G.
    specialize (G _ I). unfold given, entry_ok. rewrite G.
    assert (R : ty_eqb (o_type o) (o_type o) = true) by now destruct (o_type o). rewrite R. cbn.
    destruct (is_some examples); [rewrite (X eq_refl)|]; (destruct (is_some cost); [rewrite (C eq_refl)|]); reflexivity. }
  split.
  - apply (C20_outcomes _ _ _ _ _ h (in_one_call wx wc es) H). split.
    + cbn. rewrite !map_length, Nat.eqb_refl. destruct wx, wc; cbn; rewrite ?map_length, ?Nat.eqb_refl; reflexivity.
    + rewrite offered_call. apply forallb_forall. apply Forall_forall. now apply OK.
  - rewrite !(or_query_history _ _ _ _ _ _ ks H). f_equal. apply mapM_pointwise. intros k _. unfold known.
    rewrite !flat_map_app. cbn [flat_map]. rewrite !(latest_app _ _ (initial_facts _ _ _)), !(latest_app _ _ (flat_map _ h)), !(latest_app _ _ (learned _ _ _ _)).
    assert (E : latest key_dec k (learned (o_type o) (is_some examples) (is_some cost) (in_one_call wx wc es)) =
                latest key_dec k (learned (o_type o) (is_some examples) (is_some cost) (in_one_call wx wc es'))).
    { assert (F' : Forall (fun e => key_ty (lab e) = o_type o) es') by (eapply Permutation_Forall; eauto).
      unfold learned. rewrite !offered_call, !prefix_all by now apply OK. apply latest_perm.
      - now do 2 apply Permutation_map.
      - rewrite !map_map. erewrite map_ext; [exact N|]. intros e. reflexivity. }
    now rewrite E.
Qed.
Print Assumptions C129_one_call.

(** With one entry that is refused, the order does matter: an entry after it is not learned, one before it is. *)
Theorem C129_one_call_refuted : forall labels examples indexes cost o h good bad,
  or_init labels examples indexes cost = Ok o ->
  key_ty (lab good) = o_type o -> key_ty (lab bad) <> o_type o ->
  ~ In (ind good) (map fst (known (o_type o) labels examples indexes cost h)) ->
  let wx := is_some examples in let wc := is_some cost in
  or_query (or_run o (h ++ [in_one_call wx wc [bad; good]])) [ind good] = Err TypeErr /\
  or_query (or_run o (h ++ [in_one_call wx wc [good; bad]])) [ind good] = Ok ([lab good], [if wc then co good else 1%Q]).
Proof.
  intros labels examples indexes cost o h good bad H G B N wx wc.
  assert (LB : learned (o_type o) wx wc (in_one_call wx wc [bad; good]) = []).
  { unfold learned. rewrite offered_call. cbn. destruct (ty_eqb (key_ty (lab bad)) (o_type o)) eqn:E; [|reflexivity].
    exfalso. apply B. destruct (key_ty (lab bad)), (o_type o); cbn in E; congruence. }
  assert (LG : learned (o_type o) wx wc (in_one_call wx wc [good; bad]) = [(ind good, (lab good, if wc then co good else 1%Q))]).
  { unfold learned. rewrite offered_call. cbn [map prefix_ok]. 
    assert (E1 : entry_ok (o_type o) wx wc (given wx wc good) = true).
    { unfold entry_ok, given. rewrite G. destruct (o_type o), wx, wc; reflexivity. }
    assert (E2 : entry_ok (o_type o) wx wc (given wx wc bad) = false).
    { unfold entry_ok, given. destruct (ty_eqb (key_ty (lab bad)) (o_type o)) eqn:E; [|reflexivity].
      exfalso. apply B. destruct (key_ty (lab bad)), (o_type o); cbn in E; congruence. }
    rewrite E1, E2. cbn. unfold given. cbn. now destruct wc. }
  split; rewrite (or_query_history _ _ _ _ _ _ _ H); unfold known; rewrite flat_map_app; cbn [flat_map]; fold wx wc.
  - rewrite LB, !app_nil_r. fold (known (o_type o) labels examples indexes cost h). apply latest_none with (dec := key_dec) in N.
    cbn. unfold known in N. fold wx wc in N. now rewrite N.
  - rewrite LG. cbn [app]. rewrite app_assoc. cbn [mapM]. rewrite latest_app. cbn. destruct (key_dec _ _); [reflexivity|congruence].
Qed.
Print Assumptions C129_one_call_refuted.

Example C129_example :
  exists o, or_init [KInt 1; KInt 0] None None (Some [2%Q; 3%Q]) = Ok o /\
    let h := [TOne (KInt 7) (KInt 1) None (Some 5%Q); in_one_call false true [(KInt 4, KInt 9, [], 1%Q); (KInt 6, KInt 0, [], 2%Q)]] in
    let h' := [in_one_call false true [(KInt 4, KInt 9, [], 1%Q); (KInt 6, KInt 0, [], 2%Q)]; TOne (KInt 7) (KInt 1) None (Some 5%Q)] in
    Permutation h h' /\ apart told_about h /\
    or_query (or_run o h) [KInt 0; KInt 1; KInt 9] = Ok ([KInt 6; KInt 7; KInt 4], [2%Q; 5%Q; 1%Q]) /\
    key_ty (lab (KInt 4, KInt 9, [], 1%Q)) = o_type o /\ key_ty (lab (KStr "x", KInt 8, [], 1%Q)) <> o_type o /\
    NoDup (map ind [(KInt 4, KInt 9, [], 1%Q); (KInt 6, KInt 0, [], 2%Q)]) /\
    ~ In (KInt 9) (map fst (known (o_type o) [KInt 1; KInt 0] None None (Some [2%Q; 3%Q]) [])).
Proof.
  eexists. split; [reflexivity|]. repeat split.
  - apply perm_swap.
  - repeat constructor. cbn. intros k [<-|[]] [E|[E|[]]]; discriminate.
  - discriminate.
  - repeat constructor; cbn; intuition discriminate.
  - cbn. intuition discriminate.
Qed.

(** ** Building an oracle *)

Lemma asarray_map es : exists f : key -> key, forall es' : list entry_row, Permutation es es' ->
  np_asarray (map VKey (map lab es')) = map (fun e => f (lab e)) es'.
Proof.
  unfold np_asarray. exists (if existsb is_str (map norm (map VKey (map lab es))) then fun k => KStr (key_str k) else fun k => k).
  intros es' P. rewrite !map_map.
  assert (E : existsb is_str (map (fun x => norm (VKey (lab x))) es) = existsb is_str (map (fun x => norm (VKey (lab x))) es')).
  { apply (Permutation_map (fun x => norm (VKey (lab x)))) in P. apply eq_true_iff_eq. rewrite !existsb_exists. split; intros (k & I & S); exists k; split; auto; [exact (Permutation_in _ P I)|exact (Permutation_in _ (Permutation_sym P) I)]. }
  rewrite E. destruct (existsb is_str (map (fun x => norm (VKey (lab x))) es')); apply map_ext; reflexivity.
Qed.

Lemma initial_rows_facts (f : key -> key) wc (es : list entry_row) :
  np_asarray (map VKey (map lab es)) = map (fun e => f (lab e)) es ->
  initial_facts (map lab es) (Some (map ind es)) (wanted wc (map co es)) =
  map (fun e => (ind e, (f (lab e), if wc then co e else 1%Q))) es.
Proof.
  intro A. unfold initial_facts, initial_keys. rewrite A, map_length. clear A. set (d := (KInt 0, KInt 0, @nil Z, 0%Q)).
  transitivity (map (fun i => (fun e => (ind e, (f (lab e), if wc then co e else 1%Q))) (nth i es d)) (seq 0 (length es))).
  - apply map_ext_in. intros i I. apply in_seq in I.
    rewrite (nth_indep (map ind es) (KInt 0) (ind d)) by (rewrite map_length; lia). rewrite map_nth.
    rewrite (nth_indep (map (fun e => f (lab e)) es) (KInt 0) (f (lab d))) by (rewrite map_length; lia). rewrite (map_nth (fun e => f (lab e))).
    f_equal. f_equal. destruct wc; cbn [wanted]; auto.
    rewrite (nth_indep (map co es) 0%Q (co d)) by (rewrite map_length; lia). now rewrite map_nth.
  - rewrite <- (map_map (fun i => nth i es d) (fun e => (ind e, (f (lab e), if wc then co e else 1%Q)))). f_equal. clear. induction es as [|e es IH]; auto.
    cbn [length seq map nth]. f_equal. rewrite <- seq_shift, map_map. exact IH.
Qed.

Theorem C129_built : forall wx wc es es' o,
  Permutation es es' -> NoDup (map ind es) ->
  or_init (map lab es) (wanted wx (map ex es)) (Some (map ind es)) (wanted wc (map co es)) = Ok o ->
  exists o', or_init (map lab es') (wanted wx (map ex es')) (Some (map ind es')) (wanted wc (map co es')) = Ok o' /\
    forall h ks, or_query (or_run o h) ks = or_query (or_run o' h) ks.
Proof.
  intros wx wc es es' o P N H.
  assert (NE : es <> []). { intros ->. unfold or_init in H. cbn in H. destruct wx, wc; discriminate. }
  assert (E' : exists o', or_init (map lab es') (wanted wx (map ex es')) (Some (map ind es')) (wanted wc (map co es')) = Ok o').
  { apply C20_construction. split.
    - intro M. apply map_eq_nil in M. subst. apply Permutation_sym, Permutation_nil in P. auto.
    - unfold fits. destruct wx, wc; cbn; repeat split; intros; try discriminate; try congruence; match goal with E : Some _ = Some _ |- _ => injection E as <- | _ => idtac end; now rewrite !map_length. }
  destruct E' as [o' H']. exists o'. split; auto.
  destruct (asarray_map es) as [f A]. pose proof (A es (Permutation_refl _)) as A1. pose proof (A es' P) as A2.
  assert (T : o_type o = o_type o').
  { destruct (or_init_spec _ _ _ _ _ H) as (_ & _ & (l & r & L & ->) & _). destruct (or_init_spec _ _ _ _ _ H') as (_ & _ & (l' & r' & L' & ->) & _).
    apply (np_asarray_uniform (map VKey (map lab es))).
    - rewrite L. now left.
    - rewrite A1. assert (I : In l' (map (fun e => f (lab e)) es')) by (rewrite <- A2, L'; now left).
      eapply Permutation_in; [apply Permutation_map, Permutation_sym, P|exact I]. }
  intros h ks. rewrite (or_query_history _ _ _ _ _ h ks H), (or_query_history _ _ _ _ _ h ks H'). f_equal. apply mapM_pointwise. intros k _.
  assert (B : forall {U} b (l : list U), is_some (wanted b l) = b) by (intros U b l; now destruct b).
  unfold known. rewrite T, !B.
  rewrite !latest_app. rewrite (initial_rows_facts f wc es A1), (initial_rows_facts f wc es' A2).
  rewrite (latest_perm key_dec k (map (fun e => (ind e, (f (lab e), if wc then co e else 1%Q))) es) (map (fun e => (ind e, (f (lab e), if wc then co e else 1%Q))) es')); [reflexivity| |].
  - now apply Permutation_map.
  - rewrite map_map. exact N.
Qed.
Print Assumptions C129_built.

Example C129_built_example :
  let es := [(KInt 1, KInt 5, [], 1%Q); (KStr "a", KInt 3, [], 2%Q)] in
  NoDup (map ind es) /\ Permutation es (rev es) /\
  exists o, or_init (map lab es) None (Some (map ind es)) (Some (map co es)) = Ok o /\
            or_query o [KInt 3; KInt 5] = Ok ([KStr "a"; KStr "1"], [2%Q; 1%Q]).
Proof.
  cbn zeta. split; [repeat constructor; cbn; intuition discriminate|]. split; [apply Permutation_rev|].
  eexists. split; reflexivity.
Qed.

(** ** The repository *)

Lemma events_about {A} inst (o : eop A) k : In k (map fst (events_of inst o)) -> In k (stored_about o).
Proof.
  destruct o as [j l c x|js ls cs xs|j l c x|j]; cbn.
  - destruct (inst && negb (is_some x)); cbn; tauto.
  - destruct (accepted inst js ls cs xs); cbn; [|tauto]. clear. revert ls xs. induction js as [|j js IH]; intros [|l ls] xs; cbn; try tauto.
    intros [->|I]; auto. right. exact (IH _ _ I).
  - destruct inst; cbn; [tauto|]. destruct x as [[|a [|b v]]|]; cbn; tauto.
  - tauto.
Qed.

Theorem C129_repository : forall A (labels : list A) indexes examples r h h' ks,
  er_init labels indexes examples = Ok r ->
  Permutation h h' -> apart stored_about h ->
  er_retrieve (er_run r h) ks = er_retrieve (er_run r h') ks /\
  (forall k, er_contains (er_run r h) k = er_contains (er_run r h') k).
Proof.
  intros A labels indexes examples r h h' ks H P D.
  assert (C : forall k, content (life labels indexes examples h) k = content (life labels indexes examples h') k).
  { intro k. unfold content, life. now rewrite (latest_calls stored_about _ h h' (events_about _) P D). }
  split.
  - rewrite (C24_retrieve _ _ _ _ _ h ks H), (C24_retrieve _ _ _ _ _ h' ks H). cbn zeta.
    f_equal. f_equal; [f_equal|].
    + rewrite !flat_map_concat_map. f_equal. apply map_ext. intro k. now rewrite C.
    + rewrite !flat_map_concat_map. f_equal. apply map_ext. intro k. now rewrite C.
    + apply filter_ext. intro k. now rewrite C.
  - intro k. rewrite (C24_contains _ _ _ _ _ h k H), (C24_contains _ _ _ _ _ h' k H). now rewrite C.
Qed.
Print Assumptions C129_repository.

Example C129_repository_example :
  exists r, er_init ["a"%string; "b"%string] [KInt 1; KInt 2] None = Ok r /\
    let h := [EAdd (KInt 3) "c"%string None None; EDiscard (KInt 1)] in
    Permutation h (rev h) /\ apart stored_about h /\
    er_retrieve (er_run r h) [KInt 1; KInt 2; KInt 3] = Ok ([], ["b"%string; "c"%string], [KInt 1]).
Proof.
  eexists. split; [reflexivity|]. cbn zeta. split; [apply Permutation_rev|]. split; [|reflexivity].
  repeat constructor. cbn. intros k [<-|[]] [E|[]]; discriminate.
Qed.

(** ** Collections of indexes *)

Lemma last_app {K} (k : K) a b o : last_request k (a ++ b) o <->
  (exists r, o = Some r /\ last_request k b (Some r)) \/ (last_request k b None /\ last_request k a o).
Proof.
  split.
  - intro H. inversion H as [rs N E|pre r post E N X]; subst.
    + right. split; constructor; intros r I; apply N, in_app_iff; auto.
    + assert (Z : (exists mid, a = pre ++ r :: mid /\ post = mid ++ b) \/ (exists mid, b = mid ++ r :: post)).
      { clear N H. revert pre X. induction a as [|y a IH]; intros pre X; cbn in X.
        - right. now exists pre.
        - destruct pre as [|p pre]; cbn in X; injection X as Y X; subst.
          + left. exists a. auto.
          + destruct (IH _ X) as [(mid & -> & ->)|(mid & ->)]; [left; now exists mid|right; now exists mid]. }
      destruct Z as [(mid & -> & ->)|(mid & ->)].
      * right. split; [constructor; intros q I; apply N, in_app_iff; auto|]. constructor; auto. intros q I. apply N, in_app_iff; auto.
      * left. exists r. split; auto. now constructor.
  - intros [(r & -> & H)|[H G]].
    + inversion H as [|pre r' post E N X]; subst. rewrite app_assoc. now constructor.
    + inversion H as [rs N E|]; subst. inversion G as [rs M E|pre r post E M X]; subst.
      * constructor. intros r I. apply in_app_iff in I. destruct I; auto.
      * rewrite <- app_assoc. cbn. constructor; auto. intros q I. apply in_app_iff in I. destruct I; auto.
Qed.

Lemma last_in {K} (k : K) a r : last_request k a (Some r) -> In k (map about a).
Proof. intro H. inversion H as [|pre r' post E N X]; subst. apply in_map, in_app_iff. right. now left. Qed.
Lemma last_none {K} (k : K) a : last_request k a None <-> ~ In k (map about a).
Proof.
  split; intro H.
  - inversion H as [rs N E|]; subst. intro I. apply in_map_iff in I. destruct I as (r & E & I). exact (N r I E).
  - constructor. intros r I E. apply H. apply in_map_iff. now exists r.
Qed.

Lemma last_calls h h' : Permutation h h' -> apart asked_about h -> forall k o,
  last_request k (flat_map requests h) o -> last_request k (flat_map requests h') o.
Proof.
  induction 1 as [|c h h' P IH|c d h|h1 h2 h3 P1 IH1 P2 IH2]; intros A k o; auto.
  - apply apart_inv in A. destruct A as [_ A]. cbn [flat_map]. rewrite !last_app. intros [(r & -> & L)|[L M]]; [left; exists r; auto|right; auto].
  - apply apart_inv in A. destruct A as [F A]. inversion F as [|? ? X _]; subst. cbn [flat_map].
    intro L. apply last_app in L. apply last_app. destruct L as [(r & -> & L)|[L M]]; apply last_app in L.
    + destruct L as [(q & E & L)|[L M]].
      * injection E as <-. left. exists r. split; auto. apply last_app. left. exists r. auto.
      * right. split; [apply last_app; right; split; auto|auto]. apply last_none. intro I. apply last_in in M. exact (X k I M).
    + destruct L as [(q & E & _)|[L L']]; [discriminate|]. destruct o as [r|].
      * left. exists r. split; auto. apply last_app. right. auto.
      * right. split; auto. apply last_app. right. auto.
  - intro L. apply IH2; [eapply apart_perm; eauto|]. now apply IH1.
Qed.

Theorem C129_collection : forall c T h h',
  reachable c -> (forall o v, In o h -> In v (inserted o) -> acceptable c T v) ->
  Permutation h h' -> apart asked_about h ->
  Permutation (elems (ic_run c h)) (elems (ic_run c h')).
Proof.
  intros c T h h' R V P A.
  assert (V' : forall o v, In o h' -> In v (inserted o) -> acceptable c T v).
  { intros o v I J. apply (V o v); auto. eapply Permutation_in; [apply Permutation_sym; exact P|exact I]. }
  destruct (C01_set_semantics c T h R V) as (N & M & _). destruct (C01_set_semantics c T h' R V') as (N' & M' & _).
  apply NoDup_Permutation; auto. intro k. rewrite M, M'. unfold set_after.
  split; intros S o L; apply S.
  - apply (last_calls h' h); auto; [now apply Permutation_sym|eapply apart_perm; eauto].
  - now apply (last_calls h h').
Qed.
Print Assumptions C129_collection.

(** The values of one update in another order. *)
Theorem C129_update : forall c T vs vs',
  reachable c -> (forall v, In v vs -> acceptable c T v) -> Permutation vs vs' ->
  Permutation (elems (fst (ic_update c vs))) (elems (fst (ic_update c vs'))) /\
  Permutation (elems (fst (ic_difference_update c vs))) (elems (fst (ic_difference_update c vs'))).
Proof.
  intros c T vs vs' R V P.
  assert (U : forall (F : key -> request key) (S : key -> Prop) (l l' : list key) k, (forall j, about (F j) = j) -> Permutation l l' ->
              set_after S (map F l) k -> set_after S (map F l') k).
  { clear. intros F S l l' k AF P A o L. assert (M : forall l, map about (map F l) = l) by (intro l0; rewrite map_map; erewrite map_ext; [apply map_id|apply AF]).
    destruct o as [r|].
    - assert (r = F k). { inversion L as [|pre r' post E N X]; subst. assert (I : In r (map F l')) by (rewrite <- X; apply in_app_iff; right; now left).
        apply in_map_iff in I. destruct I as (j & <- & _). now rewrite AF. } subst r.
      apply last_in in L. rewrite M in L. apply (Permutation_in _ (Permutation_sym P)) in L.
      destruct (last_request_exists key_dec k (map F l)) as [[r|] X].
      + assert (r = F k). { inversion X as [|pre r' post E N Y]; subst. assert (I : In r (map F l)) by (rewrite <- Y; apply in_app_iff; right; now left).
          apply in_map_iff in I. destruct I as (j & <- & _). now rewrite AF. } subst r. exact (A _ X).
      + exfalso. apply last_none in X. rewrite M in X. auto.
    - apply (A None). apply last_none in L. apply last_none. rewrite M in *. intro I. apply L. eapply Permutation_in; eauto. }
  assert (G : forall put l l', Permutation l l' -> (put = true -> forall v, In v l -> acceptable c T v) ->
              Permutation (elems (ic_run c [if put then OUpdate l else ODiff l])) (elems (ic_run c [if put then OUpdate l' else ODiff l']))).
  { intros put l l' Q W.
    assert (W1 : forall o v, In o [if put then OUpdate l else ODiff l] -> In v (inserted o) -> acceptable c T v).
    { intros o v [<-|[]] I. destruct put; cbn in I; [now apply W|destruct I]. }
    assert (W2 : forall o v, In o [if put then OUpdate l' else ODiff l'] -> In v (inserted o) -> acceptable c T v).
    { intros o v [<-|[]] I. destruct put; cbn in I; [|destruct I]. apply W; auto. eapply Permutation_in; [apply Permutation_sym; exact Q|exact I]. }
    destruct (C01_set_semantics c T _ R W1) as (N1 & M1 & _). destruct (C01_set_semantics c T _ R W2) as (N2 & M2 & _).
    apply NoDup_Permutation; auto. intro k. rewrite M1, M2. cbn [flat_map]. rewrite !app_nil_r.
    apply (Permutation_map norm) in Q. destruct put; cbn [requests].
    - rewrite <- !(map_map norm (fun k => Put k)). split; apply U; auto. now apply Permutation_sym.
    - rewrite <- !(map_map norm (fun k => Take k)). split; apply U; auto. now apply Permutation_sym. }
  split; [exact (G true vs vs' P (fun _ => V))|apply (G false vs vs' P); discriminate].
Qed.
Print Assumptions C129_update.

(** Values of different types: the first one to come decides which are taken. *)
Theorem C129_update_refuted : forall i s, elems (fst (ic_update (fst (ic_init DNone)) [VKey (KInt i); VKey (KStr s)])) = [KInt i] /\
  elems (fst (ic_update (fst (ic_init DNone)) [VKey (KStr s); VKey (KInt i)])) = [KStr s].
Proof. intros i s. split; reflexivity. Qed.
Print Assumptions C129_update_refuted.

Example C129_collection_example :
  let c := fst (ic_init (DList [VKey (KInt 5); VKey (KInt 1)])) in
  let h := [OUpdate [VKey (KInt 7); VKey (KInt 8)]; ODiscard (VKey (KInt 1)); OAdd (VKey (KInt 2))] in
  reachable c /\ (forall o v, In o h -> In v (inserted o) -> acceptable c TInt v) /\ apart asked_about h /\
  elems (ic_run c h) = [KInt 5; KInt 7; KInt 8; KInt 2] /\ elems (ic_run c (rev h)) = [KInt 5; KInt 2; KInt 7; KInt 8].
Proof.
  cbn zeta. repeat split.
  - apply reach_list.
  - cbn in H. destruct H as [<-|[<-|[<-|[]]]]; cbn in H0; intuition; subst; reflexivity.
  - repeat constructor; cbn; intuition (subst; discriminate).
Qed.
