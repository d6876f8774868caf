(** Proofs about [Oracle]. *)
From Verif Require Import Base BaseFacts IndexModel IndexProofs MLModel MLProofs StateModel Dict OracleModel OracleSpec.
From Coq Require Import String QArith.
Local Open Scope Z_scope.

Lemma latest_app {K V} dec (k : K) (a b : list (K * V)) :
  latest dec k (a ++ b) = match latest dec k b with Some v => Some v | None => latest dec k a end.
Proof.
  induction a as [|[k' v] a IH]; simpl; [now destruct (latest dec k b)|].
  rewrite IH. destruct (latest dec k b); auto.
Qed.

Lemma latest_none {K V} dec (k : K) (a : list (K * V)) : latest dec k a = None <-> ~ In k (map fst a).
Proof.
  induction a as [|[k' v] a IH]; simpl; [tauto|].
  destruct (latest dec k a) eqn:E.
  - split; [discriminate|]. intro H. exfalso. assert (N : ~ In k (map fst a)) by tauto.
    apply IH in N. discriminate.
  - destruct (dec k k') as [->|n]; split; intro H; try discriminate; try tauto.
    intros [E'|I]; [now apply n|]. now apply (proj1 IH eq_refl).
Qed.

Lemma latest_in {K V} dec (k : K) (a : list (K * V)) v : latest dec k a = Some v -> In (k, v) a.
Proof.
  induction a as [|[k' w] a IH]; simpl; [discriminate|].
  destruct (latest dec k a) eqn:E; intro H; [injection H as ->; right; now apply IH|].
  destruct (dec k k') as [->|]; [injection H as ->; now left|discriminate].
Qed.

Lemma latest_mid {K V} dec (k : K) (v : V) a b : ~ In k (map fst b) -> latest dec k (a ++ (k, v) :: b) = Some v.
Proof.
  intro H. rewrite latest_app. simpl. apply latest_none with (dec := dec) in H. rewrite H.
  destruct (dec k k); congruence.
Qed.

Lemma latest_map {K V W} dec (f : V -> W) (k : K) (a : list (K * V)) :
  latest dec k (map (fun e => (fst e, f (snd e))) a) = option_map f (latest dec k a).
Proof.
  induction a as [|[k' v] a IH]; simpl; auto. rewrite IH.
  destruct (latest dec k a); simpl; auto. now destruct (dec k k').
Qed.

Lemma dset_all_latest {K V} eqb dec (ok : forall a b : K, eqb a b = true <-> a = b) (items d : list (K * V)) k :
  dget eqb k (dset_all eqb items d) =
  match latest dec k items with Some v => Some v | None => dget eqb k d end.
Proof.
  revert d. induction items as [|[k' v] it IH]; intro d; simpl; auto.
  unfold dset_all in *. simpl. rewrite IH. rewrite dget_dset by auto.
  destruct (latest dec k it); auto. destruct (dec k k') as [->|n].
  - now rewrite (Dict.eqb_same eqb ok).
  - rewrite (Dict.eqb_neq eqb ok) by auto. reflexivity.
Qed.

Lemma dset_all_app {K V} eqb (a b d : list (K * V)) :
  dset_all eqb (a ++ b) d = dset_all eqb b (dset_all eqb a d).
Proof. unfold dset_all. apply fold_left_app. Qed.

Lemma map_seq_S {B} (f : nat -> B) n : map f (seq 0 (S n)) = f 0%nat :: map (fun i => f (S i)) (seq 0 n).
Proof. simpl. f_equal. rewrite <- seq_shift, map_map. reflexivity. Qed.

Lemma combine_seq {A B} (da : A) (db : B) a b : List.length a = List.length b ->
  combine a b = map (fun i => (nth i a da, nth i b db)) (seq 0 (List.length a)).
Proof.
  revert b. induction a as [|x a IH]; intros [|y b] H; try discriminate; auto.
  change (List.length (x :: a)) with (S (List.length a)). rewrite map_seq_S. simpl. f_equal.
  apply IH. now injection H.
Qed.

Lemma nth_map_seq {B} (f : nat -> B) n i d : (i < n)%nat -> nth i (map f (seq 0 n)) d = f i.
Proof.
  intro H. rewrite (nth_indep _ d (f 0%nat)) by now rewrite map_length, seq_length.
  rewrite map_nth, seq_nth by auto. reflexivity.
Qed.

Definition enc (costf : bool) (e : key * (key * Q)) : key * (key * option Q) :=
  (fst e, (fst (snd e), if costf then Some (snd (snd e)) else None)).

Definition conv (e : key * key * option (vec + unit) * option Q) : key * key * option vec * option Q :=
  let '(l, k, x, c) := e in (l, k, match x with Some (inl v) => Some v | _ => None end, c).

(** The state of an oracle after processing entries [es]. *)
Definition absorbed (o o' : oracle) (es : list (key * key * option vec * option Q)) : Prop :=
  o_type o' = o_type o /\ o_inst o' = o_inst o /\ o_costf o' = o_costf o /\
  o_ind o' = dset_all key_eqb (map (enc (o_costf o)) (map (fact_of (o_costf o))
               (prefix_ok (entry_ok (o_type o) (o_inst o) (o_costf o)) es))) (o_ind o) /\
  o_exa o' = dset_all zlist_eqb (if o_inst o then examples_of (o_type o) (o_costf o) es else []) (o_exa o).

Lemma or_add_one_spec o l k x c o' r : or_add_one o l k x c = (o', r) ->
  absorbed o o' [conv (l, k, x, c)] /\
  (r = Ok tt <-> entry_ok (o_type o) (o_inst o) (o_costf o) (conv (l, k, x, c)) = true) /\
  (r = Ok tt \/ r = Err TypeErr \/ r = Err GenericErr).
Proof.
  unfold or_add_one, absorbed. intro H.
  destruct (ty_eqb (key_ty l) (o_type o)) eqn:ET; simpl negb in H; cbn iota in H.
  2:{ injection H as <- <-. destruct x as [[v|u]|]; cbn; rewrite ET; cbn; destruct (o_inst o); cbn;
      (split; [repeat split|split; [split; discriminate|tauto]]). }
  destruct (o_inst o) eqn:EI; [destruct x as [[v|u]|]|];
  destruct (o_costf o) eqn:EC; cbn in H; rewrite ?EC in H; try destruct c; injection H as <- <-;
  try destruct x as [[v|u]|]; cbn; rewrite ?ET, ?EI, ?EC; cbn;
  (split; [repeat split|split; [split; congruence|tauto]]).
Qed.

Lemma absorbed_cons o o1 o2 e es :
  entry_ok (o_type o) (o_inst o) (o_costf o) e = true ->
  absorbed o o1 [e] -> absorbed o1 o2 es -> absorbed o o2 (e :: es).
Proof.
  intros OK (T1 & I1 & C1 & D1 & X1) (T2 & I2 & C2 & D2 & X2). unfold absorbed.
  rewrite T1, I1, C1 in *. repeat split; try congruence.
  - simpl. rewrite OK. rewrite D2, D1. simpl. rewrite OK. reflexivity.
  - rewrite X2, X1. destruct e as [[[l k] x] c]. destruct (o_inst o); auto.
    unfold entry_ok in OK. cbn in OK. destruct x as [x|]; [|rewrite andb_false_r in OK; discriminate].
    rewrite !andb_true_iff in OK. destruct OK as [[OT _] OC]. simpl. rewrite OT, OC. reflexivity.
Qed.

Lemma absorbed_stop o o1 e es :
  entry_ok (o_type o) (o_inst o) (o_costf o) e = false ->
  absorbed o o1 [e] -> absorbed o o1 (e :: es).
Proof.
  intros OK (T1 & I1 & C1 & D1 & X1). unfold absorbed. repeat split; auto.
  - simpl. rewrite OK. rewrite D1. simpl. now rewrite OK.
  - rewrite X1. destruct e as [[[l k] x] c]. destruct (o_inst o); auto.
    unfold entry_ok in OK. cbn in *. destruct x as [x|]; auto. cbn in *. rewrite andb_true_r in OK.
    destruct (ty_eqb (key_ty l) (o_type o)); auto. cbn in OK. rewrite OK. reflexivity.
Qed.

Lemma absorbed_nil o : absorbed o o [].
Proof. unfold absorbed. repeat split; auto. destruct (o_inst o); reflexivity. Qed.

Lemma or_add_loop_spec es o o' r : or_add_loop o es = (o', r) ->
  absorbed o o' (map conv es) /\
  (r = Ok tt <-> forallb (entry_ok (o_type o) (o_inst o) (o_costf o)) (map conv es) = true) /\
  (r = Ok tt \/ r = Err TypeErr \/ r = Err GenericErr).
Proof.
  revert o. induction es as [|[[[l k] x] c] es IH]; intros o H; simpl in H.
  - injection H as <- <-. split; [apply absorbed_nil|]. split; [|tauto]. simpl. tauto.
  - destruct (or_add_one o l k x c) as [o1 r1] eqn:E. pose proof (or_add_one_spec _ _ _ _ _ _ _ E) as (A1 & R1 & S1).
    destruct (entry_ok (o_type o) (o_inst o) (o_costf o) (conv (l, k, x, c))) eqn:OK.
    + assert (r1 = Ok tt) as -> by tauto. apply IH in H. destruct H as (A2 & R2 & S2).
      pose proof A1 as (T1 & I1 & C1 & _). rewrite T1, I1, C1 in R2.
      split; [|split; auto].
      * cbn [map]. eapply absorbed_cons; eauto.
      * cbn [map]. cbn [forallb]. rewrite OK. cbn [andb]. exact R2.
    + destruct r1 as [[]|e]; [exfalso; destruct R1 as [R1 _]; specialize (R1 eq_refl); discriminate|].
      injection H as <- <-. split; [|split].
      * cbn [map]. apply absorbed_stop; auto.
      * cbn [map]. cbn [forallb]. rewrite OK. cbn [andb]. split; discriminate.
      * destruct S1 as [S1|[S1|S1]]; auto; discriminate.
Qed.

Lemma same_length_spec {A B C D} (ls : list A) (xs : option (list B)) (ys : option (list C)) (zs : option (list D)) :
  same_length ls xs ys zs = true <->
  (forall l, xs = Some l -> List.length l = List.length ls) /\
  (forall l, ys = Some l -> List.length l = List.length ls) /\
  (forall l, zs = Some l -> List.length l = List.length ls).
Proof.
  unfold same_length. rewrite !andb_true_iff. split.
  - intros [[H1 H2] H3]. repeat split; intros l ->; now apply Nat.eqb_eq.
  - intros (H1 & H2 & H3). repeat split.
    + destruct xs; auto. apply Nat.eqb_eq; auto.
    + destruct ys; auto. apply Nat.eqb_eq; auto.
    + destruct zs; auto. apply Nat.eqb_eq; auto.
Qed.

Lemma column_length {A} n (l : option (list A)) : (forall x, l = Some x -> List.length x = n) -> List.length (column n l) = n.
Proof. destruct l; simpl; intro H; [rewrite map_length; auto|apply repeat_length]. Qed.

Lemma nth_column {A} n (l : option (list A)) i d : (i < n)%nat -> (forall x, l = Some x -> List.length x = n) ->
  nth i (column n l) None = match l with Some l => Some (nth i l d) | None => None end.
Proof.
  intros Hi H. destruct l as [l|]; simpl.
  - rewrite (nth_indep _ None (Some d)) by (rewrite map_length, H; auto). now rewrite map_nth.
  - apply nth_repeat.
Qed.

Lemma entries_zip ls ks xs cs n : List.length ls = n -> List.length ks = n ->
  (forall l, xs = Some l -> List.length l = n) -> (forall l, cs = Some l -> List.length l = n) ->
  map conv (combine (combine (combine ls ks) (map (option_map inl) (column n xs))) (column n cs)) =
  map (fun i => (nth i ls (KInt 0), nth i ks (KInt 0),
                 match xs with Some xs => Some (nth i xs []) | None => None end,
                 match cs with Some cs => Some (nth i cs 0%Q) | None => None end)) (seq 0 n).
Proof.
  intros Hl Hk Hx Hc.
  assert (L1 : List.length (combine ls ks) = n) by (rewrite combine_length; lia).
  assert (L2 : List.length (map (option_map inl) (column n xs) : list (option (vec + unit))) = n) by (rewrite map_length, column_length; auto).
  assert (L3 : List.length (combine (combine ls ks) (map (option_map inl) (column n xs) : list (option (vec + unit)))) = n)
    by (rewrite combine_length; lia).
  rewrite (combine_seq ((KInt 0, KInt 0), None) None) by (rewrite L3, column_length; auto).
  rewrite L3, map_map. apply map_ext_in. intros i Hi. apply in_seq in Hi.
  rewrite combine_nth by lia. rewrite combine_nth by lia.
  rewrite (nth_column n cs i 0%Q) by (auto; lia).
  assert (EX : nth i (map (option_map (@inl vec unit)) (column n xs)) None = option_map inl (nth i (column n xs) None))
    by exact (map_nth (option_map (@inl vec unit)) (column n xs) None i).
  rewrite EX, (nth_column n xs i []) by (auto; lia). destruct xs; reflexivity.
Qed.

Lemma well_formed_same ls ks xs cs : well_formed (TMany ls ks xs cs) = same_length ls (Some ks) xs cs.
Proof.
  destruct (same_length ls (Some ks) xs cs) eqn:E.
  - apply same_length_spec in E. destruct E as (E1 & E2 & E3). specialize (E1 _ eq_refl).
    simpl. rewrite E1, Nat.eqb_refl. simpl. destruct xs; simpl; [rewrite E2, Nat.eqb_refl by auto|];
      destruct cs; simpl; rewrite ?E3, ?Nat.eqb_refl by auto; auto.
  - destruct (well_formed (TMany ls ks xs cs)) eqn:W; auto. exfalso. simpl in W.
    rewrite !andb_true_iff in W. destruct W as [[W1 W2] W3]. apply Nat.eqb_eq in W1.
    assert (X : same_length ls (Some ks) xs cs = true); [|congruence].
    apply same_length_spec. repeat split.
    + intros l [= <-]. auto.
    + intros l ->. apply Nat.eqb_eq in W2. congruence.
    + intros l ->. apply Nat.eqb_eq in W3. congruence.
Qed.

Lemma or_teach_spec o c o' r : or_teach o c = (o', r) ->
  absorbed o o' (offered c) /\
  (r = Ok tt <-> well_formed c = true /\ forallb (entry_ok (o_type o) (o_inst o) (o_costf o)) (offered c) = true) /\
  (r = Ok tt \/ r = Err TypeErr \/ r = Err GenericErr \/ r = Err ValueErr).
Proof.
  destruct c as [l k x c|ls ks xs cs]; intro H.
  - simpl in H. apply or_add_one_spec in H.
    assert (E : conv (l, k, match x with None => None | Some [_] => Some (inr tt) | Some v => Some (inl v) end, c)
                = (l, k, match x with Some [_] => None | _ => x end, c))
      by (destruct x as [[|? []]|]; reflexivity).
    rewrite E in H. destruct H as (A & R & S). split; auto. split; [|tauto].
    change (offered (TOne l k x c)) with [(l, k, match x with Some [_] => None | _ => x end, c)].
    simpl forallb. rewrite andb_true_r. change (well_formed (TOne l k x c)) with true. tauto.
  - unfold or_teach in H.
    destruct (Nat.eqb (List.length ks) 1) eqn:E1.
    + assert (SL : same_length ks (Some ls) xs cs = same_length ls (Some ks) xs cs).
      { destruct (same_length ls (Some ks) xs cs) eqn:E; [|destruct (same_length ks (Some ls) xs cs) eqn:E'; auto];
        (apply same_length_spec in E || apply same_length_spec in E').
        - destruct E as (A & B & C). specialize (A _ eq_refl). apply same_length_spec. rewrite A.
          repeat split; auto. intros ? [= <-]; auto.
        - exfalso. destruct E' as (A & B & C). specialize (A _ eq_refl).
          assert (X : same_length ls (Some ks) xs cs = true); [|congruence].
          apply same_length_spec. rewrite A. repeat split; auto. intros ? [= <-]; auto. }
      rewrite SL in H. destruct (same_length ls (Some ks) xs cs) eqn:E.
      * pose proof E as E2. apply same_length_spec in E2. destruct E2 as (A & B & C). specialize (A _ eq_refl).
        apply Nat.eqb_eq in E1. apply or_add_loop_spec in H.
        rewrite (entries_zip ls ks xs cs 1) in H by (auto; intros; rewrite ?B, ?C by auto; lia).
        simpl offered. fold (well_formed (TMany ls ks xs cs)). rewrite well_formed_same, E.
        replace (List.length ls) with 1%nat by lia.
        destruct H as (H1 & H2 & H3). split; auto. split; [|tauto]. tauto.
      * injection H as <- <-. unfold offered. rewrite well_formed_same, E. split; [apply absorbed_nil|].
        split; [|tauto]. split; [discriminate|intros [? ?]; discriminate].
    + destruct (same_length ls (Some ks) xs cs) eqn:E; simpl in H.
      * pose proof E as E2. apply same_length_spec in E2. destruct E2 as (A & B & C). specialize (A _ eq_refl).
        apply or_add_loop_spec in H.
        rewrite (entries_zip ls ks xs cs (List.length ls)) in H by (auto; lia).
        unfold offered. rewrite well_formed_same, E.
        destruct H as (H1 & H2 & H3). split; auto. split; [|tauto]. tauto.
      * injection H as <- <-. unfold offered. rewrite well_formed_same, E. split; [apply absorbed_nil|].
        split; [|tauto]. split; [discriminate|intros [? ?]; discriminate].
Qed.

Lemma or_run_spec h o : let o' := or_run o h in
  o_type o' = o_type o /\ o_inst o' = o_inst o /\ o_costf o' = o_costf o /\
  o_ind o' = dset_all key_eqb (map (enc (o_costf o)) (flat_map (learned (o_type o) (o_inst o) (o_costf o)) h)) (o_ind o) /\
  o_exa o' = dset_all zlist_eqb (if o_inst o then flat_map (fun c => examples_of (o_type o) (o_costf o) (offered c)) h else []) (o_exa o).
Proof.
  revert o. induction h as [|c h IH]; intro o; simpl.
  - repeat split. destruct (o_inst o); reflexivity.
  - destruct (or_teach o c) as [o1 r] eqn:E. simpl. pose proof (or_teach_spec _ _ _ _ E) as ((T & I & C & D & X) & _).
    specialize (IH o1). simpl in IH. rewrite T, I, C in IH. destruct IH as (T' & I' & C' & D' & X').
    repeat split; try congruence.
    + rewrite D', D. rewrite map_app, dset_all_app. unfold learned at 2. reflexivity.
    + rewrite X', X. destruct (o_inst o); auto. now rewrite dset_all_app.
Qed.

Lemma or_init_spec labels examples indexes cost o : or_init labels examples indexes cost = Ok o ->
  o_inst o = is_some examples /\ o_costf o = is_some cost /\
  (exists l0 rest, np_asarray (map VKey labels) = l0 :: rest /\ o_type o = key_ty l0) /\
  o_ind o = dset_all key_eqb (map (enc (is_some cost)) (initial_facts labels indexes cost)) [] /\
  o_exa o = dset_all zlist_eqb (match examples with Some xs => initial_examples labels xs indexes | None => [] end) [].
Proof.
  unfold or_init. destruct (same_length labels examples indexes cost) eqn:E; cbn [negb]; [|discriminate].
  apply same_length_spec in E. destruct E as (Hx & Hk & Hc).
  destruct (np_asarray (map VKey labels)) as [|l0 rest] eqn:EA; [discriminate|].
  assert (LA : List.length (np_asarray (map VKey labels)) = List.length labels).
  { unfold np_asarray. destruct (existsb _ _); rewrite !map_length; reflexivity. }
  intro H. injection H as <-. cbn [o_inst o_costf o_type o_ind o_exa]. split; [now destruct examples|]. split; [now destruct cost|].
  split; [eauto|].
  change (match cost_column (List.length labels) cost with [] => [] | y :: tl' => (l0, y) :: combine rest tl' end)
    with (combine (l0 :: rest) (cost_column (List.length labels) cost)).
  rewrite <- EA. clear EA l0 rest.
  assert (LK : List.length (initial_keys (List.length labels) indexes) = List.length labels).
  { unfold initial_keys. destruct indexes; auto. now rewrite map_length, seq_length. }
  assert (LC : List.length (cost_column (List.length labels) cost) = List.length labels).
  { unfold cost_column. destruct cost; [rewrite map_length; auto|apply repeat_length]. }
  assert (EK : match indexes with Some l => l | None => default_indexes (List.length labels) end
               = initial_keys (List.length labels) indexes) by reflexivity.
  rewrite EK. split.
  - f_equal. rewrite (combine_seq (KInt 0) (KInt 0, None)) by (rewrite combine_length; lia).
    rewrite LK. unfold initial_facts. rewrite map_map. apply map_ext_in. intros i Hi. apply in_seq in Hi.
    rewrite combine_nth by lia. unfold enc; simpl. f_equal. f_equal.
    unfold cost_column. destruct cost as [cs|]; simpl; [|apply nth_repeat].
    rewrite (nth_indep _ None (Some 0%Q)) by (rewrite map_length, Hc; auto; lia). now rewrite map_nth.
  - destruct examples as [xs|]; [|reflexivity].
    rewrite (combine_seq ([] : vec) (KInt 0) xs) by (rewrite LK; auto).
    unfold initial_examples. now rewrite Hx by auto.
Qed.

(** The state of an oracle after any history. *)
Lemma or_history labels examples indexes cost o h : or_init labels examples indexes cost = Ok o ->
  let o' := or_run o h in
  o_inst o' = is_some examples /\ o_costf o' = is_some cost /\
  (forall k, ind_get k (o_ind o') =
     option_map (fun v => (fst v, if is_some cost then Some (snd v) else None))
       (latest key_dec k (known (o_type o) labels examples indexes cost h))) /\
  (forall xs x, examples = Some xs ->
     exa_get x (o_exa o') = latest vec_dec x (known_examples (o_type o) labels xs indexes cost h)).
Proof.
  intros H. destruct (or_init_spec _ _ _ _ _ H) as (I & C & _ & D & X).
  destruct (or_run_spec h o) as (T' & I' & C' & D' & X'). simpl.
  rewrite I', C', I, C. rewrite I, C in D', X'. repeat split; auto.
  - intro k. rewrite D', D. rewrite <- dset_all_app, <- map_app. unfold ind_get.
    rewrite (dset_all_latest _ key_dec key_eqb_eq). unfold enc.
    rewrite (latest_map key_dec (fun v => (fst v, if is_some cost then Some (snd v) else None))).
    unfold known. destruct (latest _ _ _); reflexivity.
  - intros xs x ->. rewrite X', X. simpl is_some. rewrite <- dset_all_app. unfold exa_get.
    rewrite (dset_all_latest _ vec_dec zlist_eqb_eq). unfold known_examples. simpl. now destruct (latest _ _ _).
Qed.

(** Costs of facts are 1 when there is no cost information. *)
Lemma known_cost_one T labels examples indexes h k l c :
  In (k, (l, c)) (known T labels examples indexes None h) -> c = 1%Q.
Proof.
  unfold known. rewrite in_app_iff. intros [H|H].
  - unfold initial_facts in H. apply in_map_iff in H. destruct H as (i & E & _). now injection E as _ _ <-.
  - apply in_flat_map in H. destruct H as (e & _ & H). unfold learned in H. apply in_map_iff in H.
    destruct H as ([[[l' k'] x] c'] & E & _). unfold fact_of in E. simpl in E. now injection E as _ _ <-.
Qed.

Lemma or_query_history labels examples indexes cost o h ks : or_init labels examples indexes cost = Ok o ->
  or_query (or_run o h) ks =
  rmap (@List.split _ _) (mapM (fun k => match latest key_dec k (known (o_type o) labels examples indexes cost h) with
                                    | Some v => Ok v | None => Err TypeErr end) ks).
Proof.
  intro H. destruct (or_history _ _ _ _ _ h H) as (I & C & D & _). unfold or_query. f_equal.
  rewrite C. clear I C. induction ks as [|k ks IH]; simpl; auto. rewrite IH, D. clear IH.
  destruct (latest key_dec k (known (o_type o) labels examples indexes cost h)) as [[l c]|] eqn:E; simpl; auto.
  destruct cost; simpl; auto. apply latest_in, known_cost_one in E. subst c. reflexivity.
Qed.

Lemma mapM_all_err {A B} (f : A -> option B) e l :
  (mapM (fun x => match f x with Some v => Ok v | None => Err e end) l =
   if forallb (fun x => is_some (f x)) l
   then Ok (flat_map (fun x => match f x with Some v => [v] | None => [] end) l) else Err e).
Proof.
  induction l as [|x l IH]; simpl; auto. rewrite IH. destruct (f x); simpl; auto.
  destruct (forallb _ l); reflexivity.
Qed.

Lemma split_combine_iff {A B} (l : list (A * B)) a b :
  List.split l = (a, b) <-> List.length a = List.length b /\ l = combine a b.
Proof.
  split.
  - intro H. pose proof (split_combine l) as S. rewrite H in S.
    pose proof (split_length_l l) as L1. pose proof (split_length_r l) as L2. rewrite H in L1, L2. simpl in *.
    split; [congruence|]. now rewrite S.
  - intros [L ->]. now apply combine_split.
Qed.
