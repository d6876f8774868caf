From Verif Require Import Base BaseFacts IndexModel IndexSpec IndexProofs MLModel StateModel StateSpec StateProofs Dict OracleModel OracleSpec OracleProofs OracleProofs2 VoteProofs OracleProps RepoModel NoisyLoopModel NoisyLoopSpec.
From Coq Require Import String QArith Lia.
Local Open Scope Z_scope.

(** ** One element of integer collections *)
Lemma add_int c l k : WF c -> ids c l -> l <> [] -> ~ In k l ->
  exists c' w, ic_update c [VNp (KInt k)] = (c', Ok w) /\ WF c' /\ ids c' (l ++ [k]).
Proof.
  intros W I NE NI. unfold ids in I.
  assert (ET : etype c = Some TInt).
  { destruct l as [|a l]; [congruence|]. destruct W as [_ W]. apply (W (KInt a)). rewrite I. now left. }
  assert (NC : ~ In (KInt k) (elems c)).
  { rewrite I. intro H. apply in_map_iff in H. destruct H as (x & E & H). injection E as ->. contradiction. }
  cbn [ic_update ic_loop]. unfold ic_update, ic_loop.
  destruct (ic_add c (VNp (KInt k))) as [c1 o] eqn:E.
  pose proof (WF_add c (VNp (KInt k)) W) as W1. rewrite E in W1. cbn [fst] in W1.
  pose proof (elems_add c (VNp (KInt k)) W) as EA. rewrite E in EA. cbn [fst norm] in EA.
  assert (EO : exists w, o = Ok w).
  { destruct (add_effect c (VNp (KInt k))) as (_ & (w & H) & _).
    - congruence.
    - intros t H. cbn. congruence.
    - exists w. now rewrite E in H. }
  destruct EO as [w ->]. exists c1, (w ++ []). split; [reflexivity|]. split; [exact W1|].
  unfold ids. rewrite EA. unfold add_ty. rewrite ET. cbn [key_ty ty_eqb andb].
  replace (ic_contains (VNp (KInt k)) c) with false.
  - cbn. rewrite I, map_app. reflexivity.
  - symmetry. apply contains_not. exact NC.
Qed.

Lemma drop_int c l k : WF c -> ids c l ->
  exists c' w, ic_difference_update c [VNp (KInt k)] = (c', Ok w) /\ WF c' /\
    ids c' (filter (fun x => negb (Z.eqb x k)) l).
Proof.
  intros W I. unfold ic_difference_update, ic_loop.
  destruct (ic_discard c (VNp (KInt k))) as [c1 o] eqn:E.
  pose proof (WF_discard c (VNp (KInt k)) W) as W1. rewrite E in W1.
  pose proof (elems_discard c (VNp (KInt k)) W) as EA. rewrite E in EA. cbn [fst norm] in EA, W1.
  destruct (discard_effect c (VNp (KInt k)) W) as (_ & (w & H) & _). rewrite E in H. cbn [snd] in H. subst o.
  exists c1, (w ++ []). split; [reflexivity|]. split; [exact W1|].
  unfold ids in *. rewrite EA, I. clear. induction l as [|x l IH]; [reflexivity|]. cbn [map filter key_eqb].
  destruct (x =? k); cbn [negb map]; now rewrite IH.
Qed.

Lemma len_ids c l : WF c -> ids c l -> ic_len c = List.length l.
Proof. intros W I. unfold ic_len. rewrite <- (map_length norm (cont c)). fold (elems c). rewrite I. apply map_length. Qed.

Lemma nodup_ids c l : WF c -> ids c l -> NoDup l.
Proof. intros [N _] I. unfold ids in I. rewrite I in N. now apply NoDup_map_inv in N. Qed.

(** ** The vote *)
Lemma vote_fails p ks names p' e : get_majority_vote_pool p ks (Some names) = (p', Err e) ->
  exists extra, (List.length extra <= 1)%nat /\ p_dict p' = p_dict p /\ p_hist p' = p_hist p ++ extra /\
    (p_cost p' == p_cost p + total_cost extra)%Q.
Proof.
  unfold get_majority_vote_pool, query_results_pool, pool_query_s.
  destruct (mapM (pool_ask p ks) names) as [rs|x].
  - intro H. exists [(names, rs, ks)]. split; [cbn; lia|].
    assert (p' = pool_record p names rs ks (qsum (List.concat (map snd rs)))) as ->.
    { destruct (rmap _ _); congruence. }
    cbn. repeat split. unfold total_cost, record_cost. cbn. rewrite qsum_fold_right, flat_map_concat_map. ring.
  - intro H. injection H as <- _. exists []. cbn. rewrite app_nil_r. repeat split; auto. unfold total_cost. cbn. ring.
Qed.

Lemma vote_ok p k names p' n l c : get_majority_vote_pool p [KInt k] (Some names) = (p', Ok (n, l, c)) ->
  exists rs, p_dict p' = p_dict p /\ p_hist p' = p_hist p ++ [(names, rs, [KInt k])] /\
    (c == record_cost (names, rs, [KInt k]))%Q /\ (p_cost p' == p_cost p + c)%Q /\
    Forall2 (fun n a => exists o, dget String.eqb n (p_dict p) = Some o /\ or_query o [KInt k] = Ok a) names rs /\
    exists ls, heads rs ls /\ winner ls n l.
Proof.
  intro H. destruct (C26_vote_of_pool _ _ _ _ _ _ _ H) as (rs & ls & A & B & C & D & E & F & G).
  exists rs. repeat split; auto; [|exists ls; auto].
  unfold pool_query_s in A. destruct (mapM (pool_ask p [KInt k]) names) as [rs'|] eqn:M; [|discriminate].
  cbn in A. injection A as ->. apply mapM_inv in M. clear - M. induction M as [|x r xs rs Hx M IH]; constructor; auto.
  unfold pool_ask in Hx. destruct (dget String.eqb x (p_dict p)) as [o|]; [|discriminate]. exists o. auto.
Qed.

Lemma total_cost_app a b : (total_cost (a ++ b) == total_cost a + total_cost b)%Q.
Proof. unfold total_cost. rewrite map_app. apply fold_right_Qplus_app. Qed.

(** ** The repository *)
Lemma repo_adds r k z : m_width r = None -> m_inst r = false -> ~ In k (m_idx r) ->
  exists r', mr_update r [LNum z] [k] None None = (r', Ok tt) /\ m_width r' = None /\ m_inst r' = false /\
    m_y r' = m_y r ++ [LNum z] /\ m_idx r' = m_idx r ++ [k] /\ m_cost r' = m_cost r.
Proof.
  intros W I N. unfold mr_update. cbn. unfold mr_add. unfold zmem.
  replace (existsb (Z.eqb k) (m_idx r)) with false.
  - rewrite W, I. cbn. eexists. split; [reflexivity|]. cbn. auto.
  - symmetry. apply Bool.not_true_iff_false. intro H. apply existsb_exists in H. destruct H as (x & H & E).
    apply Z.eqb_eq in E. subst. contradiction.
Qed.

Lemma repo_skips r k z : In k (m_idx r) ->
  exists r', mr_update r [LNum z] [k] None None = (r', Ok tt) /\ m_width r' = m_width r /\ m_inst r' = m_inst r /\
    m_y r' = m_y r /\ m_idx r' = m_idx r /\ m_cost r' = m_cost r.
Proof.
  intros N. unfold mr_update. cbn. unfold mr_add. unfold zmem.
  replace (existsb (Z.eqb k) (m_idx r)) with true.
  - cbn. eexists. split; [reflexivity|]. cbn. auto.
  - symmetry. apply existsb_exists. exists k. split; auto. apply Z.eqb_refl.
Qed.

Lemma first_repo y L ls : ids L ls -> ls <> [] -> (forall k, In k ls -> 0 <= k < Z.of_nat (List.length y)) ->
  exists r ys, first_repository y L = Ok r /\ true_labels y ls ys /\ m_width r = None /\ m_inst r = false /\
    m_y r = map LNum ys /\ m_idx r = ls /\ m_cost r = 0%Q.
Proof.
  intros I NE B. unfold first_repository. fold (elems L). rewrite I.
  assert (E1 : mapM (fun k => match k with KInt z => Ok z | KStr _ => Err IndexErr end) (map KInt ls) = Ok ls).
  { clear. induction ls as [|k ls IH]; [reflexivity|]. cbn. now rewrite IH. }
  rewrite E1. cbn [bind].
  assert (E2 : exists ys, mapM (label_at y) ls = Ok (map LNum ys) /\ true_labels y ls ys).
  { clear - B. induction ls as [|k ls IH]; [exists []; split; [reflexivity|constructor]|].
    destruct IH as (ys & E & F); [intros; apply B; now right|].
    assert (Bk : 0 <= k < Z.of_nat (List.length y)) by (apply B; now left).
    destruct (nth_error y (Z.to_nat k)) as [v|] eqn:N; [|apply nth_error_None in N; lia].
    exists (v :: ys). split; [|constructor; auto].
    cbn [mapM]. rewrite E. unfold label_at, py_index.
    replace ((0 <=? k) && (k <? Z.of_nat (List.length y)))%bool with true
      by (symmetry; apply andb_true_intro; split; [apply Z.leb_le|apply Z.ltb_lt]; lia).
    unfold py_nth. rewrite N. reflexivity. }
  destruct E2 as (ys & E2 & T). rewrite E2. cbn [bind].
  assert (LL : List.length ls = List.length ys) by (clear - T; induction T; cbn; auto).
  unfold mr_init, same_length. rewrite map_length, LL, Nat.eqb_refl. cbn [andb negb].
  destruct ys as [|v ys]; [destruct ls; [congruence|discriminate]|].
  cbn [map label_shape].
  replace (forallb _ (LNum v :: map LNum ys)) with true
    by (symmetry; apply forallb_forall; intros x Hx; destruct Hx as [<-|Hx]; auto;
        apply in_map_iff in Hx; destruct Hx as (q & <- & _); reflexivity).
  cbn. do 2 eexists. split; [reflexivity|]. split; [exact T|]. cbn. auto.
Qed.
