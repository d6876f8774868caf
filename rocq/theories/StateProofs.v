(** Proofs about [State] and [StateIO]. *)
From Verif Require Import Base BaseFacts SetFacts IndexModel IndexSpec IndexProofs MLModel MLSpec MLProofs MLProofs2
  StateModel StateSpec.
From Coq Require Import String QArith ZifyBool DecimalString DecimalNat.
From Coq Require DecimalFacts.
Local Open Scope Z_scope.

(** *** dictionaries *)
Section D.
  Context {V : Type}.
  Implicit Types d : list (string * V).

  Lemma sget_sset k v d k' : sget k' (sset k v d) = if String.eqb k' k then Some v else sget k' d.
  Proof.
    induction d as [|[a b] d IH]; cbn; [reflexivity|]. destruct (String.eqb_spec k a) as [->|Ha]; cbn.
    - destruct (String.eqb_spec k' a); reflexivity.
    - destruct (String.eqb_spec k' a) as [->|]; [|exact IH]. destruct (String.eqb_spec a k); congruence.
  Qed.

  Lemma sset_keys k v d x : In x (map fst (sset k v d)) <-> In x (map fst d) \/ x = k.
  Proof.
    induction d as [|[a b] d IH]; cbn; [intuition|]. destruct (String.eqb_spec k a) as [->|Ha]; cbn.
    - intuition.
    - rewrite IH. intuition.
  Qed.

  Lemma sset_NoDup k v d : NoDup (map fst d) -> NoDup (map fst (sset k v d)).
  Proof.
    induction d as [|[a b] d IH]; cbn; intro N; [repeat constructor; auto|].
    inversion N as [|? ? N1 N2]; subst. destruct (String.eqb_spec k a) as [->|Ha]; cbn; constructor; auto.
    rewrite sset_keys. intuition.
  Qed.

  Lemma sget_none k d : sget k d = None <-> ~ In k (map fst d).
  Proof.
    induction d as [|[a b] d IH]; cbn; [tauto|]. destruct (String.eqb_spec k a) as [->|Ha].
    - split; [discriminate|tauto].
    - rewrite IH. intuition congruence.
  Qed.

  Lemma sdel_keys k d x : In x (map fst (sdel k d)) -> In x (map fst d).
  Proof.
    induction d as [|[a b] d IH]; cbn; auto. destruct (String.eqb k a); cbn; intuition.
  Qed.

  Lemma sdel_NoDup k d : NoDup (map fst d) -> NoDup (map fst (sdel k d)).
  Proof.
    induction d as [|[a b] d IH]; cbn; intro N; auto. inversion N as [|? ? N1 N2]; subst.
    destruct (String.eqb k a); cbn; auto. constructor; auto. intro H. apply sdel_keys in H. auto.
  Qed.

  Lemma sget_sdel k d k' : NoDup (map fst d) ->
    sget k' (sdel k d) = if String.eqb k' k then None else sget k' d.
  Proof.
    induction d as [|[a b] d IH]; cbn; intro N; [now destruct (String.eqb k' k)|].
    inversion N as [|? ? N1 N2]; subst. destruct (String.eqb_spec k a) as [->|Ha].
    - destruct (String.eqb_spec k' a) as [He|]; auto. rewrite He. now apply sget_none.
    - cbn. destruct (String.eqb_spec k' a) as [->|]; [|now apply IH].
      destruct (String.eqb_spec a k); congruence.
  Qed.
End D.

(** *** State *)
Section St.
  Context {E : Type}.
  Implicit Types s : state E.

  Definition st_wf s := NoDup (map fst (sdict s)).

  Lemma state_init_wf sel perf ql cost : st_wf (@state_init E sel perf ql cost).
  Proof.
    unfold st_wf, state_init. destruct ql, cost; cbn [sdict]; repeat apply sset_NoDup; constructor.
  Qed.

  Lemma st_step_wf s o : st_wf s -> st_wf (fst (st_step s o)).
  Proof.
    unfold st_wf. intro W. destruct o; cbn [st_step].
    - cbn. now apply sset_NoDup.
    - destruct (sget k (sdict s)); cbn; auto. now apply sset_NoDup.
    - destruct (critical k); cbn; auto. destruct (sget k (sdict s)); cbn; auto. now apply sdel_NoDup.
  Qed.

  Lemma st_run_wf h : forall s, st_wf s -> st_wf (st_run s h).
  Proof.
    induction h as [|o h IH]; intros s W; [exact W|].
    change (st_wf (st_run (fst (st_step s o)) h)). apply IH. now apply st_step_wf.
  Qed.

  Lemma st_step_other s o k : st_wf s -> touched o <> k -> st_get (fst (st_step s o)) k = st_get s k.
  Proof.
    intros W H. unfold st_get. destruct o; cbn [touched st_step] in *.
    - cbn. rewrite sget_sset. destruct (String.eqb_spec k k0); congruence.
    - destruct (sget k0 (sdict s)); cbn; auto. rewrite sget_sset. destruct (String.eqb_spec k k0); congruence.
    - destruct (critical k0); cbn; auto. destruct (sget k0 (sdict s)); cbn; auto.
      rewrite sget_sdel by exact W. destruct (String.eqb_spec k k0); congruence.
  Qed.

  Lemma st_run_other h : forall s k, st_wf s -> (forall o, In o h -> touched o <> k) ->
    st_get (st_run s h) k = st_get s k.
  Proof.
    induction h as [|o h IH]; intros s k W H; [reflexivity|].
    change (st_get (st_run (fst (st_step s o)) h) k = st_get s k).
    rewrite IH; [|now apply st_step_wf|intros; apply H; now right]. apply st_step_other; auto. apply H. now left.
  Qed.

  Lemma st_step_same s o : st_wf s ->
    st_get (fst (st_step s o)) (touched o) =
      match o with
      | SAdd _ v => Ok v
      | SSet k v => match st_get s k with Ok _ => Ok v | Err _ => Err KeyErr end
      | SDel k => if critical k then st_get s k else Err KeyErr
      end.
  Proof.
    intro W. unfold st_get. destruct o; cbn [touched st_step].
    - cbn. now rewrite sget_sset, String.eqb_refl.
    - destruct (sget k (sdict s)) eqn:G; cbn; [now rewrite sget_sset, String.eqb_refl|]. now rewrite G.
    - destruct (critical k); cbn; auto. destruct (sget k (sdict s)) eqn:G; cbn; [|now rewrite G].
      now rewrite sget_sdel, String.eqb_refl by exact W.
  Qed.

  Lemma st_run_app s a b : st_run s (a ++ b) = st_run (st_run s a) b.
  Proof. unfold st_run. apply fold_left_app. Qed.

  Lemma last_write_lemma s0 pre o post k : st_wf s0 -> touched o = k ->
    (forall o', In o' post -> touched o' <> k) ->
    st_get (st_run s0 (pre ++ o :: post)) k =
      match o with
      | SAdd _ v => Ok v
      | SSet _ v => match st_get (st_run s0 pre) k with Ok _ => Ok v | Err _ => Err KeyErr end
      | SDel _ => if critical k then st_get (st_run s0 pre) k else Err KeyErr
      end.
  Proof.
    intros W Hk Hp. rewrite st_run_app.
    change (st_run (st_run s0 pre) (o :: post)) with (st_run (fst (st_step (st_run s0 pre) o)) post).
    pose proof (st_run_wf pre s0 W) as W1.
    rewrite st_run_other; [|now apply st_step_wf|exact Hp]. subst k. rewrite st_step_same by exact W1.
    destruct o; reflexivity.
  Qed.

  Lemma critical_stays s h k v : st_wf s -> critical k = true -> st_get s k = Ok v ->
    exists v', st_get (st_run s h) k = Ok v'.
  Proof.
    revert s v. induction h as [|o h IH]; intros s v W Ck G; [eauto|].
    change (exists v', st_get (st_run (fst (st_step s o)) h) k = Ok v').
    destruct (String.string_dec (touched o) k) as [<-|Hn].
    - pose proof (st_step_same s o W) as X. destruct o; cbn [touched] in *.
      + eapply IH; [now apply st_step_wf|exact Ck|exact X].
      + rewrite G in X. eapply IH; [now apply st_step_wf|exact Ck|exact X].
      + rewrite Ck, G in X. eapply IH; [now apply st_step_wf|exact Ck|exact X].
    - eapply IH; [now apply st_step_wf|exact Ck|]. rewrite st_step_other; eauto.
  Qed.

  Lemma st_batch h : forall s, sbatch (st_run s h) = sbatch s.
  Proof.
    induction h as [|o h IH]; intro s; [reflexivity|].
    change (sbatch (st_run (fst (st_step s o)) h) = sbatch s). rewrite IH.
    destruct o; cbn [st_step]; auto.
    - destruct (sget k (sdict s)); reflexivity.
    - destruct (critical k); cbn; auto. destruct (sget k (sdict s)); reflexivity.
  Qed.
End St.

(** *** records *)
Lemma proper_sel {E} (e : entry E) : proper e -> sel_of e = Ok (queried e).
Proof.
  destruct e as [s|d]; [|intros []]. intros [(l & H) _]. unfold sel_of, st_get, queried. now rewrite H.
Qed.

Lemma qsum_fold_right l : (qsum l == fold_right Qplus 0 l)%Q.
Proof.
  unfold qsum. assert (X : forall l a, (fold_left Qplus l a == a + fold_right Qplus 0 l)%Q).
  { clear. induction l as [|x l IH]; intro a; simpl; [ring|]. rewrite IH. ring. }
  rewrite X. ring.
Qed.

Lemma proper_cost {E} (e : entry E) : proper e -> exists q, cost_of e = Ok q /\ (q == spent e)%Q.
Proof.
  destruct e as [s|d]; [|intros []]. intros [_ H]. unfold cost_of, spent.
  destruct (sget "cost" (sdict s)) as [[| | |]|]; try contradiction; eexists; split; try reflexivity.
  apply qsum_fold_right.
Qed.

Section Generic.
  Context {C E : Type}.
  Variables (upd diff : C -> list E -> C * res (list warning)).
  Implicit Types s : sio C E.

  Lemma add_proper s e : proper e ->
    snd (sio_add s e) = Ok tt /\ s_states (fst (sio_add s e)) = s_states s ++ [e] /\
    (s_cost (fst (sio_add s e)) == s_cost s + spent e)%Q /\
    s_numq (fst (sio_add s e)) = (s_numq s + List.length (queried e))%nat /\
    s_L (fst (sio_add s e)) = s_L s /\ s_U (fst (sio_add s e)) = s_U s /\
    s_train (fst (sio_add s e)) = s_train s /\ s_test (fst (sio_add s e)) = s_test s /\
    s_batch (fst (sio_add s e)) = s_batch s.
  Proof.
    intro P. destruct (proper_cost e P) as (q & Eq & Hq). pose proof (proper_sel e P) as Es.
    destruct e as [st|d]; [|destruct P]. unfold sio_add. rewrite Eq, Es. cbn. repeat split; auto.
    now rewrite Hq.
  Qed.

  Lemma adds_proper es : Forall proper es -> forall s,
    s_states (sio_run upd diff s (map IAdd es)) = s_states s ++ es /\
    (s_cost (sio_run upd diff s (map IAdd es)) == s_cost s + fold_right Qplus 0 (map spent es))%Q /\
    s_numq (sio_run upd diff s (map IAdd es)) = (s_numq s + List.length (flat_map queried es))%nat /\
    s_L (sio_run upd diff s (map IAdd es)) = s_L s /\ s_U (sio_run upd diff s (map IAdd es)) = s_U s /\
    s_train (sio_run upd diff s (map IAdd es)) = s_train s /\ s_test (sio_run upd diff s (map IAdd es)) = s_test s /\
    s_batch (sio_run upd diff s (map IAdd es)) = s_batch s.
  Proof.
    induction 1 as [|e es P F IH]; intro s.
    - cbn. rewrite app_nil_r. split; auto. split; [ring|]. split; [lia|]. repeat split; auto.
    - change (sio_run upd diff s (map IAdd (e :: es))) with (sio_run upd diff (fst (sio_add s e)) (map IAdd es)).
      destruct (add_proper s e P) as (_ & A1 & A2 & A3 & A4 & A5 & A6 & A7 & A8).
      destruct (IH (fst (sio_add s e))) as (B1 & B2 & B3 & B4 & B5 & B6 & B7 & B8).
      rewrite B1, B3, B4, B5, B6, B7, B8, A1, A3, A4, A5, A6, A7, A8. cbn [map fold_right flat_map].
      rewrite <- app_assoc, app_length. repeat split; auto; [rewrite B2, A2; ring|lia].
  Qed.

  Lemma refresh_lemma s : Forall proper (s_states s) ->
    exists q, snd (sio_refresh s) = Ok (List.length (flat_map queried (s_states s)), q) /\
    (q == fold_right Qplus 0 (map spent (s_states s)))%Q /\
    fst (sio_refresh s) = with_totals s q (List.length (flat_map queried (s_states s))).
  Proof.
    intro F. unfold sio_refresh.
    assert (X : exists qs, mapM (fun e => l <- sel_of e ;; q <- cost_of e ;; Ok (List.length l, q)) (s_states s)
                  = Ok (combine (map (fun e => List.length (queried e)) (s_states s)) qs) /\
                List.length qs = List.length (s_states s) /\
                (fold_right Qplus 0 qs == fold_right Qplus 0 (map spent (s_states s)))%Q).
    { induction F as [|e es P F IH]; cbn.
      - exists []. repeat split; reflexivity.
      - destruct IH as (qs & E1 & E2 & E3). destruct (proper_cost e P) as (q & Eq & Hq).
        exists (q :: qs). rewrite (proper_sel e P), Eq. cbn. rewrite E1. cbn. repeat split; auto.
        now rewrite Hq, E3. }
    destruct X as (qs & E1 & E2 & E3). rewrite E1.
    assert (M1 : map fst (combine (map (fun e => List.length (queried e)) (s_states s)) qs)
                 = map (fun e => List.length (queried e)) (s_states s)).
    { revert E2. generalize (s_states s) as es. clear. intros es. revert qs.
      induction es as [|e es IH]; intros [|q qs] L; cbn in *; try discriminate; auto. f_equal. auto. }
    assert (M2 : map snd (combine (map (fun e => List.length (queried e)) (s_states s)) qs) = qs).
    { revert E2. generalize (s_states s) as es. clear. intros es. revert qs.
      induction es as [|e es IH]; intros [|q qs] L; cbn in *; try discriminate; auto. f_equal. auto. }
    rewrite M1, M2.
    assert (N : fold_left Nat.add (map (fun e => List.length (queried e)) (s_states s)) 0%nat
                = List.length (flat_map queried (s_states s))).
    { assert (Y : forall es a, fold_left Nat.add (map (fun e => List.length (queried e)) es) a
                   = (a + List.length (@flat_map (entry E) E queried es))%nat).
      { clear. induction es as [|e es IH]; intro a; cbn; [lia|]. rewrite IH, app_length. lia. }
      now rewrite Y. }
    rewrite N. exists (qsum qs). repeat split; auto. now rewrite qsum_fold_right.
  Qed.

  (** *** recover *)
  Lemma workspace_prefix s l it : (forall k, 0 <= k -> it = Some k -> k <= Z.of_nat (List.length l)) -> it <> None ->
    (exists r, s_states s = l ++ r) ->
    sio_workspace upd diff (with_states s l) it = sio_workspace upd diff s it.
  Proof.
    intros Hk Hn (r & Hr). destruct it as [k|]; [|congruence]. unfold sio_workspace. cbn [s_states with_states].
    destruct (0 <=? k) eqn:K0; [|reflexivity]. cbn [andb].
    specialize (Hk k ltac:(lia) eq_refl). rewrite Hr, app_length.
    replace (k <=? Z.of_nat (List.length l)) with true by lia.
    replace (k <=? Z.of_nat (List.length l + List.length r)) with true by lia.
    unfold sio_replay. cbn [s_states with_states s_L s_U]. rewrite Hr, firstn_app.
    replace (Z.to_nat k - List.length l)%nat with 0%nat by lia. cbn. now rewrite app_nil_r.
  Qed.

  Lemma recover_lemma s it :
    let k := match it with None => Z.of_nat (List.length (s_states s)) | Some k => k end in
    snd (sio_recover upd diff s it) = sio_workspace upd diff s it /\
    match sio_workspace upd diff s it with
    | Err _ => fst (sio_recover upd diff s it) = s
    | Ok _ => 0 <= k <= Z.of_nat (List.length (s_states s)) /\
              fst (sio_recover upd diff s it) = with_states s (firstn (Z.to_nat k) (s_states s))
    end.
  Proof.
    cbn zeta. unfold sio_recover. destruct (sio_workspace upd diff s it) as [w|e] eqn:W; cbn; auto.
    split; auto. split; auto. unfold sio_workspace in W.
    destruct (_ && _) eqn:B in W; [lia|discriminate].
  Qed.

  Lemma recover_then s k w : sio_workspace upd diff s (Some k) = Ok w ->
    let s' := fst (sio_recover upd diff s (Some k)) in
    sio_workspace upd diff s' None = Ok w /\
    (forall j, j <= k -> sio_workspace upd diff s' (Some j) = sio_workspace upd diff s (Some j)) /\
    (forall j, k < j -> sio_workspace upd diff s' (Some j) = Err AssertErr) /\
    sio_recover upd diff s' (Some k) = (s', Ok w).
  Proof.
    intro W. pose proof (recover_lemma s (Some k)) as [R1 R2]. rewrite W in R2. destruct R2 as [Hk R2].
    cbn zeta. rewrite R2.
    assert (Hl : List.length (firstn (Z.to_nat k) (s_states s)) = Z.to_nat k) by (rewrite firstn_length; lia).
    assert (P : forall j, j <= k -> sio_workspace upd diff (with_states s (firstn (Z.to_nat k) (s_states s))) (Some j)
                                    = sio_workspace upd diff s (Some j)).
    { intros j Hj. apply workspace_prefix; [|discriminate|].
      - intros k0 H0 E0. injection E0 as <-. rewrite Hl. lia.
      - exists (skipn (Z.to_nat k) (s_states s)). now rewrite firstn_skipn. }
    split; [|split; [exact P|split]].
    - rewrite <- W, <- (P k ltac:(lia)). unfold sio_workspace. cbn [s_states with_states]. rewrite Hl, Z2Nat.id by lia.
      reflexivity.
    - intros j Hj. unfold sio_workspace. cbn [s_states with_states]. rewrite Hl.
      replace ((0 <=? j) && (j <=? Z.of_nat (Z.to_nat k))) with false by lia. reflexivity.
    - unfold sio_recover at 1. rewrite P by lia. rewrite W. f_equal.
      unfold with_states. cbn. rewrite firstn_firstn, Nat.min_id. reflexivity.
  Qed.

  Lemma sio_eta s s' : s_train s = s_train s' -> s_test s = s_test s' -> s_L s = s_L s' -> s_U s = s_U s' ->
    s_states s = s_states s' -> s_batch s = s_batch s' -> forall q n, with_totals s q n = with_totals s' q n.
  Proof. intros. unfold with_totals. congruence. Qed.

  Lemma mapM_ext_list {A B} (f : A -> res B) l l' : l = l' -> mapM f l = mapM f l'.
  Proof. now intros ->. Qed.

  Lemma refresh_same s s' : s_train s = s_train s' -> s_test s = s_test s' -> s_L s = s_L s' -> s_U s = s_U s' ->
    s_states s = s_states s' -> s_batch s = s_batch s' -> Forall proper (s_states s) ->
    fst (sio_refresh s) = fst (sio_refresh s').
  Proof.
    intros H1 H2 H3 H4 H5 H6 F. unfold sio_refresh. rewrite <- H5.
    destruct (refresh_lemma s F) as (q & R & _). unfold sio_refresh in R.
    destruct (mapM _ (s_states s)); [|discriminate]. cbn. now apply sio_eta.
  Qed.

  Lemma rollback_lemma train test L U es k more :
    Forall proper es -> Forall proper more -> (k <= List.length es)%nat ->
    let s := sio_run upd diff (sio_new train test L U) (map IAdd es) in
    (exists w, sio_workspace upd diff s (Some (Z.of_nat k)) = Ok w) ->
    let a := sio_run upd diff (fst (sio_recover upd diff s (Some (Z.of_nat k)))) (map IAdd more) in
    let b := sio_run upd diff (sio_new train test L U) (map IAdd (firstn k es ++ more)) in
    s_states a = s_states b /\
    (forall it, sio_workspace upd diff a it = sio_workspace upd diff b it) /\
    (forall i, sio_get a i = sio_get b i) /\
    fst (sio_refresh a) = fst (sio_refresh b).
  Proof.
    intros Fe Fm Hk s (w & W). cbn zeta.
    destruct (recover_lemma s (Some (Z.of_nat k))) as [_ R]. rewrite W in R. destruct R as [_ R].
    rewrite R, Nat2Z.id. clear R.
    destruct (adds_proper es Fe (sio_new train test L U)) as (A1 & _ & _ & A4 & A5 & A6 & A7 & A8).
    fold s in A1, A4, A5, A6, A7, A8. cbn [sio_new s_states s_L s_U s_train s_test s_batch app] in *.
    set (s1 := with_states s (firstn k (s_states s))).
    destruct (adds_proper more Fm s1) as (B1 & _ & _ & B4 & B5 & B6 & B7 & B8).
    assert (F : Forall proper (firstn k es ++ more)).
    { apply Forall_app. split; auto. rewrite <- (firstn_skipn k es) in Fe. now apply Forall_app in Fe. }
    destruct (adds_proper _ F (sio_new train test L U)) as (D1 & _ & _ & D4 & D5 & D6 & D7 & D8).
    cbn [sio_new s_states s_L s_U s_train s_test s_batch app] in *.
    set (a := sio_run upd diff s1 (map IAdd more)) in *.
    set (b := sio_run upd diff (sio_new train test L U) (map IAdd (firstn k es ++ more))) in *.
    assert (S1 : s_states a = s_states b).
    { rewrite B1, D1. unfold s1. cbn. now rewrite A1. }
    assert (S2 : s_L a = s_L b) by (rewrite B4, D4; exact A4).
    assert (S3 : s_U a = s_U b) by (rewrite B5, D5; exact A5).
    assert (S4 : s_train a = s_train b) by (rewrite B6, D6; exact A6).
    assert (S5 : s_test a = s_test b) by (rewrite B7, D7; exact A7).
    assert (S6 : s_batch a = s_batch b) by (rewrite B8, D8; exact A8).
    split; auto. split; [|split].
    - intro it. unfold sio_workspace, sio_replay. now rewrite S1, S2, S3, S4, S5.
    - intro i. unfold sio_get. now rewrite S1.
    - apply refresh_same; auto. rewrite S1, D1. exact F.
  Qed.

  (** *** check_batch_size *)
  Lemma nat_mem_in x l : nat_mem x l = true <-> In x l.
  Proof.
    induction l as [|y l IH]; cbn; [split; [discriminate|tauto]|].
    rewrite orb_true_iff, IH, Nat.eqb_eq. intuition.
  Qed.
  Lemma nat_distinct_in l x : In x (nat_distinct l) <-> In x l.
  Proof.
    induction l as [|y l IH]; cbn; [tauto|]. destruct (nat_mem y l) eqn:M.
    - rewrite IH. apply nat_mem_in in M. intuition. now subst.
    - cbn. now rewrite IH.
  Qed.
  Lemma nat_distinct_NoDup l : NoDup (nat_distinct l).
  Proof.
    induction l as [|y l IH]; cbn; [constructor|]. destruct (nat_mem y l) eqn:M; auto. constructor; auto.
    rewrite nat_distinct_in. intro H. apply nat_mem_in in H. congruence.
  Qed.
  Lemma nat_distinct_one l b : nat_distinct l = [b] <-> l <> [] /\ forall x, In x l -> x = b.
  Proof.
    split.
    - intro H. split.
      + intros ->. discriminate.
      + intros x Hx. apply nat_distinct_in in Hx. rewrite H in Hx. destruct Hx as [->|[]]; auto.
    - intros [H1 H2]. pose proof (nat_distinct_NoDup l) as N.
      assert (I : forall x, In x (nat_distinct l) -> x = b) by (intros x Hx; apply H2; now apply nat_distinct_in).
      destruct (nat_distinct l) as [|x [|y r]] eqn:D.
      + destruct l as [|z l]; [congruence|]. assert (In z (nat_distinct (z :: l))) by (apply nat_distinct_in; now left).
        rewrite D in H. destruct H.
      + now rewrite (I x (or_introl eq_refl)).
      + inversion N as [|? ? N1 N2]; subst. exfalso. apply N1. left.
        rewrite (I x), (I y); cbn; auto.
  Qed.

  Lemma check_batch_lemma s : (forall e, In e (s_states s) -> exists st, e = EState st) ->
    exists b, snd (sio_check_batch s) = Ok b /\
    (b = true <-> (2 <= List.length (s_states s))%nat /\
       exists n, forall i st, (i < List.length (s_states s) - 1)%nat ->
                 nth_error (s_states s) i = Some (EState st) -> sbatch st = n) /\
    s_states (fst (sio_check_batch s)) = s_states s /\
    (b = true -> forall st, nth_error (s_states s) 0 = Some (EState st) -> s_batch (fst (sio_check_batch s)) = sbatch st) /\
    (b = false -> fst (sio_check_batch s) = s).
  Proof.
    intro H. unfold sio_check_batch.
    set (l := firstn (List.length (s_states s) - 1) (s_states s)).
    set (f := fun e : entry E => match e with EState st => sbatch st | EDict _ => 0%nat end).
    assert (M : mapM batch_of l = Ok (map f l)).
    { apply mapM_ok. intros e He. destruct (H e) as [st ->]; [|reflexivity].
      unfold l in He. rewrite <- (firstn_skipn (List.length (s_states s) - 1) (s_states s)). apply in_or_app. now left. }
    rewrite M.
    assert (Ln : List.length l = (List.length (s_states s) - 1)%nat) by (unfold l; rewrite firstn_length; lia).
    assert (Nl : forall i, (i < List.length (s_states s) - 1)%nat -> nth_error l i = nth_error (s_states s) i).
    { intros i Hi. unfold l. rewrite <- (firstn_skipn (List.length (s_states s) - 1) (s_states s)) at 3.
      rewrite nth_error_app1; auto. rewrite firstn_length. lia. }
    assert (K : forall b, nat_distinct (map f l) = [b] <->
      (2 <= List.length (s_states s))%nat /\ forall i st, (i < List.length (s_states s) - 1)%nat ->
                 nth_error (s_states s) i = Some (EState st) -> sbatch st = b).
    { intro b. rewrite nat_distinct_one. split.
      - intros [A B]. split.
        + destruct l as [|e l0] eqn:El; [now cbn in A|]. cbn in Ln. lia.
        + intros i st Hi Hn. apply (B (f (EState st))). apply in_map. rewrite <- Nl in Hn by exact Hi.
          now apply nth_error_In in Hn.
      - intros [A B]. split.
        + intro X. apply map_eq_nil in X. rewrite X in Ln. cbn in Ln. lia.
        + intros x Hx. apply in_map_iff in Hx. destruct Hx as (e & <- & He). apply In_nth_error in He.
          destruct He as [i Hi]. assert (Hlt : (i < List.length l)%nat) by (apply nth_error_Some; congruence).
          rewrite Nl in Hi by lia. destruct (H e) as [st ->]; [now apply nth_error_In in Hi|].
          cbn. apply (B i); auto. lia. }
    destruct (nat_distinct (map f l)) as [|b [|b' r]] eqn:D.
    - exists false. cbn. repeat split; auto; try discriminate. intros (A & n & B). exfalso.
      assert (X : nat_distinct (map f l) = [n]) by (rewrite D; apply K; auto). congruence.
    - exists true. cbn [fst snd s_states s_batch]. destruct (proj1 (K b) eq_refl) as [K1 K2].
      split; auto. split; [split; [intros _; split; [exact K1|exists b; exact K2]|reflexivity]|].
      split; auto. split; [|discriminate]. intros _ st Hst. symmetry. apply K2 with (i := 0%nat); auto. lia.
    - exists false. cbn. repeat split; auto; try discriminate. intros (A & n & B). exfalso.
      assert (X : nat_distinct (map f l) = [n]) by (rewrite D; apply K; auto). congruence.
  Qed.

  (** *** save and crash *)
  Notation ev_run := (ev_run upd diff).
  Definition writes (v : event E) : bool := match v with VSave | VCrashInSave => true | _ => false end.

  Lemma ev_app fresh st a b : ev_run fresh st (a ++ b) = ev_run fresh (ev_run fresh st a) b.
  Proof. apply fold_left_app. Qed.

  Lemma ev_keep fresh h : (forall v, In v h -> writes v = false) -> forall st,
    snd (ev_run fresh st h) = snd st.
  Proof.
    induction h as [|v h IH]; intros H st; [reflexivity|].
    change (snd (ev_run fresh (ev_step upd diff fresh st v) h) = snd st).
    rewrite IH by (intros; apply H; now right). specialize (H v (or_introl eq_refl)).
    destruct st as [s f], v; cbn in *; congruence.
  Qed.

  Lemma load_last_save fresh st pre post : (forall v, In v post -> writes v = false) ->
    sio_load (snd (ev_run fresh st (pre ++ VSave :: post))) = Ok (fst (ev_run fresh st pre)).
  Proof.
    intro H. rewrite ev_app. change (ev_run fresh (ev_run fresh st pre) (VSave :: post))
      with (ev_run fresh (ev_step upd diff fresh (ev_run fresh st pre) VSave) post).
    rewrite ev_keep by exact H. now destruct (ev_run fresh st pre).
  Qed.

  Lemma load_crashed fresh st pre post : (forall v, In v post -> writes v = false) ->
    sio_load (snd (ev_run fresh st (pre ++ VCrashInSave :: post))) = Err GenericErr.
  Proof.
    intro H. rewrite ev_app. change (ev_run fresh (ev_run fresh st pre) (VCrashInSave :: post))
      with (ev_run fresh (ev_step upd diff fresh (ev_run fresh st pre) VCrashInSave) post).
    rewrite ev_keep by exact H. now destruct (ev_run fresh st pre).
  Qed.

  Lemma save_every_add fresh st es : fst (ev_run fresh st (flat_map (fun e => [VCall (IAdd e); VSave]) es)) =
      sio_run upd diff (fst st) (map IAdd es) /\
    (es <> [] -> snd (ev_run fresh st (flat_map (fun e => [VCall (IAdd e); VSave]) es)) =
                 FFull (sio_run upd diff (fst st) (map IAdd es))).
  Proof.
    revert st. induction es as [|e es IH]; intros [s f]; [split; [reflexivity|congruence]|].
    change (flat_map (fun e => [VCall (IAdd e); VSave]) (e :: es))
      with ([VCall (IAdd e); VSave] ++ flat_map (fun e => [VCall (IAdd e); VSave]) es).
    rewrite ev_app. cbn [fst].
    change (ev_run fresh (s, f) [VCall (IAdd e); VSave]) with (fst (sio_add s e), @FFull C E (fst (sio_add s e))).
    change (sio_run upd diff s (map IAdd (e :: es))) with (sio_run upd diff (fst (sio_add s e)) (map IAdd es)).
    destruct (IH (fst (sio_add s e), FFull (fst (sio_add s e)))) as [I1 I2]. cbn [fst] in *. split; [exact I1|].
    intros _. destruct es as [|e' es]; [reflexivity|]. apply I2. discriminate.
  Qed.
End Generic.

(** *** file names *)
Lemma string_app_inv_l (a b c : string) : (a ++ b = a ++ c)%string -> b = c.
Proof. induction a; cbn; intro H; auto. injection H; auto. Qed.
Lemma string_app_length (a b : string) : String.length (a ++ b) = (String.length a + String.length b)%nat.
Proof. induction a; cbn; auto. Qed.
Lemma string_app_inv_r (c : string) : forall a b, (a ++ c = b ++ c)%string -> a = b.
Proof.
  induction a as [|x a IH]; intros [|y b] H; cbn in *; auto.
  - exfalso. assert (X : String.length c = String.length (String y (b ++ c))) by now rewrite <- H.
    cbn in X. rewrite string_app_length in X. lia.
  - exfalso. assert (X : String.length c = String.length (String x (a ++ c))) by now rewrite H.
    cbn in X. rewrite string_app_length in X. lia.
  - injection H as -> H. f_equal. auto.
Qed.
Lemma to_uint_nonnil n : Nat.to_uint n <> Decimal.Nil.
Proof. rewrite <- (Unsigned.of_to n), Unsigned.to_of. apply DecimalFacts.unorm_nonnil. Qed.
Lemma file_name_inj a b : sio_file_name a = sio_file_name b -> a = b.
Proof.
  unfold sio_file_name. intro H. apply string_app_inv_l in H. apply string_app_inv_r in H.
  assert (X : Some (Nat.to_uint a) = Some (Nat.to_uint b)).
  { rewrite <- !NilZero.usu; try apply to_uint_nonnil. now rewrite H. }
  injection X as X. rewrite <- (Unsigned.of_to a), <- (Unsigned.of_to b). now rewrite X.
Qed.
