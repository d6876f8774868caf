(** Properties C12-C19: State, StateIO, StoppingCriteria and the main loop. *)
From Verif Require Import Base BaseFacts IndexModel IndexSpec IndexProofs MLModel MLSpec MLProofs
  StateModel StateSpec StateProofs StateProofs2 StateProofs3.
From Coq Require Import String QArith ZifyBool.
Local Open Scope Z_scope.

(** ** C12 *)

(** The value of a key is decided by the last call about it. *)
Theorem C12_last_write : forall E (sel : list E + E) perf ql cost pre o post k,
  touched o = k -> (forall o', In o' post -> touched o' <> k) ->
  let s0 := state_init sel perf ql cost in
  st_get (st_run s0 (pre ++ o :: post)) k =
    match o with
    | SAdd _ v => Ok v
    | SSet _ v => match st_get (st_run s0 pre) k with Ok _ => Ok v | Err _ => Err KeyErr end
    | SDel _ => if existsb (String.eqb k) ["select_index"; "queried_info"; "performance"; "cost"]%string
                then st_get (st_run s0 pre) k else Err KeyErr
    end.
Proof. intros. apply last_write_lemma; auto. apply state_init_wf. Qed.
Print Assumptions C12_last_write.

Theorem C12_untouched : forall E (sel : list E + E) perf ql cost h k,
  (forall o, In o h -> touched o <> k) ->
  let s0 := state_init sel perf ql cost in
  st_get (st_run s0 h) k = st_get s0 k /\
  st_get s0 "select_index"%string = Ok (SIdx (match sel with inl l => l | inr x => [x] end)) /\
  st_get s0 "performance"%string = Ok perf /\
  st_get s0 "queried_label"%string = (match ql with Some v => Ok v | None => Err KeyErr end) /\
  st_get s0 "cost"%string = (match cost with Some v => Ok v | None => Err KeyErr end) /\
  (~ In k ["select_index"; "performance"; "queried_label"; "cost"]%string -> st_get s0 k = Err KeyErr).
Proof.
  intros E sel perf ql cost h k H s0. split; [apply st_run_other; auto; apply state_init_wf|].
  unfold s0, state_init, st_get. destruct ql, cost; cbn; repeat split; auto; intro K;
    repeat match goal with |- context[String.eqb k ?x] =>
             destruct (String.eqb_spec k x) as [Ek|_]; [exfalso; apply K; rewrite Ek; cbn; tauto|] end; reflexivity.
Qed.
Print Assumptions C12_untouched.

Theorem C12_protected_keys : forall E (sel : list E + E) perf ql cost h1 h2 k v,
  In k ["select_index"; "queried_info"; "performance"; "cost"]%string ->
  let s0 := state_init sel perf ql cost in
  st_get (st_run s0 h1) k = Ok v -> exists v', st_get (st_run s0 (h1 ++ h2)) k = Ok v'.
Proof.
  intros E sel perf ql cost h1 h2 k v Hk s0 G. unfold s0. rewrite st_run_app. eapply critical_stays; eauto.
  - apply st_run_wf, state_init_wf.
  - unfold critical. apply existsb_exists. exists k. split; auto. apply String.eqb_refl.
Qed.
Print Assumptions C12_protected_keys.

(** Every outcome of a call; a rejected call changes nothing. *)
Theorem C12_outcomes : forall E (s : state E) k v,
  snd (st_step s (SAdd k v)) = Ok [] /\
  (forall x, st_get s k = Ok x -> snd (st_step s (SSet k v)) = Ok []) /\
  (st_get s k = Err KeyErr -> st_step s (SSet k v) = (s, Err KeyErr) /\ st_step s (SDel k) = (s, Ok [WValidity])) /\
  (In k ["select_index"; "queried_info"; "performance"; "cost"]%string -> st_step s (SDel k) = (s, Ok [WValidity])) /\
  (forall x, ~ In k ["select_index"; "queried_info"; "performance"; "cost"]%string -> st_get s k = Ok x ->
     snd (st_step s (SDel k)) = Ok []).
Proof.
  intros E s k v. unfold st_get. cbn [st_step].
  assert (Cr : critical k = true <-> In k ["select_index"; "queried_info"; "performance"; "cost"]%string).
  { unfold critical. rewrite existsb_exists. split.
    - intros (x & Hx & Ex). apply String.eqb_eq in Ex. now subst.
    - intro H. exists k. split; auto. apply String.eqb_refl. }
  split; auto. split; [intros x; destruct (sget k (sdict s)); cbn; auto; discriminate|].
  split; [destruct (sget k (sdict s)); [discriminate|]; intros _; split; auto; destruct (critical k); auto|].
  split; [intro H; apply Cr in H; now rewrite H|].
  intros x H. destruct (critical k); [destruct H; now apply Cr|]. destruct (sget k (sdict s)); cbn; auto; discriminate.
Qed.
Print Assumptions C12_outcomes.

(** The queried labels of a state, which the documentation protects, can be deleted: the protected name
    is not the one under which they are stored. *)
Theorem C12_queried_labels_protected_refuted : forall E (sel : list E + E) perf v cost,
  let s := state_init sel perf (Some v) cost in
  st_get s "queried_label"%string = Ok v /\
  st_get (st_run s [SDel "queried_label"%string]) "queried_label"%string = Err KeyErr.
Proof. intros. destruct cost; split; reflexivity. Qed.
Print Assumptions C12_queried_labels_protected_refuted.

(** The batch size is that of the constructor's selection, whatever is written later. *)
Theorem C12_batch_size : forall E (sel : list E + E) perf ql cost h,
  sbatch (st_run (state_init sel perf ql cost) h) = List.length (match sel with inl l => l | inr x => [x] end).
Proof. intros. rewrite st_batch. reflexivity. Qed.
Print Assumptions C12_batch_size.

Example C12_applies :
  let s := st_run (state_init (inl [1; 2]) (SNum (1#2)) None (Some (SNum 3)))
    [SAdd "lr"%string (SNum 1); SDel "cost"%string; SSet "cost"%string (SNum 5); SSet "nothing"%string (SNum 0); SDel "lr"%string] in
  st_get s "cost"%string = Ok (SNum 5) /\ st_get s "lr"%string = Err KeyErr /\ st_get s "nothing"%string = Err KeyErr.
Proof. repeat split. Qed.

(** ** C13 *)
Notation ic_workspace := (sio_workspace ic_update ic_difference_update).
Notation ml_workspace := (sio_workspace (ml_update true) (ml_difference_update true)).

Theorem C13_workspace : forall (s : sio icol pyval) T k,
  reachable (s_L s) -> reachable (s_U s) -> 0 <= k <= Z.of_nat (List.length (s_states s)) ->
  let q := flat_map queried (firstn (Z.to_nat k) (s_states s)) in
  (forall e, In e (firstn (Z.to_nat k) (s_states s)) -> proper e) ->
  (forall v, In v q -> acceptable (s_L s) T v) ->
  exists L U, ic_workspace s (Some k) = Ok (s_train s, s_test s, L, U) /\
    NoDup (elems L) /\ NoDup (elems U) /\
    (forall x, In x (elems L) <-> In x (elems (s_L s)) \/ In x (map norm q)) /\
    (forall x, In x (elems U) <-> In x (elems (s_U s)) /\ ~ In x (map norm q)).
Proof. exact ic_workspace_lemma. Qed.
Print Assumptions C13_workspace.

Theorem C13_conservation : forall (s : sio icol pyval) T k,
  reachable (s_L s) -> reachable (s_U s) -> 0 <= k <= Z.of_nat (List.length (s_states s)) ->
  (forall e, In e (s_states s) -> proper e) ->
  (forall v, In v (flat_map queried (s_states s)) -> acceptable (s_L s) T v /\ In (norm v) (elems (s_U s))) ->
  (forall x, In x (elems (s_L s)) -> ~ In x (elems (s_U s))) ->
  exists L U, ic_workspace s (Some k) = Ok (s_train s, s_test s, L, U) /\
    (forall x, In x (elems L) -> ~ In x (elems U)) /\
    (forall x, In x (elems L) \/ In x (elems U) <-> In x (elems (s_L s)) \/ In x (elems (s_U s))) /\
    (ic_len L + ic_len U = ic_len (s_L s) + ic_len (s_U s))%nat.
Proof. exact ic_conserve. Qed.
Print Assumptions C13_conservation.

(** Multi-label collections over the same [m] labels. *)
Theorem C13_multi_label : forall m (s : sio mlic mlidx) k,
  ml_reachable m (s_L s) -> ml_reachable m (s_U s) -> 0 <= k <= Z.of_nat (List.length (s_states s)) ->
  (forall e, In e (firstn (Z.to_nat k) (s_states s)) ->
     proper e /\ queried e <> [] /\ forallb (scalar_ok m) (queried e) = true) ->
  exists L U, ml_workspace s (Some k) = Ok (s_train s, s_test s, L, U) /\
    NoDup (pairs L) /\ NoDup (pairs U) /\
    (forall p, In p (pairs L) <-> In p (pairs (s_L s)) \/
                denoted_by m (flat_map queried (firstn (Z.to_nat k) (s_states s))) p) /\
    (forall p, In p (pairs U) <-> In p (pairs (s_U s)) /\
                ~ denoted_by m (flat_map queried (firstn (Z.to_nat k) (s_states s))) p).
Proof. exact ml_workspace_lemma. Qed.
Print Assumptions C13_multi_label.

(** The default is the whole record; an iteration outside it is rejected. *)
Theorem C13_iteration_argument : forall C E upd diff (s : sio C E) k,
  sio_workspace upd diff s None = sio_workspace upd diff s (Some (Z.of_nat (List.length (s_states s)))) /\
  (~ (0 <= k <= Z.of_nat (List.length (s_states s))) -> sio_workspace upd diff s (Some k) = Err AssertErr).
Proof. intros. split; [reflexivity|apply workspace_range]. Qed.
Print Assumptions C13_iteration_argument.

Definition ex_ic (l : list Z) : icol := fst (ic_init (DList (map (fun z => VKey (KInt z)) l))).
Definition ex_st (l : list Z) : entry pyval :=
  EState (state_init (inl (map (fun z => VNp (KInt z)) l)) (SNum (1#2)) None (Some (SNum (3#2)))).

Example C13_applies :
  let s := sio_run ic_update ic_difference_update (sio_new [] [] (ex_ic [1; 2]) (ex_ic [3; 4; 5; 6]))
             (map IAdd [ex_st [4]; ex_st [6; 3]; ex_st [5]]) in
  (reachable (s_L s) /\ reachable (s_U s) /\ (forall e, In e (s_states s) -> proper e) /\
   (forall v, In v (flat_map queried (s_states s)) -> acceptable (s_L s) TInt v /\ In (norm v) (elems (s_U s))) /\
   (forall x, In x (elems (s_L s)) -> ~ In x (elems (s_U s)))) /\
  match ic_workspace s (Some 2) with
  | Ok (_, _, L, U) => elems L = map KInt [1; 2; 4; 6; 3] /\ elems U = [KInt 5]
  | Err _ => False
  end.
Proof.
  cbn zeta. split; [|vm_compute; auto].
  split; [apply reach_list|]. split; [apply reach_list|]. split; [|split].
  - cbn. intros e [<-|[<-|[<-|[]]]]; (split; [eexists; reflexivity|exact I]).
  - intros v Hv. vm_compute in Hv. vm_compute.
    destruct Hv as [<-|[<-|[<-|[<-|[]]]]]; repeat split; auto.
  - vm_compute. intuition congruence.
Qed.

(** A dict is documented as acceptable to [add_state]. It raises, stays in the record, and from then on
    the workspace cannot be computed past it. *)
Theorem C13_dict_state_refuted : forall C E upd diff (s : sio C E) d h,
  has_key "select_index" d && has_key "queried_info" d && has_key "performance" d = true ->
  snd (sio_add s (EDict d)) = Err AttrErr /\
  s_states (fst (sio_add s (EDict d))) = s_states s ++ [EDict d] /\
  (Forall proper h ->
   exists e, sio_workspace upd diff (sio_run upd diff (fst (sio_add s (EDict d))) (map IAdd h)) None = Err e).
Proof.
  intros C E upd diff s d h Hd. assert (Hs : s_states (fst (sio_add s (EDict d))) = s_states s ++ [EDict d]).
  { unfold sio_add. now rewrite Hd. }
  split; [unfold sio_add; now rewrite Hd|]. split; auto. intro Hh. destruct (adds_proper upd diff h Hh (fst (sio_add s (EDict d)))) as (A & _).
  apply (dict_poison upd diff _ d None). exists (s_states s), h. split; auto. rewrite A, Hs, <- app_assoc. reflexivity.
Qed.
Print Assumptions C13_dict_state_refuted.

(** From plain lists of (instance, label) tuples, the number of labels is guessed separately for the two
    lists: a query drawn from U can then not be replayed. *)
Theorem C13_tuple_lists_refuted : exists l u s,
  sio_from_tuples [] [] l u = Ok s /\
  (forall p, In p (pairs (s_L s)) -> ~ In p (pairs (s_U s))) /\
  In (0, 2) (pairs (s_U s)) /\
  ml_workspace (fst (sio_add s (EState (state_init (inl [IPair 0 2]) (SNum 1) None None)))) None = Err AssertErr.
Proof.
  exists [IPair 0 0], [IPair 0 1; IPair 0 2]. eexists. split; [reflexivity|]. split; [|split].
  - vm_compute. intuition congruence.
  - vm_compute. tauto.
  - reflexivity.
Qed.
Print Assumptions C13_tuple_lists_refuted.

(** ** C14 *)
Theorem C14_rollback : forall C E upd diff (s : sio C E) k w,
  sio_workspace upd diff s (Some k) = Ok w ->
  let r := sio_recover upd diff s (Some k) in
  snd r = Ok w /\
  s_states (fst r) = firstn (Z.to_nat k) (s_states s) /\
  sio_workspace upd diff (fst r) None = Ok w /\
  (forall j, j <= k -> sio_workspace upd diff (fst r) (Some j) = sio_workspace upd diff s (Some j)) /\
  (forall j, k < j -> sio_workspace upd diff (fst r) (Some j) = Err AssertErr) /\
  sio_recover upd diff (fst r) (Some k) = (fst r, Ok w) /\
  s_cost (fst r) = s_cost s /\ s_numq (fst r) = s_numq s /\
  s_L (fst r) = s_L s /\ s_U (fst r) = s_U s /\ s_train (fst r) = s_train s /\ s_test (fst r) = s_test s.
Proof.
  intros C E upd diff s k w W. cbn zeta. destruct (recover_then upd diff s k w W) as (A & B & D & F).
  destruct (recover_lemma upd diff s (Some k)) as [R1 R2]. rewrite W in R2. destruct R2 as [_ R2].
  rewrite R1. rewrite R2 in *. repeat split; auto.
Qed.
Print Assumptions C14_rollback.

(** When the workspace cannot be computed (bad iteration, bad record), nothing changes. *)
Theorem C14_failed_rollback : forall C E upd diff (s : sio C E) it e,
  sio_workspace upd diff s it = Err e -> sio_recover upd diff s it = (s, Err e).
Proof. intros C E upd diff s it e H. unfold sio_recover. now rewrite H. Qed.
Print Assumptions C14_failed_rollback.

(** Continuing after a roll-back is as if the dropped states had never been added. *)
Theorem C14_continuation : forall C E upd diff train test (L U : C) (es more : list (entry E)) k,
  Forall proper es -> Forall proper more -> (k <= List.length es)%nat ->
  let s := sio_run upd diff (sio_new train test L U) (map IAdd es) in
  (exists w, sio_workspace upd diff s (Some (Z.of_nat k)) = Ok w) ->
  let a := sio_run upd diff (fst (sio_recover upd diff s (Some (Z.of_nat k)))) (map IAdd more) in
  let b := sio_run upd diff (sio_new train test L U) (map IAdd (firstn k es ++ more)) in
  s_states a = s_states b /\
  (forall it, sio_workspace upd diff a it = sio_workspace upd diff b it) /\
  (forall i, sio_get a i = sio_get b i) /\
  fst (sio_refresh a) = fst (sio_refresh b).
Proof. intros. now apply rollback_lemma. Qed.
Print Assumptions C14_continuation.

Example C14_applies :
  let s := sio_run ic_update ic_difference_update (sio_new [] [] (ex_ic [1; 2]) (ex_ic [3; 4; 5; 6]))
             (map IAdd [ex_st [4]; ex_st [6; 3]]) in
  (exists w, ic_workspace s (Some 1) = Ok w) /\
  List.length (s_states (fst (sio_recover ic_update ic_difference_update s (Some 1)))) = 1%nat /\
  (* the totals are stale after the roll-back *)
  s_numq (fst (sio_recover ic_update ic_difference_update s (Some 1))) = 3%nat /\
  s_numq (fst (sio_refresh (fst (sio_recover ic_update ic_difference_update s (Some 1))))) = 1%nat.
Proof. split; [eexists; vm_compute; reflexivity|repeat split]. Qed.

(** ** C15 *)
Theorem C15_totals_after_adds : forall C E upd diff train test (L U : C) (es : list (entry E)),
  Forall proper es ->
  let s := sio_run upd diff (sio_new train test L U) (map IAdd es) in
  s_states s = es /\
  (s_cost s == fold_right Qplus 0 (map spent es))%Q /\
  s_numq s = List.length (flat_map queried es).
Proof.
  intros C E upd diff train test L U es F. cbn zeta.
  destruct (adds_proper upd diff es F (sio_new train test L U)) as (A & B & D & _).
  rewrite A, B, D. cbn. repeat split. ring.
Qed.
Print Assumptions C15_totals_after_adds.

(** Whatever happened before, [refresh_info] recomputes the totals from the record. *)
Theorem C15_refresh : forall C E (s : sio C E), Forall proper (s_states s) ->
  exists q, snd (sio_refresh s) = Ok (List.length (flat_map queried (s_states s)), q) /\
    (q == fold_right Qplus 0 (map spent (s_states s)))%Q /\
    s_cost (fst (sio_refresh s)) = q /\
    s_numq (fst (sio_refresh s)) = List.length (flat_map queried (s_states s)) /\
    s_states (fst (sio_refresh s)) = s_states s.
Proof.
  intros C E s F. destruct (refresh_lemma s F) as (q & A & B & D). exists q. rewrite D. auto.
Qed.
Print Assumptions C15_refresh.

(** The totals are not those of the record after a roll-back, nor after [pop]. *)
Theorem C15_stale_refuted : exists (es : list (entry pyval)),
  Forall proper es /\
  let s := sio_run ic_update ic_difference_update (sio_new [] [] (ex_ic [1; 2]) (ex_ic [3; 4; 5; 6])) (map IAdd es) in
  let r := sio_step ic_update ic_difference_update s (IRecover (Some 1)) in
  let p := sio_step ic_update ic_difference_update s (IPop (Some 0)) in
  (s_numq r <> List.length (flat_map queried (s_states r)) /\
   ~ (s_cost r == fold_right Qplus 0 (map spent (s_states r)))%Q) /\
  (s_numq p <> List.length (flat_map queried (s_states p)) /\
   ~ (s_cost p == fold_right Qplus 0 (map spent (s_states p)))%Q).
Proof.
  exists [ex_st [4]; ex_st [6; 3]]. split.
  - repeat constructor; cbn; eauto.
  - vm_compute. repeat split; discriminate.
Qed.
Print Assumptions C15_stale_refuted.

(** ** C16 *)
Theorem C16_check_batch_size : forall C E (s : sio C E),
  (forall e, In e (s_states s) -> exists st, e = EState st) ->
  exists b, snd (sio_check_batch s) = Ok b /\
  (b = true <-> (2 <= List.length (s_states s))%nat /\
     exists n, forall i st, (i < List.length (s_states s) - 1)%nat ->
               nth_error (s_states s) i = Some (EState st) -> sbatch st = n) /\
  s_states (fst (sio_check_batch s)) = s_states s /\
  (b = true -> forall st, nth_error (s_states s) 0 = Some (EState st) -> s_batch (fst (sio_check_batch s)) = sbatch st) /\
  (b = false -> fst (sio_check_batch s) = s).
Proof. exact (@check_batch_lemma). Qed.
Print Assumptions C16_check_batch_size.

(** So "the batch sizes of all queries are equal" is not what is returned. *)
Theorem C16_all_batches_equal_refuted :
  (exists s : sio icol pyval, snd (sio_check_batch s) = Ok true /\
     exists a b, In (EState a) (s_states s) /\ In (EState b) (s_states s) /\ sbatch a <> sbatch b) /\
  (exists s : sio icol pyval, snd (sio_check_batch s) = Ok false /\
     forall a b, In (EState a) (s_states s) -> In (EState b) (s_states s) -> sbatch a = sbatch b).
Proof.
  split.
  - exists (sio_run ic_update ic_difference_update (sio_new [] [] (ex_ic [1]) (ex_ic [3; 4])) (map IAdd [ex_st [3]; ex_st [4; 5]])).
    split; [reflexivity|]. do 2 eexists. split; [left; reflexivity|]. split; [right; left; reflexivity|]. vm_compute. discriminate.
  - exists (sio_run ic_update ic_difference_update (sio_new [] [] (ex_ic [1]) (ex_ic [3; 4])) (map IAdd [ex_st [3]])).
    split; [reflexivity|]. cbn. intros a b [H|[]] [H'|[]]. injection H as <-. injection H' as <-. reflexivity.
Qed.
Print Assumptions C16_all_batches_equal_refuted.

(** ** C17 *)

(** Loading gives the object as it was at the last completed save, if no save was interrupted since. *)
Theorem C17_load_last_save : forall C E upd diff (fresh : sio C E) st pre post,
  (forall v, In v post -> v <> VSave /\ v <> VCrashInSave) ->
  sio_load (snd (ev_run upd diff fresh st (pre ++ VSave :: post))) = Ok (fst (ev_run upd diff fresh st pre)).
Proof.
  intros C E upd diff fresh st pre post H. apply load_last_save. intros v Hv. destruct (H v Hv). now destruct v.
Qed.
Print Assumptions C17_load_last_save.

(** Saving after every addition: after a crash the restarted program has all acknowledged states. *)
Theorem C17_save_every_add : forall C E upd diff (fresh : sio C E) f es,
  es <> [] ->
  let h := flat_map (fun e => [VCall (IAdd e); VSave]) es in
  fst (ev_run upd diff fresh (fresh, f) (h ++ [VCrash])) = sio_run upd diff fresh (map IAdd es) /\
  forall e, fst (ev_run upd diff fresh (fresh, f) (h ++ [VCall (IAdd e); VCrash])) = sio_run upd diff fresh (map IAdd es).
Proof.
  intros C E upd diff fresh f es N. cbn zeta. destruct (save_every_add upd diff fresh (fresh, f) es) as [A B].
  specialize (B N). cbn [fst] in A, B. split; [|intro e]; rewrite ev_app;
    destruct (ev_run upd diff fresh (fresh, f) _) as [s g]; cbn [fst snd] in *; subst; reflexivity.
Qed.
Print Assumptions C17_save_every_add.

(** A crash inside [save] loses everything that was saved before: the file cannot be loaded, and the
    program restarts from nothing. *)
Theorem C17_crash_in_save_refuted : forall C E upd diff (fresh : sio C E) st pre post,
  (forall v, In v post -> v <> VSave /\ v <> VCrashInSave) ->
  sio_load (snd (ev_run upd diff fresh st (pre ++ VCrashInSave :: post))) = Err GenericErr /\
  fst (ev_run upd diff fresh st (pre ++ [VCrashInSave])) = fresh.
Proof.
  intros C E upd diff fresh st pre post H. split.
  - apply load_crashed. intros v Hv. destruct (H v Hv). now destruct v.
  - rewrite ev_app. now destruct (ev_run upd diff fresh st pre).
Qed.
Print Assumptions C17_crash_in_save_refuted.

(** Rounds save to different files. *)
Theorem C17_file_names : forall r1 r2, sio_file_name r1 = sio_file_name r2 -> r1 = r2.
Proof. exact file_name_inj. Qed.
Print Assumptions C17_file_names.

Example C17_applies :
  let fresh := sio_new [] [] (ex_ic [1; 2]) (ex_ic [3; 4; 5; 6]) in
  let h := [VCall (IAdd (ex_st [4])); VSave; VCall (IAdd (ex_st [3])); VCrash; VCall (IAdd (ex_st [6]))] in
  map queried (s_states (fst (ev_run ic_update ic_difference_update fresh (fresh, FAbsent) h)))
    = [[VNp (KInt 4)]; [VNp (KInt 6)]] /\ sio_file_name 12 = "AL_round_12.pkl"%string.
Proof. split; reflexivity. Qed.

(** ** C18 *)

(** The decision after any sequence of updates depends only on the last one, and is the condition of
    the criterion. [num_of_queries] truncates its value to an integer. *)
Theorem C18_decision : forall C E upd diff clen n v t0 c0 now (ss : list (sio C E)) s c' tr te L U L0 U0,
  sc_init n v t0 = Ok c0 -> crit_ok n v ->
  sio_workspace upd diff s None = Ok (tr, te, L, U) -> sio_workspace upd diff s (Some 0) = Ok (tr, te, L0, U0) ->
  sc_update upd diff clen (fold_left (fun c s => fst (sc_update upd diff clen c s)) ss c0) s = (c', Ok tt) ->
  let v' := match v with Some q => match n with NNum => int_of q | _ => q end | None => 0%Q end in
  exists b, sc_is_stop c' now = Ok b /\
  (b = true <-> should_stop n v' (clen U) (clen U0) (List.length (s_states s)) (s_cost s) (now - t0)).
Proof.
  intros C E upd diff clen n v t0 c0 now ss s c' tr te L U L0 U0 Hc V W W0 Hu.
  destruct (updates_keep upd diff clen ss c0) as (A & B & D). destruct (init_facts _ _ _ _ Hc) as (F1 & F2 & F3 & _).
  cbn zeta in *. set (c := fold_left _ ss c0) in *.
  destruct (stop_after_update upd diff clen c s c' now tr te L U L0 U0 W W0 Hu) as (b & B1 & B2).
  { rewrite A, B, F1, F2. destruct n; auto. now destruct v. }
  exists b. split; auto. rewrite B2, A, B, D, F1, F2, F3. destruct v, n; reflexivity.
Qed.
Print Assumptions C18_decision.

(** The update succeeds whenever the record replays, except for a percentage of an empty initial pool. *)
Theorem C18_update_succeeds : forall C E upd diff clen c (s : sio C E) tr te L U L0 U0,
  sio_workspace upd diff s None = Ok (tr, te, L, U) -> sio_workspace upd diff s (Some 0) = Ok (tr, te, L0, U0) ->
  (snd (sc_update upd diff clen c s) = Ok tt <-> ~ (sc_name c = NPercent /\ clen U0 = 0%nat)) /\
  (sc_name c = NPercent -> clen U0 = 0%nat -> snd (sc_update upd diff clen c s) = Err ZeroDivErr).
Proof.
  intros C E upd diff clen c s tr te L U L0 U0 W W0. split; [split|].
  - intros H [N Z0]. unfold sc_update in H. rewrite W, W0, N, Z0 in H. discriminate.
  - intro H. eapply update_ok; eauto.
  - intros N Z0. unfold sc_update. now rewrite W, W0, N, Z0.
Qed.
Print Assumptions C18_update_succeeds.

(** Before any update: only the value is looked at; an empty pool is not noticed. *)
Theorem C18_initial : forall n v t0 c0 now, sc_init n v t0 = Ok c0 -> crit_ok n v ->
  exists b, sc_is_stop c0 now = Ok b /\
  (b = true <-> match n, v with
                | NNum, Some q => (int_of q <= 0)%Q
                | NCost, Some q | NPercent, Some q => (q <= 0)%Q
                | NTime, Some q => (q <= now - t0)%Q
                | _, _ => False
                end).
Proof.
  intros n v t0 c0 now H V. destruct (init_facts _ _ _ _ H) as (F1 & F2 & F3 & F4 & F5 & F6 & F7).
  unfold sc_is_stop. rewrite F4, F1, F2, F3, F5, F6, F7. destruct n; try contradiction; cbn [Nat.eqb].
  - exists false. split; auto. split; [discriminate|tauto].
  - destruct v as [q|]; [|contradiction]. cbn [option_map ge_value]. eexists. split; [reflexivity|]. apply Qle_bool_iff.
  - destruct v as [q|]; [|contradiction]. cbn [ge_value]. eexists. split; [reflexivity|]. apply Qle_bool_iff.
  - destruct v as [q|]; [|contradiction]. destruct V as [V0 V1]. apply Qle_bool_iff in V0, V1. rewrite V0, V1.
    eexists. split; [reflexivity|]. apply Qle_bool_iff.
  - destruct v as [q|]; [|contradiction]. cbn [ge_value]. eexists. split; [reflexivity|]. apply Qle_bool_iff.
Qed.
Print Assumptions C18_initial.

(** Which configurations fail, and when. *)
Theorem C18_bad_configuration : forall t0 now,
  (forall v, sc_init NBad v t0 = Err ValueErr) /\ sc_init NNum None t0 = Err TypeErr /\
  (forall c, (sc_name c = NCost \/ sc_name c = NPercent \/ sc_name c = NTime) -> sc_value c = None ->
     sc_unlabel c <> 0%nat -> sc_is_stop c now = Err TypeErr) /\
  (forall c q, sc_name c = NPercent -> sc_value c = Some q -> ~ (0 <= q <= 1)%Q -> sc_unlabel c <> 0%nat ->
     sc_is_stop c now = Err ValueErr) /\
  (forall c, sc_unlabel c = 0%nat -> sc_is_stop c now = Ok true).
Proof.
  intros t0 now. split; auto. split; auto. split; [|split].
  - intros c N V U. unfold sc_is_stop. apply Nat.eqb_neq in U. rewrite U, V. destruct N as [->|[->| ->]]; reflexivity.
  - intros c q N V B U. unfold sc_is_stop. apply Nat.eqb_neq in U. rewrite U, V, N.
    destruct (Qle_bool q 1) eqn:E1; cbn; auto. destruct (Qle_bool 0 q) eqn:E2; cbn; auto.
    exfalso. apply B. split; now apply Qle_bool_iff.
  - intros c U. unfold sc_is_stop. now rewrite U.
Qed.
Print Assumptions C18_bad_configuration.

(** Once reached, the limit stays reached while querying goes on. *)
Theorem C18_monotone : forall name v u u0 n c t u' n' c' t',
  (u' <= u)%nat -> (n <= n')%nat -> (c <= c')%Q -> (t <= t')%Q ->
  should_stop name v u u0 n c t -> should_stop name v u' u0 n' c' t'.
Proof. exact should_stop_mono. Qed.
Print Assumptions C18_monotone.

Theorem C18_monotone_querying : forall (s : sio icol pyval) T more n v t0 c0 c1 c2 now1 now2 d1 d2,
  reachable (s_L s) -> reachable (s_U s) -> Forall proper (s_states s ++ more) ->
  (forall x, In x (flat_map queried (s_states s ++ more)) -> acceptable (s_L s) T x) ->
  (forall e, In e more -> (0 <= spent e)%Q) -> (now1 <= now2)%Q ->
  sc_init n v t0 = Ok c0 -> crit_ok n v ->
  sc_name d1 = n -> sc_value d1 = sc_value c0 -> sc_start d1 = t0 ->
  sc_name d2 = n -> sc_value d2 = sc_value c0 -> sc_start d2 = t0 ->
  let s' := sio_run ic_update ic_difference_update s (map IAdd more) in
  sc_update ic_update ic_difference_update ic_len d1 s = (c1, Ok tt) ->
  sc_update ic_update ic_difference_update ic_len d2 s' = (c2, Ok tt) ->
  sc_is_stop c1 now1 = Ok true -> sc_is_stop c2 now2 = Ok true.
Proof.
  intros s T more n v t0 c0 c1 c2 now1 now2 d1 d2 RL RU F A Hq Ht Hc V N1 V1 S1 N2 V2 S2. cbn zeta. intros U1 U2 H.
  apply Forall_app in F. destruct F as [F1 F2].
  destruct (adds_proper ic_update ic_difference_update more F2 s) as (B1 & B2 & _ & B4 & B5 & B6 & B7 & _).
  set (s' := sio_run ic_update ic_difference_update s (map IAdd more)) in *.
  assert (Fn : forall (t : sio icol pyval), Forall proper (s_states t) -> forall e k, In e (firstn k (s_states t)) -> proper e).
  { intros t Ft e k He. rewrite Forall_forall in Ft. apply Ft. rewrite <- (firstn_skipn k (s_states t)). apply in_or_app. now left. }
  assert (Fs' : Forall proper (s_states s')) by (rewrite B1; apply Forall_app; auto).
  destruct (ic_workspace_lemma s T (Z.of_nat (List.length (s_states s))) RL RU ltac:(lia)) as (L & U & W & _ & NU & _ & HU).
  { intros e He. exact (Fn s F1 e _ He). }
  { intros x Hx. apply A. rewrite Nat2Z.id, firstn_all in Hx. rewrite flat_map_app. apply in_or_app. now left. }
  assert (RL' : reachable (s_L s')) by (rewrite B4; exact RL).
  assert (RU' : reachable (s_U s')) by (rewrite B5; exact RU).
  destruct (ic_workspace_lemma s' T (Z.of_nat (List.length (s_states s'))) RL' RU' ltac:(lia)) as (L' & U' & W' & _ & NU' & _ & HU').
  { intros e He. exact (Fn s' Fs' e _ He). }
  { intros x Hx. rewrite B4. apply A. rewrite Nat2Z.id, firstn_all, B1 in Hx. exact Hx. }
  assert (W0 : ic_workspace s (Some 0) = Ok (s_train s, s_test s, s_L s, s_U s)) by apply workspace_zero.
  assert (W0' : ic_workspace s' (Some 0) = Ok (s_train s', s_test s', s_L s, s_U s)).
  { rewrite <- B4, <- B5. apply workspace_zero. }
  destruct (init_facts _ _ _ _ Hc) as (G1 & G2 & _).
  assert (V' : crit_ok n (sc_value c0)) by (rewrite G2; destruct n; auto; now destruct v).
  destruct (stop_after_update ic_update ic_difference_update ic_len d1 s c1 now1 _ _ _ _ _ _ W W0 U1) as (b & P1 & P2).
  { now rewrite N1, V1. }
  destruct (stop_after_update ic_update ic_difference_update ic_len d2 s' c2 now2 _ _ _ _ _ _ W' W0' U2) as (b' & P1' & P2').
  { now rewrite N2, V2. }
  rewrite P1 in H. injection H as ->. rewrite P1'. f_equal. apply P2'.
  pose proof (proj1 P2 eq_refl) as H. rewrite N2, V2, S2. rewrite N1, V1, S1 in H.
  eapply should_stop_mono; [| | | |exact H].
  - unfold ic_len. rewrite <- (map_length norm (cont U)), <- (map_length norm (cont U')).
    fold (elems U) (elems U'). apply NoDup_incl_length; auto. intros x Hx. apply HU. apply HU' in Hx.
    destruct Hx as [Hx1 Hx2]. rewrite B5 in Hx1. split; auto. intro X. apply Hx2.
    rewrite Nat2Z.id, firstn_all in X |- *. rewrite B1, flat_map_app, map_app. apply in_or_app. now left.
  - rewrite B1, app_length. lia.
  - rewrite B2. rewrite <- (Qplus_0_r (s_cost s)) at 1. apply Qplus_le_r. clear - Hq.
    induction more as [|e more IH]; [apply Qle_refl|]. cbn [map fold_right].
    apply (Qplus_le_compat 0 (spent e) 0); [apply Hq; now left|]. apply IH. intros. apply Hq. now right.
  - apply Qplus_le_compat; auto. apply Qle_refl.
Qed.
Print Assumptions C18_monotone_querying.

(** [reset] gives the same object as a new construction. *)
Theorem C18_reset : forall C E upd diff clen n v t now c0 c1 (ss : list (sio C E)),
  sc_init n v t = Ok c0 -> sc_init n v now = Ok c1 ->
  sc_reset (fold_left (fun c s => fst (sc_update upd diff clen c s)) ss c0) now = c1.
Proof. intros. eapply reset_lemma; eauto. Qed.
Print Assumptions C18_reset.

Example C18_applies :
  let s := sio_run ic_update ic_difference_update (sio_new [] [] (ex_ic [1; 2]) (ex_ic [3; 4; 5; 6]))
             (map IAdd [ex_st [4]; ex_st [6; 3]]) in
  exists c0 c, sc_init NPercent (Some (3#4)) 0 = Ok c0 /\ crit_ok NPercent (Some (3#4)) /\
  sc_update ic_update ic_difference_update ic_len c0 s = (c, Ok tt) /\
  sc_is_stop c0 7 = Ok false /\ sc_is_stop c 7 = Ok true.
Proof.
  cbn zeta. do 2 eexists. split; [reflexivity|]. split; [split; vm_compute; discriminate|].
  split; [vm_compute; reflexivity|]. split; reflexivity.
Qed.

(** ** C19 *)
(** With any strategy that returns a non-empty part of the unlabelled set, the loop ends after [n]
    queries, [n] being the first step at which the criterion's condition holds; the record replays to
    the sets of every step, which partition the initial pool. No cost is recorded by the loop. *)
Theorem C19_main_loop : forall T strat perf clock L0 U0 tr te name v t0 c0,
  reachable L0 -> reachable U0 -> etype L0 = Some T -> etype U0 = Some T -> cont U0 <> [] ->
  (forall x, In x (elems L0) -> ~ In x (elems U0)) ->
  (forall hist L U, cont U <> [] -> strat hist L U <> [] /\ forall x, In x (strat hist L U) -> In (norm x) (elems U)) ->
  sc_init name v t0 = Ok c0 -> crit_ok name v ->
  exists n L U s c,
    al_loop ic_update ic_difference_update ic_len (ic_len U0) strat perf clock [] L0 U0 (sio_new tr te L0 U0) c0
      = Done L U s c /\
    List.length (s_states s) = n /\ (n <= ic_len U0)%nat /\
    ic_workspace s None = Ok (tr, te, L, U) /\
    (forall i, (i <= n)%nat -> exists Li Ui,
       ic_workspace s (Some (Z.of_nat i)) = Ok (tr, te, Li, Ui) /\
       (should_stop name (crit_value (sc_value c0)) (ic_len Ui) (ic_len U0) i 0 (clock i - t0) <-> i = n) /\
       (forall x, In x (elems Li) -> ~ In x (elems Ui)) /\
       (forall x, In x (elems Li) \/ In x (elems Ui) <-> In x (elems L0) \/ In x (elems U0))).
Proof. exact ic_loop_lemma. Qed.
Print Assumptions C19_main_loop.

(** A positive cost limit never stops the loop early: it runs until the pool is empty. *)
Theorem C19_cost_limit_refuted : forall T strat perf clock L0 U0 tr te q t0 c0,
  reachable L0 -> reachable U0 -> etype L0 = Some T -> etype U0 = Some T -> cont U0 <> [] ->
  (forall x, In x (elems L0) -> ~ In x (elems U0)) ->
  (forall hist L U, cont U <> [] -> strat hist L U <> [] /\ forall x, In x (strat hist L U) -> In (norm x) (elems U)) ->
  (0 < q)%Q -> sc_init NCost (Some q) t0 = Ok c0 ->
  exists L U s c,
    al_loop ic_update ic_difference_update ic_len (ic_len U0) strat perf clock [] L0 U0 (sio_new tr te L0 U0) c0
      = Done L U s c /\ elems U = [].
Proof.
  intros T strat perf clock L0 U0 tr te q t0 c0 RL RU EL EU NU D St Hq Hc.
  destruct (ic_loop_lemma T strat perf clock L0 U0 tr te NCost (Some q) t0 c0) as (n & L & U & s & c & R & Hn & _ & W & S); auto;
    try exact I.
  exists L, U, s, c. split; auto. destruct (S n (le_n n)) as (Li & Ui & Wi & Sp & _).
  rewrite <- Hn in Wi. change (ic_workspace s None = Ok (tr, te, Li, Ui)) in Wi. rewrite W in Wi. injection Wi as <- <-.
  destruct (proj2 Sp eq_refl) as [H|H].
  - unfold ic_len in H. destruct (cont U) eqn:EU'; [unfold elems; now rewrite EU'|discriminate].
  - exfalso. destruct (init_facts _ _ _ _ Hc) as (_ & F2 & _). rewrite F2 in H. cbn in H. apply (Qlt_irrefl 0).
    eapply Qlt_le_trans; eauto.
Qed.
Print Assumptions C19_cost_limit_refuted.

(** [num_of_queries = m]: the number of queries is [m], or less if the pool is empty before. *)
Theorem C19_num_of_queries : forall T strat perf clock L0 U0 tr te (m : nat) t0 c0,
  reachable L0 -> reachable U0 -> etype L0 = Some T -> etype U0 = Some T -> cont U0 <> [] ->
  (forall x, In x (elems L0) -> ~ In x (elems U0)) ->
  (forall hist L U, cont U <> [] -> strat hist L U <> [] /\ forall x, In x (strat hist L U) -> In (norm x) (elems U)) ->
  sc_init NNum (Some (inject_Z (Z.of_nat m))) t0 = Ok c0 ->
  exists L U s c,
    al_loop ic_update ic_difference_update ic_len (ic_len U0) strat perf clock [] L0 U0 (sio_new tr te L0 U0) c0
      = Done L U s c /\ (List.length (s_states s) <= m)%nat /\ (elems U <> [] -> List.length (s_states s) = m).
Proof.
  intros T strat perf clock L0 U0 tr te m t0 c0 RL RU EL EU NU D St Hc.
  destruct (ic_loop_lemma T strat perf clock L0 U0 tr te NNum (Some (inject_Z (Z.of_nat m))) t0 c0) as (n & L & U & s & c & R & Hn & _ & W & S); auto; try exact I.
  destruct (init_facts _ _ _ _ Hc) as (_ & F2 & _).
  assert (Fv : crit_value (sc_value c0) = inject_Z (Z.of_nat m)).
  { rewrite F2. cbn. unfold int_of. cbn. now rewrite Z.quot_1_r. }
  assert (Hle : (n <= m)%nat).
  { destruct (Nat.le_gt_cases n m) as [|Hgt]; auto. destruct (S m ltac:(lia)) as (Li & Ui & _ & Sp & _).
    assert (m = n); [|lia]. apply Sp. right. rewrite Fv. apply Qle_refl. }
  exists L, U, s, c. split; auto. split; [lia|]. intro Ne. destruct (S n (le_n n)) as (Li & Ui & Wi & Sp & _).
  rewrite <- Hn in Wi. change (ic_workspace s None = Ok (tr, te, Li, Ui)) in Wi. rewrite W in Wi. injection Wi as <- <-.
  destruct (proj2 Sp eq_refl) as [H|H].
  - exfalso. apply Ne. unfold ic_len in H. destruct (cont U) eqn:EU'; [unfold elems; now rewrite EU'|discriminate].
  - rewrite Fv in H. rewrite <- Zle_Qle in H. lia.
Qed.
Print Assumptions C19_num_of_queries.

(** The strategy that queries the first two unlabelled examples, stopped after 75% of the pool. *)
Example C19_applies :
  let strat (h : list (list pyval)) (L U : icol) := firstn 2 (cont U) in
  (reachable (ex_ic [1; 2]) /\ reachable (ex_ic [3; 4; 5; 6; 7]) /\ cont (ex_ic [3; 4; 5; 6; 7]) <> [] /\
   (forall hist L U, cont U <> [] -> strat hist L U <> [] /\ forall x, In x (strat hist L U) -> In (norm x) (elems U))) /\
  exists c0, sc_init NPercent (Some (3#4)) 0 = Ok c0 /\
  match al_loop ic_update ic_difference_update ic_len 5 strat (fun _ _ => SNum 1) (fun _ => 0%Q) []
          (ex_ic [1; 2]) (ex_ic [3; 4; 5; 6; 7]) (sio_new [] [] (ex_ic [1; 2]) (ex_ic [3; 4; 5; 6; 7])) c0 with
  | Done L U s c => elems L = map KInt [1; 2; 3; 4; 5; 6] /\ elems U = [KInt 7] /\ List.length (s_states s) = 2%nat
  | _ => False
  end.
Proof.
  cbn zeta. split.
  - split; [apply reach_list|]. split; [apply reach_list|]. split; [discriminate|].
    intros hist L U N. destruct (cont U) as [|a [|b r]] eqn:EU; [congruence| |]; cbn [firstn]; (split; [discriminate|]);
      unfold elems; rewrite EU; cbn; intuition; subst; auto.
  - eexists. split; [reflexivity|]. vm_compute. auto.
Qed.
