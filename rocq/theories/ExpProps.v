(** Experiments over several folds: one after another (C83) and in threads (C84). *)
From Verif Require Import Base BaseFacts SetFacts IndexModel IndexSpec IndexProofs StateModel StateSpec StateProofs StateProofs2
  StateProofs3 ExpModel ExpSpec ExpProofs ExpProofs2.
From Coq Require Import String QArith.
Local Open Scope Z_scope.

(** ** C83 *)
Lemma fold_result perf fuel strat clock name v t0 c0 f ls us :
  is_fold f ls us -> selects strat -> sc_init name v t0 = Ok c0 -> crit_ok name v -> (List.length us <= fuel)%nat ->
  exists L U io c, run_fold perf fuel strat clock f c0 = (perf (cont (fold_L f)) (f_test f), Done L U io c) /\
    keeps_indexes f ls us io /\ stopped name (crit_value (sc_value c0)) t0 clock us io /\
    (forall i, (i < List.length (s_states io))%nat -> exists L U L' U' e,
       step_sets io i L U /\ step_sets io (S i) L' U' /\ nth_error (s_states io) i = Some e /\
       records e (strat (cont L) (firstn i (map queried (s_states io))) L U) (perf (cont L') (f_test f))).
Proof.
  intros Hf Hs Hc V Hfu. destruct (fold_facts _ _ _ Hf) as (_ & _ & _ & _ & _ & _ & _ & Len & _).
  destruct (alone_lemma f ls us name v t0 c0 clock Hf Hc V perf strat Hs fuel [] (fold_L f) (fold_U f) (fold_io f) c0)
    as (hist & L & U & io & c & R & I & St & M).
  - eapply finv_init; eauto.
  - intros i Hi. cbn in Hi. lia.
  - lia.
  - exists L, U, io, c. unfold run_fold. rewrite R. split; auto. split; [eapply finv_keeps; eauto|].
    split; [eapply finv_stopped; eauto|].
    destruct (finv_len f ls us name t0 c0 clock Hf _ _ _ _ _ I) as (E1 & E2 & _). rewrite E2, E1. exact M.
Qed.

(** Running the folds one after another adds one result per fold, in order, to those already there.  Each result gives the
    performance of the model fitted on the initial labelled set, and for each query the strategy's selection and the performance,
    on the fold's test set, of the model fitted on the labelled set after this query; its sets partition the fold's indexes, and
    it ends at the first step at which the stopping criterion holds. *)
Theorem C83_results : forall perf fuel strat clock name v t0 c0 folds idx acc r,
  Forall2 (fun f p => is_fold f (fst p) (snd p)) folds idx -> (forall k, selects (strat k)) ->
  sc_init name v t0 = Ok c0 -> crit_ok name v -> (forall p, In p idx -> (List.length (snd p) <= fuel)%nat) ->
  exists rs, run_rounds perf fuel strat clock c0 r folds acc = Some (acc ++ rs, Ok tt) /\
    Forall2 (fun _ _ => True) folds rs /\
    forall k f ls us x, nth_error folds k = Some f -> nth_error idx k = Some (ls, us) -> nth_error rs k = Some x ->
      x_init x = perf (cont (fold_L f)) (f_test f) /\ keeps_indexes f ls us (x_io x) /\
      stopped name (crit_value (sc_value c0)) t0 (clock (r + k)%nat) us (x_io x) /\
      forall i, (i < List.length (s_states (x_io x)))%nat -> exists L U L' U' e,
        step_sets (x_io x) i L U /\ step_sets (x_io x) (S i) L' U' /\ nth_error (s_states (x_io x)) i = Some e /\
        records e (strat (r + k)%nat (cont L) (firstn i (map queried (s_states (x_io x)))) L U) (perf (cont L') (f_test f)).
Proof.
  intros perf fuel strat clock name v t0 c0 folds idx acc r F Hs Hc V. revert acc r.
  induction F as [|f [ls us] folds idx Hf F IH]; intros acc r Hfu.
  - exists []. cbn. rewrite app_nil_r. split; auto. split; [constructor|]. intros [|k] ? ? ? ? X; discriminate.
  - cbn [fst snd] in Hf. cbn [run_rounds].
    destruct (fold_result perf fuel (strat r) (clock r) name v t0 c0 f ls us Hf (Hs r) Hc V (Hfu _ (or_introl eq_refl)))
      as (L & U & io & c & R & K & St & M).
    rewrite R. set (x := {| x_init := _; x_io := io |}).
    destruct (IH (acc ++ [x]) (S r)) as (rs & E & Fr & G); [intros p Hp; apply Hfu; now right|].
    exists (x :: rs). rewrite E, <- app_assoc. split; [reflexivity|]. split; [constructor; auto|].
    intros [|k] f' ls' us' x' Ef Ei Ex; cbn in Ef, Ei, Ex.
    + injection Ef as <-. injection Ei as <- <-. injection Ex as <-. rewrite Nat.add_0_r. cbn. auto.
    + replace (r + S k)%nat with (S r + k)%nat by lia. eapply G; eauto.
Qed.
Print Assumptions C83_results.

(** The results of earlier calls stay: calling [start_query] twice gives every fold twice. *)
Theorem C83_twice_refuted : forall perf fuel strat clock clock' name v t0 c0 folds idx,
  Forall2 (fun f p => is_fold f (fst p) (snd p)) folds idx -> (forall k, selects (strat k)) ->
  sc_init name v t0 = Ok c0 -> crit_ok name v -> (forall p, In p idx -> (List.length (snd p) <= fuel)%nat) ->
  exists rs rs', run_rounds perf fuel strat clock c0 0 folds [] = Some (rs, Ok tt) /\
    run_rounds perf fuel strat clock' c0 0 folds rs = Some (rs ++ rs', Ok tt) /\
    (List.length (rs ++ rs') = 2 * List.length folds)%nat.
Proof.
  intros perf fuel strat clock clock' name v t0 c0 folds idx F Hs Hc V Hfu.
  destruct (C83_results perf fuel strat clock name v t0 c0 folds idx [] 0 F Hs Hc V Hfu) as (rs & E & Fr & _).
  destruct (C83_results perf fuel strat clock' name v t0 c0 folds idx rs 0 F Hs Hc V Hfu) as (rs' & E' & Fr' & _).
  exists rs, rs'. split; [exact E|]. split; [exact E'|].
  assert (Len : forall (l : list fold) (l' : list result), Forall2 (fun _ _ => True) l l' -> List.length l = List.length l').
  { induction 1; cbn; auto. }
  rewrite app_length, <- (Len _ _ Fr), <- (Len _ _ Fr'). lia.
Qed.
Print Assumptions C83_twice_refuted.

(** An exception in a fold (raised by the strategy, say) ends the call; the results of the folds before it stay. *)
Theorem C83_exception : forall perf fuel strat clock c0 fs f fs' acc r rs e,
  run_rounds perf fuel strat clock c0 r fs acc = Some (rs, Ok tt) ->
  snd (run_fold perf fuel (strat (r + List.length fs)%nat) (clock (r + List.length fs)%nat) f c0) = Raised e ->
  run_rounds perf fuel strat clock c0 r (fs ++ f :: fs') acc = Some (rs, Err e).
Proof.
  intros perf fuel strat clock c0 fs f fs'. induction fs as [|g fs IH]; intros acc r rs e; cbn [run_rounds app].
  - intros H. injection H as <-. cbn [List.length]. rewrite Nat.add_0_r. destruct (run_fold _ _ _ _ f _) as [p o]. cbn. intros ->. reflexivity.
  - destruct (run_fold perf fuel (strat r) (clock r) g c0) as [p [L U io c|?|]]; try discriminate.
    intros H. cbn [List.length]. replace (r + S (List.length fs))%nat with (S r + List.length fs)%nat by lia. intro X.
    eapply IH; eauto.
Qed.
Print Assumptions C83_exception.

(** The time limit counts from the construction of the experiment: a fold that starts after it makes no query. *)
Theorem C83_time_limit_refuted : forall perf fuel strat clock q t0 c0 f ls us,
  is_fold f ls us -> selects strat -> sc_init NTime (Some q) t0 = Ok c0 -> (List.length us <= fuel)%nat ->
  (q <= clock 0%nat - t0)%Q ->
  exists L U io c, run_fold perf fuel strat clock f c0 = (perf (cont (fold_L f)) (f_test f), Done L U io c) /\ s_states io = [].
Proof.
  intros perf fuel strat clock q t0 c0 f ls us Hf Hs Hc Hfu Hq.
  destruct (fold_result perf fuel strat clock NTime (Some q) t0 c0 f ls us Hf Hs Hc I Hfu) as (L & U & io & c & R & _ & [_ St] & _).
  exists L, U, io, c. split; auto. destruct (St 0%nat) as (L0 & U0 & _ & X); [lia|].
  assert (E : 0%nat = List.length (s_states io)).
  { apply X. right. injection Hc as <-. exact Hq. }
  destruct (s_states io); [reflexivity|discriminate].
Qed.
Print Assumptions C83_time_limit_refuted.

(** Two folds, a strategy that takes the first unlabelled index, two queries. *)
Definition ex_fold1 : fold := {| f_train := []; f_test := [VNp (KInt 9)]; f_label := DList [VNp (KInt 0)];
                                 f_unlabel := DList (map (fun z => VNp (KInt z)) [1; 2; 3]) |}.
Definition ex_fold2 : fold := {| f_train := []; f_test := [VNp (KInt 8)]; f_label := DList [VNp (KInt 4)];
                                 f_unlabel := DList (map (fun z => VNp (KInt z)) [5; 6]) |}.
Definition ex_strat (_ : nat) (_ : list pyval) (_ : list (list pyval)) (_ U : icol) : list pyval := firstn 1 (cont U).
Definition ex_perf (d t : list pyval) : sval pyval := SIdx (d ++ t).

Example C83_example : exists c0,
  sc_init NNum (Some 2%Q) 0 = Ok c0 /\ crit_ok NNum (Some 2%Q) /\
  Forall2 (fun f p => is_fold f (fst p) (snd p)) [ex_fold1; ex_fold2] [([0], [1; 2; 3]); ([4], [5; 6])] /\
  (forall k, selects (ex_strat k)) /\
  exists r1 r2, run_rounds ex_perf 5 ex_strat (fun _ _ => 0%Q) c0 0 [ex_fold1; ex_fold2] [] = Some ([r1; r2], Ok tt) /\
    x_init r1 = SIdx [VNp (KInt 0); VNp (KInt 9)] /\ map queried (s_states (x_io r1)) = [[VNp (KInt 1)]; [VNp (KInt 2)]] /\
    map queried (s_states (x_io r2)) = [[VNp (KInt 5)]; [VNp (KInt 6)]].
Proof.
  eexists. split; [reflexivity|]. split; [exact I|]. split; [|split].
  - assert (N : forall l : list Z, List.NoDup (nodup Z.eq_dec l)) by (intro; apply NoDup_nodup).
    constructor; [|constructor; [|constructor]]; cbn.
    + repeat (split; [reflexivity || discriminate|]). split; [apply (N [1;2;3])|]. cbn; intuition; subst; discriminate.
    + repeat (split; [reflexivity || discriminate|]). split; [apply (N [5;6])|]. cbn; intuition; subst; discriminate.
  - intros k d h L U N. unfold ex_strat, elems. destruct (cont U) as [|x l]; [congruence|]. cbn.
    split; [discriminate|]. intuition (subst; auto).
  - do 2 eexists. split; [vm_compute; reflexivity|]. vm_compute. auto.
Qed.

(** ** C84 *)

(** For every schedule, no thread fails and every fold's record stays a partition of the fold's indexes at every step. *)
Theorem C84_safe : forall perf strat clock folds none c0 es i ls us name v t0,
  is_fold (nth i folds none) ls us -> selects (strat i) -> sc_init name v t0 = Ok c0 -> crit_ok name v ->
  let t := m_th (mach_run perf strat clock (new_mach folds none c0) es) i in
  (forall e, t_at t <> PRaised e) /\ keeps_indexes (nth i folds none) ls us (t_io t).
Proof.
  intros perf strat clock folds none c0 es i ls us name v t0 Hf Hs Hc V t.
  destruct (tinv_run perf strat clock folds none c0 i ls us name v t0 Hf Hc V Hs es) as [T _]. fold t in T. split.
  - intros e A. unfold tinv in T. now rewrite A in T.
  - eapply tinv_keeps; eauto.
Qed.
Print Assumptions C84_safe.

(** A thread ends after a bounded number of its own steps, whatever the others do; its record then ends at the first step at which
    the stopping criterion holds, and gives the thread's final sets. *)
Theorem C84_ends : forall perf strat clock folds none c0 es i ls us name v t0,
  is_fold (nth i folds none) ls us -> selects (strat i) -> sc_init name v t0 = Ok c0 -> crit_ok name v ->
  let t := m_th (mach_run perf strat clock (new_mach folds none c0) es) i in
  ((4 * List.length us + 3 <= count_occ Nat.eq_dec es i)%nat -> t_at t = PDone) /\
  (t_at t = PDone -> stopped name (crit_value (sc_value c0)) t0 (clock i) us (t_io t) /\
                     step_sets (t_io t) (List.length (s_states (t_io t))) (t_L t) (t_U t) /\ t_init t <> None).
Proof.
  intros perf strat clock folds none c0 es i ls us name v t0 Hf Hs Hc V t.
  destruct (tinv_run perf strat clock folds none c0 i ls us name v t0 Hf Hc V Hs es) as [T M]. fold t in T, M. split.
  - intro Hn. destruct M as [M|M]; auto. unfold tinv in T. unfold mu in M. destruct (t_at t); auto; try lia; try contradiction.
    exfalso. destruct T as (_ & I & _ & NSt). apply NSt. left. lia.
  - eapply tinv_done; eauto.
Qed.
Print Assumptions C84_ends.

(** The performance a thread records is that of the model fitted last by any thread, on the thread's own test set:  thread [j]
    makes the latest fit before thread [i] predicts. *)
Theorem C84_latest_model : forall perf strat clock folds none c0 es1 j es2 i ls us name v t0,
  is_fold (nth i folds none) ls us -> selects (strat i) -> sc_init name v t0 = Ok c0 -> crit_ok name v ->
  let m es := mach_run perf strat clock (new_mach folds none c0) es in
  let fits t := t_at t = PFit0 \/ t_at t = PFit in
  fits (m_th (m es1) j) ->
  (forall a k b, es2 = a ++ k :: b -> ~ fits (m_th (m (es1 ++ j :: a)) k)) ->
  let before := m_th (m (es1 ++ j :: es2)) i in
  let after := m_th (m (es1 ++ j :: es2 ++ [i])) i in
  let fitted := cont (t_L (m_th (m es1) j)) in
  (t_at before = PPred0 -> t_init after = Some (perf fitted (f_test (nth i folds none)))) /\
  (t_at before = PPred -> exists e, s_states (t_io after) = s_states (t_io before) ++ [e] /\
                                    records e (t_sel before) (perf fitted (f_test (nth i folds none)))).
Proof.
  intros perf strat clock folds none c0 es1 j es2 i ls us name v t0 Hf Hs Hc V m fits Hj Hno before after fitted.
  destruct (latest_fit perf strat clock folds none c0 es1 j es2) as [rest Fit].
  { unfold fits_next. destruct Hj as [H|H]; unfold m in H; now rewrite H. }
  { intros a k b E. specialize (Hno a k b E). unfold fits_next. unfold fits, m in Hno.
    destruct (t_at _); auto; exfalso; apply Hno; auto. }
  destruct (tinv_run perf strat clock folds none c0 i ls us name v t0 Hf Hc V Hs (es1 ++ j :: es2)) as [T _].
  destruct (tinv_run perf strat clock folds none c0 i ls us name v t0 Hf Hc V Hs ((es1 ++ j :: es2) ++ [i])) as [T' _].
  pose proof (tinv_test clock folds none c0 i ls us name v t0 Hf Hc V _ _ T) as Te.
  unfold after, m. replace (es1 ++ j :: es2 ++ [i]) with ((es1 ++ j :: es2) ++ [i]) by now rewrite <- app_assoc.
  rewrite run_snoc. fold (m (es1 ++ j :: es2)). fold (m (es1 ++ j :: es2)) in T, Te, Fit. fold before in T, Te. split; intro A.
  - rewrite (pred0_record perf strat clock (m (es1 ++ j :: es2)) i _ _ A Fit). fold before. now rewrite Te.
  - eexists. rewrite (pred_record perf strat clock (m (es1 ++ j :: es2)) i _ _ A Fit).
    + fold before. rewrite Te. split; [reflexivity|]. split; reflexivity.
    + rewrite run_snoc in T'. fold (m (es1 ++ j :: es2)) in T'. rewrite step_own in *. fold before in T' |- *.
      unfold thread_step in *. rewrite A, Fit in *. cbn [snd fst] in *.
      destruct (sio_add _ _) as [io' [[]|]]; [|destruct T']. destruct (sc_update _ _ _ _ _) as [c' [[]|]]; [reflexivity|destruct T'].
Qed.
Print Assumptions C84_latest_model.

(** So a fold's performances need not be those of its own model: with any two folds, there is a schedule in which the initial
    performance of fold [i] is that of the model fitted on fold [j]. *)
Theorem C84_own_model_refuted : forall perf strat clock folds none c0 i j, i <> j ->
  let fi := nth i folds none in let fj := nth j folds none in
  t_init (m_th (mach_run perf strat clock (new_mach folds none c0) [i; j; i]) i) =
    Some (perf (cont (fold_L fj)) (f_test fi)).
Proof.
  intros perf strat clock folds none c0 i j Hij fi fj.
  assert (E1 : Nat.eqb j i = false) by (apply Nat.eqb_neq; congruence).
  assert (E2 : Nat.eqb i j = false) by (now apply Nat.eqb_neq).
  unfold mach_run, mach_step, new_mach. cbn [fold_left m_th m_fits new_thread thread_step t_at goto].
  unfold set_th at 1 2 3 4. cbn [m_th]. unfold set_th.
  repeat (rewrite ?Nat.eqb_refl, ?E1, ?E2; cbn [m_th m_fits new_thread thread_step t_at goto t_L t_U t_io t_init t_crit t_hist t_sel fst snd]).
  reflexivity.
Qed.
Print Assumptions C84_own_model_refuted.

(** When a fold runs alone, after any steps of others, the thread ends with exactly the sequential result (C83). *)
Theorem C84_serial : forall perf strat clock folds none c0 fuel i p L U io c pre, ~ In i pre ->
  run_fold perf fuel (strat i) (clock i) (nth i folds none) c0 = (p, Done L U io c) ->
  exists k, let t := m_th (mach_run perf strat clock (new_mach folds none c0) (pre ++ repeat i k)) i in
    t_at t = PDone /\ t_init t = Some p /\ t_L t = L /\ t_U t = U /\ t_io t = io.
Proof.
  intros perf strat clock folds none c0 fuel i p L U io c pre Hp H.
  destruct (serial_lemma perf strat clock folds none c0 i fuel p L U io c pre Hp H) as (k & A & B & D & E & F & _).
  exists k. cbn zeta. auto.
Qed.
Print Assumptions C84_serial.

(** Two folds: interleaved, fold 0's first performance is that of the model of fold 1. *)
Example C84_example : exists c0, sc_init NNum (Some 1%Q) 0 = Ok c0 /\
  let m es := mach_run ex_perf ex_strat (fun _ _ => 0%Q) (new_mach [ex_fold1; ex_fold2] ex_fold1 c0) es in
  let race := [0; 1; 0; 0; 0; 0; 1; 0; 0; 1; 1; 1; 1; 1]%nat in
  t_at (m_th (m race) 0%nat) = PDone /\ t_at (m_th (m race) 1%nat) = PDone /\
  t_init (m_th (m race) 0%nat) = Some (SIdx [VNp (KInt 4); VNp (KInt 9)]) /\
  t_init (m_th (m (repeat 0%nat 7)) 0%nat) = Some (SIdx [VNp (KInt 0); VNp (KInt 9)]).
Proof. eexists. split; [reflexivity|]. vm_compute. auto. Qed.
