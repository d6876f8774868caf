(** Properties C45 and C46: multi-threaded experiments. *)
From Verif Require Import Base BaseFacts ThreadModel ThreadProofs.
From Coq Require Import String.
Local Open Scope Z_scope.

(** * C45: the scheduler *)

(** Whatever the interleaving, at most [max_thread] rounds run at the same time.  [k] distinct rounds running at once
    means [k <= max_thread]. *)
Theorem C45_limit : forall c files disk es l, NoDup l ->
  (forall i, In i l -> (i < rounds c)%nat /\ stat (run c (boot c files disk) es) i = Running) -> (List.length l <= maxt c)%nat.
Proof.
  intros c f d es l ND H. pose proof (i_limit _ _ (inv_run c _ es (inv_boot c f d))) as L. eapply Nat.le_trans; [|exact L].
  unfold running, count. apply NoDup_incl_length; auto. intros i J. destruct (H i J) as [A B]. apply filter_In. split; [apply in_seq; lia|]. now rewrite B.
Qed.
Print Assumptions C45_limit.

(** The rounds to be run are started in order, each once, and no other; starting never fails. *)
Theorem C45_once : forall c files disk es,
  let m := run c (boot c files disk) es in
  (exists k, (k <= rounds c)%nat /\ started m = filter (todo c) (seq 0 k)) /\ NoDup (started m) /\
  (forall i, stat m i <> Fresh <-> In i (started m)) /\ at_ m <> PFailed.
Proof.
  intros c f d es m. pose proof (inv_run c _ es (inv_boot c f d)) as I. fold m in I. destruct I as [LI AV SL NG TU TD ST FR JO].
  split; [exists (cursor (rounds c) (at_ m)); auto|]. split; [rewrite ST; apply NoDup_filter, seq_NoDup|]. split; auto. intro E. now rewrite E in TD.
Qed.
Print Assumptions C45_once.

(** When the call returns, every round to be run has been started and has ended. *)
Theorem C45_complete : forall c files disk es,
  let m := run c (boot c files disk) es in
  at_ m = PDone -> started m = filter (todo c) (seq 0 (rounds c)) /\
    forall i, (i < rounds c)%nat -> (todo c i = true -> exists b, stat m i = Ended b) /\ (todo c i = false -> stat m i = Fresh).
Proof.
  intros c f d es m E. pose proof (inv_run c _ es (inv_boot c f d)) as I. fold m in I. destruct I as [LI AV SL NG TU TD ST FR JO]. rewrite E in *. cbn [cursor joined] in *.
  split; auto. intros i L. split; [intro T; now apply JO|]. intro T. destruct (stat m i) eqn:S'; auto; exfalso; assert (J : In i (started m)) by (apply FR; rewrite S'; discriminate);
  rewrite ST in J; apply filter_In in J; destruct J; congruence.
Qed.
Print Assumptions C45_complete.

(** It does return: under any schedule made of sufficiently many fair segments (in each, every round thread comes to
    its end and the scheduler then moves with no foreign thread around). *)
Theorem C45_terminates : forall c files disk, (0 < maxt c)%nat -> exists K, forall segs,
  Forall (fair (rounds c)) segs -> (K <= List.length segs)%nat -> at_ (run c (boot c files disk) (List.concat segs)) = PDone.
Proof.
  intros c f d MX. exists (mu (rounds c) (at_ (boot c f d))). intros segs F L. apply fair_terminates; auto. apply inv_boot.
Qed.
Print Assumptions C45_terminates.

(** Threads that do not belong to the experiment count too: if there are always [max_thread] of them, only the first
    [max_thread] rounds are ever started, and the call does not return if there are more. *)
Theorem C45_foreign_threads_refuted : forall c files disk es, (forall x, In (ESched x) es -> (maxt c <= x)%nat) ->
  let m := run c (boot c files disk) es in
  (List.length (started m) <= maxt c)%nat /\ ((maxt c < List.length (filter (todo c) (seq 0 (rounds c))))%nat -> at_ m <> PDone).
Proof.
  intros c f d es H m. assert (A : (List.length (started m) <= maxt c)%nat).
  { destruct (starved c (boot c f d) es H (inv_boot c f d)) as [A B]; [cbn; lia|cbn; lia|]. fold m in A, B. destruct (at_ m); lia. }
  split; auto. intros L E. destruct (C45_complete c f d es E) as [S' _]. fold m in S'. rewrite S' in A. lia.
Qed.
Print Assumptions C45_foreign_threads_refuted.

(** A second [start_all_threads] on the same object starts nothing and cannot return normally. *)
Theorem C45_second_start_refuted : forall c files disk es es', at_ (run c (boot c files disk) es) = PDone ->
  (exists i, (i < rounds c)%nat /\ todo c i = true) ->
  let m := run c (again c (run c (boot c files disk) es)) es' in
  started m = started (run c (boot c files disk) es) /\ at_ m <> PDone.
Proof.
  intros c f d es es' D (t & TL & TT) m. destruct (C45_complete c f d es D) as [_ EN]. set (m0 := run c (boot c f d) es) in *.
  assert (G : forall m1, started m1 = started m0 /\ (forall i, (i < rounds c)%nat -> todo c i = true -> exists b, stat m1 i = Ended b) /\
     match at_ m1 with PStart i => (i <= t)%nat | PWait i | PRead i | PGo i => (i < rounds c)%nat /\ todo c i = true | PFailed => True | _ => False end ->
     forall es', let m2 := run c m1 es' in started m2 = started m0 /\ at_ m2 <> PDone).
  { intros m1 H es0. revert m1 H. induction es0 as [|e es0 IH]; intros m1 (S1 & E1 & P1).
    - cbn. split; auto. intro X. now rewrite X in P1.
    - cbn [run fold_left]. apply IH. clear IH. destruct e as [x|i b|i|i|i k]; cbn [step].
      + unfold sched. destruct (at_ m1) as [i|i|i|i| | | | | |] eqn:P; try contradiction.
        * destruct (Nat.leb_spec (rounds c) i); [lia|]. destruct (todo c i) eqn:T; cbn [negb].
          -- destruct (0 <? avail m1); cbn; auto.
          -- cbn. split; auto. split; auto. destruct (Nat.eq_dec i t) as [->|N]; [congruence|lia].
        * destruct (_ <? _); cbn; auto. rewrite P. auto.
        * cbn. auto.
        * destruct P1 as [L T]. destruct (E1 i L T) as [b ->]. cbn. auto.
        * rewrite P. auto.
      + destruct (is_running (stat m1 i)) eqn:R; cbn; auto. split; auto. split; auto. intros j L T. unfold fset. destruct (Nat.eqb j i); eauto.
      + destruct (is_running (stat m1 i)) eqn:R; cbn; auto.
      + destruct (is_running (stat m1 i)) eqn:R; cbn; auto.
      + destruct (is_running (stat m1 i)) eqn:R; cbn; auto. }
  apply (G (again c m0)). cbn. split; auto. split; [|lia]. intros i L. apply EN. auto.
Qed.
Print Assumptions C45_second_start_refuted.

(** The checks made beforehand. *)
Theorem C45_checks : (forall argname, set_target_function argname = Ok tt <->
     forall x, In x ["round"; "train_id"; "test_id"; "Ucollection"; "Lcollection"; "saver"; "examples"; "labels"; "global_parameters"]%string ->
               In x argname) /\
  (forall argname, set_target_function argname = Ok tt \/ set_target_function argname = Err NameErr) /\
  (forall a b l u k, (exists r, check_init a b l u k = Ok r) <-> a = b /\ b = l /\ l = u /\ match k with Some k => 0 < k | None => True end) /\
  (forall a b l u k r, check_init a b l u k = Ok r -> fst r = l /\ snd r = match k with Some k => k | None => Z.of_nat l end).
Proof.
  split; [|split; [|split]].
  - intro a. unfold set_target_function. split.
    + intros G x J. destruct (forallb _ needed) eqn:F; [|discriminate]. rewrite forallb_forall in F. apply F in J. apply existsb_exists in J. destruct J as (y & Y & E). apply String.eqb_eq in E. now subst.
    + intro H. assert (F : forallb (fun x => existsb (String.eqb x) a) needed = true).
      { apply forallb_forall. intros x J. apply existsb_exists. exists x. split; auto. apply String.eqb_refl. }
      now rewrite F.
  - intro a. unfold set_target_function, guard. destruct (forallb _ _); auto.
  - intros a b l u k. unfold check_init. destruct (Nat.eqb_spec a b); [|split; [intros [r H]; discriminate|lia]]. destruct (Nat.eqb_spec b l); [|split; [intros [r H]; discriminate|lia]].
    destruct (Nat.eqb_spec l u); [|split; [intros [r H]; discriminate|lia]]. cbn [andb guard bind]. destruct k as [k|].
    + destruct (Z.ltb_spec 0 k); cbn [guard bind]; split; eauto; [intros [r X]; discriminate|lia].
    + split; eauto.
  - intros a b l u k r. unfold check_init. destruct (guard _ _); [|discriminate]. cbn [bind]. destruct k as [k|].
    + destruct (guard _ _); [|discriminate]. cbn. intro E. injection E as <-. auto.
    + intro E. injection E as <-. auto.
Qed.
Print Assumptions C45_checks.

(** Three rounds, two at a time: a complete run. *)
Definition c32 : cfg := {| rounds := 3; maxt := 2; todo := fun _ => true |}.
Example C45_witness : at_ (run c32 (boot c32 (fun _ => RMissing) SMissing)
   (repeat (ESched 0) 20 ++ [EWrite 1 5; EEnd 1 true] ++ repeat (ESched 0) 12 ++ [EEnd 2 true; EEnd 0 false] ++ repeat (ESched 0) 40)) = PDone /\
  started (run c32 (boot c32 (fun _ => RMissing) SMissing) (repeat (ESched 0) 40)) = [0; 1]%nat.
Proof. split; vm_compute; reflexivity. Qed.

(** * C46: recovery *)

(** What recovery does to a round, in terms of the saved liveness flag and of the result file. *)
Definition kept (p : plan) (k : nat) : Prop := rerun p = false /\ saver p = Some k.
Definition fresh_start (p : plan) : Prop := rerun p = true /\ saver p = None.
Definition continued (p : plan) (k : nat) : Prop := rerun p = true /\ saver p = Some k.

(** Exactly which plan each round gets. *)
Theorem C46_exact : forall n alive files,
  (forall ps, recover n (SFull alive) files = Ok ps -> List.length ps = n /\
     forall i p, nth_error ps i = Some p ->
       (files i = RMissing /\ alive i = false /\ fresh_start p) \/ (files i = REmpty /\ fresh_start p) \/
       (exists k, files i = RFull k /\ ((alive i = false /\ kept p k) \/ (alive i = true /\ continued p k)))) /\
  ((exists ps, recover n (SFull alive) files = Ok ps) <-> forall i, (i < n)%nat -> files i <> RPartial /\ (files i = RMissing -> alive i = false)).
Proof.
  intros n al fs. cbn [recover].
  assert (ONE : forall i, (exists p, recover_round (al i) (fs i) = Ok p) <-> (fs i <> RPartial /\ (fs i = RMissing -> al i = false))).
  { intro i. unfold recover_round. destruct (al i), (fs i); cbn; split; try (intros [p X]; discriminate); try (intros [X Y]; eauto; try congruence; specialize (Y eq_refl); congruence);
    try (intros _; split; congruence). }
  split.
  - intros ps E. split; [rewrite (mapM_length _ _ _ E); apply seq_length|]. intros i p P.
    assert (X : recover_round (al i) (fs i) = Ok p).
    { assert (L : (i < n)%nat). { rewrite <- (seq_length n 0), <- (mapM_length _ _ _ E). apply nth_error_Some. congruence. }
      revert E P L. clear. intro E. assert (G : forall l ps, mapM (fun i => recover_round (al i) (fs i)) l = Ok ps -> forall i p x, nth_error l i = Some x -> nth_error ps i = Some p -> recover_round (al x) (fs x) = Ok p).
      { clear. induction l as [|y l IH]; intros ps E i p x X P; [destruct i; discriminate|]. cbn in E. destruct (recover_round (al y) (fs y)) eqn:R; [|discriminate]. cbn in E.
        destruct (mapM _ l) eqn:M; [|discriminate]. injection E as <-. destruct i; cbn in X, P; [congruence|eauto]. }
      intros P L. eapply (G _ _ E i p i); auto. rewrite nth_error_nth' with (d := O) by (rewrite seq_length; lia). now rewrite seq_nth by lia. }
    unfold recover_round in X. unfold fresh_start, kept, continued. destruct (al i), (fs i) eqn:F; cbn in X; try discriminate; injection X as <-; cbn; auto 6; right; right; eauto 8.
  - split.
    + intros [ps E] i L. apply ONE. destruct (recover_round (al i) (fs i)) as [p|e] eqn:R; eauto. exfalso.
      assert (G : forall l ps, mapM (fun i => recover_round (al i) (fs i)) l = Ok ps -> forall x, In x l -> exists p, recover_round (al x) (fs x) = Ok p).
      { clear. induction l as [|y l IH]; intros ps E x J; [destruct J|]. cbn in E. destruct (recover_round (al y) (fs y)) eqn:R; [|discriminate]. cbn in E.
        destruct (mapM _ l) eqn:M; [|discriminate]. destruct J as [->|J]; eauto. }
      destruct (G _ _ E i) as [p X]; [apply in_seq; lia|congruence].
    + intro H. assert (G : forall l, (forall x, In x l -> (x < n)%nat) -> exists ps, mapM (fun i => recover_round (al i) (fs i)) l = Ok ps).
      { clear -H ONE. induction l as [|y l IH]; intro K; [cbn; eauto|]. cbn. destruct (proj2 (ONE y) (H y (K y (or_introl eq_refl)))) as [p ->]. cbn.
        destruct IH as [ps ->]; [intros; apply K; now right|]. cbn. eauto. }
      apply G. intros x J. apply in_seq in J. lia.
Qed.
Print Assumptions C46_exact.

(** Without a complete state file there is no recovery. *)
Theorem C46_state_file : forall n files, (forall ps, recover n SMissing files <> Ok ps) /\ (forall ps, recover n SPartial files <> Ok ps).
Proof. split; discriminate. Qed.
Print Assumptions C46_state_file.

(** After a complete run the state file says that no round is alive; no round that saved anything is run again. *)
Theorem C46_finished : forall c es, let m := run c (boot c (fun _ => RMissing) SMissing) es in
  at_ m = PDone -> started m <> [] ->
  exists fl, sdisk m = SFull fl /\ (forall i, (i < rounds c)%nat -> fl i = false) /\
    forall ps i p, recover (rounds c) (sdisk m) (rfiles m) = Ok ps -> nth_error ps i = Some p ->
      (rerun p = true <-> rfiles m i = RMissing \/ rfiles m i = REmpty).
Proof.
  intros c es m D N.
  assert (I : Inv c m) by apply inv_run, inv_boot.
  assert (I2 : Inv2 c m) by (apply inv2_run; [apply inv_boot|apply inv2_boot]).
  assert (S : seen c m) by (apply seen_run; [apply inv_boot|exact Logic.I]).
  destruct (j_disk _ _ I2) as [[_ E]|(fl & E & A & _)]; [rewrite D; exact Logic.I|contradiction|].
  assert (F : forall i, (i < rounds c)%nat -> fl i = false).
  { intros i L. destruct (fl i) eqn:Ef; [|reflexivity]. pose proof (proj1 (i_fresh _ _ I i) (A i Ef)) as J.
    rewrite (i_started _ _ I) in J. apply filter_In in J. destruct J as [_ T].
    unfold seen in S. rewrite D in S. destruct (S i L T) as (fl' & E' & F'). rewrite E in E'. injection E' as <-. congruence. }
  exists fl. split; [exact E|]. split; [exact F|].
  intros ps i p R Np. rewrite E in R. cbn [recover] in R. pose proof (mapM_inv _ _ _ R) as R2.
  assert (L : (i < rounds c)%nat).
  { assert (i < List.length ps)%nat by (apply nth_error_Some; congruence).
    apply mapM_length in R. rewrite seq_length in R. lia. }
  assert (R3 : recover_round (fl i) (rfiles m i) = Ok p).
  { clear -R2 Np L. revert i L Np. 
    assert (G : forall s n qs, Forall2 (fun i q => recover_round (fl i) (rfiles m i) = Ok q) (seq s n) qs ->
       forall i q, nth_error qs i = Some q -> recover_round (fl (s + i)%nat) (rfiles m (s + i)%nat) = Ok q).
    { intros s n. revert s. induction n as [|n IH]; intros s qs H; inversion H; subst; intros i q Hq; destruct i; cbn in Hq; try discriminate.
      - injection Hq as <-. rewrite Nat.add_0_r. assumption.
      - rewrite Nat.add_succ_r. eapply (IH (S s)); eauto. }
    intros i L Np. apply (G 0%nat _ _ R2 i p Np). }
  rewrite (F i L) in R3. unfold recover_round in R3. cbn [negb] in R3. destruct (rfiles m i); cbn in R3; try discriminate;
    injection R3 as <-; cbn; split; auto; try congruence; intros [X|X]; discriminate.
Qed.
Print Assumptions C46_finished.

(** The recovered object runs exactly the rounds planned to be rerun (any schedule, any files left behind). *)
Theorem C46_reruns : forall c ps files disk es, List.length ps = rounds c ->
  let c' := recovered c ps in let m := run c' (boot c' files disk) es in
  at_ m = PDone -> forall i p, nth_error ps i = Some p -> (rerun p = true <-> exists b, stat m i = Ended b) /\ (In i (started m) <-> rerun p = true).
Proof.
  intros c ps fs d es L c' m D i p P. destruct (C45_complete c' fs d es D) as [S' E]. fold m in S', E.
  assert (LI : (i < rounds c)%nat) by (rewrite <- L; apply nth_error_Some; congruence).
  assert (T : todo c' i = rerun p) by (cbn; now rewrite P). destruct (E i LI) as [E1 E2]. rewrite T in *. split.
  - split; [auto|]. intros [b X]. destruct (rerun p); auto. rewrite E2 in X by auto. discriminate.
  - rewrite S', filter_In, in_seq, T. cbn [recovered rounds c']. split; [tauto|intro; split; auto; lia].
Qed.
Print Assumptions C46_reruns.

(** First run, no old result files, crash at any moment at which the scheduler is not between starting a thread and
    having saved the state: a round that recovery keeps had ended, so every round still running is run again. *)
Theorem C46_settled_crash : forall c es ps, let m := run c (boot c (fun _ => RMissing) SMissing) es in
  settled (at_ m) -> recover (rounds c) (sdisk m) (rfiles m) = Ok ps ->
  forall i p, nth_error ps i = Some p -> rerun p = false -> exists b, stat m i = Ended b.
Proof.
  intros c es ps m SE R i p P RR.
  pose proof (inv2_run c _ es (inv_boot c (fun _ => RMissing) SMissing) (inv2_boot c)) as I. fold m in I. destruct I as [FL SN DI FI].
  destruct (DI SE) as [[D _]|(fl & D & A & B)]; rewrite D in R; [discriminate|].
  destruct (proj1 (C46_exact (rounds c) fl (rfiles m)) ps R) as [L H].
  assert (LI : (i < rounds c)%nat) by (rewrite <- L; apply nth_error_Some; congruence).
  destruct (H i p P) as [(_ & _ & X & _)|[(_ & X & _)|(k & F & [[AL _]|[_ [X _]]])]]; try congruence.
  assert (NF : stat m i <> Fresh) by (apply FI; rewrite F; discriminate). specialize (B i LI AL). destruct (stat m i); try congruence. eauto.
Qed.
Print Assumptions C46_settled_crash.

(** Between the start of a thread and the save that follows, a crash loses a round: the state file still says "not
    alive", so a round that has just saved its first result is taken for finished. *)
Definition c22 : cfg := {| rounds := 2; maxt := 2; todo := fun _ => true |}.
Theorem C46_unsettled_crash_refuted : exists es ps p,
  let m := run c22 (boot c22 (fun _ => RMissing) SMissing) es in
  recover 2 (sdisk m) (rfiles m) = Ok ps /\ nth_error ps 1 = Some p /\ rerun p = false /\ stat m 1%nat = Running.
Proof.
  exists ([ESched 0; ESched 0; EOpen 0; EWrite 0 1] ++ repeat (ESched 0) 7 ++ [EOpen 1; EWrite 1 1]), [ {| rerun := true; saver := Some 1%nat |}; {| rerun := false; saver := Some 1%nat |} ], {| rerun := false; saver := Some 1%nat |}.
  vm_compute. auto.
Qed.
Print Assumptions C46_unsettled_crash_refuted.

(** A thread that has started but not saved yet makes recovery of the whole experiment fail. *)
Theorem C46_unsaved_round_refuted : forall c es, let m := run c (boot c (fun _ => RMissing) SMissing) es in
  settled (at_ m) -> forall i, (i < rounds c)%nat -> stat m i = Running -> rfiles m i = RMissing ->
  (exists e, recover (rounds c) (sdisk m) (rfiles m) = Err e).
Proof.
  intros c es m SE i LI R F. pose proof (inv2_run c _ es (inv_boot c (fun _ => RMissing) SMissing) (inv2_boot c)) as I. fold m in I. destruct I as [FL SN DI FI].
  destruct (recover (rounds c) (sdisk m) (rfiles m)) as [ps|e] eqn:E; eauto. exfalso.
  destruct (DI SE) as [[D _]|(fl & D & A & B)]; rewrite D in E; [discriminate|].
  destruct (proj1 (proj2 (C46_exact (rounds c) fl (rfiles m))) (ex_intro _ ps E) i LI) as [_ X]. apply (B i LI (X F)). exact R.
Qed.
Print Assumptions C46_unsaved_round_refuted.
Example C46_unsaved_witness : let m := run c22 (boot c22 (fun _ => RMissing) SMissing) (repeat (ESched 0) 8) in
  settled (at_ m) /\ stat m 0%nat = Running /\ rfiles m 0%nat = RMissing /\ recover 2 (sdisk m) (rfiles m) = Err FileErr.
Proof. vm_compute. auto. Qed.

(** A round whose function raised after saving once is kept as finished. *)
Theorem C46_failed_round_refuted : exists es ps p,
  let m := run c22 (boot c22 (fun _ => RMissing) SMissing) es in
  settled (at_ m) /\ recover 2 (sdisk m) (rfiles m) = Ok ps /\ nth_error ps 0 = Some p /\ rerun p = false /\ stat m 0%nat = Ended false.
Proof.
  exists ([ESched 0; ESched 0; EWrite 0 1; EEnd 0 false] ++ repeat (ESched 0) 6), [ {| rerun := false; saver := Some 1%nat |}; {| rerun := true; saver := None |} ], {| rerun := false; saver := Some 1%nat |}.
  vm_compute. auto 10.
Qed.
Print Assumptions C46_failed_round_refuted.

(** A second crash during a recovered run loses rounds that were interrupted by the first one, even at a settled
    moment: round 1 is continued by the first recovery and kept, unfinished, by the second. *)
Theorem C46_second_crash_refuted : exists es1 es2 ps1 ps2 p1 p2,
  let m1 := run c22 (boot c22 (fun _ => RMissing) SMissing) es1 in
  let c' := recovered c22 ps1 in
  let m2 := run c' (boot c' (rfiles m1) (sdisk m1)) es2 in
  settled (at_ m1) /\ recover 2 (sdisk m1) (rfiles m1) = Ok ps1 /\ nth_error ps1 1 = Some p1 /\ rerun p1 = true /\
  settled (at_ m2) /\ recover 2 (sdisk m2) (rfiles m2) = Ok ps2 /\ nth_error ps2 1 = Some p2 /\ rerun p2 = false /\
  stat m1 1%nat = Running /\ stat m2 1%nat = Fresh.
Proof.
  exists ([ESched 0; ESched 0; EWrite 0 1] ++ repeat (ESched 0) 8 ++ [EWrite 1 1] ++ repeat (ESched 0) 5), (repeat (ESched 0) 7),
    [ {| rerun := true; saver := Some 1%nat |}; {| rerun := true; saver := Some 1%nat |} ], [ {| rerun := true; saver := Some 1%nat |}; {| rerun := false; saver := Some 1%nat |} ],
    {| rerun := true; saver := Some 1%nat |}, {| rerun := false; saver := Some 1%nat |}.
  vm_compute. auto 15.
Qed.
Print Assumptions C46_second_crash_refuted.
