(** Invariants of [aceThreading]. *)
From Verif Require Import Base BaseFacts ThreadModel.
Local Open Scope Z_scope.

Lemma fset_same {A} f i (v : A) : fset f i v i = v. Proof. unfold fset. now rewrite Nat.eqb_refl. Qed.
Lemma fset_other {A} f i j (v : A) : j <> i -> fset f i v j = f j. Proof. unfold fset. intro H. apply Nat.eqb_neq in H. now rewrite H. Qed.

Lemma running_set n s i v : (i < n)%nat ->
  (running n (fset s i v) + (if is_running (s i) then 1 else 0) = running n s + (if is_running v then 1 else 0))%nat.
Proof.
  intro H. unfold running. assert (E : seq 0 n = seq 0 i ++ i :: seq (S i) (n - S i)).
  { replace n with (i + S (n - S i))%nat at 1 by lia. rewrite seq_app. cbn [seq]. reflexivity. }
  rewrite E, !count_app, !count_cons, fset_same.
  rewrite (count_ext_in (fun j => is_running (fset s i v j)) (fun j => is_running (s j)) (seq 0 i)) by (intros j J; apply in_seq in J; rewrite fset_other by lia; reflexivity).
  rewrite (count_ext_in (fun j => is_running (fset s i v j)) (fun j => is_running (s j)) (seq (S i) (n - S i))) by (intros j J; apply in_seq in J; rewrite fset_other by lia; reflexivity).
  destruct (is_running v), (is_running (s i)); lia.
Qed.
Lemma running_zero n s : running n s = O <-> forall i, (i < n)%nat -> s i <> Running.
Proof.
  unfold running. split.
  - intros H i L E. assert (C : (0 < count (fun i => is_running (s i)) (seq 0 n))%nat); [|lia].
    unfold count. apply (Nat.lt_le_trans _ (List.length [i])); [cbn; lia|]. apply NoDup_incl_length; [repeat constructor; auto|].
    intros j [<-|[]]. apply filter_In. split; [apply in_seq; lia|]. now rewrite E.
  - intro H. apply count_zero. intros i J. apply in_seq in J. specialize (H i ltac:(lia)). destruct (s i); cbn; congruence.
Qed.

(** The turn of the first loop the scheduler has reached. *)
Definition cursor (n : nat) (p : pc) : nat :=
  match p with
  | PStart i | PWait i | PRead i | PGo i => i
  | PFlag (KStart i) _ | PDump (KStart i) | PWrite (KStart i) => i
  | _ => n
  end.
(** The rounds whose end has been seen by the second loop. *)
Definition joined (n : nat) (p : pc) : nat :=
  match p with
  | PFlag (KJoin i) _ | PDump (KJoin i) | PWrite (KJoin i) | PJoin i => i
  | PDone => n
  | _ => O
  end.
Definition ended (t : tstat) : Prop := exists b, t = Ended b.

Record Inv (c : cfg) (m : mach) : Prop := {
  i_limit : (running (rounds c) (stat m) <= maxt c)%nat;
  i_avail : Z.of_nat (running (rounds c) (stat m)) + avail m <= Z.of_nat (maxt c);
  i_slot : match at_ m with PRead _ | PGo _ => (running (rounds c) (stat m) < maxt c)%nat | _ => True end;
  i_neg : match at_ m with PWait _ | PRead _ => avail m <= 0 | _ => True end;
  i_turn : (cursor (rounds c) (at_ m) <= rounds c)%nat;
  i_todo : match at_ m with PWait i | PRead i | PGo i => (i < rounds c)%nat /\ todo c i = true | PFailed => False | _ => True end;
  i_started : started m = filter (todo c) (seq 0 (cursor (rounds c) (at_ m)));
  i_fresh : forall i, stat m i <> Fresh <-> In i (started m);
  i_joined : forall i, (i < joined (rounds c) (at_ m))%nat -> (i < rounds c)%nat -> todo c i = true -> ended (stat m i)
}.

Lemma inv_boot c f d : Inv c (boot c f d).
Proof.
  assert (R : running (rounds c) (fun _ => Fresh) = O) by (apply running_zero; discriminate).
  constructor; cbn; rewrite ?R; auto; try lia; try tauto.
Qed.

Lemma filter_snoc {A} f (l : list A) x : filter f (l ++ [x]) = filter f l ++ (if f x then [x] else []).
Proof. rewrite filter_app. cbn. destruct (f x); auto. Qed.

Ltac cs := cbn [cursor joined at_ stat avail started flags rfiles sdisk goto with_disk resume boot with_file].
Lemma inv_sched c x m : Inv c m -> Inv c (sched c x m).
Proof.
  intros [LI AV SL NG TU TD ST FR JO]. unfold sched. destruct (at_ m) as [i|i|i|i|k j|k|k|i| |] eqn:P; cbn [cursor joined] in *.
  - (* PStart *) destruct (Nat.leb_spec (rounds c) i).
    + replace i with (rounds c) in * by lia. constructor; cs; auto; try lia.
    + destruct (todo c i) eqn:T; cbn [negb].
      * destruct (Z.ltb_spec 0 (avail m)); constructor; cs; auto; lia.
      * constructor; cs; auto; try lia. rewrite ST, seq_S, filter_snoc. cbn [Nat.add]. now rewrite T, app_nil_r.
  - (* PWait *) destruct (Z.ltb_spec (Z.of_nat (running (rounds c) (stat m) + x)) (Z.of_nat (maxt c))).
    + constructor; cs; auto; lia.
    + constructor; rewrite ?P; cs; auto.
  - (* PRead *) constructor; cs; auto; lia.
  - (* PGo *) destruct TD as [TI TT]. destruct (stat m i) eqn:S.
    + pose proof (running_set (rounds c) (stat m) i Running TI) as R. rewrite S in R. cbn in R.
      constructor; cs; auto; try lia.
      * rewrite ST, seq_S, filter_snoc. cbn [Nat.add]. now rewrite TT.
      * intro j. rewrite in_app_iff. destruct (Nat.eq_dec j i) as [->|N]; [rewrite fset_same; split; [cbn; auto|discriminate]|].
        rewrite fset_other by auto. rewrite FR. cbn [In]. split; [now left|]. intros [?|[?|[]]]; auto. congruence.
    + exfalso. assert (J : In i (started m)) by (apply FR; rewrite S; discriminate). rewrite ST in J. apply filter_In in J. destruct J as [J _]. apply in_seq in J. lia.
    + exfalso. assert (J : In i (started m)) by (apply FR; rewrite S; discriminate). rewrite ST in J. apply filter_In in J. destruct J as [J _]. apply in_seq in J. lia.
  - (* PFlag *) destruct (Nat.ltb_spec j (rounds c)); constructor; cs; auto; destruct k; auto.
  - constructor; cs; auto; destruct k; auto.
  - constructor; cs; auto; destruct k; cs; auto; lia.
  - (* PJoin *) destruct (Nat.leb_spec (rounds c) i).
    + constructor; cs; auto. intros q L L' T. apply JO; auto. lia.
    + destruct (todo c i) eqn:T; cbn [negb].
      * destruct (is_running (stat m i)) eqn:R; constructor; rewrite ?P; cs; auto.
        intros q L L' T'. destruct (Nat.eq_dec q i) as [->|N]; [|apply JO; auto; lia].
        assert (F : stat m i <> Fresh) by (apply FR; rewrite ST; apply filter_In; split; [apply in_seq; lia|auto]).
        destruct (stat m i); [congruence|discriminate|eexists; reflexivity].
      * constructor; cs; auto. intros q L L' T'. destruct (Nat.eq_dec q i) as [->|N]; [congruence|]. apply JO; auto. lia.
  - constructor; rewrite ?P; cs; auto.
  - contradiction.
Qed.

Lemma inv_file c m i f : Inv c m -> Inv c (with_file m i f).
Proof. intros [LI AV SL NG TU TD ST FR JO]. constructor; cbn; auto. Qed.

Lemma running_le_end n s i b : is_running (s i) = true -> (running n (fset s i (Ended b)) <= running n s)%nat.
Proof.
  intro H. unfold running. apply (Nat.le_trans _ (count (fun j => is_running (s j)) (seq 0 n))); [|lia].
  induction (seq 0 n) as [|j l IH]; [cbn; lia|]. rewrite !count_cons. unfold fset at 1. destruct (Nat.eqb_spec j i) as [->|N]; cbn; [destruct (is_running (s i)); lia|destruct (is_running (s j)); lia].
Qed.

Lemma inv_step c m e : Inv c m -> Inv c (step c m e).
Proof.
  intro H. destruct e as [x|i b|i|i|i k]; cbn [step]; [now apply inv_sched| | | |]; destruct (is_running (stat m i)) eqn:R; auto using inv_file.
  pose proof (running_le_end (rounds c) (stat m) i b R) as LE. destruct H as [LI AV SL NG TU TD ST FR JO]. constructor; cbn; auto; try lia.
  - destruct (at_ m); auto; lia.
  - intro j. destruct (Nat.eq_dec j i) as [->|N]; [rewrite fset_same|now rewrite fset_other]. split; [intros _|discriminate]. apply FR. intro E. rewrite E in R. discriminate.
  - intros j L L' T. destruct (Nat.eq_dec j i) as [->|N]; [rewrite fset_same; eexists; reflexivity|rewrite fset_other by auto; now apply JO].
Qed.
Lemma inv_run c m es : Inv c m -> Inv c (run c m es).
Proof. revert m. induction es as [|e es IH]; intros m H; cbn; auto. apply IH, inv_step, H. Qed.

(** ** Termination *)
Definition W (n : nat) : nat := (n + 10)%nat.
Definition left (n : nat) (k : cont) : nat :=
  match k with KJoin i => ((n - i) * W n + 1)%nat | KStart i => ((n - i) * W n + n * W n + 2)%nat end.
Definition mu (n : nat) (p : pc) : nat :=
  match p with
  | PStart i => left n (KStart i)
  | PWait i => (left n (KStart (S i)) + n + 8)%nat
  | PRead i => (left n (KStart (S i)) + n + 7)%nat
  | PGo i => (left n (KStart (S i)) + n + 6)%nat
  | PFlag k j => (left n k + (n - j) + 4)%nat
  | PDump k => (left n k + 2)%nat
  | PWrite k => (left n k + 1)%nat
  | PJoin i => left n (KJoin i)
  | PDone | PFailed => O
  end.
Definition blocked (c : cfg) (x : nat) (m : mach) : Prop :=
  match at_ m with
  | PWait _ => (maxt c <= running (rounds c) (stat m) + x)%nat
  | PJoin i => (i < rounds c)%nat /\ stat m i = Running
  | PDone | PFailed => True
  | _ => False
  end.
Lemma left_S n i : (i < n)%nat -> left n (KStart i) = (left n (KStart (S i)) + W n)%nat /\ left n (KJoin i) = (left n (KJoin (S i)) + W n)%nat.
Proof. intro H. cbn [left]. replace (n - i)%nat with (S (n - S i)) by lia. cbn [Nat.mul]. lia. Qed.

Lemma sched_progress c x m : Inv c m -> (mu (rounds c) (at_ (sched c x m)) < mu (rounds c) (at_ m))%nat \/ (blocked c x m /\ sched c x m = m).
Proof.
  intros [LI AV SL NG TU TD ST FR JO]. unfold sched, blocked. destruct (at_ m) as [i|i|i|i|k j|k|k|i| |] eqn:P; cbn [cursor joined] in *.
  - left. destruct (Nat.leb_spec (rounds c) i).
    + cbn [goto at_ mu left]. replace (rounds c - 0)%nat with (rounds c) by lia. nia.
    + destruct (left_S (rounds c) i H) as [E _]. unfold W in E. destruct (todo c i); cbn [negb]; [destruct (0 <? avail m)|]; cbn [goto at_ mu]; lia.
  - destruct (Z.ltb_spec (Z.of_nat (running (rounds c) (stat m) + x)) (Z.of_nat (maxt c))).
    + left. cbn [goto at_ mu]. lia.
    + right. split; [lia|reflexivity].
  - left. cbn [at_ mu]. lia.
  - left. destruct (stat m i); cbn [goto at_ mu]; try lia.
  - left. destruct (Nat.ltb_spec j (rounds c)); cbn [goto at_ mu]; lia.
  - left. cbn. lia.
  - left. destruct k; cbn [with_disk at_ resume mu]; lia.
  - destruct (Nat.leb_spec (rounds c) i).
    + left. cbn [goto at_ mu left]. lia.
    + destruct (left_S (rounds c) i H) as [_ E]. unfold W in E. destruct (todo c i); cbn [negb].
      * destruct (is_running (stat m i)) eqn:R.
        -- right. split; auto. split; auto. destruct (stat m i); auto; discriminate.
        -- left. cbn [goto at_ mu]. lia.
      * left. cbn [goto at_ mu]. lia.
  - right. auto.
  - right. auto.
Qed.

Lemma step_mu c m e : Inv c m -> (mu (rounds c) (at_ (step c m e)) <= mu (rounds c) (at_ m))%nat.
Proof.
  intro H. destruct e as [x|i b|i|i|i k]; cbn [step].
  - destruct (sched_progress c x m H) as [L|[_ E]]; [lia|rewrite E; lia].
  - destruct (is_running _); cbn; lia.
  - destruct (is_running _); cbn; lia.
  - destruct (is_running _); cbn; lia.
  - destruct (is_running _); cbn; lia.
Qed.
Lemma run_mu c es m : Inv c m -> (mu (rounds c) (at_ (run c m es)) <= mu (rounds c) (at_ m))%nat.
Proof.
  revert m. induction es as [|e es IH]; intros m H; cbn; [lia|]. pose proof (step_mu c m e H). pose proof (IH _ (inv_step c m e H)). unfold run in *. lia.
Qed.

(** If the scheduler makes no progress, no thread starts. *)
Lemma step_stay c m e : Inv c m -> mu (rounds c) (at_ (step c m e)) = mu (rounds c) (at_ m) ->
  at_ (step c m e) = at_ m /\ forall i, stat (step c m e) i = Running -> stat m i = Running.
Proof.
  intros H E. destruct e as [x|i b|i|i|i k]; cbn [step] in *.
  - destruct (sched_progress c x m H) as [L|[_ X]]; [lia|rewrite X; auto].
  - destruct (is_running (stat m i)); cbn; auto. split; auto. intros j J. unfold fset in J. destruct (Nat.eqb j i); auto. discriminate.
  - destruct (is_running _); cbn; auto.
  - destruct (is_running _); cbn; auto.
  - destruct (is_running _); cbn; auto.
Qed.
Lemma run_stay c es m : Inv c m -> mu (rounds c) (at_ (run c m es)) = mu (rounds c) (at_ m) ->
  at_ (run c m es) = at_ m /\ (forall i, stat (run c m es) i = Running -> stat m i = Running) /\
  forall i b, In (EEnd i b) es -> stat (run c m es) i <> Running.
Proof.
  revert m. induction es as [|e es IH]; intros m H E; [cbn; intuition|]. change (run c m (e :: es)) with (run c (step c m e) es) in *.
  pose proof (step_mu c m e H) as A. pose proof (run_mu c es _ (inv_step c m e H)) as B.
  destruct (step_stay c m e H) as [P F]; [lia|]. destruct (IH _ (inv_step c m e H)) as (P' & F' & D); [lia|]. split; [congruence|]. split; [auto|].
  intros i b [->|J]; [|eauto]. intro R. apply F' in R. cbn [step] in R. destruct (is_running (stat m i)) eqn:Q.
  - cbn in R. rewrite fset_same in R. discriminate.
  - rewrite R in Q. discriminate.
Qed.

(** In a fair segment every round thread gets to its end, and afterwards the scheduler moves while no other thread
    occupies a slot. *)
Definition fair (n : nat) (seg : list event) : Prop :=
  exists pre post, seg = pre ++ ESched 0 :: post /\ forall i, (i < n)%nat -> exists b, In (EEnd i b) pre.

Lemma fair_progress c seg m : (0 < maxt c)%nat -> Inv c m -> fair (rounds c) seg -> at_ m <> PDone ->
  (mu (rounds c) (at_ (run c m seg)) < mu (rounds c) (at_ m))%nat.
Proof.
  intros MX H (pre & post & -> & F) ND. unfold run. rewrite fold_left_app. cbn [fold_left]. fold (run c m pre). fold (run c (step c (run c m pre) (ESched 0)) post).
  set (m1 := run c m pre). assert (H1 : Inv c m1) by now apply inv_run. pose proof (run_mu c pre m H) as A. fold m1 in A.
  pose proof (run_mu c post _ (inv_step c m1 (ESched 0) H1)) as B. pose proof (step_mu c m1 (ESched 0) H1) as C.
  destruct (Nat.eq_dec (mu (rounds c) (at_ m1)) (mu (rounds c) (at_ m))) as [E|E]; [|lia].
  destruct (run_stay c pre m H E) as (P & _ & D). fold m1 in P, D.
  assert (NR : forall i, (i < rounds c)%nat -> stat m1 i <> Running) by (intros i L; destruct (F i L) as [b J]; eauto).
  destruct (sched_progress c 0 m1 H1) as [L|[BL _]]; [change (step c m1 (ESched 0)) with (sched c 0 m1) in *; lia|]. exfalso. unfold blocked in BL. rewrite P in BL.
  destruct (at_ m) eqn:PM; auto.
  - apply running_zero in NR. lia.
  - destruct BL as [L R]. now apply (NR i).
  - pose proof (i_todo _ _ H) as T. rewrite PM in T. exact T.
Qed.

Lemma done_stays c m es : at_ m = PDone -> Inv c m -> at_ (run c m es) = PDone.
Proof.
  revert m. induction es as [|e es IH]; intros m E H; [exact E|]. cbn. apply IH; [|now apply inv_step].
  destruct e; cbn; [unfold sched; now rewrite E|..]; destruct (is_running _); auto.
Qed.
Lemma mu_done n p : p <> PFailed -> mu n p = O -> p = PDone.
Proof. assert (L : forall k, (0 < left n k)%nat) by (intros [i|i]; unfold left; [generalize ((n - i) * W n)%nat, (n * W n)%nat|generalize ((n - i) * W n)%nat]; intros; lia). destruct p as [i|i|i|i|k j|k|k|i| |]; cbn [mu]; intros NF E; try congruence; [pose proof (L (KStart i))|pose proof (L (KStart (S i)))|pose proof (L (KStart (S i)))|pose proof (L (KStart (S i)))|pose proof (L k)|pose proof (L k)|pose proof (L k)|pose proof (L (KJoin i))]; lia. Qed.

Lemma fair_terminates c m segs : (0 < maxt c)%nat -> Inv c m -> Forall (fair (rounds c)) segs -> (mu (rounds c) (at_ m) <= List.length segs)%nat ->
  at_ (run c m (concat segs)) = PDone.
Proof.
  intros MX H F. revert m H. induction F as [|s segs FS F IH]; intros m H L.
  - cbn. apply (mu_done (rounds c)); [|cbn in L; lia]. pose proof (i_todo _ _ H) as T. intro E. now rewrite E in T.
  - cbn [concat]. unfold run. rewrite fold_left_app. fold (run c m s). fold (run c (run c m s) (concat segs)).
    destruct (at_ m) eqn:P; try (apply IH; [now apply inv_run|]; pose proof (fair_progress c s m MX H FS ltac:(rewrite P; discriminate)) as D; rewrite P in D; cbn [List.length] in L; lia).
    apply done_stays; [now apply done_stays|now apply inv_run].
Qed.

(** ** Starvation *)
Lemma starved c m es : (forall x, In (ESched x) es -> (maxt c <= x)%nat) -> Inv c m ->
  Z.of_nat (List.length (started m)) + avail m <= Z.of_nat (maxt c) ->
  (match at_ m with PRead _ => False | PGo _ => 0 < avail m | _ => 0 <= avail m end) ->
  let m' := run c m es in
  Z.of_nat (List.length (started m')) + avail m' <= Z.of_nat (maxt c) /\ match at_ m' with PRead _ => False | PGo _ => 0 < avail m' | _ => 0 <= avail m' end.
Proof.
  revert m. induction es as [|e es IH]; intros m HX H A B; [cbn; auto|]. cbn [run fold_left]. fold (run c (step c m e) es).
  apply IH; [intros; apply HX; now right|now apply inv_step| |].
  - destruct e as [x|i b|i|i|i k]; cbn [step]; try (destruct (is_running _); cbn; auto; fail).
    unfold sched. destruct (at_ m) eqn:P; try contradiction.
    + destruct (Nat.leb _ _); cbn; auto. destruct (negb _); cbn; auto. destruct (0 <? _); cbn; auto.
    + destruct (_ <? _); cbn; auto.
    + destruct (stat m i); cbn; auto. rewrite app_length. cbn. lia.
    + destruct (Nat.ltb _ _); cbn; auto.
    + cbn; auto.
    + cbn; auto.
    + destruct (Nat.leb _ _); cbn; auto. destruct (negb _); cbn; auto. destruct (is_running _); cbn; auto.
    + auto.
    + auto.
  - destruct e as [x|i b|i|i|i k]; cbn [step]; try (destruct (is_running _); cbn; auto; fail).
    unfold sched. destruct (at_ m) eqn:P; try contradiction.
    + destruct (Nat.leb _ _); cbn; auto. destruct (negb _); cbn; auto. destruct (Z.ltb_spec 0 (avail m)); cbn; auto.
    + specialize (HX x (or_introl eq_refl)). destruct (Z.ltb_spec (Z.of_nat (running (rounds c) (stat m) + x)) (Z.of_nat (maxt c))); [lia|]. now rewrite P.
    + destruct (stat m i); cbn; lia.
    + destruct (Nat.ltb _ _); cbn; auto.
    + cbn; auto.
    + destruct k; cbn; auto.
    + destruct (Nat.leb _ _); cbn; auto. destruct (negb _); cbn; auto. destruct (is_running _); cbn; rewrite ?P; auto.
    + now rewrite P.
    + now rewrite P.
Qed.

(** ** The state file *)
(** The scheduler is not between starting a thread and having saved the state. *)
Definition settled (p : pc) : Prop :=
  match p with PFlag _ _ | PDump _ | PWrite _ => False | _ => True end.
Record Inv2 (c : cfg) (m : mach) : Prop := {
  j_flag : forall i, flags m i = true -> stat m i <> Fresh;
  j_seen : forall i, (i < rounds c)%nat -> flags m i = false ->
    match at_ m with PFlag _ j => (i < j)%nat -> stat m i <> Running | PDump _ | PWrite _ => stat m i <> Running | _ => True end;
  j_disk : settled (at_ m) -> (sdisk m = SMissing /\ started m = []) \/
    exists fl, sdisk m = SFull fl /\ (forall i, fl i = true -> stat m i <> Fresh) /\ (forall i, (i < rounds c)%nat -> fl i = false -> stat m i <> Running);
  j_file : forall i, rfiles m i <> RMissing -> stat m i <> Fresh
}.
Lemma inv2_boot c : Inv2 c (boot c (fun _ => RMissing) SMissing).
Proof. constructor; cbn; auto; try discriminate; congruence. Qed.

Lemma inv2_step c m e : Inv c m -> Inv2 c m -> Inv2 c (step c m e).
Proof.
  intros I [FL SE DI FI]. destruct e as [x|i b|i|i|i k]; cbn [step].
  - unfold sched. destruct (at_ m) as [i|i|i|i|k j|k|k|i| |] eqn:P.
    + destruct (Nat.leb _ _); [|destruct (negb _); [|destruct (0 <? _)]]; constructor; cbn; auto.
    + destruct (_ <? _); constructor; rewrite ?P; cbn; auto.
    + constructor; cbn; auto.
    + destruct (stat m i) eqn:SI.
      * constructor; cbn; auto; try lia; try tauto.
        -- intros j F. unfold fset in *. destruct (Nat.eqb j i); auto. discriminate.
        -- intros j F. unfold fset in *. destruct (Nat.eqb j i); auto. discriminate.
      * constructor; cbn; auto.
      * constructor; cbn; auto.
    + destruct (Nat.ltb_spec j (rounds c)).
      * constructor; cbn; auto; try tauto.
        -- intros q F. unfold fset in F. destruct (Nat.eqb_spec q j) as [E|N]; auto. subst q. destruct (stat m j); cbn in F; discriminate.
        -- intros q L F LQ. unfold fset in F. destruct (Nat.eqb_spec q j) as [E|N]; [subst q; destruct (stat m j); cbn in F; discriminate|]. apply SE; auto. lia.
      * constructor; cbn; auto; try tauto. intros q L F. apply SE; auto. lia.
    + constructor; cbn; auto; try tauto.
    + constructor; cbn; auto.
      * intros q L F. destruct k; cbn; auto.
      * intros _. right. exists (flags m). split; auto.
    + destruct (Nat.leb _ _); [|destruct (negb _); [|destruct (is_running _)]]; constructor; rewrite ?P; cbn; auto; try lia; try tauto.
    + constructor; rewrite ?P; cbn; auto.
    + constructor; rewrite ?P; cbn; auto.
  - destruct (is_running (stat m i)) eqn:R; [|constructor; auto]. constructor; cbn.
    + intros j F. unfold fset. destruct (Nat.eqb j i); [discriminate|auto].
    + intros j L F. specialize (SE j L F). unfold fset. destruct (Nat.eqb j i); destruct (at_ m); auto; discriminate.
    + intro S. destruct (DI S) as [D|(fl & D & A & B)]; [auto|right]. exists fl. split; auto. split; intros j; unfold fset; destruct (Nat.eqb j i); auto; discriminate.
    + intros j F. unfold fset. destruct (Nat.eqb j i); [discriminate|auto].
  - destruct (is_running (stat m i)) eqn:R; [|constructor; auto]. constructor; cbn; auto. intros j F. unfold fset in F. destruct (Nat.eqb_spec j i) as [X|N]; auto. rewrite X. intro E. rewrite E in R. discriminate.
  - destruct (is_running (stat m i)) eqn:R; [|constructor; auto]. constructor; cbn; auto. intros j F. unfold fset in F. destruct (Nat.eqb_spec j i) as [X|N]; auto. rewrite X. intro E. rewrite E in R. discriminate.
  - destruct (is_running (stat m i)) eqn:R; [|constructor; auto]. constructor; cbn; auto. intros j F. unfold fset in F. destruct (Nat.eqb_spec j i) as [X|N]; auto. rewrite X. intro E. rewrite E in R. discriminate.
Qed.
Lemma inv2_run c m es : Inv c m -> Inv2 c m -> Inv2 c (run c m es).
Proof. revert m. induction es as [|e es IH]; intros m I H; cbn; auto. apply IH; [now apply inv_step|now apply inv2_step]. Qed.

(** ** The state file at the end *)
Definition seen (c : cfg) (m : mach) : Prop :=
  match at_ m with
  | PFlag (KJoin i) j => forall q, (q < i)%nat -> (q < rounds c)%nat -> todo c q = true -> (q < j)%nat -> flags m q = false
  | PDump (KJoin i) | PWrite (KJoin i) => forall q, (q < i)%nat -> (q < rounds c)%nat -> todo c q = true -> flags m q = false
  | PJoin i => forall q, (q < i)%nat -> (q < rounds c)%nat -> todo c q = true -> exists fl, sdisk m = SFull fl /\ fl q = false
  | PDone => forall q, (q < rounds c)%nat -> todo c q = true -> exists fl, sdisk m = SFull fl /\ fl q = false
  | _ => True
  end.
Lemma seen_step c m e : Inv c m -> seen c m -> seen c (step c m e).
Proof.
  intros I S. destruct e as [x|i b|i|i|i k]; cbn [step];
    try (destruct (is_running _); unfold seen in *; cbn [at_ flags sdisk with_file] in *; exact S).
  unfold sched, seen in *. pose proof (i_joined _ _ I) as J. destruct (at_ m) as [i|i|i|i|[i|i] j|[i|i]|[i|i]|i| |] eqn:P.
  - destruct (Nat.leb _ _); [cbn; lia|destruct (negb _); [|destruct (0 <? _)]]; cbn; auto.
  - destruct (_ <? _); cbn; rewrite ?P; auto.
  - cbn; auto.
  - destruct (stat m i); cbn; auto.
  - destruct (Nat.ltb _ _); cbn; auto.
  - destruct (Nat.ltb_spec j (rounds c)); cbn.
    + intros q L1 L2 T L3. unfold fset. destruct (Nat.eqb_spec q j) as [E|N]; [|apply S; auto; lia].
      subst q. cbn [joined] in J. destruct (J j L1 L2 T) as [b Eb]. rewrite Eb. reflexivity.
    + intros q L1 L2 T. apply S; auto. lia.
  - cbn; auto.
  - cbn. auto.
  - cbn. auto.
  - cbn. intros q L1 L2 T. exists (flags m). auto.
  - destruct (Nat.leb_spec (rounds c) i); cbn.
    + intros q L T. apply S; auto. lia.
    + destruct (todo c i) eqn:Ti; cbn [negb].
      * destruct (is_running _); cbn; rewrite ?P; auto. lia.
      * cbn. intros q L1 L2 T. apply S; auto. destruct (Nat.eq_dec q i) as [E|N]; [subst; congruence|lia].
  - rewrite P. exact S.
  - rewrite P. exact I0 || exact S.
Qed.
Lemma seen_run c m es : Inv c m -> seen c m -> seen c (run c m es).
Proof. revert m. induction es as [|e es IH]; intros m I S; cbn; auto. apply IH; [now apply inv_step|now apply seen_step]. Qed.
