(** Property C118. *)
From Verif Require Import Base BaseFacts StateModel ProgressModel ProgressSpec ProgressProofs ThreadModel ThreadProofs ThreadProps TableModel TableSpec.
From Coq Require Import String QArith Lia.
Local Open Scope Z_scope.

Lemma perfs_numbers l qs : numbers l qs -> mapM perf_of (map EState l) = Ok (map SNum qs).
Proof.
  induction 1 as [|s q l qs H _ IH]; auto. cbn. unfold st_get. unfold performance_is in H. rewrite H. cbn. rewrite IH. reflexivity.
Qed.
Lemma row_numbers l qs : numbers l qs -> exists row, row_of l = Ok row.
Proof.
  intro N. unfold row_of, current_perf. cbn [with_states s_states]. destruct l as [|s l]; [cbn; eauto|].
  rewrite (perfs_numbers _ _ N). cbn [map bind]. inversion N; subst. cbn [map].
  rewrite (mapM_ok _ (fun v => match v with SNum q => q | _ => 0%Q end)); [cbn; eauto|].
  intros v I. change (SNum y :: map SNum l') with (map (@SNum unit) (y :: l')) in I. apply in_map_iff in I. destruct I as (q & <- & _). reflexivity.
Qed.
Lemma row_shows l row : row_of l = Ok row -> shows l row.
Proof.
  unfold row_of. intro E. destruct (current_perf _) as [p|e] eqn:C; [|discriminate]. cbn in E. injection E as <-. split; auto. split.
  - intros ->. cbn in C. now injection C as <-.
  - intros qs NE N. unfold current_perf in C. cbn [with_states s_states] in C. destruct l as [|s l]; [congruence|]. cbn [map] in C.
    change (EState s :: map EState l) with (map EState (s :: l)) in C. rewrite (perfs_numbers _ _ N) in C. cbn [bind] in C.
    destruct qs as [|q qs]; [inversion N|]. cbn [map] in C. change (SNum q :: map SNum qs) with (map (@SNum unit) (q :: qs)) in C.
    assert (K : mapM (@number unit) (map SNum (q :: qs)) = Ok (q :: qs)).
    { clear. generalize (q :: qs). induction l as [|a l IH]; auto. cbn. rewrite IH. reflexivity. }
    rewrite K in C. cbn [bind] in C. injection C as <-. exists (mean (q :: qs)), (variance (q :: qs)).
    split; auto. split; [apply mean_ok|apply variance_ok]; discriminate.
Qed.
Lemma numbers_of l : Forall numeric l -> exists qs, numbers l qs.
Proof. induction 1 as [|s l (q & H) _ (qs & IH)]; [exists []; constructor|]. exists (q :: qs). constructor; auto. Qed.

Lemma table_rows n recs t : table_of n recs = Ok t -> List.length t = n /\ forall i, (i < n)%nat -> exists row, nth_error t i = Some row /\ row_of (recs i) = Ok row.
Proof.
  intro E. unfold table_of in E. pose proof (mapM_length _ _ _ E) as L. rewrite seq_length in L. split; auto. apply mapM_inv in E.
  assert (G : forall l m, Forall2 (fun i row => row_of (recs i) = Ok row) l m -> forall k i, nth_error l k = Some i -> exists row, nth_error m k = Some row /\ row_of (recs i) = Ok row).
  { induction 1; intros [|k] i N; cbn in *; try discriminate; [injection N as ->; eauto|eauto]. }
  intros i Hi. apply (G _ _ E i i). rewrite (nth_error_nth' _ 0%nat) by (rewrite seq_length; auto). now rewrite seq_nth.
Qed.
Lemma table_numbers n recs : (forall i, (i < n)%nat -> Forall numeric (recs i)) -> exists t, table_of n recs = Ok t.
Proof.
  intro H. unfold table_of. assert (G : forall l, (forall i, In i l -> (i < n)%nat) -> exists t, mapM (fun i => row_of (recs i)) l = Ok t).
  { induction l as [|i l IH]; intro I; [cbn; eauto|]. destruct IH as (t & E); [intros; apply I; cbn; auto|].
    destruct (numbers_of (recs i)) as (qs & N); [apply H, I; cbn; auto|]. destruct (row_numbers _ _ N) as (row & R). cbn. rewrite R. cbn. rewrite E. cbn. eauto. }
  apply G. intros i I. apply in_seq in I. lia.
Qed.

Lemma prun_app c p es es' : prun c p (es ++ es') = prun c (prun c p es) es'.
Proof. unfold prun. apply fold_left_app. Qed.

(** Every table printed has one row for each round, with the number of its queries and the mean and standard deviation of its
    performances at the moment of printing. *)
Theorem C118_table : forall c files disk recs0 es t,
  In t (shown (prun c (pboot c files disk recs0) es)) ->
  exists before after, es = before ++ EShow :: after /\ List.length t = rounds c /\
    forall i, (i < rounds c)%nat -> exists row, nth_error t i = Some row /\ shows (recs (prun c (pboot c files disk recs0) before) i) row.
Proof.
  intros c files disk recs0 es t. induction es as [|e es IH] using rev_ind; [intros []|]. rewrite prun_app. cbn [prun fold_left].
  set (p := prun c (pboot c files disk recs0) es) in *.
  assert (K : In t (shown p) -> exists before after, es ++ [e] = before ++ EShow :: after /\ List.length t = rounds c /\
    forall i, (i < rounds c)%nat -> exists row, nth_error t i = Some row /\ shows (recs (prun c (pboot c files disk recs0) before) i) row).
  { intro I. destruct (IH I) as (b & a & E & R). exists b, (a ++ [e]). rewrite E, <- app_assoc. auto. }
  destruct e as [[]|i s|]; cbn [pstep]; auto.
  - destruct (dead p); auto.
  - destruct (is_running _); auto.
  - destruct (dead p || over p || negb (can_print c (base p))); auto. destruct (table_of (rounds c) (recs p)) as [t'|x] eqn:E; auto.
    cbn [shown]. rewrite in_app_iff. intros [I|[<-|[]]]; auto. exists es, []. split; auto.
    destruct (table_rows _ _ _ E) as [L R]. split; auto. intros i Hi. destruct (R i Hi) as (row & N & Ro). exists row. split; auto. now apply row_shows.
Qed.
Print Assumptions C118_table.

Lemma alive_run c es : forall p, dead p = false -> (forall i, Forall numeric (recs p i)) ->
  Forall (fun e => match e with ERecord _ s => numeric s | _ => True end) es ->
  dead (prun c p es) = false /\ base (prun c p es) = run c (base p) (silent es) /\ forall i, Forall numeric (recs (prun c p es) i).
Proof.
  induction es as [|e es IH]; intros p D N F; [cbn; auto|]. inversion F as [|? ? Fe Fs]; subst. cbn [prun fold_left].
  change (fold_left (pstep c) es (pstep c p e)) with (prun c (pstep c p e) es).
  destruct e as [e|i s|].
  - assert (E : pstep c p (EBase e) = with_base p (step c (base p) e)) by (destruct e; cbn; rewrite ?D; auto). rewrite E.
    destruct (IH (with_base p (step c (base p) e))) as (A & B & C); auto.
  - cbn [pstep silent]. destruct (is_running _); [|apply IH; auto]. 
    match goal with |- context [prun c ?q es] => destruct (IH q) as (A & B & C) end; auto. cbn [recs]. intro j. unfold fset.
    destruct (Nat.eqb j i); auto. apply Forall_app. auto.
  - cbn [pstep silent]. rewrite D. cbn [orb]. destruct (over p || negb (can_print c (base p))); [apply IH; auto|].
    destruct (table_numbers (rounds c) (recs p)) as (t & E); auto. rewrite E. match goal with |- context [prun c ?q es] => destruct (IH q) as (A & B & C) end; auto.
Qed.

(** As long as all performances are numbers, printing changes nothing: whatever the schedule, the experiment goes on as it
    would without printing, so that C45 holds for it. *)
Theorem C118_harmless : forall c files disk recs0 es,
  (forall i, Forall numeric (recs0 i)) -> (forall i s, In (ERecord i s) es -> numeric s) ->
  let p := prun c (pboot c files disk recs0) es in
  dead p = false /\ base p = run c (boot c files disk) (silent es).
Proof.
  intros c files disk recs0 es N F p. destruct (alive_run c es (pboot c files disk recs0)) as (A & B & _); auto.
  apply Forall_forall. intros e I. destruct e; auto. eapply F; eauto.
Qed.
Print Assumptions C118_harmless.

Lemma base_reached c files disk recs0 es : exists es', base (prun c (pboot c files disk recs0) es) = run c (boot c files disk) es'.
Proof.
  induction es as [|e es (es' & IH)] using rev_ind; [exists []; reflexivity|]. rewrite prun_app. cbn [prun fold_left].
  set (p := prun c (pboot c files disk recs0) es) in *.
  assert (K : forall e', exists es', step c (base p) e' = run c (boot c files disk) es').
  { intro e'. exists (es' ++ [e']). unfold run. rewrite fold_left_app. cbn. rewrite IH. reflexivity. }
  destruct e as [[]|i s|]; cbn [pstep with_base base]; auto.
  - destruct (dead p); cbn [with_base base]; eauto.
  - destruct (is_running _); eauto.
  - destruct (dead p || over p || negb (can_print c (base p))); eauto. destruct (table_of _ _); cbn [base]; eauto.
Qed.
Lemma over_done c files disk recs0 es : let p := prun c (pboot c files disk recs0) es in over p = true ->
  at_ (base p) = PDone /\ exists t tables, shown p = tables ++ [t] /\ table_of (rounds c) (recs p) = Ok t.
Proof.
  induction es as [|e es IH] using rev_ind; [discriminate|]. rewrite prun_app. cbn [prun fold_left]. set (p := prun c (pboot c files disk recs0) es) in *.
  assert (St : at_ (base p) = PDone -> forall e', at_ (step c (base p) e') = PDone).
  { intros D e'. destruct e'; cbn [step]; try (destruct (is_running _); cbn; auto). unfold sched. now rewrite D. }
  cbn zeta in *. destruct e as [e'|i s|].
  - assert (X : pstep c p (EBase e') = p \/ pstep c p (EBase e') = with_base p (step c (base p) e')) by (destruct e'; cbn; auto; destruct (dead p); auto).
    destruct X as [-> | ->]; auto. cbn. intro O. destruct (IH O) as (D & T). auto.
  - cbn [pstep]. destruct (is_running (stat (base p) i)) eqn:R; auto. cbn. intro O. destruct (IH O) as (D & t & tb & S & T). split; auto.
    exists t, tb. split; auto. rewrite <- T. unfold table_of.
    assert (Ni : (rounds c <= i)%nat).
    { destruct (le_lt_dec (rounds c) i) as [Y|Y]; auto. exfalso. destruct (base_reached c files disk recs0 es) as (es' & Eb). fold p in Eb.
      rewrite Eb in D, R. destruct (C45_complete c files disk es' D) as [_ H]. destruct (H i Y) as [H1 H2].
      destruct (todo c i); [destruct (H1 eq_refl) as (b & Hb); rewrite Hb in R; discriminate|rewrite (H2 eq_refl) in R; discriminate]. }
    assert (G : forall l, (forall j, In j l -> (j < rounds c)%nat) -> mapM (fun j => row_of (fset (recs p) i (recs p i ++ [s]) j)) l = mapM (fun j => row_of (recs p j)) l).
    { induction l as [|j l IHl]; intro I; auto. cbn. rewrite IHl by (intros; apply I; cbn; auto). unfold fset.
      destruct (Nat.eqb_spec j i) as [->|]; auto. specialize (I i (or_introl eq_refl)). lia. }
    apply G. intros j I. apply in_seq in I. lia.
  - cbn [pstep]. destruct (dead p || over p || negb (can_print c (base p))) eqn:B; auto. destruct (table_of (rounds c) (recs p)) as [t|x] eqn:T; [|discriminate].
    cbn. intro O. unfold finished in O. destruct (at_ (base p)) eqn:A; try discriminate. split; auto. exists t, (shown p). auto.
Qed.

(** The record of a round is the one it was recovered with followed by the states recorded since, in order, whatever is
    printed in between. *)
Theorem C118_records : forall c files disk recs0 es i,
  timely c (pboot c files disk recs0) es ->
  recs (prun c (pboot c files disk recs0) es) i = recs0 i ++ told i es.
Proof.
  intros c files disk recs0 es i. change (recs0 i) with (recs (pboot c files disk recs0) i). generalize (pboot c files disk recs0).
  induction es as [|e es IH]; intros p T; [cbn; now rewrite app_nil_r|]. change (prun c p (e :: es)) with (prun c (pstep c p e) es).
  rewrite IH.
  - destruct e as [e|j s|]; cbn [told].
    + replace (recs (pstep c p (EBase e))) with (recs p); auto. cbn. destruct e; auto. now destruct (dead p).
    + pose proof (T [] es j s eq_refl) as R. cbn in R. cbn [pstep]. rewrite R. cbn. unfold fset. rewrite (Nat.eqb_sym j i).
      destruct (Nat.eqb_spec i j) as [->|]; auto. now rewrite <- app_assoc.
    + replace (recs (pstep c p EShow)) with (recs p); auto. cbn [pstep]. destruct (dead p || over p || negb (can_print c (base p))); auto.
      now destruct (table_of (rounds c) (recs p)).
  - intros b a j s E. apply (T (e :: b) a j s). cbn. now rewrite E.
Qed.
Print Assumptions C118_records.

(** When the call returns, every round that was to be run has ended, and the last table shows the whole records. *)
Theorem C118_final : forall c files disk recs0 es,
  let p := prun c (pboot c files disk recs0) es in over p = true ->
  (forall i, (i < rounds c)%nat -> todo c i = true -> exists b, stat (base p) i = Ended b) /\
  exists t tables, shown p = tables ++ [t] /\ List.length t = rounds c /\
    forall i, (i < rounds c)%nat -> exists row, nth_error t i = Some row /\ shows (recs p i) row.
Proof.
  intros c files disk recs0 es p O. destruct (over_done c files disk recs0 es O) as (D & t & tb & S & T). fold p in D, S, T.
  destruct (base_reached c files disk recs0 es) as (es' & Eb). fold p in Eb. split.
  - intros i Hi Ti. rewrite Eb in *. destruct (C45_complete c files disk es' D) as [_ H]. apply (H i Hi). exact Ti.
  - exists t, tb. split; auto. destruct (table_rows _ _ _ T) as [L R]. split; auto. intros i Hi. destruct (R i Hi) as (row & N & Ro).
    exists row. split; auto. now apply row_shows.
Qed.
Print Assumptions C118_final.

(** A record that cannot be shown: its first performance is neither a number nor a sequence, or it is a number and a later
    one is not. *)
Theorem C118_unshowable : forall l s v,
  (l = s :: tl l /\ performance_is s v /\ (exists z, v = SOther z)) \/
  (exists s0, l = s0 :: tl l /\ numeric s0 /\ In s l /\ performance_is s v /\ forall q, v <> SNum q) ->
  forall row, row_of l <> Ok row.
Proof.
  intros l s v H row E. unfold row_of in E. destruct (current_perf _) as [p|e] eqn:C; [|discriminate]. clear E row.
  unfold current_perf in C. cbn [with_states s_states] in C. destruct l as [|s1 l]; [destruct H as [(X & _)|(s0 & X & _)]; discriminate|].
  cbn [map] in C. change (EState s1 :: map EState l) with (map EState (s1 :: l)) in C.
  destruct (mapM perf_of (map EState (s1 :: l))) as [tmp|e] eqn:Em; [|discriminate]. cbn [bind] in C.
  assert (Fa : Forall2 (fun x y => perf_of (EState x) = Ok y) (s1 :: l) tmp).
  { apply mapM_inv in Em. clear - Em. remember (map EState (s1 :: l)) as m eqn:Q0. revert Q0. generalize (s1 :: l). clear s1 l.
    induction Em; intros [|a l0] Q0; cbn in Q0; try discriminate; constructor; injection Q0 as -> ->; auto. }
  inversion Fa as [|? v1 ? tmp' Hv1 Ht]; subst. cbn in Hv1. unfold st_get in Hv1.
  destruct H as [(X & P & z & ->)|(s0 & X & (q0 & P0) & I & P & NQ)].
  - cbn [tl] in X. injection X as ->. unfold performance_is in P. rewrite P in Hv1. injection Hv1 as <-. cbn in C. discriminate.
  - cbn [tl] in X. injection X as ->. unfold performance_is in P0. rewrite P0 in Hv1. injection Hv1 as <-. cbn [bind] in C.
    destruct (mapM number (SNum q0 :: tmp')) as [qs|e] eqn:Mn; [|discriminate]. apply mapM_inv in Mn.
    assert (J : In v (SNum q0 :: tmp')).
    { clear - Fa I P. revert I. induction Fa as [|a b l0 l0' H _ IH]; intros [].
      - subst. cbn in H. unfold st_get in H. unfold performance_is in P. rewrite P in H. injection H as <-. now left.
      - right. auto. }
    clear - J Mn NQ. induction Mn as [|a b l l' H _ IH]; [destruct J|]. destruct J as [->|J]; auto. destruct v; cbn in H; try discriminate. eapply NQ; eauto.
Qed.
Print Assumptions C118_unshowable.

(** With such a record the next print stops the experiment: the exception leaves [start_all_threads], and whatever happens
    later, no further round is started, the state file is not written again, and the call does not return. *)
Theorem C118_stopped_refuted : forall c files disk recs0 es es' i,
  let p := prun c (pboot c files disk recs0) es in
  dead p = false -> over p = false -> can_print c (base p) = true -> (i < rounds c)%nat -> (forall row, row_of (recs p i) <> Ok row) ->
  let p' := prun c (pboot c files disk recs0) (es ++ EShow :: es') in
  dead p' = true /\ over p' = false /\ started (base p') = started (base p) /\ sdisk (base p') = sdisk (base p) /\ shown p' = shown p.
Proof.
  intros c files disk recs0 es es' i p D O CP Hi NR p'. unfold p'. rewrite prun_app. fold p. cbn [prun fold_left].
  change (fold_left (pstep c) es' (pstep c p EShow)) with (prun c (pstep c p EShow) es').
  assert (E : pstep c p EShow = {| base := base p; recs := recs p; shown := shown p; dead := true; over := false |}).
  { cbn [pstep]. rewrite D, O, CP. cbn. destruct (table_of (rounds c) (recs p)) as [t|x] eqn:T; auto. exfalso.
    destruct (table_rows _ _ _ T) as [_ R]. destruct (R i Hi) as (row & _ & Ro). eapply NR; eauto. }
  rewrite E. set (q := {| base := base p; recs := recs p; shown := shown p; dead := true; over := false |}).
  assert (G : forall es r, dead r = true -> over r = false -> dead (prun c r es) = true /\ over (prun c r es) = false /\
     started (base (prun c r es)) = started (base r) /\ sdisk (base (prun c r es)) = sdisk (base r) /\ shown (prun c r es) = shown r).
  { clear. induction es as [|e es IH]; intros r D O; [cbn; auto|]. cbn [prun fold_left]. change (fold_left (pstep c) es (pstep c r e)) with (prun c (pstep c r e) es).
    assert (K : dead (pstep c r e) = true /\ over (pstep c r e) = false /\ started (base (pstep c r e)) = started (base r) /\
       sdisk (base (pstep c r e)) = sdisk (base r) /\ shown (pstep c r e) = shown r).
    { destruct e as [[]|j s|]; cbn [pstep]; rewrite ?D; cbn [orb with_base base dead over shown step]; auto; try (destruct (is_running _); cbn; auto). }
    destruct K as (K1 & K2 & K3 & K4 & K5). destruct (IH _ K1 K2) as (A1 & A2 & A3 & A4 & A5). repeat split; congruence. }
  destruct (G es' q) as (A & B & C' & D' & F'); auto.
Qed.
Print Assumptions C118_stopped_refuted.

(** Once every round was waited for, the call prints one more table and returns, if every recorded performance is a number. *)
Theorem C118_returns : forall c files disk recs0 es,
  let p := prun c (pboot c files disk recs0) es in
  dead p = false -> over p = false -> at_ (base p) = PDone -> (forall i, (i < rounds c)%nat -> Forall numeric (recs p i)) ->
  let p' := prun c (pboot c files disk recs0) (es ++ [EShow]) in
  over p' = true /\ dead p' = false /\ base p' = base p /\ recs p' = recs p /\
  exists t, shown p' = shown p ++ [t] /\ List.length t = rounds c /\
    forall i, (i < rounds c)%nat -> exists row, nth_error t i = Some row /\ shows (recs p i) row.
Proof.
  intros c files disk recs0 es p D O A N p'. unfold p'. rewrite prun_app. fold p. cbn [prun fold_left pstep].
  destruct (table_numbers _ _ N) as (t & T). rewrite D, O. unfold can_print. rewrite A. cbn [orb negb]. rewrite T.
  cbn [over dead base recs shown]. unfold finished. rewrite A. do 4 (split; [reflexivity|]). exists t. split; auto.
  destruct (table_rows _ _ _ T) as [L R]. split; auto. intros i Hi. destruct (R i Hi) as (row & Nt & Ro).
  exists row. split; auto. now apply row_shows.
Qed.
Print Assumptions C118_returns.

(** ** A case: two rounds, one at a time. *)

Definition state_with (v : sval unit) : state unit := {| sdict := [("select_index"%string, SIdx []); ("performance"%string, v)]; sbatch := 1 |}.
Definition two : cfg := {| rounds := 2; maxt := 1; todo := fun _ => true |}.
(** The first round runs, the main thread waits for a place for the second. *)
Definition waiting : list pevent := map EBase (repeat (ESched 0) 8).
Definition fine : list pevent :=
  waiting ++ [ERecord 0 (state_with (SNum (1 # 2))); EShow; ERecord 0 (state_with (SNum 1)); EBase (EEnd 0 true)] ++ map EBase (repeat (ESched 0) 16) ++
  [ERecord 1 (state_with (SNum 0)); EShow; EBase (EEnd 1 true)] ++ map EBase (repeat (ESched 0) 20) ++ [EShow].
Example C118_case_waits : at_ (base (prun two (pboot two (fun _ => RMissing) SMissing (fun _ => [])) waiting)) = PWait 1.
Proof. reflexivity. Qed.
Example C118_case_fine : let p := prun two (pboot two (fun _ => RMissing) SMissing (fun _ => [])) fine in
  over p = true /\ started (base p) = [0; 1]%nat /\
  map (map (fun r => (fst r, match snd r with PVal m d => Some (Qred m, Qred d) | PNan => None end))) (shown p) =
  [[(1%nat, Some (1 # 2, 0)); (0%nat, Some (0, 0))]; [(2%nat, Some (3 # 4, 1 # 16)); (1%nat, Some (0, 0))]; [(2%nat, Some (3 # 4, 1 # 16)); (1%nat, Some (0, 0))]]%Q.
Proof. vm_compute. auto. Qed.
Example C118_case_done : let p := prun two (pboot two (fun _ => RMissing) SMissing (fun _ => [])) (removelast fine) in
  dead p = false /\ over p = false /\ at_ (base p) = PDone /\ map (@List.length _) (map (recs p) [0; 1]%nat) = [2; 1]%nat.
Proof. vm_compute. auto. Qed.
Example C118_case_numeric : numeric (state_with (SNum 1)).
Proof. exists 1%Q. reflexivity. Qed.
(** A performance that is None: the second round is never started. *)
Definition none_recorded : list pevent := waiting ++ [ERecord 0 (state_with (SOther 0))].
Example C118_case_stopped : let p := prun two (pboot two (fun _ => RMissing) SMissing (fun _ => [])) none_recorded in
  dead p = false /\ over p = false /\ can_print two (base p) = true /\ (forall row, row_of (recs p 0%nat) <> Ok row) /\ started (base p) = [0%nat].
Proof. do 3 (split; [reflexivity|]). split; [|reflexivity]. intros row E. vm_compute in E. discriminate. Qed.
(** A performance that is a sequence is shown as nan, and does no harm. *)
Example C118_case_sequence : row_of [state_with (SSeq [1; 0]%Q)] = Ok (1%nat, PNan).
Proof. reflexivity. Qed.
Example C118_case_timely : timely two (pboot two (fun _ => RMissing) SMissing (fun _ => [])) none_recorded.
Proof.
  intros b a i s E. unfold none_recorded, waiting in E. cbn [repeat map app] in E.
  do 8 (destruct b as [|? b]; [discriminate|injection E as <- E]).
  destruct b as [|? b]; [injection E as <- <- <-; reflexivity|]. injection E as <- E. destruct b; discriminate.
Qed.

(** A table is printed while a round waits for a place or is running, or as the last thing before the call returns. *)
Theorem C118_when : forall c files disk recs0 es,
  let p := prun c (pboot c files disk recs0) es in
  let p' := prun c (pboot c files disk recs0) (es ++ [EShow]) in
  shown p' <> shown p ->
  over p = false /\ dead p = false /\
  (over p' = true \/ (exists i, at_ (base p) = PWait i) \/
   exists i, (i < rounds c)%nat /\ todo c i = true /\ at_ (base p) = PJoin i /\ stat (base p) i = Running).
Proof.
  intros c files disk recs0 es p p'. unfold p'. rewrite prun_app. fold p. cbn [prun fold_left pstep].
  destruct (dead p) eqn:D; [cbn; congruence|]. destruct (over p) eqn:O; [cbn; congruence|]. cbn [orb].
  destruct (can_print c (base p)) eqn:P; cbn [negb]; [|congruence].
  destruct (table_of (rounds c) (recs p)) as [t|x]; cbn [shown over]; [|congruence]. intros _. split; auto. split; auto.
  unfold can_print in P. unfold finished. destruct (at_ (base p)) eqn:A; try discriminate; auto.
  - right. left. eauto.
  - right. right. apply andb_true_iff in P. destruct P as [P R]. apply andb_true_iff in P. destruct P as [P T]. apply Nat.ltb_lt in P.
    exists i. repeat (split; auto). unfold is_running in R. destruct (stat (base p) i) eqn:Z; try discriminate; reflexivity.
Qed.
Print Assumptions C118_when.
Example C118_case_when : let p := prun two (pboot two (fun _ => RMissing) SMissing (fun _ => [])) waiting in
  shown (prun two (pboot two (fun _ => RMissing) SMissing (fun _ => [])) (waiting ++ [EShow])) <> shown p.
Proof. vm_compute. discriminate. Qed.
