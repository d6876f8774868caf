(** C98: a round of [aceThreading] that is interrupted, any number of times and anywhere, and resumed with [recover].

    - Whenever it is about to select, and when it has been found finished, its sets are those of its record: labelled are the
      initially labelled and the recorded elements, unlabelled all others; no element is recorded twice.
    - With a strategy that selects unlabelled elements the loop never raises.
    - An interruption outside a save loses at most the query not saved yet; one while the file is opened and still empty loses
      all queries of the round silently; one while the file is written makes [recover] fail.
    - Without interruptions during saves, all queries but at most one per interruption are in the record, in order.
    - Once nothing is unlabelled, the record holds every initially unlabelled element exactly once. *)
From Verif Require Import Base BaseFacts IndexModel IndexSpec IndexProofs MLModel StateModel StateSpec StateProofs StateProofs2 StateProofs3
  ResumeModel ResumeSpec ResumeProofs.
From Coq Require Import String QArith.
Local Open Scope Z_scope.

Notation life train test L0 U0 evs :=
  (r_run ic_update ic_difference_update train test L0 U0 (r_start train test L0 U0 DMissing) evs).
Notation lawful train test L0 U0 T evs := (obeys train test L0 U0 T (r_start train test L0 U0 DMissing) evs).

Theorem C98_sets : forall T train test L0 U0 evs,
  initial T L0 U0 -> lawful train test L0 U0 T evs ->
  let r := life train test L0 U0 evs in
  r_pc r = QSelect \/ r_pc r = QEnd None ->
  sio_workspace ic_update ic_difference_update (r_saver r) None = Ok (train, test, r_L r, r_U r) /\
  NoDup (recorded (r_saver r)) /\ incl (recorded (r_saver r)) (elems U0) /\
  (forall k, In k (elems (r_L r)) <-> In k (elems L0) \/ In k (recorded (r_saver r))) /\
  (forall k, In k (elems (r_U r)) <-> In k (elems U0) /\ ~ In k (recorded (r_saver r))).
Proof.
  intros T train test L0 U0 evs Init O r PC. destruct (inv_run train test L0 U0 T Init evs _ (inv_start train test L0 U0 T Init) O) as (G & _ & _ & H). fold r in G, H.
  assert (A : aligned train test L0 U0 T (r_saver r) (r_L r) (r_U r)) by (destruct PC as [PC|PC]; rewrite PC in H; apply H).
  destruct G as (_ & _ & _ & _ & _ & N & I). destruct A as (W & _ & _ & SL & SU). auto.
Qed.
Print Assumptions C98_sets.

(** Running the loop further never raises. *)
Theorem C98_no_exception : forall T train test L0 U0 evs sel perf cost,
  initial T L0 U0 -> lawful train test L0 U0 T (evs ++ [Go sel perf cost]) ->
  (forall e, r_pc (life train test L0 U0 evs) <> QEnd e) ->
  forall e, r_pc (life train test L0 U0 (evs ++ [Go sel perf cost])) <> QEnd e.
Proof.
  intros T train test L0 U0 evs sel perf cost Init O NE e.
  assert (Sp : forall a b r, obeys train test L0 U0 T r (a ++ b) ->
    obeys train test L0 U0 T r a /\ obeys train test L0 U0 T (r_run ic_update ic_difference_update train test L0 U0 r a) b).
  { clear. induction a as [|x a IH]; intros b r H; [split; [exact I|exact H]|]. destruct H as [P H]. destruct (IH b _ H) as [A B]. repeat split; auto. }
  destruct (Sp _ _ _ O) as [Oe [P _]]. pose proof (inv_run train test L0 U0 T Init evs _ (inv_start train test L0 U0 T Init) Oe) as H.
  unfold r_run in *. rewrite fold_left_app. cbn [fold_left]. set (r := fold_left _ evs _) in *. clearbody r.
  pose proof (inv_step train test L0 U0 T Init r (Go sel perf cost) H P) as H'. destruct H as (_ & _ & _ & H). cbn [r_step] in *.
  destruct (r_pc r) as [|s p c|s p c|s p c| | | |e'] eqn:PC; cbn; try discriminate; [| | |now destruct (NE e')].
  - destruct H as (A & Ok' & _). destruct (ic_diff_ok T false (r_U r) s) as (u & w & D & _); [apply A|intros v Hv; split; [now apply Ok'|discriminate]|].
    rewrite D. discriminate.
  - destruct H as ((U & w & A & Ok' & _) & _). destruct (ic_upd_ok T false (r_L r) s) as (l & w' & D & _); [apply A|intros v Hv; split; [now apply Ok'|discriminate]|].
    rewrite D. discriminate.
  - unfold sio_add, state_init. destruct c; cbn; discriminate.
Qed.
Print Assumptions C98_no_exception.

(** What an interruption at any point does. *)
Theorem C98_interruption : forall T train test L0 U0 evs alive,
  initial T L0 U0 -> lawful train test L0 U0 T evs ->
  let r := life train test L0 U0 evs in
  let r' := life train test L0 U0 (evs ++ [Crash alive]) in
  r_disk r' = r_disk r /\ r_asked r' = r_asked r /\
  match r_pc r with
  | QPart => (* the file has just been opened *)
      r_pc r' = QSelect /\ s_states (r_saver r') = [] /\ s_states (r_saver r) <> []
  | QWrite => (* the file is partly written *)
      exists e, r_pc r' = QEnd (Some e)
  | QEnd (Some _) => (* [recover] has failed before *)
      (exists e, r_pc r' = QEnd (Some e)) \/ (r_disk r = DMissing /\ alive = false /\ r_pc r' = QSelect /\ s_states (r_saver r') = [])
  | QEnd None => (* found finished before *)
      r_saver r' = r_saver r /\ r_pc r' = if alive then QSelect else QEnd None
  | QOpen => (* the last query is in the record but not in the file *)
      match r_disk r with
      | DFull s => r_saver r' = s /\ (exists e, s_states (r_saver r) = s_states s ++ [e]) /\ r_pc r' = if alive then QSelect else QEnd None
      | DMissing => (exists e, s_states (r_saver r) = [e]) /\
          if alive then r_pc r' = QEnd (Some FileErr) else r_pc r' = QSelect /\ s_states (r_saver r') = []
      | _ => (exists e, s_states (r_saver r) = [e]) /\ r_pc r' = QSelect /\ s_states (r_saver r') = []
      end
  | _ => (* all recorded queries are in the file *)
      match r_disk r with
      | DFull s => r_saver r = s /\ r_saver r' = s /\ r_pc r' = if alive then QSelect else QEnd None
      | DMissing => s_states (r_saver r) = [] /\
          if alive then r_pc r' = QEnd (Some FileErr) else r_pc r' = QSelect /\ s_states (r_saver r') = []
      | _ => s_states (r_saver r) = [] /\ r_pc r' = QSelect /\ s_states (r_saver r') = []
      end
  end.
Proof.
  intros T train test L0 U0 evs alive Init O. pose proof (inv_run train test L0 U0 T Init evs _ (inv_start train test L0 U0 T Init) O) as H.
  cbv zeta. unfold r_run in *. rewrite fold_left_app. cbn [fold_left]. set (r := fold_left _ evs _) in *. clearbody r. destruct H as (G & GD & TD & H). cbn [r_step].
  assert (K : forall d, r_disk r = d ->
    let r' := r_step ic_update ic_difference_update train test L0 U0 r (Crash alive) in
    r_disk r' = r_disk r /\ r_asked r' = r_asked r /\
    match d with
    | DFull s => r_saver r' = s /\ r_pc r' = if alive then QSelect else QEnd None
    | DMissing => if alive then r_pc r' = QEnd (Some FileErr) else r_pc r' = QSelect /\ s_states (r_saver r') = []
    | DEmpty => r_pc r' = QSelect /\ s_states (r_saver r') = []
    | DPart => r_pc r' = QEnd (Some GenericErr)
    end).
  { intros d <-. cbn [r_step]. unfold resume. pose proof (proj1 (aligned_fresh train test L0 U0 T Init)) as Fr. destruct (r_disk r) as [| | |s] eqn:D; destruct alive; cbn [negb]; rewrite ?Fr; cbn; auto.
    - destruct (good_aligned train test L0 U0 T Init s GD) as (L & U & A). rewrite (proj1 A). cbn. auto.
    - destruct (good_aligned train test L0 U0 T Init s GD) as (L & U & A). rewrite (proj1 A). cbn. auto. }
  specialize (K _ eq_refl). cbv zeta in K. cbn [r_step] in K. set (r' := match resume _ _ _ _ _ _ with Ok _ => _ | Err _ => _ end) in *. clearbody r'.
  destruct K as (K1 & K2 & K3). split; [exact K1|]. split; [exact K2|].
  destruct (r_pc r) as [|s p c|s p c|s p c| | | |[e|]] eqn:PC.
  1-4: assert (S' : synced (r_disk r) (r_saver r)) by apply H; destruct (r_disk r); cbn in S'; subst; auto; destruct S'.
  - destruct H as (_ & ND & (e & E) & _). destruct (r_disk r) as [| | |s]; cbn [disk_states app] in E; eauto; try congruence. destruct K3 as [K3 K4]. eauto.
  - destruct H as (A & D & Ne & Th). rewrite D in K3. destruct K3 as [K3 K4]. auto.
  - destruct H as (A & D & Th). rewrite D in K3. eauto.
  - destruct H as [D|D]; rewrite D in *; [|left; eauto]. destruct alive; [left; eauto|right; auto].
  - destruct H as (A & D & Th). rewrite D in K3. exact K3.
Qed.
Print Assumptions C98_interruption.

(** The record holds selections made, in order; if no save is interrupted, at most one for each interruption is missing, and
    the one being worked on. *)
Theorem C98_kept : forall T train test L0 U0 evs,
  initial T L0 U0 -> lawful train test L0 U0 T evs ->
  let r := life train test L0 U0 evs in
  (forall e, r_pc r <> QEnd e) ->
  thinned (map queried (s_states (r_saver r))) (r_asked r) /\
  (gentle train test L0 U0 (r_start train test L0 U0 DMissing) evs ->
   (List.length (r_asked r) <= List.length (s_states (r_saver r)) + r_crashes r + 1 /\
    (r_pc r = QSelect -> List.length (r_asked r) <= List.length (s_states (r_saver r)) + r_crashes r))%nat).
Proof.
  intros T train test L0 U0 evs Init O r NE. pose proof (inv_start train test L0 U0 T Init) as I0. split.
  - destruct (inv_run train test L0 U0 T Init evs _ I0 O) as (_ & _ & _ & H). fold r in H.
    destruct (r_pc r) as [|s p c|s p c|s p c| | | |e] eqn:PC; try (apply H); [| | |now destruct (NE e)].
    + destruct H as (_ & _ & _ & a & -> & Th). now apply thinned_app.
    + destruct H as (_ & _ & a & -> & Th). now apply thinned_app.
    + destruct H as (_ & _ & a & -> & Th). now apply thinned_app.
  - intro Ge. assert (C0 : counted (r_start train test L0 U0 DMissing)) by (unfold counted; cbn; lia).
    pose proof (counted_run train test L0 U0 T Init evs _ I0 O Ge C0) as Cn. fold r in Cn. unfold counted in Cn. split.
    + destruct (r_pc r) as [|s p c|s p c|s p c| | | |e] eqn:PC; try lia. now destruct (NE e).
    + intro PC. rewrite PC in Cn. exact Cn.
Qed.
Print Assumptions C98_kept.

(** Once nothing is unlabelled the record is complete and without repetition. *)
Theorem C98_complete : forall T train test L0 U0 evs,
  initial T L0 U0 -> lawful train test L0 U0 T evs ->
  let r := life train test L0 U0 evs in
  r_pc r = QSelect -> elems (r_U r) = [] -> Permutation (recorded (r_saver r)) (elems U0).
Proof.
  intros T train test L0 U0 evs Init O r PC E. destruct (C98_sets T train test L0 U0 evs Init O (or_introl PC)) as (_ & N & I & _ & SU). fold r in N, I, SU.
  apply NoDup_Permutation; [exact N|apply (homogeneous_lemma U0); apply Init|]. intro k. split; [apply I|]. intro K.
  destruct (in_dec key_dec k (recorded (r_saver r))) as [Y|Y]; [exact Y|]. exfalso. assert (X : In k (elems (r_U r))) by (apply SU; auto). rewrite E in X. exact X.
Qed.
Print Assumptions C98_complete.

(** ** Examples *)
Definition ic (l : list Z) : icol := fst (ic_init (DList (map (fun z => VKey (KInt z)) l))).
Definition ask (l : list Z) : revent pyval := Go (map (fun z => VNp (KInt z)) l) (SNum (1 # 2)) (Some 1%Q).
(** Query 3 and save; query 5, interrupted before it is saved; resumed, query 4 and save. *)
Definition story : list (revent pyval) := repeat (ask [3]) 7 ++ repeat (ask [5]) 4 ++ [Crash true] ++ repeat (ask [4]) 7.
Example C98_start : initial TInt (ic [1; 2]) (ic [3; 4; 5]).
Proof.
  split; [apply reach_list|]. split; [apply reach_list|]. split; [exists (KInt 1); vm_compute; auto|].
  split; vm_compute; [intros k [<- | [<- | []]]; reflexivity|intros k [<- | [<- | []]]; intuition congruence].
Qed.
Lemma obeys_one train test L0 U0 T r ev evs r' : permitted T r ev -> r_step ic_update ic_difference_update train test L0 U0 r ev = r' ->
  obeys train test L0 U0 T r' evs -> obeys train test L0 U0 T r (ev :: evs).
Proof. intros H <- O. split; assumption. Qed.
Example C98_story : lawful [] [] (ic [1; 2]) (ic [3; 4; 5]) TInt story /\ gentle [] [] (ic [1; 2]) (ic [3; 4; 5]) (r_start [] [] (ic [1; 2]) (ic [3; 4; 5]) DMissing) story.
Proof.
  split.
  - unfold lawful. let e := eval vm_compute in story in change story with e.
    repeat (eapply obeys_one; [cbn [permitted]|vm_compute; reflexivity|]);
      try exact Logic.I; intro H; vm_compute in H; try discriminate H; clear H;
      (split; [repeat constructor; intros []|intros v [<-|[]]; split; [vm_compute; auto|reflexivity]]).
  - vm_compute. repeat split; discriminate.
Qed.
Example C98_story_end : let r := life [] [] (ic [1; 2]) (ic [3; 4; 5]) story in
  r_pc r = QSelect /\ elems (r_L r) = [KInt 1; KInt 2; KInt 3; KInt 4] /\ elems (r_U r) = [KInt 5] /\
  recorded (r_saver r) = [KInt 3; KInt 4] /\ List.length (r_asked r) = 3%nat /\ r_crashes r = 1%nat.
Proof. vm_compute. auto 8. Qed.
(** Interrupted just after the file is opened for the second save: the first query is lost as well. *)
Example C98_lost : let r := life [] [] (ic [1; 2]) (ic [3; 4; 5]) (repeat (ask [3]) 7 ++ repeat (ask [5]) 4 ++ [Crash true]) in
  recorded (r_saver r) = [KInt 3] /\
  let r' := life [] [] (ic [1; 2]) (ic [3; 4; 5]) (repeat (ask [3]) 7 ++ repeat (ask [5]) 4 ++ [Crash true] ++ repeat (ask [4]) 5 ++ [Crash true]) in
  r_pc r' = QSelect /\ recorded (r_saver r') = [].
Proof. vm_compute. auto. Qed.
