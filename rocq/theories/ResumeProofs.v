(** Invariant of an interrupted round. *)
From Verif Require Import Base BaseFacts SetFacts IndexModel IndexSpec IndexProofs MLModel StateModel StateSpec StateProofs StateProofs2 StateProofs3
  ResumeModel ResumeSpec.
From Coq Require Import String QArith ZifyBool.
Local Open Scope Z_scope.

Lemma thinned_nil {A} (l : list A) : thinned [] l.
Proof. induction l; now constructor. Qed.
Lemma thinned_app {A} (x y : list A) z : thinned x y -> thinned x (y ++ z).
Proof. induction 1; cbn; [apply thinned_nil|constructor; auto|constructor; auto]. Qed.
Lemma thinned_snoc {A} (x y : list A) a : thinned x y -> thinned (x ++ [a]) (y ++ [a]).
Proof. induction 1; cbn; [repeat constructor|constructor; auto|constructor; auto]. Qed.

Section Inv.
  Variables (train test : list pyval) (L0 U0 : icol) (T : pyty).
  Hypothesis Init : initial T L0 U0.
  Notation rec := (sio icol pyval).
  Notation step := (r_step ic_update ic_difference_update train test L0 U0).
  Notation ws s := (sio_workspace ic_update ic_difference_update s None).
  Definition ok_sel (U : icol) (s : list pyval) : Prop :=
    NoDup (map norm s) /\ forall v, In v s -> In (norm v) (elems U) /\ key_ty (norm v) = T.

  Definition good (s : rec) : Prop :=
    s_L s = L0 /\ s_U s = U0 /\ s_train s = train /\ s_test s = test /\ Forall (ok_entry (ic_ok T false)) (s_states s) /\
    NoDup (recorded s) /\ incl (recorded s) (elems U0).
  Definition aligned (s : rec) (L U : icol) : Prop :=
    ws s = Ok (train, test, L, U) /\ icL T false L /\ WF U /\
    (forall k, In k (elems L) <-> In k (elems L0) \/ In k (recorded s)) /\
    (forall k, In k (elems U) <-> In k (elems U0) /\ ~ In k (recorded s)).

  Lemma L0_ok : icL T false L0.
  Proof.
    destruct Init as (R & _ & (k & K) & Ty & _). split; [now apply WF_reachable|]. left. destruct (homogeneous_lemma L0 R) as [_ H].
    rewrite (H k K). f_equal. now apply Ty.
  Qed.
  Lemma U0_ok : WF U0.
  Proof. apply WF_reachable. apply Init. Qed.

  Lemma good_aligned s : good s -> exists L U, aligned s L U.
  Proof.
    intros (EL & EU & Et & Es & F & N & I).
    destruct (workspace_ok ic_update ic_difference_update (icL T false) WF elems (ic_ok T false) ic_den (ic_upd_ok T false) (ic_diff_ok T false) s
                (Z.of_nat (List.length (s_states s)))) as (L & U & W & JL & JU & T1 & T2); auto.
    { rewrite EL. exact L0_ok. } { rewrite EU. exact U0_ok. } { lia. } { rewrite Nat2Z.id, firstn_all. exact F. }
    exists L, U. rewrite Nat2Z.id, firstn_all, EL, EU in *. unfold aligned. rewrite workspace_none, W, Et, Es. split; [reflexivity|]. split; [exact JL|]. split; [exact JU|].
    split; intro k; [rewrite T1|rewrite T2]; unfold recorded; rewrite ic_den_all; reflexivity.
  Qed.
  Lemma good_fresh : good (fresh train test L0 U0).
  Proof. unfold good, fresh, recorded. cbn. repeat split; auto; [constructor|intros ? []]. Qed.
  Lemma aligned_fresh : aligned (fresh train test L0 U0) L0 U0.
  Proof.
    unfold aligned, fresh, recorded. cbn. split; [reflexivity|]. split; [exact L0_ok|]. split; [exact U0_ok|]. split; intro k; tauto.
  Qed.

  (** A query: the sets and the record move together. *)
  Definition entry_of (s : list pyval) (p : sval pyval) (c : option Q) : entry pyval := EState (state_init (inl s) p None (option_map SNum c)).
  Lemma entry_proper s p c : proper (entry_of s p c) /\ queried (entry_of s p c) = s.
  Proof. unfold entry_of, state_init, proper, queried. destruct c; cbn; repeat split; eauto. Qed.
  Lemma query_ok s L U sel p c : good s -> aligned s L U -> ok_sel U sel ->
    exists U' w L' w' s', ic_difference_update U sel = (U', Ok w) /\ ic_update L sel = (L', Ok w') /\ sio_add s (entry_of sel p c) = (s', Ok tt) /\
      good s' /\ aligned s' L' U' /\ s_states s' = s_states s ++ [entry_of sel p c].
  Proof.
    intros G A (N & O). pose proof G as (EL & EU & Et & Es & F & Nd & Inc). pose proof A as (W & JL & JU & SL & SU).
    assert (K : ic_ok T false sel) by (intros v Hv; split; [now apply O|discriminate]).
    destruct (ic_diff_ok T false U sel JU K) as (U' & w & D & JU' & SU'). destruct (ic_upd_ok T false L sel JL K) as (L' & w' & P & JL' & SL').
    destruct (entry_proper sel p c) as [Pr Qu]. destruct (adds_proper ic_update ic_difference_update [entry_of sel p c] (Forall_cons _ Pr (Forall_nil _)) s) as (A1 & _).
    assert (Ad : exists s', sio_add s (entry_of sel p c) = (s', Ok tt) /\ s_states s' = s_states s ++ [entry_of sel p c] /\ s_L s' = s_L s /\ s_U s' = s_U s /\ s_train s' = s_train s /\ s_test s' = s_test s).
    { unfold sio_add, entry_of, state_init. destruct c; cbn; eexists; repeat split. }
    clear A1. destruct Ad as (s' & Ad & E1 & E2 & E3 & E4 & E5). exists U', w, L', w', s'. split; [exact D|]. split; [exact P|]. split; [exact Ad|].
    assert (Rec : recorded s' = recorded s ++ map norm sel).
    { unfold recorded. rewrite E1, flat_map_app. cbn [flat_map]. rewrite Qu, app_nil_r. apply map_app. }
    assert (G' : good s').
    { unfold good. rewrite E1, E2, E3, E4, E5, Rec. split; [exact EL|]. split; [exact EU|]. split; [exact Et|]. split; [exact Es|]. split.
      - apply Forall_app. split; [exact F|]. constructor; [|constructor]. split; [exact Pr|]. rewrite Qu. exact K.
      - split.
        + apply NoDup_app_intro; auto. intros x Hx Hy. apply in_map_iff in Hy. destruct Hy as (v & <- & Hv). destruct (O v Hv) as [H _]. apply SU in H. tauto.
        + intros x Hx. apply in_app_or in Hx. destruct Hx as [Hx|Hx]; [now apply Inc|]. apply in_map_iff in Hx. destruct Hx as (v & <- & Hv). destruct (O v Hv) as [H _]. apply SU in H. tauto. }
    split; [exact G'|]. split; [|exact E1]. unfold aligned. split.
    - unfold sio_workspace, sio_replay in *. rewrite E1, E2, E3, E4, E5, app_length in *.
      destruct ((0 <=? Z.of_nat (List.length (s_states s))) && (Z.of_nat (List.length (s_states s)) <=? Z.of_nat (List.length (s_states s)))) eqn:B in W; [|discriminate].
      destruct ((0 <=? Z.of_nat (List.length (s_states s) + List.length [entry_of sel p c])) && _)%bool eqn:B'; [|lia].
      rewrite !Nat2Z.id in *. rewrite firstn_all in W. rewrite <- app_length, firstn_all, foldM_app.
      destruct (foldM _ _ (s_states s)) as [[La Ua]|]; [|discriminate]. cbn in W. injection W as _ _ <- <-. cbn [foldM bind]. unfold replay_one.
      rewrite (proper_sel _ Pr), Qu. cbn [bind fst snd]. rewrite D, P. cbn. congruence.
    - split; [exact JL'|]. split; [exact JU'|]. split; intro k; rewrite Rec, in_app_iff.
      + rewrite SL', SL. unfold ic_den. tauto.
      + rewrite SU', SU. unfold ic_den. tauto.
  Qed.

  Definition disk_states (d : rdisk icol pyval) : list (entry pyval) := match d with DFull s => s_states s | _ => [] end.
  Definition sels (l : list (entry pyval)) : list (list pyval) := map queried l.
  (** The file holds the record. *)
  Definition synced (d : rdisk icol pyval) (s : rec) : Prop :=
    match d with DFull s' => s' = s | DMissing | DEmpty => s_states s = [] | DPart => False end.

  Definition inv (r : round icol pyval) : Prop :=
    good (r_saver r) /\ (match r_disk r with DFull s => good s | _ => True end) /\ thinned (sels (disk_states (r_disk r))) (r_asked r) /\
    match r_pc r with
    | QSelect => aligned (r_saver r) (r_L r) (r_U r) /\ synced (r_disk r) (r_saver r) /\ thinned (sels (s_states (r_saver r))) (r_asked r)
    | QDiff s p c => aligned (r_saver r) (r_L r) (r_U r) /\ ok_sel (r_U r) s /\ synced (r_disk r) (r_saver r) /\
        exists a, r_asked r = a ++ [s] /\ thinned (sels (s_states (r_saver r))) a
    | QUpd s p c => (exists U w, aligned (r_saver r) (r_L r) U /\ ok_sel U s /\ ic_difference_update U s = (r_U r, Ok w)) /\ synced (r_disk r) (r_saver r) /\
        exists a, r_asked r = a ++ [s] /\ thinned (sels (s_states (r_saver r))) a
    | QAdd s p c => (exists L U w w', aligned (r_saver r) L U /\ ok_sel U s /\ ic_difference_update U s = (r_U r, Ok w) /\ ic_update L s = (r_L r, Ok w')) /\
        synced (r_disk r) (r_saver r) /\ exists a, r_asked r = a ++ [s] /\ thinned (sels (s_states (r_saver r))) a
    | QOpen => aligned (r_saver r) (r_L r) (r_U r) /\ r_disk r <> DPart /\ (exists e, s_states (r_saver r) = disk_states (r_disk r) ++ [e]) /\
        thinned (sels (s_states (r_saver r))) (r_asked r)
    | QPart => aligned (r_saver r) (r_L r) (r_U r) /\ r_disk r = DEmpty /\ s_states (r_saver r) <> [] /\ thinned (sels (s_states (r_saver r))) (r_asked r)
    | QWrite => aligned (r_saver r) (r_L r) (r_U r) /\ r_disk r = DPart /\ thinned (sels (s_states (r_saver r))) (r_asked r)
    | QEnd None => aligned (r_saver r) (r_L r) (r_U r) /\ r_disk r = DFull (r_saver r) /\ thinned (sels (s_states (r_saver r))) (r_asked r)
    | QEnd (Some _) => r_disk r = DMissing \/ r_disk r = DPart
    end.

  Lemma inv_start : inv (r_start train test L0 U0 DMissing).
  Proof.
    unfold inv. cbn. split; [exact good_fresh|]. split; [exact I|]. split; [constructor|]. split; [exact aligned_fresh|]. split; [reflexivity|constructor].
  Qed.
  Lemma synced_states d s : synced d s -> s_states s = disk_states d.
  Proof. destruct d; cbn; intro H; try easy. now subst. Qed.

  Lemma inv_step r ev : inv r -> permitted T r ev -> inv (step r ev).
  Proof.
    intros H P. destruct ev as [sel perf cost|alive]; cbn [r_step].
    - destruct H as (G & GD & TD & H). destruct (r_pc r) as [|s p c|s p c|s p c| | | |e] eqn:PC; cbn [r_step].
      + destruct H as (A & S' & Th). unfold inv. cbn [r_pc r_L r_U r_saver r_disk r_asked]. split; [exact G|]. split; [exact GD|]. split; [now apply thinned_app|].
        split; [exact A|]. split; [exact (P PC)|]. split; [exact S'|]. eauto.
      + destruct H as (A & O & S' & Th). destruct (query_ok (r_saver r) (r_L r) (r_U r) s p c G A O) as (U' & w & L' & w' & s' & D & _). rewrite D. unfold inv.
        cbn [r_pc r_L r_U r_saver r_disk r_asked]. split; [exact G|]. split; [exact GD|]. split; [exact TD|]. split; [exists (r_U r), w; auto|]. auto.
      + destruct H as ((U & w0 & A & O & D0) & S' & Th). destruct (query_ok (r_saver r) (r_L r) U s p c G A O) as (U' & w & L' & w' & s' & D & Up & _). rewrite Up. unfold inv.
        cbn [r_pc r_L r_U r_saver r_disk r_asked]. split; [exact G|]. split; [exact GD|]. split; [exact TD|]. split; [exists (r_L r), U, w0, w'; auto|]. auto.
      + destruct H as ((L & U & w0 & w1 & A & O & D0 & P0) & S' & a & Ea & Th).
        destruct (query_ok (r_saver r) L U s p c G A O) as (U' & w & L' & w' & s' & D & Up & Ad & G' & A' & Es). unfold entry_of in Ad. rewrite Ad.
        rewrite D0 in D. injection D as <- _. rewrite P0 in Up. injection Up as <- _. unfold inv. cbn [r_pc r_L r_U r_saver r_disk r_asked].
        split; [exact G'|]. split; [exact GD|]. split; [exact TD|]. split; [exact A'|]. split; [intro X; rewrite X in S'; exact S'|].
        split; [rewrite Es, (synced_states _ _ S'); eauto|]. rewrite Es, Ea. unfold sels. rewrite map_app. cbn [map]. rewrite (proj2 (entry_proper s p c)). now apply thinned_snoc.
      + destruct H as (A & D & (e & E) & Th). unfold inv, on_disk. cbn. split; [exact G|]. split; [exact I|]. split; [apply thinned_nil|]. split; [exact A|]. split; [reflexivity|].
        split; [rewrite E; now destruct (disk_states (r_disk r))|exact Th].
      + destruct H as (A & D & _ & Th). unfold inv, on_disk. cbn. split; [exact G|]. split; [exact I|]. split; [apply thinned_nil|]. auto.
      + destruct H as (A & D & Th). unfold inv, on_disk. cbn. split; [exact G|]. split; [exact G|]. split; [exact Th|]. auto.
      + unfold inv. rewrite PC. auto.
    - destruct H as (G & GD & TD & H).
      assert (F : forall e, r_disk r = DMissing \/ r_disk r = DPart -> inv {| r_pc := QEnd (Some e); r_L := r_L r; r_U := r_U r; r_saver := r_saver r; r_disk := r_disk r; r_asked := r_asked r; r_crashes := S (r_crashes r) |}).
      { intros e D. unfold inv. cbn [r_pc r_L r_U r_saver r_disk r_asked]. auto. }
      assert (R0 : forall d, r_disk r = d -> d = DMissing \/ d = DEmpty -> inv {| r_pc := QSelect; r_L := L0; r_U := U0; r_saver := fresh train test L0 U0; r_disk := r_disk r; r_asked := r_asked r; r_crashes := S (r_crashes r) |}).
      { intros d D Dd. unfold inv. cbn [r_pc r_L r_U r_saver r_disk r_asked]. split; [exact good_fresh|]. split; [exact GD|]. split; [exact TD|]. split; [exact aligned_fresh|].
        split; [rewrite D; destruct Dd as [-> | ->]; reflexivity|apply thinned_nil]. }
      destruct (r_disk r) as [| | |s] eqn:D; unfold resume; destruct alive; cbn [negb].
      + apply F. auto.
      + rewrite (proj1 aligned_fresh). exact (R0 _ eq_refl (or_introl eq_refl)).
      + rewrite (proj1 aligned_fresh). exact (R0 _ eq_refl (or_intror eq_refl)).
      + rewrite (proj1 aligned_fresh). exact (R0 _ eq_refl (or_intror eq_refl)).
      + apply F. auto.
      + apply F. auto.
      + destruct (good_aligned s GD) as (L & U & A). rewrite (proj1 A). unfold inv. cbn. auto 8.
      + destruct (good_aligned s GD) as (L & U & A). rewrite (proj1 A). unfold inv. cbn. auto 8.
  Qed.
  Lemma inv_run evs : forall r, inv r -> obeys train test L0 U0 T r evs -> inv (r_run ic_update ic_difference_update train test L0 U0 r evs).
  Proof. induction evs as [|ev evs IH]; intros r H O; [exact H|]. destruct O as [P O]. apply IH; [now apply inv_step|exact O]. Qed.

  (** Counting, when no save is interrupted. *)
  Definition counted (r : round icol pyval) : Prop :=
    (List.length (r_asked r) <=
     match r_pc r with
     | QSelect | QOpen | QPart | QWrite => List.length (s_states (r_saver r)) + r_crashes r
     | QDiff _ _ _ | QUpd _ _ _ | QAdd _ _ _ => List.length (s_states (r_saver r)) + r_crashes r + 1
     | QEnd _ => List.length (disk_states (r_disk r)) + r_crashes r
     end)%nat.
  Lemma counted_step r ev : inv r -> permitted T r ev -> (match ev with Crash _ => r_pc r <> QPart /\ r_pc r <> QWrite | _ => True end) -> counted r -> counted (step r ev).
  Proof.
    intros H P Ge Cn. unfold counted in *. destruct ev as [sel perf cost|alive]; cbn [r_step].
    - destruct H as (G & GD & TD & H). destruct (r_pc r) as [|s p c|s p c|s p c| | | |e] eqn:PC; cbn [r_step].
      + cbn. rewrite app_length. cbn. lia.
      + destruct H as (A & O & S' & Th). destruct (query_ok (r_saver r) (r_L r) (r_U r) s p c G A O) as (U' & w & L' & w' & s' & D & _). rewrite D. exact Cn.
      + destruct H as ((U & w0 & A & O & D0) & S' & Th). destruct (query_ok (r_saver r) (r_L r) U s p c G A O) as (U' & w & L' & w' & s' & D & Up & _). rewrite Up. exact Cn.
      + destruct H as ((L & U & w0 & w1 & A & O & D0 & P0) & S' & a & Ea & Th).
        destruct (query_ok (r_saver r) L U s p c G A O) as (U' & w & L' & w' & s' & D & Up & Ad & G' & A' & Es). unfold entry_of in Ad. rewrite Ad. cbn. rewrite Es, app_length. cbn. lia.
      + exact Cn.
      + exact Cn.
      + exact Cn.
      + rewrite PC. exact Cn.
    - assert (B : (List.length (r_asked r) <= List.length (disk_states (r_disk r)) + S (r_crashes r))%nat).
      { destruct H as (G & GD & TD & H). destruct (r_pc r) as [|s p c|s p c|s p c| | | |e] eqn:PC; try (destruct Ge; congruence).
        - destruct H as (A & S' & Th). rewrite <- (synced_states _ _ S'). lia.
        - destruct H as (A & O & S' & Th). rewrite <- (synced_states _ _ S'). lia.
        - destruct H as (A & S' & Th). rewrite <- (synced_states _ _ S'). lia.
        - destruct H as (A & S' & Th). rewrite <- (synced_states _ _ S'). lia.
        - destruct H as (A & D & (e & E) & Th). rewrite E, app_length in Cn. cbn in Cn. lia.
        - lia. }
      destruct H as (G & GD & TD & H). destruct (r_disk r) as [| | |s] eqn:D; unfold resume; destruct alive; cbn [negb]; rewrite ?(proj1 aligned_fresh); cbn in *; rewrite ?D; cbn; auto.
      + destruct (good_aligned s GD) as (L & U & A). rewrite (proj1 A). cbn. exact B.
      + destruct (good_aligned s GD) as (L & U & A). rewrite (proj1 A). cbn. exact B.
  Qed.
  Lemma counted_run evs : forall r, inv r -> obeys train test L0 U0 T r evs -> gentle train test L0 U0 r evs -> counted r ->
    counted (r_run ic_update ic_difference_update train test L0 U0 r evs).
  Proof. induction evs as [|ev evs IH]; intros r H O Ge Cn; [exact Cn|]. destruct O as [P O]. destruct Ge as [Ge GE]. apply IH; [now apply inv_step|exact O|exact GE|now apply counted_step]. Qed.
End Inv.
