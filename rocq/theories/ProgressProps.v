(** C100: the progress display of a StateIO. *)
From Coq Require Import String QArith Qfield Lqa.
From Verif Require Import Base BaseFacts IndexModel MLModel StateModel StateSpec StateProofs ProgressModel ProgressSpec
  ProgressProofs.

(** The display never changes the record: after any history it is that of the silent object, even if
    printing raised. *)
Theorem C100_record : forall C E upd diff clen (v : vsio C E) h,
  v_sio (fst (v_run upd diff clen v h)) = sio_run upd diff (v_sio v) h.
Proof. intros C E upd diff clen v h. apply run_record. Qed.
Print Assumptions C100_record.

(** Without verbose nothing is printed and [add_state] ends as the silent one. *)
Theorem C100_silent : forall C E clen (v : vsio C E) e, v_verbose v = false ->
  snd (fst (v_add clen v e)) = [] /\ snd (v_add clen v e) = snd (sio_add (v_sio v) e).
Proof.
  intros C E clen v e H. destruct (sio_add (v_sio v) e) as [s' r] eqn:S1.
  pose proof (add_cases clen v e s' r S1) as G. cbn in G. rewrite H in G. cbn [snd].
  destruct r as [[] | x]; rewrite G; split; reflexivity.
Qed.
Print Assumptions C100_silent.

(** Over any history, at most one table is printed, before everything else. *)
Theorem C100_header : forall C E upd diff clen round train test (L U : C) verbose interval (h : list (sop E)) o os,
  List.concat (snd (v_run upd diff clen (v_new round train test L U verbose interval) h)) = o :: os ->
  is_table o = true /\ Forall (fun p => is_table p = false) os.
Proof.
  intros C E upd diff clen round train test L U verbose interval h o os H.
  pose proof (run_headed upd diff clen h (v_new round train test L U verbose interval)) as R.
  rewrite H in R. cbn in R. tauto.
Qed.
Print Assumptions C100_header.

(** Whenever something is printed, it describes the object after the call. *)
Theorem C100_shows : forall C E clen (v v' : vsio C E) e out r o,
  v_add clen v e = (v', out, r) -> In o out ->
  let rep := report_of o in let s := v_sio v' in
  out = [o] /\ r = Ok tt /\
  r_round rep = v_round v /\
  r_labelled rep = clen (s_L s) /\
  (r_percent rep * inject_Z (Z.of_nat (clen (s_L s) + clen (s_U s))) == 100 * inject_Z (Z.of_nat (clen (s_L s))))%Q /\
  r_queries rep = List.length (s_states s) /\
  r_cost rep = s_cost s /\
  due (List.length (s_states s)) (v_interval v) /\
  forall l, performances (s_states s) l ->
  exists m d, r_perf rep = PVal m d /\ is_mean l m /\ is_msd l m d.
Proof.
  intros C E clen v v' e out r o H I rep s.
  destruct (sio_add (v_sio v) e) as [s' r0] eqn:S1. pose proof (add_cases clen v e s' r0 S1) as G. cbn in G.
  assert (G' : (exists u, r0 = Ok u) /\ exists rp, make_report clen (with_sio v s' (v_first v)) = Ok rp /\
               due (List.length (s_states s')) (v_interval v) /\
               v_add clen v e = (with_sio v s' false, [if v_first v then OTable rp else OLine rp], Ok tt)).
  { destruct r0 as [u | x]; [|rewrite G in H; injection H as <- <- <-; destruct I].
    destruct (v_verbose v); [|rewrite G in H; injection H as <- <- <-; destruct I].
    destruct G as [(_ & G) | [(_ & _ & G) | (_ & D & [(x & _ & G) | (rp & R & G)])]];
      try (rewrite G in H; injection H as <- <- <-; destruct I; fail).
    split; [exists u; reflexivity|]. exists rp. split; [exact R|]. split; [exact D | exact G]. }
  destruct G' as (OkR & rp & R & D & A). rewrite A in H. injection H as <- <- <-.
  destruct I as [<- | []].
  assert (Er : rep = rp) by (unfold rep; destruct (v_first v); reflexivity). rewrite Er.
  pose proof (report_fields clen _ _ R) as F. cbn in F.
  destruct F as (F1 & F2 & F3 & F4 & F5 & F6).
  split; [reflexivity|]. split; [reflexivity|]. split; [exact F1|]. split; [exact F2|]. split; [exact F3|].
  split; [exact F4|]. split; [exact F5|]. split; [exact D|].
  intros l P. cbn in P.
  assert (N : s_states s' <> []).
  { destruct OkR as (u & ->). rewrite (add_appends _ _ _ _ S1). destruct (s_states (v_sio v)); discriminate. }
  rewrite (current_ok s' l N P) in F6. injection F6 as <-.
  assert (Nl : l <> []) by (intros ->; inversion P; congruence).
  exists (mean l), (variance l). split; [reflexivity|]. split; [apply mean_ok | apply variance_ok]; exact Nl.
Qed.
Print Assumptions C100_shows.

(** An ordinary run: queries with numeric performance and cost, no roll-back. After the i-th query a
    report is printed exactly if i is a multiple of the interval; the first one is the table; each shows
    the number and the cost of the queries so far and mean and deviation of their performances. *)
Theorem C100_run : forall C E upd diff clen round train test (L U : C) interval (es : list (entry E)) qs,
  Forall proper es -> performances es qs -> (0 < clen L + clen U)%nat -> interval <> 0%Z ->
  let outs := snd (v_run upd diff clen (v_new round train test L U true interval) (map IAdd es)) in
  List.length outs = List.length es /\
  forall i out, nth_error outs i = Some out ->
    (~ due (S i) interval -> out = []) /\
    (due (S i) interval -> exists o, out = [o] /\
       (is_table o = true <-> forall j, (j < i)%nat -> ~ due (S j) interval) /\
       r_round (report_of o) = round /\
       r_labelled (report_of o) = clen L /\
       r_queries (report_of o) = S i /\
       (r_cost (report_of o) == fold_right Qplus 0 (map spent (firstn (S i) es)))%Q /\
       exists m d, r_perf (report_of o) = PVal m d /\ is_mean (firstn (S i) qs) m /\ is_msd (firstn (S i) qs) m d).
Proof.
  intros C E upd diff clen round train test L U interval es qs F P NZ K outs.
  assert (Main : forall es qs, Forall proper es -> performances es qs ->
    let R := v_run upd diff clen (v_new round train test L U true interval) (map IAdd es) in
    (v_first (fst R) = true <-> forall j, (j < List.length es)%nat -> ~ due (S j) interval) /\
    forall i out, nth_error (snd R) i = Some out ->
    (~ due (S i) interval -> out = []) /\
    (due (S i) interval -> exists o, out = [o] /\
       (is_table o = true <-> forall j, (j < i)%nat -> ~ due (S j) interval) /\
       r_round (report_of o) = round /\ r_labelled (report_of o) = clen L /\
       r_queries (report_of o) = S i /\
       (r_cost (report_of o) == fold_right Qplus 0 (map spent (firstn (S i) es)))%Q /\
       exists m d, r_perf (report_of o) = PVal m d /\ is_mean (firstn (S i) qs) m /\ is_msd (firstn (S i) qs) m d)).
  { clear es qs F P outs. intros es. induction es as [|e es IH] using rev_ind; intros qs F P R.
    - cbn in *. split; [split; [intros _ j J; lia | reflexivity]|]. intros [|i] out H; discriminate.
    - apply Forall_app in F. destruct F as (F & Fe). inversion Fe as [|? ? Pe _]; subst.
      apply Forall2_app_inv_l in P. destruct P as (qs1 & qs2 & P1 & P2 & ->).
      inversion P2 as [|? q ? ? Pq P2']; subst. inversion P2'; subst. clear P2 P2'.
      specialize (IH qs1 F P1). subst R. rewrite map_app, run_app. cbn [map].
      set (R := v_run upd diff clen (v_new round train test L U true interval) (map IAdd es)) in *.
      cbn in IH. destruct IH as (IHf & IHo).
      pose proof (run_record upd diff clen (map IAdd es) (v_new round train test L U true interval)) as Rec.
      pose proof (run_settings upd diff clen (map IAdd es) (v_new round train test L U true interval)) as Set_.
      pose proof (run_outs_length upd diff clen (map IAdd es) (v_new round train test L U true interval)) as Len.
      fold R in Rec, Set_, Len. cbn in Set_. destruct Set_ as (Sr & Sv & Si).
      cbn [v_new v_sio] in Rec. rewrite map_length in Len.
      destruct (adds_proper upd diff es F (sio_new train test L U)) as (A1 & A2 & _ & A4 & A5 & _).
      rewrite <- Rec in A1, A2, A4, A5. cbn in A1, A2, A4, A5.
      set (v := fst R) in *.
      destruct (add_proper (v_sio v) e Pe) as (B0 & B1 & B2 & _ & B4 & B5 & _).
      destruct (sio_add (v_sio v) e) as [s' r0] eqn:S1. cbn [fst snd] in B0, B1, B2, B4, B5.
      pose proof (add_cases clen v e s' r0 S1) as G. cbn in G. rewrite B0 in G.
      rewrite Sv, Si in G.
      assert (Ls : List.length (s_states s') = S (List.length es)) by (rewrite B1, A1, app_length; cbn; lia).
      rewrite Ls in G.
      assert (Cur : current_perf s' = Ok (PVal (mean (qs1 ++ [q])) (variance (qs1 ++ [q])))).
      { apply current_ok; rewrite B1, A1.
        - destruct es; discriminate.
        - apply Forall2_app; [exact P1 | constructor; [exact Pq | constructor]]. }
      assert (Rep : exists rp, make_report clen (with_sio v s' (v_first v)) = Ok rp /\ r_perf rp = PVal (mean (qs1 ++ [q])) (variance (qs1 ++ [q]))).
      { unfold make_report. cbn [with_sio v_sio]. rewrite B4, B5, A4, A5.
        destruct (clen L + clen U)%nat as [|n]; [lia|]. rewrite Cur. cbn [bind].
        eexists. split; reflexivity. }
      destruct Rep as (rp & Rep & Rperf).
      assert (Lq : List.length qs1 = List.length es) by (clear - P1; induction P1; cbn; congruence).
      cbn [v_run]. cbn [v_step].
      assert (V : (~ due (S (List.length es)) interval /\ v_add clen v e = (with_sio v s' (v_first v), [], Ok tt)) \/
                  (due (S (List.length es)) interval /\
                   v_add clen v e = (with_sio v s' false, [if v_first v then OTable rp else OLine rp], Ok tt))).
      { destruct G as [(Z0 & _) | [(_ & D & G) | (_ & D & [(x & M & _) | (rp' & M & G)])]].
        - contradiction.
        - left. split; assumption.
        - rewrite Rep in M. discriminate.
        - right. rewrite Rep in M. injection M as <-. split; assumption. }
      clear G.
      split.
      + rewrite app_length. cbn [List.length]. rewrite Nat.add_1_r.
        destruct V as [(D & V) | (D & V)]; rewrite V; cbn [fst snd with_sio v_first].
        * rewrite IHf. split.
          -- intros H j J. destruct (Nat.eq_dec j (List.length es)) as [-> | N]; [exact D | apply H; lia].
          -- intros H j J. apply H. lia.
        * split; [discriminate|]. intros H. exfalso. exact (H (List.length es) (Nat.lt_succ_diag_r _) D).
      + intros i out H.
        assert (Hs : snd (let (v1, out0) := fst (v_add clen v e) in (v1, [out0])) = [snd (fst (v_add clen v e))])
          by (destruct (fst (v_add clen v e)); reflexivity).
        cbn [snd] in H. rewrite Hs in H. clear Hs.
        destruct (Nat.lt_ge_cases i (List.length es)) as [I | I].
        * rewrite nth_error_app1 in H by lia.
          rewrite !firstn_app. replace (S i - List.length es)%nat with 0%nat by lia.
          replace (S i - List.length qs1)%nat with 0%nat by lia. cbn [firstn]. rewrite !app_nil_r.
          exact (IHo i out H).
        * rewrite nth_error_app2 in H by lia. rewrite Len in H.
          destruct (i - List.length es)%nat as [|k] eqn:Ik; [|destruct k; discriminate].
          assert (Ei : i = List.length es) by lia. subst i. cbn [nth_error] in H. injection H as <-.
          destruct V as [(D & V) | (D & V)]; rewrite V; cbn [fst snd].
          -- split; [reflexivity | intros D'; contradiction].
          -- split; [intros D'; contradiction|]. intros _. eexists. split; [reflexivity|].
             pose proof (report_fields clen _ _ Rep) as Fd. cbn in Fd.
             destruct Fd as (F1 & F2 & _ & F4 & F5 & _).
             assert (Er : report_of (if v_first v then OTable rp else OLine rp) = rp) by (destruct (v_first v); reflexivity).
             rewrite Er. split.
             { rewrite <- IHf. destruct (v_first v); cbn; [tauto|]. split; discriminate. }
             split; [rewrite F1; exact Sr|]. split; [rewrite F2, B4, A4; reflexivity|].
             split; [rewrite F4; exact Ls|]. split.
             { rewrite F5, B2, A2. rewrite firstn_all2 by (rewrite app_length; cbn; lia).
               rewrite map_app. assert (Fr : forall l a, fold_right Qplus a l == fold_right Qplus 0 l + a).
               { induction l as [|y l IHl]; intros a; cbn; [ring|]. rewrite IHl. ring. }
               rewrite fold_right_app. cbn [map fold_right]. rewrite (Fr (map spent es) (spent e + 0)%Q). ring. }
             rewrite firstn_all2 by (rewrite app_length; cbn; lia).
             exists (mean (qs1 ++ [q])), (variance (qs1 ++ [q])). split; [exact Rperf|].
             split; [apply mean_ok | apply variance_ok]; destruct qs1; discriminate. }
  split; [unfold outs; rewrite run_outs_length, map_length; reflexivity|].
  exact (proj2 (Main es qs F P)).
Qed.
Print Assumptions C100_run.

(** When a report is due, [add_state] fails exactly if there is no initial data at all or the recorded
    performances cannot be averaged; the query is recorded nevertheless. *)
Theorem C100_fails : forall C E clen (v : vsio C E) e,
  v_verbose v = true -> snd (sio_add (v_sio v) e) = Ok tt ->
  let s := fst (sio_add (v_sio v) e) in
  v_sio (fst (fst (v_add clen v e))) = s /\ s_states s = s_states (v_sio v) ++ [e] /\
  (v_interval v = 0%Z -> snd (v_add clen v e) = Err ZeroDivErr) /\
  (v_interval v <> 0%Z -> ~ due (List.length (s_states s)) (v_interval v) -> snd (v_add clen v e) = Ok tt) /\
  (v_interval v <> 0%Z -> due (List.length (s_states s)) (v_interval v) ->
   (snd (v_add clen v e) = Ok tt <->
    (0 < clen (s_L s) + clen (s_U s))%nat /\
    exists vals : list (sval E),
      Forall2 (fun e x => exists st, e = EState st /\ sget "performance" (sdict st) = Some x) (s_states s) vals /\
      ((exists x, hd_error vals = Some x /\ ((exists l, x = SIdx l) \/ (exists l, x = SSeq l))) \/
       (forall x, In x vals -> exists q, x = SNum q)))).
Proof.
  intros C E clen v e V A s. split; [apply add_record|].
  destruct (sio_add (v_sio v) e) as [s' r] eqn:S1. cbn in A. subst r. cbn [fst] in s. subst s.
  pose proof (add_appends _ _ _ _ S1) as Ap. split; [exact Ap|].
  pose proof (add_cases clen v e s' _ S1) as G. cbn in G. rewrite V in G.
  split; [|split].
  - intros K. destruct G as [(_ & ->) | [(N & _) | (N & _)]]; [reflexivity | contradiction | contradiction].
  - intros K D. destruct G as [(N & _) | [(_ & _ & ->) | (_ & D' & _)]]; [contradiction | reflexivity | contradiction].
  - intros K D.
    assert (G' : snd (v_add clen v e) = Ok tt <-> exists rep, make_report clen (with_sio v s' (v_first v)) = Ok rep).
    { destruct G as [(N & _) | [(_ & D' & _) | (_ & _ & [(x & R & ->) | (rep & R & ->)])]]; [contradiction | contradiction | |].
      - cbn [snd]. rewrite R. split; [discriminate | intros (rep & H); discriminate].
      - cbn [snd]. split; [intros _; exists rep; exact R | reflexivity]. }
    rewrite G'. clear G G'. unfold make_report. cbn [with_sio v_sio].
    assert (Ne : s_states s' <> []) by (rewrite Ap; destruct (s_states (v_sio v)); discriminate).
    assert (Val : forall es vals, mapM perf_of es = Ok vals <->
              Forall2 (fun (e : entry E) x => exists st, e = EState st /\ sget "performance" (sdict st) = Some x) es vals).
    { induction es as [|e0 es IH]; intros vals; cbn.
      - split; [intros H; injection H as <-; constructor | intros H; inversion H; reflexivity].
      - split.
        + destruct (perf_of e0) as [x | x] eqn:P; [|discriminate]. cbn. destruct (mapM perf_of es) as [xs | x'] eqn:M; [|discriminate].
          cbn. intros H. injection H as <-. constructor; [|apply IH; reflexivity].
          destruct e0 as [st | d]; cbn in P; [|discriminate]. exists st. split; [reflexivity|].
          unfold st_get in P. destruct (sget "performance" (sdict st)); [injection P as ->; reflexivity | discriminate].
        + intros H. inversion H as [|? x ? xs (st & -> & P) F]; subst. cbn. unfold st_get. rewrite P. cbn.
          apply IH in F. rewrite F. reflexivity. }
    assert (Num : forall vals : list (sval E), (exists qs, mapM number vals = Ok qs) <-> forall x, In x vals -> exists q, x = SNum q).
    { induction vals as [|x vals (IH1 & IH2)]; cbn.
      - split; [intros _ x [] | intros _; exists []; reflexivity].
      - split.
        + intros (qs & H). destruct x; cbn in H; try discriminate.
          destruct (mapM number vals) as [ys | ?] eqn:M; [|discriminate].
          intros y [<- | I]; [eexists; reflexivity | apply IH1; [exists ys; reflexivity | exact I]].
        + intros H. destruct (H x (or_introl eq_refl)) as (q & ->). cbn.
          destruct IH2 as (qs & ->); [intros y I; apply H; right; exact I|]. exists (q :: qs). reflexivity. }
    assert (Cur : (exists p, current_perf s' = Ok p) <->
      exists vals : list (sval E),
      Forall2 (fun e x => exists st, e = EState st /\ sget "performance" (sdict st) = Some x) (s_states s') vals /\
      ((exists x, hd_error vals = Some x /\ ((exists l, x = SIdx l) \/ (exists l, x = SSeq l))) \/
       (forall x, In x vals -> exists q, x = SNum q))).
    { unfold current_perf. destruct (s_states s') as [|e0 es]; [congruence|]. split.
      - intros (p & H). destruct (mapM perf_of (e0 :: es)) as [vals | x] eqn:M; [|discriminate].
        exists vals. split; [apply Val; exact M|]. cbn [bind] in H.
        destruct vals as [|x vals]; [right; intros x []|].
        destruct x as [l | q | l | t].
        + left. eexists. split; [reflexivity|]. left. exists l. reflexivity.
        + right. apply Num. destruct (mapM number (SNum q :: vals)) as [qs | ?] eqn:M2; [|discriminate].
          exists qs. reflexivity.
        + left. eexists. split; [reflexivity|]. right. exists l. reflexivity.
        + cbn in H. discriminate.
      - intros (vals & F & H). apply Val in F. rewrite F. cbn [bind].
        destruct H as [(x & Hx & [(l & ->) | (l & ->)]) | H].
        + destruct vals as [|y vals]; [discriminate|]. injection Hx as ->. eexists. reflexivity.
        + destruct vals as [|y vals]; [discriminate|]. injection Hx as ->. eexists. reflexivity.
        + destruct vals as [|y vals].
          * eexists. reflexivity.
          * destruct (H y (or_introl eq_refl)) as (q & ->). apply Num in H. destruct H as (qs & H).
            rewrite H. eexists. reflexivity. }
    rewrite <- Cur. destruct (clen (s_L s') + clen (s_U s'))%nat as [|n].
    + split; [intros (rep & H); discriminate | intros (H & _); lia].
    + split.
      * intros (rep & H). split; [lia|]. destruct (current_perf s') as [p | x]; [exists p; reflexivity | discriminate].
      * intros (_ & p & ->). eexists. reflexivity.
Qed.
Print Assumptions C100_fails.

(** A rejected dict stays in the record: from then on every due [add_state] raises. *)
Theorem C100_poisoned : forall C E clen (v : vsio C E) d e,
  v_verbose v = true -> In (EDict d) (s_states (v_sio v)) ->
  snd (sio_add (v_sio v) e) = Ok tt -> v_interval v <> 0%Z ->
  due (S (List.length (s_states (v_sio v)))) (v_interval v) ->
  exists x, snd (v_add clen v e) = Err x.
Proof.
  intros C E clen v d e V I A K D.
  destruct (C100_fails C E clen v e V A) as (_ & Ap & _ & _ & H).
  specialize (H K). rewrite Ap, app_length in H. cbn [List.length] in H. rewrite Nat.add_1_r in H. specialize (H D).
  destruct (snd (v_add clen v e)) as [[] | x]; [|exists x; reflexivity].
  exfalso. destruct (proj1 H eq_refl) as (_ & vals & F & _).
  assert (G : forall (es : list (entry E)) vals, Forall2 (fun e x => exists st, e = EState st /\ sget "performance" (sdict st) = Some x) es vals -> ~ In (EDict d) es).
  { induction 1 as [|e0 x es xs (st & -> & _) _ IH]; [intros []|]. intros [J | J]; [discriminate | contradiction]. }
  apply (G _ _ F). apply in_or_app. left. exact I.
Qed.
Print Assumptions C100_poisoned.

Definition ex_sel (l : list Z) (p c : Q) : entry pyval :=
  EState (state_init (inl (map (fun z => VNp (KInt z)) l)) (SNum p) None (Some (SNum c))).
Definition ex_coll (l : list Z) : icol := fst (ic_init (DList (map (fun z => VKey (KInt z)) l))).
Definition ex_len (c : icol) : nat := List.length (cont c).
Definition ex_v (k : Z) : vsio icol pyval :=
  v_new 3 [] [] (ex_coll [1; 2]%Z) (ex_coll [3; 4; 5; 6; 7; 8]%Z) true k.

(** After a roll-back the shown cost still counts the discarded queries, the shown number does not. *)
Theorem C100_cost_refuted : exists h o,
  let R := v_run ic_update ic_difference_update ex_len (ex_v 1) h in
  In [o] (snd R) /\
  r_queries (report_of o) = 1%nat /\ s_states (v_sio (fst R)) = [ex_sel [5]%Z (1#2) (3#1)] /\
  (r_cost (report_of o) == 8)%Q.
Proof.
  exists [IAdd (ex_sel [3; 4]%Z (1#4) (5#1)); IRecover (Some 0%Z); IAdd (ex_sel [5]%Z (1#2) (3#1))].
  eexists. split; [vm_compute; right; right; left; reflexivity|]. split; [vm_compute; reflexivity|].
  split; [vm_compute; reflexivity | reflexivity].
Qed.
Print Assumptions C100_cost_refuted.

(** A recorder that is printed by the user (not by itself) shows, whatever it is set to print by itself, the number of
    queries so far, their cost and mean and deviation of their performances; before the first query both are zero. *)
Theorem C100_asked : forall C E upd diff clen round train test (L U : C) verbose interval (es : list (entry E)) qs,
  Forall proper es -> performances es qs -> (0 < clen L + clen U)%nat ->
  exists rep, make_report clen (fst (v_run upd diff clen (v_new round train test L U verbose interval) (map IAdd es))) = Ok rep /\
    r_round rep = round /\ r_labelled rep = clen L /\ r_queries rep = List.length es /\
    (r_cost rep == fold_right Qplus 0 (map spent es))%Q /\
    (es = [] -> r_perf rep = PVal 0 0) /\
    (es <> [] -> exists m d, r_perf rep = PVal m d /\ is_mean qs m /\ is_msd qs m d).
Proof.
  intros C E upd diff clen round train test L U verbose interval es qs F P NZ.
  pose proof (run_record upd diff clen (map IAdd es) (v_new round train test L U verbose interval)) as Rec.
  pose proof (run_settings upd diff clen (map IAdd es) (v_new round train test L U verbose interval)) as Set_.
  cbn in Set_. destruct Set_ as (Sr & Sv & Si). cbn [v_new v_sio] in Rec.
  destruct (adds_proper upd diff es F (sio_new train test L U)) as (A1 & A2 & _ & A4 & A5 & _).
  rewrite <- Rec in A1, A2, A4, A5. cbn in A1, A2, A4, A5.
  set (v := fst (v_run upd diff clen (v_new round train test L U verbose interval) (map IAdd es))) in *.
  unfold make_report. rewrite A4, A5. destruct (clen L + clen U)%nat as [|n]; [lia|].
  assert (Cur : exists p, current_perf (v_sio v) = Ok p /\ (es = [] -> p = PVal 0 0) /\ (es <> [] -> p = PVal (mean qs) (variance qs))).
  { destruct es as [|e es].
    - exists (PVal 0 0). unfold current_perf. rewrite A1. split; [reflexivity|]. split; [auto|congruence].
    - exists (PVal (mean qs) (variance qs)). split; [apply current_ok; rewrite A1; [discriminate|exact P]|]. split; [discriminate|auto]. }
  destruct Cur as (p & Cur & P0 & P1). rewrite Cur. cbn [bind]. eexists. split; [reflexivity|]. cbn. rewrite A1.
  split; [exact Sr|]. split; [reflexivity|]. split; [reflexivity|]. split; [rewrite A2; ring|]. split; [exact P0|].
  intro Ne. exists (mean qs), (variance qs). split; [auto|]. assert (qs <> []) by (intros ->; inversion P; congruence).
  split; [apply mean_ok|apply variance_ok]; assumption.
Qed.
Print Assumptions C100_asked.

Example C100_case :
  let es := [ex_sel [3; 4]%Z (1#4) 1; ex_sel [5]%Z (3#4) 2; ex_sel [6]%Z 1 2; ex_sel [7]%Z 0 2] in
  let R := v_run ic_update ic_difference_update ex_len (ex_v 2) (map IAdd es) in
  map (@List.length output) (snd R) = [0; 1; 0; 1]%nat /\
  map is_table (List.concat (snd R)) = [true; false] /\
  Forall proper es /\ performances es [1#4; 3#4; 1; 0] /\
  (0 < ex_len (ex_coll [1; 2]%Z) + ex_len (ex_coll [3; 4; 5; 6; 7; 8]%Z))%nat /\ due 4 2 /\ ~ due 3 2.
Proof.
  split; [vm_compute; reflexivity|]. split; [vm_compute; reflexivity|]. split.
  { repeat constructor; cbn; eauto. }
  split; [repeat constructor; eexists; split; reflexivity|].
  split; [vm_compute; lia|]. split; [exists 2%Z; reflexivity|]. intros (k & H). lia.
Qed.
