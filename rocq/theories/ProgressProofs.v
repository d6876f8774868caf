(** Proofs about the progress display. *)
From Coq Require Import String QArith Qfield Lqa Psatz.
From Verif Require Import Base BaseFacts IndexModel MLModel StateModel StateSpec StateProofs ProgressModel ProgressSpec.

(** *** Mean and deviation *)
Lemma fold_total : forall (f : Q -> Q) l a, fold_left Qplus (map f l) a == a + total f l.
Proof.
  intros f. induction l as [|x l IH]; intros a; cbn; [ring|]. rewrite IH. ring.
Qed.

Lemma qsum_total : forall f l, StateModel.qsum (map f l) == total f l.
Proof. intros f l. unfold StateModel.qsum. rewrite fold_total. ring. Qed.

Lemma qlen_nz : forall {A} (l : list A), l <> [] -> ~ ProgressModel.qlen l == 0.
Proof.
  intros A l H. destruct l as [|x l]; [congruence|]. unfold ProgressModel.qlen. cbn [List.length].
  change 0 with (inject_Z 0). rewrite inject_Z_injective. lia.
Qed.

Lemma mean_ok : forall l, l <> [] -> is_mean l (mean l).
Proof.
  intros l H. unfold is_mean, mean. fold (ProgressModel.qlen l).
  pose proof (qsum_total (fun x => x) l) as T. rewrite map_id in T. rewrite T. field. apply qlen_nz, H.
Qed.

Lemma variance_ok : forall l, l <> [] -> is_msd l (mean l) (variance l).
Proof.
  intros l H. unfold is_msd, variance. unfold mean at 1. rewrite qsum_total.
  assert (L : ProgressModel.qlen (map (fun x => (x - mean l) * (x - mean l)) l) == ProgressModel.qlen l).
  { unfold ProgressModel.qlen. rewrite map_length. reflexivity. }
  rewrite L. fold (ProgressModel.qlen l). field. apply qlen_nz, H.
Qed.

Section P.
  Context {C E : Type}.
  Variables (upd diff : C -> list E -> C * res (list warning)) (clen : C -> nat).
  Notation vs := (vsio C E).

  Lemma perfs_ok : forall (es : list (entry E)) l, performances es l ->
    mapM perf_of es = Ok (map SNum l) /\ mapM number (map (@SNum E) l) = Ok l.
  Proof.
    intros es l H. induction H as [|e q es l (s & -> & G) F (IH1 & IH2)]; [split; reflexivity|].
    split.
    - cbn. unfold st_get. rewrite G. cbn. rewrite IH1. reflexivity.
    - cbn. cbn in IH2. rewrite IH2. reflexivity.
  Qed.

  Lemma current_ok : forall (s : sio C E) l, s_states s <> [] -> performances (s_states s) l ->
    current_perf s = Ok (PVal (mean l) (variance l)).
  Proof.
    intros s l N H. destruct (perfs_ok _ _ H) as (A & B).
    assert (L : l <> []) by (intros ->; inversion H; congruence).
    unfold current_perf. destruct (s_states s) as [|e es]; [congruence|].
    rewrite A. cbn [bind]. destruct l as [|q l]; [congruence|]. cbn [map]. cbn [map] in B.
    rewrite B. reflexivity.
  Qed.

  (** A call changes the record as if nothing were displayed. *)
  Lemma add_record : forall (v : vs) e, v_sio (fst (fst (v_add clen v e))) = fst (sio_add (v_sio v) e).
  Proof.
    intros v e. unfold v_add. destruct (sio_add (v_sio v) e) as [s' [u | x]]; [|reflexivity].
    destruct (v_verbose v); [|reflexivity]. destruct (Z.eqb (v_interval v) 0); [reflexivity|].
    destruct (Z.eqb _ 0); [|reflexivity].
    destruct (make_report clen (with_sio v s' (v_first v))); [destruct (v_first v)|]; reflexivity.
  Qed.

  Lemma step_record : forall (v : vs) o, v_sio (fst (v_step upd diff clen v o)) = sio_step upd diff (v_sio v) o.
  Proof. intros v [e | it | | | i]; try reflexivity. apply add_record. Qed.

  Lemma run_record : forall h (v : vs),
    v_sio (fst (v_run upd diff clen v h)) = sio_run upd diff (v_sio v) h.
  Proof.
    induction h as [|o h IH]; intros v; [reflexivity|].
    cbn [v_run]. destruct (v_step upd diff clen v o) as [v1 out] eqn:S1.
    destruct (v_run upd diff clen v1 h) as [v2 outs] eqn:R. cbn [fst].
    pose proof (IH v1) as H. rewrite R in H. cbn [fst] in H. rewrite H.
    pose proof (step_record v o) as H1. rewrite S1 in H1. cbn [fst] in H1. rewrite H1. reflexivity.
  Qed.

  (** Settings do not change. *)
  Lemma step_settings : forall (v : vs) o, let v' := fst (v_step upd diff clen v o) in
    v_round v' = v_round v /\ v_verbose v' = v_verbose v /\ v_interval v' = v_interval v.
  Proof.
    intros v [e | it | | | i]; try (split; [|split]; reflexivity). cbn. unfold v_add.
    destruct (sio_add (v_sio v) e) as [s' [u | x]]; [|split; [|split]; reflexivity].
    destruct (v_verbose v) eqn:V; [|cbn; rewrite V; split; [|split]; reflexivity].
    destruct (Z.eqb (v_interval v) 0); [cbn; rewrite V; split; [|split]; reflexivity|].
    destruct (Z.eqb _ 0); [|cbn; rewrite V; split; [|split]; reflexivity].
    destruct (make_report clen (with_sio v s' (v_first v))); [destruct (v_first v)|];
      cbn; rewrite V; split; [|split| |split| |split]; reflexivity.
  Qed.

  Lemma run_app : forall h1 h2 (v : vs),
    v_run upd diff clen v (h1 ++ h2)
    = (fst (v_run upd diff clen (fst (v_run upd diff clen v h1)) h2),
       snd (v_run upd diff clen v h1) ++ snd (v_run upd diff clen (fst (v_run upd diff clen v h1)) h2)).
  Proof.
    induction h1 as [|o h1 IH]; intros h2 v.
    - cbn. destruct (v_run upd diff clen v h2); reflexivity.
    - cbn. destruct (v_step upd diff clen v o) as [v1 out]. rewrite IH.
      destruct (v_run upd diff clen v1 h1) as [v2 outs]. cbn. reflexivity.
  Qed.

  Lemma run_settings : forall h (v : vs), let v' := fst (v_run upd diff clen v h) in
    v_round v' = v_round v /\ v_verbose v' = v_verbose v /\ v_interval v' = v_interval v.
  Proof.
    induction h as [|o h IH]; intros v; [split; [|split]; reflexivity|].
    cbn. destruct (v_step upd diff clen v o) as [v1 out] eqn:S1.
    pose proof (step_settings v o) as H. rewrite S1 in H. cbn in H. specialize (IH v1). cbn in IH.
    destruct (v_run upd diff clen v1 h) as [v2 outs]. cbn in *.
    destruct H as (<- & <- & <-). exact IH.
  Qed.

  Lemma run_outs_length : forall h (v : vs), List.length (snd (v_run upd diff clen v h)) = List.length h.
  Proof.
    induction h as [|o h IH]; intros v; [reflexivity|]. cbn.
    destruct (v_step upd diff clen v o) as [v1 out]. specialize (IH v1).
    destruct (v_run upd diff clen v1 h) as [v2 outs]. cbn in *. lia.
  Qed.

  Lemma due_iff : forall n k, (k <> 0)%Z -> (Z.eqb (Z.of_nat n mod k) 0 = true <-> due n k).
  Proof.
    intros n k K. rewrite Z.eqb_eq. unfold due. rewrite <- (Z.mod_divide (Z.of_nat n) k K).
    unfold Z.divide. tauto.
  Qed.

  (** Every shape a call of [add_state] can take. *)
  Lemma add_cases : forall (v : vs) e s' r, sio_add (v_sio v) e = (s', r) ->
    let v1 := with_sio v s' (v_first v) in
    match r with
    | Err x => v_add clen v e = (v1, [], Err x)
    | Ok _ =>
        if v_verbose v then
          (v_interval v = 0%Z /\ v_add clen v e = (v1, [], Err ZeroDivErr)) \/
          (v_interval v <> 0%Z /\ ~ due (List.length (s_states s')) (v_interval v) /\ v_add clen v e = (v1, [], Ok tt)) \/
          (v_interval v <> 0%Z /\ due (List.length (s_states s')) (v_interval v) /\
             ((exists x, make_report clen v1 = Err x /\ v_add clen v e = (v1, [], Err x)) \/
              (exists rep, make_report clen v1 = Ok rep /\
                 v_add clen v e = (with_sio v s' false, [if v_first v then OTable rep else OLine rep], Ok tt))))
        else v_add clen v e = (v1, [], Ok tt)
    end.
  Proof.
    intros v e s' r H v1. unfold v_add. rewrite H. destruct r as [u | x]; [|reflexivity].
    destruct (v_verbose v); [|reflexivity].
    destruct (Z.eqb (v_interval v) 0) eqn:K; [left; apply Z.eqb_eq in K; split; [exact K | reflexivity]|].
    apply Z.eqb_neq in K. right.
    destruct (Z.eqb (Z.of_nat (List.length (s_states s')) mod v_interval v) 0) eqn:D.
    - right. apply (due_iff _ _ K) in D. split; [exact K|]. split; [exact D|]. fold v1.
      destruct (make_report clen v1) as [rep | x] eqn:R.
      + right. exists rep. split; [reflexivity|]. destruct (v_first v) eqn:F; [reflexivity|].
        reflexivity.
      + left. exists x. split; reflexivity.
    - left. split; [exact K|]. split; [|reflexivity].
      intros D'. apply (due_iff _ _ K) in D'. congruence.
  Qed.

  (** Tables come first: a run prints nothing, or a table followed by lines; the flag tells which. *)
  Definition headed (first : bool) (outs : list output) (first' : bool) : Prop :=
    match first with
    | true => match outs with
              | [] => first' = true
              | o :: os => is_table o = true /\ Forall (fun o => is_table o = false) os /\ first' = false
              end
    | false => Forall (fun o => is_table o = false) outs /\ first' = false
    end.

  Lemma headed_app : forall f a g b h, headed f a g -> headed g b h -> headed f (a ++ b) h.
  Proof.
    intros [] [|o a] g b h H1 H2; cbn in H1.
    - subst g. exact H2.
    - destruct H1 as (A & B & ->). cbn in H2. destruct H2 as (D & ->). cbn.
      split; [exact A|]. split; [apply Forall_app; split; assumption | reflexivity].
    - destruct H1 as (_ & ->). exact H2.
    - destruct H1 as (B & ->). cbn in H2. destruct H2 as (D & ->). cbn.
      split; [|reflexivity]. inversion B; subst. constructor; [assumption|]. apply Forall_app; split; assumption.
  Qed.

  Lemma headed_nil : forall f, headed f [] f.
  Proof. intros []; cbn; auto. Qed.

  Lemma step_headed : forall (v : vs) o,
    headed (v_first v) (snd (v_step upd diff clen v o)) (v_first (fst (v_step upd diff clen v o))).
  Proof.
    intros v [e | it | | | i]; try apply headed_nil. cbn.
    destruct (sio_add (v_sio v) e) as [s' r] eqn:S1. pose proof (add_cases v e s' r S1) as H. cbn in H.
    destruct r as [u | x]; [|rewrite H; apply headed_nil].
    destruct (v_verbose v); [|rewrite H; apply headed_nil].
    destruct H as [(_ & H) | [(_ & _ & H) | (_ & _ & [(x & _ & H) | (rep & _ & H)])]]; rewrite H; try apply headed_nil.
    cbn. destruct (v_first v); cbn; auto.
  Qed.

  Lemma run_headed : forall h (v : vs),
    headed (v_first v) (List.concat (snd (v_run upd diff clen v h))) (v_first (fst (v_run upd diff clen v h))).
  Proof.
    induction h as [|o h IH]; intros v; [apply headed_nil|].
    pose proof (step_headed v o) as H1. cbn. destruct (v_step upd diff clen v o) as [v1 out]. cbn in H1.
    specialize (IH v1). destruct (v_run upd diff clen v1 h) as [v2 outs]. cbn in *.
    exact (headed_app _ _ _ _ _ H1 IH).
  Qed.

  Lemma add_appends : forall (s s' : sio C E) e u, sio_add s e = (s', Ok u) -> s_states s' = s_states s ++ [e].
  Proof.
    intros s s' [st | d] u H; unfold sio_add in H.
    - destruct (cost_of (EState st)) as [q | x]; [destruct (sel_of (EState st)) as [l | x]|];
        inversion H; subst; reflexivity.
    - destruct (has_key "select_index" d && has_key "queried_info" d && has_key "performance" d); discriminate.
  Qed.

  Lemma report_fields : forall (v : vs) rep, make_report clen v = Ok rep ->
    let s := v_sio v in
    r_round rep = v_round v /\ r_labelled rep = clen (s_L s) /\
    r_percent rep * inject_Z (Z.of_nat (clen (s_L s) + clen (s_U s))) == 100 * inject_Z (Z.of_nat (clen (s_L s))) /\
    r_queries rep = List.length (s_states s) /\ r_cost rep = s_cost s /\ current_perf s = Ok (r_perf rep).
  Proof.
    intros v rep H s. unfold make_report in H. fold s in H.
    destruct (clen (s_L s) + clen (s_U s))%nat as [|n] eqn:N; [discriminate|].
    destruct (current_perf s) as [p | x]; [|discriminate]. cbn [bind] in H. injection H as <-.
    split; [reflexivity|]. split; [reflexivity|]. split; [|split; [reflexivity|]; split; reflexivity].
    assert (G : forall a m p, Zpos p = m -> ((100 * a) # p) * inject_Z m == 100 * inject_Z a).
    { intros a m p0 <-. change (100#1) with (inject_Z 100). rewrite <- inject_Z_mult. unfold Qeq, Qmult, inject_Z. cbn [Qnum Qden]. rewrite Pos.mul_1_r. ring. }
    apply G. rewrite Nat2Z.inj_succ, Zpos_P_of_succ_nat. reflexivity.
  Qed.
End P.
