(** Proofs about histories of a toolbox program: the split of a toolbox stays. *)
From Verif Require Import Base BaseFacts IndexModel IndexSpec MLModel MLSpec OracleModel SplitModel ToolModel ToolSpec ToolProofs ToolProofs2.
From Coq Require Import String QArith.
Local Open Scope Z_scope.

Lemma make_split_spec h b a h' q c : make_split h b a = Some (Ok (h', q, c)) ->
  grown h h' /\ valid_quad h' q /\ quad_fresh h h' q.
Proof.
  unfold make_split. destruct (b_y b) as [y|m].
  - destruct (SplitModel.split _ _ _ _ _ _ _ _) as [[fs|e]|]; cbn; try discriminate. intro X. injection X as E _.
    apply store_views_spec in E. tauto.
  - destruct (split_multi_label _ _ _ _ _ _ _) as [[fs|e]|]; cbn [option_map rmap]; try discriminate.
    match goal with |- context [new_quad ?a ?c] => destruct (new_quad a c) as [h1 q1] eqn:E end. intro X. injection X as <- <- _. apply new_quad_spec in E. tauto.
Qed.

(** What a call of [split_AL] does. *)
Lemma tb_split_cases w b a w' b' r : tb_split w b a = Some (w', b', r) ->
  (exists q, b_split b = Some q /\ w' = w /\ b' = b /\ r = Ok (q, true)) \/
  (b_split b = None /\ grown (w_heap w) (w_heap w') /\ b_count b' = Some (s_count a) /\ b_path b' = b_path b /\
   b_y b' = b_y b /\ b_X b' = b_X b /\ b_flag b' = b_flag b /\ b_names b' = b_names b /\ b_query b' = b_query b /\
   ((exists e, r = Err e /\ b_split b' = None /\
      ((make_split (w_heap w) b a = Some (Err e) /\ w' = w) \/
       exists h q c, make_split (w_heap w) b a = Some (Ok (h, q, c)) /\ save_files w (b_path b) c = (w', Err e))) \/
    (exists h q c w1, make_split (w_heap w) b a = Some (Ok (h, q, c)) /\ save_files w (b_path b) c = (w1, Ok tt) /\ b_split b' = Some q /\
       w_heap w' = h /\ valid_quad h q /\ quad_fresh (w_heap w) h q /\
       ((save (set_heap w1 h) b' = (w', Ok tt) /\ r = Ok (q, false)) \/ (exists e, save (set_heap w1 h) b' = (w', Err e) /\ r = Err e))))).
Proof.
  unfold tb_split. destruct (b_split b) as [q0|] eqn:EB; [intro X; injection X as <- <- <-; left; eauto|]. intro X. right. split; auto.
  destruct (make_split (w_heap w) b a) as [[[[h q] c]|e]|] eqn:EM; [| |discriminate].
  - destruct (make_split_spec _ _ _ _ _ _ EM) as (G & V & F). destruct (save_files w (b_path b) c) as [w1 [[]|e]] eqn:ES.
    + pose proof (save_files_heap _ _ _ _ _ ES) as EH.
      destruct (save (set_heap w1 h) (with_split b (Some q) (Some (s_count a)))) as [w2 [[]|e]] eqn:E2; injection X as <- <- <-;
        pose proof (save_heap _ _ _ _ E2) as EH2; cbn [w_heap set_heap] in EH2; rewrite EH2; (split; [exact G|]); repeat (split; [reflexivity|]);
        right; exists h, q, c, w1; rewrite ES; repeat (split; [auto; reflexivity|]); eauto.
    + injection X as <- <- <-. pose proof (save_files_heap _ _ _ _ _ ES) as EH. rewrite EH. split; [apply grown_refl|]. repeat (split; [reflexivity|]).
      left. exists e. split; auto. split; auto. right. exists h, q, c. auto.
  - injection X as <- <- <-. split; [apply grown_refl|]. repeat (split; [reflexivity|]). left. exists e. auto.
Qed.

(** What a call of [get_split] does. *)
Lemma tb_get_cases w b r w' res : tb_get w b r = (w', res) -> w_disk w' = w_disk w /\ grown (w_heap w) (w_heap w') /\
  (forall e, res = Err e -> w' = w) /\
  (forall g, res = Ok g -> Forall (fun x => fresh (w_heap w) x /\ valid_ref (w_heap w') x) (refs_of (w_heap w') g)).
Proof.
  unfold tb_get. destruct (b_split b) as [q|]; [|intro E; injection E as <- <-; split; auto; split; [apply grown_refl|]; split; [auto|discriminate]].
  destruct r as [r|].
  - match goal with |- (match ?x with _ => _ end) = _ -> _ => destruct x as [[[[tr te] L] U]|e] eqn:EX end;
      [|intro E; injection E as <- <-; split; auto; split; [apply grown_refl|]; split; [auto|discriminate]].
    unfold new_bufs, new_coll. cbn [seq map nth h_coll]. intro E. injection E as <- <-. cbn [w_disk set_heap w_heap]. split; auto.
    split; [repeat split; cbn; eexists; try (rewrite <- app_assoc); try reflexivity; now rewrite app_nil_r|]. split; [discriminate|].
    intros g E. injection E as <-. cbn [refs_of vref]. repeat constructor; cbn; rewrite ?app_length; cbn; lia.
  - match goal with |- (let (_, _) := new_quad ?h ?c in _) = _ -> _ => destruct (new_quad h c) as [h1 q1] eqn:EQ end.
    intro E. injection E as <- <-. cbn [w_disk set_heap w_heap]. split; auto. apply new_quad_spec in EQ. destruct EQ as (G & V & F & _). split; auto.
    split; [discriminate|]. intros g E. injection E as <-. unfold refs_of. apply Forall_flat_map. rewrite Forall_forall. intros o O.
    change (In o (outs q1)) in O. destruct (valid_outs _ _ V o O) as [V1 V2]. destruct (fresh_outs _ _ _ F o O) as [F1 F2].
    constructor; [cbn; lia|]. apply Forall_forall. intros x I. apply in_map_iff in I. destruct I as (v & <- & I). rewrite Forall_forall in V2.
    specialize (V2 v I). specialize (F2 v I). unfold valid_v in V2. destruct v; cbn in *; lia.
Qed.

(** A new toolbox. *)
Lemma make_new w a w' r : make w a = (w', r) -> grown (w_heap w) (w_heap w') /\
  forall b warn, r = Ok (b, warn) -> new_split (w_heap w) (w_heap w') b.
Proof.
  unfold make. destruct (n_split a) as [c|].
  - destruct (new_quad (w_heap w) c) as [h q] eqn:EQ. apply new_quad_spec in EQ. destruct EQ as (G & V & F & _). intro E.
    apply tb_new_cases in E. cbn [w_heap set_heap] in E. destruct E as [G2 H]. split; [eapply grown_trans; eauto|].
    intros b warn E. destruct (H b warn E) as (b0 & EB & [(-> & _ & EH & _)|(p & s & _ & _ & _ & N & _)]).
    + intros q' Eq. rewrite EH. destruct (new_box_split _ _ _ EB) as [_ NB]. destruct (NB q' Eq) as (A1 & A2 & A3 & A4 & _).
      cbn in A1, A2, A3, A4. assert (q' = q) by (destruct q, q'; cbn in *; congruence). subst q'. auto.
    + intros q' Eq. destruct (N q' Eq) as [V' F']. split; auto. eapply fresh_grown; [exact G|apply grown_refl|exact V'|exact F'].
  - intro E. apply tb_new_cases in E. destruct E as [G2 H]. split; auto.
    intros b warn E. destruct (H b warn E) as (b0 & EB & [(-> & _ & EH & _)|(p & s & _ & _ & _ & N & _)]); auto.
    intros q' Eq. destruct (new_box_split _ _ _ EB) as [_ NB]. destruct (NB q' Eq) as (A1 & _). discriminate.
Qed.

(** ** The invariant *)
Definition Inv (s : sys) : Prop :=
  let h := w_heap (y_world s) in
  Forall (valid_box h) (y_boxes s) /\ Forall (valid_ref h) (y_got s) /\
  forall b q r, In b (y_boxes s) -> b_split b = Some q -> In r (y_got s) -> apart h r q.

(** Split toolboxes and their folds are not changed. *)
Definition kept (s s' : sys) : Prop :=
  forall i b, nth_error (y_boxes s) i = Some b -> b_split b <> None ->
  nth_error (y_boxes s') i = Some b /\ contents (w_heap (y_world s')) b = contents (w_heap (y_world s)) b.

Lemma Inv_start d : Inv (start d).
Proof. repeat split; cbn; auto. intros; contradiction. Qed.

Lemma Inv_grown (bs : list live) (gs : list ref) h h' : grown h h' ->
  Forall (valid_box h) bs -> Forall (valid_ref h) gs -> (forall b q r, In b bs -> b_split b = Some q -> In r gs -> apart h r q) ->
  Forall (valid_box h') bs /\ Forall (valid_ref h') gs /\ (forall b q r, In b bs -> b_split b = Some q -> In r gs -> apart h' r q).
Proof.
  intros G A B C. split; [eapply Forall_impl; [|exact A]; intros; eapply grown_valid_box; eauto|].
  split; [eapply Forall_impl; [|exact B]; intros; eapply grown_valid_ref; eauto|].
  intros b q r Hb Hq Hr. rewrite Forall_forall in A. eapply apart_grown; [exact G|apply (A b Hb q Hq)|eauto].
Qed.

Lemma Inv_step s e : Inv s -> Inv (step s e) /\ (e <> EExit -> kept s (step s e)).
Proof.
  intros (A & B & C). set (h := w_heap (y_world s)) in *. destruct e as [a|i a|i r|k x|]; cbn [step].
  - destruct (make (y_world s) a) as [w r] eqn:E. apply make_new in E. fold h in E. destruct E as [G N].
    destruct (Inv_grown _ _ _ _ G A B C) as (A' & B' & C').
    assert (K : forall b, In b (y_boxes s) -> contents (w_heap w) b = contents h b)
      by (intros b Hb; rewrite Forall_forall in A; apply grown_contents; auto).
    destruct r as [[b warn]|e]; cbn [y_world y_boxes y_got].
    + specialize (N b warn eq_refl). split.
      * split; [|split]; cbn [y_world y_boxes y_got].
        -- apply Forall_app. split; auto. constructor; auto. intros q Hq. apply (N q Hq).
        -- exact B'.
        -- intros b' q r Hb Hq Hr. apply in_app_iff in Hb. destruct Hb as [Hb|[<-|[]]]; [eauto|]. eapply apart_old; [|apply (N q Hq)].
           rewrite Forall_forall in B. auto.
      * intros _ i b' Hi Hs. cbn. split; [|apply K; eapply nth_error_In; eauto]. rewrite nth_error_app1; auto. apply nth_error_Some. congruence.
    + split; [exact (conj A' (conj B' C'))|]. intros _ i b' Hi Hs. cbn. split; auto. apply K. eapply nth_error_In; eauto.
  - destruct (nth_error (y_boxes s) i) as [b|] eqn:Ei; [|split; [exact (conj A (conj B C))|intros _ ? ? ? ?; auto]].
    destruct (tb_split (y_world s) b a) as [[[w b'] r]|] eqn:E; [|split; [exact (conj A (conj B C))|intros _ ? ? ? ?; auto]].
    apply tb_split_cases in E. destruct E as [(q & Hq & -> & -> & ->)|(Hb & G & _ & _ & _ & _ & _ & _ & _ & H)].
    + assert (PI : put i b (y_boxes s) = y_boxes s).
      { clear - Ei. revert i Ei. induction (y_boxes s) as [|c l IH]; destruct i; cbn; intro E; try discriminate; [congruence|]. f_equal. auto. }
      rewrite PI. split; [exact (conj A (conj B C))|intros _ ? ? ? ?; auto].
    + fold h in G. destruct (Inv_grown _ _ _ _ G A B C) as (A' & B' & C').
      assert (N : new_split h (w_heap w) b').
      { destruct H as [(e & _ & Hs & _)|(h1 & q & c & w1 & _ & _ & Hs & EH & V & F & _)]; intros q' Hq'; [congruence|].
        rewrite Hs in Hq'. injection Hq' as <-. rewrite EH. auto. }
      split.
      * split; [|split]; cbn [y_world y_boxes y_got]; [| exact B'|].
        -- apply Forall_forall. intros c Hc. apply put_in in Hc. destruct Hc as [->|Hc]; [intros q Hq; apply (N q Hq)|]. rewrite Forall_forall in A'. auto.
        -- intros c q r' Hc Hq Hr. apply put_in in Hc. destruct Hc as [->|Hc]; [|eauto]. eapply apart_old; [|apply (N q Hq)]. rewrite Forall_forall in B. auto.
      * intros _ j c Hj Hs. cbn. assert (i <> j) by (intros ->; congruence). rewrite put_other by auto. split; auto.
        apply nth_error_In in Hj. rewrite Forall_forall in A. apply grown_contents; auto.
  - destruct (nth_error (y_boxes s) i) as [b|] eqn:Ei; [|split; [exact (conj A (conj B C))|intros _ ? ? ? ?; auto]].
    destruct (tb_get (y_world s) b r) as [w res] eqn:E. apply tb_get_cases in E. destruct E as (_ & G & _ & R). fold h in G, R.
    destruct (Inv_grown _ _ _ _ G A B C) as (A' & B' & C').
    assert (K : forall b, In b (y_boxes s) -> contents (w_heap w) b = contents h b)
      by (intros c Hb; rewrite Forall_forall in A; apply grown_contents; auto).
    destruct res as [g|e]; cbn [y_world y_boxes y_got].
    + specialize (R g eq_refl). rewrite Forall_forall in R. split.
      * split; [|split]; cbn [y_world y_boxes y_got]; [exact A'| |].
        -- apply Forall_app. split; auto. apply Forall_forall. intros x Hx. now apply R.
        -- intros c q x Hc Hq Hx. apply in_app_iff in Hx. destruct Hx as [Hx|Hx]; [eauto|]. destruct (R x Hx) as [Fx Vx].
           rewrite Forall_forall in A. eapply apart_new; [exact G|exact Fx|apply (A c Hc q Hq)].
      * intros _ j c Hj Hs. cbn. split; auto. apply K. eapply nth_error_In; eauto.
    + split; [exact (conj A' (conj B' C'))|]. intros _ j c Hj Hs. cbn. split; auto. apply K. eapply nth_error_In; eauto.
  - destruct (nth_error (y_got s) k) as [r|] eqn:Ek; [|split; [exact (conj A (conj B C))|intros _ ? ? ? ?; auto]].
    apply nth_error_In in Ek. destruct (write_lengths h r x) as (L1 & L2 & L3). rewrite Forall_forall in A, B. split.
    + split; [|split]; cbn [y_world y_boxes y_got w_heap set_heap]; fold h.
      * apply Forall_forall. intros b Hb q Hq. apply write_valid_quad; [eauto|apply (A b Hb q Hq)].
      * apply Forall_forall. intros r' Hr. specialize (B r' Hr). destruct r'; cbn in *; lia.
      * intros b q r' Hb Hq Hr. apply write_apart; eauto.
    + intros _ j c Hj Hs. cbn [y_world y_boxes w_heap set_heap]. split; auto. apply write_contents. intros q Hq. apply nth_error_In in Hj. eauto.
  - split; [|congruence]. split; [|split]; cbn; auto. intros; contradiction.
Qed.

Lemma Inv_run s es : Inv s -> Inv (run s es).
Proof. revert s. induction es as [|e es IH]; intros s I; cbn; auto. apply IH. now apply Inv_step. Qed.
Lemma kept_run s es : Inv s -> ~ In EExit es -> kept s (run s es).
Proof.
  revert s. induction es as [|e es IH]; intros s I H; [intros i b Hi Hs; auto|]. cbn.
  destruct (Inv_step s e I) as [I' K]. intros i b Hi Hs. destruct (K ltac:(intros ->; apply H; now left) i b Hi Hs) as [K1 K2].
  destruct (IH (step s e) I' ltac:(intro X; apply H; now right) i b K1 Hs) as [R1 R2]. split; [exact R1|]. etransitivity; [exact R2|exact K2].
Qed.
