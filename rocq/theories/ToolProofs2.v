(** Proofs about histories of a toolbox program. *)
From Verif Require Import Base BaseFacts IndexModel IndexSpec MLModel MLSpec OracleModel SplitModel ToolModel ToolSpec ToolProofs.
From Coq Require Import String QArith.
Local Open Scope Z_scope.

(** ** Views *)
Lemma views_valid n fs : forall b v, In v (fst (views b fs)) \/ In v (snd (views b fs)) -> (b + n <= vbuf v + n < b + n + List.length fs)%nat.
Proof.
  induction fs as [|f fs IH]; intros b v; cbn [views]; [cbn; tauto|].
  specialize (IH (S b)). destruct (views (S b) fs) as [l u]. cbn [fst snd In List.length] in *.
  intros [[<-|H]|[<-|H]]; cbn [vbuf]; try lia; specialize (IH v); cbn [fst snd] in IH; [destruct IH|destruct IH]; auto; lia.
Qed.
Lemma views_read h fs : Forall (fun f => f_label f ++ f_unlabel f = f_train f) fs -> forall b,
  (forall i f, nth_error fs i = Some f -> buf_at h (b + i) = scalars (f_train f)) ->
  map (read h) (fst (views b fs)) = map (fun f => scalars (f_label f)) fs /\
  map (read h) (snd (views b fs)) = map (fun f => scalars (f_unlabel f)) fs.
Proof.
  induction 1 as [|f fs HF FS IH]; intros b H; cbn [views]; [auto|].
  specialize (IH (S b)). destruct (views (S b) fs) as [l u]. cbn [fst snd map] in *.
  destruct IH as [I1 I2]; [intros i g E; rewrite <- (H (S i) g E); f_equal; lia|].
  assert (B : buf_at h b = scalars (f_train f)) by (rewrite <- (H 0%nat f eq_refl); f_equal; lia).
  assert (LF : List.length (f_train f) = (List.length (f_label f) + List.length (f_unlabel f))%nat) by (rewrite <- HF, app_length; reflexivity).
  unfold scalars in *. split; f_equal; auto; cbn [read]; rewrite B, <- HF, map_app.
  - cbn [skipn]. rewrite firstn_app. rewrite map_length, Nat.sub_diag. cbn. rewrite app_nil_r. rewrite <- (map_length Scalar). apply firstn_all.
  - rewrite skipn_app, map_length, Nat.sub_diag, skipn_all2 by (rewrite map_length; lia). cbn [app skipn].
    rewrite app_length, Nat.add_comm, Nat.add_sub. rewrite <- (map_length Scalar). apply firstn_all.
Qed.
Lemma new_lists_buf h ls h' o : new_lists h ls = (h', o) -> h_buf h' = h_buf h ++ ls.
Proof. unfold new_lists, new_bufs, new_out. intro E. now injection E as <- <-. Qed.
Lemma new_out_spec h vs h' o : new_out h vs = (h', o) -> Forall (valid_v h) vs ->
  grown h h' /\ o = List.length (h_out h) /\ valid_out h' o /\ out_at h' o = vs.
Proof.
  intros E V. pose proof (new_out_grown h vs) as G. rewrite E in G. cbn [fst] in G. unfold new_out in E. injection E as <- <-.
  set (h2 := {| h_buf := h_buf h; h_out := h_out h ++ [vs]; h_coll := h_coll h |}) in *.
  assert (OA : out_at h2 (List.length (h_out h)) = vs) by (unfold out_at, h2; cbn; rewrite app_nth2, Nat.sub_diag; auto; lia).
  split; auto. split; auto. split; auto. split; [unfold h2; cbn; rewrite app_length; cbn; lia|]. rewrite OA.
  eapply Forall_impl; [|exact V]. intros v Hv. eapply grown_valid_v; eauto.
Qed.

Lemma store_views_spec h fs h' q : store_views h fs = (h', q) ->
  grown h h' /\ valid_quad h' q /\ quad_fresh h h' q /\
  read_out h' (q_train q) = map (fun f => scalars (f_train f)) fs /\ read_out h' (q_test q) = map (fun f => scalars (f_test f)) fs /\
  (Forall (fun f => f_label f ++ f_unlabel f = f_train f) fs ->
   read_out h' (q_label q) = map (fun f => scalars (f_label f)) fs /\ read_out h' (q_unlabel q) = map (fun f => scalars (f_unlabel f)) fs).
Proof.
  unfold store_views. intro E. set (b := List.length (h_buf h)) in *.
  destruct (new_lists h (map (fun f => scalars (f_train f)) fs)) as [h1 a] eqn:E1. destruct (new_lists h1 (map (fun f => scalars (f_test f)) fs)) as [h2 t] eqn:E2.
  destruct (views b fs) as [lv uv] eqn:EV. destruct (new_out h2 lv) as [h3 l] eqn:E3. destruct (new_out h3 uv) as [h4 u] eqn:E4.
  injection E as <- <-. pose proof (new_lists_buf _ _ _ _ E1) as B1. pose proof (new_lists_buf _ _ _ _ E2) as B2.
  apply new_lists_spec in E1, E2. destruct E1 as (G1 & A1 & V1 & R1 & F1), E2 as (G2 & A2 & V2 & R2 & F2).
  assert (LB : (b + List.length fs <= List.length (h_buf h2))%nat) by (rewrite B2, B1, !app_length, map_length; unfold b; lia).
  pose proof (views_valid 0 fs b) as VV. rewrite EV in VV. cbn [fst snd] in VV.
  apply new_out_spec in E3; [|apply Forall_forall; intros v I; specialize (VV v (or_introl I)); unfold valid_v; lia].
  destruct E3 as (G3 & A3 & V3 & O3). pose proof (grown_lengths _ _ G3) as L3.
  apply new_out_spec in E4; [|apply Forall_forall; intros v I; specialize (VV v (or_intror I)); unfold valid_v; lia].
  destruct E4 as (G4 & A4 & V4 & O4).
  assert (G24 : grown h2 h4) by (eapply grown_trans; eauto). assert (G14 : grown h1 h4) by (eapply grown_trans; eauto).
  pose proof (grown_lengths _ _ G1). pose proof (grown_lengths _ _ G2).
  split; [eapply grown_trans; eauto|]. cbn [q_train q_test q_label q_unlabel].
  split; [repeat split; try apply V4; [apply (grown_valid_out h1 h4)|apply (grown_valid_out h1 h4)|apply (grown_valid_out h2 h4)|apply (grown_valid_out h2 h4)|apply (grown_valid_out h3 h4)|apply (grown_valid_out h3 h4)]; auto|].
  assert (O3' : out_at h4 l = lv) by (rewrite (grown_out h3 h4); [exact O3|auto|apply V3]).
  split.
  { intros o [->|[->|[->| ->]]]; cbn [q_train q_test q_label q_unlabel].
    - split; [lia|]. rewrite (grown_out h1 h4) by (auto; apply V1). exact F1.
    - split; [lia|]. rewrite (grown_out h2 h4) by (auto; apply V2). intros v I. apply F2 in I. lia.
    - split; [lia|]. rewrite O3'. intros v I. specialize (VV v (or_introl I)). unfold b in *. lia.
    - split; [lia|]. rewrite O4. intros v I. specialize (VV v (or_intror I)). unfold b in *. lia. }
  rewrite (grown_read_out h1 h4), (grown_read_out h2 h4); auto. split; auto. split; auto.
  intro P. unfold read_out. rewrite O3', O4.
  destruct (views_read h4 fs P b) as [X1 X2]; [|rewrite EV in X1, X2; auto].
  intros i f Ei. assert (Hi : (i < List.length fs)%nat) by (apply nth_error_Some; congruence). rewrite (grown_buf h2 h4); auto; [|lia].
  unfold buf_at. rewrite B2, B1, <- app_assoc, app_nth2 by (unfold b; lia). replace (b + i - List.length (h_buf h))%nat with i by (unfold b; lia).
  rewrite app_nth1 by (rewrite map_length; lia). apply nth_error_nth. rewrite nth_error_map, Ei. reflexivity.
Qed.

(** ** References apart from a split *)
Definition outs (q : quad nat) : list nat := [q_train q; q_test q; q_label q; q_unlabel q].
Definition apart (h : heap) (r : ref) (q : quad nat) : Prop :=
  match r with
  | RBuf a => forall o v, In o (outs q) -> In v (out_at h o) -> vbuf v <> a
  | ROut a => ~ In a (outs q)
  | RColl _ => True
  end.
Definition valid_ref (h : heap) (r : ref) : Prop :=
  match r with
  | RBuf a => (a < List.length (h_buf h))%nat
  | ROut a => (a < List.length (h_out h))%nat
  | RColl a => (a < List.length (h_coll h))%nat
  end.
Lemma valid_outs h q : valid_quad h q -> forall o, In o (outs q) -> valid_out h o.
Proof. intros (A & B & C & D) o [<-|[<-|[<-|[<-|[]]]]]; auto. Qed.
Lemma fresh_outs h h' q : quad_fresh h h' q -> forall o, In o (outs q) ->
  (List.length (h_out h) <= o)%nat /\ forall v, In v (out_at h' o) -> (List.length (h_buf h) <= vbuf v)%nat.
Proof. intros F o [<-|[<-|[<-|[<-|[]]]]]; apply F; tauto. Qed.
Lemma grown_valid_ref h h' r : grown h h' -> valid_ref h r -> valid_ref h' r.
Proof. intros G. pose proof (grown_lengths _ _ G). destruct r; cbn; lia. Qed.
Lemma apart_old h h' r q : valid_ref h r -> quad_fresh h h' q -> apart h' r q.
Proof.
  intros V F. pose proof (fresh_outs _ _ _ F) as FO. destruct r as [a|a|a]; cbn in *; auto.
  - intros o v O I E. subst a. destruct (FO o O) as [_ X]. specialize (X v I). lia.
  - intro O. destruct (FO a O) as [X _]. lia.
Qed.
Lemma apart_new h h' r q : grown h h' -> fresh h r -> valid_quad h q -> apart h' r q.
Proof.
  intros G F V. pose proof (valid_outs _ _ V) as VO. destruct r as [a|a|a]; cbn in *; auto.
  - intros o v O I E. subst a. destruct (VO o O) as [X Y]. rewrite (grown_out h h') in I by auto. rewrite Forall_forall in Y. apply Y in I.
    unfold valid_v in I. lia.
  - intro O. destruct (VO a O) as [X _]. lia.
Qed.
Lemma apart_grown h h' r q : grown h h' -> valid_quad h q -> apart h r q -> apart h' r q.
Proof.
  intros G V A. destruct r as [a|a|a]; cbn in *; auto. intros o v O I. rewrite (grown_out h h') in I; auto. eapply A; eauto.
  now apply (valid_outs _ _ V).
Qed.
Lemma fresh_grown h0 h h' h2 q : grown h0 h -> grown h' h2 -> valid_quad h' q -> quad_fresh h h' q -> quad_fresh h0 h2 q.
Proof.
  intros G G2 V F o O. pose proof (grown_lengths _ _ G). destruct (F o O) as [A B]. split; [lia|].
  rewrite (grown_out h' h2); auto; [intros v I; apply B in I; lia|]. destruct V as (V1 & V2 & V3 & V4).
  destruct O as [->|[->|[->| ->]]]; [apply V1|apply V2|apply V3|apply V4].
Qed.

(** ** Writing *)
Lemma write_lengths h r x : List.length (h_buf (write h r x)) = List.length (h_buf h) /\
  List.length (h_out (write h r x)) = List.length (h_out h) /\ List.length (h_coll (write h r x)) = List.length (h_coll h).
Proof. destruct r, x; cbn; rewrite ?put_length; auto. Qed.
Lemma write_out h r x o : r <> ROut o -> out_at (write h r x) o = out_at h o.
Proof. intro N. destruct r as [a|a|a], x; cbn; auto. unfold out_at. cbn. apply put_nth_other. congruence. Qed.
Lemma write_buf h r x b : r <> RBuf b -> buf_at (write h r x) b = buf_at h b.
Proof. intro N. destruct r as [a|a|a], x; cbn; auto. unfold buf_at. cbn. apply put_nth_other. congruence. Qed.
Lemma write_read_out h r x q o : apart h r q -> In o (outs q) ->
  out_at (write h r x) o = out_at h o /\ read_out (write h r x) o = read_out h o.
Proof.
  intros A O. assert (EO : out_at (write h r x) o = out_at h o).
  { apply write_out. intros ->. exact (A O). }
  split; auto. unfold read_out. rewrite EO. apply map_ext_in. intros v I.
  assert (EB : buf_at (write h r x) (vbuf v) = buf_at h (vbuf v)).
  { apply write_buf. intros ->. exact (A o v O I eq_refl). }
  destruct v; cbn [read vbuf] in *; now rewrite EB.
Qed.
Lemma write_valid_quad h r x q : apart h r q -> valid_quad h q -> valid_quad (write h r x) q.
Proof.
  intros A V. destruct (write_lengths h r x) as (L1 & L2 & _).
  assert (G : forall o, In o (outs q) -> valid_out (write h r x) o).
  { intros o O. destruct (valid_outs _ _ V o O) as [X Y]. destruct (write_read_out h r x q o A O) as [E _]. split; [lia|]. rewrite E.
    eapply Forall_impl; [|exact Y]. unfold valid_v. intros. lia. }
  repeat split; apply G; cbn; tauto.
Qed.
Lemma write_apart h r x r' q : apart h r q -> apart h r' q -> apart (write h r x) r' q.
Proof.
  intros A A'. destruct r' as [a|a|a]; cbn in *; auto. intros o v O I. destruct (write_read_out h r x q o A O) as [E _]. rewrite E in I. eauto.
Qed.
Lemma write_contents h r x b : (forall q, b_split b = Some q -> apart h r q) -> contents (write h r x) b = contents h b.
Proof.
  intro A. unfold contents. destruct (b_split b) as [q|] eqn:E; auto. specialize (A q eq_refl).
  rewrite !(fun o O => proj2 (write_read_out h r x q o A O)); auto; cbn; tauto.
Qed.

(** ** The operations *)
Lemma save_heap w b w' r : save w b = (w', r) -> w_heap w' = w_heap w.
Proof.
  unfold save, save_as. destruct (b_path b) as [p|]; [|intro E; now injection E as <- <-].
  destruct (w_disk w p); intro E; injection E as <- <-; reflexivity.
Qed.
Lemma save_files_heap w p q w' r : save_files w p q = (w', r) -> w_heap w' = w_heap w.
Proof.
  unfold save_files. destruct p as [p|]; [|intro E; now injection E as <- <-].
  destruct (split_save _ _ _ _ _ _) as [d e]. intro E. injection E as <- <-. destruct d, (w_disk w p); reflexivity.
Qed.
Lemma with_split_split {P R} (b : tbox P) (s : option (quad R)) c : b_split (with_split b s c) = s.
Proof. reflexivity. Qed.

(** A box whose split, if any, is new. *)
Definition new_split (h h' : heap) (b : live) : Prop := forall q, b_split b = Some q -> valid_quad h' q /\ quad_fresh h h' q.

Lemma thaw_spec h s h' b : thaw h s = (h', b) -> grown h h' /\ new_split h h' b /\ contents h' b = b_split s /\
  b_y b = b_y s /\ b_X b = b_X s /\ b_flag b = b_flag s /\ b_names b = b_names s /\ b_query b = b_query s /\ b_count b = b_count s /\ b_path b = b_path s.
Proof.
  unfold thaw. destruct (b_split s) as [c|] eqn:ES.
  - destruct (new_quad h c) as [h1 q] eqn:E. intro X. injection X as <- <-. apply new_quad_spec in E. destruct E as (G & V & F & R1 & R2 & R3 & R4).
    split; auto. split; [intros q' E; rewrite with_split_split in E; injection E as <-; auto|].
    split; [|repeat split; reflexivity]. unfold contents. rewrite with_split_split, R1, R2, R3, R4. now destruct c.
  - intro X. injection X as <- <-. split; [apply grown_refl|]. split; [intros q E; discriminate|]. repeat split; reflexivity.
Qed.

Lemma new_box_split h a b : new_box h a = Ok b -> b_path b = t_path a /\
  (forall q, b_split b = Some q -> t_train a = Some (q_train q) /\ t_test a = Some (q_test q) /\ t_label a = Some (q_label q) /\ t_unlabel a = Some (q_unlabel q) /\
     b_count b = Some (Z.of_nat (List.length (out_at h (q_train q)))) /\
     List.length (out_at h (q_test q)) = List.length (out_at h (q_train q)) /\ List.length (out_at h (q_label q)) = List.length (out_at h (q_train q)) /\
     List.length (out_at h (q_unlabel q)) = List.length (out_at h (q_train q))).
Proof.
  unfold new_box. destruct (label_num (t_y a)); [|discriminate]. cbn [bind].
  set (gx := match t_X a with None => _ | Some _ => _ end). destruct gx; [|discriminate]. cbn [bind].
  set (gn := match t_names a with None => _ | Some _ => _ end). destruct gn; [|discriminate]. cbn [bind].
  destruct (guard (q_known (t_query a)) NotImplErr); [|discriminate]. cbn [bind].
  set (gg := guard _ _). destruct gg; [|discriminate]. cbn [bind].
  destruct (t_train a) as [tr|]; [|cbn; intro X; injection X as <-; split; [reflexivity|]; intros; discriminate].
  destruct (t_test a) as [te|]; [|cbn; intro X; injection X as <-; split; [reflexivity|]; intros; discriminate].
  destruct (t_label a) as [la|]; [|cbn; intro X; injection X as <-; split; [reflexivity|]; intros; discriminate].
  destruct (t_unlabel a) as [un|]; [|cbn; intro X; injection X as <-; split; [reflexivity|]; intros; discriminate].
  match goal with |- context [if ?c then _ else _] => destruct c eqn:C end; [|discriminate]. cbn [bind fst snd].
  apply andb_true_iff in C. destruct C as [C C3]. apply andb_true_iff in C. destruct C as [C1 C2]. apply Nat.eqb_eq in C1, C2, C3.
  intro X. injection X as <-. cbn [b_split b_path b_count]. split; auto. intros q E. injection E as <-. cbn [q_train q_test q_label q_unlabel].
  repeat split; auto; congruence.
Qed.

(** Construction: what [tb_new] does to the heap and where the box comes from. *)
Lemma tb_new_cases w a w' r : tb_new w a = (w', r) -> grown (w_heap w) (w_heap w') /\
  forall b warn, r = Ok (b, warn) ->
  (exists b0, new_box (w_heap w) a = Ok b0 /\
    ((b = b0 /\ warn = false /\ w_heap w' = w_heap w /\ save w b0 = (w', Ok tt) /\
      (t_path a = None \/ exists p, t_path a = Some p /\ (w_disk w p = NFree \/ exists fs, w_disk w p = NDir None fs))) \/
     (exists p s, t_path a = Some p /\ ((exists fs, w_disk w p = NDir (Some (Whole s)) fs /\ warn = true) \/ (w_disk w p = NFile (Whole s) /\ warn = false)) /\
        w_disk w' = w_disk w /\ new_split (w_heap w) (w_heap w') b /\ contents (w_heap w') b = b_split s /\
        b_y b = b_y s /\ b_flag b = b_flag s /\ b_names b = b_names s /\ b_query b = b_query s /\ b_path b = b_path s /\
        b_X b = match b_X s with Some X => Some X | None => b_X b0 end /\
        b_count b = match b_count s with Some c => Some c | None => b_count b0 end))).
Proof.
  unfold tb_new. destruct (new_box (w_heap w) a) as [b0|e] eqn:EB; [|intro E; injection E as <- <-; split; [apply grown_refl|discriminate]].
  destruct (new_box_split _ _ _ EB) as [BP _].
  assert (ST : forall w' r, (match save w b0 with (w, Ok _) => (w, Ok (b0, false)) | (w, Err e) => (w, Err e) end) = (w', r) ->
     grown (w_heap w) (w_heap w') /\ w_heap w' = w_heap w /\ forall b warn, r = Ok (b, warn) -> b = b0 /\ warn = false /\ save w b0 = (w', Ok tt)).
  { intros w1 r1 E. destruct (save w b0) as [w2 [[]|e]] eqn:ES; injection E as <- <-; pose proof (save_heap _ _ _ _ ES) as EH; rewrite EH;
      (split; [apply grown_refl|]; split; [reflexivity|]; intros b warn E; (discriminate || (injection E as <- <-; auto))). }
  assert (LD : forall s warn0 (w' : world) (r : res (live * bool)), (let (h, b) := load_over (w_heap w) b0 s in (set_heap w h, Ok (b, warn0))) = (w', r) ->
     grown (w_heap w) (w_heap w') /\ forall b warn, r = Ok (b, warn) -> warn = warn0 /\ w_disk w' = w_disk w /\
        new_split (w_heap w) (w_heap w') b /\ contents (w_heap w') b = b_split s /\
        b_y b = b_y s /\ b_flag b = b_flag s /\ b_names b = b_names s /\ b_query b = b_query s /\ b_path b = b_path s /\
        b_X b = match b_X s with Some X => Some X | None => b_X b0 end /\
        b_count b = match b_count s with Some c => Some c | None => b_count b0 end).
  { intros s warn0 w1 r1 E. unfold load_over in E. destruct (thaw (w_heap w) s) as [h l] eqn:ET. injection E as <- <-.
    apply thaw_spec in ET. destruct ET as (G & N & C & A1 & A2 & A3 & A4 & A5 & A6 & A7). cbn [w_heap set_heap w_disk]. split; auto.
    intros b warn E. injection E as <- <-. cbn [b_y b_flag b_names b_query b_path b_X b_count]. rewrite A2, A6.
    split; [reflexivity|]. split; [reflexivity|]. split; [exact N|]. split; [exact C|]. auto 10. }
  destruct (t_path a) as [p|] eqn:EP.
  - destruct (w_disk w p) as [[[s|]|] fs|[s|]| |] eqn:ED; intro E.
    + destruct (LD _ _ _ _ E) as [G H]. split; auto. intros b warn Er. destruct (H b warn Er) as (W & X). exists b0. split; auto. right.
      exists p, s. split; auto. split; [left; eauto|exact X].
    + injection E as <- <-. split; [apply grown_refl|discriminate].
    + destruct (ST _ _ E) as (G & EH & H). split; auto. intros b warn Er. destruct (H b warn Er) as (-> & -> & X). exists b0. split; auto. left.
      repeat split; auto. right. eauto.
    + destruct (LD _ _ _ _ E) as [G H]. split; auto. intros b warn Er. destruct (H b warn Er) as (W & X). exists b0. split; auto. right.
      exists p, s. split; auto.
    + injection E as <- <-. split; [apply grown_refl|discriminate].
    + destruct (ST _ _ E) as (G & EH & H). split; auto. intros b warn Er. destruct (H b warn Er) as (-> & -> & X). exists b0. split; auto. left.
      repeat split; auto. right. eauto.
    + destruct (ST _ _ E) as (G & EH & H). split; auto. intros b warn Er. destruct (H b warn Er) as (-> & -> & X). exfalso.
      unfold save, save_as in X. rewrite BP, ED in X. discriminate.
  - intro E. injection E as <- <-. split; [apply grown_refl|]. intros b warn Er. injection Er as <- <-. exists b0. split; auto. left.
    repeat split; auto. unfold save, save_as. now rewrite BP.
Qed.
