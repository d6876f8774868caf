(** Proofs about histories of a toolbox program: fold counts and settings files. *)
From Verif Require Import Base BaseFacts IndexModel IndexSpec MLModel MLSpec OracleModel SplitModel SplitSpec SplitProps ToolModel ToolSpec ToolProofs ToolProofs2 ToolProofs3.
From Coq Require Import String QArith.
Local Open Scope Z_scope.

(** ** The disk *)
Lemma set_node_same w p n : w_disk (set_node w p n) p = n.
Proof. cbn. now rewrite Z.eqb_refl. Qed.
Lemma set_node_other w p n p' : p' <> p -> w_disk (set_node w p n) p' = w_disk w p'.
Proof. intro H. cbn. destruct (Z.eqb_spec p' p); congruence. Qed.

Lemma save_cases w b w' r : save w b = (w', r) ->
  (b_path b = None /\ w' = w /\ r = Ok tt) \/
  (exists p, b_path b = Some p /\ w_disk w p = NBad /\ w' = w /\ r = Err FileErr) \/
  (exists p, b_path b = Some p /\ r = Ok tt /\ on_disk (w_disk w') p (freeze (w_heap w) b) /\
     (is_dir (w_disk w') p <-> is_dir (w_disk w) p) /\ forall p', p' <> p -> w_disk w' p' = w_disk w p').
Proof.
  unfold save, save_as. destruct (b_path b) as [p|]; [|intro E; injection E as <- <-; auto].
  destruct (w_disk w p) as [pk fs|pk| |] eqn:ED; intro E; injection E as <- <-; [| | |right; left; eauto]; right; right; exists p; (split; [reflexivity|]); (split; [reflexivity|]);
    unfold on_disk, is_dir; rewrite set_node_same, ED; (split; [eauto|]); (split; [split; intros (x & y & z); eauto; try discriminate|]);
    intros; now apply set_node_other.
Qed.

Lemma save_files_cases w p q w' r : save_files w p q = (w', r) ->
  (p = None /\ w' = w /\ r = Ok tt) \/
  (exists p0, p = Some p0 /\ ~ is_dir (w_disk w) p0 /\ w' = w /\ r = Err GenericErr) \/
  (exists p0 pk fs fs', p = Some p0 /\ w_disk w p0 = NDir pk fs /\ w_disk w' p0 = NDir pk fs' /\ forall p', p' <> p0 -> w_disk w' p' = w_disk w p').
Proof.
  unfold save_files. destruct p as [p|]; [|intro E; injection E as <- <-; auto].
  destruct (w_disk w p) as [pk fs|pk| |] eqn:ED.
  - assert (SD : forall d' r', split_save (q_train q) (q_test q) (q_label q) (q_unlabel q) (Some tt) (Some fs) = (d', r') -> exists fs', d' = Some fs').
    { intros d' r'. unfold split_save. destruct (put_txt _ _ _) as [f1 [?|?]]; [|intro E; injection E as <- _; eauto].
      destruct (put_txt _ _ _) as [f2 [?|?]]; [|intro E; injection E as <- _; eauto]. destruct (two_dim _); [|intro E; injection E as <- _; eauto].
      destruct (put_txt _ _ f2) as [f3 [?|?]]; [|intro E; injection E as <- _; eauto]. destruct (put_txt _ _ f3) as [f4 r4]. intro E; injection E as <- _; eauto. }
    destruct (split_save _ _ _ _ _ _) as [d' r'] eqn:ES. destruct (SD _ _ eq_refl) as (fs' & ->). intro E. injection E as <- <-. right. right.
    exists p, pk, fs, fs'. rewrite set_node_same. repeat (split; [auto|]). intros; now apply set_node_other.
  - cbn [split_save]. intro E. injection E as <- <-. right. left. exists p. split; auto. split; auto. intros (x & y & z). congruence.
  - cbn [split_save]. intro E. injection E as <- <-. right. left. exists p. split; auto. split; auto. intros (x & y & z). congruence.
  - cbn [split_save]. intro E. injection E as <- <-. right. left. exists p. split; auto. split; auto. intros (x & y & z). congruence.
Qed.

Lemma on_disk_fun d p s s' : on_disk d p s -> on_disk d p s' -> s = s'.
Proof. intros [(f & A)|A] [(f' & B)|B]; congruence. Qed.

(** A failing construction changes nothing on disk. *)
Lemma tb_new_err w a w' e : tb_new w a = (w', Err e) -> w' = w.
Proof.
  unfold tb_new. destruct (new_box (w_heap w) a) as [b0|e0] eqn:EB; [|intro E; now injection E as <- _].
  assert (ST : (match save w b0 with (w, Ok _) => (w, Ok (b0, false)) | (w, Err e) => (w, Err e) end) = (w', Err e) -> w' = w).
  { destruct (save w b0) as [w2 [u|e2]] eqn:ES; [discriminate|]. intro E. injection E as <- _. apply save_cases in ES.
    destruct ES as [(_ & _ & X)|[(p & _ & _ & X & _)|(p & _ & X & _)]]; auto; discriminate. }
  assert (LD : forall s u, (let (h, b) := load_over (w_heap w) b0 s in (set_heap w h, Ok (b, u))) = (w', Err e : res (live * bool)) -> w' = w)
    by (intros s u; destruct (load_over _ _ _); discriminate).
  destruct (t_path a) as [p|]; [|discriminate]. destruct (w_disk w p) as [[[s|]|] fs|[s|]| |]; intro E; eauto; now injection E as <- _.
Qed.

Lemma make_cases w a w' r : make w a = (w', r) ->
  (exists e, r = Err e /\ w_disk w' = w_disk w) \/
  (exists b warn, r = Ok (b, warn) /\
    ((n_path a = None /\ b_path b = None /\ w_disk w' = w_disk w) \/
     (exists p, n_path a = Some p /\ b_path b = Some p /\ (forall s, ~ on_disk (w_disk w) p s) /\ on_disk (w_disk w') p (freeze (w_heap w') b) /\
        (is_dir (w_disk w') p <-> is_dir (w_disk w) p) /\ (forall p', p' <> p -> w_disk w' p' = w_disk w p')) \/
     (exists p s, n_path a = Some p /\ on_disk (w_disk w) p s /\ w_disk w' = w_disk w /\ contents (w_heap w') b = b_split s /\
        b_y b = b_y s /\ b_flag b = b_flag s /\ b_names b = b_names s /\ b_query b = b_query s /\ b_path b = b_path s /\
        (forall X, b_X s = Some X -> b_X b = Some X) /\ (forall c, b_count s = Some c -> b_count b = Some c) /\ (warn = true <-> is_dir (w_disk w) p)))).
Proof.
  intro E. assert (M : exists w0 t, w_disk w0 = w_disk w /\ t_path t = n_path a /\ tb_new w0 t = (w', r)).
  { revert E. unfold make. destruct (n_split a); [destruct (new_quad _ _) as [h q0]|]; intro E; do 2 eexists; (split; [|split; [|exact E]]); reflexivity. }
  destruct M as (w0 & t & D0 & TP & N). rewrite <- D0, <- TP. destruct r as [[b warn]|e].
  - right. exists b, warn. split; auto. apply tb_new_cases in N. destruct N as [_ N]. destruct (N b warn eq_refl) as (b0 & EB & C).
    destruct (new_box_split _ _ _ EB) as [BP _]. destruct C as [(-> & -> & EH & SV & P)|(p & s & P & D & DD & _ & C & C1 & C2 & C3 & C4 & C5 & C6 & C7)].
    + apply save_cases in SV. rewrite BP in SV. destruct SV as [(X & -> & _)|[(p & _ & _ & _ & X)|(p & X & _ & O & I & Ot)]]; [left; split; [|split]; congruence|discriminate|].
      right. left. exists p. split; auto. split; [congruence|]. split; [|split; [congruence|auto]].
      intros s Os. rewrite X in P. destruct P as [P|(p' & P & Q)]; [discriminate|]. injection P as <-.
      destruct Os as [(f & Os)|Os]; destruct Q as [Q|(f' & Q)]; congruence.
    + right. right. exists p, s. split; auto. split; [unfold on_disk; destruct D as [(fs & D & _)|(D & _)]; eauto|]. repeat (split; [assumption|]).
      split; [intros X EX; now rewrite EX in C6|]. split; [intros n EX; now rewrite EX in C7|].
      unfold is_dir. destruct D as [(fs & D & ->)|(D & ->)]; rewrite D; split; auto; try discriminate; [eauto|intros (x & y & z); discriminate].
  - left. exists e. split; auto. apply tb_new_err in N. now subst.
Qed.

(** ** Counts *)
Definition counted (h : heap) (b : live) : Prop :=
  forall c, contents h b = Some c -> exists n, b_count b = Some n /\ folds_are c (Z.to_nat n).
Definition counted_s (s : stored) : Prop := forall c, b_split s = Some c -> exists n, b_count s = Some n /\ folds_are c (Z.to_nat n).
Lemma freeze_counted h b : counted h b -> counted_s (freeze h b).
Proof. intros H c E. exact (H c E). Qed.

Lemma folds_length {F D} (one : list D -> option (res F * list D)) n : forall ds fs rest, folds one n ds = Some (Ok fs, rest) -> List.length fs = n.
Proof.
  induction n as [|n IH]; intros ds fs rest; cbn [folds]; [intro E; now injection E as <- _|].
  destruct (one ds) as [[[f|e] ds']|]; try discriminate. destruct (folds one n ds') as [[[gs|e] r2]|] eqn:E2; try discriminate.
  intro E. injection E as <- _. cbn. f_equal. eapply IH; eauto.
Qed.
Lemma split_length X y names tr rate n ac ds fs : SplitModel.split X y names tr rate n ac ds = Some (Ok fs) -> List.length fs = n.
Proof.
  unfold SplitModel.split. destruct (split_names X y names); [|discriminate]. destruct (folds _ _ _) as [[r rest]|] eqn:E; [|discriminate].
  cbn. intro X0. injection X0 as ->. eapply folds_length; eauto.
Qed.
Lemma multi_length mat sh tr rate n ac ds fs : split_multi_label mat sh tr rate n ac ds = Some (Ok fs) -> List.length fs = n.
Proof.
  unfold split_multi_label. destruct (matrix_shape_of mat sh) as [[a b]|]; [|discriminate]. destruct (folds _ _ _) as [[r rest]|] eqn:E; [|discriminate].
  cbn. intro X0. injection X0 as ->. eapply folds_length; eauto.
Qed.
Lemma views_length fs : forall b, List.length (fst (views b fs)) = List.length fs /\ List.length (snd (views b fs)) = List.length fs.
Proof. induction fs as [|f fs IH]; intro b; cbn [views]; auto. specialize (IH (S b)). destruct (views (S b) fs). cbn in *. lia. Qed.
Lemma store_views_length h fs h' q : store_views h fs = (h', q) ->
  List.length (read_out h' (q_train q)) = List.length fs /\ List.length (read_out h' (q_test q)) = List.length fs /\
  List.length (read_out h' (q_label q)) = List.length fs /\ List.length (read_out h' (q_unlabel q)) = List.length fs.
Proof.
  intro H. pose proof (store_views_spec _ _ _ _ H) as (_ & _ & _ & RA & RB & _). rewrite RA, RB, !map_length. split; [reflexivity|]. split; [reflexivity|].
  revert H. unfold store_views, read_out. destruct (new_lists h _) as [h1 a] eqn:E1. destruct (new_lists h1 _) as [h2 t] eqn:E2.
  pose proof (views_length fs (List.length (h_buf h))) as VL. destruct (views _ fs) as [lv uv]. cbn in VL. unfold new_out. cbn [h_out].
  intro E. injection E as <- <-. cbn [q_train q_test q_label q_unlabel]. rewrite !map_length. unfold out_at. cbn [h_out].
  rewrite (app_nth1 (h_out h2 ++ [lv])) by (rewrite app_length; cbn; lia). rewrite app_nth2 by lia. rewrite Nat.sub_diag.
  rewrite app_nth2 by lia. rewrite Nat.sub_diag. exact VL.
Qed.

Lemma make_split_counted h b a h' q c : make_split h b a = Some (Ok (h', q, c)) ->
  List.length (read_out h' (q_train q)) = Z.to_nat (s_count a) /\ List.length (read_out h' (q_test q)) = Z.to_nat (s_count a) /\
  List.length (read_out h' (q_label q)) = Z.to_nat (s_count a) /\ List.length (read_out h' (q_unlabel q)) = Z.to_nat (s_count a).
Proof.
  unfold make_split. destruct (b_y b) as [y|m].
  - destruct (SplitModel.split _ _ _ _ _ _ _ _) as [[fs|e]|] eqn:E; cbn [option_map rmap]; try discriminate. intro X. injection X as EX _.
    apply store_views_length in EX. apply split_length in E. now rewrite E in EX.
  - destruct (split_multi_label _ _ _ _ _ _ _) as [[fs|e]|] eqn:E; cbn [option_map rmap]; try discriminate. apply multi_length in E.
    match goal with |- context [new_quad ?a ?c] => destruct (new_quad a c) as [h1 q1] eqn:EQ end. intro X. injection X as <- <- _.
    apply new_quad_spec in EQ. destruct EQ as (_ & _ & _ & -> & -> & -> & ->). cbn [q_train q_test q_label q_unlabel quad_of]. now rewrite !map_length.
Qed.

(** What split_AL leaves on disk. *)
Lemma tb_split_disk w b a w' b' r : tb_split w b a = Some (w', b', r) ->
  (forall p, b_path b <> Some p -> w_disk w' p = w_disk w p) /\ (forall p, is_dir (w_disk w') p <-> is_dir (w_disk w) p) /\
  (forall p s, on_disk (w_disk w') p s -> on_disk (w_disk w) p s \/
     (b_path b = Some p /\ s = freeze (w_heap w') b' /\ exists q, b_split b' = Some q)) /\
  (forall p s, on_disk (w_disk w) p s -> exists s', on_disk (w_disk w') p s') /\
  (forall p q, b_split b = None -> b_path b = Some p -> r = Ok (q, false) -> is_dir (w_disk w) p /\ on_disk (w_disk w') p (freeze (w_heap w') b')) /\
  (forall q, b_split b = None -> r = Ok (q, false) -> b_split b' = Some q).
Proof.
  intro H. apply tb_split_cases in H. destruct H as [(q & Hq & -> & -> & ->)|(Hb & G & C1 & C2 & _ & _ & _ & _ & _ & H)].
  - split; [auto|]. split; [tauto|]. split; [auto|]. split; [eauto|]. split; intros; congruence.
  - assert (SF : forall c (w1 : world) r1, save_files w (b_path b) c = (w1, r1) -> (forall p, b_path b <> Some p -> w_disk w1 p = w_disk w p) /\
       (forall p, is_dir (w_disk w1) p <-> is_dir (w_disk w) p) /\ (forall p s, on_disk (w_disk w1) p s <-> on_disk (w_disk w) p s) /\
       (forall p, b_path b = Some p -> r1 = Ok tt -> is_dir (w_disk w) p)).
    { intros c w1 r1 E. apply save_files_cases in E. destruct E as [(E & -> & _)|[(p0 & E & ND & -> & ->)|(p0 & pk & fs & fs' & E & D1 & D2 & O)]].
      - rewrite E. repeat (split; [intros; tauto|]). intros; discriminate.
      - repeat (split; [intros; tauto|]). intros; discriminate.
      - rewrite E. split; [intros p Hp; apply O; congruence|]. split; [|split].
        + intro p. destruct (Z.eq_dec p p0) as [->|Hp]; unfold is_dir; [rewrite D1, D2|rewrite (O p Hp); tauto]. split; intros (x & y & z); eauto.
        + intros p s. destruct (Z.eq_dec p p0) as [->|Hp]; unfold on_disk; [rewrite D1, D2|rewrite (O p Hp); tauto].
          split; intros [(f & X)|X]; try discriminate; injection X as <- _; eauto.
        + intros p Hp _. injection Hp as <-. unfold is_dir. eauto. }
    destruct H as [(e & -> & Hs & [(_ & ->)|(h & q & c & _ & E)])|(h & q & c & w1 & _ & E & Hs & EH & _ & _ & S)].
    + split; [auto|]. split; [tauto|]. split; [auto|]. split; [eauto|]. split; intros; discriminate.
    + destruct (SF _ _ _ E) as (S1 & S2 & S3 & _). split; [auto|]. split; [auto|]. split; [intros; left; now apply S3|].
      split; [intros p s O; exists s; now apply S3|]. split; intros; discriminate.
    + destruct (SF _ _ _ E) as (S1 & S2 & S3 & S4).
      assert (SR : exists r0, save (set_heap w1 h) b' = (w', r0) /\ (r = Ok (q, false) /\ r0 = Ok tt \/ exists e, r = Err e /\ r0 = Err e))
        by (destruct S as [(S & ->)|(e & S & ->)]; eauto 6).
      destruct SR as (r0 & SV & R). apply save_cases in SV. rewrite C2 in SV. cbn [w_disk set_heap w_heap] in SV.
      destruct SV as [(P & -> & Er)|[(p & P & _ & -> & Er)|(p & P & Er & O & I & Ot)]].
      * cbn [w_disk set_heap]. split; [auto|]. split; [auto|]. split; [intros; left; now apply S3|].
        split; [intros p s O; exists s; now apply S3|]. split; intros; [congruence|]. destruct R as [[R _]|(e & R & _)]; congruence.
      * cbn [w_disk set_heap]. split; [auto|]. split; [auto|]. split; [intros; left; now apply S3|].
        split; [intros p' s O; exists s; now apply S3|]. split; intros; destruct R as [[R Re]|(e & R & _)]; congruence.
      * assert (Other : forall p', p' <> p -> w_disk w' p' = w_disk w1 p') by exact Ot.
        split; [intros p' Hp; rewrite Other by congruence; auto|].
        split; [intro p'; destruct (Z.eq_dec p' p) as [->|Hp]; [rewrite I; auto|unfold is_dir in *; rewrite Other by auto; apply S2]|].
        split; [|split; [|split]].
        -- intros p' s Os. destruct (Z.eq_dec p' p) as [->|Hp].
           ++ right. split; auto. split; [rewrite EH; eapply on_disk_fun; eauto|eauto].
           ++ left. apply S3. unfold on_disk in *. rewrite Other in Os by auto. exact Os.
        -- intros p' s Os. destruct (Z.eq_dec p' p) as [->|Hp]; [eauto|]. exists s. apply S3 in Os. unfold on_disk in *. rewrite Other by auto. exact Os.
        -- intros p' q' _ P' Er'. rewrite P in P'. injection P' as <-. rewrite EH. split; [|exact O]. apply (S4 p P). reflexivity.
        -- intros q' _ Er'. destruct R as [[R _]|(e & R & _)]; congruence.
Qed.

(** The count of a toolbox after split_AL. *)
Lemma tb_split_counted w b a w' b' r : tb_split w b a = Some (w', b', r) -> b_split b = None -> counted (w_heap w') b'.
Proof.
  intros H N. apply tb_split_cases in H. destruct H as [(q & Hq & _)|(_ & _ & C & _ & _ & _ & _ & _ & _ & H)]; [congruence|].
  destruct H as [(e & _ & Hs & _)|(h & q & c & w1 & M & _ & Hs & EH & _)]; intros k K; unfold contents in K; rewrite Hs in K; [discriminate|].
  injection K as <-. exists (s_count a). split; auto. rewrite EH. apply make_split_counted in M. unfold folds_are. cbn [q_train q_test q_label q_unlabel]. tauto.
Qed.

(** ** The invariant of histories that start without settings files *)
Definition Good (s : sys) : Prop :=
  let h := w_heap (y_world s) in let d := w_disk (y_world s) in
  Forall (counted h) (y_boxes s) /\ (forall p t, on_disk d p t -> counted_s t /\ b_path t = Some p) /\
  (forall b p, In b (y_boxes s) -> b_path b = Some p -> exists t, on_disk d p t).

Lemma Good_start d : no_settings d -> Good (start d).
Proof.
  intro N. split; [constructor|]. split; cbn; [|intros; contradiction]. intros p t O. specialize (N p).
  destruct O as [(f & O)|O]; rewrite O in N; contradiction.
Qed.

Lemma counted_same h h' b : contents h' b = contents h b -> counted h b -> counted h' b.
Proof. intros E H c. rewrite E. apply H. Qed.

Lemma make_counted w a w' b warn : make w a = (w', Ok (b, warn)) -> (forall p t, on_disk (w_disk w) p t -> counted_s t) -> counted (w_heap w') b.
Proof.
  intros E D. assert (M : exists w0 t, w_disk w0 = w_disk w /\ tb_new w0 t = (w', Ok (b, warn))).
  { revert E. unfold make. destruct (n_split a); [destruct (new_quad _ _) as [h q0]|]; intro E; do 2 eexists; (split; [|exact E]); reflexivity. }
  destruct M as (w0 & t & D0 & N). apply tb_new_cases in N. destruct N as [_ N]. destruct (N b warn eq_refl) as (b0 & EB & C).
  destruct C as [(-> & -> & EH & SV & P)|(p & s & P & Ds & DD & _ & C & C1 & C2 & C3 & C4 & C5 & C6 & C7)].
  - rewrite EH. intros c K. unfold contents in K. destruct (b_split b0) as [q|] eqn:EQ; [|discriminate]. injection K as <-.
    destruct (new_box_split _ _ _ EB) as [_ NB]. destruct (NB q EQ) as (_ & _ & _ & _ & B1 & B2 & B3 & B4). eexists. split; [exact B1|].
    unfold folds_are, read_out. cbn [q_train q_test q_label q_unlabel]. rewrite !map_length. rewrite Nat2Z.id. auto.
  - intros c K. rewrite C in K. assert (O : on_disk (w_disk w) p s) by (rewrite <- D0; unfold on_disk; destruct Ds as [(fs & Ds & _)|(Ds & _)]; eauto).
    destruct (D p s O c K) as (n & Hn & F). exists n. split; auto. now rewrite C7, Hn.
Qed.

Lemma Good_step s e : Inv s -> Good s -> Good (step s e).
Proof.
  intros I (A & B & C). pose proof (Inv_step s e I) as [_ K]. destruct e as [a|i a|i r|k x|]; cbn [step] in *.
  - specialize (K ltac:(discriminate)). destruct (make (y_world s) a) as [w r] eqn:E. pose proof (make_cases _ _ _ _ E) as M.
    pose proof (make_new _ _ _ _ E) as [G _]. destruct I as (VB & _).
    assert (A' : Forall (counted (w_heap w)) (y_boxes s)).
    { rewrite Forall_forall in *. intros b Hb. eapply counted_same; [apply grown_contents; [exact G|auto]|auto]. }
    destruct M as [(e & -> & D)|(b & warn & -> & M)]; unfold Good; cbn [y_world y_boxes y_got].
    + rewrite D. auto.
    + assert (CB : counted (w_heap w) b) by (eapply make_counted; [exact E|intros p t O; apply (B p t O)]).
      split; [apply Forall_app; auto|]. destruct M as [(_ & P & D)|[(p & NP & P & ND & O & ID & Ot)|(p & t & NP & O & D & M1 & M2 & M3 & M4 & M5 & M6 & _)]].
      * rewrite D. split; auto. intros b' p Hb Hp. apply in_app_iff in Hb. destruct Hb as [Hb|[<-|[]]]; [eauto|congruence].
      * split.
        -- intros p' t O'. destruct (Z.eq_dec p' p) as [->|Hp]; [|apply B; unfold on_disk in *; now rewrite Ot in O' by auto].
           pose proof (on_disk_fun _ _ _ _ O O') as <-. split; [now apply freeze_counted|exact P].
        -- intros b' p' Hb Hp. apply in_app_iff in Hb. destruct Hb as [Hb|[<-|[]]].
           ++ destruct (Z.eq_dec p' p) as [->|Hn]; [eauto|]. destruct (C b' p' Hb Hp) as [t O']. exists t. unfold on_disk in *. now rewrite Ot by auto.
           ++ exists (freeze (w_heap w) b). congruence.
      * rewrite D. split; auto. intros b' p' Hb Hp. apply in_app_iff in Hb. destruct Hb as [Hb|[<-|[]]]; [eauto|].
        destruct (B p t O) as [_ Bp]. exists t. congruence.
  - specialize (K ltac:(discriminate)). destruct (nth_error (y_boxes s) i) as [b|] eqn:Ei; [|exact (conj A (conj B C))].
    destruct (tb_split (y_world s) b a) as [[[w b'] r]|] eqn:E; [|exact (conj A (conj B C))].
    pose proof (tb_split_disk _ _ _ _ _ _ E) as (D1 & D2 & D3 & D4 & _). destruct (b_split b) as [q|] eqn:EB.
    { pose proof (tb_split_cases _ _ _ _ _ _ E) as [(q' & _ & -> & -> & _)|(X & _)]; [|congruence].
      assert (PI : put i b (y_boxes s) = y_boxes s).
      { clear - Ei. revert i Ei. induction (y_boxes s) as [|c l IH]; destruct i; cbn; intro E; try discriminate; [congruence|]. f_equal. auto. }
      rewrite PI. exact (conj A (conj B C)). }
    pose proof (tb_split_counted _ _ _ _ _ _ E EB) as CB'. pose proof (tb_split_cases _ _ _ _ _ _ E) as TC.
    destruct TC as [(q & X & _)|(_ & G & _ & PB & _)]; [congruence|]. destruct I as (VB & _).
    unfold Good. cbn [y_world y_boxes y_got]. split; [|split].
    + apply Forall_forall. intros b0 Hb. apply put_in in Hb. destruct Hb as [->|Hb]; auto. rewrite Forall_forall in A, VB.
      eapply counted_same; [apply grown_contents; [exact G|auto]|auto].
    + intros p t O. destruct (D3 p t O) as [O'|(P & -> & _)]; [auto|]. split; [now apply freeze_counted|]. cbn. congruence.
    + intros b0 p Hb P. apply put_in in Hb. destruct Hb as [->|Hb].
      * apply nth_error_In in Ei. destruct (C b p Ei ltac:(congruence)) as [t O]. eauto.
      * destruct (C b0 p Hb P) as [t O]. eauto.
  - specialize (K ltac:(discriminate)). destruct (nth_error (y_boxes s) i) as [b|] eqn:Ei; [|exact (conj A (conj B C))].
    destruct (tb_get (y_world s) b r) as [w res] eqn:E. apply tb_get_cases in E. destruct E as (D & G & _). destruct I as (VB & _).
    assert (A' : Forall (counted (w_heap w)) (y_boxes s)).
    { rewrite Forall_forall in *. intros b' Hb. eapply counted_same; [apply grown_contents; [exact G|auto]|auto]. }
    destruct res; unfold Good; cbn [y_world y_boxes y_got]; rewrite D; auto.
  - destruct (nth_error (y_got s) k) as [r|] eqn:Ek; [|exact (conj A (conj B C))]. destruct I as (VB & VR & AP). apply nth_error_In in Ek.
    unfold Good. cbn [y_world y_boxes y_got set_heap w_heap w_disk]. split; auto. rewrite Forall_forall in *. intros b Hb.
    eapply counted_same; [|apply A; auto]. apply write_contents. intros q Hq. eauto.
  - unfold Good. cbn. split; [constructor|]. split; auto. intros; contradiction.
Qed.

Lemma Good_run s es : Inv s -> Good s -> Good (run s es).
Proof. revert s. induction es as [|e es IH]; intros s I G; cbn; auto. apply IH; [now apply Inv_step|now apply Good_step]. Qed.
Lemma start_good d es : no_settings d -> Inv (run (start d) es) /\ Good (run (start d) es).
Proof. intro N. split; [apply Inv_run, Inv_start|apply Good_run; [apply Inv_start|now apply Good_start]]. Qed.
