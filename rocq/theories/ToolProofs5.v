(** Proofs about histories of a toolbox program: one split per path, and what get_split returns. *)
From Verif Require Import Base BaseFacts IndexModel IndexSpec IndexProofs MLModel MLSpec MLProps OracleModel SplitModel SplitSpec SplitProps ToolModel ToolSpec ToolProofs ToolProofs2 ToolProofs3 ToolProofs4.
From Coq Require Import String QArith.
Local Open Scope Z_scope.

Lemma settled_step s e p c : Inv s -> Good s -> settled s p c -> settled (step s e) p c.
Proof.
  intros I (A & B & C) ((t & OD & TS) & S). pose proof (Inv_step s e I) as [_ K].
  assert (KC : e <> EExit -> forall i b, nth_error (y_boxes s) i = Some b -> b_path b = Some p ->
     nth_error (y_boxes (step s e)) i = Some b /\ contents (w_heap (y_world (step s e))) b = Some c).
  { intros NE i b Hi Hp. pose proof (S b (nth_error_In _ _ Hi) Hp) as Hc.
    destruct (K NE i b Hi) as [K1 K2]; [unfold contents in Hc; destruct (b_split b); congruence|]. split; auto. congruence. }
  destruct e as [a|i a|i r|k x|]; cbn [step] in *.
  - specialize (KC ltac:(discriminate)). clear K. destruct (make (y_world s) a) as [w r] eqn:E. pose proof (make_cases _ _ _ _ E) as M.
    destruct M as [(e & -> & D)|(b & warn & -> & M)]; unfold settled; cbn [y_world y_boxes y_got] in *.
    + rewrite D. split; [eauto|]. intros b Hb Hp. apply In_nth_error in Hb. destruct Hb as [i Hi]. now apply (KC i).
    + assert (OLD : forall b', In b' (y_boxes s) -> b_path b' = Some p -> contents (w_heap w) b' = Some c)
        by (intros b' Hb Hp; apply In_nth_error in Hb; destruct Hb as [i Hi]; now apply (KC i b')).
      destruct M as [(_ & P & D)|[(p1 & NP & P & ND & O & ID & Ot)|(p1 & t1 & NP & O & D & M1 & M2 & M3 & M4 & M5 & M6 & _)]].
      * rewrite D. split; [eauto|]. intros b' Hb Hp. apply in_app_iff in Hb. destruct Hb as [Hb|[<-|[]]]; [auto|congruence].
      * assert (p <> p1) by (intros ->; exact (ND t OD)). split; [exists t; unfold on_disk in *; now rewrite Ot by auto|].
        intros b' Hb Hp. apply in_app_iff in Hb. destruct Hb as [Hb|[<-|[]]]; [auto|congruence].
      * rewrite D. split; [eauto|]. intros b' Hb Hp. apply in_app_iff in Hb. destruct Hb as [Hb|[<-|[]]]; [auto|].
        destruct (B p1 t1 O) as [_ Bp]. assert (p1 = p) by congruence. subst p1. rewrite (on_disk_fun _ _ _ _ O OD) in M1. congruence.
  - specialize (KC ltac:(discriminate)). clear K. destruct (nth_error (y_boxes s) i) as [b|] eqn:Ei; [|exact (conj (ex_intro _ t (conj OD TS)) S)].
    destruct (tb_split (y_world s) b a) as [[[w b'] r]|] eqn:E; [|exact (conj (ex_intro _ t (conj OD TS)) S)].
    pose proof (tb_split_cases _ _ _ _ _ _ E) as TC. unfold settled in *; cbn [y_world y_boxes y_got] in *.
    destruct TC as [(q & Hq & -> & -> & _)|(Hn & G & _ & PB & _)].
    + split; [eauto|]. intros b' Hb Hp. apply put_in in Hb. destruct Hb as [->|Hb]; [|auto]. apply S; auto. eapply nth_error_In; eauto.
    + assert (NP : b_path b <> Some p) by (intro P; specialize (S b (nth_error_In _ _ Ei) P); unfold contents in S; rewrite Hn in S; discriminate).
      pose proof (tb_split_disk _ _ _ _ _ _ E) as (D1 & _). split; [exists t; unfold on_disk in *; now rewrite D1 by auto|].
      intros b0 Hb Hp. apply put_in in Hb. destruct Hb as [->|Hb]; [congruence|]. apply In_nth_error in Hb. destruct Hb as [j Hj]. now apply (KC j b0).
  - specialize (KC ltac:(discriminate)). clear K. destruct (nth_error (y_boxes s) i) as [b|] eqn:Ei; [|exact (conj (ex_intro _ t (conj OD TS)) S)].
    destruct (tb_get (y_world s) b r) as [w res] eqn:E. apply tb_get_cases in E. destruct E as (D & G & _).
    destruct res; unfold settled in *; cbn [y_world y_boxes y_got] in *; rewrite D; (split; [eauto|]);
      intros b0 Hb Hp; apply In_nth_error in Hb; destruct Hb as [j Hj]; now apply (KC j b0).
  - specialize (KC ltac:(discriminate)). clear K. destruct (nth_error (y_got s) k) as [r|] eqn:Ek; [|exact (conj (ex_intro _ t (conj OD TS)) S)].
    unfold settled in *; cbn [y_world y_boxes y_got set_heap w_disk] in *. split; [eauto|].
    intros b0 Hb Hp; apply In_nth_error in Hb; destruct Hb as [j Hj]; now apply (KC j b0).
  - unfold settled. cbn. split; [eauto|]. intros; contradiction.
Qed.
Lemma settled_run s es p c : Inv s -> Good s -> settled s p c -> settled (run s es) p c.
Proof.
  revert s. induction es as [|e es IH]; intros s I G S; cbn; auto. apply IH; [now apply Inv_step|now apply Good_step|now apply settled_step].
Qed.

(** ** Directories stay directories *)
Lemma is_dir_step s e p : is_dir (w_disk (y_world (step s e))) p <-> is_dir (w_disk (y_world s)) p.
Proof.
  destruct e as [a|i a|i r|k x|]; cbn [step]; try tauto.
  - destruct (make (y_world s) a) as [w r] eqn:E. apply make_cases in E.
    destruct E as [(e & -> & D)|(b & warn & -> & [(_ & P & D)|[(p1 & NP & P & ND & O & ID & Ot)|(p1 & t1 & NP & O & D & _)]])]; cbn [y_world]; unfold is_dir in *; try (rewrite D; tauto).
    destruct (Z.eq_dec p p1) as [->|H]; [exact ID|rewrite Ot by auto; tauto].
  - destruct (nth_error _ _) as [b|]; [|tauto]. destruct (tb_split _ _ _) as [[[w b'] r]|] eqn:E; [|tauto]. now apply tb_split_disk in E.
  - destruct (nth_error _ _) as [b|]; [|tauto]. destruct (tb_get _ _ _) as [w res] eqn:E. apply tb_get_cases in E. destruct E as (D & _).
    destruct res; cbn [y_world]; unfold is_dir; rewrite D; tauto.
  - destruct (nth_error _ _); cbn; tauto.
Qed.
Lemma is_dir_run es p : forall s, is_dir (w_disk (y_world (run s es))) p <-> is_dir (w_disk (y_world s)) p.
Proof. induction es as [|e es IH]; intro s; cbn; [tauto|]. change (fold_left step es (step s e)) with (run (step s e) es). rewrite IH. apply is_dir_step. Qed.

(** ** Collections *)
Lemma mapM_keys ks : mapM item_key (map Scalar ks) = Ok ks.
Proof. induction ks as [|k ks IH]; cbn; auto. now rewrite IH. Qed.
Lemma mapM_rows is : mapM item_idx (map (fun i => Tup [i]) is) = Ok (map IOne is).
Proof. induction is as [|k ks IH]; cbn; auto. now rewrite IH. Qed.

Lemma idx_coll_spec l ks : instance_set l ks -> exists c, idx_coll l = Ok c /\ holds c ks.
Proof.
  intros [-> U]. unfold idx_coll. rewrite mapM_keys. cbn [bind]. eexists. split; [reflexivity|]. eexists. split; [reflexivity|].
  destruct ks as [|k ks']; [cbn; split; [constructor|tauto]|]. set (ks := k :: ks') in *.
  rewrite ic_init_list by (unfold ks; discriminate). rewrite np_asarray_homog.
  - rewrite map_norm_VNp. split; [apply np_unique_NoDup|]. intro x. apply np_unique_in.
  - intros v w Hv Hw. apply in_map_iff in Hv, Hw. destruct Hv as (a & <- & Ha), Hw as (b & <- & Hb). cbn. auto.
Qed.
Lemma ml_coll_spec l is m : row_set l is -> 0 < m -> exists c, ml_coll l m = Ok c /\ holds_rows c is m.
Proof.
  intros -> M. unfold ml_coll. rewrite mapM_rows. cbn [bind]. destruct is as [|i is'].
  - eexists. split; [reflexivity|]. eexists. split; [reflexivity|]. cbn. split; [constructor|]. tauto.
  - set (is := i :: is') in *. destruct (C05_construction (map IOne is) m) as [H _]; [unfold is; discriminate|auto|].
    destruct H as (c & w & E & _ & N & P & _); [apply forallb_forall; intros x Hx; apply in_map_iff in Hx; destruct Hx as (? & <- & _); reflexivity|].
    rewrite E. cbn [bind fst]. eexists. split; [reflexivity|]. eexists. split; [reflexivity|]. split; auto.
    intros a b. rewrite P. split.
    + intros (x & Hx & D). apply in_map_iff in Hx. destruct Hx as (y & <- & Hy). cbn in D. destruct D as [-> D]. auto.
    + intros [Ha Hb]. exists (IOne a). split; [now apply in_map|]. cbn. auto.
Qed.

Lemma py_nth_at {A} (l : list A) n : (n < List.length l)%nat -> exists x, py_nth l n = Ok x /\ nth_error l n = Some x.
Proof. intro H. unfold py_nth. destruct (nth_error l n) as [x|] eqn:E; eauto. apply nth_error_None in E. lia. Qed.

(** get_split of a fold. *)
Lemma tb_get_fold w b q n r L U c : b_split b = Some q -> b_count b = Some n -> contents (w_heap w) b = Some c -> folds_are c (Z.to_nat n) ->
  0 <= r < n -> (forall la, nth_error (q_label c) (Z.to_nat r) = Some la -> collect b la = Ok L) ->
  (forall un, nth_error (q_unlabel c) (Z.to_nat r) = Some un -> collect b un = Ok U) ->
  exists w' trv tev l u tr te la un, tb_get w b (Some r) = (w', Ok (OneFold trv tev l u)) /\ fold_at c r tr te la un /\
    w_disk w' = w_disk w /\ grown (w_heap w) (w_heap w') /\
    Forall (fresh (w_heap w)) [vref trv; vref tev; RColl l; RColl u] /\ NoDup [vref trv; vref tev] /\ l <> u /\
    read (w_heap w') trv = tr /\ read (w_heap w') tev = te /\ nth_error (h_coll (w_heap w')) l = Some L /\ nth_error (h_coll (w_heap w')) u = Some U.
Proof.
  intros Eq En Ec (F1 & F2 & F3 & F4) Hr CL CU. destruct (tb_get w b (Some r)) as [w' res] eqn:E. pose proof (tb_get_cases _ _ _ _ _ E) as (D & G & _ & R).
  unfold contents in Ec. rewrite Eq in Ec. injection Ec as <-. cbn [q_train q_test q_label q_unlabel] in *.
  unfold read_out in *. rewrite !map_length in *.
  destruct (py_nth_at (out_at (w_heap w) (q_train q)) (Z.to_nat r) ltac:(lia)) as (v1 & P1 & N1).
  destruct (py_nth_at (out_at (w_heap w) (q_test q)) (Z.to_nat r) ltac:(lia)) as (v2 & P2 & N2).
  destruct (py_nth_at (out_at (w_heap w) (q_label q)) (Z.to_nat r) ltac:(lia)) as (v3 & P3 & N3).
  destruct (py_nth_at (out_at (w_heap w) (q_unlabel q)) (Z.to_nat r) ltac:(lia)) as (v4 & P4 & N4).
  specialize (CL (read (w_heap w) v3)). specialize (CU (read (w_heap w) v4)). rewrite !nth_error_map, N3 in CL. rewrite nth_error_map, N4 in CU. cbn [option_map] in *.
  specialize (CL eq_refl). specialize (CU eq_refl).
  revert E. unfold tb_get. rewrite Eq, En. cbn [bind]. replace ((0 <=? r) && (r <? n)) with true by lia. cbn [guard bind].
  rewrite P1, P2, P3, P4. cbn [bind]. rewrite CL. cbn [bind]. rewrite CU. cbn [bind]. unfold new_bufs, new_coll. cbn [List.length seq map nth h_coll h_buf h_out].
  intro E. injection E as <- <-. specialize (R _ eq_refl). cbn [refs_of] in R.
  do 9 eexists. split; [reflexivity|]. split; [unfold fold_at; cbn [q_train q_test q_label q_unlabel]; rewrite !nth_error_map, N1, N2, N3, N4; cbn; repeat split; lia|].
  split; [reflexivity|]. split; [exact G|]. split; [eapply Forall_impl; [|exact R]; cbn; tauto|].
  cbn [vref w_heap set_heap]. split; [constructor; [intros [X|[]]; injection X; lia|constructor; [intros []|constructor]]|].
  split; [rewrite app_length; cbn; lia|]. unfold read, buf_at. cbn [h_buf h_coll w_heap set_heap].
  rewrite app_nth2 by lia. rewrite Nat.sub_diag. rewrite app_nth2 by lia. replace (S _ - _)%nat with 1%nat by lia. cbn [nth].
  split; [reflexivity|]. split; [reflexivity|]. split; [rewrite nth_error_app1 by (rewrite app_length; cbn; lia); rewrite nth_error_app2 by lia; now rewrite Nat.sub_diag|].
  rewrite nth_error_app2 by lia. now rewrite Nat.sub_diag.
Qed.

(** get_split of all folds. *)
Lemma tb_get_all w b c : contents (w_heap w) b = Some c ->
  exists w' q, tb_get w b None = (w', Ok (AllFolds q)) /\ w_disk w' = w_disk w /\ grown (w_heap w) (w_heap w') /\
    Forall (fresh (w_heap w)) (refs_of (w_heap w') (AllFolds q)) /\
    read_out (w_heap w') (q_train q) = q_train c /\ read_out (w_heap w') (q_test q) = q_test c /\
    read_out (w_heap w') (q_label q) = q_label c /\ read_out (w_heap w') (q_unlabel q) = q_unlabel c.
Proof.
  intro Ec. destruct (tb_get w b None) as [w' res] eqn:E. pose proof (tb_get_cases _ _ _ _ _ E) as (D & G & _ & R).
  revert E. unfold tb_get. unfold contents in Ec. destruct (b_split b) as [q|]; [|discriminate]. injection Ec as Ec. rewrite Ec.
  destruct (new_quad (w_heap w) c) as [h q'] eqn:EQ. intro E. injection E as <- <-. exists (set_heap w h), q'. split; [reflexivity|]. split; [exact D|]. split; [exact G|].
  split; [specialize (R _ eq_refl); eapply Forall_impl; [|exact R]; cbn; tauto|]. apply new_quad_spec in EQ. tauto.
Qed.

(** ** A new split *)
Lemma scalars_instances ks : (forall k k', In k ks -> In k' ks -> key_ty k = key_ty k') -> instance_set (scalars ks) ks.
Proof. intro H. split; [reflexivity|exact H]. Qed.

Lemma split_sized X y names tr rate n ac ds fs : SplitModel.split X (Some y) (Some names) tr rate n ac ds = Some (Ok fs) ->
  data_size X (Some y) (Some names) (y_len y).
Proof.
  unfold SplitModel.split. destruct (split_names X (Some y) (Some names)) as [idx|e] eqn:E; [|discriminate]. intros _.
  revert E. unfold split_names. destruct X as [n0|]; cbn [app].
  - destruct (forallb _ _) eqn:F; [|discriminate]. intros _. cbn in F. rewrite !andb_true_iff in F. destruct F as (F1 & F2 & _). apply Nat.eqb_eq in F1, F2.
    split; [right; left; discriminate|]. split; [intros m E; congruence|]. split; [intros l E; injection E as ->; reflexivity|].
    split; [intros l E; injection E as ->; reflexivity|]. intros l E. injection E as <-. congruence.
  - destruct (forallb _ _) eqn:F; [|discriminate]. intros _. cbn in F. rewrite !andb_true_iff in F. destruct F as (F1 & _). apply Nat.eqb_eq in F1.
    split; [right; left; discriminate|]. split; [discriminate|]. split; [intros l E; injection E as ->; reflexivity|].
    split; [intros l E; injection E as ->; reflexivity|]. intros l E. injection E as <-. congruence.
Qed.

Lemma nth_map_some {A B} (f : A -> B) l n x : nth_error (map f l) n = Some x -> exists a, nth_error l n = Some a /\ x = f a.
Proof. rewrite nth_error_map. destruct (nth_error l n); cbn; [intro E; injection E; eauto|discriminate]. Qed.

Lemma grid_app_inj m l u t : (0 < m)%nat -> cells m (map Row l) ++ cells m (map Row u) = grid m t -> l ++ u = t.
Proof.
  intros M E.
  assert (G : forall l, cells m (map Row l) = grid m l).
  { clear. unfold cells, grid. induction l as [|i l IH]; cbn; auto. now rewrite IH. }
  rewrite !G in E. unfold grid in E.
  assert (A : list_prod (l ++ u) (seq 0 m) = list_prod t (seq 0 m)).
  { rewrite <- E. clear. induction l as [|i l IH]; cbn; auto. rewrite IH. now rewrite app_assoc. }
  clear E G. revert t A. generalize (l ++ u). clear l u. destruct m as [|m]; [lia|]. clear M.
  induction l as [|i l IH]; intros [|j t] A; cbn [list_prod seq map app] in A; try discriminate; auto.
  assert (i = j) by congruence. subst j. f_equal. apply IH. injection A as A. now apply app_inv_head in A.
Qed.

(** The folds of a new split. *)
Lemma new_split_single w b a w' b' q y : tb_split w b a = Some (w', b', Ok (q, false)) -> b_y b = YVec y ->
  uniform (Some (b_names b)) -> Forall (shuffle (List.length y)) (s_draws a) ->
  b_split b' = Some q /\ b_count b' = Some (s_count a) /\ exists c, contents (w_heap w') b' = Some c /\ folds_are c (Z.to_nat (s_count a)) /\
  forall r tr te la un, fold_at c r tr te la un -> exists ktr kte kla kun,
    instance_set tr ktr /\ instance_set te kte /\ instance_set la kla /\ instance_set un kun /\
    Permutation (ktr ++ kte) (map norm (b_names b)) /\ kla ++ kun = ktr /\
    (* the proportions *)
    (forall c, nearest_even ((1 - s_ratio a) * inject_Z (Z.of_nat (List.length y))) c -> List.length ktr = slice_size (List.length y) c) /\
    (forall c, nearest_even (s_rate a * inject_Z (Z.of_nat (List.length ktr))) c -> List.length kla = slice_size (List.length ktr) (Z.max 1 c)).
Proof.
  intros H Y U D. pose proof H as H0. apply tb_split_cases in H. destruct H as [(q0 & _ & _ & _ & X)|(Hn & G & CT & _ & _ & _ & _ & _ & _ & H)]; [discriminate|].
  destruct H as [(e & X & _)|(h & q1 & c0 & w1 & M & _ & Hs & EH & V & F & S)]; [discriminate|].
  assert (q1 = q) by (destruct S as [(_ & X)|(e & _ & X)]; congruence). subst q1. split; auto. split; auto.
  pose proof (make_split_counted _ _ _ _ _ _ M) as (L1 & L2 & L3 & L4).
  exists {| q_train := read_out h (q_train q); q_test := read_out h (q_test q); q_label := read_out h (q_label q); q_unlabel := read_out h (q_unlabel q) |}.
  split; [unfold contents; now rewrite Hs, EH|]. split; [unfold folds_are; cbn; auto|].
  revert M. unfold make_split. rewrite Y. destruct (SplitModel.split _ _ _ _ _ _ _ _) as [[fs|e]|] eqn:E; cbn [option_map rmap]; try discriminate.
  intro X. assert (EV : store_views (w_heap w) fs = (h, q)) by congruence. clear X. apply store_views_spec in EV. destruct EV as (_ & _ & _ & R1 & R2 & R34).
  pose proof (split_sized _ _ _ _ _ _ _ _ _ E) as DS. cbn [y_len] in DS.
  destruct (C27_partition _ _ _ _ _ _ _ _ _ _ DS U D E) as [_ P]. destruct R34 as [R3 R4]; [eapply Forall_impl; [|exact P]; cbn; tauto|].
  intros r tr te la un (Hr & A1 & A2 & A3 & A4). cbn [q_train q_test q_label q_unlabel] in *. rewrite R1 in A1. rewrite R2 in A2. rewrite R3 in A3. rewrite R4 in A4.
  apply nth_map_some in A1, A2, A3, A4. destruct A1 as (f & Ef & ->), A2 as (f2 & E2 & ->), A3 as (f3 & E3 & ->), A4 as (f4 & E4 & ->).
  assert (f2 = f) by congruence. assert (f3 = f) by congruence. assert (f4 = f) by congruence. subst f2 f3 f4.
  rewrite Forall_forall in P. destruct (P f (nth_error_In _ _ Ef)) as [P1 P2]. cbn [instances] in P1.
  assert (T : forall k k', In k (f_train f ++ f_test f) -> In k' (f_train f ++ f_test f) -> key_ty k = key_ty k').
  { intros k k' Hk Hk'. apply (Permutation_in _ P1) in Hk, Hk'. apply in_map_iff in Hk, Hk'. destruct Hk as (v & <- & Hv), Hk' as (v' & <- & Hv'). exact (U _ v v' eq_refl Hv Hv'). }
  exists (f_train f), (f_test f), (f_label f), (f_unlabel f).
  split; [apply scalars_instances; intros; apply T; apply in_app_iff; auto|]. split; [apply scalars_instances; intros; apply T; apply in_app_iff; auto|].
  split; [apply scalars_instances; intros; apply T; apply in_app_iff; left; rewrite <- P2; apply in_app_iff; auto|].
  split; [apply scalars_instances; intros; apply T; apply in_app_iff; left; rewrite <- P2; apply in_app_iff; auto|].
  pose proof (C28_sizes _ _ _ _ _ _ _ _ _ _ DS U D E) as SZ. rewrite Forall_forall in SZ. destruct (SZ f (nth_error_In _ _ Ef)) as [Z1 Z2]. auto.
Qed.

Lemma new_split_multi w b a w' b' q y m : tb_split w b a = Some (w', b', Ok (q, false)) -> b_y b = YMat y ->
  List.length (hd [] y) = m -> (0 < m)%nat -> Forall (shuffle (List.length y)) (s_draws a) ->
  b_split b' = Some q /\ b_count b' = Some (s_count a) /\ exists c, contents (w_heap w') b' = Some c /\ folds_are c (Z.to_nat (s_count a)) /\
  forall r tr te la un, fold_at c r tr te la un -> exists ptr pte pla pun,
    tr = map (fun i => Scalar (KInt i)) ptr /\ te = map (fun i => Scalar (KInt i)) pte /\ row_set la pla /\ row_set un pun /\
    Permutation (ptr ++ pte) (zrange (Z.of_nat (List.length y))) /\ pla ++ pun = ptr /\
    ((s_all a = true -> (0 <= s_rate a)%Q /\ SplitSpec.rectangular y m) ->
    (* the proportions *)
      (forall c, nearest_even ((1 - s_ratio a) * inject_Z (Z.of_nat (List.length y))) c -> List.length ptr = slice_size (List.length y) c) /\
      (forall c, nearest_even (s_rate a * inject_Z (Z.of_nat (List.length ptr))) c -> List.length pla = slice_size (List.length ptr) (Z.max 1 c))).
Proof.
  intros H Y EM M0 D. apply tb_split_cases in H. destruct H as [(q0 & _ & _ & _ & X)|(Hn & G & CT & _ & _ & _ & _ & _ & _ & H)]; [discriminate|].
  destruct H as [(e & X & _)|(h & q1 & c0 & w1 & M & _ & Hs & EH & V & F & S)]; [discriminate|].
  assert (q1 = q) by (destruct S as [(_ & X)|(e & _ & X)]; congruence). subst q1. split; auto. split; auto.
  pose proof (make_split_counted _ _ _ _ _ _ M) as (L1 & L2 & L3 & L4).
  exists {| q_train := read_out h (q_train q); q_test := read_out h (q_test q); q_label := read_out h (q_label q); q_unlabel := read_out h (q_unlabel q) |}.
  split; [unfold contents; now rewrite Hs, EH|]. split; [unfold folds_are; cbn; auto|].
  revert M. unfold make_split. rewrite Y. destruct (split_multi_label _ _ _ _ _ _ _) as [[fs|e]|] eqn:E; cbn [option_map rmap]; try discriminate.
  match goal with |- context [new_quad ?a ?c] => destruct (new_quad a c) as [h1 q1] eqn:EQ end. intro X. assert (h1 = h) by congruence. assert (q1 = q) by congruence. subst h1 q1. clear X.
  apply new_quad_spec in EQ. destruct EQ as (_ & _ & _ & R1 & R2 & R3 & R4). cbn [q_train q_test q_label q_unlabel quad_of] in *.
  assert (SI : shape_is (Some y) (Some (List.length y, List.length (hd [] y))) (List.length y) (List.length (hd [] y))) by (left; reflexivity).
  destruct (C30_multi _ _ _ _ _ _ _ _ _ _ SI D E) as [_ P].
  intros r tr te la un (Hr & A1 & A2 & A3 & A4). cbn [q_train q_test q_label q_unlabel] in *. rewrite R1 in A1. rewrite R2 in A2. rewrite R3 in A3. rewrite R4 in A4.
  apply nth_map_some in A1, A2, A3, A4. destruct A1 as (f & Ef & ->), A2 as (f2 & E2 & ->), A3 as (f3 & E3 & ->), A4 as (f4 & E4 & ->).
  assert (f2 = f) by congruence. assert (f3 = f) by congruence. assert (f4 = f) by congruence. subst f2 f3 f4.
  rewrite Forall_forall in P. destruct (P f (nth_error_In _ _ Ef)) as (P1 & P2 & l & u & P3 & P4). rewrite P3, P4 in P2.
  apply grid_app_inj in P2; [|lia].
  exists (map Z.of_nat (f_train f)), (map Z.of_nat (f_test f)), (map Z.of_nat l), (map Z.of_nat u). unfold positions, row_set. rewrite P3, P4, !map_map.
  split; [reflexivity|]. split; [reflexivity|]. split; [reflexivity|]. split; [reflexivity|]. split; [rewrite <- map_app; unfold zrange; rewrite Nat2Z.id; now apply Permutation_map|].
  split; [rewrite <- map_app; now rewrite P2|]. intro AC.
  assert (AC' : s_all a = true -> (0 <= s_rate a)%Q /\ exists m', (0 < m')%nat /\ forall y0, Some y = Some y0 -> SplitSpec.rectangular y0 m').
  { intro Ha. destruct (AC Ha) as [Q0 RC]. split; auto. exists m. split; auto. intros y0 E0. injection E0 as <-. exact RC. }
  pose proof (C30_multi_sizes _ _ _ _ _ _ _ _ _ _ SI D AC' E) as SZ. rewrite Forall_forall in SZ. destruct (SZ f (nth_error_In _ _ Ef)) as [Z1 Z2].
  rewrite P3, map_length in Z2. rewrite !map_length. auto.
Qed.

(** ** What split_AL returns is the toolbox's own storage *)
Lemma views_nth fs : forall b i f, nth_error fs i = Some f ->
  nth_error (fst (views b fs)) i = Some (VView (b + i) 0 (List.length (f_label f))) /\
  nth_error (snd (views b fs)) i = Some (VView (b + i) (List.length (f_label f)) (List.length (f_train f) - List.length (f_label f))).
Proof.
  induction fs as [|g fs IH]; intros b i f; [destruct i; discriminate|]. cbn [views]. specialize (IH (S b)). destruct (views (S b) fs) as [l u]. cbn [fst snd] in *.
  destruct i; cbn [nth_error].
  - intro E. injection E as ->. now rewrite Nat.add_0_r.
  - intro E. destruct (IH i f E) as [-> ->]. now rewrite Nat.add_succ_comm.
Qed.
Lemma store_views_outs h fs h' q : store_views h fs = (h', q) ->
  out_at h' (q_train q) = map VList (seq (List.length (h_buf h)) (List.length fs)) /\
  out_at h' (q_test q) = map VList (seq (List.length (h_buf h) + List.length fs) (List.length fs)) /\
  out_at h' (q_label q) = fst (views (List.length (h_buf h)) fs) /\ out_at h' (q_unlabel q) = snd (views (List.length (h_buf h)) fs) /\
  List.length (h_buf h') = (List.length (h_buf h) + List.length fs + List.length fs)%nat.
Proof.
  unfold store_views, new_lists, new_bufs, new_out. cbn [h_buf h_out h_coll]. destruct (views _ fs) as [l u]. intro E. injection E as <- <-.
  unfold out_at. cbn [h_out h_buf q_train q_test q_label q_unlabel fst snd]. rewrite !map_length, !app_length, !map_length. cbn [List.length].
  set (o := h_out h).
  replace ((((o ++ [map VList (seq (List.length (h_buf h)) (List.length fs))]) ++ [map VList (seq (List.length (h_buf h) + List.length fs) (List.length fs))]) ++ [l]) ++ [u])
    with (o ++ [map VList (seq (List.length (h_buf h)) (List.length fs)); map VList (seq (List.length (h_buf h) + List.length fs) (List.length fs)); l; u]) by (rewrite <- !app_assoc; reflexivity).
  rewrite !app_nth2 by lia. replace (_ - List.length o)%nat with O by lia.
  replace (List.length o + 1 - List.length o)%nat with 1%nat by lia. replace (List.length o + 1 + 1 - List.length o)%nat with 2%nat by lia.
  replace (List.length o + 1 + 1 + 1 - List.length o)%nat with 3%nat by lia. cbn [nth]. repeat split; lia.
Qed.

Lemma split_shared w b a w' b' q y r tr te la un c : tb_split w b a = Some (w', b', Ok (q, false)) -> b_y b = YVec y ->
  uniform (Some (b_names b)) -> Forall (shuffle (List.length y)) (s_draws a) ->
  contents (w_heap w') b' = Some c -> fold_at c r tr te la un ->
  exists x, nth_error (out_at (w_heap w') (q_train q)) (Z.to_nat r) = Some (VList x) /\
  forall l, List.length l = List.length tr -> exists c', contents (write (w_heap w') (RBuf x) (XBuf l)) b' = Some c' /\
    fold_at c' r l te (firstn (List.length la) l) (skipn (List.length la) l).
Proof.
  intros H Y U D Ec FA. pose proof (new_split_single _ _ _ _ _ _ _ H Y U D) as (Sq & _).
  apply tb_split_cases in H. destruct H as [(q0 & _ & _ & _ & X)|(Hn & G & CT & _ & _ & _ & _ & _ & _ & H)]; [discriminate|].
  destruct H as [(e & X & _)|(h & q1 & c0 & w1 & M & _ & Hs & EH & V & F & S)]; [discriminate|].
  assert (q1 = q) by congruence. subst q1. rewrite EH in *. clear S.
  revert M. unfold make_split. rewrite Y. destruct (SplitModel.split _ _ _ _ _ _ _ _) as [[fs|e]|] eqn:E; cbn [option_map rmap]; try discriminate.
  intro X. assert (EV : store_views (w_heap w) fs = (h, q)) by congruence. clear X.
  pose proof (store_views_outs _ _ _ _ EV) as (O1 & O2 & O3 & O4 & LB). pose proof (store_views_spec _ _ _ _ EV) as (_ & _ & _ & R1 & R2 & R34).
  pose proof (split_sized _ _ _ _ _ _ _ _ _ E) as DS. cbn [y_len] in DS.
  destruct (C27_partition _ _ _ _ _ _ _ _ _ _ DS U D E) as [_ P]. destruct R34 as [R3 R4]; [eapply Forall_impl; [|exact P]; cbn; tauto|].
  unfold contents in Ec. rewrite Sq in Ec. injection Ec as <-. destruct FA as (Hr & A1 & A2 & A3 & A4). cbn [q_train q_test q_label q_unlabel] in *.
  set (i := Z.to_nat r) in *. set (x := (List.length (h_buf (w_heap w)) + i)%nat).
  rewrite R1 in A1. rewrite R2 in A2. rewrite R3 in A3. rewrite R4 in A4. pose proof A2 as A2'.
  apply nth_map_some in A1, A2, A3, A4. destruct A1 as (f & Ef & ->), A2 as (f2 & E2 & ->), A3 as (f3 & E3 & ->), A4 as (f4 & E4 & ->).
  assert (f2 = f) by congruence. assert (f3 = f) by congruence. assert (f4 = f) by congruence. subst f2 f3 f4. clear E2 E3 E4.
  assert (Hi : (i < List.length fs)%nat) by (apply nth_error_Some; congruence).
  assert (SQ : forall a n, (i < n)%nat -> nth_error (map VList (seq a n)) i = Some (VList (a + i))).
  { intros a0 n0 Hn0. rewrite nth_error_map. rewrite (nth_error_nth' _ 0%nat) by (now rewrite seq_length). cbn. now rewrite seq_nth. }
  exists x. split; [rewrite O1; apply SQ; auto|]. intros l Ll. unfold scalars in Ll. rewrite map_length in Ll.
  rewrite Forall_forall in P. destruct (P f (nth_error_In _ _ Ef)) as [_ P2]. apply (f_equal (@List.length _)) in P2. rewrite app_length in P2.
  unfold contents. rewrite Sq. eexists. split; [reflexivity|]. split; auto. cbn [q_train q_test q_label q_unlabel]. fold i.
  assert (OW : forall o, out_at (write h (RBuf x) (XBuf l)) o = out_at h o) by reflexivity.
  assert (BX : buf_at (write h (RBuf x) (XBuf l)) x = l) by (unfold buf_at; cbn [write h_buf]; apply put_nth_same; unfold x; lia).
  unfold read_out in *. rewrite !OW. rewrite O1, O2, O3, O4 in *. destruct (views_nth fs (List.length (h_buf (w_heap w))) i f Ef) as [V1 V2]. fold x in V1, V2.
  rewrite (map_nth_error (read (write h (RBuf x) (XBuf l))) i _ (SQ _ _ Hi)). fold x. rewrite (map_nth_error (read (write h (RBuf x) (XBuf l))) i _ (SQ _ _ Hi)).
  rewrite (map_nth_error _ i _ V1), (map_nth_error _ i _ V2). unfold read. rewrite BX. cbn [skipn]. unfold scalars. rewrite map_length.
  split; [reflexivity|]. split; [|split; [reflexivity|]].
  - rewrite write_buf by (intro X; injection X; unfold x; lia).
    assert (X : nth_error (map (read h) (map VList (seq (List.length (h_buf (w_heap w)) + List.length fs) (List.length fs)))) i = Some (scalars (f_test f))) by (rewrite R2; exact A2').
    rewrite (map_nth_error (read h) i _ (SQ _ _ Hi)) in X. exact X.
  - f_equal. rewrite <- Ll, firstn_all2; [reflexivity|]. rewrite skipn_length. lia.
Qed.
