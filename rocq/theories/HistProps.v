(** C121: the history a knowledge repository prints; with [repository[index]] for C24 and C25. *)
From Verif Require Import Base BaseFacts IndexModel MLModel StateModel Dict OracleModel OracleSpec OracleProofs RepoModel RepoSpec RepoProofs RepoProofs2 RepoProps
  HistModel HistSpec HistProofs.
From Coq Require Import QArith String.
Local Open Scope Z_scope.

(** Whatever calls were made, the table of an ElementRepository has one column for every accepted query since the repository
    was last cleared, in order, with what was asked, answered and paid, and the last column has their number and all costs paid. *)
Theorem C121_element : forall A (labels : list A) indexes examples r h si sa sp st,
  er_init labels indexes examples = Ok r ->
  let had := is_some examples in
  let queries := since_cleared logged had had [] h in
  lists_queries si sa sp st (er_table si sa sp st (ec_run r h)) queries (sum (since_cleared paid had had [] h)) /\
  e_num (ec_run r h) = List.length queries.
Proof.
  intros A labels indexes examples r h si sa sp st H had queries. apply init_books in H. destruct H as (I & E & Y & N & C).
  destruct (run_books had h r E ltac:(now rewrite I) had (eq_sym I)) as (H1 & H2 & H3).
  unfold er_table. rewrite (H3 [] C). rewrite Y in H1. fold queries in H1. rewrite H1 in *. split; [apply table_lists|].
  apply H2. now rewrite N, Y.
Qed.
Print Assumptions C121_element.

Lemma balance {A} : forall (h : list (ecall A)) had inst acc, only_queries_cost h ->
  since_cleared paid had inst (flat_map costs_of acc) h = flat_map costs_of (since_cleared logged had inst acc h).
Proof.
  induction h as [|c h IH]; intros had inst acc O; [reflexivity|].
  assert (O' : only_queries_cost h) by (intros k l c0 x J; apply (O k l c0 x); now right).
  destruct c as [o|]; cbn [since_cleared].
  - rewrite <- IH by auto. f_equal. rewrite flat_map_app. f_equal.
    destruct o as [k l c x|ks ls cs xs|k l c x|k]; cbn [logged flat_map].
    + now rewrite (O k l c x (or_introl eq_refl)).
    + destruct cs as [cs|]; cbn [paid]; destruct (accepted _ _ _ _ _); cbn; rewrite ?app_nil_r; reflexivity.
    + destruct c, inst, x as [[|? [|? ?]]|]; reflexivity.
    + reflexivity.
  - destruct had; auto. apply (IH true false []); auto.
Qed.

(** If costs only come in by queries, the total is the sum of the costs shown in the columns. *)
Theorem C121_balance : forall A (labels : list A) indexes examples r h,
  er_init labels indexes examples = Ok r -> only_queries_cost h ->
  let had := is_some examples in
  e_cost (ec_run r h) = sum (flat_map costs_of (since_cleared logged had had [] h)).
Proof.
  intros A labels indexes examples r h H O had. apply init_books in H. destruct H as (I & E & Y & N & C).
  destruct (run_books had h r E ltac:(now rewrite I) had (eq_sym I)) as (H1 & H2 & H3).
  rewrite (H3 [] C). f_equal. now apply (balance h had had []).
Qed.
Print Assumptions C121_balance.

(** The cost of an entry added by [add] is in the total and in no column. *)
Theorem C121_added_refuted : forall A (labels : list A) indexes examples r h k l c x si sa sp st,
  er_init labels indexes examples = Ok r -> x <> None ->
  let r0 := ec_run r h in
  let r1 := fst (er_add r0 k l (Some c) (option_map inl x)) in
  (forall i, (i < e_num r0)%nat ->
     nth_error (er_table si sa sp st r1) i = nth_error (er_table si sa sp st r0) i) /\
  e_num r1 = e_num r0 /\ List.length (er_table si sa sp st r1) = List.length (er_table si sa sp st r0) /\
  e_cost r1 = (e_cost r0 + c)%Q.
Proof.
  intros A labels indexes examples r h k l c x si sa sp st H X r0 r1.
  destruct (C121_element A labels indexes examples r h si sa sp st H) as [_ N0]. fold r0 in N0.
  destruct (step_books r0 (EAdd k l (Some c) x)) as (B1 & B2 & B3 & B4 & B5). change (er_step r0 (EAdd k l (Some c) x)) with r1 in *.
  cbn [logged List.length] in B3, B4. rewrite app_nil_r in B3. rewrite Nat.add_0_r in B4.
  apply init_books in H. destruct H as (I & E & Y & N & C).
  destruct (run_books (is_some examples) h r E ltac:(now rewrite I) _ (eq_sym I)) as (H1 & H2 & H3). fold r0 in H1, H2.
  split; [|split; [auto|split]].
  - intros i L. unfold er_table, history_table. rewrite B3.
    assert (Len : e_num r0 = List.length (e_hist r0)) by (apply H2; now rewrite N, Y).
    rewrite !nth_error_app1; auto; rewrite map_length, combine_length, seq_length; lia.
  - unfold er_table, history_table. rewrite B3, !app_length. reflexivity.
  - rewrite B5. cbn [paid]. destruct x; [|contradiction]. cbn. rewrite andb_false_r. reflexivity.
Qed.
Print Assumptions C121_added_refuted.

(** ** MatrixRepository *)

(** The table of a MatrixRepository has one column for every query that returned since the repository was last cleared. *)
Theorem C121_matrix : forall labels indexes examples r h si sa sp st,
  mr_init labels indexes examples = Ok r ->
  let s := fst (mc_run (Live r) h) in
  let queries := returned [] (combine h (snd (mc_run (Live r) h))) in
  lists_queries si sa sp st (ms_table si sa sp st s) queries (ms_cost s) /\ ms_num s = List.length queries.
Proof.
  intros labels indexes examples r h si sa sp st H s queries. apply minit_books in H. destruct H as (N & Y & C).
  destruct (crun_books h (Live r)) as [H1 H2]. cbn [ms_hist ms_num] in *. rewrite Y in H1. fold s queries in H1.
  unfold ms_table. rewrite H1. split; [apply table_lists|]. fold s in H2. rewrite <- H1. apply H2. now rewrite N, Y.
Qed.
Print Assumptions C121_matrix.

(** ... and its total starts from nothing and grows by what each call charges: the costs of the entries it stores. *)
Theorem C121_matrix_total : forall labels indexes examples r h r1 X y known o,
  mr_init labels indexes examples = Ok r ->
  m_cost r = 0%Q /\ ms_cost (fst (mc_step (fst (mc_run (Live r) h)) MClear)) = 0%Q /\
  (fst (mc_run (Live r) h) = Live r1 -> mr_training r1 = (X, y, known) ->
   ms_cost (fst (mc_step (Live r1) (MCall o))) =
   fold_left Qplus (call_charged (m_width r) (is_some examples) (m_feat r) known o) (ms_cost (Live r1))).
Proof.
  intros labels indexes examples r h r1 X y known o H. pose proof (minit_books _ _ _ _ H) as (_ & _ & C).
  split; auto. split; [destruct (fst (mc_run (Live r) h)); reflexivity|]. intros E T.
  assert (K : m_width r1 = m_width r /\ m_inst r1 = m_inst r /\ m_feat r1 = m_feat r).
  { clear - E.
    assert (St : forall r0 o, m_width (fst (mr_step r0 o)) = m_width r0 /\ m_inst (fst (mr_step r0 o)) = m_inst r0 /\ m_feat (fst (mr_step r0 o)) = m_feat r0).
    { intros r0 [l k c x|ls ks cs xs|k x]; cbn [mr_step].
      - destruct (madd_kept r0 l k c x) as (A1 & A2 & A3 & _). auto.
      - unfold mr_update. destruct (negb _); auto.
        match goal with |- context[mr_loop r0 ?es] => destruct (mloop_kept es r0) as (A1 & A2 & A3 & _); destruct (mr_loop r0 es) as [r2 [u|e]] end; cbn in *; auto.
      - destruct (mdiscard_kept r0 k x) as [(A1 & A2 & A3 & _) _]. auto. }
    assert (Dead : forall g n q, exists n' q', fst (mc_run (Gone n q) g) = Gone n' q').
    { induction g as [|c g IH]; intros n q; [cbn; eauto|]. cbn [mc_run].
      assert (G : exists n' q', fst (mc_step (Gone n q) c) = Gone n' q').
      { destruct c as [[l k c x|ls ks cs xs|[k|] x]|]; cbn; eauto. destruct (same_length _ _ _ _); cbn; eauto. destruct ks; cbn; eauto. }
      destruct G as (n' & q' & G). destruct (mc_step (Gone n q) c) as [s a]. cbn [fst] in G. subst s.
      destruct (IH n' q') as (n2 & q2 & F). destruct (mc_run (Gone n' q') g). cbn in *. eauto. }
    revert r E. induction h as [|c h IH]; intros r E; [cbn in E; injection E as ->; auto|]. cbn [mc_run] in E. destruct c as [o|]; cbn [mc_step] in E.
    - destruct (St r o) as (A1 & A2 & A3). destruct (mr_step r o) as [r2 a]. cbn [fst] in *.
      specialize (IH r2). destruct (mc_run (Live r2) h) as [s t]. cbn [fst] in *. destruct (IH E) as (B1 & B2 & B3). repeat split; congruence.
    - destruct (Dead h O []) as (n' & q' & F). destruct (mc_run (Gone 0 []) h). cbn in *. congruence. }
  destruct K as (K1 & K2 & K3). assert (KI : m_inst r = is_some examples).
  { unfold mr_init in H. destruct (negb _); [discriminate|]. destruct (label_shape labels); [|discriminate]. cbn [bind] in H.
    match goal with H : context[guard ?b _] |- _ => destruct b end; [|discriminate]. cbn [guard bind] in H. injection H as <-. reflexivity. }
  cbn [mc_step]. destruct (mstep_books r1 o) as (B & _). destruct (mr_step r1 o) as [r2 a]. cbn [fst ms_cost] in *.
  rewrite B, K1, K2, K3, KI. unfold mr_training in T. injection T as _ _ T. rewrite T. reflexivity.
Qed.
Print Assumptions C121_matrix_total.

(** A query about new instances, well formed, charges exactly the costs that its column shows. *)
Theorem C121_matrix_balance : forall w inst d known ls ks cs (xs : option (list vec)),
  NoDup ks -> (forall k, In k ks -> ~ In k known) -> Forall (right_label w) ls ->
  List.length ks = List.length ls -> List.length cs = List.length ls ->
  (inst = true -> exists l, xs = Some l /\ List.length l = List.length ls /\ Forall (fun x => List.length x = d) l) ->
  (inst = false -> xs = None) ->
  call_charged w inst d known (MUpdate ls ks (Some cs) xs) = cs.
Proof.
  intros w inst d known ls ks cs xs ND NI RL LK LC XT XF. cbn [call_charged].
  change (same_lengths (List.length ls) (Some cs)) with (Nat.eqb (List.length cs) (List.length ls)).
  rewrite LK, LC, !Nat.eqb_refl. cbn [andb].
  assert (SX : same_lengths (List.length ls) xs = true).
  { destruct inst; [|now rewrite XF]. destruct (XT eq_refl) as (l & -> & L & _). cbn. now rewrite L, Nat.eqb_refl. }
  rewrite SX. cbn [each]. clear SX. revert ks cs xs known ND NI LK LC XT XF.
  induction RL as [|l ls R RL IH]; intros [|k ks] [|c cs] xs known ND NI LK LC XT XF; try discriminate; [destruct (each _ xs); reflexivity|].
  cbn [List.length combine map]. inversion ND as [|? ? N1 N2]; subst. injection LK as LK. injection LC as LC.
  assert (exists x xs', each (S (List.length ls)) xs = x :: each (List.length ls) xs' /\ right_example inst d x <> None /\
     (inst = true -> exists l, xs' = Some l /\ List.length l = List.length ls /\ Forall (fun x => List.length x = d) l) /\ (inst = false -> xs' = None)) as (x & xs' & Ex & RE & XT' & XF').
  { destruct inst.
    - destruct (XT eq_refl) as ([|v vs] & -> & L & F); [discriminate|]. inversion F; subst. injection L as L.
      exists (Some v), (Some vs). cbn. rewrite Nat.eqb_refl. repeat split; try discriminate; auto. intros _. eauto.
    - rewrite XF by auto. exists None, None. cbn. repeat split; try discriminate; auto. }
  rewrite Ex. cbn [combine charged]. destruct (in_dec Z.eq_dec k known) as [J|J]; [destruct (NI k (or_introl eq_refl) J)|].
  destruct (right_label_dec w l); [|contradiction]. destruct (right_example inst d x); [|contradiction]. cbn [app]. f_equal.
  apply IH; auto. intros k' J' W. apply in_app_iff in W. destruct W as [W|[W|[]]]; [apply (NI k'); [now right|auto]|subst; contradiction].
Qed.
Print Assumptions C121_matrix_balance.

(** A query about instances that the repository has gets a column with its costs, which are not in the total. *)
Theorem C121_matrix_repeat_refuted : forall r X y known ls ks cs,
  mr_training r = (X, y, known) -> (forall k, In k ks -> In k known) ->
  List.length ks = List.length ls -> List.length cs = List.length ls ->
  let s' := fst (mc_step (Live r) (MCall (MUpdate ls ks (Some cs) None))) in
  snd (mc_step (Live r) (MCall (MUpdate ls ks (Some cs) None))) = Ok false /\
  ms_hist s' = ms_hist (Live r) ++ [(ls, Some cs, ks)] /\ ms_cost s' = ms_cost (Live r) /\ ms_training s' = Some (X, y, known).
Proof.
  intros r X y known ls ks cs T I LK LC. cbn [mc_step mr_step]. unfold mr_update, same_length.
  rewrite LK, LC, !Nat.eqb_refl. cbn [andb negb].
  assert (G : forall es, (forall e, In e es -> In (snd (fst (fst e))) known) -> mr_loop r es = (r, Ok tt)).
  { induction es as [|[[[l k] c] x] es IH]; intro J; [reflexivity|]. cbn [mr_loop]. unfold mr_add. rewrite zmem_dec.
    unfold mr_training in T. injection T as _ _ T. rewrite T. destruct (in_dec Z.eq_dec k known) as [W|W].
    - apply IH. intros e' K. apply J. now right.
    - destruct W. apply (J _ (or_introl eq_refl)). }
  rewrite G.
  - cbn. repeat split; auto. unfold mr_training in T |- *. cbn. now rewrite T.
  - intros [[[l k] c] x] J. apply in_combine_l in J. apply in_combine_l in J. apply in_combine_r in J. now apply I.
Qed.
Print Assumptions C121_matrix_repeat_refuted.

(** A query that fails because the examples are missing has no column, but its first instance is stored and paid for. *)
Theorem C121_matrix_failed_refuted : forall r X y known l ls k ks c cs,
  mr_training r = (Some X, y, known) -> ~ In k known -> right_label (m_width r) l ->
  List.length ks = List.length ls -> List.length cs = List.length ls ->
  let s' := fst (mc_step (Live r) (MCall (MUpdate (l :: ls) (k :: ks) (Some (c :: cs)) None))) in
  snd (mc_step (Live r) (MCall (MUpdate (l :: ls) (k :: ks) (Some (c :: cs)) None))) = Err GenericErr /\
  ms_hist s' = ms_hist (Live r) /\ ms_cost s' = (ms_cost (Live r) + c)%Q /\
  ms_training s' = Some (Some X, y ++ [l], known ++ [k]).
Proof.
  intros r X y known l ls k ks c cs T NI R LK LC. unfold mr_training in T.
  destruct (m_inst r) eqn:I; [|discriminate]. injection T as TX TY TK.
  cbn [mc_step mr_step]. unfold mr_update, same_length. cbn [List.length]. rewrite LK, LC, !Nat.eqb_refl.
  cbn [andb negb column repeat map combine mr_loop]. unfold mr_add. rewrite zmem_dec, TK.
  destruct (in_dec Z.eq_dec k known); [contradiction|]. rewrite (proj2 (label_fits_spec _ _) R), I. cbn.
  unfold mr_training. cbn. rewrite ?I, TX, TY. auto.
Qed.
Print Assumptions C121_matrix_failed_refuted.

(** A cleared MatrixRepository is of no further use: whatever is called later, it holds no training data, has no cost, and
    every call that would store or remove something raises; only queries about nothing return. *)
Theorem C121_matrix_cleared_refuted : forall s h,
  let s' := fst (mc_run (fst (mc_step s MClear)) h) in
  ms_training s' = None /\ ms_cost s' = 0%Q /\
  (forall l k c x, snd (mc_step s' (MCall (MAdd l k c x))) = Err TypeErr) /\
  (forall k x, exists e, snd (mc_step s' (MCall (MDiscard k x))) = Err e) /\
  (forall ls ks cs xs b, snd (mc_step s' (MCall (MUpdate ls ks cs xs))) = Ok b -> ls = [] /\ ks = []) /\
  (forall ks, exists e, ms_retrieve s' ks = Err e) /\ (forall k, exists e, ms_getitem s' k = Err e) /\
  (forall ls cs ks, In (ls, cs, ks) (ms_hist s') -> ls = [] /\ ks = []).
Proof.
  intros s h.
  assert (E : fst (mc_step s MClear) = Gone O []) by (destruct s; reflexivity). rewrite E. clear E.
  assert (Nil : forall ls ks cs xs, same_length (A := mlabel) ls (Some (ks : list Z)) (cs : option (list Q)) (xs : option (list vec)) = true -> ks = [] -> ls = []).
  { intros ls ks cs xs L ->. unfold same_length in L. rewrite !andb_true_iff in L. destruct L as [[L _] _]. destruct ls; auto; discriminate. }
  assert (G : exists n q, fst (mc_run (Gone 0 []) h) = Gone n q /\ forall ls cs ks, In (ls, cs, ks) q -> ls = [] /\ ks = []).
  { assert (G : forall n q, (forall ls cs ks, In (ls, cs, ks) q -> ls = [] /\ ks = []) ->
      exists n' q', fst (mc_run (Gone n q) h) = Gone n' q' /\ forall ls cs ks, In (ls, cs, ks) q' -> ls = [] /\ ks = []).
    { induction h as [|c h IH]; intros n q Q; [cbn; eauto|]. cbn [mc_run].
      assert (St : exists n' q', fst (mc_step (Gone n q) c) = Gone n' q' /\ forall ls cs ks, In (ls, cs, ks) q' -> ls = [] /\ ks = []).
      { destruct c as [[l k c x|ls ks cs xs|[k|] x]|]; cbn [mc_step gone_step fst]; eauto.
        - destruct (same_length ls (Some ks) cs xs) eqn:L; cbn [negb fst]; eauto. destruct ks as [|k ks]; cbn [fst]; eauto.
          do 2 eexists. split; [reflexivity|]. intros ls' cs' ks' J. apply in_app_iff in J. destruct J as [J|[J|[]]]; [exact (Q _ _ _ J)|].
          injection J as <- _ <-. split; [exact (Nil ls [] cs xs L eq_refl)|reflexivity].
        - do 2 eexists. split; [reflexivity|]. intros ? ? ? []. }
      destruct St as (n' & q' & F & Q'). destruct (mc_step (Gone n q) c) as [s1 a]. cbn [fst] in F. subst s1.
      destruct (IH n' q' Q') as (n2 & q2 & F2 & Q2). destruct (mc_run (Gone n' q') h). cbn in *. eauto. }
    apply G. intros ? ? ? []. }
  destruct G as (n & q & -> & Q). cbn.
  split; auto. split; auto. split; auto. split; [intros [k|] x; eexists; reflexivity|]. split.
  - intros ls ks cs xs b. destruct (same_length ls (Some ks) cs xs) eqn:L; cbn [negb]; [|discriminate].
    destruct ks; cbn; [|discriminate]. intros _. split; [exact (Nil ls [] cs xs L eq_refl)|reflexivity].
  - split; [intros [|? ?]; eexists; reflexivity|]. split; [intro; eexists; reflexivity|exact Q].
Qed.
Print Assumptions C121_matrix_cleared_refuted.

(** ** repository[index] *)

(** The documented "raise if item is not in the index set" does not hold: an unknown index gives empty arrays. *)
Theorem C24_getitem_refuted : forall A (labels : list A) indexes examples r h k,
  er_init labels indexes examples = Ok r ->
  (content (life labels indexes examples h) k = None -> er_getitem (er_run r h) k = Ok ([], [], [k])) /\
  (forall l x, content (life labels indexes examples h) k = Some (l, x) ->
     er_getitem (er_run r h) k = Ok (if is_some examples then match x with Some v => [v] | None => [] end else [], [l], [])).
Proof.
  intros A labels indexes examples r h k H. unfold er_getitem. rewrite (C24_retrieve A labels indexes examples r h [k] H).
  cbn [flat_map filter]. split.
  - intros ->. reflexivity.
  - intros l x ->. destruct (is_some examples), x; reflexivity.
Qed.
Print Assumptions C24_getitem_refuted.

Theorem C25_getitem_refuted : forall r k X y known,
  mr_training r = (X, y, known) -> ~ In k known ->
  ms_getitem (Live r) k = Ok (true, (option_map (fun _ => []) X, [])).
Proof.
  intros r k X y known T NI. unfold mr_training in T. injection T as TX TY TK. cbn. unfold mr_retrieve_one, positions. rewrite TK.
  assert (P : forall n l, ~ In k l -> positions_from n k l = []).
  { intros n l. revert n. induction l as [|j l IH]; intros n N; [reflexivity|]. cbn. destruct (Z.eqb_spec k j) as [->|E].
    - destruct N. now left.
    - destruct (Z.eqb_spec j k); [congruence|]. apply IH. intro W. apply N. now right. }
  rewrite (P _ _ NI). cbn [bind]. unfold mr_rows. destruct (m_inst r); subst X; reflexivity.
Qed.
Print Assumptions C25_getitem_refuted.

(** ** Cases *)
Definition as_text {T} (s : shown T) : string := match s with Alone _ => "one" | Several _ => "many" end.
Definition paid_text (s : option (shown Q)) : string := match s with Some s => as_text s | None => "None" end.
Definition total_text (q : Q) : string := if Qeq_bool q 5 then "5" else "?".

(** Two queries (one about two instances), an addition that costs, a refused query. *)
Definition case_calls : list (ecall Z) :=
  [ECall (EUpdate [KInt 5; KInt 6] [1; 0] (Some [1; 2]%Q) None); ECall (EUpdate [KInt 7; KInt 8] [1] None None);
   ECall (EAdd (KInt 9) 1 (Some 2%Q) None); EClear; ECall (EUpdateOne (KInt 7) 1 None None)].
Example C121_case_element :
  exists r, er_init [1] [KInt 0] None = Ok r /\
  er_table as_text as_text paid_text total_text (ec_run r case_calls) =
   [("0", "query_index:many" ++ lf ++ "response:many" ++ lf ++ "cost:many");
    ("1", "query_index:one" ++ lf ++ "response:one" ++ lf ++ "cost:None");
    ("in all", "number_of_queries:2" ++ lf ++ "cost:5")]%string /\
  since_cleared logged false false [] case_calls = [([1; 0], Some [1; 2]%Q, [KInt 5; KInt 6]); ([1], None, [KInt 7])].
Proof. eexists. split; [reflexivity|]. split; vm_compute; reflexivity. Qed.

(** With examples the history can be cleared, and examples are no longer asked for. *)
Example C121_case_cleared :
  exists r, er_init [1] [KInt 0] (Some [[3; 4]]) = Ok r /\
  let h := [ECall (EUpdate [KInt 5] [1] (Some [1%Q]) (Some [[1; 1]])); EClear; ECall (EUpdate [KInt 6] [0] (Some [5%Q]) None)] in
  only_queries_cost h /\ since_cleared logged true true [] h = [([0], Some [5%Q], [KInt 6])] /\
  e_cost (ec_run r h) = sum [5%Q] /\ e_num (ec_run r h) = 1%nat.
Proof.
  eexists. split; [reflexivity|]. cbv zeta. split; [intros k l c x [E|[E|[E|[]]]]; discriminate|].
  split; [reflexivity|]. split; vm_compute; reflexivity.
Qed.

(** A repository with examples: a query about a known and a new instance, one about the known one, one without examples. *)
Example C121_case_matrix :
  exists r r1, mr_init [LNum 1; LNum 0] [10; 11] (Some [[3; 4]; [5; 6]]) = Ok r /\
  let h := [MCall (MUpdate [LNum 1; LNum 0] [10; 12] (Some [4; 1]%Q) (Some [[3; 4]; [7; 8]]));
            MCall (MUpdate [LNum 0] [12] (Some [8%Q]) None); MCall (MUpdate [LNum 1; LNum 1] [13; 14] (Some [2; 2]%Q) None)] in
  fst (mc_run (Live r) h) = Live r1 /\
  snd (mc_run (Live r) h) = [Ok false; Ok false; Err GenericErr] /\
  returned [] (combine h (snd (mc_run (Live r) h))) =
    [([LNum 1; LNum 0], Some [4; 1]%Q, [10; 12]); ([LNum 0], Some [8%Q], [12])] /\
  m_cost r1 = sum [1; 2]%Q /\ m_idx r1 = [10; 11; 12; 13] /\
  call_charged None true 2 [10; 11] (MUpdate [LNum 1; LNum 0] [10; 12] (Some [4; 1]%Q) (Some [[3; 4]; [7; 8]])) = [1%Q].
Proof. eexists. eexists. split; [reflexivity|]. cbv zeta. split; [reflexivity|]. repeat split; vm_compute; reflexivity. Qed.
