(** Property C130: an experiment depends on the labels it has bought, and not before it has bought them. *)
From Verif Require Import Base BaseFacts IndexModel IndexProofs StateModel StateSpec StateProofs ExpModel ExpSpec ExpProps
  QueryModel BlindModel BlindSpec BlindProps CausalSpec.
From Coq Require Import String QArith.
Local Open Scope Z_scope.
Local Notation length := List.length.

Lemma update_from vs : forall L v, In v (cont (fst (ic_update L vs))) -> In v (cont L) \/ exists w, In w vs /\ norm v = norm w.
Proof.
  induction vs as [|a vs IH]; intros L v H; [now left|]. unfold ic_update in *. cbn [ic_loop] in H.
  assert (A : In v (cont (fst (ic_add L a))) -> In v (cont L) \/ exists w, In w (a :: vs) /\ norm v = norm w).
  { unfold ic_add. cbv zeta. repeat match goal with |- context [if ?b then _ else _] => destruct b end; cbn; auto. rewrite in_app_iff. intros [I|[<-|[]]]; auto. right. exists a. cbn. auto. }
  destruct (ic_add L a) as [c1 [w|e]]; cbn in A; [|cbn in H; auto].
  assert (G : In v (cont (fst (ic_loop ic_add c1 vs)))) by (destruct (ic_loop ic_add c1 vs) as [c2 [w'|e]]; exact H).
  destruct (IH c1 v G) as [I|(x & I & E)]; auto. right. exists x. cbn. auto.
Qed.

Lemma added_state {E} (s s' : sio icol E) sel p : sio_add s (EState (state_init (inl sel) p None None)) = (s', Ok tt) ->
  s_states s' = s_states s ++ [EState (state_init (inl sel) p None None)] /\ s_test s' = s_test s.
Proof.
  unfold sio_add. destruct (cost_of _) as [q|]; [|discriminate]. destruct (sel_of _) as [l|]; [|discriminate].
  intro H. injection H as <-. cbn. auto.
Qed.

Lemma queried_state {E} sel (p : sval E) : queried (EState (state_init (inl sel) p None None)) = sel.
Proof. reflexivity. Qed.

Notation the_loop := (al_loop ic_update ic_difference_update ic_len).

Lemma loop_extends strat perf clock fuel : forall hist L U s c L1 U1 s1 c1,
  the_loop fuel strat perf clock hist L U s c = Done L1 U1 s1 c1 -> exists more, s_states s1 = s_states s ++ more.
Proof.
  induction fuel as [|n IH]; intros hist L U s c L1 U1 s1 c1; cbn [al_loop].
  - destruct (sc_is_stop c _) as [[|]|]; try discriminate. intro H. injection H as _ _ <- _. exists []. now rewrite app_nil_r.
  - destruct (sc_is_stop c _) as [[|]|]; try discriminate.
    + intro H. injection H as _ _ <- _. exists []. now rewrite app_nil_r.
    + destruct (ic_update L _) as [L' [w|]]; [|discriminate]. destruct (ic_difference_update U _) as [U' [w'|]]; [|discriminate].
      destruct (sio_add s _) as [s' [[]|]] eqn:A; [|discriminate]. apply added_state in A. destruct A as [A _].
      destruct (sc_update _ _ _ c s') as [c' [u|]]; [|discriminate]. intro H. apply IH in H. destruct H as [more ->].
      rewrite A, <- app_assoc. eauto.
Qed.

Section Runs.
  Context {Y : Type} (strat : (key -> Y) -> list pyval -> list (list pyval) -> icol -> icol -> list pyval)
          (perf : (key -> Y) -> list pyval -> list pyval -> sval pyval) (test : list pyval) (clock : nat -> Q) (y y' : key -> Y).
  Hypothesis B : blind_strategy strat.
  Hypothesis F : fair_performance perf.
  Hypothesis T : agree y y' test.

  Let run (z : key -> Y) fuel := the_loop fuel (fun h L U => strat z (cont L) h L U) (fun _ L => perf z (cont L) test) clock.

  Lemma agree_update L sel : agree y y' (cont L) -> agree y y' sel -> agree y y' (cont (fst (ic_update L sel))).
  Proof. intros A S v I. apply update_from in I. destruct I as [I|(w & I & ->)]; auto. Qed.

  Lemma same_run fuel : forall hist L U s c L1 U1 s1 c1,
    run y fuel hist L U s c = Done L1 U1 s1 c1 -> agree y y' (cont L) ->
    (forall e, In e (skipn (length (s_states s)) (s_states s1)) -> agree y y' (queried e)) ->
    run y' fuel hist L U s c = Done L1 U1 s1 c1.
  Proof.
    unfold run. induction fuel as [|n IH]; intros hist L U s c L1 U1 s1 c1; cbn [al_loop].
    - destruct (sc_is_stop c _) as [[|]|]; auto.
    - destruct (sc_is_stop c _) as [[|]|]; auto. intros H A Q. rewrite <- (B y y' hist L U A).
      remember (strat y (cont L) hist L U) as sel eqn:Es.
      destruct (ic_update L sel) as [L' [w|]] eqn:EL; [|discriminate]. destruct (ic_difference_update U sel) as [U' [w'|]]; [|discriminate].
      destruct (sio_add s _) as [s' [[]|]] eqn:EA; [|discriminate]. pose proof (added_state _ _ _ _ EA) as [SA _].
      assert (X : exists more, s_states s1 = s_states s' ++ more).
      { destruct (sc_update _ _ _ c s') as [c' [u|]]; [|discriminate]. eapply loop_extends; eauto. }
      destruct X as [more X]. rewrite X, SA, <- app_assoc, skipn_app, skipn_all, Nat.sub_diag in Q. cbn [app skipn] in Q.
      assert (S : agree y y' sel) by exact (Q _ (or_introl eq_refl)).
      assert (A' : agree y y' (cont L')) by (replace L' with (fst (ic_update L sel)) by (now rewrite EL); now apply agree_update).
      rewrite <- (F y y' (cont L') test A' T), EA. destruct (sc_update _ _ _ c s') as [c' [u|]]; [|discriminate].
      apply IH; auto. rewrite X, skipn_app, skipn_all, Nat.sub_diag. cbn [app skipn]. intros e I. apply Q. now right.
  Qed.

  Lemma same_start t : forall fuel fuel' hist L U s c L1 U1 s1 c1 L2 U2 s2 c2,
    run y fuel hist L U s c = Done L1 U1 s1 c1 -> run y' fuel' hist L U s c = Done L2 U2 s2 c2 -> agree y y' (cont L) ->
    (forall e, In e (firstn t (skipn (length (s_states s)) (s_states s1))) -> agree y y' (queried e)) ->
    let n := (length (s_states s) + t)%nat in
    firstn n (s_states s1) = firstn n (s_states s2) /\
    option_map queried (nth_error (s_states s1) n) = option_map queried (nth_error (s_states s2) n).
  Proof.
    unfold run. induction t as [|t IH]; intros fuel fuel' hist L U s c L1 U1 s1 c1 L2 U2 s2 c2 H H' A Q.
    - destruct (loop_extends _ _ _ _ _ _ _ _ _ _ _ _ _ H) as [m1 E1]. destruct (loop_extends _ _ _ _ _ _ _ _ _ _ _ _ _ H') as [m2 E2].
      rewrite Nat.add_0_r. split; [rewrite E1, E2, !firstn_app, !firstn_all, Nat.sub_diag; now destruct m1, m2|].
      destruct fuel as [|k], fuel' as [|k']; cbn [al_loop] in H, H'; destruct (sc_is_stop c _) as [[|]|]; try discriminate;
        try (injection H as _ _ <- _; injection H' as _ _ <- _; reflexivity).
      rewrite <- (B y y' hist L U A) in H'. remember (strat y (cont L) hist L U) as sel eqn:Es.
      destruct (ic_update L sel) as [L' [w|]] eqn:EL; [|discriminate]. destruct (ic_difference_update U sel) as [U' [w'|]]; [|discriminate].
      destruct (sio_add s (EState (state_init (inl sel) (perf y _ _) _ _))) as [sa [[]|]] eqn:EA; [|discriminate].
      destruct (sio_add s (EState (state_init (inl sel) (perf y' _ _) _ _))) as [sb [[]|]] eqn:EB; [|discriminate].
      apply added_state in EA, EB. destruct EA as [EA _], EB as [EB _].
      destruct (sc_update _ _ _ c sa) as [ca [u|]]; [|discriminate]. destruct (sc_update _ _ _ c sb) as [cb [u'|]]; [|discriminate].
      apply loop_extends in H, H'. destruct H as [m H], H' as [m' H']. rewrite H, H', EA, EB, <- !app_assoc.
      do 2 rewrite (nth_error_app2 (s_states s)) by lia. rewrite Nat.sub_diag. reflexivity.
    - destruct fuel as [|k], fuel' as [|k']; cbn [al_loop] in H, H'; destruct (sc_is_stop c _) as [[|]|]; try discriminate;
        try (injection H as _ _ <- _; injection H' as _ _ <- _; split; reflexivity).
      rewrite <- (B y y' hist L U A) in H'. remember (strat y (cont L) hist L U) as sel eqn:Es.
      destruct (ic_update L sel) as [L' [w|]] eqn:EL; [|discriminate]. destruct (ic_difference_update U sel) as [U' [w'|]]; [|discriminate].
      destruct (sio_add s (EState (state_init (inl sel) (perf y _ _) _ _))) as [sa [[]|]] eqn:EA; [|discriminate].
      pose proof (added_state _ _ _ _ EA) as [SA _].
      assert (X : exists more, s_states s1 = s_states sa ++ more).
      { destruct (sc_update _ _ _ c sa) as [c' [u|]]; [|discriminate]. eapply loop_extends; eauto. }
      destruct X as [more X]. rewrite X, SA, <- app_assoc, skipn_app, skipn_all, Nat.sub_diag in Q. cbn [app skipn firstn] in Q.
      assert (S : agree y y' sel) by exact (Q _ (or_introl eq_refl)).
      assert (A' : agree y y' (cont L')) by (replace L' with (fst (ic_update L sel)) by (now rewrite EL); now apply agree_update).
      rewrite <- (F y y' (cont L') test A' T), EA in H'. destruct (sc_update _ _ _ c sa) as [c' [u|]]; [|discriminate].
      replace (length (s_states s) + Datatypes.S t)%nat with (length (s_states sa) + t)%nat by (rewrite SA, app_length; cbn; lia).
      eapply IH; eauto. rewrite X, skipn_app, skipn_all, Nat.sub_diag. cbn [app skipn]. intros e I. apply Q. now right.
  Qed.
End Runs.

(** The same labels for the initially labelled, the test and all queried instances: the same experiment on a fold. *)
Theorem C130_fold : forall Y (strat : (key -> Y) -> list pyval -> list (list pyval) -> icol -> icol -> list pyval) perf y y' fuel clock f c p L U io c',
  blind_strategy strat -> fair_performance perf ->
  run_fold (perf y) fuel (strat y) clock f c = (p, Done L U io c') ->
  agree_until (length (s_states io)) y y' f (s_states io) ->
  run_fold (perf y') fuel (strat y') clock f c = (p, Done L U io c').
Proof.
  intros Y strat perf y y' fuel clock f c p L U io c' B F H (A & T & Q). rewrite firstn_all in Q. unfold run_fold in *. injection H as <- H. f_equal.
  - symmetry. now apply F.
  - eapply (same_run strat perf (f_test f)); eauto.
Qed.
Print Assumptions C130_fold.

(** The same labels for the initially labelled, the test and the first [t] queried instances: the same first [t] states (with their
    performances), and the same query after them, or both stop there. *)
Theorem C130_until : forall Y (strat : (key -> Y) -> list pyval -> list (list pyval) -> icol -> icol -> list pyval) perf y y' t fuel fuel' clock f c p L U io c1 p' L' U' io' c1',
  blind_strategy strat -> fair_performance perf ->
  run_fold (perf y) fuel (strat y) clock f c = (p, Done L U io c1) ->
  run_fold (perf y') fuel' (strat y') clock f c = (p', Done L' U' io' c1') ->
  agree_until t y y' f (s_states io) ->
  p = p' /\ firstn t (s_states io) = firstn t (s_states io') /\
  option_map queried (nth_error (s_states io) t) = option_map queried (nth_error (s_states io') t).
Proof.
  intros Y strat perf y y' t fuel fuel' clock f c p L U io c1 p' L' U' io' c1' B F H H' (A & T & Q). unfold run_fold in *.
  injection H as <- H. injection H' as <- H'. split; [now apply F|].
  exact (same_start strat perf (f_test f) clock y y' B F T t _ _ _ _ _ _ _ _ _ _ _ _ _ _ _ H H' A Q).
Qed.
Print Assumptions C130_until.

(** The whole experiment. *)
Theorem C130_experiment : forall Y (strat : nat -> (key -> Y) -> list pyval -> list (list pyval) -> icol -> icol -> list pyval) perf y y' fuel clock c folds r acc rs,
  (forall k, blind_strategy (strat k)) -> fair_performance perf ->
  run_rounds (perf y) fuel (fun k => strat k y) clock c r folds acc = Some (acc ++ rs, Ok tt) ->
  Forall2 (fun f x => agree_until (length (s_states (x_io x))) y y' f (s_states (x_io x))) folds rs ->
  run_rounds (perf y') fuel (fun k => strat k y') clock c r folds acc = Some (acc ++ rs, Ok tt).
Proof.
  intros Y strat perf y y' fuel clock c folds r acc rs B F H Q. revert r acc H. induction Q as [|f x folds rs A Q IH]; intros r acc H; cbn [run_rounds] in *; auto.
  destruct (run_fold (perf y) fuel (strat r y) (clock r) f c) as [p [L U io c'|e|]] eqn:E; [| |discriminate].
  - assert (X : {| x_init := p; x_io := io |} = x).
    { assert (G : forall fs r a out, run_rounds (perf y) fuel (fun k => strat k y) clock c r fs a = Some (out, Ok tt) -> exists more, out = a ++ more).
      { induction fs as [|g fs IHf]; intros r0 a out G; cbn [run_rounds] in G; [injection G as <-; exists []; now rewrite app_nil_r|].
        destruct (run_fold _ _ _ _ g c) as [q [? ? ? ?|?|]]; try discriminate. apply IHf in G. destruct G as [m ->]. rewrite <- app_assoc. eauto. }
      destruct (G _ _ _ _ H) as [m M]. rewrite <- app_assoc in M. apply app_inv_head in M. cbn in M. congruence. }
    subst x. cbn [x_io] in A. rewrite (C130_fold Y (strat r) perf y y' fuel (clock r) f c p L U io c' (B r) F E A).
    replace (acc ++ {| x_init := p; x_io := io |} :: rs) with ((acc ++ [{| x_init := p; x_io := io |}]) ++ rs) in * by now rewrite <- app_assoc.
    now apply IH.
  - discriminate.
Qed.
Print Assumptions C130_experiment.

(** Uncertainty sampling on an array of labels is such a strategy. *)
Definition numbers (c : icol) : list Z := flat_map (fun v => match norm v with KInt z => if 0 <=? z then [z] else [] | KStr _ => [] end) (cont c).
Definition as_array (n : nat) (y : key -> Z) : list Z := map (fun i => y (KInt (Z.of_nat i))) (seq 0 n).
Definition sampling {F M} np (k : learner F M) X n m b (y : key -> Z) (_ : list pyval) (_ : list (list pyval)) (L U : icol) : list pyval :=
  match uncertainty_select np k X (as_array n y) m None (numbers L) (numbers U) b with
  | Ok sel => map (fun z => VNp (KInt z)) sel
  | Err _ => [] end.

Theorem C130_uncertainty : forall F M np (k : learner F M) X n m b, blind_strategy (sampling np k X n m b).
Proof.
  intros F M np k X n m b y y' h L U A. unfold sampling. rewrite (C103_uncertainty F M np k X (as_array n y) (as_array n y')); auto.
  split; [unfold as_array; now rewrite !map_length|]. intros i I. unfold numbers in I. apply in_flat_map in I. destruct I as (v & I & J).
  destruct (norm v) as [z|s] eqn:E; [|destruct J]. destruct (0 <=? z) eqn:Z0; [|destruct J]. destruct J as [<-|[]].
  apply Z.leb_le in Z0. unfold label_at. replace (z <? 0) with false by lia.
  unfold as_array. rewrite !nth_error_map. destruct (nth_error (seq 0 n) (Z.to_nat z)) as [j|] eqn:J; cbn; auto.
  assert (j = Z.to_nat z). { assert (Z.to_nat z < n)%nat by (rewrite <- (seq_length n 0); apply nth_error_Some; congruence).
    apply nth_error_nth with (d := O) in J. rewrite seq_nth in J by auto. lia. } subst j.
  rewrite Z2Nat.id by auto. rewrite <- E. f_equal. now apply A.
Qed.
Print Assumptions C130_uncertainty.

(** A strategy that takes the first unlabelled index if the first labelled instance has label 1, and the second otherwise; a
    performance that is the label of the last labelled instance.  The labellings differ on an instance that is queried last. *)
Definition ex_choice (y : key -> Z) (d : list pyval) (_ : list (list pyval)) (_ U : icol) : list pyval :=
  match d with v :: _ => if y (norm (last d v)) =? 1 then firstn 1 (cont U) else firstn 1 (rev (cont U)) | [] => [] end.
Definition ex_quality (y : key -> Z) (d _ : list pyval) : sval pyval := SNum (inject_Z (fold_right Z.add 0 (map (fun v => y (norm v)) d))).
Definition ex_labels (i : Z) (k : key) : Z := match k with KInt z => if z =? i then 1 else 0 | KStr _ => 0 end.

Example C130_example : exists c0,
  sc_init NNum (Some 2%Q) 0 = Ok c0 /\ blind_strategy ex_choice /\ fair_performance ex_quality /\
  exists p L U io c1, run_fold (ex_quality (ex_labels 0)) 5 (ex_choice (ex_labels 0)) (fun _ => 0%Q) ex_fold1 c0 = (p, Done L U io c1) /\
    map queried (s_states io) = [[VNp (KInt 1)]; [VNp (KInt 3)]] /\
    agree_until 2 (ex_labels 0) (fun k => ex_labels 0 k + ex_labels 2 k) ex_fold1 (s_states io) /\
    agree_until 1 (ex_labels 0) (fun k => ex_labels 0 k + ex_labels 3 k) ex_fold1 (s_states io).
Proof.
  eexists. split; [reflexivity|]. split; [|split].
  - intros y y' h L U A. unfold ex_choice. destruct (cont L) as [|v l] eqn:E; auto. rewrite (A (last (v :: l) v)); auto.
    assert (N : v :: l <> []) by discriminate. destruct (exists_last N) as (l' & a & ->). rewrite last_last. apply in_app_iff. right. now left.
  - intros y y' d t A _. unfold ex_quality. do 3 f_equal. apply map_ext_in. exact A.
  - do 5 eexists. split; [vm_compute; reflexivity|]. split; [reflexivity|].
    unfold agree_until, agree. cbn. split; (split; [|split]); intros;
      repeat (match goal with H : _ \/ _ |- _ => destruct H | H : False |- _ => destruct H end; subst; cbn in * ); try reflexivity.
Qed.

(** Folds run in threads share the model: a fold's record can depend on a label that only another fold has bought. *)
Theorem C130_threads_refuted : exists c0 es y y',
  sc_init NNum (Some 1%Q) 0 = Ok c0 /\ blind_strategy ex_choice /\ fair_performance ex_quality /\
  let t z := m_th (mach_run (ex_quality z) (fun _ => ex_choice z) (fun _ _ => 0%Q) (new_mach [ex_fold1; ex_fold2] ex_fold1 c0) es) 0%nat in
  t_at (t y) = PDone /\ t_at (t y') = PDone /\ agree_until 1 y y' ex_fold1 (s_states (t_io (t y))) /\
  map queried (s_states (t_io (t y))) = map queried (s_states (t_io (t y'))) /\ s_states (t_io (t y)) <> s_states (t_io (t y')).
Proof.
  eexists. exists [0; 0; 0; 0; 0; 1; 0; 0]%nat, (ex_labels 0), (fun k => ex_labels 0 k + ex_labels 4 k).
  split; [reflexivity|]. destruct C130_example as (_ & _ & B & F & _). split; [exact B|]. split; [exact F|].
  split; [vm_compute; reflexivity|]. split; [vm_compute; reflexivity|]. split; [|split; [vm_compute; reflexivity|vm_compute; discriminate]].
  split; [|split].
  - intros v I. vm_compute in I. destruct I as [<-|[]]. reflexivity.
  - intros v I. vm_compute in I. destruct I as [<-|[]]. reflexivity.
  - intros e I v J. vm_compute in I. destruct I as [<-|[]]. vm_compute in J. destruct J as [<-|[]]. reflexivity.
Qed.
Print Assumptions C130_threads_refuted.
