(** Proofs about experiments: threads that share one model. *)
From Verif Require Import Base BaseFacts SetFacts IndexModel IndexSpec IndexProofs StateModel StateSpec StateProofs StateProofs2
  StateProofs3 ExpModel ExpSpec ExpProofs.
From Coq Require Import String QArith.
Local Open Scope Z_scope.

Section Threads.
  Variables (perf : list pyval -> list pyval -> sval pyval)
            (strat : nat -> list pyval -> list (list pyval) -> icol -> icol -> list pyval) (clock : nat -> nat -> Q)
            (folds : list fold) (none : fold) (c0 : scrit).
  Notation step := (mach_step perf strat clock).
  Notation run es := (mach_run perf strat clock (new_mach folds none c0) es).

  Lemma run_snoc es i : run (es ++ [i]) = step (run es) i.
  Proof. unfold mach_run. rewrite fold_left_app. reflexivity. Qed.

  Lemma step_other m i j : j <> i -> m_th (step m i) j = m_th m j.
  Proof.
    intro H. unfold mach_step. destruct (thread_step _ _ _ _ _ _) as [t fits]. cbn. unfold set_th.
    destruct (Nat.eqb_spec j i); congruence.
  Qed.
  Lemma step_own m i : m_th (step m i) i = fst (thread_step perf (strat i) (clock i) i (m_fits m) (m_th m i)).
  Proof.
    unfold mach_step. destruct (thread_step _ _ _ _ _ _) as [t fits]. cbn. unfold set_th. now rewrite Nat.eqb_refl.
  Qed.
  Lemma step_fits m i : m_fits (step m i) = snd (thread_step perf (strat i) (clock i) i (m_fits m) (m_th m i)).
  Proof. unfold mach_step. destruct (thread_step _ _ _ _ _ _) as [t fits]. reflexivity. Qed.

  (** Is the next step of the thread a fit? *)
  Definition fits_next (t : thread) : bool := match t_at t with PFit0 | PFit => true | _ => false end.

  Lemma fits_of cl i s fits t : snd (thread_step perf s cl i fits t) = if fits_next t then (i, cont (t_L t)) :: fits else fits.
  Proof.
    unfold thread_step, fits_next. destruct (t_at t); auto.
    - destruct fits as [|[? d] fits]; auto.
    - destruct (sc_is_stop _ _) as [[]|]; auto.
    - destruct fits as [|[? d] fits]; auto. cbn zeta. destruct (ic_update _ _) as [? []]; auto. destruct (ic_difference_update _ _) as [? []]; auto.
    - destruct fits as [|[? d] fits]; auto. destruct (sio_add _ _) as [? []]; auto. destruct (sc_update _ _ _ _ _) as [? []]; auto.
  Qed.

  Section One.
    Variables (i : nat) (ls us : list Z) (name : crit_name) (v : option Q) (t0 : Q).
    Hypothesis (Hf : is_fold (nth i folds none) ls us) (Hc0 : sc_init name v t0 = Ok c0) (Vok : crit_ok name v).
    Hypothesis Hs : selects (strat i).
    Notation f := (nth i folds none).
    Notation finv := (finv f name t0 c0 (clock i)).
    Notation fstop := (fstop f name t0 c0 (clock i)).

    Definition tinv (fits : list (nat * list pyval)) (t : thread) : Prop :=
      match t_at t with
      | PFit0 => t = new_thread f c0
      | PPred0 => fits <> [] /\ t_hist t = [] /\ finv [] (t_L t) (t_U t) (t_io t) (t_crit t)
      | PTest => fits <> [] /\ finv (t_hist t) (t_L t) (t_U t) (t_io t) (t_crit t) /\ t_init t <> None
      | PSelect => fits <> [] /\ finv (t_hist t) (t_L t) (t_U t) (t_io t) (t_crit t) /\ t_init t <> None /\
                   ~ fstop (t_io t) (t_U t) (List.length (t_hist t))
      | PFit | PPred => fits <> [] /\ t_init t <> None /\ exists L U w w', finv (t_hist t) L U (t_io t) (t_crit t) /\
                        ~ fstop (t_io t) U (List.length (t_hist t)) /\ t_sel t <> [] /\
                        (forall x, In x (t_sel t) -> In (norm x) (elems U)) /\
                        ic_update L (t_sel t) = (t_L t, Ok w) /\ ic_difference_update U (t_sel t) = (t_U t, Ok w') /\
                        (ic_len (t_U t) < ic_len U)%nat
      | PDone => t_init t <> None /\ finv (t_hist t) (t_L t) (t_U t) (t_io t) (t_crit t) /\
                 fstop (t_io t) (t_U t) (List.length (t_hist t))
      | PRaised _ => False
      end.

    Definition mu (t : thread) : nat :=
      match t_at t with
      | PFit0 => 4 * ic_len (t_U t) + 3 | PPred0 => 4 * ic_len (t_U t) + 2 | PTest => 4 * ic_len (t_U t) + 1
      | PSelect => 4 * ic_len (t_U t) | PFit => 4 * ic_len (t_U t) + 3 | PPred => 4 * ic_len (t_U t) + 2
      | PDone | PRaised _ => 0
      end.

    Lemma tinv_fits fits fits' t : (fits <> [] -> fits' <> []) -> tinv fits t -> tinv fits' t.
    Proof. unfold tinv. destruct (t_at t); intuition. Qed.

    Lemma tinv_step fits t : tinv fits t ->
      tinv (snd (thread_step perf (strat i) (clock i) i fits t)) (fst (thread_step perf (strat i) (clock i) i fits t)) /\
      (t_at t = PDone \/ (mu (fst (thread_step perf (strat i) (clock i) i fits t)) < mu t)%nat).
    Proof.
      unfold tinv at 1. destruct (t_at t) eqn:At; unfold thread_step; rewrite At.
      - intros ->. cbn [fst snd]. split; [|right; cbn; lia]. unfold tinv. cbn. split; [discriminate|]. split; auto.
        eapply finv_init; eauto.
      - intros (N & H & I). destruct fits as [|[? d] fits]; [congruence|]. cbn [fst snd]. unfold tinv, mu. rewrite At. cbn.
        split; [|right; lia]. rewrite H. split; [discriminate|]. split; [exact I|discriminate].
      - intros (N & I & Ni). destruct (finv_stop _ _ _ _ _ _ _ _ _ _ I) as (b & E & Hb). rewrite E. destruct b; cbn [fst snd].
        + split; [|right; unfold mu; rewrite At; cbn; lia]. unfold tinv. cbn. split; [exact Ni|]. split; [exact I|now apply Hb].
        + assert (NSt : ~ fstop (t_io t) (t_U t) (List.length (t_hist t))) by (intro X; apply Hb in X; discriminate).
          split.
          * unfold tinv. cbn. auto.
          * right. unfold mu. rewrite At. cbn. lia.
      - intros (N & I & Ni & NSt). destruct fits as [|[? d] fits]; [congruence|].
        destruct (Hs d (t_hist t) (t_L t) (t_U t) (finv_nonempty _ _ _ _ _ _ _ _ _ _ I NSt)) as [S1 S2].
        cbn zeta. set (sel := strat i d (t_hist t) (t_L t) (t_U t)) in *.
        destruct (finv_step f ls us name v t0 c0 (clock i) Hf Hc0 Vok _ _ _ _ _ sel (SOther 0) I NSt S1 S2)
          as (L1 & w1 & U1 & w2 & io' & c' & E1 & E2 & E3 & E4 & E5 & Hlt & I').
        rewrite E1, E2. cbn [fst snd]. split; [|right; unfold mu; rewrite At; cbn; lia].
        unfold tinv. cbn. split; [discriminate|]. split; auto. exists (t_L t), (t_U t), w1, w2. repeat (split; auto).
      - intros (N & Ni & L & U & w & w' & R). cbn [fst snd]. split; [|right; unfold mu; rewrite At; cbn; lia].
        unfold tinv. cbn. split; [discriminate|]. split; auto. exists L, U, w, w'. exact R.
      - intros (N & Ni & L & U & w & w' & I & NSt & S1 & S2 & E1 & E2 & Hlt). destruct fits as [|[? d] fits]; [congruence|].
        destruct (finv_step f ls us name v t0 c0 (clock i) Hf Hc0 Vok _ _ _ _ _ (t_sel t) (perf d (s_test (t_io t))) I NSt S1 S2)
          as (L1 & w1 & U1 & w2 & io' & c' & E1' & E2' & E3 & E4 & E5 & _ & I').
        rewrite E3, E5. cbn [fst snd]. split; [|right; unfold mu; rewrite At; cbn; lia].
        rewrite E1 in E1'. rewrite E2 in E2'. injection E1' as -> ->. injection E2' as -> ->.
        unfold tinv. cbn. split; [discriminate|]. split; auto.
      - intros R. cbn [fst snd]. split; auto. unfold tinv. rewrite At. exact R.
      - intros [].
    Qed.

    Lemma tinv_run es : tinv (m_fits (run es)) (m_th (run es) i) /\
      (t_at (m_th (run es) i) = PDone \/ (mu (m_th (run es) i) + count_occ Nat.eq_dec es i <= 4 * List.length us + 3)%nat).
    Proof.
      induction es as [|j es [IH IHm]] using rev_ind.
      - split; [reflexivity|]. right. cbn. destruct (fold_facts _ _ _ Hf) as (_ & _ & _ & _ & _ & _ & _ & -> & _). lia.
      - rewrite run_snoc. set (m := run es) in *. destruct (Nat.eq_dec j i) as [->|Hj].
        + rewrite step_own, step_fits. destruct (tinv_step _ _ IH) as [A B]. split; auto.
          destruct IHm as [D|IHm].
          * left. unfold thread_step. now rewrite D.
          * destruct B as [B|B]; [left; unfold thread_step; now rewrite B|]. right.
            rewrite count_occ_app. cbn. destruct (Nat.eq_dec i i); [|congruence]. lia.
        + rewrite step_other by auto. split.
          * eapply tinv_fits; [|exact IH]. intro N. rewrite step_fits, fits_of. destruct (fits_next _); auto. discriminate.
          * rewrite count_occ_app. cbn. destruct (Nat.eq_dec j i); [congruence|]. now rewrite Nat.add_0_r.
    Qed.

    Lemma tinv_keeps fits t : tinv fits t -> keeps_indexes f ls us (t_io t).
    Proof.
      unfold tinv. destruct (t_at t).
      - intros ->. eapply (finv_keeps f ls us name t0 c0 (clock i)); auto. eapply finv_init; eauto.
      - intros (_ & _ & I). eapply finv_keeps; eauto.
      - intros (_ & I & _). eapply finv_keeps; eauto.
      - intros (_ & I & _). eapply finv_keeps; eauto.
      - intros (_ & _ & L & U & w & w' & I & _). eapply finv_keeps; eauto.
      - intros (_ & _ & L & U & w & w' & I & _). eapply finv_keeps; eauto.
      - intros (_ & I & _). eapply finv_keeps; eauto.
      - intros [].
    Qed.

    Lemma tinv_done fits t : tinv fits t -> t_at t = PDone ->
      stopped name (crit_value (sc_value c0)) t0 (clock i) us (t_io t) /\
      step_sets (t_io t) (List.length (s_states (t_io t))) (t_L t) (t_U t) /\ t_init t <> None.
    Proof.
      unfold tinv. intros T D. rewrite D in T. destruct T as (Ni & I & St). split; [eapply finv_stopped; eauto|].
      split; auto. destruct (finv_len f ls us name t0 c0 (clock i) Hf _ _ _ _ _ I) as (E & _ & _ & _ & _ & W & _). now rewrite E.
    Qed.

    Lemma tinv_test fits t : tinv fits t -> s_test (t_io t) = f_test f.
    Proof. intro T. apply (tinv_keeps _ _ T). Qed.
  End One.

  (** *** the model used *)
  Lemma latest_fit es1 j es2 :
    fits_next (m_th (run es1) j) = true ->
    (forall a k b, es2 = a ++ k :: b -> fits_next (m_th (run (es1 ++ j :: a)) k) = false) ->
    exists rest, m_fits (run (es1 ++ j :: es2)) = (j, cont (t_L (m_th (run es1) j))) :: rest.
  Proof.
    intros Hj. induction es2 as [|k es2 IH] using rev_ind; intro H.
    - rewrite run_snoc, step_fits, fits_of, Hj. eauto.
    - destruct IH as [rest IH].
      { intros a k' b E. apply (H a k' (b ++ [k])). rewrite E, <- app_assoc. reflexivity. }
      exists rest. replace (es1 ++ j :: es2 ++ [k]) with ((es1 ++ j :: es2) ++ [k]) by now rewrite <- app_assoc.
      rewrite run_snoc, step_fits, fits_of, (H es2 k [] eq_refl). exact IH.
  Qed.

  Lemma pred0_record m i d r : t_at (m_th m i) = PPred0 -> m_fits m = d :: r ->
    t_init (m_th (step m i) i) = Some (perf (snd d) (s_test (t_io (m_th m i)))).
  Proof. intros A F. rewrite step_own. unfold thread_step. rewrite A, F. destruct d. reflexivity. Qed.

  Lemma pred_record m i d r : t_at (m_th m i) = PPred -> m_fits m = d :: r ->
    t_at (m_th (step m i) i) = PTest ->
    s_states (t_io (m_th (step m i) i)) = s_states (t_io (m_th m i)) ++
      [EState (state_init (inl (t_sel (m_th m i))) (perf (snd d) (s_test (t_io (m_th m i)))) None None)].
  Proof.
    intros A F. rewrite step_own. unfold thread_step. rewrite A, F. destruct d as [j d].
    destruct (sio_add _ _) as [io' r'] eqn:E. unfold sio_add in E. cbn in E. injection E as <- <-.
    destruct (sc_update _ _ _ _ _) as [c' [|]]; [|discriminate]. reflexivity.
  Qed.

  (** *** one thread after another *)
  Definition tsteps (i : nat) (k : nat) (x : thread * list (nat * list pyval)) :=
    Nat.iter k (fun x => thread_step perf (strat i) (clock i) i (snd x) (fst x)) x.

  Lemma iter_run m i k : let x := tsteps i k (m_th m i, m_fits m) in
    m_th (mach_run perf strat clock m (repeat i k)) i = fst x /\ m_fits (mach_run perf strat clock m (repeat i k)) = snd x.
  Proof.
    cbn zeta. induction k as [|k [IH1 IH2]]; [auto|].
    change (tsteps i (S k) (m_th m i, m_fits m)) with
      (thread_step perf (strat i) (clock i) i (snd (tsteps i k (m_th m i, m_fits m))) (fst (tsteps i k (m_th m i, m_fits m)))).
    replace (repeat i (S k)) with (repeat i k ++ [i]) by (symmetry; apply repeat_cons).
    unfold mach_run in *. rewrite fold_left_app. cbn [fold_left]. rewrite step_own, step_fits, IH1, IH2. auto.
  Qed.

  Lemma tsteps_add i a b x : tsteps i (a + b) x = tsteps i b (tsteps i a x).
  Proof.
    unfold tsteps. rewrite Nat.add_comm. induction b as [|b IH]; [reflexivity|]. cbn [Nat.add Nat.iter nat_rect]. unfold Nat.iter in *. now rewrite IH.
  Qed.

  Lemma tsteps_S i k t fits : tsteps i (S k) (t, fits) = tsteps i k (thread_step perf (strat i) (clock i) i fits t).
  Proof. change (S k) with (1 + k)%nat. rewrite tsteps_add. reflexivity. Qed.

  Lemma alone_steps i p fuel : forall hist L U io c sel fits L' U' io' c',
    s_test io = f_test (nth i folds none) ->
    al_loop ic_update ic_difference_update ic_len fuel (fun h L U => strat i (cont L) h L U)
            (fun _ L => perf (cont L) (f_test (nth i folds none))) (clock i) hist L U io c = Done L' U' io' c' ->
    exists k fits' hist' sel', tsteps i k ({| t_at := PTest; t_L := L; t_U := U; t_io := io; t_init := p; t_crit := c;
                                   t_hist := hist; t_sel := sel |}, (i, cont L) :: fits) =
      ({| t_at := PDone; t_L := L'; t_U := U'; t_io := io'; t_init := p; t_crit := c';
          t_hist := hist'; t_sel := sel' |}, fits').
  Proof.
    induction fuel as [|fuel IH]; intros hist L U io c sel fits L' U' io' c' Te; cbn [al_loop];
      destruct (sc_is_stop c (clock i (List.length hist))) as [[]|] eqn:St; try discriminate.
    - intro H. injection H as <- <- <- <-. exists 1%nat. cbn. unfold thread_step. cbn. rewrite St. do 3 eexists. reflexivity.
    - intro H. injection H as <- <- <- <-. exists 1%nat. cbn. unfold thread_step. cbn. rewrite St. do 3 eexists. reflexivity.
    - set (sel1 := strat i (cont L) hist L U) in *.
      destruct (ic_update L sel1) as [L1 [w1|]] eqn:E1; [|discriminate].
      destruct (ic_difference_update U sel1) as [U1 [w2|]] eqn:E2; [|discriminate].
      destruct (sio_add io _) as [io1 [[]|]] eqn:E3; [|discriminate].
      destruct (sc_update _ _ _ c io1) as [c1 [[]|]] eqn:E4; [|discriminate].
      assert (Te' : s_test io1 = f_test (nth i folds none)).
      { unfold sio_add in E3. cbn in E3. injection E3 as <-. exact Te. }
      intro H. destruct (IH (hist ++ [sel1]) L1 U1 io1 c1 sel1 ((i, cont L) :: fits) L' U' io' c' Te' H) as (k & fits' & hist' & sel' & R).
      exists (S (S (S (S k)))), fits', hist', sel'. rewrite <- R.
      rewrite tsteps_S. unfold thread_step at 1. cbn [t_at t_crit t_hist]. rewrite St. unfold goto. cbn [t_L t_U t_io t_init t_crit t_hist t_sel].
      rewrite tsteps_S. unfold thread_step at 1. cbn [t_at t_L t_U t_io t_init t_crit t_hist t_sel]. cbn zeta. fold sel1. rewrite E1, E2.
      rewrite tsteps_S. unfold thread_step at 1. cbn [t_at t_L]. unfold goto. cbn [t_L t_U t_io t_init t_crit t_hist t_sel].
      rewrite tsteps_S. unfold thread_step at 1. cbn [t_at t_L t_U t_io t_init t_crit t_hist t_sel]. rewrite Te, E3, E4. reflexivity.
  Qed.

  (** Whatever ran before, a fold that then runs alone gives the sequential result. *)
  Lemma serial_lemma i fuel p L U io c pre : ~ In i pre ->
    run_fold perf fuel (strat i) (clock i) (nth i folds none) c0 = (p, Done L U io c) ->
    exists k, let t := m_th (run (pre ++ repeat i k)) i in
      t_at t = PDone /\ t_init t = Some p /\ t_L t = L /\ t_U t = U /\ t_io t = io /\ t_crit t = c.
  Proof.
    intros Hpre H. unfold run_fold in H. apply pair_equal_spec in H. destruct H as [Hp H].
    assert (Ti : m_th (run pre) i = new_thread (nth i folds none) c0).
    { clear - Hpre. induction pre as [|j pre IH] using rev_ind; [reflexivity|].
      rewrite run_snoc, step_other by (intros ->; apply Hpre, in_or_app; right; now left).
      apply IH. intro X. apply Hpre, in_or_app. now left. }
    destruct (alone_steps i (Some p) fuel [] (fold_L (nth i folds none)) (fold_U (nth i folds none)) (fold_io (nth i folds none)) c0
                [] (m_fits (run pre)) L U io c eq_refl H) as (k & fits' & hist' & sel' & R).
    exists (2 + k)%nat. cbn zeta.
    replace (run (pre ++ repeat i (2 + k))) with (mach_run perf strat clock (run pre) (repeat i (2 + k)))
      by (unfold mach_run; now rewrite fold_left_app).
    destruct (iter_run (run pre) i (2 + k)) as [-> _]. rewrite tsteps_add, Ti.
    assert (X : tsteps i 2 (new_thread (nth i folds none) c0, m_fits (run pre)) =
      ({| t_at := PTest; t_L := fold_L (nth i folds none); t_U := fold_U (nth i folds none); t_io := fold_io (nth i folds none);
          t_init := Some p; t_crit := c0; t_hist := []; t_sel := [] |}, (i, cont (fold_L (nth i folds none))) :: m_fits (run pre))).
    { unfold tsteps, new_thread. cbn. rewrite Hp. reflexivity. }
    rewrite X, R. cbn. repeat split; auto.
  Qed.
End Threads.
