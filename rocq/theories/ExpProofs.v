(** Proofs about experiments. *)
From Verif Require Import Base BaseFacts SetFacts IndexModel IndexSpec IndexProofs StateModel StateSpec StateProofs StateProofs2
  StateProofs3 ExpModel ExpSpec.
From Coq Require Import String QArith.
Local Open Scope Z_scope.

Lemma ints_norm l : map norm (map (fun z => VNp (KInt z)) l) = map KInt l.
Proof. rewrite map_map. reflexivity. Qed.

Lemma ints_coll l : l <> [] -> let c := fst (ic_init (DList (map (fun z => VNp (KInt z)) l))) in
  (forall x, In x (elems c) <-> In x (map KInt l)) /\ etype c = Some TInt /\ cont c <> [] /\
  (NoDup l -> ic_len c = List.length l).
Proof.
  intros Hl c. assert (Hm : map (fun z => VNp (KInt z)) l <> []) by (intro X; apply map_eq_nil in X; auto).
  destruct (construct_lemma (map (fun z => VNp (KInt z)) l) Hm) as (A & _ & _).
  { intros v w Hv Hw. apply in_map_iff in Hv, Hw. destruct Hv as (? & <- & _), Hw as (? & <- & _). reflexivity. }
  fold c in A. assert (A' : forall x, In x (elems c) <-> In x (map KInt l)) by (intro x; rewrite A, ints_norm; reflexivity).
  split; auto.
  assert (Ne : elems c <> []).
  { destruct l as [|z l]; [congruence|]. intro X. assert (In (KInt z) (elems c)) by (apply A'; now left). rewrite X in H. destruct H. }
  split.
  { destruct (elems c) as [|k ks] eqn:Ek; [congruence|]. pose proof (WF_init_list (map (fun z => VNp (KInt z)) l)) as [_ W].
    fold c in W. rewrite (W k) by (rewrite Ek; now left). assert (In k (map KInt l)) by (apply A'; now left).
    apply in_map_iff in H. destruct H as (z & <- & _). reflexivity. }
  split; [intro X; apply Ne; unfold elems; now rewrite X|].
  intro N. destruct (ic_clen c (WF_init_list _)) as [Nd ->]. rewrite <- (map_length KInt l).
  apply Permutation_length, NoDup_Permutation; auto. apply FinFun.Injective_map_NoDup; auto. intros a b X. congruence.
Qed.

(** What is needed of a fold's collections. *)
Lemma fold_facts f ls us : is_fold f ls us ->
  WF (fold_L f) /\ WF (fold_U f) /\ etype (fold_L f) = Some TInt /\ etype (fold_U f) = Some TInt /\ elems (fold_U f) <> [] /\
  cont (fold_U f) <> [] /\ (forall x, In x (elems (fold_L f)) -> ~ In x (elems (fold_U f))) /\ ic_len (fold_U f) = List.length us /\
  (forall x, In x (elems (fold_L f)) \/ In x (elems (fold_U f)) <-> In x (map KInt (ls ++ us))).
Proof.
  intros (E1 & E2 & N1 & N2 & Nd & D). unfold fold_L, fold_U. rewrite E1, E2.
  destruct (ints_coll ls N1) as (A1 & A2 & A3 & _). destruct (ints_coll us N2) as (B1 & B2 & B3 & B4).
  cbn zeta in *. split; [apply WF_init_list|]. split; [apply WF_init_list|]. split; auto. split; auto.
  split; [intro X; apply B3; unfold elems in X; now apply map_eq_nil in X|]. split; auto. split; [|split].
  - intros x H1 H2. apply A1 in H1. apply B1 in H2. apply in_map_iff in H1, H2. destruct H1 as (a & <- & Ha), H2 as (b & E & Hb).
    injection E as ->. apply (D a); auto.
  - auto.
  - intro x. rewrite A1, B1, map_app, in_app_iff. tauto.
Qed.

Section Fold.
  Variables (f : fold) (ls us : list Z) (name : crit_name) (v : option Q) (t0 : Q) (c0 : scrit) (clock : nat -> Q).
  Hypothesis (Hf : is_fold f ls us) (Hc0 : sc_init name v t0 = Ok c0) (Vok : crit_ok name v).

  Definition finv := inv ic_update ic_difference_update ic_len (icL TInt false) WF elems (ic_ok TInt false) ic_den clock
                         (fold_L f) (fold_U f) (f_train f) (f_test f) name t0 c0.
  Definition fstop (io : sio icol pyval) (U : icol) (i : nat) := stop_at ic_len clock (fold_U f) name t0 c0 io U i.

  Lemma finv_init : finv [] (fold_L f) (fold_U f) (fold_io f) c0.
  Proof.
    destruct (fold_facts f ls us Hf) as (A & B & D & E & G & H & I & J & K).
    apply (inv_init ic_update ic_difference_update ic_len (icL TInt false) WF elems (ic_ok TInt false) ic_den ic_clen clock
      (fold_L f) (fold_U f) (f_train f) (f_test f) name v t0 c0); auto. split; auto.
  Qed.

  Lemma sel_facts L U io c hist sel : finv hist L U io c -> sel <> [] -> (forall x, In x sel -> In (norm x) (elems U)) ->
    ic_ok TInt false sel /\ (exists k, ic_den sel k) /\ (forall k, ic_den sel k -> In k (elems U)).
  Proof.
    intros (I1 & I2 & I3 & I4 & I5 & I6 & I7 & I8 & I9 & I10 & I11 & I12 & _) N S.
    destruct (fold_facts f ls us Hf) as (A & [_ B] & D & E & _). split; [|split].
    - intros x Hx. split; [|discriminate]. apply S in Hx. apply I12 in Hx. apply B in Hx. congruence.
    - destruct sel as [|x l]; [congruence|]. exists (norm x). left. reflexivity.
    - intros k Hk. apply in_map_iff in Hk. destruct Hk as (x & <- & Hx). auto.
  Qed.

  Lemma finv_step hist L U io c sel pv : finv hist L U io c -> ~ fstop io U (List.length hist) ->
    sel <> [] -> (forall x, In x sel -> In (norm x) (elems U)) ->
    exists L1 w1 U1 w2 io' c', ic_update L sel = (L1, Ok w1) /\ ic_difference_update U sel = (U1, Ok w2) /\
      sio_add io (EState (state_init (inl sel) pv None None)) = (io', Ok tt) /\
      s_states io' = s_states io ++ [EState (state_init (inl sel) pv None None)] /\
      sc_update ic_update ic_difference_update ic_len c io' = (c', Ok tt) /\ (ic_len U1 < ic_len U)%nat /\
      finv (hist ++ [sel]) L1 U1 io' c'.
  Proof.
    intros I St N S. destruct (sel_facts L U io c hist sel I N S) as (A & B & D).
    destruct (fold_facts f ls us Hf) as (F1 & F2 & F3 & F4 & F5 & _).
    apply (inv_step ic_update ic_difference_update ic_len (icL TInt false) WF elems (ic_ok TInt false) ic_den
      (ic_upd_ok TInt false) (ic_diff_ok TInt false) ic_clen clock (fold_L f) (fold_U f) (f_train f) (f_test f) name v t0 c0); auto.
  Qed.

  Lemma finv_nonempty hist L U io c : finv hist L U io c -> ~ fstop io U (List.length hist) -> cont U <> [].
  Proof.
    intros I N X. eapply (inv_nonempty ic_update ic_difference_update ic_len (icL TInt false) WF elems (ic_ok TInt false) ic_den
      ic_clen clock (fold_L f) (fold_U f) (f_train f) (f_test f) name t0 c0); eauto. unfold elems. now rewrite X.
  Qed.

  Lemma finv_stop hist L U io c : finv hist L U io c -> exists b, sc_is_stop c (clock (List.length hist)) = Ok b /\
    (b = true <-> fstop io U (List.length hist)).
  Proof.
    intros (I1 & I2 & I3 & I4 & I5 & I6 & I7 & I8 & I9 & I10 & I11 & I12 & I13 & I14 & I15 & I16 & I17 & I18 & I19). exact I18.
  Qed.

  Lemma finv_len hist L U io c : finv hist L U io c ->
    List.length (s_states io) = List.length hist /\ map queried (s_states io) = hist /\ s_train io = f_train f /\ s_test io = f_test f /\
    (ic_len U + List.length hist <= List.length us)%nat /\ step_sets io (List.length hist) L U /\ incl (elems U) (elems (fold_U f)).
  Proof.
    intros (I1 & I2 & I3 & I4 & I5 & I6 & I7 & I8 & I9 & I10 & I11 & I12 & I13 & I14 & _).
    destruct (fold_facts f ls us Hf) as (_ & _ & _ & _ & _ & _ & _ & F & _). rewrite <- F.
    repeat (split; [assumption|]). split; [|assumption]. unfold step_sets. rewrite <- I6, I3, I4. exact I9.
  Qed.

  Lemma finv_sets hist L U io c : finv hist L U io c -> forall i, (i <= List.length hist)%nat ->
    exists Li Ui, step_sets io i Li Ui /\ partitions ls us Li Ui /\
      ((i < List.length hist)%nat -> ~ fstop io Ui i) /\ (i = List.length hist -> Li = L /\ Ui = U).
  Proof.
    intros I i Hi. destruct (fold_facts f ls us Hf) as (F1 & F2 & F3 & F4 & F5 & F6 & F7 & F8 & F9).
    destruct (inv_partition ic_update ic_difference_update ic_len (icL TInt false) WF elems (ic_ok TInt false) ic_den ic_dden
      (ic_upd_ok TInt false) (ic_diff_ok TInt false) clock (fold_L f) (fold_U f) (f_train f) (f_test f) name t0 c0
      ltac:(split; auto) F2 hist L U io c I F7 i Hi) as (Li & Ui & W & A & B & D & E).
    destruct (finv_len hist L U io c I) as (_ & _ & T1 & T2 & _).
    exists Li, Ui. split; [unfold step_sets; rewrite T1, T2; exact W|]. split; [|split; auto].
    split; auto. intro x. now rewrite B, F9.
  Qed.

  Lemma finv_keeps hist L U io c : finv hist L U io c -> keeps_indexes f ls us io.
  Proof.
    intro I. destruct (finv_len _ _ _ _ _ I) as (E1 & E2 & E3 & E4 & _). split; auto. split; auto.
    intros i Hi. destruct (finv_sets _ _ _ _ _ I i) as (Li & Ui & A & B & _); [lia|]. eauto.
  Qed.

  Lemma finv_stopped hist L U io c : finv hist L U io c -> fstop io U (List.length hist) ->
    stopped name (crit_value (sc_value c0)) t0 clock us io.
  Proof.
    intros I St. destruct (finv_len _ _ _ _ _ I) as (E1 & E2 & E3 & E4 & E5 & _). split; [lia|].
    intros i Hi. destruct (finv_sets _ _ _ _ _ I i) as (Li & Ui & A & B & N & M); [lia|].
    destruct (fold_facts f ls us Hf) as (_ & _ & _ & _ & _ & _ & _ & F8 & _).
    exists Li, Ui. split; auto. rewrite E1, <- F8. split.
    - intro X. destruct (Nat.eq_dec i (List.length hist)); auto. exfalso. apply N; [lia|exact X].
    - intros ->. destruct (M eq_refl) as [-> ->]. exact St.
  Qed.

  Lemma step_sets_snoc io io' e i L U : s_states io' = s_states io ++ [e] -> s_L io' = s_L io -> s_U io' = s_U io ->
    s_train io' = s_train io -> s_test io' = s_test io -> (i <= List.length (s_states io))%nat ->
    step_sets io i L U -> step_sets io' i L U.
  Proof.
    intros H1 H2 H3 H4 H5 Hi W. unfold step_sets in *.
    rewrite (workspace_older ic_update ic_difference_update io e i io'), H4, H5; auto.
  Qed.

  Lemma finv_same hist L U io c : finv hist L U io c -> s_L io = fold_L f /\ s_U io = fold_U f.
  Proof. intros (I1 & I2 & _). auto. Qed.

  (** *** one fold on its own *)
  Variable perf : list pyval -> list pyval -> sval pyval.
  Variable strat : list pyval -> list (list pyval) -> icol -> icol -> list pyval.
  Hypothesis Hs : selects strat.

  (** The entries made so far. *)
  Definition made (hist : list (list pyval)) (io : sio icol pyval) : Prop :=
    forall i, (i < List.length hist)%nat -> exists L U L' U' e,
      step_sets io i L U /\ step_sets io (S i) L' U' /\ nth_error (s_states io) i = Some e /\
      records e (strat (cont L) (firstn i hist) L U) (perf (cont L') (f_test f)).

  Lemma alone_lemma fuel : forall hist L U io c, finv hist L U io c -> made hist io -> (ic_len U <= fuel)%nat ->
    exists hist' L' U' io' c',
      al_loop ic_update ic_difference_update ic_len fuel (fun h L U => strat (cont L) h L U)
              (fun _ L => perf (cont L) (f_test f)) clock hist L U io c = Done L' U' io' c' /\
      finv hist' L' U' io' c' /\ fstop io' U' (List.length hist') /\ made hist' io'.
  Proof.
    induction fuel as [|fuel IH]; intros hist L U io c I M Hfu; cbn [al_loop];
      destruct (finv_stop _ _ _ _ _ I) as (b & E & Hb); rewrite E; destruct b.
    - exists hist, L, U, io, c. repeat (split; auto). now apply Hb.
    - exfalso. enough (false = true) by discriminate. apply Hb. left. lia.
    - exists hist, L, U, io, c. repeat (split; auto). now apply Hb.
    - assert (NSt : ~ fstop io U (List.length hist)) by (intro X; apply Hb in X; discriminate).
      destruct (Hs (cont L) hist L U (finv_nonempty _ _ _ _ _ I NSt)) as [S1 S2].
      set (sel := strat (cont L) hist L U) in *.
      destruct (finv_step hist L U io c sel (perf (cont (fst (ic_update L sel))) (f_test f)) I NSt S1 S2)
        as (L1 & w1 & U1 & w2 & io' & c' & E1 & E2 & E3 & E4 & E5 & Hlt & I').
      rewrite E1 in E3, E4. cbn [fst] in E3, E4. rewrite E1, E2, E3, E5.
      apply IH; [exact I'| |lia].
      destruct (finv_len _ _ _ _ _ I) as (Ln & Q1 & T1 & T2 & _ & W & _).
      destruct (finv_len _ _ _ _ _ I') as (Ln' & Q1' & T1' & T2' & _ & W' & _).
      destruct (finv_same _ _ _ _ _ I) as [G1 G2]. destruct (finv_same _ _ _ _ _ I') as [G1' G2'].
      rewrite app_length in W'. cbn [List.length] in W'. rewrite Nat.add_1_r in W'.
      assert (Old : forall i La Ua, (i <= List.length hist)%nat -> step_sets io i La Ua -> step_sets io' i La Ua).
      { intros i La Ua Hi. eapply step_sets_snoc; eauto; try congruence; lia. }
      intros i Hi. rewrite app_length in Hi. cbn [List.length] in Hi.
      destruct (Nat.eq_dec i (List.length hist)) as [->|Hn].
      + exists L, U, L1, U1. eexists. split; [apply Old; auto|]. split; [exact W'|].
        split; [rewrite E4, nth_error_app2 by lia; rewrite Ln, Nat.sub_diag; reflexivity|].
        rewrite firstn_app, Nat.sub_diag, firstn_all. cbn [firstn]. rewrite app_nil_r. split; reflexivity.
      + destruct (M i) as (La & Ua & Lb & Ub & e & A & B & D & R); [lia|]. exists La, Ua, Lb, Ub, e.
        split; [apply Old; auto; lia|]. split; [apply Old; auto; lia|].
        split; [rewrite E4, nth_error_app1 by lia; exact D|].
        rewrite firstn_app. replace (i - List.length hist)%nat with 0%nat by lia. cbn [firstn]. rewrite app_nil_r. exact R.
  Qed.
End Fold.
