(** Theorems about QueryInstanceBMDR and QueryInstanceSPAL: C85 (what is selected), C86 (the quadratic program), C87 (ADMM). *)
From Verif Require Import Base BaseFacts IndexModel MiscModel MiscSpec QueryModel QuerySpec QueryProofs QueryNumpy BatchModel BatchSpec BatchSums
  BatchProofs BatchProofs2 BatchProofs3 BatchProofs4.
From Coq Require Import QArith Qabs Lqa Qfield.
Local Open Scope Z_scope.

(** ** C85 *)

(** The labels: exactly two classes are accepted; the labels 1 and -1 are kept and otherwise the smaller label becomes 1 and
    the larger -1. *)
Theorem C85_labels : forall y,
  match signed_labels y with
  | Ok y' => exists a b, a < b /\ (forall v, In v y <-> v = a \/ v = b) /\
      (a = -1 /\ b = 1 -> y' = y) /\
      (~ (a = -1 /\ b = 1) -> Forall2 (fun v v' => (v = a /\ v' = 1) \/ (v = b /\ v' = -1)) y y')
  | Err e => e = ValueErr /\ ~ exists a b, a < b /\ forall v, In v y <-> v = a \/ v = b
  end.
Proof.
  intro y.
  assert (II : forall x l v, In v (ins x l) <-> v = x \/ In v l).
  { intro x. induction l as [|w l IH]; intro v; cbn [ins]; [cbn; intuition|].
    destruct (Z.ltb_spec x w); [cbn; intuition|]. destruct (Z.eqb_spec x w); [subst; cbn; intuition|]. cbn. rewrite IH. intuition. }
  assert (IU : forall l v, In v (unique_labels l) <-> In v l).
  { induction l as [|x l IH]; intro v; [reflexivity|]. unfold unique_labels in *. cbn [fold_right]. rewrite II, IH. cbn. intuition. }
  assert (IS : forall x l, StronglySorted Z.lt l -> StronglySorted Z.lt (ins x l)).
  { intros x l S. induction S as [|w l S IH F]; cbn [ins]; [repeat constructor|].
    destruct (Z.ltb_spec x w); [constructor; [constructor; auto|constructor; [lia|eapply Forall_impl; [|exact F]; cbn; intros; lia]]|].
    destruct (Z.eqb_spec x w); [constructor; auto|]. constructor; auto. apply Forall_forall. intros v J. apply II in J as [->|J]; [lia|].
    eapply Forall_forall in F; eauto. }
  assert (SU : StronglySorted Z.lt (unique_labels y)).
  { unfold unique_labels. induction y; cbn [fold_right]; [constructor|auto]. }
  unfold signed_labels. destruct (unique_labels y) as [|a [|b [|c l]]] eqn:E.
  - split; [reflexivity|]. intros (a & b & L & H). specialize (IU y a). rewrite E in IU. cbn in IU. apply IU, H. auto.
  - split; [reflexivity|]. intros (p & q & L & H). pose proof (proj2 (IU y p) (proj2 (H p) (or_introl eq_refl))) as P.
    pose proof (proj2 (IU y q) (proj2 (H q) (or_intror eq_refl))) as P'. rewrite E in P, P'. cbn in P, P'. lia.
  - assert (LT : a < b) by (inversion SU as [|? ? ? F0]; subst; inversion F0; subst; assumption).
    assert (IN : forall v, In v y <-> v = a \/ v = b) by (intro v; rewrite <- IU, E; cbn; intuition).
    assert (R : forall l, incl l y ->
      Forall2 (fun v v' => (v = a /\ v' = 1) \/ (v = b /\ v' = -1)) l (map (fun v => if v =? a then 1 else if v =? b then -1 else v) l)).
    { induction l as [|v l IH]; intro I; constructor; [|apply IH; intros w J; apply I; right; exact J].
      destruct (proj1 (IN v) (I v (or_introl eq_refl))) as [-> | ->]; [rewrite Z.eqb_refl; auto|].
      destruct (Z.eqb_spec b a); [lia|]. rewrite Z.eqb_refl. auto. }
    destruct ((a =? -1) && (b =? 1)) eqn:C.
    + apply andb_true_iff in C as [C1 C2]. apply Z.eqb_eq in C1, C2. exists a, b. repeat split; auto; try (apply IN). intro N. tauto.
    + exists a, b. split; [exact LT|]. split; [exact IN|]. split; [|intros _; apply R, incl_refl].
      intros [-> ->]. cbn in C. discriminate.
  - split; [reflexivity|]. intros (p & q & L & H).
    assert (A : forall v, In v (a :: b :: c :: l) -> v = p \/ v = q) by (intros v J; apply H, IU; rewrite E; exact J).
    inversion SU as [|? ? S' F]; subst. inversion S' as [|? ? S'' F']; subst. inversion F; subst. inversion F'; subst.
    pose proof (A a ltac:(cbn; auto)). pose proof (A b ltac:(cbn; auto)). pose proof (A c ltac:(cbn; auto)). lia.
Qed.
Print Assumptions C85_labels.

(** The kernel: the built-in ones and functions returning an array with a row and a column for each instance. *)
Theorem C85_kernel : forall builtin n y k,
  match new_batch builtin n y k with
  | Ok (y', K) => signed_labels y = Ok y' /\ length K = n /\
      ((k = Rbf \/ k = Poly \/ k = Linear) /\ K = builtin k \/ k = Callable (KArray K n))
  | Err e =>
      signed_labels y = Err e \/
      (k = OtherKernel /\ e = NotImplErr) \/ (k = Callable KOther /\ e = TypeErr) \/
      (e = ValueErr /\ exists rows cols, (k = Callable (KArray rows cols) /\ (length rows <> n \/ cols <> n)) \/
                                         (rows = builtin k /\ length rows <> n))
  end.
Proof.
  intros builtin n y k. unfold new_batch, kernel_matrix. destruct (signed_labels y) as [y'|e]; cbn [bind]; [|left; reflexivity].
  destruct k as [| | |out|]; cbn [bind].
  1-3: rewrite Nat.eqb_refl, andb_true_r; match goal with |- context [Nat.eqb (length ?b) ?m] =>
    destruct (Nat.eqb_spec (length b) m) as [N|N]; cbn [bind];
    [split; [reflexivity|]; split; [exact N|]; left; split; [tauto|reflexivity]|
     right; right; right; split; [reflexivity|]; exists b, 0%nat; right; split; [reflexivity|exact N]] end.
  - destruct out as [rows cols|]; cbn [bind]; [|right; right; left; auto].
    destruct (Nat.eqb_spec (length rows) n) as [N|N]; destruct (Nat.eqb_spec cols n) as [N'|N']; cbn [andb bind].
    + split; [reflexivity|]. split; [exact N|]. right. rewrite N'. reflexivity.
    + right; right; right. split; [reflexivity|]. exists rows, cols. left. auto.
    + right; right; right. split; [reflexivity|]. exists rows, cols. left. auto.
    + right; right; right. split; [reflexivity|]. exists rows, cols. left. auto.
  - right; left. auto.
Qed.
Print Assumptions C85_kernel.

Lemma inside_iff n l : inside n l = true <-> forall i, In i l -> 0 <= i < Z.of_nat n.
Proof.
  unfold inside. rewrite forallb_forall. split; intros H i J; specialize (H i J).
  - apply andb_true_iff in H as [A B]. lia.
  - apply andb_true_iff. lia.
Qed.

(** Calls that need no computation: no batch, no more instances than asked for, instances that do not exist. *)
Theorem C85_direct : forall np num s K y beta mu gamma rho lam L U batch,
  (batch <= 0 -> snd (bmdr_select np num s K y beta gamma rho L U batch) = Err AssertErr /\
                 snd (spal_select np num s K y mu gamma rho lam L U batch) = Err AssertErr) /\
  (0 < batch -> Z.of_nat (length U) <= batch ->
                 snd (bmdr_select np num s K y beta gamma rho L U batch) = Ok U /\
                 snd (spal_select np num s K y mu gamma rho lam L U batch) = Ok U) /\
  (0 < batch < Z.of_nat (length U) -> (exists i, In i (L ++ U) /\ ~ 0 <= i < Z.of_nat (length K)) ->
                 snd (bmdr_select np num s K y beta gamma rho L U batch) = Err IndexErr /\
                 snd (spal_select np num s K y mu gamma rho lam L U batch) = Err IndexErr).
Proof.
  intros. unfold bmdr_select, spal_select. split; [|split].
  - intro B. destruct (Z.ltb_spec 0 batch); [lia|]. auto.
  - intros B B'. destruct (Z.ltb_spec 0 batch); [|lia]. destruct (Z.leb_spec (Z.of_nat (length U)) batch); [|lia]. auto.
  - intros B (i & J & N). destruct (Z.ltb_spec 0 batch); [|lia]. destruct (Z.leb_spec (Z.of_nat (length U)) batch); [lia|]. cbn [negb].
    assert (E : inside (length K) L && inside (length K) U = false).
    { apply not_true_is_false. intro T. apply andb_true_iff in T as [T1 T2]. apply N. apply in_app_iff in J as [J|J];
      [apply (proj1 (inside_iff _ _) T1 i J)|apply (proj1 (inside_iff _ _) T2 i J)]. }
    rewrite E. auto.
Qed.
Print Assumptions C85_direct.

Lemma pick_nonempty np U batch scores c : numpy_ok np -> length scores = length U -> 0 < batch <= Z.of_nat (length U) ->
  pick np U batch scores = Ok c -> c <> [] /\ best_batch U (fun i => nth i scores 0%Q) (Z.to_nat batch) c.
Proof.
  intros NP LS B P. destruct (largest_batch np U scores batch NP LS B) as (sel & P' & BB). unfold pick in P. rewrite P' in P.
  assert (sel = c) by congruence. subst. split; [|exact BB]. destruct BB as (ps & _ & LP & F & _). intros ->. inversion F; subst. cbn in LP. lia.
Qed.

(** [settles] with the scores known to have the right size. *)
Lemma settles_sized {St} np turn U batch s0 (rs : list (round St)) sel : numpy_ok np -> 0 < batch < Z.of_nat (length U) ->
  run np turn U batch 0 [] s0 rs sel -> (forall r, In r rs -> length (r_scores r) = length U) ->
  settles rs sel /\ forall r, In r rs -> best_batch U (fun i => nth i (r_scores r) 0%Q) (Z.to_nat batch) (r_chosen r).
Proof.
  intros NP B R HT.
  assert (EA : forall r, In r rs -> r_chosen r <> [] /\ best_batch U (fun i => nth i (r_scores r) 0%Q) (Z.to_nat batch) (r_chosen r)).
  { intros r J. destruct (run_each _ _ _ _ _ _ _ _ _ R r J) as (next & T & P). eapply pick_nonempty; eauto. lia. }
  split; [|intros r J; apply EA, J].
  destruct (run_len _ _ _ _ _ _ _ _ _ R ltac:(lia)) as [L1 L2]. destruct (run_ends _ _ _ _ _ _ _ _ _ R) as [E0 E].
  assert (L3 : length rs <> 1%nat).
  { intro J. destruct rs as [|r [|]]; try discriminate. destruct (E0 r eq_refl) as [_ A]. destruct (EA r (or_introl eq_refl)) as [NE _].
    destruct (A eq_refl) as [A'|A']; [|lia]. destruct (r_chosen r) as [|x l]; [contradiction|]. destruct (proj2 (A' x) (or_introl eq_refl)). }
  unfold settles. split; [lia|]. split; [exact (run_last_chosen _ _ _ _ _ _ _ _ _ R)|].
  intros i r r' J J'. destruct (E i r r' J J') as [A A']. split; [exact A|]. intro LL. destruct (A' LL) as [X|X]; [left; exact X|right; lia].
Qed.

Lemma bmdr_run np num s K y beta gamma rho L U batch rs sel : 0 < batch < Z.of_nat (length U) ->
  bmdr_select np num s K y beta gamma rho L U batch = (rs, Ok sel) ->
  run np (bmdr_turn num s K y beta gamma rho L U batch) U batch 0 [] (start num K gamma y L) rs sel.
Proof.
  intros B E. unfold bmdr_select in E. destruct (Z.ltb_spec 0 batch); [|lia]. destruct (Z.leb_spec (Z.of_nat (length U)) batch); [lia|].
  cbn [negb] in E. destruct (inside (length K) L && inside (length K) U); [|discriminate]. cbn [negb] in E. eapply rounds_run, E.
Qed.
Lemma bmdr_turn_inv num s K y beta gamma rho L U batch tau scores next :
  bmdr_turn num s K y beta gamma rho L U batch tau = Ok (scores, next) ->
  bmdr_answer s (program beta K L U batch (ones (length U)) tau) scores /\
  next = fun sel => admm num K L rho sel (ones (length sel)) (bmdr_A K gamma rho L sel) (bmdr_r K rho y L sel) (fun _ t d => bmdr_z rho t d)
                      max_iter tau (vdot K L sel tau) (repeat 0%Q (length sel)).
Proof.
  unfold bmdr_turn. intro E. destruct (value_of s (program beta K L U batch (ones (length U)) tau)
    (bmdr_first s (program beta K L U batch (ones (length U)) tau))) as [dr|e] eqn:V; [|discriminate]. cbn [bind] in E.
  split; [|congruence]. assert (dr = scores) by congruence. subst. apply bmdr_value, V.
Qed.

(** BMDR returns [batch] unlabelled instances with the largest weights of the last round; every round's weights are the
    solver's answer to the program for the model of that round; the rounds end when two choices agree, or after sixteen. *)
Theorem C85_bmdr : forall np num s K y beta gamma rho L U batch rs sel,
  numpy_ok np -> sized s -> 0 < batch < Z.of_nat (length U) ->
  bmdr_select np num s K y beta gamma rho L U batch = (rs, Ok sel) ->
  settles rs sel /\
  (forall r, nth_error rs 0 = Some r -> r_state r = start num K gamma y L) /\
  forall r, In r rs ->
    bmdr_answer s (program beta K L U batch (repeat 1%Q (length U)) (r_state r)) (r_scores r) /\
    best_batch U (fun i => nth i (r_scores r) 0%Q) (Z.to_nat batch) (r_chosen r).
Proof.
  intros np num s K y beta gamma rho L U batch rs sel NP SZ B E. pose proof (bmdr_run _ _ _ _ _ _ _ _ _ _ _ _ _ B E) as R.
  assert (HT : forall r, In r rs -> length (r_scores r) = length U).
  { intros r J. destruct (run_each _ _ _ _ _ _ _ _ _ R r J) as (next & T & _). apply bmdr_turn_inv in T as [A _]. apply bmdr_answer_sized in A; auto. rewrite A. apply program_size, ones_length. }
  destruct (settles_sized _ _ _ _ _ _ _ NP B R HT) as [S BB]. split; [exact S|]. split.
  - intros r J. destruct (run_head _ _ _ _ _ _ _ _ _ R) as (r0 & rs' & -> & S0). injection J as <-. exact S0.
  - intros r J. split; [|apply BB, J]. destruct (run_each _ _ _ _ _ _ _ _ _ R r J) as (next & T & _). apply bmdr_turn_inv in T as [A _]. exact A.
Qed.
Print Assumptions C85_bmdr.

Lemma value_ok s p first : capable s -> sized s -> first <> Refused -> length (qp_q p) = length (qp_q p) ->
  (forall f x, first = Value f x -> length x = length (qp_q p)) ->
  exists w, value_of s p first = Ok w /\ length w = length (qp_q p).
Proof.
  intros [C1 C2] SZ NR _ HL. unfold value_of. destruct (C1 (relax p) eq_refl) as (f & x & E).
  assert (A : attempt s (relax p) = Value f x) by (unfold attempt; rewrite E; reflexivity). rewrite A.
  assert (LX : length x = length (qp_q p)) by (apply (SZ _ _ _ _ E)).
  destruct first as [|[|] x'|]; [congruence| | |]; eauto.
Qed.

(** With a solver that finds answers, BMDR and SPAL always return. *)
Theorem C85_returns : forall np num s K y beta mu gamma rho lam L U batch,
  numpy_ok np -> sized s -> capable s -> 0 < batch < Z.of_nat (length U) ->
  (forall i, In i (L ++ U) -> 0 <= i < Z.of_nat (length K)) ->
  (exists rs sel, bmdr_select np num s K y beta gamma rho L U batch = (rs, Ok sel)) /\
  (exists rs sel, spal_select np num s K y mu gamma rho lam L U batch = (rs, Ok sel)).
Proof.
  intros np num s K y beta mu gamma rho lam L U batch NP SZ CP B I.
  assert (IN : inside (length K) L && inside (length K) U = true)
    by (apply andb_true_iff; split; apply inside_iff; intros i J; apply I, in_app_iff; auto).
  unfold bmdr_select, spal_select. destruct (Z.ltb_spec 0 batch); [|lia]. destruct (Z.leb_spec (Z.of_nat (length U)) batch); [lia|]. rewrite IN. cbn [negb].
  split.
  - apply (rounds_total np _ U batch (fun _ => True)); auto; try lia. intros t _. unfold bmdr_turn.
    set (p := program beta K L U batch (ones (length U)) t).
    assert (LP : length (qp_q p) = length U) by (apply program_size, ones_length).
    destruct (value_ok s p (bmdr_first s p) CP SZ) as (w & E & LW); auto.
    + destruct CP as [_ C]. unfold bmdr_first. specialize (C p). destruct (s false p); congruence.
    + intros f x E. unfold bmdr_first in E. destruct (s false p) eqn:F; [exfalso; apply (proj2 CP p), F| |discriminate]. rewrite E in F. eapply SZ, F.
    + rewrite E. cbn [bind]. do 2 eexists. split; [reflexivity|]. split; [lia|auto].
  - apply (rounds_total np _ U batch (fun st => length (snd st) = length U)); auto; try lia; [|apply ones_length]. intros [t es] LE. cbn [snd] in LE. unfold spal_turn. cbn [fst snd].
    set (p := program mu K L U batch es t).
    assert (LP : length (qp_q p) = length U) by (apply program_size, LE).
    destruct (value_ok s p (attempt s p) CP SZ) as (w & E & LW); auto.
    + destruct CP as [_ C]. unfold attempt. specialize (C p). destruct (s false p); congruence.
    + intros f x E. unfold attempt in E. destruct (s false p) eqn:F; [exfalso; apply (proj2 CP p), F| |discriminate]. rewrite E in F. eapply SZ, F.
    + rewrite E. cbn [bind].
      set (es' := map2 (easiness lam) w (vdot K L U t)). set (mix := map2 Qmult w es').
      assert (LE' : length es' = length U) by (unfold es'; rewrite map2_length, vdot_length; lia).
      assert (LM : length mix = length U) by (unfold mix; rewrite map2_length; lia).
      match goal with |- context [match ?o with [] => _ | _ :: _ => Ok ?o end] => destruct o as [|p0 ov] eqn:O end.
      * destruct (MiscProps.C33_largest (map cut mix) (argsort np (map cut mix)) 1 (proj1 NP _)) as (v & EV & _); [rewrite map_length; lia|].
        rewrite EV. cbn [bind]. do 2 eexists. split; [reflexivity|]. split; [exact LM|]. intros sel. exact LE'.
      * cbn [bind]. do 2 eexists. split; [reflexivity|]. split; [exact LM|]. intros sel. exact LE'.
Qed.
Print Assumptions C85_returns.

Lemma spal_run np num s K y mu gamma rho lam L U batch rs sel : 0 < batch < Z.of_nat (length U) ->
  spal_select np num s K y mu gamma rho lam L U batch = (rs, Ok sel) ->
  run np (spal_turn np num s K y mu gamma rho lam L U batch) U batch 0 [] (start num K gamma y L, ones (length U)) rs sel.
Proof.
  intros B E. unfold spal_select in E. destruct (Z.ltb_spec 0 batch); [|lia]. destruct (Z.leb_spec (Z.of_nat (length U)) batch); [lia|].
  cbn [negb] in E. destruct (inside (length K) L && inside (length K) U); [|discriminate]. cbn [negb] in E. eapply rounds_run, E.
Qed.

Lemma nth_cut mix p : (p < length mix)%nat -> nth p (map cut mix) 0%Q = cut (nth p mix 0%Q).
Proof.
  intro H. rewrite (nth_indep _ 0%Q (cut 0%Q)) by (rewrite map_length; exact H). apply map_nth.
Qed.

Lemma spal_turn_inv np num s K y mu gamma rho lam L U batch st scores next : numpy_ok np -> sized s -> 0 < batch < Z.of_nat (length U) ->
  length (snd st) = length U ->
  spal_turn np num s K y mu gamma rho lam L U batch st = Ok (scores, next) ->
  exists dr ps, let es := map2 (easiness lam) dr (vdot K L U (fst st)) in
    spal_answer s (program mu K L U batch (snd st) (fst st)) dr /\ length dr = length U /\
    scores = map2 Qmult dr es /\ trained_on scores ps /\
    let cols := map (fun p => nth p U 0) ps in
    let ws := map (fun p => nth p (map cut scores) 0%Q) ps in
    next = fun _ => (admm num K L rho cols ws (spal_A K gamma rho L cols) (spal_r K rho y L cols) (spal_z num rho) max_iter (fst st)
                       (vdot K L cols (fst st)) (repeat 0%Q (length cols)), es).
Proof.
  intros NP SZ B LE. unfold spal_turn. intro E. set (p := program mu K L U batch (snd st) (fst st)) in *.
  destruct (value_of s p (attempt s p)) as [dr|e] eqn:V; [|discriminate]. cbn [bind] in E.
  apply spal_value in V. pose proof (spal_answer_sized _ _ _ SZ V) as LD. unfold p in LD. rewrite program_size in LD by exact LE.
  set (es := map2 (easiness lam) dr (vdot K L U (fst st))) in *. set (mix := map2 Qmult dr es) in *.
  assert (LM : length mix = length U) by (unfold mix, es; rewrite !map2_length, vdot_length; lia).
  set (over := filter (fun p0 => negb (Qle_bool (nth p0 (map cut mix) 0%Q) (1 # 1000))) (seq 0 (length (map cut mix)))) in E.
  assert (IO : forall q, In q over <-> (q < length mix)%nat /\ (1 # 1000 < nth q mix 0)%Q).
  { intro q. unfold over. rewrite filter_In, in_seq, map_length. split.
    - intros [H1 H2]. split; [lia|]. rewrite nth_cut in H2 by lia. apply negb_true_iff in H2.
      destruct (Qlt_le_dec (1 # 1000) (cut (nth q mix 0%Q))) as [G|G]; [|apply Qle_bool_iff in G; congruence].
      destruct (cut_cases (nth q mix 0%Q)) as [[_ C]|[_ C]]; rewrite C in G; lra.
    - intros [H1 H2]. split; [lia|]. rewrite nth_cut by exact H1. apply negb_true_iff.
      destruct (cut_cases (nth q mix 0%Q)) as [[_ C]|[N C]]; [|lra]. rewrite C.
      destruct (Qle_bool (nth q mix 0%Q) (1 # 1000)) eqn:G; [apply Qle_bool_iff in G; lra|reflexivity]. }
  assert (SO : StronglySorted lt over).
  { unfold over. assert (SS : forall n k, StronglySorted lt (seq k n)).
    { induction n; intro k; cbn; constructor; auto. apply Forall_forall. intros x J. apply in_seq in J. lia. }
    generalize (seq 0 (length (map cut mix))) (SS (length (map cut mix)) 0%nat). intros l SL. induction SL as [|a l SL IH F]; cbn; [constructor|].
    destruct (negb _); [|exact IH]. constructor; [exact IH|]. apply Forall_forall. intros x J. apply filter_In in J as [J _]. eapply Forall_forall in F; eauto. }
  destruct over as [|p0 ov] eqn:O.
  - destruct (MiscProps.C33_largest (map cut mix) (argsort np (map cut mix)) 1 (proj1 NP _)) as (v & EV & LV & _ & IV & _ & MV); [rewrite map_length; lia|].
    rewrite EV in E. cbn [bind] in E. exists dr, v. cbn zeta. fold es. fold mix.
    assert (E1 : mix = scores) by congruence. rewrite <- E1. split; [exact V|]. split; [exact LD|]. split; [reflexivity|]. split; [|congruence].
    right. split.
    + intros q Hq. destruct (Qlt_le_dec (1 # 1000) (nth q mix 0%Q)) as [G|G]; [|exact G]. destruct (proj2 (IO q) (conj Hq G)).
    + destruct v as [|w [|? ?]]; cbn in LV; try lia. exists w. split; [reflexivity|].
      assert (HW : (w < length mix)%nat) by (rewrite <- (map_length cut mix); apply IV; left; reflexivity). split; [exact HW|].
      intros q Hq. destruct (Nat.eq_dec q w) as [->|NE]; [left; lra|].
      assert (H : (nth q (map cut mix) 0 <= nth w (map cut mix) 0)%Q).
      { apply MV; [left; reflexivity|rewrite map_length; exact Hq|]. intros [->|[]]. congruence. }
      rewrite !nth_cut in H by auto. destruct (cut_cases (nth q mix 0%Q)) as [[_ C]|[N C]]; [|right; lra]. rewrite C in H.
      destruct (cut_cases (nth w mix 0%Q)) as [[_ C']|[N' C']]; rewrite C' in H; [left; exact H|right; lra].
  - cbn [bind] in E. exists dr, (p0 :: ov). cbn zeta. fold es. fold mix.
    assert (E1 : mix = scores) by congruence. rewrite <- E1. split; [exact V|]. split; [exact LD|]. split; [reflexivity|]. split; [|congruence].
    left. split; [discriminate|]. split; [exact SO|exact IO].
Qed.

Lemma spal_inv np num s K y mu gamma rho lam L U batch rs sel : numpy_ok np -> sized s -> 0 < batch < Z.of_nat (length U) ->
  run np (spal_turn np num s K y mu gamma rho lam L U batch) U batch 0 [] (start num K gamma y L, ones (length U)) rs sel ->
  forall r, In r rs -> length (snd (r_state r)) = length U.
Proof.
  intros NP SZ B R. eapply (run_inv np _ U batch (fun st => length (snd st) = length U)); [|exact R|apply ones_length].
  intros st scores next c LE T. destruct (spal_turn_inv _ _ _ _ _ _ _ _ _ _ _ _ _ _ _ NP SZ B LE T) as (dr & ps & _ & LD & _ & _ & ->).
  cbn [snd]. rewrite map2_length, vdot_length. lia.
Qed.

(** SPAL returns [batch] unlabelled instances with the largest products of weight and easiness in the last round.  In every
    round the weights are the solver's answer to the program for the model and the easiness of the round before (at first all
    ones), and the easiness then follows from the weights and the risk; the rounds end as for BMDR. *)
Theorem C85_spal : forall np num s K y mu gamma rho lam L U batch rs sel,
  numpy_ok np -> sized s -> 0 < batch < Z.of_nat (length U) -> (0 < lam)%Q ->
  spal_select np num s K y mu gamma rho lam L U batch = (rs, Ok sel) ->
  settles rs sel /\
  (forall r, nth_error rs 0 = Some r -> r_state r = (start num K gamma y L, repeat 1%Q (length U))) /\
  forall i r, nth_error rs i = Some r ->
    best_batch U (fun p => nth p (r_scores r) 0%Q) (Z.to_nat batch) (r_chosen r) /\
    exists dr es,
      spal_answer s (program mu K L U batch (snd (r_state r)) (fst (r_state r))) dr /\
      length dr = length U /\ length es = length U /\
      (forall p, (p < length U)%nat ->
         let f := predicts K (combine L (fst (r_state r))) (nth p U 0) in
         easy lam (nth p dr 0 * (f * f + 2 * Qabs f))%Q (nth p es 0%Q) /\ (nth p (r_scores r) 0 == nth p dr 0 * nth p es 0)%Q) /\
      forall r', nth_error rs (S i) = Some r' -> snd (r_state r') = es.
Proof.
  intros np num s K y mu gamma rho lam L U batch rs sel NP SZ B LP E. pose proof (spal_run _ _ _ _ _ _ _ _ _ _ _ _ _ _ B E) as R.
  pose proof (spal_inv _ _ _ _ _ _ _ _ _ _ _ _ _ _ NP SZ B R) as IV.
  assert (HT : forall r, In r rs -> length (r_scores r) = length U).
  { intros r J. destruct (run_each _ _ _ _ _ _ _ _ _ R r J) as (next & T & _).
    destruct (spal_turn_inv _ _ _ _ _ _ _ _ _ _ _ _ _ _ _ NP SZ B (IV r J) T) as (dr & ps & _ & LD & -> & _).
    rewrite !map2_length, vdot_length. lia. }
  destruct (settles_sized _ _ _ _ _ _ _ NP B R HT) as [S BB]. split; [exact S|]. split.
  - intros r J. destruct (run_head _ _ _ _ _ _ _ _ _ R) as (r0 & rs' & -> & S0). injection J as <-. exact S0.
  - intros i r J. assert (IJ : In r rs) by (eapply nth_error_In; eauto). split; [apply BB, IJ|].
    destruct (run_each _ _ _ _ _ _ _ _ _ R r IJ) as (next & T & _).
    destruct (spal_turn_inv _ _ _ _ _ _ _ _ _ _ _ _ _ _ _ NP SZ B (IV r IJ) T) as (dr & ps & A & LD & SC & _ & NX). cbn zeta in NX.
    set (es := map2 (easiness lam) dr (vdot K L U (fst (r_state r)))) in *.
    assert (LE : length es = length U) by (unfold es; rewrite map2_length, vdot_length; lia).
    exists dr, es. split; [exact A|]. split; [exact LD|]. split; [exact LE|]. split.
    + intros p Hp. cbn zeta. rewrite SC, (map2_nth _ dr es p 0%Q 0%Q) by lia. split; [|reflexivity].
      unfold es. rewrite (map2_nth _ dr _ p 0%Q 0%Q) by (rewrite ?vdot_length; lia). rewrite vdot_map.
      rewrite (nth_indep (map (at_pred K L (fst (r_state r))) U) 0%Q (at_pred K L (fst (r_state r)) 0)) by (rewrite map_length; exact Hp). rewrite map_nth.
      pose proof (at_pred_eq K L (fst (r_state r)) (nth p U 0)) as PE. apply risk_comp in PE. unfold easiness, easy.
      set (f := predicts K (combine L (fst (r_state r))) (nth p U 0)) in *.
      change (f * f + 2 * Qabs f)%Q with (risk f). destruct (Qlt_le_dec _ lam) as [H|H]; rewrite PE in H; [left|right]; (split; [exact H|]); [|reflexivity].
      rewrite PE. reflexivity.
    + intros r' J'. destruct (run_next _ _ _ _ _ _ _ _ _ R i r r' J J') as (next' & T' & ->). assert (next' = next) by congruence. subst next'.
      rewrite NX. reflexivity.
Qed.
Print Assumptions C85_spal.

(** In every round, if there are enough instances whose weight and easiness are positive, only such instances are chosen. *)
Theorem C85_easy_first : forall (U : list Z) (score : nat -> Q) k sel,
  best_batch U score k sel ->
  (exists ps, NoDup ps /\ (k <= length ps)%nat /\ forall p, In p ps -> (p < length U)%nat /\ (0 < score p)%Q) ->
  forall x, In x sel -> exists p, nth_error U p = Some x /\ (0 < score p)%Q.
Proof.
  intros U score k sel (ps & ND & LP & F & M) (qs & NQ & LQ & HQ) x J.
  assert (FE : forall qs sel, Forall2 (fun p x => nth_error U p = Some x) qs sel -> forall x, In x sel -> exists p, In p qs /\ nth_error U p = Some x).
  { clear. intros qs sel H. induction H as [|q w qs sel H0 H IH]; intros x J; [destruct J|]. destruct J as [<-|J]; [eexists; split; [left; reflexivity|exact H0]|].
    destruct (IH x J) as (p & P & E). exists p. split; [right; exact P|exact E]. }
  destruct (FE _ _ F x J) as (p & P & E). exists p. split; [exact E|]. destruct (Qlt_le_dec 0 (score p)) as [G|G]; [exact G|exfalso].
  assert (IN : incl qs ps).
  { intros q Q. destruct (HQ q Q) as [H1 H2]. destruct (in_dec Nat.eq_dec q ps) as [Y|N]; [exact Y|]. specialize (M p q P H1 N). lra. }
  assert (IN' : incl (p :: qs) ps) by (intros q [<-|Q]; [exact P|apply IN, Q]).
  assert (NP : ~ In p qs) by (intro Q; destruct (HQ p Q); lra).
  pose proof (NoDup_incl_length (NoDup_cons p NP NQ) IN'). cbn in H. lia.
Qed.
Print Assumptions C85_easy_first.

(** Documented: lambda starts at [lambda_init] and grows by [lambda_pace].  It does not: the pace has no effect on any sequence
    of queries, and each query is answered as the first query of a new object is. *)
Theorem C85_pace_refuted : forall np num s K y mu gamma rho init pace pace' calls,
  spal_life np num s K y mu gamma rho (new_spal init pace) calls = spal_life np num s K y mu gamma rho (new_spal init pace') calls /\
  forall i c, nth_error calls i = Some c ->
    nth_error (spal_life np num s K y mu gamma rho (new_spal init pace) calls) i =
    Some (snd (spal_select np num s K y mu gamma rho init (fst (fst c)) (snd (fst c)) (snd c))).
Proof.
  intros np num s K y mu gamma rho init pace pace' calls.
  assert (G : forall pc cs, spal_life np num s K y mu gamma rho (new_spal init pc) cs =
    map (fun c => snd (spal_select np num s K y mu gamma rho init (fst (fst c)) (snd (fst c)) (snd c))) cs).
  { intros pc. induction cs as [|[[L U] b] cs IH]; [reflexivity|]. cbn [spal_life spal_call map fst snd new_spal lambda]. f_equal. exact IH. }
  split; [rewrite !G; reflexivity|]. intros i c E. rewrite G.
  exact (map_nth_error (fun c => snd (spal_select np num s K y mu gamma rho init (fst (fst c)) (snd (fst c)) (snd c))) i calls E).
Qed.
Print Assumptions C85_pace_refuted.
