(** Theorems about IEthresh (C89) and the strategies asking all or random oracles (C90). *)
From Verif Require Import Base IndexModel IndexProofs Dict OracleModel OracleSpec VoteProofs MiscModel MiscSpec MetricSpec MetricProofs QueryModel QuerySpec
  QueryProofs QueryProofs2 QueryNumpy QueryProps NoisyModel NoisySpec NoisyProofs NoisyProofs2.
From Coq Require Import String QArith Lqa.
Local Open Scope Z_scope.

Definition threshold (epsilon : option Q) : Q := match epsilon with Some e => e | None => (8 # 10)%Q end.

(** After any calls the oracles asked are those whose score reaches the threshold times the best score. *)
Theorem C89_asked : forall st c0 epsilon log s c x s' names, root_like (sqrt st) -> NoDup (iterset c0) ->
  history st (new_ie c0 epsilon) log s -> ie_given st c s x = (s', Ok names) ->
  exists us m, Forall2 (fun name u => standing st log name (Some u)) (iterset c0) us /\ largest us m /\ NoDup names /\
    (forall name, In name names <-> exists i u, nth_error (iterset c0) i = Some name /\ nth_error us i = Some u /\ (threshold epsilon * m <= u)%Q).
Proof.
  intros st c0 eps log s c x s' names RL ND H E. pose proof (inv_history st c0 eps log s RL ND H) as I. destruct (i_len _ _ _ _ _ I) as [LH LU].
  destruct (ie_step st c s x s' names ltac:(congruence) E) as (ls & v & SF). pose proof (sf_names _ _ _ _ _ _ _ _ SF) as F1.
  rewrite (i_names _ _ _ _ _ I), (i_eps _ _ _ _ _ I) in F1.
  destruct (max_of (ie_ui s)) as [m|] eqn:EM.
  2:{ exfalso. destruct (sf_vote _ _ _ _ _ _ _ _ SF) as (n & _ & _ & pre & post & EL & _). pose proof (sf_labels _ _ _ _ _ _ _ _ SF) as F2.
      unfold chosen in F1. rewrite EM in F1. inversion F1; subst. inversion F2; subst. destruct pre; discriminate. }
  destruct (max_of_spec _ _ EM) as (us & EU & LG). exists us, m. fold (threshold eps) in *.
  assert (ST : Forall2 (fun name u => standing st log name (Some u)) (iterset c0) us).
  { assert (A : forall i name u, nth_error (iterset c0) i = Some name -> nth_error us i = Some u -> standing st log name (Some u)).
    { intros i name u En Eu. pose proof (i_ui _ _ _ _ _ I i name En) as S1. rewrite EU, (nth_error_nth (map Some us) i None (x := Some u)) in S1; auto. rewrite nth_error_map, Eu. reflexivity. }
    assert (L : List.length (iterset c0) = List.length us) by (rewrite EU, map_length in LU; congruence).
    clear - A L. revert us L A. generalize (iterset c0). induction l as [|n l IH]; intros [|u us] L A; try discriminate; constructor.
    - apply (A 0%nat); reflexivity.
    - apply IH; [cbn in L; lia|]. intros i. apply (A (S i)). }
  split; [exact ST|]. split; [exact LG|]. rewrite EU in *. split.
  - pose proof (chosen_NoDup (threshold eps) (map Some us)) as NDc. clear - F1 NDc ND. induction F1 as [|i n sel ns E F IH]; constructor.
    + inversion NDc as [|? ? NI _]; subst. intro J. destruct (Forall2_in_r _ _ _ F n J) as (j & Jj & Ej). apply NI. now rewrite (nth_NoDup (iterset c0) i j n ND E Ej).
    + inversion NDc; subst. auto.
  - intro name. split.
    + intro J. destruct (Forall2_in_r _ _ _ F1 name J) as (i & Ji & En). apply (chosen_in _ _ m i EM) in Ji. destruct Ji as (u & Eu & Hu).
      rewrite nth_error_map in Eu. destruct (nth_error us i) as [u'|] eqn:X; [|discriminate]. injection Eu as ->. eauto.
    + intros (i & u & En & Eu & Hu). assert (J : In i (chosen (threshold eps) (map Some us))). { apply (chosen_in _ _ m i EM). exists u. rewrite nth_error_map, Eu. auto. }
      destruct (Forall2_in_l _ _ _ F1 i J) as (n & Jn & En'). congruence.
Qed.
Print Assumptions C89_asked.

(** The oracles asked answer, and the most frequent of their labels is recorded as the vote on the instance. *)
Theorem C89_vote : forall st c0 epsilon log s c x s' names, root_like (sqrt st) -> NoDup (iterset c0) ->
  history st (new_ie c0 epsilon) log s -> ie_given st c s x = (s', Ok names) ->
  exists ls n v, Forall2 (label_by c x) names ls /\ winner ls n v /\
    forall z w, dget Z.eqb z (ie_votes s') = Some w <-> (z = x /\ w = v \/ z <> x /\ dget Z.eqb z (ie_votes s) = Some w).
Proof.
  intros st c0 eps log s c x s' names RL ND H E. pose proof (inv_history st c0 eps log s RL ND H) as I. destruct (i_len _ _ _ _ _ I) as [LH LU].
  destruct (ie_step st c s x s' names ltac:(congruence) E) as (ls & v & SF). destruct (sf_vote _ _ _ _ _ _ _ _ SF) as (n & W).
  exists ls, n, v. split; [apply (sf_labels _ _ _ _ _ _ _ _ SF)|]. split; [exact W|]. intros z w. rewrite (sf_votes _ _ _ _ _ _ _ _ SF), dget_zset.
  destruct (Z.eqb_spec z x) as [->|NX]; split.
  - intro X. injection X as <-. auto.
  - intros [[_ ->]|[X _]]; [reflexivity|contradiction].
  - auto.
  - intros [[X _]|[_ X]]; [contradiction|auto].
Qed.
Print Assumptions C89_vote.

(** With at least two oracles, all of which know the instance, a call always succeeds and asks somebody. *)
Theorem C89_succeeds : forall st c0 epsilon log s c x, stats_ok st -> NoDup (iterset c0) -> iterset c0 <> [] -> (threshold epsilon <= 1)%Q ->
  history st (new_ie c0 epsilon) log s -> Forall (fun e : event => (2 <= List.length (iterset (fst (fst e))))%nat) log ->
  (forall name, In name (iterset c0) -> exists l, label_by c x name l) ->
  exists s' names, ie_given st c s x = (s', Ok names) /\ names <> [].
Proof. intros. eapply ie_progress; eauto. Qed.
Print Assumptions C89_succeeds.

(** The label of an oracle was the winning one whenever it was asked. *)
Definition always_agreed (log : list event) (name : key) : Prop :=
  forall c x names l v, In (c, x, names) log -> In name names -> label_by c x name l ->
    (exists ls n, Forall2 (label_by c x) names ls /\ winner ls n v) -> l = v.
Definition instances (log : list event) : list Z := map (fun e : event => snd (fst e)) log.

Lemma once log (c c' : crowd) x (ns ns' : list key) : NoDup (instances log) -> In (c, x, ns) log -> In (c', x, ns') log -> c = c' /\ ns = ns'.
Proof.
  unfold instances. induction log as [|[[d z] ms] log IH]; intros ND A B; [destruct A|]. cbn [map fst snd] in ND. inversion ND as [|? ? NI ND']; subst.
  assert (X : forall c0 n0, In (c0, z, n0) log -> In z (map (fun e : event => snd (fst e)) log)). { intros c0 n0 J. apply in_map_iff. exists (c0, z, n0). auto. }
  destruct A as [A|A], B as [B|B].
  - injection A as -> -> ->. injection B as -> ->. auto.
  - injection A as -> -> ->. exfalso. eauto.
  - injection B as -> -> ->. exfalso. eauto.
  - auto.
Qed.
Lemma agreed_one st n log name q : stats_ok st -> (2 <= n)%nat -> NoDup (instances log) -> always_agreed log name ->
  (forall name x, was_asked log name x -> exists l, said log name x l) -> (forall name x l, said log name x l -> exists v, voted log x v) ->
  optimistic st n log name (Some q) -> (q == 1)%Q.
Proof.
  intros [(RP & R0 & R1 & RZ) (_ & TL)] N ND AG SA SV (a & k & HA & PA & HK & M). destruct n as [|[|n]]; try lia. cbn [Nat.sub] in M.
  destruct (TL n) as (t & ET & PT). rewrite ET in M.
  assert (k = a).
  { eapply hm_unique; [|exact HA]. eapply hm_ext; [|exact HK]. intro x. split.
    - intros (l & S1 & _). eapply said_asked; eauto.
    - intro A. destruct (SA name x A) as (l & S1). destruct (SV name x l S1) as (v & V). exists l. split; auto.
      destruct S1 as (pre & c & ns & post & EL & J & L & _). destruct V as (pre' & c' & ns' & post' & EL' & W & NP).
      assert (A1 : In (c, x, ns) log) by (rewrite EL; apply in_or_app; right; now left).
      assert (A2 : In (c', x, ns') log) by (rewrite EL'; apply in_or_app; right; now left).
      destruct (once log _ _ _ _ _ ND A1 A2) as [<- <-]. assert (E : l = v) by (eapply AG; eauto). subst v.
      exists pre', c, ns, post'. auto. }
  subst k. rewrite M. assert (R : (ratio a a == 1)%Q).
  { unfold ratio. unfold Qdiv. apply Qmult_inv_r. unfold nat_q. intro X. unfold Qeq in X. cbn in X. lia. }
  assert (Z : (sqrt st (ratio a a * (1 - ratio a a)) == 0)%Q). { rewrite <- RZ. apply RP. rewrite R. ring. }
  rewrite Z, R. unfold Qdiv. ring.
Qed.

Lemma F2_nth {A B} (R : A -> B -> Prop) l l' i a b : Forall2 R l l' -> nth_error l i = Some a -> nth_error l' i = Some b -> R a b.
Proof. intros F Ea Eb. destruct (Forall2_nth_error _ _ _ F _ _ Ea) as (b' & Eb' & H). congruence. Qed.

Lemma NoDup_front {A} (l1 l2 : list A) : NoDup (l1 ++ l2) -> NoDup l1.
Proof.
  induction l1 as [|a l1 IH]; intro H; [constructor|]. cbn in H. inversion H as [|? ? NI H']; subst. constructor; auto. intro J. apply NI, in_or_app. auto.
Qed.

Lemma split_last (log pre pre' : list event) e e' post post' name : log = pre ++ e :: post -> log = pre' ++ e' :: post' ->
  In name (snd e) -> In name (snd e') -> (forall z, ~ was_asked post name z) -> (forall z, ~ was_asked post' name z) -> pre = pre' /\ e = e' /\ post = post'.
Proof.
  intros E E' I I' N N'. subst log. revert pre' E'. induction pre as [|a pre IH]; intros [|a' pre'] E'; cbn in E'.
  - injection E' as -> ->. auto.
  - injection E' as -> ->. exfalso. destruct e' as [[c x] ns]. apply (N x). exists c, ns. split; auto. apply in_or_app. right. now left.
  - injection E' as -> <-. exfalso. destruct e as [[c x] ns]. apply (N' x). exists c, ns. split; auto. apply in_or_app. right. now left.
  - injection E' as -> E'. destruct (IH pre' E') as (-> & -> & ->). auto.
Qed.
Lemma standing_unique st log name u u' : standing st log name (Some u) -> standing st log name (Some u') -> (u == u')%Q.
Proof.
  intros [[N E]|(pre & c & x & ns & post & EL & I & N & O)] [[N' E']|(pre' & c' & x' & ns' & post' & EL' & I' & N' & O')].
  - congruence || (injection E as ->; injection E' as ->; reflexivity).
  - exfalso. apply (N x'). exists c', ns'. split; auto. rewrite EL'. apply in_or_app. right. now left.
  - exfalso. apply (N' x). exists c, ns. split; auto. rewrite EL. apply in_or_app. right. now left.
  - destruct (split_last log pre pre' (c, x, ns) (c', x', ns') post post' name EL EL' I I' N N') as (<- & E & <-). injection E as <- <- <-.
    destruct O as (a & k & HA & _ & HK & M), O' as (a' & k' & HA' & _ & HK' & M').
    rewrite (hm_unique _ _ _ HA' HA), (hm_unique _ _ _ HK' HK) in M'. destruct (t_crit st _); [|destruct M]. now rewrite M, M'.
Qed.

(** Being always right does not protect an oracle from being dropped: as soon as another oracle, which has erred, has a score above
    1 / epsilon, every oracle that always agreed with the vote is left out. *)
Theorem C89_dropped_refuted : forall st c0 epsilon log s c x s' names good bad u, stats_ok st -> NoDup (iterset c0) ->
  history st (new_ie c0 epsilon) log s -> ie_given st c s x = (s', Ok names) ->
  Forall (fun e : event => (2 <= List.length (iterset (fst (fst e))))%nat) log -> NoDup (instances log) ->
  In good (iterset c0) -> (exists z, was_asked log good z) -> always_agreed log good ->
  In bad (iterset c0) -> standing st log bad (Some u) -> (1 < threshold epsilon * u)%Q -> (0 < threshold epsilon)%Q ->
  ~ In good names.
Proof.
  intros st c0 eps log s c x s' names good bad u SO ND H E F NX IG (z0 & AZ) AG IB SB LT EP J.
  destruct (C89_asked st c0 eps log s c x s' names (proj1 SO) ND H E) as (us & m & ST & (_ & LM) & _ & IFF).
  apply IFF in J. destruct J as (i & q & En & Eq & Hq). pose proof (F2_nth _ _ _ _ _ _ ST En Eq) as SG.
  assert (Q1 : (q == 1)%Q).
  { destruct SG as [[NA _]|(pre & c1 & x1 & ns & post & EL & I1 & NP & O)]; [exfalso; eapply NA; eauto|].
    set (log1 := pre ++ [(c1, x1, ns)]) in *. assert (EL1 : log = log1 ++ post) by (unfold log1; rewrite <- app_assoc; exact EL).
    assert (H1 : exists s1, history st (new_ie c0 eps) log1 s1).
    { clear - H EL1. clearbody log1. revert log1 post EL1. induction H as [|log0 s2 c2 x2 s3 ns2 H IH E2]; intros log1 post EL.
      - destruct log1; [|discriminate]. exists (new_ie c0 eps). constructor.
      - destruct post as [|e0 post0]; [rewrite app_nil_r in EL; subst log1; exists s3; eapply h_call; [exact H|exact E2]|].
        destruct (exists_last (l := e0 :: post0)) as (post' & e & EP'); [discriminate|]. rewrite EP' in EL.
        rewrite app_assoc in EL. apply app_inj_tail in EL. destruct EL as [EL _]. eapply IH; eauto. }
    destruct H1 as (s1 & H1). pose proof (inv_history st c0 eps log1 s1 (proj1 SO) ND H1) as I.
    eapply (agreed_one st (List.length (iterset c1)) log1 good q); auto.
    - rewrite Forall_forall in F. apply (F (c1, x1, ns)). rewrite EL. apply in_or_app. right. now left.
    - unfold instances in *. rewrite EL1, map_app in NX. clear - NX. eapply NoDup_front; exact NX.
    - intros c2 x2 n2 l2 v2 J2. apply AG. rewrite EL1. apply in_or_app. auto.
    - apply (i_asked _ _ _ _ _ I).
    - apply (i_voted _ _ _ _ _ I). }
  apply In_nth_error in IB. destruct IB as (j & Ej). assert (Lj : (j < List.length us)%nat). { apply Forall2_length_eq in ST. rewrite <- ST. apply nth_error_Some. congruence. }
  destruct (nth_error us j) as [qb|] eqn:Eb; [|apply nth_error_None in Eb; lia]. pose proof (standing_unique _ _ _ _ _ SB (F2_nth _ _ _ _ _ _ ST Ej Eb)) as UB.
  rewrite Forall_forall in LM. pose proof (LM qb (nth_error_In _ _ Eb)) as UM.
  assert (X : (threshold eps * u <= threshold eps * m)%Q). { rewrite !(Qmult_comm (threshold eps)). apply Qmult_le_compat_r; lra. }
  lra.
Qed.
Print Assumptions C89_dropped_refuted.

Lemma with_hist_same s : with_hist s (ie_hist s) = s.
Proof. now destruct s. Qed.

(** A strategy over one oracle works once. *)
Theorem C89_single_refuted : forall st c0 epsilon name x l, t_crit st 0 = None -> iterset c0 = [name] -> (threshold epsilon <= 1)%Q -> label_by c0 x name l ->
  exists s', ie_given st c0 (new_ie c0 epsilon) x = (s', Ok [name]) /\ forall c z, ie_given st c s' z = (s', Err IndexErr).
Proof.
  intros st c0 eps name x l T0 IT EP L. unfold ie_given. cbn [new_ie ie_ui ie_eps ie_names ie_hist ie_votes]. unfold row_names. rewrite IT. cbn [List.length repeat].
  fold (threshold eps).
  assert (C : chosen (threshold eps) [Some 1%Q] = [0%nat]). { unfold chosen. cbn. assert (X : Qle_bool (threshold eps * 1) 1 = true) by (apply Qle_bool_iff; lra). now rewrite X. }
  rewrite C. cbn [ask_loop]. rewrite (proj2 (ask_one c0 [name] x 0 l)) by (exists name; auto). cbn [ask_loop rmap put nth dset].
  assert (MV : majority_vote [l] None = Ok (1%nat, l)).
  { unfold majority_vote. cbn. reflexivity. }
  rewrite MV. cbn [with_hist with_votes ie_votes ie_ui ie_names ui_loop nth dset].
  unfold calc_uia. cbn [Nat.sub]. rewrite T0. unfold rewards. cbn [mapM fst snd dget]. rewrite dget_zset, Z.eqb_refl. cbn [new_ie ie_names ie_ui ie_votes]. unfold row_names. rewrite IT. cbn [bind ui_loop put nth_error].
  eexists. split; [reflexivity|]. intros c z. cbn. reflexivity.
Qed.
Print Assumptions C89_single_refuted.

(** When an oracle fails while it is asked, the answers already given stay in the records without a vote; from then on every call about
    another instance fails. *)
Definition stuck (x : Z) (s : ie) : Prop :=
  (exists u ui, ie_ui s = u :: ui /\ Forall (fun v => v = Some 1%Q) (ie_ui s)) /\ (ie_eps s <= 1)%Q /\
  (exists h hs l, ie_hist s = h :: hs /\ In (x, l) h) /\ dget Z.eqb x (ie_votes s) = None.
Lemma max_ones ui : ui <> [] -> Forall (fun v => v = Some 1%Q) ui -> exists m, max_of ui = Some m /\ (m == 1)%Q.
Proof.
  intros NE F. induction F as [|v ui -> F IH]; [contradiction|]. destruct ui as [|w ui]; [exists 1%Q; split; reflexivity|].
  destruct IH as (m & E & Q1); [discriminate|]. change (max_of (Some 1%Q :: w :: ui)) with (match max_of (w :: ui) with Some b => Some (qmax 1 b) | _ => None end).
  rewrite E. eexists. split; [reflexivity|]. unfold qmax. destruct (Qle_bool 1 m); lra.
Qed.
Lemma chosen_first eps u ui : Forall (fun v => v = Some 1%Q) (u :: ui) -> (eps <= 1)%Q -> exists rest, chosen eps (u :: ui) = 0%nat :: rest.
Proof.
  intros F EP. destruct (max_ones (u :: ui)) as (m & E & M); [discriminate|auto|]. unfold chosen. rewrite E. cbn [List.length seq filter nth].
  inversion F as [|? ? -> _]; subst. assert (X : Qle_bool (eps * m) 1 = true) by (apply Qle_bool_iff; rewrite M; lra). rewrite X. eauto.
Qed.
Lemma dset_in_other (z x : Z) (l l' : key) d : z <> x -> In (x, l) d -> In (x, l) (dset Z.eqb z l' d).
Proof.
  intros N. induction d as [|[a b] d IH]; intro J; [destruct J|]. cbn [dset]. destruct (Z.eqb_spec z a) as [->|].
  - destruct J as [J|J]; [injection J as -> ->; contradiction|now right].
  - destruct J as [J|J]; [now left|right; auto].
Qed.
Lemma ask_loop_keeps c names z x l sel : z <> x -> forall h hs h' r, In (x, l) h -> ask_loop c names z sel (h :: hs) = (h', r) -> exists h1 hs1, h' = h1 :: hs1 /\ In (x, l) h1.
Proof.
  intro N. induction sel as [|i sel IH]; intros h hs h' r J E; cbn [ask_loop] in E; [injection E as <- <-; eauto|].
  destruct (bind _ _) as [l'|e]; [|injection E as <- <-; eauto].
  destruct (ask_loop c names z sel _) as [h2 r2] eqn:E2. injection E as <- <-. destruct i as [|i]; cbn [put nth] in E2; eapply IH in E2; eauto. now apply dset_in_other.
Qed.
Lemma rewards_missing h votes x l : In (x, l) h -> dget Z.eqb x votes = None -> exists e, rewards h votes = Err e.
Proof.
  intros J V. induction h as [|[a b] h IH]; [destruct J|]. unfold rewards in *. cbn [mapM fst snd]. destruct J as [J|J].
  - injection J as -> ->. rewrite V. cbn. eauto.
  - destruct (IH J) as (e & E). destruct (dget Z.eqb a votes); cbn [bind]; [rewrite E; cbn; eauto|eauto].
Qed.
Lemma stuck_step st c x z s : z <> x -> stuck x s -> stuck x (fst (ie_given st c s z)) /\ exists e, snd (ie_given st c s z) = Err e.
Proof.
  intros N ((u & ui & EU & FU) & EP & (h & hs & l & EH & J) & V). unfold ie_given. rewrite EU. rewrite EU in FU.
  destruct (chosen_first (ie_eps s) u ui FU EP) as (rest & EC). rewrite EC. rewrite EH.
  destruct (ask_loop c (ie_names s) z (0%nat :: rest) (h :: hs)) as [h' r] eqn:EA. destruct (ask_loop_keeps c (ie_names s) z x l _ N _ _ _ _ J EA) as (h1 & hs1 & -> & J1).
  assert (K : stuck x (with_hist s (h1 :: hs1))).
  { split; [exists u, ui; cbn; rewrite EU; auto|]. split; [exact EP|]. split; [exists h1, hs1, l; auto|exact V]. }
  destruct r as [ls|e]; [|cbn; eauto]. destruct (majority_vote ls None) as [[n v]|e]; [|cbn; eauto].
  cbn [with_hist with_votes ie_votes ie_ui ui_loop nth].
  assert (V' : dget Z.eqb x (dset Z.eqb z v (ie_votes s)) = None). { rewrite dget_zset. destruct (Z.eqb_spec x z); [congruence|auto]. }
  destruct (rewards_missing h1 _ x l J1 V') as (e & E). unfold calc_uia. rewrite E. cbn [bind fst snd]. split; [|eauto].
  split; [exists u, ui; cbn; rewrite EU; auto|]. split; [exact EP|]. split; [exists h1, hs1, l; auto|exact V'].
Qed.
Theorem C89_abort_refuted : forall st c0 epsilon first rest x l e s', (threshold epsilon <= 1)%Q -> iterset c0 = first :: rest ->
  label_by c0 x first l -> ie_given st c0 (new_ie c0 epsilon) x = (s', Err e) ->
  (exists name, In name rest /\ forall l', ~ label_by c0 x name l') ->
  forall later, Forall (fun q : crowd * Z => snd q <> x) later -> forall c z, z <> x -> exists e', snd (ie_given st c (ie_life st s' later) z) = Err e'.
Proof.
  intros st c0 eps first rest x l e s' EP IT L E (bad & IB & NB) later FL c z NZ.
  assert (K : stuck x s').
  { unfold ie_given in E. cbn [new_ie ie_ui ie_eps ie_names ie_hist ie_votes] in E. unfold row_names in E. rewrite IT in E. cbn [List.length repeat map] in E. fold (threshold eps) in E.
    set (ui := repeat (Some 1%Q) (List.length rest)) in E.
    assert (FU : Forall (fun v => v = Some 1%Q) (Some 1%Q :: ui)). { constructor; auto. unfold ui. generalize (List.length rest). induction n; cbn; constructor; auto. }
    assert (ALL : forall i, (i < S (List.length rest))%nat -> In i (chosen (threshold eps) (Some 1%Q :: ui))).
    { intros i Li. destruct (max_ones (Some 1%Q :: ui)) as (m & EM & M1); [discriminate|auto|]. apply (chosen_in _ _ m i EM). exists 1%Q. split; [|rewrite M1; lra].
      assert (LL : (i < List.length (Some 1%Q :: ui))%nat) by (cbn; unfold ui; rewrite repeat_length; lia).
      rewrite (nth_error_nth' (Some 1%Q :: ui) None LL). f_equal. rewrite Forall_forall in FU. apply FU. now apply nth_In. }
    assert (NS : forall h' ls, ask_loop c0 (first :: rest) x (chosen (threshold eps) (Some 1%Q :: ui)) ([] :: repeat [] (List.length rest)) <> (h', Ok ls)).
    { intros h' ls EA. apply ask_loop_ok in EA; [|apply chosen_NoDup|].
      2:{ intros i Ji. apply chosen_lt in Ji. cbn in *. rewrite repeat_length. unfold ui in Ji. rewrite repeat_length in Ji. exact Ji. }
      destruct EA as (F2 & _). apply In_nth_error in IB. destruct IB as (j & Ej). assert (Lj : (j < List.length rest)%nat) by (apply nth_error_Some; congruence).
      destruct (Forall2_in_l _ _ _ F2 (S j) (ALL (S j) ltac:(lia))) as (l' & _ & n & En & Ln). cbn in En. rewrite Ej in En. injection En as <-. eapply NB; eauto. }
    destruct (chosen_first (threshold eps) (Some 1%Q) ui FU EP) as (sel & EC). rewrite EC in *.
    destruct (ask_loop c0 (first :: rest) x (0%nat :: sel) ([] :: repeat [] (List.length rest))) as [h r] eqn:EA. destruct r as [ls|e']; [exfalso; eapply NS; reflexivity|].
    injection E as <- <-. split; [cbn; rewrite IT; cbn; exists (Some 1%Q), ui; auto|]. split; [exact EP|]. split; [|reflexivity]. cbn [with_hist ie_hist].
    cbn [ask_loop] in EA. rewrite (proj2 (ask_one c0 (first :: rest) x 0 l)) in EA by (exists first; auto). cbn [put nth dset] in EA.
    destruct (ask_loop c0 (first :: rest) x sel _) as [h2 r2] eqn:E2. injection EA as <- X.
    assert (KP : forall sel hh hs h' r, NoDup (0%nat :: sel) -> ask_loop c0 (first :: rest) x sel (hh :: hs) = (h', r) -> exists hs1, h' = hh :: hs1).
    { clear. intro sel. induction sel as [|i sel IH]; intros hh hs h' r ND E; cbn [ask_loop] in E; [injection E as <- <-; eauto|].
      destruct (bind _ _) as [l'|e]; [|injection E as <- <-; eauto]. destruct (ask_loop c0 (first :: rest) x sel _) as [h2 r2] eqn:E2. injection E as <- <-.
      destruct i as [|i]; [inversion ND as [|? ? NI _]; exfalso; apply NI; now left|]. cbn [put nth] in E2. eapply IH; [|exact E2].
      inversion ND as [|? ? NI ND']; subst. inversion ND' as [|? ? NI' ND'']; subst. constructor; auto. intro J. apply NI. now right. }
    apply KP in E2. 2:{ rewrite <- EC. apply chosen_NoDup. } destruct E2 as (hs1 & ->). exists [(x, l)], hs1, l. split; [reflexivity|now left]. }
  clear E. revert s' K. induction FL as [|[c1 z1] later N1 FL IH]; intros s' K; cbn [ie_life fold_left].
  - apply (stuck_step st c x z s' NZ K).
  - apply IH. apply (stuck_step st c1 x z1 s' N1 K).
Qed.
Print Assumptions C89_abort_refuted.

(** Four oracles labelling instances 0 to 3: they agree except that the last one differs on instance 1. *)
Definition who (ls : list Z) : oracle := match or_init (map KInt ls) None None None with Ok o => o | Err _ => {| o_type := TInt; o_inst := false; o_costf := false; o_exa := []; o_ind := [] |} end.
Definition four : crowd := Listed [who [1; 1; 1; 1]; who [1; 1; 1; 1]; who [1; 1; 1; 1]; who [1; 0; 1; 1]].
Definition root0 (q : Q) : Q := if Qeq_bool q 0 then 0%Q else if Qeq_bool q (1 # 4) then (1 # 2)%Q else if Qeq_bool q 4 then 2%Q else if Qle_bool q 0 then 0%Q else 1%Q.
Definition stats0 : stats := {| sqrt := root0; t_crit := fun n => match n with O => None | S _ => Some (318 # 100)%Q end |}.
Lemma stats0_ok : stats_ok stats0.
Proof.
  split; [|split; [reflexivity|intro n; exists (318 # 100)%Q; split; [reflexivity|lra]]]. repeat split; cbn [sqrt stats0].
  - intros a b E. unfold root0. assert (X : forall c, Qeq_bool a c = Qeq_bool b c). { intro c. destruct (Qeq_bool a c) eqn:A, (Qeq_bool b c) eqn:B; auto.
      - apply Qeq_bool_iff in A. apply Qeq_bool_neq in B. exfalso. apply B. lra.
      - apply Qeq_bool_iff in B. apply Qeq_bool_neq in A. exfalso. apply A. lra. }
    rewrite !X. replace (Qle_bool a 0) with (Qle_bool b 0); [reflexivity|]. destruct (Qle_bool b 0) eqn:B, (Qle_bool a 0) eqn:A; auto.
    + apply Qle_bool_iff in B. rewrite <- E in B. apply Qle_bool_iff in B. congruence.
    + apply Qle_bool_iff in A. rewrite E in A. apply Qle_bool_iff in A. congruence.
  - intros a P. unfold root0. repeat (match goal with |- context [if ?b then _ else _] => destruct b end; [lra|]). lra.
  - intros a P. unfold root0. destruct (Qeq_bool a 0) eqn:A; [apply Qeq_bool_iff in A; lra|]. destruct (Qeq_bool a (1 # 4)); [lra|]. destruct (Qeq_bool a 4); [lra|].
    destruct (Qle_bool a 0) eqn:B; [apply Qle_bool_iff in B; lra|lra].
Qed.
Lemma four_says x name l : label_by four x name l -> 0 <= x < 4 -> l = (if key_eqb name (KInt 3) && Z.eqb x 1 then KInt 0 else KInt 1).
Proof.
  intros (o & q & M & A) X. destruct name as [i|i]; [|discriminate M]. unfold four, member, py_nth in M.
  destruct (Z.to_nat i) as [|[|[|[|n]]]] eqn:Ei; cbn in M; try (destruct n; discriminate M); injection M as <-;
  assert (x = 0 \/ x = 1 \/ x = 2 \/ x = 3) as [-> | [-> | [-> | ->]]] by lia; vm_compute in A; injection A as <- <-;
  rewrite ?andb_false_r; try reflexivity; cbn [Z.eqb andb]; rewrite ?andb_true_r, ?andb_false_r; try reflexivity;
  destruct (key_eqb (KInt i) (KInt 3)) eqn:K; try reflexivity; try (apply key_eqb_eq in K; injection K as ->; discriminate Ei).
  exfalso. assert (i = 3) by lia. subst i. discriminate K.
Qed.
Lemma F2_impl {A B} (R S : A -> B -> Prop) l l' : (forall a b, R a b -> S a b) -> Forall2 R l l' -> Forall2 S l l'.
Proof. intros H F. induction F; constructor; auto. Qed.
Example C89_witness : exists log s s' u, history stats0 (new_ie four None) log s /\ instances log = [0; 1] /\
  Forall (fun e : event => (2 <= List.length (iterset (fst (fst e))))%nat) log /\ was_asked log (KInt 0) 0 /\ always_agreed log (KInt 0) /\
  standing stats0 log (KInt 3) (Some u) /\ (1 < threshold None * u)%Q /\
  (forall name, In name (iterset four) -> exists l, label_by four 2 name l) /\ ie_given stats0 four s 2 = (s', Ok [KInt 3]).
Proof.
  set (s1 := fst (ie_given stats0 four (new_ie four None) 0)). set (s2 := fst (ie_given stats0 four s1 1)).
  assert (H : history stats0 (new_ie four None) [(four, 0, iterset four); (four, 1, iterset four)] s2).
  { apply (h_call _ _ [(four, 0, iterset four)] s1 four 1 s2 (iterset four)); [|vm_compute; reflexivity].
    apply (h_call _ _ [] (new_ie four None) four 0 s1 (iterset four)); [constructor|vm_compute; reflexivity]. }
  assert (ND : NoDup (iterset four)) by (repeat constructor; cbn; intuition discriminate).
  exists [(four, 0, iterset four); (four, 1, iterset four)], s2, (fst (ie_given stats0 four s2 2)), (match nth 3 (ie_ui s2) None with Some u => u | None => 0%Q end).
  split; [exact H|]. split; [reflexivity|]. split; [repeat constructor; cbn; lia|]. split; [exists four, (iterset four); split; [now left|vm_compute; auto]|].
  split.
  { intros c x names l v J I L (ls & n & F & W).
    assert (B : exists bs, ls = bs /\ winner bs n v /\ c = four /\ (x = 0 \/ x = 1) /\ Forall2 (fun name l => l = (if key_eqb name (KInt 3) && Z.eqb x 1 then KInt 0 else KInt 1)) (iterset four) bs).
    { destruct J as [E|[E|[]]]; injection E as <- <- <-; exists ls; (split; [reflexivity|]); (split; [exact W|]); (split; [reflexivity|]); (split; [auto|]); (eapply F2_impl; [|exact F]; intros a b Hab; apply four_says in Hab; [exact Hab|lia]). }
    destruct B as (bs & _ & W' & -> & X & F'). assert (l = KInt 1). { apply four_says in L; [|lia]. exact L. } subst l.
    assert (MV : majority_vote bs None = Ok (n, v)) by (apply majority_vote_lemma; split; [discriminate|auto]).
    cbn in F'. repeat (match goal with Hf : Forall2 _ (_ :: _) _ |- _ => inversion Hf; clear Hf; subst end).
    match goal with Hf : Forall2 _ [] _ |- _ => inversion Hf; subst end.
    destruct X as [-> | ->]; vm_compute in MV; injection MV as _ <-; reflexivity. }
  split; [|split; [vm_compute; reflexivity|split]].
  - pose proof (inv_history stats0 four None _ s2 (proj1 stats0_ok) ND H) as I. pose proof (i_ui _ _ _ _ _ I 3%nat (KInt 3) eq_refl) as S1.
    replace (nth 3 (ie_ui s2) None) with (Some (match nth 3 (ie_ui s2) None with Some u => u | None => 0%Q end)) in S1 by (vm_compute; reflexivity). exact S1.
  - intros name J. cbn in J. destruct J as [<-|[<-|[<-|[<-|[]]]]]; exists (KInt 1); eexists; exists 1%Q; (split; [reflexivity|vm_compute; reflexivity]).
  - vm_compute. reflexivity.
Qed.
Example C89_single_witness : iterset (Listed [who [1; 1]]) = [KInt 0] /\ label_by (Listed [who [1; 1]]) 1 (KInt 0) (KInt 1) /\ t_crit stats0 0 = None.
Proof. split; [reflexivity|]. split; [|reflexivity]. exists (who [1; 1]), 1%Q. split; [reflexivity|vm_compute; reflexivity]. Qed.
Example C89_abort_witness : let c := Listed [who [1; 1]; who [1]] in
  label_by c 1 (KInt 0) (KInt 1) /\ (forall l, ~ label_by c 1 (KInt 1) l) /\ exists s' e, ie_given stats0 c (new_ie c None) 1 = (s', Err e).
Proof.
  intro c. split; [exists (who [1; 1]), 1%Q; split; [reflexivity|vm_compute; reflexivity]|]. split.
  - intros l (o & q & M & A). injection M as <-. vm_compute in A. discriminate.
  - do 2 eexists. vm_compute. reflexivity.
Qed.

(** ** All and Random *)

(** The unlabelled instance the model is least sure about: no other has a smaller largest probability. *)
Definition least_sure (U : list Z) (rows : list (list Q)) (x : Z) : Prop :=
  exists i row p, nth_error U i = Some x /\ nth_error rows i = Some row /\ largest row p /\
    forall j row' p', nth_error rows j = Some row' -> largest row' p' -> (p <= p')%Q.
Lemma least_sure_one np U cols rows : numpy_ok np -> (2 <= cols)%nat -> Forall (fun r => List.length r = cols) rows -> List.length rows = List.length U -> (2 <= List.length U)%nat ->
  exists x, least_sure U rows x /\ uncertain_one np U (Mat cols rows) = Ok x.
Proof.
  intros NP C F L LU. destruct (C47_uncertainty Z np LeastConfident U cols rows 1 NP ltac:(discriminate) C F L ltac:(lia)) as (sel & E & B).
  destruct (Z.leb_spec (Z.of_nat (List.length U)) 1); [lia|]. destruct B as (score & SC & ps & ND & LP & F2 & BEST). change (Z.to_nat 1) with 1%nat in LP.
  destruct ps as [|p0 [|p1 ps]]; try discriminate. inversion F2 as [|? x ? sel' Ex F3]; subst. inversion F3; subst.
  exists x. split; [|unfold uncertain_one; rewrite E; reflexivity].
  destruct (nth_error rows p0) as [row|] eqn:ER.
  2:{ apply nth_error_None in ER. assert (p0 < List.length U)%nat by (apply nth_error_Some; congruence). lia. }
  pose proof (SC p0 row ER) as U0. inversion U0 as [row0 pp xx LG EQ| |]; subst. exists p0, row, pp. repeat split; auto.
  - apply LG.
  - apply LG.
  - intros j row' p' Ej LG'. pose proof (SC j row' Ej) as Uj. inversion Uj as [row1 p1 xx1 LG1 EQ1| |]; subst. pose proof (largest_unique _ _ _ LG' LG1) as P1.
    destruct (Nat.eq_dec j p0) as [->|N].
    + rewrite ER in Ej. injection Ej as <-. pose proof (largest_unique _ _ _ LG LG1). lra.
    + assert (Lj : (j < List.length U)%nat) by (rewrite <- L; apply nth_error_Some; congruence).
      pose proof (BEST p0 j (or_introl eq_refl) Lj) as X. assert (~ In j [p0]) by (intros [->|[]]; contradiction). specialize (X H0). lra.
Qed.

(** With two or more unlabelled instances each strategy picks the instance the model is least sure about, and the oracles
    [select_by_given_instance] names for it. *)
Theorem C90_instance : forall np U cols rows, numpy_ok np -> (2 <= cols)%nat -> Forall (fun r => List.length r = cols) rows ->
  List.length rows = List.length U -> (2 <= List.length U)%nat ->
  exists x, least_sure U rows x /\
    (forall given, plain_by_mat np U (Mat cols rows) given = rmap (Asked [x]) given) /\
    (forall st c s, snd (ie_by_mat np st c s U (Mat cols rows)) = rmap (Asked [x]) (snd (ie_given st c s x)) /\
                    fst (ie_by_mat np st c s U (Mat cols rows)) = fst (ie_given st c s x)).
Proof.
  intros np U cols rows NP C F L LU. destruct (least_sure_one np U cols rows NP C F L LU) as (x & LS & E). exists x. split; [exact LS|].
  unfold plain_by_mat, ie_by_mat. destruct (Nat.leb_spec (List.length U) 1); [lia|]. rewrite E. cbn [bind]. split; [reflexivity|].
  intros st c s. destruct (ie_given st c s x). auto.
Qed.
Print Assumptions C90_instance.
(** With one, the index is returned alone: no oracle is named and none is asked. *)
Theorem C90_last_instance_refuted : forall np U predict, (List.length U <= 1)%nat ->
  (forall given, plain_by_mat np U predict given = Ok (Bare U)) /\ (forall st c s, ie_by_mat np st c s U predict = (s, Ok (Bare U))).
Proof. intros np U predict L. unfold plain_by_mat, ie_by_mat. destruct (Nat.leb_spec (List.length U) 1); [auto|lia]. Qed.
Print Assumptions C90_last_instance_refuted.

(** The identifiers known to a strategy are those of the oracles it was made with, whatever was added to the pool since. *)
Theorem C90_all : forall p added, let p' := fold_left (fun q e => pool_add q (fst e) (snd e)) added p in
  (forall name, In name (all_given (row_names (Pooled p))) <-> exists s, name = KStr s /\ In s (map fst (p_dict p))) /\
  (forall s, In s (map fst added) -> ~ In s (map fst (p_dict p)) ->
     In (KStr s) (iterset (Pooled p')) /\ ~ In (KStr s) (all_given (row_names (Pooled p)))).
Proof.
  intros p added p'. split.
  - intro name. unfold all_given, row_names. cbn [iterset]. rewrite in_map_iff. split.
    + intros ([s o] & <- & I). exists s. split; [reflexivity|]. apply in_map_iff. exists (s, o). auto.
    + intros (s & -> & I). apply in_map_iff in I. destruct I as ([s' o] & <- & I). exists (s', o). auto.
  - intros s I NI. split.
    + unfold p'. clear NI p'. cbn [iterset].
      assert (K : forall d k (o : oracle), In s (map fst (dset String.eqb k o d)) <-> s = k \/ In s (map fst d)).
      { intros d k o. induction d as [|[a b] d IH]; cbn [dset]; [cbn; intuition|]. destruct (String.eqb_spec k a) as [->|N]; cbn [map fst]; [cbn; intuition|]. cbn [In]. rewrite IH. intuition. }
      assert (G : In s (map fst (p_dict (fold_left (fun q e => pool_add q (fst e) (snd e)) added p))) ).
      { assert (GG : forall q, In s (map fst added) \/ In s (map fst (p_dict q)) -> In s (map fst (p_dict (fold_left (fun q e => pool_add q (fst e) (snd e)) added q)))).
        { clear - K. induction added as [|[k o] added IH]; intros q H; cbn [fold_left]; [destruct H as [[]|H]; exact H|]. apply IH. cbn [map fst In] in H. cbn [pool_add p_dict fst snd]. rewrite K. intuition. }
        apply GG. auto. }
      apply in_map_iff in G. destruct G as ([s' o] & <- & G). apply in_map_iff. exists (s', o). auto.
    + unfold all_given, row_names. cbn [iterset]. intro J. apply in_map_iff in J. destruct J as ([s' o] & E & J). injection E as ->. apply NI. apply in_map_iff. exists (s, o). auto.
Qed.
Print Assumptions C90_all.

(** The oracle drawn at random is one of those present when the strategy was made; drawing one added later is an error. *)
Theorem C90_random : forall c0 c draw, iterset c <> [] -> (draw < List.length (iterset c))%nat ->
  random_given c (row_names c0) draw =
    match nth_error (iterset c0) draw with Some name => Ok [name] | None => Err KeyErr end.
Proof.
  intros c0 c draw NE L. unfold random_given. destruct (Nat.ltb_spec 0 (List.length (iterset c))); [reflexivity|lia].
Qed.
Print Assumptions C90_random.
Theorem C90_random_every : forall c name, In name (iterset c) <-> exists draw, (draw < List.length (iterset c))%nat /\ random_given c (row_names c) draw = Ok [name].
Proof.
  intros c name. split.
  - intro I. apply In_nth_error in I. destruct I as (i & E). assert (i < List.length (iterset c))%nat by (apply nth_error_Some; congruence). exists i. split; auto.
    rewrite C90_random; [now rewrite E| |auto]. intro X. rewrite X in H. cbn in H. lia.
  - intros (i & L & E). rewrite C90_random in E; [|intro X; rewrite X in L; cbn in L; lia|auto]. destruct (nth_error (iterset c) i) eqn:En; [|discriminate]. injection E as ->. eapply nth_error_In; eauto.
Qed.
Print Assumptions C90_random_every.
Theorem C90_random_later_refuted : forall p s o, ~ In s (map fst (p_dict p)) ->
  let c := Pooled (pool_add p s o) in exists draw, (draw < List.length (iterset c))%nat /\ random_given c (row_names (Pooled p)) draw = Err KeyErr.
Proof.
  intros p s o NI c. exists (List.length (iterset (Pooled p))).
  assert (L : List.length (iterset c) = S (List.length (iterset (Pooled p)))).
  { unfold c. cbn [iterset pool_add p_dict]. rewrite !map_length. clear c. induction (p_dict p) as [|[a b] d IH]; [reflexivity|]. cbn [dset]. cbn in NI.
    destruct (String.eqb_spec s a) as [->|N]; [exfalso; apply NI; now left|]. cbn [List.length]. f_equal. apply IH. intro J. apply NI. now right. }
  split; [lia|]. rewrite C90_random; [|intro X; rewrite X in L; discriminate|lia]. now rewrite (proj2 (nth_error_None _ _)) by lia.
Qed.
Print Assumptions C90_random_later_refuted.
Example C90_witness : let np := np0 (fun x => x) in let rows := [[9 # 10; 1 # 10]; [6 # 10; 4 # 10]; [2 # 10; 8 # 10]]%Q in
  numpy_ok np /\ least_sure [4; 5; 6] rows 5 /\
  plain_by_mat np [4; 5; 6] (Mat 2 rows) (Ok (all_given (row_names four))) = Ok (Asked [5] [KInt 0; KInt 1; KInt 2; KInt 3]) /\
  plain_by_mat np [4; 5; 6] (Mat 2 rows) (random_given four (row_names four) 2) = Ok (Asked [5] [KInt 2]).
Proof.
  intros np rows. split; [apply np0_ok|]. split; [|split; vm_compute; reflexivity].
  exists 1%nat, [6 # 10; 4 # 10]%Q, (6 # 10)%Q. split; [reflexivity|]. split; [reflexivity|]. split; [split; [now left|repeat constructor; lra]|].
  intros j row' p' E LG. destruct LG as [_ LG]. destruct j as [|[|[|j]]]; cbn in E; try (destruct j; discriminate); injection E as <-; inversion LG as [|? ? A B]; subst; inversion B; subst; lra.
Qed.
