(** The general results of StateProofs2.v for both kinds of index collections. *)
From Verif Require Import Base BaseFacts SetFacts IndexModel IndexSpec IndexProofs MLModel MLSpec MLProofs
  StateModel StateSpec StateProofs StateProofs2.
From Coq Require Import String QArith ZifyBool.
Local Open Scope Z_scope.

(** *** IndexCollection *)
Definition icL (T : pyty) (native : bool) (c : icol) : Prop :=
  WF c /\ (etype c = Some T \/ etype c = None /\ native = true).
Definition ic_ok (T : pyty) (native : bool) (l : list pyval) : Prop :=
  forall v, In v l -> key_ty (norm v) = T /\ (native = true -> type_of v = T).
Definition ic_den (l : list pyval) (k : key) : Prop := In k (map norm l).

Lemma ic_dden l k : {ic_den l k} + {~ ic_den l k}.
Proof. apply (in_dec key_dec). Qed.

Lemma ic_upd_ok T nt c l : icL T nt c -> ic_ok T nt l ->
  exists c' w, ic_update c l = (c', Ok w) /\ icL T nt c' /\
  forall k, In k (elems c') <-> In k (elems c) \/ ic_den l k.
Proof.
  intros [W Ty] O. destruct (update_effect T l c W) as (A & B & (w & D) & F).
  { intros v Hv. destruct (O v Hv) as [H1 H2]. unfold acceptable. destruct Ty as [->|[-> Hn]]; auto. }
  destruct (ic_update c l) as [c' r]. cbn [fst snd] in *. subst r. exists c', w. split; auto. split.
  - split; auto. destruct A as [A|A]; rewrite A; auto.
  - intro k. rewrite F. rewrite <- (map_map norm Put), set_fold_puts. reflexivity.
Qed.

Lemma ic_diff_ok T nt c l : WF c -> ic_ok T nt l ->
  exists c' w, ic_difference_update c l = (c', Ok w) /\ WF c' /\
  forall k, In k (elems c') <-> In k (elems c) /\ ~ ic_den l k.
Proof.
  intros W _. destruct (diff_effect l c W) as (A & B & (w & D) & F).
  destruct (ic_difference_update c l) as [c' r]. cbn [fst snd] in *. subst r. exists c', w. repeat split; auto; try apply B.
  - apply F in H. rewrite <- (map_map norm Take), set_fold_takes in H. tauto.
  - apply F in H. rewrite <- (map_map norm Take), set_fold_takes in H. tauto.
  - intro H. apply F. rewrite <- (map_map norm Take), set_fold_takes. exact H.
Qed.

Lemma ic_clen c : WF c -> NoDup (elems c) /\ ic_len c = List.length (elems c).
Proof. intros [N _]. split; auto. unfold ic_len, elems. now rewrite map_length. Qed.

Lemma ic_den_all es k : den_all ic_den es k <-> In k (map norm (flat_map queried es)).
Proof.
  unfold den_all, ic_den. rewrite flat_map_concat_map. induction es as [|e es IH]; cbn.
  - split; [intros (? & [] & _)|tauto].
  - rewrite map_app, in_app_iff, <- IH. split.
    + intros (e' & [<-|H] & H'); eauto.
    + intros [H|(e' & H & H')]; eauto.
Qed.

Definition is_native (c : icol) : bool := match etype c with None => true | Some _ => false end.

Lemma acceptable_ok c T es : (forall e, In e es -> proper e) ->
  (forall v, In v (flat_map queried es) -> acceptable c T v) ->
  Forall (ok_entry (ic_ok T (is_native c))) es.
Proof.
  intros P A. apply Forall_forall. intros e He. split; auto. intros v Hv.
  assert (Av : acceptable c T v) by (apply A; apply in_flat_map; eauto).
  unfold acceptable in Av. unfold is_native. destruct (etype c); intuition; discriminate.
Qed.

Lemma acceptable_icL c T es : WF c -> (forall v, In v es -> acceptable c T v) -> es <> [] -> icL T (is_native c) c.
Proof.
  intros W A N. split; auto. destruct es as [|v es]; [congruence|]. specialize (A v (or_introl eq_refl)).
  unfold acceptable in A. unfold is_native. destruct (etype c); intuition congruence.
Qed.

Lemma ic_workspace_lemma (s : sio icol pyval) T k :
  reachable (s_L s) -> reachable (s_U s) -> 0 <= k <= Z.of_nat (List.length (s_states s)) ->
  let q := flat_map queried (firstn (Z.to_nat k) (s_states s)) in
  (forall e, In e (firstn (Z.to_nat k) (s_states s)) -> proper e) ->
  (forall v, In v q -> acceptable (s_L s) T v) ->
  exists L U, sio_workspace ic_update ic_difference_update s (Some k) = Ok (s_train s, s_test s, L, U) /\
    NoDup (elems L) /\ NoDup (elems U) /\
    (forall x, In x (elems L) <-> In x (elems (s_L s)) \/ In x (map norm q)) /\
    (forall x, In x (elems U) <-> In x (elems (s_U s)) /\ ~ In x (map norm q)).
Proof.
  intros RL RU Hk q P A. apply WF_reachable in RL, RU.
  assert (HT : exists T', icL T' (is_native (s_L s)) (s_L s) /\ forall v, In v q -> acceptable (s_L s) T' v).
  { destruct q as [|v q'] eqn:Eq.
    - exists (match etype (s_L s) with Some t => t | None => TInt end). split; [|intros ? []].
      split; auto. unfold is_native. destruct (etype (s_L s)); auto.
    - exists T. split; auto. eapply acceptable_icL; eauto. discriminate. }
  destruct HT as (T' & IL & A').
  destruct (workspace_ok ic_update ic_difference_update (icL T' (is_native (s_L s))) WF elems (ic_ok T' (is_native (s_L s))) ic_den
              (ic_upd_ok T' (is_native (s_L s))) (ic_diff_ok T' (is_native (s_L s))) s k)
    as (L & U & W & JL & JU & T1 & T2); auto.
  { apply acceptable_ok; auto. }
  exists L, U. split; auto. split; [apply JL|]. split; [apply JU|]. split; intro x.
  - rewrite T1, ic_den_all. reflexivity.
  - rewrite T2, ic_den_all. reflexivity.
Qed.

Lemma ic_conserve (s : sio icol pyval) T k :
  reachable (s_L s) -> reachable (s_U s) -> 0 <= k <= Z.of_nat (List.length (s_states s)) ->
  (forall e, In e (s_states s) -> proper e) ->
  (forall v, In v (flat_map queried (s_states s)) -> acceptable (s_L s) T v /\ In (norm v) (elems (s_U s))) ->
  (forall x, In x (elems (s_L s)) -> ~ In x (elems (s_U s))) ->
  exists L U, sio_workspace ic_update ic_difference_update s (Some k) = Ok (s_train s, s_test s, L, U) /\
    (forall x, In x (elems L) -> ~ In x (elems U)) /\
    (forall x, In x (elems L) \/ In x (elems U) <-> In x (elems (s_L s)) \/ In x (elems (s_U s))) /\
    (ic_len L + ic_len U = ic_len (s_L s) + ic_len (s_U s))%nat.
Proof.
  intros RL RU Hk P A D.
  assert (I : forall e, In e (firstn (Z.to_nat k) (s_states s)) -> In e (s_states s)).
  { intros e He. rewrite <- (firstn_skipn (Z.to_nat k) (s_states s)). apply in_or_app. now left. }
  assert (Iq : forall v, In v (flat_map queried (firstn (Z.to_nat k) (s_states s))) -> In v (flat_map queried (s_states s))).
  { intros v Hv. apply in_flat_map in Hv. destruct Hv as (e & He & Hv). apply in_flat_map. eauto. }
  destruct (ic_workspace_lemma s T k RL RU Hk) as (L & U & W & N1 & N2 & T1 & T2).
  { auto. } { intros v Hv. now apply A, Iq. }
  exists L, U. split; auto.
  destruct (conserve elems (s_L s) (s_U s) L U (fun x => In x (map norm (flat_map queried (firstn (Z.to_nat k) (s_states s))))))
    as [C1 C2]; auto.
  - intro x. destruct (in_dec key_dec x (map norm (flat_map queried (firstn (Z.to_nat k) (s_states s))))); auto.
  - intros x Hx. apply in_map_iff in Hx. destruct Hx as (v & <- & Hv). now apply A, Iq.
  - split; auto. split; auto. apply WF_reachable in RL, RU. unfold ic_len.
    rewrite <- (map_length norm (cont L)), <- (map_length norm (cont U)), <- (map_length norm (cont (s_L s))), <- (map_length norm (cont (s_U s))).
    fold (elems L) (elems U) (elems (s_L s)) (elems (s_U s)). rewrite <- !app_length.
    apply Permutation_length. apply NoDup_Permutation.
    + apply NoDup_app_intro; auto.
    + apply NoDup_app_intro; auto; [apply RL|apply RU].
    + intro x. rewrite !in_app_iff. apply C2.
Qed.

(** *** MultiLabelIndexCollection *)
Definition ml_ok (m : Z) (l : list mlidx) : Prop := l <> [] /\ forallb (scalar_ok m) l = true.

Lemma flat_denoted m l p : forallb (scalar_ok m) l = true -> (In p (flat_map (denoted m) l) <-> denoted_by m l p).
Proof.
  intro F. rewrite forallb_forall in F. unfold denoted_by. rewrite in_flat_map. split.
  - intros (x & Hx & Hp). exists x. split; auto. apply denoted_in; auto.
  - intros (x & Hx & Hp). exists x. split; auto. apply denoted_in; auto.
Qed.

Lemma ml_accepts m l : ml_ok m l -> accepts m (MUpdate l) = true /\ accepts m (MDiff l) = true.
Proof. intros [N F]. destruct l; [congruence|]. auto. Qed.

Lemma ml_upd_ok m c l : good m c -> ml_ok m l ->
  exists c' w, ml_update true c l = (c', Ok w) /\ good m c' /\
  forall k, In k (pairs c') <-> In k (pairs c) \/ denoted_by m l k.
Proof.
  intros G O. destruct (update_good m c l G) as (A & B & _ & D). destruct (ml_accepts m l O) as [Ac _].
  destruct (proj1 B Ac) as [w Hw]. destruct (ml_update true c l) as [c' r]. cbn [fst snd] in *. subst r.
  exists c', w. split; auto. split; auto. intro k. unfold set_of in D. rewrite D. unfold effects. rewrite Ac.
  rewrite set_fold_puts. unfold set_of. rewrite flat_denoted by apply O. reflexivity.
Qed.

Lemma ml_diff_ok m c l : good m c -> ml_ok m l ->
  exists c' w, ml_difference_update true c l = (c', Ok w) /\ good m c' /\
  forall k, In k (pairs c') <-> In k (pairs c) /\ ~ denoted_by m l k.
Proof.
  intros G O. destruct (difference_good m c l G) as (A & B & _ & D). destruct (ml_accepts m l O) as [_ Ac].
  destruct (proj1 B Ac) as [w Hw]. destruct (ml_difference_update true c l) as [c' r]. cbn [fst snd] in *. subst r.
  exists c', w. split; auto. split; auto. intro k. unfold set_of in D. rewrite D. unfold effects. rewrite Ac.
  rewrite set_fold_takes. unfold set_of. rewrite flat_denoted by apply O. reflexivity.
Qed.

Lemma ml_workspace_lemma m (s : sio mlic mlidx) k :
  ml_reachable m (s_L s) -> ml_reachable m (s_U s) -> 0 <= k <= Z.of_nat (List.length (s_states s)) ->
  (forall e, In e (firstn (Z.to_nat k) (s_states s)) ->
     proper e /\ queried e <> [] /\ forallb (scalar_ok m) (queried e) = true) ->
  exists L U, sio_workspace (ml_update true) (ml_difference_update true) s (Some k) = Ok (s_train s, s_test s, L, U) /\
    NoDup (pairs L) /\ NoDup (pairs U) /\
    (forall p, In p (pairs L) <-> In p (pairs (s_L s)) \/
                denoted_by m (flat_map queried (firstn (Z.to_nat k) (s_states s))) p) /\
    (forall p, In p (pairs U) <-> In p (pairs (s_U s)) /\
                ~ denoted_by m (flat_map queried (firstn (Z.to_nat k) (s_states s))) p).
Proof.
  intros RL RU Hk P. apply reachable_good in RL, RU.
  destruct (workspace_ok (ml_update true) (ml_difference_update true) (good m) (good m) pairs (ml_ok m) (denoted_by m)
              (ml_upd_ok m) (ml_diff_ok m) s k) as (L & U & W & JL & JU & T1 & T2); auto.
  { apply Forall_forall. intros e He. destruct (P e He) as (P1 & P2 & P3). split; auto. split; auto. }
  assert (X : forall p, den_all (denoted_by m) (firstn (Z.to_nat k) (s_states s)) p <->
                        denoted_by m (flat_map queried (firstn (Z.to_nat k) (s_states s))) p).
  { intro p. unfold den_all, denoted_by. split.
    - intros (e & He & x & Hx & Hp). exists x. split; auto. apply in_flat_map. eauto.
    - intros (x & Hx & Hp). apply in_flat_map in Hx. destruct Hx as (e & He & Hx). eauto. }
  exists L, U. split; auto. split; [apply pairs_NoDup; apply JL|]. split; [apply pairs_NoDup; apply JU|].
  split; intro p.
  - rewrite T1, X. reflexivity.
  - rewrite T2, X. reflexivity.
Qed.

(** *** main loop on IndexCollection *)
Lemma ic_loop_lemma T strat perf clock L0 U0 tr te name v t0 c0 :
  reachable L0 -> reachable U0 -> etype L0 = Some T -> etype U0 = Some T -> cont U0 <> [] ->
  (forall x, In x (elems L0) -> ~ In x (elems U0)) ->
  (forall hist L U, cont U <> [] -> strat hist L U <> [] /\ forall x, In x (strat hist L U) -> In (norm x) (elems U)) ->
  sc_init name v t0 = Ok c0 -> crit_ok name v ->
  exists n L U s c,
    al_loop ic_update ic_difference_update ic_len (ic_len U0) strat perf clock [] L0 U0 (sio_new tr te L0 U0) c0
      = Done L U s c /\
    List.length (s_states s) = n /\ (n <= ic_len U0)%nat /\
    sio_workspace ic_update ic_difference_update s None = Ok (tr, te, L, U) /\
    (forall i, (i <= n)%nat -> exists Li Ui,
       sio_workspace ic_update ic_difference_update s (Some (Z.of_nat i)) = Ok (tr, te, Li, Ui) /\
       (should_stop name (crit_value (sc_value c0)) (ic_len Ui) (ic_len U0) i 0 (clock i - t0) <-> i = n) /\
       (forall x, In x (elems Li) -> ~ In x (elems Ui)) /\
       (forall x, In x (elems Li) \/ In x (elems Ui) <-> In x (elems L0) \/ In x (elems U0))).
Proof.
  intros RL RU EL EU NU D St Hc V. apply WF_reachable in RL, RU.
  apply (main_loop_lemma ic_update ic_difference_update ic_len (icL T false) WF elems (ic_ok T false) ic_den ic_dden
           (ic_upd_ok T false) (ic_diff_ok T false) ic_clen strat perf clock L0 U0 tr te name v t0 c0); auto.
  - split; auto.
  - intros hist L U WU IU NE. assert (NE' : cont U <> []) by (intro X; apply NE; unfold elems; now rewrite X).
    destruct (St hist L U NE') as [S1 S2]. split; [|split].
    + intros x Hx. split; [|discriminate]. apply S2 in Hx. apply IU in Hx.
      destruct RU as [_ RU2]. apply RU2 in Hx. congruence.
    + destruct (strat hist L U) as [|x l]; [congruence|]. exists (norm x). left. reflexivity.
    + intros k Hk. apply in_map_iff in Hk. destruct Hk as (x & <- & Hx). auto.
  - intro X. apply NU. unfold elems in X. now apply map_eq_nil in X.
Qed.
