(** Facts behind the theorems about comparing strategies. *)
From Verif Require Import Base BaseFacts SetFacts IndexModel IndexSpec IndexProofs StateModel StateSpec StateProofs StateProofs2
  StateProofs3 ExpModel ExpSpec ExpProofs CompareModel CompareSpec.
From Coq Require Import String QArith.
Local Open Scope Z_scope.

(** ** Criteria that decide alike *)
Definition alike (c d : scrit) : Prop :=
  sc_name c = sc_name d /\ sc_value c = sc_value d /\ (sc_name c = NTime -> sc_start c = sc_start d) /\ forall now, sc_is_stop c now = sc_is_stop d now.

Lemma alike_refl c : alike c c.
Proof. repeat split; auto. Qed.
Lemma alike_sym c d : alike c d -> alike d c.
Proof. intros (A & B & C & D). repeat split; auto. rewrite <- A. intro H. symmetry. auto. Qed.
Lemma alike_trans a b c : alike a b -> alike b c -> alike a c.
Proof.
  intros (A & B & C & D) (A' & B' & C' & D'). repeat split; try congruence.
  intro H. rewrite C by exact H. apply C'. congruence.
Qed.

Notation update := (sc_update ic_update ic_difference_update ic_len).

(** What an update does to the criterion, when the pool was not empty at first. *)
Definition updated (c : scrit) (io : sio icol pyval) (u : nat) : scrit :=
  {| sc_name := sc_name c; sc_value := sc_value c; sc_start := sc_start c;
     sc_iter := match sc_name c with NNum => List.length (s_states io) | _ => sc_iter c end;
     sc_acost := match sc_name c with NCost => s_cost io | _ => sc_acost c end;
     sc_unlabel := u;
     sc_percent := match sc_name c with NPercent => (Z.of_nat (ic_len (s_U io)) - Z.of_nat u) # Pos.of_succ_nat (pred (ic_len (s_U io))) | _ => sc_percent c end |}.
Lemma update_cases io : ic_len (s_U io) <> 0%nat ->
  (exists e, forall c, update c io = (c, Err e)) \/ (exists u, forall c, update c io = (updated c io u, Ok tt)).
Proof.
  intro NE. unfold sc_update. rewrite workspace_zero.
  destruct (sio_workspace ic_update ic_difference_update io None) as [[[[tr te] l] u]|e]; [|left; exists e; reflexivity].
  right. exists (ic_len u). intro c. unfold updated. destruct (sc_name c) eqn:E; try reflexivity.
  destruct (ic_len (s_U io)) as [|m] eqn:F; [congruence|]. reflexivity.
Qed.
Lemma updated_alike c d io u : alike c d -> alike (updated c io u) (updated d io u).
Proof.
  intros (N & V & T & _). unfold alike, updated, sc_is_stop. cbn. rewrite <- N, <- V. repeat split; auto. intro now.
  destruct (Nat.eqb u 0); [reflexivity|]. destruct (sc_name c); try reflexivity. rewrite T by reflexivity. reflexivity.
Qed.

Lemma add_pool (io : sio icol pyval) e io' : sio_add io e = (io', Ok tt) -> s_L io' = s_L io /\ s_U io' = s_U io /\ s_train io' = s_train io /\ s_test io' = s_test io.
Proof.
  unfold sio_add. destruct e as [s|d]; [|destruct (_ && _ && _); discriminate].
  destruct (cost_of (EState s)); [|discriminate]. destruct (sel_of (EState s)); [|discriminate]. intro H. injection H as <-. auto.
Qed.

Section Loops.
  Variable perf : list pyval -> list pyval -> res (sval pyval).

  (** Criteria that decide alike at the beginning give the same results. *)
  Lemma loop_alike fuel : forall k hist L U io c d r c', ic_len (s_U io) <> 0%nat -> alike c d ->
    compare_loop perf fuel k hist L U io c = Some (r, c') -> exists d', compare_loop perf fuel k hist L U io d = Some (r, d').
  Proof.
    induction fuel as [|fuel IH]; intros k hist L U io c d r c' NE A; destruct A as (N & V & T & S0) eqn:EA; clear EA; cbn [compare_loop]; rewrite <- S0.
    - destruct (sc_is_stop c (k_clock k (List.length hist))) as [[]|]; intro H; try discriminate; injection H as <- _; eauto.
    - destruct (sc_is_stop c (k_clock k (List.length hist))) as [[]|]; intro H; try (injection H as <- _; eauto; fail).
      destruct (k_strat k (cont L) hist L U) as [sel|]; [|injection H as <- _; eauto].
      destruct (ic_update L sel) as [L' [w|]]; [|injection H as <- _; eauto].
      destruct (ic_difference_update U sel) as [U' [w'|]]; [|injection H as <- _; eauto].
      destruct (perf (cont L') (f_test (k_fold k))) as [p|]; [|injection H as <- _; eauto].
      destruct (sio_add io _) as [io' [[]|]] eqn:Ea; [|injection H as <- _; eauto].
      destruct (k_save k (List.length hist)); [|injection H as <- _; eauto].
      assert (NE' : ic_len (s_U io') <> 0%nat) by (destruct (add_pool _ _ _ Ea) as (_ & -> & _); exact NE).
      destruct (update_cases io' NE') as [[e X]|[u X]]; rewrite X in *; [injection H as <- _; eauto|].
      eapply IH; [exact NE'| |exact H]. apply updated_alike. repeat split; auto.
  Qed.

  Lemma stop_name c d now now' : sc_name c = sc_name d -> sc_value c = sc_value d -> sc_start c = sc_start d ->
    sc_unlabel d <> 0%nat -> sc_is_stop c now = Ok false -> sc_is_stop d now' = Ok false -> alike c d.
  Proof.
    intros N V T U0 H1 H2. split; [exact N|]. split; [exact V|]. split; [auto|]. intro t. revert H1 H2. unfold sc_is_stop. rewrite <- N, <- V.
    destruct (Nat.eqb (sc_unlabel c) 0); [discriminate|]. destruct (Nat.eqb_spec (sc_unlabel d) 0); [contradiction|].
    destruct (sc_name c); unfold ge_value; try congruence. rewrite T. reflexivity.
  Qed.
  Lemma stop_err c d now now' e b : sc_name c = sc_name d -> sc_value c = sc_value d -> sc_unlabel d <> 0%nat -> sc_is_stop d now = Ok b -> sc_is_stop c now' <> Err e.
  Proof.
    intros N V U0. unfold sc_is_stop. rewrite <- N, <- V. destruct (Nat.eqb_spec (sc_unlabel d) 0); [contradiction|].
    destruct (Nat.eqb (sc_unlabel c) 0); [discriminate|]. destruct (sc_name c); unfold ge_value; try discriminate; destruct (sc_value c); try discriminate.
    destruct (_ || _); discriminate.
  Qed.

  (** After a call the criterion is as new: made at the end of the call if it returned, at the old time if not. *)
  Lemma loop_back c0 name v s : sc_init name v s = Ok c0 -> forall fuel k hist L U io c r c', ic_len (s_U io) <> 0%nat ->
    (hist = [] /\ alike c c0 /\ sc_start c = sc_start c0 \/ sc_name c = sc_name c0 /\ sc_value c = sc_value c0 /\ sc_start c = sc_start c0 /\ exists now, sc_is_stop c0 now = Ok false) ->
    compare_loop perf fuel k hist L U io c = Some (r, c') ->
    match r with Ok _ => sc_init name v (k_end k) = Ok c' | Err _ => alike c' c0 /\ sc_start c' = s end.
  Proof.
    intros H0. pose proof (init_facts _ _ _ _ H0) as (F1 & F2 & F3 & F4 & F5 & F6 & F7).
    assert (U0 : sc_unlabel c0 <> 0%nat) by (rewrite F4; discriminate).
    induction fuel as [|fuel IH]; intros k hist L U io c r c' NE I;
      assert (NVS : sc_name c = sc_name c0 /\ sc_value c = sc_value c0 /\ sc_start c = sc_start c0)
        by (destruct I as [(_ & (A & B & _) & S1)|(A & B & C & _)]; auto);
      destruct NVS as (N & V & S1); cbn [compare_loop];
      destruct (sc_is_stop c (k_clock k (List.length hist))) as [[]|e] eqn:E; intro H; try discriminate.
    1, 3: injection H as <- <-; unfold sc_reset; rewrite N, V, F1, F2; clear - H0; destruct name; cbn in *; try discriminate; try reflexivity; destruct v; try discriminate; reflexivity.
    1, 3: injection H as <- <-; destruct I as [(_ & A & S2)|(_ & _ & _ & now & X)];
      [split; [exact A|congruence]|exfalso; exact (stop_err c c0 _ _ e false N V U0 X E)].
    assert (K : alike c c0 /\ exists now, sc_is_stop c0 now = Ok false).
    { destruct I as [(_ & A & _)|(_ & _ & _ & now & X)].
      - split; [exact A|]. destruct A as (_ & _ & _ & A). rewrite A in E. eauto.
      - split; [|eauto]. eapply stop_name; eauto. }
    destruct K as [K X]. assert (Back : alike c c0 /\ sc_start c = s) by (split; [exact K|congruence]).
    destruct (k_strat k (cont L) hist L U) as [sel|]; [|injection H as <- <-; exact Back].
    destruct (ic_update L sel) as [L' [w|]]; [|injection H as <- <-; exact Back].
    destruct (ic_difference_update U sel) as [U' [w'|]]; [|injection H as <- <-; exact Back].
    destruct (perf (cont L') (f_test (k_fold k))) as [p|]; [|injection H as <- <-; exact Back].
    destruct (sio_add io _) as [io' [[]|]] eqn:Ea; [|injection H as <- <-; exact Back].
    destruct (k_save k (List.length hist)); [|injection H as <- <-; exact Back].
    assert (NE' : ic_len (s_U io') <> 0%nat) by (destruct (add_pool _ _ _ Ea) as (_ & -> & _); exact NE).
    destruct (update_cases io' NE') as [[e Y]|[u Y]]; rewrite Y in *; [injection H as <- <-; exact Back|].
    eapply IH; [exact NE'| |exact H]. right. cbn. auto.
  Qed.

  Lemma loop_kept fuel : forall k hist L U io c r c', compare_loop perf fuel k hist L U io c = Some (Ok r, c') ->
    s_L r = s_L io /\ s_U r = s_U io /\ s_train r = s_train io /\ s_test r = s_test io.
  Proof.
    induction fuel as [|fuel IH]; intros k hist L U io c r c'; cbn [compare_loop].
    - destruct (sc_is_stop c (k_clock k (List.length hist))) as [[]|]; intro H; try discriminate; injection H as <- _; auto.
    - destruct (sc_is_stop c (k_clock k (List.length hist))) as [[]|]; intro H; try discriminate; [injection H as <- _; auto|].
      destruct (k_strat k (cont L) hist L U) as [sel|]; [|discriminate].
      destruct (ic_update L sel) as [L' [w|]]; [|discriminate].
      destruct (ic_difference_update U sel) as [U' [w'|]]; [|discriminate].
      destruct (perf (cont L') (f_test (k_fold k))) as [p|]; [|discriminate].
      destruct (sio_add io _) as [io' [[]|]] eqn:Ea; [|discriminate].
      destruct (k_save k (List.length hist)); [|discriminate].
      destruct (update c io') as [c1 [w1|]]; [|discriminate].
      destruct (IH _ _ _ _ _ _ _ _ H) as (-> & -> & -> & ->). eapply add_pool, Ea.
  Qed.

  (** Without exceptions the loop is that of an experiment. *)
  Lemma loop_is_al k (strat : list pyval -> list (list pyval) -> icol -> icol -> list pyval) (pf : list pyval -> list pyval -> sval pyval) :
    (forall t, k_save k t = Ok tt) -> (forall d te, perf d te = Ok (pf d te)) -> (forall d h L U, k_strat k d h L U = Ok (strat d h L U)) ->
    forall fuel hist L U io c L2 U2 io2 c2,
    al_loop ic_update ic_difference_update ic_len fuel (fun h L U => strat (cont L) h L U) (fun _ L => pf (cont L) (f_test (k_fold k))) (k_clock k) hist L U io c = Done L2 U2 io2 c2 ->
    compare_loop perf fuel k hist L U io c = Some (Ok io2, sc_reset c2 (k_end k)).
  Proof.
    intros Sv Pf K fuel. induction fuel as [|fuel IH]; intros hist L U io c L2 U2 io2 c2; cbn [al_loop compare_loop].
    - destruct (sc_is_stop c (k_clock k (List.length hist))) as [[]|]; intros H; try discriminate. injection H as <- <- <- <-. reflexivity.
    - destruct (sc_is_stop c (k_clock k (List.length hist))) as [[]|]; intros H; try discriminate; [injection H as <- <- <- <-; reflexivity|].
      rewrite K. destruct (ic_update L (strat (cont L) hist L U)) as [L' [w|]]; [|discriminate].
      destruct (ic_difference_update U (strat (cont L) hist L U)) as [U' [w'|]]; [|discriminate].
      rewrite Pf. destruct (sio_add io _) as [io' [[]|]] eqn:Ea; [|discriminate]. rewrite Sv.
      destruct (update c io') as [c1 [w1|]]; [|discriminate]. eapply IH; eauto.
  Qed.
End Loops.
