(** Proofs about collections given to their own methods. *)
From Verif Require Import Base BaseFacts SetFacts IndexModel IndexSpec IndexProofs MLModel MLSpec MLProofs SelfModel SelfSpec.
Local Open Scope nat_scope.

Fixpoint seconds_of {A} (l : list A) : list A :=
  match l with
  | [] | [_] => []
  | _ :: y :: r => y :: seconds_of r
  end.

Lemma pair_ind {A} (P : list A -> Prop) :
  P [] -> (forall x, P [x]) -> (forall x y r, P r -> P (x :: y :: r)) -> forall l, P l.
Proof.
  intros H0 H1 H2 l. enough (P l /\ forall x, P (x :: l)) by tauto.
  induction l as [|y l [IH1 IH2]]; split; auto.
Qed.

Lemma seconds_every {A} (l : list A) : every_second l (seconds_of l).
Proof.
  induction l as [|x|x y r IH] using pair_ind; intro i.
  - now destruct i.
  - cbn [seconds_of]. rewrite (proj2 (nth_error_None [x] _)) by (cbn; lia). now destruct i.
  - destruct i as [|i]; cbn [seconds_of].
    + reflexivity.
    + replace (2 * S i + 1) with (S (S (2 * i + 1))) by lia. cbn [nth_error]. apply IH.
Qed.


Lemma seconds_length {A} (l : list A) : List.length (seconds_of l) = List.length l / 2.
Proof.
  induction l as [|x|x y r IH] using pair_ind; auto.
  cbn [seconds_of List.length]. rewrite IH. replace (S (S (List.length r))) with (1 * 2 + List.length r) by lia.
  rewrite Nat.div_add_l by lia. lia.
Qed.

Lemma seconds_map {A B} (f : A -> B) l : map f (seconds_of l) = seconds_of (map f l).
Proof. induction l as [|x|x y r IH] using pair_ind; cbn; auto. now rewrite IH. Qed.

Lemma seconds_in {A} (l : list A) x : In x (seconds_of l) -> In x l.
Proof.
  induction l as [|y|y z r IH] using pair_ind; cbn; auto. intros [H|H]; auto.
Qed.

Lemma remove_first_at v pre r : ~ In (norm v) (map norm pre) ->
  remove_first v (pre ++ v :: r) = pre ++ r.
Proof.
  induction pre as [|x pre IH]; cbn; intro H.
  - unfold py_eq. now rewrite key_eqb_refl.
  - assert (E : py_eq v x = false). { apply key_eqb_neq. intro E. apply H. left. congruence. }
    rewrite E. f_equal. apply IH. tauto.
Qed.

Lemma live_discard turns : forall pre rest t, List.length rest <= turns ->
  NoDup (map norm (pre ++ rest)) ->
  live_loop ic_discard turns (List.length pre) {| cont := pre ++ rest; etype := t |} =
  Some ({| cont := pre ++ seconds_of rest; etype := t |}, Ok []).
Proof.
  induction turns as [|n IH]; intros pre rest t L N; destruct rest as [|x rest]; cbn [List.length] in L; try lia.
  1,2: cbn [live_loop cont seconds_of]; rewrite app_nil_r, (proj2 (nth_error_None pre _)) by lia; reflexivity.
  cbn [live_loop cont]. rewrite nth_error_app2 by lia. rewrite Nat.sub_diag. cbn [nth_error].
  unfold ic_discard at 1. cbn [cont etype].
  assert (Hx : ~ In (norm x) (map norm pre)).
  { rewrite map_app in N. cbn in N. apply NoDup_remove_2 in N. rewrite in_app_iff in N. tauto. }
  assert (C : ic_contains x {| cont := pre ++ x :: rest; etype := t |} = true).
  { apply contains_in. unfold elems. cbn [cont]. rewrite map_app. apply in_or_app. right. now left. }
  rewrite C, (remove_first_at x pre rest Hx).
  assert (N' : NoDup (map norm (pre ++ rest))).
  { rewrite map_app in *. cbn in N. now apply NoDup_remove_1 in N. }
  destruct rest as [|y r].
  - cbn [seconds_of]. destruct n; cbn [live_loop cont]; rewrite app_nil_r;
      rewrite (proj2 (nth_error_None pre _)) by lia; reflexivity.
  - cbn [seconds_of]. replace (pre ++ y :: r) with ((pre ++ [y]) ++ r) in * by now rewrite <- app_assoc.
    replace (S (List.length pre)) with (List.length (pre ++ [y])) by (rewrite app_length; cbn; lia).
    rewrite IH; auto; [|cbn in L; lia]. now rewrite <- app_assoc.
Qed.

Lemma live_add turns : forall c pos, WF c -> List.length (cont c) - pos <= turns ->
  live_loop ic_add turns pos c = Some (c, Ok (repeat WRepeat (List.length (cont c) - pos))).
Proof.
  induction turns as [|n IH]; intros c pos W L; cbn [live_loop].
  - rewrite (proj2 (nth_error_None (cont c) pos)) by lia.
    replace (List.length (cont c) - pos) with 0 by lia. reflexivity.
  - destruct (nth_error (cont c) pos) as [v|] eqn:E.
    + assert (pos < List.length (cont c)) by (apply nth_error_Some; congruence).
      rewrite (add_present c v W). 2:{ unfold elems. apply in_map. eapply nth_error_In; eauto. }
      rewrite IH by (auto; lia). replace (List.length (cont c) - pos) with (S (List.length (cont c) - S pos)) by lia.
      reflexivity.
    + apply nth_error_None in E. replace (List.length (cont c) - pos) with 0 by lia. reflexivity.
Qed.

Lemma difference_self c turns : WF c -> List.length (cont c) <= turns ->
  ic_difference_self turns c = Some ({| cont := seconds_of (cont c); etype := etype c |}, Ok []).
Proof.
  intros [N _] L. unfold ic_difference_self. destruct c as [l t]. exact (live_discard turns [] l t L N).
Qed.

Lemma update_puts T c vs : WF c -> (forall v, In v vs -> acceptable c T v) ->
  WF (fst (ic_update c vs)) /\ (exists w, snd (ic_update c vs) = Ok w) /\
  forall k, In k (elems (fst (ic_update c vs))) <-> In k (elems c) \/ In k (map norm vs).
Proof.
  intros W A. destruct (update_effect T vs c W A) as (_ & H1 & H2 & H3). cbn zeta in *.
  split; auto. split; auto. intro k. rewrite H3, <- (map_map norm Put). apply (set_fold_puts (map norm vs) (fun k0 => In k0 (elems c))).
Qed.

Lemma diff_takes c vs : WF c ->
  WF (fst (ic_difference_update c vs)) /\ (exists w, snd (ic_difference_update c vs) = Ok w) /\
  forall k, In k (elems (fst (ic_difference_update c vs))) <-> In k (elems c) /\ ~ In k (map norm vs).
Proof.
  intros W. destruct (diff_effect vs c W) as (_ & H1 & H2 & H3). cbn zeta in *.
  split; auto. split; auto. intro k. rewrite H3, <- (map_map norm Take). apply (set_fold_takes (map norm vs) (fun k0 => In k0 (elems c))).
Qed.

Lemma no_elems c : (forall k, ~ In k (elems c)) -> elems c = [].
Proof. destruct (elems c) as [|k l]; auto. intro H. destruct (H k). now left. Qed.

(** *** Multi-label *)
Lemma flatten_ok m chk l : (0 < m)%Z -> (chk = false \/ l <> []) -> forallb (scalar_ok m) l = true ->
  flatten_idx chk (Some m) l = Ok (flat_map (denoted m) l).
Proof.
  intros M N F. rewrite flatten_spec, F. replace (0 <? m)%Z with true by lia.
  destruct l; auto. destruct chk; auto. destruct N; congruence.
Qed.

Lemma ml_update_any m c chk l : good m c -> (chk = false \/ l <> []) -> forallb (scalar_ok m) l = true ->
  good m (fst (ml_update chk c l)) /\ (exists w, snd (ml_update chk c l) = Ok w) /\
  forall p, In p (pairs (fst (ml_update chk c l))) <-> In p (pairs c) \/ In p (flat_map (denoted m) l).
Proof.
  intros G N F. pose proof G as (G1 & G2 & G3 & _). unfold ml_update. rewrite G2, flatten_ok by auto.
  destruct (loop_pairs m ml_add2 Put (flat_map (denoted m) l)) with (c := c) as (A & B & C); auto.
  - intros c0 p G0 Hp. destruct p as [i j]. apply (add2_pair m c0 i j); auto.
  - intros p Hp. eapply flat_denoted_range; eauto.
  - cbn zeta in *. split; auto. split; auto. intro p. unfold set_of in C. rewrite C.
    apply (set_fold_puts (flat_map (denoted m) l) (fun q => In q (pairs c))).
Qed.

Lemma ml_difference_any m c chk l : good m c -> (chk = false \/ l <> []) -> forallb (scalar_ok m) l = true ->
  good m (fst (ml_difference_update chk c l)) /\ (exists w, snd (ml_difference_update chk c l) = Ok w) /\
  forall p, In p (pairs (fst (ml_difference_update chk c l))) <->
            In p (pairs c) /\ ~ In p (flat_map (denoted m) l).
Proof.
  intros G N F. pose proof G as (G1 & G2 & G3 & _). unfold ml_difference_update. rewrite G2, flatten_ok by auto.
  destruct (loop_pairs m ml_discard2 Take (flat_map (denoted m) l)) with (c := c) as (A & B & C); auto.
  - intros c0 p G0 Hp. destruct p as [i j]. apply (discard2_pair m c0 i j); auto.
  - intros p Hp. eapply flat_denoted_range; eauto.
  - cbn zeta in *. split; auto. split; auto. intro p. unfold set_of in C. rewrite C.
    apply (set_fold_takes (flat_map (denoted m) l) (fun q => In q (pairs c))).
Qed.

Lemma own_ok m c : good m c -> forallb (scalar_ok m) (mcont c) = true /\
  flat_map (denoted m) (mcont c) = pairs c.
Proof.
  intros (_ & _ & _ & F & _). unfold pairs. induction (mcont c) as [|x l IH]; [now split|].
  inversion F as [|? ? F1 F2]; subst. destruct (IH F2) as [I1 I2]. destruct x; cbn in F1; try contradiction.
  cbn. rewrite I1, I2. split; auto. lia.
Qed.

Lemma no_pairs m c : good m c -> (forall p, ~ In p (pairs c)) -> mcont c = [].
Proof.
  intros (_ & _ & _ & F & _) H. rewrite (pairs_map m c F). destruct (pairs c) as [|p l]; auto.
  destruct (H p). now left.
Qed.

Lemma add2_present m c i j : good m c -> In (IPair i j) (mcont c) ->
  ml_add2 c (IPair i j) = (c, Ok [WRepeat]).
Proof.
  intros G H. pose proof G as (G1 & G2 & G3 & F & _). rewrite Forall_forall in F. pose proof (F _ H) as R. cbn in R.
  unfold ml_add2, ml_check, ml_insert. rewrite G2. cbn [existsb].
  replace (j >=? m)%Z with false by lia. cbn [orb]. apply idx_mem_in in H. rewrite H. reflexivity.
Qed.

Lemma loop_present m c ps : good m c -> incl ps (pairs c) ->
  ml_loop ml_add2 c (map pair_idx ps) = (c, Ok (repeat WRepeat (List.length ps))).
Proof.
  intro G. induction ps as [|[i j] ps IH]; intro H; cbn [map ml_loop]; auto.
  change (pair_idx (i, j)) with (IPair i j).
  rewrite (add2_present m c i j G). 2:{ apply in_pairs. apply H. now left. }
  rewrite IH; [reflexivity|]. intros p Hp. apply H. now right.
Qed.

Lemma update_self_ml m c : good m c ->
  ml_update_self c = (c, Ok (repeat WRepeat (List.length (pairs c)))).
Proof.
  intro G. pose proof G as (_ & G2 & G3 & _). unfold ml_update_self, ml_update.
  destruct (own_ok m c G) as [E1 E2]. rewrite G2, flatten_ok, E2 by auto.
  apply (loop_present m); auto. intros p Hp. exact Hp.
Qed.

Fixpoint firsts_of {A} (l : list A) : list A :=
  match l with
  | [] => []
  | [x] => [x]
  | x :: _ :: r => x :: firsts_of r
  end.

Lemma discard_firsts rest : forall pre t, NoDup (map norm (pre ++ rest)) ->
  fst (ic_difference_update {| cont := pre ++ rest; etype := t |} (firsts_of rest)) =
  {| cont := pre ++ seconds_of rest; etype := t |}.
Proof.
  assert (X : forall pre x rest t, NoDup (map norm (pre ++ x :: rest)) ->
    ic_discard {| cont := pre ++ x :: rest; etype := t |} x = ({| cont := pre ++ rest; etype := t |}, Ok []) /\
    NoDup (map norm (pre ++ rest))).
  { intros pre x rest' t N. rewrite map_app in *. cbn in N.
    pose proof (NoDup_remove_2 _ _ _ N) as Hx. split; [|now apply NoDup_remove_1 in N].
    unfold ic_discard. cbn [cont etype]. rewrite remove_first_at by (rewrite in_app_iff in Hx; tauto).
    replace (ic_contains x {| cont := pre ++ x :: rest'; etype := t |}) with true; auto. symmetry. apply contains_in.
    unfold elems. cbn [cont]. rewrite map_app. apply in_or_app. right. now left. }
  induction rest as [|x|x y r IH] using pair_ind; intros pre t N; cbn [firsts_of seconds_of]; unfold ic_difference_update in *; cbn [ic_loop].
  - reflexivity.
  - destruct (X pre x [] t N) as [-> _]. reflexivity.
  - destruct (X pre x (y :: r) t N) as [-> N1].
    replace (pre ++ y :: r) with ((pre ++ [y]) ++ r) in * by now rewrite <- app_assoc.
    specialize (IH (pre ++ [y]) t N1). destruct (ic_loop ic_discard _ (firsts_of r)) as [c [w|e]]; cbn [fst] in *; subst c;
    now rewrite <- app_assoc.
Qed.

Lemma seconds_reachable c : reachable c -> reachable {| cont := seconds_of (cont c); etype := etype c |}.
Proof.
  intro R. pose proof (WF_reachable c R) as [N _]. destruct c as [l t]. cbn [cont etype].
  pose proof (discard_firsts l [] t N) as E. cbn [app] in E. rewrite <- E.
  exact (reach_step _ (ODiff (firsts_of l)) R).
Qed.
