(** C109: the container of recorded states is the list of what was added. *)
From Verif Require Import Base BaseFacts IndexModel MLModel MLSpec MLProofs MLProofs3 StateModel StateSpec StateProofs RecordModel.
From Coq Require Import String QArith.
Local Open Scope Z_scope.

(** [l] without its element at position [p]. *)
Definition without {A} (l : list A) (p : nat) (r : list A) : Prop :=
  exists x a b, l = a ++ x :: b /\ List.length a = p /\ r = a ++ b.
(** Position [i] of a list of length [n], counted from the end if negative. *)
Definition position (n : nat) (i : Z) (p : nat) : Prop :=
  (p < n)%nat /\ (i = Z.of_nat p \/ i = Z.of_nat p - Z.of_nat n).

Lemma py_index_spec n i : match py_index n i with
  | Some p => position n i p
  | None => i < - Z.of_nat n \/ Z.of_nat n <= i
  end.
Proof.
  unfold py_index, position. destruct (Z.ltb_spec i 0); cbn.
  all: repeat match goal with |- context[if ?b then _ else _] => destruct b eqn:? end; lia.
Qed.
Lemma position_unique n i p q : position n i p -> position n i q -> p = q.
Proof. unfold position. lia. Qed.

(** What a call does to the list of states. The sets and the folds given at the start never change. *)
Theorem C109_history : forall C E upd diff (s : sio C E) h o,
  let a := sio_run upd diff s h in let b := sio_run upd diff s (h ++ [o]) in
  s_L b = s_L s /\ s_U b = s_U s /\ s_train b = s_train s /\ s_test b = s_test s /\
  match o with
  | IAdd (EState st) => s_states b = s_states a ++ [EState st]
  | IAdd (EDict d) =>
      ((forall k, In k ["select_index"; "queried_info"; "performance"]%string -> exists v, sget k d = Some v) /\ s_states b = s_states a ++ [EDict d]) \/
      ((exists k, In k ["select_index"; "queried_info"; "performance"]%string /\ sget k d = None) /\ b = a)
  | IRecover it => let k := match it with Some k => k | None => Z.of_nat (List.length (s_states a)) end in
      ((exists w, sio_workspace upd diff a it = Ok w) /\ s_states b = firstn (Z.to_nat k) (s_states a)) \/
      ((exists e, sio_workspace upd diff a it = Err e) /\ b = a)
  | IRefresh | ICheck => s_states b = s_states a
  | IPop None => b = a
  | IPop (Some i) =>
      (exists p, position (List.length (s_states a)) i p /\ without (s_states a) p (s_states b)) \/
      ((i < - Z.of_nat (List.length (s_states a)) \/ Z.of_nat (List.length (s_states a)) <= i) /\ b = a)
  end.
Proof.
  intros C E upd diff s h o a b.
  assert (Eb : b = sio_step upd diff a o) by (unfold b, a, sio_run; now rewrite fold_left_app).
  assert (St : forall x q, s_L (sio_step upd diff x q) = s_L x /\ s_U (sio_step upd diff x q) = s_U x /\
    s_train (sio_step upd diff x q) = s_train x /\ s_test (sio_step upd diff x q) = s_test x).
  { intros x q. destruct q as [[st|d]|it| | |i]; cbn [sio_step].
    - unfold sio_add. destruct (cost_of (EState st)) as [c|]; [|cbn; auto]. destruct (sel_of (EState st)); cbn; auto.
    - unfold sio_add. destruct (_ && _ && _); cbn; auto.
    - unfold sio_recover. destruct (sio_workspace upd diff x it); cbn; auto.
    - unfold sio_refresh. destruct (mapM _ _); cbn; auto.
    - unfold sio_check_batch. destruct (mapM _ _) as [bs|]; [|cbn; auto]. destruct (nat_distinct bs) as [|? [|? ?]]; cbn; auto.
    - unfold sio_pop. destruct i as [i|]; [|cbn; auto]. destruct (py_index _ _) as [p|]; [|cbn; auto]. destruct (nth_error _ _); cbn; auto. }
  assert (Sr : forall l x, s_L (sio_run upd diff x l) = s_L x /\ s_U (sio_run upd diff x l) = s_U x /\
    s_train (sio_run upd diff x l) = s_train x /\ s_test (sio_run upd diff x l) = s_test x).
  { induction l as [|q l IH]; intro x; [cbn; auto|]. change (sio_run upd diff x (q :: l)) with (sio_run upd diff (sio_step upd diff x q) l).
    destruct (IH (sio_step upd diff x q)) as (-> & -> & -> & ->). apply St. }
  destruct (Sr (h ++ [o]) s) as (S1 & S2 & S3 & S4). fold b in S1, S2, S3, S4. do 4 (split; [assumption|]). clear S1 S2 S3 S4. rewrite Eb. clear b Eb St Sr.
  destruct o as [[st|d]|it| | |i]; cbn [sio_step].
  - unfold sio_add. destruct (cost_of (EState st)) as [c|]; [|reflexivity]. destruct (sel_of (EState st)); reflexivity.
  - unfold sio_add, has_key. destruct (sget "select_index" d) as [v1|] eqn:E1; [destruct (sget "queried_info" d) as [v2|] eqn:E2;
      [destruct (sget "performance" d) as [v3|] eqn:E3|]|]; cbn.
    + left. split; [|reflexivity]. intros k [<-|[<-|[<-|[]]]]; eauto.
    + right. split; [|reflexivity]. exists "performance"%string. cbn; auto.
    + right. split; [|reflexivity]. exists "queried_info"%string. cbn; auto.
    + right. split; [|reflexivity]. exists "select_index"%string. cbn; auto.
  - unfold sio_recover. destruct (sio_workspace upd diff a it) as [w|e]; [left|right]; split; eauto.
  - unfold sio_refresh. destruct (mapM _ _); reflexivity.
  - unfold sio_check_batch. destruct (mapM _ _) as [bs|]; [|reflexivity]. destruct (nat_distinct bs) as [|? [|? ?]]; reflexivity.
  - unfold sio_pop. destruct i as [i|]; [|reflexivity]. pose proof (py_index_spec (List.length (s_states a)) i) as P.
    destruct (py_index _ i) as [p|]; [|right; auto]. left. exists p. split; [exact P|].
    destruct (nth_error (s_states a) p) as [x|] eqn:N; [|apply nth_error_None in N; unfold position in P; lia]. cbn [fst with_states s_states].
    destruct (nth_error_split _ _ N) as (l1 & l2 & E1 & E2). exists x, l1, l2. split; [exact E1|]. split; [exact E2|].
    rewrite E1, <- E2. rewrite firstn_app, firstn_all, Nat.sub_diag, firstn_O, app_nil_r. f_equal.
    rewrite skipn_app, skipn_all2 by lia. replace (S (List.length l1) - List.length l1)%nat with 1%nat by lia. reflexivity.
Qed.
Print Assumptions C109_history.

(** [get_state] gives the state at a position from 0 on; [[]] also counts from the end; iteration gives all in order. *)
Theorem C109_read : forall C E (s : sio C E) i,
  (forall p, i = Z.of_nat p -> forall e, nth_error (s_states s) p = Some e -> sio_get s i = Ok e) /\
  (i < 0 \/ Z.of_nat (sio_count s) <= i -> sio_get s i = Err AssertErr) /\
  (forall p, position (sio_count s) i p -> exists e, nth_error (s_states s) p = Some e /\ sio_item s i = Ok e) /\
  (i < - Z.of_nat (sio_count s) \/ Z.of_nat (sio_count s) <= i -> sio_item s i = Err IndexErr) /\
  sio_iter s = s_states s /\ sio_count s = List.length (s_states s).
Proof.
  intros C E s i. unfold sio_count. split; [|split; [|split; [|split; [|split; reflexivity]]]].
  - intros p -> e N. unfold sio_get. assert (p < List.length (s_states s))%nat by (apply nth_error_Some; congruence).
    destruct (Z.leb_spec 0 (Z.of_nat p)); [|lia]. destruct (Z.ltb_spec (Z.of_nat p) (Z.of_nat (List.length (s_states s)))); [|lia].
    cbn [andb]. rewrite Nat2Z.id. unfold py_nth. now rewrite N.
  - intro H. unfold sio_get. destruct (Z.leb_spec 0 i); [|reflexivity]. destruct (Z.ltb_spec i (Z.of_nat (List.length (s_states s)))); [lia|reflexivity].
  - intros p Hp. pose proof (py_index_spec (List.length (s_states s)) i) as P. unfold sio_item.
    destruct (py_index _ i) as [q|]; [|unfold position in Hp; lia]. rewrite (position_unique _ _ _ _ P Hp).
    unfold py_nth. destruct (nth_error (s_states s) p) as [e|] eqn:N; [eauto|]. apply nth_error_None in N. unfold position in Hp. lia.
  - intro H. pose proof (py_index_spec (List.length (s_states s)) i) as P. unfold sio_item.
    destruct (py_index _ i) as [q|]; [unfold position in P; lia|reflexivity].
Qed.
Print Assumptions C109_read.

(** [pop(i)] returns the state that it removes and refuses a position outside the list. The documented default (the last state) is
    refused, whatever was recorded. *)
Theorem C109_pop : forall C E (s : sio C E) i p, position (sio_count s) i p ->
  exists e, nth_error (s_states s) p = Some e /\ snd (sio_pop s (Some i)) = Ok e.
Proof.
  intros C E s i p Hp. pose proof (py_index_spec (List.length (s_states s)) i) as P. unfold sio_pop, sio_count in *.
  destruct (py_index _ i) as [q|]; [|unfold position in Hp; lia]. rewrite (position_unique _ _ _ _ P Hp).
  destruct (nth_error (s_states s) p) as [e|] eqn:N; [eauto|]. apply nth_error_None in N. unfold position in Hp. lia.
Qed.
Print Assumptions C109_pop.
Theorem C109_pop_outside : forall C E (s : sio C E) i, i < - Z.of_nat (sio_count s) \/ Z.of_nat (sio_count s) <= i ->
  sio_pop s (Some i) = (s, Err IndexErr).
Proof.
  intros C E s i H. pose proof (py_index_spec (List.length (s_states s)) i) as P. unfold sio_pop, sio_count in *.
  destruct (py_index _ i) as [q|]; [unfold position in P; lia|reflexivity].
Qed.
Print Assumptions C109_pop_outside.
Theorem C109_pop_default_refuted : forall C E (s : sio C E), sio_pop s None = (s, Err TypeErr).
Proof. reflexivity. Qed.
Print Assumptions C109_pop_default_refuted.

(** Removing the state just added undoes the list but not the totals: [cost_inall] and the number of queried indexes keep counting it. *)
Theorem C109_add_pop : forall C E upd diff (s : sio C E) st,
  let b := sio_run upd diff s [IAdd (EState st); IPop (Some (-1))] in
  s_states b = s_states s /\
  (proper (EState st) -> (s_cost b == s_cost s + spent (EState st))%Q /\ s_numq b = (s_numq s + List.length (queried (EState st)))%nat).
Proof.
  intros C E upd diff s st b.
  assert (L : forall x : sio C E, s_states x = s_states s ++ [EState st] ->
    s_states (fst (sio_pop x (Some (-1)))) = s_states s /\ s_cost (fst (sio_pop x (Some (-1)))) = s_cost x /\ s_numq (fst (sio_pop x (Some (-1)))) = s_numq x).
  { intros x Ex. unfold sio_pop. pose proof (py_index_spec (List.length (s_states x)) (-1)) as P. rewrite Ex, app_length in *. cbn [List.length] in *.
    destruct (py_index _ (-1)) as [q|]; [|lia]. assert (q = List.length (s_states s)) by (unfold position in P; lia). subst q.
    rewrite nth_error_app2, Nat.sub_diag by lia. cbn [nth_error fst with_states s_states s_cost s_numq]. rewrite firstn_app, firstn_all, Nat.sub_diag, firstn_O, app_nil_r.
    rewrite skipn_all2 by (rewrite app_length; cbn; lia). now rewrite app_nil_r. }
  unfold b, sio_run. cbn [fold_left sio_step]. destruct (C109_history C E upd diff s [] (IAdd (EState st))) as (_ & _ & _ & _ & H). cbn [app] in H.
  unfold sio_run in H. cbn [fold_left sio_step] in H. destruct (L _ H) as (L1 & L2 & L3). split; [exact L1|]. intro Pr. rewrite L2, L3.
  destruct (add_proper s (EState st) Pr) as (_ & _ & A1 & A2 & _). auto.
Qed.
Print Assumptions C109_add_pop.

Example C109_example :
  let st i := EState (state_init (inl [i]) (SNum 1) None (Some (SNum 2))) in
  let s := sio_run ic_update ic_difference_update (sio_new [] [] (fst (ic_init (DList [VKey (KInt 1)]))) (fst (ic_init (DList [VKey (KInt 2); VKey (KInt 3); VKey (KInt 4)]))))
             [IAdd (st (VKey (KInt 2))); IAdd (st (VKey (KInt 3))); IAdd (st (VKey (KInt 4))); IPop (Some (-2))] in
  s_states s = [st (VKey (KInt 2)); st (VKey (KInt 4))] /\ sio_get s 1 = Ok (st (VKey (KInt 4))) /\ sio_item s (-2) = Ok (st (VKey (KInt 2))) /\
  position (sio_count s) (-2) 0 /\ (s_cost s == 6)%Q /\ sio_get s (-1) = Err AssertErr.
Proof. vm_compute. repeat split; auto. Qed.
