(** Property C132: an experiment that is allowed to run longer continues the shorter one. *)
From Verif Require Import Base BaseFacts IndexModel IndexProofs StateModel StateSpec StateProofs ExpModel ExpSpec ExpProps CausalProps LongerSpec.
From Coq Require Import String QArith Lqa.
Local Open Scope Z_scope.
Local Notation length := List.length.

(** The counters of two criteria of one kind. *)
Definition abreast (c c' : scrit) : Prop :=
  looser c c' /\ sc_iter c = sc_iter c' /\ sc_acost c = sc_acost c' /\ sc_unlabel c = sc_unlabel c' /\ sc_percent c = sc_percent c'.

Lemma abreast_stop c c' now : abreast c c' -> sc_is_stop c now = Ok false -> sc_is_stop c' now = Ok true ->  False.
Proof.
  intros ((N & S & V) & I & A & U & P). unfold sc_is_stop, ge_value. rewrite <- N, <- S, <- I, <- A, <- U, <- P.
  destruct (Nat.eqb (sc_unlabel c) 0); [discriminate|]. destruct (sc_value c) as [v|], (sc_value c') as [v'|]; try contradiction.
  - destruct (sc_name c); try discriminate; try (intros H H'; injection H as H; injection H' as H'; apply Qle_bool_iff in H';
      match type of H with ?b = false => assert (X : b = true) by (apply Qle_bool_iff; lra); congruence end).
    destruct (negb (Qle_bool v 1) || negb (Qle_bool 0 v))%bool; [discriminate|]. destruct (negb (Qle_bool v' 1) || negb (Qle_bool 0 v'))%bool; [discriminate|].
    intros H H'; injection H as H; injection H' as H'; apply Qle_bool_iff in H'; match type of H with ?b = false => assert (X : b = true) by (apply Qle_bool_iff; lra); congruence end.
  - destruct (sc_name c); congruence.
Qed.
Lemma abreast_update {C E} cu cd (len : C -> nat) c c' (s : sio C E) d d' : abreast c c' ->
  sc_update cu cd len c s = (d, Ok tt) -> sc_update cu cd len c' s = (d', Ok tt) -> abreast d d'.
Proof.
  intros ((N & S & V) & I & A & U & P). unfold sc_update. rewrite <- N.
  destruct (sio_workspace _ _ s None) as [[[[? ?] ?] u]|]; [|discriminate]. destruct (sio_workspace _ _ s (Some 0)) as [[[[? ?] ?] u0]|]; [|discriminate].
  destruct (sc_name c) eqn:Nc; try (intros H H'; injection H as <-; injection H' as <-; unfold abreast, looser; cbn; repeat (split; [congruence||auto|]); (congruence||auto); fail).
  destruct (len u0); [discriminate|]. intros H H'; injection H as <-; injection H' as <-. unfold abreast, looser; cbn. repeat (split; [congruence||auto|]); congruence||auto.
Qed.

Lemma continue_any strat perf fuel : forall fuel' clock clock' hist L U s c c' L1 U1 s1 c1 L2 U2 s2 c2,
  the_loop fuel strat perf clock hist L U s c = Done L1 U1 s1 c1 ->
  the_loop fuel' strat perf clock' hist L U s c' = Done L2 U2 s2 c2 ->
  continues (s_states s1) (s_states s2) \/ continues (s_states s2) (s_states s1).
Proof.
  induction fuel as [|n IH]; intros fuel' clock clock' hist L U s c c' L1 U1 s1 c1 L2 U2 s2 c2 H H';
    pose proof (loop_extends _ _ _ _ _ _ _ _ _ _ _ _ _ H) as X; pose proof (loop_extends _ _ _ _ _ _ _ _ _ _ _ _ _ H') as X'.
  - cbn [al_loop] in H. destruct (sc_is_stop c _) as [[|]|]; try discriminate. injection H as _ _ <- _. now left.
  - cbn [al_loop] in H. destruct (sc_is_stop c _) as [[|]|]; try discriminate; [injection H as _ _ <- _; now left|].
    destruct fuel' as [|n']; cbn [al_loop] in H'; (destruct (sc_is_stop c' _) as [[|]|]; try discriminate); try (injection H' as _ _ <- _; now right).
    destruct (ic_update L _) as [L' [w|]]; [|discriminate]. destruct (ic_difference_update U _) as [U' [w'|]]; [|discriminate].
    destruct (sio_add s _) as [s' [[]|]]; [|discriminate].
    destruct (sc_update _ _ _ c s') as [d [[]|]]; [|discriminate]. destruct (sc_update _ _ _ c' s') as [d' [[]|]]; [|discriminate].
    eapply IH; eauto.
Qed.
Lemma continue_looser strat perf fuel : forall fuel' clock hist L U s c c' L1 U1 s1 c1 L2 U2 s2 c2, abreast c c' ->
  the_loop fuel strat perf clock hist L U s c = Done L1 U1 s1 c1 ->
  the_loop fuel' strat perf clock hist L U s c' = Done L2 U2 s2 c2 ->
  continues (s_states s1) (s_states s2).
Proof.
  induction fuel as [|n IH]; intros fuel' clock hist L U s c c' L1 U1 s1 c1 L2 U2 s2 c2 A H H';
    pose proof (loop_extends _ _ _ _ _ _ _ _ _ _ _ _ _ H') as X'.
  - cbn [al_loop] in H. destruct (sc_is_stop c _) as [[|]|]; try discriminate. injection H as _ _ <- _. exact X'.
  - cbn [al_loop] in H. destruct (sc_is_stop c _) as [[|]|] eqn:E; try discriminate; [injection H as _ _ <- _; exact X'|].
    pose proof (abreast_stop c c' _ A E) as NS.
    destruct fuel' as [|n']; cbn [al_loop] in H'; (destruct (sc_is_stop c' _) as [[|]|]; try discriminate); try (exfalso; now apply NS).
    destruct (ic_update L _) as [L' [w|]]; [|discriminate]. destruct (ic_difference_update U _) as [U' [w'|]]; [|discriminate].
    destruct (sio_add s _) as [s' [[]|]]; [|discriminate].
    destruct (sc_update _ _ _ c s') as [d [[]|]] eqn:D; [|discriminate]. destruct (sc_update _ _ _ c' s') as [d' [[]|]] eqn:D'; [|discriminate].
    eapply (IH n'); [|exact H|exact H']. eapply abreast_update; eauto.
Qed.

Lemma div_ratio a b a' b' : 0 < b -> 0 < b' -> a * b' <= a' * b -> a / b <= a' / b'.
Proof.
  intros B B' H. apply Z.div_le_lower_bound; auto. pose proof (Z.mul_div_le a b B).
  assert (G : b * (b' * (a / b)) <= b * a') by nia. nia.
Qed.
Lemma quot_ratio a b a' b' : a * Zpos b' <= a' * Zpos b -> Z.quot a (Zpos b) <= Z.quot a' (Zpos b').
Proof.
  intro H. destruct (Z_lt_le_dec a 0) as [La|La], (Z_lt_le_dec a' 0) as [La'|La'].
  - assert (Q : forall x p, x < 0 -> Z.quot x (Zpos p) = - ((- x) / Zpos p)).
    { intros x p L. rewrite <- Z.quot_div_nonneg, Z.quot_opp_l by lia. lia. }
    rewrite !Q by auto. apply -> Z.opp_le_mono. apply div_ratio; lia.
  - pose proof (Z.quot_pos a' (Zpos b') La' ltac:(lia)). assert (X : 0 <= Z.quot (- a) (Zpos b)) by (apply Z.quot_pos; lia).
    rewrite Z.quot_opp_l in X by lia. lia.
  - pose proof (Z.mul_nonneg_nonneg a (Zpos b') La ltac:(lia)). pose proof (Z.mul_neg_pos a' (Zpos b) La' ltac:(lia)). lia.
  - rewrite !Z.quot_div_nonneg by lia. apply div_ratio; lia.
Qed.

(** Two runs of a fold with the same strategy, whatever their stopping criteria and clocks: one is the beginning of the other. *)
Theorem C132_fold : forall perf fuel fuel' strat clock clock' f c c' p L U io d p' L' U' io' d',
  run_fold perf fuel strat clock f c = (p, Done L U io d) -> run_fold perf fuel' strat clock' f c' = (p', Done L' U' io' d') ->
  p = p' /\ (continues (s_states io) (s_states io') \/ continues (s_states io') (s_states io)).
Proof.
  intros perf fuel fuel' strat clock clock' f c c' p L U io d p' L' U' io' d' H H'. unfold run_fold in *. injection H as <- H. injection H' as <- H'.
  split; auto. eapply continue_any; eauto.
Qed.
Print Assumptions C132_fold.

(** With a higher limit of the same kind it is the longer one; fold by fold for a whole experiment. *)
Theorem C132_limit : forall perf fuel fuel' strat clock n v v' now c c' folds rs rs',
  sc_init n (Some v) now = Ok c -> sc_init n (Some v') now = Ok c' -> (v <= v')%Q ->
  run_rounds perf fuel strat clock c 0 folds [] = Some (rs, Ok tt) -> run_rounds perf fuel' strat clock c' 0 folds [] = Some (rs', Ok tt) ->
  Forall2 (fun x x' => x_init x = x_init x' /\ continues (s_states (x_io x)) (s_states (x_io x'))) rs rs'.
Proof.
  intros perf fuel fuel' strat clock n v v' now c c' folds rs rs' Ec Ec' V.
  assert (A : abreast c c').
  { assert (T : (int_of v <= int_of v')%Q).
    { unfold int_of. rewrite <- Zle_Qle. unfold Qle in V. destruct v as [a b], v' as [a' b']. cbn in *.
      now apply quot_ratio. }
    unfold sc_init in *. destruct n; try discriminate; injection Ec as <-; injection Ec' as <-; unfold abreast, looser; cbn; repeat (split; auto). }
  clear Ec Ec'. generalize 0%nat. intro r.
  assert (G : forall folds r acc acc' rs rs', run_rounds perf fuel strat clock c r folds acc = Some (rs, Ok tt) -> run_rounds perf fuel' strat clock c' r folds acc' = Some (rs', Ok tt) ->
     Forall2 (fun x x' => x_init x = x_init x' /\ continues (s_states (x_io x)) (s_states (x_io x'))) acc acc' ->
     Forall2 (fun x x' => x_init x = x_init x' /\ continues (s_states (x_io x)) (s_states (x_io x'))) rs rs').
  { clear -A. induction folds as [|f fs IH]; intros r acc acc' rs rs' H H' F; cbn [run_rounds] in H, H'; [injection H as <-; injection H' as <-; exact F|].
    destruct (run_fold perf fuel (strat r) (clock r) f c) as [p [L U io d|e|]] eqn:E; try discriminate.
    destruct (run_fold perf fuel' (strat r) (clock r) f c') as [p' [L' U' io' d'|e|]] eqn:E'; try discriminate.
    eapply IH; [exact H|exact H'|]. apply Forall2_app; [exact F|]. constructor; [|constructor]. cbn [x_init x_io].
    destruct (C132_fold _ _ _ _ _ _ _ _ _ _ _ _ _ _ _ _ _ _ _ E E') as [-> _]. split; auto.
    unfold run_fold in E, E'. injection E as _ E. injection E' as _ E'. eapply continue_looser; eauto. }
  intros H H'. exact (G folds r [] [] rs rs' H H' (Forall2_nil _)).
Qed.
Print Assumptions C132_limit.
(** Limits of one and a half (one query) and of two queries. *)
Example C132_example : exists c c' rs rs',
  sc_init NNum (Some (3 # 2)%Q) 0 = Ok c /\ sc_init NNum (Some 2%Q) 0 = Ok c' /\
  run_rounds (ex_quality (ex_labels 0)) 5 (fun _ => ex_choice (ex_labels 0)) (fun _ _ => 0%Q) c 0 [ex_fold1; ex_fold2] [] = Some (rs, Ok tt) /\
  run_rounds (ex_quality (ex_labels 0)) 5 (fun _ => ex_choice (ex_labels 0)) (fun _ _ => 0%Q) c' 0 [ex_fold1; ex_fold2] [] = Some (rs', Ok tt) /\
  map (fun x => length (s_states (x_io x))) rs = [1; 1]%nat /\ map (fun x => length (s_states (x_io x))) rs' = [2; 2]%nat.
Proof. do 4 eexists. do 2 (split; [reflexivity|]). do 2 (split; [vm_compute; reflexivity|]). split; reflexivity. Qed.
