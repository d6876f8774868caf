(** Proofs about the rounds of BMDR and SPAL. *)
From Verif Require Import Base BaseFacts IndexModel MiscModel MiscSpec MiscProofs MiscProps QueryModel QuerySpec QueryProofs BatchModel BatchSpec.
From Coq Require Import QArith Qabs Lqa.
Local Open Scope Z_scope.

Lemma same_set_iff a b : same_set a b = true <-> same_elements a b.
Proof.
  unfold same_set, same_elements. rewrite andb_true_iff, !forallb_forall. split.
  - intros [H1 H2] x. split; intro J; [specialize (H1 x J); apply existsb_exists in H1 as (y & Y & E)|
      specialize (H2 x J); apply existsb_exists in H2 as (y & Y & E)]; apply Z.eqb_eq in E; subst; auto.
  - intro H. split; intros x J; apply existsb_exists; exists x; (split; [apply H; auto|apply Z.eqb_refl]).
Qed.

Section Rounds.
Context {St : Type} (np : numpy) (turn : St -> res (list Q * (list Z -> St))) (U : list Z) (batch : Z).
Definition pick (scores : list Q) : res (list Z) := ps <- nlargestarg (argsort np scores) batch ;; take U ps.

Inductive run : Z -> list Z -> St -> list (round St) -> list Z -> Prop :=
| run_last iter last s scores next sel :
    turn s = Ok (scores, next) -> pick scores = Ok sel -> same_elements last sel \/ 15 <= iter ->
    run iter last s [{| r_state := s; r_scores := scores; r_chosen := sel |}] sel
| run_more iter last s scores next sel rs out :
    turn s = Ok (scores, next) -> pick scores = Ok sel -> ~ same_elements last sel -> iter < 15 ->
    run (iter + 1) sel (next sel) rs out ->
    run iter last s ({| r_state := s; r_scores := scores; r_chosen := sel |} :: rs) out.

Lemma rounds_run fuel : forall iter last s rs sel, rounds np turn U batch fuel iter last s = (rs, Ok sel) -> run iter last s rs sel.
Proof.
  induction fuel as [|k IH]; intros iter last s rs sel E; [discriminate|]. cbn [rounds] in E.
  destruct (turn s) as [[scores next]|e] eqn:T; [|discriminate].
  fold (pick scores) in E. destruct (pick scores) as [c|e] eqn:P; [|discriminate].
  destruct (same_set last c || (15 <? iter + 1)) eqn:B.
  - assert (E1 : [{| r_state := s; r_scores := scores; r_chosen := c |}] = rs) by congruence. assert (E2 : c = sel) by congruence. subst.
    eapply run_last; eauto. apply orb_true_iff in B as [B|B]; [left; apply same_set_iff, B|right; apply Z.ltb_lt in B; lia].
  - destruct (rounds np turn U batch k (iter + 1) c (next c)) as [rs' out] eqn:R.
    assert (E1 : {| r_state := s; r_scores := scores; r_chosen := c |} :: rs' = rs) by congruence. assert (E2 : out = Ok sel) by congruence. subst.
    apply orb_false_iff in B as [B1 B2]. apply Z.ltb_ge in B2. eapply run_more; eauto; [|lia].
    intro J. apply same_set_iff in J. congruence.
Qed.

Lemma run_len iter last s rs sel : run iter last s rs sel -> iter <= 15 -> (1 <= length rs)%nat /\ Z.of_nat (length rs) + iter <= 16.
Proof. induction 1; intro J; cbn [length]; [lia|]. specialize (IHrun ltac:(lia)). lia. Qed.

Lemma run_each iter last s rs sel : run iter last s rs sel -> forall r, In r rs ->
  exists next, turn (r_state r) = Ok (r_scores r, next) /\ pick (r_scores r) = Ok (r_chosen r).
Proof. induction 1; intros r J; (destruct J as [<-|J]; [cbn; eauto|]); [destruct J|auto]. Qed.

Lemma run_head iter last s rs sel : run iter last s rs sel -> exists r rs', rs = r :: rs' /\ r_state r = s.
Proof. destruct 1; eauto. Qed.

Lemma run_next iter last s rs sel : run iter last s rs sel -> forall i r r',
  nth_error rs i = Some r -> nth_error rs (S i) = Some r' ->
  exists next, turn (r_state r) = Ok (r_scores r, next) /\ r_state r' = next (r_chosen r).
Proof.
  induction 1 as [|iter last s scores next sel rs out T P NS LT R IH]; intros i r r' E E'; [destruct i; cbn in E'; [discriminate|destruct i; discriminate]|].
  destruct i as [|i].
  - cbn in E. injection E as <-. destruct (run_head _ _ _ _ _ R) as (r0 & rs' & -> & S0). cbn in E'. injection E' as <-. cbn. eauto.
  - cbn in E, E'. eapply IH; eauto.
Qed.

Lemma run_last_chosen iter last s rs sel : run iter last s rs sel -> forall r, nth_error rs (length rs - 1) = Some r -> r_chosen r = sel.
Proof.
  induction 1 as [|iter last s scores next sel rs out T P NS LT R IH]; intros r E; [cbn in E; injection E as <-; reflexivity|].
  destruct (run_head _ _ _ _ _ R) as (r0 & rs' & -> & S0). cbn [length] in *. replace (S (S (length rs')) - 1)%nat with (S (length rs')) in E by lia.
  cbn [nth_error] in E. apply IH. replace (S (length rs') - 1)%nat with (length rs') by lia. exact E.
Qed.

Lemma run_inv (Inv : St -> Prop) : (forall s scores next sel, Inv s -> turn s = Ok (scores, next) -> Inv (next sel)) ->
  forall iter last s rs sel, run iter last s rs sel -> Inv s -> forall r, In r rs -> Inv (r_state r).
Proof.
  intros H. induction 1; intros I r J; (destruct J as [<-|J]; [exact I|]); [destruct J|]. apply IHrun; [|exact J]. eapply H; eauto.
Qed.

(** The choice before the first round counts as round number zero. *)
Lemma run_ends iter last s rs sel : run iter last s rs sel ->
  (forall r, nth_error rs 0 = Some r -> (same_elements last (r_chosen r) -> length rs = 1%nat) /\
     (length rs = 1%nat -> same_elements last (r_chosen r) \/ 15 <= iter)) /\
  forall i r r', nth_error rs i = Some r -> nth_error rs (S i) = Some r' ->
     (same_elements (r_chosen r) (r_chosen r') -> S (S i) = length rs) /\
     (S (S i) = length rs -> same_elements (r_chosen r) (r_chosen r') \/ 16 <= Z.of_nat (length rs) + iter).
Proof.
  induction 1 as [iter last s scores next sel T P D|iter last s scores next sel rs out T P NS LT R IH].
  - split.
    + intros r E. injection E as <-. cbn. tauto.
    + intros [|[|i]] r r' E E'; cbn in *; discriminate.
  - destruct IH as [IH0 IH]. destruct (run_head _ _ _ _ _ R) as (r0 & rs' & -> & S0). split.
    + intros r E. injection E as <-. cbn [r_chosen length]. split; [contradiction|discriminate].
    + intros [|i] r r' E E'.
      * cbn in E, E'. injection E as <-. injection E' as <-. destruct (IH0 r0 eq_refl) as [A B]. cbn [r_chosen length] in *. split.
        -- intro J. specialize (A J). lia.
        -- intro J. destruct B as [B|B]; [lia|left; exact B|right; lia].
      * change (nth_error (r0 :: rs') i = Some r) in E. change (nth_error (r0 :: rs') (S i) = Some r') in E'. destruct (IH i r r' E E') as [A B].
        cbn [length] in *. split.
        -- intro J. specialize (A J). lia.
        -- intro J. destruct B as [B|B]; [lia|left; exact B|right; lia].
Qed.

(** With enough fuel and good scores the rounds end with a choice. *)
Lemma rounds_total (Inv : St -> Prop) : numpy_ok np -> 0 < batch <= Z.of_nat (length U) ->
  (forall s, Inv s -> exists scores next, turn s = Ok (scores, next) /\ length scores = length U /\ forall sel, Inv (next sel)) ->
  forall fuel iter last s, Inv s -> iter <= 15 -> 15 < Z.of_nat fuel + iter -> exists rs sel, rounds np turn U batch fuel iter last s = (rs, Ok sel).
Proof.
  intros NP B H. induction fuel as [|k IH]; intros iter last s I I2 L; [lia|]. cbn [rounds].
  destruct (H s I) as (scores & next & T & LS & N). rewrite T.
  destruct (largest_batch np U scores batch NP LS B) as (sel & P & _). rewrite P.
  destruct (same_set last sel || (15 <? iter + 1)) eqn:E; [eauto|]. apply orb_false_iff in E as [_ E]. apply Z.ltb_ge in E.
  destruct (IH (iter + 1) sel (next sel) (N sel) ltac:(lia) ltac:(lia)) as (rs & out & R). rewrite R. eauto.
Qed.
End Rounds.

(** ** The answers *)
Lemma relax_loosened p : loosened p (relax p).
Proof. repeat split. Qed.
Lemma loosened_relax p p' : loosened p p' -> p' = relax p.
Proof. destruct p, p'. unfold loosened, relax. cbn. intros (-> & -> & ->). reflexivity. Qed.

Lemma attempt_replies s p : replies s p (attempt s p).
Proof. unfold attempt, replies. destruct (s false p) eqn:E; [right|left|left]; (split; [auto|try discriminate; auto]). Qed.
Lemma replies_attempt s p a : replies s p a -> attempt s p = a.
Proof. unfold attempt, replies. intros [[E N]|[E N]]; [rewrite E; destruct a; congruence|rewrite E; exact N]. Qed.

Lemma bmdr_value s p w : value_of s p (bmdr_first s p) = Ok w -> bmdr_answer s p w.
Proof.
  unfold value_of, bmdr_first. intro E. destruct (s false p) as [|f x|] eqn:F.
  - right. pose proof (attempt_replies s (relax p)) as R. destruct (attempt s (relax p)) as [|f x|] eqn:A.
    + discriminate.
    + assert (E' : x = w) by (destruct f; congruence). subst. exists (relax p), f. split; [apply relax_loosened|]. split; [auto|exact R].
    + discriminate.
  - destruct f.
    + left. congruence.
    + right. pose proof (attempt_replies s (relax p)) as R. destruct (attempt s (relax p)) as [|f' x'|] eqn:A; try discriminate.
      assert (x' = w) by congruence. subst. exists (relax p), f'. split; [apply relax_loosened|]. split; [eauto|exact R].
  - right. pose proof (attempt_replies s (relax p)) as R. destruct (attempt s (relax p)) as [|f' x'|] eqn:A; try discriminate.
    assert (x' = w) by congruence. subst. exists (relax p), f'. split; [apply relax_loosened|]. split; [auto|exact R].
Qed.

Lemma spal_value s p w : value_of s p (attempt s p) = Ok w -> spal_answer s p w.
Proof.
  unfold value_of. intro E. pose proof (attempt_replies s p) as R0. destruct (attempt s p) as [|f x|] eqn:F.
  - discriminate.
  - destruct f.
    + left. congruence.
    + right. pose proof (attempt_replies s (relax p)) as R. destruct (attempt s (relax p)) as [|f' x'|] eqn:A; try discriminate.
      assert (x' = w) by congruence. subst. exists (relax p), f'. split; [apply relax_loosened|]. split; [eauto|exact R].
  - right. pose proof (attempt_replies s (relax p)) as R. destruct (attempt s (relax p)) as [|f' x'|] eqn:A; try discriminate.
    assert (x' = w) by congruence. subst. exists (relax p), f'. split; [apply relax_loosened|]. split; [auto|exact R].
Qed.

Lemma replies_sized s p f w : sized s -> replies s p (Value f w) -> length w = length (qp_q p).
Proof. intros H [[E _]|[_ E]]; eapply H; eauto. Qed.
Lemma bmdr_answer_sized s p w : sized s -> bmdr_answer s p w -> length w = length (qp_q p).
Proof.
  intros H [E|(p' & f & (EP & EQ & _) & _ & R)]; [eapply H; eauto|]. rewrite <- EQ. eapply replies_sized; eauto.
Qed.
Lemma spal_answer_sized s p w : sized s -> spal_answer s p w -> length w = length (qp_q p).
Proof.
  intros H [E|(p' & f & (EP & EQ & _) & _ & R)]; [eapply replies_sized; eauto|]. rewrite <- EQ. eapply replies_sized; eauto.
Qed.

Lemma map2_length {A B C} (f : A -> B -> C) a b : length (map2 f a b) = Nat.min (length a) (length b).
Proof. unfold map2. rewrite map_length. apply combine_length. Qed.
Lemma vdot_length K rows cols v : length (vdot K rows cols v) = length cols.
Proof. apply map_length. Qed.
Lemma program_size scale K L U b w tau : length w = length U -> length (qp_q (program scale K L U b w tau)) = length U.
Proof. intro E. cbn [program qp_q]. rewrite !map2_length, !vdot_length, E. lia. Qed.
Lemma ones_length n : length (ones n) = n.
Proof. apply repeat_length. Qed.
