(** Property C137: what a majority of the oracles says is what the vote gives. *)
From Verif Require Import Base BaseFacts IndexModel IndexProofs OracleModel OracleSpec OracleProps.
From Coq Require Import QArith Lqa Permutation.
Local Open Scope nat_scope.
Local Notation length := List.length.

Lemma two_votes : forall ls t x, x <> t -> votes ls t + votes ls x <= length ls.
Proof.
  induction ls as [|a ls IH]; intros t x N; [auto|]. specialize (IH t x N). unfold votes in *. cbn.
  destruct (key_dec a t), (key_dec a x); try congruence; lia.
Qed.
Lemma first_at : forall ls t, 0 < votes ls t -> exists pre post, ls = pre ++ t :: post /\ ~ In t pre.
Proof.
  induction ls as [|a ls IH]; intros t H; unfold votes in *; cbn in H; [lia|]. destruct (key_dec a t) as [->|N].
  - exists [], ls. split; [auto|intros []].
  - destruct (IH t H) as (pre & post & -> & NI). exists (a :: pre), post. split; [auto|]. intros [X|X]; auto.
Qed.
Lemma strict_winner ls t : 0 < votes ls t -> (forall x, x <> t -> votes ls x < votes ls t) -> winner ls (votes ls t) t.
Proof.
  intros P S. split; [auto|]. split.
  - intro x. destruct (key_dec x t) as [->|N]; [auto|]. specialize (S x N). lia.
  - destruct (first_at ls t P) as (pre & post & E & NI). exists pre, post. split; [auto|]. intros x X. apply S. intros ->. contradiction.
Qed.
Lemma votes_perm ls ls' x : Permutation ls ls' -> votes ls x = votes ls' x.
Proof. intro P. unfold votes. induction P; cbn; repeat destruct (key_dec _ _); lia. Qed.

(** An answer given by more than half of them wins, with as many votes as it was given; the others' answers do not matter. *)
Theorem C137_majority : forall ls t, length ls < 2 * votes ls t -> majority_vote ls None = Ok (votes ls t, t).
Proof.
  intros ls t H. apply C26_majority_vote. split; [discriminate|]. apply strict_winner; [lia|]. intros x N. pose proof (two_votes ls t x N). lia.
Qed.
Print Assumptions C137_majority.

(** So if more than half of the oracles give the first instance the label [t], this is the label [get_majority_vote] returns. *)
Theorem C137_oracles : forall os ks rs ls t, Forall2 (fun o r => or_query o ks = Ok r) os rs -> heads rs ls -> length os < 2 * votes ls t ->
  exists c, get_majority_vote_list os ks = Ok (votes ls t, t, c) /\ (c == fold_right Qplus 0 (flat_map snd rs))%Q.
Proof.
  intros os ks rs ls t F H M. assert (L : length ls = length os).
  { clear - F H. unfold heads in H. revert ls H. induction F as [|o r os rs E F IH]; intros ls H; inversion H; subst; cbn; [auto|]. f_equal. auto. }
  assert (W : winner ls (votes ls t) t) by (apply strict_winner; [lia|]; intros x N; pose proof (two_votes ls t x N); lia).
  destruct (C26_vote_of_list_total os ks rs ls _ _ F H W) as [c E]. exists c. split; [exact E|].
  destruct (C26_vote_of_list os ks _ _ _ E) as (rs' & ls' & F' & _ & _ & C). rewrite C. replace rs' with rs; [reflexivity|]. clear - F F'.
  revert rs' F'. induction F as [|o r os rs E F IH]; intros rs' F'; inversion F'; subst; [auto|]. f_equal; [congruence|auto].
Qed.
Print Assumptions C137_oracles.

(** The order of the answers does not change the number of votes of the winner, nor the winner when no other has as many; one more vote
    for the winner keeps it. *)
Theorem C137_order : forall ls ls' n l, Permutation ls ls' -> majority_vote ls None = Ok (n, l) ->
  (exists l', majority_vote ls' None = Ok (n, l') /\ votes ls l' = n) /\
  ((forall x, x <> l -> votes ls x < n) -> majority_vote ls' None = Ok (n, l)).
Proof.
  intros ls ls' n l P E. apply C26_majority_vote in E. destruct E as (_ & W). destruct W as (EN & MX & pre & post & EL & _).
  assert (N0 : 0 < n). { subst n ls. unfold votes. rewrite count_occ_app. cbn. destruct (key_dec l l); [lia|congruence]. }
  split.
  - destruct (majority_vote ls' None) as [[n' l']|e] eqn:E'.
    + pose proof E' as W'. apply C26_majority_vote in W'. destruct W' as (_ & (EN' & MX' & _)). 
      assert (K : n' = n); [|exists l'; rewrite (votes_perm ls ls' l' P); split; congruence]. pose proof (MX l') as A. rewrite (votes_perm ls ls' l' P) in A. pose proof (MX' l) as B. rewrite <- (votes_perm ls ls' l P) in B. lia.
    + apply C26_failures in E'. destruct E' as [(_ & ws & X & _)|(_ & X & _)]; [discriminate|]. subst ls'. apply Permutation_sym, Permutation_nil in P. subst ls. destruct pre; discriminate.
  - intro S. apply C26_majority_vote. split; [discriminate|]. rewrite EN, (votes_perm ls ls' l P). apply strict_winner.
    + rewrite <- (votes_perm ls ls' l P). lia.
    + intros x X. rewrite <- !(votes_perm ls ls' _ P). specialize (S x X). lia.
Qed.
Print Assumptions C137_order.

Theorem C137_more : forall a b n l, majority_vote (a ++ b) None = Ok (n, l) -> majority_vote (a ++ l :: b) None = Ok (S n, l).
Proof.
  intros a b n l E. apply C26_majority_vote in E. destruct E as (_ & EN & MX & _). apply C26_majority_vote. split; [discriminate|].
  assert (V : forall x, votes (a ++ l :: b) x = votes (a ++ b) x + (if key_dec l x then 1 else 0)).
  { intro x. unfold votes. rewrite !count_occ_app. cbn. destruct (key_dec l x); lia. }
  assert (VL : votes (a ++ l :: b) l = S n) by (rewrite V, <- EN; destruct (key_dec l l); [lia|congruence]).
  rewrite <- VL. apply strict_winner; [lia|]. intros x X. rewrite VL, V. specialize (MX x). destruct (key_dec l x); [congruence|lia].
Qed.
Print Assumptions C137_more.

(** With half of the votes only, the order decides. *)
Theorem C137_half_refuted : exists ls ls' t, Permutation ls ls' /\ length ls = 2 * votes ls t /\
  majority_vote ls None = Ok (1, t) /\ exists t', t' <> t /\ majority_vote ls' None = Ok (1, t').
Proof.
  exists [KInt 1; KInt 0], [KInt 0; KInt 1], (KInt 1). split; [constructor|]. split; [reflexivity|]. split; [reflexivity|]. exists (KInt 0). split; [discriminate|reflexivity].
Qed.
Print Assumptions C137_half_refuted.

(** Five answers, three of them the same. *)
Example C137_case : 5 < 2 * votes [KInt 0; KInt 2; KInt 1; KInt 2; KInt 2] (KInt 2) /\
  majority_vote [KInt 0; KInt 2; KInt 1; KInt 2; KInt 2] None = Ok (3, KInt 2).
Proof. split; [cbn; lia|reflexivity]. Qed.
