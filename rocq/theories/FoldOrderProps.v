(** C126: what the analyser reports does not depend on the order of the folds, except for the start point. *)
From Verif Require Import Base BaseFacts MiscModel MiscSpec StateModel AnalyserModel AnalyserSpec AnalyserProofs AnalyserProps FoldOrderSpec.
From Verif Require QueryProofs5 OrderProofs OrderProofs2.
From Coq Require Import String QArith Lqa Permutation.
Local Open Scope Z_scope.

Lemma mean_order l l' : Permutation l l' -> (mean l == mean l')%Q.
Proof.
  intro P. unfold mean. rewrite (Permutation_length P).
  rewrite (QueryProofs5.total_perm _ _ P : (total l == total l')%Q). reflexivity.
Qed.

Lemma mean_map_ext {A} (f g : A -> Q) l : (forall x, f x == g x)%Q -> (mean (map f l) == mean (map g l))%Q.
Proof.
  intro H. unfold mean. rewrite !map_length.
  assert (T : (total (map f l) == total (map g l))%Q).
  { unfold total. induction l as [|a l IH]; cbn [map fold_right]; [reflexivity|]. rewrite IH, (H a). reflexivity. }
  rewrite T. reflexivity.
Qed.

Lemma variance_order l l' : Permutation l l' -> (variance l == variance l')%Q.
Proof.
  intro P. unfold variance. rewrite (mean_order _ _ (Permutation_map (fun x => (x - mean l) * (x - mean l))%Q P)).
  apply mean_map_ext. intro x. rewrite (mean_order _ _ P). reflexivity.
Qed.

Lemma agree_from x y p q : is_num x p -> is_num y q -> (p == q)%Q -> agree x y.
Proof.
  intros X (y' & -> & Y) E. exists p. split; [exact X|]. exists y'. split; [reflexivity|]. rewrite Y. now symmetry.
Qed.

Lemma shortest_order {A} n (l l' : list (list A)) : Permutation l l' -> shortest n l -> shortest n l'.
Proof.
  intros P (H & x & I & L). split.
  - intros y J. apply H. eapply Permutation_in; [symmetry; exact P|exact J].
  - exists x. split; [eapply Permutation_in; eauto|exact L].
Qed.

Lemma shortest_same {A} n n' (l : list (list A)) : shortest n l -> shortest n' l -> n = n'.
Proof.
  intros (H & x & I & L) (H' & x' & I' & L'). specialize (H x' I'). specialize (H' x I). lia.
Qed.

Lemma costs_unique n r cs cs' :
  (List.length cs = n /\ forall j c, nth_error cs j = Some c ->
     exists st, nth_error (r_states r) j = Some st /\ (holds "cost" st c \/ sget "cost"%string (a_dict st) = None /\ c = AVal (Num 0))) ->
  (List.length cs' = n /\ forall j c, nth_error cs' j = Some c ->
     exists st, nth_error (r_states r) j = Some st /\ (holds "cost" st c \/ sget "cost"%string (a_dict st) = None /\ c = AVal (Num 0))) -> cs = cs'.
Proof.
  intros (L & H) (L' & H'). rewrite <- L in L'. clear L n.
  apply nth_ext with (d := AVal NaN) (d' := AVal NaN); [now symmetry|]. intros j J.
  assert (J' : (j < List.length cs')%nat) by lia.
  pose proof (nth_error_nth' cs (AVal NaN) J) as E. pose proof (nth_error_nth' cs' (AVal NaN) J') as E'.
  destruct (H _ _ E) as (st & S & V). destruct (H' _ _ E') as (st' & S' & V'). rewrite S in S'. injection S' as <-.
  unfold holds in V, V'. destruct V as [V|(V & ->)], V' as [V'|(V' & ->)]; congruence.
Qed.

(** Runs: the summary has the same figures, and the costs are the same up to the order of the folds. *)
Theorem C126_runs runs runs' n data : Permutation runs runs' ->
  runs <> [] -> shortest n (map r_states runs) -> Forall2 (performances n) runs data ->
  (forall r, In r data -> r <> []) -> (forall r r', In r runs -> In r' runs -> r_ip r = None -> r_ip r' = None) ->
  exists s s', stateio_summary runs = Ok s /\ stateio_summary runs' = Ok s' /\ same_figures s s' /\
    (forall b, su_flag s = true /\ su_batch s = b <-> su_flag s' = true /\ su_batch s' = b) /\ Permutation (su_costs s) (su_costs s').
Proof.
  intros P N S F D U. destruct (OrderProofs2.Forall2_perm _ _ _ P _ F) as (data' & PD & F').
  assert (N' : runs' <> []). { intros ->. apply Permutation_sym, Permutation_nil in P. auto. }
  pose proof (shortest_order n _ _ (Permutation_map r_states P) S) as S'.
  assert (D' : forall r, In r data' -> r <> []).
  { intros r I. apply D. eapply Permutation_in; [symmetry; exact PD|exact I]. }
  assert (B : forall r, In r runs' -> In r runs). { intros r I. eapply Permutation_in; [symmetry; exact P|exact I]. }
  destruct (C58_summary runs n data N S F D U) as (s & E & L & K & M & V & _ & C & St & _).
  destruct (C58_summary runs' n data' N' S' F' D') as (s' & E' & L' & K' & M' & V' & _ & C' & St' & _).
  { intros r r' I I'. apply U; auto. }
  exists s, s'. split; [exact E|]. split; [exact E'|]. split; [split; [congruence|]; split; [|split]|split].
  - rewrite K, K'. now apply Permutation_length.
  - eapply agree_from; [exact M|exact M'|]. apply mean_order. now apply Permutation_map.
  - eapply agree_from; [exact V|exact V'|]. apply variance_order. now apply Permutation_map.
  - intro b. rewrite St, St'. split; intros H r I; apply H; auto. eapply Permutation_in; eauto.
  - destruct (OrderProofs2.Forall2_perm _ _ _ P _ C) as (cs & PC & FC). replace (su_costs s') with cs; [exact PC|].
    clear - FC C'. revert cs FC. induction C' as [|r c rs u X _ IH]; intros cs FC; inversion FC as [|? c' ? cr Y FR]; subst; [reflexivity|].
    f_equal; [|now apply IH]. exact (costs_unique n r _ _ Y X).
Qed.
Print Assumptions C126_runs.
Example C126_runs_example : exists s s', stateio_summary [run1; run2] = Ok s /\ stateio_summary [run2; run1] = Ok s' /\
  same_figures s s' /\ is_num (su_mean s') (29#48).
Proof.
  eexists. eexists. split; [reflexivity|]. split; [reflexivity|]. split.
  - repeat split; eexists; split; eexists; split; reflexivity.
  - eexists. split; reflexivity.
Qed.

(** The start point is that of the fold given last: for any two runs whose initial points differ, exchanging them changes it. *)
Theorem C126_start_refuted r r' n d d' p p' : r_ip r = Some p -> r_ip r' = Some p' -> p <> p' ->
  shortest n [r_states r; r_states r'] -> performances n r d -> performances n r' d' ->
  exists s s', stateio_summary [r; r'] = Ok s /\ stateio_summary [r'; r] = Ok s' /\ same_figures s s' /\
    su_ip s = Some p' /\ su_ip s' = Some p /\ su_ip s <> su_ip s'.
Proof.
  intros E E' D S F F'.
  assert (NE : forall q u m, performances m q u -> r_ip q <> None -> u <> []).
  { intros q u m (ip & ps & -> & I & _) J. destruct (r_ip q); [|now destruct J]. destruct ip; [discriminate I|discriminate]. }
  assert (X : d <> []). { eapply NE; [exact F|congruence]. }
  assert (X' : d' <> []). { eapply NE; [exact F'|congruence]. }
  assert (P : Permutation [r; r'] [r'; r]) by constructor.
  assert (S' : shortest n (map r_states [r'; r])). { apply (shortest_order n _ _ (Permutation_map r_states P)). exact S. }
  destruct (C126_runs [r; r'] [r'; r] n [d; d'] P) as (s & s' & Es & Es' & Fi & _).
  1: discriminate. 1: exact S. 1: repeat constructor; assumption.
  1: intros u [<-|[<-|[]]]; assumption. 1: intros u u' [<-|[<-|[]]] _ W; congruence.
  destruct (C58_summary [r; r'] n [d; d']) as (t & Et & _ & _ & _ & _ & It & _).
  1: discriminate. 1: exact S. 1: repeat constructor; assumption.
  1: intros u [<-|[<-|[]]]; assumption. 1: intros u u' [<-|[<-|[]]] _ W; congruence.
  destruct (C58_summary [r'; r] n [d'; d]) as (t' & Et' & _ & _ & _ & _ & It' & _).
  1: discriminate. 1: exact S'. 1: repeat constructor; assumption.
  1: intros u [<-|[<-|[]]]; assumption. 1: intros u u' [<-|[<-|[]]] _ W; congruence.
  cbn [last] in It, It'. rewrite Es in Et. rewrite Es' in Et'. injection Et as <-. injection Et' as <-.
  exists s, s'. repeat (split; [congruence || assumption|]). congruence.
Qed.
Print Assumptions C126_start_refuted.
Example C126_start_refuted_example : exists s s', stateio_summary [run1; run2] = Ok s /\ stateio_summary [run2; run1] = Ok s' /\
  su_ip s = Some (AVal (Num (1#4))) /\ su_ip s' = Some (AVal (Num (1#2))).
Proof. eexists. eexists. repeat split; reflexivity. Qed.

Lemma concat_order {A} (m m' : list (list A)) : Permutation m m' -> Permutation (List.concat m) (List.concat m').
Proof.
  induction 1; cbn [List.concat].
  - constructor.
  - now apply Permutation_app_head.
  - rewrite !app_assoc. apply Permutation_app_tail. apply Permutation_app_comm.
  - etransitivity; eauto.
Qed.

(** Lists of performances: the summary has the same figures, and no start point in either order. *)
Theorem C126_lists m m' n : table m n -> (0 < n)%nat -> Permutation m m' ->
  exists s s', list_summary1 (map (map (fun q => INum (Num q))) m) = Ok s /\
    list_summary1 (map (map (fun q => INum (Num q))) m') = Ok s' /\ same_figures s s' /\ su_ip s = su_ip s'.
Proof.
  intros (N & T) Z P.
  assert (T' : table m' n).
  { split; [intros ->; apply Permutation_sym, Permutation_nil in P; auto|]. intros r I. apply T. eapply Permutation_in; [symmetry; exact P|exact I]. }
  destruct (C58_lists m n (conj N T) Z) as (s & E & L & K & M & V & I).
  destruct (C58_lists m' n T' Z) as (s' & E' & L' & K' & M' & V' & I').
  exists s, s'. split; [exact E|]. split; [exact E'|]. split; [split; [congruence|]; split; [|split]|congruence].
  - rewrite K, K'. now apply Permutation_length.
  - eapply agree_from; [exact M|exact M'|]. apply mean_order. now apply concat_order.
  - eapply agree_from; [exact V|exact V'|]. apply variance_order. now apply concat_order.
Qed.
Print Assumptions C126_lists.
Example C126_lists_example : table [[1;2];[3;5]]%Q 2 /\ Permutation [[1;2];[3;5]]%Q [[3;5];[1;2]]%Q.
Proof. split; [split; [discriminate|]|constructor]. intros r [<-|[<-|[]]]; reflexivity. Qed.

(** Lists of (costs, performance): the same, and what each fold spent is the same up to the order. *)
Theorem C126_pairs (folds folds' : list (list (list Q * Q))) : folds <> [] -> (forall f, In f folds -> f <> []) -> Permutation folds folds' ->
  exists s s', list_summary2 (map (map (fun t => ITup [map Num (fst t); [Num (snd t)]])) folds) = Ok s /\
    list_summary2 (map (map (fun t => ITup [map Num (fst t); [Num (snd t)]])) folds') = Ok s' /\ same_figures s s' /\ su_ip s = su_ip s' /\
    exists cs, Permutation (su_costs s) cs /\ Forall2 (Forall2 (fun a b => exists x y, a = AVal x /\ b = AVal y /\ agree x y)) cs (su_costs s').
Proof.
  intros N H P.
  assert (N' : folds' <> []). { intros ->. apply Permutation_sym, Permutation_nil in P. auto. }
  assert (H' : forall f, In f folds' -> f <> []). { intros f I. apply H. eapply Permutation_in; [symmetry; exact P|exact I]. }
  destruct (C58_pairs folds N H) as (s & E & L & K & M & V & I & C).
  destruct (C58_pairs folds' N' H') as (s' & E' & L' & K' & M' & V' & I' & C').
  exists s, s'. split; [exact E|]. split; [exact E'|]. split; [split; [|split; [|split]]|split; [congruence|]].
  - eapply shortest_same; [eapply shortest_order; [exact P|exact L]|exact L'].
  - rewrite K, K'. now apply Permutation_length.
  - eapply agree_from; [exact M|exact M'|]. apply mean_order. now apply Permutation_map.
  - eapply agree_from; [exact V|exact V'|]. apply variance_order. now apply Permutation_map.
  - destruct (OrderProofs2.Forall2_perm _ _ _ P _ C) as (cs & PC & FC). exists cs. split; [exact PC|].
    clear - FC C'. revert cs FC. induction C' as [|f c fs u (x & -> & X) _ IH]; intros cs FC; inversion FC as [|? ? ? ? (y & -> & Y) FR]; subst; constructor; auto.
    constructor; [|constructor]. exists y, x. split; [reflexivity|]. split; [reflexivity|]. exists (total (spent f)). split; assumption.
Qed.
Print Assumptions C126_pairs.
Example C126_pairs_example : exists s s',
  list_summary2 (map (map (fun t => ITup [map Num (fst t); [Num (snd t)]])) [[([1;2], 1#2); ([3], 1)]; [([4], 1#4)]]%Q) = Ok s /\
  list_summary2 (map (map (fun t => ITup [map Num (fst t); [Num (snd t)]])) [[([4], 1#4)]; [([1;2], 1#2); ([3], 1)]]%Q) = Ok s' /\
  same_figures s s' /\ su_len s = 1%nat.
Proof.
  eexists. eexists. split; [reflexivity|]. split; [reflexivity|]. split; [|reflexivity].
  repeat split; eexists; split; eexists; split; reflexivity.
Qed.

Lemma column_order m m' j : Permutation m m' -> Permutation (column 0%Q m j) (column 0%Q m' j).
Proof. intro P. unfold column. now apply Permutation_map. Qed.

Lemma Forall2_nth {A B} (R : A -> B -> Prop) l l' : List.length l = List.length l' ->
  (forall j x y, nth_error l j = Some x -> nth_error l' j = Some y -> R x y) -> Forall2 R l l'.
Proof.
  revert l'. induction l as [|a l IH]; intros [|b l'] L H; try discriminate; constructor.
  - now apply (H 0%nat).
  - apply IH; [now injection L|]. intros j x y. apply (H (Datatypes.S j)).
Qed.

Lemma averages_order k sh m m' n xs ys xs' ys' : table m n -> Permutation m m' ->
  averages k sh m xs ys -> averages k sh m' xs' ys' -> Forall2 Qeq xs xs' /\ Forall2 agree ys ys'.
Proof.
  intros T P (L & J & X & Y) (L' & J' & X' & Y').
  assert (T' : table m' n).
  { destruct T as (N & T). split; [intros ->; apply Permutation_sym, Permutation_nil in P; auto|]. intros r I. apply T. eapply Permutation_in; [symmetry; exact P|exact I]. }
  assert (LX : List.length xs = List.length xs').
  { pose proof (fun j => J n j T) as A. pose proof (fun j => J' n j T') as A'.
    pose proof (A (List.length xs)) as A1. pose proof (A' (List.length xs)) as A2.
    pose proof (A (List.length xs')) as A3. pose proof (A' (List.length xs')) as A4. lia. }
  split; apply Forall2_nth; try congruence.
  - intros j x y A B. rewrite (X j x A), (X' j y B). reflexivity.
  - intros j x y A B. eapply agree_from; [exact (Y j x A)|exact (Y' j y B)|]. apply mean_order. now apply column_order.
Qed.

(** Learning curves: the same curves, whatever the order of the folds of each method. *)
Theorem C126_curves a a' shift sh k ts ts' : (0 < k)%nat -> an_data a <> [] -> methods a ts -> methods a' ts' -> reordered ts ts' ->
  an_all a <> None -> an_all a' <> None -> shift_used a shift sh -> shift_used a' shift sh ->
  exists cs cs', num_plot a shift None (Z.of_nat k) = Ok cs /\ num_plot a' shift None (Z.of_nat k) = Ok cs' /\ Forall2 same_curve cs cs'.
Proof.
  intros K N M M' R A A' S S'.
  assert (N' : an_data a' <> []).
  { intro Z. unfold methods in M, M'. rewrite Z in M'. inversion M'; subst. inversion R; subst. inversion M; congruence. }
  destruct (C77_curves a shift sh k ts K N M A S) as (cs & E & F).
  destruct (C77_curves a' shift sh k ts' K N' M' A' S') as (cs' & E' & F').
  exists cs, cs'. split; [exact E|]. split; [exact E'|].
  assert (T : Forall (fun t : string * list (list Q) => exists n, table (snd t) n) ts).
  { clear - M. unfold methods in M. induction M as [|p t ps us (_ & _ & T)]; constructor; auto. }
  clear - R F F' T. revert cs cs' F F'. induction R as [|t t' us us' (Nm & P) _ IH]; intros cs cs' F F'.
  - inversion F. inversion F'. constructor.
  - inversion F as [|? c ? cr (xs & ys & -> & V) FR]; subst. inversion F' as [|? c' ? cr' (xs' & ys' & -> & V') FR']; subst.
    inversion T as [|? ? (n & Tn) TR]; subst. constructor; [|now apply IH].
    destruct (averages_order k sh _ _ n _ _ _ _ Tn P V V') as (X & Y). repeat split; assumption.
Qed.
Print Assumptions C126_curves.
Example C126_curves_example :
  let a := many [("a"%string, lists [[0; 1; 2]; [2; 3; 4]]%Q)] in let a' := many [("a"%string, lists [[2; 3; 4]; [0; 1; 2]]%Q)] in
  exists cs cs', num_plot a None None 2 = Ok cs /\ num_plot a' None None 2 = Ok cs' /\ Forall2 same_curve cs cs' /\
  Forall2 (fun c y => Forall2 is_num (snd c) y) cs' [[1; 3]]%Q.
Proof.
  eexists. eexists. split; [reflexivity|]. split; [reflexivity|]. split.
  - repeat constructor; cbn; try reflexivity; eexists; split; eexists; split; reflexivity.
  - repeat constructor; eexists; split; reflexivity.
Qed.
