(** C52: a larger budget, or one more item to choose from, is never worth less. *)
From Verif Require Import Base CostModel CostSpec CostProps.
From Coq Require Import QArith Lqa.
Local Open Scope Z_scope.

(** A larger capacity is worth at least as much. *)
Theorem C52_budget : forall values costs capacity capacity' best flag best' flag',
  length values = length costs -> Forall (fun c => 0 <= c) costs -> 0 <= capacity <= capacity' ->
  select_Knapsack_01 values costs capacity = Ok (best, flag) -> select_Knapsack_01 values costs capacity' = Ok (best', flag') ->
  (best <= best')%Q.
Proof.
  intros values costs c c' best flag best' flag' L P B E E'.
  destruct (C52_optimal values costs c L P ltac:(lia)) as (b & f & Eb & [F1 F2] & W & _). rewrite E in Eb. injection Eb as <- <-.
  destruct (C52_optimal values costs c' L P ltac:(lia)) as (b' & f' & Eb' & _ & _ & O). rewrite E' in Eb'. injection Eb' as <- <-.
  apply (O flag best); [split; [auto|lia]|auto].
Qed.
Print Assumptions C52_budget.

Lemma chosen_snoc {A} (fl : list bool) (l : list A) x : length fl = length l -> chosen (fl ++ [false]) (l ++ [x]) = chosen fl l.
Proof.
  revert l. induction fl as [|b fl IH]; intros [|y l] H; try discriminate; [reflexivity|]. injection H as H.
  specialize (IH l H). unfold chosen in *. cbn in *. destruct b; cbn; rewrite IH; reflexivity.
Qed.
(** One more item is worth at least as much. *)
Theorem C52_more_items : forall values costs capacity v c best flag best' flag',
  length values = length costs -> Forall (fun c => 0 <= c) costs -> 0 <= c -> 0 <= capacity ->
  select_Knapsack_01 values costs capacity = Ok (best, flag) -> select_Knapsack_01 (values ++ [v]) (costs ++ [c]) capacity = Ok (best', flag') ->
  (best <= best')%Q.
Proof.
  intros values costs cap v c best flag best' flag' L P C B E E'.
  destruct (C52_optimal values costs cap L P B) as (b & f & Eb & [F1 F2] & W & _). rewrite E in Eb. injection Eb as <- <-.
  destruct (C52_optimal (values ++ [v]) (costs ++ [c]) cap) as (b' & f' & Eb' & _ & _ & O); [rewrite !app_length; cbn; lia|apply Forall_app; split; auto|auto|].
  rewrite E' in Eb'. injection Eb' as <- <-.
  apply (O (flag ++ [false]) best); [split; [rewrite !app_length; cbn; lia|]|].
  - rewrite chosen_snoc by auto. auto.
  - rewrite chosen_snoc by lia. auto.
Qed.
Print Assumptions C52_more_items.

(** Two problems with the same best choices get the same choice. *)
Lemma same_choice values costs capacity values' costs' capacity' best flag best' flag' w w' :
  length values = length costs -> Forall (fun c => 0 <= c) costs -> 0 <= capacity ->
  length values' = length costs' -> Forall (fun c => 0 <= c) costs' -> 0 <= capacity' -> length costs = length costs' ->
  select_Knapsack_01 values costs capacity = Ok (best, flag) -> select_Knapsack_01 values' costs' capacity' = Ok (best', flag') ->
  optimal values costs capacity flag' w -> optimal values' costs' capacity' flag w' -> flag' = flag /\ (w == best)%Q.
Proof.
  intros L P C L' P' C' LL E E' O O'.
  destruct (C52_ties values costs capacity best flag flag' w L P C E O) as [W [K|(i & I & T & N & S)]]; [auto|].
  destruct (C52_ties values' costs' capacity' best' flag' flag w' L' P' C' E' O') as [_ [K|(i' & I' & T' & N' & S')]]; [auto|].
  exfalso. rewrite <- LL in *. destruct (Nat.lt_trichotomy i i') as [H|[H|H]].
  - specialize (S i' ltac:(lia)). congruence.
  - subst i'. congruence.
  - specialize (S' i ltac:(lia)). congruence.
Qed.
Lemma chosen_map {A B} (g : A -> B) fl : forall l, chosen fl (map g l) = map g (chosen fl l).
Proof. unfold chosen. induction fl as [|b fl IH]; intros [|x l]; cbn; auto. destruct b; cbn; now rewrite IH. Qed.
Lemma total_scale k l : total_cost (map (Z.mul k) l) = k * total_cost l.
Proof. unfold total_cost. induction l as [|x l IH]; cbn; [lia|]. rewrite IH. lia. Qed.

(** Costs and budget in a smaller currency, with any rest that does not buy a unit of the larger one: the choice and its value are the same. *)
Theorem C52_currency : forall values costs capacity k rest best flag,
  length values = length costs -> Forall (fun c => 0 <= c) costs -> 0 <= capacity -> 0 <= rest < k ->
  select_Knapsack_01 values costs capacity = Ok (best, flag) ->
  exists best', select_Knapsack_01 values (map (Z.mul k) costs) (k * capacity + rest) = Ok (best', flag) /\ (best' == best)%Q.
Proof.
  intros values costs cap k rest best flag L P C K E.
  destruct (C52_optimal values costs cap L P C) as (b & f & Eb & O). rewrite E in Eb. injection Eb as <- <-.
  assert (L' : length values = length (map (Z.mul k) costs)) by now rewrite map_length.
  assert (P' : Forall (fun c => 0 <= c) (map (Z.mul k) costs)).
  { rewrite Forall_forall in *. intros x X. apply in_map_iff in X. destruct X as (y & <- & Y). specialize (P y Y). nia. }
  assert (C' : 0 <= k * cap + rest) by nia.
  destruct (C52_optimal values (map (Z.mul k) costs) (k * cap + rest) L' P' C') as (best' & flag' & E' & O'). exists best'. rewrite E'.
  assert (FT : forall fl, fits (map (Z.mul k) costs) (k * cap + rest) fl <-> fits costs cap fl).
  { intro fl. unfold fits. rewrite map_length, chosen_map, total_scale. split; intros [A B]; (split; [auto|nia]). }
  assert (O1 : optimal values costs cap flag' best').
  { destruct O' as (A & B & D). split; [now apply FT|]. split; [auto|]. intros fl w F. apply D. now apply FT. }
  assert (O2 : optimal values (map (Z.mul k) costs) (k * cap + rest) flag best).
  { destruct O as (A & B & D). split; [now apply FT|]. split; [auto|]. intros fl w F. apply D. now apply FT. }
  destruct (same_choice values costs cap values (map (Z.mul k) costs) (k * cap + rest) best flag best' flag' best' best) as [-> W]; auto. now rewrite map_length.
Qed.
Print Assumptions C52_currency.

(** Values in another unit: the same choice. *)
Theorem C52_unit : forall values costs capacity k best flag,
  length values = length costs -> Forall (fun c => 0 <= c) costs -> 0 <= capacity -> (0 < k)%Q ->
  select_Knapsack_01 values costs capacity = Ok (best, flag) ->
  exists best', select_Knapsack_01 (map (option_map (Qmult k)) values) costs capacity = Ok (best', flag) /\ (best' == k * best)%Q.
Proof.
  intros values costs cap k best flag L P C K E.
  destruct (C52_optimal values costs cap L P C) as (b & f & Eb & O). rewrite E in Eb. injection Eb as <- <-.
  assert (L' : length (map (option_map (Qmult k)) values) = length costs) by now rewrite map_length.
  destruct (C52_optimal (map (option_map (Qmult k)) values) costs cap L' P C) as (best' & flag' & E' & O'). exists best'. rewrite E'.
  assert (SQ : forall q, (sum_q (map (Qmult k) q) == k * sum_q q)%Q).
  { unfold sum_q. induction q as [|x q IH]; cbn; [ring|]. rewrite IH. ring. }
  assert (W1 : forall fl w, worth (chosen fl values) w -> worth (chosen fl (map (option_map (Qmult k)) values)) (k * w)).
  { intros fl w (q & Eq & W). exists (map (Qmult k) q). split; [rewrite chosen_map, Eq, !map_map; reflexivity|]. rewrite SQ, W. reflexivity. }
  assert (W2 : forall fl w, worth (chosen fl (map (option_map (Qmult k)) values)) w -> worth (chosen fl values) (w / k)).
  { intros fl w (q & Eq & W). rewrite chosen_map in Eq.
    assert (X : exists q', chosen fl values = map Some q' /\ q = map (Qmult k) q').
    { clear - Eq. revert q Eq. generalize (chosen fl values). induction l as [|[x|] l IH]; intros [|y q] Eq; try discriminate; [exists []; auto|].
      cbn in Eq. injection Eq as <- Eq. destruct (IH q Eq) as (q' & -> & ->). exists (x :: q'). auto. }
    destruct X as (q' & X & ->). exists q'. split; [auto|]. rewrite W, SQ. field. lra. }
  assert (LE : forall a c : Q, (k * a <= k * c)%Q -> (a <= c)%Q) by (intros a c H; apply (Qmult_le_l a c k K); auto).
  assert (O1 : optimal values costs cap flag' (best' / k)).
  { destruct O' as (A & B & D). split; [auto|]. split; [now apply W2|]. intros fl w F W. apply LE. specialize (D fl (k * w)%Q F (W1 _ _ W)).
    assert (X : (k * (best' / k) == best')%Q) by (field; lra). rewrite X. exact D. }
  assert (O2 : optimal (map (option_map (Qmult k)) values) costs cap flag (k * best)).
  { destruct O as (A & B & D). split; [auto|]. split; [now apply W1|]. intros fl w F W. specialize (D fl (w / k)%Q F (W2 _ _ W)).
    assert (X : (w == k * (w / k))%Q) by (field; lra). rewrite X. rewrite !(Qmult_comm k). apply Qmult_le_compat_r; [auto|lra]. }
  destruct (same_choice values costs cap (map (option_map (Qmult k)) values) costs cap best flag best' flag' (best' / k) (k * best)) as [-> W]; auto.
  split; [auto|]. rewrite <- W. field. lra.
Qed.
Print Assumptions C52_unit.

Example ex_budgets : exists b f b' f', select_Knapsack_01 [Some 3; Some 4]%Q [2; 3] 4 = Ok (b, f) /\ select_Knapsack_01 [Some 3; Some 4]%Q [2; 3] 5 = Ok (b', f') /\ (b < b')%Q.
Proof. eexists _, _, _, _. split; [vm_compute; reflexivity|]. split; [vm_compute; reflexivity|]. vm_compute. reflexivity. Qed.
Example ex_currency : select_Knapsack_01 [Some 3; None; Some 4]%Q [2; 1; 3] 4 = Ok (4%Q, [false; false; true]) /\ 0 <= 2 < 3 /\
  (exists b, select_Knapsack_01 [Some 3; None; Some 4]%Q [6; 3; 9] 14 = Ok (b, [false; false; true])) /\
  (exists b, select_Knapsack_01 [Some 6; None; Some 8]%Q [2; 1; 3] 4 = Ok (b, [false; false; true])).
Proof. split; [vm_compute; reflexivity|]. split; [lia|]. split; eexists; vm_compute; reflexivity. Qed.
