(** Theorems about the graph of QueryInstanceGraphDensity: C94. *)
From Verif Require Import Base BaseFacts MiscModel MiscSpec QueryModel QuerySpec GraphModel GraphSpec.
From Coq Require Import QArith Lqa.
Local Open Scope Q_scope.

Lemma mem_iff j l : mem j l = true <-> In j l.
Proof. unfold mem. rewrite existsb_exists. split; [intros (y & Hy & E); apply Nat.eqb_eq in E; now subst|intro H; exists j; split; [exact H|apply Nat.eqb_refl]]. Qed.

Lemma in_nonzero n M i j : In (i, j) (nonzero n M) <-> (i < n)%nat /\ (j < n)%nat /\ ~ M i j == 0.
Proof.
  unfold nonzero. rewrite in_flat_map. split.
  - intros (a & Ha & H). apply in_map_iff in H. destruct H as (b & E & Hb). injection E as -> ->. apply filter_In in Hb. destruct Hb as [Hb N]. unfold range in *. apply in_seq in Ha, Hb.
    split; [lia|]. split; [lia|]. intro Z0. apply Qeq_bool_iff in Z0. rewrite Z0 in N. discriminate.
  - intros (Hi & Hj & N). exists i. split; [unfold range; apply in_seq; lia|]. apply in_map. apply filter_In. split; [unfold range; apply in_seq; lia|].
    destruct (Qeq_bool (M i j) 0) eqn:E; [apply Qeq_bool_iff in E; contradiction|reflexivity].
Qed.

(** The loop: an entry named in either direction holds the weight, the others are kept. *)
Lemma weigh_all x (Hx : measured x) es : forall M i j,
  ((exists e, In e es /\ (e = (i, j) \/ e = (j, i))) -> fold_left (weigh x) es M i j == weight x i j) /\
  (~ (exists e, In e es /\ (e = (i, j) \/ e = (j, i))) -> fold_left (weigh x) es M i j = M i j).
Proof.
  destruct Hx as (Sy & _ & _ & We & _).
  induction es as [|[a b] es IH]; intros M i j; [split; [intros (e & [] & _)|reflexivity]|]. cbn [fold_left]. specialize (IH (weigh x M (a, b)) i j).
  assert (D : (exists e, In e es /\ (e = (i, j) \/ e = (j, i))) \/ ~ (exists e, In e es /\ (e = (i, j) \/ e = (j, i)))).
  { assert (DE : forall e f : nat * nat, {e = f} + {e <> f}) by (decide equality; apply Nat.eq_dec).
    destruct (in_dec DE (i, j) es); [left; eauto|]. destruct (in_dec DE (j, i) es); [left; eauto|]. right. intros (e & He & [-> | ->]); contradiction. }
  destruct D as [D|D].
  - split; [intros _; apply IH, D|]. intro N. exfalso. apply N. destruct D as (e & He & H). exists e. split; [now right|exact H].
  - rewrite (proj2 IH D). unfold weigh, put. cbn [fst snd]. split.
    + intros (e & [<-|He] & H); [|exfalso; apply D; eauto]. assert (W : expo x (- dist x a b * gamma x) == weight x i j).
      { apply We. destruct H as [E|E]; injection E as -> ->; [ring|]. rewrite (Sy j i). ring. }
      destruct H as [E|E]; injection E as -> ->; rewrite !Nat.eqb_refl; cbn [andb]; [|exact W]. destruct (_ && _); exact W.
    + intro N. destruct (Nat.eqb_spec i b) as [->|]; destruct (Nat.eqb_spec j a) as [->|]; cbn [andb]; [exfalso; apply N; eexists; split; [now left|auto]| | |].
      all: try (destruct (Nat.eqb_spec b a); cbn [andb]; [|reflexivity]; subst; destruct (Nat.eqb_spec j a); [subst; contradiction|reflexivity]).
      all: destruct (Nat.eqb_spec i a) as [->|]; cbn [andb]; try reflexivity.
      * destruct (Nat.eqb_spec a b) as [->|]; [|reflexivity]. contradiction.
      * destruct (Nat.eqb_spec j b) as [->|]; [|reflexivity]. exfalso. apply N. eexists. split; [now left|auto].
Qed.

(** ** C94. Two points are linked with the weight of their distance exactly when one is among the nearest of the other; all
    other entries are zero; a point is not linked to itself. *)
Theorem C94_weights : forall x k M dens, measured x -> neighbours_ok (size x) k (nearest_of x k) -> compute_graph x k = Ok (M, dens) ->
  (k < size x)%nat /\
  forall i j, (i < size x)%nat -> (j < size x)%nat ->
    (linked (nearest_of x k) i j -> M i j == weight x i j /\ i <> j) /\ (~ linked (nearest_of x k) i j -> M i j == 0).
Proof.
  intros x k M dens Hx Hn. unfold compute_graph, knn_graph. destruct (Nat.leb_spec (size x) k) as [|Hk]; [discriminate|]. cbn [bind].
  set (M0 := fun i j => _). intro E. injection E as <- _. split; [exact Hk|]. intros i j Hi Hj.
  assert (NZ : forall a b, (a < size x)%nat -> (b < size x)%nat -> (In (a, b) (nonzero (size x) M0) <-> In b (nearest_of x k a))).
  { intros a b Ha Hb. rewrite in_nonzero. unfold M0. rewrite <- mem_iff. destruct (mem b (nearest_of x k a)); split; try tauto; try discriminate.
    - intros _. split; [auto|]. split; [auto|]. discriminate.
    - intros (_ & _ & N). exfalso. apply N. reflexivity. }
  assert (LK : (exists e, In e (nonzero (size x) M0) /\ (e = (i, j) \/ e = (j, i))) <-> linked (nearest_of x k) i j).
  { unfold linked. split; [intros (e & He & [-> | ->]); [left|right]; now apply NZ|]. intros [H|H]; [exists (i, j)|exists (j, i)]; (split; [now apply NZ|auto]). }
  destruct (weigh_all x Hx (nonzero (size x) M0) M0 i j) as [W1 W2]. split; intro L.
  - split; [apply W1, LK, L|]. destruct L as [L|L]; [apply (proj2 (proj2 (Hn i Hi))) in L|apply (proj2 (proj2 (Hn j Hj))) in L]; [intros ->; tauto|intros ->; tauto].
  - rewrite W2 by (intro X; apply L, LK, X). unfold M0. destruct (mem j (nearest_of x k i)) eqn:E; [|reflexivity]. apply mem_iff in E. exfalso. apply L. now left.
Qed.
Print Assumptions C94_weights.

Lemma sum_filter (f : nat -> Q) p l : (forall j, In j l -> p j = false -> f j == 0) -> fold_right Qplus 0 (map f l) == fold_right Qplus 0 (map f (filter p l)).
Proof.
  induction l as [|a l IH]; intro H; [reflexivity|]. cbn [map fold_right filter]. rewrite IH by (intros; apply H; [now right|auto]).
  destruct (p a) eqn:E; [reflexivity|]. rewrite (H a (or_introl eq_refl) E). ring.
Qed.
Lemma sum_bound (f : nat -> Q) l : (forall j, In j l -> 0 < f j /\ f j <= 1) ->
  0 <= fold_right Qplus 0 (map f l) /\ (l <> [] -> 0 < fold_right Qplus 0 (map f l)) /\ fold_right Qplus 0 (map f l) <= inject_Z (Z.of_nat (length l)).
Proof.
  induction l as [|a l IH]; intro H; [split; [apply Qle_refl|]; split; [congruence|apply Qle_refl]|]. cbn [map fold_right length].
  destruct IH as (I1 & _ & I3); [intros; apply H; now right|]. destruct (H a (or_introl eq_refl)) as [P1 P2]. rewrite Nat2Z.inj_succ. unfold Z.succ. rewrite inject_Z_plus. change (inject_Z 1) with 1.
  split; [lra|]. split; [intros _; lra|lra].
Qed.

(** The density of a point is the average weight of its links; it has at least [k] of them, and the density lies in (0, 1]. *)
Theorem C94_density : forall x k M dens, measured x -> (0 < k)%nat -> neighbours_ok (size x) k (nearest_of x k) -> compute_graph x k = Ok (M, dens) ->
  length dens = size x /\
  forall i, (i < size x)%nat -> exists links d, nth_error dens i = Some (Some d) /\ NoDup links /\ (k <= length links)%nat /\
    (forall j, In j links <-> (j < size x)%nat /\ linked (nearest_of x k) i j) /\
    d * inject_Z (Z.of_nat (length links)) == total (map (weight x i) links) /\ 0 < d /\ d <= 1.
Proof.
  intros x k M dens Hx Hk Hn E. pose proof (C94_weights x k M dens Hx Hn E) as [Lk W]. pose proof Hx as (Sy & Dp & Gp & We & Ep & E1).
  unfold compute_graph in E. destruct (knn_graph x k) as [M0|e]; [|discriminate]. cbn [bind] in E. injection E as EM <-. set (M' := fold_left _ _ _) in *. rewrite EM in *. clear EM M'.
  split; [unfold range; now rewrite map_length, seq_length|]. intros i Hi. set (links := filter (fun j => GraphModel.positive (M i j)) (range (size x))).
  assert (PM : forall j, (j < size x)%nat -> (GraphModel.positive (M i j) = true <-> linked (nearest_of x k) i j)).
  { intros j Hj. destruct (W i j Hi Hj) as [W1 W2]. unfold GraphModel.positive. split.
    - intro P. assert (DC : linked (nearest_of x k) i j \/ ~ linked (nearest_of x k) i j).
      { unfold linked. destruct (in_dec Nat.eq_dec j (nearest_of x k i)); [tauto|]. destruct (in_dec Nat.eq_dec i (nearest_of x k j)); tauto. }
      destruct DC as [DC|DC]; [exact DC|]. specialize (W2 DC). assert (Q0 : Qle_bool (M i j) 0 = true) by (apply Qle_bool_iff; lra). rewrite Q0 in P. discriminate.
    - intro L. destruct (W1 L) as [W3 _]. apply negb_true_iff, not_true_is_false. intro Q0. apply Qle_bool_iff in Q0. pose proof (Ep (- (dist x i j * gamma x))). unfold weight in W3. lra. }
  assert (LI : forall j, In j links <-> (j < size x)%nat /\ linked (nearest_of x k) i j).
  { intro j. unfold links, range. rewrite filter_In, in_seq. split; [intros [H1 H2]; split; [lia|apply PM; [lia|exact H2]]|intros [H1 H2]; split; [lia|now apply PM]]. }
  assert (ND : NoDup links) by (apply NoDup_filter, seq_NoDup).
  assert (LL : (k <= length links)%nat).
  { destruct (Hn i Hi) as (N1 & N2 & N3). rewrite <- N2 at 1. apply NoDup_incl_length; [exact N1|]. intros j Hj. apply LI. split; [apply (proj1 (N3 j Hj))|now left]. }
  assert (WW : forall j, In j links -> M i j == weight x i j /\ 0 < weight x i j /\ weight x i j <= 1).
  { intros j Hj. apply LI in Hj. destruct Hj as [Hj L]. split; [apply (proj1 (W i j Hi Hj) L)|]. split; [apply Ep|]. apply E1. pose proof (Dp i j). nra. }
  assert (SM : fold_right Qplus 0 (map (M i) (range (size x))) == fold_right Qplus 0 (map (weight x i) links)).
  { rewrite (sum_filter (M i) (fun j => GraphModel.positive (M i j)) (range (size x))).
    - fold links. revert WW. clear. induction links as [|a l IH]; intro H; [reflexivity|]. cbn [map fold_right]. rewrite IH by (intros; apply H; now right). rewrite (proj1 (H a (or_introl eq_refl))). reflexivity.
    - intros j Hj P. unfold range in Hj. apply in_seq in Hj. apply (W i j Hi); [lia|]. intro L. apply PM in L; [congruence|lia]. }
  assert (P : 0 < inject_Z (Z.of_nat (length links))) by (change 0 with (inject_Z 0); rewrite <- Zlt_Qlt; lia).
  destruct (sum_bound (weight x i) links (fun j Hj => proj2 (WW j Hj))) as (_ & B2 & B3). assert (NE : links <> []) by (intro Z0; rewrite Z0 in LL; cbn in LL; lia). specialize (B2 NE).
  exists links, (fold_right Qplus 0 (map (M i) (range (size x))) / inject_Z (Z.of_nat (length links))). split.
  { rewrite nth_error_map. unfold range at 1. rewrite (nth_error_nth' (seq 0 (size x)) 0%nat) by (rewrite seq_length; lia). rewrite seq_nth by lia. cbn [option_map plus]. unfold node_density. fold links.
    destruct (Nat.eqb_spec (length links) 0); [lia|reflexivity]. }
  split; [exact ND|]. split; [exact LL|]. split; [exact LI|]. rewrite SM. unfold total. split; [field; lra|]. split.
  - apply Qlt_shift_div_l; [exact P|]. lra.
  - apply Qle_shift_div_r; [exact P|]. lra.
Qed.
Print Assumptions C94_density.

(** With at most [k] points nothing can be made. *)
Theorem C94_few : forall x train k, ((size x <= k)%nat -> compute_graph x k = Err ValueErr) /\ ((size x <= 10)%nat -> graph_new x train = Err ValueErr).
Proof.
  intros x train k. unfold graph_new, compute_graph, knn_graph. split; intro H.
  - destruct (Nat.leb_spec (size x) k); [reflexivity|lia].
  - destruct (Nat.leb_spec (size x) 10); [reflexivity|lia].
Qed.
Print Assumptions C94_few.

(** The neighbours the selection lowers are the linked points, for the object made: symmetric, never the point itself, at
    least ten. *)
Theorem C94_object : forall x train, measured x -> neighbours_ok (size x) 10 (nearest_of x 10) -> (10 < size x)%nat ->
  exists g dens, graph_new x train = Ok (g, dens) /\ gtrain g = train /\ length dens = size x /\
    forall i j, (i < size x)%nat -> ((In j (gneighbors g i) <-> (j < size x)%nat /\ linked (nearest_of x 10) i j) /\
      (In j (gneighbors g i) -> In i (gneighbors g j)) /\ ~ In i (gneighbors g i) /\ NoDup (gneighbors g i) /\ (10 <= length (gneighbors g i))%nat).
Proof.
  intros x train Hx Hn Hs. destruct (compute_graph x 10) as [[M dens]|e] eqn:E.
  - pose proof (C94_weights x 10 M dens Hx Hn E) as [_ W]. pose proof (C94_density x 10 M dens Hx ltac:(lia) Hn E) as [LD _]. pose proof Hx as (_ & _ & _ & _ & Ep & _).
    unfold graph_new. rewrite E. cbn [bind fst snd]. eexists _, dens. split; [reflexivity|]. split; [reflexivity|]. split; [exact LD|]. cbn [gneighbors].
    assert (C : forall i j, (i < size x)%nat -> (In j (filter (fun j => GraphModel.positive (M i j)) (range (size x))) <-> (j < size x)%nat /\ linked (nearest_of x 10) i j)).
    { intros i j Hi. unfold range. rewrite filter_In, in_seq. split.
      - intros [Hj P]. split; [lia|]. destruct (W i j Hi ltac:(lia)) as [_ W2]. assert (DC : linked (nearest_of x 10) i j \/ ~ linked (nearest_of x 10) i j).
        { unfold linked. destruct (in_dec Nat.eq_dec j (nearest_of x 10 i)); [tauto|]. destruct (in_dec Nat.eq_dec i (nearest_of x 10 j)); tauto. }
        destruct DC as [DC|DC]; [exact DC|]. specialize (W2 DC). unfold GraphModel.positive in P. assert (Q0 : Qle_bool (M i j) 0 = true) by (apply Qle_bool_iff; lra). rewrite Q0 in P. discriminate.
      - intros [Hj L]. split; [lia|]. destruct (W i j Hi Hj) as [W1 _]. destruct (W1 L) as [W3 _]. unfold GraphModel.positive. apply negb_true_iff, not_true_is_false. intro Q0. apply Qle_bool_iff in Q0.
        pose proof (Ep (- (dist x i j * gamma x))). unfold weight in W3. lra. }
    intros i j Hi. split; [apply C, Hi|]. split; [|split; [|split; [apply NoDup_filter, seq_NoDup|]]].
    + intro H. apply (C i j Hi) in H. destruct H as [Hj L]. apply (C j i Hj). split; [exact Hi|]. destruct L; [now right|now left].
    + intro H. apply (C i i Hi) in H. destruct H as [_ L]. destruct (W i i Hi Hi) as [W1 _]. destruct (W1 L) as [_ NN]. contradiction.
    + destruct (Hn i Hi) as (N1 & N2 & N3). rewrite <- N2 at 1. apply NoDup_incl_length; [exact N1|]. intros b Hb. apply (C i b Hi). split; [apply (proj1 (N3 b Hb))|now left].
  - unfold compute_graph, knn_graph in E. destruct (Nat.leb_spec (size x) 10); [lia|discriminate].
Qed.
Print Assumptions C94_object.

(** The hypotheses can be met: twelve points on a line. *)
Definition ex_dist (i j : nat) : Q := inject_Z (Z.abs (Z.of_nat i - Z.of_nat j)).
Definition ex_points : points := {| size := 12; nearest_of := fun k i => firstn k (filter (fun j => negb (Nat.eqb i j)) (range 12)); dist := ex_dist; gamma := 1;
                                    expo := fun a => if Qle_bool a (-5) then 1#10 else 1#2 |}.
Example C94_witness : measured ex_points /\ neighbours_ok 12 10 (nearest_of ex_points 10) /\
  match compute_graph ex_points 10 with
  | Ok (M, dens) => M 0%nat 11%nat == 1#10 /\ M 10%nat 11%nat = 0 /\ M 0%nat 0%nat = 0 /\ match nth 0 dens None with Some d => d == 27#110 | None => False end
  | Err _ => False
  end.
Proof.
  split; [|split].
  - split; [intros i j; unfold ex_points, ex_dist, Qeq; cbn; lia|]. split; [intros i j; unfold ex_points, ex_dist, Qle; cbn; lia|]. split; [reflexivity|]. cbn [expo ex_points]. split; [|split].
    + intros a b H. assert (E : Qle_bool a (-5) = Qle_bool b (-5)). { apply eq_true_iff_eq. rewrite !Qle_bool_iff. rewrite H. reflexivity. } rewrite E. reflexivity.
    + intro a. destruct (Qle_bool a (-5)); reflexivity.
    + intros a _. destruct (Qle_bool a (-5)); discriminate.
  - intros i Hi. do 12 (destruct i as [|i]; [split; [repeat constructor; cbn; intuition lia|]; split; [reflexivity|]; cbn; intuition lia|]). lia.
  - vm_compute. repeat split; reflexivity.
Qed.
