(** Theorems about the multi-label query strategies: C56 (AUDI), C71 (label ranking), C72 (batch mode),
    C73 (multi-label QUIRE), C74 (MMC, Adaptive, binary relevance). *)
From Verif Require Import Base BaseFacts IndexModel IndexSpec IndexProofs MLModel MLSpec MLProofs MLProofs2 MLProofs3 MLProps MiscModel MiscSpec QueryModel
  QuerySpec QueryProofs QueryProofs2 QueryProofs5 MetricModel MLQueryModel MLQuerySpec MLQueryProofs MLQueryProofs2 MLQueryProofs3 MLQueryProofs4.
From Coq Require Import QArith Qabs Qfield Lqa.
Local Open Scope Z_scope.

(** ** C56. AUDI returns one unlabelled pair: of an instance of greatest inconsistency (the first instance if no
    instance is fully labelled), and for finite scores of a label nearest to the dummy. *)
Theorem C56_choice : forall B M (argsort : list fl -> list nat) (fit : list B -> list (list Q) -> res M)
    (scores : M -> list B -> nat * list (list fl)) (X : list B) (y : list (list Q)) m L U l u model eps t,
  (forall d, Permutation (argsort d) (range (length d))) ->
  has_shape y (length y) m -> length X = length y ->
  pool_of (length y) m U u -> pool_of (length y) m L l -> (2 <= ml_pool_len U)%nat -> pairs u <> [] ->
  trained_on fit X y m l model t ->
  exists xs, rows_of X (instances u) xs /\
    (score_shape (length (instances u)) m (scores t xs) ->
     exists r i j pres,
       nth_error (instances u) r = Some i /\ nth_error (map lr_scores (snd (scores t xs))) r = Some pres /\
       audi_select argsort fit scores X y m L U model eps = Ok (Chosen [IPair i j]) /\
       In (i, j) (pairs u) /\
       ((forall i, ~ full_instance m l i) -> r = 0%nat) /\
       (forall full, full <> [] -> NoDup full -> (forall i, In i full <-> full_instance m l i) ->
        forall r' i' pres', nth_error (instances u) r' = Some i' -> nth_error (map lr_scores (snd (scores t xs))) r' = Some pres' ->
        (inconsistent (mean_positive y full) eps (predicted_positive pres') (pairs_of u i') <=
         inconsistent (mean_positive y full) eps (predicted_positive pres) (pairs_of u i))%Q) /\
       (all_finite pres -> forall j', In (i, j') (pairs u) ->
        exists d d', dummy_distance pres (Z.to_nat j) d /\ dummy_distance pres (Z.to_nat j') d' /\ (d <= d')%Q)).
Proof.
  intros B M argsort fit scores X y m L U l u model eps t Ha Hy HX (U1 & U2 & U3) (L1 & L2 & L3) Nu Pu Ht.
  eapply audi_lemma; eauto.
Qed.
Print Assumptions C56_choice.

(** At most one unlabelled pair: the pool itself, whatever the model. *)
Theorem C56_single : forall B M argsort fit (scores : M -> list B -> nat * list (list fl)) X y m L U model eps,
  (ml_pool_len U <= 1)%nat -> audi_select argsort fit scores X y m L U model eps = Ok TheRest.
Proof. intros. unfold audi_select. replace (ml_pool_len U <=? 1)%nat with true by lia. reflexivity. Qed.
Print Assumptions C56_single.

(** A model with scores for any other number of classes than labels and dummy (it has been trained on other data, or
    on labels containing the value 2, for which no dummy is added): IndexError. *)
Theorem C56_wrong_width : forall B M (argsort : list fl -> list nat) (fit : list B -> list (list Q) -> res M)
    (scores : M -> list B -> nat * list (list fl)) (X : list B) (y : list (list Q)) m L U l u model eps t q,
  has_shape y (length y) m -> length X = length y ->
  pool_of (length y) m U u -> pool_of (length y) m L l -> (2 <= ml_pool_len U)%nat -> pairs u <> [] ->
  trained_on fit X y m l model t ->
  (forall xs, length xs = length (instances u) ->
     fst (scores t xs) = (num_sub * q)%nat /\ length (snd (scores t xs)) = length xs /\
     forall r, In r (snd (scores t xs)) -> length r = fst (scores t xs)) ->
  q <> 0%nat -> q <> S m ->
  audi_select argsort fit scores X y m L U model eps = Err IndexErr.
Proof.
  intros B M argsort fit scores X y m L U l u model eps t q Hy HX (U1 & U2 & U3) (L1 & L2 & L3) Nu Pu Ht Hs Q0 Qm.
  exact (audi_width argsort fit scores X y m L U l u model eps t Hy HX U1 L1 U2 L2 U3 L3 Nu Pu Ht q Hs Q0 Qm).
Qed.
Print Assumptions C56_wrong_width.

Lemma pool_list n m l : l <> [] -> 0 < Z.of_nat m -> forallb (scalar_ok (Z.of_nat m)) l = true ->
  (forall x, In x l -> 0 <= ins_of x < Z.of_nat n) -> exists c, pool_of n m (MPList l) c.
Proof.
  intros Hl Hm S R. destruct (proj1 (C05_construction l (Z.of_nat m) Hl Hm) S) as (c & w & E & Rc & _ & I & _).
  exists c. split; [|split; auto].
  - cbn [check_ml_ind]. destruct l; [congruence|]. now rewrite E.
  - intros p Hp. apply I in Hp. destruct Hp as (x & Hx & D). specialize (R x Hx). destruct p as [a b]. assert (a = ins_of x) by (destruct x; cbn in *; try (injection D; congruence); tauto). cbn. lia.
Qed.

(** A 2-by-2 label matrix; instance 0 is fully labelled, instance 1 not at all. *)
Example C56_applies :
  let y := [[1; 0]; [0; 1]]%Q in
  let U := MPList [IPair 1 0; IPair 1 1] in
  let L := MPList [IPair 0 0; IPair 0 1] in
  let row := map (fun q => Num q) [1; 0; 0; 0; 0; 3; 0; 0; 0; 0; 2; 0; 0; 0; 0]%Q in
  let scores (t : nat) (xs : list nat) := (15%nat, map (fun _ => row) xs) in
  (exists u, pool_of 2 2 U u) /\ (exists l, pool_of 2 2 L l) /\
  audi_select (fun d => range (length d)) (fun _ _ => Ok 0%nat) scores [7; 8]%nat y 2 L U LRNone (1#2) = Ok (Chosen [IPair 1 0]).
Proof.
  cbn zeta. split; [|split].
  - apply pool_list; try discriminate; [reflexivity|reflexivity|]. cbn. intuition; subst; cbn; lia.
  - apply pool_list; try discriminate; [reflexivity|reflexivity|]. cbn. intuition; subst; cbn; lia.
  - reflexivity.
Qed.

(** ** C71. The label ranking model. *)

(** The score of each class is the greatest of its five columns, NaN ignored; a label is predicted as 1 exactly when its
    score is above the score of the last class, and as -1 otherwise. *)
Theorem C71_scores : forall q fs, (forall r, In r fs -> length r = (num_sub * q)%nat) ->
  exists pres labs, lr_predict (num_sub * q) fs = Ok (pres, labs) /\ length pres = length fs /\ length labs = length fs /\
  forall r row, nth_error fs r = Some row ->
    exists p lab, nth_error pres r = Some p /\ nth_error labs r = Some lab /\ length p = q /\ length lab = (q - 1)%nat /\
    (forall k, (k < q)%nat -> greatest (map (fun j => nth (k * num_sub + j) row NaN) (seq 0 num_sub)) (nth k p NaN)) /\
    (forall k, (k < q - 1)%nat ->
       (nth k lab 0 = 1 <-> fl_lt (nth (q - 1) p NaN) (nth k p NaN) = true) /\
       (nth k lab 0 = -1 <-> fl_lt (nth (q - 1) p NaN) (nth k p NaN) = false)).
Proof.
  intros q fs Hr. unfold lr_predict. rewrite Nat.mul_comm, Nat.mod_mul by discriminate. cbn [Nat.eqb guard bind].
  eexists _, _. split; [reflexivity|]. rewrite !map_length. split; auto. split; auto.
  intros r row E. exists (lr_scores row), (lr_labels (lr_scores row)). rewrite !nth_error_map, E. split; auto. split; auto.
  assert (Lr : length (lr_scores row) = q).
  { rewrite lr_scores_length, (Hr row) by (eapply nth_error_In; eauto). rewrite Nat.mul_comm. apply Nat.div_mul. discriminate. }
  split; auto. split; [unfold lr_labels; rewrite map_length, removelast_len; lia|]. split.
  - intros k Hk. destruct (lr_scores_greatest row k) as (v & Ev & Gv); [rewrite <- lr_scores_length; lia|]. rewrite (nth_error_nth _ _ _ Ev). exact Gv.
  - intros k Hk. set (p := lr_scores row) in *.
    assert (EL : last p NaN = nth (q - 1) p NaN).
    { assert (Np : p <> []) by (intro X; rewrite X in Lr; cbn in Lr; lia). destruct (exists_last Np) as (p0 & z & Ez). rewrite Ez, last_last.
      rewrite Ez, app_length in Lr. cbn in Lr. rewrite app_nth2 by lia. replace (q - 1 - length p0)%nat with 0%nat by lia. reflexivity. }
    assert (EN : nth k (lr_labels p) 0 = if fl_lt (nth (q - 1) p NaN) (nth k p NaN) then 1 else -1).
    { unfold lr_labels. rewrite (nth_indep _ 0 (if fl_lt (last p NaN) NaN then 1 else -1)) by (rewrite map_length, removelast_len; lia).
      rewrite (map_nth (fun x => if fl_lt (last p NaN) x then 1 else -1)). rewrite EL. f_equal.
      assert (X : nth_error (removelast p) k = nth_error p k) by (apply removelast_nth; lia).
      rewrite (nth_error_nth' p NaN (n := k)) in X by lia. apply nth_error_nth with (d := NaN) in X. now rewrite X. }
    rewrite EN. destruct (fl_lt _ _); split; split; congruence.
Qed.
Print Assumptions C71_scores.

Theorem C71_rejects : forall w fs, (w mod num_sub <> 0)%nat -> lr_predict w fs = Err AssertErr.
Proof. intros w fs H. unfold lr_predict. apply Nat.eqb_neq in H. now rewrite H. Qed.
Print Assumptions C71_rejects.

Example C71_applies : lr_predict 10 [[Num 1; NaN; Inf true; Num 4; Num 2; Num 3; NaN; Num 0; Num 1; Num 2]]
  = Ok ([[Num 4; Num 3]], [[1]]).
Proof. reflexivity. Qed.

(** Life cycle, for every training step: the first training passes over the data twice as often as asked for. Every
    later [fit], incremental or not, continues from the arrays left by the previous one; a non-incremental one only
    resets the running averages, to what they were after the first half of the very first training. *)
Theorem C71_refit : forall A G D (zero : G) (init : D -> A) (step : D -> A * G -> A * G) d0 k0 b0 h,
  let first := train step k0 d0 (init d0, zero) in
  exists r, lr_run zero init step ((d0, k0, b0) :: h) = Some r /\ ini_averages r = snd first /\
  (h = [] -> (arrays r, averages r) = train step (k0 + k0) d0 (init d0, zero)) /\
  forall h' d k b, h = h' ++ [(d, k, b)] ->
    exists prev, lr_run zero init step ((d0, k0, b0) :: h') = Some prev /\
      (arrays r, averages r) = train step k d (arrays prev, if b then averages prev else snd first).
Proof.
  intros A G D zero init step d0 k0 b0 h first.
  assert (TA : forall a b d s, train step (a + b) d s = train step b d (train step a d s)).
  { induction a; intros b d s; cbn; auto. }
  induction h as [|[[d k] b] h IH] using rev_ind.
  - eexists. split; [reflexivity|]. split; [reflexivity|]. split.
    + intros _. rewrite TA. fold first. cbn. fold first. destruct b0; rewrite <- surjective_pairing; f_equal; now rewrite <- surjective_pairing.
    + intros h' d k b E. destruct h'; discriminate.
  - destruct IH as (r & Er & Ei & _). unfold lr_run in *. cbn [fold_left] in *. rewrite fold_left_app. rewrite Er. cbn [fold_left fst snd].
    eexists. split; [reflexivity|]. cbn [ini_averages lr_fit]. split; [exact Ei|]. split; [intro E; destruct h; discriminate|].
    intros h' d' k' b' E. apply app_inj_tail in E. destruct E as (<- & E). injection E as <- <- <-. exists r. split; [exact Er|].
    cbn [lr_fit arrays averages]. rewrite <- surjective_pairing. rewrite Ei. reflexivity.
Qed.
Print Assumptions C71_refit.

(** So "fit from scratch" is false: fitting twice on the same data without the incremental flag may give a different
    model from fitting once. *)
Theorem C71_refit_refuted : exists (step : unit -> Z * Z -> Z * Z),
  let run h := lr_run 0 (fun _ => 0) step h in
  forall r r', run [(tt, 1%nat, false)] = Some r -> run [(tt, 1%nat, false); (tt, 1%nat, false)] = Some r' ->
  arrays r <> arrays r'.
Proof. exists (fun _ s => (fst s + 1, snd s + 1)). cbn. intros r r' E E'. injection E as <-. injection E' as <-. cbn. discriminate. Qed.
Print Assumptions C71_refit_refuted.

(** ** C72. Batch selection of MMC and Adaptive. *)

(** [ask] stands for either strategy: a position of the unlabelled collection whenever it has at least two elements.
    With collections, [batch] distinct unlabelled indexes are returned (as 1-tuples); the caller's own labelled
    collection has gained them and the caller's own unlabelled collection has lost them. *)
Theorem C72_collections : forall ask L U T batch,
  (forall i L U, (2 <= ic_len U)%nat -> exists p, ask i L U = Ok p /\ (p < ic_len U)%nat) ->
  reachable L -> reachable U -> etype L = Some T -> (forall x, In x (elems U) -> key_ty x = T) ->
  batch < Z.of_nat (ic_len U) ->
  exists sel L' U', batch_select ask (CColl L) (CColl U) batch = ((CColl L', CColl U'), Ok (Tuples sel)) /\
    Z.of_nat (length sel) = Z.max 0 batch /\ NoDup (map norm sel) /\ (forall v, In v sel -> In v (cont U)) /\
    (forall x, In x (elems L') <-> In x (elems L) \/ In x (map norm sel)) /\
    (forall x, In x (elems U') <-> In x (elems U) /\ ~ In x (map norm sel)).
Proof.
  intros ask L U T batch Ha RL RU EL TU HB. unfold batch_select. cbn [to_icol]. replace (Z.of_nat (ic_len U) <=? batch) with false by lia.
  assert (HU0 : (Z.to_nat batch < ic_len U)%nat \/ (ic_len U = 0%nat /\ batch < 0)) by lia. destruct HU0 as [H|[H0 H1]].
  - destruct (batch_loop_lemma ask T Ha (Z.to_nat batch) 0%nat L U [] (WF_reachable _ RL) (WF_reachable _ RU) EL TU H) as (sel & L' & U' & E & Ls & R).
    rewrite E. exists sel, L', U'. cbn [rmap back app]. split; auto. split; [lia|exact R].
  - replace (Z.to_nat batch) with 0%nat by lia. exists [], L, U. cbn. split; auto. split; [lia|]. split; [constructor|]. intuition.
Qed.
Print Assumptions C72_collections.

(** Lists and multi-label collections are converted first, so the caller's arguments stay as they are. *)
Theorem C72_others_unchanged : forall ask La Ua batch,
  (forall c, La <> CColl c) -> (forall c, Ua <> CColl c) -> fst (batch_select ask La Ua batch) = (La, Ua).
Proof.
  intros ask La Ua batch HL HU. unfold batch_select. destruct (to_icol La); auto. destruct (to_icol Ua); auto.
  destruct (_ <=? _); auto. destruct (batch_loop _ _ _ _ _) as [[L' U'] r]. cbn.
  destruct La as [c| | |]; [now destruct (HL c)| | |]; destruct Ua as [c'| | |]; auto; now destruct (HU c').
Qed.
Print Assumptions C72_others_unchanged.

(** If no more indexes are left than asked for, all of them are returned, as plain elements and not as tuples. *)
Theorem C72_rest : forall ask L U batch, Z.of_nat (ic_len U) <= batch ->
  batch_select ask (CColl L) (CColl U) batch = ((CColl L, CColl U), Ok (Whole (cont U))).
Proof. intros ask L U batch H. unfold batch_select. cbn [to_icol]. now replace (Z.of_nat (ic_len U) <=? batch) with true by lia. Qed.
Print Assumptions C72_rest.

(** What is selected from is the set of unbroken instances of a multi-label collection, or the distinct listed ones. *)
Theorem C72_conversion : forall a,
  (a = COther -> to_icol a = Err TypeErr) /\
  (forall l, a = CList l -> l <> [] -> (forall v w, In v l -> In w l -> key_ty (norm v) = key_ty (norm w)) ->
     exists c, to_icol a = Ok c /\ NoDup (elems c) /\ forall k, In k (elems c) <-> In k (map norm l)) /\
  (forall m c, a = CMulti c -> ml_reachable (Z.of_nat m) c ->
     exists c', to_icol a = Ok c' /\ NoDup (elems c') /\ forall k, In k (elems c') <-> exists i, k = KInt i /\ full_instance m c i).
Proof.
  intro a. split; [intros ->; reflexivity|]. split.
  - intros l -> Hl Hh. cbn [to_icol]. eexists. split; [reflexivity|]. pose proof (WF_init_list l) as W. split; [apply W|].
    intro k. rewrite ic_init_list by exact Hl. rewrite np_unique_in, np_asarray_homog by exact Hh. reflexivity.
  - intros m c -> R. destruct (C10_instances _ _ R) as (full & bro & Ef & _ & If & _). cbn [to_icol]. rewrite Ef. cbn [bind].
    eexists. split; [reflexivity|]. set (l := map (fun i => VKey (KInt i)) full). pose proof (WF_init_list l) as W. split; [apply W|].
    assert (X : forall k, In k (elems (fst (ic_init (DList l)))) <-> In k (map norm l)).
    { intro k. destruct l as [|v l'] eqn:El; [reflexivity|]. rewrite <- El. rewrite ic_init_list by (rewrite El; discriminate).
      rewrite np_unique_in, np_asarray_homog; [reflexivity|]. intros v1 v2 H1 H2. unfold l in *. rewrite in_map_iff in H1, H2.
      destruct H1 as (? & <- & _), H2 as (? & <- & _). reflexivity. }
    intro k. rewrite X. unfold l. rewrite map_map, in_map_iff. split.
    + intros (i & <- & Hi). exists i. split; auto. intros j Hj. apply If; auto.
    + intros (i & -> & Hi). exists i. split; auto. apply If. exact Hi.
Qed.
Print Assumptions C72_conversion.

Example C72_applies :
  let L := fst (ic_init (DList [VKey (KInt 1)])) in
  let U := fst (ic_init (DList [VKey (KInt 2); VKey (KInt 5); VKey (KInt 9)])) in
  reachable L /\ reachable U /\ etype L = Some TInt /\
  match batch_select (fun i _ _ => Ok (1 - i)%nat) (CColl L) (CColl U) 2 with
  | ((CColl L', CColl U'), Ok (Tuples sel)) => elems L' = [KInt 1; KInt 5; KInt 2] /\ elems U' = [KInt 9] /\ map norm sel = [KInt 5; KInt 2]
  | _ => False
  end.
Proof. cbn zeta. split; [apply reach_list|]. split; [apply reach_list|]. split; [reflexivity|]. vm_compute. auto. Qed.

(** ** C73. Multi-label QUIRE. *)

(** For any kernel, labels and pseudo-inverse (also one that gives no finite value), one unlabelled pair is returned. *)
Theorem C73_pair : forall pinv K y m L U l u, has_shape y (length y) m ->
  pool_of (length y) m U u -> pool_of (length y) m L l ->
  ((ml_pool_len U <= 1)%nat -> quire_ml pinv K y m L U = Ok TheRest) /\
  ((2 <= ml_pool_len U)%nat -> pairs u <> [] ->
   exists i j, quire_ml pinv K y m L U = Ok (Chosen [IPair i j]) /\ In (i, j) (pairs u)).
Proof.
  intros pinv K y m L U l u Hy (U1 & U2 & U3) (L1 & L2 & L3). split.
  - intro H. unfold quire_ml. now replace (ml_pool_len U <=? 1)%nat with true by lia.
  - intros Nu Pu. destruct (quire_ml_lemma pinv K y m L U l u Hy U1 L1 U2 L2 U3 L3 Nu Pu) as (us & ss & ys & r & i & j & H).
    decompose [and] H. exists i, j. cbn zeta in *. tauto.
Qed.
Print Assumptions C73_pair.

Lemma sorted_unique (a : list Z) : forall b, Permutation a b -> StronglySorted Z.le a -> StronglySorted Z.le b -> a = b.
Proof.
  induction a as [|x a IH]; intros b P Sa Sb.
  - apply Permutation_nil in P. now subst.
  - destruct b as [|z b]; [apply Permutation_sym, Permutation_nil in P; discriminate|].
    inversion Sa as [|? ? Sa' Fa]; inversion Sb as [|? ? Sb' Fb]; subst. rewrite Forall_forall in Fa, Fb.
    assert (x = z).
    { assert (Hx : In x (z :: b)) by (apply (Permutation_in _ P); now left). assert (Hz : In z (x :: a)) by (apply (Permutation_in _ (Permutation_sym P)); now left).
      destruct Hx as [|Hx]; auto. destruct Hz as [|Hz]; auto. specialize (Fa z Hz). specialize (Fb x Hx). lia. }
    subst z. f_equal. apply IH; auto. now apply Permutation_cons_inv in P.
Qed.

(** With exactly two unlabelled pairs, an exact inverse, and the labelled pairs iterated in column order, the choice is
    the pair with the smallest worst-case objective (the other pair's value taken as the best real number). *)
Theorem C73_two : forall pinv K y m L U l u p0 p1, has_shape y (length y) m ->
  pool_of (length y) m U u -> pool_of (length y) m L l -> (2 <= ml_pool_len U)%nat ->
  Permutation (pairs u) [p0; p1] -> onedim_of (length y) p0 < onedim_of (length y) p1 ->
  StronglySorted Z.le (map (onedim_of (length y)) (pairs l)) ->
  let k p q := pair_kernel K p q in
  (k p0 p1 == k p1 p0)%Q -> (0 < k p0 p0)%Q -> (0 < k p1 p1)%Q -> (k p0 p1 * k p0 p1 < k p0 p0 * k p1 p1)%Q ->
  inverse_of (pinv [[k p0 p0; k p0 p1]; [k p1 p0; k p1 p1]]) 2 (fun a b => k (nth a [p0; p1] (0, 0)) (nth b [p0; p1] (0, 0))) ->
  let E := energy K [p0; p1] (known_labels y l) in
  exists a v v', (a < 2)%nat /\
    quire_ml pinv K y m L U = Ok (Chosen [IPair (fst (nth a [p0; p1] (0, 0))) (snd (nth a [p0; p1] (0, 0)))]) /\
    evaluation E 2 a v /\ evaluation E 2 (1 - a) v' /\ (v <= v')%Q.
Proof.
  intros pinv K y m L U l u p0 p1 Hy (U1 & U2 & U3) (L1 & L2 & L3) Nu Pu Od Sl k Sy P0 P1 Pd Inv E.
  assert (Pn : pairs u <> []). { intro X. rewrite X in Pu. apply Permutation_nil in Pu. discriminate. }
  destruct (quire_ml_lemma pinv K y m L U l u Hy U1 L1 U2 L2 U3 L3 Nu Pn) as (us & ss & ys & r & i & j & Q1 & Q2 & Q3 & Q4 & Q5 & Q6).
  set (n := length y) in *.
  assert (Eus : us = map (onedim_of n) [p0; p1]).
  { apply sorted_unique; auto. - rewrite Q1. now apply Permutation_map. - cbn. repeat constructor. lia. }
  assert (Ess : ss = map (onedim_of n) (pairs l)) by (apply sorted_unique; auto).
  assert (Rg : forall p, In p (p0 :: p1 :: pairs l) -> 0 <= fst p < Z.of_nat n).
  { intros p [<-|[<-|Hp]]; [apply U3, (Permutation_in _ (Permutation_sym Pu)); now left|apply U3, (Permutation_in _ (Permutation_sym Pu)); right; now left|now apply L3]. }
  assert (Ek : combine ys (pairs l) = known_labels y l).
  { rewrite Q5. unfold known_labels. clear. generalize (pairs l) as q. intro q. induction q as [|a q IH]; cbn; auto. now rewrite IH. }
  assert (Ly : length ys = length (pairs l)) by (rewrite Q5; apply map_length).
  assert (Em : map (fun a => map (kron_at (Z.of_nat n) K a) us) us = [[k p0 p0; k p0 p1]; [k p1 p0; k p1 p1]]).
  { rewrite Eus. cbn [map]. unfold k. rewrite !kron_pair by (apply Rg; cbn; auto). reflexivity. }
  rewrite Em in Q6. set (LL := pinv _) in *. cbn zeta in Q6. destruct Q6 as (Er & Lr & Ei & Es & Hin).
  assert (Ev : forall a, (a < 2)%nat -> exists v, quire_val (Z.of_nat n) K us ss ys LL a = Num v /\ evaluation E 2 a v).
  { intros a Ha. unfold E. rewrite <- Ek, Eus, Ess. apply quire_two; auto. }
  destruct (Ev 0%nat ltac:(lia)) as (v0 & V0 & W0). destruct (Ev 1%nat ltac:(lia)) as (v1 & V1 & W1).
  assert (Lus : length us = 2%nat) by (rewrite Eus; reflexivity). rewrite Lus in Er, Lr. unfold range in Er. cbn [seq map] in Er. rewrite V0, V1 in Er.
  assert (Hp : (i, j) = nth r [p0; p1] (0, 0)).
  { rewrite Eus in Ei. assert (I : forall p q, 0 <= fst p < Z.of_nat n -> 0 <= fst q < Z.of_nat n -> onedim_of n p = onedim_of n q -> p = q).
    { intros [a b] [c d] Ha Hc. unfold onedim_of. cbn in *. intro X. assert (b = d) by nia. subst d. f_equal. lia. }
    apply I; [|destruct r as [|[|]]; [apply Rg; now left|apply Rg; right; now left|lia]|].
    - exact (U3 _ Hin).
    - rewrite <- Ei. destruct r as [|[|]]; [reflexivity|reflexivity|lia]. }
  cbn [fl_argmin fl_argmin_from is_nan fl_lt] in Er.
  exists r, (if Nat.eqb r 0 then v0 else v1), (if Nat.eqb r 0 then v1 else v0). split; auto. rewrite <- Hp. split; [exact Es|].
  destruct (negb (Qle_bool v0 v1)) eqn:C; injection Er as <-; cbn [Nat.eqb Nat.sub].
  - apply negb_true_iff, Qle_bool_false in C. repeat split; auto. lra.
  - apply negb_false_iff, Qle_bool_iff in C. auto.
Qed.
Print Assumptions C73_two.

Definition ex_U2 := MPList [IPair 0 0; IPair 1 0].
Definition ex_K2 : list (list Q) := [[2; 1; 0]; [1; 2; 1]; [0; 1; 2]]%Q.
Example C73_two_applies :
  let y := [[0]; [0]; [1]]%Q in
  let pinv (_ : list (list Q)) := [[2#3; -(1#3)]; [-(1#3); 2#3]]%Q in
  (exists u, pool_of 3 1 ex_U2 u /\ Permutation (pairs u) [(0, 0); (1, 0)]) /\
  (exists l, pool_of 3 1 (MPList [IPair 2 0]) l /\ StronglySorted Z.le (map (onedim_of 3) (pairs l))) /\
  inverse_of (pinv []) 2 (fun a b => pair_kernel ex_K2 (nth a [(0, 0); (1, 0)] (0, 0)) (nth b [(0, 0); (1, 0)] (0, 0))) /\
  quire_ml pinv ex_K2 y 1 (MPList [IPair 2 0]) ex_U2 = Ok (Chosen [IPair 0 0]).
Proof.
  cbn zeta. split; [|split; [|split]].
  - exists {| mcont := [IPair 0 0; IPair 1 0]; is_set := true; lsize := Some 1 |}. split; [|reflexivity].
    split; [reflexivity|]. split; [eapply (mr_list _ [IPair 0 0; IPair 1 0] (Some 1)); [discriminate|reflexivity|reflexivity]|].
    intros p [<-|[<-|[]]]; cbn; lia.
  - exists {| mcont := [IPair 2 0]; is_set := true; lsize := Some 1 |}. split; [|cbn; repeat constructor].
    split; [reflexivity|]. split; [eapply (mr_list _ [IPair 2 0] (Some 1)); [discriminate|reflexivity|reflexivity]|].
    intros p [<-|[]]; cbn; lia.
  - intros [|[|]] [|[|]] Ha Hb; try lia; vm_compute; reflexivity.
  - vm_compute. reflexivity.
Qed.

(** With three unlabelled pairs the value is no longer that objective, because a scalar is subtracted where the block
    inverse needs a matrix: a positive definite example (no labels yet) in which the returned pair has a larger
    worst-case objective than another one. *)
Definition ex_us3 : list (Z * Z) := [(0, 0); (1, 0); (2, 0)].
Definition ex_K3 : list (list Q) := [[2; -1; -1]; [-1; 2; 0]; [-1; 0; 2]]%Q.
Theorem C73_three_refuted : exists pinv y u,
  let us := ex_us3 in
  let none := {| mcont := []; is_set := true; lsize := Some 1 |} in
  let E := energy ex_K3 us (known_labels y none) in
  pool_of 3 1 (MPColl u) u /\ pairs u = us /\ pool_of 3 1 (MPColl none) none /\
  (forall z0 z1 z2, (0 <= E [z0; z1; z2])%Q) /\
  inverse_of (pinv ex_K3) 3 (fun a b => pair_kernel ex_K3 (nth a us (0, 0)) (nth b us (0, 0))) /\
  quire_ml pinv ex_K3 y 1 (MPColl none) (MPColl u) = Ok (Chosen [IPair 1 0]) /\
  exists v0 v1, evaluation E 3 0 v0 /\ evaluation E 3 1 v1 /\ (v0 < v1)%Q.
Proof.
  exists (fun _ => [[1; 1#2; 1#2]; [1#2; 3#4; 1#4]; [1#2; 1#4; 3#4]]%Q), [[0]; [0]; [0]]%Q.
  exists {| mcont := [IPair 0 0; IPair 1 0; IPair 2 0]; is_set := true; lsize := Some 1 |}. cbn zeta.
  assert (EE : forall z0 z1 z2, (energy ex_K3 ex_us3 [] [z0; z1; z2] == 2 * z0 * z0 + 2 * z1 * z1 + 2 * z2 * z2 - 2 * z0 * z1 - 2 * z0 * z2)%Q).
  { intros. unfold energy, sum_over, ex_K3, pair_kernel, ex_us3. cbn -[Qmult Qplus]. change (Pos.to_nat 1) with 1%nat. change (Pos.to_nat 2) with 2%nat. cbn -[Qmult Qplus]. ring. }
  split; [|split; [reflexivity|split; [|split; [|split; [|split]]]]].
  - split; [reflexivity|]. split; [eapply (mr_list _ [IPair 0 0; IPair 1 0; IPair 2 0] (Some 1)); [discriminate|reflexivity|reflexivity]|].
    intros p [<-|[<-|[<-|[]]]]; cbn; lia.
  - split; [reflexivity|]. split; [apply mr_empty; lia|intros p []].
  - intros z0 z1 z2. change (known_labels _ _) with (@nil (Q * (Z * Z))). rewrite EE.
    assert (S : forall w, (0 <= w * w)%Q) by (intro w; nra). pose proof (S (z0 - z1)%Q). pose proof (S (z0 - z2)%Q). pose proof (S z1). pose proof (S z2). lra.
  - intros [|[|[|]]] [|[|[|]]] Ha Hb; try lia; vm_compute; reflexivity.
  - vm_compute. reflexivity.
  - change (known_labels _ _) with (@nil (Q * (Z * Z))).
    assert (L : forall i s v (w : list Q), (i = 0 \/ i = 1)%nat -> length w = 3%nat -> (nth i w 0 == s)%Q ->
      (energy ex_K3 ex_us3 [] w == v)%Q ->
      (forall x y, (v <= if Nat.eqb i 0 then 2 * s * s + 2 * x * x + 2 * y * y - 2 * s * x - 2 * s * y
                         else 2 * x * x + 2 * s * s + 2 * y * y - 2 * x * s - 2 * x * y)%Q) ->
      least_energy (energy ex_K3 ex_us3 []) 3 i s v).
    { intros i s v w Hi Lw Nw Ew Hv. split; [exists w; auto|]. intros z Lz Nz. destruct z as [|a [|b [|c [|]]]]; try discriminate.
      rewrite EE. destruct Hi as [->| ->]; cbn [nth Nat.eqb] in *.
      - rewrite Nz. apply Hv. - rewrite Nz. apply Hv. }
    assert (S : forall w, (0 <= w * w)%Q) by (intro w; nra).
    exists 1%Q, (4#3)%Q. split; [|split; [|reflexivity]].
    + exists 1%Q, 1%Q. split; [|split; [|reflexivity]].
      * apply (L 0%nat 1%Q 1%Q [1; 1#2; 1#2]%Q); auto; [reflexivity|rewrite EE; reflexivity|].
        intros x y. cbn [Nat.eqb]. pose proof (S (x - (1#2))%Q). pose proof (S (y - (1#2))%Q). lra.
      * apply (L 0%nat (-1)%Q 1%Q [-1; -(1#2); -(1#2)]%Q); auto; [reflexivity|rewrite EE; reflexivity|].
        intros x y. cbn [Nat.eqb]. pose proof (S (x + (1#2))%Q). pose proof (S (y + (1#2))%Q). lra.
    + exists (4#3)%Q, (4#3)%Q. split; [|split; [|reflexivity]].
      * apply (L 1%nat 1%Q (4#3)%Q [2#3; 1; 1#3]%Q); auto; [reflexivity|rewrite EE; reflexivity|].
        intros x y. cbn [Nat.eqb]. pose proof (S (y - x * (1#2))%Q). pose proof (S (x - (2#3))%Q). lra.
      * apply (L 1%nat (-1)%Q (4#3)%Q [-(2#3); -1; -(1#3)]%Q); auto; [reflexivity|rewrite EE; reflexivity|].
        intros x y. cbn [Nat.eqb]. pose proof (S (y - x * (1#2))%Q). pose proof (S (x + (2#3))%Q). lra.
Qed.
Print Assumptions C73_three_refuted.

(** The known labels are read in iteration order but the kernel rows in sorted order, so the same labelled set listed
    (or hashed) in another order can give another choice. *)
Theorem C73_order_refuted : exists K pinv y U l1 l2 p1 p2,
  pool_of 5 1 (MPList l1) p1 /\ pool_of 5 1 (MPList l2) p2 /\ Permutation (pairs p1) (pairs p2) /\
  quire_ml pinv K y 1 (MPList l1) U = Ok (Chosen [IPair 0 0]) /\
  quire_ml pinv K y 1 (MPList l2) U = Ok (Chosen [IPair 1 0]).
Proof.
  exists [[2;0;0;1;1]; [0;2;0;0;0]; [0;0;2;0;0]; [1;0;0;2;0]; [1;0;0;0;2]]%Q, (fun _ => [[1#2; 0]; [0; 1#2]]%Q).
  exists [[0]; [0]; [1]; [1]; [-1]]%Q, ex_U2, [IPair 2 0; IPair 3 0; IPair 4 0], [IPair 4 0; IPair 3 0; IPair 2 0].
  exists {| mcont := [IPair 2 0; IPair 3 0; IPair 4 0]; is_set := true; lsize := Some 1 |}.
  exists {| mcont := [IPair 4 0; IPair 3 0; IPair 2 0]; is_set := true; lsize := Some 1 |}.
  split; [|split; [|split; [|split; vm_compute; reflexivity]]].
  - split; [reflexivity|]. split; [eapply (mr_list _ [IPair 2 0; IPair 3 0; IPair 4 0] (Some 1)); [discriminate|reflexivity|reflexivity]|].
    intros p [<-|[<-|[<-|[]]]]; cbn; lia.
  - split; [reflexivity|]. split; [eapply (mr_list _ [IPair 4 0; IPair 3 0; IPair 2 0] (Some 1)); [discriminate|reflexivity|reflexivity]|].
    intros p [<-|[<-|[<-|[]]]]; cbn; lia.
  - apply (Permutation_rev [(2, 0); (3, 0); (4, 0)]).
Qed.
Print Assumptions C73_order_refuted.

(** ** C74. MMC, Adaptive and binary relevance. *)

(** The score of an instance is the expected loss of predicting its [p] most probable labels. *)
Theorem C74_mmc_score : forall probs order p, 0 <= p ->
  (mmc_score probs order p == expected_loss probs (firstn (Z.to_nat p) order))%Q.
Proof.
  intros probs order p Hp. unfold mmc_score, expected_loss, py_slice_to, sum_over. replace (p <? 0) with false by lia.
  set (c := firstn _ order). clearbody c. clear.
  assert (G : forall l k, (qsum (map (fun e => let yhat := if mem (fst e) c then 1 else (-1) in (1 - yhat * (snd e * 2 - 1)) / 2) (combine (seq k (length l)) l)) ==
    fold_right Qplus 0 (map (fun j => if existsb (Nat.eqb j) c then 1 - nth (j - k) l 0 else nth (j - k) l 0) (seq k (length l))))%Q).
  { induction l as [|a l IH]; intro k; [reflexivity|]. cbn [length seq combine map]. unfold qsum in *. cbn [fold_right].
    rewrite (IH (S k)). cbn [fst snd]. unfold mem at 1. rewrite Nat.sub_diag. change (nth 0 (a :: l) 0%Q) with a.
    assert (X : forall f g, (forall j, In j (seq (S k) (length l)) -> f j = g j) ->
              fold_right Qplus 0%Q (map f (seq (S k) (length l))) = fold_right Qplus 0%Q (map g (seq (S k) (length l)))).
    { intros f g H. f_equal. now apply map_ext_in. }
    rewrite (X (fun j => if existsb (Nat.eqb j) c then 1 - nth (j - k) (a :: l) 0 else nth (j - k) (a :: l) 0)%Q
               (fun j => if existsb (Nat.eqb j) c then 1 - nth (j - S k) l 0 else nth (j - S k) l 0)%Q).
    - destruct (existsb (Nat.eqb k) c); field.
    - intros j Hj. apply in_seq in Hj. replace (j - k)%nat with (S (j - S k)) by lia. reflexivity. }
  rewrite (G probs 0%nat).
  assert (X : map (fun j => if existsb (Nat.eqb j) c then 1 - nth (j - 0) probs 0 else nth (j - 0) probs 0)%Q (seq 0 (length probs)) =
              map (fun j => if existsb (Nat.eqb j) c then 1 - nth j probs 0 else nth j probs 0)%Q (seq 0 (length probs))).
  { apply map_ext. intro j. now rewrite Nat.sub_0_r. }
  rewrite X. reflexivity.
Qed.
Print Assumptions C74_mmc_score.

(** With labels 1 and -1 the predicted number of labels can be negative: then all but the last [-p] labels are taken
    as predicted instead of none. *)
Theorem C74_negative_count_refuted :
  (forall probs order p, p < 0 -> forall k, (k <= length order)%nat -> Z.of_nat k = - p ->
     mmc_score probs order p = mmc_score probs order (Z.of_nat (length order - k))) /\
  exists probs order, Permutation order (seq 0 (length probs)) /\ ~ (mmc_score probs order (-1) == expected_loss probs [])%Q.
Proof.
  split.
  - intros probs order p Hp k Hk E. unfold mmc_score, py_slice_to. replace (p <? 0) with true by lia.
    replace (Z.of_nat (length order - k) <? 0) with false by lia. rewrite Nat2Z.id. rewrite <- E, Nat2Z.id. reflexivity.
  - exists [9#10; 8#10]%Q, [0; 1]%nat. split; [reflexivity|]. vm_compute. discriminate.
Qed.
Print Assumptions C74_negative_count_refuted.

(** MMC asks for a position of greatest score: whatever is drawn, and any such position can be drawn. *)
Theorem C74_mmc_choice : forall scores, scores <> [] ->
  (forall draw, exists k, mmc_ask scores draw = Ok k /\ largest_at scores k) /\
  (forall k, largest_at scores k -> exists draw, mmc_ask scores draw = Ok k).
Proof.
  intros scores N. unfold mmc_ask. set (W := where_eq _ _).
  assert (HW : forall k, In k W <-> largest_at scores k) by (intro k; unfold W; rewrite where_max; apply best_largest).
  assert (NW : W <> []). { destruct (largest_exists scores N) as (k & Hk). apply HW in Hk. intro E. rewrite E in Hk. destruct Hk. }
  destruct (choice_lemma W NW) as (C1 & C2). split.
  - intro d. destruct (C1 d) as (k & E & H). exists k. split; auto. now apply HW.
  - intros k H. apply HW in H. destruct (C2 k H) as (d & _ & E). eauto.
Qed.
Print Assumptions C74_mmc_choice.

(** Adaptive asks for an instance that has the greatest score for some trade-off, with the smallest approximate error among
    all of these; an instance counts for a trade-off only if no score is NaN there, and with no candidate left it fails. *)
Theorem C74_adaptive_choice : forall scores order err, Permutation (order (candidates scores)) (candidates scores) ->
  let good k := (exists s, In s scores /\ best_at s k) /\ forall j, (exists s, In s scores /\ best_at s j) -> (err k <= err j)%Q in
  ((exists k s, In s scores /\ best_at s k) ->
     (forall draw, exists k, adaptive_ask scores order err draw = Ok k /\ good k) /\
     (forall k, good k -> exists draw, adaptive_ask scores order err draw = Ok k)) /\
  ((forall k s, In s scores -> ~ best_at s k) -> forall draw, adaptive_ask scores order err draw = Err ValueErr).
Proof. exact adaptive_lemma. Qed.
Print Assumptions C74_adaptive_choice.

Example C74_applies :
  (forall draw, mmc_ask [1; 3; 2; 3]%Q draw = Ok 1%nat \/ mmc_ask [1; 3; 2; 3]%Q draw = Ok 3%nat) /\
  adaptive_ask [[Num 1; Num 3; Num 2]; [Num 1; NaN; Num 5]; [Num 4; Num 4; Num 1]] (fun l => l)
               (fun k => nth k [1; 2; 0] 0)%Q 7 = Ok 0%nat.
Proof.
  split; [|reflexivity]. intro d. destruct (C74_mmc_choice [1; 3; 2; 3]%Q) as [C _]; [discriminate|]. destruct (C d) as (k & -> & Lk & Hk).
  cbn in Lk. destruct k as [|[|[|[|]]]]; auto; try lia; specialize (Hk 1%nat ltac:(cbn; lia)); vm_compute in Hk; now elim Hk.
Qed.

(** Binary relevance: one classifier per label; a label that is constant in the training data gets a constant
    classifier, whose probability of "present" is right for the values 0 and 1. *)
Theorem C74_binary_relevance : forall B (base : list B -> list Z -> clf B) X Y m j, (j < m)%nat ->
  exists c, nth_error (br_train base X Y m) j = Some c /\
  let col := map (fun r => nth j r 0) Y in
  ((forall v, Y <> [] -> (forall x, In x col -> x = v) ->
     (forall b, cpredict c b = v) /\ (v = 1 -> forall b, (cproba c b == 1)%Q) /\ (v = 0 -> forall b, (cproba c b == 0)%Q)) /\
   ((exists v w, In v col /\ In w col /\ v <> w) -> c = base X col)).
Proof.
  intros B base X Y m j Hj. unfold br_train. rewrite nth_error_map. unfold range.
  assert (E : nth_error (seq 0 m) j = Some j) by (rewrite (nth_error_nth' _ 0%nat) by (rewrite seq_length; lia); now rewrite seq_nth).
  rewrite E. cbn [option_map]. set (col := map (fun r => nth j r 0) Y). eexists. split; [reflexivity|]. cbn zeta. split.
  - intros v HY Hv. destruct col as [|a col'] eqn:Ec; [unfold col in Ec; apply map_eq_nil in Ec; contradiction|].
    assert (a = v) by (apply Hv; now left). subst a.
    assert (C : constant (v :: col') = true). { cbn. apply forallb_forall. intros x Hx. apply Z.eqb_eq. symmetry. apply Hv. now right. }
    rewrite C. cbn [hd]. split; [reflexivity|]. split; intros ->; reflexivity.
  - intros (v & w & Hv & Hw & N). destruct col as [|a col'] eqn:Ec; [destruct Hv|].
    destruct (constant (a :: col')) eqn:C; [|reflexivity]. exfalso. cbn in C. rewrite forallb_forall in C.
    assert (A : forall x, In x (a :: col') -> x = a). { intros x [<-|Hx]; auto. apply C, Z.eqb_eq in Hx. congruence. }
    apply N. rewrite (A v Hv), (A w Hw). reflexivity.
Qed.
Print Assumptions C74_binary_relevance.

(** With labels 1 and -1, a label that is never present in the training data gets probability 1 of being present. *)
Theorem C74_binary_relevance_refuted : forall B (base : list B -> list Z -> clf B) X Y m j, (j < m)%nat -> Y <> [] ->
  (forall r, In r Y -> nth j r 0 = -1) ->
  exists c, nth_error (br_train base X Y m) j = Some c /\ forall b, cpredict c b = -1 /\ (cproba c b == 1)%Q.
Proof.
  intros B base X Y m j Hj HY H. unfold br_train. rewrite nth_error_map. unfold range.
  assert (E : nth_error (seq 0 m) j = Some j) by (rewrite (nth_error_nth' _ 0%nat) by (rewrite seq_length; lia); now rewrite seq_nth).
  rewrite E. cbn [option_map]. set (col := map (fun r => nth j r 0) Y). eexists. split; [reflexivity|].
  assert (A : forall x, In x col -> x = -1). { intros x Hx. unfold col in Hx. apply in_map_iff in Hx. destruct Hx as (r & <- & Hr). auto. }
  destruct col as [|a col'] eqn:Ec; [unfold col in Ec; apply map_eq_nil in Ec; contradiction|].
  assert (a = -1) by (apply A; now left). subst a.
  assert (C : constant (-1 :: col') = true). { cbn. apply forallb_forall. intros x Hx. apply Z.eqb_eq. symmetry. apply A. now right. }
  rewrite C. intro b. split; reflexivity.
Qed.
Print Assumptions C74_binary_relevance_refuted.
