(** Proofs about the multi-label strategies: only the labels of the labelled pairs are read. *)
From Verif Require Import Base BaseFacts IndexModel MLModel MLSpec MLProofs MLProofs2 MiscModel QueryModel MLQueryModel NoisyModel OracleModel AuroModel
  BlindModel BlindSpec BlindProofs.
From Coq Require Import QArith.
Local Open Scope Z_scope.

Section Matrix.
  Context {A : Type}.
  Implicit Types y : list (list A).

  Lemma shape_length y y' : map (@length A) y = map (@length A) y' -> length y = length y'.
  Proof. intro H. rewrite <- (map_length (@length A) y), H. apply map_length. Qed.
  Lemma shape_nth y y' p : map (@length A) y = map (@length A) y' -> length (nth p y []) = length (nth p y' []).
  Proof.
    intro H. rewrite <- (map_nth (@length A) y [] p), <- (map_nth (@length A) y' [] p). now rewrite H.
  Qed.

  Lemma py_index_lt n i p : py_index n i = Some p -> (p < n)%nat.
  Proof.
    unfold py_index. destruct ((0 <=? i) && (i <? Z.of_nat n)) eqn:E; [intro H; injection H as <-; lia|].
    destruct ((- Z.of_nat n <=? i) && (i <? 0)) eqn:E2; [intro H; injection H as <-; lia|discriminate].
  Qed.
  Lemma label_at_index (l : list A) i p : py_index (length l) i = Some p -> label_at l i = nth_error l p.
  Proof.
    intro H. pose proof (label_at_py l i) as E. rewrite H in E. unfold py_nth in E.
    destruct (nth_error l p), (label_at l i); congruence.
  Qed.

  Lemma cell_row y i j p : py_index (length y) i = Some p -> 0 <= j -> cell_at y i j = nth_error (nth p y []) (Z.to_nat j).
  Proof.
    intros H Hj. unfold cell_at. pose proof (label_at_py y i) as E. rewrite H in E. unfold py_nth in E.
    pose proof (py_index_lt _ _ _ H). destruct (nth_error y p) as [r|] eqn:N; [|apply nth_error_None in N; lia].
    destruct (label_at y i) as [r'|]; [|discriminate]. injection E as <-. rewrite (nth_error_nth _ _ _ N).
    unfold label_at. now replace (j <? 0) with false by lia.
  Qed.

  (** One step of the extraction: the instances do not depend on the labels, the rows only on those of the pair. *)
  Lemma step_ids y y' m u (st st' : list (list A) * list Z) k : map (@length A) y = map (@length A) y' -> snd st = snd st' ->
    match glm_step y m u st k, glm_step y' m u st' k with
    | Ok a, Ok b => snd a = snd b
    | Err e, Err e' => e = e'
    | _, _ => False
    end.
  Proof.
    intros Sh E. unfold glm_step. rewrite (shape_length y y' Sh), E. destruct k; auto; cbv zeta.
    all: match goal with |- context [negb (?c)] => destruct (negb c); auto end.
    all: match goal with |- context [glm_labels ?mm ?k] => destruct (glm_labels mm k); cbn [bind]; auto end.
    all: match goal with |- context [py_index ?n ?i] => destruct (py_index n i); auto end.
    all: match goal with |- context [zindex ?i ?l] => destruct (zindex i l); cbn [snd]; congruence end.
  Qed.

  Lemma loop_ids y y' m u ks : map (@length A) y = map (@length A) y' -> forall st st', snd st = snd st' ->
    match glm_loop y m u st ks, glm_loop y' m u st' ks with
    | Ok a, Ok b => snd a = snd b
    | Err e, Err e' => e = e'
    | _, _ => False
    end.
  Proof.
    intro Sh. induction ks as [|k ks IH]; intros st st' E; cbn [glm_loop]; auto.
    pose proof (step_ids y y' m u st st' k Sh E) as S.
    destruct (glm_step y m u st k), (glm_step y' m u st' k); cbn [bind]; try contradiction; [apply IH; exact S|exact S].
  Qed.

  Lemma loop_same y y' m u l : Forall (is_pair_ok m) l ->
    map (@length A) y = map (@length A) y' -> (forall i j, In (IPair i j) l -> cell_at y i j = cell_at y' i j) ->
    forall st, glm_loop y m u st l = glm_loop y' m u st l.
  Proof.
    intros Fo Sh. induction Fo as [|k l Hk Fo IH]; intros H st; cbn [glm_loop]; auto.
    destruct k as [|i j| | |]; cbn in Hk; try contradiction.
    assert (E : glm_step y m u st (IPair i j) = glm_step y' m u st (IPair i j)).
    { unfold glm_step. rewrite (shape_length y y' Sh). cbv zeta. cbn [ins_of glm_labels].
      destruct (negb (i <? Z.of_nat (length y'))); auto.
      replace ((0 <=? j) && (j <? m)) with true by lia. cbn [bind].
      destruct (py_index (length y') i) as [p|] eqn:P; auto.
      assert (C : forall row, copy_cells (nth p y []) [j] row = copy_cells (nth p y' []) [j] row).
      { intro row. unfold copy_cells. cbn [fold_left]. specialize (H i j (or_introl eq_refl)).
        rewrite (cell_row y i j p) in H by (try rewrite (shape_length y y' Sh); auto; lia).
        rewrite (cell_row y' i j p) in H by (auto; lia). now rewrite H. }
      destruct (zindex i (snd st)); now rewrite C. }
    rewrite E. destruct (glm_step y' m u st (IPair i j)); cbn [bind]; auto. apply IH. intros; apply H; now right.
  Qed.
End Matrix.

Section Pairs.
  Context {B : Type}.
  Variables (X : list B) (y y' : list (list Q)) (m : nat) (l : mlic).
  Hypothesis G : good (Z.of_nat m) l.
  Hypothesis S : same_entries (pairs l) y y'.

  Lemma entries_in i j : In (IPair i j) (mcont l) -> cell_at y i j = cell_at y' i j.
  Proof. intro H. apply (proj2 S). now apply in_pairs. Qed.

  Lemma get_same u : get_Xy false (mcont l) X y (Z.of_nat m) u = get_Xy false (mcont l) X y' (Z.of_nat m) u.
  Proof.
    unfold get_Xy, get_labelmatrix. rewrite (shape_length y y' (proj1 S)).
    destruct (negb (Nat.eqb (length X) (length y'))); auto. cbn [bind].
    rewrite (loop_same y y' (Z.of_nat m) u (mcont l)); auto.
    - apply G.
    - apply S.
    - apply entries_in.
  Qed.

  (** What the unlabelled pairs contribute are their instances. *)
  Lemma get_ids un ks : match get_Xy false ks X y (Z.of_nat m) un, get_Xy false ks X y' (Z.of_nat m) un with
    | Ok a, Ok b => fst (fst a) = fst (fst b) /\ snd a = snd b
    | Err e, Err e' => e = e'
    | _, _ => False
    end.
  Proof.
    unfold get_Xy, get_labelmatrix. rewrite (shape_length y y' (proj1 S)).
    destruct (negb (Nat.eqb (length X) (length y'))); auto. cbn [bind].
    pose proof (loop_ids y y' (Z.of_nat m) un ks (proj1 S) ([], []) ([], []) eq_refl) as H.
    destruct (glm_loop y (Z.of_nat m) un ([], []) ks) as [a|], (glm_loop y' (Z.of_nat m) un ([], []) ks) as [b|]; try contradiction; cbn [bind]; auto.
    rewrite H. destruct (mapM _ (snd b)); cbn [bind]; auto.
  Qed.

  Lemma full_rows i : (forall r, In r y -> length r = m) -> (0 < m)%nat -> (forall j, 0 <= j < Z.of_nat m -> In (i, j) (pairs l)) -> label_at y i = label_at y' i.
  Proof.
    intros W M H. pose proof (label_at_py y i) as E. pose proof (label_at_py y' i) as E'.
    rewrite <- (shape_length y y' (proj1 S)) in E'.
    destruct (py_index (length y) i) as [p|] eqn:P.
    2:{ destruct (label_at y i), (label_at y' i); congruence. }
    pose proof (py_index_lt _ _ _ P) as Lp. pose proof Lp as Ly.
    rewrite (label_at_index y i p P). rewrite (shape_length y y' (proj1 S)) in P, Lp. rewrite (label_at_index y' i p P).
    rewrite (nth_error_nth' y [] Ly), (nth_error_nth' y' [] Lp). f_equal.
    assert (Hl : length (nth p y []) = m). { apply W, nth_In, Ly. }
    apply nth_ext with (d := 0%Q) (d' := 0%Q); [apply shape_nth, S|]. intros q Hq.
    assert (C : cell_at y i (Z.of_nat q) = cell_at y' i (Z.of_nat q)). { apply (proj2 S), H. lia. }
    rewrite (cell_row y i (Z.of_nat q) p), (cell_row y' i (Z.of_nat q) p) in C by (try rewrite (shape_length y y' (proj1 S)); auto; lia).
    rewrite Nat2Z.id in C.
    destruct (nth_error (nth p y []) q) as [v|] eqn:V; [|apply nth_error_None in V; lia].
    rewrite (nth_error_nth _ _ _ V). symmetry. apply nth_error_nth. now symmetry.
  Qed.
End Pairs.

Lemma audi_same {B M} argsort (fit : list B -> list (list Q) -> res M) scores X y y' m L U model eps l :
  check_ml_ind (Z.of_nat (length y)) (Z.of_nat m) L = Ok l -> ml_reachable (Z.of_nat m) l -> (forall r, In r y -> length r = m) ->
  same_entries (pairs l) y y' ->
  audi_select argsort fit scores X y m L U model eps = audi_select argsort fit scores X y' m L U model eps.
Proof.
  intros HL R W S. pose proof (reachable_good _ _ R) as G. pose proof G as (_ & _ & Hm & _).
  unfold audi_select. rewrite <- (shape_length y y' (proj1 S)). cbv zeta.
  destruct (ml_pool_len U <=? 1)%nat; auto.
  destruct (check_ml_ind (Z.of_nat (length y)) (Z.of_nat m) U) as [u|]; cbn [bind]; auto. rewrite HL. cbn [bind].
  pose proof (get_ids X y y' m l S 0%Q (mcont u)) as I0.
  destruct (get_Xy false (mcont u) X y (Z.of_nat m) 0%Q) as [a|], (get_Xy false (mcont u) X y' (Z.of_nat m) 0%Q) as [b|]; try contradiction; cbn [bind]; [|congruence].
  destruct I0 as (I1 & I2). rewrite I1, I2, (get_same X y y' m l G S).
  destruct (ml_mask u (length y) m 1 false); cbn [bind]; auto.
  destruct (match model with LRTrained t => Ok t | _ => ld <- get_Xy false (mcont l) X y' (Z.of_nat m) 0%Q;; fit (fst (fst ld)) (snd (fst ld)) end); cbn [bind]; auto.
  destruct (lr_predict (fst (scores a1 (fst (fst b)))) (snd (scores a1 (fst (fst b))))); cbn [bind]; auto.
  destruct (instances_lemma _ _ R) as (full & br & Ef & _ & Hf & _). rewrite Ef. cbn [bind].
  assert (E : average_positive y full = average_positive y' full).
  { unfold average_positive. rewrite (mapM_ext (row_of y) (row_of y') full); auto.
    intros i Hi. unfold row_of. rewrite !label_at_py. rewrite (full_rows y y' m l S i W ltac:(lia) (proj1 (Hf i) Hi)). reflexivity. }
  now rewrite E.
Qed.

Lemma auro_same {B M} argsort (fit : option M -> list B -> list (list Q) -> res M) scores X y y' m st L U model y_mat l :
  check_ml_ind (Z.of_nat (length y)) (Z.of_nat m) L = Ok l -> ml_reachable (Z.of_nat m) l -> same_entries (pairs l) y y' ->
  auro_select argsort fit scores X y m st L U model y_mat = auro_select argsort fit scores X y' m st L U model y_mat.
Proof.
  intros HL R S. pose proof (reachable_good _ _ R) as G.
  unfold auro_select. rewrite <- (shape_length y y' (proj1 S)). cbv zeta. rewrite HL.
  destruct (ml_pool_len U <=? 1)%nat; auto.
  destruct (check_ml_ind (Z.of_nat (length y)) (Z.of_nat m) U) as [u|]; cbn [bind]; auto.
  destruct (ml_mask u (length y) m 1 false) as [W|]; cbn [bind]; auto.
  destruct (mapM (py_nth X) (filter (fun a => 1 <? AuroModel.zsum (nth a W [])) (range (length y)))) as [data|]; cbn [bind]; auto.
  assert (E : get_Xy false (mcont l) X (match model, y_mat with None, Some ym => ym | _, _ => y end) (Z.of_nat m) 0%Q =
              get_Xy false (mcont l) X (match model, y_mat with None, Some ym => ym | _, _ => y' end) (Z.of_nat m) 0%Q).
  { destruct model, y_mat; auto; apply (get_same X y y' m l G S). }
  now rewrite E.
Qed.

Lemma quire_ml_same pinv K y y' m L U l :
  check_ml_ind (Z.of_nat (length y)) (Z.of_nat m) L = Ok l -> ml_reachable (Z.of_nat m) l -> same_entries (pairs l) y y' ->
  quire_ml pinv K y m L U = quire_ml pinv K y' m L U.
Proof.
  intros HL R S. pose proof (reachable_good _ _ R) as (_ & _ & _ & Fo & _).
  unfold quire_ml. rewrite <- (shape_length y y' (proj1 S)). cbv zeta. rewrite HL.
  destruct (ml_pool_len U <=? 1)%nat; auto.
  destruct (check_ml_ind (Z.of_nat (length y)) (Z.of_nat m) U) as [u|]; cbn [bind]; auto.
  destruct (ml_onedim u OrdF (Some (Z.of_nat (length y)))); cbn [bind]; auto.
  destruct (ml_onedim l OrdF (Some (Z.of_nat (length y)))); cbn [bind]; auto.
  match goal with |- bind (mapM ?f _) _ = bind (mapM ?g _) _ => rewrite (mapM_ext f g (mcont l)); auto end.
  intros x Hx. rewrite Forall_forall in Fo. specialize (Fo x Hx). destruct x as [|i j| | |]; cbn in Fo; try contradiction.
  apply in_pairs in Hx. pose proof (proj2 S i j Hx) as C. unfold row_of. rewrite !label_at_py. unfold cell_at in C.
  pose proof (label_at_py y i) as E. pose proof (label_at_py y' i) as E'. rewrite <- (shape_length y y' (proj1 S)) in E'.
  destruct (py_index (length y) i) as [p|] eqn:P.
  - pose proof (py_index_lt _ _ _ P) as Lp. pose proof Lp as Lp'. rewrite (shape_length y y' (proj1 S)) in Lp'.
    unfold py_nth in E, E'. rewrite (nth_error_nth' y [] Lp) in E. rewrite (nth_error_nth' y' [] Lp') in E'.
    destruct (label_at y i) as [r|]; [|discriminate]. destruct (label_at y' i) as [r'|]; [|discriminate]. cbn [bind].
    rewrite !label_at_py. now rewrite C.
  - destruct (label_at y i), (label_at y' i); try discriminate. reflexivity.
Qed.

(** ** Hierarchical *)
Lemma label_nat {A} (y : list A) i : label_at y (Z.of_nat i) = nth_error y i.
Proof. unfold label_at. destruct (Z.ltb_spec (Z.of_nat i) 0); [lia|]. now rewrite Nat2Z.id. Qed.
Section Hier.
  Context {F C : Type}.
  Variable train : list F -> list Z -> C.
  Variable answer : C -> F -> Z.
  Variables (X : list F) (y y' : list (list Z)).

  Definition entry_same (i j : nat) : Prop := (r <- py_nth y i ;; py_nth r j) = (r <- py_nth y' i ;; py_nth r j).

  Lemma entry_cell i j : length y = length y' -> cell_at y (Z.of_nat i) (Z.of_nat j) = cell_at y' (Z.of_nat i) (Z.of_nat j) -> entry_same i j.
  Proof.
    intros Hl H. unfold entry_same, py_nth. unfold cell_at in H. rewrite !label_nat in H.
    destruct (nth_error y i) as [r|] eqn:E, (nth_error y' i) as [r'|] eqn:E'; cbn [bind]; auto.
    - rewrite !label_nat in H. now rewrite H.
    - apply nth_error_None in E'. assert (H0 : nth_error y i <> None) by congruence. apply nth_error_Some in H0. lia.
    - apply nth_error_None in E. assert (H0 : nth_error y' i <> None) by congruence. apply nth_error_Some in H0. lia.
  Qed.

  Lemma class_same mask j : (forall i, (i < length mask)%nat -> nth j (nth i mask []) 0 <> 0 -> entry_same i j) ->
    class_model train X y mask j = class_model train X y' mask j.
  Proof.
    intro H. unfold class_model. cbv zeta. destruct (mapM (py_nth X) _); cbn [bind]; auto. f_equal. apply mapM_ext.
    intros i Hi. apply filter_In in Hi. destruct Hi as (Hi & N). unfold range in Hi. apply in_seq in Hi. apply H; lia.
  Qed.

  Lemma relevance_same mask near j models : (forall i, nth j (nth i mask []) 0 = 1 -> entry_same i j) ->
    relevance answer X y mask near j models = relevance answer X y' mask near j models.
  Proof.
    intro H. unfold relevance. f_equal. apply mapM_ext. intros i _.
    destruct (nth j (nth i mask []) 0 =? 1) eqn:E; auto. apply Z.eqb_eq in E. specialize (H i E). unfold entry_same in H.
    destruct (py_nth y i) as [r|], (py_nth y' i) as [r'|]; cbn [bind] in *;
      [now rewrite H | rewrite H; reflexivity | rewrite <- H; reflexivity | congruence].
  Qed.
End Hier.

(** ** CEAL *)
Definition with_y (s : ceal) (y : list key) : ceal := {| c_y := y; c_names := c_names s; c_ini := c_ini s; c_knn := c_knn s |}.

Lemma ceal_same np s y' c L U cols p n e : length (c_y s) = length y' ->
  (forall i, In i (c_ini s) -> nth_error (c_y s) (Z.to_nat i) = nth_error y' (Z.to_nat i)) ->
  ceal_select np (with_y s y') c L U cols p n e = ceal_select np s c L U cols p n e.
Proof.
  intros Hl H. unfold ceal_select, ceal_by_mat. cbv zeta. cbn [with_y c_ini c_names].
  destruct (length U <=? 1)%nat; auto. f_equal.
  unfold q_columns. destruct (mapM (least_confident_score np cols) p); cbn [bind]; auto.
  apply mapM_ext. intros (q & x) _. cbn [fst snd]. destruct (py_nth a q); cbn [bind]; auto.
  unfold q_column. match goal with |- bind ?g _ = _ => destruct g; cbn [bind]; auto end.
  cbn [with_y c_knn]. apply mapM_ext. intros name _. destruct (member c name) as [o|]; cbn [bind]; auto.
  match goal with |- bind (expertise _ o ?nn ?k) _ = _ =>
    assert (E : expertise (with_y s y') o nn k = expertise s o nn k) end.
  { unfold expertise. cbn [with_y c_ini c_y].
    match goal with |- bind ?g _ = _ => destruct g as [ids|] eqn:Ei; cbn [bind]; auto end.
    match goal with |- bind ?g _ = _ => destruct g as [r|]; cbn [bind]; auto end.
    match goal with |- bind (mapM ?f ?l) _ = bind (mapM ?g ?l) _ => rewrite (mapM_ext f g l); auto end.
    intros (lab & i) Hi. apply in_combine_r in Hi. cbn [fst snd]. unfold is_right.
    destruct (mapM_elem _ _ _ _ Ei Hi) as (nn0 & _ & En). unfold py_nth in En.
    destruct (nth_error (c_ini s) (fst nn0)) as [i0|] eqn:N; [|discriminate]. injection En as ->. apply nth_error_In in N.
    unfold py_nth. now rewrite (H i N). }
  now rewrite E.
Qed.
