(** C103: a selection does not depend on the labels of the unlabelled data, and where it does. *)
From Verif Require Import Base BaseFacts IndexModel MLModel MLSpec MLProofs MLProofs2 MiscModel QueryModel MLQueryModel BatchModel LalModel
  QuireModel NoisyModel OracleModel AuroModel BlindModel BlindSpec BlindProofs BlindProofs2.
From Coq Require Import QArith.
Local Open Scope Z_scope.

(** Uncertainty sampling, whatever the model does with the rows and labels it is trained on. *)
Theorem C103_uncertainty : forall F M np (k : learner F M) X y y' m given L U b,
  same_labels L y y' ->
  uncertainty_select np k X y m given L U b = uncertainty_select np k X y' m given L U b.
Proof. intros. now apply uncertainty_same. Qed.
Print Assumptions C103_uncertainty.

(** Query by committee. *)
Theorem C103_committee : forall F M np (k : learner F M) X y y' kl cols given L U b,
  same_labels L y y' ->
  committee_select np k X y kl cols given L U b = committee_select np k X y' kl cols given L U b.
Proof. intros. now apply committee_same. Qed.
Print Assumptions C103_committee.

(** Expected error reduction also reads which labels occur anywhere. *)
Theorem C103_error_reduction : forall F M np (k : learner F M) X y y' logloss given L U b,
  same_labels L y y' -> same_classes y y' ->
  reduction_select np k X y logloss given L U b = reduction_select np k X y' logloss given L U b.
Proof. intros. now apply reduction_same. Qed.
Print Assumptions C103_error_reduction.

(** A learner for the examples: trained on labels it remembers the last one. Untrained it answers the feature itself. *)
Definition ex_learner : learner Q Z :=
  {| fit := fun _ _ => Ok 5;
     refit := fun _ _ ys => Ok (last ys 0);
     bag := fun _ _ ys => Ok [last ys 0; hd 0 ys];
     outputs := fun _ xs => Mat 2 (map (fun x => [x; 1 - x]%Q) xs);
     proba := fun m xs => if m =? 5 then map (fun x => [x; 1 - x]%Q) xs
                          else [[if m =? 0 then 2 else if m =? 1 then 1 else 10]]%Q;
     classify := fun m xs => map (fun x => if Qle_bool x (1 # 2) then m else 1 - m) xs |}.
Definition ex_np : numpy :=
  {| argsort := fun s => match s with [a; b] => if Qle_bool a b then [0; 1]%nat else [1; 0]%nat | _ => range (length s) end;
     partition := fun _ r => r; log := fun x => x |}.
Definition ex_loss (p : list (list Q)) : Q := hd 0%Q (hd [] p).

(** The two labelled instances keep their labels; the unlabelled ones are labelled, or marked with -1. *)
Theorem C103_error_reduction_refuted :
  exists F M np (k : learner F M) X y y' logloss given L U b,
    same_labels L y y' /\
    reduction_select np k X y logloss given L U b = Ok [2] /\ reduction_select np k X y' logloss given L U b = Ok [3].
Proof.
  exists Q, Z, ex_np, ex_learner, [0; 0; 1 # 4; 3 # 4]%Q, [0; 1; 0; 1], [0; 1; -1; -1], ex_loss, None, [0; 1], [2; 3], 1.
  split; [|split; vm_compute; reflexivity].
  split; auto. intros i [<-|[<-|[]]]; reflexivity.
Qed.
Print Assumptions C103_error_reduction_refuted.

(** Error reduction uses every label in the array, known or not, as the number of a column of the prediction: if one is not,
    nothing is selected. *)
Theorem C103_error_reduction_columns : forall F M np (k : learner F M) X y logloss given L U b mo ux row c,
  0 < b < Z.of_nat (length U) ->
  the_model k X y given L = Ok mo -> rows X U = Ok ux -> nth_error (proba k mo ux) 0 = Some row ->
  In c y -> ~ (- Z.of_nat (length row) <= c < Z.of_nat (length row)) ->
  forall sel, reduction_select np k X y logloss given L U b <> Ok sel.
Proof.
  intros F M np k X y ll given L U b mo ux row c Hb Hm Hu Hr Hc N sel E. apply N.
  eapply reduction_columns; eauto. lia.
Qed.
Print Assumptions C103_error_reduction_columns.

(** Learning active learning, once the object is made. *)
Theorem C103_learned : forall F np (X : list F) y y' dim std forest_fit o L U b,
  length X = length y -> same_labels L y y' ->
  lal_select np (lal_data X y dim std forest_fit) o L U b = lal_select np (lal_data X y' dim std forest_fit) o L U b.
Proof. intros. now apply lal_same. Qed.
Print Assumptions C103_learned.

(** BMDR and SPAL: the objects are made from the two arrays, and the labelled instances show both classes. *)
Theorem C103_batch_mode : forall np num s K y y' ys ys' L i j a b,
  same_labels L y y' -> signed_labels y = Ok ys -> signed_labels y' = Ok ys' ->
  In i L -> In j L -> label_at y i = Some a -> label_at y j = Some b -> a <> b ->
  (forall beta gamma rho U size,
     bmdr_select np num s K ys beta gamma rho L U size = bmdr_select np num s K ys' beta gamma rho L U size) /\
  (forall mu gamma rho lam U size,
     spal_select np num s K ys mu gamma rho lam L U size = spal_select np num s K ys' mu gamma rho lam L U size).
Proof.
  intros np num s K y y' ys ys' L i j a b H S S' Hi Hj A B N.
  pose proof (signed_same y y' ys ys' L i j a b H S S' Hi Hj A B N) as H'.
  split; intros; [now apply bmdr_same | now apply spal_same].
Qed.
Print Assumptions C103_batch_mode.

(** BMDR, SPAL and LAL cannot be made when the array holds a third value, also if only an unlabelled instance has it. *)
Theorem C103_marked_refuted : forall y a b c builtin n k t d m slt net is_dir,
  In a y -> In b y -> In c y -> a <> b -> b <> c -> a <> c ->
  new_batch builtin n y k = Err ValueErr /\
  lal_new t (length (unique_labels y)) is_dir m slt net d = (d, 0%nat, Err ValueErr).
Proof.
  intros y a b c builtin n k t d m slt net is_dir Ha Hb Hc N1 N2 N3.
  destruct (three_classes y a b c Ha Hb Hc N1 N2 N3) as (E & L). split.
  - unfold new_batch. now rewrite E.
  - unfold lal_new. replace (Nat.eqb (length (unique_labels y)) 2) with false; auto. symmetry. apply Nat.eqb_neq. lia.
Qed.
Print Assumptions C103_marked_refuted.

(** QUIRE: [y] and [y'] are the labels of the training instances, in the order of [train]. *)
Theorem C103_quire : forall inv det odd K lam y y' train L U,
  (forall i p, In i L -> nth_error train p = Some i -> nth_error y p = nth_error y' p) ->
  quire_query inv det odd (quire_new inv K lam y) train L U = quire_query inv det odd (quire_new inv K lam y') train L U.
Proof. intros. now apply quire_same. Qed.
Print Assumptions C103_quire.

(** Multi-label strategies that query pairs: the labels of the other pairs are free, also those of a labelled instance. *)
Theorem C103_pairs : forall B M argsort X y y' m L l,
  check_ml_ind (Z.of_nat (length y)) (Z.of_nat m) L = Ok l -> ml_reachable (Z.of_nat m) l ->
  (forall r, In r y -> length r = m) -> same_entries (pairs l) y y' ->
  (forall (fit : list B -> list (list Q) -> res M) scores U model eps,
     audi_select argsort fit scores X y m L U model eps = audi_select argsort fit scores X y' m L U model eps) /\
  (forall (fit : option M -> list B -> list (list Q) -> res M) scores st U model y_mat,
     auro_select argsort fit scores X y m st L U model y_mat = auro_select argsort fit scores X y' m st L U model y_mat) /\
  (forall pinv K U, quire_ml pinv K y m L U = quire_ml pinv K y' m L U).
Proof.
  intros B M argsort X y y' m L l HL R W S. split; [|split]; intros.
  - eapply audi_same; eauto.
  - eapply auro_same; eauto.
  - eapply quire_ml_same; eauto.
Qed.
Print Assumptions C103_pairs.

(** Adaptive. *)
Theorem C103_adaptive : forall F (base : list F -> list Z -> clf F) X y y' m real blend betas set_order L U draw,
  same_labels L y y' ->
  adaptive_sequential base X y m real blend betas set_order L U draw = adaptive_sequential base X y' m real blend betas set_order L U draw.
Proof. intros. now apply adaptive_same. Qed.
Print Assumptions C103_adaptive.

(** MMC also reads whether all instances, known or not, have equally many labels. *)
Theorem C103_mmc : forall F order (base : list F -> list Z -> clf F) count_fit X y y' m L U draw,
  same_labels L y y' -> (one_size y <-> one_size y') ->
  mmc_sequential order base count_fit X y m L U draw = mmc_sequential order base count_fit X y' m L U draw.
Proof. intros. now apply mmc_same. Qed.
Print Assumptions C103_mmc.

(** With a regression that refuses a single class: the labelled instances all have [s] labels.  If some unlabelled one has
    another number, the call fails, although that number is not known. *)
Theorem C103_mmc_refuted : forall F order (base : list F -> list Z -> clf F) count_fit X y m L U draw lx ux ly s,
  (forall rows sums, (forall v, In v sums -> v = s) -> count_fit rows sums = Err ValueErr) ->
  (2 <= length U)%nat -> rows X L = Ok lx -> rows X U = Ok ux -> rows y L = Ok ly ->
  (forall r, In r ly -> fold_right Z.add 0 r = s) -> ~ one_size y ->
  mmc_sequential order base count_fit X y m L U draw = Err ValueErr.
Proof.
  intros F order base cf X y m L U draw lx ux ly s R HU El Eu Ey H N. unfold mmc_sequential.
  rewrite (proj2 (Nat.leb_gt (length U) 1) HU), El, Eu, Ey. cbn [bind]. cbv zeta.
  unfold count_model. rewrite one_size_unique in N. apply Nat.eqb_neq in N. rewrite N, R; auto.
  intros v Hv. apply in_map_iff in Hv. destruct Hv as (r & <- & Hr). exact (H r Hr).
Qed.
Print Assumptions C103_mmc_refuted.

(** The hierarchical and the performance strategy: the model of a class and the vote of the neighbours, for a mask that is 1
    for labelled pairs and 0 for others. *)
Theorem C103_hierarchical : forall F C (train : list F -> list Z -> C) (answer : C -> F -> Z) X y y' mask j,
  length y = length y' ->
  (forall i, nth j (nth i mask []) 0 <> 0 -> cell_at y (Z.of_nat i) (Z.of_nat j) = cell_at y' (Z.of_nat i) (Z.of_nat j)) ->
  class_model train X y mask j = class_model train X y' mask j /\
  (forall near models, relevance answer X y mask near j models = relevance answer X y' mask near j models).
Proof.
  intros F C train answer X y y' mask j Hl H. split; intros.
  - apply class_same. intros i _ N. apply entry_cell; auto.
  - apply relevance_same. intros i E. apply entry_cell; auto. apply H. lia.
Qed.
Print Assumptions C103_hierarchical.

(** CEAL: only the labels of the initial labelled instances are compared with the answers of the oracles. *)
Theorem C103_ceal : forall np names ini knn y y' c L U cols p n e,
  same_labels ini y y' -> (forall i, In i ini -> 0 <= i) ->
  ceal_select np {| c_y := y; c_names := names; c_ini := ini; c_knn := knn |} c L U cols p n e =
  ceal_select np {| c_y := y'; c_names := names; c_ini := ini; c_knn := knn |} c L U cols p n e.
Proof.
  intros np names ini knn y y' c L U cols p n e (Hl & H) N. symmetry.
  apply (ceal_same np {| c_y := y; c_names := names; c_ini := ini; c_knn := knn |} y' c L U cols p n e Hl).
  intros i Hi. cbn [c_y c_ini] in *. specialize (H i Hi). unfold label_at in H.
  specialize (N i Hi). now replace (i <? 0) with false in H by lia.
Qed.
Print Assumptions C103_ceal.

(** ** The hypotheses are met *)
Example C103_case :
  same_labels [0; 1] [0; 1; 0; 1] [0; 1; 7; -3] /\ [0; 1; 0; 1] <> [0; 1; 7; -3] /\
  uncertainty_select ex_np ex_learner [0; 0; 1 # 4; 3 # 4]%Q [0; 1; 7; -3] LeastConfident None [0; 1] [2; 3] 1 = Ok [3] /\
  committee_select ex_np ex_learner [0; 0; 1 # 4; 3 # 4]%Q [0; 1; 7; -3] false 2 None [0; 1] [2; 3] 1 = Ok [3].
Proof.
  split; [split; auto; intros i [<-|[<-|[]]]; reflexivity|]. split; [discriminate|]. split; vm_compute; reflexivity.
Qed.

(** The labels of the pool decide whether MMC answers. *)
Definition ex_base (xs : list Q) (ys : list Z) : clf Q := {| cpredict := fun _ => 1; cproba := fun x => x |}.
Definition ex_count (rows : list (list Q)) (sums : list Z) : res (list Q -> Z) :=
  match sums with s :: ss => if forallb (Z.eqb s) ss then Err ValueErr else Ok (fun _ => s) | [] => Err ValueErr end.
Example C103_mmc_case :
  let X := [1 # 4; 3 # 4; 1 # 3; 1 # 5]%Q in
  let y := [[1; 0]; [0; 1]; [0; 1]; [1; 0]] in
  let y' := [[1; 0]; [0; 1]; [1; 1]; [1; 0]] in
  same_labels [0; 1] y y' /\ one_size y /\ ~ one_size y' /\
  mmc_sequential (fun r => rev (range (length r))) ex_base ex_count X y 2 [0; 1] [2; 3] 0 = Ok [2] /\
  mmc_sequential (fun r => rev (range (length r))) ex_base ex_count X y' 2 [0; 1] [2; 3] 0 = Err ValueErr.
Proof.
  cbv zeta. split; [split; auto; intros i [<-|[<-|[]]]; reflexivity|].
  split; [exists 1; split; [discriminate|intros r [<-|[<-|[<-|[<-|[]]]]]; reflexivity]|].
  split; [rewrite one_size_unique; vm_compute; discriminate|].
  split; vm_compute; reflexivity.
Qed.

(** Two label matrices that agree on the labelled pairs, for the strategies that query pairs. *)
Example C103_pairs_case :
  exists l, check_ml_ind 2 2 (MPList [IOne 0; IPair 1 0]) = Ok l /\ ml_reachable 2 l /\
    same_entries (pairs l) [[1; 0]; [1; 1]]%Q [[1; 0]; [1; 5]]%Q.
Proof.
  eexists. split; [vm_compute; reflexivity|]. split.
  - eapply (mr_list 2 [IOne 0; IPair 1 0] (Some 2)); [discriminate|vm_compute; reflexivity|reflexivity].
  - split; [reflexivity|]. cbn. intros i j [H|[H|[H|[]]]]; injection H as <- <-; reflexivity.
Qed.

(** Arrays from which BMDR and SPAL can be made, with other labels of the unlabelled instances. *)
Example C103_batch_case :
  signed_labels [0; 1; 0; 1] = Ok [1; -1; 1; -1] /\ signed_labels [0; 1; 1; 0] = Ok [1; -1; -1; 1] /\
  same_labels [0; 1] [0; 1; 0; 1] [0; 1; 1; 0] /\ signed_labels [0; 1; -1; -1] = Err ValueErr.
Proof.
  split; [reflexivity|]. split; [reflexivity|]. split; [|reflexivity].
  split; auto. intros i [<-|[<-|[]]]; reflexivity.
Qed.
