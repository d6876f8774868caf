(** Model of what the selection methods do with the label array: the training of the model inside [select] of
    QueryInstanceUncertainty, QueryInstanceQBC and QueryExpectedErrorReduction (query_strategy/query_labels.py 115-169,
    377-439, 653-713), of MMC and Adaptive (query_strategy/multi_label.py 857-922, 1022-1109), and of the hierarchical
    strategy (query_strategy/cost_sensitive.py 290-337).  The choice from the scores is that of QueryModel and MLQueryModel.

    Simplifications: numbers are exact rationals; labels and indexes are integers; what training and a trained model return
    are arguments, any function of the rows and labels they are given, and the draws of a random learner are part of that
    function. *)
From Verif Require Import Base IndexModel MLModel MiscModel QueryModel MLQueryModel BatchModel LalModel.
From Coq Require Import QArith Qabs.
Local Open Scope Z_scope.

(** [a[index]] for an array and integers, negative ones counting from the end *)
Definition rows {A} (a : list A) (index : list Z) : res (list A) :=
  mapM (fun i => match py_index (length a) i with Some p => py_nth a p | None => Err IndexErr end) index.

(** A kind of classifier: [fit] trains the default model, [refit] trains a copy of the given one, [bag] the members of a
    bagging ensemble of the given one; what a trained model answers for rows. *)
Record learner (F M : Type) := {
  fit : list F -> list Z -> res M;
  refit : M -> list F -> list Z -> res M;
  bag : M -> list F -> list Z -> res (list M);
  outputs : M -> list F -> arr;
  proba : M -> list F -> list (list Q);
  classify : M -> list F -> list Z }.
Arguments fit {F M} _ _ _. Arguments refit {F M} _ _ _ _. Arguments bag {F M} _ _ _ _.
Arguments outputs {F M} _ _ _. Arguments proba {F M} _ _ _. Arguments classify {F M} _ _ _.

Section Instances.
  Context {F M : Type}.
  Variable np : numpy.
  Variable k : learner F M.
  Variables (X : list F) (y : list Z).

  (** 148-151, 414-417, 687-690: the model given, or one trained on the labelled instances *)
  Definition the_model (given : option M) (L : list Z) : res M :=
    match given with
    | Some m => Ok m
    | None => xs <- rows X L ;; ys <- rows y L ;; fit k xs ys
    end.

  (** 115-169; [outputs] is what [predict_proba] or [decision_function] returns. *)
  Definition uncertainty_select (m : measure) (given : option M) (L U : list Z) (batch : Z) : res (list Z) :=
    _ <- guard (0 <? batch) AssertErr ;;                                    (* 138 *)
    if Z.of_nat (length U) <=? batch then Ok U                              (* 141-142 *)
    else
      mo <- the_model given L ;;
      ux <- rows X U ;;                                                     (* 152 *)
      snd (select_by_prediction_mat np m U (outputs k mo ux) batch).        (* 154-169 *)

  (** 377-439; [kl] asks for the measure KL_divergence. *)
  Definition committee_select (kl : bool) (cols : nat) (given : option M) (L U : list Z) (batch : Z) : res (list Z) :=
    _ <- guard (0 <? batch) AssertErr ;;                                    (* 403 *)
    if Z.of_nat (length U) <=? batch then Ok U                              (* 408-409 *)
    else
      mo <- the_model given L ;;
      ux <- rows X U ;; lx <- rows X L ;; ly <- rows y L ;;                 (* 419-421 *)
      est <- bag k mo lx ly ;;                                              (* 425-432 *)
      select_largest np U
        (if kl then kl_divergence np cols (map (fun e => proba k e ux) est)
         else vote_entropy np (map (fun e => classify k e ux) est)) batch.  (* 435-439 *)

  (** 698-711: the score of the candidate at position [i] *)
  Definition reduction (logloss : list (list Q) -> Q) (mo : M) (pv : list (list Q)) (L U : list Z) (ly : list Z) (classes : list Z) (i : nat) : res Q :=
    ui <- py_nth U i ;;
    xs <- rows X (L ++ [ui]) ;;                                             (* 700-701 *)
    rest <- rows X (firstn i U ++ skipn (S i) U) ;;                         (* 702-704 *)
    terms <- mapM (fun c =>
               new <- refit k mo xs (ly ++ [c]) ;;                          (* 707-708 *)
               let loss := logloss (proba k new rest) in                    (* 709 *)
               row <- py_nth pv i ;;
               match py_index (length row) c with                           (* 710 *)
               | None => Err IndexErr
               | Some j => p <- py_nth row j ;; Ok (p * loss)%Q
               end) classes ;;
    Ok (qsum terms).                                                        (* 711 *)

  (** 653-713 *)
  Definition reduction_select (logloss : list (list Q) -> Q) (given : option M) (L U : list Z) (batch : Z) : res (list Z) :=
    _ <- guard (0 <? batch) AssertErr ;;                                    (* 676 *)
    if Z.of_nat (length U) <=? batch then Ok U                              (* 681-682 *)
    else
      mo <- the_model given L ;;
      ux <- rows X U ;; ly <- rows y L ;;                                   (* 692-693 *)
      let classes := unique_labels y in                                     (* 696 *)
      let pv := proba k mo ux in                                            (* 697 *)
      select_smallest np U (mapM (reduction logloss mo pv L U ly classes) (range (length pv))) batch.
End Instances.

Section MultiLabel.
  Context {F : Type}.
  (** [order row] is [np.argsort(row)[::-1]]. [base] trains a classifier for a label, whose answers are in MLQueryModel.clf. *)
  Variable order : list Q -> list nat.
  Variable base : list F -> list Z -> clf F.
  (** The logistic regression for the number of labels: trained, it answers for a row.  scikit-learn refuses a single class. *)
  Variable count_fit : list (list Q) -> list Z -> res (list Q -> Z).
  Variables (X : list F) (y : list (list Z)) (m : nat).

  Definition probs (cs : list (clf F)) (x : F) : list Q := map (fun c => cproba c x) cs.
  (** 902-903, 911-912: sorted downwards and divided by the sum; a sum of zero, which gives NaN, is read as giving zeros *)
  Definition profile (p : list Q) : list Q := let s := qsum p in map (fun a => nth a p 0 / s)%Q (order p).

  (** 904-909 of multi_label.py: which regression predicts the number of labels *)
  Definition count_model (trnf : list (list Q)) (sums : list Z) : res (list Q -> Z) :=
    if Nat.eqb (length (unique_labels (map zsum y))) 1 then                 (* 904 *)
      c <- py_nth sums 0 ;; Ok (fun _ => c)                                 (* 905, 628, 636 *)
    else count_fit trnf sums.                                               (* 907-908 *)

  (** 857-922 after the conversion of the arguments *)
  Definition mmc_sequential (L U : list Z) (draw : nat) : res (list Z) :=
    if (length U <=? 1)%nat then Ok U                                       (* 889-890 *)
    else
      lx <- rows X L ;; ux <- rows X U ;; ly <- rows y L ;;                 (* 892-893, 896 *)
      let cs := br_train base lx ly m in
      lr <- count_model (map (fun x => profile (probs cs x)) lx) (map zsum ly) ;;
      let scores := map (fun x => let p := probs cs x in mmc_score p (order p) (lr (profile p))) ux in
      a <- mmc_ask scores draw ;;                                           (* 919-920 *)
      u <- py_nth U a ;; Ok [u].                                            (* 922 *)

  (** ** Adaptive, 1022-1109.  [real] are the values of [predict_real] and [blend b u c] is [u ** b * c ** (1 - b)]. *)
  Variable real : clf F -> F -> Q.
  Variable blend : Q -> fl -> Q -> fl.

  (** 1064-1068 *)
  Definition separation (r : list Q) : fl :=
    fl_sub (fl_min (map (fun v => if Qle_bool v 0 then Inf false else Num v) r))
           (fl_max (map (fun v => if Qle_bool 0 v then Inf true else Num v) r)).
  (** 1069 *)
  Definition inverse (a : fl) : fl := match a with Num q => fdiv 1 q | Inf _ => Num 0 | NaN => NaN end.
  (** 1072-1073 *)
  Definition average_labels (ly : list (list Z)) : Q :=
    qsum (map (fun j => qsum (map (fun r => inject_Z (nth j r 0%Z)) ly) / of_nat (length ly))%Q (range m)).
  (** 1092-1103: [np.max] of [1 - pos] and of [1 + neg], not below zero *)
  Definition hinge (r : list Q) : Q :=
    let worst f := fold_right qmax 0%Q (map f r) in
    (worst (fun v => 1 + (if Qle_bool v 0 then v else -1)) + worst (fun v => 1 - (if Qle_bool 0 v then v else 1)))%Q.

  Definition adaptive_sequential (betas : list Q) (set_order : list nat -> list nat) (L U : list Z) (draw : nat) : res (list Z) :=
    if (length U <=? 1)%nat then Ok U                                       (* 1054-1055 *)
    else
      ux <- rows X U ;; lx <- rows X L ;; ly <- rows y L ;;                 (* 1057-1060 *)
      let cs := br_train base lx ly m in
      let reals := map (fun x => map (fun c => real c x) cs) ux in          (* 1061 *)
      let preds := map (fun x => map (fun c => cpredict c x) cs) ux in      (* 1062 *)
      let unc := map (fun r => inverse (separation r)) reals in             (* 1064-1069 *)
      let card := map (fun p => Qabs (inject_Z (zsum p) - average_labels ly)%Q) preds in   (* 1072-1073 *)
      let scores := map (fun b => map (fun e => blend b (fst e) (snd e)) (combine unc card)) betas in    (* 1076-1080 *)
      let err a := match nth_error ux a, nth_error preds a with
                   | Some x, Some p =>
                       let new := br_train base (lx ++ [x]) (ly ++ [p]) m in                             (* 1087-1088 *)
                       qsum (map (fun v => hinge (map (fun c => real c v) new)) ux)                      (* 1089-1105 *)
                   | _, _ => 0%Q
                   end in
      a <- adaptive_ask scores set_order err draw ;;
      u <- py_nth U a ;; Ok [u].                                            (* 1109 *)
End MultiLabel.

(** ** The hierarchical strategy: cost_sensitive.py 290-304 and 323-337 (and 656-672) *)
Section Hierarchical.
  Context {F C : Type}.
  Variable train : list F -> list Z -> C.
  Variable answer : C -> F -> Z.
  Variables (X : list F) (y : list (list Z)).

  (** 296-303: the model of class [j], from the instances whose entry of the mask is not zero *)
  Definition class_model (mask : list (list Z)) (j : nat) : res C :=
    let chosen := filter (fun i => negb (nth j (nth i mask []) 0 =? 0)) (range (length mask)) in    (* 299 *)
    xs <- mapM (py_nth X) chosen ;;
    ys <- mapM (fun i => r <- py_nth y i ;; py_nth r j) chosen ;;           (* 301 *)
    Ok (train xs ys).
  (** 323-337; [near] are the positions of the nearest instances. *)
  Definition relevance (mask : list (list Z)) (near : list nat) (j : nat) (models : list C) : res Z :=
    votes <- mapM (fun i =>
               if nth j (nth i mask []) 0 =? 1 then                         (* 327, 331 *)
                 r <- py_nth y i ;; v <- py_nth r j ;; Ok (Z.sgn v)         (* 332 *)
               else mo <- py_nth models j ;; x <- py_nth X i ;; Ok (Z.sgn (answer mo x))) near ;;   (* 334-335 *)
    Ok (Z.sgn (zsum votes)).                                                (* 337 *)
End Hierarchical.

(** ** LAL, 1747-1752: the data as LalModel reads it, from the arrays; [forest_fit] trains the forest, which answers for a
    row of the array by its index. *)
Definition lal_data {F} (X : list F) (y : list Z) (dim : Z) (std : list Q -> Q) (forest_fit : list F -> list Z -> res LalModel.forest) : LalModel.data :=
  {| LalModel.n_rows := Z.of_nat (length X); LalModel.n_dim := dim;
     LalModel.label := fun i => match py_index (length y) i with Some p => inject_Z (nth p y 0) | None => 0%Q end;
     LalModel.fit_forest := fun L => xs <- rows X L ;; ys <- rows y L ;; forest_fit xs ys;
     LalModel.std := std |}.
