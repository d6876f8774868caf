(** Model of query_strategy/multi_label.py 620-790: DummyClf and _BinaryRelevance, the models behind MMC and Adaptive.

    Simplifications: labels are integers and features exact rationals; a matrix is given by its rows and its width; the
    predictions are given column by column; a base classifier is arbitrary, but its fit depends on the data it gets only (a
    deep copy of an untouched classifier is fitted, 694). *)
From Verif Require Import Base MLModel.
From Coq Require Import QArith.
Local Open Scope Z_scope.

Record matrix := { rows_of : list (list Q); width_of : nat }.
Record table := { lines : list (list Z); wide : nat }.
(** [Y[:, i]] *)
Definition column_of (Y : table) (i : nat) : list Z := map (fun r => nth i r 0) (lines Y).

(** [decision_function]: one value for each row with two classes, one for each row and class otherwise. *)
Inductive decision := D1 (v : list Q) | DN (v : list (list Q)).
(** What [isinstance] tells at 746-760. *)
Inductive kind := IsSVC | IsLR | IsOther.

Section Binary.
  Variable M : Type.
  Record base := {
    b_kind : kind;
    b_fit : list (list Q) -> list Z -> res M;
    b_predict : M -> list (list Q) -> res (list Z);
    b_proba : M -> list (list Q) -> res (list (list Q));
    b_decision : M -> list (list Q) -> res decision }.
  Variable b : base.

  Inductive clf := Dummy (cls : Z) | Fitted (m : M).
  Record br := { clfs : option (list clf); n_labels : nat; n_features : nat }.
  (** 661-663 *)
  Definition br_new : br := {| clfs := None; n_labels := 0; n_features := 0 |}.

  (** 690-695: one label. *)
  Definition fit_label (X : matrix) (y : list Z) : res clf :=
    match nodup Z.eq_dec y with
    | [_] => c <- py_nth y 0 ;; Ok (Dummy c)                                             (* 628-629, 692 *)
    | _ => rmap Fitted (b_fit b (rows_of X) y)
    end.
  (** 689-696: the classifiers appended until the first failure. *)
  Fixpoint fit_labels (X : matrix) (Y : table) (ls : list nat) (done : list clf) : list clf * res unit :=
    match ls with
    | [] => (done, Ok tt)
    | i :: ls => match fit_label X (column_of Y i) with
                 | Ok c => fit_labels X Y ls (done ++ [c])
                 | Err e => (done, Err e)
                 end
    end.
  (** 665-702; the old object is changed even if the training fails. *)
  Definition br_train (s : br) (X : matrix) (Y : table) : br * res unit :=
    let r := fit_labels X Y (seq 0 (wide Y)) [] in
    ({| clfs := Some (fst r); n_labels := wide Y; n_features := width_of X |}, snd r).

  (** 635-636, 638-639, 641-644: DummyClf for [n] rows. *)
  Definition dummy_proba (cls : Z) (n : nat) : res (list (list Q)) :=
    match py_index 2 cls with
    | Some O => Ok (repeat [1; 0]%Q n)
    | Some _ => Ok (repeat [0; 1]%Q n)
    | None => Err IndexErr
    end.
  Definition dummy_real (cls : Z) (n : nat) : res (list (list Q)) :=
    rmap (map (map (fun p => p * 2 - 1)%Q)) (dummy_proba cls n).
  (** [[:, 1]] *)
  Definition second {A} (m : list (list A)) : res (list A) := mapM (fun r => py_nth r 1) m.

  (** The columns of a prediction (716-726, 740-766, 780-790). *)
  Definition columns_by {A} (s : br) (X : matrix) (one : clf -> res (list A)) : res (list (list A)) :=
    match clfs s with
    | None => Err ValueErr
    | Some cs =>
        _ <- guard (Nat.eqb (width_of X) (n_features s)) ValueErr ;;
        mapM (fun i => c <- py_nth cs i ;; one c) (seq 0 (n_labels s))
    end.
  (** 704-726 *)
  Definition br_predict (s : br) (X : matrix) : res (list (list Z)) :=
    columns_by s X (fun c => match c with
                             | Dummy cls => Ok (repeat cls (length (rows_of X)))
                             | Fitted m => b_predict b m (rows_of X)
                             end).
  (** 728-766: with another kind of classifier the column stays as it was made at 743. *)
  Definition br_real (s : br) (X : matrix) : res (list (list Q)) :=
    columns_by s X (fun c => match c with
                             | Dummy cls => r <- dummy_real cls (length (rows_of X)) ;; second r
                             | Fitted m =>
                                 match b_kind b with
                                 | IsOther => Ok (repeat 0%Q (length (rows_of X)))
                                 | _ => d <- b_decision b m (rows_of X) ;;
                                        match d with D1 v => Ok v | DN v => second v end
                                 end
                             end).
  (** 768-790 *)
  Definition br_proba (s : br) (X : matrix) : res (list (list Q)) :=
    columns_by s X (fun c => match c with
                             | Dummy cls => r <- dummy_proba cls (length (rows_of X)) ;; second r
                             | Fitted m => r <- b_proba b m (rows_of X) ;; second r
                             end).

  (** Trainings one after the other, failed or not. *)
  Definition br_life (s : br) (h : list (matrix * table)) : br := fold_left (fun s e => fst (br_train s (fst e) (snd e))) h s.
End Binary.
