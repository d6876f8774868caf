(** Model of the ways in which a metric is called by name: [ToolBox.calc_performance_metric] (toolbox.py 416-445) and the
    main loop of [AlExperiment] (al_experiment.py 204-227, 382-383).

    Labels are numpy arrays of integers, scores exact rationals.  [None]: a call outside this model, namely scores given to a
    metric of labels, [f1_score] (imported from sklearn) and a matrix of true labels given to the threshold metrics. *)
From Verif Require Import Base MiscModel MetricModel.
From Coq Require Import QArith String.
Local Open Scope Z_scope.
Local Open Scope string_scope.

(** The predictions: labels, a vector of scores, or a matrix of scores by rows. *)
Inductive pred := PLabels (t : target) | PVector (s : list Q) | PMatrix (rows : list (list Q)).
(** What a metric returns: a number, or the lists of [get_fps_tps_thresholds]. *)
Inductive out := Score (f : fl) | Counts (fps tps : list nat) (thresholds : list Q).

(** toolbox.py 433-434 *)
Definition valid_metric : list string :=
  ["accuracy_score"; "roc_auc_score"; "get_fps_tps_thresholds"; "hamming_loss"; "one_error";
   "coverage_error"; "f1_score"; "label_ranking_loss"; "label_ranking_average_precision_score"].
Definition is_in (n : string) (l : list string) : bool := existsb (String.eqb n) l.

(** 444: [y_pred[:, 0]]; a vector has too many indices. *)
Definition first_column (p : pred) : res (list Q) :=
  match p with
  | PLabels (T1 _) | PVector _ => Err IndexErr
  | PLabels (T2 rows) => mapM (fun r => x <- py_nth r 0 ;; Ok (inject_Z x)) rows
  | PMatrix rows => mapM (fun r => py_nth r 0) rows
  end.

(** performance.py 531-558 with a vector of predictions, broadcast against the rows. *)
Definition one_error_vector (y_true : target) (p : list Z) (w : option (list Q)) : res fl :=
  _ <- guard (same_length (num_samples y_true) (List.length p) w) ValueErr ;;
  ty <- type_of_target y_true ;;
  match y_true, ty with
  | T2 a, Multilabel =>
      _ <- guard (orb (Nat.eqb (List.length p) 1) (Nat.eqb (List.length (hd [] a)) (List.length p))) ValueErr ;;
      Ok (fdiv (qn (count (fun r => row_diff r p =? 0)%Z a)) (qn (List.length a)))
  | _, _ => Err ValueErr
  end.

(** The score metrics of performance.py 561-731 with a vector of scores: never the shape of a label matrix.  568-593: the mask
    has another size than the scores (numpy.ma.MaskError). *)
Definition coverage_vector (y_true : target) (s : list Q) (w : option (list Q)) : res fl :=
  _ <- guard (same_length (num_samples y_true) (List.length s) w) ValueErr ;;
  ty <- type_of_target y_true ;;
  match ty with Multilabel => Err GenericErr | _ => Err ValueErr end.
Definition ranking_loss_vector (y_true : target) (s : list Q) (w : option (list Q)) : res fl :=
  _ <- guard (same_length (num_samples y_true) (List.length s) w) ValueErr ;;
  ty <- type_of_target y_true ;;
  Err ValueErr.                                                             (* 631-635 *)
Definition lrap_vector (y_true : target) (s : list Q) (w : option (list Q)) : res fl :=
  _ <- guard (same_length (num_samples y_true) (List.length s) w) ValueErr ;;
  match y_true with
  | T2 _ => Err ValueErr                                                    (* 694-695 *)
  | T1 _ => ty <- type_of_target y_true ;; Err ValueErr                     (* 698-701 *)
  end.

Definition score (r : res fl) : option (res out) := Some (rmap Score r).
(** A keyword that the metric does not have. *)
Definition refuse {A} (k : option A) (r : option (res out)) : option (res out) :=
  match k with Some _ => Some (Err TypeErr) | None => r end.

(** 416-445.  [w] and [pos] are the keywords [sample_weight] and [pos_label], if given. *)
Definition calc_performance_metric (y_true : target) (y_pred : pred) (name : string) (w : option (list Q)) (pos : option Z)
  : option (res out) :=
  if negb (is_in name valid_metric) then Some (Err NotImplErr)                            (* 435-436 *)
  else if String.eqb name "accuracy_score" then
    refuse pos (match y_pred with PLabels t => score (accuracy_score y_true t w) | _ => None end)
  else if String.eqb name "hamming_loss" then
    refuse pos (refuse w (match y_pred with PLabels t => score (hamming_loss y_true t) | _ => None end))
  else if String.eqb name "one_error" then
    refuse pos (match y_pred with
                | PLabels (T2 p) => score (one_error y_true p w)
                | PLabels (T1 p) => score (one_error_vector y_true p w)
                | _ => None
                end)
  else if String.eqb name "f1_score" then None
  else
    match first_column y_pred with                                                        (* 444 *)
    | Err e => Some (Err e)
    | Ok s =>
        if String.eqb name "roc_auc_score" then
          match y_true with                                                               (* the weights are not used *)
          | T1 y => score (q <- roc_auc_score true y s pos ;; Ok (Num q))
          | T2 _ => None
          end
        else if String.eqb name "get_fps_tps_thresholds" then
          refuse w (match y_true with
                    | T1 y => Some (r <- get_fps_tps_thresholds true y s pos ;;
                                    Ok (Counts (fst (fst r)) (snd (fst r)) (snd r)))
                    | T2 _ => None
                    end)
        else refuse pos (score
          (if String.eqb name "coverage_error" then coverage_vector y_true s w
           else if String.eqb name "label_ranking_loss" then ranking_loss_vector y_true s w
           else lrap_vector y_true s w))
    end.

(** al_experiment.py 221-223 *)
Definition valid_experiment_metric : list string :=
  ["accuracy_score"; "roc_auc_score"; "get_fps_tps_thresholds"; "hamming_loss"; "one_error";
   "coverage_error"; "label_ranking_loss"; "label_ranking_average_precision_score"; "zero_one_loss"].
Definition target_scores (t : target) : list Q + list (list Q) :=
  match t with T1 v => inl (map inject_Z v) | T2 r => inr (map (map inject_Z) r) end.
(** al_experiment.py 204-227, 382-383, 413-414: the metric chosen by name is called as [metric(y[test_id], pred)] with the
    labels predicted by the model. *)
Definition experiment_metric (name : string) (y_true y_pred : target) : option (res out) :=
  if negb (is_in name valid_experiment_metric) then Some (Err NotImplErr)
  else if String.eqb name "accuracy_score" then score (accuracy_score y_true y_pred None)
  else if String.eqb name "zero_one_loss" then score (zero_one_loss y_true y_pred true None)
  else if String.eqb name "hamming_loss" then score (hamming_loss y_true y_pred)
  else if String.eqb name "one_error" then
    match y_pred with T2 p => score (one_error y_true p None) | T1 p => score (one_error_vector y_true p None) end
  else if String.eqb name "roc_auc_score" then
    match y_true, y_pred with
    | T1 y, T1 p => score (q <- roc_auc_score true y (map inject_Z p) None ;; Ok (Num q))
    | _, _ => None
    end
  else if String.eqb name "get_fps_tps_thresholds" then
    match y_true, y_pred with
    | T1 y, T1 p => Some (r <- get_fps_tps_thresholds true y (map inject_Z p) None ;;
                          Ok (Counts (fst (fst r)) (snd (fst r)) (snd r)))
    | _, _ => None
    end
  else match target_scores y_pred with
       | inl s => score (if String.eqb name "coverage_error" then coverage_vector y_true s None
                         else if String.eqb name "label_ranking_loss" then ranking_loss_vector y_true s None
                         else lrap_vector y_true s None)
       | inr s => score (if String.eqb name "coverage_error" then coverage_error y_true s None
                         else if String.eqb name "label_ranking_loss" then label_ranking_loss y_true s None
                         else lrap_score y_true s None)
       end.
