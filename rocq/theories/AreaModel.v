(** Model of the shaded areas ([std_area=True]) and of the summary tables ([__repr__]) of the analysers
    (alipy/experiment/experiment_analyser.py 475-500, 529-541, 603-634, 716-728, 757-767).

    Simplifications: as in AnalyserModel.v; a shaded area is kept as its x values, its centre line and the square of its
    half width; a table is kept as its rows, before they are rounded and laid out. *)
From Verif Require Import Base IndexModel StateModel MiscModel FeatureModel AnalyserModel.
From Coq Require Import String QArith Qround.
Local Open Scope Z_scope.

(** The arguments of [plt.fill_between]: x values, middle, square of the deviation. *)
Definition area : Type := list Q * list fl * list fl.

(** 480 [np.std(_, axis=0)], squared. *)
Definition col_vars (m : list (list fl)) : res (list fl) :=
  match m with
  | [] => Err TypeErr
  | r :: _ => Ok (map (fun j => fvar0 (map (fun r => nth j r NaN) m)) (seq 0 (List.length r)))
  end.

(** 475-500 with [std_area]: the curves and areas. [plt.fill_between] needs sequences of the same length. *)
Fixpoint num_drawn (all : bool) (sums : list (string * summary)) (start : option fl) (step : Z) (shift : option Q)
         (l : list (string * adata)) : res (list (curve * area)) :=
  match l with
  | [] => Ok []
  | (n, d) :: l' =>
      m <- matrix_of d ;;
      pts <- col_means m ;;                                                            (* 477 *)
      std <- col_vars m ;;                                                             (* 479-480 *)
      _ <- guard (negb (step =? 0)) ZeroDivErr ;;
      let ys := if step =? 1 then pts else every step pts in                           (* 481-482 *)
      let vs := if step =? 1 then std else every step std in                           (* 483-484 *)
      sh <- match shift with
            | Some s => Ok s
            | None => if all then match sget n sums with                               (* 485-489 *)
                                  | None => Err KeyErr
                                  | Some su => Ok match su_ip su with None => 1%Q | Some _ => 0%Q end
                                  end
                      else Ok 1%Q
            end ;;
      let sh := match start with Some _ => 0%Q | None => sh end in                     (* 490-491 *)
      let xs := map (fun x => x + sh)%Q
                    (arange (match start with Some _ => Datatypes.S (List.length pts) | None => List.length pts end) step) in
      let cys := match start with Some s => s :: ys | None => ys end in
      _ <- guard (Nat.eqb (List.length xs) (List.length cys)) ValueErr ;;              (* 492, 497 *)
      let axs := match start with                                                      (* 494, 499 *)
                 | Some _ => map (fun x => x + sh + 1)%Q (arange (List.length pts) step)
                 | None => map (fun x => x + sh)%Q (arange (List.length pts) step)
                 end in
      _ <- guard (Nat.eqb (List.length axs) (List.length ys) && Nat.eqb (List.length ys) (List.length vs)) ValueErr ;;
      cs <- num_drawn all sums start step (Some sh) l' ;;
      Ok (((n, xs, cys), (axs, ys, vs)) :: cs)
  end.
(** 427-527 [plot_learning_curves] with [std_area=True]. *)
Definition num_plot_area (a : analyser) (shift : option Q) (start : option fl) (step : Z) : res (list (curve * area)) :=
  match an_data a, an_all a with
  | [], _ => Err AssertErr                                                             (* 470 *)
  | _, None => Err AttrErr
  | l, Some all =>
      _ <- (if all then check_plotting l else Ok tt) ;;                                (* 471-472 *)
      num_drawn all (an_sum a) start step shift l
  end.

Section CostArea.
  (** [scipy.interpolate.interp1d(x, y, bounds_error=False, fill_value=0.1)] *)
  Variable interp : list Q -> list Q -> Q -> Q.

  (** 684-728: one method; the area is placed at [new_x_axis] without the shift (727). *)
  Definition cost_area (ip : option Q) (eff step shift : Q) (folds : list (list (Q * Q))) :
    res ((list Q * list Q) * (list Q * list Q * list Q)) :=
    let axes := map (fun f => match ip with Some p => (0%Q :: prefix_sums (map fst f), p :: map snd f)
                                          | None => (prefix_sums (map fst f), map snd f) end) folds in
    firsts <- mapM (fun a => py_nth (fst a) 0) axes ;;
    a <- greatest firsts ;;
    let xs := qrange a eff step in
    let values := fun x => map (fun a => interp (fst a) (snd a) x) axes in
    let points := map (fun x => qmean (values x)) xs in
    Ok ((map (fun x => x + shift)%Q xs, points), (xs, points, map (fun x => qvar (values x)) xs)).

  Fixpoint cost_areas (all : bool) (sums : list (string * summary)) (start : option Q) (eff step shift : Q)
           (l : list (string * list (list (Q * Q)))) : res (list (qcurve * (list Q * list Q * list Q))) :=
    match l with
    | [] => Ok []
    | (n, folds) :: l' =>
        ip <- match start with                                                         (* 696-708 *)
              | Some s => Ok (Some s)
              | None => if all then match sget n sums with
                                    | None => Err KeyErr
                                    | Some su => match su_ip su with
                                                 | None => Ok None
                                                 | Some v => q <- aval_nums v ;; q <- one_num q ;; Ok (Some q)
                                                 end
                                    end
                        else Ok None
              end ;;
        c <- cost_area ip eff step shift folds ;;
        cs <- cost_areas all sums start eff step shift l' ;;
        Ok (((n, fst (fst c), snd (fst c)), snd c) :: cs)
    end.

  (** 636-755 [plot_learning_curves] with [std_area=True]. *)
  Definition cost_plot_area (a : analyser) (shift : Q) (start interval : option Q) :
    res (list (qcurve * (list Q * list Q * list Q))) :=
    data <- mapM (fun p => f <- cost_fold (snd p) ;; Ok (fst p, f)) (an_data a) ;;
    eff <- least (List.concat (map (fun p => map fold_total (snd p)) data)) ;;
    let step := match interval with Some i => i | None => (eff / 100)%Q end in
    _ <- guard (negb (Qeq_bool step 0)) ValueErr ;;
    match an_all a with
    | None => Err AttrErr
    | Some all => cost_areas all (an_sum a) start eff step shift data
    end.
End CostArea.

(** ** Tables *)

(** A row of the table of [_NumOfQueryAnalyser]: number of queries, number of splits, mean, squared deviation. *)
Record num_row := { nr_name : string; nr_len : nat; nr_folds : nat; nr_mean : fl; nr_var : fl }.
(** 529-541 [__repr__]; the column of batch sizes, where [None] stands for 'Not_same_batch_size'. *)
Definition num_table (a : analyser) : res (list num_row * option (list (option nat))) :=
  rows <- mapM (fun p => match sget (fst p) (an_sum a) with
                         | None => Err KeyErr
                         | Some su => Ok {| nr_name := fst p; nr_len := su_len su; nr_folds := su_folds su;
                                            nr_mean := su_mean su; nr_var := su_var su |}
                         end) (an_data a) ;;                                           (* 533-536 *)
  match an_all a with
  | None => Err AttrErr                                                                (* 537 *)
  | Some false => Ok (rows, None)
  | Some true =>
      col <- mapM (fun p => match sget (fst p) (an_sum a) with                         (* 538-540 *)
                            | None => Err KeyErr
                            | Some su => Ok (if su_flag su then Some (su_batch su) else None)
                            end) (an_data a) ;;
      Ok (rows, Some col)
  end.

(** 626: the cost of every query of a fold; the performances are not looked at. *)
Definition costs_only (d : adata) : res (list (list Q)) :=
  match d with
  | DPairs m => mapM (mapM (fun t => c <- py_nth t 0 ;; c <- aval_nums c ;; Ok (qsum c))) m
  | DLists m => mapM (mapM (fun i => c <- item_part 0 i ;; c <- mapM fin c ;; Ok (qsum c))) m
  | DRuns _ => Err TypeErr
  end.
(** 629 [np.unique] *)
Fixpoint qunique (l : list Q) : list Q :=
  match l with [] => [] | x :: l' => if existsb (Qeq_bool x) l' then qunique l' else x :: qunique l' end.
Record cost_row := { cr_name : string; cr_folds : nat; cr_mean : fl; cr_var : fl; cr_budget : option Q }.
(** 603-634 and 757-767 [__repr__]; [None] stands for 'Not same budget'. *)
Definition cost_table (a : analyser) : res (list cost_row) :=
  totals <- mapM (fun p => f <- costs_only (snd p) ;; Ok (fst p, map qsum f)) (an_data a) ;;
  _ <- least (List.concat (map snd totals)) ;;                                         (* 634, min of nothing *)
  mapM (fun p => match sget (fst p) (an_sum a) with
                 | None => Err KeyErr
                 | Some su => Ok {| cr_name := fst p; cr_folds := su_folds su; cr_mean := su_mean su; cr_var := su_var su;
                                    cr_budget := match qunique (snd p) with [q] => Some q | _ => None end |}
                 end) totals.
