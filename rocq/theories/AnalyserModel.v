(** Model of alipy/experiment/experiment_analyser.py: [StateIOContainer], [_ContentSummary] and the two analysers.

    Simplifications: floats are exact rationals, infinities and NaN are explicit ([fl]); [np.std] is represented by its
    square; objects are values, so copies are the identity; of matplotlib only the curves handed to [plt.plot] are kept;
    the shaded areas ([std_area]) and the saving of the figure are left out; in a list given by the user every fold holds
    either numbers only or tuples only. *)
From Verif Require Import Base IndexModel StateModel MiscModel FeatureModel.
From Coq Require Import String QArith Qround.
Local Open Scope Z_scope.

(** What a [State] or an initial point holds: a number, a sequence of numbers, or something else. *)
Inductive aval := AVal (x : fl) | ASeq (l : list fl) | AObj (tag : Z).
(** A [State] (state.py 42-53) and the part of a [StateIO] (state_io.py 75-127) that the analyser reads. *)
Record astate := { a_dict : list (string * aval); a_batch : nat }.
Record arun := { r_ip : option aval; r_states : list astate }.

(** state_io.py 204-218 [check_batch_size]: the common batch size of all states but the last one. *)
Definition check_batch (r : arun) : option nat :=
  match nat_distinct (map a_batch (removelast (r_states r))) with [b] => Some b | _ => None end.

(** ** StateIOContainer *)

(** What [add_fold] can be given: a [StateIO], a path, anything else. A file holds a [StateIO], something else, or cannot be
    read. *)
Inductive afile := FRun (r : arun) | FObject | FBroken.
Inductive asrc := AObject (r : arun) | APath (f : afile) | AWrong.

(** 105-120 [add_fold], 133-142, 144-160 *)
Definition add_fold (c : list arun) (s : asrc) : res (list arun * list warning) :=
  match s with
  | AObject r => Ok (c ++ [r], [])
  | APath (FRun r) => Ok (c ++ [r], match check_batch r with Some _ => [] | None => [WValidity] end)
  | APath FObject => Err AssertErr
  | APath FBroken => Err FileErr
  | AWrong => Err TypeErr
  end.
(** 122-131 [add_folds], 100-103 [__init__]; an exception leaves the folds added before. *)
Fixpoint add_folds (c : list arun) (l : list asrc) : list arun * res (list warning) :=
  match l with
  | [] => (c, Ok [])
  | s :: l' => match add_fold c s with
               | Err e => (c, Err e)
               | Ok (c', w) => let (c'', r) := add_folds c' l' in
                               (c'', match r with Ok w' => Ok (w ++ w') | Err e => Err e end)
               end
  end.

(** 188-191, 200-203: a value of a state. *)
Definition value_of (k : string) (s : astate) : res aval :=
  match sget k (a_dict s) with Some v => Ok v | None => Err ValueErr end.
(** 162-192 [extract_matrix] for one key: the initial point, if any, comes first. *)
Definition extract_one (k : string) (c : list arun) : res (list (list aval)) :=
  mapM (fun r => vs <- mapM (value_of k) (r_states r) ;;
                 Ok (match r_ip r with Some p => [p] | None => [] end ++ vs)) c.
(** 194-205 [extract_matrix] for a list of keys. *)
Definition extract_many (ks : list string) (c : list arun) : res (list (list (list aval))) :=
  mapM (fun r => mapM (fun s => mapM (fun k => value_of k s) ks) (r_states r)) c.

(** ** _ContentSummary *)
Record summary := {
  su_mean : fl; su_var : fl; su_folds : nat; su_flag : bool; su_ip : option aval;
  su_batch : nat; su_len : nat; su_costs : list (list aval) }.

(** [np.mean] and the square of [np.std] *)
Definition fmean (l : list fl) : fl := fquot (fsum l) (Num (inject_Z (Z.of_nat (List.length l)))).
Definition fvar0 (l : list fl) : fl := match l with [] => NaN | _ => fvar l end.

Definition min_len {A} (l : list (list A)) : nat :=
  match l with [] => 0%nat | r :: l' => fold_left Nat.min (map (@List.length A) l') (List.length r) end.
Definition same_len {A} (l : list (list A)) : bool :=
  forallb (fun r => Nat.eqb (List.length r) (List.length (hd [] l))) l.

Definition num_of (v : aval) : res fl := match v with AVal x => Ok x | _ => Err TypeErr end.

(** 285, 289-291: the performances of a fold *)
Definition fold_perf (len : nat) (r : arun) : res (list fl) :=
  vs <- mapM (fun s => match sget "performance"%string (a_dict s) with Some v => num_of v | None => Err KeyErr end)
             (firstn len (r_states r)) ;;
  match r_ip r with None => Ok vs | Some p => x <- num_of p ;; Ok (x :: vs) end.
(** 286-288: the costs of a fold *)
Definition fold_cost (len : nat) (r : arun) : list aval :=
  map (fun s => match sget "cost"%string (a_dict s) with Some v => v | None => AVal (Num 0) end) (firstn len (r_states r)).

Fixpoint all_some {A} (l : list (option A)) : option (list A) :=
  match l with
  | [] => Some []
  | Some a :: l' => match all_some l' with Some r => Some (a :: r) | None => None end
  | None :: _ => None
  end.

(** 256-294 [stateio_summary] *)
Definition stateio_summary (runs : list arun) : res summary :=
  let batch := match all_some (map check_batch runs) with                              (* 265-273 *)
               | Some bs => match nat_distinct bs with [b] => Some b | _ => None end
               | None => None
               end in
  match runs with
  | [] => Err ValueErr                                                                 (* 279, np.min of nothing *)
  | _ =>
      let len := min_len (map r_states runs) in                                        (* 275-279 *)
      data <- mapM (fold_perf len) runs ;;                                             (* 282-291 *)
      _ <- guard (same_len data) ValueErr ;;                                           (* 292, axis=1 of ragged data *)
      let means := map fmean data in
      Ok {| su_mean := fmean means; su_var := fvar0 means; su_folds := List.length runs;
            su_flag := match batch with Some _ => true | None => false end;
            su_ip := r_ip (last runs {| r_ip := None; r_states := [] |});              (* 284 *)
            su_batch := match batch with Some b => b | None => 0%nat end;
            su_len := len; su_costs := map (fold_cost len) runs |}
  end.

(** An element of a fold given as a list: a number, or a tuple of numbers and sequences. *)
Inductive item := INum (x : fl) | ITup (l : list (list fl)).
Definition item_num (i : item) : res fl := match i with INum x => Ok x | ITup _ => Err TypeErr end.
Definition item_part (k : nat) (i : item) : res (list fl) :=
  match i with INum _ => Err TypeErr | ITup l => py_nth l k end.

(** 296-302 [list_summary] for lists of performances *)
Definition list_summary1 (ls : list (list item)) : res summary :=
  m <- mapM (mapM item_num) ls ;;
  _ <- guard (same_len m) TypeErr ;;                                                   (* np.mean of ragged data *)
  Ok {| su_mean := fmean (List.concat m); su_var := fvar0 (List.concat m); su_folds := List.length ls; su_flag := false;
        su_ip := None; su_batch := 0; su_len := min_len m; su_costs := [] |}.
(** 298, 304-310 for lists of (cost, performance); the total costs of the folds as one-element lists. *)
Definition list_summary2 (ls : list (list item)) : res summary :=
  perf <- mapM (mapM (item_part 1)) ls ;;
  cost <- mapM (mapM (item_part 0)) ls ;;
  let means := map (fun l => fmean (map fsum l)) perf in
  Ok {| su_mean := fmean means; su_var := fvar0 means; su_folds := List.length ls; su_flag := false;
        su_ip := None; su_batch := 0; su_len := min_len ls;
        su_costs := map (fun l => [AVal (fsum (map fsum l))]) cost |}.

(** ** Adding methods *)
Inductive adata := DRuns (m : list (list aval)) | DPairs (m : list (list (list aval))) | DLists (m : list (list item)).
Inductive aresults := MContainer (c : list arun) | MRuns (c : list arun) | MLists (l : list (list item)) | MOther.
(** interface.py 236-244; [_is_all_stateio] does not exist before the first method. *)
Record analyser := { an_data : list (string * adata); an_sum : list (string * summary); an_all : option bool }.
Definition an_new : analyser := {| an_data := []; an_sum := []; an_all := None |}.
Definition set_all (a : analyser) (b : bool) : analyser := {| an_data := an_data a; an_sum := an_sum a; an_all := Some b |}.
Definition set_data (a : analyser) (n : string) (d : adata) : analyser :=
  {| an_data := sset n d (an_data a); an_sum := an_sum a; an_all := an_all a |}.
Definition set_sum (a : analyser) (n : string) (s : summary) : analyser :=
  {| an_data := an_data a; an_sum := sset n s (an_sum a); an_all := an_all a |}.

(** 64-90 [_type_of_data] for lists *)
Definition type_of_list (l : list (list item)) : res nat :=
  f <- py_nth l 0 ;; i <- py_nth f 0 ;;
  Ok match i with ITup t => if Nat.ltb 1 (List.length t) then 2%nat else 1%nat | INum _ => 1%nat end.

(** Store the summary, or fail with the data already stored. *)
Definition finish (a : analyser) (n : string) (s : res summary) : analyser * res unit :=
  match s with Ok s => (set_sum a n s, Ok tt) | Err e => (a, Err e) end.

(** 322-379: [_NumOfQueryAnalyser.add_method] *)
Definition num_runs (a : analyser) (n : string) (c : list arun) : analyser * res unit :=
  match extract_one "performance" c with
  | Err e => (a, Err e)
  | Ok m => finish (set_data a n (DRuns m)) n (stateio_summary c)
  end.
Definition num_add (a : analyser) (n : string) (r : aresults) : analyser * res unit :=
  match r with
  | MOther => (a, Err TypeErr)
  | MContainer c => num_runs (set_all a true) n c
  | MRuns [] => (set_all a true, Err IndexErr)
  | MRuns c => num_runs (set_all a true) n c
  | MLists l =>
      match type_of_list l with
      | Err e => (set_all a true, Err e)
      | Ok 1%nat => finish (set_all (set_data a n (DLists l)) false) n (list_summary1 l)
      | Ok _ => (set_all a true, Err ValueErr)
      end
  end.

(** 553-601: [_CostEffectiveAnalyser.add_method] *)
Definition cost_runs (a : analyser) (n : string) (c : list arun) : analyser * res unit :=
  match extract_many ["cost"%string; "performance"%string] c with
  | Err e => (a, Err e)
  | Ok m => finish (set_data a n (DPairs m)) n (stateio_summary c)
  end.
Definition cost_add (a : analyser) (n : string) (r : aresults) : analyser * res unit :=
  match r with
  | MOther => (a, Err TypeErr)
  | MContainer c => cost_runs (set_all a true) n c
  | MRuns [] => (set_all a true, Err IndexErr)
  | MRuns c => cost_runs (set_all a true) n c
  | MLists l =>
      match type_of_list l with
      | Err e => (set_all a true, Err e)
      | Ok 2%nat => finish (set_all (set_data a n (DLists l)) false) n (list_summary2 l)
      | Ok _ => (set_all a true, Err ValueErr)
      end
  end.

(** ** Plotting against the number of queries *)

(** The array made from the data; ragged data or other values cannot be averaged. *)
Definition matrix_of (d : adata) : res (list (list fl)) :=
  m <- match d with
       | DRuns m => mapM (mapM num_of) m
       | DLists m => mapM (mapM item_num) m
       | DPairs _ => Err TypeErr
       end ;;
  _ <- guard (same_len m) TypeErr ;; Ok m.
Definition not_finite (x : fl) : bool := match x with Num _ => false | _ => true end.

(** 381-397 [_check_plotting]: [self._check_methods_continuity] is not called, and a method is true. *)
Fixpoint check_plotting (l : list (string * adata)) : res unit :=
  match l with
  | [] => Ok tt
  | (_, d) :: l' => m <- matrix_of d ;;
                    if existsb (existsb not_finite) m then Err ValueErr else check_plotting l'
  end.

(** A curve: label, x and y values. *)
Definition curve : Type := string * list Q * list fl.

(** [np.mean(_, axis=0)]; without folds the result has no length. *)
Definition col_means (m : list (list fl)) : res (list fl) :=
  match m with
  | [] => Err TypeErr
  | r :: _ => Ok (map (fun j => fmean (map (fun r => nth j r NaN) m)) (seq 0 (List.length r)))
  end.
(** [np.arange(n, step=step)] *)
Definition arange (n : nat) (step : Z) : list Q :=
  if 0 <? step then map (fun i => inject_Z (Z.of_nat i * step)) (seq 0 (Z.to_nat ((Z.of_nat n + step - 1) / step))) else [].
(** 482: every [step]-th point. *)
Definition every (step : Z) (l : list fl) : list fl :=
  map (fun i => nth i l NaN) (filter (fun i => Z.of_nat i mod step =? 0) (seq 0 (List.length l))).

(** 475-500: the curves; [shift] is the variable [x_shift], which keeps its value from one method to the next. *)
Fixpoint num_curves (all : bool) (sums : list (string * summary)) (start : option fl) (step : Z) (shift : option Q)
         (l : list (string * adata)) : res (list curve) :=
  match l with
  | [] => Ok []
  | (n, d) :: l' =>
      m <- matrix_of d ;;
      pts <- col_means m ;;
      _ <- guard (negb (step =? 0)) ZeroDivErr ;;
      let ys := if step =? 1 then pts else every step pts in                           (* 481-482 *)
      sh <- match shift with
            | Some s => Ok s
            | None => if all then match sget n sums with                               (* 485-489 *)
                                  | None => Err KeyErr
                                  | Some su => Ok match su_ip su with None => 1%Q | Some _ => 0%Q end
                                  end
                      else Ok 1%Q
            end ;;
      let sh := match start with Some _ => 0%Q | None => sh end in                     (* 490-491 *)
      let xs := map (fun x => x + sh)%Q
                    (arange (match start with Some _ => Datatypes.S (List.length pts) | None => List.length pts end) step) in
      let ys := match start with Some s => s :: ys | None => ys end in
      _ <- guard (Nat.eqb (List.length xs) (List.length ys)) ValueErr ;;               (* plt.plot *)
      cs <- num_curves all sums start step (Some sh) l' ;;
      Ok ((n, xs, ys) :: cs)
  end.
(** 427-527 [plot_learning_curves]; [step] is [int(round(plot_interval))]. No warning is given. *)
Definition num_plot (a : analyser) (shift : option Q) (start : option fl) (step : Z) : res (list curve) :=
  match an_data a, an_all a with
  | [], _ => Err AssertErr                                                             (* 470 *)
  | _, None => Err AttrErr
  | l, Some all =>
      _ <- (if all then check_plotting l else Ok tt) ;;                                (* 471-472 *)
      num_curves all (an_sum a) start step shift l
  end.

(** ** Plotting against the cost. Costs and performances are finite numbers here. *)
Definition fin (x : fl) : res Q := match x with Num q => Ok q | _ => Err ValueErr end.
Definition aval_nums (v : aval) : res (list Q) :=
  match v with AVal x => q <- fin x ;; Ok [q] | ASeq l => mapM fin l | AObj _ => Err TypeErr end.
(** One query: cost and performance. *)
Definition one_num (l : list Q) : res Q := match l with [q] => Ok q | _ => Err ValueErr end.
Definition cost_fold (d : adata) : res (list (list (Q * Q))) :=
  match d with
  | DPairs m => mapM (mapM (fun t => c <- py_nth t 0 ;; c <- aval_nums c ;; p <- py_nth t 1 ;; p <- aval_nums p ;;
                                     p <- one_num p ;; Ok (qsum c, p))) m
  | DLists m => mapM (mapM (fun i => c <- item_part 0 i ;; c <- mapM fin c ;; p <- item_part 1 i ;; p <- mapM fin p ;;
                                     p <- one_num p ;; Ok (qsum c, p))) m
  | DRuns _ => Err TypeErr
  end.

(** 603-634 [_check_and_get_total_cost]: the totals of the folds of all methods, and the smallest one. *)
Definition fold_total (f : list (Q * Q)) : Q := qsum (map fst f).
Definition least (l : list Q) : res Q :=
  match l with [] => Err ValueErr | q :: l' => Ok (fold_left qmin l' q) end.
Definition qmax2 (a b : Q) : Q := if Qle_bool a b then b else a.
Definition greatest (l : list Q) : res Q :=
  match l with [] => Err ValueErr | q :: l' => Ok (fold_left qmax2 l' q) end.

(** 689-692: the accumulated costs. *)
Definition prefix_sums (l : list Q) : list Q := map (fun i => qsum (firstn (i + 1) l)) (seq 0 (List.length l)).
(** [np.arange(a, b, step)] *)
Definition qrange (a b step : Q) : list Q :=
  map (fun i => a + inject_Z (Z.of_nat i) * step)%Q (seq 0 (Z.to_nat (Qceiling ((b - a) / step)))).

Section CostPlot.
  (** [scipy.interpolate.interp1d(x, y, bounds_error=False, fill_value=0.1)] *)
  Variable interp : list Q -> list Q -> Q -> Q.

  Definition qcurve : Type := string * list Q * list Q.

  (** 684-725: one method. *)
  Definition cost_curve (ip : option Q) (eff step shift : Q) (folds : list (list (Q * Q))) : res (list Q * list Q) :=
    let axes := map (fun f => match ip with Some p => (0%Q :: prefix_sums (map fst f), p :: map snd f)
                                          | None => (prefix_sums (map fst f), map snd f) end) folds in
    firsts <- mapM (fun a => py_nth (fst a) 0) axes ;;
    a <- greatest firsts ;;
    let xs := qrange a eff step in
    Ok (map (fun x => x + shift)%Q xs, map (fun x => qmean (map (fun a => interp (fst a) (snd a) x) axes)) xs).

  Fixpoint cost_curves (all : bool) (sums : list (string * summary)) (start : option Q) (eff step shift : Q)
           (l : list (string * list (list (Q * Q)))) : res (list qcurve) :=
    match l with
    | [] => Ok []
    | (n, folds) :: l' =>
        ip <- match start with                                                         (* 696-708 *)
              | Some s => Ok (Some s)
              | None => if all then match sget n sums with
                                    | None => Err KeyErr
                                    | Some su => match su_ip su with
                                                 | None => Ok None
                                                 | Some v => q <- aval_nums v ;; q <- one_num q ;; Ok (Some q)
                                                 end
                                    end
                        else Ok None
              end ;;
        c <- cost_curve ip eff step shift folds ;;
        cs <- cost_curves all sums start eff step shift l' ;;
        Ok ((n, fst c, snd c) :: cs)
    end.

  (** 636-755 [plot_learning_curves] *)
  Definition cost_plot (a : analyser) (shift : Q) (start interval : option Q) : res (list qcurve) :=
    data <- mapM (fun p => f <- cost_fold (snd p) ;; Ok (fst p, f)) (an_data a) ;;
    eff <- least (List.concat (map (fun p => map fold_total (snd p)) data)) ;;              (* 680 *)
    let step := match interval with Some i => i | None => (eff / 100)%Q end in         (* 681 *)
    _ <- guard (negb (Qeq_bool step 0)) ValueErr ;;
    match an_all a with
    | None => Err AttrErr
    | Some all => cost_curves all (an_sum a) start eff step shift data
    end.
End CostPlot.
