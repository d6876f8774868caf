(** Model of the multi-label query strategies (alipy/query_strategy/multi_label.py): label ranking model
    (prediction and life cycle), AUDI, multi-label QUIRE, binary relevance, MMC and Adaptive.

    Simplifications: finite floats are exact rationals, infinities and NaN are explicit ([fl]); the gradient
    steps of the label ranking model, scikit-learn classifiers and the pseudo-inverse are arbitrary functions
    given as arguments; [np.argsort] is an arbitrary function with a stated contract. *)
From Verif Require Import Base IndexModel MLModel SplitModel MetricModel MiscModel QueryModel.
From Coq Require Import QArith Qabs.
Local Open Scope Z_scope.

(** ** Floating-point operations with infinities and NaN *)
Definition fl_sub (a b : fl) : fl :=
  match a, b with
  | NaN, _ | _, NaN => NaN
  | Num x, Num y => Num (x - y)
  | Num _, Inf neg => Inf (negb neg)
  | Inf neg, Num _ => Inf neg
  | Inf true, Inf true | Inf false, Inf false => NaN
  | Inf neg, Inf _ => Inf neg
  end.
Definition fl_abs (a : fl) : fl :=
  match a with Num x => Num (Qabs x) | Inf _ => Inf false | NaN => NaN end.
(** [np.fmax]: a NaN is ignored. *)
Definition fl_fmax (a b : fl) : fl :=
  match a, b with
  | NaN, _ => b
  | _, NaN => a
  | _, _ => if fl_lt a b then b else a
  end.
Definition is_nan (a : fl) : bool := match a with NaN => true | _ => false end.

(** [np.argmin]: the first NaN if there is one, otherwise the first position of a smallest value. *)
Fixpoint fl_argmin_from (best : nat) (bv : fl) (i : nat) (l : list fl) : nat :=
  match l with
  | [] => best
  | v :: l' => if is_nan bv then best
               else if is_nan v then i
               else if fl_lt v bv then fl_argmin_from i v (S i) l' else fl_argmin_from best bv (S i) l'
  end.
Definition fl_argmin (l : list fl) : res nat :=
  match l with
  | [] => Err ValueErr
  | v :: l' => Ok (fl_argmin_from 0 v 1 l')
  end.

(** ** LabelRankingModel *)

(** 99: [num_sub] *)
Definition num_sub : nat := 5.

(** 241-257 [lr_predict], one row of [data.dot(BV)]: the score of class [k] is the largest of its [num_sub]
    columns [k * num_sub + j], NaN ignored. *)
Definition lr_scores (row : list fl) : list fl :=
  map (fun k => fold_left fl_fmax (map (fun j => nth (k * num_sub + j) row NaN) (range num_sub)) (Inf true))
      (range (length row / num_sub)).
(** 253-256: a label is 1 if its score exceeds the score of the dummy (last) class, else -1. *)
Definition lr_labels (pres : list fl) : list Z :=
  map (fun p => if fl_lt (last pres NaN) p then 1 else -1) (removelast pres).
(** [fs] has [w] columns; 250: the shapes differ unless [w] is a multiple of [num_sub]. *)
Definition lr_predict (w : nat) (fs : list (list fl)) : res (list (list fl) * list (list Z)) :=
  _ <- guard (Nat.eqb (w mod num_sub) 0) AssertErr ;;
  Ok (map lr_scores fs, map (fun r => lr_labels (lr_scores r)) fs).

(** 301-348: the life cycle. [A]: contents of the arrays B and V, which [train_model] changes in place (144-145
    [np.asarray] does not copy, 219-231 assignments into B and V); [G]: the averages AB, AV, Anum and trounds, which it
    rebinds. [_ini_parameters] refers to the same two arrays as [_B] and [_V], and keeps the averages of the initial
    training. [init] and [step] are the initial random arrays and one call of [train_model]; [D] is the data together
    with the random order. *)
Section LabelRanking.
  Context {A G D : Type} (zero : G) (init : D -> A) (step : D -> A * G -> A * G).

  Record ranker := { arrays : A; ini_averages : G; averages : G }.

  Fixpoint train (k : nat) (d : D) (s : A * G) : A * G :=
    match k with O => s | S k' => train k' d (step d s) end.

  (** 83-135 [init_model_train] *)
  Definition lr_init (k : nat) (d : D) : ranker :=
    let s := train k d (init d, zero) in {| arrays := fst s; ini_averages := snd s; averages := snd s |}.

  (** 311-344 [fit]; [m]: None before the first training. *)
  Definition lr_fit (m : option ranker) (d : D) (k : nat) (incremental : bool) : ranker :=
    let m0 := match m with Some r => r | None => lr_init k d end in                (* 328-333 *)
    let g := if incremental then averages m0 else ini_averages m0 in              (* 335-338 *)
    let s := train k d (arrays m0, g) in                                          (* 340-344 *)
    {| arrays := fst s; ini_averages := ini_averages m0; averages := snd s |}.

  (** A sequence of calls of [fit] on a fresh object: data, [n_repeat], [is_incremental]. *)
  Definition lr_run (h : list (D * nat * bool)) : option ranker :=
    fold_left (fun m c => Some (lr_fit m (fst (fst c)) (snd (fst c)) (snd c))) h None.
End LabelRanking.
Arguments ranker : clear implicits.

(** ** AUDI, 534-606 *)

Definition row_of {A} (mat : list (list A)) (i : Z) : res (list A) :=
  match py_index (length mat) i with Some p => py_nth mat p | None => Err IndexErr end.

(** 581: mean number of entries equal to 1 in the rows of the fully labelled instances. *)
Definition average_positive (y : list (list Q)) (full : list Z) : res fl :=
  rows <- mapM (row_of y) full ;;
  Ok (match rows with
      | [] => NaN
      | _ => Num (qsum (map (fun r => of_nat (count (fun v => Qeq_bool v 1) r)) rows) / of_nat (length rows))
      end).

(** 582, one row: [pos] labels predicted 1, [unl] unlabelled pairs. *)
Definition inconsistency (avg : fl) (eps : Q) (pos unl : nat) : fl :=
  match avg with
  | Num a => match fdiv (of_nat pos - a) (qmax (of_nat unl) eps) with
             | Num q => Num (- Qabs q)
             | Inf _ => Inf true
             | NaN => NaN
             end
  | _ => NaN
  end.

(** 589-595: distances to the dummy score; known entries are set to minus infinity first. *)
Definition dummy_distances (pres : list fl) (w : list Z) : list fl :=
  map (fun e => fl_abs (fl_sub (if snd e =? 0 then Inf true else fst e) (last pres NaN)))
      (combine (removelast pres) w).

(** 596-603: the nearest label; if it is a known one, the first unknown one in ascending order. *)
Definition nearest_label (argsort : list fl -> list nat) (dis : list fl) (w : list Z) : res nat :=
  k <- fl_argmin dis ;;
  Ok (if nth k w 0 =? 0
      then match filter (fun j => negb (nth j w 0 =? 0)) (argsort dis) with
           | j :: _ => j
           | [] => k
           end
      else k).

(** The model argument: None, or a label ranking model that is trained or not. *)
Inductive lr_arg (M : Type) := LRNone | LRUntrained | LRTrained (t : M).
Arguments LRNone {M}. Arguments LRUntrained {M}. Arguments LRTrained {M} t.

(** [X], [y]: the data ([m] label columns); [fit]: training of the label ranking model on rows and labels;
    [scores]: width and rows of [data.dot(BV)]. *)
Definition audi_select {B M} (argsort : list fl -> list nat) (fit : list B -> list (list Q) -> res M)
           (scores : M -> list B -> nat * list (list fl)) (X : list B) (y : list (list Q)) (m : nat)
           (L U : ml_pool) (model : lr_arg M) (eps : Q) : res ml_choice :=
  let n := length y in
  if (ml_pool_len U <=? 1)%nat then Ok TheRest                                    (* 561-562 *)
  else
    u <- check_ml_ind (Z.of_nat n) (Z.of_nat m) U ;;                              (* 563 *)
    l <- check_ml_ind (Z.of_nat n) (Z.of_nat m) L ;;                              (* 564 *)
    ud <- get_Xy false (mcont u) X y (Z.of_nat m) 0%Q ;;                           (* 566 *)
    let data_ind := snd ud in
    W <- ml_mask u n m 1 false ;;                                                 (* 567 *)
    t <- match model with
         | LRTrained t => Ok t
         | _ => ld <- get_Xy false (mcont l) X y (Z.of_nat m) 0%Q ;;               (* 574, 578 *)
                fit (fst (fst ld)) (snd (fst ld))
         end ;;
    pl <- (let s := scores t (fst (fst ud)) in lr_predict (fst s) (snd s)) ;;     (* 580 *)
    full <- ml_unbroken l ;;
    avg <- average_positive y full ;;                                             (* 581 *)
    ws <- mapM (row_of W) data_ind ;;
    let insvals := map (fun e => inconsistency avg eps (count (Z.eqb 1) (fst e)) (count (Z.eqb 1) (snd e)))
                       (combine (snd pl) ws) in                                   (* 582 *)
    r <- fl_argmin insvals ;;                                                     (* 583 *)
    _ <- guard (forallb (fun p => Nat.eqb (length p - 1) m) (fst pl)) IndexErr ;; (* 591: boolean mask shape *)
    pres <- py_nth (fst pl) r ;;
    w <- py_nth ws r ;;
    lab <- nearest_label argsort (dummy_distances pres w) w ;;                    (* 593-603 *)
    i <- py_nth data_ind r ;;                                                     (* 604 *)
    Ok (Chosen [IPair i (Z.of_nat lab)]).

(** ** Multi-label QUIRE, 431-499 *)

(** [np.sort] on integers. *)
Fixpoint zsort_insert (x : Z) (l : list Z) : list Z :=
  match l with
  | [] => [x]
  | y :: l' => if x <=? y then x :: l else y :: zsort_insert x l'
  end.
Definition zsort (l : list Z) : list Z := fold_right zsort_insert [] l.

Definition mat_at (M : list (list Q)) (i j : nat) : Q := nth j (nth i M []) 0%Q.

(** 457 [np.kron(np.eye(m), L)], entry (a, b) for an n-by-n matrix. *)
Definition kron_at (n : Z) (L : list (list Q)) (a b : Z) : Q :=
  if a / n =? b / n then mat_at L (Z.to_nat (a mod n)) (Z.to_nat (b mod n)) else 0%Q.

(** 478-495: the evaluation of the [i]-th unlabelled pair. [us], [ss]: sorted one-dimensional indexes, [ys]: known
    labels, [LL]: the pseudo-inverse of the block of the unlabelled pairs. A zero [LL[i, i]] is read as NaN. *)
Definition quire_val (n : Z) (L : list (list Q)) (us ss : list Z) (ys : list Q) (LL : list (list Q)) (i : nat) : fl :=
  let nU := length us in
  let Luu a b := kron_at n L (nth a us 0) (nth b us 0) in
  let YsLsu a := qsum (map (fun e => fst e * kron_at n L (snd e) (nth a us 0%Z))%Q (combine ys ss)) in
  let rest := filter (fun k => negb (Nat.eqb k i)) (range nU) in                  (* 482-483 *)
  let bb := qsum (map (fun k => - mat_at LL i k * - mat_at LL i k)%Q rest) in     (* 487-488: a scalar *)
  let inv a b := (mat_at LL a b - bb / mat_at LL i i)%Q in                        (* 488 *)
  let quad v := qsum (map (fun a => qsum (map (fun b => v a * inv a b * v b)%Q rest)) rest) in
  let t1 := (2 * YsLsu i - quad (fun a => YsLsu a + Luu i a))%Q in                (* 489-492 *)
  let t2 := (- (2 * YsLsu i) - quad (fun a => YsLsu a - Luu i a))%Q in            (* 493-494 *)
  if Qeq_bool (mat_at LL i i) 0 then NaN
  else Num (qmax (Luu i i + t1) (Luu i i + t2)).                                  (* 495 *)

(** [n]: rows of X and y; [L]: [pinv(K + lambda I)]; [pinv]: the pseudo-inverse. *)
Definition quire_ml (pinv : list (list Q) -> list (list Q)) (L : list (list Q)) (y : list (list Q)) (m : nat)
           (Lab U : ml_pool) : res ml_choice :=
  let n := Z.of_nat (length y) in
  if (ml_pool_len U <=? 1)%nat then Ok TheRest                                    (* 452-453 *)
  else
    u <- check_ml_ind n (Z.of_nat m) U ;;                                         (* 454 *)
    l <- check_ml_ind n (Z.of_nat m) Lab ;;                                       (* 455 *)
    u1 <- ml_onedim u OrdF (Some n) ;;
    s1 <- ml_onedim l OrdF (Some n) ;;
    let us := zsort u1 in
    let ss := zsort s1 in                                                         (* 465-468 *)
    ys <- mapM (fun x => match x with
                         | IPair i j => r <- row_of y i ;;
                                        match py_index (length r) j with
                                        | Some p => py_nth r p | None => Err IndexErr end
                         | _ => Err IndexErr
                         end) (mcont l) ;;                                        (* 469: iteration order *)
    let Luu := map (fun a => map (kron_at n L a) us) us in                        (* 474 *)
    let LL := pinv Luu in                                                         (* 476 *)
    r <- fl_argmin (map (quire_val n L us ss ys LL) (range (length us))) ;;       (* 497 *)
    k <- py_nth us r ;;
    Ok (Chosen [IPair (k mod n) (k / n)]).                                        (* 499 *)

(** ** Binary relevance, 617-790 *)

(** A fitted classifier for one label: the dummy with its class, or anything else. *)
Record clf (B : Type) := { cpredict : B -> Z; cproba : B -> Q }.
Arguments cpredict {B} c _. Arguments cproba {B} c _.

(** 620-644 [DummyClf]; the probability of column 1 of [ret], [ret[:, cls] = 1] with Python's negative columns;
    classes are 0, 1 or -1. *)
Definition dummy {B} (cls : Z) : clf B :=
  {| cpredict := fun _ => cls;
     cproba := fun _ => match py_index 2 cls with Some 1%nat => 1%Q | _ => 0%Q end |}.

(** [ret[:, cls]] fails for other classes. *)
Definition dummy_ok (cls : Z) : bool := match py_index 2 cls with Some _ => true | None => false end.

(** 691-702 [train]: one classifier per column, the dummy for a constant column. *)
Definition constant (col : list Z) : bool :=
  match col with [] => false | v :: col' => forallb (Z.eqb v) col' end.
Definition br_train {B} (base : list B -> list Z -> clf B) (X : list B) (Y : list (list Z)) (m : nat) : list (clf B) :=
  map (fun j => let col := map (fun r => nth j r 0) Y in
                if constant col then dummy (hd 0 col) else base X col) (range m).

(** ** MMC, 857-922 and Adaptive, 1022-1109 *)

(** 900, 910-919 of MMC for one instance: [probs] the predicted probabilities, [order] their descending order, [p] the
    predicted number of labels (a Python slice bound, possibly negative). *)
Definition mmc_score (probs : list Q) (order : list nat) (p : Z) : Q :=
  let chosen := py_slice_to order p in
  qsum (map (fun e => let yhat := if mem (fst e) chosen then 1%Q else (-1)%Q in
                      ((1 - yhat * (snd e * 2 - 1)) / 2)%Q)
            (combine (seq 0 (length probs)) probs)).

(** [np.where(s == np.max(s))[0]]; a NaN makes the maximum NaN, which equals nothing. *)
Definition fl_eqb (a b : fl) : bool :=
  match a, b with
  | Num x, Num y => Qeq_bool x y
  | Inf s, Inf t => Bool.eqb s t
  | _, _ => false
  end.
Definition fl_max (l : list fl) : fl :=
  if existsb is_nan l then NaN else fold_left (fun a b => if fl_lt a b then b else a) l (Inf true).
Definition fl_min (l : list fl) : fl :=
  if existsb is_nan l then NaN else fold_left (fun a b => if fl_lt b a then b else a) l (Inf false).
Definition where_eq (v : fl) (l : list fl) : list nat :=
  filter (fun k => fl_eqb (nth k l NaN) v) (range (length l)).

(** [random_state.choice(c)]: [draw] picks a position of the array; empty arrays are refused. *)
Definition choice (draw : nat) (c : list nat) : res nat :=
  match nth_error c (draw mod length c) with Some x => Ok x | None => Err ValueErr end.

(** 920 *)
Definition mmc_ask (scores : list Q) (draw : nat) : res nat :=
  choice draw (where_eq (fl_max (map Num scores)) (map Num scores)).

(** 1077-1084: positions of the largest score, for each trade-off; a set of positions, here in order of discovery. *)
Definition candidates (scores : list (list fl)) : list nat :=
  fold_left (fun s x => if mem x s then s else s ++ [x])
            (flat_map (fun s => where_eq (fl_max s) s) scores) [].
(** 1086-1107: [err] is the approximate error of a candidate; [order] the iteration order of the set. *)
Definition adaptive_ask (scores : list (list fl)) (order : list nat -> list nat) (err : nat -> Q) (draw : nat) : res nat :=
  let cs := order (candidates scores) in
  match cs with
  | [] => Err ValueErr                                                            (* [np.min] of an empty array *)
  | _ => let errs := map (fun i => Num (err i)) cs in
         k <- choice draw (where_eq (fl_min errs) errs) ;;
         py_nth cs k
  end.

(** ** The batch mode shared by MMC (924-970) and Adaptive (1111-1157) *)

(** What the caller passes for an index. *)
Inductive ic_arg := CColl (c : icol) | CList (l : list pyval) | CMulti (c : mlic) | COther.

(** 945-958: conversion; a collection is used as it is. *)
Definition to_icol (a : ic_arg) : res icol :=
  match a with
  | CColl c => Ok c
  | CList l => Ok (fst (ic_init (DList l)))
  | CMulti c => full <- ml_unbroken c ;; Ok (fst (ic_init (DList (map (fun i => VKey (KInt i)) full))))
  | COther => Err TypeErr
  end.
(** What the caller's argument is afterwards: only a collection is shared. *)
Definition back (a : ic_arg) (c : icol) : ic_arg := match a with CColl _ => CColl c | _ => a end.

Inductive batch_out := Whole (l : list pyval) | Tuples (l : list pyval).

(** 963-968; [ask i L U]: the position chosen by [sequential_select] in round [i]. *)
Fixpoint batch_loop (ask : nat -> icol -> icol -> res nat) (i k : nat) (L U : icol) (got : list pyval)
  : (icol * icol) * res (list pyval) :=
  match k with
  | O => ((L, U), Ok got)
  | S k' =>
      match ask i L U with
      | Err e => ((L, U), Err e)
      | Ok p =>
          match nth_error (cont U) p with                                         (* 922, 1109 *)
          | None => ((L, U), Err IndexErr)
          | Some v =>
              match ic_update L [v] with
              | (L', Err e) => ((L', U), Err e)
              | (L', Ok _) =>
                  match ic_difference_update U [v] with
                  | (U', Err e) => ((L', U'), Err e)
                  | (U', Ok _) => batch_loop ask (S i) k' L' U' (got ++ [v])
                  end
              end
          end
      end
  end.

(** The two arguments after the call, and the result. *)
Definition batch_select (ask : nat -> icol -> icol -> res nat) (La Ua : ic_arg) (batch : Z)
  : (ic_arg * ic_arg) * res batch_out :=
  match to_icol La with
  | Err e => ((La, Ua), Err e)
  | Ok L =>
      match to_icol Ua with
      | Err e => ((La, Ua), Err e)
      | Ok U =>
          if Z.of_nat (ic_len U) <=? batch then ((La, Ua), Ok (Whole (cont U)))    (* 960-961 *)
          else match batch_loop ask 0 (Z.to_nat batch) L U [] with
               | ((L', U'), r) => ((back La L', back Ua U'), rmap Tuples r)        (* 966-970 *)
               end
      end
  end.
