(** Specification vocabulary for the analyser, independent of the model's functions. *)
From Verif Require Import Base StateModel MiscModel MiscSpec AnalyserModel.
From Coq Require Import String QArith.
Local Open Scope Z_scope.

(** State [s] holds [v] under [k]. *)
Definition holds (k : string) (s : astate) (v : aval) : Prop := sget k (a_dict s) = Some v.
(** The initial point, if any, as a list. *)
Definition initial {A} (o : option A) : list A := match o with Some p => [p] | None => [] end.

(** [n] is the length of the shortest list. *)
Definition shortest {A} (n : nat) (ls : list (list A)) : Prop :=
  (forall l, In l ls -> (n <= List.length l)%nat) /\ exists l, In l ls /\ List.length l = n.

(** [qs] are the performances of the first [n] states of run [r], after its initial point. *)
Definition performances (n : nat) (r : arun) (qs : list Q) : Prop :=
  exists ip ps, qs = ip ++ ps /\ initial (r_ip r) = map (fun q => AVal (Num q)) ip /\ List.length ps = n /\
    forall j q, nth_error ps j = Some q -> exists s, nth_error (r_states r) j = Some s /\ holds "performance" s (AVal (Num q)).

(** All states of the run but the last have batch size [b], and there are such states. *)
Definition steady (b : nat) (r : arun) : Prop :=
  (2 <= List.length (r_states r))%nat /\
  forall j s, nth_error (r_states r) j = Some s -> (Datatypes.S j < List.length (r_states r))%nat -> a_batch s = b.

(** The float [x] is the rational [q]. *)
Definition is_num (x : fl) (q : Q) : Prop := exists p, x = Num p /\ (p == q)%Q.

(** A rectangular table of finite numbers with [n] columns. *)
Definition table (m : list (list Q)) (n : nat) : Prop := m <> [] /\ forall r, In r m -> List.length r = n.
(** What the user passes for a table of performances: lists, or the data of runs. *)
Definition shows (d : adata) (m : list (list Q)) : Prop :=
  d = DLists (map (map (fun q => INum (Num q))) m) \/ d = DRuns (map (map (fun q => AVal (Num q))) m).

(** [axis] are the accumulated costs. *)
Definition accumulates (costs axis : list Q) : Prop :=
  List.length axis = List.length costs /\
  forall j x, nth_error axis j = Some x -> (x == total (firstn (Datatypes.S j) costs))%Q.

(** The data of a method shows these folds of (costs, performance): lists of tuples, or the data of runs. *)
Definition shows_costs (d : adata) (folds : list (list (list Q * Q))) : Prop :=
  d = DLists (map (map (fun t => ITup [map Num (fst t); [Num (snd t)]])) folds) \/
  exists m, d = DPairs m /\
    Forall2 (Forall2 (fun v t => exists c, v = [c; AVal (Num (snd t))] /\
      (c = ASeq (map Num (fst t)) \/ exists q, c = AVal (Num q) /\ fst t = [q]))) m folds.
(** Where the curves of a method start: the given start point, or the initial point known of the method. *)
Definition starts (all : bool) (sums : list (string * summary)) (start : option Q) (n : string) (ip : option Q) : Prop :=
  match start with
  | Some s => ip = Some s
  | None => if all then exists su, sget n sums = Some su /\
                          ((su_ip su = None /\ ip = None) \/ exists q, su_ip su = Some (AVal (Num q)) /\ ip = Some q)
            else ip = None
  end.
(** [axis] are the accumulated costs, after 0 if there is a start point. *)
Definition cost_axis (ip : option Q) (costs axis : list Q) : Prop :=
  match ip with None => accumulates costs axis | Some _ => exists l, axis = 0%Q :: l /\ accumulates costs l end.
(** What is spent in each query of a fold, and the performances, after the start point if there is one. *)
Definition spent (f : list (list Q * Q)) : list Q := map (fun t => total (fst t)) f.
Definition reached (ip : option Q) (f : list (list Q * Q)) : list Q := initial ip ++ map snd f.
(** [x] is the least number of [l]. *)
Definition least_of (x : Q) (l : list Q) : Prop := In x l /\ forall y, In y l -> (x <= y)%Q.
Definition greatest_of (x : Q) (l : list Q) : Prop := In x l /\ forall y, In y l -> (y <= x)%Q.

(** Shift of the x-axis: the given one, or the one inferred from the first method: 0 with an initial point, otherwise 1. *)
Definition shift_used (a : analyser) (shift : option Q) (sh : Q) : Prop :=
  match shift with
  | Some s => sh = s
  | None => (an_all a = Some false /\ sh = 1%Q) \/
            an_all a = Some true /\ exists n d l su, an_data a = (n, d) :: l /\ sget n (an_sum a) = Some su /\
              ((su_ip su = None /\ sh = 1%Q) \/ (su_ip su <> None /\ sh = 0%Q))
  end.
(** The methods of the analyser and their tables. *)
Definition methods (a : analyser) (ts : list (string * list (list Q))) : Prop :=
  Forall2 (fun p t => fst p = fst t /\ shows (snd p) (snd t) /\ exists n, table (snd t) n) (an_data a) ts.
(** The averages over the folds for every [step]-th query, from position [sh] on. *)
Definition averages (step : nat) (sh : Q) (m : list (list Q)) (xs : list Q) (ys : list fl) : Prop :=
  List.length xs = List.length ys /\
  (forall n j, table m n -> ((j < List.length xs)%nat <-> (j * step < n)%nat)) /\
  (forall j x, nth_error xs j = Some x -> (x == inject_Z (Z.of_nat (j * step)) + sh)%Q) /\
  (forall j y, nth_error ys j = Some y -> is_num y (mean (column 0%Q m (j * step)))).
(** The same averages after a start point [s] at 0. *)
Definition from_start (k : nat) (s : fl) (t : string * list (list Q)) (c : curve) : Prop :=
  exists xs ys, c = (fst t, 0%Q :: xs, s :: ys) /\ List.length xs = List.length ys /\
    (forall n j, table (snd t) n -> ((j < List.length xs)%nat <-> (j * k < n)%nat)) /\
    (forall j x, nth_error xs j = Some x -> (x == inject_Z (Z.of_nat ((j + 1) * k)))%Q) /\
    (forall j y, nth_error ys j = Some y -> is_num y (mean (column 0%Q (snd t) (j * k)))).
(** The curve of a method against the cost: the points [first], [first + step], ... below [eff], where [first] is the largest
    first point of a fold, and there the mean over the folds of the interpolated performance; all points lie between the
    first and the last cost of every fold. *)
Definition cost_averages (interp : list Q -> list Q -> Q -> Q) (ip : option Q) (eff step shift : Q) (folds : list (list (list Q * Q))) (c : list Q * list Q) : Prop :=
  exists axes grid first, Forall2 (fun f ax => cost_axis ip (spent f) ax) folds axes /\
    greatest_of first (map (hd 0%Q) axes) /\ fst c = map (fun x => x + shift)%Q grid /\
    (forall j x, nth_error grid j = Some x -> x = (first + inject_Z (Z.of_nat j) * step)%Q /\ (x < eff)%Q /\
       (forall ax, In ax axes -> (hd 0%Q ax <= x /\ x < last ax 0%Q)%Q) /\
       nth_error (snd c) j = Some (mean (map (fun p => interp (snd p) (reached ip (fst p)) x) (combine folds axes)))) /\
    (forall j, (first + inject_Z (Z.of_nat j) * step < eff)%Q -> (j < List.length grid)%nat) /\
    List.length (snd c) = List.length grid.
(** What [add_fold] accepts: a run, or the path of a file holding one. *)
Definition gives (s : asrc) (r : arun) : Prop := s = AObject r \/ s = APath (FRun r).
(** The same as [shows] for values that may be infinite or NaN. *)
Definition shows_any (d : adata) (m : list (list fl)) : Prop := d = DLists (map (map INum) m) \/ d = DRuns (map (map AVal) m).
