(** Model of [Oracles] (alipy/oracle/oracle.py 517-674) for oracles that charge for every label of an instance, such as
    [OracleQueryMultiLabel] and [OracleQueryFeatures]: what is recorded when the costs of the asked instances do not form
    a table, the summary and the full history.

    Simplifications: an oracle is any function from the asked indexes to answers and costs, one row of costs for each index;
    numbers are exact rationals.  [lax] says whether numpy makes an array of arrays of rows of different lengths (before
    1.24) or refuses them. *)
From Verif Require Import Base MLModel StateModel Dict OracleModel.
From Coq Require Import String QArith.
Local Open Scope Z_scope.

(** What [cost_inall] can become: a number or an array. *)
Inductive amount := One (q : Q) | Many (l : list Q).

(** Rows of the same length form a table. *)
Definition even (rows : list (list Q)) : bool :=
  match rows with [] => true | r :: rs => forallb (fun x => Nat.eqb (List.length x) (List.length r)) rs end.
(** [a + b] for arrays: equal lengths, or one of them has length one. *)
Definition broadcast (a b : list Q) : res (list Q) :=
  if Nat.eqb (List.length a) (List.length b) then Ok (map (fun p => fst p + snd p)%Q (combine a b))
  else match a, b with
       | [x], _ => Ok (map (fun y => x + y)%Q b)
       | _, [y] => Ok (map (fun x => x + y)%Q a)
       | _, _ => Err ValueErr
       end.
(** 581, 612: [np.sum(np.asarray(rows).flatten())] *)
Definition np_total (lax : bool) (rows : list (list Q)) : res amount :=
  if even rows then Ok (One (qsum (map qsum rows)))
  else if lax then
    match rows with
    | [] => Ok (One 0)
    | r :: rs => s <- foldM broadcast r rs ;; Ok (Many s)
    end
  else Err ValueErr.
(** [cost_inall += t]: an array keeps its length. *)
Definition charge (c t : amount) : res amount :=
  match c, t with
  | One c, One t => Ok (One (c + t)%Q)
  | One c, Many l => Ok (Many (map (fun x => c + x)%Q l))
  | Many l, One t => Ok (Many (map (fun x => x + t)%Q l))
  | Many l, Many [x] => Ok (Many (map (fun y => y + x)%Q l))
  | Many l, Many m =>
      if Nat.eqb (List.length l) (List.length m) then Ok (Many (map (fun p => fst p + snd p)%Q (combine l m))) else Err ValueErr
  end.

Section Pool.
  Context {O K A : Type}.
  Variables (ask : O -> K -> res (A * list (list Q))) (lax : bool).

  (** Names, results (answers and rows of costs) and indexes of a query. *)
  Definition line : Type := (list string * list (A * list (list Q)) * K)%type.
  Record mpool := { mp_dict : list (string * O); mp_cost : amount; mp_hist : list line }.
  Definition mp_new : mpool := {| mp_dict := []; mp_cost := One 0; mp_hist := [] |}.   (* 524-527 *)

  (** 539-553 [add_oracle] *)
  Definition mp_add (p : mpool) (name : string) (o : O) : mpool :=
    {| mp_dict := dset String.eqb name o (mp_dict p); mp_cost := mp_cost p; mp_hist := mp_hist p |}.
  (** 578, 609 *)
  Definition mp_ask (p : mpool) (ks : K) (name : string) : res (A * list (list Q)) :=
    match dget String.eqb name (mp_dict p) with Some o => ask o ks | None => Err KeyErr end.
  (** 580-581, 611-612: the history first, then the cost, which may fail. *)
  Definition mp_record (p : mpool) (names : list string) (rs : list (A * list (list Q))) (ks : K) : mpool * res unit :=
    let hist := mp_hist p ++ [(names, rs, ks)] in
    match (t <- np_total lax (flat_map snd rs) ;; charge (mp_cost p) t) with
    | Ok c => ({| mp_dict := mp_dict p; mp_cost := c; mp_hist := hist |}, Ok tt)
    | Err e => ({| mp_dict := mp_dict p; mp_cost := mp_cost p; mp_hist := hist |}, Err e)
    end.
  (** 555-582 [query_from]; without a name one of the pool is drawn, None if there is none. *)
  Definition mp_query (p : mpool) (ks : K) (name : option string) : mpool * res (A * list (list Q)) :=
    match name with
    | None => (p, Err ValueErr)
    | Some n =>
        match mp_ask p ks n with
        | Err e => (p, Err e)
        | Ok r => let '(p', x) := mp_record p [n] [r] ks in (p', _ <- x ;; Ok r)
        end
    end.
  (** 584-613 [query_from_s] *)
  Definition mp_query_s (p : mpool) (ks : K) (names : option (list string)) : mpool * res (list (A * list (list Q))) :=
    let names := match names with Some l => l | None => map fst (mp_dict p) end in
    match mapM (mp_ask p ks) names with
    | Err e => (p, Err e)
    | Ok rs => let '(p', x) := mp_record p names rs ks in (p', _ <- x ;; Ok rs)
    end.

  Inductive mact := MAdd (name : string) (o : O) | MQuery (ks : K) (name : option string) | MQueryS (ks : K) (names : option (list string)).
  Definition mp_step (p : mpool) (a : mact) : mpool :=
    match a with
    | MAdd n o => mp_add p n o
    | MQuery ks n => fst (mp_query p ks n)
    | MQueryS ks ns => fst (mp_query_s p ks ns)
    end.
  Definition mp_run (p : mpool) (h : list mact) : mpool := fold_left mp_step h p.

  (** 633-641: the summary of [__repr__]; the rows of costs are added up one by one. *)
  Definition mp_repr (p : mpool) : res (list (string * (nat * Q))) :=
    foldM repr_add (map (fun e => (fst e, (0%nat, 0%Q))) (mp_dict p))
      (map (fun e => (fst e, ([], map qsum (snd (snd e))))) (flat_map (fun q : line => combine (fst (fst q)) (snd (fst q))) (mp_hist p))).

  (** 661-663: the column of a query, the number of times each oracle was asked. *)
  Definition count_one (d : list (string * nat)) (n : string) : res (list (string * nat)) :=
    match dget String.eqb n d with Some c => Ok (dset String.eqb n (S c) d) | None => Err ValueErr end.
  Definition last_asked (names : list string) : list (string * nat) :=
    fold_left (fun d e => dset String.eqb (snd e) (fst e) d) (combine (range (List.length names)) names) [].
  (** 665-668: the cell of an oracle; None is the backslash. *)
  Definition full_cell (q : line) (name : string) : res (option (K * (A * list (list Q)))) :=
    match dget String.eqb name (last_asked (fst (fst q))) with
    | None => Ok None
    | Some i => r <- py_nth (snd (fst q)) i ;; Ok (Some (snd q, r))
    end.
  (** 649-674 [full_history]: the names, one column for each query, the column 'in all'. *)
  Definition mp_full (p : mpool) : res (list string * list (list (option (K * (A * list (list Q))))) * list nat) :=
    let names := map fst (mp_dict p) in
    counts <- foldM count_one (map (fun n => (n, 0%nat)) names) (flat_map (fun q : line => fst (fst q)) (mp_hist p)) ;;
    cols <- mapM (fun q => mapM (full_cell q) names) (mp_hist p) ;;
    Ok (names, cols, map snd counts).
End Pool.
Arguments mpool : clear implicits.
Arguments mact : clear implicits.
Arguments line : clear implicits.
