(** The progress table that a threaded experiment (utils/multi_thread.py) prints while it waits: [__repr__] (231-246) and the
    prints of [__start_all_threads] (204-205, 224-225, 229), on top of the scheduler of ThreadModel and of the displayed
    performance of ProgressModel.

    Simplifications: whether the refresh interval has passed (248-253) is left to the schedule; the elapsed times are left
    out; a row is read at once (a record only grows, and [add_state] appends a finished copy). *)
From Verif Require Import Base StateModel ProgressModel ThreadModel.
Local Open Scope Z_scope.

(** 243-245: the columns number_of_queries and performance of one row. *)
Definition row_of (l : list (state unit)) : res (nat * shown_perf) :=
  p <- current_perf (with_states (sio_new (C := unit) [] [] tt tt) (map EState l)) ;; Ok (List.length l, p).
(** 231-246 *)
Definition table_of (n : nat) (recs : nat -> list (state unit)) : res (list (nat * shown_perf)) :=
  mapM (fun i => row_of (recs i)) (seq 0 n).

(** [recs]: the records of the rounds, in memory; [dead]: an exception has left [start_all_threads]; [over]: it returned. *)
Record pmach := { base : mach; recs : nat -> list (state unit); shown : list (list (nat * shown_perf)); dead : bool; over : bool }.
Definition pboot (c : cfg) (files : nat -> rfile) (disk : sfile) (r : nat -> list (state unit)) : pmach :=
  {| base := boot c files disk; recs := r; shown := []; dead := false; over := false |}.

(** Where the main thread prints: 203-205 while it waits for a place, 223-225 for a thread, 229 at the end. *)
Definition can_print (c : cfg) (m : mach) : bool :=
  match at_ m with
  | PWait _ => true
  | PJoin i => Nat.ltb i (rounds c) && todo c i && is_running (stat m i)
  | PDone => true
  | _ => false
  end.
Definition finished (m : mach) : bool := match at_ m with PDone => true | _ => false end.

(** An event of the scheduler or of a round; a round records a state; the main thread prints. *)
Inductive pevent := EBase (e : event) | ERecord (i : nat) (s : state unit) | EShow.
Definition with_base (p : pmach) (m : mach) : pmach :=
  {| base := m; recs := recs p; shown := shown p; dead := dead p; over := over p |}.
Definition pstep (c : cfg) (p : pmach) (e : pevent) : pmach :=
  match e with
  | EBase (ESched x) => if dead p then p else with_base p (step c (base p) (ESched x))
  | EBase e => with_base p (step c (base p) e)
  | ERecord i s =>
      if is_running (stat (base p) i)
      then {| base := base p; recs := fset (recs p) i (recs p i ++ [s]); shown := shown p; dead := dead p; over := over p |}
      else p
  | EShow =>
      if dead p || over p || negb (can_print c (base p)) then p
      else match table_of (rounds c) (recs p) with
           | Ok t => {| base := base p; recs := recs p; shown := shown p ++ [t]; dead := false; over := finished (base p) |}
           | Err _ => {| base := base p; recs := recs p; shown := shown p; dead := true; over := false |}
           end
  end.
Definition prun (c : cfg) (p : pmach) (es : list pevent) : pmach := fold_left (pstep c) es p.
