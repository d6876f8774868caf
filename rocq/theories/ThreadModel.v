(** Model of utils/multi_thread.py: [aceThreading].

    The main thread (the scheduler) and the round threads are interleaved: a run is a list of events, each one
    step of the scheduler, or one step of a round thread.  Every read of a thread's liveness, of
    [threading.active_count()], and every step of writing a file is a separate event, so a crash can be placed
    between any two of them.  The user's round function is arbitrary: it may return, raise, and save its StateIO at
    any time.  Printing and elapsed time are left out. *)
From Verif Require Import Base.
From Coq Require Import String.
Local Open Scope Z_scope.

(** A round thread: not started, running, or ended (returning normally or raising). *)
Inductive tstat := Fresh | Running | Ended (normally : bool).
(** The file [AL_result/AL_round_i.pkl] (state_io.py 157-163): absent, opened and still empty, partly written, or a
    complete pickle, here represented by the number of states in it. *)
Inductive rfile := RMissing | REmpty | RPartial | RFull (states : nat).
(** [multi_thread_state.pkl]: absent, incomplete, or complete; of its contents only [__alive_thread] is read back. *)
Inductive sfile := SMissing | SPartial | SFull (alive : nat -> bool).

Definition fset {A} (f : nat -> A) (i : nat) (v : A) : nat -> A := fun j => if Nat.eqb j i then v else f j.

(** 89, 114-118: the number of rounds and [max_thread]; [_recover_arr]. *)
Record cfg := { rounds : nat; maxt : nat; todo : nat -> bool }.

(** Where to go after a save: the next turn of the first or of the second loop. *)
Inductive cont := KStart (i : nat) | KJoin (i : nat).
Inductive pc :=
| PStart (i : nat)              (* 187: turn [i] of the first loop *)
| PWait (i : nat)               (* 202-208: the waiting loop, about to read the number of threads *)
| PRead (i : nat)               (* 209: about to read it again *)
| PGo (i : nat)                 (* 191 / 212: about to start thread [i] *)
| PFlag (k : cont) (j : nat)    (* 257-262: [_update_thread_state], about to look at thread [j] *)
| PDump (k : cont)              (* 295-296: about to open the state file *)
| PWrite (k : cont)             (* 299: about to finish writing it *)
| PJoin (i : nat)               (* 221-226: turn [i] of the second loop *)
| PDone | PFailed.              (* returned; RuntimeError of starting a thread twice *)

Record mach := { at_ : pc; avail : Z; stat : nat -> tstat; flags : nat -> bool; rfiles : nat -> rfile; sdisk : sfile;
                 started : list nat }.

Definition is_running (t : tstat) : bool := match t with Running => true | _ => false end.
(** The round threads alive. *)
Definition running (n : nat) (s : nat -> tstat) : nat := count (fun i => is_running (s i)) (seq 0 n).

(** The machine at the beginning of [__start_all_threads] (181-186). *)
Definition boot (c : cfg) (fl : nat -> rfile) (d : sfile) : mach :=
  {| at_ := PStart 0; avail := Z.of_nat (maxt c); stat := fun _ => Fresh; flags := fun _ => false; rfiles := fl; sdisk := d;
     started := [] |}.

Definition goto (m : mach) (p : pc) : mach :=
  {| at_ := p; avail := avail m; stat := stat m; flags := flags m; rfiles := rfiles m; sdisk := sdisk m; started := started m |}.
Definition with_disk (m : mach) (d : sfile) (p : pc) : mach :=
  {| at_ := p; avail := avail m; stat := stat m; flags := flags m; rfiles := rfiles m; sdisk := d; started := started m |}.
Definition resume (k : cont) : pc := match k with KStart i => PStart i | KJoin i => PJoin i end.

(** One step of the scheduler, [ext] other threads (besides the main one) being alive:
    [threading.active_count() - 1] is then [ext] plus the running round threads. *)
Definition sched (c : cfg) (ext : nat) (m : mach) : mach :=
  let n := rounds c in
  let live := Z.of_nat (running n (stat m) + ext) in
  let limit := Z.of_nat (maxt c) in
  match at_ m with
  | PStart i =>
      if Nat.leb n i then goto m (PJoin 0)
      else if negb (todo c i) then goto m (PStart (S i))                                  (* 188-189 *)
      else if 0 <? avail m then goto m (PGo i) else goto m (PWait i)
  | PWait i => if live <? limit then goto m (PRead i) else m                              (* 208 *)
  | PRead i =>
      {| at_ := PGo i; avail := avail m + (limit - live); stat := stat m; flags := flags m; rfiles := rfiles m;
         sdisk := sdisk m; started := started m |}                                        (* 209-210 *)
  | PGo i =>
      match stat m i with
      | Fresh => {| at_ := PFlag (KStart (S i)) 0; avail := avail m - 1; stat := fset (stat m) i Running;
                    flags := fset (flags m) i true; rfiles := rfiles m; sdisk := sdisk m; started := started m ++ [i] |}
      | _ => goto m PFailed
      end
  | PFlag k j =>
      if Nat.ltb j n
      then {| at_ := PFlag k (S j); avail := avail m; stat := stat m; flags := fset (flags m) j (is_running (stat m j));
              rfiles := rfiles m; sdisk := sdisk m; started := started m |}
      else goto m (PDump k)
  | PDump k => with_disk m SPartial (PWrite k)
  | PWrite k => with_disk m (SFull (flags m)) (resume k)
  | PJoin i =>
      if Nat.leb n i then goto m PDone
      else if negb (todo c i) then goto m (PJoin (S i))
      else if is_running (stat m i) then m                                                (* 224 *)
      else goto m (PFlag (KJoin (S i)) 0)
  | PDone => m
  | PFailed => m
  end.

(** Events: a scheduler step; a round thread ends; a round thread opens its result file, writes a part of it, or
    completes it with [k] states. *)
Inductive event := ESched (ext : nat) | EEnd (i : nat) (normally : bool) | EOpen (i : nat) | EPart (i : nat) | EWrite (i : nat) (k : nat).
Definition with_file (m : mach) (i : nat) (f : rfile) : mach :=
  {| at_ := at_ m; avail := avail m; stat := stat m; flags := flags m; rfiles := fset (rfiles m) i f; sdisk := sdisk m; started := started m |}.
Definition step (c : cfg) (m : mach) (e : event) : mach :=
  let if_running i m' := if is_running (stat m i) then m' else m in
  match e with
  | ESched ext => sched c ext m
  | EEnd i b => if_running i {| at_ := at_ m; avail := avail m; stat := fset (stat m) i (Ended b); flags := flags m;
                                rfiles := rfiles m; sdisk := sdisk m; started := started m |}
  | EOpen i => if_running i (with_file m i REmpty)
  | EPart i => if_running i (with_file m i RPartial)
  | EWrite i k => if_running i (with_file m i (RFull k))
  end.
Definition run (c : cfg) (m : mach) (es : list event) : mach := fold_left (step c) es m.

(** 172-179 with 181-186 again: a second call of [start_all_threads] appends new threads but starts the old ones. *)
Definition again (c : cfg) (m : mach) : mach :=
  {| at_ := PStart 0; avail := Z.of_nat (maxt c); stat := stat m; flags := flags m; rfiles := rfiles m; sdisk := sdisk m;
     started := started m |}.

(** ** 301-348 [recover] *)

(** For a round: is it to be run again ([_recover_arr]), and the StateIO it gets: a new one, or the saved one. *)
Record plan := { rerun : bool; saver : option nat }.
Definition load_round (f : rfile) : res nat :=
  match f with
  | RMissing => Err FileErr
  | REmpty | RPartial => Err GenericErr                                                   (* EOFError, UnpicklingError *)
  | RFull k => Ok k
  end.
Definition recover_round (alive : bool) (f : rfile) : res plan :=
  if negb alive then
    match f with
    | RMissing | REmpty => Ok {| rerun := true; saver := None |}                          (* 336-338 *)
    | _ => k <- load_round f ;; Ok {| rerun := false; saver := Some k |}                  (* 331-335 *)
    end
  else
    match f with
    | RMissing => Err FileErr                                                             (* 340: os.path.getsize *)
    | REmpty => Ok {| rerun := true; saver := None |}
    | _ => k <- load_round f ;; Ok {| rerun := true; saver := Some k |}                   (* 345-346 *)
    end.
Definition recover (n : nat) (d : sfile) (files : nat -> rfile) : res (list plan) :=
  match d with
  | SMissing => Err FileErr
  | SPartial => Err GenericErr
  | SFull alive => mapM (fun i => recover_round (alive i) (files i)) (seq 0 n)
  end.
(** 347: the configuration of the recovered object (a new [__alive_thread], the same files). *)
Definition recovered (c : cfg) (ps : list plan) : cfg :=
  {| rounds := rounds c; maxt := maxt c; todo := fun i => match nth_error ps i with Some p => rerun p | None => true end |}.

(** ** 123-140, 158: the checks before starting *)
Definition needed : list string :=
  ["round"; "train_id"; "test_id"; "Ucollection"; "Lcollection"; "saver"; "examples"; "labels"; "global_parameters"]%string.
Definition set_target_function (argname : list string) : res unit :=
  guard (forallb (fun x => existsb (String.eqb x) argname) needed) NameErr.
(** 87-88, 116-117 *)
Definition check_init (train test lab unl : nat) (max_thread : option Z) : res (nat * Z) :=
  _ <- guard (Nat.eqb train test && Nat.eqb test lab && Nat.eqb lab unl)%bool AssertErr ;;
  match max_thread with
  | None => Ok (lab, Z.of_nat lab)
  | Some k => _ <- guard (0 <? k) AssertErr ;; Ok (lab, k)
  end.
Definition start_all_threads (target : bool) : res unit := guard target GenericErr.       (* 164-165 *)
