(** Model of a round run by [aceThreading] (alipy/utils/multi_thread.py) with the main loop of the documentation
    (test/test_recover_multithreads.py 25-47), interrupted at any point and resumed by [aceThreading.recover]
    (multi_thread.py 301-348) and [__init_threads] (167-179).

    The records are the [StateIO] of StateModel.v.  Every statement of the loop that changes the sets, the record or the file
    is a step of its own.  Simplifications: the selection, performance and cost of a query are those of an arbitrary user; the
    loop may end before any query, which needs no step; what the other rounds do is left out (each has its own file). *)
From Verif Require Import Base IndexModel StateModel.
From Coq Require Import QArith.
Local Open Scope Z_scope.

Section Round.
  Context {C E : Type}.
  Variables (upd diff : C -> list E -> C * res (list warning)).
  Variables (train test : list E) (L0 U0 : C).

  (** The file AL_round_i.pkl (state_io.py 157-163): absent, opened and empty, partly written, complete. *)
  Inductive rdisk := DMissing | DEmpty | DPart | DFull (s : sio C E).
  (** Where the thread is: before a query; before each of the statements 34, 35, 46, and of the three steps of [saver.save()]
      (47); ended, with the exception if one was raised. *)
  Inductive rpc :=
  | QSelect
  | QDiff (sel : list E) (perf : sval E) (cost : option Q)
  | QUpd (sel : list E) (perf : sval E) (cost : option Q)
  | QAdd (sel : list E) (perf : sval E) (cost : option Q)
  | QOpen | QPart | QWrite
  | QEnd (e : option exn).
  (** Memory and disk; [r_asked] is every selection made so far, [r_crashes] the number of interruptions. *)
  Record round := { r_pc : rpc; r_L : C; r_U : C; r_saver : sio C E; r_disk : rdisk; r_asked : list (list E); r_crashes : nat }.

  (** multi_thread.py 89-109: the record of a round that has not begun. *)
  Definition fresh : sio C E := sio_new train test L0 U0.
  (** multi_thread.py 173-177: a round begins with the sets of its record. *)
  Definition r_start (d : rdisk) : round :=
    {| r_pc := QSelect; r_L := L0; r_U := U0; r_saver := fresh; r_disk := d; r_asked := []; r_crashes := 0 |}.

  (** multi_thread.py 326-347: is the round to be run, and with which record; [alive] is the flag of the state file. *)
  Definition resume (alive : bool) (d : rdisk) : res (bool * sio C E) :=
    if negb alive then
      match d with
      | DMissing | DEmpty => Ok (true, fresh)              (* 336-338 *)
      | DPart => Err GenericErr                            (* UnpicklingError *)
      | DFull s => Ok (false, s)                           (* 331-335 *)
      end
    else
      match d with
      | DMissing => Err FileErr                            (* 340 *)
      | DEmpty => Ok (true, fresh)                         (* 341-342 *)
      | DPart => Err GenericErr
      | DFull s => Ok (true, s)                            (* 345-346 *)
      end.

  Definition at_pc (r : round) (p : rpc) : round :=
    {| r_pc := p; r_L := r_L r; r_U := r_U r; r_saver := r_saver r; r_disk := r_disk r; r_asked := r_asked r; r_crashes := r_crashes r |}.
  Definition on_disk (r : round) (p : rpc) (d : rdisk) : round :=
    {| r_pc := p; r_L := r_L r; r_U := r_U r; r_saver := r_saver r; r_disk := d; r_asked := r_asked r; r_crashes := r_crashes r |}.

  (** A step of the thread, whose next selection, performance and cost are given; or an interruption of the process followed
      by [recover] and [start_all_threads].  If recovering fails, the memory of the old process is not used any more. *)
  Inductive revent := Go (sel : list E) (perf : sval E) (cost : option Q) | Crash (alive : bool).
  Definition r_step (r : round) (ev : revent) : round :=
    match ev with
    | Go sel perf cost =>
        match r_pc r with
        | QSelect => {| r_pc := QDiff sel perf cost; r_L := r_L r; r_U := r_U r; r_saver := r_saver r; r_disk := r_disk r;
                        r_asked := r_asked r ++ [sel]; r_crashes := r_crashes r |}           (* 33 *)
        | QDiff s p c =>
            match diff (r_U r) s with
            | (_, Err e) => at_pc r (QEnd (Some e))
            | (u, Ok _) => {| r_pc := QUpd s p c; r_L := r_L r; r_U := u; r_saver := r_saver r; r_disk := r_disk r;
                              r_asked := r_asked r; r_crashes := r_crashes r |}              (* 34 *)
            end
        | QUpd s p c =>
            match upd (r_L r) s with
            | (_, Err e) => at_pc r (QEnd (Some e))
            | (l, Ok _) => {| r_pc := QAdd s p c; r_L := l; r_U := r_U r; r_saver := r_saver r; r_disk := r_disk r;
                              r_asked := r_asked r; r_crashes := r_crashes r |}              (* 35 *)
            end
        | QAdd s p c =>
            match sio_add (r_saver r) (EState (state_init (inl s) p None (option_map SNum c))) with
            | (_, Err e) => at_pc r (QEnd (Some e))
            | (sv, Ok _) => {| r_pc := QOpen; r_L := r_L r; r_U := r_U r; r_saver := sv; r_disk := r_disk r;
                               r_asked := r_asked r; r_crashes := r_crashes r |}             (* 43-46 *)
            end
        | QOpen => on_disk r QPart DEmpty                                                    (* state_io.py 161 *)
        | QPart => on_disk r QWrite DPart                                                    (* 162 *)
        | QWrite => on_disk r QSelect (DFull (r_saver r))                                    (* 162-163 *)
        | QEnd _ => r
        end
    | Crash alive =>
        let fail e := {| r_pc := QEnd (Some e); r_L := r_L r; r_U := r_U r; r_saver := r_saver r; r_disk := r_disk r;
                         r_asked := r_asked r; r_crashes := S (r_crashes r) |} in
        match resume alive (r_disk r) with
        | Err e => fail e
        | Ok (rerun, sv) =>
            match sio_workspace upd diff sv None with                                        (* 176 *)
            | Err e => fail e
            | Ok (_, _, l, u) => {| r_pc := if rerun then QSelect else QEnd None; r_L := l; r_U := u; r_saver := sv;
                                    r_disk := r_disk r; r_asked := r_asked r; r_crashes := S (r_crashes r) |}
            end
        end
    end.
  Definition r_run (r : round) (evs : list revent) : round := fold_left r_step evs r.
End Round.
Arguments rdisk : clear implicits.
Arguments rpc : clear implicits.
Arguments round : clear implicits.
Arguments revent : clear implicits.
