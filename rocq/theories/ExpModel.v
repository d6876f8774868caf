(** Model of [AlExperiment] (alipy/experiment/al_experiment.py): running the folds one after another
    ([start_query(multi_thread=False)]) and in threads that share the one model object.

    Simplifications: [fit] and [predict] are atomic, so that the shared model is identified with the indexes it was fitted on
    last (real interleavings inside [fit] can only do worse); the performance is an arbitrary function of these indexes and of
    the test indexes; a strategy is an arbitrary function of the fitted indexes, the queries so far and the current sets;
    [clock k] is the time of a fold's [k]-th test of the stopping criterion; files and printing are left out. *)
From Verif Require Import Base IndexModel StateModel.
From Coq Require Import String QArith.
Local Open Scope Z_scope.

(** One entry of train_idx, test_idx, label_idx, unlabel_idx (al_experiment.py 105-118, 247-254). *)
Record fold := { f_train : list pyval; f_test : list pyval; f_label : icdata; f_unlabel : icdata }.
(** The collections made from a fold: 366-367, and in [StateIO.__init__] (state_io.py 90-104, non-empty plain indexes). *)
Definition fold_L (f : fold) : icol := fst (ic_init (f_label f)).
Definition fold_U (f : fold) : icol := fst (ic_init (f_unlabel f)).
Definition fold_io (f : fold) : sio icol pyval := sio_new (f_train f) (f_test f) (fold_L f) (fold_U f).

(** A result: the recorder with its initial point. *)
Record result := { x_init : sval pyval; x_io : sio icol pyval }.

Section Experiment.
  (** The performance on the second indexes of the model fitted on the first. *)
  Variable perf : list pyval -> list pyval -> sval pyval.

  (** *** 346-359: [start_query(multi_thread=False)] *)

  (** 361-422 for one fold.  The model is fitted on the labelled indexes just before each use (368, 408). *)
  Definition run_fold (fuel : nat) (strat : list pyval -> list (list pyval) -> icol -> icol -> list pyval) (clock : nat -> Q)
             (f : fold) (c : scrit) : sval pyval * outcome :=
    (perf (cont (fold_L f)) (f_test f),                                                   (* 383, 387 *)
     al_loop ic_update ic_difference_update ic_len fuel (fun h L U => strat (cont L) h L U)
             (fun _ L => perf (cont L) (f_test f)) clock [] (fold_L f) (fold_U f) (fold_io f) c).

  (** 352-359: the results are appended to those already there; an exception ends the loop.  [None]: out of fuel. *)
  Fixpoint run_rounds (fuel : nat) (strat : nat -> list pyval -> list (list pyval) -> icol -> icol -> list pyval)
           (clock : nat -> nat -> Q) (c : scrit) (r : nat) (folds : list fold) (acc : list result)
    : option (list result * res unit) :=
    match folds with
    | [] => Some (acc, Ok tt)
    | f :: fs =>
        match run_fold fuel (strat r) (clock r) f c with
        | (p, Done _ _ s _) => run_rounds fuel strat clock c (S r) fs (acc ++ [{| x_init := p; x_io := s |}])
        | (_, Raised e) => Some (acc, Err e)
        | (_, OutOfFuel) => None
        end
    end.

  (** *** 331-345: [start_query(multi_thread=True)] *)

  (** Where a thread is in the main loop (361-422). *)
  Inductive place := PFit0 | PPred0 | PTest | PSelect | PFit | PPred | PDone | PRaised (e : exn).
  Record thread := {
    t_at : place; t_L : icol; t_U : icol; t_io : sio icol pyval; t_init : option (sval pyval);
    t_crit : scrit; t_hist : list (list pyval); t_sel : list pyval }.
  (** The threads, and the fits of the shared model so far: thread and indexes, the latest first. *)
  Record mach := { m_th : nat -> thread; m_fits : list (nat * list pyval) }.

  Definition set_th (m : mach) (i : nat) (t : thread) : nat -> thread := fun j => if Nat.eqb j i then t else m_th m j.
  Definition goto (t : thread) (p : place) : thread :=
    {| t_at := p; t_L := t_L t; t_U := t_U t; t_io := t_io t; t_init := t_init t; t_crit := t_crit t;
       t_hist := t_hist t; t_sel := t_sel t |}.

  (** multi_thread.py 88-104, 160-166: the threads start with the collections of their recorder, the criterion is copied (386). *)
  Definition new_thread (f : fold) (c : scrit) : thread :=
    {| t_at := PFit0; t_L := fold_L f; t_U := fold_U f; t_io := fold_io f; t_init := None; t_crit := c;
       t_hist := []; t_sel := [] |}.
  Definition new_mach (folds : list fold) (none : fold) (c : scrit) : mach :=
    {| m_th := fun i => new_thread (nth i folds none) c; m_fits := [] |}.

  (** One step of thread [i]. *)
  Definition thread_step (strat : list pyval -> list (list pyval) -> icol -> icol -> list pyval) (clock : nat -> Q)
             (i : nat) (fits : list (nat * list pyval)) (t : thread) : thread * list (nat * list pyval) :=
    match t_at t with
    | PFit0 => (goto t PPred0, (i, cont (t_L t)) :: fits)                                  (* 368 *)
    | PPred0 =>                                                                            (* 369, 383, 387 *)
        match fits with
        | [] => (goto t (PRaised GenericErr), fits)
        | (_, d) :: _ =>
            ({| t_at := PTest; t_L := t_L t; t_U := t_U t; t_io := t_io t; t_init := Some (perf d (s_test (t_io t)));
                t_crit := t_crit t; t_hist := t_hist t; t_sel := t_sel t |}, fits)
        end
    | PTest =>                                                                             (* 389 *)
        match sc_is_stop (t_crit t) (clock (List.length (t_hist t))) with
        | Err e => (goto t (PRaised e), fits)
        | Ok true => (goto t PDone, fits)
        | Ok false => (goto t PSelect, fits)
        end
    | PSelect =>                                                                           (* 390-406 *)
        match fits with
        | [] => (goto t (PRaised GenericErr), fits)
        | (_, d) :: _ =>
            let sel := strat d (t_hist t) (t_L t) (t_U t) in
            match ic_update (t_L t) sel with
            | (_, Err e) => (goto t (PRaised e), fits)
            | (L', Ok _) =>
                match ic_difference_update (t_U t) sel with
                | (_, Err e) => (goto t (PRaised e), fits)
                | (U', Ok _) =>
                    ({| t_at := PFit; t_L := L'; t_U := U'; t_io := t_io t; t_init := t_init t; t_crit := t_crit t;
                        t_hist := t_hist t; t_sel := sel |}, fits)
                end
            end
        end
    | PFit => (goto t PPred, (i, cont (t_L t)) :: fits)                                    (* 408 *)
    | PPred =>                                                                             (* 409-420 *)
        match fits with
        | [] => (goto t (PRaised GenericErr), fits)
        | (_, d) :: _ =>
            match sio_add (t_io t) (EState (state_init (inl (t_sel t)) (perf d (s_test (t_io t))) None None)) with
            | (_, Err e) => (goto t (PRaised e), fits)
            | (io', Ok _) =>
                match sc_update ic_update ic_difference_update ic_len (t_crit t) io' with
                | (_, Err e) => (goto t (PRaised e), fits)
                | (c', Ok _) =>
                    ({| t_at := PTest; t_L := t_L t; t_U := t_U t; t_io := io'; t_init := t_init t; t_crit := c';
                        t_hist := t_hist t ++ [t_sel t]; t_sel := t_sel t |}, fits)
                end
            end
        end
    | PDone | PRaised _ => (t, fits)
    end.

  Definition mach_step (strat : nat -> list pyval -> list (list pyval) -> icol -> icol -> list pyval) (clock : nat -> nat -> Q)
             (m : mach) (i : nat) : mach :=
    let (t, fits) := thread_step (strat i) (clock i) i (m_fits m) (m_th m i) in
    {| m_th := set_th m i t; m_fits := fits |}.
  (** A schedule: which thread makes each step. *)
  Definition mach_run (strat : nat -> list pyval -> list (list pyval) -> icol -> icol -> list pyval) (clock : nat -> nat -> Q)
             (m : mach) (es : list nat) : mach := fold_left (mach_step strat clock) es m.
End Experiment.
