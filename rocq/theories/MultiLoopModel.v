(** The main loop of a multi-label experiment, as in examples/AL_settings/multi label.py. *)
From Verif Require Import Base IndexModel MLModel StateModel.
From Coq Require Import String QArith.
Local Open Scope Z_scope.

(** What [strategy.select] returns: a list of indexes; the caller's collection of unlabelled entries
    itself (multi_label.py 452-453, 561-562, 1189-1190, 1196-1197), which holds a set; or a list of plain
    instances (multi_label.py 960-961, 1147-1148). *)
Inductive answer := Picked (l : list mlidx) | ThePool | PlainList (l : list Z).

(** How the loop stands: still running after the given number of rounds, left by its condition, or
    left by an exception. *)
Inductive outcome := Running | Done | Failed (e : exn).

Section Loop.
  Context {A B M : Type}.
  Variables (X : list B) (y : list (list A)) (m : nat) (unknown : A).
  (** [model.fit(X, y)], [model.fit(X, y, is_incremental=True)], the performance of a model on the test data, and the strategy,
      which may depend on the round (random choices), the model and the two collections. *)
  Variables (fit0 fit : M -> list B -> list (list A) -> res M) (perf : M -> Q)
            (strat : nat -> M -> mlic -> mlic -> res answer) (budget : Z).

  Record mstate := { lab : mlic; unl : mlic; mdl : M; sav : sio mlic mlidx }.

  (** multi label.py 50-53: [if len(select_labs[0]) == 1: cost = mult_y.shape[1]], else
      [len(select_labs)]. A set has no [__getitem__] (AttributeError), an integer no [len]
      (TypeError), an empty list no first element (IndexError). *)
  Definition cost_for (a : answer) : res Z :=
    match a with
    | ThePool => Err AttrErr
    | PlainList [] => Err IndexErr
    | PlainList _ => Err TypeErr
    | Picked [] => Err IndexErr
    | Picked (x :: l) => Ok (if len_is_1 x then Z.of_nat m else Z.of_nat (List.length (x :: l)))
    end.

  (** multi label.py 42-67: one turn of the loop. An exception leaves the changes made so far. The file that
      [saver.save()] writes is the subject of C17 and C98. *)
  Definition ml_turn (k : nat) (s : mstate) : mstate * res unit :=
    match strat k (mdl s) (lab s) (unl s) with
    | Err e => (s, Err e)
    | Ok a =>
        match cost_for a, a with
        | Err e, _ => (s, Err e)
        | Ok c, Picked l =>
            match ml_update true (lab s) l with                                        (* 54 *)
            | (lab1, Err e) => ({| lab := lab1; unl := unl s; mdl := mdl s; sav := sav s |}, Err e)
            | (lab1, Ok _) =>
                match ml_difference_update true (unl s) l with                         (* 55 *)
                | (unl1, Err e) => ({| lab := lab1; unl := unl1; mdl := mdl s; sav := sav s |}, Err e)
                | (unl1, Ok _) =>
                    let s1 := {| lab := lab1; unl := unl1; mdl := mdl s; sav := sav s |} in
                    match get_Xy true l X y (Z.of_nat m) unknown with                  (* 58 *)
                    | Err e => (s1, Err e)
                    | Ok (xs, ys, _) =>
                        match fit (mdl s) xs ys with                                   (* 59 *)
                        | Err e => (s1, Err e)
                        | Ok t =>
                            let st := state_init (inl l) (SNum (perf t)) None (Some (SNum (inject_Z c))) in
                            match sio_add (sav s) (EState st) with                     (* 65-66 *)
                            | (v, Err e) => ({| lab := lab1; unl := unl1; mdl := t; sav := v |}, Err e)
                            | (v, Ok _) => ({| lab := lab1; unl := unl1; mdl := t; sav := v |}, Ok tt)
                            end
                        end
                    end
                end
            end
        | Ok _, _ => (s, Err TypeErr)
        end
    end.

  (** multi label.py 41: [while len(label_ind) - ini_lab_num <= 120]; the number is [budget]. *)
  Fixpoint ml_rounds (fuel k : nat) (ini : Z) (s : mstate) : mstate * outcome :=
    if Z.of_nat (List.length (mcont (lab s))) - ini <=? budget then
      match fuel with
      | O => (s, Running)
      | S f =>
          match ml_turn k s with
          | (s1, Err e) => (s1, Failed e)
          | (s1, Ok _) => ml_rounds f (S k) ini s1
          end
      end
    else (s, Done).

  (** multi label.py 35-41: the first fit on the initially labelled entries, then the loop. [t00] is the
      model before the loop. *)
  Definition ml_main (fuel : nat) (t00 : M) (L U : mlic) (saver : sio mlic mlidx) : mstate * outcome :=
    match get_Xy false (mcont L) X y (Z.of_nat m) unknown with
    | Err e => ({| lab := L; unl := U; mdl := t00; sav := saver |}, Failed e)
    | Ok (xs, ys, _) =>
        match fit0 t00 xs ys with
        | Err e => ({| lab := L; unl := U; mdl := t00; sav := saver |}, Failed e)
        | Ok t0 =>
            ml_rounds fuel 0 (Z.of_nat (List.length (mcont L))) {| lab := L; unl := U; mdl := t0; sav := saver |}
        end
    end.
End Loop.
