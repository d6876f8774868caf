(** Comparing strategies on the folds of one toolbox, as in examples/AL_settings/query_instance.py (line numbers without a file
    are of this file): one call of [main_loop] after another, with one model and one stopping criterion for all of them.

    Simplifications as in ExpModel: the model is fitted on the labelled indexes just before each use (30, 46), so that its
    performance is an arbitrary function of these and of the test indexes, which may raise; a strategy is an arbitrary function of
    the fitted indexes, its queries so far and the current sets, which may raise; printing is left out. *)
From Verif Require Import Base IndexModel StateModel ExpModel.
From Coq Require Import String QArith DecimalString.
Local Open Scope Z_scope.

(** A call of [main_loop]: the fold, the strategy, the time of each test of the criterion, what happens in each [saver.save()]
    (an exception of the file system, or an interruption by the user, which may come at any point before it), and the time at
    its end. *)
Record call := {
  k_fold : fold;
  k_strat : list pyval -> list (list pyval) -> icol -> icol -> res (list pyval);
  k_clock : nat -> Q;
  k_save : nat -> res unit;
  k_end : Q }.

Section Compare.
  Variable perf : list pyval -> list pyval -> res (sval pyval).

  (** 38-60: the loop, and [stopping_criterion.reset()] behind it. What is returned or raised, and the criterion it leaves.
      [None]: out of fuel. *)
  Fixpoint compare_loop (fuel : nat) (k : call) (hist : list (list pyval)) (L U : icol) (io : sio icol pyval) (c : scrit)
    : option (res (sio icol pyval) * scrit) :=
    match sc_is_stop c (k_clock k (List.length hist)) with                                                   (* 38 *)
    | Err e => Some (Err e, c)
    | Ok true => Some (Ok io, sc_reset c (k_end k))                                                          (* 60 *)
    | Ok false =>
        match fuel with
        | O => None
        | S fuel' =>
            match k_strat k (cont L) hist L U with                                                           (* 41 *)
            | Err e => Some (Err e, c)
            | Ok sel =>
                match ic_update L sel with                                                                   (* 42 *)
                | (_, Err e) => Some (Err e, c)
                | (L', Ok _) =>
                    match ic_difference_update U sel with                                                    (* 43 *)
                    | (_, Err e) => Some (Err e, c)
                    | (U', Ok _) =>
                        match perf (cont L') (f_test (k_fold k)) with                                        (* 46-50 *)
                        | Err e => Some (Err e, c)
                        | Ok p =>
                            match sio_add io (EState (state_init (inl sel) p None None)) with                (* 53-54 *)
                            | (_, Err e) => Some (Err e, c)
                            | (io', Ok _) =>
                                match k_save k (List.length hist) with                                       (* 55 *)
                                | Err e => Some (Err e, c)
                                | Ok _ =>
                                    match sc_update ic_update ic_difference_update ic_len c io' with         (* 58 *)
                                    | (c', Err e) => Some (Err e, c')
                                    | (c', Ok _) => compare_loop fuel' k (hist ++ [sel]) L' U' io' c'
                                    end
                                end
                            end
                        end
                    end
                end
            end
        end
    end.

  (** 23-61 [main_loop]; the collections and the recorder are made from the fold (25-27; toolbox.py 286-303, 350-354). *)
  Definition compare_call (fuel : nat) (c : scrit) (k : call) : option (res result * scrit) :=
    let f := k_fold k in
    match perf (cont (fold_L f)) (f_test f) with                                                             (* 30-35 *)
    | Err e => Some (Err e, c)
    | Ok p => match compare_loop fuel k [] (fold_L f) (fold_U f) (fold_io f) c with
              | Some (Ok io, c') => Some (Ok {| x_init := p; x_io := io |}, c')
              | Some (Err e, c') => Some (Err e, c')
              | None => None
              end
    end.

  (** 78-110: one call after another with the same criterion; the user goes on after an exception. *)
  Fixpoint compare_all (fuel : nat) (c : scrit) (ks : list call) : option (list (res result) * scrit) :=
    match ks with
    | [] => Some ([], c)
    | k :: ks' => match compare_call fuel c k with
                  | Some (r, c') => match compare_all fuel c' ks' with
                                    | Some (rs, c'') => Some (r :: rs, c'')
                                    | None => None
                                    end
                  | None => None
                  end
    end.
End Compare.

(** 27: the name of the file of a call: the class of the strategy and the round. *)
Definition compare_file (cls : string) (round : nat) : string :=
  (cls ++ "_" ++ NilZero.string_of_uint (Nat.to_uint round) ++ ".pkl")%string.
