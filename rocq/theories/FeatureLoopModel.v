(** The main loop of an experiment that acquires feature values, as in examples/AL_settings/feature_querying.py.
    Simplifications: the matrices are exact ([fmat]); the training indexes are an array; the strategy is a
    function with a state of its own, the matrix completion and the quality of the classifier trained on the
    completed matrix are functions. *)
From Verif Require Import Base IndexModel MLModel MiscModel QueryModel FeatureModel StateModel SelfModel.
From Coq Require Import String QArith.
Local Open Scope Z_scope.

(** [update] and [difference_update] with a selection out of the record (state_io.py 291-292). An empty selection
    in the record is the copy of a collection that was empty (a strategy that returns an empty list never gets
    that far), and a collection is not checked; the other selections are lists. *)
Definition rec_update (c : mlic) (l : list mlidx) : mlic * res (list warning) :=
  ml_update (match l with [] => false | _ => true end) c l.
Definition rec_difference (c : mlic) (l : list mlidx) : mlic * res (list warning) :=
  ml_difference_update (match l with [] => false | _ => true end) c l.
Definition ml_len (c : mlic) : nat := List.length (mcont c).

Inductive outcome := Running | Done | Failed (e : exn).

Section Loop.
  (** [T]: the states of the strategy. *)
  Context {T : Type}.
  Variables (train : list Z) (native : bool).
  (** [strategy.select]; the data it was made with is its first argument. *)
  Variable strat : fmat -> T -> mlic -> mlic -> T * res ml_choice.
  (** The completion of the rows of the training set, given the observed entries by position. *)
  Variable complete : fmat -> mlic -> res fmat.
  (** [model.fit], [model.predict], [accuracy_score] for the completed matrix; the labels and the test data are fixed,
      and a fit forgets the earlier ones. *)
  Variable score : fmat -> res Q.
  Variable X : fmat.

  (** [fits]: the matrices the classifier was trained on. *)
  Record fstate := { lab : mlic; unl : mlic; sav : sio mlic mlidx; crit : scrit; own : T; fits : list fmat }.

  (** feature_querying.py 47-49 (83-84, 116-117): [map_whole_index_to_train], then the completion of [X[train_idx]]. *)
  Definition completed (L : mlic) : res fmat :=
    cw <- map_to_train_ml (NdArray train) native L ;;
    rows <- rows_at X train ;;
    complete rows (fst cw).

  (** feature_querying.py 40-59 (75-93, 108-126): one turn. An exception leaves the changes made so far. The selection that [State]
      copies (55) may be the collection of unknown entries itself, which is empty by then. *)
  Definition feature_turn (s : fstate) : fstate * res unit :=
    let (t, r) := strat X (own s) (lab s) (unl s) in                                    (* 41 *)
    match r with
    | Err e => ({| lab := lab s; unl := unl s; sav := sav s; crit := crit s; own := t; fits := fits s |}, Err e)
    | Ok a =>
        match ml_round (lab s) (unl s) (match a with TheRest => Itself | Chosen l => Listed l end) with  (* 44-45 *)
        | ((L, U), Err e) => ({| lab := L; unl := U; sav := sav s; crit := crit s; own := t; fits := fits s |}, Err e)
        | ((L, U), Ok _) =>
            match completed L with                                                      (* 48-49 *)
            | Err e => ({| lab := L; unl := U; sav := sav s; crit := crit s; own := t; fits := fits s |}, Err e)
            | Ok M =>
                match score M with                                                      (* 50-52 *)
                | Err e => ({| lab := L; unl := U; sav := sav s; crit := crit s; own := t; fits := fits s ++ [M] |}, Err e)
                | Ok q =>
                    let sel := match a with TheRest => mcont U | Chosen l => l end in
                    let (v, o) := sio_add (sav s) (EState (state_init (inl sel) (SNum q) None None)) in   (* 55-56 *)
                    match o with
                    | Err e => ({| lab := L; unl := U; sav := v; crit := crit s; own := t; fits := fits s ++ [M] |}, Err e)
                    | Ok _ =>
                        let (c, o) := sc_update rec_update rec_difference ml_len (crit s) v in            (* 59 *)
                        ({| lab := L; unl := U; sav := v; crit := c; own := t; fits := fits s ++ [M] |}, o)
                    end
                end
            end
        end
    end.

  (** feature_querying.py 39: [while not stopping_criterion.is_stop()], at most [n] turns; [clock j] is the time of the
      [j]-th test. *)
  Fixpoint feature_rounds (clock : nat -> Q) (n j : nat) (s : fstate) : fstate * outcome :=
    match sc_is_stop (crit s) (clock j) with
    | Err e => (s, Failed e)
    | Ok true => (s, Done)
    | Ok false =>
        match n with
        | O => (s, Running)
        | S n' => match feature_turn s with
                  | (s1, Err e) => (s1, Failed e)
                  | (s1, Ok _) => feature_rounds clock n' (S j) s1
                  end
        end
    end.

  (** feature_querying.py 32-62: the loop of one fold; [L] and [U] are made of the split, the saver copies them; the
      criterion is reset (61) when the condition ends the loop. *)
  Definition feature_loop (tr te : list mlidx) (L U : mlic) (c : scrit) (t : T) (clock : nat -> Q) (n : nat) : fstate * outcome :=
    let '(s, o) := feature_rounds clock n 0 {| lab := L; unl := U; sav := sio_new tr te L U; crit := c; own := t; fits := [] |} in
    (match o with
     | Done => {| lab := lab s; unl := unl s; sav := sav s; crit := sc_reset (crit s) (clock n); own := own s; fits := fits s |}
     | _ => s
     end, o).
End Loop.
Arguments fstate : clear implicits.

(** feature_querying.py 49 [AFASMC_mc(X=X[train_idx], y=y[train_idx], omega=lab_in_train)], with [f] features. *)
Definition afasmc_completion (steps : fmat -> list (list Z) -> nat -> nat -> Q * fmat) (max_in max_out f : nat)
    (rows : fmat) (omega : mlic) : res fmat := afasmc_mc steps max_in max_out rows f omega.

(** feature_querying.py 84, 117 [SVD_mc.impute(X[train_idx], observed_mask=lab_in_train.get_matrix_mask(...))]. *)
Definition svd_completion (svd : nat -> fmat -> res fmat) (s : isvd) (f : nat) (rows : fmat) (omega : mlic) : res fmat :=
  mask <- ml_mask omega (List.length rows) f 1 false ;;
  impute svd s rows mask true.

(** feature_querying.py 37, 41 [QueryFeatureAFASMC(X=X, y=y, train_idx=train_idx).select(...)]. *)
Definition afasmc_strategy (steps : fmat -> list (list Z) -> nat -> nat -> Q * fmat) (max_in max_out f : nat) (native : bool)
    (X : fmat) (t : afasmc) (L U : mlic) : afasmc * res ml_choice :=
  afasmc_select steps max_in max_out X f t native (MPColl L) (MPColl U).

(** feature_querying.py 72, 76 [QueryFeatureStability(...)]: its state is the training set. *)
Definition stability_strategy (svd : nat -> fmat -> res fmat) (ranks : list nat) (f : nat) (native : bool)
    (X : fmat) (t : option train_arr) (L U : mlic) : option train_arr * res ml_choice :=
  stability_select svd ranks X f t native (MPColl L) (MPColl U).

(** feature_querying.py 105, 109 [QueryFeatureRandom()]: its state is the sequence of permutations still to be drawn, for each
    size of the pool. *)
Definition random_strategy (f : nat) (X : fmat) (t : nat -> nat -> list nat) (L U : mlic) : (nat -> nat -> list nat) * res ml_choice :=
  (fun k => t (S k), feature_random (Z.of_nat (List.length X)) (Z.of_nat f) (MPColl U) 1 (t 0%nat (ml_len U))).
