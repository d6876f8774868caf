(** The main loop of an experiment with AURO, as in examples/AL_settings/query_type.py.
    Simplifications: the labels are exact rationals (the label matrix of the example holds floats); training, scores and the performance on the test set are functions of the
    contents of the label ranking model; a training that raises leaves the model as it was. *)
From Coq Require Import String QArith.
From Verif Require Import Base IndexModel MLModel MiscModel QueryModel MLQueryModel StateModel AuroModel.
Local Open Scope Z_scope.

Inductive outcome := Done | Failed (e : exn).

Definition q_lt (a b : Q) : bool := negb (Qle_bool b a).

(** [query_y[i, j] = v] *)
Definition put_cell (i j : nat) (v : Q) (q : list (list Q)) : list (list Q) := set_nth i (set_nth j v (nth i q [])) q.

(** query_type.py 43-53: the answer of the oracle about two labels of instance [i], written to [query_y]. *)
Definition answer (y : list (list Q)) (i j1 j2 : nat) (qy : list (list Q)) : res (list (list Q)) :=
  row <- py_nth y i ;;
  v1 <- py_nth row j1 ;;                                                                (* 43 *)
  v2 <- py_nth row j2 ;;                                                                (* 44 *)
  Ok (if q_lt v1 0 && q_lt v2 0 then put_cell i j2 (-1) (put_cell i j1 (-1) qy)         (* 45-47 *)
      else if q_lt v2 v1 then put_cell i j2 (1 # 2) (put_cell i j1 1 qy)                (* 48-50 *)
      else put_cell i j2 1 (put_cell i j1 (1 # 2) qy)).                                 (* 51-53 *)

Section Loop.
  (** [B]: a row of features; [M]: the contents of a trained label ranking model. *)
  Context {B M : Type}.
  Variables (X : list B) (y : list (list Q)) (m : nat).
  Variable argsort : list fl -> list nat.
  (** [model.fit(X, y)]. *)
  Variable fit : option M -> list B -> list (list Q) -> res M.
  (** [model.fit(X, y, is_incremental=True)]. *)
  Variable refit : M -> list B -> list (list Q) -> res M.
  Variable scores : M -> list B -> nat * list (list fl).
  (** 62-66: predictions on the test set and [f1_score]. *)
  Variable judge : M -> res Q.
  (** The address of [model], 22. *)
  Variable addr : nat.

  (** [qry]: [query_y]; [strat]: the strategy and the models. *)
  Record astate := { lab : mlic; unl : mlic; qry : list (list Q); strat : auro M; sav : sio mlic mlidx }.

  Definition set_model (st : auro M) (t : M) : auro M := {| heap := set_nth addr (Some t) (heap st); own := own st |}.
  (** 61, 36: an object without parameters is trained from the start in both cases. *)
  Definition refit_at (st : auro M) (xs : list B) (ys : list (list Q)) : res M :=
    match nth addr (heap st) None with Some t => refit t xs ys | None => fit None xs ys end.

  (** 40-70: one round. The unpacking in 40 of what [select] returns for a pool of at most one pair is a ValueError. An
      exception leaves the changes made so far. *)
  Definition auro_round (s : astate) : astate * res unit :=
    let (st, r) := auro_select argsort fit scores X y m (strat s) (MPColl (lab s)) (MPColl (unl s)) (Some addr) (Some (qry s)) in   (* 40 *)
    let fail L U qy st v e := ({| lab := L; unl := U; qry := qy; strat := st; sav := v |}, Err e) in
    match r with
    | Err e => fail (lab s) (unl s) (qry s) st (sav s) e
    | Ok ARest => fail (lab s) (unl s) (qry s) st (sav s) ValueErr
    | Ok (APick i j1 j2) =>
        match answer y (Z.to_nat i) j1 j2 (qry s) with                                  (* 43-53 *)
        | Err e => fail (lab s) (unl s) (qry s) st (sav s) e
        | Ok qy =>
            let sel := [IPair i (Z.of_nat j1); IPair i (Z.of_nat j2)] in
            match ml_update true (lab s) sel with                                       (* 56 *)
            | (L, Err e) => fail L (unl s) qy st (sav s) e
            | (L, Ok _) =>
                match ml_difference_update true (unl s) sel with                        (* 57 *)
                | (U, Err e) => fail L U qy st (sav s) e
                | (U, Ok _) =>
                    match ld <- get_Xy true sel X qy (Z.of_nat m) 0%Q ;;                (* 60 *)
                          refit_at st (fst (fst ld)) (snd (fst ld)) with                (* 61 *)
                    | Err e => fail L U qy st (sav s) e
                    | Ok t =>
                        let st1 := set_model st t in
                        match judge t with                                              (* 62-66 *)
                        | Err e => fail L U qy st1 (sav s) e
                        | Ok q =>
                            let (v, o) := sio_add (sav s) (EState (state_init (inl sel) (SNum q) None None)) in   (* 69-70 *)
                            ({| lab := L; unl := U; qry := qy; strat := st1; sav := v |}, o)
                        end
                    end
                end
            end
        end
    end.

  (** 38: [k] rounds. *)
  Fixpoint auro_rounds (k : nat) (s : astate) : astate * outcome :=
    match k with
    | O => (s, Done)
    | S k' => match auro_round s with
              | (s1, Err e) => (s1, Failed e)
              | (s1, Ok _) => auro_rounds k' s1
              end
    end.

  (** 29-38: a new saver, a copy of the labels, the first training, the rounds. *)
  Definition auro_main (tr te : list mlidx) (L U : mlic) (st : auro M) (k : nat) : astate * outcome :=
    let v := sio_new tr te L U in                                                       (* 31 *)
    match ld <- get_Xy false (mcont L) X y (Z.of_nat m) 0%Q ;;                          (* 35 *)
          fit (nth addr (heap st) None) (fst (fst ld)) (snd (fst ld)) with              (* 36 *)
    | Err e => ({| lab := L; unl := U; qry := y; strat := st; sav := v |}, Failed e)
    | Ok t => auro_rounds k {| lab := L; unl := U; qry := y; strat := set_model st t; sav := v |}
    end.
End Loop.
Arguments astate : clear implicits.
