(** The main loop of an experiment with noisy oracles, as in examples/AL_settings/noisy_oracles.py. *)
From Verif Require Import Base IndexModel MLModel StateModel OracleModel RepoModel.
From Coq Require Import String QArith.
Local Open Scope Z_scope.

(** What [strategy.select] returns: an instance (in a list of one element) with the names of oracles, or
    the array of the unlabelled indexes alone (noisy_oracles.py 447-448 of query_strategy). *)
Inductive answer := Two (k : Z) (names : list string) | Alone.

(** How the loop stands: still running after the given number of rounds, left by its condition, or
    left by an exception. *)
Inductive outcome := Running | Done | Failed (e : exn).

(** [self._y[index]] for one index; negative indexes count from the end. *)
Definition label_at (y : list Z) (i : Z) : res mlabel :=
  match py_index (List.length y) i with
  | None => Err IndexErr
  | Some p => rmap LNum (py_nth y p)
  end.

(** toolbox.py 375-380 [get_repository], query type 'AllLabels', without examples: the labelled indexes
    of the split with their true labels. A string is no index of an array. *)
Definition first_repository (y : list Z) (L : icol) : res mrepo :=
  ls <- mapM (fun k => match k with KInt z => Ok z | KStr _ => Err IndexErr end) (map norm (cont L)) ;;
  labels <- mapM (label_at y) ls ;; mr_init labels ls None.

(** The one-dimensional label array refuses a label with a length (knowledge_repository.py 380-383); strings have one. *)
Definition as_label (l : key) : res mlabel := match l with KInt z => Ok (LNum z) | KStr _ => Err TypeErr end.

Section Loop.
  Context {T : Type}.
  (** The strategy with its own state [T] (it may depend on random numbers, and read the oracles), and the
      performance on the test data of the model fitted on the given instances and labels. *)
  Variables (strat : T -> icol -> icol -> T * res answer) (train : list Z -> list mlabel -> res Q).

  Record nstate := {
    lab : icol; unl : icol; repo : mrepo; sav : sio icol pyval; crit : scrit; oracles : pool;
    own : T;
    fits : list (list Z * list mlabel)      (* the training sets given to [model.fit] so far *)
  }.

  (** noisy_oracles.py 69-87: one turn of the loop. An exception leaves the changes made so far. *)
  Definition turn (s : nstate) : nstate * res unit :=
    let (own1, a) := strat (own s) (lab s) (unl s) in                                  (* 71 *)
    let s1 := {| lab := lab s; unl := unl s; repo := repo s; sav := sav s; crit := crit s;
                 oracles := oracles s; own := own1; fits := fits s |} in
    match a with
    | Err e => (s1, Err e)
    | Ok Alone => (s1, Err ValueErr)                                                   (* not two values to unpack *)
    | Ok (Two k names) =>
        let (p, v) := get_majority_vote_pool (oracles s) [KInt k] (Some names) in       (* 72 *)
        let s2 := {| lab := lab s; unl := unl s; repo := repo s; sav := sav s; crit := crit s;
                     oracles := p; own := own1; fits := fits s |} in
        match v with
        | Err e => (s2, Err e)
        | Ok (_, l, c) =>
            match as_label l with
            | Err e => (s2, Err e)
            | Ok z =>
                match mr_update (repo s) [z] [k] None None with                        (* 73 *)
                | (r, Err e) => ({| lab := lab s; unl := unl s; repo := r; sav := sav s; crit := crit s;
                                    oracles := p; own := own1; fits := fits s |}, Err e)
                | (r, Ok _) =>
                    match ic_update (lab s) [VNp (KInt k)] with                        (* 76 *)
                    | (L, Err e) => ({| lab := L; unl := unl s; repo := r; sav := sav s; crit := crit s;
                                        oracles := p; own := own1; fits := fits s |}, Err e)
                    | (L, Ok _) =>
                        match ic_difference_update (unl s) [VNp (KInt k)] with         (* 77 *)
                        | (U, Err e) => ({| lab := L; unl := U; repo := r; sav := sav s; crit := crit s;
                                            oracles := p; own := own1; fits := fits s |}, Err e)
                        | (U, Ok _) =>
                            let '(_, ys, ids) := mr_training r in                      (* 80 *)
                            let f := fits s ++ [(ids, ys)] in                          (* 81 *)
                            match train ids ys with                                    (* 81-83 *)
                            | Err e => ({| lab := L; unl := U; repo := r; sav := sav s; crit := crit s;
                                           oracles := p; own := own1; fits := f |}, Err e)
                            | Ok q =>
                                let st := state_init (inl [VNp (KInt k)]) (SNum q) None (Some (SNum c)) in
                                match sio_add (sav s) (EState st) with                 (* 86-87 *)
                                | (v1, Err e) => ({| lab := L; unl := U; repo := r; sav := v1; crit := crit s;
                                                     oracles := p; own := own1; fits := f |}, Err e)
                                | (v1, Ok _) =>
                                    let (c1, o) := sc_update ic_update ic_difference_update ic_len (crit s) v1 in (* 89 *)
                                    ({| lab := L; unl := U; repo := r; sav := v1; crit := c1;
                                        oracles := p; own := own1; fits := f |}, o)
                                end
                            end
                        end
                    end
                end
            end
        end
    end.

  (** noisy_oracles.py 69: [while not stopping_criterion.is_stop()], at most [n] rounds; [clock j] is
      the time of the [j]-th test. *)
  Fixpoint rounds (clock : nat -> Q) (n j : nat) (s : nstate) : nstate * outcome :=
    match sc_is_stop (crit s) (clock j) with
    | Err e => (s, Failed e)
    | Ok true => (s, Done)
    | Ok false =>
        match n with
        | O => (s, Running)
        | S n' => match turn s with
                  | (s1, Err e) => (s1, Failed e)
                  | (s1, Ok _) => rounds clock n' (S j) s1
                  end
        end
    end.

  (** noisy_oracles.py 61-92 [al_loop]: [L], [U] and the saver's sets are copies of the split of the fold;
      [reset] is only reached when the condition ends the loop. *)
  Definition noisy_loop (y : list Z) (tr te : list pyval) (L U : icol) (p : pool) (c : scrit) (t : T)
      (clock : nat -> Q) (n : nat) : res (nstate * outcome) :=
    r <- first_repository y L ;;
    let '(s, o) := rounds clock n 0 {| lab := L; unl := U; repo := r; sav := sio_new tr te L U; crit := c;
                                       oracles := p; own := t; fits := [] |} in
    Ok (match o with
        | Done => {| lab := lab s; unl := unl s; repo := repo s; sav := sav s; crit := sc_reset (crit s) (clock n);
                     oracles := oracles s; own := own s; fits := fits s |}
        | _ => s
        end, o).
End Loop.
Arguments nstate : clear implicits.
