(** Labelling a pool by hand, as in examples/AL_settings/labeling_real_data.py (all line numbers without a file are of this file).
    Features are vectors of integers and labels are integers; the strategy is the model of QueryInstanceUncertainty. *)
From Verif Require Import Base IndexModel MLModel StateModel OracleModel RepoModel QueryModel BlindModel.
From Coq Require Import QArith.
Local Open Scope Z_scope.

(** [np.arange(start=a, stop=a+n)] *)
Definition arange (a : Z) (n : nat) : list Z := map (fun i => a + Z.of_nat i) (seq 0 n).
Definition index_of (l : list Z) : icol := fst (ic_init (DList (map (fun z => VNp (KInt z)) l))).
(** [np.asarray(collection)] of a collection of integers *)
Definition as_ints (c : icol) : list Z := flat_map (fun v => match norm v with KInt z => [z] | KStr _ => [] end) (cont c).

(** How the loop ends: after its last round, or by an exception. *)
Inductive ending := Finished | Stopped (e : exn).

Section Loop.
  Context {M : Type}.
  (** [trainer t X y]: what the [t]-th call of [model.fit] makes of the model. It is always called with the same data (22, 41), for
      which the first call succeeded. [lbl t x]: the labelling code in round [t], shown the selected instances; it may raise. *)
  Variables (np : numpy) (k : learner vec M) (ms : measure) (trainer : nat -> list vec -> list Z -> M)
            (lbl : nat -> list vec -> res Z).
  Variables (X_lab : list vec) (y_lab : list Z) (X_unlab : list vec).

  Record lstate := { lab : icol; unl : icol; repo : mrepo; own_y : list Z; mdl : M }.

  (** [unc.y[select_ind] = lab_of_ins] *)
  Definition write_label (y : list Z) (i : Z) (v : Z) : list Z :=
    match py_index (List.length y) i with
    | Some p => set_nth p v y
    | None => y
    end.

  (** 27-44: round [t] of the loop. The empty selection is a float array, which is no index (32). [get_training_data] (40) changes
      nothing, and its result is not used. The one label of line 37 is a list of one label in [mr_update]. *)
  Definition label_round (t : nat) (s : lstate) : lstate * res unit :=
    match uncertainty_select np k (X_unlab ++ X_lab) (own_y s) ms (Some (mdl s)) (as_ints (lab s)) (as_ints (unl s)) 1 with   (* 27 *)
    | Err e => (s, Err e)
    | Ok sel =>
        let keys := map (fun z => VNp (KInt z)) sel in
        match ic_update (lab s) keys with                                                                              (* 28 *)
        | (L, Err e) => ({| lab := L; unl := unl s; repo := repo s; own_y := own_y s; mdl := mdl s |}, Err e)
        | (L, Ok _) =>
            match ic_difference_update (unl s) keys with                                                               (* 29 *)
            | (U, Err e) => ({| lab := L; unl := U; repo := repo s; own_y := own_y s; mdl := mdl s |}, Err e)
            | (U, Ok _) =>
                let s1 := {| lab := L; unl := U; repo := repo s; own_y := own_y s; mdl := mdl s |} in
                match (match sel with [] => Err IndexErr | _ => rows X_unlab sel end) with                             (* 32 *)
                | Err e => (s1, Err e)
                | Ok xs =>
                    match lbl t xs with                                                                                (* 34 *)
                    | Err e => (s1, Err e)
                    | Ok v =>
                        match mr_update (repo s) [LNum v] sel None (Some xs) with                                      (* 37 *)
                        | (r, Err e) => ({| lab := L; unl := U; repo := r; own_y := own_y s; mdl := mdl s |}, Err e)
                        | (r, Ok _) =>
                            ({| lab := L; unl := U; repo := r;
                                own_y := fold_left (fun y i => write_label y i v) sel (own_y s);                       (* 44 *)
                                mdl := trainer (S t) X_lab y_lab |}, Ok tt)                                            (* 41 *)
                        end
                    end
                end
            end
        end
    end.

  (** 25: [for i in range(n)], from round [t] on *)
  Fixpoint label_rounds (n t : nat) (s : lstate) : lstate * ending :=
    match n with
    | O => (s, Finished)
    | S n' => match label_round t s with
              | (s1, Err e) => (s1, Stopped e)
              | (s1, Ok _) => label_rounds n' (S t) s1
              end
    end.

  (** 8-44; [place] are the labels of the pool that stand for nothing. *)
  Definition label_main (place : list Z) (n : nat) : res (lstate * ending) :=
    let nu := List.length X_unlab in
    let U := index_of (arange 0 nu) in                                                                                 (* 16 *)
    let L := index_of (arange (Z.of_nat nu) (List.length X_lab)) in                                                    (* 17 *)
    r <- mr_init (map LNum y_lab) (as_ints L) (Some X_lab) ;;                                                          (* 18 *)
    Ok (label_rounds n 0 {| lab := L; unl := U; repo := r; own_y := place ++ y_lab; mdl := trainer 0 X_lab y_lab |}).  (* 22 *)
End Loop.
Arguments lstate : clear implicits.
