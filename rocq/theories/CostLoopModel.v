(** The main loop of a cost-sensitive experiment with a label hierarchy, as in examples/AL_settings/cost_sensitive.py.
    Simplifications: instance and label positions that a strategy returns are natural numbers; the labels are integers;
    the strategy is a function with a state of its own; a classifier is a function of what it is fitted to. *)
From Verif Require Import Base IndexModel MLModel CostModel StateModel.
From Coq Require Import QArith.
Local Open Scope Z_scope.

Inductive outcome := Running | Done | Failed (e : exn).

(** A pair as an index, and the pair of an index of a set (only pairs occur there). *)
Definition to_idx (p : nat * nat) : mlidx := IPair (Z.of_nat (fst p)) (Z.of_nat (snd p)).
Definition to_pair (x : mlidx) : nat * nat :=
  match x with IPair i j => (Z.to_nat i, Z.to_nat j) | _ => (0, 0)%nat end.

(** cost_sensitive.py 180-195 (the queried pairs arrive as a list of tuples: an empty list, or one that is refused, is a
    ValueError), 208-230 (the labelled pairs arrive as a collection). The result is a new collection. *)
Definition mark_list (n_classes : nat) (sel : list (nat * nat)) (L : mlic) (tree y : list (list Z)) : res mlic :=
  match sel with
  | [] => Err ValueErr
  | _ =>
      match ml_init (MList (map to_idx sel)) (Some (Z.of_nat n_classes)) with
      | Err _ => Err ValueErr
      | Ok (c, _) =>
          r <- hierarchical_mark n_classes (map to_pair (mcont c)) (map to_pair (mcont L)) tree y ;;
          Ok {| mcont := map to_idx r; is_set := true; lsize := lsize c |}
      end
  end.

Section Loop.
  (** [B]: a row of features; [M]: a classifier; [T]: the states of the strategy. *)
  Context {B M T : Type}.
  Variables (X : list B) (y tree : list (list Z)) (n_classes : nat) (budget : Q).
  (** [models[j].fit], which forgets the earlier ones. *)
  Variable fit : nat -> list B -> list Z -> res M.
  (** Predictions on the test set and [hamming_loss], 81-90. *)
  Variable score : list M -> res Q.
  (** [strategy.select(label_ind, unlab_ind, cost=cost, budget=budget, models=models)], 68. *)
  Variable strat : T -> list M -> mlic -> mlic -> T * res (list (nat * nat)).

  Record cstate := { lab : mlic; unl : mlic; mods : list M; own : T; sav : sio mlic mlidx; crit : scrit }.

  (** cost_sensitive.py 61-64 (77-80), class [j]: [np.where(train_traget[:, j] != 0)[0]], then the fit to these rows. *)
  Definition known_rows (mask : list (list Z)) (j : nat) : list nat :=
    filter (fun i => negb (nth j (nth i mask []) 0 =? 0)) (seq 0 (List.length mask)).
  Definition fit_class (mask : list (list Z)) (j : nat) : res M :=
    let ids := known_rows mask j in
    xs <- mapM (py_nth X) ids ;;
    ys <- mapM (fun i => CostModel.entry y i j) ids ;;
    fit j xs ys.

  (** 60-64 (76-80): the classes in turn; an exception leaves the classifiers fitted so far. *)
  Fixpoint fit_classes (mask : list (list Z)) (todo : list nat) (ms : list M) : list M * res unit :=
    match todo with
    | [] => (ms, Ok tt)
    | j :: todo' =>
        match fit_class mask j with
        | Err e => (ms, Err e)
        | Ok t => fit_classes mask todo' (firstn j ms ++ t :: skipn (S j) ms)
        end
    end.

  (** 59-64 (75-80) *)
  Definition fit_all (L : mlic) (ms : list M) : list M * res unit :=
    match ml_mask L (List.length y) n_classes 1 false with
    | Err e => (ms, Err e)
    | Ok mask => fit_classes mask (seq 0 n_classes) ms
    end.

  (** 66-96: one turn. An exception leaves the changes made so far. *)
  Definition cost_turn (s : cstate) : cstate * res unit :=
    let (t, r) := strat (own s) (mods s) (lab s) (unl s) in                                       (* 68 *)
    let s0 := {| lab := lab s; unl := unl s; mods := mods s; own := t; sav := sav s; crit := crit s |} in
    match r with
    | Err e => (s0, Err e)
    | Ok sel =>
        match mark_list n_classes sel (lab s) tree y with                                         (* 69 *)
        | Err e => (s0, Err e)
        | Ok c =>
            match ml_update false (lab s) (mcont c) with                                          (* 71 *)
            | (L, Err e) => ({| lab := L; unl := unl s; mods := mods s; own := t; sav := sav s; crit := crit s |}, Err e)
            | (L, Ok _) =>
                match ml_difference_update false (unl s) (mcont c) with                           (* 72 *)
                | (U, Err e) => ({| lab := L; unl := U; mods := mods s; own := t; sav := sav s; crit := crit s |}, Err e)
                | (U, Ok _) =>
                    match fit_all L (mods s) with                                                 (* 75-80 *)
                    | (ms, Err e) => ({| lab := L; unl := U; mods := ms; own := t; sav := sav s; crit := crit s |}, Err e)
                    | (ms, Ok _) =>
                        match score ms with                                                       (* 81-90 *)
                        | Err e => ({| lab := L; unl := U; mods := ms; own := t; sav := sav s; crit := crit s |}, Err e)
                        | Ok q =>
                            let st := state_init (inl (mcont c)) (SNum q) None (Some (SNum budget)) in
                            match sio_add (sav s) (EState st) with                                (* 93-94 *)
                            | (v, Err e) => ({| lab := L; unl := U; mods := ms; own := t; sav := v; crit := crit s |}, Err e)
                            | (v, Ok _) =>
                                let (k, o) := sc_update (ml_update true) (ml_difference_update true)
                                                (fun c => List.length (mcont c)) (crit s) v in    (* 96 *)
                                ({| lab := L; unl := U; mods := ms; own := t; sav := v; crit := k |}, o)
                            end
                        end
                    end
                end
            end
        end
    end.

  (** 66: [while not stopping_criterion.is_stop()], at most [n] turns; [clock j] is the time of the [j]-th test. *)
  Fixpoint cost_turns (clock : nat -> Q) (n j : nat) (s : cstate) : cstate * outcome :=
    match sc_is_stop (crit s) (clock j) with
    | Err e => (s, Failed e)
    | Ok true => (s, Done)
    | Ok false =>
        match n with
        | O => (s, Running)
        | S n' => match cost_turn s with
                  | (s1, Err e) => (s1, Failed e)
                  | (s1, Ok _) => cost_turns clock n' (S j) s1
                  end
        end
    end.

  (** 52-66: the split, a new saver, the first fit, the loop. The criterion is reset (98) after it. *)
  Definition cost_main (tr te : list mlidx) (L U : mlic) (ms0 : list M) (t : T) (c : scrit) (clock : nat -> Q) (n : nat)
    : cstate * outcome :=
    match fit_all L ms0 with
    | (ms, Err e) => ({| lab := L; unl := U; mods := ms; own := t; sav := sio_new tr te L U; crit := c |}, Failed e)
    | (ms, Ok _) =>
        let (s, o) := cost_turns clock n 0 {| lab := L; unl := U; mods := ms; own := t; sav := sio_new tr te L U; crit := c |} in
        (match o with
         | Done => {| lab := lab s; unl := unl s; mods := mods s; own := own s; sav := sav s; crit := sc_reset (crit s) (clock n) |}
         | _ => s
         end, o)
    end.
End Loop.
Arguments cstate : clear implicits.

(** cost_sensitive.py 104, 68 [QueryCostSensitiveRandom]: its state is the draws of the calls still to come, for each size of
    the pool. With as many draws as pairs the search ends ([C55_outcome]); the other case is written as an exception. *)
Definition random_cost_strategy {M} (n_classes : nat) (cost : option (list Q)) (budget : Q)
    (t : nat -> nat -> list nat) (ms : list M) (L U : mlic) : (nat -> nat -> list nat) * res (list (nat * nat)) :=
  let pool := map to_pair (mcont U) in
  (fun k => t (S k),
   r <- cost_random_select n_classes cost budget pool (t 0%nat (List.length pool)) ;;
   match r with Some l => Ok l | None => Err GenericErr end).

(** cost_sensitive.py 105, 68 [QueryCostSensitivePerformance]: [u ms i j] is |1/decision| of classifier [j] at instance [i],
    [orders score] the argsort of each column. *)
Definition performance_cost_strategy {M} (n_samples n_classes : nat) (costs : list Z) (budget : nat)
    (u : list M -> nat -> nat -> Q) (orders : list (list (option Q)) -> list (list nat))
    (t : unit) (ms : list M) (L U : mlic) : unit * res (list (nat * nat)) :=
  let sc := performance_score n_samples n_classes (map to_pair (mcont U)) (u ms) in
  (t, knapsack_select sc costs budget (orders sc)).

(** cost_sensitive.py 106, 68 [QueryCostSensitiveHALC]; [info ms i j] is the informativeness. *)
Definition halc_cost_strategy {M} (n_samples n_classes : nat) (costs : list Z) (budget : nat)
    (info : list M -> nat -> nat -> option Q) (orders : list (list (option Q)) -> list (list nat))
    (t : unit) (ms : list M) (L U : mlic) : unit * res (list (nat * nat)) :=
  let sc := halc_score n_samples n_classes (map to_pair (mcont U)) (info ms) in
  (t, knapsack_select sc costs budget (orders sc)).
