(** Terms for the claims about the loop that acquires feature values. *)
From Verif Require Import Base IndexModel MLModel MLSpec MiscModel QueryModel QuerySpec MLQuerySpec FeatureModel FeatureSpec StateModel StateSpec FeatureLoopModel.
From Verif Require SplitSpec.
From Coq Require Import QArith.
Local Open Scope Z_scope.

(** The entries of the training set: the rows [train], all [f] features. *)
Definition entries (train : list Z) (f : nat) (p : Z * Z) : Prop := In (fst p) train /\ 0 <= snd p < Z.of_nat f.

(** The known and the unknown entries: together those of the training set, none in both. *)
Definition parts (train : list Z) (f : nat) (L U : mlic) : Prop :=
  ml_reachable (Z.of_nat f) L /\ ml_reachable (Z.of_nat f) U /\
  (forall p, In p (pairs L) -> In p (pairs U) -> False) /\
  (forall p, entries train f p <-> In p (pairs L) \/ In p (pairs U)).

(** [n] instances with [f] features, all values finite; distinct training rows among them. *)
Definition data (n f : nat) (X : fmat) : Prop := has_shape X n f /\ finite X.
Definition rows_ok (n : nat) (train : list Z) : Prop := NoDup train /\ forall i, In i train -> 0 <= i < Z.of_nat n.

(** The strategies of the package, in the states [J]: with one unknown entry at most they return the collection of unknown
    entries, otherwise a list of one entry of the training set, known or unknown. They may raise. *)
Definition lawful {T} (strat : fmat -> T -> mlic -> mlic -> T * res ml_choice) (X : fmat) (train : list Z) (f : nat)
    (J : T -> Prop) : Prop :=
  forall t L U, J t -> parts train f L U ->
    J (fst (strat X t L U)) /\
    match snd (strat X t L U) with
    | Err _ => True
    | Ok TheRest => (List.length (pairs U) <= 1)%nat
    | Ok (Chosen l) => (2 <= List.length (pairs U))%nat /\ exists i j, l = [IPair i j] /\ entries train f (i, j)
    end.

(** It asks for unknown entries only. *)
Definition asks_unknown {T} (strat : fmat -> T -> mlic -> mlic -> T * res ml_choice) (X : fmat) (train : list Z) (f : nat)
    (J : T -> Prop) : Prop :=
  forall t L U l, J t -> parts train f L U -> snd (strat X t L U) = Ok (Chosen l) ->
    forall i j, In (IPair i j) l -> In (i, j) (pairs U).

(** The matrix [M] is the completion of the rows of the training set with the entries of [L] marked as observed. *)
Definition made_from (complete : fmat -> mlic -> res fmat) (X : fmat) (train : list Z) (L : mlic) (M : fmat) : Prop :=
  exists rows omega, rows_of X train rows /\ complete rows omega = Ok M /\ (exists m, ml_reachable m omega) /\
    forall r j, In (r, j) (pairs omega) <-> 0 <= r /\ exists i, nth_error train (Z.to_nat r) = Some i /\ In (i, j) (pairs L).

(** What [get_workspace] rebuilds from the record. *)
Definition rebuilt (s : sio mlic mlidx) := sio_workspace rec_update rec_difference s None.

(** Same entries. *)
Definition same_entries (c c' : mlic) : Prop := forall p, In p (pairs c) <-> In p (pairs c').

(** Two matrices with the same values at the entries of [L]. *)
Definition agree (n f : nat) (L : mlic) (X X' : fmat) : Prop :=
  data n f X /\ data n f X' /\ forall i j, In (i, j) (pairs L) -> same_at X X' (Z.to_nat i) (Z.to_nat j).

(** A strategy, and a completion, for which the values at the unknown entries do not matter. *)
Definition private_strategy {T} (strat : fmat -> T -> mlic -> mlic -> T * res ml_choice) (X X' : fmat) (n : nat) (train : list Z) (f : nat)
    (J : T -> Prop) : Prop :=
  forall t L U, J t -> parts train f L U -> agree n f L X X' -> strat X t L U = strat X' t L U.
Definition private_completion (complete : fmat -> mlic -> res fmat) (n f : nat) : Prop :=
  forall rows rows' omega, (exists m, ml_reachable m omega) ->
    (forall r j, In (r, j) (pairs omega) -> 0 <= r < Z.of_nat n /\ 0 <= j < Z.of_nat f) ->
    agree n f omega rows rows' -> complete rows omega = complete rows' omega.

(** Data, training rows and a division of their entries. *)
Definition setting (n f : nat) (X : fmat) (train : list Z) (L U : mlic) : Prop :=
  data n f X /\ rows_ok n train /\ train <> [] /\ parts train f L U.

(** The states of the AFASMC strategy made for the training set: those after any calls. *)
Definition used (X : fmat) (f : nat) (train : list Z) (steps : fmat -> list (list Z) -> nat -> nat -> Q * fmat) (max_in max_out : nat)
    (t : afasmc) : Prop := exists calls, t = af_run steps max_in max_out X f (Some (NdArray train)) calls.
(** The draws of the random strategy are permutations. *)
Definition proper_draws (t : nat -> nat -> list nat) : Prop := forall k m, SplitSpec.shuffle m (t k m).

(** No limit, or a share of the unknown entries that is reached by all of them only. *)
Definition unreachable (U0 : mlic) (c : scrit) : Prop :=
  sc_name c = NNone \/
  sc_name c = NPercent /\ exists v, sc_value c = Some v /\
    (inject_Z (Z.of_nat (List.length (pairs U0)) - 1) / inject_Z (Z.of_nat (List.length (pairs U0))) < v)%Q.

(** A strategy, a completion and a classifier that do not fail. *)
Definition sound_strategy {T} (strat : fmat -> T -> mlic -> mlic -> T * res ml_choice) (X : fmat) (train : list Z) (f : nat) (J : T -> Prop) : Prop :=
  forall t L U, J t -> parts train f L U -> exists a, snd (strat X t L U) = Ok a.
Definition sound_completion (complete : fmat -> mlic -> res fmat) (X : fmat) (train : list Z) (f : nat) : Prop :=
  forall rows omega, rows_of X train rows -> (exists m, ml_reachable m omega) -> pairs omega <> [] ->
    (forall r j, In (r, j) (pairs omega) -> 0 <= r < Z.of_nat (List.length train) /\ 0 <= j < Z.of_nat f) -> exists M, complete rows omega = Ok M.
