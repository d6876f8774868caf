(** What shaded areas and summary tables should be, written without reference to the model's functions for them. *)
From Coq Require Import String.
From Verif Require Import Base StateModel MiscModel MiscSpec AnalyserModel AnalyserSpec.
From Coq Require Import QArith.
Local Open Scope Z_scope.

(** [vs] are the squared deviations over the folds of every [step]-th query. *)
Definition spreads (step : nat) (m : list (list Q)) (vs : list fl) : Prop :=
  forall j v, nth_error vs j = Some v -> is_num v (variance (column 0%Q m (j * step))).

(** [vs] are the squared deviations over the folds of the interpolated performance at the points [xs]. *)
Definition cost_spreads (interp : list Q -> list Q -> Q -> Q) (ip : option Q) (folds : list (list (list Q * Q))) (xs vs : list Q) : Prop :=
  List.length vs = List.length xs /\
  exists axes, Forall2 (fun f ax => cost_axis ip (spent f) ax) folds axes /\
    forall j x, nth_error xs j = Some x ->
      exists v, nth_error vs j = Some v /\ (v == variance (map (fun p => interp (snd p) (reached ip (fst p)) x) (combine folds axes)))%Q.

(** Names in the order of their first use. *)
Fixpoint firsts (l : list string) : list string :=
  match l with [] => [] | x :: l' => x :: filter (fun y => negb (String.eqb x y)) (firsts l') end.
(** [r] was added last under [n]. *)
Definition latest {R} (n : string) (l : list (string * R)) (r : R) : Prop :=
  exists l1 l2, l = l1 ++ (n, r) :: l2 /\ ~ In n (map fst l2).
(** The summary of the results [r] of a method. *)
Definition summary_of (r : aresults) (su : summary) : Prop :=
  match r with
  | MContainer c | MRuns c => stateio_summary c = Ok su
  | MLists l => list_summary1 l = Ok su
  | MOther => False
  end.
Definition given_as_runs (r : aresults) : Prop := match r with MContainer _ | MRuns _ => True | _ => False end.
(** All additions succeed. *)
Inductive adds (add : analyser -> string -> aresults -> analyser * res unit) : analyser -> list (string * aresults) -> analyser -> Prop :=
| adds_nil a : adds add a [] a
| adds_cons a n r a1 l a2 : add a n r = (a1, Ok tt) -> adds add a1 l a2 -> adds add a ((n, r) :: l) a2.
(** All folds of a method spend [q]. *)
Definition budget (folds : list (list (list Q * Q))) (q : Q) : Prop := folds <> [] /\ forall f, In f folds -> (total (spent f) == q)%Q.
