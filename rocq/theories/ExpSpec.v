(** What a user expects of an experiment run by [AlExperiment]. *)
From Verif Require Import Base IndexModel IndexSpec StateModel StateSpec ExpModel.
From Coq Require Import String QArith.
Local Open Scope Z_scope.

(** A fold whose labelled indexes are [ls] and whose unlabelled indexes are [us] (as produced by a split). *)
Definition is_fold (f : fold) (ls us : list Z) : Prop :=
  f_label f = DList (map (fun z => VNp (KInt z)) ls) /\ f_unlabel f = DList (map (fun z => VNp (KInt z)) us) /\
  ls <> [] /\ us <> [] /\ NoDup us /\ (forall x, In x ls -> ~ In x us).

(** A strategy that returns a non-empty part of the unlabelled set, whatever model it is given. *)
Definition selects {D H : Type} (strat : D -> H -> icol -> icol -> list pyval) : Prop :=
  forall d h L U, cont U <> [] -> strat d h L U <> [] /\ forall x, In x (strat d h L U) -> In (norm x) (elems U).

(** The labelled and the unlabelled set that the record gives for step [i]. *)
Definition step_sets (io : sio icol pyval) (i : nat) (L U : icol) : Prop :=
  sio_workspace ic_update ic_difference_update io (Some (Z.of_nat i)) = Ok (s_train io, s_test io, L, U).

(** The sets partition the fold's indexes. *)
Definition partitions (ls us : list Z) (L U : icol) : Prop :=
  (forall x, In x (elems L) -> ~ In x (elems U)) /\
  (forall x, In x (elems L) \/ In x (elems U) <-> In x (map KInt (ls ++ us))).

(** The record of a fold: every step's sets partition the fold's indexes. *)
Definition keeps_indexes (f : fold) (ls us : list Z) (io : sio icol pyval) : Prop :=
  s_train io = f_train f /\ s_test io = f_test f /\
  forall i, (i <= List.length (s_states io))%nat -> exists L U, step_sets io i L U /\ partitions ls us L U.

(** The run ended at the first step at which the stopping criterion [name], [v] holds, time being counted from [t0]. *)
Definition stopped (name : crit_name) (v t0 : Q) (clock : nat -> Q) (us : list Z) (io : sio icol pyval) : Prop :=
  (List.length (s_states io) <= List.length us)%nat /\
  forall i, (i <= List.length (s_states io))%nat -> exists L U, step_sets io i L U /\
    (should_stop name v (ic_len U) (List.length us) i 0 (clock i - t0) <-> i = List.length (s_states io)).

(** An entry of the record: what was selected and the performance. *)
Definition records (e : entry pyval) (sel : list pyval) (p : sval pyval) : Prop :=
  match e with
  | EState s => st_get s "select_index"%string = Ok (SIdx sel) /\ st_get s "performance"%string = Ok p
  | EDict _ => False
  end.
