(** Terms for the claims about the main loop with noisy oracles. *)
From Verif Require Import Base IndexModel IndexSpec MLModel StateModel StateSpec Dict OracleModel OracleSpec RepoModel NoisyLoopModel.
From Coq Require Import String QArith.
Local Open Scope Z_scope.

Definition ids (c : icol) (l : list Z) : Prop := elems c = map KInt l.

(** A split: two collections of integer indexes of the data without a common one, the labelled one not empty. *)
Definition halves (y : list Z) (L U : icol) (ls us : list Z) : Prop :=
  reachable L /\ reachable U /\ ids L ls /\ ids U us /\ ls <> [] /\
  (forall k, In k ls -> In k us -> False) /\ (forall k, In k ls -> 0 <= k < Z.of_nat (List.length y)).

(** The strategy only selects unlabelled instances. *)
Definition selects_unlabelled {T} (strat : T -> icol -> icol -> T * res answer) : Prop :=
  forall t L U k names, snd (strat t L U) = Ok (Two k names) -> In (KInt k) (elems U).

(** With two or more unlabelled instances the strategy selects one of them; with fewer it returns the pool
    alone, as the strategies of the package do. *)
Definition like_the_package {T} (strat : T -> icol -> icol -> T * res answer) (names_ok : Z -> list string -> Prop) : Prop :=
  forall t L U us, ids U us -> NoDup us ->
    if Nat.leb (List.length us) 1 then snd (strat t L U) = Ok Alone
    else exists k names, snd (strat t L U) = Ok (Two k names) /\ In k us /\ names_ok k names.

(** The oracles named all know the instance, and give integer labels; there is at least one. *)
Definition can_answer (p : pool) (k : Z) (names : list string) : Prop :=
  names <> [] /\
  forall n, In n names -> exists o z c, dget String.eqb n (p_dict p) = Some o /\ or_query o [KInt k] = Ok ([KInt z], [c]).

(** One line of the history of the oracles gives the instance [fst e] the label [snd e]: only this instance was
    asked for, the answers are those of the oracles named, and the label is the one most of the answers name
    (the first such answer in case of a tie). *)
Definition taught_by (p : pool) (r : list string * list (list key * list Q) * list key) (e : Z * Z) : Prop :=
  let '(names, answers, asked) := r in
  asked = [KInt (fst e)] /\
  Forall2 (fun n a => exists o, dget String.eqb n (p_dict p) = Some o /\ or_query o asked = Ok a) names answers /\
  exists ls n, heads answers ls /\ winner ls n (KInt (snd e)).

(** The true labels of the instances. *)
Definition true_labels (y : list Z) (ls : list Z) (ys : list Z) : Prop :=
  Forall2 (fun k v => nth_error y (Z.to_nat k) = Some v) ls ys.

(** All prefixes of [l] but the empty one, shortest first. *)
Definition prefixes {A} (l : list A) : list (list A) := map (fun i => firstn (S i) l) (seq 0 (List.length l)).
