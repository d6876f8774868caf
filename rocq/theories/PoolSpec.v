(** What a pool of oracles should record, written without reference to the code. *)
From Verif Require Import Base OracleSpec.
From Coq Require Import String QArith.
Local Open Scope Q_scope.

Definition sum (l : list Q) : Q := fold_right Qplus 0 l.
(** All rows have the same length. *)
Definition table (rows : list (list Q)) : Prop := forall a b, In a rows -> In b rows -> List.length a = List.length b.

Section Spec.
  Context {O K A : Type}.
  Variable ask : O -> K -> res (A * list (list Q)).

  (** Adding an oracle under a name; asking the oracles of some names, or all of them ([None]). *)
  Inductive event := Added (name : string) (o : O) | Asked (ks : K) (names : option (list string)).
  (** Names, results and indexes of a query that was answered. *)
  Definition answered : Type := (list string * list (A * list (list Q)) * K)%type.

  (** The answer of the oracle last added under a name. *)
  Definition reply (added : list (string * O)) (ks : K) (n : string) : res (A * list (list Q)) :=
    match latest string_dec n added with Some o => ask o ks | None => Err KeyErr end.
  (** Every query to which all asked oracles answered, in order. *)
  Fixpoint ledger (added : list (string * O)) (h : list event) : list answered :=
    match h with
    | [] => []
    | Added n o :: h' => ledger (added ++ [(n, o)]) h'
    | Asked ks ns :: h' =>
        let names := match ns with Some l => l | None => first_names (map fst added) end in
        match mapM (reply added ks) names with
        | Ok rs => (names, rs, ks) :: ledger added h'
        | Err _ => ledger added h'
        end
    end.
  Definition names_of (h : list event) : list string := first_names (flat_map (fun e => match e with Added n _ => [n] | _ => [] end) h).

  (** What was charged for a query, for several queries, and by one oracle. *)
  Definition rows_of (q : answered) : list (list Q) := flat_map snd (snd (fst q)).
  Definition charged (qs : list answered) : Q := sum (flat_map (fun q => List.concat (rows_of q)) qs).
  Definition given_by (n : string) (qs : list answered) : list (A * list (list Q)) :=
    map snd (filter (fun e => String.eqb n (fst e)) (flat_map (fun q : answered => combine (fst (fst q)) (snd (fst q))) qs)).
  (** The last result of an oracle in a query. *)
  Definition last_of (n : string) (q : answered) : option (A * list (list Q)) := latest string_dec n (combine (fst (fst q)) (snd (fst q))).
End Spec.
Arguments event : clear implicits.
Arguments answered : clear implicits.

(** All rows have the same length, as a test. *)
Definition tabular (rows : list (list Q)) : bool :=
  forallb (fun a => forallb (fun b => Nat.eqb (List.length a) (List.length b)) rows) rows.
(** The [k]-th entry of a row, where a row of one entry is repeated. *)
Definition stretched (k : nat) (r : list Q) : Q := nth (if Nat.eqb (List.length r) 1 then 0%nat else k) r 0.
