(** What a user expects of oracles, written without reference to the dictionaries of the code. *)
From Verif Require Import Base IndexModel IndexProofs MLModel MLSpec StateModel OracleModel.
From Coq Require Import String QArith.
Local Open Scope Z_scope.

(** The value recorded last for [k] in a list of facts in chronological order. *)
Fixpoint latest {K V} (dec : forall a b : K, {a = b} + {a <> b}) (k : K) (facts : list (K * V)) : option V :=
  match facts with
  | [] => None
  | (k', v) :: fs =>
      match latest dec k fs with
      | Some w => Some w
      | None => if dec k k' then Some v else None
      end
  end.
(** The value recorded first. *)
Fixpoint earliest {K V} (dec : forall a b : K, {a = b} + {a <> b}) (k : K) (facts : list (K * V)) : option V :=
  match facts with
  | [] => None
  | (k', v) :: fs => if dec k k' then Some v else earliest dec k fs
  end.

Definition vec_dec : forall a b : vec, {a = b} + {a <> b} := list_eq_dec Z.eq_dec.

(** The longest prefix whose elements satisfy [ok]. *)
Fixpoint prefix_ok {A} (ok : A -> bool) (l : list A) : list A :=
  match l with [] => [] | x :: l' => if ok x then x :: prefix_ok ok l' else [] end.

Definition is_some {A} (o : option A) : bool := match o with Some _ => true | None => false end.

(** ** Single-label oracle *)

(** The argument lists of a call have equal lengths. *)
Definition well_formed (c : teach) : bool :=
  match c with
  | TOne _ _ _ _ => true
  | TMany ls ks xs cs =>
      Nat.eqb (List.length ls) (List.length ks) &&
      (match xs with None => true | Some l => Nat.eqb (List.length l) (List.length ks) end) &&
      (match cs with None => true | Some l => Nat.eqb (List.length l) (List.length ks) end)
  end.

(** The entries (label, index, example, cost) of a call, in order. A one-feature example given for a
    single index is not recognised as an example. *)
Definition offered (c : teach) : list (key * key * option vec * option Q) :=
  match c with
  | TOne l k x c => [(l, k, match x with Some [_] => None | _ => x end, c)]
  | TMany ls ks xs cs =>
      if well_formed c then
        map (fun i => (nth i ls (KInt 0), nth i ks (KInt 0),
                       match xs with Some xs => Some (nth i xs []) | None => None end,
                       match cs with Some cs => Some (nth i cs 0%Q) | None => None end))
            (seq 0 (List.length ls))
      else []
  end.

(** An entry is accepted when its label has the label type of the oracle and it brings the example and
    the cost that the oracle works with. *)
Definition entry_ok (T : pyty) (inst costf : bool) (e : key * key * option vec * option Q) : bool :=
  let '(l, _, x, c) := e in
  ty_eqb (key_ty l) T && implb inst (is_some x) && implb costf (is_some c).

(** The facts (index, (label, cost)) learned from a call: those of its entries that precede the first
    unacceptable one. Without cost information every answer costs 1. *)
Definition fact_of (costf : bool) (e : key * key * option vec * option Q) : key * (key * Q) :=
  let '(l, k, _, c) := e in (k, (l, if costf then match c with Some c => c | None => 1%Q end else 1%Q)).
Definition learned (T : pyty) (inst costf : bool) (c : teach) : list (key * (key * Q)) :=
  map (fact_of costf) (prefix_ok (entry_ok T inst costf) (offered c)).

(** The examples (vector, index) learned from a call: those of the accepted entries, and that of the entry
    at which the call failed if only its cost was missing. *)
Fixpoint examples_of (T : pyty) (costf : bool) (es : list (key * key * option vec * option Q)) : list (vec * key) :=
  match es with
  | (l, k, Some x, c) :: es' =>
      if ty_eqb (key_ty l) T
      then (x, k) :: (if implb costf (is_some c) then examples_of T costf es' else [])
      else []
  | _ => []
  end.

(** The facts given to the constructor; [ks] are the indexes (0, 1, ... by default). *)
Definition initial_keys (n : nat) (indexes : option (list key)) : list key :=
  match indexes with Some l => l | None => map (fun i => KInt (Z.of_nat i)) (seq 0 n) end.
Definition initial_facts (labels : list key) (indexes : option (list key)) (cost : option (list Q)) : list (key * (key * Q)) :=
  map (fun i => (nth i (initial_keys (List.length labels) indexes) (KInt 0),
                 (nth i (np_asarray (map VKey labels)) (KInt 0),
                  match cost with Some cs => nth i cs 0%Q | None => 1%Q end)))
      (seq 0 (List.length labels)).
Definition initial_examples (labels : list key) (examples : list vec) (indexes : option (list key)) : list (vec * key) :=
  map (fun i => (nth i examples [], nth i (initial_keys (List.length labels) indexes) (KInt 0)))
      (seq 0 (List.length labels)).

(** Everything an oracle has been told: constructor arguments and history. *)
Definition known (T : pyty) (labels : list key) (examples : option (list vec)) (indexes : option (list key))
  (cost : option (list Q)) (h : list teach) : list (key * (key * Q)) :=
  initial_facts labels indexes cost ++
  flat_map (learned T (is_some examples) (is_some cost)) h.
Definition known_examples (T : pyty) (labels : list key) (examples : list vec) (indexes : option (list key))
  (cost : option (list Q)) (h : list teach) : list (vec * key) :=
  initial_examples labels examples indexes ++ flat_map (fun c => examples_of T (is_some cost) (offered c)) h.

(** ** Multi-label oracle *)
Section MO.
  Context {A : Type}.

  (** The costs of a stored row: one per label, all 1 without cost information. *)
  Definition cost_cell (c : option crow) (j : nat) (q : Q) : Prop :=
    match c with
    | None => q = 1%Q
    | Some (CArr cs) => nth_error cs j = Some q
    | Some _ => False
    end.

  (** The right answer to one index, given the stored rows. *)
  Definition right_answer (m : nat) (row_of : Z -> option (list A * option crow)) (k : mlidx) (a : list A * list Q) : Prop :=
    (forall i j, k <> ILong i j) /\ scalar_ok (Z.of_nat m) k = true /\
    exists row c, row_of (ins_of k) = Some (row, c) /\
      (c = None \/ exists cs, c = Some (CArr cs)) /\
      Forall2 (fun p l => nth_error row (Z.to_nat (snd p)) = Some l) (denoted (Z.of_nat m) k) (fst a) /\
      Forall2 (fun p q => cost_cell c (Z.to_nat (snd p)) q) (denoted (Z.of_nat m) k) (snd a).

  (** The cost row an entry is stored with: its own, else the common label costs. *)
  Definition stored_cost (costf : bool) (label_cost : option crow) (c : option crow) : option crow :=
    if costf then match c with Some c => Some c | None => label_cost end else None.

  (** An added entry is usable when its row, example and cost row fit. *)
  Definition row_ok (m : nat) (inst costf : bool) (label_cost : option crow)
    (e : list A * Z * option vec * option crow) : bool :=
    let '(l, _, x, c) := e in
    Nat.eqb (List.length l) m && implb inst (is_some x) &&
    (if costf then match stored_cost true label_cost c with
                   | Some (CArr q) | Some (CLst q) => Nat.eqb (List.length q) m
                   | _ => false end
     else true).

  (** The cost rows given to the constructor: a vector of one cost per label is used for every row. *)
  Definition initial_cost (m : nat) (cost : mcost) (i : nat) : option crow :=
    match cost with
    | MCNone => None
    | MCVec _ l => if Nat.eqb (List.length l) m then Some (CArr l) else option_map CNum (nth_error l i)
    | MCMat arr rows => option_map (if arr then CArr else CLst) (nth_error rows i)
    end.
  Definition common_cost (m : nat) (cost : mcost) : option crow :=
    match cost with
    | MCVec arr l => if Nat.eqb (List.length l) m then Some (if arr then CArr l else CLst l) else None
    | _ => None
    end.
  Definition initial_rows (m : nat) (labels : list (list A)) (indexes : option (list Z)) (cost : mcost)
    : list (Z * (list A * option crow)) :=
    map (fun i => (match indexes with Some l => nth i l 0 | None => Z.of_nat i end,
                   (nth i labels [], initial_cost m cost i)))
        (seq 0 (List.length labels)).

  (** The row stored for an instance: the one given to the constructor, else the first usable one added. *)
  Definition row_known (m : nat) (labels : list (list A)) (examples : option (list vec)) (indexes : option (list Z))
    (cost : mcost) (h : list (list A * Z * option vec * option crow)) (i : Z) : option (list A * option crow) :=
    let costf := match cost with MCNone => false | _ => true end in
    match latest Z.eq_dec i (initial_rows m labels indexes cost) with
    | Some v => Some v
    | None =>
        earliest Z.eq_dec i
          (map (fun e => let '(l, k, _, c) := e in (k, (l, stored_cost costf (common_cost m cost) c)))
               (filter (row_ok m (is_some examples) costf (common_cost m cost)) h))
    end.
End MO.

(** ** Pool of oracles *)

(** The names of the oracles added so far, in order of first addition. *)
Fixpoint first_names (l : list string) : list string :=
  match l with
  | [] => []
  | x :: l' => x :: filter (fun y => negb (String.eqb x y)) (first_names l')
  end.

(** The answers of the oracles [names] to a query, if all of them answer. *)
Definition all_answer (added : list (string * oracle)) (names : list string) (ks : list key)
  : option (list (list key * list Q)) :=
  match mapM (fun n => match latest string_dec n added with
                       | Some o => or_query o ks
                       | None => Err KeyErr
                       end) names with
  | Ok rs => Some rs
  | Err _ => None
  end.

(** What the bookkeeping of a pool should record for a history: one line per successful query. *)
Fixpoint bookkeeping (added : list (string * oracle)) (h : list pop)
  : list (list string * list (list key * list Q) * list key) :=
  match h with
  | [] => []
  | PAdd n o :: h' => bookkeeping (added ++ [(n, o)]) h'
  | PQuery ks n :: h' =>
      match n with
      | None => bookkeeping added h'
      | Some n =>
          match all_answer added [n] ks with
          | Some rs => ([n], rs, ks) :: bookkeeping added h'
          | None => bookkeeping added h'
          end
      end
  | PQueryS ks ns :: h' =>
      let ns := match ns with Some l => l | None => first_names (map fst added) end in
      match all_answer added ns ks with
      | Some rs => (ns, rs, ks) :: bookkeeping added h'
      | None => bookkeeping added h'
      end
  end.

(** All costs returned in a record. *)
Definition record_cost (r : list string * list (list key * list Q) * list key) : Q :=
  fold_right Qplus 0%Q (flat_map snd (snd (fst r))).
Definition total_cost (rs : list (list string * list (list key * list Q) * list key)) : Q :=
  fold_right Qplus 0%Q (map record_cost rs).

(** The answers oracle [n] gave in these records. *)
Definition answers_of (n : string) (rs : list (list string * list (list key * list Q) * list key))
  : list (list key * list Q) :=
  map snd (filter (fun e => String.eqb n (fst e)) (flat_map (fun r => combine (fst (fst r)) (snd (fst r))) rs)).

(** ** Votes *)
Definition votes (ls : list key) (l : key) : nat := count_occ key_dec ls l.

(** [l] wins with [n] votes: nobody has more, and every answer given before the first [l] has fewer. *)
Definition winner (ls : list key) (n : nat) (l : key) : Prop :=
  n = votes ls l /\ (forall x, (votes ls x <= n)%nat) /\
  exists pre post, ls = pre ++ l :: post /\ forall x, In x pre -> (votes ls x < n)%nat.

(** The first label of each answer. *)
Definition heads (rs : list (list key * list Q)) (ls : list key) : Prop :=
  Forall2 (fun r l => exists rest, fst r = l :: rest) rs ls.
