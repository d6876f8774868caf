(** Model of [IndexCollection] (alipy/index/index_collections.py, lines 29-226) and of its
    base class (alipy/utils/interface.py, lines 101-150).

    Simplifications: elements are Python ints or strs, native or as numpy scalars
    (bool, float and tuple elements are not modelled; tuples are handled by
    [MultiLabelIndexCollection], see MLModel.v). Python's [==] identifies a numpy scalar with its
    native value, hence the separation between a value and its key. *)
From Verif Require Import Base.
From Coq Require Import String OrdersEx DecimalString.
Local Open Scope Z_scope.

(** The mathematical value of an element. *)
Inductive key := KInt (z : Z) | KStr (s : string).

(** A Python object: native value, or numpy scalar ([np.generic]) wrapping it. *)
Inductive pyval := VKey (k : key) | VNp (k : key).

(** The Python types of these objects. *)
Inductive pyty := TInt | TStr | TNpInt | TNpStr.

(** [v.item()] for numpy scalars; the value itself otherwise. *)
Definition norm (v : pyval) : key := match v with VKey k | VNp k => k end.

Definition key_ty (k : key) : pyty := match k with KInt _ => TInt | KStr _ => TStr end.

(** [type(v)] *)
Definition type_of (v : pyval) : pyty :=
  match v with
  | VKey k => key_ty k
  | VNp (KInt _) => TNpInt
  | VNp (KStr _) => TNpStr
  end.

Definition ty_eqb (a b : pyty) : bool :=
  match a, b with
  | TInt, TInt | TStr, TStr | TNpInt, TNpInt | TNpStr, TNpStr => true
  | _, _ => false
  end.

Definition key_eqb (a b : key) : bool :=
  match a, b with
  | KInt x, KInt y => x =? y
  | KStr x, KStr y => String.eqb x y
  | _, _ => false
  end.

(** Python's [==] on elements. *)
Definition py_eq (v w : pyval) : bool := key_eqb (norm v) (norm w).

(** Ordering used by [np.unique] (within one type: integer order, lexicographic order). *)
Definition key_compare (a b : key) : comparison :=
  match a, b with
  | KInt x, KInt y => x ?= y
  | KStr x, KStr y => String_as_OT.compare x y
  | KInt _, KStr _ => Lt
  | KStr _, KInt _ => Gt
  end.

(** [str(k)], used when numpy turns a mixed list into an array of strings. *)
Definition key_str (k : key) : string :=
  match k with
  | KInt z => NilZero.string_of_int (Z.to_int z)
  | KStr s => s
  end.

Definition is_str (k : key) : bool := match k with KStr _ => true | _ => false end.

(** [np.asarray(l)]: a list mixing ints and strs becomes an array of strs. *)
Definition np_asarray (l : list pyval) : list key :=
  let ks := map norm l in
  if existsb is_str ks then map (fun k => KStr (key_str k)) ks else ks.

(** One insertion into a strictly increasing list. *)
Fixpoint insert_uniq (k : key) (l : list key) : list key :=
  match l with
  | [] => [k]
  | x :: l' =>
      match key_compare k x with
      | Lt => k :: l
      | Eq => l
      | Gt => x :: insert_uniq k l'
      end
  end.

(** [np.unique(a, axis=0)] for a 1-d array: sorted distinct values. *)
Definition np_unique (ks : list key) : list key := fold_right insert_uniq [] ks.

(** Warning categories issued. *)
Inductive warning := WRepeat | WInexistent | WValidity.

(** index_collections.py 29-88, interface.py 109-110: the two attributes of a collection. *)
Record icol := { cont : list pyval; etype : option pyty }.

(** interface.py 112-113 [__contains__]: list membership by [==]. *)
Definition ic_contains (v : pyval) (c : icol) : bool := existsb (py_eq v) (cont c).

(** interface.py 118-119 [__len__]. *)
Definition ic_len (c : icol) : nat := List.length (cont c).

(** Argument of the constructor: None, a list/ndarray, or another collection. *)
Inductive icdata := DNone | DList (l : list pyval) | DColl (c : icol).

(** index_collections.py 65-88 [__init__]. The class attribute [_element_type] is None when the
    data is empty. numpy elements keep their wrapper in the container. After [np.unique] all elements
    of a modelled list have one type, so the TypeError of lines 80-82 cannot occur. *)
Definition ic_init (d : icdata) : icol * list warning :=
  match d with
  | DNone | DList [] => ({| cont := []; etype := None |}, [])
  | DColl c =>
      match cont c with
      | [] => ({| cont := []; etype := None |}, [])          (* line 66: len(data) == 0 *)
      | _ => ({| cont := cont c; etype := etype c |}, [])    (* lines 69-72 *)
      end
  | DList l =>
      let u := np_unique (np_asarray l) in                   (* line 75 *)
      let w := if Nat.eqb (List.length u) (List.length l) then [] else [WRepeat] in   (* 76-79 *)
      ({| cont := map VNp u;
          etype := match u with k :: _ => Some (key_ty k) | [] => None end |}, w)  (* 83-88 *)
  end.

(** index_collections.py 112-144 [add]. The element type is fixed from the raw value (129-130) before
    the numpy conversion (132-134). *)
Definition ic_add (c : icol) (v : pyval) : icol * res (list warning) :=
  let t := match etype c with None => type_of v | Some t => t end in
  let c1 := {| cont := cont c; etype := Some t |} in
  let v' := VKey (norm v) in
  if negb (ty_eqb (type_of v') t) then (c1, Err TypeErr)            (* 135-137 *)
  else if ic_contains v' c1 then (c1, Ok [WRepeat])                 (* 138-141 *)
  else ({| cont := cont c ++ [v']; etype := Some t |}, Ok []).      (* 143 *)

(** [list.remove]: drop the first equal element. *)
Fixpoint remove_first (v : pyval) (l : list pyval) : list pyval :=
  match l with
  | [] => []
  | x :: l' => if py_eq v x then l' else x :: remove_first v l'
  end.

(** index_collections.py 146-167 [discard]; interface.py 144-146 [remove] delegates to it. *)
Definition ic_discard (c : icol) (v : pyval) : icol * res (list warning) :=
  if ic_contains v c
  then ({| cont := remove_first v (cont c); etype := etype c |}, Ok [])
  else (c, Ok [WInexistent]).

(** index_collections.py 207-208, 186-187: the loop [for item in other], aborted by an exception. *)
Fixpoint ic_loop (f : icol -> pyval -> icol * res (list warning)) (c : icol) (vs : list pyval)
  : icol * res (list warning) :=
  match vs with
  | [] => (c, Ok [])
  | v :: vs' =>
      match f c v with
      | (c1, Err e) => (c1, Err e)
      | (c1, Ok w) =>
          match ic_loop f c1 vs' with
          | (c2, Err e) => (c2, Err e)
          | (c2, Ok w') => (c2, Ok (w ++ w'))
          end
      end
  end.

(** index_collections.py 190-209 [update] (list, ndarray or collection argument; a single
    element is the one-element list, 205-206). *)
Definition ic_update (c : icol) (vs : list pyval) := ic_loop ic_add c vs.

(** index_collections.py 169-188 [difference_update]. *)
Definition ic_difference_update (c : icol) (vs : list pyval) := ic_loop ic_discard c vs.

(** index_collections.py 106-110 [pop]: [list.pop()] removes and returns the last element; an empty
    list raises IndexError (not the documented KeyError). *)
Definition ic_pop (c : icol) : icol * res pyval :=
  match rev (cont c) with
  | [] => (c, Err IndexErr)
  | x :: r => ({| cont := rev r; etype := etype c |}, Ok x)
  end.

(** interface.py 148-150 [clear]. *)
Definition ic_clear (c : icol) : icol := {| cont := []; etype := etype c |}.

(** A method call on a collection. *)
Inductive icop :=
| OAdd (v : pyval) | ODiscard (v : pyval) | OUpdate (vs : list pyval) | ODiff (vs : list pyval).

Definition ic_step (c : icol) (o : icop) : icol * res (list warning) :=
  match o with
  | OAdd v => ic_add c v
  | ODiscard v => ic_discard c v
  | OUpdate vs => ic_update c vs
  | ODiff vs => ic_difference_update c vs
  end.

(** A history of calls; the caller survives exceptions and goes on. *)
Definition ic_run (c : icol) (h : list icop) : icol :=
  fold_left (fun c o => fst (ic_step c o)) h c.

(** utils/misc.py 63-105 [randperm(n, k)] for an int [n]: [arange(0, n+1)] shuffled, first [k].
    [sh] is the shuffled array: any permutation of it. A negative [k] keeps all but the last [-k]. *)
Definition py_slice_to {A} (l : list A) (k : Z) : list A :=
  if k <? 0 then firstn (List.length l - Z.to_nat (- k)) l else firstn (Z.to_nat k) l.

Definition randperm (n : Z) (k : option Z) (sh : list nat) : res (list nat) :=
  let k' := match k with Some k => k | None => n + 1 end in
  if k' >? n + 1 then Err ValueErr else Ok (py_slice_to sh k').

(** Python's [round(q)] of a rational to an integer: half to even. *)
Definition round_half_even (num den : Z) : Z :=
  let q := num / den in
  let r := num mod den in
  match 2 * r ?= den with
  | Lt => q
  | Gt => q + 1
  | Eq => if Z.even q then q else q + 1
  end.

(** index_collections.py 211-226 [random_sampling]; [rate = num/den] with [0 < den]. *)
Definition ic_random_sampling (c : icol) (num den : Z) (sh : list nat) : res icol :=
  if (0 <? num) && (num <? den) then
    match randperm (Z.of_nat (ic_len c) - 1)
                   (Some (round_half_even (num * Z.of_nat (ic_len c)) den)) sh with
    | Err e => Err e
    | Ok perm =>
        vs <- mapM (py_nth (cont c)) perm ;;
        Ok (fst (ic_init (DList vs)))
    end
  else Err AssertErr.
