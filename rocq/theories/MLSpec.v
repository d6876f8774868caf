(** What a user expects of multi-label indexes, written without reference to the code. *)
From Verif Require Import Base IndexModel MLModel.
From Verif Require Export SetSpec.
Local Open Scope Z_scope.

(** The (instance, label) pairs an index stands for, with [m] labels: all labels for (i,), the
    listed in-range labels for (i, js), the pair itself for (i, j). *)
Definition denotes (m : Z) (x : mlidx) (p : Z * Z) : Prop :=
  match x with
  | IOne i => fst p = i /\ 0 <= snd p < m
  | IPair i j | ILong i j => p = (i, j)
  | IManyT i js | IManyL i js => fst p = i /\ In (snd p) js /\ 0 <= snd p < m
  end.

(** The same pairs listed. *)
Definition denoted (m : Z) (x : mlidx) : list (Z * Z) :=
  match x with
  | IOne i => map (fun j => (i, j)) (zrange m)
  | IPair i j | ILong i j => [(i, j)]
  | IManyT i js | IManyL i js => map (fun j => (i, j)) (filter (fun j => (0 <=? j) && (j <? m)) js)
  end.

(** The scalar label of an index (if it has one) is in range. *)
Definition scalar_ok (m : Z) (x : mlidx) : bool :=
  match x with IPair _ j | ILong _ j => (0 <=? j) && (j <? m) | _ => true end.

(** Every label mentioned is in range. *)
Definition labels_ok (m : Z) (x : mlidx) : bool :=
  match x with
  | IOne _ => true
  | IPair _ j => (0 <=? j) && (j <? m)
  | IManyT _ js | IManyL _ js => forallb (fun j => (0 <=? j) && (j <? m)) js
  | ILong _ _ => false
  end.

(** The pairs held by a collection. *)
Definition pairs (c : mlic) : list (Z * Z) :=
  flat_map (fun x => match x with IPair i j => [(i, j)] | _ => [] end) (mcont c).

(** Calls covered by the set semantics: scalar labels given to [add] are not negative, and [add] is not
    given a tuple of labels (both are covered by separate theorems). *)
Definition plain (o : mlop) : Prop :=
  match o with
  | MAdd (IPair _ j) => 0 <= j
  | MAdd (IManyT _ _) => False
  | _ => True
  end.

(** Which calls succeed. *)
Definition accepts (m : Z) (o : mlop) : bool :=
  match o with
  | MAdd (IOne _) => true
  | MAdd (IPair _ j) => j <? m
  | MAdd _ => false
  | MDiscard (IManyL _ _) => false
  | MDiscard _ => true
  | MUpdate l | MDiff l => match l with [] => false | _ => forallb (scalar_ok m) l end
  end.

(** The set requests of a call. A tuple of labels or a long tuple given to [discard] is never found
    (it only warns). *)
Definition effects (m : Z) (o : mlop) : list (request (Z * Z)) :=
  if accepts m o then
    match o with
    | MAdd v => map Put (denoted m v)
    | MDiscard (IOne i) => map Take (denoted m (IOne i))
    | MDiscard (IPair i j) => [Take (i, j)]
    | MDiscard _ => []
    | MUpdate l => map Put (flat_map (denoted m) l)
    | MDiff l => map Take (flat_map (denoted m) l)
    end
  else [].

(** Collections over [m] labels obtained by construction and [plain] calls. *)
Inductive ml_reachable (m : Z) : mlic -> Prop :=
| mr_empty : 0 < m -> ml_reachable m {| mcont := []; is_set := true; lsize := Some m |}
| mr_list : forall l ls c w, l <> [] -> ml_init (MList l) ls = Ok (c, w) -> lsize c = Some m ->
    ml_reachable m c
| mr_step : forall c o, ml_reachable m c -> plain o -> ml_reachable m (fst (ml_step c o)).

(** The distinct values of a list in the order of their first occurrence. *)
Fixpoint first_occ (l : list Z) : list Z :=
  match l with
  | [] => []
  | x :: l' => x :: filter (fun y => negb (x =? y)) (first_occ l')
  end.

(** The pair [p] is denoted by some index of the list. *)
Definition denoted_by (m : Z) (l : list mlidx) (p : Z * Z) : Prop :=
  exists x, In x l /\ denotes m x p.

(** Cell (i, j) of a matrix. *)
Definition cell {A} (mat : list (list A)) (i j : nat) : option A :=
  match nth_error mat i with Some r => nth_error r j | None => None end.

(** An [n]-by-[m] matrix. *)
Definition has_shape {A} (mat : list (list A)) (n m : nat) : Prop :=
  List.length mat = n /\ forall r, In r mat -> List.length r = m.

(** A non-empty rectangular matrix of zeros and ones with at least one of each. *)
Definition mask_ok (mat : list (list Z)) : Prop :=
  mat <> [] /\ has_shape mat (List.length mat) (List.length (hd [] mat)) /\
  (forall x, In x (concat mat) -> x = 0 \/ x = 1) /\ In 0 (concat mat) /\ In 1 (concat mat).
