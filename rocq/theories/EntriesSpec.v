(** Specification vocabulary for the order in which entries are told to oracles, repositories and
    collections. *)
From Verif Require Import Base IndexModel SetSpec IndexSpec MLModel StateModel OracleModel OracleSpec RepoModel.
From Coq Require Import QArith.

(** The indexes a call is about. *)
Definition told_about (c : teach) : list key :=
  match c with TOne _ k _ _ => [k] | TMany _ ks _ _ => ks end.
Definition stored_about {A} (o : eop A) : list key :=
  match o with EAdd k _ _ _ => [k] | EUpdate ks _ _ _ => ks | EUpdateOne k _ _ _ => [k] | EDiscard k => [k] end.
Definition asked_about (o : icop) : list key := map about (requests o).

(** No index occurs in two calls of the history. *)
Definition apart {C} (idx : C -> list key) (h : list C) : Prop :=
  ForallOrdPairs (fun c d => forall k, In k (idx c) -> ~ In k (idx d)) h.

(** An entry: label, index, example, cost. *)
Definition entry_row : Type := (key * key * list Z * Q)%type.
Definition lab (e : entry_row) : key := fst (fst (fst e)).
Definition ind (e : entry_row) : key := snd (fst (fst e)).
Definition ex (e : entry_row) : list Z := snd (fst e).
Definition co (e : entry_row) : Q := snd e.

(** The entries as columns, with the examples and costs left out where they are not wanted. *)
Definition wanted {T} (b : bool) (l : list T) : option (list T) := if b then Some l else None.
Definition in_one_call (wx wc : bool) (es : list entry_row) : teach :=
  TMany (map lab es) (map ind es) (wanted wx (map ex es)) (wanted wc (map co es)).
