(** Words for C114: lists of instances and lists of (instance, label) indexes. *)
From Verif Require Import Base IndexModel MLModel MLSpec ToolModel GivenModel.
Local Open Scope Z_scope.

(** A list of instance numbers, a list of tuples. *)
Definition numbers (l : list Z) : arg := AList (map (fun i => EKey (KInt i)) l).
Definition tuples (l : list mlidx) : arg := AList (map ETup l).

(** The collection holds exactly the instances of the list, in ascending order and once each. *)
Definition holds_instances (c : icol) (l : list Z) : Prop :=
  exists s, map norm (cont c) = map KInt s /\ StronglySorted Z.lt s /\ forall i, In i s <-> In i l.

(** The collection has [m] labels and holds exactly the pairs the list stands for, once each. *)
Definition holds_pairs (m : Z) (c : mlic) (l : list mlidx) : Prop :=
  lsize c = Some m /\ NoDup (pairs c) /\ mcont c = map (fun p => IPair (fst p) (snd p)) (pairs c) /\
  forall p, In p (pairs c) <-> exists x, In x l /\ denotes m x p.

(** Every index is (i,) or (i, j) with j >= 0. *)
Definition simple (l : list mlidx) : Prop :=
  forall x, In x l -> match x with IOne _ => True | IPair _ j => 0 <= j | _ => False end.
(** [m] is one more than the largest label of the list. *)
Definition size_from (l : list mlidx) (m : Z) : Prop :=
  (exists i, In (IPair i (m - 1)) l) /\ forall i j, In (IPair i j) l -> j < m.

Definition is_labels (x : made) : Prop := match x with MMl _ => True | _ => False end.
