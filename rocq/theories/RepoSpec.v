(** Specification vocabulary for the knowledge repositories: what a history of calls should have stored. *)
From Verif Require Import Base IndexModel IndexProofs MLModel StateModel Dict OracleModel OracleSpec RepoModel.
From Coq Require Import QArith.
Local Open Scope Z_scope.

Section Element.
  Context {A : Type}.

  (** An event about an index: [Some (l, x)] stores a label and (with examples) an example, [None] removes. *)
  Local Notation event := (key * option (A * option vec))%type.

  (** The events of entries given as parallel lists: an index, its label, its example. *)
  Fixpoint paired (inst : bool) (ks : list key) (ls : list A) (xs : option (list vec)) : list event :=
    match ks, ls with
    | k :: ks', l :: ls' =>
        (k, Some (l, if inst then match xs with Some (x :: _) => Some x | _ => None end else None))
          :: paired inst ks' ls' (option_map (@tl vec) xs)
    | _, _ => []
    end.

  (** A list call is accepted when the lists have equal lengths and examples are supplied where needed. *)
  Definition accepted (inst : bool) (ks : list key) (ls : list A) (cs : option (list Q)) (xs : option (list vec)) : bool :=
    Nat.eqb (List.length ks) (List.length ls) &&
    match cs with Some l => Nat.eqb (List.length l) (List.length ls) | None => true end &&
    match xs with
    | Some l => Nat.eqb (List.length l) (List.length ls)
    | None => negb inst || Nat.eqb (List.length ls) 0
    end.

  (** The events caused by a call; refused calls cause none. *)
  Definition events_of (inst : bool) (o : eop A) : list event :=
    match o with
    | EAdd k l _ x => if inst && negb (is_some x) then [] else [(k, Some (l, if inst then x else None))]
    | EUpdate ks ls cs xs => if accepted inst ks ls cs xs then paired inst ks ls xs else []
    | EUpdateOne k l _ x =>
        (* a bare example is never accepted by a repository with examples *)
        if inst then [] else match x with None | Some [_] => [(k, Some (l, None))] | Some _ => [] end
    | EDiscard k => [(k, None)]
    end.

  (** All events of a repository's life. *)
  Definition life (labels : list A) (indexes : list key) (examples : option (list vec)) (h : list (eop A)) : list event :=
    paired (is_some examples) indexes labels examples ++ flat_map (events_of (is_some examples)) h.

  (** What is stored for an index: its last event. *)
  Definition content (es : list event) (k : key) : option (A * option vec) :=
    match latest key_dec k es with Some (Some v) => Some v | _ => None end.

  (** The ordered index list: storing appends, removing drops the first copy. *)
  Fixpoint drop_first (k : key) (l : list key) : list key :=
    match l with
    | [] => []
    | j :: l' => if key_dec k j then l' else j :: drop_first k l'
    end.
  Definition index_list (es : list event) : list key :=
    fold_left (fun l e => match snd e with Some _ => l ++ [fst e] | None => drop_first (fst e) l end) es [].

  (** Costs paid by a call, and the entry it leaves in the query history. *)
  Definition paid (inst : bool) (o : eop A) : list Q :=
    match o with
    | EAdd _ _ (Some c) x => if inst && negb (is_some x) then [] else [c]
    | EUpdate ks ls (Some cs) xs => if accepted inst ks ls (Some cs) xs then cs else []
    | EUpdateOne _ _ (Some c) x => if inst then [] else match x with None | Some [_] => [c] | Some _ => [] end
    | _ => []
    end.
  Definition logged (inst : bool) (o : eop A) : list (list A * option (list Q) * list key) :=
    match o with
    | EUpdate ks ls cs xs => if accepted inst ks ls cs xs then [(ls, cs, ks)] else []
    | EUpdateOne k l c x =>
        if inst then [] else match x with
                             | None | Some [_] => [([l], option_map (fun q => [q]) c, [k])]
                             | Some _ => [] end
    | _ => []
    end.
End Element.

(** ** MatrixRepository *)

(** An entry: index, label and (with examples) feature vector. *)
Definition mentry : Type := Z * mlabel * vec.
Definition e_index (e : mentry) : Z := fst (fst e).
Definition e_label (e : mentry) : mlabel := snd (fst e).
Definition e_example (e : mentry) : vec := snd e.

(** A label of the shape of the initial labels. *)
Definition right_label (w : option nat) (l : mlabel) : Prop :=
  match w, l with
  | None, LNum _ => True
  | Some n, LVec v => List.length v = n
  | _, _ => False
  end.
Definition right_label_dec w l : {right_label w l} + {~ right_label w l}.
Proof. destruct w, l; cbn; auto. apply Nat.eq_dec. Defined.

(** The example an entry needs: a vector with [d] features when the repository has examples. *)
Definition right_example (inst : bool) (d : nat) (x : option vec) : option vec :=
  if inst then match x with Some v => if Nat.eqb (List.length v) d then Some v else None | None => None end
  else Some [].

(** Adding entries one after the other: known indexes are skipped, a wrong label stops the call
    ([false]), a wrong example damages the repository ([None]). *)
Fixpoint add_entries (w : option nat) (inst : bool) (d : nat) (es : list mentry)
  (new : list (mlabel * Z * option vec)) : option (list mentry * bool) :=
  match new with
  | [] => Some (es, true)
  | (l, k, x) :: new' =>
      if in_dec Z.eq_dec k (map e_index es) then add_entries w inst d es new'
      else if right_label_dec w l then
        match right_example inst d x with
        | Some v => add_entries w inst d (es ++ [(k, l, v)]) new'
        | None => None
        end
      else Some (es, false)
  end.

Fixpoint drop_example (x : vec) (es : list mentry) : list mentry :=
  match es with
  | [] => []
  | e :: es' => if vec_dec (e_example e) x then es' else e :: drop_example x es'
  end.

Definition op_entries (w : option nat) (inst : bool) (d : nat) (es : list mentry) (o : mop) : option (list mentry) :=
  match o with
  | MAdd l k _ x => option_map fst (add_entries w inst d es [(l, k, x)])
  | MUpdate ls ks cs xs =>
      if Nat.eqb (List.length ks) (List.length ls) &&
         match cs with Some l => Nat.eqb (List.length l) (List.length ls) | None => true end &&
         match xs with Some l => Nat.eqb (List.length l) (List.length ls) | None => true end
      then option_map fst (add_entries w inst d es
             (combine (combine ls ks) (match xs with Some l => map Some l | None => repeat None (List.length ls) end)))
      else Some es
  | MDiscard k x =>
      if match k with Some k => if in_dec Z.eq_dec k (map e_index es) then false else true | None => false end
      then Some es
      else match x with
           | Some x => if inst then Some (drop_example x es) else Some es
           | None => match k with
                     | Some k => Some (filter (fun e => if Z.eq_dec (e_index e) k then false else true) es)
                     | None => Some es
                     end
           end
  end.

(** The entries after a history; [None] once an entry came without a fitting example. *)
Fixpoint entries_after (w : option nat) (inst : bool) (d : nat) (es : list mentry) (h : list mop) : option (list mentry) :=
  match h with
  | [] => Some es
  | o :: h' => match op_entries w inst d es o with Some es' => entries_after w inst d es' h' | None => None end
  end.

Definition initial_entries (labels : list mlabel) (indexes : list Z) (examples : option (list vec)) : list mentry :=
  combine (combine indexes labels) (match examples with Some xs => xs | None => repeat [] (List.length labels) end).

(** Examples used for discarding have as many features as the repository. *)
Definition sized_discards (d : nat) (h : list mop) : Prop :=
  forall k x, In (MDiscard k (Some x)) h -> List.length x = d.
