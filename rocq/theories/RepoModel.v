(** Model of the knowledge repositories (alipy/oracle/knowledge_repository.py).

    Simplifications: indexes of [ElementRepository] are integers or strings, those of [MatrixRepository]
    integers; feature vectors are lists of integers (only their equality and length matter); costs are
    exact rationals; the conversion of the results to numpy arrays (and the pretty-printed
    [full_history]) is left out. *)
From Verif Require Import Base IndexModel MLModel StateModel Dict OracleModel.
From Coq Require Import String QArith.
Local Open Scope Z_scope.

Section Element.
  Context {A : Type}. (* labels: arbitrary objects *)

  (** knowledge_repository.py 68-93: attributes. [_exa2ind] and [_ind2exa] exist only when examples were
      given to the constructor. *)
  Record erepo := {
    e_inst : bool;                                   (* _instance_flag *)
    e_idx : list key;                                (* _indexes *)
    e_exa : option (list (vec * key));               (* _exa2ind *)
    e_ind : option (list (key * vec));               (* _ind2exa *)
    e_lab : list (key * A);                          (* _ind2label *)
    e_cost : Q;                                      (* cost_inall *)
    e_costs : list Q;                                (* _cost_arr *)
    e_num : nat;                                     (* num_of_queries *)
    e_hist : list (list A * option (list Q) * list key) (* _query_history *)
  }.

  Definition has {K V} (eqb : K -> K -> bool) (k : K) (d : list (K * V)) : bool :=
    match dget eqb k d with Some _ => true | None => false end.

  (** knowledge_repository.py 68-93 [ElementRepository.__init__] *)
  Definition er_init (labels : list A) (indexes : list key) (examples : option (list vec)) : res erepo :=
    if negb (same_length labels (Some indexes) examples (@None (list unit))) then Err ValueErr   (* 74-75 *)
    else
      Ok {| e_inst := match examples with Some _ => true | None => false end;
            e_idx := indexes;
            e_exa := option_map (fun xs => dset_all zlist_eqb (combine xs indexes) []) examples;  (* 85 *)
            e_ind := option_map (fun xs => dset_all key_eqb (combine indexes xs) []) examples;    (* 86 *)
            e_lab := dset_all key_eqb (combine indexes labels) [];                                (* 87 *)
            e_cost := 0%Q; e_costs := []; e_num := O; e_hist := [] |}.

  (** 95-96 [__contains__] *)
  Definition er_contains (r : erepo) (k : key) : bool := has key_eqb k (e_lab r).

  (** The first copy of [x] removed ([list.remove]). *)
  Fixpoint remove_first (x : key) (l : list key) : list key :=
    match l with
    | [] => []
    | y :: l' => if key_eqb x y then l' else y :: remove_first x l'
    end.

  (** 117-129: the part of [add] after the example was recorded. *)
  Definition er_store (r : erepo) (exa : option (list (vec * key))) (ind : option (list (key * vec)))
    (k : key) (l : A) (c : option Q) : erepo :=
    {| e_inst := e_inst r;
       e_idx := e_idx r ++ [k];                                                        (* 128 *)
       e_exa := exa; e_ind := ind;
       e_lab := dset key_eqb k l (e_lab r);                                            (* 127 *)
       e_cost := match c with Some q => (e_cost r + q)%Q | None => e_cost r end;       (* 123-124 *)
       e_costs := match c with Some q => e_costs r ++ [q] | None => e_costs r end;     (* 125 *)
       e_num := e_num r; e_hist := e_hist r |}.

  (** 98-129 [add]; an example is a vector or a bare number ([tuple] raises TypeError). *)
  Definition er_add (r : erepo) (k : key) (l : A) (c : option Q) (x : option (vec + unit)) : erepo * res unit :=
    if e_inst r then
      match x with
      | None => (r, Err GenericErr)                                                    (* 115-117 *)
      | Some (inr _) => (r, Err TypeErr)                                               (* 118 *)
      | Some (inl v) =>
          (er_store r (option_map (dset zlist_eqb v k) (e_exa r))                      (* 119 *)
                      (option_map (dset key_eqb k v) (e_ind r)) k l c, Ok tt)          (* 120 *)
      end
    else (er_store r (e_exa r) (e_ind r) k l c, Ok tt).

  Definition set_stores (r : erepo) idx exa ind lab : erepo :=
    {| e_inst := e_inst r; e_idx := idx; e_exa := exa; e_ind := ind; e_lab := lab; e_cost := e_cost r;
       e_costs := e_costs r; e_num := e_num r; e_hist := e_hist r |}.

  Definition dflt {T} (o : option (list T)) : list T := match o with Some l => l | None => [] end.

  (** 131-155 [discard(index)]; true: the warning about a missing index. *)
  Definition er_discard (r : erepo) (k : key) : erepo * res bool :=
    if negb (existsb (key_eqb k) (e_idx r)) then (r, Ok true)                          (* 147-151 *)
    else
      let idx := remove_first k (e_idx r) in                                           (* 152 *)
      if negb (has key_eqb k (e_lab r))
      then (set_stores r idx (e_exa r) (e_ind r) (e_lab r), Err KeyErr)                (* 153 *)
      else
        let lab := ddel key_eqb k (e_lab r) in
        if e_inst r then
          match dget key_eqb k (dflt (e_ind r)) with
          | None => (set_stores r idx (e_exa r) (e_ind r) lab, Err KeyErr)             (* 155, inner pop *)
          | Some v =>
              let ind := option_map (ddel key_eqb k) (e_ind r) in
              if negb (has zlist_eqb v (dflt (e_exa r)))
              then (set_stores r idx (e_exa r) ind lab, Err KeyErr)                    (* 155, outer pop *)
              else (set_stores r idx (option_map (ddel zlist_eqb v) (e_exa r)) ind lab, Ok false)
          end
        else (set_stores r idx (e_exa r) (e_ind r) lab, Ok false).

  (** 157-171 [discard(example=...)] *)
  Definition er_discard_ex (r : erepo) (v : vec) : erepo * res bool :=
    if negb (e_inst r) then (r, Err GenericErr)                                        (* 158-159 *)
    else
      match dget zlist_eqb v (dflt (e_exa r)) with
      | None => (r, Ok true)                                                           (* 162-166 *)
      | Some k =>
          if negb (existsb (key_eqb k) (e_idx r)) then (r, Err ValueErr)               (* 168 *)
          else
            let idx := remove_first k (e_idx r) in
            let exa := option_map (ddel zlist_eqb v) (e_exa r) in                      (* 169 *)
            if negb (has key_eqb k (dflt (e_ind r)))
            then (set_stores r idx exa (e_ind r) (e_lab r), Err KeyErr)                (* 170 *)
            else
              let ind := option_map (ddel key_eqb k) (e_ind r) in
              if negb (has key_eqb k (e_lab r))
              then (set_stores r idx exa ind (e_lab r), Err KeyErr)                    (* 171 *)
              else (set_stores r idx exa ind (ddel key_eqb k (e_lab r)), Ok false)
      end.

  Fixpoint er_loop (r : erepo) (es : list (key * A * option Q * option (vec + unit))) : erepo * res unit :=
    match es with
    | [] => (r, Ok tt)
    | (k, l, c, x) :: es' =>
        match er_add r k l c x with
        | (r', Ok _) => er_loop r' es'
        | (r', Err e) => (r', Err e)
        end
    end.

  Definition er_log (r : erepo) (ls : list A) (cs : option (list Q)) (ks : list key) : erepo :=
    {| e_inst := e_inst r; e_idx := e_idx r; e_exa := e_exa r; e_ind := e_ind r; e_lab := e_lab r;
       e_cost := e_cost r; e_costs := e_costs r; e_num := S (e_num r); e_hist := e_hist r ++ [(ls, cs, ks)] |}.

  (** 174-205 [update_query] with lists (one-element lists are unpacked by 195, to the same effect; the
      history then holds the elements themselves, here the lists). *)
  Definition er_update (r : erepo) (ks : list key) (ls : list A) (cs : option (list Q)) (xs : option (list vec))
    : erepo * res unit :=
    if negb (same_length ls (Some ks) cs xs) then (r, Err ValueErr)                    (* 192-194 *)
    else
      match er_loop r (combine (combine (combine ks ls) (column (List.length ls) cs))
                               (map (option_map inl) (column (List.length ls) xs))) with   (* 199-201 *)
      | (r', Err e) => (r', Err e)
      | (r', Ok _) => (er_log r' ls cs ks, Ok tt)                                      (* 202-203 *)
      end.

  (** 174-205 [update_query] with a bare index and label and a flat example: the example is refused unless
      it has one feature (192), and then it becomes a number (195). *)
  Definition er_update_one (r : erepo) (k : key) (l : A) (c : option Q) (x : option vec) : erepo * res unit :=
    let go x :=
      match er_add r k l c x with
      | (r', Err e) => (r', Err e)
      | (r', Ok _) => (er_log r' [l] (option_map (fun q => [q]) c) [k], Ok tt)
      end in
    match x with
    | None => go None
    | Some [_] => go (Some (inr tt))
    | Some _ => (r, Err ValueErr)
    end.

  (** 207-237 [retrieve_by_indexes]: examples and labels of the known indexes, the skipped indexes. *)
  Fixpoint er_retrieve (r : erepo) (ks : list key) : res (list vec * list A * list key) :=
    match ks with
    | [] => Ok ([], [], [])
    | k :: ks' =>
        match dget key_eqb k (e_lab r) with
        | None => t <- er_retrieve r ks' ;; Ok (fst (fst t), snd (fst t), k :: snd t)  (* 235-236 *)
        | Some l =>
            xs <- (if e_inst r then
                     match dget key_eqb k (dflt (e_ind r)) with Some v => Ok [v] | None => Err KeyErr end
                   else Ok []) ;;                                                      (* 232-233 *)
            t <- er_retrieve r ks' ;;
            Ok (xs ++ fst (fst t), l :: snd (fst t), snd t)
        end
    end.

  (** 239-267 [retrieve_by_examples] on a list of vectors. *)
  Definition er_retrieve_ex (r : erepo) (xs : list vec) : res (list vec * list A * list key) :=
    if negb (e_inst r) then Err GenericErr
    else er_retrieve r (flat_map (fun v => match dget zlist_eqb v (dflt (e_exa r)) with
                                           | Some k => [k] | None => [] end) xs).

  (** 269-290 [get_training_data] *)
  Definition er_training (r : erepo) : res (list vec * list A * list key) :=
    t <- mapM (fun k =>
                 xs <- (if e_inst r then
                          match dget key_eqb k (dflt (e_ind r)) with Some v => Ok [v] | None => Err KeyErr end
                        else Ok []) ;;                                                 (* 286-287 *)
                 match dget key_eqb k (e_lab r) with
                 | Some l => Ok (xs, l)
                 | None => Err KeyErr                                                  (* 288 *)
                 end) (e_idx r) ;;
    Ok (flat_map fst t, map snd t, e_idx r).

  (** 292-302 [clear]: without examples [_exa2ind] does not exist, AttributeError. [_ind2exa] is kept. *)
  Definition er_clear (r : erepo) : erepo * res unit :=
    match e_exa r with
    | None => (set_stores r [] None (e_ind r) (e_lab r), Err AttrErr)                  (* 294-295 *)
    | Some _ =>
        ({| e_inst := false; e_idx := []; e_exa := Some []; e_ind := e_ind r; e_lab := [];
            e_cost := 0%Q; e_costs := []; e_num := O; e_hist := [] |}, Ok tt)
    end.

  (** Calls that change the repository. *)
  Inductive eop :=
  | EAdd (k : key) (l : A) (c : option Q) (x : option vec)
  | EUpdate (ks : list key) (ls : list A) (cs : option (list Q)) (xs : option (list vec))
  | EUpdateOne (k : key) (l : A) (c : option Q) (x : option vec)
  | EDiscard (k : key).
  Definition er_step (r : erepo) (o : eop) : erepo :=
    match o with
    | EAdd k l c x => fst (er_add r k l c (option_map inl x))
    | EUpdate ks ls cs xs => fst (er_update r ks ls cs xs)
    | EUpdateOne k l c x => fst (er_update_one r k l c x)
    | EDiscard k => fst (er_discard r k)
    end.
  Definition er_run (r : erepo) (h : list eop) : erepo := fold_left er_step h r.
End Element.
Arguments erepo : clear implicits.
Arguments eop : clear implicits.

(** ** MatrixRepository (321-598) *)

(** A label: a number, or a vector. *)
Inductive mlabel := LNum (z : Z) | LVec (l : list Z).

Record mrepo := {
  m_width : option nat;       (* None: _y has one dimension; Some w: two, with w columns *)
  m_inst : bool;              (* _instance_flag *)
  m_feat : nat;               (* number of columns of _X *)
  m_y : list mlabel;          (* _y *)
  m_idx : list Z;             (* _indexes *)
  m_X : list vec;             (* _X (empty without examples) *)
  m_cost : Q;                 (* cost_inall *)
  m_costs : list (option Q);  (* _cost_arr *)
  m_num : nat;                (* num_of_queries *)
  m_hist : list (list mlabel * option (list Q) * list Z)
}.

(** Does a label fit the label array? 380-387: a vector is refused by a one-dimensional array;
    [np.append(..., axis=0)] refuses numbers and vectors of another length for a two-dimensional one. *)
Definition label_fits (w : option nat) (l : mlabel) : option exn :=
  match w, l with
  | None, LNum _ => None
  | None, LVec _ => Some TypeErr                                                       (* 381-383 *)
  | Some n, LVec v => if Nat.eqb (List.length v) n then None else Some ValueErr        (* 387 *)
  | Some _, LNum _ => Some ValueErr
  end.

(** The shape [np.array] gives the initial labels. *)
Definition label_shape (labels : list mlabel) : res (option nat) :=
  match labels with
  | [] => Err ValueErr                                                                 (* check_array, 347 *)
  | LNum _ :: _ => if forallb (fun l => match l with LNum _ => true | _ => false end) labels
                   then Ok None else Err ValueErr
  | LVec v :: _ => if forallb (fun l => match label_fits (Some (List.length v)) l with None => true | _ => false end) labels
                   then Ok (Some (List.length v)) else Err ValueErr
  end.

(** 342-361 [MatrixRepository.__init__] *)
Definition mr_init (labels : list mlabel) (indexes : list Z) (examples : option (list vec)) : res mrepo :=
  if negb (same_length labels (Some indexes) examples (@None (list unit))) then Err ValueErr
  else
    w <- label_shape labels ;;
    let d := match examples with Some (x :: _) => List.length x | _ => O end in
    _ <- guard (match examples with
                | Some xs => forallb (fun x => Nat.eqb (List.length x) d) xs && Nat.ltb 0 d
                | None => true end) ValueErr ;;                                        (* 351, check_array *)
    Ok {| m_width := w; m_inst := match examples with Some _ => true | None => false end; m_feat := d;
          m_y := labels; m_idx := indexes; m_X := match examples with Some xs => xs | None => [] end;
          m_cost := 0%Q; m_costs := []; m_num := O; m_hist := [] |}.

Definition zmem (k : Z) (l : list Z) : bool := existsb (Z.eqb k) l.

(** 364-403 [add]; true: the warning about a repeated index. The label, the index and the cost are
    appended before the example is looked at. *)
Definition mr_add (r : mrepo) (l : mlabel) (k : Z) (c : option Q) (x : option vec) : mrepo * res bool :=
  if zmem k (m_idx r) then (r, Ok true)                                                (* 376-379 *)
  else
    match label_fits (m_width r) l with
    | Some e => (r, Err e)
    | None =>
        let r1 X := {| m_width := m_width r; m_inst := m_inst r; m_feat := m_feat r;
                       m_y := m_y r ++ [l]; m_idx := m_idx r ++ [k]; m_X := X;         (* 384-391 *)
                       m_cost := match c with Some q => (m_cost r + q)%Q | None => m_cost r end;
                       m_costs := m_costs r ++ [c];
                       m_num := m_num r; m_hist := m_hist r |} in
        if m_inst r then
          match x with
          | None => (r1 (m_X r), Err GenericErr)                                       (* 395-397 *)
          | Some v => if Nat.eqb (List.length v) (m_feat r)
                      then (r1 (m_X r ++ [v]), Ok false)                               (* 399 *)
                      else (r1 (m_X r), Err ValueErr)
          end
        else (r1 (m_X r), Ok false)
    end.

Fixpoint mr_loop (r : mrepo) (es : list (mlabel * Z * option Q * option vec)) : mrepo * res unit :=
  match es with
  | [] => (r, Ok tt)
  | (l, k, c, x) :: es' =>
      match mr_add r l k c x with
      | (r', Ok _) => mr_loop r' es'
      | (r', Err e) => (r', Err e)
      end
  end.

(** 405-436 [update_query] with lists. *)
Definition mr_update (r : mrepo) (ls : list mlabel) (ks : list Z) (cs : option (list Q)) (xs : option (list vec))
  : mrepo * res unit :=
  if negb (same_length ls (Some ks) cs xs) then (r, Err ValueErr)                      (* 423-425 *)
  else
    match mr_loop r (combine (combine (combine ls ks) (column (List.length ls) cs)) (column (List.length ls) xs)) with
    | (r', Err e) => (r', Err e)
    | (r', Ok _) =>
        ({| m_width := m_width r'; m_inst := m_inst r'; m_feat := m_feat r'; m_y := m_y r'; m_idx := m_idx r';
            m_X := m_X r'; m_cost := m_cost r'; m_costs := m_costs r'; m_num := S (m_num r');
            m_hist := m_hist r' ++ [(ls, cs, ks)] |}, Ok tt)                           (* 433-434 *)
    end.

(** [np.all(vec == example)] with numpy's broadcasting of one-element vectors. *)
Definition np_all_eq (v x : vec) : bool :=
  if Nat.eqb (List.length v) (List.length x) then zlist_eqb v x
  else match v, x with
       | _, [a] => forallb (Z.eqb a) v
       | [a], _ => forallb (Z.eqb a) x
       | _, _ => false
       end.

(** 507-517 [_find_one_example] *)
Fixpoint find_example (X : list vec) (x : vec) : option nat :=
  match X with
  | [] => None
  | v :: X' => if np_all_eq v x then Some O else option_map S (find_example X' x)
  end.

(** Boolean indexing [a[mask]]: the lengths must agree. *)
Fixpoint select {T} (mask : list bool) (l : list T) : res (list T) :=
  match mask, l with
  | [], [] => Ok []
  | b :: mask', a :: l' => r <- select mask' l' ;; Ok (if b then a :: r else r)
  | _, _ => Err IndexErr
  end.

(** 471-478: the end of [discard], for the kept positions. *)
Definition mr_keep (r : mrepo) (mask : list bool) : mrepo * res bool :=
  let put y idx X := {| m_width := m_width r; m_inst := m_inst r; m_feat := m_feat r; m_y := y; m_idx := idx;
                        m_X := X; m_cost := m_cost r; m_costs := m_costs r; m_num := m_num r; m_hist := m_hist r |} in
  match select mask (m_y r), select mask (m_idx r) with
  | Ok y, Ok idx =>
      if m_inst r then
        match select mask (m_X r) with
        | Ok X => (put y idx X, Ok false)
        | Err e => (put y idx (m_X r), Err e)                                          (* 477 *)
        end
      else (put y idx (m_X r), Ok false)
  | Ok y, Err e => (put y (m_idx r) (m_X r), Err e)
  | Err e, _ => (r, Err e)
  end.

(** 438-478 [discard]; true: a warning, nothing discarded. *)
Definition mr_discard (r : mrepo) (index : option Z) (example : option vec) : mrepo * res bool :=
  match index, example with
  | None, None => (r, Err GenericErr)                                                  (* 451-452 *)
  | _, _ =>
      if match index with Some k => negb (zmem k (m_idx r)) | None => false end
      then (r, Ok true)                                                                (* 455-459 *)
      else
        match example with
        | None => mr_keep r (map (fun j => match index with Some k => negb (Z.eqb j k) | None => true end) (m_idx r))
        | Some x =>
            if negb (m_inst r) then (r, Err GenericErr)                                (* 463-464 *)
            else match find_example (m_X r) x with
                 | None => (r, Ok true)                                                (* 467-470 *)
                 | Some p =>
                     if Nat.ltb p (List.length (m_idx r))
                     then mr_keep r (map (fun i => negb (Nat.eqb i p)) (seq 0 (List.length (m_idx r))))
                     else (r, Err IndexErr)                                            (* 473 *)
                 end
        end
  end.

(** Rows of [_X] (None without examples) and [_y] at the given positions; IndexError beyond the end. *)
Definition mr_rows (r : mrepo) (ps : list nat) : res (option (list vec) * list mlabel) :=
  X <- (if m_inst r then rmap Some (mapM (py_nth (m_X r)) ps) else Ok None) ;;
  y <- mapM (py_nth (m_y r)) ps ;;
  Ok (X, y).

(** [np.argwhere(self._indexes == k)] *)
Fixpoint positions_from (n : nat) (k : Z) (l : list Z) : list nat :=
  match l with
  | [] => []
  | j :: l' => if Z.eqb j k then n :: positions_from (S n) k l' else positions_from (S n) k l'
  end.
Definition positions := positions_from 0.

(** 503-505 [retrieve_by_indexes] on a list. *)
Definition mr_retrieve (r : mrepo) (ks : list Z) : res (option (list vec) * list mlabel) :=
  ps <- mapM (fun k => match positions k (m_idx r) with p :: _ => Ok p | [] => Err IndexErr end) ks ;;
  mr_rows r ps.

(** 497-502 [retrieve_by_indexes] on a bare index: the flag tells whether "not in the repository" is
    reported. The truth value of [array([[0]])] is false, that of longer arrays an error. *)
Definition mr_retrieve_one (r : mrepo) (k : Z) : res (bool * (option (list vec) * list mlabel)) :=
  let ps := positions k (m_idx r) in
  w <- (match ps with
        | [] => Ok true
        | [p] => Ok (Nat.eqb p 0)
        | _ => Err ValueErr
        end) ;;
  t <- mr_rows r ps ;;
  Ok (w, t).

(** 519-551 [retrieve_by_examples] on a matrix of examples; missing ones are skipped. *)
Definition mr_retrieve_ex (r : mrepo) (xs : list vec) : res (option (list vec) * list mlabel) :=
  if negb (m_inst r) then Err GenericErr
  else mr_rows r (flat_map (fun x => match find_example (m_X r) x with Some p => [p] | None => [] end) xs).

(** 555-570 [get_training_data] *)
Definition mr_training (r : mrepo) : option (list vec) * list mlabel * list Z :=
  (if m_inst r then Some (m_X r) else None, m_y r, m_idx r).

Inductive mop :=
| MAdd (l : mlabel) (k : Z) (c : option Q) (x : option vec)
| MUpdate (ls : list mlabel) (ks : list Z) (cs : option (list Q)) (xs : option (list vec))
| MDiscard (k : option Z) (x : option vec).

Definition mr_step (r : mrepo) (o : mop) : mrepo * res bool :=
  match o with
  | MAdd l k c x => mr_add r l k c x
  | MUpdate ls ks cs xs => match mr_update r ls ks cs xs with (r', Ok _) => (r', Ok false) | (r', Err e) => (r', Err e) end
  | MDiscard k x => mr_discard r k x
  end.

(** A history, with the outcome of every call. *)
Fixpoint mr_run (r : mrepo) (h : list mop) : mrepo * list (res bool) :=
  match h with
  | [] => (r, [])
  | o :: h' => let '(r1, a) := mr_step r o in let '(r2, t) := mr_run r1 h' in (r2, a :: t)
  end.
