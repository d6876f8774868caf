(** Model of the oracles (alipy/oracle/oracle.py) and of the vote functions of
    alipy/query_strategy/noisy_oracles.py, lines 60-170.

    Simplifications: indexes and labels of [Oracle] are integers or strings (floating point labels and
    label vectors are not modelled); feature vectors are lists of integers (only their equality
    matters); costs are exact rationals. *)
From Verif Require Import Base IndexModel MLModel StateModel Dict.
From Coq Require Import String QArith.
Local Open Scope Z_scope.

Definition vec := list Z.

(** oracle.py 55-80: the attributes of [Oracle]. An entry of [_ind2all] is the label with its cost;
    without cost information only the label is stored. *)
Record oracle := {
  o_type : pyty;                         (* _label_type *)
  o_inst : bool;                         (* _instance_flag *)
  o_costf : bool;                        (* _cost_flag *)
  o_exa : list (vec * key);              (* _exa2ind *)
  o_ind : list (key * (key * option Q))  (* _ind2all *)
}.

Definition exa_set := dset zlist_eqb (V := key).
Definition exa_get := dget zlist_eqb (V := key).
Definition ind_set := dset key_eqb (V := key * option Q).
Definition ind_get := dget key_eqb (V := key * option Q).

(** misc.py 207-243 [check_one_to_one_correspondence] for an array of labels and optional arrays. *)
Definition same_length {A B C D} (labels : list A) (xs : option (list B)) (ys : option (list C))
  (zs : option (list D)) : bool :=
  let n := List.length labels in
  let ok {T} (o : option (list T)) := match o with None => true | Some l => Nat.eqb (List.length l) n end in
  ok xs && ok ys && ok zs.

(** [[i for i in range(n)]] *)
Definition default_indexes (n : nat) : list key := map (fun i => KInt (Z.of_nat i)) (seq 0 n).

(** The costs paired with the labels: nothing without cost information. *)
Definition cost_column (n : nat) (cost : option (list Q)) : list (option Q) :=
  match cost with None => repeat None n | Some l => map Some l end.

(** oracle.py 55-80 [Oracle.__init__]; an empty label array is refused by [check_array] (60), and an
    array mixing integers and strings becomes an array of strings. *)
Definition or_init (labels : list key) (examples : option (list vec)) (indexes : option (list key))
  (cost : option (list Q)) : res oracle :=
  if negb (same_length labels examples indexes cost) then Err ValueErr              (* 56-58 *)
  else
    match np_asarray (map VKey labels) with                                         (* 60 *)
    | [] => Err ValueErr
    | l0 :: _ =>
        let n := List.length labels in
        let ks := match indexes with Some l => l | None => default_indexes n end in (* 69 *)
        Ok {| o_type := key_ty l0;                                                  (* 61-65 *)
              o_inst := match examples with Some _ => true | None => false end;
              o_costf := match cost with Some _ => true | None => false end;
              o_exa := match examples with
                       | Some xs => dset_all zlist_eqb (combine xs ks) []           (* 75-76 *)
                       | None => [] end;
              o_ind := dset_all key_eqb                                             (* 77-80 *)
                         (combine ks (combine (np_asarray (map VKey labels)) (cost_column n cost))) [] |}
    end.

Definition with_exa (o : oracle) d :=
  {| o_type := o_type o; o_inst := o_inst o; o_costf := o_costf o; o_exa := d; o_ind := o_ind o |}.
Definition with_ind (o : oracle) d :=
  {| o_type := o_type o; o_inst := o_inst o; o_costf := o_costf o; o_exa := o_exa o; o_ind := d |}.

(** oracle.py 93-139 [_add_one_entry]. An example is [inl x] (a vector) or [inr tt] (a bare number,
    on which [tuple] raises TypeError). *)
Definition or_add_one (o : oracle) (label : key) (index : key) (example : option (vec + unit))
  (cost : option Q) : oracle * res unit :=
  if negb (ty_eqb (key_ty label) (o_type o)) then (o, Err TypeErr)                   (* 124-126 *)
  else
    let step2 (o : oracle) :=
      if o_costf o then
        match cost with
        | None => (o, Err GenericErr)                                                (* 134-136 *)
        | Some c => (with_ind o (ind_set index (label, Some c) (o_ind o)), Ok tt)    (* 137 *)
        end
      else (with_ind o (ind_set index (label, None) (o_ind o)), Ok tt) in            (* 139 *)
    if o_inst o then
      match example with
      | None => (o, Err GenericErr)                                                  (* 128-130 *)
      | Some (inr _) => (o, Err TypeErr)                                             (* 131 *)
      | Some (inl x) => step2 (with_exa o (exa_set x index (o_exa o)))               (* 131-132 *)
      end
    else step2 o.

(** A call of [add_knowledge]: about one index, or with lists. *)
Inductive teach :=
| TOne (label : key) (index : key) (example : option vec) (cost : option Q)
| TMany (labels : list key) (indexes : list key) (examples : option (list vec)) (cost : option (list Q)).

(** oracle.py 171-173: the loop over the entries, left by the first exception. *)
Fixpoint or_add_loop (o : oracle) (es : list (key * key * option (vec + unit) * option Q)) : oracle * res unit :=
  match es with
  | [] => (o, Ok tt)
  | (l, k, x, c) :: es' =>
      match or_add_one o l k x c with
      | (o', Ok _) => or_add_loop o' es'
      | (o', Err e) => (o', Err e)
      end
  end.

(** The i-th element of each optional argument list. *)
Definition column {A} (n : nat) (l : option (list A)) : list (option A) :=
  match l with None => repeat None n | Some l => map Some l end.

(** oracle.py 141-173 [add_knowledge]. [unpack] (165) turns one-element lists into their element: a
    one-feature example given alone becomes a number. With a single index and several labels (or
    examples) the list itself is taken as the label (or example), which raises TypeError; several costs
    for a single index are not modelled (also TypeError here). *)
Definition or_teach (o : oracle) (c : teach) : oracle * res unit :=
  match c with
  | TOne l k x c =>
      or_add_one o l k
        (match x with
         | None => None
         | Some [_] => Some (inr tt)
         | Some v => Some (inl v)
         end) c
  | TMany ls ks xs cs =>
      if Nat.eqb (List.length ks) 1 then
        if same_length ks (Some ls) xs cs
        then or_add_loop o (combine (combine (combine ls ks) (map (option_map inl) (column 1 xs))) (column 1 cs))
        else (o, Err TypeErr)
      else if negb (same_length ls (Some ks) xs cs) then (o, Err ValueErr)           (* 169-170 *)
      else or_add_loop o
             (combine (combine (combine ls ks) (map (option_map inl) (column (List.length ls) xs)))
                      (column (List.length ls) cs))                                  (* 171-173 *)
  end.

Definition or_run (o : oracle) (h : list teach) : oracle :=
  fold_left (fun o c => fst (or_teach o c)) h o.

(** oracle.py 192-206 [query_by_index] on a list (a single index is wrapped, 192-193). [_do_missing]
    (252) formats with [%] a string without placeholder: TypeError. *)
Definition or_query (o : oracle) (ks : list key) : res (list key * list Q) :=
  rmap (@List.split _ _)
    (mapM (fun k => match ind_get k (o_ind o) with
                    | Some (l, c) => Ok (l, if o_costf o then match c with Some c => c | None => 1%Q end else 1%Q)
                    | None => Err TypeErr
                    end) ks).

(** oracle.py 226-239 [query_by_example] on a list of vectors (a single vector is wrapped; [np.shape]
    takes the empty list for a single vector). *)
Definition or_query_ex (o : oracle) (xs : list vec) : res (list key * list Q) :=
  if negb (o_inst o) then Err GenericErr                                             (* 226-227 *)
  else
    ks <- mapM (fun x => match exa_get x (o_exa o) with Some k => Ok k | None => Err TypeErr end)
               (match xs with [] => [[]] | _ => xs end) ;;                           (* 230-238 *)
    or_query o ks.                                                                   (* 239 *)

(** ** OracleQueryMultiLabel (oracle.py 309-514); OracleQueryFeatures (677-698) only renames the
    label matrix. *)

(** The cost row of an entry: a numpy array, a Python list, or a bare number. *)
Inductive crow := CArr (l : list Q) | CLst (l : list Q) | CNum (q : Q).
(** The [cost] argument: one-dimensional or two-dimensional, list or array. *)
Inductive mcost := MCNone | MCVec (arr : bool) (l : list Q) | MCMat (arr : bool) (rows : list (list Q)).

Section MO.
  Context {A : Type}. (* label values *)

  Record moracle := {
    mo_m : nat;                                   (* _label_shape[1] *)
    mo_inst : bool;
    mo_costf : bool;
    mo_label_cost : option crow;                  (* _label_cost; None when _fine_grained_cost *)
    mo_exa : list (vec * Z);
    mo_ind : list (Z * (list A * option crow))
  }.

  Definition mexa_set := dset zlist_eqb (V := Z).
  Definition mexa_get := dget zlist_eqb (V := Z).
  Definition mind_set := dset Z.eqb (V := list A * option crow).
  Definition mind_get := dget Z.eqb (V := list A * option crow).

  (** oracle.py 333-344: the tiled or fine-grained cost column, the label cost. [n] rows, [m] labels. *)
  Definition mo_costs (n m : nat) (cost : mcost) : option (list crow) * option crow :=
    match cost with
    | MCNone => (None, None)
    | MCVec arr l =>
        if Nat.eqb (List.length l) m                                                  (* 338 *)
        then (Some (repeat (CArr l) n), Some (if arr then CArr l else CLst l))        (* 340-342 *)
        else (Some (map CNum l), None)                                                (* 344 *)
    | MCMat arr rows => (Some (map (if arr then CArr else CLst) rows), None)          (* 344 *)
    end.

  (** oracle.py 333-345 [OracleQueryMultiLabel.__init__] with 55-80, for a matrix with [m] columns. *)
  Definition mo_build (m : nat) (labels : list (list A)) (examples : option (list vec)) (indexes : option (list Z))
    (cost : mcost) : res moracle :=
    let n := List.length labels in
    let cs := fst (mo_costs n m cost) in
    if negb (same_length labels examples indexes cs) then Err ValueErr                  (* 56-58 *)
    else
      let ks := match indexes with Some l => l | None => zrange (Z.of_nat n) end in     (* 69 *)
      Ok {| mo_m := m;
            mo_inst := match examples with Some _ => true | None => false end;
            mo_costf := match cs with Some _ => true | None => false end;
            mo_label_cost := snd (mo_costs n m cost);
            mo_exa := match examples with Some xs => dset_all zlist_eqb (combine xs ks) [] | None => [] end;
            mo_ind := dset_all Z.eqb
                        (combine ks (combine labels
                           (match cs with Some l => map Some l | None => repeat None n end))) [] |}.

  (** oracle.py 333-334: [check_array] wants a non-empty rectangular matrix. *)
  Definition mo_init (labels : list (list A)) (examples : option (list vec)) (indexes : option (list Z))
    (cost : mcost) : res moracle :=
    match labels with
    | [] | [] :: _ => Err ValueErr
    | r :: _ =>
        let m := List.length r in
        if negb (forallb (fun x => Nat.eqb (List.length x) m) labels) then Err ValueErr
        else mo_build m labels examples indexes cost
    end.

  Definition mo_with_exa (o : moracle) d :=
    {| mo_m := mo_m o; mo_inst := mo_inst o; mo_costf := mo_costf o; mo_label_cost := mo_label_cost o;
       mo_exa := d; mo_ind := mo_ind o |}.
  Definition mo_with_ind (o : moracle) d :=
    {| mo_m := mo_m o; mo_inst := mo_inst o; mo_costf := mo_costf o; mo_label_cost := mo_label_cost o;
       mo_exa := mo_exa o; mo_ind := d |}.

  Definition crow_len (c : crow) : option nat :=
    match c with CArr l | CLst l => Some (List.length l) | CNum _ => None end.

  (** oracle.py 347-395 [_add_one_entry]; [bool] tells whether the warning of line 369 was issued. *)
  Definition mo_add_one (o : moracle) (label : list A) (index : Z) (example : option vec) (cost : option crow)
    : moracle * res bool :=
    match mind_get index (mo_ind o) with
    | Some _ => (o, Ok true)                                                            (* 368-370 *)
    | None =>
        if negb (Nat.eqb (List.length label) (mo_m o)) then (o, Err ValueErr)           (* 372-375 *)
        else
          let step2 (o : moracle) :=
            if mo_costf o then
              match (match cost with Some c => Some c | None => mo_label_cost o end) with  (* 383-385 *)
              | None => (o, Err GenericErr)                                             (* 387-388 *)
              | Some c =>
                  match crow_len c with
                  | None => (o, Err TypeErr)                                            (* len of a number *)
                  | Some n =>
                      if negb (Nat.eqb n (mo_m o)) then (o, Err ValueErr)               (* 389-392 *)
                      else (mo_with_ind o (mind_set index (label, Some c) (mo_ind o)), Ok false)  (* 393 *)
                  end
              end
            else (mo_with_ind o (mind_set index (label, None) (mo_ind o)), Ok false) in (* 395 *)
          if mo_inst o then
            match example with
            | None => (o, Err GenericErr)                                               (* 377-379 *)
            | Some x => step2 (mo_with_exa o (mexa_set x index (mo_exa o)))             (* 380-381 *)
            end
          else step2 o
    end.

  (** One call of [add_knowledge] about one index, or entry by entry for lists of equal length (the
      list handling of 165-173 is modelled in [or_teach]). *)
  Definition mo_teach (o : moracle) (e : list A * Z * option vec * option crow) : moracle * res bool :=
    let '(l, k, x, c) := e in mo_add_one o l k x c.
  Definition mo_run (o : moracle) (h : list (list A * Z * option vec * option crow)) : moracle :=
    fold_left (fun o e => fst (mo_teach o e)) h o.

  (** oracle.py 444-451: the label positions asked for by one index. *)
  Definition asked (m : nat) (k : mlidx) : res (list Z) :=
    let m' := Z.of_nat m in
    match k with
    | IOne _ => Ok (zrange m')
    | IManyT _ js | IManyL _ js => Ok (filter (fun j => (0 <=? j) && (j <? m')) js)
    | IPair _ j => if (0 <=? j) && (j <? m') then Ok [j] else Err AssertErr
    | ILong _ _ => Err ValueErr                                                         (* 438-442 *)
    end.

  (** Indexing an array with a list of positions: [a[[j1, j2, ...]]]. *)
  Definition take {T} (row : list T) (js : list Z) : res (list T) := mapM (fun j => py_nth row (Z.to_nat j)) js.

  (** oracle.py 435-462: one index of [query_by_index]. *)
  Definition mo_query_one (o : moracle) (k : mlidx) : res (list A * list Q) :=
    js <- asked (mo_m o) k ;;
    match mind_get (ins_of k) (mo_ind o) with
    | None => Err TypeErr                                                               (* 462 *)
    | Some (row, c) =>
        ls <- take row js ;;                                                            (* 456 / 459 *)
        if mo_costf o then
          match c with
          | Some (CArr cs) => cs' <- take cs js ;; Ok (ls, cs')                         (* 457 *)
          | Some (CLst _) => Err TypeErr                                                (* list[list] *)
          | Some (CNum _) => Err IndexErr                                               (* scalar[list] *)
          | None => Err GenericErr                                                      (* unreachable *)
          end
        else Ok (ls, repeat 1%Q (List.length js))                                       (* 460 *)
    end.

  (** oracle.py 397-463 [query_by_index] on a list of index tuples. *)
  Definition mo_query (o : moracle) (ks : list mlidx) : res (list (list A) * list (list Q)) :=
    _ <- check_index ks ;; rmap (@List.split _ _) (mapM (mo_query_one o) ks).

  (** oracle.py 489-514 [query_by_example] on a list of (vector,) or (vector, labels) tuples. The
      collected query indexes carry the *vector* in place of the instance index (509-511), and
      [query_by_index] looks this vector up among the indexes, which are integers. *)
  Definition mo_query_ex (o : moracle) (xs : list (vec * option (Z + list Z))) : res (list (list A) * list (list Q)) :=
    if negb (mo_inst o) then Err GenericErr                                             (* 489-490 *)
    else
      qs <- mapM (fun x => match mexa_get (fst x) (mo_exa o) with
                           | Some _ => Ok x                                             (* 507-511 *)
                           | None => Err TypeErr                                        (* 513 *)
                           end) xs ;;
      match qs with
      | [] => Err TypeErr                                                               (* 430: empty list *)
      | (_, Some (inl j)) :: _ => if (0 <=? j) && (j <? Z.of_nat (mo_m o)) then Err TypeErr else Err AssertErr
      | _ :: _ => Err TypeErr                                                           (* 454/462 *)
      end.
End MO.
Arguments moracle : clear implicits.

(** ** Oracles (oracle.py 517-674) *)

Record pool := {
  p_dict : list (string * oracle);                                                  (* _oracle_dict *)
  p_cost : Q;                                                                        (* cost_inall *)
  p_hist : list (list string * list (list key * list Q) * list key)                 (* query_history *)
}.
Definition pool_new : pool := {| p_dict := []; p_cost := 0%Q; p_hist := [] |}.       (* 524-527 *)

(** oracle.py 539-553 [add_oracle] *)
Definition pool_add (p : pool) (name : string) (o : oracle) : pool :=
  {| p_dict := dset String.eqb name o (p_dict p); p_cost := p_cost p; p_hist := p_hist p |}.

(** oracle.py 578 / 609: ask one oracle of the pool; an unknown name is a KeyError. *)
Definition pool_ask (p : pool) (ks : list key) (name : string) : res (list key * list Q) :=
  match dget String.eqb name (p_dict p) with
  | None => Err KeyErr
  | Some o => or_query o ks
  end.

Definition pool_record (p : pool) (names : list string) (rs : list (list key * list Q)) (ks : list key) (c : Q) : pool :=
  {| p_dict := p_dict p; p_cost := (p_cost p + c)%Q; p_hist := p_hist p ++ [(names, rs, ks)] |}.

(** oracle.py 555-582 [query_from]; [name] is the given name, or the one drawn by [random.sample]
    (None when the pool is empty: ValueError). *)
Definition pool_query (p : pool) (ks : list key) (name : option string) : pool * res (list key * list Q) :=
  match name with
  | None => (p, Err ValueErr)
  | Some name =>
      match pool_ask p ks name with
      | Err e => (p, Err e)
      | Ok r => (pool_record p [name] [r] ks (qsum (snd r)), Ok r)                   (* 580-582 *)
      end
  end.

(** oracle.py 584-613 [query_from_s] *)
Definition pool_query_s (p : pool) (ks : list key) (names : option (list string))
  : pool * res (list (list key * list Q)) :=
  let names := match names with Some l => l | None => map fst (p_dict p) end in      (* 605-606 *)
  match mapM (pool_ask p ks) names with
  | Err e => (p, Err e)
  | Ok rs => (pool_record p names rs ks (qsum (List.concat (map snd rs))), Ok rs)         (* 611-613 *)
  end.

Inductive pop :=
| PAdd (name : string) (o : oracle)
| PQuery (ks : list key) (name : option string)
| PQueryS (ks : list key) (names : option (list string)).
Definition pool_step (p : pool) (o : pop) : pool :=
  match o with
  | PAdd n o => pool_add p n o
  | PQuery ks n => fst (pool_query p ks n)
  | PQueryS ks ns => fst (pool_query_s p ks ns)
  end.
Definition pool_run (p : pool) (h : list pop) : pool := fold_left pool_step h p.

(** oracle.py 633-641: the per-oracle table shown by [__repr__]: number of queries and cost. *)
Definition repr_add (d : list (string * (nat * Q))) (e : string * (list key * list Q)) : res (list (string * (nat * Q))) :=
  match dget String.eqb (fst e) d with
  | None => Err KeyErr
  | Some (n, c) => Ok (dset String.eqb (fst e) (S n, (c + qsum (snd (snd e)))%Q) d)
  end.
Definition pool_repr (p : pool) : res (list (string * (nat * Q))) :=
  foldM repr_add (map (fun e => (fst e, (O, 0%Q))) (p_dict p))
    (flat_map (fun q => combine (fst (fst q)) (snd (fst q))) (p_hist p)).

(** ** Votes (noisy_oracles.py) *)

(** [collections.Counter(labels)]: counts in order of first appearance. *)
Definition counter (ls : list key) : list (key * nat) :=
  fold_left (fun d l => match dget key_eqb l d with
                        | Some n => dset key_eqb l (S n) d
                        | None => dset key_eqb l 1%nat d
                        end) ls [].

(** [max(items, key=count)]: the first item with the largest count. *)
Definition most_common (d : list (key * nat)) : option (key * nat) :=
  fold_left (fun best e => match best with
                           | None => Some e
                           | Some b => if Nat.ltb (snd b) (snd e) then Some e else best
                           end) d None.

(** noisy_oracles.py 60-88 [majority_vote]; [weight] is only used for its length. *)
Definition majority_vote (ls : list key) (weight : option (list Q)) : res (nat * key) :=
  _ <- guard (match weight with None => true | Some w => Nat.eqb (List.length ls) (List.length w) end) AssertErr ;;
  match most_common (counter ls) with
  | None => Err IndexErr                                                              (* 88: [][0] *)
  | Some (l, n) => Ok (n, l)
  end.

(** noisy_oracles.py 115-136 [get_query_results] on a list of oracles. *)
Definition query_results_list (os : list oracle) (ks : list key) : res (list key * list Q) :=
  rmap (@List.split _ _)
    (mapM (fun o => r <- or_query o ks ;;
                    match fst r with [] => Err IndexErr | l :: _ => Ok (l, qsum (snd r)) end) os).

(** noisy_oracles.py 132-136 [get_query_results] on an [Oracles] pool. *)
Definition query_results_pool (p : pool) (ks : list key) (names : option (list string))
  : pool * res (list key * list Q) :=
  match pool_query_s p ks names with
  | (p', Err e) => (p', Err e)
  | (p', Ok rs) =>
      (p', rmap (@List.split _ _)
             (mapM (fun r => match fst r with [] => Err IndexErr | l :: _ => Ok (l, qsum (snd r)) end) rs))
  end.

(** noisy_oracles.py 138-170 [get_majority_vote] *)
Definition vote_of (r : list key * list Q) : res (nat * key * Q) :=
  v <- majority_vote (fst r) None ;; Ok (v, qsum (snd r)).
Definition get_majority_vote_list (os : list oracle) (ks : list key) : res (nat * key * Q) :=
  r <- query_results_list os ks ;; vote_of r.
Definition get_majority_vote_pool (p : pool) (ks : list key) (names : option (list string))
  : pool * res (nat * key * Q) :=
  match query_results_pool p ks names with
  | (p', Err e) => (p', Err e)
  | (p', Ok r) => (p', vote_of r)
  end.
