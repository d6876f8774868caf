(** Model of the multi-label index tools (alipy/index/multi_label_tools.py) and of
    [MultiLabelIndexCollection] (alipy/index/index_collections.py, lines 229-712).

    Simplifications: instance and label numbers are integers (numpy and native ints are equal and hash
    alike in Python, so they are not distinguished here); Python sets are lists without
    repetition whose order stands for the (arbitrary) iteration order. *)
From Verif Require Import Base IndexModel.
Local Open Scope Z_scope.

(** A tuple index: (i,), (i, j), (i, (j1, ...)), (i, [j1, ...]), or a longer tuple (i, j, ...). *)
Inductive mlidx :=
| IOne (i : Z)
| IPair (i j : Z)
| IManyT (i : Z) (js : list Z)
| IManyL (i : Z) (js : list Z)
| ILong (i j : Z).

Fixpoint zlist_eqb (a b : list Z) : bool :=
  match a, b with
  | [], [] => true
  | x :: a', y :: b' => (x =? y) && zlist_eqb a' b'
  | _, _ => false
  end.

(** Equality of tuples. *)
Definition idx_eqb (a b : mlidx) : bool :=
  match a, b with
  | IOne i, IOne i' => i =? i'
  | IPair i j, IPair i' j' => (i =? i') && (j =? j')
  | IManyT i js, IManyT i' js' => (i =? i') && zlist_eqb js js'
  | IManyL i js, IManyL i' js' => (i =? i') && zlist_eqb js js'
  | ILong i j, ILong i' j' => (i =? i') && (j =? j')
  | _, _ => false
  end.

Definition idx_mem (x : mlidx) (l : list mlidx) : bool := existsb (idx_eqb x) l.

(** The instance number [idx[0]]. *)
Definition ins_of (x : mlidx) : Z :=
  match x with IOne i | IPair i _ | IManyT i _ | IManyL i _ | ILong i _ => i end.

Definition len_is_2 (x : mlidx) : bool :=
  match x with IPair _ _ | IManyT _ _ | IManyL _ _ => true | _ => false end.
Definition len_is_1 (x : mlidx) : bool := match x with IOne _ => true | _ => false end.

(** multi_label_tools.py 16-33 [check_index_multilabel] for a list of tuples: only the empty list
    is rejected ([Counter] has no type). Non-tuple elements are not modelled. *)
Definition check_index (l : list mlidx) : res unit :=
  match l with [] => Err TypeErr | _ => Ok tt end.

Definition zmax_list (l : list Z) : option Z :=
  match l with [] => None | x :: l' => Some (fold_left Z.max l' x) end.

(** The [i[1]] components of the tuples of length 2. *)
Definition seconds (l : list mlidx) : list (Z + list Z) :=
  flat_map (fun x => match x with
                     | IPair _ j => [inl j]
                     | IManyT _ js | IManyL _ js => [inr js]
                     | _ => [] end) l.

(** [np.max] of the second components: integers, or a rectangular array; ragged or mixed data gives
    a tuple or an incomparable pair, and the following [+ 1] (or the comparison) raises TypeError. *)
Definition np_max_seconds (s : list (Z + list Z)) : res Z :=
  let scal := flat_map (fun a => match a with inl j => [j] | _ => [] end) s in
  let lens := flat_map (fun a => match a with inr js => [List.length js] | _ => [] end) s in
  let vals := flat_map (fun a => match a with inr js => js | _ => [] end) s in
  match scal, lens with
  | _ :: _, [] => match zmax_list scal with Some m => Ok m | None => Err ValueErr end
  | [], n :: lens' =>
      if forallb (Nat.eqb n) lens'
      then match zmax_list vals with Some m => Ok m | None => Err ValueErr end
      else Err TypeErr
  | _, _ => Err TypeErr
  end.

(** multi_label_tools.py 36-63 [infer_label_size_multilabel]; [chk] is [check_arr]. *)
Definition infer_label_size (chk : bool) (l : list mlidx) : res Z :=
  _ <- (if chk then check_index l else Ok tt) ;;
  if existsb len_is_2 l then m <- np_max_seconds (seconds l) ;; Ok (m + 1)
  else if forallb len_is_1 l then Err GenericErr
  else Err ValueErr.

(** multi_label_tools.py 93-104: one index of the flattening loop. *)
Definition flatten_one (m : Z) (x : mlidx) : res (list (Z * Z)) :=
  match x with
  | IOne i => Ok (map (fun j => (i, j)) (zrange m))                                   (* 94-96 *)
  | IManyT i js | IManyL i js =>
      Ok (map (fun j => (i, j)) (filter (fun j => (0 <=? j) && (j <? m)) js))         (* 98-99 *)
  | IPair i j | ILong i j =>
      if (0 <=? j) && (j <? m) then Ok [(i, j)] else Err AssertErr                    (* 101-102 *)
  end.

Definition flatten_all (m : Z) (l : list mlidx) : res (list (Z * Z)) :=
  rmap (@concat _) (mapM (flatten_one m) l).

(** multi_label_tools.py 66-105 [flattern_multilabel_index]. [chk] is false when the argument is a
    collection (line 24-25) or [check_arr=False]. *)
Definition flatten_idx (chk : bool) (ls : option Z) (l : list mlidx) : res (list (Z * Z)) :=
  _ <- (if chk then check_index l else Ok tt) ;;
  match ls with
  | None => m <- infer_label_size chk l ;; flatten_all m l
  | Some m => if 0 <? m then flatten_all m l else Err AssertErr
  end.

(** Set insertion / union of labels. *)
Definition zmem (x : Z) (l : list Z) : bool := existsb (Z.eqb x) l.
Definition zadd (s : list Z) (x : Z) : list Z := if zmem x s then s else s ++ [x].
Definition zunion (s : list Z) (xs : list Z) : list Z := fold_left zadd xs s.

(** A Python dict keyed by instance: association list in insertion order. *)
Fixpoint dict_set {V} (k : Z) (v : V) (d : list (Z * V)) : list (Z * V) :=
  match d with
  | [] => [(k, v)]
  | (k', v') :: d' => if k =? k' then (k, v) :: d' else (k', v') :: dict_set k v d'
  end.
Fixpoint dict_get {V} (k : Z) (d : list (Z * V)) : option V :=
  match d with
  | [] => None
  | (k', v) :: d' => if k =? k' then Some v else dict_get k d'
  end.

(** multi_label_tools.py 137-148: one index of the integration loop. *)
Definition integrate_step (m : Z) (d : list (Z * list Z)) (x : mlidx) : list (Z * list Z) :=
  match x with
  | IOne i => dict_set i (zrange m) d                                                  (* 139-140 *)
  | IPair i j | ILong i j =>
      match dict_get i d with
      | Some s => dict_set i (zunion s [j]) d                                          (* 143-145 *)
      | None => dict_set i (zunion [] [j]) d                                           (* 147-148 *)
      end
  | IManyT i js | IManyL i js =>
      match dict_get i d with
      | Some s => dict_set i (zunion s js) d
      | None => dict_set i (zunion [] js) d
      end
  end.

(** multi_label_tools.py 150-156: output of one dict item. *)
Definition integrate_out (m : Z) (e : Z * list Z) : mlidx :=
  if Z.of_nat (List.length (snd e)) =? m then IOne (fst e) else IManyT (fst e) (snd e).

(** multi_label_tools.py 108-158 [integrate_multilabel_index]. *)
Definition integrate_idx (chk : bool) (ls : option Z) (l : list mlidx) : res (list mlidx) :=
  _ <- (if chk then check_index l else Ok tt) ;;
  m <- match ls with
       | None => infer_label_size chk l
       | Some m => if 0 <? m then Ok m else Err AssertErr
       end ;;
  Ok (map (integrate_out m) (fold_left (integrate_step m) l [])).

(** Python/numpy subscript with an integer: negative indexes count from the end. *)
Definition py_index (n : nat) (i : Z) : option nat :=
  if (0 <=? i) && (i <? Z.of_nat n) then Some (Z.to_nat i)
  else if (- Z.of_nat n <=? i) && (i <? 0) then Some (Z.to_nat (i + Z.of_nat n))
  else None.

Fixpoint set_nth {A} (n : nat) (x : A) (l : list A) : list A :=
  match l, n with
  | [], _ => []
  | _ :: l', O => x :: l'
  | y :: l', S n' => y :: set_nth n' x l'
  end.

(** *** Label matrix extraction: multi_label_tools.py 161-239 *)
Section LabelMatrix.
  Context {A : Type}.

  (** [row[0, label_ind] = src[label_ind]] for in-range labels. *)
  Definition copy_cells (src : list A) (labs : list Z) (row : list A) : list A :=
    fold_left (fun r j => match nth_error src (Z.to_nat j) with
                          | Some v => set_nth (Z.to_nat j) v r
                          | None => r end) labs row.

  (** [index_arr.index(x)]: first position. *)
  Fixpoint zindex (x : Z) (l : list Z) : option nat :=
    match l with
    | [] => None
    | y :: l' => if x =? y then Some O else option_map S (zindex x l')
    end.

  (** Lines 220-227: the labels addressed by an index, out-of-range listed ones dropped. *)
  Definition glm_labels (ncol : Z) (k : mlidx) : res (list Z) :=
    match k with
    | IOne _ => Ok (zrange ncol)
    | IManyT _ js | IManyL _ js => Ok (filter (fun j => (0 <=? j) && (j <? ncol)) js)
    | IPair _ j | ILong _ j => if (0 <=? j) && (j <? ncol) then Ok [j] else Err AssertErr
    end.

  (** Lines 204-238: one index. State: rows built so far, instance of each row. *)
  Definition glm_step (data : list (list A)) (ncol : Z) (unknown : A)
             (st : list (list A) * list Z) (k : mlidx) : res (list (list A) * list Z) :=
    match k with
    | ILong _ _ => Err ValueErr                                                       (* 207-211 *)
    | _ =>
        let i := ins_of k in
        if negb (i <? Z.of_nat (List.length data)) then Err AssertErr                   (* 213 *)
        else
          labs <- glm_labels ncol k ;;
          match py_index (List.length data) i with                                     (* 232, 238 *)
          | None => Err IndexErr
          | Some p =>
              let src := nth p data [] in
              match zindex i (snd st) with
              | None => Ok (fst st ++ [copy_cells src labs (repeat unknown (Z.to_nat ncol))],
                            snd st ++ [i])                                            (* 217, 231-236 *)
              | Some r => Ok (set_nth r (copy_cells src labs (nth r (fst st) [])) (fst st), snd st)
              end
          end
    end.

  Fixpoint glm_loop data ncol unknown st (ks : list mlidx) :=
    match ks with
    | [] => Ok st
    | k :: ks' => st' <- glm_step data ncol unknown st k ;; glm_loop data ncol unknown st' ks'
    end.

  (** multi_label_tools.py 161-239 [get_labelmatrix_in_multilabel]; no rows stands for the returned
      None of an empty collection. The data matrix has [ncol] columns. *)
  Definition get_labelmatrix (chk : bool) (index : list mlidx) (data : list (list A)) (ncol : Z)
             (unknown : A) : res (list (list A) * list Z) :=
    _ <- (if chk then check_index index else Ok tt) ;;
    glm_loop data ncol unknown ([], []) index.
End LabelMatrix.

(** multi_label_tools.py 242-288 [get_Xy_in_multilabel]. *)
Definition get_Xy {A B} (chk : bool) (index : list mlidx) (X : list B) (y : list (list A)) (ncol : Z)
           (unknown : A) : res (list B * list (list A) * list Z) :=
  if negb (Nat.eqb (List.length X) (List.length y)) then Err ValueErr
  else
    r <- get_labelmatrix chk index y ncol unknown ;;
    xs <- mapM (fun i => match py_index (List.length X) i with
                         | Some p => py_nth X p | None => Err IndexErr end) (snd r) ;;
    Ok (xs, fst r, snd r).

(** *** MultiLabelIndexCollection *)

(** The attributes [_innercontainer] and [_label_size]; [is_set] is false after the copy constructor,
    which stores a list. *)
Record mlic := { mcont : list mlidx; is_set : bool; lsize : option Z }.

Inductive mldata := MNone | MList (l : list mlidx) | MTuple (x : mlidx) | MColl (c : mlic).

Definition dedup_idx (l : list mlidx) : list mlidx :=
  fold_left (fun s x => if idx_mem x s then s else s ++ [x]) l [].

Definition pair_idx (p : Z * Z) : mlidx := IPair (fst p) (snd p).

(** index_collections.py 274-302 [__init__]. *)
Definition ml_init (d : mldata) (ls : option Z) : res (mlic * list warning) :=
  let from_list l :=
    m <- match ls with None => infer_label_size false l | Some m => Ok m end ;;       (* 289-292 *)
    dec <- flatten_idx false (Some m) l ;;                                            (* 295 *)
    let s := dedup_idx (map pair_idx dec) in                                           (* 297 *)
    Ok ({| mcont := s; is_set := true; lsize := Some m |},
        if Nat.eqb (List.length s) (List.length dec) then [] else [WRepeat]) in
  let empty := Ok ({| mcont := []; is_set := true; lsize := ls |},
                   match ls with None => [WValidity] | Some _ => [] end) in            (* 275-281 *)
  match d with
  | MNone | MList [] => empty
  | MList l => from_list l
  | MTuple x => from_list [x]
  | MColl c => match mcont c with
               | [] => empty
               | _ => Ok ({| mcont := mcont c; is_set := false; lsize := lsize c |}, [])  (* 283-286 *)
               end
  end.

(** index_collections.py 337-348 (tail of [add]) for a value that passed the bound checks. *)
Definition ml_insert (c : mlic) (v : mlidx) : mlic * res (list warning) :=
  match v, is_set c with
  | IManyL _ _, true => (c, Err TypeErr)                  (* unhashable tuple *)
  | _, _ =>
      if idx_mem v (mcont c) then (c, Ok [WRepeat])
      else if is_set c then ({| mcont := mcont c ++ [v]; is_set := true; lsize := lsize c |}, Ok [])
      else (c, Err AttrErr)                               (* list has no method add *)
  end.

(** The bound check of lines 330-336 for a list of labels. *)
Definition ml_check (ls : option Z) (js : list Z) : res unit :=
  match ls with
  | None => match js with [] => Ok tt | _ => Err TypeErr end       (* int >= None *)
  | Some m => if existsb (fun j => j >=? m) js then Err ValueErr else Ok tt
  end.

Definition ml_add2 (c : mlic) (v : mlidx) : mlic * res (list warning) :=
  match v with
  | IPair _ j => match ml_check (lsize c) [j] with Err e => (c, Err e) | Ok _ => ml_insert c v end
  | IManyT _ js | IManyL _ js =>
      match ml_check (lsize c) js with Err e => (c, Err e) | Ok _ => ml_insert c v end
  | IOne _ | ILong _ _ => (c, Err ValueErr)
  end.

(** A [for] loop over calls on the collection, aborted by the first exception. *)
Fixpoint ml_loop (f : mlic -> mlidx -> mlic * res (list warning)) (c : mlic) (vs : list mlidx)
  : mlic * res (list warning) :=
  match vs with
  | [] => (c, Ok [])
  | v :: vs' =>
      match f c v with
      | (c1, Err e) => (c1, Err e)
      | (c1, Ok w) =>
          match ml_loop f c1 vs' with
          | (c2, Err e) => (c2, Err e)
          | (c2, Ok w') => (c2, Ok (w ++ w'))
          end
      end
  end.

(** index_collections.py 405-430 [update] with a list ([chk = true]) or a collection. The flattened
    indexes have length 2, so the recursive [add] is [ml_add2]. *)
Definition ml_update (chk : bool) (c : mlic) (l : list mlidx) : mlic * res (list warning) :=
  match flatten_idx chk (lsize c) l with
  | Err e => (c, Err e)
  | Ok ps => ml_loop ml_add2 c (map pair_idx ps)
  end.

(** index_collections.py 311-348 [add] (also [update] with a tuple). *)
Definition ml_add (c : mlic) (v : mlidx) : mlic * res (list warning) :=
  match v with
  | IOne i =>                                                         (* 327-329 *)
      match lsize c with
      | None => (c, Err TypeErr)                                      (* range(None) *)
      | Some m => ml_update true c (map (IPair i) (zrange m))
      end
  | _ => ml_add2 c v
  end.

(** index_collections.py 368-376 (tail of [discard]). *)
Definition ml_discard2 (c : mlic) (v : mlidx) : mlic * res (list warning) :=
  match v, is_set c with
  | IManyL _ _, true => (c, Err TypeErr)
  | _, _ =>
      if negb (idx_mem v (mcont c)) then (c, Ok [WInexistent])
      else if is_set c
           then ({| mcont := filter (fun x => negb (idx_eqb v x)) (mcont c);
                    is_set := true; lsize := lsize c |}, Ok [])
           else (c, Err AttrErr)
  end.

(** index_collections.py 378-403 [difference_update] with a list or a collection. *)
Definition ml_difference_update (chk : bool) (c : mlic) (l : list mlidx) : mlic * res (list warning) :=
  match flatten_idx chk (lsize c) l with
  | Err e => (c, Err e)
  | Ok ps => ml_loop ml_discard2 c (map pair_idx ps)
  end.

(** index_collections.py 350-376 [discard]. *)
Definition ml_discard (c : mlic) (v : mlidx) : mlic * res (list warning) :=
  match v with
  | IOne i =>
      match lsize c with
      | None => (c, Err TypeErr)
      | Some m => ml_difference_update true c (map (IPair i) (zrange m))
      end
  | _ => ml_discard2 c v
  end.

Inductive mlop :=
| MAdd (v : mlidx) | MDiscard (v : mlidx) | MUpdate (l : list mlidx) | MDiff (l : list mlidx).

Definition ml_step (c : mlic) (o : mlop) : mlic * res (list warning) :=
  match o with
  | MAdd v => ml_add c v
  | MDiscard v => ml_discard c v
  | MUpdate l => ml_update true c l
  | MDiff l => ml_difference_update true c l
  end.

Definition ml_run (c : mlic) (h : list mlop) : mlic :=
  fold_left (fun c o => fst (ml_step c o)) h c.

(** *** One-dimensional indexes *)
Inductive order := OrdC | OrdF | OrdBad.

(** index_collections.py 432-462 [get_onedim_index]. *)
Definition ml_onedim (c : mlic) (o : order) (ins_num : option Z) : res (list Z) :=
  match o with
  | OrdF => match ins_num with
            | None => Err ValueErr
            | Some n => mapM (fun x => match x with
                                       | IPair i j => Ok (i + j * n) | _ => Err TypeErr end) (mcont c)
            end
  | OrdC => mapM (fun x => match x, lsize c with
                           | IPair i j, Some m => Ok (i * m + j) | _, _ => Err TypeErr end) (mcont c)
  | OrdBad => Err ValueErr
  end.

(** [np.unravel_index(a, (n, m), order)]; an index outside [0, n*m) raises ValueError. *)
Definition unravel (n m : Z) (o : order) (a : Z) : res (Z * Z) :=
  if (0 <=? a) && (a <? n * m) then
    match o with
    | OrdC => Ok (a / m, a mod m)
    | OrdF => Ok (a mod n, a / n)
    | OrdBad => Err ValueErr
    end
  else Err ValueErr.

(** index_collections.py 542-578 [construct_by_1d_array]. *)
Definition ml_construct_1d (a : list Z) (n m : Z) (o : order) : res (mlic * list warning) :=
  ps <- mapM (unravel n m o) a ;;
  ml_init (MList (map pair_idx ps)) (Some m).

(** *** Instances *)

(** Sorted distinct integers ([np.unique] on ints). *)
Fixpoint zinsert (x : Z) (l : list Z) : list Z :=
  match l with
  | [] => [x]
  | y :: l' => if x <? y then x :: l else if x =? y then l else y :: zinsert x l'
  end.
Definition zunique (l : list Z) : list Z := fold_right zinsert [] l.

(** index_collections.py 464-473 [get_instance_index]. *)
Definition ml_instance_index (c : mlic) : list Z := zunique (map ins_of (mcont c)).

(** index_collections.py 475-493 [get_unbroken_instances], [get_break_instances]. *)
Definition ml_unbroken (c : mlic) : res (list Z) :=
  t <- integrate_idx false (lsize c) (mcont c) ;; Ok (map ins_of (filter len_is_1 t)).
Definition ml_broken (c : mlic) : res (list Z) :=
  t <- integrate_idx false (lsize c) (mcont c) ;;
  Ok (map ins_of (filter (fun x => negb (len_is_1 x)) t)).

(** *** Masks *)
Definition zeros (n m : nat) : list (list Z) := repeat (repeat 0 m) n.

(** [mask[i, j] = v] with numpy index wrap-around. *)
Definition mask_set (n m : nat) (v : Z) (i : Z) (mat : list (list Z)) (j : Z) : res (list (list Z)) :=
  match py_index n i, py_index m j with
  | Some p, Some q => Ok (set_nth p (set_nth q v (nth p mat [])) mat)
  | _, _ => Err IndexErr
  end.

Fixpoint foldM {A B} (f : A -> B -> res A) (a : A) (l : list B) : res A :=
  match l with [] => Ok a | x :: l' => a' <- f a x ;; foldM f a' l' end.

Definition mask_item (n m : nat) (v : Z) (mat : list (list Z)) (x : mlidx) : res (list (list Z)) :=
  match x with
  | IPair i j => mask_set n m v i mat j
  | IManyT i js | IManyL i js => foldM (mask_set n m v i) mat js
  | _ => Err IndexErr
  end.

(** index_collections.py 495-540 [get_matrix_mask]: a sparse mask is created but never filled. *)
Definition ml_mask (c : mlic) (n m : nat) (fill : Z) (sparse : bool) : res (list (list Z)) :=
  if sparse then Ok (zeros n m) else foldM (mask_item n m fill) (zeros n m) (mcont c).

(** [np.asarray(mask)] is a 2-d array iff all rows have one length. *)
Definition rectangular (mat : list (list Z)) : bool :=
  match mat with [] => false | r :: rs => forallb (fun r' => Nat.eqb (List.length r') (List.length r)) rs end.

(** [np.nonzero]: row-major positions of non-zero cells. *)
Definition row_nonzero (i : Z) (r : list Z) : list (Z * Z) :=
  flat_map (fun p => if fst p =? 0 then [] else [(i, snd p)])
           (combine r (map Z.of_nat (seq 0 (List.length r)))).
Definition nonzero (mat : list (list Z)) : list (Z * Z) :=
  flat_map (fun p => row_nonzero (snd p) (fst p))
           (combine mat (map Z.of_nat (seq 0 (List.length mat)))).

(** index_collections.py 580-615 [construct_by_element_mask]. *)
Definition ml_construct_mask (mat : list (list Z)) : res (mlic * list warning) :=
  let ue := zunique (concat mat) in
  if rectangular mat && Nat.eqb (List.length ue) 2 && zmem 0 ue && zmem 1 ue
  then ml_init (MList (map pair_idx (nonzero mat)))
               (Some (Z.of_nat (List.length (hd [] mat))))
  else Err ValueErr.

(** index_collections.py 662-667 [FeatureIndexCollection.__init__]: every failure becomes a plain
    Exception. *)
Definition feature_init (d : mldata) (fs : option Z) : res (mlic * list warning) :=
  match ml_init d fs with Ok r => Ok r | Err _ => Err GenericErr end.

(** *** Mapping to the training set *)
Inductive train_arr := PyList (l : list Z) | NdArray (l : list Z).
Definition train_vals (t : train_arr) : list Z := match t with PyList l | NdArray l => l end.

(** [np.argwhere(train_idx == x)[0][0]]: an ndarray, or a list against a numpy scalar, compares
    elementwise; a list against a native int gives False, so [argwhere] is empty. *)
Definition argwhere0 (t : train_arr) (native : bool) (x : Z) : res Z :=
  match t, native with
  | PyList _, true => Err IndexErr
  | _, _ => match zindex x (train_vals t) with Some p => Ok (Z.of_nat p) | None => Err IndexErr end
  end.

(** index_collections.py 670-712 [map_whole_index_to_train], instance-wise. Elements must be ints. *)
Definition map_to_train_ic (t : train_arr) (c : icol) : res icol :=
  ps <- mapM (fun v => match norm v with
                       | KInt x =>
                           if zmem x (train_vals t)
                           then argwhere0 t (match v with VKey _ => true | VNp _ => false end) x
                           else Err AssertErr
                       | KStr _ => Err AssertErr
                       end) (cont c) ;;
  Ok (fst (ic_init (DList (map (fun p => VNp (KInt p)) ps)))).

(** Same for a multi-label collection; the label size is re-inferred (line 710). [native] tells
    whether the instance numbers are native ints. A stored tuple (i, (j1, ...)) keeps its second
    component. *)
Definition map_to_train_ml (t : train_arr) (native : bool) (c : mlic) : res (mlic * list warning) :=
  xs <- mapM (fun x => if zmem (ins_of x) (train_vals t)
                       then p <- argwhere0 t native (ins_of x) ;;
                            Ok (match x with
                                | IPair _ j => IPair p j
                                | IManyT _ js => IManyT p js
                                | other => other
                                end)
                       else Err AssertErr) (mcont c) ;;
  ml_init (MList xs) None.
