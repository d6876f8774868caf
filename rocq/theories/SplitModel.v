(** Model of the data splitters (alipy/data_manipulate/al_split.py).

    Randomness: every call of [randperm] consumes one shuffled array, given from outside as a list of
    draws. A rejection loop that has not succeeded when the draws are used up has not returned: [None].

    Simplifications: ratios are exact rationals (floating-point error of the products under [round] is not
    modelled); labels are integers; a matrix [X] is only looked at for its length. *)
From Verif Require Import Base IndexModel Dict.
From Coq Require Import String Ascii QArith.
Local Open Scope Z_scope.

(** Python's [int(round(q))]. *)
Definition round_q (q : Q) : Z := round_half_even (Qnum q) (Zpos (Qden q)).

(** [l[c:]] for any integer [c]. *)
Definition py_slice_from {A} (l : list A) (c : Z) : list A :=
  if c <? 0 then skipn (List.length l - Z.to_nat (- c)) l else skipn (Z.to_nat c) l.

(** One fold. *)
Record fold (I L : Type) := { f_train : list I; f_test : list I; f_label : list L; f_unlabel : list L }.
Arguments f_train {I L} f. Arguments f_test {I L} f. Arguments f_label {I L} f. Arguments f_unlabel {I L} f.

(** [while 1: ... break] over the draws: [attempt] raises, succeeds or asks for another draw. *)
Fixpoint until {D A} (attempt : D -> res (option A)) (ds : list D) : option (res A * list D) :=
  match ds with
  | [] => None
  | d :: ds' =>
      match attempt d with
      | Err e => Some (Err e, ds')
      | Ok (Some a) => Some (Ok a, ds')
      | Ok None => until attempt ds'
      end
  end.

(** [for i in range(split_count)] *)
Fixpoint folds {D A} (one : list D -> option (res A * list D)) (k : nat) (ds : list D) : option (res (list A) * list D) :=
  match k with
  | O => Some (Ok [], ds)
  | S k' =>
      match one ds with
      | None => None
      | Some (Err e, ds') => Some (Err e, ds')
      | Some (Ok a, ds') =>
          match folds one k' ds' with
          | None => None
          | Some (r, ds2) => Some (rmap (cons a) r, ds2)
          end
      end
  end.

(** Labels: one per instance, or one row per instance. *)
Inductive ylab := YVec (y : list Z) | YMat (y : list (list Z)).
Definition y_len (y : ylab) : nat := match y with YVec l => List.length l | YMat l => List.length l end.

(** [np.unique] of integers, only its length is used. *)
Definition n_unique (l : list Z) : nat := List.length (nodup Z.eq_dec l).

(** 127-130: number of classes; [check_array] (126) refuses empty and ragged labels. *)
Definition label_num (y : ylab) : res nat :=
  match y with
  | YVec [] => Err ValueErr
  | YVec l => Ok (n_unique l)
  | YMat [] => Err ValueErr
  | YMat ([] :: _) => Err ValueErr
  | YMat (r :: rows) => if forallb (fun r' => Nat.eqb (List.length r') (List.length r)) rows
                        then Ok (List.length r) else Err ValueErr
  end.

(** numpy indexing [y[i]] with an instance name [i]: integers count from the end when negative; strings
    are not indices. *)
Definition np_at {A} (y : list A) (k : key) : res A :=
  match k with
  | KStr _ => Err IndexErr
  | KInt i => if i <? 0 then (if i + Z.of_nat (List.length y) <? 0 then Err IndexErr
                              else py_nth y (Z.to_nat (i + Z.of_nat (List.length y))))
              else py_nth y (Z.to_nat i)
  end.

(** [np.sum(rows, axis=0)] of rows with [m] columns. *)
Definition col_sums (m : nat) (rows : list (list Z)) : list Z :=
  map (fun j => zsum (map (fun r => nth j r 0) rows)) (seq 0 m).

(** 144-151: are all classes among the labelled instances? *)
Definition covers (y : ylab) (ln : nat) (ids : list key) : res bool :=
  match y with
  | YVec l => v <- mapM (np_at l) ids ;; Ok (Nat.eqb (n_unique v) ln)
  | YMat l => v <- mapM (np_at l) ids ;; Ok (forallb (fun s => negb (s =? 0)) (col_sums ln v))
  end.

(** 113-122 and 138-155: one random division; [ok] is the acceptance test. *)
Definition split_attempt (idx : list key) (tr rate : Q) (ok : list key -> res bool) (sh : list nat)
  : res (option (fold key key)) :=
  rp <- randperm (Z.of_nat (List.length idx) - 1) None sh ;;                            (* 113, 138 *)
  let c := round_q ((1 - tr) * inject_Z (Z.of_nat (List.length rp))) in                 (* 114, 139 *)
  train <- mapM (py_nth idx) (py_slice_to rp c) ;;                                      (* 115, 140 *)
  let c2 := round_q (rate * inject_Z (Z.of_nat (List.length train))) in                 (* 118, 141 *)
  let c2 := if c2 <=? 1 then 1 else c2 in                                               (* 119-120, 142-143 *)
  b <- ok (py_slice_to train c2) ;;
  if b then
    test <- mapM (py_nth idx) (py_slice_from rp c) ;;                                   (* 117, 153 *)
    Ok (Some {| f_train := train; f_test := test;
                f_label := py_slice_to train c2; f_unlabel := py_slice_from train c2 |})
  else Ok None.

(** 111-155: one fold. *)
Definition split_one (idx : list key) (y : option ylab) (tr rate : Q) (all_class : bool) (ds : list (list nat))
  : option (res (fold key key) * list (list nat)) :=
  match (if all_class then y else None) with
  | None => until (split_attempt idx tr rate (fun _ => Ok true)) ds
  | Some y =>
      match label_num y with
      | Err e => Some (Err e, ds)                                                       (* 126 *)
      | Ok ln =>
          if round_q ((1 - tr) * rate * inject_Z (Z.of_nat (List.length idx))) <? Z.of_nat ln
          then Some (Err ValueErr, ds)                                                  (* 131-134 *)
          else until (split_attempt idx tr rate (covers y ln)) ds
      end
  end.

(** 85-104: the number of instances and their names. [X] is given by its length. *)
Definition split_names (X : option nat) (y : option ylab) (names : option (list pyval)) : res (list key) :=
  match (match X with Some n => [n] | None => [] end) ++
        (match y with Some y => [y_len y] | None => [] end) ++
        (match names with Some l => [List.length l] | None => [] end) with
  | [] => Err GenericErr                                                                (* 85-86 *)
  | n :: ns =>
      if forallb (Nat.eqb n) ns then
        Ok (match names with
            | Some l => np_asarray l                                                    (* 102 *)
            | None => map KInt (zrange (Z.of_nat n))                                    (* 104 *)
            end)
      else Err ValueErr                                                                 (* 90-91 *)
  end.

(** 28-156 [split], before saving. *)
Definition split (X : option nat) (y : option ylab) (names : option (list pyval)) (tr rate : Q) (count : nat)
  (all_class : bool) (ds : list (list nat)) : option (res (list (fold key key))) :=
  match split_names X y names with
  | Err e => Some (Err e)
  | Ok idx => option_map fst (folds (split_one idx y tr rate all_class) count ds)
  end.

(** ** Matrix splits: [__split_data_matrix], 162-293 *)

(** An entry of a label set: [(i,)] for a whole row, [(i, j)] for a cell. *)
Inductive entry := Row (i : nat) | Cell (i j : nat).

(** 217-229: the shape used; a given shape wins over the matrix. *)
Definition matrix_shape_of (mat : option (list (list Z))) (shape : option (nat * nat)) : res (nat * nat) :=
  match shape, mat with
  | Some s, _ => Ok s                                                                   (* 228 *)
  | None, Some (r :: rows) =>
      if negb (Nat.eqb (List.length r) 0) && forallb (fun r' => Nat.eqb (List.length r') (List.length r)) rows
      then Ok (List.length (r :: rows), List.length r) else Err ValueErr                (* check_array *)
  | None, Some [] => Err ValueErr
  | None, None => Err GenericErr                                                        (* 217-218 *)
  end.

(** 239-241, 265-267: train and test positions. *)
Definition train_test (n : nat) (tr : Q) (sh : list nat) : res (list nat * list nat) :=
  rp <- randperm (Z.of_nat n - 1) None sh ;;
  let c := round_q ((1 - tr) * inject_Z (Z.of_nat (List.length rp))) in
  train <- mapM (py_nth (seq 0 n)) (py_slice_to rp c) ;;
  test <- mapM (py_nth (seq 0 n)) (py_slice_from rp c) ;;
  Ok (train, test).

(** 262-263: the entry with number [item]. *)
Definition cell (m : nat) (train : list nat) (item : nat) : res entry :=
  i <- py_nth train (item / m) ;; Ok (Cell i (item mod m)).

(** 258-263; the order of the unlabelled entries (of a Python set) is taken increasing. *)
Definition partial_fold (m : nat) (train test lab : list nat) : res (fold nat entry) :=
  label <- mapM (cell m train) lab ;;
  unlabel <- mapM (cell m train)
               (filter (fun k => negb (existsb (Nat.eqb k) lab)) (seq 0 (List.length train * m))) ;;
  Ok {| f_train := train; f_test := test; f_label := label; f_unlabel := unlabel |}.

(** 239-257: attempt number 0 draws [round(rate * train * m)] entries, later ones [round(rate * train)].
    One draw is a pair of shuffled arrays. *)
Definition partial_attempt (n m : nat) (tr rate : Q) (all_class : bool) (first : bool) (d : list nat * list nat)
  : res (option (fold nat entry)) :=
  tt' <- train_test n tr (fst d) ;;
  let '(train, test) := tt' in
  let t := List.length train in
  let k := round_q (rate * inject_Z (Z.of_nat t) * (if first then inject_Z (Z.of_nat m) else 1)) in
  lab <- randperm (Z.of_nat (t * m) - 1) (Some k) (snd d) ;;                            (* 245, 257 *)
  if all_class then
    if first && (round_q (rate * inject_Z (Z.of_nat t)) <? Z.of_nat m) then Err ValueErr (* 247-249 *)
    else if Nat.eqb (List.length (nodup Nat.eq_dec (map (fun item => item mod m)%nat lab))) m  (* 250 *)
    then rmap Some (partial_fold m train test lab)
    else Ok None
  else rmap Some (partial_fold m train test lab).

Definition partial_one (n m : nat) (tr rate : Q) (all_class : bool) (ds : list (list nat * list nat))
  : option (res (fold nat entry) * list (list nat * list nat)) :=
  match ds with
  | [] => None
  | d :: ds' =>
      match partial_attempt n m tr rate all_class true d with
      | Err e => Some (Err e, ds')
      | Ok (Some f) => Some (Ok f, ds')
      | Ok None => until (partial_attempt n m tr rate all_class false) ds'
      end
  end.

(** 264-290: whole rows; [clamp]: is the label count raised to one (269-271), as in the first attempt,
    or not (286)? *)
Definition full_attempt (mat : option (list (list Z))) (n m : nat) (tr rate : Q) (all_class : bool) (clamp : bool)
  (sh : list nat) : res (option (fold nat entry)) :=
  tt' <- train_test n tr sh ;;
  let '(train, test) := tt' in
  let c := round_q (rate * inject_Z (Z.of_nat (List.length train))) in                  (* 269, 286 *)
  let c := if clamp && (c <=? 1) then 1 else c in                                       (* 270-271 *)
  let done := Ok (Some {| f_train := train; f_test := test; f_label := map Row (py_slice_to train c);
                          f_unlabel := map Row (py_slice_from train c) |}) in
  if all_class then
    if clamp && (c <? Z.of_nat m) then Err ValueErr                                     (* 273-276 *)
    else
      match mat with
      | None => Err TypeErr                                                             (* 279 on None *)
      | Some y =>
          rows <- mapM (py_nth y) (py_slice_to train c) ;;
          if forallb (fun s => negb (s =? 0))
               (col_sums (match y with r :: _ => List.length r | [] => O end) rows)      (* 279-280 *)
          then done else Ok None
      end
  else done.

Definition full_one (mat : option (list (list Z))) (n m : nat) (tr rate : Q) (all_class : bool) (ds : list (list nat))
  : option (res (fold nat entry) * list (list nat)) :=
  match ds with
  | [] => None
  | d :: ds' =>
      match full_attempt mat n m tr rate all_class true d with
      | Err e => Some (Err e, ds')
      | Ok (Some f) => Some (Ok f, ds')
      | Ok None => until (full_attempt mat n m tr rate all_class false) ds'
      end
  end.

(** 296-349 [split_features], before saving. *)
Definition split_features (mat : option (list (list Z))) (shape : option (nat * nat)) (tr missing : Q) (count : nat)
  (all_features : bool) (ds : list (list nat * list nat)) : option (res (list (fold nat entry))) :=
  match matrix_shape_of mat shape with
  | Err e => Some (Err e)
  | Ok (n, m) => option_map fst (folds (partial_one n m tr (1 - missing) all_features) count ds)
  end.

(** 352-402 [split_multi_label], before saving. *)
Definition split_multi_label (mat : option (list (list Z))) (shape : option (nat * nat)) (tr rate : Q) (count : nat)
  (all_class : bool) (ds : list (list nat)) : option (res (list (fold nat entry))) :=
  match matrix_shape_of mat shape with
  | Err e => Some (Err e)
  | Ok (n, m) => option_map fst (folds (full_one mat n m tr rate all_class) count ds)
  end.

(** ** Saving and loading, 405-472 *)

(** What is saved: one list per fold, of names or of index tuples. *)
Inductive item := Scalar (k : key) | Tup (l : list Z).

(** Files: a text table of integers, or a binary array. *)
Inductive file := Txt (rows : list (list Z)) | Npy (a : list (list item)).
(** A directory: file names and contents; None: the path is not a directory. *)
Definition dir := option (list (string * file)).

Definition all_len {A} (m : nat) (a : list (list A)) : bool := forallb (fun r => Nat.eqb (List.length r) m) a.
Definition is_scalar (i : item) : bool := match i with Scalar _ => true | Tup _ => false end.

(** Is [len(np.shape(a)) == 2]? Lists of different lengths make a one-dimensional object array. *)
Definition two_dim (a : list (list item)) : bool :=
  match a with
  | [] => false
  | r :: _ => all_len (List.length r) a && forallb (forallb is_scalar) a
  end.

(** [np.savetxt(..., fmt='%d')]: rows of integers of one length; anything else is a TypeError (which
    leaves an empty file behind). An empty list of folds is an empty file. *)
Definition int_of (i : item) : res Z := match i with Scalar (KInt z) => Ok z | _ => Err TypeErr end.
Definition savetxt (a : list (list item)) : res (list (list Z)) :=
  _ <- guard (match a with [] => true | r :: _ => all_len (List.length r) a end) TypeErr ;;
  mapM (mapM int_of) a.

Definition put_txt (name : string) (a : list (list item)) (d : list (string * file)) : list (string * file) * res unit :=
  match savetxt a with
  | Ok rows => (dset String.eqb name (Txt rows) d, Ok tt)
  | Err e => (dset String.eqb name (Txt []) d, Err e)
  end.

(** 445-472 [split_save]; [path = None] when saving is disabled. *)
Definition split_save (train test label unlabel : list (list item)) (path : option unit) (d : dir) : dir * res unit :=
  match path, d with
  | None, _ => (d, Ok tt)                                                               (* 455-456 *)
  | Some _, None => (d, Err GenericErr)                                                 (* 471-472 *)
  | Some _, Some d =>
      match put_txt "train_idx.txt" train d with                                        (* 463 *)
      | (d, Err e) => (Some d, Err e)
      | (d, Ok _) =>
          match put_txt "test_idx.txt" test d with                                      (* 464 *)
          | (d, Err e) => (Some d, Err e)
          | (d, Ok _) =>
              if two_dim label then                                                     (* 465 *)
                match put_txt "label_idx.txt" label d with
                | (d, Err e) => (Some d, Err e)
                | (d, Ok _) => let '(d, r) := put_txt "unlabel_idx.txt" unlabel d in (Some d, r)
                end
              else
                (Some (dset String.eqb "unlabel_idx.npy"%string (Npy unlabel)
                         (dset String.eqb "label_idx.npy"%string (Npy label) d)), Ok tt)       (* 469-470 *)
          end
      end
  end.

(** What [np.loadtxt(..., dtype=int)] makes of a table: blank lines are skipped and dimensions of length
    one are squeezed away. *)
Inductive loaded := LNone | LNum (z : Z) | LVec (l : list Z) | LMat (rows : list (list Z)) | LNpy (a : list (list item)).
Definition nonblank (r : list Z) : bool := negb (Nat.eqb (List.length r) 0).
Definition loadtxt (rows : list (list Z)) : loaded :=
  match filter nonblank rows with
  | [] => LVec []
  | [[z]] => LNum z
  | [r] => LVec r
  | rows => if all_len 1 rows then LVec (List.concat rows) else LMat rows
  end.
Definition contents (f : file) : loaded := match f with Txt rows => loadtxt rows | Npy a => LNpy a end.

(** [fname.split()[0]]: up to the first blank. *)
Fixpoint first_word (s : string) : string :=
  match s with
  | EmptyString => EmptyString
  | String c s' => if Ascii.eqb c " "%char then EmptyString else String c (first_word s')
  end.

(** 434-441 *)
Definition load_one (d : list (string * file)) (fname : string) : loaded :=
  match dget String.eqb fname d with
  | Some f => contents f                                                                (* 441 *)
  | None =>
      match dget String.eqb (first_word fname ++ ".npy")%string d with                  (* 436 *)
      | Some f => contents f
      | None => LNone                                                                   (* 439 *)
      end
  end.

(** 405-442 [split_load] *)
Definition split_load (d : dir) : res (loaded * loaded * loaded * loaded) :=
  match d with
  | None => Err GenericErr                                                              (* 430-431 *)
  | Some d => Ok (load_one d "train_idx.txt", load_one d "test_idx.txt",
                  load_one d "label_idx.txt", load_one d "unlabel_idx.txt")
  end%string.

(** 157-159: [split] saves before it returns. *)
Definition name_item (k : key) : item := Scalar k.
Definition entry_item (e : entry) : item :=
  match e with Row i => Tup [Z.of_nat i] | Cell i j => Tup [Z.of_nat i; Z.of_nat j] end.
Definition pos_item (i : nat) : item := Scalar (KInt (Z.of_nat i)).
Definition save_folds {I L} (fi : I -> item) (fl : L -> item) (fs : list (fold I L)) (path : option unit) (d : dir)
  : dir * res (list (fold I L)) :=
  let '(d', r) := split_save (map (fun f => map fi (f_train f)) fs) (map (fun f => map fi (f_test f)) fs)
                             (map (fun f => map fl (f_label f)) fs) (map (fun f => map fl (f_unlabel f)) fs) path d in
  (d', rmap (fun _ => fs) r).
