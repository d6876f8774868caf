(** The label sets a recorder (experiment/state_io.py 97-109) and a threaded experiment (utils/multi_thread.py 88-105) make
    from what they are given: two collections, or lists (or arrays) of indexes. Simplifications: FeatureIndexCollection is a
    MultiLabelIndexCollection; indexes that are neither numbers, texts nor tuples and arguments that are a single index
    instead of a list are left out; numpy's refusal of a list of tuples of several shapes is one exception. *)
From Verif Require Import Base IndexModel MLModel StateModel ToolModel.
Local Open Scope Z_scope.

(** An element of a list: a number or text, or a tuple. *)
Inductive el := EKey (k : key) | ETup (x : mlidx).
(** One label set, as given. *)
Inductive arg := ACol (c : coll) | AList (l : list el).

(** One label set, as made: an IndexCollection, a MultiLabelIndexCollection, or an IndexCollection whose elements are rows
    of numbers (from [np.unique(.., axis=0)] of tuples, index_collections.py 75) or pairs. The order of the rows is left
    out. *)
Inductive made := MIdx (c : icol) | MMl (c : mlic) | MRows (rows : list (list Z)).

(** index/multi_label_tools.py 16-33 [check_index_multilabel]: a list passes if it is not empty and all are tuples. *)
Definition is_tup (e : el) : bool := match e with ETup _ => true | EKey _ => false end.
Definition check (a : arg) : res unit :=
  match a with
  | ACol _ => Ok tt                                                                     (* 24-25 *)
  | AList [] => Err TypeErr                                                             (* 29-30 *)
  | AList l => guard (forallb is_tup l) TypeErr                                         (* 29-32 *)
  end.

Definition tuple (e : el) : res mlidx := match e with ETup x => Ok x | EKey _ => Err TypeErr end.
(** index_collections.py 274-302: [MultiLabelIndexCollection(a, label_size)]; the numbers of an IndexCollection have no
    [len], which is a TypeError. *)
Definition as_labels (size : option Z) (a : arg) : res mlic :=
  match a with
  | ACol (CMl c) => rmap fst (ml_init (MColl c) size)
  | ACol (CIdx c) => match cont c with [] => rmap fst (ml_init MNone size) | _ => Err TypeErr end
  | AList l => ks <- mapM tuple l ;; rmap fst (ml_init (MList ks) size)
  end.

(** A tuple as a row of an array; tuples with an inner list are no rows. Of a longer tuple only two numbers are modelled:
    it is left out. *)
Definition row_of (e : el) : option (list Z) :=
  match e with ETup (IOne i) => Some [i] | ETup (IPair i j) => Some [i; j] | _ => None end.
Definition key_of (e : el) : option key := match e with EKey k => Some k | ETup _ => None end.
Fixpoint all_some {A} (l : list (option A)) : option (list A) :=
  match l with
  | [] => Some []
  | Some x :: l' => option_map (cons x) (all_some l')
  | None :: _ => None
  end.
(** index_collections.py 65-88: [IndexCollection(a)]. *)
Definition as_index (a : arg) : res made :=
  match a with
  | ACol (CIdx c) => Ok (MIdx (fst (ic_init (DColl c))))                                (* 69-72 *)
  | ACol (CMl c) => match mcont c with
                    | [] => Ok (MIdx (fst (ic_init DNone)))                             (* 66-67 *)
                    | l => match all_some (map (fun x => row_of (ETup x)) l) with
                           | Some rows => Ok (MRows rows)                               (* 69-72 *)
                           | None => Err GenericErr
                           end
                    end
  | AList l =>
      match all_some (map key_of l) with
      | Some ks => Ok (MIdx (fst (ic_init (DList (map VKey ks)))))                      (* 75-88 *)
      | None =>
          match all_some (map row_of l) with
          | Some (r :: rows) =>
              if forallb (fun r' => Nat.eqb (List.length r') (List.length r)) rows
              then Ok (MRows (nodup (list_eq_dec Z.eq_dec) (r :: rows))) else Err GenericErr
          | _ => Err GenericErr
          end
      end
  end.

Definition of_coll (c : coll) : made := match c with CIdx c => MIdx c | CMl c => MMl c end.

(** The two sets (labelled, unlabelled). [size] is the [label_size] argument of 100-101 (None: it is inferred). *)
Definition sets_of (size : res (option Z)) (L U : arg) : res (made * made) :=
  match L, U with
  | ACol l, ACol u => Ok (of_coll l, of_coll u)                                         (* 97-99; 89-91 *)
  | _, _ =>
      match (_ <- check L ;; _ <- check U ;; m <- size ;;                               (* 102-103; 94-96 *)
             u <- as_labels m U ;; l <- as_labels m L ;; Ok (MMl l, MMl u)) with        (* 104-105; 97-98 *)
      | Err TypeErr => u <- as_index U ;; l <- as_index L ;; Ok (l, u)                  (* 106-108; 99-101 *)
      | r => r
      end
  end.

(** state_io.py 97-108: the label sizes are inferred from each list by itself. *)
Definition recorder_sets (L U : arg) : res (made * made) := sets_of (Ok None) L U.

(** multi_thread.py 88-101: the label size is the number of columns of the labels; [columns] is None for a vector. *)
Definition thread_sets (columns : option Z) (L U : arg) : res (made * made) :=
  sets_of (match columns with Some m => Ok (Some m) | None => Err AssertErr end) L U.   (* 96 *)

(** The recorder of multi-label sets: StateModel.v with the operations of MLModel.v. *)
Definition ml_workspace (s : sio mlic mlidx) (it : option Z) : res (list mlidx * list mlidx * mlic * mlic) :=
  sio_workspace (ml_update true) (ml_difference_update true) s it.
