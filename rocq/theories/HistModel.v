(** The query history that a knowledge repository prints (oracle/knowledge_repository.py 304-317 and 585-598
    [_update_query_history], [full_history]), with [clear] (292-302, 572-583) among the calls, on top of RepoModel; and
    [BaseRepository.__getitem__] (utils/interface.py 163-183).

    Simplifications: the table is the list of its columns, heading and text (PrettyTable's layout is left out); Python's
    [str] of what was asked, answered and paid is a parameter, applied to a single thing or a list of things. *)
From Verif Require Import Base IndexModel MLModel StateModel Dict OracleModel RepoModel.
From Coq Require Import QArith String Ascii DecimalString.
Local Open Scope Z_scope.

(** What the history holds of an argument of [update_query]: 195 and 426 unpack the lists of one element
    (utils/misc.py 246-260). *)
Inductive shown (T : Type) := Alone (x : T) | Several (l : list T).
Arguments Alone {T}. Arguments Several {T}.
Definition unpacked {T} (l : list T) : shown T := match l with [x] => Alone x | _ => Several l end.

Definition newline : string := String (ascii_of_nat 10) EmptyString.
(** [str] of a number of queries *)
Definition str_nat (n : nat) : string := NilZero.string_of_uint (Nat.to_uint n).

Section Table.
  Context {K A : Type}.
  Variable str_index : shown K -> string.
  Variable str_answer : shown A -> string.
  Variable str_paid : option (shown Q) -> string.
  Variable str_total : Q -> string.

  (** 313-314, 594-595: the text of a column *)
  Definition column_text (e : list A * option (list Q) * list K) : string :=
    let '(ls, cs, ks) := e in
    ("query_index:" ++ str_index (unpacked ks) ++ newline ++ "response:" ++ str_answer (unpacked ls) ++ newline
       ++ "cost:" ++ str_paid (option_map unpacked cs))%string.

  (** 308-317, 589-598 *)
  Definition history_table (hist : list (list A * option (list Q) * list K)) (total : Q) : list (string * string) :=
    map (fun p => (str_nat (fst p), column_text (snd p))) (combine (seq 0 (List.length hist)) hist)
    ++ [("in all", "number_of_queries:" ++ str_nat (List.length hist) ++ newline ++ "cost:" ++ str_total total)]%string.
End Table.

(** ** ElementRepository *)
Section Element.
  Context {A : Type}.
  Inductive ecall := ECall (o : eop A) | EClear.
  Definition ec_step (r : erepo A) (c : ecall) : erepo A :=
    match c with ECall o => er_step r o | EClear => fst (er_clear r) end.
  Definition ec_run (r : erepo A) (h : list ecall) : erepo A := fold_left ec_step h r.

  (** 308-317 [full_history] *)
  Definition er_table str_index str_answer str_paid str_total (r : erepo A) : list (string * string) :=
    history_table str_index str_answer str_paid str_total (e_hist r) (e_cost r).

  (** interface.py 163-183 [__getitem__] of a bare index: [retrieve_by_indexes]. *)
  Definition er_getitem (r : erepo A) (k : key) : res (list vec * list A * list key) := er_retrieve r [k].
End Element.
Arguments ecall : clear implicits.

(** ** MatrixRepository *)

(** 572-583 [clear]: [_X], [_y] and [_indexes] become None ([Gone]; [cost_inall] is 0). *)
Inductive mstate := Live (r : mrepo) | Gone (num : nat) (hist : list (list mlabel * option (list Q) * list Z)).
Inductive mcall := MCall (o : mop) | MClear.

(** A call of a cleared repository: [select_index in None] (376) and [index not in None] (455) raise TypeError; a query about
    nothing adds nothing and is recorded (429-434). *)
Definition gone_step (num : nat) (hist : list (list mlabel * option (list Q) * list Z)) (o : mop) : mstate * res bool :=
  match o with
  | MAdd _ _ _ _ => (Gone num hist, Err TypeErr)
  | MUpdate ls ks cs xs =>
      if negb (same_length ls (Some ks) cs xs) then (Gone num hist, Err ValueErr)      (* 423-425 *)
      else match ks with
           | [] => (Gone (S num) (hist ++ [(ls, cs, ks)]), Ok false)
           | _ => (Gone num hist, Err TypeErr)
           end
  | MDiscard None _ => (Gone num hist, Err GenericErr)                                 (* 451-452, 463-464 *)
  | MDiscard (Some _) _ => (Gone num hist, Err TypeErr)
  end.
Definition mc_step (s : mstate) (c : mcall) : mstate * res bool :=
  match c, s with
  | MClear, _ => (Gone O [], Ok false)
  | MCall o, Live r => let '(r', a) := mr_step r o in (Live r', a)
  | MCall o, Gone num hist => gone_step num hist o
  end.
(** A history, with the outcome of every call. *)
Fixpoint mc_run (s : mstate) (h : list mcall) : mstate * list (res bool) :=
  match h with
  | [] => (s, [])
  | c :: h' => let '(s1, a) := mc_step s c in let '(s2, t) := mc_run s1 h' in (s2, a :: t)
  end.

Definition ms_cost (s : mstate) : Q := match s with Live r => m_cost r | Gone _ _ => 0%Q end.
Definition ms_hist (s : mstate) := match s with Live r => m_hist r | Gone _ hist => hist end.
Definition ms_num (s : mstate) := match s with Live r => m_num r | Gone num _ => num end.
(** 589-598 [full_history] *)
Definition ms_table str_index str_answer str_paid str_total (s : mstate) : list (string * string) :=
  history_table str_index str_answer str_paid str_total (ms_hist s) (ms_cost s).
(** 555-570 [get_training_data]; None: [(None, None, array(None))]. *)
Definition ms_training (s : mstate) : option (option (list vec) * list mlabel * list Z) :=
  match s with Live r => Some (mr_training r) | Gone _ _ => None end.
(** 495-505 [retrieve_by_indexes] with a list: [np.argwhere(None == k)] is empty, None cannot be indexed. *)
Definition ms_retrieve (s : mstate) (ks : list Z) : res (option (list vec) * list mlabel) :=
  match s, ks with
  | Live r, _ => mr_retrieve r ks
  | Gone _ _, [] => Err TypeErr
  | Gone _ _, _ => Err IndexErr
  end.
(** interface.py 163-183 [__getitem__] of a bare index; 497-502. *)
Definition ms_getitem (s : mstate) (k : Z) : res (bool * (option (list vec) * list mlabel)) :=
  match s with Live r => mr_retrieve_one r k | Gone _ _ => Err TypeErr end.
