(** Specification vocabulary for the toolbox: histories of a program that uses toolboxes. *)
From Verif Require Import Base IndexModel IndexSpec MLModel MLSpec OracleModel SplitModel ToolModel.
From Coq Require Import String QArith.
Local Open Scope Z_scope.

(** ** What a toolbox holds *)

(** The four lists of a split toolbox. *)
Definition contents (h : heap) (b : live) : option (quad (list (list item))) :=
  match b_split b with
  | Some q => Some {| q_train := read_out h (q_train q); q_test := read_out h (q_test q);
                      q_label := read_out h (q_label q); q_unlabel := read_out h (q_unlabel q) |}
  | None => None
  end.
(** Fold [r]. *)
Definition fold_at (c : quad (list (list item))) (r : Z) (tr te la un : list item) : Prop :=
  0 <= r /\ nth_error (q_train c) (Z.to_nat r) = Some tr /\ nth_error (q_test c) (Z.to_nat r) = Some te /\
  nth_error (q_label c) (Z.to_nat r) = Some la /\ nth_error (q_unlabel c) (Z.to_nat r) = Some un.

(** ** Histories *)

(** What the program can hold: lists and arrays, lists of them, collections. *)
Inductive ref := RBuf (a : nat) | ROut (a : nat) | RColl (a : nat).
Definition vref (v : vobj) : ref := match v with VList a => RBuf a | VView a _ _ => RBuf a end.
Definition refs_of (h : heap) (g : got) : list ref :=
  match g with
  | OneFold tr te L U => [vref tr; vref te; RColl L; RColl U]
  | AllFolds q => flat_map (fun o => ROut o :: map vref (out_at h o)) [q_train q; q_test q; q_label q; q_unlabel q]
  end.

(** Change the element at a position. *)
Fixpoint put {A} (n : nat) (x : A) (l : list A) : list A :=
  match n, l with O, _ :: l' => x :: l' | S n', y :: l' => y :: put n' x l' | _, [] => [] end.
Inductive change := XBuf (l : list item) | XOut (vs : list vobj) | XColl (c : coll).
Definition write (h : heap) (r : ref) (x : change) : heap :=
  match r, x with
  | RBuf a, XBuf l => {| h_buf := put a l (h_buf h); h_out := h_out h; h_coll := h_coll h |}
  | ROut a, XOut vs => {| h_buf := h_buf h; h_out := put a vs (h_out h); h_coll := h_coll h |}
  | RColl a, XColl c => {| h_buf := h_buf h; h_out := h_out h; h_coll := put a c (h_coll h) |}
  | _, _ => h
  end.

(** Arguments of a construction. The four lists are made for the call and not changed by the program afterwards. *)
Record nargs := {
  n_y : ylab; n_X : option (list vec); n_names : option (list pyval); n_query : qtype;
  n_split : option (quad (list (list item))); n_path : option Z }.
Definition args_of (a : nargs) (q : option (quad nat)) : targs :=
  {| t_y := n_y a; t_X := n_X a; t_names := n_names a; t_query := n_query a;
     t_train := option_map q_train q; t_test := option_map q_test q; t_label := option_map q_label q;
     t_unlabel := option_map q_unlabel q; t_path := n_path a |}.
Definition make (w : world) (a : nargs) : world * res (live * bool) :=
  match n_split a with
  | None => tb_new w (args_of a None)
  | Some q => let (h, q) := new_quad (w_heap w) q in tb_new (set_heap w h) (args_of a (Some q))
  end.

(** The program: its toolboxes, and what it was given by [get_split]. *)
Record sys := { y_world : world; y_boxes : list live; y_got : list ref }.

Inductive event :=
| ENew (a : nargs)                         (* make a toolbox *)
| ESplit (i : nat) (a : sargs)             (* split_AL of toolbox i *)
| EGet (i : nat) (round : option Z)        (* get_split of toolbox i *)
| EWrite (k : nat) (x : change)            (* change the k-th object returned by get_split so far *)
| EExit.                                   (* the program ends and another one starts *)

Definition step (s : sys) (e : event) : sys :=
  match e with
  | ENew a => match make (y_world s) a with
              | (w, Ok (b, _)) => {| y_world := w; y_boxes := y_boxes s ++ [b]; y_got := y_got s |}
              | (w, Err _) => {| y_world := w; y_boxes := y_boxes s; y_got := y_got s |}
              end
  | ESplit i a => match nth_error (y_boxes s) i with
                  | None => s
                  | Some b => match tb_split (y_world s) b a with
                              | None => s
                              | Some (w, b', _) => {| y_world := w; y_boxes := put i b' (y_boxes s); y_got := y_got s |}
                              end
                  end
  | EGet i r => match nth_error (y_boxes s) i with
                | None => s
                | Some b => match tb_get (y_world s) b r with
                            | (w, Ok g) => {| y_world := w; y_boxes := y_boxes s; y_got := y_got s ++ refs_of (w_heap w) g |}
                            | (w, Err _) => {| y_world := w; y_boxes := y_boxes s; y_got := y_got s |}
                            end
                end
  | EWrite k x => match nth_error (y_got s) k with
                  | None => s
                  | Some r => {| y_world := set_heap (y_world s) (write (w_heap (y_world s)) r x);
                                 y_boxes := y_boxes s; y_got := y_got s |}
                  end
  | EExit => {| y_world := y_world s; y_boxes := []; y_got := [] |}
  end.
Definition run (s : sys) (es : list event) : sys := fold_left step es s.

Definition start (d : Z -> node) : sys :=
  {| y_world := {| w_heap := {| h_buf := []; h_out := []; h_coll := [] |}; w_disk := d |}; y_boxes := []; y_got := [] |}.
(** No settings file anywhere. *)
Definition no_settings (d : Z -> node) : Prop :=
  forall p, match d p with NDir None _ | NFree | NBad => True | _ => False end.

(** Memory that was in use keeps its contents. *)
Definition grown (h h' : heap) : Prop :=
  (exists l, h_buf h' = h_buf h ++ l) /\ (exists l, h_out h' = h_out h ++ l) /\ (exists l, h_coll h' = h_coll h ++ l).
(** A reference to something that did not exist in [h]. *)
Definition fresh (h : heap) (r : ref) : Prop :=
  match r with
  | RBuf a => (List.length (h_buf h) <= a)%nat
  | ROut a => (List.length (h_out h) <= a)%nat
  | RColl a => (List.length (h_coll h) <= a)%nat
  end.

(** ** Label sets *)

(** A label set of single instances, all integers or all strings. *)
Definition instance_set (l : list item) (ks : list key) : Prop :=
  l = map Scalar ks /\ forall k k', In k ks -> In k' ks -> key_ty k = key_ty k'.
(** A label set of (instance,) tuples. *)
Definition row_set (l : list item) (is : list Z) : Prop := l = map (fun i => Tup [i]) is.

(** The toolbox in the settings file at a path. *)
Definition on_disk (d : Z -> node) (p : Z) (s : stored) : Prop :=
  (exists fs, d p = NDir (Some (Whole s)) fs) \/ d p = NFile (Whole s).
(** The path is a directory. *)
Definition is_dir (d : Z -> node) (p : Z) : Prop := exists pk fs, d p = NDir pk fs.
(** [n] folds. *)
Definition folds_are (c : quad (list (list item))) (n : nat) : Prop :=
  List.length (q_train c) = n /\ List.length (q_test c) = n /\ List.length (q_label c) = n /\ List.length (q_unlabel c) = n.
(** Path [p] has one split: in the settings file and in every toolbox in use. *)
Definition settled (s : sys) (p : Z) (c : quad (list (list item))) : Prop :=
  (exists t, on_disk (w_disk (y_world s)) p t /\ b_split t = Some c) /\
  forall b, In b (y_boxes s) -> b_path b = Some p -> contents (w_heap (y_world s)) b = Some c.

(** The collection holds the elements of the label set. *)
Definition holds (c : coll) (ks : list key) : Prop :=
  exists i, c = CIdx i /\ NoDup (elems i) /\ forall k, In k (elems i) <-> In k ks.
Definition holds_rows (c : coll) (is : list Z) (m : Z) : Prop :=
  exists l, c = CMl l /\ NoDup (pairs l) /\ forall i j, In (i, j) (pairs l) <-> In i is /\ 0 <= j < m.

(** The program is killed during [split_AL] of a toolbox with path [p]: before anything is written, while the splitter
    writes its own files, while the settings file is rewritten, or at the end. *)
Inductive killed (w : world) (b : live) (a : sargs) (p : Z) : (Z -> node) -> Prop :=
| kill_start : killed w b a p (w_disk w)
| kill_files pk fs fs' : w_disk w p = NDir pk fs -> killed w b a p (w_disk (set_node w p (NDir pk fs')))
| kill_saving w' b' q pk fs : tb_split w b a = Some (w', b', Ok (q, false)) -> w_disk w' p = NDir pk fs ->
    killed w b a p (w_disk (set_node w p (NDir (Some Torn) fs)))
| kill_end w' b' q : tb_split w b a = Some (w', b', Ok (q, false)) -> killed w b a p (w_disk w').
