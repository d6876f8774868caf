(** Model of alipy/toolbox.py: [ToolBox].

    The splits of a toolbox are lists and arrays that it shares with the caller and with each other, so they live in an
    explicit heap: buffers (the elements of a list or an array), outer lists (one reference per fold) and collections.
    A reference is a whole list or array, or a numpy view of a part of an array.

    Simplifications: labels and features are integers; paths are numbers, and a path is a directory, a file, free, or
    unusable; in a directory only the settings file and the files written by the splitters are kept; a settings file is
    one stored toolbox, or cannot be loaded. Warnings of the collections are left out. [_saving_dir] is left out. *)
From Verif Require Import Base IndexModel Dict MLModel OracleModel RepoModel StateModel SplitModel.
From Coq Require Import String QArith.
Local Open Scope Z_scope.
Notation split := SplitModel.split.

Inductive vobj := VList (b : nat) | VView (b off len : nat).
Inductive coll := CIdx (c : icol) | CMl (c : mlic).
Record heap := { h_buf : list (list item); h_out : list (list vobj); h_coll : list coll }.

Definition buf_at (h : heap) (b : nat) : list item := nth b (h_buf h) [].
Definition out_at (h : heap) (o : nat) : list vobj := nth o (h_out h) [].
Definition read (h : heap) (v : vobj) : list item :=
  match v with VList b => buf_at h b | VView b off len => firstn len (skipn off (buf_at h b)) end.
(** The contents of an outer list. *)
Definition read_out (h : heap) (o : nat) : list (list item) := map (read h) (out_at h o).

Definition new_bufs (h : heap) (ls : list (list item)) : heap * list vobj :=
  ({| h_buf := h_buf h ++ ls; h_out := h_out h; h_coll := h_coll h |},
   map VList (seq (List.length (h_buf h)) (List.length ls))).
Definition new_out (h : heap) (vs : list vobj) : heap * nat :=
  ({| h_buf := h_buf h; h_out := h_out h ++ [vs]; h_coll := h_coll h |}, List.length (h_out h)).
Definition new_coll (h : heap) (c : coll) : heap * nat :=
  ({| h_buf := h_buf h; h_out := h_out h; h_coll := h_coll h ++ [c] |}, List.length (h_coll h)).
(** A list of new lists. *)
Definition new_lists (h : heap) (ls : list (list item)) : heap * nat :=
  let (h, vs) := new_bufs h ls in new_out h vs.

(** ** The object *)
Inductive qtype := AllLabels | PartLabels | Features | OtherType.
(** Train, test, label and unlabel lists. *)
Record quad (P : Type) := { q_train : P; q_test : P; q_label : P; q_unlabel : P }.
Arguments q_train {P} q. Arguments q_test {P} q. Arguments q_label {P} q. Arguments q_unlabel {P} q.

(** The attributes; [P] is the address of an outer list, or its contents in a stored toolbox. [b_X] is the attribute [_X],
    [b_flag] is [_instance_flag], [b_count] is [split_count]. *)
Record tbox (P : Type) := {
  b_y : ylab; b_X : option (list vec); b_flag : bool; b_names : list pyval; b_query : qtype;
  b_split : option (quad P); b_count : option Z; b_path : option Z }.
Arguments b_y {P} t. Arguments b_X {P} t. Arguments b_flag {P} t. Arguments b_names {P} t. Arguments b_query {P} t.
Arguments b_split {P} t. Arguments b_count {P} t. Arguments b_path {P} t.

Definition stored : Type := tbox (list (list item)).
Definition live : Type := tbox nat.
Definition with_split {P R} (b : tbox P) (s : option (quad R)) (c : option Z) : tbox R :=
  {| b_y := b_y b; b_X := b_X b; b_flag := b_flag b; b_names := b_names b; b_query := b_query b;
     b_split := s; b_count := c; b_path := b_path b |}.

(** [pickle.dump]: contents only, no sharing. *)
Definition freeze (h : heap) (b : live) : stored :=
  with_split b (match b_split b with
                | Some q => Some {| q_train := read_out h (q_train q); q_test := read_out h (q_test q);
                                    q_label := read_out h (q_label q); q_unlabel := read_out h (q_unlabel q) |}
                | None => None end) (b_count b).
Definition new_quad (h : heap) (q : quad (list (list item))) : heap * quad nat :=
  let (h, a) := new_lists h (q_train q) in
  let (h, b) := new_lists h (q_test q) in
  let (h, c) := new_lists h (q_label q) in
  let (h, d) := new_lists h (q_unlabel q) in
  (h, {| q_train := a; q_test := b; q_label := c; q_unlabel := d |}).
(** [pickle.load] *)
Definition thaw (h : heap) (s : stored) : heap * live :=
  match b_split s with
  | None => (h, with_split s None (b_count s))
  | Some q => let (h, q) := new_quad h q in (h, with_split s (Some q) (b_count s))
  end.

(** ** Disk *)
Inductive pkl := Whole (s : stored) | Torn.
Inductive node := NDir (p : option pkl) (files : list (string * file)) | NFile (p : pkl) | NFree | NBad.
Record world := { w_heap : heap; w_disk : Z -> node }.
Definition set_heap (w : world) (h : heap) : world := {| w_heap := h; w_disk := w_disk w |}.
Definition set_node (w : world) (p : Z) (n : node) : world :=
  {| w_heap := w_heap w; w_disk := fun q => if q =? p then n else w_disk w q |}.

(** 533-543 [save], up to the end or until [open(.., 'wb')] has emptied the file ([s] is [Torn]). *)
Definition save_as (w : world) (path : option Z) (s : pkl) : world * res unit :=
  match path with
  | None => (w, Ok tt)
  | Some p => match w_disk w p with
              | NDir _ fs => (set_node w p (NDir (Some s) fs), Ok tt)
              | NFile _ | NFree => (set_node w p (NFile s), Ok tt)
              | NBad => (w, Err FileErr)
              end
  end.
Definition save (w : world) (b : live) : world * res unit := save_as w (b_path b) (Whole (freeze (w_heap w) b)).

(** ** __init__, 79-184 *)
Record targs := {
  t_y : ylab; t_X : option (list vec); t_names : option (list pyval); t_query : qtype;
  t_train : option nat; t_test : option nat; t_label : option nat; t_unlabel : option nat; t_path : option Z }.

(** 104-107: a matrix with one row or one column is flattened. *)
Definition norm_y (y : ylab) : ylab :=
  match y with
  | YVec l => YVec l
  | YMat m => if Nat.eqb (List.length m) 1 || Nat.eqb (List.length (hd [] m)) 1 then YVec (List.concat m) else YMat m
  end.
Definition q_known (q : qtype) : bool := match q with OtherType => false | _ => true end.
Definition is_features (q : qtype) : bool := match q with Features => true | _ => false end.

(** 102-164: everything before the saving path. *)
Definition new_box (h : heap) (a : targs) : res live :=
  _ <- label_num (t_y a) ;;                                                            (* 103, check_array *)
  let y := norm_y (t_y a) in
  _ <- match t_X a with                                                                (* 123-130 *)
       | None => Ok tt
       | Some X => guard (match X with [] => false | r :: _ => Nat.ltb 0 (List.length r) && all_len (List.length r) X end &&
                          Nat.eqb (List.length X) (y_len y)) ValueErr
       end ;;
  names <- match t_names a with                                                        (* 132-137 *)
           | None => Ok (map (fun i => VKey (KInt i)) (zrange (Z.of_nat (y_len y))))
           | Some l => if Nat.eqb (List.length l) (y_len y) then Ok l else Err ValueErr
           end ;;
  _ <- guard (q_known (t_query a)) NotImplErr ;;                                       (* 139-144 *)
  _ <- guard (negb (is_features (t_query a)) || match t_X a with Some _ => true | None => false end) GenericErr ;;
  sc <- match t_train a, t_test a, t_label a, t_unlabel a with                         (* 146-161 *)
        | Some tr, Some te, Some la, Some un =>
            let n := List.length (out_at h tr) in
            if Nat.eqb n (List.length (out_at h te)) && Nat.eqb (List.length (out_at h te)) (List.length (out_at h la)) &&
               Nat.eqb (List.length (out_at h la)) (List.length (out_at h un))
            then Ok (Some {| q_train := tr; q_test := te; q_label := la; q_unlabel := un |}, Some (Z.of_nat n))
            else Err ValueErr
        | _, _, _, _ => Ok (None, None)
        end ;;
  Ok {| b_y := y; b_X := t_X a; b_flag := match t_X a with Some _ => true | None => false end; b_names := names;
        b_query := t_query a; b_split := fst sc; b_count := snd sc; b_path := t_path a |}.

(** 172-174, 180-182: the attributes of the stored toolbox are copied; those it does not have keep their value. *)
Definition load_over (h : heap) (b : live) (s : stored) : heap * live :=
  let (h, l) := thaw h s in
  (h, {| b_y := b_y l; b_X := match b_X l with Some X => Some X | None => b_X b end; b_flag := b_flag l;
         b_names := b_names l; b_query := b_query l; b_split := b_split l;
         b_count := match b_count l with Some c => Some c | None => b_count b end; b_path := b_path l |}).

(** 79-184; true: the warning that a stored toolbox is loaded instead. *)
Definition tb_new (w : world) (a : targs) : world * res (live * bool) :=
  match new_box (w_heap w) a with
  | Err e => (w, Err e)
  | Ok b =>
      let load s warn := let (h, b) := load_over (w_heap w) b s in (set_heap w h, Ok (b, warn)) in
      let store := match save w b with (w, Ok _) => (w, Ok (b, false)) | (w, Err e) => (w, Err e) end in
      match t_path a with
      | None => (w, Ok (b, false))
      | Some p => match w_disk w p with
                  | NDir (Some (Whole s)) _ => load s true                             (* 167-175 *)
                  | NFile (Whole s) => load s false                                    (* 178-183 *)
                  | NDir (Some Torn) _ | NFile Torn => (w, Err FileErr)
                  | NDir None _ | NFree | NBad => store                                (* 184 *)
                  end
      end
  end.

(** ** split_AL, 186-261 *)
Definition scalars (l : list key) : list item := map Scalar l.
Definition positions (l : list nat) : list item := map (fun i => Scalar (KInt (Z.of_nat i))) l.
Definition tuple_of (e : entry) : item :=
  match e with Row i => Tup [Z.of_nat i] | Cell i j => Tup [Z.of_nat i; Z.of_nat j] end.

(** What the splitters return: [split] cuts the label sets out of the training arrays (al_split.py 121-122, 154-155), so
    they are views; [split_multi_label] makes new lists of tuples. *)
Definition quad_of {F} (fs : list F) (tr te la un : F -> list item) : quad (list (list item)) :=
  {| q_train := map tr fs; q_test := map te fs; q_label := map la fs; q_unlabel := map un fs |}.
Fixpoint views (b : nat) (fs : list (fold key key)) : list vobj * list vobj :=
  match fs with
  | [] => ([], [])
  | f :: fs' => let (l, u) := views (S b) fs' in
                let n := List.length (f_label f) in
                (VView b 0 n :: l, VView b n (List.length (f_train f) - n) :: u)
  end.
Definition store_views (h : heap) (fs : list (fold key key)) : heap * quad nat :=
  let b := List.length (h_buf h) in
  let (h, a) := new_lists h (map (fun f => scalars (f_train f)) fs) in
  let (h, t) := new_lists h (map (fun f => scalars (f_test f)) fs) in
  let (l, u) := views b fs in
  let (h, l) := new_out h l in
  let (h, u) := new_out h u in
  (h, {| q_train := a; q_test := t; q_label := l; q_unlabel := u |}).

Record sargs := { s_ratio : Q; s_rate : Q; s_count : Z; s_all : bool; s_draws : list (list nat) }.

(** 233-245 or 247-256: the new split, stored in the heap; None: the splitter has not returned. *)
Definition make_split (h : heap) (b : live) (a : sargs) : option (res (heap * quad nat * quad (list (list item)))) :=
  let n := Z.to_nat (s_count a) in
  match b_y b with
  | YVec _ =>
      option_map (rmap (fun fs => (store_views h fs, quad_of fs (fun f => scalars (f_train f)) (fun f => scalars (f_test f))
                                                       (fun f => scalars (f_label f)) (fun f => scalars (f_unlabel f)))))
        (split (if b_flag b then option_map (@List.length vec) (b_X b) else None) (Some (b_y b)) (Some (b_names b))
           (s_ratio a) (s_rate a) n (s_all a) (s_draws a))
  | YMat m =>
      option_map (rmap (fun fs => let q := quad_of fs (fun f => positions (f_train f)) (fun f => positions (f_test f))
                                             (fun f => map tuple_of (f_label f)) (fun f => map tuple_of (f_unlabel f)) in
                                  (new_quad h q, q)))
        (split_multi_label (Some m) (Some (List.length m, List.length (hd [] m))) (s_ratio a) (s_rate a) n (s_all a) (s_draws a))
  end.

(** The files of the splitter, al_split.py 445-472. *)
Definition save_files (w : world) (path : option Z) (q : quad (list (list item))) : world * res unit :=
  match path with
  | None => (w, Ok tt)
  | Some p =>
      let d := match w_disk w p with NDir _ fs => Some fs | _ => None end in
      let (d, r) := split_save (q_train q) (q_test q) (q_label q) (q_unlabel q) (Some tt) d in
      (match d, w_disk w p with Some fs, NDir pk _ => set_node w p (NDir pk fs) | _, _ => w end, r)
  end.

(** 222-261; true: the warning that there is a split already. [self._target_type] is never 'Features' (231). *)
Definition tb_split (w : world) (b : live) (a : sargs) : option (world * live * res (quad nat * bool)) :=
  match b_split b with
  | Some q => Some (w, b, Ok (q, true))                                                (* 225-228 *)
  | None =>
      let b1 := with_split b None (Some (s_count a)) in                                (* 230 *)
      match make_split (w_heap w) b a with
      | None => None
      | Some (Err e) => Some (w, b1, Err e)
      | Some (Ok (h, q, c)) =>
          match save_files w (b_path b) c with
          | (w, Err e) => Some (w, b1, Err e)
          | (w, Ok _) =>
              let b2 := with_split b (Some q) (Some (s_count a)) in                    (* 259 *)
              match save (set_heap w h) b2 with                                        (* 260 *)
              | (w, Ok _) => Some (w, b2, Ok (q, false))
              | (w, Err e) => Some (w, b2, Err e)
              end
          end
      end
  end.

(** ** get_split, 263-303 *)
Definition item_key (i : item) : res key := match i with Scalar k => Ok k | Tup _ => Err TypeErr end.
Definition item_idx (i : item) : res mlidx :=
  match i with Tup [i] => Ok (IOne i) | Tup [i; j] => Ok (IPair i j) | Tup (i :: j :: _) => Ok (ILong i j) | _ => Err TypeErr end.
(** IndexCollection(l); lists of tuples are not modelled here. *)
Definition idx_coll (l : list item) : res coll :=
  ks <- mapM item_key l ;; Ok (CIdx (fst (ic_init (DList (map VNp ks))))).
(** MultiLabelIndexCollection(l, m); elements that are not tuples raise a TypeError. *)
Definition ml_coll (l : list item) (m : Z) : res coll :=
  ks <- mapM item_idx l ;; r <- ml_init (MList ks) (Some m) ;; Ok (CMl (fst r)).
(** FeatureIndexCollection(l, m) *)
Definition feature_coll (l : list item) (m : Z) : res coll :=
  match ml_coll l m with Ok c => Ok c | Err _ => Err GenericErr end.

Definition columns {A} (m : list (list A)) : Z := Z.of_nat (List.length (hd [] m)).
(** The collection made from a label set. *)
Definition collect {P} (b : tbox P) (l : list item) : res coll :=
  match b_query b, b_y b with
  | Features, _ => match b_X b with None => Err AttrErr | Some X => feature_coll l (columns X) end   (* 289-292 *)
  | _, YMat m => ml_coll l (columns m)                                                 (* 294-297 *)
  | _, YVec _ => idx_coll l                                                            (* 298-300 *)
  end.

Inductive got := OneFold (train test : vobj) (L U : nat) | AllFolds (q : quad nat).

Definition tb_get (w : world) (b : live) (round : option Z) : world * res got :=
  match b_split b with
  | None => (w, Err GenericErr)                                                        (* 284-285 *)
  | Some q =>
      let h := w_heap w in
      match round with
      | None =>                                                                        (* 301-303 *)
          let (h, q) := new_quad h {| q_train := read_out h (q_train q); q_test := read_out h (q_test q);
                                      q_label := read_out h (q_label q); q_unlabel := read_out h (q_unlabel q) |} in
          (set_heap w h, Ok (AllFolds q))
      | Some r =>
          match (c <- match b_count b with Some c => Ok c | None => Err AttrErr end ;;
                 _ <- guard ((0 <=? r) && (r <? c)) AssertErr ;;                       (* 287 *)
                 tr <- py_nth (out_at h (q_train q)) (Z.to_nat r) ;;
                 te <- py_nth (out_at h (q_test q)) (Z.to_nat r) ;;
                 la <- py_nth (out_at h (q_label q)) (Z.to_nat r) ;;
                 L <- collect b (read h la) ;;
                 un <- py_nth (out_at h (q_unlabel q)) (Z.to_nat r) ;;
                 U <- collect b (read h un) ;;
                 Ok (read h tr, read h te, L, U)) with
          | Err e => (w, Err e)
          | Ok (tr, te, L, U) =>
              let (h, vs) := new_bufs h [tr; te] in
              let (h, l) := new_coll h L in
              let (h, u) := new_coll h U in
              (set_heap w h, Ok (OneFold (nth 0 vs (VList 0)) (nth 1 vs (VList 0)) l u))
          end
      end
  end.

(** ** Objects made from the settings *)

(** 305-322 [get_clean_oracle] for one label per instance: None for 'PartLabels'. Feature and multi-label oracles are not
    modelled here. *)
Definition tb_oracle {P} (b : tbox P) (by_example : bool) (cost : option (list Q)) : res (option oracle) :=
  match b_query b, b_y b with
  | AllLabels, YVec y =>
      let ls := map KInt y in
      if by_example then
        match b_X b with
        | None => Err AttrErr
        | Some X => rmap Some (or_init ls (Some X) None cost)
        end
      else rmap Some (or_init ls None None None)
  | PartLabels, _ => Ok None
  | _, _ => Err NotImplErr
  end.

(** 350-354 [get_stateio]: the collections and arrays of the fold. *)
Definition tb_stateio (w : world) (b : live) (r : Z) : world * res (sio coll item) :=
  match b_count b with
  | None => (w, Err AttrErr)
  | Some c =>
      if negb ((0 <=? r) && (r <? c)) then (w, Err AssertErr)
      else match tb_get w b (Some r) with
           | (w, Ok (OneFold tr te L U)) =>
               let h := w_heap w in
               (w, Ok (sio_new (read h tr) (read h te) (nth L (h_coll h) (CMl {| mcont := []; is_set := true; lsize := None |}))
                                                       (nth U (h_coll h) (CMl {| mcont := []; is_set := true; lsize := None |}))))
           | (w, Ok (AllFolds _)) => (w, Err TypeErr)
           | (w, Err e) => (w, Err e)
           end
  end.

(** 374-384 [get_repository] for one label per instance and integer names: the labels at the labelled indexes. *)
Inductive repo := RMatrix (r : mrepo) | RElement (r : erepo Z).
Definition int_key (k : key) : res Z := match k with KInt z => Ok z | KStr _ => Err IndexErr end.
Definition tb_repository (w : world) (b : live) (r : Z) (inst : bool) : world * res repo :=
  match b_count b with
  | None => (w, Err AttrErr)
  | Some c =>
      if negb ((0 <=? r) && (r <? c)) then (w, Err AssertErr)
      else match tb_get w b (Some r) with
           | (w, Ok (OneFold _ _ L _)) =>
               (w, match nth_error (h_coll (w_heap w)) L, b_y b with
                   | Some (CIdx l), YVec y =>
                       let ks := map norm (cont l) in
                       labels <- mapM (np_at y) ks ;;
                       exa <- (if inst then match b_X b with
                                            | None => Err AttrErr
                                            | Some X => xs <- mapM (np_at X) ks ;; Ok (Some xs)
                                            end
                               else Ok None) ;;
                       match b_query b with
                       | AllLabels => zs <- mapM int_key ks ;; rmap RMatrix (mr_init (map RepoModel.LNum labels) zs exa)
                       | _ => rmap RElement (er_init labels ks exa)
                       end
                   | _, _ => Err NotImplErr
                   end)
           | (w, Ok (AllFolds _)) => (w, Err TypeErr)
           | (w, Err e) => (w, Err e)
           end
  end.
