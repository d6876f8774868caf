(** Model of [State] (alipy/experiment/state.py), [StateIO] (alipy/experiment/state_io.py),
    [StoppingCriteria] (alipy/experiment/stopping_criteria.py) and of the main loop of
    [AlExperiment] (alipy/experiment/al_experiment.py).

    Simplifications: numbers are exact rationals; console output ([verbose]) is left out; stored values
    are immutable, so [copy.deepcopy] is the identity. [StateIO] is modelled once for any collection
    class [C] with elements [E] and methods [update], [difference_update], [__len__]. *)
From Verif Require Import Base IndexModel MLModel.
From Coq Require Import String QArith DecimalString.
Local Open Scope Z_scope.

(** A value stored in a [State]: a list of selected indexes, a number, a sequence of numbers, or
    anything else (identified by a tag). *)
Inductive sval (E : Type) := SIdx (l : list E) | SNum (q : Q) | SSeq (l : list Q) | SOther (tag : Z).
Arguments SIdx {E} l.
Arguments SNum {E} q.
Arguments SSeq {E} l.
Arguments SOther {E} tag.

(** A Python dict with string keys, in insertion order. *)
Section Dict.
  Context {V : Type}.
  Fixpoint sget (k : string) (d : list (string * V)) : option V :=
    match d with
    | [] => None
    | (k', v) :: d' => if String.eqb k k' then Some v else sget k d'
    end.
  Fixpoint sset (k : string) (v : V) (d : list (string * V)) : list (string * V) :=
    match d with
    | [] => [(k, v)]
    | (k', v') :: d' => if String.eqb k k' then (k, v) :: d' else (k', v') :: sset k v d'
    end.
  Fixpoint sdel (k : string) (d : list (string * V)) : list (string * V) :=
    match d with
    | [] => []
    | (k', v') :: d' => if String.eqb k k' then d' else (k', v') :: sdel k d'
    end.
End Dict.


(** state.py 42-53: the attributes of a [State]. *)
Record state (E : Type) := { sdict : list (string * sval E); sbatch : nat }.
Arguments sdict {E} s.
Arguments sbatch {E} s.

(** state.py 42-53 [__init__]. A selection that is not a list/array/collection becomes a singleton. *)
Definition state_init {E} (sel : list E + E) (perf : sval E) (queried_label cost : option (sval E)) : state E :=
  let l := match sel with inl l => l | inr x => [x] end in
  let d1 := sset "performance"%string perf (sset "select_index"%string (SIdx l) []) in
  let d2 := match queried_label with Some v => sset "queried_label"%string v d1 | None => d1 end in
  let d3 := match cost with Some v => sset "cost"%string v d2 | None => d2 end in
  {| sdict := d3; sbatch := List.length l |}.

(** state.py 87: the keys that [del_element] refuses. *)
Definition critical (k : string) : bool :=
  existsb (String.eqb k) ["select_index"%string; "queried_info"%string; "performance"%string; "cost"%string].

Inductive stop E := SAdd (k : string) (v : sval E) | SSet (k : string) (v : sval E) | SDel (k : string).
Arguments SAdd {E} k v.
Arguments SSet {E} k v.
Arguments SDel {E} k.

(** state.py 65-76 [add_element] (and [__setitem__]), 78-94 [del_element], 100-113 [set_value]. *)
Definition st_step {E} (s : state E) (o : stop E) : state E * res (list warning) :=
  match o with
  | SAdd k v => ({| sdict := sset k v (sdict s); sbatch := sbatch s |}, Ok [])
  | SDel k =>
      if critical k then (s, Ok [WValidity])
      else match sget k (sdict s) with
           | None => (s, Ok [WValidity])
           | Some _ => ({| sdict := sdel k (sdict s); sbatch := sbatch s |}, Ok [])
           end
  | SSet k v =>
      match sget k (sdict s) with
      | None => (s, Err KeyErr)
      | Some _ => ({| sdict := sset k v (sdict s); sbatch := sbatch s |}, Ok [])
      end
  end.
Definition st_run {E} (s : state E) (h : list (stop E)) : state E :=
  fold_left (fun s o => fst (st_step s o)) h s.

(** state.py 96-98 [get_value] (and [__getitem__]). *)
Definition st_get {E} (s : state E) (k : string) : res (sval E) :=
  match sget k (sdict s) with Some v => Ok v | None => Err KeyErr end.

(** What can be appended to a [StateIO]: a [State] or a plain dict (state_io.py 174-176). *)
Inductive entry (E : Type) := EState (s : state E) | EDict (d : list (string * sval E)).
Arguments EState {E} s.
Arguments EDict {E} d.

Definition qsum (l : list Q) : Q := fold_left Qplus l 0%Q.

(** [state.get_value('select_index')]; a dict has no such method. *)
Definition sel_of {E} (e : entry E) : res (list E) :=
  match e with
  | EDict _ => Err AttrErr
  | EState s => match st_get s "select_index"%string with
                | Ok (SIdx l) => Ok l
                | Ok _ => Err TypeErr
                | Err x => Err x
                end
  end.

(** state_io.py 338-341, 349-350: [np.sum(state.get_value('cost'))] if there is a cost, else nothing. *)
Definition cost_of {E} (e : entry E) : res Q :=
  match e with
  | EDict d => match sget "cost"%string d with Some _ => Err AttrErr | None => Ok 0%Q end
  | EState s => match sget "cost"%string (sdict s) with
                | None => Ok 0%Q
                | Some (SNum q) => Ok q
                | Some (SSeq l) => Ok (qsum l)
                | Some _ => Err TypeErr
                end
  end.

(** [state.batch_size] *)
Definition batch_of {E} (e : entry E) : res nat :=
  match e with EState s => Ok (sbatch s) | EDict _ => Err AttrErr end.

(** state_io.py 75-127: the attributes used here. *)
Record sio (C E : Type) := {
  s_train : list E; s_test : list E; s_L : C; s_U : C; s_states : list (entry E);
  s_cost : Q; s_numq : nat; s_batch : nat }.
Arguments s_train {C E} s.
Arguments s_test {C E} s.
Arguments s_L {C E} s.
Arguments s_U {C E} s.
Arguments s_states {C E} s.
Arguments s_cost {C E} s.
Arguments s_numq {C E} s.
Arguments s_batch {C E} s.

Section StateIO.
  Context {C E : Type}.
  Variables (upd diff : C -> list E -> C * res (list warning)) (clen : C -> nat).

  Definition sio_new (train test : list E) (L U : C) : sio C E :=
    {| s_train := train; s_test := test; s_L := L; s_U := U; s_states := [];
       s_cost := 0%Q; s_numq := 0; s_batch := 0 |}.

  Definition with_states (s : sio C E) (l : list (entry E)) : sio C E :=
    {| s_train := s_train s; s_test := s_test s; s_L := s_L s; s_U := s_U s; s_states := l;
       s_cost := s_cost s; s_numq := s_numq s; s_batch := s_batch s |}.
  Definition with_totals (s : sio C E) (c : Q) (n : nat) : sio C E :=
    {| s_train := s_train s; s_test := s_test s; s_L := s_L s; s_U := s_U s; s_states := s_states s;
       s_cost := c; s_numq := n; s_batch := s_batch s |}.

  Definition has_key (k : string) (d : list (string * sval E)) : bool :=
    match sget k d with Some _ => true | None => false end.

  (** state_io.py 165-179 [add_state] with [__update_info] 346-351: the entry is appended before the
      totals are updated, so it stays when the update raises. *)
  Definition sio_add (s : sio C E) (e : entry E) : sio C E * res unit :=
    match e with
    | EDict d => if has_key "select_index"%string d && has_key "queried_info"%string d && has_key "performance"%string d
                 then (with_states s (s_states s ++ [e]), Err AttrErr)
                 else (s, Err AssertErr)
    | EState _ =>
        let s1 := with_states s (s_states s ++ [e]) in
        match cost_of e with
        | Err x => (s1, Err x)
        | Ok q =>
            let s2 := with_totals s1 (s_cost s1 + q)%Q (s_numq s1) in
            match sel_of e with
            | Err x => (s2, Err x)
            | Ok l => (with_totals s2 (s_cost s2) (s_numq s2 + List.length l)%nat, Ok tt)
            end
        end
    end.

  (** state_io.py 188-202 [get_state]. *)
  Definition sio_get (s : sio C E) (i : Z) : res (entry E) :=
    if (0 <=? i) && (i <? Z.of_nat (List.length (s_states s))) then py_nth (s_states s) (Z.to_nat i)
    else Err AssertErr.

  (** state_io.py 290-293: one recorded query replayed on (labelled, unlabelled). *)
  Definition replay_one (w : C * C) (e : entry E) : res (C * C) :=
    l <- sel_of e ;;
    match diff (snd w) l with
    | (_, Err x) => Err x
    | (u', Ok _) => match upd (fst w) l with
                    | (_, Err x) => Err x
                    | (l', Ok _) => Ok (l', u')
                    end
    end.

  Definition sio_replay (s : sio C E) (k : nat) : res (C * C) :=
    foldM replay_one (s_L s, s_U s) (firstn k (s_states s)).

  (** state_io.py 261-294 [get_workspace]. *)
  Definition sio_workspace (s : sio C E) (it : option Z) : res (list E * list E * C * C) :=
    let k := match it with None => Z.of_nat (List.length (s_states s)) | Some k => k end in
    if (0 <=? k) && (k <=? Z.of_nat (List.length (s_states s)))
    then w <- sio_replay s (Z.to_nat k) ;; Ok (s_train s, s_test s, fst w, snd w)
    else Err AssertErr.

  (** state_io.py 224-259 [recover_workspace]: the same, then the later states are dropped (258). *)
  Definition sio_recover (s : sio C E) (it : option Z) : sio C E * res (list E * list E * C * C) :=
    let k := match it with None => Z.of_nat (List.length (s_states s)) | Some k => k end in
    match sio_workspace s it with
    | Err x => (s, Err x)
    | Ok w => (with_states s (firstn (Z.to_nat k) (s_states s)), Ok w)
    end.

  (** state_io.py 334-344 [refresh_info]. *)
  Definition sio_refresh (s : sio C E) : sio C E * res (nat * Q) :=
    match mapM (fun e => l <- sel_of e ;; q <- cost_of e ;; Ok (List.length l, q)) (s_states s) with
    | Err x => (s, Err x)
    | Ok l => let n := fold_left Nat.add (map fst l) 0%nat in
              let c := qsum (map snd l) in
              (with_totals s c n, Ok (n, c))
    end.

  Fixpoint nat_mem (x : nat) (l : list nat) : bool :=
    match l with [] => false | y :: l' => Nat.eqb x y || nat_mem x l' end.
  Fixpoint nat_distinct (l : list nat) : list nat :=
    match l with [] => [] | x :: l' => if nat_mem x l' then nat_distinct l' else x :: nat_distinct l' end.

  (** state_io.py 204-218 [check_batch_size]: [range(len - 1)] leaves out the last state. *)
  Definition sio_check_batch (s : sio C E) : sio C E * res bool :=
    match mapM batch_of (firstn (List.length (s_states s) - 1) (s_states s)) with
    | Err x => (s, Err x)
    | Ok bs => match nat_distinct bs with
               | [b] => ({| s_train := s_train s; s_test := s_test s; s_L := s_L s; s_U := s_U s;
                            s_states := s_states s; s_cost := s_cost s; s_numq := s_numq s; s_batch := b |}, Ok true)
               | _ => (s, Ok false)
               end
    end.

  (** state_io.py 220-222 [pop]: [list.pop(None)] raises TypeError, so the documented default fails. *)
  Definition sio_pop (s : sio C E) (i : option Z) : sio C E * res (entry E) :=
    match i with
    | None => (s, Err TypeErr)
    | Some i =>
        match py_index (List.length (s_states s)) i with
        | None => (s, Err IndexErr)
        | Some p => match nth_error (s_states s) p with
                    | None => (s, Err IndexErr)
                    | Some e => (with_states s (firstn p (s_states s) ++ skipn (S p) (s_states s)), Ok e)
                    end
        end
    end.

  (** The calls that change a [StateIO]. *)
  Inductive sop := IAdd (e : entry E) | IRecover (it : option Z) | IRefresh | ICheck | IPop (i : option Z).
  Definition sio_step (s : sio C E) (o : sop) : sio C E :=
    match o with
    | IAdd e => fst (sio_add s e)
    | IRecover it => fst (sio_recover s it)
    | IRefresh => fst (sio_refresh s)
    | ICheck => fst (sio_check_batch s)
    | IPop i => fst (sio_pop s i)
    end.
  Definition sio_run (s : sio C E) (h : list sop) : sio C E := fold_left sio_step h s.

  (** *** Saving: state_io.py 129-146 [load], 157-163 [save] *)

  (** The file: missing, opened for writing but not completed, or a complete pickle. *)
  Inductive file := FAbsent | FPartial | FFull (s : sio C E).

  (** Reading a missing file raises; so does a truncated pickle (it lacks the STOP opcode). *)
  Definition sio_load (f : file) : res (sio C E) :=
    match f with FAbsent => Err FileErr | FPartial => Err GenericErr | FFull s => Ok s end.

  (** A run of the program: calls, completed saves, and crashes. [open(.., 'wb')] truncates the old
      file before [pickle.dump] writes, so a crash inside [save] leaves a truncated file. After a crash
      the program restarts from [load]; if that fails, from a new [StateIO]. *)
  Inductive event := VCall (o : sop) | VSave | VCrash | VCrashInSave.
  Definition restart (fresh : sio C E) (f : file) : sio C E :=
    match sio_load f with Ok s => s | Err _ => fresh end.
  Definition ev_step (fresh : sio C E) (st : sio C E * file) (v : event) : sio C E * file :=
    let (s, f) := st in
    match v with
    | VCall o => (sio_step s o, f)
    | VSave => (s, FFull s)
    | VCrash => (restart fresh f, f)
    | VCrashInSave => (restart fresh FPartial, FPartial)
    end.
  Definition ev_run (fresh : sio C E) (st : sio C E * file) (h : list event) : sio C E * file :=
    fold_left (ev_step fresh) h st.

  (** *** StoppingCriteria *)
  Inductive crit_name := NNone | NNum | NCost | NPercent | NTime | NBad.

  (** stopping_criteria.py 54-78: the attributes. [sc_value] is an int for num_of_queries. *)
  Record scrit := {
    sc_name : crit_name; sc_value : option Q; sc_start : Q;
    sc_iter : nat; sc_acost : Q; sc_unlabel : nat; sc_percent : Q }.

  (** [int(value)] truncates towards zero. *)
  Definition int_of (q : Q) : Q := inject_Z (Z.quot (Qnum q) (Zpos (Qden q))).

  (** stopping_criteria.py 54-78 [__init__]; [now] is the clock. *)
  Definition sc_init (n : crit_name) (v : option Q) (now : Q) : res scrit :=
    let mk v := {| sc_name := n; sc_value := v; sc_start := now;
                   sc_iter := 0; sc_acost := 0%Q; sc_unlabel := 100; sc_percent := 0%Q |} in
    match n with
    | NBad => Err ValueErr
    | NNum => match v with None => Err TypeErr | Some q => Ok (mk (Some (int_of q))) end
    | _ => Ok (mk v)
    end.

  (** [a >= b] where [b] may be None. *)
  Definition ge_value (a : Q) (b : option Q) : res bool :=
    match b with None => Err TypeErr | Some b => Ok (Qle_bool b a) end.

  (** stopping_criteria.py 80-109 [is_stop]. *)
  Definition sc_is_stop (c : scrit) (now : Q) : res bool :=
    if Nat.eqb (sc_unlabel c) 0 then Ok true
    else match sc_name c with
         | NNum => ge_value (inject_Z (Z.of_nat (sc_iter c))) (sc_value c)
         | NCost => ge_value (sc_acost c) (sc_value c)
         | NPercent => match sc_value c with
                       | None => Err TypeErr
                       | Some v => if negb (Qle_bool v 1) || negb (Qle_bool 0 v) then Err ValueErr
                                   else Ok (Qle_bool v (sc_percent c))
                       end
         | NTime => ge_value (now - sc_start c)%Q (sc_value c)
         | _ => Ok false
         end.

  (** stopping_criteria.py 111-128 [update_information]. *)
  Definition sc_update (c : scrit) (s : sio C E) : scrit * res unit :=
    match sio_workspace s None, sio_workspace s (Some 0) with
    | Err x, _ => (c, Err x)
    | _, Err x => (c, Err x)
    | Ok (_, _, _, u), Ok (_, _, _, u0) =>
        let mk it co pe := {| sc_name := sc_name c; sc_value := sc_value c; sc_start := sc_start c;
                              sc_iter := it; sc_acost := co; sc_unlabel := clen u; sc_percent := pe |} in
        match sc_name c with
        | NNum => (mk (List.length (s_states s)) (sc_acost c) (sc_percent c), Ok tt)
        | NCost => (mk (sc_iter c) (s_cost s) (sc_percent c), Ok tt)
        | NPercent =>
            match clen u0 with
            | O => (mk (sc_iter c) (sc_acost c) (sc_percent c), Err ZeroDivErr)
            | S n => (mk (sc_iter c) (sc_acost c)
                         ((Z.of_nat (clen u0) - Z.of_nat (clen u)) # Pos.of_succ_nat n), Ok tt)
            end
        | _ => (mk (sc_iter c) (sc_acost c) (sc_percent c), Ok tt)
        end
    end.

  (** stopping_criteria.py 130-139 [reset]. *)
  Definition sc_reset (c : scrit) (now : Q) : scrit :=
    {| sc_name := sc_name c; sc_value := sc_value c; sc_start := now;
       sc_iter := 0; sc_acost := 0%Q; sc_unlabel := 100; sc_percent := 0%Q |}.

  (** *** Main loop: al_experiment.py 361-422 [__al_main_loop]

      The strategy and the performance are arbitrary functions of the selections made so far and of
      the current sets; [clock n] is the time at the [n]-th test. *)
  Inductive outcome := Done (L U : C) (s : sio C E) (c : scrit) | Raised (e : exn) | OutOfFuel.

  Fixpoint al_loop (fuel : nat) (strat : list (list E) -> C -> C -> list E)
           (perf : list (list E) -> C -> sval E) (clock : nat -> Q) (hist : list (list E))
           (L U : C) (s : sio C E) (c : scrit) : outcome :=
    match sc_is_stop c (clock (List.length hist)) with
    | Err e => Raised e
    | Ok true => Done L U s c
    | Ok false =>
        match fuel with
        | O => OutOfFuel
        | S fuel' =>
            let sel := strat hist L U in
            match upd L sel with                                                 (* 405 *)
            | (_, Err e) => Raised e
            | (L', Ok _) =>
                match diff U sel with                                            (* 406 *)
                | (_, Err e) => Raised e
                | (U', Ok _) =>
                    match sio_add s (EState (state_init (inl sel) (perf hist L') None None)) with  (* 414-415 *)
                    | (_, Err e) => Raised e
                    | (s', Ok _) =>
                        match sc_update c s' with                                (* 418 *)
                        | (_, Err e) => Raised e
                        | (c', Ok _) => al_loop fuel' strat perf clock (hist ++ [sel]) L' U' s' c'
                        end
                    end
                end
            end
        end
    end.
End StateIO.
Arguments file C E : clear implicits.
Arguments sop E : clear implicits.
Arguments event E : clear implicits.

(** state_io.py 113: the file name when [saving_path] is a directory. *)
Definition sio_file_name (round : nat) : string :=
  ("AL_round_" ++ NilZero.string_of_uint (Nat.to_uint round) ++ ".pkl")%string.

(** state_io.py 94-104: collections made from plain lists of tuples; the label sizes of the labelled and
    of the unlabelled collection are inferred separately. *)
Definition sio_from_tuples (train test : list mlidx) (l u : list mlidx) : res (sio mlic mlidx) :=
  _ <- check_index l ;; _ <- check_index u ;;
  cu <- ml_init (MList u) None ;; cl <- ml_init (MList l) None ;;
  Ok (sio_new train test (fst cl) (fst cu)).
