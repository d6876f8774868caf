(** The life of a threaded experiment (utils/multi_thread.py) over several processes and experiments in one directory.
    C45, C46 and C98 model what happens inside one [start_all_threads]; here a round is a function of the target function,
    its number, the parameters and its record, which gives the record in memory at its end and the last record it saved, if
    any. Rounds only touch their own record and file, so the order in which they run does not matter; the process may be
    killed while a round is running, with [max_thread=1]. Result files are missing or complete. *)
From Verif Require Import Base.

Section Ace.
Variables R T G : Type.
(** [body t i g r]: round [i] of target function [t] with parameters [g], begun from the record [r]. *)
Variable body : T -> nat -> option G -> R -> R * option R.

(** The attributes. [a_fresh]: the records 101-105 makes from the data (it stands for 66-71); [a_target]: 121; [a_params]:
    [_global_parameters], which no constructor sets (None: the attribute is missing); [a_alive]: 119; [a_saver]: 87;
    [a_threads]: the number of thread objects in [__threads]; [a_todo]: [_recover_arr]. *)
Record ace := { a_fresh : list R; a_target : option T; a_params : option (option G); a_alive : list bool;
                a_saver : list R; a_threads : nat; a_todo : option (list bool) }.
(** multi_thread_state.pkl: missing, not loadable, the pickled attributes. *)
Inductive sfile := NoState | Broken | State (a : ace).
(** The process and the disk; [log]: the rounds started so far, with the parameters and the record they were given. *)
Record world := { obj : option ace; state : sfile; files : nat -> option R; log : list (nat * option G * R) }.

Definition rounds (a : ace) : nat := List.length (a_fresh a).

(** 64-123 [__init__] *)
Definition new (fresh : list R) (t : option T) : ace :=
  {| a_fresh := fresh; a_target := t; a_params := None; a_alive := repeat false (List.length fresh); a_saver := fresh;
     a_threads := 0; a_todo := None |}.
(** 129-145 [set_target_function] with a function that has the parameters (C45 for the others). *)
Definition set_target (a : ace) (t : T) : ace :=
  {| a_fresh := a_fresh a; a_target := Some t; a_params := a_params a; a_alive := a_alive a; a_saver := a_saver a;
     a_threads := a_threads a; a_todo := a_todo a |}.

(** 182-185 *)
Definition todo_of (a : ace) : list bool := match a_todo a with Some l => l | None => repeat true (rounds a) end.
(** 163, 167-179: the parameters and the threads are set before anything is started. *)
Definition begin (a : ace) (g : option G) : ace :=
  {| a_fresh := a_fresh a; a_target := a_target a; a_params := Some g; a_alive := a_alive a; a_saver := a_saver a;
     a_threads := a_threads a + rounds a; a_todo := Some (todo_of a) |}.
Definition with_saver (a : ace) (al : list bool) (sv : list R) : ace :=
  {| a_fresh := a_fresh a; a_target := a_target a; a_params := a_params a; a_alive := al; a_saver := sv;
     a_threads := a_threads a; a_todo := a_todo a |}.

Definition put_file (fs : nat -> option R) (i : nat) (o : option R) : nat -> option R :=
  fun j => if Nat.eqb j i then match o with Some r => Some r | None => fs i end else fs j.

(** 186-229: the rounds from [i] on that are to be run. *)
Fixpoint run_rounds (t : T) (g : option G) (i : nat) (todo : list bool) (sv : list R) (fs : nat -> option R)
  : list R * (nat -> option R) * list (nat * option G * R) :=
  match todo, sv with
  | b :: todo, r :: sv =>
      if b then
        let (r', o) := body t i g r in
        let '(sv, fs, l) := run_rounds t g (S i) todo sv (put_file fs i o) in
        (r' :: sv, fs, (i, g, r) :: l)
      else let '(sv, fs, l) := run_rounds t g (S i) todo sv fs in (r :: sv, fs, l)         (* 189-190 *)
  | _, sv => (sv, fs, [])
  end.

Definition set_obj (w : world) (a : option ace) : world :=
  {| obj := a; state := state w; files := files w; log := log w |}.

(** 143-165 [start_all_threads]. Threads of an earlier call cannot be started again (192: RuntimeError). *)
Definition start (w : world) (a : ace) (g : option G) : world * res unit :=
  match a_target a with
  | None => (w, Err GenericErr)                                                           (* 161-162 *)
  | Some t =>
      let a1 := begin a g in
      if existsb (fun b => b) (todo_of a) then
        match a_threads a with
        | O => let '(sv, fs, l) := run_rounds t g 0 (todo_of a) (a_saver a) (files w) in
               let a2 := with_saver a1 (repeat false (rounds a)) sv in
               ({| obj := Some a2; state := State a2; files := fs; log := log w ++ l |}, Ok tt)   (* 227-228 *)
        | S _ => (set_obj w (Some a1), Err GenericErr)
        end
      else (set_obj w (Some a1), Ok tt)
  end.

(** The same, killed while round [k] is running, when it has saved [part] (None: nothing yet). The state file was written
    after its start (196-198). Nothing happens if round [k] would not be started. *)
Definition killed (w : world) (a : ace) (g : option G) (k : nat) (part : option R) : world :=
  match a_target a, nth_error (todo_of a) k, nth_error (a_saver a) k, a_threads a with
  | Some t, Some true, Some r, O =>
      let '(sv, fs, l) := run_rounds t g 0 (firstn k (todo_of a)) (a_saver a) (files w) in
      let a2 := with_saver (begin a g) (map (Nat.eqb k) (seq 0 (rounds a))) sv in
      {| obj := None; state := State a2; files := put_file fs k part; log := log w ++ l ++ [(k, g, r)] |}
  | _, _, _, _ => set_obj w None
  end.

(** 287-298 [save]: the file is opened, then 263-278 [__getstate__] reads the attributes. *)
Definition save (w : world) (a : ace) : world * res unit :=
  match a_params a with
  | None => ({| obj := obj w; state := Broken; files := files w; log := log w |}, Err AttrErr)   (* 275 *)
  | Some _ => ({| obj := obj w; state := State a; files := files w; log := log w |}, Ok tt)
  end.

(** 326-346: is a round to be run, and with which record. *)
Definition recover_round (alive : bool) (f : option R) (fresh : R) : res (bool * R) :=
  match alive, f with
  | false, Some r => Ok (false, r)                                                        (* 331-335 *)
  | false, None => Ok (true, fresh)                                                       (* 336-338 *)
  | true, None => Err FileErr                                                             (* 340: getsize *)
  | true, Some r => Ok (true, r)                                                          (* 345-346 *)
  end.
Fixpoint recover_rounds (i : nat) (alive : list bool) (fresh : list R) (fs : nat -> option R) : res (list (bool * R)) :=
  match alive, fresh with
  | b :: alive, r :: fresh =>
      x <- recover_round b (fs i) r ;; l <- recover_rounds (S i) alive fresh fs ;; Ok (x :: l)
  | _, _ => Ok []
  end.
(** 300-348 [recover] *)
Definition recover (w : world) : world * res unit :=
  match state w with
  | NoState => (w, Err FileErr)                                                           (* 313 *)
  | Broken => (w, Err GenericErr)                                                         (* 314: EOFError *)
  | State s =>
      match recover_rounds 0 (a_alive s) (a_fresh s) (files w) with
      | Err e => (w, Err e)
      | Ok l => (set_obj w (Some {| a_fresh := a_fresh s; a_target := a_target s; a_params := None;
                                    a_alive := repeat false (rounds s); a_saver := map snd l; a_threads := 0;
                                    a_todo := Some (map fst l) |}), Ok tt)                 (* 319-322, 347 *)
      end
  end.

(** A program: [New]: an experiment in this directory (its data are given by its first records); [Exit]: the process ends;
    125-127 [Results] reads the records. *)
Inductive event :=
| New (fresh : list R) (t : option T) | SetTarget (t : T) | Start (g : option G) | Killed (g : option G) (k : nat) (part : option R)
| Save | Exit | Recover.
Definition step (w : world) (e : event) : world * res unit :=
  match e, obj w with
  | New f t, _ => (set_obj w (Some (new f t)), Ok tt)
  | Recover, _ => recover w
  | Exit, _ => (set_obj w None, Ok tt)
  | _, None => (w, Err NameErr)
  | SetTarget t, Some a => (set_obj w (Some (set_target a t)), Ok tt)
  | Start g, Some a => start w a g
  | Killed g k part, Some a => (killed w a g k part, Ok tt)
  | Save, Some a => save w a
  end.
Definition run (w : world) (es : list event) : world := fold_left (fun w e => fst (step w e)) es w.
(** 125-127 [get_results] *)
Definition results (w : world) : list R := match obj w with Some a => a_saver a | None => [] end.
End Ace.
Arguments New {R T G} fresh t.
Arguments SetTarget {R T G} t.
Arguments Start {R T G} g.
Arguments Killed {R T G} g k part.
Arguments Save {R T G}.
Arguments Exit {R T G}.
Arguments Recover {R T G}.
Arguments NoState {R T G}.
Arguments Broken {R T G}.
Arguments State {R T G} a.
Arguments obj {R T G} w.
Arguments state {R T G} w.
Arguments files {R T G} w.
Arguments log {R T G} w.
Arguments results {R T G} w.
Arguments a_fresh {R T G} a.
Arguments a_target {R T G} a.
Arguments a_params {R T G} a.
Arguments a_alive {R T G} a.
Arguments a_saver {R T G} a.
Arguments a_threads {R T G} a.
Arguments a_todo {R T G} a.
