(** Saving and loading whole objects: StateIO (experiment/state_io.py 110-145, 157-163), Oracle (oracle/oracle.py 257-301),
    ToolBox (toolbox.py 160-184, 324-357, 533-543, 604-623) and aceThreading (utils/multi_thread.py 74-80, 287-324), on one
    file system. Paths are absolute and normalised, as [os.path.abspath] returns them, and written as the list of their
    components; links, permissions and a full disk are left out. A pickled object is its saving place and the rest of its
    contents, of an arbitrary type [B]; a file holds one complete object or something that cannot be loaded. *)
From Verif Require Import Base StateModel.
From Coq Require Import String.
Open Scope string_scope.
Open Scope list_scope.

Definition path := list string.
(** [os.path.join(d, n)] and [os.path.split] (the root has the empty last component). *)
Definition join (d : path) (n : string) : path := d ++ [n].
Definition dirname (p : path) : path := removelast p.
Definition basename (p : path) : string := last p "".
Definition path_eqb (p q : path) : bool := if list_eq_dec string_dec p q then true else false.

(** A [saving_path] argument: None, a string, anything else. *)
Inductive parg := PNone | PStr (p : path) | PNotStr.

(** The attributes that say where an object is saved.
    [InState]: [StateIO._saving_dir] and [_saving_file_name] (state_io.py 113-123).
    [InBox]: [ToolBox._saving_path] and [_saving_dir] (toolbox.py 160-177).
    [InPool]: [aceThreading._saving_path] (multi_thread.py 74).
    [InOracle]: an oracle gets its path at every call. [InOther]: any other object; the flag says whether it has attributes. *)
Inductive place :=
| InState (d : option path) (n : string) | InBox (p : option path) (d : option path) | InPool (p : path) | InOracle
| InOther (attrs : bool).

Inductive class := CState | CBox | CPool | COracle.

Section Save.
Variable B : Type.

Record pobj := { at_place : place; body : B }.
Inductive fnode := FDir | FFile (o : option pobj).
Definition fsys := path -> option fnode.
Record prog := { disk : fsys; mem : list pobj }.

Definition isdir (fs : fsys) (p : path) : bool := match fs p with Some FDir => true | _ => false end.
Definition exists_ (fs : fsys) (p : path) : bool := match fs p with Some _ => true | None => false end.
Definition put_node (fs : fsys) (p : path) (n : option fnode) : fsys := fun q => if path_eqb q p then n else fs q.

(** [open(p, 'wb')]: the file is made or emptied. *)
Definition open_wb (fs : fsys) (p : path) : fsys * res unit :=
  if isdir fs p then (fs, Err FileErr)
  else if isdir fs (dirname p) then (put_node fs p (Some (FFile None)), Ok tt)
  else (fs, Err FileErr).

(** What becomes of [pickle.dump] after the file was opened: it completes, raises (an attribute cannot be pickled), or the
    program is killed. *)
Inductive dump := Completes | Raises (e : exn) | Killed.

(** [f = open(p, 'wb'); pickle.dump(self, f); f.close()] *)
Definition write (fs : fsys) (p : path) (o : pobj) (d : dump) : fsys * res unit :=
  match open_wb fs p with
  | (fs', Err e) => (fs', Err e)
  | (fs', Ok _) => match d with
                   | Completes => (put_node fs' p (Some (FFile (Some o))), Ok tt)
                   | Raises e => (fs', Err e)
                   | Killed => (fs', Ok tt)
                   end
  end.

(** [f = open(p, 'rb'); o = pickle.load(f)] *)
Definition read (fs : fsys) (p : path) : res pobj :=
  match fs p with
  | Some (FFile (Some o)) => Ok o
  | Some (FFile None) => Err GenericErr
  | Some FDir | None => Err FileErr
  end.

(** state_io.py 113-123 *)
Definition state_place (fs : fsys) (a : parg) (round : nat) : res place :=
  match a with
  | PNone => Ok (InState None (sio_file_name round))
  | PNotStr => Err TypeErr
  | PStr p => if isdir fs p then Ok (InState (Some p) (sio_file_name round))
              else Ok (InState (Some (dirname p)) (basename p))
  end.

(** The four [save] methods: state_io.py 157-163, toolbox.py 533-543, multi_thread.py 287-298, oracle.py 257-279. *)
Definition save (fs : fsys) (o : pobj) (a : parg) (d : dump) : fsys * res unit :=
  match at_place o with
  | InState None _ => (fs, Ok tt)
  | InState (Some dir) n => write fs (join dir n) o d
  | InBox None _ => (fs, Ok tt)
  | InBox (Some p) _ => write fs (if isdir fs p then join p "al_settings.pkl" else p) o d
  | InPool p => write fs (if isdir fs p then join p "multi_thread_state.pkl" else p) o d
  | InOracle => match a with
                | PNone => (fs, Ok tt)
                | PNotStr => (fs, Err TypeErr)
                | PStr p => write fs (if isdir fs p then join p "oracle.pkl" else p) o d
                end
  | InOther _ => (fs, Err AttrErr)
  end.

(** [os.makedirs]: [pre] exists already, [rest] is still to be visited. *)
Fixpoint makedirs (fs : fsys) (pre rest : path) : fsys * res unit :=
  match rest with
  | [] => (fs, Ok tt)
  | n :: rest' =>
      let p := join pre n in
      match fs p with
      | Some FDir => makedirs fs p rest'
      | Some (FFile _) => (fs, Err FileErr)
      | None => makedirs (put_node fs p (Some FDir)) p rest'
      end
  end.

(** multi_thread.py 74-80: the directory for the results of the rounds. *)
Definition pool_place (fs : fsys) (a : parg) : fsys * res place :=
  match a with
  | PStr p => let tp := join p "AL_result" in
              if exists_ fs tp then (fs, Ok (InPool p))
              else match makedirs fs [] tp with
                   | (fs', Ok _) => (fs', Ok (InPool p))
                   | (fs', Err e) => (fs', Err e)
                   end
  | _ => (fs, Err TypeErr)
  end.

(** multi_thread.py 101-105: the StateIO of a round. *)
Definition pool_state (fs : fsys) (p : path) (round : nat) : res place := state_place fs (PStr (join p "AL_result")) round.

(** toolbox.py 172-175, 180-183: the attributes of the loaded object replace those of the new toolbox. [merge] is what this
    makes of the rest of the contents when the loaded object is not a toolbox; a StateIO has a [_saving_dir], an aceThreading
    a [_saving_path]. *)
Definition taken (merge : B -> B -> B) (o : pobj) (p : option path) (d : option path) (b : B) : res pobj :=
  match at_place o with
  | InBox p' d' => Ok {| at_place := InBox p' d'; body := body o |}
  | InState d' _ => Ok {| at_place := InBox p d'; body := merge b (body o) |}
  | InPool p' => Ok {| at_place := InBox (Some p') d; body := merge b (body o) |}
  | InOracle | InOther true => Ok {| at_place := InBox p d; body := merge b (body o) |}
  | InOther false => Err AttrErr
  end.

(** toolbox.py 160-184, after the checks of the data. *)
Definition box_new (merge : B -> B -> B) (fs : fsys) (a : parg) (b : B) (k : dump) : fsys * res pobj :=
  let fresh p d := {| at_place := InBox p d; body := b |} in
  let saved p d := match save fs (fresh p d) PNone k with (fs', Ok _) => (fs', Ok (fresh p d)) | (fs', Err e) => (fs', Err e) end in
  match a with
  | PNone => (fs, Ok (fresh None None))
  | PNotStr => (fs, Err TypeErr)
  | PStr p =>
      let dir := if isdir fs p then p else dirname p in
      let file := if isdir fs p then join p "al_settings.pkl" else p in
      if exists_ fs file
      then (fs, o <- read fs file ;; taken merge o (Some p) (Some dir) b)
      else saved (Some p) (Some dir)
  end.

(** The four ways to load: state_io.py 129-145, toolbox.py 604-623, oracle.py 281-301 return whatever the file holds;
    multi_thread.py 301-324 [recover] checks the class and makes a new object, with its directory, from the saved one (the
    reading of the files of the rounds, 325-348, is part of ThreadModel). *)
Definition load (fs : fsys) (c : class) (a : parg) : fsys * res pobj :=
  match a with
  | PStr p => match read fs p with
              | Err e => (fs, Err e)
              | Ok o => match c with
                        | CPool => match at_place o with
                                   | InPool q => match pool_place fs (PStr q) with
                                                 | (fs', Ok _) => (fs', Ok o)
                                                 | (fs', Err e) => (fs', Err e)
                                                 end
                                   | _ => (fs, Err TypeErr)
                                   end
                        | _ => (fs, Ok o)
                        end
              end
  | _ => (fs, Err TypeErr)
  end.

(** What happens to the objects of the programs and to the files, in order. [merge] of a new toolbox is part of the event. *)
Inductive event :=
| MakeState (a : parg) (round : nat) (b : B)
| MakeStateOf (i : nat) (a : parg) (round : nat) (b : B)     (* get_stateio of toolbox i *)
| MakeBox (merge : B -> B -> B) (a : parg) (b : B) (k : dump)
| MakePool (a : parg) (b : B)
| MakePoolState (i : nat) (round : nat) (b : B)               (* the saver of a round of pool i *)
| MakeOracle (b : B)
| Edit (i : nat) (b : B)                                      (* object i changes in memory *)
| Save (i : nat) (a : parg) (k : dump)
| Load (c : class) (a : parg)
| Quit                                                        (* the program ends, another begins *)
| MkDir (p : path)
| Remove (p : path).                                          (* somebody deletes a file *)

Definition grown (w : prog) (fs : fsys) (r : res pobj) : prog * res unit :=
  match r with
  | Ok o => ({| disk := fs; mem := mem w ++ [o] |}, Ok tt)
  | Err e => ({| disk := fs; mem := mem w |}, Err e)
  end.
Definition is_killed (k : dump) : bool := match k with Killed => true | _ => false end.

Definition set_obj (l : list pobj) (i : nat) (o : pobj) : list pobj := firstn i l ++ [o] ++ skipn (S i) l.

Definition step (w : prog) (e : event) : prog * res unit :=
  let fs := disk w in
  match e with
  | MakeState a r b => grown w fs (pl <- state_place fs a r ;; Ok {| at_place := pl; body := b |})
  | MakeStateOf i a r b =>                                                                     (* toolbox.py 350-357 *)
      match nth_error (mem w) i with
      | Some {| at_place := InBox _ d |} =>
          let a' := match a with PNone => match d with Some q => PStr q | None => PNone end | _ => a end in
          grown w fs (pl <- state_place fs a' r ;; Ok {| at_place := pl; body := b |})
      | _ => (w, Err AttrErr)
      end
  | MakeBox merge a b k =>
      match box_new merge fs a b k with
      | (fs', r) => if is_killed k then ({| disk := fs'; mem := [] |}, Ok tt) else grown w fs' r
      end
  | MakePool a b => match pool_place fs a with
                    | (fs', Ok pl) => grown w fs' (Ok {| at_place := pl; body := b |})
                    | (fs', Err x) => grown w fs' (Err x)
                    end
  | MakePoolState i r b =>
      match nth_error (mem w) i with
      | Some {| at_place := InPool p |} => grown w fs (pl <- pool_state fs p r ;; Ok {| at_place := pl; body := b |})
      | _ => (w, Err AttrErr)
      end
  | MakeOracle b => grown w fs (Ok {| at_place := InOracle; body := b |})
  | Edit i b => match nth_error (mem w) i with
                | Some o => ({| disk := fs; mem := set_obj (mem w) i {| at_place := at_place o; body := b |} |}, Ok tt)
                | None => (w, Err IndexErr)
                end
  | Save i a k =>
      match nth_error (mem w) i with
      | Some o => match save fs o a k with
                  | (fs', r) => ({| disk := fs'; mem := if is_killed k then [] else mem w |}, r)
                  end
      | None => (w, Err IndexErr)
      end
  | Load c a => match load fs c a with (fs', r) => grown w fs' r end
  | Quit => ({| disk := fs; mem := [] |}, Ok tt)
  | MkDir p => if exists_ fs p then (w, Err FileErr)
               else if isdir fs (dirname p) then ({| disk := put_node fs p (Some FDir); mem := mem w |}, Ok tt)
               else (w, Err FileErr)
  | Remove p => match fs p with
                | Some (FFile _) => ({| disk := put_node fs p None; mem := mem w |}, Ok tt)
                | _ => (w, Err FileErr)
                end
  end.

(** A history; a caller goes on after an exception. *)
Definition runs (w : prog) (es : list event) : prog := fold_left (fun w e => fst (step w e)) es w.
End Save.
Arguments at_place {B}.
Arguments body {B}.
Arguments FDir {B}.
Arguments FFile {B}.
Arguments disk {B}.
Arguments mem {B}.
Arguments isdir {B}.
Arguments exists_ {B}.
Arguments put_node {B}.
Arguments open_wb {B}.
Arguments write {B}.
Arguments read {B}.
Arguments state_place {B}.
Arguments save {B}.
Arguments makedirs {B}.
Arguments pool_place {B}.
Arguments pool_state {B}.
Arguments taken {B}.
Arguments box_new {B}.
Arguments load {B}.
Arguments MakeState {B}.
Arguments MakeStateOf {B}.
Arguments MakeBox {B}.
Arguments MakePool {B}.
Arguments MakePoolState {B}.
Arguments MakeOracle {B}.
Arguments Edit {B}.
Arguments Save {B}.
Arguments Load {B}.
Arguments Quit {B}.
Arguments MkDir {B}.
Arguments Remove {B}.
Arguments grown {B}.
Arguments set_obj {B}.
Arguments step {B}.
Arguments runs {B}.
