(** What a user expects of the files that objects are saved to. *)
From Verif Require Import Base StateModel SaveModel.
From Coq Require Import String.
Open Scope string_scope.
Open Scope list_scope.

Section Spec.
Variable B : Type.
Implicit Types (fs : fsys B) (o : pobj B) (w : prog B) (e : event B).

Definition is_dir fs (p : path) : Prop := fs p = Some FDir.
(** The file [p] holds exactly the object [o]. *)
Definition holds fs (p : path) o : Prop := fs p = Some (FFile (Some o)).
(** There is a file [p] and it cannot be read back. *)
Definition spoilt fs (p : path) : Prop := fs p = Some (FFile None).
(** A file can be written at [p]. *)
Definition writable fs (p : path) : Prop := ~ is_dir fs p /\ is_dir fs (removelast p).

(** A sound file system: the root is a directory, and so is whatever something else lies in. *)
Definition sound fs : Prop := is_dir fs [] /\ forall p n, fs (p ++ [n]) <> None -> is_dir fs p.

(** The file name used in a directory, by class. *)
Inductive default_name : place -> string -> Prop :=
| dn_box p d : default_name (InBox p d) "al_settings.pkl"
| dn_pool p : default_name (InPool p) "multi_thread_state.pkl"
| dn_oracle : default_name InOracle "oracle.pkl".

(** The path an object is to be saved to: what it was made with, or what the call says. *)
Inductive path_for : place -> parg -> path -> Prop :=
| pf_box p d a : path_for (InBox (Some p) d) a p
| pf_pool p a : path_for (InPool p) a p
| pf_oracle p : path_for InOracle (PStr p) p.

(** The file that saving an object writes. *)
Inductive goes_to fs : place -> parg -> path -> Prop :=
| gt_state d n a : goes_to fs (InState (Some d) n) a (d ++ [n])
| gt_dir pl a p n : path_for pl a p -> is_dir fs p -> default_name pl n -> goes_to fs pl a (p ++ [n])
| gt_file pl a p : path_for pl a p -> ~ is_dir fs p -> goes_to fs pl a p.

(** Saving was not asked for. *)
Inductive nowhere : place -> parg -> Prop :=
| nw_state n a : nowhere (InState None n) a
| nw_box d a : nowhere (InBox None d) a
| nw_oracle : nowhere InOracle PNone.

(** The event may change what the file [p] holds: an object is saved there, a new toolbox is saved there, or it is deleted. *)
Inductive touches w (p : path) : event B -> Prop :=
| t_save i a k o : nth_error (mem w) i = Some o -> goes_to (disk w) (at_place o) a p -> touches w p (Save i a k)
| t_box merge q b k : goes_to (disk w) (InBox (Some q) None) PNone p -> disk w p = None -> touches w p (MakeBox merge (PStr q) b k)
| t_remove : touches w p (Remove p).

(** No event of the history touches the file. *)
Fixpoint untouched w (p : path) (es : list (event B)) : Prop :=
  match es with
  | [] => True
  | e :: es' => ~ touches w p e /\ untouched (fst (step w e)) p es'
  end.

(** The object was made by one of the classes: only such can be saved. *)
Definition ours (pl : place) : Prop := forall f, pl <> InOther f.

(** The objects that use one directory [d]: StateIOs of the rounds made with [d], toolboxes and aceThreadings made with [d],
    oracles saved to [d], and the StateIOs an aceThreading made with [d] keeps for its rounds. *)
Inductive slot := SState (r : nat) | SBox | SPool | SOracle | SRound (r : nat).
Inductive user fs (d : path) : slot -> place -> parg -> Prop :=
| u_state r pl a : state_place fs (PStr d) r = Ok pl -> user fs d (SState r) pl a
| u_box d' a : user fs d SBox (InBox (Some d) d') a
| u_pool a : user fs d SPool (InPool d) a
| u_oracle : user fs d SOracle InOracle (PStr d)
| u_round r pl a : is_dir fs (d ++ ["AL_result"]) -> pool_state fs d r = Ok pl -> user fs d (SRound r) pl a.
End Spec.
Arguments is_dir {B}.
Arguments holds {B}.
Arguments spoilt {B}.
Arguments writable {B}.
Arguments sound {B}.
Arguments goes_to {B}.
Arguments touches {B}.
Arguments untouched {B}.
Arguments user {B}.
