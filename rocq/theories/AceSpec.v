(** Words for C115. *)
From Verif Require Import Base AceModel.

Section Spec.
Context {R T G : Type}.
(** Calls that neither make, end nor start an experiment. *)
Definition quiet (e : event R T G) : Prop := match e with SetTarget _ | Save => True | _ => False end.
(** The entry of the log: round, parameters, record. *)
Definition who (x : nat * option G * R) : nat := fst (fst x).
(** What is in the file of a round that wrote [o]. *)
Definition kept (o old : option R) : option R := match o with Some r => Some r | None => old end.
End Spec.
