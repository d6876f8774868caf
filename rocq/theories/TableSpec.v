(** Words for C118. *)
From Verif Require Import Base StateModel ProgressModel ProgressSpec ThreadModel TableModel.
From Coq Require Import String QArith.

(** The performance in a recorded state. *)
Definition performance_is (s : state unit) (v : sval unit) : Prop := sget "performance"%string (sdict s) = Some v.
Definition numeric (s : state unit) : Prop := exists q, performance_is s (SNum q).
(** The performances of a record are the numbers [qs]. *)
Definition numbers (l : list (state unit)) (qs : list Q) : Prop := Forall2 (fun s q => performance_is s (SNum q)) l qs.

(** The same run without anything printed. *)
Fixpoint silent (es : list pevent) : list event :=
  match es with EBase e :: es => e :: silent es | _ :: es => silent es | [] => [] end.

(** A row of the table shows the record [l]. *)
Definition shows (l : list (state unit)) (row : nat * shown_perf) : Prop :=
  fst row = List.length l /\ (l = [] -> snd row = PVal 0 0) /\
  forall qs, l <> [] -> numbers l qs -> exists m d, snd row = PVal m d /\ is_mean qs m /\ is_msd qs m d.

(** The states that round [i] records in a run, in order. *)
Fixpoint told (i : nat) (es : list pevent) : list (state unit) :=
  match es with
  | ERecord j s :: es => if Nat.eqb j i then s :: told i es else told i es
  | _ :: es => told i es
  | [] => []
  end.
(** Only rounds that are running record anything. *)
Definition timely (c : cfg) (p : pmach) (es : list pevent) : Prop :=
  forall before after i s, es = before ++ ERecord i s :: after -> stat (base (prun c p before)) i = Running.
