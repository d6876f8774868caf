(** Specification of the progress display, independent of how it is computed. *)
From Verif Require Import Base IndexModel MLModel StateModel ProgressModel.
From Coq Require Import String QArith.

(** [m] is the mean, [d] the mean squared deviation of the numbers [l]. *)
Fixpoint total (f : Q -> Q) (l : list Q) : Q :=
  match l with [] => 0 | x :: l' => f x + total f l' end.
Definition is_mean (l : list Q) (m : Q) : Prop := inject_Z (Z.of_nat (List.length l)) * m == total (fun x => x) l.
Definition is_msd (l : list Q) (m d : Q) : Prop :=
  inject_Z (Z.of_nat (List.length l)) * d == total (fun x => (x - m) * (x - m)) l.

(** The recorded performances are the numbers [l], in order. *)
Definition performances {E} (es : list (entry E)) (l : list Q) : Prop :=
  Forall2 (fun e q => exists s, e = EState s /\ sget "performance"%string (sdict s) = Some (SNum q)) es l.

Definition report_of (o : output) : report := match o with OTable r | OLine r => r end.
Definition is_table (o : output) : bool := match o with OTable _ => true | OLine _ => false end.

(** [n] is a multiple of the print interval. *)
Definition due (n : nat) (interval : Z) : Prop := exists k, Z.of_nat n = (k * interval)%Z.
