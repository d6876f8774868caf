(** What LAL should do, written without reference to the model's functions. *)
From Verif Require Import Base MiscModel MiscSpec QueryModel LalModel.
From Coq Require Import QArith.
Local Open Scope Z_scope.

Definition average (l : list Q) (a : Q) : Prop := (a * inject_Z (Z.of_nat (length l)) == total l)%Q.

(** The eight features of the state of learning for an unlabelled instance: average and deviation of the trees' predictions,
    share of positive labels, out-of-bag score, deviation of the feature importances, average deviation over the
    unlabelled instances, average depth, number of labelled instances. *)
Definition learning_state (x : data) (f : forest) (L U : list Z) (i : Z) (row : list Q) : Prop :=
  exists m s_avg p d, let preds i := map (fun t => t i) (trees f) in
    row = [m; std x (preds i); p; oob f; std x (map (fun w => w / inject_Z (n_dim x))%Q (importances f)); s_avg; d; inject_Z (Z.of_nat (length L))] /\
    average (preds i) m /\ average (map (fun j => std x (preds j)) U) s_avg /\ average (depths f) d /\
    (p * inject_Z (Z.of_nat (length L)) == inject_Z (Z.of_nat (length (filter (fun k => if Qlt_le_dec 0 (label x k) then true else false) L))))%Q.

(** The bytes delivered before the first failure. *)
Fixpoint delivered (ps : list piece) : list Z :=
  match ps with Chunk b :: ps' => b ++ delivered ps' | _ => [] end.
Definition whole (ps : list piece) : Prop := Forall (fun p => exists b, p = Chunk b) ps.
