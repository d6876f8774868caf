(** What is expected of AURO, written without reference to masks and sorted arrays. *)
From Verif Require Import Base IndexModel MLModel MLSpec MiscModel QueryModel MLQueryModel MLQuerySpec AuroModel.
From Coq Require Import QArith Qabs.
Local Open Scope Z_scope.

(** [np.argsort]: all positions, in ascending order when there is no NaN. *)
Definition sorts (argsort : list fl -> list nat) : Prop :=
  forall d, Permutation (argsort d) (range (length d)) /\
    ((forall x, In x d -> x <> NaN) ->
     forall pre a mid b post, argsort d = pre ++ a :: mid ++ b :: post -> fl_lt (nth b d NaN) (nth a d NaN) = false).

(** The instances with two or more unlabelled labels, in increasing order. *)
Definition with_two (n : nat) (u : mlic) (ids : list Z) : Prop :=
  StronglySorted Z.lt ids /\ forall i, In i ids <-> 0 <= i < Z.of_nat n /\ (2 <= pairs_of u i)%nat.

(** [i] has most unlabelled labels, and is the first such instance. *)
Definition least_queried (u : mlic) (i : Z) : Prop :=
  (forall i', (pairs_of u i' <= pairs_of u i)%nat) /\ forall i', i' < i -> (pairs_of u i' < pairs_of u i)%nat.

(** A model with contents [old] becomes [t] by training on the labelled pairs [l] with the labels in [labels]. *)
Definition trains {B M} (fit : option M -> list B -> list (list Q) -> res M) (X : list B) (labels : list (list Q)) (m : nat) (l : mlic)
  (old : option M) (t : M) : Prop :=
  exists xs ys ids, get_Xy false (mcont l) X labels (Z.of_nat m) 0%Q = Ok (xs, ys, ids) /\ fit old xs ys = Ok t.

(** The model used by a call: the one passed, trained if it was not; or else the strategy's current one, trained anew. *)
Definition model_used {B M} (fit : option M -> list B -> list (list Q) -> res M) (X : list B) (y : list (list Q)) (m : nat) (l : mlic)
  (st : auro M) (model : option nat) (y_mat : option (list (list Q))) (a : nat) (t : M) : Prop :=
  match model with
  | Some b => a = b /\ (nth_error (heap st) b = Some (Some t) \/ nth_error (heap st) b = Some None /\ trains fit X y m l None t)
  | None => a = own st /\ exists old, nth_error (heap st) a = Some old /\
              trains fit X (match y_mat with Some ym => ym | None => y end) m l old t
  end.
