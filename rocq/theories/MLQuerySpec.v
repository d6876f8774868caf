(** What a user expects of the multi-label query strategies, written without reference to the code. *)
From Verif Require Import Base IndexModel IndexSpec MLModel MLSpec MiscModel QueryModel MLQueryModel.
From Coq Require Import QArith Qabs.
Local Open Scope Z_scope.

(** [v] is the greatest of [l] when NaN entries are ignored; minus infinity if there is nothing else. *)
Definition greatest (l : list fl) (v : fl) : Prop :=
  v <> NaN /\ (In v l \/ v = Inf true) /\ forall x, In x l -> fl_lt v x = false.

(** The instances of a collection in the order in which they first occur. *)
Definition instances (c : mlic) : list Z := first_occ (map fst (pairs c)).

(** How many of the pairs of a collection belong to instance [i]. *)
Definition pairs_of (c : mlic) (i : Z) : nat := length (filter (fun p => fst p =? i) (pairs c)).

(** [i] is fully labelled: all [m] pairs are in the collection. *)
Definition full_instance (m : nat) (c : mlic) (i : Z) : Prop := forall j, 0 <= j < Z.of_nat m -> In (i, j) (pairs c).

(** Mean number of labels equal to 1 among the listed instances. *)
Definition mean_positive (y : list (list Q)) (full : list Z) : Q :=
  (fold_right Qplus 0 (map (fun i => inject_Z (Z.of_nat
      (length (filter (fun v => Qeq_bool v 1) (nth (Z.to_nat i) y []))))) full) / inject_Z (Z.of_nat (length full)))%Q.

(** Number of labels whose score is above the last (dummy) score. *)
Definition predicted_positive (scores : list fl) : nat :=
  length (filter (fun s => fl_lt (last scores NaN) s) (removelast scores)).

(** Inconsistency of an instance with [pos] predicted labels and [unl] unlabelled ones, for the mean [avg]. *)
Definition inconsistent (avg eps : Q) (pos unl : nat) : Q :=
  let u := inject_Z (Z.of_nat unl) in
  (Qabs (inject_Z (Z.of_nat pos) - avg) / (if Qle_bool eps u then u else eps))%Q.

(** Distance of the score of label [j] to the dummy score, both finite. *)
Definition dummy_distance (scores : list fl) (j : nat) (d : Q) : Prop :=
  exists s t, nth_error scores j = Some (Num s) /\ last scores NaN = Num t /\ (d == Qabs (s - t))%Q.

Definition all_finite (scores : list fl) : Prop := forall s, In s scores -> exists q, s = Num q.

(** The pairs of a collection lie in the label matrix. *)
Definition within (n : nat) (c : mlic) : Prop := forall p, In p (pairs c) -> 0 <= fst p < Z.of_nat n.

(** Which model is used: the given trained one, or the result of training on the labelled pairs. *)
Definition trained_on {B M} (fit : list B -> list (list Q) -> res M) (X : list B) (y : list (list Q)) (m : nat)
           (l : mlic) (model : lr_arg M) (t : M) : Prop :=
  match model with
  | LRTrained t' => t' = t
  | _ => exists xs ys ids, get_Xy false (mcont l) X y (Z.of_nat m) 0%Q = Ok (xs, ys, ids) /\ fit xs ys = Ok t
  end.

(** The raw score matrix has one row per instance and [num_sub] columns per label and for the dummy. *)
Definition score_shape (k m : nat) (s : nat * list (list fl)) : Prop :=
  fst s = (num_sub * S m)%nat /\ length (snd s) = k /\ forall r, In r (snd s) -> length r = fst s.

(** The rows of the feature matrix for a list of instances. *)
Definition rows_of {B} (X : list B) (ids : list Z) (xs : list B) : Prop :=
  length xs = length ids /\ forall r i, nth_error ids r = Some i -> nth_error xs r = nth_error X (Z.to_nat i).

(** ** Multi-label QUIRE *)

(** The kernel between two instance-label pairs: [K] for the same label, 0 otherwise. *)
Definition pair_kernel (K : list (list Q)) (p q : Z * Z) : Q :=
  if snd p =? snd q then nth (Z.to_nat (fst q)) (nth (Z.to_nat (fst p)) K []) 0%Q else 0%Q.

Definition sum_over (k : nat) (f : nat -> Q) : Q := fold_right Qplus 0%Q (map f (seq 0 k)).

(** The part of the objective that depends on the values [z] given to the unlabelled pairs [us]; [known] are the
    labelled pairs with their labels. *)
Definition energy (K : list (list Q)) (us : list (Z * Z)) (known : list (Q * (Z * Z))) (z : list Q) : Q :=
  let k := length us in
  let u a := nth a us (0, 0) in
  (sum_over k (fun a => sum_over k (fun b => nth a z 0 * nth b z 0 * pair_kernel K (u a) (u b))) +
   2 * sum_over k (fun a => nth a z 0 * fold_right Qplus 0 (map (fun e => fst e * pair_kernel K (snd e) (u a)) known)))%Q.

(** [v] is the least energy when position [i] has the value [s]. *)
Definition least_energy (E : list Q -> Q) (k i : nat) (s v : Q) : Prop :=
  (exists z, length z = k /\ (nth i z 0 == s)%Q /\ (E z == v)%Q) /\
  forall z, length z = k -> (nth i z 0 == s)%Q -> (v <= E z)%Q.

(** The evaluation of a pair: its label is chosen by the worst case, the others by the best. *)
Definition evaluation (E : list Q -> Q) (k i : nat) (v : Q) : Prop :=
  exists v1 v2, least_energy E k i 1 v1 /\ least_energy E k i (-1) v2 /\ (v == if Qle_bool v1 v2 then v2 else v1)%Q.

(** [A] is the inverse of the matrix of [f] of size [k]. *)
Definition inverse_of (A : list (list Q)) (k : nat) (f : nat -> nat -> Q) : Prop :=
  forall a b, (a < k)%nat -> (b < k)%nat ->
    (sum_over k (fun c => nth c (nth a A []) 0 * f c b) == if Nat.eqb a b then 1 else 0)%Q.

Definition onedim_of (n : nat) (p : Z * Z) : Z := fst p + snd p * Z.of_nat n.

(** ** MMC *)

(** Expected loss of predicting the labels [top] for the probabilities [probs]. *)
Definition expected_loss (probs : list Q) (top : list nat) : Q :=
  sum_over (length probs) (fun j => if existsb (Nat.eqb j) top then 1 - nth j probs 0 else nth j probs 0)%Q.

(** All elements are integers. *)
Definition int_elems (c : icol) : Prop := forall k, In k (IndexSpec.elems c) -> exists z, k = KInt z.

(** An index argument [p] stands for the collection [c] of pairs of an [n] by [m] label matrix. *)
Definition pool_of (n m : nat) (p : ml_pool) (c : mlic) : Prop :=
  check_ml_ind (Z.of_nat n) (Z.of_nat m) p = Ok c /\ ml_reachable (Z.of_nat m) c /\ within n c.

(** The labelled pairs with their labels. *)
Definition known_labels (y : list (list Q)) (l : mlic) : list (Q * (Z * Z)) :=
  map (fun p => (nth (Z.to_nat (snd p)) (nth (Z.to_nat (fst p)) y []) 0%Q, p)) (pairs l).

(** Position [k] holds a largest value. *)
Definition largest_at (l : list Q) (k : nat) : Prop :=
  (k < length l)%nat /\ forall j, (j < length l)%nat -> (nth j l 0 <= nth k l 0)%Q.

(** Position [k] holds a largest value of a list without NaN. *)
Definition best_at (l : list fl) (k : nat) : Prop :=
  (k < length l)%nat /\ (forall x, In x l -> x <> NaN) /\ forall x, In x l -> fl_lt (nth k l NaN) x = false.
