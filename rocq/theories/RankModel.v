(** Model of the training of the label ranking model, [_LabelRankingModel_MatlabVer]
    (alipy/query_strategy/multi_label.py, lines 79-239), used by AUDI and AURO.

    Simplifications: exact rationals instead of floats; [norm_up] is infinite and [lmbda] zero, as set by
    the only caller (100-101), so the norm clipping (117-124, 215-221, 226-227, 230-233) never applies; data,
    targets, B and V have matching shapes, so no subscript fails. The random initial matrices, the random
    order of the pairs and the random picks are arguments. *)
From Coq Require Import QArith.
From Verif Require Import Base.
Local Open Scope Q_scope.

Notation vec := (list Q).

Fixpoint dot (a b : vec) : Q :=
  match a, b with x :: a', y :: b' => x * y + dot a' b' | _, _ => 0 end.

(** [a + c * b] *)
Fixpoint axpy (c : Q) (b a : vec) : vec :=
  match a, b with x :: a', y :: b' => (x + c * y) :: axpy c b' a' | _, _ => a end.

Fixpoint set_col (n : nat) (x : vec) (l : list vec) : list vec :=
  match l, n with
  | [], _ => []
  | _ :: l', O => x :: l'
  | y :: l', S n' => y :: set_col n' x l'
  end.

(** 99-104 *)
Definition num_sub : nat := 5.
Definition step_size0 : Q := 1 # 20.
Definition avg_begin : nat := 10.
Definition avg_size : nat := 5.

(** 106-108: [costs[k]] is the sum of [1/i] for [i] from 1 to [k+1]. *)
Fixpoint cumulate (s : Q) (i k : nat) : list Q :=
  match k with
  | O => []
  | S k' => let s' := s + / inject_Z (Z.of_nat i) in s' :: cumulate s' (S i) k'
  end.
Definition costs (n_class : nat) : list Q := cumulate 0 1 (n_class * 5).

(** 89-90, 142-143: a column of 2 (the dummy class) is appended if there is no 2 at all. *)
Definition add_dummy (targets : list vec) : list vec :=
  if existsb (existsb (Qeq_bool 2)) targets then targets else map (fun r => r ++ [2]) targets.

Definition entry_at (targets : list vec) (i c : nat) : Q := nth c (nth i targets []) 0.

(** 148 [np.shape(targets)[1]] *)
Definition width (targets : list vec) : nat := length (hd [] targets).

(** 148-150 [train_pairs]: the positions of the entries that are at least 1, row by row. *)
Definition train_pairs (targets : list vec) : list (nat * nat) :=
  flat_map (fun i => map (fun c => (i, c))
                         (filter (fun c => Qle_bool 1 (entry_at targets i c)) (range (width targets))))
           (range (length targets)).

(** 181-187: the irrelevant classes of an instance, for one of its relevant classes. *)
Definition irrelevant (targets : list vec) (i c : nat) : list nat :=
  let w := width targets in
  filter (fun k => Qeq_bool (entry_at targets i k) (-(1))) (range w) ++
  (if Nat.eqb c (w - 1) then [] else [(w - 1)%nat]).

(** 191-192, 203-204: [np.max] and [np.argmax] (the first maximum). *)
Fixpoint argmax_from (best : Q) (at_ : nat) (i : nat) (l : list Q) : Q * nat :=
  match l with
  | [] => (best, at_)
  | x :: l' => if Qle_bool x best then argmax_from best at_ (S i) l' else argmax_from x i (S i) l'
  end.
Definition argmax (l : list Q) : Q * nat :=
  match l with [] => (0, O) | x :: l' => argmax_from x O 1 l' end.

(** The state: the columns of B, the rows of V, the sums of the kept copies (None is the initial number
    0), their number and the number of steps. *)
Record model := {
  m_B : list vec; m_V : list vec; m_AB : option (list vec); m_AV : option (list vec);
  m_Anum : nat; m_rounds : nat }.

(** 189-191, 198-202 [By.T.dot(Vins)]: the scores of the sub-models of a class. *)
Definition scores (B : list vec) (u : vec) (c : nat) : list Q :=
  map (fun k => dot (nth (c * num_sub + k) B []) u) (range num_sub).

(** 194-207: at most [n] picks; the first whose score exceeds [fy - 1], with its number, class and
    sub-model. [pick j] is the position drawn in the [j]-th trial. *)
Fixpoint search (B : list vec) (u : vec) (fy : Q) (irr : list nat) (pick : nat -> nat) (j n : nat)
  : option (nat * nat * nat) :=
  match n with
  | O => None
  | S n' =>
      let c := nth (pick j) irr O in
      let (f, k) := argmax (scores B u c) in
      if Qle_bool f (fy - 1) then search B u fy irr pick (S j) n' else Some (j, c, k)
  end.

(** 209-229: one gradient step. [cy], [cn]: columns of the relevant and of the picked sub-model. *)
Definition gradient (m : model) (x u : vec) (cy cn : nat) (rate : Q) : model :=
  let By := nth cy (m_B m) [] in
  let Bn := nth cn (m_B m) [] in
  {| m_B := set_col cn (axpy (- rate) u Bn) (set_col cy (axpy rate u By) (m_B m));
     m_V := map (fun p => axpy (- rate * (fst (snd p) - snd (snd p))) x (fst p))
                (combine (m_V m) (combine Bn By));
     m_AB := m_AB m; m_AV := m_AV m; m_Anum := m_Anum m; m_rounds := S (m_rounds m) |}.

Definition add_mat (a : option (list vec)) (b : list vec) : option (list vec) :=
  match a with
  | None => Some b
  | Some a => Some (map (fun p => axpy 1 (snd p) (fst p)) (combine a b))
  end.

(** 234-237: a copy of B and V is added to the sums. *)
Definition snapshot (m : model) : model :=
  {| m_B := m_B m; m_V := m_V m; m_AB := add_mat (m_AB m) (m_B m); m_AV := add_mat (m_AV m) (m_V m);
     m_Anum := S (m_Anum m); m_rounds := m_rounds m |}.

(** 177-237: visit number [i], to the pair [p]. *)
Definition visit (data targets : list vec) (pick : nat -> nat -> nat) (m : model) (e : nat * (nat * nat)) : model :=
  let (i, p) := e in
  let (ins, c) := p in
  let x := nth ins data [] in
  let irr := irrelevant targets ins c in
  let u := map (fun r => dot r x) (m_V m) in
  let (fy, k) := argmax (scores (m_B m) u c) in
  let m1 :=
    match search (m_B m) u fy irr (pick i) O (length irr) with
    | None => m
    | Some (j, c', k') =>
        let loss := nth (length irr / (j + 1) - 1) (costs (width targets)) 0 in
        gradient m x u (c * num_sub + k) (c' * num_sub + k') (step_size0 * loss)
    end in
  if Nat.eqb i 0 || (Nat.ltb avg_begin (m_rounds m1) && Nat.eqb (i mod avg_size) 0)
  then snapshot m1 else m1.

(** 172, 178-180: the pairs in the order of the random permutation. *)
Definition visited (targets : list vec) (order : list nat) : list (nat * nat) :=
  map (fun q => nth q (train_pairs targets) (O, O)) order.

(** 137-239 [train_model]; [order] is the random permutation of the positions of the pairs. *)
Definition train_model (data targets : list vec) (order : list nat) (pick : nat -> nat -> nat) (m : model) : model :=
  let t := add_dummy targets in
  fold_left (visit data t pick) (combine (range (length order)) (visited t order)) m.

(** 83-135 [init_model_train] after the random initialisation, and later calls of [train_model]: the
    calls [h], each with its data, targets, order and picks. *)
Definition start (B V : list vec) : model :=
  {| m_B := B; m_V := V; m_AB := None; m_AV := None; m_Anum := 0; m_rounds := 0 |}.

Record call := { k_data : list vec; k_targets : list vec; k_order : list nat; k_pick : nat -> nat -> nat }.
Definition train_all (m : model) (h : list call) : model :=
  fold_left (fun m c => train_model (k_data c) (k_targets c) (k_order c) (k_pick c) m) h m.

(** 79-81 [get_BV]: the product of the averages, one row for each feature. Without a kept copy the division
    is 0/0 (nan): [None]. *)
Definition mean_mat (a : option (list vec)) (n : nat) : option (list vec) :=
  match a, n with
  | Some a, S _ => Some (map (map (fun v => v / inject_Z (Z.of_nat n))) a)
  | _, _ => None
  end.
Definition get_BV (d : nat) (m : model) : option (list vec) :=
  match mean_mat (m_AB m) (m_Anum m), mean_mat (m_AV m) (m_Anum m) with
  | Some B, Some V => Some (map (fun e => map (fun b => dot (map (fun r => nth e r 0) V) b) B) (range d))
  | _, _ => None
  end.
