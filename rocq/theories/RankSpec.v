(** Vocabulary of C101: what one visit of the label ranking training has to do. *)
From Coq Require Import QArith.
From Verif Require Import Base RankModel.
Local Open Scope Q_scope.

(** The image of an instance, and the score of the sub-model in column [q]. *)
Definition image (V : list vec) (x : vec) : vec := map (fun r => dot r x) V.
Definition score (B V : list vec) (x : vec) (q : nat) : Q := dot (nth q B []) (image V x).

(** Sub-model [k] of class [c] (columns [5c] to [5c+4]) has the best score [s]. *)
Definition best (B V : list vec) (x : vec) (c : nat) (s : Q) (k : nat) : Prop :=
  (k < 5)%nat /\ s = score B V x (5 * c + k) /\ forall k', (k' < 5)%nat -> score B V x (5 * c + k') <= s.

(** Classes that must be ranked below class [c] for an instance: those marked -1, and the dummy (the last
    one) unless [c] is the dummy. *)
Definition below (t : list vec) (ins c c' : nat) : Prop :=
  ((c' < width t)%nat /\ entry_at t ins c' == -(1)) \/ (c' = (width t - 1)%nat /\ c <> (width t - 1)%nat).

(** Matching shapes: [n] columns of length [D] in B; [D] rows of length [d] in V. *)
Definition shaped (d D n : nat) (m : model) : Prop :=
  length (m_B m) = n /\ Forall (fun b => length b = D) (m_B m) /\
  length (m_V m) = D /\ Forall (fun r => length r = d) (m_V m).

(** The targets form a matrix with [w] columns. *)
Definition matrix (w : nat) (t : list vec) : Prop := t <> [] /\ Forall (fun r => length r = w) t.

Fixpoint harmonic (n : nat) : Q :=
  match n with O => 0 | S n' => harmonic n' + / inject_Z (Z.of_nat n) end.

(** A gradient step: the relevant column moves along the image, the other against it, V follows. *)
Definition moved (x : vec) (cy cn : nat) (rate : Q) (m m' : model) : Prop :=
  let u := image (m_V m) x in
  let at_ l q r := nth r (nth q l []) 0 in
  (forall q r, at_ (m_B m') q r ==
     (if Nat.eqb q cy then at_ (m_B m) q r + rate * nth r u 0
      else if Nat.eqb q cn then at_ (m_B m) q r - rate * nth r u 0 else at_ (m_B m) q r)) /\
  (forall r e, at_ (m_V m') r e ==
     at_ (m_V m) r e + rate * (at_ (m_B m) cy r - at_ (m_B m) cn r) * nth e x 0) /\
  m_rounds m' = S (m_rounds m).

(** What a visit to the pair (instance with features [x], class [c]) does to B and V. [irr] lists the
    classes to be ranked below; [draw j] is the class tried in trial [j]. *)
Definition quiet (x : vec) (c n : nat) (draw : nat -> nat) (m m' : model) : Prop :=
  m_B m' = m_B m /\ m_V m' = m_V m /\ m_rounds m' = m_rounds m /\
  exists fy k, best (m_B m) (m_V m) x c fy k /\
    forall j, (j < n)%nat -> forall k', (k' < 5)%nat -> score (m_B m) (m_V m) x (5 * draw j + k') <= fy - 1.

Definition trained (x : vec) (c n : nat) (draw : nat -> nat) (m m' : model) : Prop :=
  exists j fy k fn k',
    (j < n)%nat /\ best (m_B m) (m_V m) x c fy k /\ best (m_B m) (m_V m) x (draw j) fn k' /\
    fy - 1 < fn /\
    (forall i, (i < j)%nat -> forall k0, (k0 < 5)%nat -> score (m_B m) (m_V m) x (5 * draw i + k0) <= fy - 1) /\
    exists rate, rate == (1 # 20) * harmonic (n / (j + 1)) /\
      moved x (5 * c + k) (5 * draw j + k') rate m m'.

(** The part of the targets that training looks at. *)
Definition same_marks (t t' : list vec) : Prop :=
  Forall2 (Forall2 (fun a b => (1 <= a <-> 1 <= b) /\ (a == -(1) <-> b == -(1)) /\ (a == 2 <-> b == 2))) t t'.

(** A class that no instance marks as relevant or irrelevant, and that is not the dummy. *)
Definition unmarked (t : list vec) (c : nat) : Prop :=
  (c < width (add_dummy t) - 1)%nat /\
  forall i, ~ 1 <= entry_at (add_dummy t) i c /\ ~ entry_at (add_dummy t) i c == -(1).

(** The order is a permutation of the pairs, and the draws stay in their lists (numpy's contract). *)
Definition fair (t : list vec) (order : list nat) (pick : nat -> nat -> nat) : Prop :=
  Permutation order (seq 0 (length (train_pairs (add_dummy t)))) /\
  forall i ins c, nth_error (visited (add_dummy t) order) i = Some (ins, c) ->
    forall j, (j < length (irrelevant (add_dummy t) ins c))%nat ->
      (pick i j < length (irrelevant (add_dummy t) ins c))%nat.

(** The states after each visit of a call, with the number of the visit. *)
Fixpoint after (f : model -> nat * (nat * nat) -> model) (m : model) (l : list (nat * (nat * nat)))
  : list (nat * model) :=
  match l with
  | [] => []
  | e :: l' => (fst e, f m e) :: after f (f m e) l'
  end.

(** Those of which a copy is kept: the first of the call, and every fifth once there have been more than
    ten gradient steps. *)
Definition kept (l : list (nat * model)) : list model :=
  map snd (filter (fun p => Nat.eqb (fst p) 0 || (Nat.ltb 10 (m_rounds (snd p)) && Nat.eqb (fst p mod 5) 0)) l).

Definition summed (a : option (list vec)) (q r : nat) : Q :=
  match a with None => 0 | Some a => nth r (nth q a []) 0 end.

Fixpoint total (f : model -> Q) (l : list model) : Q :=
  match l with [] => 0 | m :: l' => f m + total f l' end.

(** [f 0 + ... + f (n-1)] *)
Fixpoint sum_below (n : nat) (f : nat -> Q) : Q :=
  match n with O => 0 | S n' => sum_below n' f + f n' end.

(** The sums have the shapes of B and V, and exist when a copy has been kept. *)
Definition sums_ok (d D n : nat) (m : model) : Prop :=
  match m_AB m with None => m_Anum m = 0%nat | Some a => (1 <= m_Anum m)%nat /\ length a = n /\ Forall (fun b => length b = D) a end /\
  match m_AV m with None => m_Anum m = 0%nat | Some a => (1 <= m_Anum m)%nat /\ length a = D /\ Forall (fun r => length r = d) a end.
