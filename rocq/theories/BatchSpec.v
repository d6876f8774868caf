(** Specification vocabulary for BMDR and SPAL, independent of the model's computations. *)
From Verif Require Import Base MiscModel MiscSpec QueryModel QuerySpec BatchModel.
From Coq Require Import QArith Qabs.
Local Open Scope Z_scope.

(** The entry of a kernel matrix for two instances, and what it is to be symmetric ([mirrored]) or positive semidefinite on some instances. *)
Definition entry (K : list (list Q)) (i j : Z) : Q := nth (Z.to_nat j) (nth (Z.to_nat i) K []) 0%Q.
Definition mirrored (K : list (list Q)) : Prop := forall i j, (entry K i j == entry K j i)%Q.
(** Sum of [x * y * K] over all pairs of weighted instances. *)
Definition energy (K : list (list Q)) (m m' : list (Z * Q)) : Q :=
  total (map (fun a => total (map (fun b => snd a * snd b * entry K (fst a) (fst b)) m'))%Q m).
Definition semidefinite (K : list (list Q)) (L : list Z) : Prop := forall x, (0 <= energy K (combine L x) (combine L x))%Q.

(** [sum of x_i * K(i, j)] over the instances [i] with weights [x]: the value of a kernel model at [j]. *)
Definition predicts (K : list (list Q)) (m : list (Z * Q)) (j : Z) : Q := total (map (fun a => snd a * entry K (fst a) j)%Q m).

(** ** The objective of a quadratic program *)
Definition dot (a b : list Q) : Q := total (map (fun p => fst p * snd p)%Q (combine a b)).
Definition quadratic (P : list (list Q)) (x : list Q) : Q := dot x (map (fun row => dot row x) P).
Definition objective (p : qp) (x : list Q) : Q := ((1 # 2) * quadratic (qp_P p) x + dot (qp_q p) x)%Q.
Definition feasible (p : qp) (x : list Q) : Prop :=
  length x = length (qp_q p) /\ Forall (fun v => 0 <= v <= 1)%Q x /\
  match qp_sum p with Some (w, b) => (dot w x == inject_Z b)%Q | None => True end.

(** The distance between the mean of the labelled instances and the selected ones and the mean of the other unlabelled ones,
    squared, in the space of the kernel; [x] says how much of each unlabelled instance is selected. *)
Definition difference (L U : list Z) (b : Q) (x : list Q) : list (Z * Q) :=
  let l := of_nat (length L) in
  let u := of_nat (length U) in
  map (fun i => (i, 1 / (l + b))%Q) L ++ map (fun p => (fst p, snd p / (l + b) - (1 - snd p) / (u - b))%Q) (combine U x).
Definition discrepancy (K : list (list Q)) (L U : list Z) (b : Q) (x : list Q) : Q :=
  energy K (difference L U b x) (difference L U b x).
(** The worst loss of labelling an instance where the model says [f]: the larger of [(f-1)^2] and [(f+1)^2], less one. *)
Definition worst_risk (f x : Q) : Prop :=
  exists s, (s == 1 \/ s == -1)%Q /\ (x == (f - s) * (f - s) - 1)%Q /\ forall s', (s' == 1 \/ s' == -1)%Q -> ((f - s') * (f - s') - 1 <= x)%Q.

(** ** Which program was answered, and by what *)

(** [a] is the answer of the solver, asked again with [gp] if it refuses. *)
Definition replies (s : solver) (p : qp) (a : answer) : Prop :=
  (s false p = a /\ a <> Refused) \/ (s false p = Refused /\ s true p = a).
(** The program without the condition on the sum. *)
Definition loosened (p p' : qp) : Prop := qp_P p' = qp_P p /\ qp_q p' = qp_q p /\ qp_sum p' = None.
(** [w] is the answer to [p], or to [p] loosened if [p] has no finite answer. *)
Definition spal_answer (s : solver) (p : qp) (w : list Q) : Prop :=
  replies s p (Value true w) \/
  exists p' f, loosened p p' /\ (replies s p NoValue \/ exists x, replies s p (Value false x)) /\ replies s p' (Value f w).
(** For BMDR a refusal already leads to the loosened program. *)
Definition bmdr_answer (s : solver) (p : qp) (w : list Q) : Prop :=
  s false p = Value true w \/
  exists p' f, loosened p p' /\ (s false p = NoValue \/ (exists x, s false p = Value false x) \/ s false p = Refused) /\
               replies s p' (Value f w).

(** What is assumed of the solver: its values have one entry for each variable; it finds one for every program without a
    condition on the sum, and refuses none. *)
Definition sized (s : solver) : Prop := forall gp p f x, s gp p = Value f x -> length x = length (qp_q p).
Definition capable (s : solver) : Prop :=
  (forall p, qp_sum p = None -> exists f x, s false p = Value f x) /\ forall p, s false p <> Refused.

(** ** Rounds *)
Definition same_elements (a b : list Z) : Prop := forall x, In x a <-> In x b.
(** At most sixteen rounds were made; they ended with the first that chose what the round before chose, or with the
    sixteenth, and the last choice is returned. *)
Definition settles {St} (rs : list (round St)) (sel : list Z) : Prop :=
  (2 <= length rs <= 16)%nat /\
  (forall r, nth_error rs (length rs - 1) = Some r -> r_chosen r = sel) /\
  (forall i r r', nth_error rs i = Some r -> nth_error rs (S i) = Some r' ->
     (same_elements (r_chosen r) (r_chosen r') -> S (S i) = length rs) /\
     (S (S i) = length rs -> same_elements (r_chosen r) (r_chosen r') \/ length rs = 16%nat)).

(** How easy an instance is: one less its loss in units of [lam], and nothing if the loss reaches [lam]. *)
Definition easy (lam loss e : Q) : Prop := ((loss < lam /\ e == 1 - loss / lam) \/ (lam <= loss /\ e == 0))%Q.

(** ** ADMM *)

(** The loss of a model on the labelled instances, its norm, and the augmented Lagrangian for values [z] of the model on the
    instances [cols], with weights [ws] for their risk and multipliers [delta]. *)
Definition square (x : Q) : Q := (x * x)%Q.
Definition lagrangian (K : list (list Q)) (gamma rho : Q) (y L : list Z) (cols : list Z) (ws : list Q)
  (x : list Q) (z delta : list Q) : Q :=
  (total (map (fun i => square (inject_Z (nth (Z.to_nat i) y 0%Z) - predicts K (combine L x) i)) L)
   + gamma * energy K (combine L x) (combine L x)
   + total (map (fun p => fst p * (square (snd p) + 2 * Qabs (snd p))) (combine ws z))
   + total (map (fun p => fst p * (fst (snd p) - predicts K (combine L x) (snd (snd p)))) (combine delta (combine z cols)))
   + rho / 2 * total (map (fun p => square (fst p - predicts K (combine L x) (snd p))) (combine z cols)))%Q.

(** [x] is the best model for given values, and [z] the best values for a given model. *)
Definition best_model K gamma rho y L cols ws (x z delta : list Q) : Prop :=
  length x = length L /\
  forall w, length w = length L -> (lagrangian K gamma rho y L cols ws x z delta <= lagrangian K gamma rho y L cols ws w z delta)%Q.
Definition best_values K gamma rho y L cols ws (x z delta : list Q) : Prop :=
  length z = length cols /\
  forall w, length w = length cols -> (lagrangian K gamma rho y L cols ws x z delta <= lagrangian K gamma rho y L cols ws x w delta)%Q.
(** [t] lists what the model says of the instances. *)
Definition says (K : list (list Q)) (L : list Z) (x : list Q) (cols : list Z) (t : list Q) : Prop :=
  Forall2 (fun j v => (v == predicts K (combine L x) j)%Q) cols t.
(** The multipliers move along the distance between the values and what the model says. *)
Definition ascends (rho : Q) (t z delta delta' : list Q) : Prop :=
  length delta' = length t /\
  forall i, (i < length t)%nat -> (nth i delta' 0 == nth i delta 0 + rho * (nth i z 0 - nth i t 0))%Q.
(** At most [n] steps of the alternating method from values [z] and multipliers [delta] lead to the model [out]; it stops early
    only by the test [stop]. *)
Inductive alternates (stop : list Q -> list Q -> list Q -> list Q -> bool) K gamma rho y L cols ws
  : nat -> list Q -> list Q -> list Q -> Prop :=
| alt_stop n z delta x z' delta' t :
    best_model K gamma rho y L cols ws x z delta -> best_values K gamma rho y L cols ws x z' delta ->
    says K L x cols t -> ascends rho t z' delta delta' -> (n = 0%nat \/ stop t z' z delta' = true) ->
    alternates stop K gamma rho y L cols ws (S n) z delta x
| alt_more n z delta x z' delta' t out :
    best_model K gamma rho y L cols ws x z delta -> best_values K gamma rho y L cols ws x z' delta ->
    says K L x cols t -> ascends rho t z' delta delta' -> stop t z' z delta' = false ->
    alternates stop K gamma rho y L cols ws n z' delta' out ->
    alternates stop K gamma rho y L cols ws (S n) z delta out.

(** [x] solves the linear system. *)
Definition solves (A : list (list Q)) (r x : list Q) : Prop := length x = length r /\ Forall2 (fun row v => (dot row x == v)%Q) A r.

(** The positions used for training: those of weight above 0.001, or else one of the largest weight. *)
Definition trained_on (mix : list Q) (ps : list nat) : Prop :=
  (ps <> [] /\ StronglySorted lt ps /\ forall p, In p ps <-> (p < length mix)%nat /\ (1 # 1000 < nth p mix 0)%Q) \/
  ((forall p, (p < length mix)%nat -> (nth p mix 0 <= 1 # 1000)%Q) /\
   exists p, ps = [p] /\ (p < length mix)%nat /\ forall q, (q < length mix)%nat -> (nth q mix 0 <= nth p mix 0)%Q \/ (nth q mix 0 <= 0)%Q).

