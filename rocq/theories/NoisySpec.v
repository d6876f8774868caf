(** What is expected of the strategies for noisy oracles, written without reference to their tables and loops. *)
From Verif Require Import Base IndexModel OracleModel OracleSpec MiscSpec MetricSpec QueryModel QuerySpec NoisyModel.
From Coq Require Import String QArith.
Local Open Scope Z_scope.

(** Asked about instance [x] the oracle gives label [l] at cost [c]. *)
Definition answers (o : oracle) (x : Z) (l : key) (c : Q) : Prop := or_query o [KInt x] = Ok ([l], [c]).
Definition knows (o : oracle) (x : Z) : Prop := exists l c, answers o x l c.
Definition correct (y : list key) (o : oracle) (x : Z) : Prop :=
  exists l c, answers o x l c /\ nth_error y (Z.to_nat x) = Some l.

(** ** CEAL *)

(** [nn] are the positions of [k] initial instances, with their distances from [x]; no other one is nearer. *)
Definition nearest_k (dist : Z -> Z -> Q) (ini : list Z) (x : Z) (k : nat) (nn : list (nat * Q)) : Prop :=
  List.length nn = k /\ NoDup (map fst nn) /\
  (forall p d, In (p, d) nn -> exists z, nth_error ini p = Some z /\ d = dist x z) /\
  (forall p q d z, In (p, d) nn -> nth_error ini q = Some z -> ~ In q (map fst nn) -> (d <= dist x z)%Q).

(** How well the oracle labels the neighbours of an instance, as the code has it: the mean over the neighbours of the
    distance where the oracle is right and zero where it is wrong. *)
Definition skill (y : list key) (ini : list Z) (o : oracle) (nn : list (nat * Q)) (q : Q) : Prop :=
  exists ws, Forall2 (fun e w => exists z, nth_error ini (fst e) = Some z /\
                        ((correct y o z /\ w = snd e) \/ (~ correct y o z /\ w = 0%Q))) nn ws /\
             (q == total ws / nat_q (List.length nn))%Q.
(** What the oracle asks for the first labelled instance. *)
Definition price (o : oracle) (L : list Z) (c : Q) : Prop := exists x rest l, L = x :: rest /\ answers o x l c.
(** The larger of two numbers. *)
Definition larger (a b m : Q) : Prop := ((m == a) /\ (b <= a) \/ (m == b) /\ (a <= b))%Q.
(** The value of asking the oracle about an instance with neighbours [nn] and predicted probabilities [row]. *)
Definition merit (y : list key) (ini L : list Z) (o : oracle) (nn : list (nat * Q)) (row : list Q) (v : Q) : Prop :=
  exists q p c m, skill y ini o nn q /\ largest row p /\ price o L c /\
    larger c (1 # 10000) m /\ (v == q * (1 - p) / m)%Q.

(** Number of neighbours: the given one or ten, but less than the number of initial instances. *)
Definition neighbours_used (given : option Z) (ini : list Z) : Z :=
  Z.min (match given with Some n => n | None => 10 end) (Z.of_nat (List.length ini) - 1).
(** A call with everything it needs: at least two unlabelled instances with their predictions, [k] > 0 neighbours,
    the true labels of the initial instances, and oracles that know the initial and the labelled instances. *)
Definition ready (dist : Z -> Z -> Q) (y : list key) (ini : list Z) (knn : nat -> Z -> list (nat * Q)) (c : crowd)
  (L U : list Z) (cols : nat) (predict : list (list Q)) (k : Z) : Prop :=
  (2 <= List.length U)%nat /\ List.length predict = List.length U /\ (1 <= cols)%nat /\ Forall (fun r => List.length r = cols) predict /\
  (0 < k) /\ (forall x, In x U -> nearest_k dist ini x (Z.to_nat k) (knn (Z.to_nat k) x)) /\
  Forall (fun z => exists t, nth_error y (Z.to_nat z) = Some t) ini /\ L <> [] /\ iterset c <> [] /\
  Forall (fun name => exists o, member c name = Ok o /\ Forall (knows o) ini /\ Forall (knows o) L) (iterset c).
(** [v i j] is the value of asking oracle [i] about unlabelled instance [j]. *)
Definition value_table (y : list key) (ini : list Z) (neighbours : Z -> list (nat * Q)) (c : crowd) (L U : list Z)
  (predict : list (list Q)) (v : nat -> nat -> Q) : Prop :=
  forall i j name o x row, nth_error (iterset c) i = Some name -> member c name = Ok o -> nth_error U j = Some x ->
    nth_error predict j = Some row -> merit y ini L o (neighbours x) row (v i j).

(** Row [i], column [j] holds the best value; the earliest of equal ones, by rows. *)
Definition best_cell (n m : nat) (v : nat -> nat -> Q) (i j : nat) : Prop :=
  (i < n)%nat /\ (j < m)%nat /\
  forall i' j', (i' < n)%nat -> (j' < m)%nat ->
    (v i' j' < v i j)%Q \/ ((v i' j' == v i j)%Q /\ ((i < i')%nat \/ i = i' /\ (j <= j')%nat)).

(** ** IEthresh *)

(** What is used of the square root. *)
Definition root_like (f : Q -> Q) : Prop :=
  (forall a b, (a == b)%Q -> (f a == f b)%Q) /\ (forall a, (0 <= a)%Q -> (0 <= f a)%Q) /\
  (forall a, (0 < a)%Q -> (0 < f a)%Q) /\ (f 0 == 0)%Q.
(** There is no t distribution with 0 degrees of freedom; the critical values of the others are positive. *)
Definition t_like (t : nat -> option Q) : Prop :=
  t 0%nat = None /\ forall n, exists q, t (S n) = Some q /\ (0 < q)%Q.
Definition stats_ok (st : stats) : Prop := root_like (sqrt st) /\ t_like (t_crit st).

(** A successful call: the oracles at that time, the instance, the oracles returned. *)
Definition event := (crowd * Z * list key)%type.
Definition label_by (c : crowd) (x : Z) (name : key) (l : key) : Prop :=
  exists o q, member c name = Ok o /\ answers o x l q.

(** A series of successful calls of [select_by_given_instance]. *)
Inductive history (st : stats) (s0 : ie) : list event -> ie -> Prop :=
| h_none : history st s0 [] s0
| h_call log s c x s' names : history st s0 log s -> ie_given st c s x = (s', Ok names) ->
    history st s0 (log ++ [(c, x, names)]) s'.

(** The label last given by an oracle for an instance, and the last vote on the instance. *)
Definition said (log : list event) (name : key) (x : Z) (l : key) : Prop :=
  exists pre c names post, log = pre ++ (c, x, names) :: post /\ In name names /\ label_by c x name l /\
    forall c' names', In (c', x, names') post -> ~ In name names'.
Definition voted (log : list event) (x : Z) (v : key) : Prop :=
  exists pre c names post, log = pre ++ (c, x, names) :: post /\
    (exists ls n, Forall2 (label_by c x) names ls /\ winner ls n v) /\
    forall c' names', ~ In (c', x, names') post.
Definition was_asked (log : list event) (name : key) (x : Z) : Prop := exists c names, In (c, x, names) log /\ In name names.

(** The score of an oracle after [log] when [n] oracles exist: the share [p] of the instances it was asked about on which its last
    label is the last vote, and the half-width computed from the number of oracles. *)
Definition optimistic (st : stats) (n : nat) (log : list event) (name : key) (u : option Q) : Prop :=
  exists a k, how_many (fun x => was_asked log name x) a /\ (0 < a)%nat /\
    how_many (fun x => exists l, said log name x l /\ voted log x l) k /\
    match t_crit st (n - 1), u with
    | Some t, Some q => (q == ratio k a + t * sqrt st (ratio k a * (1 - ratio k a)) / sqrt st (nat_q n))%Q
    | None, None => True
    | _, _ => False
    end.
(** One at the beginning, then what it was after the last call in which the oracle took part. *)
Definition standing (st : stats) (log : list event) (name : key) (u : option Q) : Prop :=
  ((forall x, ~ was_asked log name x) /\ u = Some 1%Q) \/
  exists pre c x names post, log = pre ++ (c, x, names) :: post /\ In name names /\
    (forall z, ~ was_asked post name z) /\
    optimistic st (List.length (iterset c)) (pre ++ [(c, x, names)]) name u.
