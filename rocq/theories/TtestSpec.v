(** Specification of the paired t-test, independent of the model's arithmetic. *)
From Coq Require Import QArith.
From Verif Require Import Base TtestModel.
Local Open Scope Q_scope.

(** Well-formed arrays. *)
Definition proper (a : arr) : Prop :=
  match a with Mat k rows => Forall (fun r => length r = k) rows | _ => True end.

(** Sum of [f p q] over two samples of one length. *)
Fixpoint sum2 (f : Q -> Q -> Q) (a b : list Q) : Q :=
  match a, b with
  | x :: a', y :: b' => f x y + sum2 f a' b'
  | _, _ => 0
  end.

(** The textbook test statistic, squared and without divisions: with [D] the sum of the differences
    and [E] the sum of their squares over [n] pairs,
    [t2 = (n - 1) * D^2 / (n * E - D^2)]. *)
Definition total (a b : list Q) : Q := sum2 (fun x y => x - y) a b.
Definition squares (a b : list Q) : Q := sum2 (fun x y => (x - y) * (x - y)) a b.
Definition spread (a b : list Q) : Q :=
  inject_Z (Z.of_nat (length a)) * squares a b - total a b * total a b.
Definition t_squared (a b : list Q) (t2 : Q) : Prop :=
  t2 * spread a b == (inject_Z (Z.of_nat (length a)) - 1) * (total a b * total a b).

(** All pairs differ by the same amount. *)
Definition same_difference (a b : list Q) (c : Q) : Prop :=
  forall i x y, nth_error a i = Some x -> nth_error b i = Some y -> x - y == c.

(** What is used of Student's distribution: the p-value does not depend on how a rational is written,
    falls with the statistic, is between 0 and 1 and is 1 at the statistic 0. *)
Record student_ok (tail : student) : Prop := {
  tail_ext : forall n x x' al al', x == x' -> al == al' -> tail n x al = tail n x' al';
  tail_stat : forall n x x' al, x <= x' -> tail n x al = true -> tail n x' al = true;
  tail_level : forall n x al al', al <= al' -> tail n x al = true -> tail n x al' = true;
  tail_one : forall n x al, 1 <= al -> tail n x al = true;
  tail_neg : forall n x al, al < 0 -> tail n x al = false;
  tail_zero : forall n al, tail n 0 al = true -> 1 <= al }.

(** With two degrees of freedom the p-value is [1 - sqrt (t2 / (2 + t2))]. *)
Definition two_df (tail : student) : Prop :=
  forall x al, 0 <= x -> 0 <= al -> al < 1 ->
  (tail 2%nat x al = true <-> (1 - al) * (1 - al) * (2 + x) <= x).
