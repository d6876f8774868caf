(** One step of the proximal gradient search of AFASMC's matrix completion (query_strategy/query_features.py 185-237): the point and
    the direction of the step, the search for the step size, and the objective recorded.  The loops around the steps are in
    FeatureModel ([inner], [outer]), whose argument [step] this is.

    Simplifications: numbers are exact rationals; an array is a function from the row and the column, read below the shape [n], [m];
    the singular value thresholding [_svd_threshold] (43-70), the square root and the linear model of each round (199-202) are
    arguments, any functions and numbers; a division by zero gives zero; the labels are a vector of numbers. *)
From Verif Require Import Base.
From Coq Require Import QArith.
Local Open Scope Q_scope.

Definition mat := nat -> nat -> Q.
(** [sum] of the values at 0 .. n-1 *)
Fixpoint sumn (n : nat) (f : nat -> Q) : Q := match n with O => 0 | S k => sumn k f + f k end.

Section Prox.
  Variables (n m : nat) (mask X : mat) (y : nat -> Q) (lambda1 lambda2 : Q).
  Variable svd : mat -> Q -> mat * Q.
  Variable sqrt : Q -> Q.

  (** 184-185 *)
  Definition X_obr : mat := fun i j => mask i j * X i j.
  (** [A.dot(w) + b - y] *)
  Definition residual (w : nat -> Q) (b : Q) (A : mat) (i : nat) : Q := sumn m (fun j => A i j * w j) + b - y i.
  Definition total_of (A : mat) : Q := sumn n (fun i => sumn m (fun j => A i j)).

  (** 188-194; [t0], [t1] are [ineqLtemp0], [ineqLtemp1]. *)
  Record pstate := { z0 : mat; z1 : mat; t0 : mat; t1 : mat; th0 : Q; th1 : Q; bigL : Q }.
  Definition start : pstate :=
    {| z0 := fun _ _ => 0; z1 := fun _ _ => 0; t0 := fun _ _ => 0; t1 := fun _ _ => 0; th0 := 1; th1 := 1; bigL := 2 |}.

  Definition ahead (s : pstate) : Q := th1 s * (1 / th0 s - 1).
  (** 207 *)
  Definition point (s : pstate) : mat := fun i j => z1 s i j + ahead s * (z1 s i j - z0 s i j).
  (** 208-209 *)
  Definition off (s : pstate) : mat := fun i j => (ahead s + 1) * t1 s i j - ahead s * t0 s i j - X_obr i j.
  (** 210 *)
  Definition direction (s : pstate) (w : nat -> Q) (b : Q) : mat :=
    fun i j => off s i j + 2 * lambda2 * (residual w b (point s) i * w j).
  (** 211-213, 227-228 *)
  Definition try_step (s : pstate) (w : nat -> Q) (b L : Q) : mat * Q :=
    svd (fun i j => point s i j - 1 / L * direction s w b i j) (lambda1 / L).
  (** 218, 231 *)
  Definition ineqL (w : nat -> Q) (b : Q) (Z : mat) : Q :=
    total_of (fun i j => (Z i j * mask i j - X_obr i j) * (Z i j * mask i j - X_obr i j)) / 2
    + sumn n (fun i => residual w b Z i * residual w b Z i) * lambda2.
  (** 220-223, 232 *)
  Definition ineqR (s : pstate) (w : nat -> Q) (b : Q) (Z : mat) (L : Q) : Q :=
    total_of (fun i j => off s i j * off s i j) / 2 + sumn n (fun i => residual w b (point s) i * residual w b (point s) i) * lambda2
    - total_of (fun i j => direction s w b i j * point s i j)
    + total_of (fun i j => direction s w b i j * Z i j)
    + L / 2 * total_of (fun i j => (Z i j - point s i j) * (Z i j - point s i j)).

  (** 225-232 *)
  Fixpoint line_search (fuel : nat) (s : pstate) (w : nat -> Q) (b L : Q) : option (Q * mat * Q) :=
    let '(Z, tr) := try_step s w b L in
    if Qle_bool (ineqL w b Z) (ineqR s w b Z L) then Some (L, Z, tr)
    else match fuel with O => None | S k => line_search k s w b (L * 2) end.

  (** 206-237; the number is [convergence[k]]. *)
  Definition prox_step (fuel : nat) (w : nat -> Q) (b : Q) (s : pstate) : option (pstate * Q) :=
    match line_search fuel s w b (bigL s) with
    | None => None
    | Some (L, Z, tr) =>
        Some ({| z0 := z1 s; z1 := Z; t0 := t1 s; t1 := fun i j => Z i j * mask i j;              (* 212, 215-217 *)
                 th0 := th1 s; th1 := (sqrt (th1 s * th1 s * th1 s * th1 s + 4 * (th1 s * th1 s)) - th1 s * th1 s) / 2;
                 bigL := L |},                                                                   (* 234-235 *)
              ineqL w b Z + lambda1 * tr)                                                        (* 237 *)
    end.

  (** 206-237 again and again, without the tests of 239-249 that may leave the loop earlier: one linear model for each step. *)
  Fixpoint prox_run (fuel : nat) (models : list ((nat -> Q) * Q)) (s : pstate) : option pstate :=
    match models with
    | nil => Some s
    | (w, b) :: r => match prox_step fuel w b s with Some (s', _) => prox_run fuel r s' | None => None end
    end.

  (** The states between the steps; each step may have its own linear model. *)
  Inductive searched : pstate -> Prop :=
  | SStart : searched start
  | SStep fuel w b s s' c : searched s -> prox_step fuel w b s = Some (s', c) -> searched s'.
End Prox.
