(** Model of QueryInstanceBMDR (query_strategy/query_labels.py 1076-1285) and QueryInstanceSPAL (1346-1582).

    Simplifications: numbers are exact rationals; the quadratic programming solver of cvxpy, [np.linalg.inv], [np.linalg.pinv],
    [np.sqrt], the norms of the stopping test of ADMM and [np.argsort] are arguments; labels and indexes are integers, and a
    negative index, which numpy counts from the end, is refused like one that is too large; the values of the built-in kernels
    are an argument. *)
From Verif Require Import Base IndexModel MiscModel QueryModel.
From Coq Require Import QArith Qabs.
Local Open Scope Z_scope.

(** ** Constructor: 1076-1124, 1346-1397 *)

(** [unique_labels(y)]: the different labels in increasing order. *)
Fixpoint ins (x : Z) (l : list Z) : list Z :=
  match l with
  | [] => [x]
  | y :: l' => if x <? y then x :: l else if x =? y then l else y :: ins x l'
  end.
Definition unique_labels (y : list Z) : list Z := fold_right ins [] y.

(** 1087-1095, 1357-1365 *)
Definition signed_labels (y : list Z) : res (list Z) :=
  match unique_labels y with
  | [a; b] =>
      if (a =? -1) && (b =? 1) then Ok y                                    (* 1092 *)
      else Ok (map (fun v => if v =? a then 1 else if v =? b then -1 else v) y)
  | _ => Err ValueErr                                                       (* 1089-1091 *)
  end.

(** What a kernel function returns: an array or something else. *)
Inductive kresult := KArray (rows : list (list Q)) (cols : nat) | KOther.
Inductive kernel := Rbf | Poly | Linear | Callable (out : kresult) | OtherKernel.
(** 1101-1124, 1374-1397; [builtin] are the matrices of the built-in kernels. *)
Definition kernel_matrix (builtin : kernel -> list (list Q)) (n : nat) (k : kernel) : res (list (list Q)) :=
  out <- match k with
         | OtherKernel => Err NotImplErr                                    (* 1115-1116 *)
         | Callable out => Ok out
         | _ => Ok (KArray (builtin k) n)
         end ;;
  match out with
  | KOther => Err TypeErr                                                   (* 1118-1119 *)
  | KArray rows cols =>
      if Nat.eqb (length rows) n && Nat.eqb cols n then Ok rows else Err ValueErr    (* 1120-1122 *)
  end.
(** The labels and the kernel matrix that the object keeps. *)
Definition new_batch (builtin : kernel -> list (list Q)) (n : nat) (y : list Z) (k : kernel) : res (list Z * list (list Q)) :=
  y' <- signed_labels y ;; K <- kernel_matrix builtin n k ;; Ok (y', K).

(** ** Vectors *)
Definition map2 {A B C} (f : A -> B -> C) (a : list A) (b : list B) : list C := map (fun p => f (fst p) (snd p)) (combine a b).
Definition kat (K : list (list Q)) (i j : Z) : Q := nth (Z.to_nat j) (nth (Z.to_nat i) K []) 0%Q.
(** [v.dot(K[np.ix_(rows, cols)])] *)
Definition vdot (K : list (list Q)) (rows cols : list Z) (v : list Q) : list Q :=
  map (fun j => qsum (map2 (fun x i => x * kat K i j)%Q v rows)) cols.
(** [K[np.ix_(rows, cols)].dot(v)] *)
Definition mdot (K : list (list Q)) (rows cols : list Z) (v : list Q) : list Q :=
  map (fun i => qsum (map2 (fun x j => kat K i j * x)%Q v cols)) rows.
Definition inside (n : nat) (l : list Z) : bool := forallb (fun i => (0 <=? i) && (i <? Z.of_nat n)) l.
Definition ones (n : nat) : list Q := repeat 1%Q n.

(** ** The quadratic program: 1188-1207, 1459-1474 *)

(** Minimise [0.5 x'Px + q'x] with [0 <= x <= 1] and, unless left out, [weights . x = size]. *)
Record qp := { qp_P : list (list Q); qp_q : list Q; qp_sum : option (list Q * Z) }.
Definition relax (p : qp) : qp := {| qp_P := qp_P p; qp_q := qp_q p; qp_sum := None |}.

(** What [prob.solve(..)] does: raise DCPError; leave [x.value]; leave no value.  The flag says whether the result is a
    Python float that is finite (1226, 1486). *)
Inductive answer := Refused | Value (finite : bool) (x : list Q) | NoValue.
(** The first argument is [gp]. *)
Definition solver := bool -> qp -> answer.

(** [pred_of_unlab * pred_of_unlab + 2 * np.abs(pred_of_unlab)] *)
Definition risk (f : Q) : Q := (f * f + 2 * Qabs f)%Q.
(** 1190-1196, 1461-1466: [weights] is [es_weight]; for BMDR it is all ones. *)
Definition program (scale : Q) (K : list (list Q)) (L U : list Z) (batch : Z) (weights tau : list Q) : qp :=
  let l := of_nat (length L) in
  let u := of_nat (length U) in
  let n := (l + u)%Q in
  let b := inject_Z batch in
  let a := map2 (fun w f => w * risk f)%Q weights (vdot K L U tau) in
  {| qp_P := map (fun i => map (fun j => (1 # 2) * scale * kat K i j)%Q U) U;
     qp_q := map2 Qplus
               (map2 (fun x y => scale * ((u - b) / n * x - (l + b) / n * y))%Q
                  (vdot K L U (ones (length L))) (vdot K U U (ones (length U)))) a;
     qp_sum := Some (weights, batch) |}.

(** Solve, and once more with [gp=True] if refused: 1233-1236, 1477-1480, 1496-1499. *)
Definition attempt (s : solver) (p : qp) : answer := match s false p with Refused => s true p | a => a end.
(** 1202-1222 *)
Definition bmdr_first (s : solver) (p : qp) : answer := match s false p with Refused => attempt s (relax p) | a => a end.
(** 1226-1240, 1483-1504.  Without a value or with a refusal an exception is raised. *)
Definition value_of (s : solver) (p : qp) (first : answer) : res (list Q) :=
  match first with
  | Value true x => Ok x
  | Refused => Err GenericErr
  | _ => match attempt s (relax p) with Value _ x => Ok x | _ => Err GenericErr end
  end.

(** ** ADMM *)

(** The numerical routines: [np.linalg.inv(A).dot(r)] is [inv_dot], [np.linalg.pinv(A).dot(r)] is [pinv_dot]; [converged] is
    the stopping test (1277-1281, 1574-1579). *)
Record numeric := {
  inv_dot : list (list Q) -> list Q -> list Q;
  pinv_dot : list (list Q) -> list Q -> list Q;
  converged : list Q -> list Q -> list Q -> list Q -> bool;         (* tau.dot(KLQ), z, zold, delta *)
  sqrt : Q -> Q }.

Definition sgn1 (v : Q) : Q := if Qle_bool 0 v then 1%Q else (-1)%Q.        (* 1264-1265 *)
Definition cut (x : Q) : Q := if Qle_bool 0 x then x else 0%Q.              (* 1267, 1563 *)
(** 1261-1268: one coordinate of the z update of BMDR *)
Definition bmdr_z (rho t delta : Q) : Q :=
  let v := ((rho * t - delta) / (rho + 2))%Q in
  let ita := (2 / (rho + 2))%Q in
  (sgn1 v * cut (Qabs v - ita))%Q.
Definition sign (v : Q) : Q := if Qeq_bool v 0 then 0%Q else sgn1 v.        (* [np.sign] *)
(** 1549-1550, 1559-1565: one coordinate of the z update of SPAL; [m] is the mixed weight. *)
Definition spal_z (num : numeric) (rho m t delta : Q) : Q :=
  let kdenom := sqrt num (m + rho / 2)%Q in
  let ci := (m / kdenom)%Q in
  let vi := ((rho * t - delta) / (2 * kdenom))%Q in
  let ksi := (sign vi * cut (Qabs vi - ci))%Q in
  (ksi / kdenom)%Q.

Definition labels (y : list Z) (L : list Z) : list Q := map (fun i => inject_Z (nth (Z.to_nat i) y 0)) L.   (* [self.y[label_index]] *)
(** 1181, 1447: [inv(KLL + gamma * eye).dot(y[label_index])] *)
Definition start (num : numeric) (K : list (list Q)) (gamma : Q) (y L : list Z) : list Q :=
  inv_dot num
    (map (fun a => map (fun b => kat K (nth a L 0%Z) (nth b L 0%Z) + gamma * (if Nat.eqb a b then 1 else 0))%Q (seq 0 (length L)))
       (seq 0 (length L)))
    (labels y L).
(** [Q.dot(Q.T)] for [Q = K[np.ix_(L, cols)]], at [i] and [j] *)
Definition outer (K : list (list Q)) (cols : list Z) (i j : Z) : Q := qsum (map (fun c => kat K i c * kat K j c)%Q cols).
(** 1256 *)
Definition bmdr_A (K : list (list Q)) (gamma rho : Q) (L cols : list Z) : list (list Q) :=
  map (fun i => map (fun j =>
    qsum (map (fun k => kat K i k * kat K k j)%Q L) + rho / 2 * outer K cols i j + gamma * kat K i j)%Q L) L.
(** 1257 *)
Definition bmdr_r (K : list (list Q)) (rho : Q) (y L cols : list Z) (z delta : list Q) : list Q :=
  map2 Qplus (map2 Qplus (vdot K L L (labels y L)) (map (Qmult (1 # 2)) (mdot K L cols delta)))
    (map (Qmult (rho / 2)) (mdot K L cols z)).
(** 1537 *)
Definition spal_A (K : list (list Q)) (gamma rho : Q) (L cols : list Z) : list (list Q) :=
  map (fun i => map (fun j =>
    2 * qsum (map (fun k => kat K i k * kat K k j)%Q L) + rho * outer K cols i j + 2 * gamma * kat K i j)%Q L) L.
(** 1539-1540, 1554 *)
Definition spal_r (K : list (list Q)) (rho : Q) (y L cols : list Z) (z delta : list Q) : list Q :=
  map2 Qplus (map2 Qplus (map (Qmult rho) (mdot K L cols z)) (mdot K L cols delta))
    (map (Qmult 2) (mdot K L L (labels y L))).

(** 1255-1282, 1553-1582: the inner loop; [A] and [r] give the linear system and [upd] is the z update of a coordinate. *)
Fixpoint admm (num : numeric) (K : list (list Q)) (L : list Z) (rho : Q) (cols : list Z) (ws : list Q)
  (A : list (list Q)) (r : list Q -> list Q -> list Q) (upd : Q -> Q -> Q -> Q) (iters : nat) (tau z delta : list Q) : list Q :=
  match iters with
  | O => tau
  | S k =>
      let tau' := pinv_dot num A (r z delta) in
      let t := vdot K L cols tau' in
      let z' := map2 (fun wt d => upd (fst wt) (snd wt) d) (combine ws t) delta in
      let delta' := map2 Qplus delta (map2 (fun x y => rho * (x - y))%Q z' t) in
      if converged num t z' z delta' then tau'
      else admm num K L rho cols ws A r upd k tau' z' delta'
  end.
Definition max_iter : nat := Z.to_nat 1000.                                 (* 1177, 1443 *)

(** ** The rounds: 1186-1250, 1456-1531 *)

(** What a round did: the model it started from, the scores and the choice. *)
Record round (St : Type) := { r_state : St; r_scores : list Q; r_chosen : list Z }.
Arguments r_state {St} _. Arguments r_scores {St} _. Arguments r_chosen {St} _.

(** [set(a) == set(b)] *)
Definition same_set (a b : list Z) : bool :=
  forallb (fun x => existsb (Z.eqb x) b) a && forallb (fun x => existsb (Z.eqb x) a) b.

(** [turn] gives the scores of a round and the state after it.  The fuel does not run out. *)
Fixpoint rounds {St} (np : numpy) (turn : St -> res (list Q * (list Z -> St))) (U : list Z) (batch : Z)
  (fuel : nat) (iter : Z) (last : list Z) (s : St) : list (round St) * res (list Z) :=
  match fuel with
  | O => ([], Err GenericErr)
  | S k =>
      let iter' := iter + 1 in
      match turn s with
      | Err e => ([], Err e)
      | Ok (scores, next) =>
          match (ps <- nlargestarg (argsort np scores) batch ;; take U ps) with
          | Err e => ([], Err e)
          | Ok sel =>
              let r := {| r_state := s; r_scores := scores; r_chosen := sel |} in
              if same_set last sel || (15 <? iter') then ([r], Ok sel)      (* 1247-1248, 1516-1517 *)
              else let '(rs, out) := rounds np turn U batch k iter' sel (next sel) in (r :: rs, out)
          end
      end
  end.

(** 1184-1250 *)
Definition bmdr_turn (num : numeric) (s : solver) (K : list (list Q)) (y : list Z) (beta gamma rho : Q) (L U : list Z) (batch : Z)
  (tau : list Q) : res (list Q * (list Z -> list Q)) :=
  let p := program beta K L U batch (ones (length U)) tau in
  dr <- value_of s p (bmdr_first s p) ;;
  Ok (dr, fun sel =>
            admm num K L rho sel (ones (length sel)) (bmdr_A K gamma rho L sel) (bmdr_r K rho y L sel) (fun _ t d => bmdr_z rho t d) max_iter
              tau (vdot K L sel tau) (repeat 0%Q (length sel))).

(** 1140-1285 *)
Definition bmdr_select (np : numpy) (num : numeric) (s : solver) (K : list (list Q)) (y : list Z) (beta gamma rho : Q) (L U : list Z) (batch : Z)
  : list (round (list Q)) * res (list Z) :=
  if negb (0 <? batch) then ([], Err AssertErr)                             (* 1164 *)
  else if Z.of_nat (length U) <=? batch then ([], Ok U)                     (* 1169-1170 *)
  else if negb (inside (length K) L && inside (length K) U) then ([], Err IndexErr)   (* 1172-1174 *)
  else rounds np (bmdr_turn num s K y beta gamma rho L U batch) U batch 17 0 [] (start num K gamma y L).

(** 1507-1511: the weight of an easy instance falls with its loss; [lam] is [self._lambda], positive. *)
Definition easiness (lam dr f : Q) : Q :=
  let worst := (dr * risk f)%Q in
  if Qlt_le_dec worst lam then (1 - worst / lam)%Q else 0%Q.

(** 1454-1531; the state is the model and the weights of the round before. *)
Definition spal_turn (np : numpy) (num : numeric) (s : solver) (K : list (list Q)) (y : list Z) (mu gamma rho lam : Q) (L U : list Z) (batch : Z)
  (st : list Q * list Q) : res (list Q * (list Z -> list Q * list Q)) :=
  let theta := fst st in
  let p := program mu K L U batch (snd st) theta in
  dr <- value_of s p (attempt s p) ;;
  let es := map2 (easiness lam) dr (vdot K L U theta) in                    (* 1507-1511 *)
  let mix := map2 Qmult dr es in                                            (* 1514, 1525 *)
  let mix0 := map cut mix in                                                (* 1526 *)
  let over := filter (fun p => negb (Qle_bool (nth p mix0 0%Q) (1 # 1000))) (seq 0 (length mix0)) in      (* 1527 *)
  valid <- match over with
           | [] => nlargestarg (argsort np mix0) 1                          (* 1528-1529 *)
           | _ => Ok over
           end ;;
  Ok (mix, fun _ =>
            let cols := map (fun p => nth p U 0) valid in                   (* 1530 *)
            let ws := map (fun p => nth p mix0 0%Q) valid in
            (admm num K L rho cols ws (spal_A K gamma rho L cols) (spal_r K rho y L cols) (spal_z num rho) max_iter theta (vdot K L cols theta) (repeat 0%Q (length cols)), es)).

(** 1406-1582 *)
Definition spal_select (np : numpy) (num : numeric) (s : solver) (K : list (list Q)) (y : list Z) (mu gamma rho lam : Q) (L U : list Z) (batch : Z)
  : list (round (list Q * list Q)) * res (list Z) :=
  if negb (0 <? batch) then ([], Err AssertErr)                             (* 1430 *)
  else if Z.of_nat (length U) <=? batch then ([], Ok U)                     (* 1435-1436 *)
  else if negb (inside (length K) L && inside (length K) U) then ([], Err IndexErr)
  else rounds np (spal_turn np num s K y mu gamma rho lam L U batch) U batch 17 0 [] (start num K gamma y L, ones (length U)).

(** ** A SPAL object over its life: what [__init__] keeps of lambda (1370-1372) and what [select] leaves of it. *)
Record spal := { lambda_init : Q; lambda_pace : Q; lambda : Q }.
Definition new_spal (init pace : Q) : spal := {| lambda_init := init; lambda_pace := pace; lambda := init |}.
(** [select] reads [self._lambda] and writes no attribute. *)
Definition spal_call (np : numpy) (num : numeric) (s : solver) (K : list (list Q)) (y : list Z) (mu gamma rho : Q) (o : spal)
  (call : list Z * list Z * Z) : spal * res (list Z) :=
  let '(L, U, b) := call in
  (o, snd (spal_select np num s K y mu gamma rho (lambda o) L U b)).
Fixpoint spal_life (np : numpy) (num : numeric) (s : solver) (K : list (list Q)) (y : list Z) (mu gamma rho : Q) (o : spal)
  (calls : list (list Z * list Z * Z)) : list (res (list Z)) :=
  match calls with
  | [] => []
  | c :: cs => let '(o', r) := spal_call np num s K y mu gamma rho o c in r :: spal_life np num s K y mu gamma rho o' cs
  end.
