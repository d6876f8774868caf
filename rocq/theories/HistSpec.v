(** What the history a repository prints should say. *)
From Verif Require Import Base MLModel OracleModel RepoModel RepoSpec HistModel.
From Coq Require Import QArith String Ascii DecimalString.
Local Open Scope Z_scope.

(** [n] written in decimal *)
Definition decimal (n : nat) : string := NilZero.string_of_uint (Nat.to_uint n).
Definition lf : string := String (ascii_of_nat 10) "".

Section Table.
  Context {K A : Type}.
  Variable str_index : shown K -> string.
  Variable str_answer : shown A -> string.
  Variable str_paid : option (shown Q) -> string.
  Variable str_total : Q -> string.

  (** One thing is shown as itself, any other number as a list. *)
  Definition as_shown {T} (l : list T) (s : shown T) : Prop :=
    match s with Alone x => l = [x] | Several l' => l' = l /\ List.length l <> 1%nat end.
  Definition cost_shown (cs : option (list Q)) (s : option (shown Q)) : Prop :=
    match cs, s with Some l, Some s => as_shown l s | None, None => True | _, _ => False end.

  (** A table with one column per query, headed 0, 1, 2, ..., and a last one with the number of queries and the total cost. *)
  Definition lists_queries (table : list (string * string)) (queries : list (list A * option (list Q) * list K)) (total : Q) : Prop :=
    List.length table = S (List.length queries) /\
    (forall i labels costs indexes, nth_error queries i = Some (labels, costs, indexes) ->
       exists k a c, as_shown indexes k /\ as_shown labels a /\ cost_shown costs c /\
         nth_error table i = Some (decimal i,
           "query_index:" ++ str_index k ++ lf ++ "response:" ++ str_answer a ++ lf ++ "cost:" ++ str_paid c)%string) /\
    nth_error table (List.length queries) =
      Some ("in all", "number_of_queries:" ++ decimal (List.length queries) ++ lf ++ "cost:" ++ str_total total)%string.
End Table.

(** The costs of a query *)
Definition costs_of {K A} (q : list A * option (list Q) * list K) : list Q := match snd (fst q) with Some l => l | None => [] end.
(** Their sum, added up from the left *)
Definition sum (l : list Q) : Q := fold_left Qplus l 0%Q.

(** ElementRepository: the queries answered and the costs paid since the last time the repository was cleared. [had]: it was
    made with examples, without which it cannot be cleared; [inst]: it asks for examples, until it is cleared. *)
Section Element.
  Context {A : Type}.
  Fixpoint since_cleared {T} (of_call : bool -> eop A -> list T) (had inst : bool) (acc : list T) (h : list (ecall A)) : list T :=
    match h with
    | [] => acc
    | ECall o :: h' => since_cleared of_call had inst (acc ++ of_call inst o) h'
    | EClear :: h' => if had then since_cleared of_call had false [] h' else since_cleared of_call had inst acc h'
    end.
  (** No cost comes in except by [update_query]. *)
  Definition only_queries_cost (h : list (ecall A)) : Prop :=
    forall k l c x, In (ECall (EAdd k l c x)) h -> c = None.
End Element.

(** MatrixRepository: the queries that returned, since the last time it was cleared. *)
Fixpoint returned (acc : list (list mlabel * option (list Q) * list Z)) (h : list (mcall * res bool))
  : list (list mlabel * option (list Q) * list Z) :=
  match h with
  | [] => acc
  | (MClear, _) :: h' => returned [] h'
  | (MCall (MUpdate ls ks cs xs), Ok _) :: h' => returned (acc ++ [(ls, cs, ks)]) h'
  | _ :: h' => returned acc h'
  end.

(** The costs charged for entries: none for known indexes; a wrong label ends the call before its cost, a wrong example after. *)
Fixpoint charged (w : option nat) (inst : bool) (d : nat) (known : list Z) (new : list (mlabel * Z * option Q * option vec)) : list Q :=
  match new with
  | [] => []
  | (l, k, c, x) :: new' =>
      if in_dec Z.eq_dec k known then charged w inst d known new'
      else if right_label_dec w l then
        match c with Some q => [q] | None => [] end ++
        (if right_example inst d x then charged w inst d (known ++ [k]) new' else [])
      else []
  end.
Definition each {T} (n : nat) (l : option (list T)) : list (option T) :=
  match l with Some l => map Some l | None => repeat None n end.
Definition same_lengths {T} (n : nat) (l : option (list T)) : bool :=
  match l with Some l => Nat.eqb (List.length l) n | None => true end.
Definition call_charged (w : option nat) (inst : bool) (d : nat) (known : list Z) (o : mop) : list Q :=
  match o with
  | MAdd l k c x => charged w inst d known [(l, k, c, x)]
  | MUpdate ls ks cs xs =>
      if Nat.eqb (List.length ks) (List.length ls) && same_lengths (List.length ls) cs && same_lengths (List.length ls) xs
      then charged w inst d known (combine (combine (combine ls ks) (each (List.length ls) cs)) (each (List.length ls) xs))
      else []
  | MDiscard _ _ => []
  end.
