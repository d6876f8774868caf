(** What a user expects of [State], [StateIO] and [StoppingCriteria]. *)
From Verif Require Import Base IndexModel StateModel.
From Coq Require Import String QArith.
Local Open Scope Z_scope.

(** The key a [State] call is about. *)
Definition touched {E} (o : stop E) : string := match o with SAdd k _ | SSet k _ | SDel k => k end.

(** The indexes queried in a recorded entry (none if the entry is not a proper [State]). *)
Definition queried {E} (e : entry E) : list E :=
  match e with
  | EState s => match sget "select_index" (sdict s) with Some (SIdx l) => l | _ => [] end
  | EDict _ => []
  end.

(** The cost recorded in an entry (0 if none). *)
Definition spent {E} (e : entry E) : Q :=
  match e with
  | EState s => match sget "cost" (sdict s) with
                | Some (SNum q) => q
                | Some (SSeq l) => fold_right Qplus 0%Q l
                | _ => 0%Q end
  | EDict _ => 0%Q
  end.

(** A proper record: a [State] with a list of selected indexes and a numeric cost, if any. *)
Definition proper {E} (e : entry E) : Prop :=
  match e with
  | EState s => (exists l, sget "select_index" (sdict s) = Some (SIdx l)) /\
                match sget "cost" (sdict s) with
                | None | Some (SNum _) | Some (SSeq _) => True
                | _ => False end
  | EDict _ => False
  end.

(** The condition of each stopping criterion, from the size [u] of the current unlabelled set, the size
    [u0] of the initial one, the number [n] of recorded queries, the accumulated cost [c] and the
    elapsed time [t]. *)
Definition should_stop (name : crit_name) (v : Q) (u u0 n : nat) (c t : Q) : Prop :=
  u = 0%nat \/
  match name with
  | NNum => (v <= inject_Z (Z.of_nat n))%Q
  | NCost => (v <= c)%Q
  | NPercent => (v * inject_Z (Z.of_nat u0) <= inject_Z (Z.of_nat u0 - Z.of_nat u))%Q
  | NTime => (v <= t)%Q
  | _ => False
  end.
