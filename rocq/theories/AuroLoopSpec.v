(** Terms for the claims about the main loop with AURO. *)
From Verif Require Import Base IndexModel MLModel MLSpec MiscModel QueryModel MLQueryModel MLQuerySpec StateModel StateSpec AuroModel AuroSpec
  CostLoopModel CostLoopSpec AuroLoopModel.
From Coq Require Import String QArith.
Local Open Scope Z_scope.

(** A question: which of two labels of an instance is more relevant. *)
Record question := { who : nat; one : nat; other : nat }.
Definition two (a : question) : list (nat * nat) := [(who a, one a); (who a, other a)].
(** Two different labels of an instance of the data. *)
Definition proper_question (n m : nat) (a : question) : Prop := (who a < n)%nat /\ (one a < m)%nat /\ (other a < m)%nat /\ one a <> other a.
Definition asked (asks : list question) (p : nat * nat) : Prop := exists a, In a asks /\ In p (two a).

(** The label of an instance. *)
Definition value (y : list (list Q)) (i j : nat) : Q := nth j (nth i y []) 0%Q.

(** The answer to a question, as two numbers: -1 for two irrelevant labels; else 1 for the label with the larger value, for the
    second in case of equality, and 0.5 for the one that is left. *)
Definition reply (y : list (list Q)) (a : question) (v1 v2 : Q) : Prop :=
  let y1 := value y (who a) (one a) in
  let y2 := value y (who a) (other a) in
  ((y1 < 0)%Q /\ (y2 < 0)%Q /\ v1 = (-1)%Q /\ v2 = (-1)%Q) \/
  (((0 <= y1)%Q \/ (0 <= y2)%Q) /\ (y2 < y1)%Q /\ v1 = 1%Q /\ v2 = (1 # 2)%Q) \/
  (((0 <= y1)%Q \/ (0 <= y2)%Q) /\ (y1 <= y2)%Q /\ v1 = (1 # 2)%Q /\ v2 = 1%Q).

(** What one question teaches: the row of the instance, with the two numbers and 0 for every other label. *)
Definition lesson {B} (X : list B) (y : list (list Q)) (m : nat) (a : question) (x : B) (row : list Q) : Prop :=
  exists v1 v2, reply y a v1 v2 /\ nth_error X (who a) = Some x /\ List.length row = m /\
    forall j, (j < m)%nat -> nth j row 0%Q = if Nat.eqb j (one a) then v1 else if Nat.eqb j (other a) then v2 else 0%Q.

(** [t'] comes from [t] by the lessons of the questions in turn. *)
Inductive learns {B M} (refit : M -> list B -> list (list Q) -> res M) (X : list B) (y : list (list Q)) (m : nat) (t : M) : list question -> M -> Prop :=
| learns_nil : learns refit X y m t [] t
| learns_more asks t1 a x row t2 : learns refit X y m t asks t1 -> lesson X y m a x row -> refit t1 [x] [row] = Ok t2 ->
    learns refit X y m t (asks ++ [a]) t2.

(** The model trained on the labels known at first: a row for each instance with a known label, with 0 for the labels that are
    not known. [old] is what the model was before. *)
Definition begun {B M} (fit : option M -> list B -> list (list Q) -> res M) (X : list B) (y : list (list Q)) (n m : nat) (L0 : mlic) (old : option M) (t0 : M) : Prop :=
  exists ids xs rows, NoDup ids /\ (forall i, In i ids <-> exists j, holds L0 (i, j)) /\
    Forall2 (fun i x => nth_error X i = Some x) ids xs /\
    Forall2 (fun i row => List.length row = m /\ forall j, (j < m)%nat ->
               (holds L0 (i, j) -> nth j row 0%Q = value y i j) /\ (~ holds L0 (i, j) -> nth j row 0%Q = 0%Q)) ids rows /\
    fit old xs rows = Ok t0.

(** [L], [U] after the questions [asks], from [L0], [U0]. *)
Definition moved_by (asks : list question) (L0 U0 L U : mlic) : Prop :=
  (forall p, holds L p <-> holds L0 p \/ asked asks p) /\ (forall p, holds U p <-> holds U0 p /\ ~ asked asks p).

(** The label matrix that is written to: the answers at the pairs asked for, the given labels elsewhere. *)
Definition answered (y qy : list (list Q)) (asks : list question) : Prop :=
  (forall i j, ~ asked asks (i, j) -> value qy i j = value y i j) /\
  forall a, In a asks -> reply y a (value qy (who a) (one a)) (value qy (who a) (other a)).

(** The record of question number [k]: the two pairs, both unlabelled before it; the instance had most unlabelled labels before
    it, and was the first such instance; the performance is that of the model after it. *)
Definition history {B M} (refit : M -> list B -> list (list Q) -> res M) (judge : M -> res Q) (X : list B) (y : list (list Q)) (m : nat) (t0 : M)
    (tr te : list mlidx) (L0 U0 : mlic) (v : sio mlic mlidx) (asks : list question) : Prop :=
  List.length asks = turns v /\
  forall k a, nth_error asks k = Some a ->
    exists L U t q st, rebuilt_at v k = Ok (tr, te, L, U) /\ moved_by (firstn k asks) L0 U0 L U /\
      holds U (who a, one a) /\ holds U (who a, other a) /\ least_queried U (Z.of_nat (who a)) /\
      learns refit X y m t0 (firstn (S k) asks) t /\ judge t = Ok q /\ nth_error (s_states v) k = Some (EState st) /\
      sget "select_index"%string (sdict st) = Some (SIdx (map to_idx (two a))) /\ sget "performance"%string (sdict st) = Some (SNum q).

(** How often two unlabelled labels of one instance can be taken from [U]. *)
Definition askable (n : nat) (U : mlic) : nat := list_sum (map (fun i => (pairs_of U (Z.of_nat i) / 2)%nat) (seq 0 n)).

(** The scores: one row per instance, finite, with [num_sub] columns for each label and for the dummy. *)
Definition sound_scores {B M} (scores : M -> list B -> nat * list (list fl)) (m : nat) : Prop :=
  forall t xs, score_shape (List.length xs) m (scores t xs) /\ forall r, In r (snd (scores t xs)) -> all_finite r.

(** Trainings and judgements that do not raise. *)
Definition never_raises {B M} (fit : option M -> list B -> list (list Q) -> res M) (refit : M -> list B -> list (list Q) -> res M) (judge : M -> res Q) : Prop :=
  (forall old xs ys, exists t, fit old xs ys = Ok t) /\ (forall t xs ys, exists t', refit t xs ys = Ok t') /\ forall t, exists q, judge t = Ok q.

(** The data, a division of the training pairs, a model, and what is asked of the scores and of the sorting. *)
Definition auro_setting {B M} (X : list B) (y : list (list Q)) (n m : nat) (train : list nat) (argsort : list fl -> list nat)
    (scores : M -> list B -> nat * list (list fl)) (addr : nat) (L U : mlic) (st : auro M) : Prop :=
  List.length X = n /\ has_shape y n m /\ division n m train L U /\ (addr < List.length (heap st))%nat /\
  sorts argsort /\ sound_scores scores m.
