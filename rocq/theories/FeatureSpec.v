(** Specification vocabulary for the feature query strategies and matrix completion. *)
From Verif Require Import Base IndexModel MLModel MLSpec MiscModel MiscSpec QueryModel FeatureModel.
From Coq Require Import QArith Qminmax.
Local Open Scope Z_scope.

(** Equal floats. *)
Definition feq (a b : fl) : Prop :=
  match a, b with
  | Num p, Num q => (p == q)%Q
  | Inf s, Inf t => s = t
  | NaN, NaN => True
  | _, _ => False
  end.

(** A matrix of finite numbers; a matrix of zeros and ones. *)
Definition finite (M : fmat) : Prop := forall a b v, cell M a b = Some v -> exists q, v = Num q.
Definition zero_one (mask : list (list Z)) : Prop := forall a b v, cell mask a b = Some v -> v = 0 \/ v = 1.

(** Two matrices have equal values in row [a], column [b]. *)
Definition same_at (M N : fmat) (a b : nat) : Prop :=
  exists x y, cell M a b = Some x /\ cell N a b = Some y /\ feq x y.

(** ** Choosing an entry (row, column) of an [n] by [f] matrix *)
Definition inside (n f : nat) (p : nat * nat) : Prop := (fst p < n)%nat /\ (snd p < f)%nat.
(** Row-major order. *)
Definition before (p q : nat * nat) : Prop := (fst p < fst q)%nat \/ fst p = fst q /\ (snd p < snd q)%nat.
Definition first_such (n f : nat) (P : nat * nat -> Prop) (p : nat * nat) : Prop :=
  inside n f p /\ P p /\ forall q, inside n f q -> P q -> p = q \/ before p q.

(** The variance of an entry over several completed matrices. *)
Definition values_at (mats : list fmat) (p : nat * nat) (vs : list Q) : Prop :=
  Forall2 (fun M v => cell M (fst p) (snd p) = Some (Num v)) mats vs.
Definition spread (mats : list fmat) (p : nat * nat) (v : Q) : Prop :=
  exists vs, values_at mats p vs /\ (v == variance vs)%Q.

(** An unknown entry of greatest variance. *)
Definition most_spread (n f : nat) (known : nat * nat -> Prop) (mats : list fmat) (p : nat * nat) : Prop :=
  ~ known p /\ exists v, spread mats p v /\
  forall q w, inside n f q -> ~ known q -> spread mats q w -> (w <= v)%Q.

(** The entry chosen from several completed matrices. *)
Definition variance_choice (n f : nat) (known : nat * nat -> Prop) (mats : list fmat) (p : nat * nat) : Prop :=
  inside n f p /\
  ((exists q v, inside n f q /\ ~ known q /\ spread mats q v /\ (0 < v)%Q) ->
   first_such n f (most_spread n f known mats) p) /\
  ((forall q v, inside n f q -> ~ known q -> spread mats q v -> (v == 0)%Q) -> p = (0, 0)%nat).
(** The entry chosen from one completed matrix, or none. *)
Definition first_choice (n f : nat) (known : nat * nat -> Prop) (p : nat * nat) : Prop :=
  inside n f p /\
  ((exists q, inside n f q /\ ~ known q) -> first_such n f (fun q => ~ known q) p) /\
  ((forall q, inside n f q -> known q) -> p = (0, 0)%nat).
Definition chosen_entry (n f : nat) (known : nat * nat -> Prop) (mats : list fmat) (p : nat * nat) : Prop :=
  ((2 <= length mats)%nat -> variance_choice n f known mats p) /\
  ((length mats <= 1)%nat -> first_choice n f known p).

(** Entry [p] of the training matrix is among the observed entries of the collection. *)
Definition observed (trs : list Z) (o : mlic) (p : nat * nat) : Prop :=
  exists i, nth_error trs (fst p) = Some i /\ In (i, Z.of_nat (snd p)) (pairs o).

(** The steps of a search yield finite matrices of the right shape. *)
Definition steps_ok (f : nat) (steps : fmat -> list (list Z) -> nat -> nat -> Q * fmat) : Prop :=
  forall n S mask i k, has_shape S n f -> finite S -> has_shape mask n f ->
  has_shape (snd (steps S mask i k)) n f /\ finite (snd (steps S mask i k)).
(** The reconstruction by singular value decomposition yields finite matrices of the right shape. *)
Definition svd_ok (f : nat) (svd : nat -> fmat -> res fmat) : Prop :=
  forall n r M, has_shape M n f -> finite M -> exists R, svd r M = Ok R /\ has_shape R n f /\ finite R.

(** A history of calls of the AFASMC strategy on data [X] with [f] features. *)
Definition af_run steps max_in max_out X f (train : option train_arr) (calls : list af_call) : afasmc :=
  fold_left (af_step steps max_in max_out X f) calls {| af_train := train; af_mats := [] |}.

(** The training set in effect: the one given, or else all instances occurring in the two collections. *)
Definition training (train : option train_arr) (o u : mlic) (trs : list Z) : Prop :=
  match train with
  | Some t => t = NdArray trs
  | None => StronglySorted Z.lt trs /\ forall i, In i trs <-> exists j, In (i, j) (pairs o) \/ In (i, j) (pairs u)
  end.

(** ** The steps of an imputation *)
Definition fval (x : fl) : Q := match x with Num q => q | _ => 0%Q end.
(** The sum of [g old new] over the missing entries (where the mask has a zero). *)
Definition missing_total (mask : list (list Z)) (g : Q -> Q -> Q) (A B : fmat) : Q :=
  total (map (fun t => if fst t =? 0 then g (fval (fst (snd t))) (fval (snd (snd t))) else 0%Q)
             (combine (concat mask) (combine (concat A) (concat B)))).
(** The missing entries moved little from [A] to [B]: the squared distance is below the threshold times the squared
    length of the old ones. Never if the old ones are all zero, or tiny with a distance that is not tiny. *)
Definition moved_little (s : isvd) (mask : list (list Z)) (A B : fmat) : Prop :=
  let norm := missing_total mask (fun a _ => a * a)%Q A B in
  let dist := missing_total mask (fun a b => (a - b) * (a - b))%Q A B in
  ~ (norm == 0)%Q /\ ~ ((norm < 1 # 8388608)%Q /\ (1 # 8388608 < dist)%Q) /\ (dist < sv_thr s * norm)%Q.
Definition limited (s : isvd) (q : Q) : Q :=
  let low := match sv_min s with Some lo => Qmax lo q | None => q end in
  match sv_max s with Some hi => Qmin hi low | None => low end.
(** One round: [A] is decomposed, the reconstruction limited to [B], and the missing entries taken from it. *)
Definition round (svd : nat -> fmat -> res fmat) (s : isvd) (X : fmat) (mask : list (list Z)) (n f rank : nat) (A B A' : fmat) : Prop :=
  (exists R, svd rank A = Ok R /\ has_shape R n f /\ has_shape B n f /\
     forall a b q, cell R a b = Some (Num q) -> exists q', cell B a b = Some (Num q') /\ (q' == limited s q)%Q) /\
  has_shape A' n f /\
  (forall a b, cell mask a b = Some 1 -> same_at A' X a b) /\ (forall a b, cell mask a b = Some 0 -> same_at A' B a b).
