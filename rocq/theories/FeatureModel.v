(** Model of the feature query strategies and matrix completion (alipy/query_strategy/query_features.py) and
    of [BaseFeatureQuery._check_feature_ind] (alipy/query_strategy/base.py 142-154, the same code as
    [_check_multi_label_ind], modelled by [check_ml_ind]).

    Simplifications: finite floats are exact rationals in lowest terms, infinities and NaN are explicit ([fl]); the
    steps of AFASMC's proximal gradient search (query_features.py 199-237) and scikit-learn's truncated SVD are
    arbitrary functions given as arguments; operands of element-wise operations have equal shapes (no
    broadcasting). *)
From Verif Require Import Base IndexModel MLModel MiscModel QueryModel.
From Coq Require Import QArith Qabs Qreduction.
Local Open Scope Z_scope.

(** ** Float matrices *)
Definition fmat := list (list fl).

(** IEEE product, sum and comparison, without rounding. *)
Definition fmul (a b : fl) : fl :=
  match a, b with
  | NaN, _ | _, NaN => NaN
  | Num p, Num q => Num (Qred (p * q))
  | Num p, Inf s | Inf s, Num p => if Qeq_bool p 0 then NaN else Inf (xorb s (negb (Qle_bool 0 p)))
  | Inf s, Inf t => Inf (xorb s t)
  end.
Definition fadd (a b : fl) : fl :=
  match a, b with
  | NaN, _ | _, NaN => NaN
  | Num p, Num q => Num (Qred (p + q))
  | Inf s, Inf t => if Bool.eqb s t then Inf s else NaN
  | Inf s, _ | _, Inf s => Inf s
  end.
Definition fneg (a : fl) : fl := fmul (Num (-1)) a.
Definition flt (a b : fl) : bool :=
  match a, b with
  | NaN, _ | _, NaN => false
  | Num p, Num q => negb (Qle_bool q p)
  | Num _, Inf s => negb s
  | Inf s, Num _ => s
  | Inf s, Inf t => s && negb t
  end.
Definition fquot (a b : fl) : fl :=
  match a, b with
  | NaN, _ | _, NaN => NaN
  | Num p, Num q => fdiv p q
  | Num _, Inf _ => Num 0
  | Inf s, Num q => Inf (xorb s (negb (Qle_bool 0 q)))
  | Inf _, Inf _ => NaN
  end.

(** Element-wise operations on rows and matrices. *)
Fixpoint zipw {A B C} (f : A -> B -> C) (l : list A) (l' : list B) : list C :=
  match l, l' with a :: l, b :: l' => f a b :: zipw f l l' | _, _ => [] end.
Definition mzip {A B C} (f : A -> B -> C) (M : list (list A)) (N : list (list B)) : list (list C) :=
  zipw (zipw f) M N.

(** [mask * X] and [(1 - mask) * X]. *)
Definition seen (mask : list (list Z)) (X : fmat) : fmat := mzip (fun m x => fmul (Num (inject_Z m)) x) mask X.
Definition unseen (mask : list (list Z)) (X : fmat) : fmat := mzip (fun m x => fmul (Num (inject_Z (1 - m))) x) mask X.
Definition mplus (M N : fmat) : fmat := mzip fadd M N.

Definition width {A} (X : list (list A)) : nat := length (hd [] X).
(** The assertions on a mask: query_features.py 179-183 and 362-366. *)
Definition mask_passes (X : fmat) (mask : list (list Z)) : bool :=
  let ue := zunique (concat mask) in
  Nat.eqb (length mask) (length X) && forallb (fun r => Nat.eqb (length r) (width X)) mask &&
  Nat.eqb (length ue) 2 && zmem 0 ue && zmem 1 ue.

(** ** AFASMC matrix completion, query_features.py 133-263 *)

Section Search.
  (** Step [k] of round [i] of the proximal gradient search (199-237): the objective [convergence[k]] and the
      matrix [Z1]. *)
  Variable step : nat -> nat -> Q * fmat.

  (** 206-249, the inner loop of round [i] from step [k] on; [prev] is [convergence[k - 1]], [best] is
      [minObj] and [X_mc]. Gives also the last value of [k]. *)
  Fixpoint inner (i todo k : nat) (prev : Q) (best : Q * fmat) : Q * fmat * nat :=
    match todo with
    | O => (best, Nat.pred k)
    | S todo' =>
        let c := fst (step i k) in
        let best' := if Nat.eqb k 0 then step i k                                      (* 240-242 *)
                     else if negb (Qle_bool (fst best) c) then step i k else best in   (* 244-246 *)
        if Nat.ltb 0 k && negb (Qle_bool ((1 # 1000000) * prev) (Qabs (c - prev)))    (* 247-249 *)
        then (best', k)
        else inner i todo' (S k) c best'
    end.

  (** [converge_out[k - 1]]: position -1 is the last one. *)
  Definition previous (conv : list Q) (k : nat) : Q :=
    match k with O => last conv 0%Q | S k' => nth k' conv 0%Q end.

  (** 197-261, the outer loop. [conv] is [converge_out], of length [max_in_iter]; [best] is [minObj_out] and
      [Xmc]. The position compared is the last [k] of the inner loop, not [i]. *)
  Fixpoint outer (todo i : nat) (conv : list Q) (best : Q * fmat) : res fmat :=
    match todo with
    | O => Ok (snd best)
    | S todo' =>
        let '(obj, X_mc, k) := inner i (length conv) 0 0%Q (0%Q, []) in
        if Nat.ltb i (length conv) then
          let conv' := set_nth i obj conv in                                           (* 251 *)
          let c := nth k conv' 0%Q in
          let best' := if Nat.eqb i 0 then (c, X_mc)                                   (* 252-254 *)
                       else if negb (Qle_bool (fst best) c) then (c, X_mc) else best in (* 256-258 *)
          let p := previous conv' k in
          if Nat.ltb 0 i && negb (Qle_bool ((1 # 10000) * p) (Qabs (c - p)))          (* 259-261 *)
          then Ok (snd best')
          else outer todo' (S i) conv' best'
        else Err IndexErr
    end.

  (** Without an inner or outer round a local variable is read before it is assigned. *)
  Definition search (max_in max_out : nat) : res fmat :=
    match max_in, max_out with
    | _, O | O, _ => Err NameErr
    | _, _ => outer max_out 0 (repeat 0%Q max_in) (0%Q, [])                            (* 195 *)
    end.
End Search.

(** 133-263 [AFASMC_mask_mc]; [steps] are the steps of the search for the observed part of the data (the labels and the trade-off
    parameters are fixed). *)
Definition afasmc_mask (steps : fmat -> list (list Z) -> nat -> nat -> Q * fmat) (max_in max_out : nat)
           (chk : bool) (X : fmat) (mask : list (list Z)) : res fmat :=
  if chk && negb (mask_passes X mask) then Err AssertErr                               (* 177-183 *)
  else Xmc <- search (steps (seen mask X) mask) max_in max_out ;;
       Ok (mplus (unseen mask Xmc) (seen mask X)).                                     (* 263 *)

(** 73-130 [AFASMC_mc] for a collection [omega]. *)
Definition afasmc_mc (steps : fmat -> list (list Z) -> nat -> nat -> Q * fmat) (max_in max_out : nat)
           (X : fmat) (f : nat) (omega : mlic) : res fmat :=
  mask <- ml_mask omega (length X) f 1 false ;;                                        (* 128 *)
  afasmc_mask steps max_in max_out false X mask.                                      (* 130 *)

(** ** IterativeSVD_mc, query_features.py 266-388 *)
Record isvd := { sv_rank : nat; sv_thr : Q; sv_iters : nat; sv_grow : bool; sv_min : option Q; sv_max : option Q }.

Definition fsum (l : list fl) : fl := fold_right fadd (Num 0) l.
Definition sum_sq (M : fmat) : fl := fsum (map (fun x => fmul x x) (concat M)).
Definition f32prec : Q := 1 # 8388608.

(** 314-327 [_converged] *)
Definition converged (s : isvd) (old new : fmat) (mask : list (list Z)) : bool :=
  let o := unseen mask old in
  let ssd := sum_sq (mzip (fun a b => fadd a (fneg b)) o (unseen mask new)) in
  let norm := sum_sq o in
  if (match norm with Num q => Qeq_bool q 0 | _ => false end) ||
     (flt norm (Num f32prec) && flt (Num f32prec) ssd)
  then false
  else flt (fquot ssd norm) (Num (sv_thr s)).

(** 329-338 [_clip] *)
Definition clip1 (s : isvd) (x : fl) : fl :=
  let x := match sv_min s with Some lo => if flt x (Num lo) then Num lo else x | None => x end in
  match sv_max s with Some hi => if flt (Num hi) x then Num hi else x | None => x end.
Definition clip (s : isvd) (M : fmat) : fmat := map (map (clip1 s)) M.

(** 372-375 *)
Definition rank_at (s : isvd) (i : nat) : nat := if sv_grow s then Nat.min (2 ^ i) (sv_rank s) else sv_rank s.

(** 369-388; [svd rank M] is the reconstruction of [M] from its truncated singular value decomposition. *)
Fixpoint impute_loop (svd : nat -> fmat -> res fmat) (s : isvd) (X : fmat) (mask : list (list Z))
         (todo i : nat) (filled : fmat) : res fmat :=
  match todo with
  | O => Ok filled
  | S todo' =>
      r <- svd (rank_at s i) filled ;;                                                 (* 376-378 *)
      let r := clip s r in                                                             (* 379 *)
      let filled' := mplus (unseen mask r) (seen mask X) in                            (* 385 *)
      if converged s filled r mask then Ok filled'                                     (* 381-384, 386-387 *)
      else impute_loop svd s X mask todo' (S i) filled'
  end.

(** 340-388 [impute] *)
Definition impute (svd : nat -> fmat -> res fmat) (s : isvd) (X : fmat) (mask : list (list Z)) (chk : bool) : res fmat :=
  if chk && negb (mask_passes X mask) then Err AssertErr                               (* 360-366 *)
  else impute_loop svd s X mask (sv_iters s) 0 (unseen mask X).                        (* 367-368 *)

(** ** The choice of an entry, query_features.py 466-479, 507-520, 674-685 *)

Fixpoint nums (l : list fl) : option (list Q) :=
  match l with
  | [] => Some []
  | Num q :: l' => match nums l' with Some qs => Some (q :: qs) | None => None end
  | _ => None
  end.
(** [np.var]: NaN as soon as some value is not finite. *)
Definition fvar (l : list fl) : fl := match nums l with Some qs => Num (qvar qs) | None => NaN end.
Definition var_mat (n f : nat) (mats : list fmat) : fmat :=
  map (fun i => map (fun j => fvar (map (fun mat => nth j (nth i mat []) NaN) mats)) (seq 0 f)) (seq 0 n).

(** [np.argmax] of values without infinities: the first NaN if there is one, otherwise the first largest value. *)
Fixpoint first_nan (i : nat) (l : list fl) : option nat :=
  match l with [] => None | NaN :: _ => Some i | _ :: l' => first_nan (S i) l' end.
Definition fl_argmax (l : list fl) : res nat :=
  match first_nan 0 l with
  | Some i => Ok i
  | None => argmax (map (fun x => match x with Num q => q | _ => 0%Q end) l)
  end.

Definition choose (n f : nat) (mats : list fmat) (mask : list (list Z)) : res (nat * nat) :=
  s <- (if Nat.leb 2 (length mats)
        then fl_argmax (concat (mzip (fun m v => fmul v (Num (inject_Z (1 - m)))) mask (var_mat n f mats)))
        else argmax (concat (map (map (fun m => inject_Z (1 - m))) mask))) ;;
  Ok (Nat.div s f, Nat.modulo s f).

(** ** Entries of the training set *)

(** [X[train_idx]] *)
Definition rows_at (X : fmat) (t : list Z) : res fmat :=
  mapM (fun i => match py_index (length X) i with Some p => Ok (nth p X []) | None => Err IndexErr end) t.

(** 454-462 and 631-639: the observed entries, by position in the training set. [native] tells whether the instance
    numbers are native ints. *)
Definition map_entries (t : train_arr) (native : bool) (c : mlic) : res mlic :=
  xs <- mapM (fun x => p <- argwhere0 t native (ins_of x) ;;
                       match x with
                       | IPair _ j | ILong _ j => Ok (IPair p j)
                       | IManyT _ js => Ok (IManyT p js)
                       | IManyL _ js => Ok (IManyL p js)
                       | IOne _ => Err IndexErr
                       end) (mcont c) ;;
  cw <- ml_init (MList xs) None ;; Ok (fst cw).

(** 449-452 and 626-629: the training set, if none has been given: all instances occurring in the two collections. *)
Definition settle (t : option train_arr) (o u : mlic) : train_arr :=
  match t with
  | Some t => t
  | None => NdArray (zunique (ml_instance_index o ++ ml_instance_index u))
  end.

(** ** QueryFeatureAFASMC, query_features.py 391-520 *)
Record afasmc := { af_train : option train_arr; af_mats : list fmat }.

Section Afasmc.
  Variable steps : fmat -> list (list Z) -> nat -> nat -> Q * fmat.
  Variables max_in max_out : nat.
  Variable X : fmat.
  (** [X.shape[1]] *)
  Variable f : nat.

  (** 422-479 [select]: the new state of the strategy and the result. *)
  Definition afasmc_select (st : afasmc) (native : bool) (obs unk : ml_pool) : afasmc * res ml_choice :=
    if Nat.leb (ml_pool_len unk) 1 then (st, Ok TheRest)                               (* 444-445 *)
    else
      match (u <- check_ml_ind (Z.of_nat (length X)) (Z.of_nat f) unk ;;               (* 446-447 *)
             o <- check_ml_ind (Z.of_nat (length X)) (Z.of_nat f) obs ;; Ok (o, u)) with
      | Err e => (st, Err e)
      | Ok (o, u) =>
          let t := settle (af_train st) o u in                                         (* 449-452 *)
          let n := length (train_vals t) in
          match (tr_ob <- map_entries t native o ;;                                    (* 454-462 *)
                 rows <- rows_at X (train_vals t) ;;
                 M <- afasmc_mc steps max_in max_out rows f tr_ob ;;                  (* 465 *)
                 mask <- ml_mask tr_ob n f 1 false ;; Ok (M, mask)) with
          | Err e => ({| af_train := Some t; af_mats := af_mats st |}, Err e)
          | Ok (M, mask) =>
              let mats := af_mats st ++ [M] in                                         (* 466 *)
              ({| af_train := Some t; af_mats := mats |},
               rc <- choose n f mats mask ;;                                           (* 467-477 *)
               i <- py_nth (train_vals t) (fst rc) ;;
               Ok (Chosen [IPair i (Z.of_nat (snd rc))]))                              (* 479 *)
          end
      end.

  (** 481-520 [select_by_mask] *)
  Definition afasmc_by_mask (st : afasmc) (mask : list (list Z)) : afasmc * res (nat * nat) :=
    match af_train st with
    | None => (st, Err ValueErr)                                                       (* 498-499 *)
    | Some t =>
        let n := length (train_vals t) in
        if rectangular mask && Nat.eqb (length mask) n && Nat.eqb (width mask) f then  (* 500-503 *)
          match (rows <- rows_at X (train_vals t) ;;
                 afasmc_mask steps max_in max_out false rows mask) with               (* 505-506 *)
          | Err e => (st, Err e)
          | Ok M => let mats := af_mats st ++ [M] in
                    ({| af_train := Some t; af_mats := mats |}, choose n f mats mask)
          end
        else (st, Err AssertErr)
    end.

  (** A history of calls of [select] and [select_by_mask]. *)
  Inductive af_call := CSelect (native : bool) (obs unk : ml_pool) | CMask (mask : list (list Z)).
  Definition af_step (st : afasmc) (c : af_call) : afasmc :=
    match c with
    | CSelect nat_ o u => fst (afasmc_select st nat_ o u)
    | CMask mask => fst (afasmc_by_mask st mask)
    end.
End Afasmc.

(** ** QueryFeatureRandom, query_features.py 523-556 *)
Definition feature_random (n m : Z) (unk : ml_pool) (batch : Z) (sh : list nat) : res ml_choice :=
  if Nat.leb (ml_pool_len unk) 1 then Ok TheRest                                       (* 551-552 *)
  else u <- check_ml_ind n m unk ;;                                                    (* 553 *)
       perm <- randperm (Z.of_nat (length (mcont u)) - 1) (Some batch) sh ;;           (* 554 *)
       l <- QueryModel.take (mcont u) perm ;;                                          (* 555-556 *)
       Ok (Chosen l).

(** ** QueryFeatureStability, query_features.py 559-685 *)

(** 593-597: default completion for each rank. *)
Definition member (rank : nat) : isvd :=
  {| sv_rank := rank; sv_thr := 1 # 100000; sv_iters := 200; sv_grow := true; sv_min := None; sv_max := None |}.

Section Stability.
  Variable svd : nat -> fmat -> res fmat.
  Variable ranks : list nat.
  Variable X : fmat.
  Variable f : nat.

  (** 646-685 [select_by_mask] *)
  Definition stability_by_mask (train : option train_arr) (mask : list (list Z)) : res (nat * nat) :=
    match train with
    | None => Err ValueErr                                                             (* 663-664 *)
    | Some t =>
        let n := length (train_vals t) in
        if rectangular mask && Nat.eqb (length mask) n && Nat.eqb (width mask) f then  (* 665-668 *)
          mats <- mapM (fun r => rows <- rows_at X (train_vals t) ;;
                                 impute svd (member r) rows mask true) ranks ;;        (* 670-672 *)
          choose n f mats mask                                                         (* 674-685 *)
        else Err AssertErr
    end.

  (** 599-644 [select]; the new training set of the strategy and the result. *)
  Definition stability_select (train : option train_arr) (native : bool) (obs unk : ml_pool)
    : option train_arr * res ml_choice :=
    if Nat.leb (ml_pool_len unk) 1 then (train, Ok TheRest)
    else
      match (u <- check_ml_ind (Z.of_nat (length X)) (Z.of_nat f) unk ;;
             o <- check_ml_ind (Z.of_nat (length X)) (Z.of_nat f) obs ;; Ok (o, u)) with
      | Err e => (train, Err e)
      | Ok (o, u) =>
          let t := settle train o u in
          (Some t,
           tr_ob <- map_entries t native o ;;
           mask <- ml_mask tr_ob (length (train_vals t)) f 1 false ;;
           rc <- stability_by_mask (Some t) mask ;;
           i <- py_nth (train_vals t) (fst rc) ;;
           Ok (Chosen [IPair i (Z.of_nat (snd rc))]))
      end.
End Stability.
