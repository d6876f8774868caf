(** Model of alipy/query_strategy/query_type.py.

    Simplifications: as in MLQueryModel (finite floats are exact rationals, training of the label ranking model and
    [np.argsort] are arguments). Label ranking models are objects at addresses of a heap; an untrained object is [None].
    [y_mat], when given, has the number of columns of [y]. *)
From Coq Require Import String QArith Qabs.
From Verif Require Import Base IndexModel MLModel MetricModel MiscModel QueryModel MLQueryModel.
Local Open Scope Z_scope.

(** 26-64 [check_query_type] on a string. *)
Definition check_query_type (s : string) : bool :=
  existsb (String.eqb s) ["AllLabels"%string; "PartLabels"%string; "Features"%string].

(** Sum of a row of the mask. *)
Definition zsum (l : list Z) : Z := fold_right Z.add 0 l.

(** [np.argmax] on floats: the first NaN if there is one, otherwise the first position of a largest value. *)
Definition fl_neg (a : fl) : fl := match a with Num q => Num (- q) | Inf neg => Inf (negb neg) | NaN => NaN end.
Definition fl_argmax (l : list fl) : res nat := fl_argmin (map fl_neg l).

(** 94-96: the strategy; [own] is the address of [_lr_model]. *)
Record auro (M : Type) := { heap : list (option M); own : nat }.
Arguments heap {M}. Arguments own {M}.

Inductive auro_out := ARest | APick (i : Z) (y1 y2 : nat).

(** 155-170: the choice of the two labels; [pres] the scores of the instance, [w] its row of the mask. *)
Definition auro_labels (argsort : list fl -> list nat) (pres : list fl) (w : list Z) : res (nat * nat) :=
  let masked := map (fun e => if snd e =? 0 then Inf true else fst e) (combine (removelast pres) w) in   (* 156-159 *)
  y1 <- fl_argmax masked ;;                                                              (* 164 *)
  let dis := map (fun v => fl_abs (fl_sub v (last pres NaN))) masked in                  (* 165 *)
  match filter (fun j => negb (nth j w 0 =? 0) && negb (Nat.eqb j y1)) (argsort dis) with   (* 166-170 *)
  | j :: _ => Ok (y1, j)
  | [] => Err GenericErr                                                                 (* 172: y2 unbound *)
  end.

(** 152-172: from the scores on. *)
Definition auro_pick (argsort : list fl -> list nat) (m : nat) (s : nat * list (list fl)) (rows : list nat)
  (W : list (list Z)) : res auro_out :=
  pl <- lr_predict (fst s) (snd s) ;;                                                    (* 152 *)
  k <- argmax (map (fun a => inject_Z (zsum (nth a W []))) rows) ;;                      (* 153 *)
  _ <- guard (forallb (fun p => Nat.eqb (length p - 1) m) (fst pl)) IndexErr ;;          (* 158: boolean mask shape *)
  pres <- py_nth (fst pl) k ;;
  a <- py_nth rows k ;;
  ys <- auro_labels argsort pres (nth a W []) ;;
  Ok (APick (Z.of_nat a) (fst ys) (snd ys)).                                             (* 172 *)

(** 98-172 [select]. [fit old xs ys] trains an object with contents [old]. *)
Definition auro_select {B M} (argsort : list fl -> list nat) (fit : option M -> list B -> list (list Q) -> res M)
  (scores : M -> list B -> nat * list (list fl)) (X : list B) (y : list (list Q)) (m : nat) (st : auro M)
  (L U : ml_pool) (model : option nat) (y_mat : option (list (list Q))) : auro M * res auro_out :=
  let n := length y in
  if (ml_pool_len U <=? 1)%nat then (st, Ok ARest)                                       (* 129-130 *)
  else
    match u <- check_ml_ind (Z.of_nat n) (Z.of_nat m) U ;;                               (* 131 *)
          l <- check_ml_ind (Z.of_nat n) (Z.of_nat m) L ;;                               (* 132 *)
          W <- ml_mask u n m 1 false ;;                                                  (* 137 *)
          let rows := filter (fun a => 1 <? zsum (nth a W [])) (range n) in              (* 138 *)
          data <- mapM (py_nth X) rows ;;                                                (* 139 *)
          Ok (l, W, rows, data) with
    | Err e => (st, Err e)
    | Ok (l, W, rows, data) =>
        let st1 := match model with Some a => {| heap := heap st; own := a |} | None => st end in   (* 145 *)
        let labels := match model, y_mat with None, Some ym => ym | _, _ => y end in     (* 133-134, 147, 150 *)
        let cur := nth (own st1) (heap st1) None in
        match match model, cur with
              | Some _, Some t => Ok t                                                   (* 146 *)
              | _, _ => ld <- get_Xy false (mcont l) X labels (Z.of_nat m) 0%Q ;;        (* 147-148, 150-151 *)
                        fit cur (fst (fst ld)) (snd (fst ld))
              end with
        | Err e => (st1, Err e)
        | Ok t => ({| heap := set_nth (own st1) (Some t) (heap st1); own := own st1 |},
                   auro_pick argsort m (scores t data) rows W)
        end
    end.
