(** Model of the configuration of [AlExperiment] (alipy/experiment/al_experiment.py 89-414): which strategy, metric and split an
    experiment uses after any sequence of calls.

    Simplifications: the data are left out; splits are only counted; keyword values are opaque; the constructors of the query
    strategies and the user's callables are one arbitrary function that may raise. *)
From Verif Require Import Base StateModel.
From Coq Require Import String QArith.
Local Open Scope Z_scope.
Local Open Scope string_scope.

(** A keyword value. *)
Inductive cval := VStr (s : string) | VQ (q : Q) | VBool (b : bool) | VNone | VObj (tag : Z).
Definition kwargs := list (string * cval).
(** [kwargs.pop(k, default)] *)
Definition pop (k : string) (d : cval) (kw : kwargs) : cval * kwargs :=
  (match sget k kw with Some v => v | None => d end, sdel k kw).

(** The strategy argument (a callable is identified by a number). *)
Inductive strategy := SName (s : string) | SCall (id : Z).
(** A query object: the class or callable and the keyword arguments it was made with, besides the data. *)
Inductive qobj := QClass (name : string) (args : kwargs) | QUser (id : Z) (args : kwargs).

(** 89-118: the attributes; [None] for one that was not assigned. *)
Record conf := {
  e_custom : bool; e_split : option nat; e_metric : option string; e_need : bool;
  e_name : option string; e_args : kwargs; e_obj : option qobj;
  e_qmetric : option cval; e_qkwargs : option kwargs; e_solver : option cval }.

(** 89-118 [__init__].  [split] gives the lengths of train_idx, test_idx, label_idx, unlabel_idx if all four are given.  The metric
    argument is not used. *)
Definition new_conf (metric : string) (split : option (nat * nat * nat * nat)) : res conf :=
  let mk s := {| e_custom := false; e_split := s; e_metric := None; e_need := false; e_name := None; e_args := []; e_obj := None;
                 e_qmetric := None; e_qkwargs := None; e_solver := None |} in
  match split with
  | None => Ok (mk None)
  | Some (a, b, c, d) => if Nat.eqb a b && Nat.eqb b c && Nat.eqb c d then Ok (mk (Some a)) else Err ValueErr
  end.

(** 150-153 *)
Definition strategy_names : list string :=
  ["QueryInstanceQBC"; "QueryInstanceUncertainty"; "QueryRandom"; "QueryInstanceRandom"; "QueryInstanceGraphDensity";
   "QueryInstanceQUIRE"; "QueryInstanceBMDR"; "QueryInstanceSPAL"; "QueryInstanceLAL"; "QueryExpectedErrorReduction"].
(** 224-226 *)
Definition metric_names : list string :=
  ["accuracy_score"; "roc_auc_score"; "get_fps_tps_thresholds"; "hamming_loss"; "one_error"; "coverage_error";
   "label_ranking_loss"; "label_ranking_average_precision_score"; "zero_one_loss"].
Definition is_one_of (l : list string) (s : string) : bool := existsb (String.eqb s) l.

Definition with_name (c : conf) (n : string) : conf :=
  {| e_custom := e_custom c; e_split := e_split c; e_metric := e_metric c; e_need := e_need c; e_name := Some n;
     e_args := e_args c; e_obj := e_obj c; e_qmetric := e_qmetric c; e_qkwargs := e_qkwargs c; e_solver := e_solver c |}.
Definition with_obj (c : conf) (o : qobj) : conf :=
  {| e_custom := e_custom c; e_split := e_split c; e_metric := e_metric c; e_need := e_need c; e_name := e_name c;
     e_args := e_args c; e_obj := Some o; e_qmetric := e_qmetric c; e_qkwargs := e_qkwargs c; e_solver := e_solver c |}.
Definition with_solver (c : conf) (v : cval) : conf :=
  {| e_custom := e_custom c; e_split := e_split c; e_metric := e_metric c; e_need := e_need c; e_name := e_name c;
     e_args := e_args c; e_obj := e_obj c; e_qmetric := e_qmetric c; e_qkwargs := e_qkwargs c; e_solver := Some v |}.

Section Conf.
  (** Makes a query object; may raise. *)
  Variable make : qobj -> res unit.

  Definition build (c : conf) (o : qobj) : conf * res unit :=
    match make o with Err e => (c, Err e) | Ok _ => (with_obj c o, Ok tt) end.

  (** 120-204 [set_query_strategy] *)
  Definition set_strategy (c : conf) (s : strategy) (kw : kwargs) : conf * res unit :=
    match s with
    | SCall id =>                                                                              (* 138-147 *)
        let (n, kw1) := pop "strategyname" VNone kw in
        let nm := match n with VNone => "user-defined strategy" | VStr s => s | _ => "?" end in
        let c1 := {| e_custom := true; e_split := e_split c; e_metric := e_metric c; e_need := e_need c; e_name := Some nm;
                     e_args := kw1; e_obj := e_obj c; e_qmetric := e_qmetric c; e_qkwargs := e_qkwargs c;
                     e_solver := e_solver c |} in
        build c1 (QUser id kw1)
    | SName s =>
        if negb (is_one_of strategy_names s) then (c, Err NotImplErr)                          (* 150-156 *)
        else
          let c1 := with_name c s in                                                           (* 158 *)
          if s =? "QueryInstanceQBC" then                                                      (* 159-162 *)
            let (m, kw1) := pop "method" (VStr "query_by_bagging") kw in
            let (d, _) := pop "disagreement" (VStr "vote_entropy") kw1 in
            build c1 (QClass "QueryInstanceQBC" [("method", m); ("disagreement", d)])
          else if s =? "QueryInstanceUncertainty" then                                         (* 163-165 *)
            let (m, _) := pop "measure" (VStr "entropy") kw in
            build c1 (QClass "QueryInstanceUncertainty" [("measure", m)])
          else if (s =? "QueryInstanceRandom") || (s =? "QueryRandom") then                    (* 166-167 *)
            build c1 (QClass "QueryInstanceRandom" [])
          else if s =? "QueryExpectedErrorReduction" then                                      (* 168-169 *)
            build c1 (QClass "QueryExpectedErrorReduction" [])
          else if (s =? "QueryInstanceGraphDensity") || (s =? "QueryInstanceQUIRE") then       (* 170-176 *)
            match e_split c with
            | None => (c1, Err AttrErr)                       (* self._train_idx does not exist *)
            | Some _ =>
                let (m, kw1) := pop "metric" (VStr "manhattan") kw in
                ({| e_custom := e_custom c1; e_split := e_split c1; e_metric := e_metric c1; e_need := true; e_name := e_name c1;
                    e_args := e_args c1; e_obj := e_obj c1; e_qmetric := Some m; e_qkwargs := Some kw1;
                    e_solver := e_solver c1 |}, Ok tt)
            end
          else if s =? "QueryInstanceBMDR" then                                                (* 177-182 *)
            let (b, kw1) := pop "beta" (VQ 1000) kw in
            let (g, kw2) := pop "gamma" (VQ (1#10)) kw1 in
            let (r, kw3) := pop "rho" (VQ 1) kw2 in
            match build c1 (QClass "QueryInstanceBMDR" ([("beta", b); ("gamma", g); ("rho", r)] ++ kw3)%list) with
            | (c2, Ok _) => (with_solver c2 (fst (pop "qp_sover" (VStr "ECOS") kw3)), Ok tt)
            | bad => bad
            end
          else if s =? "QueryInstanceSPAL" then                                                (* 183-191 *)
            let (m, kw1) := pop "mu" (VQ (1#10)) kw in
            let (g, kw2) := pop "gamma" (VQ (1#10)) kw1 in
            let (r, kw3) := pop "rho" (VQ 1) kw2 in
            let (li, kw4) := pop "lambda_init" (VQ (1#10)) kw3 in
            let (lp, kw5) := pop "lambda_pace" (VQ (1#100)) kw4 in
            match build c1 (QClass "QueryInstanceSPAL"
                              ([("mu", m); ("gamma", g); ("rho", r); ("lambda_init", li); ("lambda_pace", lp)] ++ kw5)%list) with
            | (c2, Ok _) => (with_solver c2 (fst (pop "qp_sover" (VStr "ECOS") kw5)), Ok tt)
            | bad => bad
            end
          else                                                                                 (* 192-198: LAL *)
            let (m, kw1) := pop "mode" (VStr "LAL_iterative") kw in
            let (d, kw2) := pop "data_path" (VStr ".") kw1 in
            let (e, kw3) := pop "cls_est" (VQ 50) kw2 in
            let (t, kw4) := pop "train_slt" (VBool true) kw3 in
            build c1 (QClass "QueryInstanceLAL"
                        ([("mode", m); ("data_path", d); ("cls_est", e); ("train_slt", t)] ++ kw4)%list)
    end.

  (** 206-232 [set_performance_metric] *)
  Definition set_metric (c : conf) (m : string) (kw : kwargs) : conf * res unit :=
    if negb (is_one_of metric_names m) then (c, Err NotImplErr)
    else ({| e_custom := e_custom c; e_split := e_split c; e_metric := Some m; e_need := e_need c; e_name := e_name c;
             e_args := e_args c; e_obj := e_obj c; e_qmetric := e_qmetric c; e_qkwargs := e_qkwargs c; e_solver := e_solver c |}, Ok tt).

  Definition with_split (c : conf) (n : nat) : conf :=
    {| e_custom := e_custom c; e_split := Some n; e_metric := e_metric c; e_need := e_need c; e_name := e_name c;
       e_args := e_args c; e_obj := e_obj c; e_qmetric := e_qmetric c; e_qkwargs := e_qkwargs c; e_solver := e_solver c |}.
  (** 234-260 [set_data_split], given the four lengths *)
  Definition set_split (c : conf) (a b l u : nat) : conf * res unit :=
    if Nat.eqb a b && Nat.eqb b l && Nat.eqb l u then (with_split c a, Ok tt) else (c, Err ValueErr).

  (** The calls. *)
  Inductive ccall := CStrategy (s : strategy) (kw : kwargs) | CMetric (m : string) (kw : kwargs) | CSplit (a b l u : nat).
  Definition conf_step (c : conf) (k : ccall) : conf * res unit :=
    match k with
    | CStrategy s kw => set_strategy c s kw
    | CMetric m kw => set_metric c m kw
    | CSplit a b l u => set_split c a b l u
    end.
  Definition conf_run (c : conf) (h : list ccall) : conf := fold_left (fun c k => fst (conf_step c k)) h c.

  (** 323-330: what [start_query] checks first. *)
  Definition ready (c : conf) : res unit :=
    match e_split c, e_metric c with
    | Some _, Some _ => Ok tt
    | _, _ => Err GenericErr
    end.

  (** The classes whose [select] has an argument "model" (query_labels.py 115, 377, 653; not 299, 1141, 1417, 1736). *)
  Definition has_model (o : qobj) : bool :=
    match o with
    | QClass n _ => is_one_of ["QueryInstanceUncertainty"; "QueryInstanceQBC"; "QueryExpectedErrorReduction"] n
    | QUser _ _ => false
    end.

  (** How the main loop asks for a selection. *)
  Inductive ask :=
  | APerFold (class : string) (args select : kwargs)       (* an object made for the fold; keyword arguments of select *)
  | AModel (o : qobj)                                      (* select(..., model=self._model) *)
  | ASolver (o : qobj) (solver : cval)                     (* select(..., qp_solver=...) *)
  | APlain (o : qobj)                                      (* select(...) *)
  | ACustom (o : qobj) (args : kwargs).                    (* select(..., **custom args) *)

  (** 371-380, 390-404: the object of the fold, if one is made. *)
  Definition per_fold (c : conf) : res (option (string * kwargs)) :=
    if e_need c then
      match e_name c with
      | Some n =>
          if n =? "QueryInstanceGraphDensity" then
            match e_qmetric c with
            | Some VNone | None => Err GenericErr
            | Some m => _ <- make (QClass n [("metric", m)]) ;; Ok (Some (n, [("metric", m)]))
            end
          else if n =? "QueryInstanceQUIRE" then
            match e_qkwargs c with
            | None => Err AttrErr
            | Some kw => _ <- make (QClass n kw) ;; Ok (Some (n, kw))
            end
          else Ok None
      | None => Err AttrErr
      end
    else Ok None.

  Definition ask_of (c : conf) : res ask :=
    p <- per_fold c ;;
    let obj (k : qobj -> res ask) : res ask := match e_obj c with None => Err AttrErr | Some o => k o end in
    if negb (e_custom c) then
      match e_name c with
      | None => Err AttrErr
      | Some n =>
          if n =? "QueryInstanceGraphDensity" then
            match p with
            | None => Err NameErr                                           (* querfunction is not bound *)
            | Some (cl, a) => match e_qkwargs c with None => Err AttrErr | Some kw => Ok (APerFold cl a kw) end
            end
          else if n =? "QueryInstanceQUIRE" then
            match p with None => Err NameErr | Some (cl, a) => Ok (APerFold cl a []) end
          else
            obj (fun o =>
              if has_model o then Ok (AModel o)
              else if (n =? "QueryInstanceBMDR") || (n =? "QueryInstanceSPAL") then
                match e_solver c with None => Err AttrErr | Some v => Ok (ASolver o v) end
              else Ok (APlain o))
      end
    else obj (fun o => Ok (ACustom o (e_args c))).
End Conf.
