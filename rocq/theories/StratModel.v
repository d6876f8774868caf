(** Query strategies by name: [ToolBox.get_query_strategy] (toolbox.py 386-414) and the constructors it can reach
    (query_strategy/__init__.py 1-7).

    Simplifications: a name is an identifier (408 and 412 pass it to [exec] and [eval], which also accept other text); what a
    constructor does after its parameters are bound is an argument of the model; the names that Python itself gives to a
    package are left out except [__name__], [__doc__], [__path__] and [__file__]. *)
From Verif Require Import Base.
From Coq Require Import String.
Local Open Scope string_scope.

(** The parameters of a constructor besides [X] and [y]: those without a default, those with one, and, if there is a
    [**kwargs], the keywords the constructor looks for in it. *)
Record sig := { required : list string; optional : list string; extra : option (list string) }.
Definition closed (r o : list string) : sig := {| required := r; optional := o; extra := None |}.
Definition opened (r o e : list string) : sig := {| required := r; optional := o; extra := Some e |}.

(** What a name exported by the package is: a strategy, a function (none has a parameter [X]), or no callable at all. *)
Inductive export := Strategy (s : sig) | Function | NotCallable.

(** query_labels.py 788-797; 1102-1110, 1375-1383; multi_label.py 839-850 *)
Definition quire_words : list string := ["lambda"; "kernel"; "gamma"; "coef0"; "degree"].
Definition kernel_words : list string := ["kernel"; "gamma_ker"; "coef0"; "degree"].
Definition mmc_words : list string := ["random_state"; "logreg_param"; "br_base"; "base_clf"].

(** query_strategy/__init__.py 1-7 and query_labels.py 30-42, with the files of the package. *)
Definition exports : list (string * export) :=
  [("QueryInstanceUncertainty", Strategy (closed [] ["measure"]));                                  (* query_labels.py 109 *)
   ("QueryRandom", Strategy (closed [] []));                                                        (* 264 *)
   ("QueryInstanceRandom", Strategy (opened [] [] []));                                             (* interface.py 38 *)
   ("QueryInstanceQBC", Strategy (closed [] ["method"; "disagreement"]));                           (* 369 *)
   ("QueryExpectedErrorReduction", Strategy (closed [] []));                                        (* 631 *)
   ("QueryInstanceQUIRE", Strategy (opened ["train_idx"] [] quire_words));                          (* 780 *)
   ("QueryInstanceGraphDensity", Strategy (closed ["train_idx"] ["metric"]));                       (* 921 *)
   ("QueryInstanceBMDR", Strategy (opened [] ["beta"; "gamma"; "rho"] kernel_words));               (* 1076 *)
   ("QueryInstanceSPAL", Strategy (opened [] ["mu"; "gamma"; "rho"; "lambda_init"; "lambda_pace"] kernel_words));   (* 1346 *)
   ("QueryInstanceLAL", Strategy (opened [] ["mode"; "data_path"; "cls_est"; "train_slt"] []));     (* 1633 *)
   ("QueryInstanceCoresetGreedy", Strategy (closed ["train_idx"] ["distance"]));                    (* 1809 *)
   ("QueryInstanceDensityWeighted", Strategy (closed [] ["uncertainty_meansure"; "distance"; "beta"]));   (* 1913 *)
   ("QueryCostSensitiveHALC", Strategy (closed ["label_tree"] ["weights"]));                        (* cost_sensitive.py 263 *)
   ("QueryCostSensitiveRandom", Strategy (closed [] []));                                           (* 484 *)
   ("QueryCostSensitivePerformance", Strategy (closed [] []));                                      (* 560 *)
   ("QueryMultiLabelQUIRE", Strategy (opened [] [] quire_words));                                   (* multi_label.py 403 *)
   ("QueryMultiLabelAUDI", Strategy (closed [] []));                                                (* 528 *)
   ("QueryMultiLabelMMC", Strategy (opened [] [] mmc_words));                                       (* 835 *)
   ("QueryMultiLabelAdaptive", Strategy (closed [] ["base_clf"; "betas"; "random_state"]));         (* 1008 *)
   ("QueryMultiLabelRandom", Strategy (opened [] [] []));                                           (* base.py 95 *)
   ("QueryNoisyOraclesCEAL", Strategy (closed ["oracles"; "initial_labeled_indexes"] []));          (* noisy_oracles.py 212 *)
   ("QueryNoisyOraclesIEthresh", Strategy (opened ["oracles"; "initial_labeled_indexes"] [] ["epsilon"]));   (* 495 *)
   ("QueryNoisyOraclesAll", Strategy (closed ["oracles"] []));                                      (* 595 *)
   ("QueryNoisyOraclesRandom", Strategy (closed [] ["oracles"]));                                   (* 388 *)
   ("QueryFeatureAFASMC", Strategy (closed [] ["train_idx"]));                                      (* query_features.py 417 *)
   ("QueryFeatureRandom", Strategy (opened [] [] []));                                              (* base.py 156 *)
   ("QueryFeatureStability", Strategy (closed [] ["train_idx"; "rank_arr"]));                       (* 590 *)
   ("QueryTypeAURO", Strategy (closed [] []));                                                      (* query_type.py 94 *)
   ("check_query_type", Function); ("select_Knapsack_01", Function); ("select_POSS", Function);
   ("hierarchical_multilabel_mark", Function);
   ("base", NotCallable); ("query_labels", NotCallable); ("cost_sensitive", NotCallable); ("multi_label", NotCallable);
   ("noisy_oracles", NotCallable); ("query_features", NotCallable); ("query_type", NotCallable);
   ("__name__", NotCallable); ("__doc__", NotCallable); ("__path__", NotCallable); ("__file__", NotCallable)].

Fixpoint look {A} (k : string) (l : list (string * A)) : option A :=
  match l with
  | [] => None
  | (k', v) :: l => if String.eqb k k' then Some v else look k l
  end.
Definition given {A} (k : string) (l : list (string * A)) : bool := existsb (fun p => String.eqb k (fst p)) l.

Section Get.
  Context {V D Obj : Type}.
  (** A keyword and its value. *)
  Definition kwargs := list (string * V).
  (** The body of the constructor of a strategy, with [X] and [y] and the value of each parameter it knows, [None] where
      its default is used. *)
  Variable body : string -> D -> D -> list (string * option V) -> res Obj.

  Definition names_of (s : sig) : list string := required s ++ optional s.
  Definition words_of (s : sig) : list string := names_of s ++ match extra s with Some e => e | None => [] end.
  (** Python's binding of keywords to parameters. *)
  Definition bind_kwargs (s : sig) (kw : kwargs) : res (list (string * option V)) :=
    if forallb (fun k => given k kw) (required s)
       && match extra s with
          | Some _ => true
          | None => forallb (fun p => existsb (String.eqb (fst p)) (names_of s)) kw
          end
    then Ok (map (fun k => (k, look k kw)) (words_of s))
    else Err TypeErr.

  (** 386-414. [X]: [self._X], an attribute that a toolbox made without features does not have (toolbox.py 122-124). *)
  Definition get_query_strategy (X : option D) (y : D) (name : string) (kw : kwargs) : res Obj :=
    match look name exports with
    | None => Err KeyErr                                                                   (* 407-410 *)
    | Some e =>
        match X with
        | None => Err AttrErr                                                              (* 412: self._X *)
        | Some x =>
            if given "X" kw || given "y" kw then Err TypeErr                               (* 412: X=…, **kwargs *)
            else match e with
                 | Strategy s => a <- bind_kwargs s kw ;; body name x y a
                 | Function => Err TypeErr                                                 (* no parameter X *)
                 | NotCallable => Err TypeErr
                 end
        end
    end.
End Get.
