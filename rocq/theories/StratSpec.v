(** Words for C119. *)
From Verif Require Import Base.
From Coq Require Import String.
Local Open Scope string_scope.

(** The parameters of the query strategies besides [X] and [y], from the documentation of the classes: those that must be
    given, those that may be. *)
Definition documented : list (string * (list string * list string)) :=
  [("QueryInstanceUncertainty", ([], ["measure"]));
   ("QueryRandom", ([], []));
   ("QueryInstanceRandom", ([], []));
   ("QueryInstanceQBC", ([], ["method"; "disagreement"]));
   ("QueryExpectedErrorReduction", ([], []));
   ("QueryInstanceQUIRE", (["train_idx"], ["lambda"; "kernel"; "degree"; "gamma"; "coef0"]));
   ("QueryInstanceGraphDensity", (["train_idx"], ["metric"]));
   ("QueryInstanceBMDR", ([], ["beta"; "gamma"; "rho"; "kernel"; "degree"; "gamma_ker"; "coef0"]));
   ("QueryInstanceSPAL", ([], ["mu"; "gamma"; "rho"; "lambda_init"; "lambda_pace"; "kernel"; "degree"; "gamma_ker"; "coef0"]));
   ("QueryInstanceLAL", ([], ["mode"; "data_path"; "cls_est"; "train_slt"]));
   ("QueryInstanceCoresetGreedy", (["train_idx"], ["distance"]));
   ("QueryInstanceDensityWeighted", ([], ["uncertainty_meansure"; "distance"; "beta"]));
   ("QueryCostSensitiveHALC", (["label_tree"], ["weights"]));
   ("QueryCostSensitiveRandom", ([], []));
   ("QueryCostSensitivePerformance", ([], []));
   ("QueryMultiLabelQUIRE", ([], ["lambda"; "kernel"; "degree"; "gamma"; "coef0"]));
   ("QueryMultiLabelMMC", ([], ["br_base"; "base_clf"; "logreg_param"; "random_state"]));
   ("QueryMultiLabelAdaptive", ([], ["base_clf"; "betas"; "random_state"]));
   ("QueryMultiLabelRandom", ([], []));
   ("QueryNoisyOraclesCEAL", (["oracles"; "initial_labeled_indexes"], []));
   ("QueryNoisyOraclesIEthresh", (["oracles"; "initial_labeled_indexes"], ["epsilon"]));
   ("QueryNoisyOraclesAll", (["oracles"], []));
   ("QueryNoisyOraclesRandom", (["oracles"], []));
   ("QueryFeatureAFASMC", ([], ["train_idx"]));
   ("QueryFeatureRandom", ([], []));
   ("QueryFeatureStability", ([], ["train_idx"; "rank_arr"]));
   ("QueryTypeAURO", ([], []))].
(** [QueryMultiLabelAUDI] has the documented parameter [initial_labeled_indexes] as well: see [C119_audi_refuted]. *)
Definition strategies : list string := "QueryMultiLabelAUDI" :: map fst documented.
(** Exported by the package, and no strategies. *)
Definition not_strategies : list string :=
  ["check_query_type"; "select_Knapsack_01"; "select_POSS"; "hierarchical_multilabel_mark";
   "base"; "query_labels"; "cost_sensitive"; "multi_label"; "noisy_oracles"; "query_features"; "query_type";
   "__name__"; "__doc__"; "__path__"; "__file__"].
(** The strategies that take any further keyword. *)
Definition careless : list string :=
  ["QueryInstanceRandom"; "QueryInstanceQUIRE"; "QueryInstanceBMDR"; "QueryInstanceSPAL"; "QueryInstanceLAL";
   "QueryMultiLabelQUIRE"; "QueryMultiLabelMMC"; "QueryMultiLabelRandom"; "QueryNoisyOraclesIEthresh"; "QueryFeatureRandom"].

(** The keywords of a call, each once. *)
Definition keywords {V} (kw : list (string * V)) : list string := map fst kw.
(** [given] are the values that arrive at the constructor: those of the call. *)
Definition arrives {V} (kw : list (string * V)) (args : list (string * option V)) : Prop :=
  forall k v, In (k, Some v) args <-> In (k, v) kw.
