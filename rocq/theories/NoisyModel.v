(** Model of the strategies for noisy oracles, alipy/query_strategy/noisy_oracles.py 173-630 with
    base.py 37-50.

    Simplifications: indexes of instances are non-negative integers, labels are integers or strings,
    probabilities, costs and distances exact rationals; X and y are given; training of the model ([select]
    only trains it and computes [predict]) is left out. [kneighbors] of scikit-learn, the square root and the
    critical value of Student's t are arguments. A given list of oracles is not modified afterwards; a pool
    ([Oracles]) may get further oracles. *)
From Verif Require Import Base IndexModel Dict OracleModel QueryModel.
From Verif Require MiscModel.
From Coq Require Import String QArith.
Local Open Scope Z_scope.

(** base.py 40-48: the oracles given to a strategy, a list or a pool; as they are at the time of a call. *)
Inductive crowd := Listed (os : list oracle) | Pooled (p : OracleModel.pool).

(** base.py 49: [_oracles_iterset], positions or names. For a pool it is the live view of the dictionary's keys. *)
Definition iterset (c : crowd) : list key :=
  match c with
  | Listed os => default_indexes (List.length os)
  | Pooled p => map (fun e => KStr (fst e)) (p_dict p)
  end.
(** base.py 50: [_oracle_ind_name_dict], fixed when the strategy is made: the identifiers by row. *)
Definition row_names (c : crowd) : list key := iterset c.

(** [oracles[name]] *)
Definition member (c : crowd) (name : key) : res oracle :=
  match c, name with
  | Listed os, KInt i => py_nth os (Z.to_nat i)
  | Pooled p, KStr s => match dget String.eqb s (p_dict p) with Some o => Ok o | None => Err KeyErr end
  | Listed _, KStr _ => Err TypeErr
  | Pooled _, KInt _ => Err KeyErr
  end.

(** ** QueryNoisyOraclesCEAL, 173-382 *)

(** 212-222: the strategy; [c_knn n x] are the positions (into the initial indexes) of the [n] nearest initial
    instances of [x] with their distances, nearest first. *)
Record ceal := { c_y : list key; c_names : list key; c_ini : list Z; c_knn : nat -> Z -> list (nat * Q) }.
Definition new_ceal (y : list key) (c : crowd) (ini : list Z) (knn : nat -> Z -> list (nat * Q)) : ceal :=
  {| c_y := y; c_names := row_names c; c_ini := ini; c_knn := knn |}.

(** [labels[i] == self.y[index[i]]] *)
Definition is_right (y : list key) (l : key) (x : Z) : res bool :=
  t <- py_nth y (Z.to_nat x) ;; Ok (key_eqb l t).

(** 358-371: [q_i(x)], the sum of the distances of the neighbours labelled correctly over their number. *)
Definition expertise (s : ceal) (o : oracle) (nn : list (nat * Q)) (k : nat) : res Q :=
  ids <- mapM (fun e => py_nth (c_ini s) (fst e)) nn ;;                               (* 363 *)
  r <- or_query o (map KInt ids) ;;                                                   (* 368 *)
  ok <- mapM (fun e => is_right (c_y s) (fst e) (snd e)) (combine (fst r) ids) ;;
  Ok (MiscModel.qsum (map (fun e : nat * Q * bool => if snd e then snd (fst e) else 0%Q) (combine nn ok)) / of_nat k)%Q.   (* 369-370 *)

(** 373-378: [c_i], the cost of a labeller. *)
Definition labeller_cost (s : ceal) (o : oracle) (L : list Z) (eval_cost : bool) : res Q :=
  r <- or_query o (map KInt L) ;;                                                     (* 373 *)
  if eval_cost then
    ok <- mapM (fun e => is_right (c_y s) (fst e) (snd e)) (combine (fst r) L) ;;
    match L with
    | [] => Err ZeroDivErr
    | _ => Ok (of_nat (count (fun b => b) ok) / of_nat (List.length L))%Q             (* 375 *)
    end
  else py_nth (snd r) 0.                                                              (* 377 *)

(** 378: the value of one oracle for one instance. *)
Definition worth (score unc cost : Q) : Q := (score * unc / MiscModel.qmax cost (1 # 10000))%Q.

(** 308-382 [_calc_Q_table]; the columns (one for each unlabelled instance) of the table. With at most one unlabelled
    instance the indexes themselves are returned instead of a pair (344-345), on which the caller fails. A
    number of neighbours below one is refused by [kneighbors]. *)
Definition q_column (s : ceal) (c : crowd) (L : list Z) (n : Z) (eval_cost : bool) (unc : Q) (x : Z) : res (list Q) :=
  _ <- guard (0 <? n) ValueErr ;;                                                     (* 357-359 *)
  let nn := c_knn s (Z.to_nat n) x in
  mapM (fun name =>
          o <- member c name ;;
          score <- expertise s o nn (Z.to_nat n) ;;
          cost <- labeller_cost s o L eval_cost ;;
          Ok (worth score unc cost)) (iterset c).
Definition q_columns (np : numpy) (s : ceal) (c : crowd) (L U : list Z) (cols : nat) (predict : list (list Q)) (n : Z)
  (eval_cost : bool) : res (list (list Q)) :=
  rx <- mapM (least_confident_score np cols) predict ;;                               (* 350-351 *)
  mapM (fun e => unc <- py_nth rx (fst e) ;; q_column s c L n eval_cost unc (snd e))
       (combine (seq 0 (List.length U)) U).                                           (* 352-378 *)

(** The rows of the table, one after the other: the order in which [np.argmax] sees it. *)
Definition row_major (rows : nat) (columns : list (list Q)) : list Q :=
  flat_map (fun r => map (fun col => nth r col 0%Q) columns) (seq 0 rows).

(** 266-306 [select_by_prediction_mat]; [n_neighbors] and [eval_cost] are the keyword arguments. Line 296 reads
    the key just removed by 295, so that the given [eval_cost] is not used. *)
Definition ceal_by_mat (np : numpy) (s : ceal) (c : crowd) (L U : list Z) (cols : nat) (predict : list (list Q))
  (n_neighbors : option Z) (eval_cost : option bool) : res (list Z * list key) :=
  let n := Z.min (match n_neighbors with Some n => n | None => 10 end)
                 (Z.of_nat (List.length (c_ini s)) - 1) in                            (* 295 *)
  let eval_cost := false in                                                           (* 296 *)
  if Nat.leb (List.length U) 1 then Err ValueErr                                      (* 344-345, 297 *)
  else
    columns <- q_columns np s c L U cols predict n eval_cost ;;
    best <- argmax (row_major (List.length (iterset c)) columns) ;;                   (* 300 *)
    name <- match nth_error (c_names s) (Nat.div best (List.length U)) with
            | Some k => Ok k | None => Err KeyErr end ;;                              (* 301 *)
    x <- py_nth U (Nat.modulo best (List.length U)) ;;                                (* 304 *)
    Ok ([x], [name]).

(** 224-264 [select] for a trained model with predictions [predict]. *)
Definition ceal_select (np : numpy) (s : ceal) (c : crowd) (L U : list Z) (cols : nat) (predict : list (list Q))
  (n_neighbors : option Z) (eval_cost : bool) : res (list Z * list key) :=
  let n := Z.min (match n_neighbors with Some n => n | None => 10 end)
                 (Z.of_nat (List.length (c_ini s)) - 1) in                            (* 262 *)
  ceal_by_mat np s c L U cols predict (Some n) (Some eval_cost).                      (* 263-264 *)

(** ** Selection of an instance by uncertainty, 385-457 *)

(** What [select_by_prediction_mat] gives back: instance and oracles, or the bare indexes (441-442). *)
Inductive picked := Bare (U : list Z) | Asked (x : list Z) (oracles : list key).

(** 446: the instance. *)
Definition uncertain_one (np : numpy) (U : list Z) (predict : arr) : res Z :=
  l <- snd (select_by_prediction_mat np LeastConfident U predict 1) ;; py_nth l 0.

(** ** QueryNoisyOraclesIEthresh, 460-574 *)

(** [scipy.stats.t.isf(alpha / 2, df)]: not a number for df = 0. *)
Record stats := { sqrt : Q -> Q; t_crit : nat -> option Q }.

(** 495-506: the strategy. [_UI] may hold a not-a-number ([None]). *)
Record ie := {
  ie_names : list key;                    (* _oracle_ind_name_dict *)
  ie_hist : list (list (Z * key));        (* _oracles_history *)
  ie_votes : list (Z * key);              (* _majority_vote_results *)
  ie_ui : list (option Q);                (* _UI *)
  ie_eps : Q
}.
Definition new_ie (c : crowd) (epsilon : option Q) : ie :=
  let n := List.length (iterset c) in
  {| ie_names := row_names c; ie_hist := repeat [] n; ie_votes := []; ie_ui := repeat (Some 1%Q) n;
     ie_eps := match epsilon with Some e => e | None => (8 # 10)%Q end |}.             (* 506 *)

Definition with_hist (s : ie) h := {| ie_names := ie_names s; ie_hist := h; ie_votes := ie_votes s; ie_ui := ie_ui s; ie_eps := ie_eps s |}.
Definition with_votes (s : ie) v := {| ie_names := ie_names s; ie_hist := ie_hist s; ie_votes := v; ie_ui := ie_ui s; ie_eps := ie_eps s |}.
Definition with_ui (s : ie) u := {| ie_names := ie_names s; ie_hist := ie_hist s; ie_votes := ie_votes s; ie_ui := u; ie_eps := ie_eps s |}.

(** [a[i] = v] *)
Fixpoint put {A} (l : list A) (i : nat) (v : A) : list A :=
  match l, i with
  | [], _ => []
  | _ :: l', O => v :: l'
  | x :: l', S i' => x :: put l' i' v
  end.

(** 530-535: 1 for each instance on which the oracle said what was voted, 0 for the others. *)
Definition rewards (h : list (Z * key)) (votes : list (Z * key)) : res (list Q) :=
  mapM (fun e => match dget Z.eqb (fst e) votes with
                 | Some v => Ok (if key_eqb (snd e) v then 1 else 0)%Q
                 | None => Err KeyErr
                 end) h.

(** 508-541 [_calc_uia]; [n] is the number of oracles, not of rewards. [np.std] is the square root of the
    variance; the mean of nothing is not a number. *)
Definition calc_uia (st : stats) (n : nat) (h votes : list (Z * key)) : res (option Q) :=
  rs <- rewards h votes ;;
  Ok (match t_crit st (n - 1), rs with
      | Some t, _ :: _ =>
          Some (MiscModel.qmean rs + t * sqrt st (MiscModel.qvar rs) / sqrt st (of_nat n))%Q   (* 538-540 *)
      | _, _ => None
      end).

(** [np.max]: not a number as soon as one entry is not. *)
Fixpoint max_of (l : list (option Q)) : option Q :=
  match l with
  | [] => None
  | [x] => x
  | x :: l' => match x, max_of l' with Some a, Some b => Some (MiscModel.qmax a b) | _, _ => None end
  end.

(** 556-557: the oracles asked. Comparisons with a not-a-number are false. *)
Definition chosen (eps : Q) (ui : list (option Q)) : list nat :=
  match max_of ui with
  | None => []
  | Some m =>
      filter (fun i => match nth i ui None with Some u => Qle_bool (eps * m) u | None => false end)
             (seq 0 (List.length ui))
  end.

(** 560-564: the loop asking the oracles; the history is kept when one of them fails. *)
Fixpoint ask_loop (c : crowd) (names : list key) (x : Z) (sel : list nat) (h : list (list (Z * key)))
  : list (list (Z * key)) * res (list key) :=
  match sel with
  | [] => (h, Ok [])
  | i :: sel' =>
      match (name <- (match nth_error names i with Some k => Ok k | None => Err KeyErr end) ;;
             o <- member c name ;;
             r <- or_query o [KInt x] ;; py_nth (fst r) 0) with
      | Err e => (h, Err e)
      | Ok l =>
          let '(h', r) := ask_loop c names x sel' (put h i (dset Z.eqb x l (nth i h []))) in
          (h', rmap (cons l) r)
      end
  end.

(** 570-571: the loop updating [_UI]. *)
Fixpoint ui_loop (st : stats) (n : nat) (sel : list nat) (h : list (list (Z * key))) (votes : list (Z * key))
  (ui : list (option Q)) : list (option Q) * res unit :=
  match sel with
  | [] => (ui, Ok tt)
  | i :: sel' =>
      match calc_uia st n (nth i h []) votes with
      | Err e => (ui, Err e)
      | Ok u => ui_loop st n sel' h votes (put ui i u)
      end
  end.

(** 543-574 [select_by_given_instance]. Lines 566-568 compute rewards that are not used (a list compared with a
    label is False). *)
Definition ie_given (st : stats) (c : crowd) (s : ie) (x : Z) : ie * res (list key) :=
  match ie_ui s with
  | [] => (s, Err ValueErr)                                                            (* 556: np.max([]) *)
  | _ =>
      let sel := chosen (ie_eps s) (ie_ui s) in
      match ask_loop c (ie_names s) x sel (ie_hist s) with
      | (h, Err e) => (with_hist s h, Err e)
      | (h, Ok ls) =>
          let s := with_hist s h in
          match majority_vote ls None with
          | Err e => (s, Err e)                                                        (* 565: no oracle *)
          | Ok (_, v) =>
              let s := with_votes s (dset Z.eqb x v (ie_votes s)) in                   (* 569 *)
              match ui_loop st (List.length (iterset c)) sel h (ie_votes s) (ie_ui s) with
              | (ui, Err e) => (with_ui s ui, Err e)
              | (ui, Ok _) => (with_ui s ui, mapM (fun i => match nth_error (ie_names s) i with
                                                            | Some k => Ok k | None => Err KeyErr end) sel)
              end
          end
      end
  end.

(** 420-454 [select_by_prediction_mat] of IEthresh. *)
Definition ie_by_mat (np : numpy) (st : stats) (c : crowd) (s : ie) (U : list Z) (predict : arr) : ie * res picked :=
  if Nat.leb (List.length U) 1 then (s, Ok (Bare U))                                   (* 441-442 *)
  else match uncertain_one np U predict with
       | Err e => (s, Err e)
       | Ok x => let '(s', r) := ie_given st c s x in (s', rmap (Asked [x]) r)
       end.

(** A life of the strategy: the instances it is asked about, and the oracles as they are at each call. *)
Definition ie_life (st : stats) (s : ie) (calls : list (crowd * Z)) : ie :=
  fold_left (fun s e => fst (ie_given st (fst e) s (snd e))) calls s.

(** ** QueryNoisyOraclesAll 577-611, QueryNoisyOraclesRandom 614-630 *)

(** 611: all identifiers. *)
Definition all_given (names : list key) : list key := names.
(** 630: [draw] is the number drawn from [range(len(oracles))]; without oracles numpy refuses. *)
Definition random_given (c : crowd) (names : list key) (draw : nat) : res (list key) :=
  _ <- guard (Nat.ltb 0 (List.length (iterset c))) ValueErr ;;
  match nth_error names draw with Some k => Ok [k] | None => Err KeyErr end.
Definition plain_by_mat (np : numpy) (U : list Z) (predict : arr) (given : res (list key)) : res picked :=
  if Nat.leb (List.length U) 1 then Ok (Bare U)
  else x <- uncertain_one np U predict ;; rmap (Asked [x]) given.
