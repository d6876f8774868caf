(** C58, C77 and C78: the experiment analyser. *)
From Verif Require Import Base BaseFacts StateModel StateProofs MiscModel MiscSpec FeatureModel AnalyserModel AnalyserSpec AnalyserProofs AnalyserProofs2 AnalyserProofs3 AnalyserProofs4.
From Coq Require Import String QArith Qround Qreduction Lqa.
Local Open Scope Z_scope.

(** States and runs for the examples. *)
Definition st (p : Q) (c : option Q) (b : nat) : astate :=
  {| a_dict := ("performance"%string, AVal (Num p)) :: match c with Some q => [("cost"%string, AVal (Num q))] | None => [] end; a_batch := b |}.
Definition run1 : arun := {| r_ip := Some (AVal (Num (1#2))); r_states := [st (3#4) (Some 2%Q) 1; st (7#8) (Some 1%Q) 1; st 1 (Some 4%Q) 1] |}.
Definition run2 : arun := {| r_ip := Some (AVal (Num (1#4))); r_states := [st (1#2) (Some 1%Q) 1; st (3#4) (Some 3%Q) 2] |}.
Definition run3 : arun := {| r_ip := None; r_states := [st (1#2) None 1; st (3#4) None 1] |}.

(** ** C58 *)

(** One key: line [i] of the matrix is the initial point of run [i], if it has one, followed by the value of every state in
    order; a missing value is refused. *)
Theorem C58_extract k runs :
  ((forall r s, In r runs -> In s (r_states r) -> exists v, holds k s v) ->
   exists m, extract_one k runs = Ok m /\
     Forall2 (fun r line => exists vs, line = initial (r_ip r) ++ vs /\ Forall2 (holds k) (r_states r) vs) runs m) /\
  ((exists r s, In r runs /\ In s (r_states r) /\ sget k (a_dict s) = None) -> extract_one k runs = Err ValueErr).
Proof. split; [apply extract_one_ok|apply extract_one_err]. Qed.
Print Assumptions C58_extract.
Example C58_extract_example : extract_one "performance" [run1; run2] =
    Ok [[AVal (Num (1#2)); AVal (Num (3#4)); AVal (Num (7#8)); AVal (Num 1)]; [AVal (Num (1#4)); AVal (Num (1#2)); AVal (Num (3#4))]]
  /\ extract_one "cost" [run1; run3] = Err ValueErr.
Proof. split; reflexivity. Qed.

(** Several keys: the values of every state in the order of the keys; the initial points are not in it. *)
Theorem C58_extract_many ks runs :
  ((forall r s k, In r runs -> In s (r_states r) -> In k ks -> exists v, holds k s v) ->
   exists m, extract_many ks runs = Ok m /\
     Forall2 (fun r line => Forall2 (fun s t => Forall2 (fun k v => holds k s v) ks t) (r_states r) line) runs m) /\
  ((exists r s k, In r runs /\ In s (r_states r) /\ In k ks /\ sget k (a_dict s) = None) -> extract_many ks runs = Err ValueErr).
Proof. split; [apply extract_many_ok|apply extract_many_err]. Qed.
Print Assumptions C58_extract_many.
Example C58_extract_many_example : extract_many ["cost"%string; "performance"%string] [run2] =
  Ok [[[AVal (Num 1); AVal (Num (1#2))]; [AVal (Num 3); AVal (Num (3#4))]]].
Proof. reflexivity. Qed.

(** Filling a container: the runs are appended in order, a run read from a file whose batch sizes are not regular gives a
    warning; the first bad source stops, and the runs before it stay. *)
Theorem C58_container c pre runs : Forall2 gives pre runs ->
  (exists ws, add_folds c pre = (c ++ runs, Ok ws) /\
     (ws = [] <-> forall r, In (APath (FRun r)) pre -> exists b, steady b r)) /\
  (forall post, add_folds c (pre ++ AWrong :: post) = (c ++ runs, Err TypeErr) /\
     add_folds c (pre ++ APath FObject :: post) = (c ++ runs, Err AssertErr) /\
     add_folds c (pre ++ APath FBroken :: post) = (c ++ runs, Err FileErr)).
Proof.
  intro F. split.
  - destruct (add_folds_ok pre c runs F) as (ws & E & L). exists ws. split; auto.
    set (bad := fun s => match s with APath (FRun r) => match check_batch r with Some _ => false | None => true end | _ => false end) in *.
    split.
    + intros -> r Hr. destruct (check_batch r) as [b|] eqn:EB; [exists b; now apply check_batch_iff|]. exfalso.
      assert (I : In (APath (FRun r)) (filter bad pre)) by (apply filter_In; split; [auto|cbn; now rewrite EB]).
      destruct (filter bad pre); [destruct I|discriminate].
    + intro H. assert (N : filter bad pre = []).
      { destruct (filter bad pre) as [|s l] eqn:EF; [reflexivity|]. exfalso. assert (I : In s (filter bad pre)) by (rewrite EF; now left).
        apply filter_In in I. destruct I as [I B]. destruct s as [r|[r| |]|]; cbn in B; try discriminate.
        destruct (H r I) as (b & S). apply check_batch_iff in S. rewrite S in B. discriminate. }
      rewrite N in L. destruct ws; [reflexivity|discriminate].
  - intro post. repeat split; apply add_folds_err; auto.
Qed.
Print Assumptions C58_container.
Example C58_container_example :
  add_folds [] [AObject run1; APath (FRun run2)] = ([run1; run2], Ok []) /\
  add_folds [] [APath (FRun {| r_ip := None; r_states := [st 0 None 1; st 0 None 2; st 0 None 1] |}); AObject run2; AWrong; AObject run1] =
    ([{| r_ip := None; r_states := [st 0 None 1; st 0 None 2; st 0 None 1] |}; run2], Err TypeErr).
Proof. split; reflexivity. Qed.

(** The summary of a method given by runs: the effective length is the smallest number of states of a run; the mean and the
    deviation are those of the mean performances of the runs, each over its initial point and its first [n] states; the costs
    are those of the first [n] states, 0 where no cost is recorded; the batch size is reported exactly if all states but the
    last of all runs share it. *)
Theorem C58_summary runs n data : runs <> [] -> shortest n (map r_states runs) -> Forall2 (performances n) runs data ->
  (forall r, In r data -> r <> []) -> (forall r r', In r runs -> In r' runs -> r_ip r = None -> r_ip r' = None) ->
  exists s, stateio_summary runs = Ok s /\ su_len s = n /\ su_folds s = List.length runs /\
    is_num (su_mean s) (mean (map mean data)) /\ is_num (su_var s) (variance (map mean data)) /\
    su_ip s = r_ip (last runs {| r_ip := None; r_states := [] |}) /\
    Forall2 (fun r cs => List.length cs = n /\ forall j c, nth_error cs j = Some c ->
       exists st, nth_error (r_states r) j = Some st /\ (holds "cost" st c \/ sget "cost"%string (a_dict st) = None /\ c = AVal (Num 0))) runs (su_costs s) /\
    (forall b, su_flag s = true /\ su_batch s = b <-> forall r, In r runs -> steady b r) /\
    (su_flag s = false -> su_batch s = 0%nat).
Proof. apply summary_lemma. Qed.
Print Assumptions C58_summary.
Example C58_summary_example : exists s, stateio_summary [run1; run2] = Ok s /\ su_len s = 2%nat /\
  is_num (su_mean s) (29#48) /\ su_flag s = true /\ su_batch s = 1%nat /\ su_ip s = Some (AVal (Num (1#4))).
Proof. eexists. split; [reflexivity|]. repeat split. eexists. split; reflexivity. Qed.

(** As soon as some runs have an initial point and others do not, there is no summary. *)
Theorem C58_mixed_refuted runs n data : shortest n (map r_states runs) -> Forall2 (performances n) runs data ->
  (exists r, In r runs /\ r_ip r = None) -> (exists r, In r runs /\ r_ip r <> None) -> stateio_summary runs = Err ValueErr.
Proof. apply summary_mixed. Qed.
Print Assumptions C58_mixed_refuted.
Example C58_mixed_refuted_example : stateio_summary [run1; run3] = Err ValueErr.
Proof. reflexivity. Qed.

(** The summary of a method given by lists of performances. *)
Theorem C58_lists m n : table m n -> (0 < n)%nat ->
  exists s, list_summary1 (map (map (fun q => INum (Num q))) m) = Ok s /\ su_len s = n /\ su_folds s = List.length m /\
    is_num (su_mean s) (mean (List.concat m)) /\ is_num (su_var s) (variance (List.concat m)) /\ su_ip s = None.
Proof. apply list_summary_lemma. Qed.
Print Assumptions C58_lists.

(** The summary of a method given by lists of (cost, performance) pairs, where a cost may be a list. *)
Theorem C58_pairs (folds : list (list (list Q * Q))) : folds <> [] -> (forall f, In f folds -> f <> []) ->
  exists s, list_summary2 (map (map (fun t => ITup [map Num (fst t); [Num (snd t)]])) folds) = Ok s /\
    shortest (su_len s) folds /\ su_folds s = List.length folds /\
    is_num (su_mean s) (mean (map (fun f => mean (map snd f)) folds)) /\
    is_num (su_var s) (variance (map (fun f => mean (map snd f)) folds)) /\ su_ip s = None /\
    Forall2 (fun f c => exists x, c = [AVal x] /\ is_num x (total (spent f))) folds (su_costs s).
Proof. apply pairs_summary. Qed.
Print Assumptions C58_pairs.
Example C58_pairs_example : exists s, list_summary2 [[ITup [[Num 1; Num 2]; [Num (1#2)]]; ITup [[Num 4]; [Num 1]]]; [ITup [[Num 1]; [Num (1#4)]]]] = Ok s /\
  su_len s = 1%nat /\ is_num (su_mean s) (1#2) /\ su_costs s = [[AVal (Num 7)]; [AVal (Num 1)]].
Proof. eexists. split; [reflexivity|]. repeat split. eexists. split; reflexivity. Qed.

(** The same table of performances has the same mean, given as runs or as lists. *)
Theorem C58_same_mean runs n m : table m n -> (0 < n)%nat ->
  Forall2 (fun r line => r_ip r = None /\ List.length (r_states r) = n /\ performances n r line) runs m ->
  exists s s', stateio_summary runs = Ok s /\ list_summary1 (map (map (fun q => INum (Num q))) m) = Ok s' /\
    is_num (su_mean s) (mean (map mean m)) /\ is_num (su_mean s') (mean (map mean m)) /\
    is_num (su_var s) (variance (map mean m)) /\ is_num (su_var s') (variance (List.concat m)).
Proof.
  intros T Hn F. destruct (list_summary_lemma m n T Hn) as (s' & E' & _ & _ & M' & V' & _).
  assert (NR : runs <> []) by (intro X; subst; inversion F; subst; destruct T; congruence).
  destruct (summary_lemma runs n m) as (s & E & _ & _ & M & V & _).
  - auto.
  - assert (L : forall r, In r runs -> List.length (r_states r) = n).
    { clear - F. induction F as [|r l runs m (_ & E & _) F IH]; [intros r []|]. intros x [<-|Hx]; auto. }
    split.
    + intros l Hl. apply in_map_iff in Hl. destruct Hl as (r & <- & Hr). rewrite (L r Hr). lia.
    + destruct runs as [|r runs]; [congruence|]. exists (r_states r). split; [now left|apply L; now left].
  - eapply F2_impl; [|exact F]. intros x y (_ & _ & P). exact P.
  - intros r Hr X. subst. destruct T as [_ L]. specialize (L [] Hr). cbn in L. lia.
  - assert (I : forall r, In r runs -> r_ip r = None) by (clear - F; induction F as [|r l runs m (E & _ & _) F IH]; [intros r []|intros x [<-|Hx]; auto]). auto.
  - exists s, s'. repeat split; auto. destruct M' as (p & -> & Ep). exists p. split; [reflexivity|]. rewrite Ep. now apply mean_concat with n.
Qed.
Print Assumptions C58_same_mean.
(** ... but not the same deviation. *)
Theorem C58_std_refuted : exists runs m n s s', table m n /\
  Forall2 (fun r line => r_ip r = None /\ List.length (r_states r) = n /\ performances n r line) runs m /\
  stateio_summary runs = Ok s /\ list_summary1 (map (map (fun q => INum (Num q))) m) = Ok s' /\
  is_num (su_var s) 0 /\ is_num (su_var s') (1#4).
Proof.
  exists [{| r_ip := None; r_states := [st 0 None 1; st 1 None 1] |}; {| r_ip := None; r_states := [st 0 None 1; st 1 None 1] |}], [[0%Q; 1%Q]; [0%Q; 1%Q]], 2%nat.
  assert (P : performances 2 {| r_ip := None; r_states := [st 0 None 1; st 1 None 1] |} [0%Q; 1%Q]).
  { exists [], [0%Q; 1%Q]. repeat split. intros [|[|j]] q H; cbn in H; [injection H as <-|injection H as <-|destruct j; discriminate]; eexists; split; reflexivity. }
  do 2 eexists. split; [|split; [|split; [reflexivity|split; [reflexivity|split]]]].
  - split; [discriminate|]. intros r [<-|[<-|[]]]; reflexivity.
  - repeat constructor; auto.
  - eexists. split; reflexivity.
  - eexists. split; reflexivity.
Qed.
Print Assumptions C58_std_refuted.

(** The curves against the cost. The effective cost is the smallest total of a fold of any method. The curve of a method has
    points at equal distances from the largest first cost up to the effective cost (excluded), all of them covered by every
    fold, so that the filler value of the interpolation is never used; at each the mean over the folds of the interpolation of
    the accumulated costs against the performances, after the start point. *)
Theorem C58_cost_curves interp a shift start interval all data ips :
  Forall2 (fun p m => fst p = fst m /\ shows_costs (snd p) (snd m)) (an_data a) data -> an_all a = Some all -> data <> [] ->
  Forall2 (fun (m : string * list (list (list Q * Q))) ip => starts all (an_sum a) start (fst m) ip) data ips ->
  (forall m, In m data -> snd m <> []) ->
  (forall m f, In m data -> In f (snd m) -> f <> [] /\ (forall t c, In t f -> In c (fst t) -> (0 <= c)%Q)) ->
  exists eff, least_of eff (List.concat (map (fun m => map (fun f => total (spent f)) (snd m)) data)) /\
    forall step, step = match interval with Some i => i | None => (eff / 100)%Q end -> (0 < step)%Q ->
    exists cs, cost_plot interp a shift start interval = Ok cs /\ List.length cs = List.length data /\
      forall k m ip, nth_error data k = Some m -> nth_error ips k = Some ip ->
        exists xs ys, nth_error cs k = Some (fst m, xs, ys) /\ cost_averages interp ip eff step shift (snd m) (xs, ys).
Proof. apply cost_plot_lemma. Qed.
Print Assumptions C58_cost_curves.
(** With a toy interpolation that returns the first performance at or after the cost. *)
Definition next_perf (xs ys : list Q) (x : Q) : Q :=
  match find (fun p => Qle_bool x (fst p)) (combine xs ys) with Some p => snd p | None => (1#10)%Q end.
Example C58_cost_curves_example :
  let a := fst (cost_add an_new "m" (MRuns [run1; run2])) in
  cost_plot next_perf a 0 None (Some 2%Q) =
    Ok [("m"%string, [0 + inject_Z 0 * 2 + 0; 0 + inject_Z 1 * 2 + 0]%Q,
         [qmean [1#4; 1#4]; qmean [3#4; 3#4]]%Q)] /\
  (exists r, cost_plot next_perf a 0 None None = Ok [r] /\ List.length (snd r) = 100%nat).
Proof. split; [vm_compute; reflexivity|]. eexists. split; vm_compute; reflexivity. Qed.

(** The curves of all folds of a method start at the initial point of its last run: the initial points of the other runs are
    not used. *)
Theorem C58_shared_start_refuted : exists a a' r r', r_ip r <> r_ip r' /\
  cost_add an_new "m" (MRuns [r; run2]) = (a, Ok tt) /\ cost_add an_new "m" (MRuns [r'; run2]) = (a', Ok tt) /\
  r_states r = r_states r' /\
  forall interp shift start interval, cost_plot interp a shift start interval = cost_plot interp a' shift start interval.
Proof.
  exists (fst (cost_add an_new "m" (MRuns [run1; run2]))),
         (fst (cost_add an_new "m" (MRuns [{| r_ip := Some (AVal (Num 0)); r_states := r_states run1 |}; run2]))),
         run1, {| r_ip := Some (AVal (Num 0)); r_states := r_states run1 |}.
  split; [cbn; congruence|]. repeat split.
Qed.
Print Assumptions C58_shared_start_refuted.

(** ** C77 *)

(** The curves against the number of queries: for every method, in the order added, every [k]-th query is averaged over the
    folds, at its position plus the shift. *)
Theorem C77_curves a shift sh k ts : (0 < k)%nat -> an_data a <> [] -> methods a ts -> an_all a <> None -> shift_used a shift sh ->
  exists cs, num_plot a shift None (Z.of_nat k) = Ok cs /\
    Forall2 (fun t c => exists xs ys, c = (fst t, xs, ys) /\ averages k sh (snd t) xs ys) ts cs.
Proof. apply num_plot_lemma. Qed.
Print Assumptions C77_curves.
Definition lists (m : list (list Q)) : aresults := MLists (map (map (fun q => INum (Num q))) m).
Definition many (l : list (string * aresults)) : analyser := fold_left (fun a p => fst (num_add a (fst p) (snd p))) l an_new.
Example C77_curves_example : exists cs, num_plot (many [("a"%string, lists [[0; 1; 2]; [2; 3; 4]]%Q); ("b"%string, lists [[5]]%Q)]) None None 2 = Ok cs /\
  map (fun c => fst (fst c)) cs = ["a"%string; "b"%string] /\
  Forall2 (fun c x => Forall2 Qeq (snd (fst c)) x) cs [[1; 3]; [1]]%Q /\
  Forall2 (fun c y => Forall2 is_num (snd c) y) cs [[1; 3]; [5]]%Q.
Proof.
  eexists. split; [reflexivity|]. split; [reflexivity|]. split; repeat constructor.
  all: eexists; split; reflexivity.
Qed.

(** With a start point the shift is ignored, the curves start at (0, start point), and the plot works exactly if the interval
    divides the number of points of every method. *)
Theorem C77_start a shift s k ts : (0 < k)%nat -> an_data a <> [] -> methods a ts ->
  (an_all a = Some false \/ an_all a = Some true /\ forall n d, In (n, d) (an_data a) -> exists su, sget n (an_sum a) = Some su) ->
  ((forall t n, In t ts -> table (snd t) n -> (n mod k = 0)%nat) ->
    exists cs, num_plot a shift (Some s) (Z.of_nat k) = Ok cs /\ Forall2 (from_start k s) ts cs) /\
  ((exists t n, In t ts /\ table (snd t) n /\ (n mod k <> 0)%nat) -> num_plot a shift (Some s) (Z.of_nat k) = Err ValueErr).
Proof. apply num_start_lemma. Qed.
Print Assumptions C77_start.
Example C77_start_example :
  (exists cs, num_plot (many [("a"%string, lists [[0; 1]; [2; 3]]%Q)]) (Some 7%Q) (Some (Num 0)) 1 = Ok cs /\
     Forall2 (fun c x => Forall2 Qeq (snd (fst c)) x) cs [[0; 1; 2]]%Q /\ Forall2 (fun c y => Forall2 is_num (snd c) y) cs [[0; 1; 2]]%Q) /\
  num_plot (many [("a"%string, lists [[0; 1; 2]]%Q)]) None (Some (Num 0)) 2 = Err ValueErr.
Proof.
  split; [|reflexivity]. eexists. split; [reflexivity|]. split; repeat constructor.
  all: eexists; split; reflexivity.
Qed.

(** With a start point and an interval [k > 1] the value drawn at position [k] is the one after the first query: the averages
    keep their places [0, k, 2k, ...] but are drawn at [k, 2k, 3k, ...]. *)
Theorem C77_start_places_refuted a shift s k t : (1 < k)%nat -> methods a [t] -> an_all a = Some false -> table (snd t) k ->
  exists y, num_plot a shift (Some s) (Z.of_nat k) = Ok [(fst t, [0; inject_Z (Z.of_nat k) + 0]%Q, [s; y])] /\
    is_num y (mean (column 0%Q (snd t) 0)).
Proof.
  intros Hk M A T. assert (NE : an_data a <> []) by (intro X; unfold methods in M; rewrite X in M; inversion M).
  destruct (num_start_lemma a shift s k [t]) as [H _]; auto; [lia|].
  destruct H as (cs & E & F).
  - intros t' n [<-|[]] T'. rewrite (table_unique _ _ _ T' T). apply Nat.mod_same. lia.
  - inversion F as [|? c ? l (xs & ys & -> & L & N & X & Y) F' Ea Eb]; subst. inversion F'; subst. clear F F'.
    pose proof (N k 0%nat T) as N0. pose proof (N k 1%nat T) as N1. destruct xs as [|x [|x' xs]]; cbn [List.length] in *; [exfalso; destruct N0; lia| |exfalso; destruct N1; lia].
    destruct ys as [|y [|y' ys]]; try discriminate. exists y. split; [|exact (Y 0%nat y eq_refl)].
    assert (EX : x = (inject_Z (Z.of_nat k) + 0)%Q); [|now rewrite E, EX].
    clear - E Hk M A T. unfold num_plot in E. unfold methods in M. inversion M as [|[n d] ? l ? (E1 & S & _) F' Ea]; subst. inversion F'; subst. rewrite <- Ea in E.
    rewrite A in E. cbn [bind] in E. cbn [num_curves] in E. cbn [snd] in S. rewrite (matrix_of_shows d (snd t) k S T) in E. cbn [bind] in E.
    destruct (col_means_ok (snd t) k T) as (pts & Ep & Lp & _). rewrite Ep in E. cbn [bind] in E.
    replace (Z.of_nat k =? 0) with false in E by (symmetry; apply Z.eqb_neq; lia). cbn [negb guard bind] in E. rewrite Lp in E.
    destruct shift as [sh|]; cbn [bind] in E.
    all: destruct (arange_spec k (Datatypes.S k)) as [Lx Hx]; [lia|].
    all: match type of E with context [Nat.eqb ?u ?v] => destruct (Nat.eqb u v) eqn:B; [|discriminate E] end.
    all: cbn [guard bind] in E; assert (EA : map (fun x => (x + 0)%Q) (arange (Datatypes.S k) (Z.of_nat k)) = [0%Q; x]) by congruence.
    all: destruct (arange (Datatypes.S k) (Z.of_nat k)) as [|a0 [|a1 l]]; try discriminate.
    all: pose proof (Hx 1%nat a1 eq_refl) as H1; rewrite Nat.mul_1_l in H1; cbn [map] in EA; assert (x = (a1 + 0)%Q) by congruence; now subst.
Qed.
Print Assumptions C77_start_places_refuted.
Example C77_start_places_example : exists cs, num_plot (many [("a"%string, lists [[5; 9]]%Q)]) None (Some (Num 1)) 2 = Ok cs /\
  Forall2 (fun c x => Forall2 Qeq (snd (fst c)) x) cs [[0; 2]]%Q /\ Forall2 (fun c y => Forall2 is_num (snd c) y) cs [[1; 5]]%Q.
Proof. eexists. split; [reflexivity|]. split; repeat constructor. all: eexists; split; reflexivity. Qed.

(** The shift is inferred from the first method only: here the second method has no initial point, so its first value is the
    one after the first query, but it is drawn at 0. *)
Theorem C77_shift_refuted : exists a n d su xs ys c, num_plot a None None 1 = Ok [c; (n, xs, ys)] /\
  In (n, d) (an_data a) /\ sget n (an_sum a) = Some su /\ su_ip su = None /\ an_all a = Some true /\ hd_error xs = Some (0 + 0)%Q.
Proof.
  exists (many [("a"%string, MRuns [run1]); ("b"%string, MRuns [run3])]). do 6 eexists. split; [reflexivity|].
  split; [right; now left|]. repeat split.
Qed.
Print Assumptions C77_shift_refuted.

(** Runs of different lengths: the summary aligns them on the shortest one, but they cannot be plotted. *)
Theorem C77_ragged_refuted a n d m shift start step : an_all a = Some true -> an_data a = [(n, d)] ->
  d = DRuns (map (map (fun q => AVal (Num q))) m) -> (exists l l', In l m /\ In l' m /\ List.length l <> List.length l') ->
  num_plot a shift start step = Err TypeErr.
Proof.
  intros A ED -> (l & l' & H & H' & N). unfold num_plot. rewrite ED, A. cbn [check_plotting]. unfold matrix_of.
  rewrite (mapM_nums (fun q => AVal (Num q)) num_of m (fun q => eq_refl)). cbn [bind].
  destruct (same_len (map (map Num) m)) eqn:E; [|reflexivity]. exfalso. apply same_len_iff in E. destruct E as (k & E).
  apply N. rewrite <- (map_length Num l), <- (map_length Num l'). rewrite !E; auto; now apply in_map.
Qed.
Print Assumptions C77_ragged_refuted.
Example C77_ragged_example : snd (num_add an_new "m" (MRuns [run1; run2])) = Ok tt /\
  num_plot (many [("m"%string, MRuns [run1; run2])]) None None 1 = Err TypeErr.
Proof. split; reflexivity. Qed.

(** ** C78 *)

(** Adding results under a name touches no other name; the data added last under the name are the ones used, also if the
    addition fails after they are stored. *)
Theorem C78_frame a n r a' o k : num_add a n r = (a', o) \/ cost_add a n r = (a', o) -> k <> n ->
  sget k (an_data a') = sget k (an_data a) /\ sget k (an_sum a') = sget k (an_sum a).
Proof.
  intros H N. assert (G : forall V (v : V) l, sget k (sset n v l) = sget k l) by (intros; rewrite sget_sset; destruct (String.eqb_spec k n); congruence).
  assert (FI : forall a1 s a2 o, finish a1 n s = (a2, o) -> an_data a2 = an_data a1 /\ sget k (an_sum a2) = sget k (an_sum a1)).
  { intros a1 s a2 o' E. unfold finish in E. destruct s as [s|e]; injection E as <- <-; cbn [set_sum an_data an_sum]; [now rewrite G|auto]. }
  assert (NR : forall c a1 a2 o, num_runs a1 n c = (a2, o) -> sget k (an_data a2) = sget k (an_data a1) /\ sget k (an_sum a2) = sget k (an_sum a1)).
  { intros c a1 a2 o' E. unfold num_runs in E. destruct (extract_one _ c); [|injection E as <- <-; auto]. apply FI in E. cbn [set_data an_data an_sum] in E. destruct E as [-> ->]. now rewrite G. }
  assert (CR : forall c a1 a2 o, cost_runs a1 n c = (a2, o) -> sget k (an_data a2) = sget k (an_data a1) /\ sget k (an_sum a2) = sget k (an_sum a1)).
  { intros c a1 a2 o' E. unfold cost_runs in E. destruct (extract_many _ c); [|injection E as <- <-; auto]. apply FI in E. cbn [set_data an_data an_sum] in E. destruct E as [-> ->]. now rewrite G. }
  destruct H as [H|H]; [unfold num_add in H|unfold cost_add in H].
  - destruct r as [c|[|x c]|l|]; try (apply NR in H; exact H); try (injection H as <- <-; auto).
    destruct (type_of_list l) as [[|[|j]]|e]; try (injection H as <- <-; auto). apply FI in H. cbn [set_all set_data an_data an_sum] in H. destruct H as [-> ->]. now rewrite G.
  - destruct r as [c|[|x c]|l|]; try (apply CR in H; exact H); try (injection H as <- <-; auto).
    destruct (type_of_list l) as [[|[|[|j]]]|e]; try (injection H as <- <-; auto). apply FI in H. cbn [set_all set_data an_data an_sum] in H. destruct H as [-> ->]. now rewrite G.
Qed.
Print Assumptions C78_frame.

(** A successful addition of runs or of lists records the data and a summary. *)
Theorem C78_added a n r a' : num_add a n r = (a', Ok tt) ->
  (exists c m s, (r = MContainer c \/ r = MRuns c /\ c <> []) /\ extract_one "performance" c = Ok m /\ stateio_summary c = Ok s /\
     sget n (an_data a') = Some (DRuns m) /\ sget n (an_sum a') = Some s /\ an_all a' = Some true) \/
  (exists l s, r = MLists l /\ list_summary1 l = Ok s /\ sget n (an_data a') = Some (DLists l) /\ sget n (an_sum a') = Some s /\ an_all a' = Some false).
Proof.
  intro H. assert (G : forall V (v : V) l, sget n (sset n v l) = Some v) by (intros; rewrite sget_sset, String.eqb_refl; reflexivity).
  assert (NR : forall c, num_runs (set_all a true) n c = (a', Ok tt) -> exists m s, extract_one "performance" c = Ok m /\ stateio_summary c = Ok s /\
     sget n (an_data a') = Some (DRuns m) /\ sget n (an_sum a') = Some s /\ an_all a' = Some true).
  { intros c E. unfold num_runs in E. destruct (extract_one _ c) as [m|]; [|discriminate]. unfold finish in E. destruct (stateio_summary c) as [s|]; [|discriminate].
    injection E as <-. exists m, s. cbn [set_sum set_data an_data an_sum an_all set_all]. rewrite !G. auto. }
  unfold num_add in H. destruct r as [c|[|x c]|l|]; try discriminate.
  - left. exists c. destruct (NR c H) as (m & s & R). exists m, s. auto.
  - left. exists (x :: c). destruct (NR _ H) as (m & s & R). exists m, s. split; [right; split; [reflexivity|discriminate]|exact R].
  - right. destruct (type_of_list l) as [[|[|j]]|e]; try discriminate. unfold finish in H. destruct (list_summary1 l) as [s|] eqn:ES; [|discriminate].
    injection H as <-. exists l, s. cbn [set_sum set_data an_data an_sum an_all set_all]. rewrite !G. auto.
Qed.
Print Assumptions C78_added.
Example C78_added_example : exists a', num_add an_new "x" (MRuns [run1; run2]) = (a', Ok tt) /\ sget "y"%string (an_data a') = None /\ an_all a' = Some true.
Proof. eexists. split; [reflexivity|]. split; reflexivity. Qed.

(** If results given as runs were added last, a value that is not a finite number is found in any method, and refused. *)
Theorem C78_nan a ms shift start step : an_all a = Some true ->
  Forall2 (fun p m => shows_any (snd p) m /\ exists n, forall r, In r m -> List.length r = n) (an_data a) ms ->
  (exists m r x, In m ms /\ In r m /\ In x r /\ forall q, x <> Num q) ->
  num_plot a shift start step = Err ValueErr.
Proof.
  intros A F (m & r & x & Hm & Hr & Hx & N). unfold num_plot.
  assert (M : forall d m, shows_any d m -> (exists n, forall r, In r m -> List.length r = n) -> matrix_of d = Ok m).
  { intros d m0 S L. apply same_len_iff in L. unfold matrix_of.
    assert (E : forall {A} (g : fl -> A) (f : A -> res fl), (forall y, f (g y) = Ok y) -> mapM (mapM f) (map (map g) m0) = Ok m0).
    { intros B g f Hg. apply mapM_Forall2. clear - Hg. induction m0 as [|l m0 IH]; [constructor|]. cbn [map]. constructor; auto.
      apply mapM_Forall2. induction l as [|y l IHl]; [constructor|]. cbn [map]. constructor; auto. }
    destruct S as [->| ->]; rewrite E by reflexivity; cbn [bind]; rewrite L; reflexivity. }
  destruct (an_data a) as [|p l] eqn:ED; [inversion F; subst; destruct Hm|]. rewrite A.
  rewrite (check_nonfinite (p :: l)); [reflexivity| |].
  - clear - F M. induction F as [|q m0 l0 ms0 (S & L) F IH]; [intros q []|]. intros q' [<-|H]; [|auto]. exists m0. auto.
  - assert (X : exists q, In q (p :: l) /\ matrix_of (snd q) = Ok m).
    { clear - F M Hm. induction F as [|q m0 l0 ms0 (S & L) F IH]; [destruct Hm|]. destruct Hm as [<-|Hm]; [exists q; split; [now left|auto]|].
      destruct (IH Hm) as (q' & Hq & E). exists q'. split; [now right|exact E]. }
    destruct X as (q & Hq & E). exists q, m, r, x. auto.
Qed.
Print Assumptions C78_nan.
Definition nan_lists : aresults := MLists [[INum NaN; INum (Num 1)]].
Example C78_nan_example : num_plot (many [("a"%string, nan_lists); ("b"%string, MRuns [run1])]) None None 1 = Err ValueErr.
Proof. reflexivity. Qed.
(** In the other order they are drawn. *)
Theorem C78_nan_refuted : exists cs, num_plot (many [("b"%string, MRuns [run1]); ("a"%string, nan_lists)]) None None 1 = Ok cs /\
  exists xs ys, In ("a"%string, xs, ys) cs /\ In NaN ys.
Proof. eexists. split; [reflexivity|]. do 2 eexists. split; [right; left; reflexivity|now left]. Qed.
Print Assumptions C78_nan_refuted.

(** Adding lists of different lengths fails, but the data stay, and every later plot fails until they are replaced. *)
Theorem C78_failed_add a n m : m <> [] -> hd [] m <> [] -> (exists l l', In l m /\ In l' m /\ List.length l <> List.length l') ->
  exists a', num_add a n (lists m) = (a', Err TypeErr) /\ sget n (an_data a') <> None /\
    forall a'' shift start step, sget n (an_data a'') = sget n (an_data a') -> exists e, num_plot a'' shift start step = Err e.
Proof.
  intros NE HN (l & l' & H & H' & N).
  assert (SL : same_len (map (map Num) m) = false).
  { destruct (same_len (map (map Num) m)) eqn:E; [|reflexivity]. exfalso. apply same_len_iff in E. destruct E as (k & E).
    apply N. rewrite <- (map_length Num l), <- (map_length Num l'). rewrite !E; auto; now apply in_map. }
  set (d := map (map (fun q => INum (Num q))) m).
  assert (TY : type_of_list d = Ok 1%nat).
  { unfold d. destruct m as [|f m]; [congruence|]. cbn [hd] in HN. destruct f as [|q f]; [congruence|]. reflexivity. }
  exists (set_all (set_data a n (DLists d)) false). split; [|split].
  - unfold lists, num_add. fold d. rewrite TY. unfold finish, list_summary1, d.
    rewrite (mapM_nums (fun q => INum (Num q)) item_num m (fun q => eq_refl)). cbn [bind]. rewrite SL. reflexivity.
  - cbn [set_all set_data an_data]. rewrite sget_sset, String.eqb_refl. discriminate.
  - intros a'' shift start step E. cbn [set_all set_data an_data] in E. rewrite sget_sset, String.eqb_refl in E.
    apply plot_err. exists (n, DLists d). split.
    + clear - E. induction (an_data a'') as [|[k v] dd IH]; [discriminate|]. cbn [sget] in E. destruct (String.eqb_spec n k) as [->|]; [|right; auto].
      injection E as ->. now left.
    + exists TypeErr. cbn [snd]. unfold matrix_of, d. rewrite (mapM_nums (fun q => INum (Num q)) item_num m (fun q => eq_refl)). cbn [bind]. rewrite SL. reflexivity.
Qed.
Print Assumptions C78_failed_add.
Example C78_failed_add_example : num_add an_new "a" (lists [[1; 2]; [3]]%Q) = (many [("a"%string, lists [[1; 2]; [3]]%Q)], Err TypeErr) /\
  num_plot (many [("a"%string, lists [[1; 2]; [3]]%Q); ("b"%string, MRuns [run1])]) None None 1 = Err TypeErr.
Proof. split; reflexivity. Qed.

(** Without any method there is no plot. *)
Theorem C78_empty shift start step interp cshift cstart interval :
  num_plot an_new shift start step = Err AssertErr /\ cost_plot interp an_new cshift cstart interval = Err ValueErr.
Proof. split; reflexivity. Qed.
Print Assumptions C78_empty.
