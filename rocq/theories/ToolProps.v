(** Theorems about [ToolBox] (C59, C79): one split per toolbox and per saving path. *)
From Verif Require Import Base BaseFacts IndexModel IndexSpec IndexProofs MLModel MLSpec OracleModel SplitModel SplitSpec ToolModel ToolSpec ToolProofs ToolProofs2 ToolProofs3 ToolProofs4 ToolProofs5.
From Coq Require Import String QArith.
Local Open Scope Z_scope.

(** * C59: a toolbox keeps one split *)

(** Once a toolbox is split, whatever the program does (making other toolboxes, splitting again with any arguments,
    asking for folds, changing everything [get_split] returned), the toolbox keeps its settings and its folds. *)
Theorem C59_kept : forall d es i b es', let s := run (start d) es in
  nth_error (y_boxes s) i = Some b -> b_split b <> None -> ~ In EExit es' ->
  nth_error (y_boxes (run s es')) i = Some b /\ contents (w_heap (y_world (run s es'))) b = contents (w_heap (y_world s)) b.
Proof. intros d es i b es' s H N X. apply kept_run; auto. apply Inv_run, Inv_start. Qed.
Print Assumptions C59_kept.

(** A further [split_AL], with any arguments, returns the same four lists, with a warning, and changes nothing. *)
Theorem C59_split_again : forall w b a q, b_split b = Some q -> tb_split w b a = Some (w, b, Ok (q, true)).
Proof. intros w b a q E. unfold tb_split. now rewrite E. Qed.
Print Assumptions C59_split_again.

(** In a program that starts without settings files, a split toolbox has [n] folds for some [n]. [get_split] without a
    fold returns new copies of all lists; a fold outside 0 .. n-1 is rejected; every fold inside exists. *)
Theorem C59_get : forall d es b c, no_settings d -> let s := run (start d) es in let w := y_world s in
  In b (y_boxes s) -> contents (w_heap w) b = Some c ->
  exists n, b_count b = Some n /\ folds_are c (Z.to_nat n) /\
  (forall r, 0 <= r < n -> exists tr te la un, fold_at c r tr te la un) /\
  (forall r, ~ 0 <= r < n -> tb_get w b (Some r) = (w, Err AssertErr)) /\
  (exists w' q, tb_get w b None = (w', Ok (AllFolds q)) /\ w_disk w' = w_disk w /\ grown (w_heap w) (w_heap w') /\
     Forall (fresh (w_heap w)) (refs_of (w_heap w') (AllFolds q)) /\
     read_out (w_heap w') (q_train q) = q_train c /\ read_out (w_heap w') (q_test q) = q_test c /\
     read_out (w_heap w') (q_label q) = q_label c /\ read_out (w_heap w') (q_unlabel q) = q_unlabel c).
Proof.
  intros d es b c N s w Hb Hc. destruct (start_good d es N) as (I & A & _). rewrite Forall_forall in A. destruct (A b Hb c Hc) as (n & Hn & F).
  exists n. split; auto. split; auto. split; [|split].
  - intros r Hr. destruct F as (F1 & F2 & F3 & F4).
    destruct (py_nth_at (q_train c) (Z.to_nat r) ltac:(lia)) as (v1 & _ & N1). destruct (py_nth_at (q_test c) (Z.to_nat r) ltac:(lia)) as (v2 & _ & N2).
    destruct (py_nth_at (q_label c) (Z.to_nat r) ltac:(lia)) as (v3 & _ & N3). destruct (py_nth_at (q_unlabel c) (Z.to_nat r) ltac:(lia)) as (v4 & _ & N4).
    exists v1, v2, v3, v4. repeat split; auto; lia.
  - intros r Hr. unfold tb_get. unfold contents in Hc. destruct (b_split b) as [q|]; [|discriminate]. rewrite Hn. cbn [bind].
    replace ((0 <=? r) && (r <? n)) with false by lia. reflexivity.
  - now apply tb_get_all.
Qed.
Print Assumptions C59_get.

(** A fold of a single-label toolbox: copies of the train and test sets, and two new collections with exactly the
    labelled and the unlabelled instances. *)
Theorem C59_get_single : forall d es b c n r y, no_settings d -> let s := run (start d) es in let w := y_world s in
  In b (y_boxes s) -> contents (w_heap w) b = Some c -> b_count b = Some n -> 0 <= r < n ->
  b_y b = YVec y -> b_query b <> Features ->
  forall tr te la un kl ku, fold_at c r tr te la un -> instance_set la kl -> instance_set un ku ->
  exists w' trv tev l u L U, tb_get w b (Some r) = (w', Ok (OneFold trv tev l u)) /\
    w_disk w' = w_disk w /\ grown (w_heap w) (w_heap w') /\
    Forall (fresh (w_heap w)) [vref trv; vref tev; RColl l; RColl u] /\ NoDup [vref trv; vref tev] /\ l <> u /\
    read (w_heap w') trv = tr /\ read (w_heap w') tev = te /\
    nth_error (h_coll (w_heap w')) l = Some L /\ holds L kl /\ nth_error (h_coll (w_heap w')) u = Some U /\ holds U ku.
Proof.
  intros d es b c n r y N s w Hb Hc Hn Hr Hy Hq tr te la un kl ku FA IL IU. destruct (start_good d es N) as (I & A & _). rewrite Forall_forall in A.
  destruct (A b Hb c Hc) as (n' & Hn' & F). assert (n' = n) by congruence. subst n'. clear Hn'.
  assert (CO : forall l, collect b l = idx_coll l) by (intro l; unfold collect; rewrite Hy; destruct (b_query b); congruence).
  destruct (idx_coll_spec _ _ IL) as (L & EL & HL). destruct (idx_coll_spec _ _ IU) as (U & EU & HU).
  pose proof FA as (_ & F1 & F2 & F3 & F4).
  assert (Sq : exists q, b_split b = Some q) by (unfold contents in Hc; destruct (b_split b); [eauto|discriminate]). destruct Sq as [q Sq].
  destruct (tb_get_fold w b q n r L U c Sq Hn Hc F Hr) as (w' & trv & tev & l & u & tr' & te' & la' & un' & E & FA' & D & G & FR & ND & LU & R1 & R2 & C1 & C2).
  - intros x Hx. rewrite CO. congruence.
  - intros x Hx. rewrite CO. congruence.
  - destruct FA' as (_ & G1 & G2 & _). exists w', trv, tev, l, u, L, U. repeat (split; [assumption || congruence|]). exact HU.
Qed.
Print Assumptions C59_get_single.

(** A fold of a multi-label toolbox: the collections hold every label of the labelled and the unlabelled instances. *)
Theorem C59_get_multi : forall d es b c n r y, no_settings d -> let s := run (start d) es in let w := y_world s in
  In b (y_boxes s) -> contents (w_heap w) b = Some c -> b_count b = Some n -> 0 <= r < n ->
  b_y b = YMat y -> b_query b <> Features -> (0 < List.length (hd [] y))%nat ->
  forall tr te la un kl ku, fold_at c r tr te la un -> row_set la kl -> row_set un ku ->
  exists w' trv tev l u L U, tb_get w b (Some r) = (w', Ok (OneFold trv tev l u)) /\
    w_disk w' = w_disk w /\ grown (w_heap w) (w_heap w') /\
    Forall (fresh (w_heap w)) [vref trv; vref tev; RColl l; RColl u] /\ NoDup [vref trv; vref tev] /\ l <> u /\
    read (w_heap w') trv = tr /\ read (w_heap w') tev = te /\
    nth_error (h_coll (w_heap w')) l = Some L /\ holds_rows L kl (Z.of_nat (List.length (hd [] y))) /\
    nth_error (h_coll (w_heap w')) u = Some U /\ holds_rows U ku (Z.of_nat (List.length (hd [] y))).
Proof.
  intros d es b c n r y N s w Hb Hc Hn Hr Hy Hq Hm tr te la un kl ku FA IL IU. destruct (start_good d es N) as (I & A & _). rewrite Forall_forall in A.
  destruct (A b Hb c Hc) as (n' & Hn' & F). assert (n' = n) by congruence. subst n'. clear Hn'. set (m := Z.of_nat (List.length (hd [] y))) in *.
  assert (CO : forall l, collect b l = ml_coll l m) by (intro l; unfold collect; rewrite Hy; destruct (b_query b); try congruence; reflexivity).
  destruct (ml_coll_spec _ _ m IL ltac:(lia)) as (L & EL & HL). destruct (ml_coll_spec _ _ m IU ltac:(lia)) as (U & EU & HU).
  pose proof FA as (_ & F1 & F2 & F3 & F4).
  assert (Sq : exists q, b_split b = Some q) by (unfold contents in Hc; destruct (b_split b); [eauto|discriminate]). destruct Sq as [q Sq].
  destruct (tb_get_fold w b q n r L U c Sq Hn Hc F Hr) as (w' & trv & tev & l & u & tr' & te' & la' & un' & E & FA' & D & G & FR & ND & LU & R1 & R2 & C1 & C2).
  - intros x Hx. rewrite CO. congruence.
  - intros x Hx. rewrite CO. congruence.
  - destruct FA' as (_ & G1 & G2 & _). exists w', trv, tev, l, u, L, U. repeat (split; [assumption || congruence|]). exact HU.
Qed.
Print Assumptions C59_get_multi.

(** Before the first split [get_split] is rejected. *)
Theorem C59_unsplit : forall w b r, b_split b = None -> tb_get w b r = (w, Err GenericErr).
Proof. intros w b r E. unfold tb_get. now rewrite E. Qed.
Print Assumptions C59_unsplit.

(** The folds of a first [split_AL]: as many as asked for; each divides the instances into a train and a test set, and
    the train set into a labelled and an unlabelled part, in the proportions asked for. *)
Theorem C59_first_single : forall w b a w' b' q y,
  tb_split w b a = Some (w', b', Ok (q, false)) -> b_y b = YVec y -> uniform (Some (b_names b)) -> Forall (shuffle (List.length y)) (s_draws a) ->
  b_split b' = Some q /\ b_count b' = Some (s_count a) /\ exists c, contents (w_heap w') b' = Some c /\ folds_are c (Z.to_nat (s_count a)) /\
  forall r tr te la un, fold_at c r tr te la un -> exists ktr kte kla kun,
    instance_set tr ktr /\ instance_set te kte /\ instance_set la kla /\ instance_set un kun /\
    Permutation (ktr ++ kte) (map norm (b_names b)) /\ kla ++ kun = ktr /\
    (* the proportions *)
    (forall c, nearest_even ((1 - s_ratio a) * inject_Z (Z.of_nat (List.length y))) c -> List.length ktr = slice_size (List.length y) c) /\
    (forall c, nearest_even (s_rate a * inject_Z (Z.of_nat (List.length ktr))) c -> List.length kla = slice_size (List.length ktr) (Z.max 1 c)).
Proof. exact new_split_single. Qed.
Print Assumptions C59_first_single.

Theorem C59_first_multi : forall w b a w' b' q y m,
  tb_split w b a = Some (w', b', Ok (q, false)) -> b_y b = YMat y ->
  List.length (hd [] y) = m -> (0 < m)%nat -> Forall (shuffle (List.length y)) (s_draws a) ->
  b_split b' = Some q /\ b_count b' = Some (s_count a) /\ exists c, contents (w_heap w') b' = Some c /\ folds_are c (Z.to_nat (s_count a)) /\
  forall r tr te la un, fold_at c r tr te la un -> exists ptr pte pla pun,
    tr = map (fun i => Scalar (KInt i)) ptr /\ te = map (fun i => Scalar (KInt i)) pte /\ row_set la pla /\ row_set un pun /\
    Permutation (ptr ++ pte) (zrange (Z.of_nat (List.length y))) /\ pla ++ pun = ptr /\
    ((s_all a = true -> (0 <= s_rate a)%Q /\ SplitSpec.rectangular y m) ->
    (* the proportions *)
      (forall c, nearest_even ((1 - s_ratio a) * inject_Z (Z.of_nat (List.length y))) c -> List.length ptr = slice_size (List.length y) c) /\
      (forall c, nearest_even (s_rate a * inject_Z (Z.of_nat (List.length ptr))) c -> List.length pla = slice_size (List.length ptr) (Z.max 1 c))).
Proof. exact new_split_multi. Qed.
Print Assumptions C59_first_multi.

(** Splits given to the constructor (without a saving path) are used if all four are given, have the same number of
    folds and the other arguments are right; if one is missing, the others are silently ignored. *)
Theorem C59_given : forall w a w' b warn, t_path a = None -> tb_new w a = (w', Ok (b, warn)) ->
  w' = w /\ warn = false /\
  (b_split b = None <-> t_train a = None \/ t_test a = None \/ t_label a = None \/ t_unlabel a = None) /\
  (forall tr te la un, t_train a = Some tr -> t_test a = Some te -> t_label a = Some la -> t_unlabel a = Some un ->
     b_split b = Some {| q_train := tr; q_test := te; q_label := la; q_unlabel := un |} /\
     b_count b = Some (Z.of_nat (List.length (out_at (w_heap w) tr))) /\
     List.length (out_at (w_heap w) te) = List.length (out_at (w_heap w) tr) /\
     List.length (out_at (w_heap w) la) = List.length (out_at (w_heap w) tr) /\
     List.length (out_at (w_heap w) un) = List.length (out_at (w_heap w) tr)).
Proof.
  intros w a w' b warn P E. unfold tb_new in E. destruct (new_box (w_heap w) a) as [b0|] eqn:EB; [|discriminate]. rewrite P in E. injection E as <- <- <-.
  split; auto. split; auto. destruct (new_box_split _ _ _ EB) as [_ S].
  assert (G : (t_train a = None \/ t_test a = None \/ t_label a = None \/ t_unlabel a = None) \/
     exists tr te la un, t_train a = Some tr /\ t_test a = Some te /\ t_label a = Some la /\ t_unlabel a = Some un).
  { destruct (t_train a), (t_test a), (t_label a), (t_unlabel a); auto. right. do 4 eexists. repeat split; reflexivity. }
  destruct (b_split b0) as [q|] eqn:ES.
  - destruct (S q eq_refl) as (S1 & S2 & S3 & S4 & S5 & S6 & S7 & S8). split; [split; [discriminate|intros [X|[X|[X|X]]]; congruence]|].
    intros tr te la un T1 T2 T3 T4. assert (q_train q = tr) by congruence. assert (q_test q = te) by congruence. assert (q_label q = la) by congruence.
    assert (q_unlabel q = un) by congruence. subst tr te la un. destruct q; cbn in *. auto 6.
  - destruct G as [G|(tr & te & la & un & T1 & T2 & T3 & T4)]; [split; [tauto|]; intros; destruct G as [X|[X|[X|X]]]; congruence|].
    exfalso. clear S. revert EB. unfold new_box. rewrite T1, T2, T3, T4. destruct (label_num (t_y a)); [|discriminate]. cbn [bind].
    set (gx := match t_X a with None => _ | Some _ => _ end). destruct gx; [|discriminate]. cbn [bind].
    set (gn := match t_names a with None => _ | Some _ => _ end). destruct gn; [|discriminate]. cbn [bind].
    destruct (guard (q_known (t_query a)) NotImplErr); [|discriminate]. cbn [bind]. set (gg := guard _ _). destruct gg; [|discriminate]. cbn [bind].
    destruct (_ && _); [|discriminate]. cbn [bind fst snd]. intro X. injection X as <-. discriminate.
Qed.
Print Assumptions C59_given.

(** The lists [split_AL] returns are not copies: changing a returned train array changes the fold, including its
    labelled and unlabelled parts, which are views of it. *)
Theorem C59_returned_refuted : forall w b a w' b' q y r tr te la un c,
  tb_split w b a = Some (w', b', Ok (q, false)) -> b_y b = YVec y -> uniform (Some (b_names b)) -> Forall (shuffle (List.length y)) (s_draws a) ->
  contents (w_heap w') b' = Some c -> fold_at c r tr te la un ->
  exists x, nth_error (out_at (w_heap w') (q_train q)) (Z.to_nat r) = Some (VList x) /\
  forall l, List.length l = List.length tr -> exists c', contents (write (w_heap w') (RBuf x) (XBuf l)) b' = Some c' /\
    fold_at c' r l te (firstn (List.length la) l) (skipn (List.length la) l).
Proof. exact split_shared. Qed.
Print Assumptions C59_returned_refuted.

(** Neither are the lists given to the constructor. *)
Theorem C59_shared_refuted : forall w a w' b warn tr te la un vs, t_path a = None -> tb_new w a = (w', Ok (b, warn)) ->
  t_train a = Some tr -> t_test a = Some te -> t_label a = Some la -> t_unlabel a = Some un -> (tr < List.length (h_out (w_heap w)))%nat ->
  exists c, contents (write (w_heap w') (ROut tr) (XOut vs)) b = Some c /\ q_train c = map (read (w_heap w)) vs.
Proof.
  intros w a w' b warn tr te la un vs P E T1 T2 T3 T4 L. destruct (C59_given _ _ _ _ _ P E) as (-> & _ & _ & S). destruct (S _ _ _ _ T1 T2 T3 T4) as (Sq & _).
  unfold contents. rewrite Sq. eexists. split; [reflexivity|]. cbn [q_train]. unfold read_out, out_at. cbn [write h_out]. rewrite put_nth_same by auto.
  apply map_ext. intro v. reflexivity.
Qed.
Print Assumptions C59_shared_refuted.

(** A program: make a toolbox with four instances, split it, get fold 0 and everything, overwrite all that was returned,
    split again with other arguments. *)
Definition ex_args : nargs := {| n_y := YVec [0; 1; 0; 1]; n_X := None; n_names := None; n_query := AllLabels; n_split := None; n_path := Some 7 |}.
Definition ex_split : sargs := {| s_ratio := 1 # 4; s_rate := 1 # 2; s_count := 2; s_all := false; s_draws := [[2; 0; 3; 1]; [0; 1; 2; 3]]%nat |}.
Definition ex_again : sargs := {| s_ratio := 1 # 2; s_rate := 1 # 2; s_count := 1; s_all := false; s_draws := [[0; 1; 2; 3]]%nat |}.
Definition ex_disk : Z -> node := fun p => if p =? 7 then NDir None [] else NFree.
Definition ex_keys (l : list Z) : list item := map (fun i => Scalar (KInt i)) l.
Definition ex_folds : quad (list (list item)) :=
  {| q_train := [ex_keys [2; 0; 3]; ex_keys [0; 1; 2]]; q_test := [ex_keys [1]; ex_keys [3]];
     q_label := [ex_keys [2; 0]; ex_keys [0; 1]]; q_unlabel := [ex_keys [3]; ex_keys [2]] |}.
Example C59_case :
  no_settings ex_disk /\
  (let s := run (start ex_disk) [ENew ex_args; ESplit 0 ex_split] in
   match y_boxes s with [b] => contents (w_heap (y_world s)) b = Some ex_folds /\ b_count b = Some 2 | _ => False end) /\
  (let s := run (start ex_disk) [ENew ex_args; ESplit 0 ex_split; EGet 0 (Some 0); EGet 0 None; EWrite 0 (XBuf []); EWrite 2 (XColl (CIdx {| cont := []; etype := None |}));
                                 EWrite 4 (XOut []); EWrite 5 (XBuf []); ESplit 0 ex_again] in
   List.length (y_got s) = 16%nat /\
   match y_boxes s with [b] => contents (w_heap (y_world s)) b = Some ex_folds /\ b_count b = Some 2 | _ => False end).
Proof. split; [intro p; unfold ex_disk; destruct (p =? 7); exact I|]. split; vm_compute; auto. Qed.

(** * C79: one split per saving path *)

(** When [split_AL] returns for the only toolbox in use with this path, the path has its split. *)
Theorem C79_saved : forall d es i a b w' b' q p, no_settings d -> let s := run (start d) es in let s' := step s (ESplit i a) in
  nth_error (y_boxes s) i = Some b -> b_split b = None -> b_path b = Some p ->
  (forall j bj, j <> i -> nth_error (y_boxes s) j = Some bj -> b_path bj <> Some p) ->
  tb_split (y_world s) b a = Some (w', b', Ok (q, false)) ->
  nth_error (y_boxes s') i = Some b' /\ exists c, contents (w_heap (y_world s')) b' = Some c /\ settled s' p c.
Proof.
  intros d es i a b w' b' q p N s s' Hi Hn Hp Ho E. unfold s'. cbn [step]. rewrite Hi, E. cbn [y_world y_boxes].
  assert (Li : (i < List.length (y_boxes s))%nat) by (apply nth_error_Some; congruence).
  split; [now apply put_same|]. pose proof (tb_split_disk _ _ _ _ _ _ E) as (_ & _ & _ & _ & D & Q). pose proof (Q q Hn eq_refl) as Sq.
  destruct (D p q Hn Hp eq_refl) as [_ O].
  exists {| q_train := read_out (w_heap w') (q_train q); q_test := read_out (w_heap w') (q_test q); q_label := read_out (w_heap w') (q_label q); q_unlabel := read_out (w_heap w') (q_unlabel q) |}.
  assert (C : contents (w_heap w') b' = Some {| q_train := read_out (w_heap w') (q_train q); q_test := read_out (w_heap w') (q_test q);
     q_label := read_out (w_heap w') (q_label q); q_unlabel := read_out (w_heap w') (q_unlabel q) |}) by (unfold contents; now rewrite Sq).
  split; auto. split; cbn [y_world y_boxes].
  - exists (freeze (w_heap w') b'). split; auto.
  - intros b0 Hb P0. apply In_nth_error in Hb. destruct Hb as [j Hj]. destruct (Nat.eq_dec j i) as [->|Hj'].
    + rewrite put_same in Hj by auto. injection Hj as <-. exact C.
    + rewrite put_other in Hj by auto. exfalso. exact (Ho j b0 Hj' Hj P0).
Qed.
Print Assumptions C79_saved.

(** A toolbox made with splits and a path that holds no toolbox settles the path at once. *)
Theorem C79_saved_given : forall d es a w' b warn p c, no_settings d -> let s := run (start d) es in
  make (y_world s) a = (w', Ok (b, warn)) -> n_path a = Some p -> (forall t, ~ on_disk (w_disk (y_world s)) p t) ->
  contents (w_heap w') b = Some c -> settled (step s (ENew a)) p c.
Proof.
  intros d es a w' b warn p c N s E P ND C. destruct (start_good d es N) as (I & _ & _ & G). fold s in G. cbn [step]. rewrite E.
  pose proof (make_cases _ _ _ _ E) as [(e & X & _)|(b0 & w0 & X & M)]; [discriminate|]. injection X as <- <-.
  pose proof (make_new _ _ _ _ E) as [GR _].
  destruct M as [(NP & _)|[(p1 & NP & BP & _ & O & _)|(p1 & t1 & NP & O & _)]].
  - congruence.
  - assert (p1 = p) by congruence. subst p1. split; cbn [y_world y_boxes].
    + exists (freeze (w_heap w') b). split; auto.
    + intros b0 Hb Hp. apply in_app_iff in Hb. destruct Hb as [Hb|[<-|[]]]; auto. exfalso. destruct (G b0 p Hb Hp) as [t O']. exact (ND t O').
  - exfalso. assert (p1 = p) by congruence. subst p1. exact (ND t1 O).
Qed.
Print Assumptions C79_saved_given.

(** From then on the path has this split, whatever programs do: every toolbox made with this path, now or by a later
    program, with whatever arguments, has it. *)
Theorem C79_one_split : forall d es p c es', no_settings d -> let s := run (start d) es in settled s p c ->
  let s' := run s es' in settled s' p c /\
  forall a w b warn, n_path a = Some p -> make (y_world s') a = (w, Ok (b, warn)) ->
    contents (w_heap w) b = Some c /\ b_path b = Some p /\ w_disk w = w_disk (y_world s') /\
    exists t, on_disk (w_disk (y_world s')) p t /\ b_split t = Some c /\ b_y b = b_y t /\ b_names b = b_names t /\ b_query b = b_query t /\
      b_flag b = b_flag t /\ (forall X, b_X t = Some X -> b_X b = Some X) /\ (warn = true <-> is_dir (w_disk (y_world s')) p).
Proof.
  intros d es p c es' N s S s'. destruct (start_good d es N) as (I & G). pose proof (settled_run _ es' _ _ I G S) as S'. split; auto.
  pose proof (Good_run _ es' I G) as (_ & B & _). fold s in B. fold s' in B, S'.
  intros a w b warn P E. destruct S' as ((t & O & TS) & _). apply make_cases in E. destruct E as [(e & X & _)|(b0 & w0 & X & M)]; [discriminate|]. injection X as <- <-.
  destruct M as [(NP & _)|[(p1 & NP & BP & ND & _)|(p1 & t1 & NP & O1 & D & M1 & M2 & M3 & M4 & M5 & M6 & M7 & M8 & M9)]].
  - congruence.
  - exfalso. assert (p1 = p) by congruence. subst p1. exact (ND t O).
  - assert (p1 = p) by congruence. subst p1. rewrite (on_disk_fun _ _ _ _ O1 O) in *. destruct (B p t O) as [_ Bp].
    split; [congruence|]. split; [congruence|]. split; auto. exists t. auto 10.
Qed.
Print Assumptions C79_one_split.

Example C79_case : exists c, settled (run (start ex_disk) [ENew ex_args; ESplit 0 ex_split]) 7 c /\ c = ex_folds /\
  (* a later program asks for two classes of other instances *)
  (let s := run (start ex_disk) [ENew ex_args; ESplit 0 ex_split; EExit;
      ENew {| n_y := YVec [5; 6]; n_X := None; n_names := None; n_query := PartLabels; n_split := None; n_path := Some 7 |}; ESplit 0 ex_again] in
   match y_boxes s with [b] => contents (w_heap (y_world s)) b = Some ex_folds /\ b_y b = YVec [0; 1; 0; 1] | _ => False end).
Proof.
  exists ex_folds. split; [|split; [reflexivity|vm_compute; auto]]. split.
  - eexists. split; [left; eexists; vm_compute; reflexivity|reflexivity].
  - vm_compute. intros b [<-|[]] _. reflexivity.
Qed.

(** Two toolboxes made on the same path before either is split both get their own split, and the path keeps the last. *)
Theorem C79_two_users_refuted : forall d es i j a1 a2 b1 b2 p w1 b1' q1 w2 b2' q2, no_settings d ->
  let s := run (start d) es in let s1 := step s (ESplit i a1) in let s2 := step s1 (ESplit j a2) in
  i <> j -> nth_error (y_boxes s) i = Some b1 -> nth_error (y_boxes s) j = Some b2 ->
  b_path b1 = Some p -> b_path b2 = Some p -> b_split b1 = None -> b_split b2 = None ->
  tb_split (y_world s) b1 a1 = Some (w1, b1', Ok (q1, false)) -> tb_split w1 b2 a2 = Some (w2, b2', Ok (q2, false)) ->
  exists c1 c2 t, nth_error (y_boxes s2) i = Some b1' /\ contents (w_heap (y_world s2)) b1' = Some c1 /\ contents (w_heap w1) b1' = Some c1 /\
    nth_error (y_boxes s2) j = Some b2' /\ contents (w_heap (y_world s2)) b2' = Some c2 /\
    on_disk (w_disk (y_world s2)) p t /\ b_split t = Some c2.
Proof.
  intros d es i j a1 a2 b1 b2 p w1 b1' q1 w2 b2' q2 N s s1 s2 IJ H1 H2 P1 P2 N1 N2 E1 E2.
  assert (I : Inv s) by apply Inv_run, Inv_start. assert (I1 : Inv s1) by now apply Inv_step.
  pose proof (tb_split_disk _ _ _ _ _ _ E1) as (_ & _ & _ & _ & _ & Q1). pose proof (tb_split_disk _ _ _ _ _ _ E2) as (_ & _ & _ & _ & D2 & Q2).
  specialize (Q1 q1 N1 eq_refl). specialize (Q2 q2 N2 eq_refl). destruct (D2 p q2 N2 P2 eq_refl) as [_ O].
  assert (S1 : s1 = {| y_world := w1; y_boxes := put i b1' (y_boxes s); y_got := y_got s |}) by (unfold s1; cbn [step]; now rewrite H1, E1).
  assert (S2 : s2 = {| y_world := w2; y_boxes := put j b2' (put i b1' (y_boxes s)); y_got := y_got s |})
    by (unfold s2; rewrite S1; cbn [step y_boxes y_world y_got]; rewrite put_other by auto; now rewrite H2, E2).
  assert (Li : (i < List.length (y_boxes s))%nat) by (apply nth_error_Some; congruence). assert (Lj : (j < List.length (y_boxes s))%nat) by (apply nth_error_Some; congruence).
  assert (X : nth_error (y_boxes s1) i = Some b1') by (rewrite S1; cbn [y_boxes]; now apply put_same).
  destruct (Inv_step s1 (ESplit j a2) I1) as [_ K]. destruct (K ltac:(discriminate) i b1' X ltac:(congruence)) as [K1 K2]. fold s2 in K1, K2.
  assert (C1 : exists c1, contents (w_heap w1) b1' = Some c1) by (unfold contents; rewrite Q1; eauto). destruct C1 as [c1 C1].
  assert (C2 : exists c2, contents (w_heap w2) b2' = Some c2) by (unfold contents; rewrite Q2; eauto). destruct C2 as [c2 C2].
  rewrite S1 in K2. cbn [y_world] in K2. exists c1, c2, (freeze (w_heap w2) b2'). split; [exact K1|]. split; [congruence|]. split; [exact C1|].
  rewrite S2. cbn [y_boxes y_world]. split; [apply put_same; now rewrite put_length|]. split; [exact C2|]. split; auto.
Qed.
Print Assumptions C79_two_users_refuted.

Example C79_two_users_case :
  let s := run (start ex_disk) [ENew ex_args; ENew ex_args; ESplit 0 ex_split; ESplit 1 ex_again] in
  match y_boxes s with
  | [b1; b2] => contents (w_heap (y_world s)) b1 = Some ex_folds /\ contents (w_heap (y_world s)) b2 <> Some ex_folds /\
                match w_disk (y_world s) 7 with NDir (Some (Whole t)) _ => b_split t = contents (w_heap (y_world s)) b2 | _ => False end
  | _ => False
  end.
Proof. vm_compute. repeat split; try reflexivity. discriminate. Qed.

(** Killing the program during [split_AL] leaves the settings as they were, or as after the call, or a broken settings
    file; other paths are not touched. *)
Theorem C79_crash : forall w b a p d, b_path b = Some p -> b_split b = None -> killed w b a p d ->
  (forall p', p' <> p -> d p' = w_disk w p') /\
  ((exists fs, d p = NDir (Some Torn) fs) \/
   (forall t, on_disk d p t -> on_disk (w_disk w) p t \/
      exists w' b' q, tb_split w b a = Some (w', b', Ok (q, false)) /\ on_disk (w_disk w') p t /\ t = freeze (w_heap w') b')).
Proof.
  intros w b a p d P N K. inversion K as [|pk fs fs' E|w' b' q pk fs E E2|w' b' q E]; subst.
  - split; auto.
  - split; [intros; now apply set_node_other|]. right. intros t O. left. unfold on_disk in *. rewrite set_node_same in O. rewrite E.
    destruct O as [(f & O)|O]; [|discriminate]. injection O as -> _. eauto.
  - split; [intros; now apply set_node_other|]. left. exists fs. apply set_node_same.
  - destruct (tb_split_disk _ _ _ _ _ _ E) as (D1 & _ & D3 & _). split; [intros p' H; apply D1; congruence|].
    right. intros t O. destruct (D3 p t O) as [X|(_ & -> & _)]; [auto|]. right. exists w', b', q. auto.
Qed.
Print Assumptions C79_crash.

(** A broken settings file makes every later construction with the path fail, whatever the arguments. *)
Theorem C79_torn_refuted : forall d p fs, d p = NDir (Some Torn) fs ->
  forall h a, n_path a = Some p -> exists e w, make {| w_heap := h; w_disk := d |} a = (w, Err e) /\ w_disk w = d.
Proof.
  intros d p fs E h a P. destruct (make {| w_heap := h; w_disk := d |} a) as [w [[b warn]|e]] eqn:M.
  - exfalso. pose proof M as M0. apply make_cases in M. cbn [w_disk] in M. destruct M as [(e & X & _)|(b0 & w0 & X & M)]; [discriminate|].
    destruct M as [(NP & _)|[(p1 & NP & BP & ND & _ & _)|(p1 & t1 & NP & O & _)]].
    + congruence.
    + revert M0. unfold make, tb_new. destruct (n_split a); [destruct (new_quad _ _)|];
        match goal with |- context [new_box ?h ?t] => destruct (new_box h t) end; try discriminate; cbn [t_path args_of w_disk set_heap]; rewrite P, E; discriminate.
    + assert (p1 = p) by congruence. subst p1. destruct O as [(f & O)|O]; congruence.
  - exists e, w. split; auto. apply make_cases in M. destruct M as [(e' & _ & D)|(b & warn & X & _)]; [exact D|discriminate].
Qed.
Print Assumptions C79_torn_refuted.

Example C79_crash_case :
  let s := run (start ex_disk) [ENew ex_args] in
  exists b d, nth_error (y_boxes s) 0 = Some b /\ b_split b = None /\ b_path b = Some 7 /\ killed (y_world s) b ex_split 7 d /\
    exists fs, d 7 = NDir (Some Torn) fs.
Proof.
  cbv zeta. eexists. eexists. split; [reflexivity|]. split; [reflexivity|]. split; [reflexivity|]. split.
  - eapply kill_saving; vm_compute; reflexivity.
  - eexists. vm_compute. reflexivity.
Qed.

(** A saving path that is not a directory is accepted by the constructor, but then [split_AL] always fails and the
    toolbox stays without a split. *)
Theorem C79_file_path_refuted : forall d es b p a w' b' r, let s := run (start d) es in
  ~ is_dir d p -> In b (y_boxes s) -> b_path b = Some p -> b_split b = None -> tb_split (y_world s) b a = Some (w', b', r) ->
  w' = y_world s /\ b_split b' = None /\ exists e, r = Err e.
Proof.
  intros d es b p a w' b' r s ND Hb P N E. assert (ND' : ~ is_dir (w_disk (y_world s)) p) by (unfold s; rewrite is_dir_run; exact ND).
  apply tb_split_cases in E. destruct E as [(q & X & _)|(_ & _ & _ & _ & _ & _ & _ & _ & _ & H)]; [congruence|].
  destruct H as [(e & -> & Hs & [(_ & ->)|(h & q & c & _ & SF)])|(h & q & c & w1 & _ & SF & _)]; [eauto| |].
  - rewrite P in SF. apply save_files_cases in SF. destruct SF as [(X & _)|[(p0 & X & _ & -> & _)|(p0 & pk & fs & fs' & X & D & _)]]; [discriminate|eauto|].
    exfalso. apply ND'. injection X as <-. unfold is_dir. eauto.
  - exfalso. rewrite P in SF. apply save_files_cases in SF. destruct SF as [(X & _)|[(p0 & X & _ & _ & X2)|(p0 & pk & fs & fs' & X & D & _)]]; try discriminate.
    apply ND'. injection X as <-. unfold is_dir. eauto.
Qed.
Print Assumptions C79_file_path_refuted.

Example C79_file_path_case :
  let s := run (start ex_disk) [ENew {| n_y := YVec [0; 1; 0; 1]; n_X := None; n_names := None; n_query := AllLabels; n_split := None; n_path := Some 8 |}] in
  ~ is_dir ex_disk 8 /\ match y_boxes s with
  | [b] => match tb_split (y_world s) b ex_split with Some (_, b', r) => r = Err GenericErr /\ b_split b' = None | None => False end
  | _ => False end.
Proof. split; [intros (x & y & z); discriminate|]. vm_compute. auto. Qed.

(** A toolbox opened from a copied directory saves to the original path, so its own directory never gets the split. *)
Theorem C79_moved_refuted : forall w a w1 b warn p p0 t fs, n_path a = Some p -> w_disk w p = NDir (Some (Whole t)) fs ->
  b_path t = Some p0 -> p0 <> p -> make w a = (w1, Ok (b, warn)) ->
  b_path b = Some p0 /\ forall s w2 b2 r, tb_split w1 b s = Some (w2, b2, r) -> w_disk w2 p = NDir (Some (Whole t)) fs.
Proof.
  intros w a w1 b warn p p0 t fs P D T NE M. apply make_cases in M. destruct M as [(e & X & _)|(b0 & w0 & X & M)]; [discriminate|]. injection X as <- <-.
  assert (O : on_disk (w_disk w) p t) by (left; eauto).
  destruct M as [(NP & _)|[(p1 & NP & BP & ND & _)|(p1 & t1 & NP & O1 & D1 & M1 & M2 & M3 & M4 & M5 & M6 & _)]]; [congruence| |].
  - exfalso. assert (p1 = p) by congruence. subst p1. exact (ND t O).
  - assert (p1 = p) by congruence. subst p1. rewrite (on_disk_fun _ _ _ _ O1 O) in *. split; [congruence|].
    intros s w2 b2 r E. destruct (tb_split_disk _ _ _ _ _ _ E) as (DD & _). rewrite DD by congruence. congruence.
Qed.
Print Assumptions C79_moved_refuted.

Definition ex_stored (p : Z) : stored :=
  {| b_y := YVec [0; 1; 0; 1]; b_X := None; b_flag := false; b_names := map (fun i => VKey (KInt i)) (zrange 4); b_query := AllLabels;
     b_split := None; b_count := None; b_path := Some p |}.
Example C79_moved_case :
  let d := fun p => if p =? 7 then NDir (Some (Whole (ex_stored 9))) [] else if p =? 9 then NDir None [] else NFree in
  let s := run (start d) [ENew ex_args; ESplit 0 ex_split] in
  w_disk (y_world s) 7 = NDir (Some (Whole (ex_stored 9))) [] /\
  match y_boxes s, w_disk (y_world s) 9 with
  | [b], NDir (Some (Whole t)) _ => contents (w_heap (y_world s)) b = Some ex_folds /\ b_split t = Some ex_folds
  | _, _ => False end.
Proof. vm_compute. auto. Qed.
