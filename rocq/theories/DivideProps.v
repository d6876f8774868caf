(** What a split depends on: C128. *)
From Verif Require Import Base BaseFacts IndexModel SplitModel SplitSpec SplitProofs SplitProps DivideSpec.
From Coq Require Import String QArith.
Local Open Scope Z_scope.
Notation split := SplitModel.split.

Lemma slice_to_map {A B} (g : A -> B) l c : py_slice_to (map g l) c = map g (py_slice_to l c).
Proof. unfold py_slice_to. rewrite map_length. destruct (c <? 0); apply firstn_map. Qed.
Lemma slice_from_map {A B} (g : A -> B) l c : py_slice_from (map g l) c = map g (py_slice_from l c).
Proof. unfold py_slice_from. rewrite map_length. destruct (c <? 0); apply skipn_map. Qed.

Lemma mapM_py_nth_map {A B} (g : A -> B) l ps : mapM (py_nth (map g l)) ps = rmap (map g) (mapM (py_nth l) ps).
Proof.
  induction ps as [|p ps IH]; [reflexivity|]. cbn [mapM]. rewrite IH. unfold py_nth at 1 3. rewrite nth_error_map.
  destruct (nth_error l p); cbn [option_map bind rmap]; [|reflexivity]. destruct (mapM (py_nth l) ps); reflexivity.
Qed.

Definition fmap_fold (g : key -> key) (f : fold key key) : fold key key :=
  {| f_train := map g (f_train f); f_test := map g (f_test f); f_label := map g (f_label f); f_unlabel := map g (f_unlabel f) |}.

Lemma attempt_map g idx tr rate sh :
  split_attempt (map g idx) tr rate (fun _ => Ok true) sh = rmap (option_map (fmap_fold g)) (split_attempt idx tr rate (fun _ => Ok true) sh).
Proof.
  unfold split_attempt. rewrite map_length. destruct (randperm _ None sh) as [rp|e]; [|reflexivity]. cbn [bind].
  rewrite !mapM_py_nth_map. destruct (mapM (py_nth idx) (py_slice_to rp _)) as [train|e]; [|reflexivity]. cbn [rmap bind].
  rewrite map_length. destruct (mapM (py_nth idx) (py_slice_from rp _)) as [test|e]; [|reflexivity]. cbn [rmap bind].
  rewrite !slice_to_map, !slice_from_map. reflexivity.
Qed.

Lemma until_map {D A} (g : A -> A) (f f' : D -> res (option A)) ds : (forall d, f' d = rmap (option_map g) (f d)) ->
  until f' ds = option_map (fun p => (rmap g (fst p), snd p)) (until f ds).
Proof.
  intro H. induction ds as [|d ds IH]; [reflexivity|]. cbn [until]. rewrite H. destruct (f d) as [[a|]|e]; cbn [rmap option_map fst snd]; auto.
Qed.

Lemma folds_map {D A} (g : A -> A) (f f' : list D -> option (res A * list D)) k : (forall ds, f' ds = option_map (fun p => (rmap g (fst p), snd p)) (f ds)) ->
  forall ds, folds f' k ds = option_map (fun p => (rmap (map g) (fst p), snd p)) (folds f k ds).
Proof.
  intro H. induction k as [|k IH]; intro ds; [reflexivity|]. cbn [folds]. rewrite H. destruct (f ds) as [[[a|e] ds']|]; cbn [option_map rmap fst snd]; auto.
  rewrite IH. destruct (folds f k ds') as [[[l|e] ds2]|]; reflexivity.
Qed.

Lemma called_positions names : map (called names) (map KInt (zrange (Z.of_nat (List.length names)))) = names.
Proof.
  unfold zrange. rewrite Nat2Z.id, !map_map. transitivity (map (fun i => nth i names (KInt 0)) (seq 0 (List.length names))).
  - apply map_ext_in. intros i I. apply in_seq in I. cbn [called]. rewrite Nat2Z.id. apply nth_indep. lia.
  - induction names as [|a l IH]; [reflexivity|]. cbn [List.length seq map nth]. f_equal. rewrite <- seq_shift, map_map. exact IH.
Qed.

(** Without [all_class], only the number of instances matters: whatever data, labels and names are given, the split is the
    split of so many positions, with the names in place of the positions. *)
Theorem C128_names : forall X y names n tr rate count ds, data_size X y names n -> uniform names ->
  split X y names tr rate count false ds = name_result (instances names n) (split (Some n) None None tr rate count false ds).
Proof.
  intros X y names n tr rate count ds D U. destruct (split_names_ok _ _ _ _ D U) as [E L].
  assert (D0 : data_size (Some n) None None n).
  { split; [left; discriminate|]. split; [intros m H; now injection H|]. repeat split; discriminate. }
  destruct (split_names_ok (Some n) None None n D0) as [E0 _]; [intros l v w H; discriminate|].
  unfold split. rewrite E, E0. cbn [instances].
  set (nm := instances names n) in *. set (base := map KInt (zrange (Z.of_nat n))).
  assert (B : nm = map (called nm) base) by (unfold base; rewrite <- L; symmetry; apply called_positions).
  assert (H : forall ds, split_one nm y tr rate false ds = option_map (fun p => (rmap (fmap_fold (called nm)) (fst p), snd p)) (split_one base None tr rate false ds)).
  { intro ds'. unfold split_one. apply until_map. intro d. rewrite B at 1. apply attempt_map. }
  rewrite (folds_map _ _ _ count H ds). destruct (folds (split_one base None tr rate false) count ds) as [[[fs|e] rest]|]; reflexivity.
Qed.
Print Assumptions C128_names.
Example C128_names_case :
  let names := [VKey (KStr "a"); VKey (KStr "b"); VKey (KStr "c"); VKey (KStr "d")]%string in
  data_size None (Some (YVec [0; 1; 0; 1])) (Some names) 4 /\ uniform (Some names) /\
  split (Some 4%nat) None None (1 # 4) (1 # 2) 1 false [[3; 2; 1; 0]%nat] =
    Some (Ok [{| f_train := [KInt 3; KInt 2; KInt 1]; f_test := [KInt 0]; f_label := [KInt 3; KInt 2]; f_unlabel := [KInt 1] |}]) /\
  split None (Some (YVec [0; 1; 0; 1])) (Some names) (1 # 4) (1 # 2) 1 false [[3; 2; 1; 0]%nat] =
    Some (Ok [{| f_train := [KStr "d"; KStr "c"; KStr "b"]; f_test := [KStr "a"]; f_label := [KStr "d"; KStr "c"]; f_unlabel := [KStr "b"] |}])%string.
Proof.
  cbn zeta. split; [|split; [|split; reflexivity]].
  - split; [right; right; discriminate|]. split; [discriminate|]. split; [|split]; intros l H; try discriminate; injection H as <-; reflexivity.
  - intros l v w H. injection H as <-. intros [<-|[<-|[<-|[<-|[]]]]] [<-|[<-|[<-|[<-|[]]]]]; reflexivity.
Qed.

(** With [all_class] this is not so: named 1, 2 and 0, three instances of which only the last has class 9 are divided
    otherwise than as positions, by the same shuffles. *)
Theorem C128_names_all_class_refuted : exists y names ds,
  data_size None (Some (YVec y)) (Some names) 3 /\ uniform (Some names) /\ Forall (shuffle 3) ds /\
  exists r, split None (Some (YVec y)) (Some names) 0 (2 # 3) 1 true ds = Some (Ok r) /\
  split None (Some (YVec y)) (Some names) 0 (2 # 3) 1 true ds <> name_result (instances (Some names) 3) (split None (Some (YVec y)) None 0 (2 # 3) 1 true ds).
Proof.
  exists [4; 4; 9], [VKey (KInt 1); VKey (KInt 2); VKey (KInt 0)], [[0; 1; 2]; [0; 2; 1]]%nat.
  split; [|split; [|split]].
  - split; [right; right; discriminate|]. split; [discriminate|]. split; [|split]; intros l H; try discriminate; injection H as <-; reflexivity.
  - intros l v w H. injection H as <-. intros [<-|[<-|[<-|[]]]] [<-|[<-|[<-|[]]]]; reflexivity.
  - repeat constructor.
  - eexists. split; [vm_compute; reflexivity|]. vm_compute. discriminate.
Qed.
Print Assumptions C128_names_all_class_refuted.

Lemma unique_renamed f (l : list Z) : (forall u v, In u l -> In v l -> f u = f v -> u = v) -> n_unique (map f l) = n_unique l.
Proof.
  intro R. unfold n_unique. rewrite <- (map_length f (nodup Z.eq_dec l)). apply Permutation_length. apply NoDup_Permutation.
  - apply NoDup_nodup.
  - assert (G : forall k, NoDup k -> incl k l -> NoDup (map f k)).
    { induction 1 as [|u k NI N IH]; intro Ik; [constructor|]. cbn [map]. constructor; [|apply IH; intros w W; apply Ik; now right].
      intro J. apply in_map_iff in J. destruct J as (w & E & W). apply NI. rewrite (R u w); auto; [apply Ik; now left|apply Ik; now right]. }
    apply G; [apply NoDup_nodup|]. intros v J. now apply nodup_In in J.
  - intro v. rewrite nodup_In, !in_map_iff. split; intros (u & E & J); exists u; split; auto; now apply nodup_In in J || apply nodup_In.
Qed.

Lemma np_at_map {A B} (f : A -> B) l k : np_at (map f l) k = rmap f (np_at l k).
Proof.
  unfold np_at, py_nth. rewrite map_length. destruct k as [i|s]; [|reflexivity].
  repeat match goal with |- context [if ?b then _ else _] => destruct b end; try reflexivity; rewrite nth_error_map; now destruct nth_error.
Qed.

Lemma np_at_in {A} (l : list A) k v : np_at l k = Ok v -> In v l.
Proof.
  unfold np_at, py_nth. destruct k as [i|s]; [|discriminate].
  repeat match goal with |- context [if ?b then _ else _] => destruct b end; try discriminate;
  (destruct nth_error eqn:E; [|discriminate]; intro H; injection H as <-; eapply nth_error_In; eauto).
Qed.

Lemma covers_renamed f (y : list Z) ln ids : (forall u v, In u y -> In v y -> f u = f v -> u = v) ->
  covers (YVec (map f y)) ln ids = covers (YVec y) ln ids.
Proof.
  intro R. cbn [covers]. assert (M : mapM (np_at (map f y)) ids = rmap (map f) (mapM (np_at y) ids)).
  { induction ids as [|k ids IH]; [reflexivity|]. cbn [mapM]. rewrite np_at_map, IH. destruct (np_at y k); [|reflexivity]. cbn [rmap bind].
    destruct (mapM (np_at y) ids); reflexivity. }
  rewrite M. destruct (mapM (np_at y) ids) as [v|e] eqn:E; [|reflexivity]. cbn [rmap bind]. rewrite unique_renamed; [reflexivity|].
  assert (I : incl v y). { clear - E. revert v E. induction ids as [|k ids IH]; intros v E; cbn [mapM] in E; [injection E as <-; intros x []|].
    destruct (np_at y k) as [a|] eqn:A; [|discriminate]. cbn [bind] in E. destruct (mapM (np_at y) ids) as [w|]; [|discriminate]. injection E as <-.
    intros x [<-|J]; [now apply np_at_in in A|now apply (IH w eq_refl)]. }
  intros a b J K. apply R; auto.
Qed.

Lemma until_ext {D A} (f f' : D -> res (option A)) ds : (forall d, f d = f' d) -> until f ds = until f' ds.
Proof. intro H. induction ds as [|d ds IH]; [reflexivity|]. cbn [until]. rewrite H, IH. reflexivity. Qed.
Lemma folds_ext {D A} (f f' : list D -> option (res A * list D)) k : (forall ds, f ds = f' ds) -> forall ds, folds f k ds = folds f' k ds.
Proof.
  intro H. induction k as [|k IH]; intro ds; [reflexivity|]. cbn [folds]. rewrite H. destruct (f' ds) as [[[a|e] ds']|]; auto. now rewrite IH.
Qed.

(** The names of the classes do not matter, with or without [all_class]. *)
Theorem C128_classes : forall f X y names tr rate count all_class ds, (forall u v, In u y -> In v y -> f u = f v -> u = v) ->
  split X (Some (YVec (map f y))) names tr rate count all_class ds = split X (Some (YVec y)) names tr rate count all_class ds.
Proof.
  intros f X y names tr rate count all_class ds R. unfold split.
  assert (E : split_names X (Some (YVec (map f y))) names = split_names X (Some (YVec y)) names).
  { unfold split_names. cbn [y_len]. now rewrite map_length. }
  rewrite E. destruct (split_names X (Some (YVec y)) names) as [idx|e]; [|reflexivity]. f_equal. apply folds_ext. intro ds'.
  unfold split_one. destruct all_class; [|reflexivity].
  assert (LN : label_num (YVec (map f y)) = label_num (YVec y)).
  { pose proof (unique_renamed f y R) as N. unfold label_num. destruct y; [reflexivity|]. cbn [map] in *. now rewrite N. }
  rewrite LN. destruct (label_num (YVec y)) as [ln|e]; [|reflexivity]. destruct (_ <? _); [reflexivity|]. apply until_ext. intro d.
  unfold split_attempt. destruct (randperm _ None d) as [rp|e]; [|reflexivity]. cbn [bind].
  destruct (mapM (py_nth idx) (py_slice_to rp _)) as [train|e]; [|reflexivity]. cbn [bind]. now rewrite (covers_renamed f y ln _ R).
Qed.
Print Assumptions C128_classes.
Example C128_classes_case : exists fs,
  split None (Some (YVec [0; 1; 0])) None 0 (2 # 3) 1 true [[0; 2; 1]; [1; 0; 2]]%nat = Some (Ok fs) /\
  split None (Some (YVec (map (fun v => 5 - 7 * v) [0; 1; 0]))) None 0 (2 # 3) 1 true [[0; 2; 1]; [1; 0; 2]]%nat = Some (Ok fs).
Proof. eexists. split; vm_compute; reflexivity. Qed.

Lemma folds_more {D A} (one : list D -> option (res A * list D)) c : forall k ds,
  extends (option_map fst (folds one c ds)) (option_map fst (folds one (c + k) ds)) /\
  (forall r ds', folds one c ds = Some (Ok r, ds') -> List.length r = c).
Proof.
  induction c as [|c IH]; intros k ds.
  - cbn [folds option_map fst extends]. split; [reflexivity|]. intros r ds' H. injection H as <- _. reflexivity.
  - cbn [folds Nat.add]. destruct (one ds) as [[[a|e] ds']|]; cbn [option_map fst extends]; [|split; [reflexivity|discriminate]|split; [reflexivity|discriminate]].
    destruct (IH k ds') as [E L]. destruct (folds one c ds') as [[[r|e] ds2]|] eqn:F; cbn [option_map fst extends rmap] in *.
    + split; [|intros r' ds3 H; injection H as <- _; cbn; f_equal; now apply (L r ds2)].
      intros fs' H. destruct (folds one (c + k) ds') as [[[r'|e'] ds3]|]; cbn [option_map fst rmap] in H; try discriminate. injection H as <-.
      cbn [List.length firstn]. f_equal. now apply E.
    + split; [|discriminate]. destruct (folds one (c + k) ds') as [[r' ds3]|]; cbn [option_map fst] in *; [|discriminate]. injection E as ->. reflexivity.
    + split; [|discriminate]. destruct (folds one (c + k) ds') as [[r' ds3]|]; cbn [option_map fst] in *; [discriminate|reflexivity].
Qed.

(** Asking for more folds does not change the first ones, in any of the three splitters; an exception or an endless search
    stays one. *)
Theorem C128_more : forall c k,
  (forall X y names tr rate all_class ds, extends (split X y names tr rate c all_class ds) (split X y names tr rate (c + k) all_class ds)) /\
  (forall mat shape tr rate all_class ds, extends (split_multi_label mat shape tr rate c all_class ds) (split_multi_label mat shape tr rate (c + k) all_class ds)) /\
  (forall mat shape tr missing all_features ds, extends (split_features mat shape tr missing c all_features ds) (split_features mat shape tr missing (c + k) all_features ds)).
Proof.
  intros c k. split; [|split].
  - intros. unfold split. destruct (split_names X y names) as [idx|e]; [|reflexivity]. apply folds_more.
  - intros. unfold split_multi_label. destruct (matrix_shape_of mat shape) as [[n m]|e]; [|reflexivity]. apply folds_more.
  - intros. unfold split_features. destruct (matrix_shape_of mat shape) as [[n m]|e]; [|reflexivity]. apply folds_more.
Qed.
Print Assumptions C128_more.
Example C128_more_case : let ds := [[2; 0; 1]; [1; 2; 0]]%nat in
  split (Some 3%nat) None None (1 # 3) (1 # 2) 1 false ds = Some (Ok [{| f_train := [KInt 2; KInt 0]; f_test := [KInt 1]; f_label := [KInt 2]; f_unlabel := [KInt 0] |}]) /\
  split (Some 3%nat) None None (1 # 3) (1 # 2) 2 false ds = Some (Ok [{| f_train := [KInt 2; KInt 0]; f_test := [KInt 1]; f_label := [KInt 2]; f_unlabel := [KInt 0] |};
    {| f_train := [KInt 1; KInt 2]; f_test := [KInt 0]; f_label := [KInt 1]; f_unlabel := [KInt 2] |}]).
Proof. split; reflexivity. Qed.

(** Without [all_class] every fold is made from its own shuffle: fold [i] is the one fold of a split with the [i]-th shuffle
    alone. *)
Theorem C128_independent : forall X y names tr rate count ds fs i f,
  split X y names tr rate count false ds = Some (Ok fs) -> nth_error fs i = Some f ->
  exists d, nth_error ds i = Some d /\ split X y names tr rate 1 false [d] = Some (Ok [f]).
Proof.
  intros X y names tr rate count ds fs i f H I. unfold split in *. destruct (split_names X y names) as [idx|e]; [|discriminate].
  revert ds fs i H I. induction count as [|c IH]; intros ds fs i H I.
  - cbn in H. injection H as <-. destruct i; discriminate.
  - cbn [folds] in H. unfold split_one at 1 in H. destruct ds as [|d ds]; [discriminate|]. cbn [until] in H.
    destruct (split_attempt idx tr rate (fun _ => Ok true) d) as [[a|]|e] eqn:A.
    + destruct (folds (split_one idx y tr rate false) c ds) as [[[r|e] ds2]|] eqn:F; cbn [option_map fst rmap] in H; try discriminate. injection H as <-.
      destruct i as [|i]; [injection I as <-|].
      * exists d. split; [reflexivity|]. cbn [folds]. unfold split_one. cbn [until]. rewrite A. reflexivity.
      * cbn [nth_error] in *. apply (IH ds r i); [now rewrite F|exact I].
    + exfalso. unfold split_attempt in A. destruct (randperm _ None d); [|discriminate]. cbn [bind] in A.
      destruct (mapM (py_nth idx) (py_slice_to _ _)); [|discriminate]. cbn [bind] in A. destruct (mapM (py_nth idx) (py_slice_from _ _)); discriminate.
    + discriminate.
Qed.
Print Assumptions C128_independent.

(** The entries of a feature matrix do not matter, nor without [all_class] those of a label matrix: only the shape does. *)
Theorem C128_shape : forall mat shape n m tr rate count ds ds', shape_is mat shape n m ->
  split_multi_label mat shape tr rate count false ds = split_multi_label None (Some (n, m)) tr rate count false ds /\
  forall all_features, split_features mat shape tr rate count all_features ds' = split_features None (Some (n, m)) tr rate count all_features ds'.
Proof.
  intros mat shape n m tr rate count ds ds' S.
  assert (E : matrix_shape_of mat shape = Ok (n, m)).
  { destruct S as [->|(-> & yy & -> & (NE & R) & L & M)]; [reflexivity|]. cbn. destruct yy as [|r rows]; [congruence|]. inversion R as [|? ? Lr RR]; subst.
    destruct (Nat.eqb_spec (List.length r) 0); [lia|]. cbn [negb andb]. replace (forallb _ rows) with true; [reflexivity|]. symmetry. apply forallb_forall.
    intros r' J. rewrite Forall_forall in RR. apply Nat.eqb_eq. auto. }
  unfold split_multi_label, split_features. rewrite E. cbn [matrix_shape_of]. split; [f_equal|]; reflexivity.
Qed.
Print Assumptions C128_shape.
Example C128_shape_case : shape_is (Some [[1; 0]; [0; 0]; [5; 7]]) None 3 2.
Proof.
  right. split; [reflexivity|]. eexists. split; [reflexivity|]. split; [|split; [reflexivity|lia]]. split; [discriminate|repeat constructor].
Qed.
