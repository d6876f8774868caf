(** Theorems about [ToolBox] (C79, continued, and C80): what can be saved, and the objects a toolbox makes. *)
From Verif Require Import Base BaseFacts IndexModel IndexSpec IndexProofs MLModel MLSpec OracleModel OracleSpec OracleProofs OracleProps RepoModel RepoSpec StateModel SplitModel SplitSpec SplitProps QueryProofs5
  ToolModel ToolSpec ToolProofs ToolProofs2 ToolProofs3 ToolProofs4 ToolProofs5 ToolProps.
From Coq Require Import String QArith.
Local Open Scope Z_scope.

(** * C79, continued *)

Lemma savetxt_str a r k s : In r a -> In k r -> k = Scalar (KStr s) -> exists e, savetxt a = Err e.
Proof.
  intros Hr Hk ->. unfold savetxt. destruct (guard _ _); cbn [bind]; [|eauto].
  assert (E1 : forall r, In (Scalar (KStr s)) r -> exists e, mapM int_of r = Err e).
  { clear. induction r as [|x r IH]; [contradiction|]. intros [->|H]; cbn [mapM bind]; [cbn; eauto|]. destruct (int_of x); cbn [bind]; eauto.
    destruct (IH H) as [e ->]. cbn. eauto. }
  revert Hr. induction a as [|x a IH]; [contradiction|]. intros [->|H]; cbn [mapM].
  - destruct (E1 r Hk) as [e ->]. cbn. eauto.
  - destruct (mapM int_of x); cbn [bind]; eauto. destruct (IH H) as [e ->]. cbn. eauto.
Qed.

(** With string names and a saving directory [split_AL] always fails: the splitter cannot write its files. *)
Theorem C79_strings_refuted : forall w b a w' b' r p y, b_path b = Some p -> b_split b = None -> b_y b = YVec y ->
  b_names b <> [] -> Forall (fun v => exists s, norm v = KStr s) (b_names b) -> 0 < s_count a -> Forall (shuffle (List.length y)) (s_draws a) ->
  tb_split w b a = Some (w', b', r) -> b_split b' = None /\ exists e, r = Err e.
Proof.
  intros w b a w' b' r p y P N Y NE FS CT D E. apply tb_split_cases in E. destruct E as [(q & X & _)|(_ & _ & _ & _ & _ & _ & _ & _ & _ & H)]; [congruence|].
  destruct H as [(e & -> & Hs & _)|(h & q & c & w1 & M & SF & _)]; [eauto|]. exfalso.
  assert (U : uniform (Some (b_names b))).
  { intros l v v' El Hv Hv'. injection El as <-. rewrite Forall_forall in FS. destruct (FS v Hv) as [s ->], (FS v' Hv') as [s' ->]. reflexivity. }
  revert M. unfold make_split. rewrite Y. destruct (SplitModel.split _ _ _ _ _ _ _ _) as [[fs|e]|] eqn:E; cbn [option_map rmap]; try discriminate.
  intro X. injection X as _ <-. pose proof (split_sized _ _ _ _ _ _ _ _ _ E) as DS. cbn [y_len] in DS.
  destruct (C27_partition _ _ _ _ _ _ _ _ _ _ DS U D E) as [L PF]. destruct fs as [|f fs]; [cbn in L; lia|].
  inversion PF as [|? ? [PE _] _]; subst. cbn [instances] in PE.
  assert (K : exists k s, In k (f_train f ++ f_test f) /\ k = KStr s).
  { destruct (b_names b) as [|v l] eqn:EN; [congruence|]. inversion FS as [|? ? [s Hs] _]; subst. exists (norm v), s. split; auto.
    eapply Permutation_in; [apply Permutation_sym, PE|]. now left. }
  destruct K as (k & s & Hk & ->).
  assert (ET : forall A (g : A -> list key) x l, In (KStr s) (g x) -> exists e, savetxt (map (fun f => scalars (g f)) (x :: l)) = Err e).
  { intros A g x l Hx. eapply (savetxt_str _ (scalars (g x))); [now left|apply in_map, Hx|reflexivity]. }
  revert SF. unfold save_files. rewrite P. cbn [q_train q_test q_label q_unlabel quad_of]. unfold split_save.
  destruct (match w_disk w p with NDir _ fs0 => Some fs0 | _ => None end) as [d|]; [|intro X; injection X; discriminate].
  unfold put_txt at 1. apply in_app_iff in Hk. destruct Hk as [Hk|Hk].
  - destruct (ET _ f_train f fs Hk) as [e ->]. intro X. injection X. discriminate.
  - destruct (savetxt (map (fun f0 => scalars (f_train f0)) (f :: fs))); [|intro X; injection X; discriminate].
    unfold put_txt at 1. destruct (ET _ f_test f fs Hk) as [e ->]. intro X. injection X. discriminate.
Qed.
Print Assumptions C79_strings_refuted.

Example C79_strings_case :
  let a := {| n_y := YVec [0; 1; 0; 1]; n_X := None; n_names := Some (map (fun s => VKey (KStr s)) ["a"; "b"; "c"; "d"]%string); n_query := AllLabels; n_split := None; n_path := Some 7 |} in
  let s := run (start ex_disk) [ENew a] in
  match y_boxes s with
  | [b] => match tb_split (y_world s) b ex_split with Some (_, b', r) => r = Err TypeErr /\ b_split b' = None | None => False end
  | _ => False end.
Proof. vm_compute. auto. Qed.

(** * C80: the objects a toolbox makes *)

Lemma labels_asarray y : np_asarray (map VKey (map KInt y)) = map KInt y.
Proof. rewrite np_asarray_homog; [rewrite map_map; cbn; apply map_id|]. intros v w Hv Hw. rewrite map_map in *. apply in_map_iff in Hv, Hw. destruct Hv as (? & <- & _), Hw as (? & <- & _). reflexivity. Qed.

Lemma or_init_labels y exs cost : y <> [] -> same_length (map KInt y) exs (@None (list key)) cost = true -> exists o, or_init (map KInt y) exs None cost = Ok o.
Proof. intros NE SL. unfold or_init. rewrite SL. cbn [negb]. rewrite labels_asarray. destruct y; [congruence|]. cbn [map]. eauto. Qed.

Lemma latest_seq {V} (f : nat -> V) n i : forall a, (latest key_dec (KInt i) (map (fun j => (KInt (Z.of_nat j), f j)) (seq a n)) =
  if (Z.of_nat a <=? i) && (i <? Z.of_nat (a + n)) then Some (f (Z.to_nat i)) else None)%Z.
Proof.
  induction n as [|n IH]; intro a; cbn [seq map latest].
  - replace (_ && _) with false by lia. reflexivity.
  - rewrite IH. destruct (Z.eq_dec i (Z.of_nat a)) as [->|Hn].
    + replace ((Z.of_nat (S a) <=? Z.of_nat a) && _) with false by lia. destruct (key_dec _ _) as [_|X]; [|congruence].
      replace (_ && _) with true by lia. now rewrite Nat2Z.id.
    + destruct (key_dec _ _) as [X|_]; [congruence|]. replace (S a + n)%nat with (a + S n)%nat by lia.
      destruct ((Z.of_nat (S a) <=? i) && _) eqn:C1; destruct ((Z.of_nat a <=? i) && _) eqn:C2; auto; exfalso; lia.
Qed.
Lemma latest_other {V} (f : nat -> V) n k : (forall i, k = KInt i -> ~ 0 <= i < Z.of_nat n) ->
  latest key_dec k (map (fun j => (KInt (Z.of_nat j), f j)) (seq 0 n)) = None.
Proof.
  intros H. destruct k as [i|s].
  - rewrite latest_seq. specialize (H i eq_refl). replace (_ && _) with false by lia. reflexivity.
  - generalize (seq 0 n). induction l as [|x l IH]; cbn [map latest]; auto. rewrite IH. destruct (key_dec _ _); [discriminate|reflexivity].
Qed.

Lemma facts_seq y cost : initial_facts (map KInt y) None cost =
  map (fun j => (KInt (Z.of_nat j), (KInt (nth j y 0), match cost with Some cs => nth j cs 0%Q | None => 1%Q end))) (seq 0 (List.length y)).
Proof.
  unfold initial_facts. rewrite map_length, labels_asarray. apply map_ext_in. intros j Hj. apply in_seq in Hj. f_equal; [|f_equal].
  - unfold initial_keys. rewrite (nth_indep _ (KInt 0) (KInt (Z.of_nat 0))) by (rewrite map_length, seq_length; lia).
    rewrite (map_nth (fun i => KInt (Z.of_nat i))). now rewrite seq_nth by lia.
  - apply (map_nth KInt).
Qed.

Lemma oracle_answers y exs cost o : or_init (map KInt y) exs None cost = Ok o ->
  (forall is, Forall (fun i => 0 <= i < Z.of_nat (List.length y)) is ->
     or_query o (map KInt is) = Ok (map (fun i => KInt (nth (Z.to_nat i) y 0)) is,
                                    map (fun i => match cost with Some cs => nth (Z.to_nat i) cs 0%Q | None => 1%Q end) is)) /\
  (forall ks k, In k ks -> (forall i, k = KInt i -> ~ 0 <= i < Z.of_nat (List.length y)) -> or_query o ks = Err TypeErr).
Proof.
  intro H. split.
  - intros is F. apply (C20_answers _ _ _ _ _ [] _ _ _ H). split; [now rewrite !map_length|]. unfold known. cbn [flat_map]. rewrite app_nil_r, facts_seq.
    induction F as [|i is Hi F IH]; cbn [map combine]; constructor; auto. rewrite latest_seq. replace (_ && _) with true by lia. reflexivity.
  - intros ks k Hk Hn. apply (C20_unknown_index _ _ _ _ _ [] ks H). exists k. split; auto. unfold known. cbn [flat_map]. rewrite app_nil_r, facts_seq, map_map. cbn [fst].
    intro X. apply in_map_iff in X. destruct X as (j & <- & Hj). apply in_seq in Hj. apply (Hn _ eq_refl). lia.
Qed.

(** The oracle of a single-label toolbox answers the position of an instance with its label, at cost 1, and nothing
    else. A cost matrix is dropped, and the names of the instances are not used. *)
Theorem C80_oracle : forall P (b : tbox P) y cost, b_query b = AllLabels -> b_y b = YVec y -> y <> [] ->
  exists o, tb_oracle b false cost = Ok (Some o) /\ tb_oracle b false None = Ok (Some o) /\
  (forall is, Forall (fun i => 0 <= i < Z.of_nat (List.length y)) is ->
     or_query o (map KInt is) = Ok (map (fun i => KInt (nth (Z.to_nat i) y 0)) is, map (fun _ => 1%Q) is)) /\
  (forall ks k, In k ks -> (forall i, k = KInt i -> ~ 0 <= i < Z.of_nat (List.length y)) -> or_query o ks = Err TypeErr).
Proof.
  intros P b y cost Q Y NE. unfold tb_oracle. rewrite Q, Y. destruct (or_init_labels y None None NE eq_refl) as [o Eo]. rewrite Eo. cbn [rmap].
  exists o. split; auto. split; auto. exact (oracle_answers y None None o Eo).
Qed.
Print Assumptions C80_oracle.

(** With examples the costs are used. *)
Theorem C80_oracle_examples : forall P (b : tbox P) y X cost, b_query b = AllLabels -> b_y b = YVec y -> y <> [] -> b_X b = Some X ->
  List.length X = List.length y -> (forall cs, cost = Some cs -> List.length cs = List.length y) ->
  exists o, tb_oracle b true cost = Ok (Some o) /\
  (forall is, Forall (fun i => 0 <= i < Z.of_nat (List.length y)) is ->
     or_query o (map KInt is) = Ok (map (fun i => KInt (nth (Z.to_nat i) y 0)) is,
                                    map (fun i => match cost with Some cs => nth (Z.to_nat i) cs 0%Q | None => 1%Q end) is)) /\
  (forall ks k, In k ks -> (forall i, k = KInt i -> ~ 0 <= i < Z.of_nat (List.length y)) -> or_query o ks = Err TypeErr).
Proof.
  intros P b y X cost Q Y NE EX LX LC. unfold tb_oracle. rewrite Q, Y, EX.
  destruct (or_init_labels y (Some X) cost NE) as [o Eo].
  - unfold same_length. rewrite map_length, LX, Nat.eqb_refl. destruct cost as [cs|]; cbn; [|reflexivity]. now rewrite (LC cs eq_refl), Nat.eqb_refl.
  - rewrite Eo. cbn [rmap]. exists o. split; auto. exact (oracle_answers y (Some X) cost o Eo).
Qed.
Print Assumptions C80_oracle_examples.

(** For 'PartLabels' there is no oracle: the call returns None. *)
Theorem C80_part_labels_refuted : forall P (b : tbox P) ex cost, b_query b = PartLabels -> tb_oracle b ex cost = Ok None.
Proof. intros P b ex cost Q. unfold tb_oracle. now rewrite Q. Qed.
Print Assumptions C80_part_labels_refuted.

(** Names are not positions: a toolbox with string names has an oracle that knows none of its instances, and one with
    integer names has an oracle that answers the wrong label. *)
Theorem C80_names_refuted : forall P (b : tbox P) y cost o, b_query b = AllLabels -> b_y b = YVec y ->
  tb_oracle b false cost = Ok (Some o) ->
  (forall v s, In v (b_names b) -> norm v = KStr s -> or_query o [norm v] = Err TypeErr) /\
  (forall i j v, nth_error (b_names b) i = Some v -> norm v = KInt (Z.of_nat j) -> (j < List.length y)%nat ->
     or_query o [norm v] = Ok ([KInt (nth j y 0)], [1%Q])).
Proof.
  intros P b y cost o Q Y E. unfold tb_oracle in E. rewrite Q, Y in E. destruct (or_init _ _ _ _) as [o'|] eqn:Eo; [|discriminate]. cbn in E. injection E as ->.
  pose proof (oracle_answers y None None o Eo) as [A B]. split.
  - intros v s _ Hs. rewrite Hs. apply (B _ (KStr s)); [now left|discriminate].
  - intros i j v _ Hv Hj. rewrite Hv. specialize (A [Z.of_nat j] ltac:(constructor; [lia|constructor])). cbn [map] in A. rewrite A. now rewrite Nat2Z.id.
Qed.
Print Assumptions C80_names_refuted.

Example C80_oracle_case :
  exists b w warn, make (y_world (start ex_disk)) ex_args = (w, Ok (b, warn)) /\
  exists o, tb_oracle b false (Some [3; 4; 5; 6]%Q) = Ok (Some o) /\ or_query o [KInt 3; KInt 0] = Ok ([KInt 1; KInt 0], [1; 1]%Q).
Proof. eexists _, _, _. split; [reflexivity|]. eexists. split; reflexivity. Qed.
Example C80_names_case :
  exists b w warn o, make (y_world (start ex_disk)) {| n_y := YVec [5; 6]; n_X := None; n_names := Some [VKey (KInt 1); VKey (KInt 0)]; n_query := AllLabels;
     n_split := None; n_path := None |} = (w, Ok (b, warn)) /\ b_names b = [VKey (KInt 1); VKey (KInt 0)] /\ b_y b = YVec [5; 6] /\
  tb_oracle b false None = Ok (Some o) /\ or_query o [KInt 1] = Ok ([KInt 6], [1%Q]).
Proof. eexists _, _, _, _. split; [reflexivity|]. split; [reflexivity|]. split; [reflexivity|]. split; reflexivity. Qed.

(** The state recorder of a fold starts with the sets of the fold. *)
Theorem C80_stateio : forall w b c n r y kl ku tr te la un,
  contents (w_heap w) b = Some c -> b_count b = Some n -> folds_are c (Z.to_nat n) -> b_y b = YVec y -> b_query b <> Features ->
  (~ 0 <= r < n -> tb_stateio w b r = (w, Err AssertErr)) /\
  (0 <= r < n -> fold_at c r tr te la un -> instance_set la kl -> instance_set un ku ->
   exists w' L U, tb_stateio w b r = (w', Ok (sio_new tr te L U)) /\ w_disk w' = w_disk w /\ holds L kl /\ holds U ku).
Proof.
  intros w b c n r y kl ku tr te la un Hc Hn F Hy Hq. split.
  - intro H. unfold tb_stateio. rewrite Hn. replace ((0 <=? r) && (r <? n)) with false by lia. reflexivity.
  - intros Hr FA IL IU.
    assert (CO : forall l, collect b l = idx_coll l) by (intro l; unfold collect; rewrite Hy; destruct (b_query b); congruence).
    destruct (idx_coll_spec _ _ IL) as (L & EL & HL). destruct (idx_coll_spec _ _ IU) as (U & EU & HU). pose proof FA as (_ & F1 & F2 & F3 & F4).
    assert (Sq : exists q, b_split b = Some q) by (unfold contents in Hc; destruct (b_split b); [eauto|discriminate]). destruct Sq as [q Sq].
    destruct (tb_get_fold w b q n r L U c Sq Hn Hc F Hr) as (w' & trv & tev & l & u & tr' & te' & la' & un' & E & FA' & D & G & FR & ND & LU & R1 & R2 & C1 & C2).
    + intros x Hx. rewrite CO. congruence.
    + intros x Hx. rewrite CO. congruence.
    + destruct FA' as (_ & G1 & G2 & _). exists w', L, U. unfold tb_stateio. rewrite Hn. replace ((0 <=? r) && (r <? n)) with true by lia. cbn [negb]. rewrite E.
      rewrite (nth_error_nth _ _ _ C1), (nth_error_nth _ _ _ C2), R1, R2. split; [|auto]. repeat f_equal; congruence.
Qed.
Print Assumptions C80_stateio.

Lemma np_at_in {A} (y : list A) i d : 0 <= i < Z.of_nat (List.length y) -> np_at y (KInt i) = Ok (nth (Z.to_nat i) y d).
Proof.
  intro H. unfold np_at. replace (i <? 0) with false by lia. unfold py_nth. rewrite (nth_error_nth' y d) by lia. reflexivity.
Qed.

(** The repository of a fold starts with the labelled instances, each with the label (and features) at the position that
    its name denotes. *)
Theorem C80_repository : forall w b c n r y il tr te la un inst,
  contents (w_heap w) b = Some c -> b_count b = Some n -> folds_are c (Z.to_nat n) -> b_y b = YVec y -> b_query b = AllLabels ->
  0 <= r < n -> fold_at c r tr te la un -> la = map (fun i => Scalar (KInt i)) il -> (exists ku, instance_set un ku) ->
  il <> [] -> Forall (fun i => 0 <= i < Z.of_nat (List.length y)) il ->
  (inst = true -> exists X d, b_X b = Some X /\ List.length X = List.length y /\ Forall (fun x => List.length x = d) X /\ (0 < d)%nat) ->
  exists w' rep idx, tb_repository w b r inst = (w', Ok (RMatrix rep)) /\ w_disk w' = w_disk w /\
    NoDup idx /\ (forall i, In i idx <-> In i il) /\
    mr_training rep = (if inst then match b_X b with Some X => Some (map (fun i => nth (Z.to_nat i) X []) idx) | None => None end else None,
                       map (fun i => RepoModel.LNum (nth (Z.to_nat i) y 0)) idx, idx).
Proof.
  intros w b c n r y il tr te la un inst Hc Hn F Hy Hq Hr FA EL [ku IU] NE RG EX.
  assert (IL : instance_set la (map KInt il)).
  { split; [rewrite EL, map_map; reflexivity|]. intros k k' Hk Hk'. apply in_map_iff in Hk, Hk'. destruct Hk as (? & <- & _), Hk' as (? & <- & _). reflexivity. }
  assert (CO : forall l, collect b l = idx_coll l) by (intro l; unfold collect; rewrite Hy, Hq; reflexivity).
  destruct (idx_coll_spec _ _ IL) as (L & EL' & (col & -> & ND & HL)). destruct (idx_coll_spec _ _ IU) as (U & EU & HU). pose proof FA as (_ & F1 & F2 & F3 & F4).
  assert (Sq : exists q, b_split b = Some q) by (unfold contents in Hc; destruct (b_split b); [eauto|discriminate]). destruct Sq as [q Sq].
  destruct (tb_get_fold w b q n r (CIdx col) U c Sq Hn Hc F Hr) as (w' & trv & tev & l & u & tr' & te' & la' & un' & E & FA' & D & G & FR & ND' & LU & R1 & R2 & C1 & C2);
    [intros x Hx; rewrite CO; congruence|intros x Hx; rewrite CO; congruence|].
  assert (KS : exists idx, map norm (cont col) = map KInt idx).
  { change (map norm (cont col)) with (elems col). assert (T : forall k, In k (elems col) -> exists i, k = KInt i).
    { intros k Hk. apply HL in Hk. apply in_map_iff in Hk. destruct Hk as (i & <- & _). eauto. }
    clear - T. induction (elems col) as [|k ks IH]; [exists []; reflexivity|]. destruct IH as [idx E]; [intros; apply T; now right|].
    destruct (T k (or_introl eq_refl)) as [i ->]. exists (i :: idx). cbn. now rewrite E. }
  destruct KS as [idx KS]. change (map norm (cont col)) with (elems col) in KS.
  assert (IN : forall i, In i idx <-> In i il).
  { intro i. specialize (HL (KInt i)). rewrite KS in HL. assert (Q : forall l, In (KInt i) (map KInt l) <-> In i l).
    { intro l0. split; [intro X; apply in_map_iff in X; destruct X as (j & X & Y); congruence|apply in_map]. } rewrite !Q in HL. exact HL. }
  rewrite KS in ND. apply NoDup_map_inv in ND. rewrite Forall_forall in RG.
  assert (RI : forall i, In i idx -> 0 <= i < Z.of_nat (List.length y)) by (intros i Hi; apply RG, IN, Hi).
  assert (NI : idx <> []) by (intros ->; destruct il as [|i il']; [congruence|]; apply (IN i); now left).
  unfold tb_repository. rewrite Hn. replace ((0 <=? r) && (r <? n)) with true by lia. cbn [negb]. rewrite E, C1, Hy. change (map norm (cont col)) with (elems col). rewrite KS.
  rewrite (MLProofs3.mapM_map_ok (np_at y) KInt (fun i => nth (Z.to_nat i) y 0)) by (intros i Hi; apply np_at_in; auto). cbn [bind].
  rewrite Hq. assert (IK : mapM int_key (map KInt idx) = Ok idx) by (rewrite (MLProofs3.mapM_map_ok int_key KInt (fun i => i)) by auto; now rewrite map_id).
  assert (LS : label_shape (map RepoModel.LNum (map (fun i => nth (Z.to_nat i) y 0) idx)) = Ok None).
  { destruct idx as [|i idx']; [congruence|]. cbn [map label_shape]. match goal with |- (if ?x then _ else _) = _ => assert (X : x = true) end; [|now rewrite X].
    cbn [forallb]. apply forallb_forall. intros x Hx. apply in_map_iff in Hx. destruct Hx as (? & <- & _). reflexivity. }
  destruct inst.
  - destruct (EX eq_refl) as (X & dd & BX & LX & FX & PD). rewrite BX.
    rewrite (MLProofs3.mapM_map_ok (np_at X) KInt (fun i => nth (Z.to_nat i) X [])) by (intros i Hi; apply np_at_in; rewrite LX; auto). cbn [bind]. rewrite IK. cbn [bind].
    unfold mr_init, same_length. rewrite !map_length, Nat.eqb_refl. cbn [andb negb]. rewrite LS. cbn [bind].
    assert (DD : forall i, In i idx -> List.length (nth (Z.to_nat i) X []) = dd).
    { intros i Hi. rewrite Forall_forall in FX. apply FX, nth_In. specialize (RI i Hi). lia. }
    set (d0 := match map (fun i => nth (Z.to_nat i) X []) idx with x :: _ => List.length x | [] => O end).
    assert (E0 : d0 = dd) by (unfold d0; destruct idx as [|i idx']; [congruence|]; cbn [map]; apply DD; now left). 
    assert (GG : forallb (fun x => Nat.eqb (List.length x) d0) (map (fun i => nth (Z.to_nat i) X []) idx) && Nat.ltb 0 d0 = true).
    { rewrite E0. apply andb_true_iff. split; [|now apply Nat.ltb_lt]. apply forallb_forall. intros x Hx. apply in_map_iff in Hx. destruct Hx as (i & <- & Hi). apply Nat.eqb_eq. auto. }
    rewrite GG. cbn [guard bind rmap]. do 3 eexists. split; [reflexivity|]. split; [exact D|]. split; [exact ND|]. split; [exact IN|].
    unfold mr_training. cbn [m_inst m_X m_y m_idx]. now rewrite map_map.
  - cbn [bind]. rewrite IK. cbn [bind]. unfold mr_init, same_length. rewrite !map_length, Nat.eqb_refl. cbn [andb negb]. rewrite LS. cbn [bind guard rmap].
    do 3 eexists. split; [reflexivity|]. split; [exact D|]. split; [exact ND|]. split; [exact IN|]. unfold mr_training. cbn [m_inst m_X m_y m_idx]. now rewrite map_map.
Qed.
Print Assumptions C80_repository.

(** String names cannot be looked up: the repository cannot be made. *)
Theorem C80_repository_names_refuted : forall w b c n r y kl ku tr te la un inst s,
  contents (w_heap w) b = Some c -> b_count b = Some n -> folds_are c (Z.to_nat n) -> b_y b = YVec y -> b_query b <> Features ->
  0 <= r < n -> fold_at c r tr te la un -> instance_set la kl -> instance_set un ku -> In (KStr s) kl ->
  exists w', tb_repository w b r inst = (w', Err IndexErr).
Proof.
  intros w b c n r y kl ku tr te la un inst s Hc Hn F Hy Hq Hr FA IL IU HS.
  assert (CO : forall l, collect b l = idx_coll l) by (intro l; unfold collect; rewrite Hy; destruct (b_query b); congruence).
  destruct (idx_coll_spec _ _ IL) as (L & EL & (col & -> & ND & HL)). destruct (idx_coll_spec _ _ IU) as (U & EU & HU). pose proof FA as (_ & F1 & F2 & F3 & F4).
  assert (Sq : exists q, b_split b = Some q) by (unfold contents in Hc; destruct (b_split b); [eauto|discriminate]). destruct Sq as [q Sq].
  destruct (tb_get_fold w b q n r (CIdx col) U c Sq Hn Hc F Hr) as (w' & trv & tev & l & u & tr' & te' & la' & un' & E & FA' & D & G & FR & ND' & LU & R1 & R2 & C1 & C2);
    [intros x Hx; rewrite CO; congruence|intros x Hx; rewrite CO; congruence|].
  exists w'. unfold tb_repository. rewrite Hn. replace ((0 <=? r) && (r <? n)) with true by lia. cbn [negb]. rewrite E, C1, Hy. change (map norm (cont col)) with (elems col).
  assert (ER : mapM (np_at y) (elems col) = Err IndexErr).
  { assert (T : forall k, In k (elems col) -> exists s', k = KStr s').
    { intros k Hk. apply HL in Hk. destruct IL as [_ U0]. specialize (U0 _ _ Hk HS). destruct k; [discriminate|eauto]. }
    apply HL in HS. destruct (elems col) as [|k ks]; [contradiction|]. destruct (T k (or_introl eq_refl)) as [s' ->]. reflexivity. }
  rewrite ER. reflexivity.
Qed.
Print Assumptions C80_repository_names_refuted.

(** Feature querying with one label per instance: [split_AL] makes folds of instances, from which [get_split] cannot
    make its collections of (instance, feature) pairs. *)
Theorem C80_features_refuted : forall w b c n r X tr te la un k ks,
  contents (w_heap w) b = Some c -> b_count b = Some n -> folds_are c (Z.to_nat n) -> b_query b = Features -> b_X b = Some X ->
  0 <= r < n -> fold_at c r tr te la un -> la = map Scalar (k :: ks) -> tb_get w b (Some r) = (w, Err GenericErr).
Proof.
  intros w b c n r X tr te la un k ks Hc Hn (F1 & F2 & F3 & F4) Hq HX Hr (_ & _ & _ & A3 & _) EL. unfold contents in Hc. unfold tb_get. destruct (b_split b) as [q|]; [|discriminate].
  injection Hc as <-. cbn [q_train q_test q_label q_unlabel] in *. unfold read_out in *. rewrite !map_length in *.
  rewrite Hn. cbn [bind]. replace ((0 <=? r) && (r <? n)) with true by lia. cbn [guard bind].
  destruct (py_nth_at (out_at (w_heap w) (q_train q)) (Z.to_nat r) ltac:(lia)) as (v1 & P1 & N1).
  destruct (py_nth_at (out_at (w_heap w) (q_test q)) (Z.to_nat r) ltac:(lia)) as (v2 & P2 & N2).
  destruct (py_nth_at (out_at (w_heap w) (q_label q)) (Z.to_nat r) ltac:(lia)) as (v3 & P3 & N3).
  rewrite P1, P2, P3. cbn [bind]. rewrite nth_error_map, N3 in A3. cbn in A3. injection A3 as A3. rewrite A3, EL.
  unfold collect. rewrite Hq, HX. reflexivity.
Qed.
Print Assumptions C80_features_refuted.

(** The hypotheses of these theorems are met by the toolbox of [C59_case]. *)
Example C80_fold_case :
  let s := run (start ex_disk) [ENew ex_args; ESplit 0 ex_split] in
  match y_boxes s with
  | [b] => contents (w_heap (y_world s)) b = Some ex_folds /\ b_count b = Some 2 /\ folds_are ex_folds (Z.to_nat 2) /\ b_y b = YVec [0; 1; 0; 1] /\ b_query b = AllLabels /\
      fold_at ex_folds 1 (ex_keys [0; 1; 2]) (ex_keys [3]) (ex_keys [0; 1]) (ex_keys [2]) /\ instance_set (ex_keys [2]) [KInt 2] /\
      match tb_repository (y_world s) b 1 false with
      | (_, Ok (RMatrix rep)) => mr_training rep = (None, [RepoModel.LNum 0; RepoModel.LNum 1], [0; 1])
      | _ => False end
  | _ => False end.
Proof.
  vm_compute. split; [reflexivity|]. split; [reflexivity|]. split; [auto|]. split; [reflexivity|]. split; [reflexivity|]. split; [repeat split; discriminate || reflexivity|].
  split; [|reflexivity]. split; [reflexivity|]. intros k k' [<-|[]] [<-|[]]. reflexivity.
Qed.
Example C80_features_case :
  let a := {| n_y := YVec [0; 1; 0; 1]; n_X := Some [[1; 2]; [3; 4]; [5; 6]; [7; 8]]; n_names := None; n_query := Features; n_split := None; n_path := None |} in
  let s := run (start ex_disk) [ENew a; ESplit 0 ex_split] in
  match y_boxes s with
  | [b] => contents (w_heap (y_world s)) b = Some ex_folds /\ snd (tb_get (y_world s) b (Some 0)) = Err GenericErr
  | _ => False end.
Proof. vm_compute. auto. Qed.
