(** Theorems about [ToolBox] (C79, continued): which arguments the constructor accepts, and what it makes of them. *)
From Verif Require Import Base BaseFacts IndexModel IndexSpec MLModel OracleModel SplitModel SplitSpec ToolModel ToolSpec ToolProofs ToolProofs2 ToolProps.
From Coq Require Import String QArith.
Local Open Scope Z_scope.

(** Labels that are accepted, and the labels that are kept: a matrix with one row or one column becomes a vector. *)
Inductive flattened : ylab -> ylab -> Prop :=
| fl_vec l : l <> [] -> flattened (YVec l) (YVec l)
| fl_row r : r <> [] -> flattened (YMat [r]) (YVec r)
| fl_col l : l <> [] -> flattened (YMat (map (fun z => [z]) l)) (YVec l)
| fl_mat rows m : (2 <= List.length rows)%nat -> (2 <= m)%nat -> Forall (fun r => List.length r = m) rows -> flattened (YMat rows) (YMat rows).

(** The other arguments fit the labels. *)
Definition fitting (h : heap) (a : targs) (y : ylab) : Prop :=
  (forall X, t_X a = Some X -> List.length X = y_len y /\ exists f, (0 < f)%nat /\ forall r, In r X -> List.length r = f) /\
  (forall l, t_names a = Some l -> List.length l = y_len y) /\
  t_query a <> OtherType /\ (t_query a = Features -> t_X a <> None) /\
  (forall tr te la un, t_train a = Some tr -> t_test a = Some te -> t_label a = Some la -> t_unlabel a = Some un ->
     List.length (out_at h te) = List.length (out_at h tr) /\ List.length (out_at h la) = List.length (out_at h tr) /\
     List.length (out_at h un) = List.length (out_at h tr)).

Lemma concat_single {A} (l : list A) : List.concat (map (fun z => [z]) l) = l.
Proof. induction l; cbn; congruence. Qed.
Lemma flattened_ok y y' : flattened y y' <-> (exists n, label_num y = Ok n) /\ norm_y y = y'.
Proof.
  split.
  - intros [l N|r N|l N|rows m N M F].
    + destruct l; [congruence|]. cbn. split; [eauto|reflexivity].
    + destruct r; [congruence|]. cbn. rewrite app_nil_r. split; [eauto|reflexivity].
    + destruct l as [|z l]; [congruence|]. split.
      * cbn [map label_num]. exists 1%nat. replace (forallb _ _) with true; [reflexivity|]. symmetry. apply forallb_forall. intros r Hr.
        apply in_map_iff in Hr. destruct Hr as (? & <- & _). reflexivity.
      * unfold norm_y. cbn [map hd List.length]. rewrite orb_true_r. f_equal. apply (concat_single (z :: l)).
    + destruct rows as [|r [|r' rows]]; [cbn in N; lia|cbn in N; lia|]. pose proof (Forall_inv F) as E. split.
      * exists m. destruct r as [|z r]; [cbn in E; lia|]. cbn [label_num]. replace (forallb _ _) with true; [now rewrite E|]. symmetry.
        apply forallb_forall. intros x Hx. apply Nat.eqb_eq. rewrite E. inversion F as [|? ? _ F']; subst. rewrite Forall_forall in F'. auto.
      * unfold norm_y. cbn [hd List.length] in *. replace (Nat.eqb (List.length r) 1) with false by (symmetry; apply Nat.eqb_neq; lia). reflexivity.
  - intros [(n & E) <-]. destruct y as [l|rows]; [destruct l; [discriminate|constructor; discriminate]|]. destruct rows as [|r rows]; [discriminate|].
    destruct r as [|z r]; [discriminate|]. cbn [label_num] in E. destruct (forallb _ rows) eqn:F; [|discriminate].
    assert (L : Forall (fun x => List.length x = List.length (z :: r)) ((z :: r) :: rows)).
    { constructor; [reflexivity|]. apply Forall_forall. intros x Hx. rewrite forallb_forall in F. now apply Nat.eqb_eq, F. }
    unfold norm_y. cbn [hd]. destruct rows as [|r' rows].
    + cbn [List.length Nat.eqb orb List.concat]. rewrite app_nil_r. constructor. discriminate.
    + replace (Nat.eqb (List.length ((z :: r) :: r' :: rows)) 1) with false by reflexivity. cbn [orb].
      destruct (Nat.eqb_spec (List.length (z :: r)) 1) as [E1|E1].
      * assert (X : exists l, (z :: r) :: r' :: rows = map (fun z => [z]) l).
        { rewrite E1 in L. clear - L. induction L as [|x l E L IH]; [now exists []|]. destruct IH as (l' & ->). destruct x as [|a [|b x]]; try discriminate. now exists (a :: l'). }
        destruct X as (l & X). rewrite X, concat_single. constructor. destruct l; discriminate.
      * apply fl_mat with (List.length (z :: r)); [cbn; lia|cbn in *; lia|exact L].
Qed.

Lemma all_len_iff {A} n (X : list (list A)) : all_len n X = true <-> forall r, In r X -> List.length r = n.
Proof. unfold all_len. rewrite forallb_forall. split; intros H r Hr; apply Nat.eqb_eq, H, Hr. Qed.

Lemma new_box_iff h a : (exists b, new_box h a = Ok b) <-> exists y, flattened (t_y a) y /\ fitting h a y.
Proof.
  unfold new_box. split.
  - intros (b & E). destruct (label_num (t_y a)) as [n|] eqn:EN; [|discriminate]. cbn [bind] in E.
    exists (norm_y (t_y a)). split; [apply flattened_ok; eauto|]. set (y := norm_y (t_y a)) in *.
    destruct (t_X a) as [X|] eqn:EX.
    + match type of E with context [guard ?c ValueErr] => destruct c eqn:G; [|discriminate] end. cbn [guard bind] in E. apply andb_true_iff in G. destruct G as [G1 G2]. apply Nat.eqb_eq in G2.
      split; [|split].
      * intros X0 E0. assert (X0 = X) by congruence. subst X0. split; [auto|]. destruct X as [|r X]; [discriminate|]. apply andb_true_iff in G1. destruct G1 as [G1 G3].
        apply Nat.ltb_lt in G1. exists (List.length r). split; auto. now apply all_len_iff.
      * intros l El. rewrite El in E. destruct (Nat.eqb_spec (List.length l) (y_len y)); [auto|discriminate].
      * match type of E with bind ?r _ = _ => destruct r; [|discriminate E] end. cbn [bind] in E. destruct (t_query a) eqn:EQ; cbn in E; try discriminate E.
        all: split; [congruence|]; split; [congruence|]; intros tr te la un E1 E2 E3 E4; rewrite E1, E2, E3, E4 in E.
        all: cbn beta iota in E.
        all: destruct (Nat.eqb_spec (List.length (out_at h tr)) (List.length (out_at h te))); [|discriminate].
        all: destruct (Nat.eqb_spec (List.length (out_at h te)) (List.length (out_at h la))); [|discriminate].
        all: destruct (Nat.eqb_spec (List.length (out_at h la)) (List.length (out_at h un))); [|discriminate].
        all: repeat split; congruence.
    + cbn [bind] in E. split; [congruence|]. split.
      * intros l El. rewrite El in E. destruct (Nat.eqb_spec (List.length l) (y_len y)); [auto|discriminate].
      * match type of E with bind ?r _ = _ => destruct r; [|discriminate E] end. cbn [bind] in E. destruct (t_query a) eqn:EQ; cbn in E; try discriminate E.
        all: split; [congruence|]; split; [congruence|]; intros tr te la un E1 E2 E3 E4; rewrite E1, E2, E3, E4 in E.
        all: cbn beta iota in E.
        all: destruct (Nat.eqb_spec (List.length (out_at h tr)) (List.length (out_at h te))); [|discriminate].
        all: destruct (Nat.eqb_spec (List.length (out_at h te)) (List.length (out_at h la))); [|discriminate].
        all: destruct (Nat.eqb_spec (List.length (out_at h la)) (List.length (out_at h un))); [|discriminate].
        all: repeat split; congruence.
  - intros (y & FL & F1 & F2 & F3 & F4 & F5).
    assert (Y0 : y_len y <> 0%nat) by (destruct FL as [l N|r N|l N|rows m N M F]; cbn; [destruct l|destruct r|destruct l|]; cbn; congruence || lia).
    apply flattened_ok in FL. destruct FL as [(n & ->) EY]. rewrite EY. cbn [bind].
    assert (NZ : forall X, t_X a = Some X -> (match X with [] => false | r :: _ => Nat.ltb 0 (List.length r) && all_len (List.length r) X end && Nat.eqb (List.length X) (y_len y)) = true).
    { intros X EX. destruct (F1 X EX) as [L (f & Hf & A)]. destruct X as [|r X]; [cbn in L; congruence|].
      rewrite (A r (or_introl eq_refl)), L, Nat.eqb_refl, andb_true_r. apply andb_true_iff. split; [now apply Nat.ltb_lt|]. now apply all_len_iff. }
    assert (EX : match t_X a with None => Ok tt | Some X => guard (match X with [] => false | r :: _ => Nat.ltb 0 (List.length r) && all_len (List.length r) X end && Nat.eqb (List.length X) (y_len y)) ValueErr end = Ok tt).
    { destruct (t_X a) as [X|]; [|reflexivity]. now rewrite (NZ X eq_refl). }
    rewrite EX. cbn [bind].
    assert (EN : exists l, match t_names a with None => Ok (map (fun i => VKey (KInt i)) (zrange (Z.of_nat (y_len y)))) | Some l => if Nat.eqb (List.length l) (y_len y) then Ok l else Err ValueErr end = Ok l).
    { destruct (t_names a) as [l|]; [|eauto]. rewrite (F2 l eq_refl), Nat.eqb_refl. eauto. }
    destruct EN as (l & ->). cbn [bind]. replace (q_known (t_query a)) with true by (destruct (t_query a); [reflexivity|reflexivity|reflexivity|congruence]). cbn [guard bind].
    replace (negb (is_features (t_query a)) || _) with true by (destruct (t_query a); try reflexivity; destruct (t_X a); [reflexivity|now destruct (F4 eq_refl)]). cbn [guard bind].
    destruct (t_train a) as [tr|]; [|cbn [bind]; eauto]. destruct (t_test a) as [te|]; [|cbn [bind]; eauto].
    destruct (t_label a) as [la|]; [|cbn [bind]; eauto]. destruct (t_unlabel a) as [un|]; [|cbn [bind]; eauto].
    destruct (F5 tr te la un eq_refl eq_refl eq_refl eq_refl) as (-> & -> & ->). rewrite !Nat.eqb_refl. cbn [andb bind]. eauto.
Qed.

Lemma new_box_fields h a b : new_box h a = Ok b ->
  b_y b = norm_y (t_y a) /\ b_X b = t_X a /\ (b_flag b = true <-> t_X a <> None) /\
  b_names b = match t_names a with Some l => l | None => map (fun i => VKey (KInt i)) (zrange (Z.of_nat (y_len (norm_y (t_y a))))) end /\
  b_query b = t_query a /\ b_path b = t_path a.
Proof.
  unfold new_box. destruct (label_num (t_y a)); [|discriminate]. cbn [bind].
  match goal with |- bind ?r _ = _ -> _ => destruct r; [|discriminate] end. cbn [bind].
  destruct (t_names a) as [l|]; [destruct (Nat.eqb _ _); [|discriminate]|]; cbn [bind].
  all: destruct (guard (q_known (t_query a)) NotImplErr); [|discriminate]; cbn [bind].
  all: match goal with |- bind ?r _ = _ -> _ => destruct r; [|discriminate] end; cbn [bind].
  all: match goal with |- bind ?r _ = _ -> _ => destruct r; [|discriminate] end; cbn [bind].
  all: intro E; assert (X : forall c, Ok c = Ok b -> b = c) by (intros; congruence); apply X in E; subst b; cbn [b_y b_X b_flag b_names b_query b_path].
  all: repeat split; auto; destruct (t_X a); congruence.
Qed.

(** A toolbox without a saving path can be made exactly if the labels are a non-empty vector or a rectangular matrix and the
    other arguments fit. It then holds the labels, flattened if they are a matrix with one row or one column, the features,
    and the names given, or 0, ..., n-1. Otherwise an exception is raised and nothing is changed. *)
Theorem C79_new : forall w a, t_path a = None ->
  (forall y, flattened (t_y a) y -> fitting (w_heap w) a y ->
     exists b, tb_new w a = (w, Ok (b, false)) /\ b_y b = y /\ b_X b = t_X a /\ b_query b = t_query a /\ b_path b = None /\
       (forall l, t_names a = Some l -> b_names b = l) /\
       (t_names a = None -> b_names b = map (fun i => VKey (KInt i)) (zrange (Z.of_nat (y_len y))))) /\
  (~ (exists y, flattened (t_y a) y /\ fitting (w_heap w) a y) -> exists e, tb_new w a = (w, Err e)).
Proof.
  intros w a P. split.
  - intros y FL FI. assert (X : exists b, new_box (w_heap w) a = Ok b) by (apply new_box_iff; eauto). destruct X as (b & E).
    destruct (new_box_fields _ _ _ E) as (E1 & E2 & _ & E4 & E5 & E6). apply flattened_ok in FL. destruct FL as [_ EY].
    exists b. unfold tb_new. rewrite E, P. rewrite EY in E1, E4. repeat split; auto; try congruence; intros; rewrite E4; destruct (t_names a); congruence.
  - intro N. unfold tb_new. destruct (new_box (w_heap w) a) as [b|e] eqn:E; [|eauto]. exfalso. apply N. apply new_box_iff. eauto.
Qed.
Print Assumptions C79_new.

Definition ex_world : world := y_world (start ex_disk).
Definition ex_targs (y : ylab) (X : option (list vec)) : targs :=
  {| t_y := y; t_X := X; t_names := None; t_query := AllLabels; t_train := None; t_test := None; t_label := None; t_unlabel := None; t_path := None |}.
Example C79_new_case :
  flattened (YMat [[4]; [5]]) (YVec [4; 5]) /\ fitting (w_heap ex_world) (ex_targs (YMat [[4]; [5]]) (Some [[1%Z]; [2%Z]])) (YVec [4; 5]) /\
  (exists b, tb_new ex_world (ex_targs (YMat [[4]; [5]]) (Some [[1%Z]; [2%Z]])) = (ex_world, Ok (b, false)) /\ b_y b = YVec [4; 5]) /\
  tb_new ex_world (ex_targs (YMat [[4; 5]]) (Some [[1%Z]])) = (ex_world, Err ValueErr).
Proof.
  split; [apply (fl_col [4; 5]); discriminate|]. split.
  - split; [|repeat split; discriminate]. intros X E. injection E as <-. split; [reflexivity|]. exists 1%nat. split; [lia|]. intros r [<-|[<-|[]]]; reflexivity.
  - split; [eexists; split; reflexivity|reflexivity].
Qed.

(** A single instance with several labels is taken for several instances with one label each: the second case above. For every
    such toolbox the number of instances is the number of labels, so that features with one row are refused. *)
Theorem C79_one_row_refuted : forall w a r X, t_y a = YMat [r] -> (2 <= List.length r)%nat -> t_path a = None -> t_X a = Some X ->
  List.length X = 1%nat -> exists e, tb_new w a = (w, Err e).
Proof.
  intros w a r X EY L P EX LX. apply (proj2 (C79_new w a P)). intros (y & FL & F1 & _). destruct (F1 X EX) as [LY _]. rewrite EY in FL.
  inversion FL as [|r0 N E|l N E|rows m N M F E]; subst.
  - cbn in LY. lia.
  - destruct l as [|z [|z' l]]; try discriminate. cbn [map] in E. injection E as <-. cbn in L. lia.
  - cbn in N. lia.
Qed.
Print Assumptions C79_one_row_refuted.
