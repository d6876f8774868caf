(** Proofs about saved splits. *)
From Verif Require Import Base BaseFacts IndexModel IndexProofs Dict OracleProofs2 SplitModel SplitSpec SplitProofs SplitProofs2.
From Coq Require Import String.
Local Open Scope Z_scope.

Lemma table_items (part : fold key key -> list key) fs rows m : table part fs rows m ->
  map (fun f => map name_item (part f)) fs = map (map (fun z => Scalar (KInt z))) rows.
Proof.
  intros [E _]. rewrite <- (map_map part (map name_item)), E, map_map. apply map_ext. intro r. apply map_map.
Qed.

Lemma all_len_ok {A} m (rows : list (list A)) : Forall (fun r => List.length r = m) rows -> all_len m rows = true.
Proof. intro F. apply forallb_forall. intros r J. rewrite Forall_forall in F. apply Nat.eqb_eq. auto. Qed.

Lemma savetxt_table rows m : Forall (fun r => List.length r = m) rows ->
  savetxt (map (map (fun z => Scalar (KInt z))) rows) = Ok rows.
Proof.
  intro F. unfold savetxt.
  assert (G : match map (map (fun z => Scalar (KInt z))) rows with [] => true | r :: _ => all_len (List.length r) (map (map (fun z => Scalar (KInt z))) rows) end = true).
  { destruct rows as [|r rows]; [reflexivity|]. cbn [map]. inversion F as [|? ? Hr Hs]; subst. rewrite map_length.
    apply all_len_ok. constructor; [apply map_length|]. apply Forall_map. eapply Forall_impl; [|exact Hs]. intros r' H. now rewrite map_length. }
  rewrite G. cbn [guard bind]. clear. induction rows as [|r rows IH]; [reflexivity|]. cbn [map mapM].
  assert (E : mapM int_of (map (fun z => Scalar (KInt z)) r) = Ok r).
  { clear. induction r as [|z r IH]; [reflexivity|]. cbn. now rewrite IH. }
  rewrite E. cbn [bind]. now rewrite IH.
Qed.

Lemma put_table name rows m d : Forall (fun r => List.length r = m) rows ->
  put_txt name (map (map (fun z => Scalar (KInt z))) rows) d = (dset String.eqb name (Txt rows) d, Ok tt).
Proof. intro F. unfold put_txt. now rewrite (savetxt_table _ _ F). Qed.

Lemma two_dim_table rows m : rows <> [] -> Forall (fun r => List.length r = m) rows ->
  two_dim (map (map (fun z => Scalar (KInt z))) rows) = true.
Proof.
  intros NE F. destruct rows as [|r rows]; [congruence|]. unfold two_dim. cbn [map].
  apply andb_true_iff. split.
  - change (map (fun z => Scalar (KInt z)) r :: map (map (fun y => Scalar (KInt y))) rows) with (map (map (fun x => Scalar (KInt x))) (r :: rows)).
    inversion F as [|? ? Hr Hs]; subst. rewrite map_length. apply all_len_ok. apply Forall_map. eapply Forall_impl; [|exact F].
    intros r' H. now rewrite map_length.
  - apply forallb_forall. intros l J. apply forallb_forall. intros i Ji.
    assert (E : exists z, i = Scalar (KInt z)).
    { destruct J as [<-|J]; [|apply in_map_iff in J; destruct J as (r' & <- & _)]; apply in_map_iff in Ji; destruct Ji as (z & <- & _); eauto. }
    destruct E as [z ->]. reflexivity.
Qed.

Lemma table_len {F} (part : F -> list key) fs rows m : fs <> [] -> table part fs rows m -> rows <> [].
Proof. intros NE [E _]. intros ->. destruct fs; [congruence|discriminate]. Qed.

Lemma filter_nonblank rows m : (0 < m)%nat -> Forall (fun r => List.length r = m) rows -> filter nonblank rows = rows.
Proof.
  intros Hm F. induction F as [|r rows H F IH]; [reflexivity|]. cbn. unfold nonblank at 1. destruct (Nat.eqb_spec (List.length r) 0); [lia|].
  cbn. now rewrite IH.
Qed.

Lemma loadtxt_squeezed rows m : rows <> [] -> Forall (fun r => List.length r = m) rows -> squeezed rows (loadtxt rows).
Proof.
  intros NE F. destruct m as [|m].
  - assert (E : filter nonblank rows = []).
    { clear NE. induction F as [|r rows H F IH]; [reflexivity|]. cbn. unfold nonblank at 1. now rewrite H. }
    unfold loadtxt. rewrite E. apply sq_empty. eapply Forall_impl; [|exact F]. intros r H. now destruct r.
  - unfold loadtxt. rewrite (filter_nonblank rows (S m)) by (auto; lia). destruct rows as [|r rows]; [congruence|].
    destruct rows as [|r2 rows].
    + inversion F as [|? ? Hr _]; subst. destruct r as [|z [|z2 r]]; [discriminate|apply sq_one|apply sq_row; cbn; lia].
    + assert (X : (if all_len 1 (r :: r2 :: rows) then LVec (List.concat (r :: r2 :: rows)) else LMat (r :: r2 :: rows)) =
                  match r with [] => if all_len 1 (r :: r2 :: rows) then LVec (List.concat (r :: r2 :: rows)) else LMat (r :: r2 :: rows)
                   | _ => if all_len 1 (r :: r2 :: rows) then LVec (List.concat (r :: r2 :: rows)) else LMat (r :: r2 :: rows) end) by now destruct r.
      assert (G : squeezed (r :: r2 :: rows) (if all_len 1 (r :: r2 :: rows) then LVec (List.concat (r :: r2 :: rows)) else LMat (r :: r2 :: rows))).
      { destruct (all_len 1 (r :: r2 :: rows)) eqn:A.
        - apply sq_col; [cbn; lia|]. clear -A. revert A. generalize (r :: r2 :: rows) as l. induction l as [|x l IH]; [reflexivity|].
          cbn. intro A. apply andb_true_iff in A. destruct A as [A B]. apply Nat.eqb_eq in A. destruct x as [|z [|? ?]]; try discriminate.
          cbn. f_equal. auto.
        - apply sq_mat with (m := S m); auto; [cbn; lia|]. destruct m; [|lia]. now rewrite (all_len_ok _ _ F) in A. }
      destruct r as [|z r]; [exact G|]. destruct r; exact G.
Qed.

Lemma squeezed_mat {F} (part : F -> list key) fs rows m l : (2 <= List.length fs)%nat -> (2 <= m)%nat -> table part fs rows m ->
  squeezed rows l -> l = LMat rows.
Proof.
  intros L M [E FA] Q. assert (LR : (2 <= List.length rows)%nat).
  { apply (f_equal (@List.length _)) in E. rewrite !map_length in E. lia. }
  inversion Q as [? m' _ _ _|r _ Er|? l' _ Er|z Er|? FE]; subst; auto; try (cbn in LR; lia).
  - destruct l' as [|z l']; [cbn in LR; lia|]. inversion FA as [|? ? H _]; subst. cbn in M. lia.
  - destruct rows as [|r rows]; [cbn in LR; lia|]. inversion FE; subst. inversion FA as [|? ? H _]; subst. cbn in M. lia.
Qed.

Lemma squeezed_row r l : (2 <= List.length r)%nat -> squeezed [r] l -> l = LVec r.
Proof.
  intros L Q. inversion Q as [? m' L2 _ _|r' _|? l' L2 _|z|? FE]; subst; auto; try (cbn in *; lia).
  inversion FE; subst. cbn in L. lia.
Qed.

Lemma squeezed_num z l : squeezed [[z]] l -> l = LNum z.
Proof.
  intros Q. inversion Q as [? m' L2 _ _|r' L2|? l' L2 _|z'|? FE]; subst; auto; try (cbn in *; lia).
  inversion FE. discriminate.
Qed.

Lemma squeezed_blank l : squeezed [[]] l -> l = LVec [].
Proof. intros Q. inversion Q as [? m' L2 _ _|r' L2|? l' L2 _|z'|? FE]; subst; auto; cbn in *; lia. Qed.

(** ** Tuples *)
Lemma save_tuples (fs : list (fold nat entry)) d tr te a b f e :
  table (fun f => map (fun i => KInt (Z.of_nat i)) (f_train f)) fs tr a -> table (fun f => map (fun i => KInt (Z.of_nat i)) (f_test f)) fs te b ->
  In f fs -> In e (f_label f) ->
  exists d', save_folds pos_item entry_item fs (Some tt) (Some d) = (Some d', Ok fs) /\
    forall n, dget String.eqb n d' =
      if String.eqb n "unlabel_idx.npy" then Some (Npy (map (fun f => map entry_item (f_unlabel f)) fs)) else
      if String.eqb n "label_idx.npy" then Some (Npy (map (fun f => map entry_item (f_label f)) fs)) else
      if String.eqb n "test_idx.txt" then Some (Txt te) else
      if String.eqb n "train_idx.txt" then Some (Txt tr) else dget String.eqb n d.
Proof.
  intros T1 T2 Jf Je. unfold save_folds, split_save.
  assert (IT : forall (part : fold nat entry -> list nat) rows m, table (fun f => map (fun i => KInt (Z.of_nat i)) (part f)) fs rows m ->
     map (fun f => map pos_item (part f)) fs = map (map (fun z => Scalar (KInt z))) rows).
  { intros part rows m [E _]. transitivity (map (map name_item) (map (fun f => map (fun i => KInt (Z.of_nat i)) (part f)) fs)).
    - rewrite map_map. apply map_ext. intro g. rewrite map_map. reflexivity.
    - rewrite E, map_map. apply map_ext. intro r. apply map_map. }
  rewrite (IT _ _ _ T1), (IT _ _ _ T2).
  rewrite (put_table "train_idx.txt" tr a d (proj2 T1)), (put_table "test_idx.txt" te b _ (proj2 T2)).
  assert (TD : two_dim (map (fun f => map entry_item (f_label f)) fs) = false).
  { unfold two_dim. destruct (map _ fs) as [|r rs] eqn:M; [reflexivity|]. apply andb_false_iff. right. rewrite <- M.
    apply not_true_is_false. intro X. rewrite forallb_forall in X. specialize (X (map entry_item (f_label f))).
    rewrite forallb_forall in X. specialize (X ltac:(apply in_map_iff; eauto) (entry_item e) ltac:(apply in_map; auto)). now destruct e. }
  rewrite TD. cbn [rmap bind]. eexists. split; [reflexivity|]. intro n. now rewrite !dget_dset by apply String.eqb_eq.
Qed.

Lemma mapM_err_in {A B} (f : A -> res B) l e : mapM f l = Err e -> exists a, In a l /\ f a = Err e.
Proof.
  induction l as [|a l IH]; cbn; [discriminate|]. destruct (f a) as [b|e'] eqn:E; cbn.
  - destruct (mapM f l) eqn:M; [discriminate|]. intro H. injection H as ->. destruct (IH eq_refl) as (x & J & Hx). eauto.
  - intro H. injection H as ->. eauto.
Qed.

Lemma mapM_all {A B} (f : A -> res B) l v a : mapM f l = Ok v -> In a l -> exists b, f a = Ok b.
Proof.
  revert v. induction l as [|x l IH]; intros v; cbn; [tauto|]. destruct (f x) as [b|] eqn:E; [|discriminate]. cbn.
  destruct (mapM f l) as [bs|] eqn:M; [|discriminate]. intros _ [->|J]; eauto.
Qed.

Lemma mapM_type_err {A B} (f : A -> res B) l x : (forall a e, In a l -> f a = Err e -> e = TypeErr) ->
  In x l -> (exists e, f x = Err e) -> mapM f l = Err TypeErr.
Proof.
  intros H J [e E]. destruct (mapM f l) as [v|e'] eqn:M.
  - destruct (mapM_all _ _ _ _ M J). congruence.
  - destruct (mapM_err_in _ _ _ M) as (a & Ja & Ea). f_equal. eauto.
Qed.
