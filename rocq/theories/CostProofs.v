(** Proofs about the knapsack of CostModel. *)
From Verif Require Import Base BaseFacts CostModel CostSpec.
From Coq Require Import QArith Lqa Lia.
Local Open Scope Z_scope.

(** ** The table *)

Fixpoint opt (r : list (option Q * Z)) (j : Z) : Q :=
  match r with
  | [] => 0%Q
  | (v, c) :: r' => if j - c <? 0 then opt r' j else py_max (opt r' j) (plus_value (opt r' (j - c)) v)
  end.
Definition taken (v : option Q) (c : Z) (r : list (option Q * Z)) (j : Z) : bool :=
  (0 <=? j - c) && match plus_value (opt r (j - c)) v with
                   | Some s => Qeq_bool (opt ((v, c) :: r) j) s
                   | None => false
                   end.
Fixpoint pick (r : list (option Q * Z)) (j : Z) : list bool :=
  match r with
  | [] => []
  | (v, c) :: r' => if taken v c r' j then true :: pick r' (j - c) else false :: pick r' j
  end.

Definition rw (cap : Z) (r : list (option Q * Z)) : list Q := map (opt r) (zrange (cap + 1)).

Lemma zrange_nth n j : 0 <= j < n -> nth_error (zrange n) (Z.to_nat j) = Some j.
Proof.
  intros H. unfold zrange. erewrite map_nth_error with (d := Z.to_nat j).
  - f_equal. lia.
  - rewrite nth_error_nth' with (d := 0%nat) by (rewrite seq_length; lia).
    f_equal. rewrite seq_nth by lia. lia.
Qed.

Lemma rw_nth cap r j : 0 <= j <= cap -> py_nth (rw cap r) (Z.to_nat j) = Ok (opt r j).
Proof.
  intros H. unfold py_nth, rw. erewrite map_nth_error; [reflexivity|]. apply zrange_nth. lia.
Qed.

Lemma rw_nth_over cap r j : cap < j -> 0 <= cap -> py_nth (rw cap r) (Z.to_nat j) = Err IndexErr.
Proof.
  intros H H0. unfold py_nth. rewrite (proj2 (nth_error_None _ _)); [reflexivity|].
  unfold rw. rewrite map_length. unfold zrange. rewrite map_length, seq_length. lia.
Qed.

Lemma mapM_all {A B} (f : A -> res B) g l : (forall x, In x l -> f x = Ok (g x)) -> mapM f l = Ok (map g l).
Proof.
  induction l as [|x l IH]; intros H; [reflexivity|]. cbn. rewrite H by (left; auto). cbn.
  rewrite IH by (intros; apply H; right; auto). reflexivity.
Qed.

Lemma next_row_ok cap r v c : 0 <= c -> next_row cap (rw cap r) v c = Ok (rw cap ((v, c) :: r)).
Proof.
  intros Hc. unfold next_row, rw at 1. apply (mapM_all _ (opt ((v, c) :: r))).
  intros j Hj. apply in_zrange in Hj. cbn [opt].
  destruct (j - c <? 0) eqn:E.
  - apply rw_nth. lia.
  - apply Z.ltb_ge in E. rewrite !rw_nth by lia. reflexivity.
Qed.

Lemma next_row_err cap r v c : 0 <= cap -> c < 0 -> next_row cap (rw cap r) v c = Err IndexErr.
Proof.
  intros H0 Hc. unfold next_row.
  assert (G : forall l, (forall j, In j l -> 0 <= j <= cap) -> In cap l ->
     mapM (fun j => if j - c <? 0 then py_nth (rw cap r) (Z.to_nat j)
          else y <- py_nth (rw cap r) (Z.to_nat j) ;;
               x <- py_nth (rw cap r) (Z.to_nat (j - c)) ;; Ok (py_max y (plus_value x v))) l = Err IndexErr).
  { induction l as [|j l IH]; intros Hl Hi; [contradiction|]. cbn [mapM].
    assert (Hj : 0 <= j <= cap) by (apply Hl; left; auto).
    replace (j - c <? 0) with false by (symmetry; apply Z.ltb_ge; lia).
    rewrite rw_nth by lia. cbn [bind].
    destruct (Z_lt_dec cap (j - c)) as [Ho|Ho].
    - rewrite rw_nth_over by lia. reflexivity.
    - rewrite rw_nth by lia. cbn [bind].
      rewrite IH; [reflexivity| intros; apply Hl; right; auto |].
      destruct Hi as [->|]; [lia|auto]. }
  apply G.
  - intros j Hj. apply in_zrange in Hj. lia.
  - apply in_zrange. lia.
Qed.

Fixpoint rowsfrom cap r (items : list (option Q * Z)) : list (list Q) :=
  match items with [] => [rw cap r] | x :: it => rw cap r :: rowsfrom cap (x :: r) it end.

Lemma fill_ok cap items : forall r, Forall (fun x => 0 <= snd x) items ->
  fill cap (rw cap r) items = Ok (rowsfrom cap r items).
Proof.
  induction items as [|[v c] it IH]; intros r H; [reflexivity|].
  inversion H; subst; cbn in *. rewrite next_row_ok by auto. cbn [bind]. rewrite IH by auto. reflexivity.
Qed.

Lemma fill_err cap items : forall r, 0 <= cap -> Exists (fun x => snd x < 0) items ->
  fill cap (rw cap r) items = Err IndexErr.
Proof.
  induction items as [|[v c] it IH]; intros r H0 H; [inversion H|]. cbn [fill].
  destruct (Z_lt_dec c 0) as [Hc|Hc].
  - rewrite next_row_err by auto. reflexivity.
  - rewrite next_row_ok by lia. cbn [bind]. inversion H; subst; cbn in *; [lia|].
    rewrite IH by auto. reflexivity.
Qed.

Fixpoint stepsfrom cap r (items : list (option Q * Z)) :=
  match items with [] => [] | x :: it => ((rw cap r, rw cap (x :: r)), x) :: stepsfrom cap (x :: r) it end.
Fixpoint stepsdown cap (r : list (option Q * Z)) :=
  match r with [] => [] | x :: r' => ((rw cap r', rw cap (x :: r')), x) :: stepsdown cap r' end.

Lemma rowsfrom_hd cap r items : rowsfrom cap r items = rw cap r :: tl (rowsfrom cap r items).
Proof. destruct items; reflexivity. Qed.

Lemma steps_eq cap items : forall r,
  combine (combine (rowsfrom cap r items) (tl (rowsfrom cap r items))) items = stepsfrom cap r items.
Proof.
  induction items as [|x it IH]; intros r; [reflexivity|].
  cbn [rowsfrom tl stepsfrom]. rewrite <- IH.
  rewrite (rowsfrom_hd cap (x :: r) it) at 2. cbn [combine]. f_equal.
Qed.

Lemma steps_rev cap items : forall r,
  rev (stepsfrom cap r items) ++ stepsdown cap r = stepsdown cap (rev items ++ r).
Proof.
  induction items as [|x it IH]; intros r; [reflexivity|].
  cbn [stepsfrom rev]. rewrite <- !app_assoc. cbn [app].
  rewrite <- IH. reflexivity.
Qed.

Lemma rowsfrom_last cap items : forall r d, last (rowsfrom cap r items) d = rw cap (rev items ++ r).
Proof.
  induction items as [|x it IH]; intros r d; [reflexivity|].
  cbn [rev rowsfrom]. rewrite <- app_assoc. cbn [app]. rewrite <- (IH (x :: r) d).
  rewrite (rowsfrom_hd cap (x :: r) it). reflexivity.
Qed.

Lemma backtrack_ok cap r : forall j acc, 0 <= j <= cap -> Forall (fun x => 0 <= snd x) r ->
  backtrack (stepsdown cap r) j acc = Ok (rev (pick r j) ++ acc).
Proof.
  induction r as [|[v c] r IH]; intros j acc Hj Hc; [reflexivity|].
  inversion Hc; subst; cbn [snd] in *. cbn [stepsdown backtrack pick]. unfold taken.
  destruct (0 <=? j - c) eqn:E; cbn [andb].
  - apply Z.leb_le in E. rewrite !rw_nth by lia. cbn [bind].
    destruct (plus_value (opt r (j - c)) v) as [s|].
    + destruct (Qeq_bool (opt ((v, c) :: r) j) s); rewrite IH by (auto; lia);
        cbn [rev]; rewrite <- app_assoc; reflexivity.
    + rewrite IH by auto. cbn [rev]. rewrite <- app_assoc. reflexivity.
  - rewrite IH by auto. cbn [rev]. rewrite <- app_assoc. reflexivity.
Qed.

Lemma repeat_rw cap : 0 <= cap -> repeat 0%Q (Z.to_nat (cap + 1)) = rw cap [].
Proof.
  intros H. unfold rw. rewrite map_ext with (g := fun _ => 0%Q) by reflexivity.
  unfold zrange. rewrite map_map. generalize 0%nat. induction (Z.to_nat (cap + 1)) as [|n IH]; intros s; [reflexivity|].
  cbn. f_equal. apply IH.
Qed.

Lemma Forall_combine_r {A B} (P : B -> Prop) (l : list A) (l' : list B) :
  Forall P l' -> Forall (fun x => P (snd x)) (combine l l').
Proof.
  intros H. revert l. induction H; intros [|a m]; cbn; constructor; auto.
Qed.

Lemma knapsack_run values costs cap :
  length values = length costs -> Forall (fun c => 0 <= c) costs -> 0 <= cap ->
  select_Knapsack_01 values costs cap =
    Ok (opt (rev (combine values costs)) cap, rev (pick (rev (combine values costs)) cap)).
Proof.
  intros Hl Hc H0. unfold select_Knapsack_01. rewrite Hl, Nat.eqb_refl. cbn [guard bind].
  replace (-1 <=? cap) with true by (symmetry; apply Z.leb_le; lia).
  replace (0 <=? cap) with true by (symmetry; apply Z.leb_le; lia). cbn [guard bind].
  assert (F : Forall (fun x : option Q * Z => 0 <= snd x) (combine values costs)) by (apply Forall_combine_r; auto).
  rewrite repeat_rw by auto. rewrite fill_ok by auto. cbn [bind].
  rewrite steps_eq. pose proof (steps_rev cap (combine values costs) []) as E.
  cbn [stepsdown] in E. rewrite !app_nil_r in E. rewrite E.
  rewrite backtrack_ok by (auto using Forall_rev; lia). cbn [bind].
  rewrite rowsfrom_last, app_nil_r, rw_nth by lia. cbn [bind]. rewrite app_nil_r. reflexivity.
Qed.

Lemma knapsack_neg values costs cap :
  length values = length costs -> Exists (fun c => c < 0) costs -> 0 <= cap ->
  select_Knapsack_01 values costs cap = Err IndexErr.
Proof.
  intros Hl Hc H0. unfold select_Knapsack_01. rewrite Hl, Nat.eqb_refl. cbn [guard bind].
  replace (-1 <=? cap) with true by (symmetry; apply Z.leb_le; lia).
  replace (0 <=? cap) with true by (symmetry; apply Z.leb_le; lia). cbn [guard bind].
  rewrite repeat_rw by auto. rewrite fill_err; auto.
  revert values Hl. induction Hc as [c l H|c l H IH]; intros [|v vs] Hl; cbn in *; try lia.
  - apply Exists_cons_hd. auto.
  - apply Exists_cons_tl. apply IH. lia.
Qed.

(** ** Optimality on reversed lists *)

Lemma chosen_cons {A} b fl (x : A) l : chosen (b :: fl) (x :: l) = if b then x :: chosen fl l else chosen fl l.
Proof. destruct b; reflexivity. Qed.

Lemma chosen_app {A} f1 f2 (l1 l2 : list A) : length f1 = length l1 ->
  chosen (f1 ++ f2) (l1 ++ l2) = chosen f1 l1 ++ chosen f2 l2.
Proof.
  revert l1. induction f1 as [|b f1 IH]; intros [|x l1] H; cbn in H; try lia; [reflexivity|].
  cbn [app]. rewrite !chosen_cons, IH by lia. destruct b; reflexivity.
Qed.

Lemma chosen_rev {A} fl (l : list A) : length fl = length l -> chosen (rev fl) (rev l) = rev (chosen fl l).
Proof.
  revert l. induction fl as [|b fl IH]; intros [|x l] H; cbn in H; try lia; [reflexivity|].
  cbn [rev]. rewrite chosen_app by (rewrite !rev_length; lia). rewrite IH by lia.
  rewrite chosen_cons. destruct b; cbn; [reflexivity|]. rewrite app_nil_r. reflexivity.
Qed.

Lemma chosen_fst {A B} fl (l : list A) (l' : list B) : length l = length l' ->
  map fst (chosen fl (combine l l')) = chosen fl l.
Proof.
  revert l l'. induction fl as [|b fl IH]; intros [|x l] [|y l'] H; cbn in H; try lia; try reflexivity.
  cbn [combine]. rewrite !chosen_cons. destruct b; cbn [map fst]; rewrite IH by lia; reflexivity.
Qed.
Lemma chosen_snd {A B} fl (l : list A) (l' : list B) : length l = length l' ->
  map snd (chosen fl (combine l l')) = chosen fl l'.
Proof.
  revert l l'. induction fl as [|b fl IH]; intros [|x l] [|y l'] H; cbn in H; try lia; try reflexivity.
  cbn [combine]. rewrite !chosen_cons. destruct b; cbn [map snd]; rewrite IH by lia; reflexivity.
Qed.

Lemma total_cost_nonneg l : Forall (fun c => 0 <= c) l -> 0 <= total_cost l.
Proof. induction 1 as [|x l H _ IH]; [cbn; lia|]. change (0 <= x + total_cost l). lia. Qed.

Lemma chosen_Forall {A} (P : A -> Prop) fl l : Forall P l -> Forall P (chosen fl l).
Proof.
  intros H. revert fl. induction H; intros [|b fl]; try constructor.
  rewrite chosen_cons. destruct b; [constructor|]; auto.
Qed.

Lemma worth_nil : worth [] 0%Q.
Proof. exists []. split; reflexivity. Qed.
Lemma worth_cons v l w : worth (v :: l) w -> exists q w', v = Some q /\ worth l w' /\ (w == q + w')%Q.
Proof.
  intros (q & E & Hw). destruct q as [|q ql]; [discriminate|]. cbn in E. injection E as -> ->.
  exists q, (sum_q ql). split; [reflexivity|]. split; [exists ql; split; reflexivity|]. exact Hw.
Qed.
Lemma worth_cons_intro q l w : worth l w -> worth (Some q :: l) (q + w)%Q.
Proof. intros (ql & -> & Hw). exists (q :: ql). split; [reflexivity|]. cbn. fold (sum_q ql). rewrite Hw. reflexivity. Qed.
Lemma worth_eq l w w' : worth l w -> (w == w')%Q -> worth l w'.
Proof. intros (q & -> & H) E. exists q. split; [reflexivity|]. rewrite <- E. exact H. Qed.
Lemma worth_unique l w w' : worth l w -> worth l w' -> (w == w')%Q.
Proof.
  intros (q & E & H) (q' & E' & H'). rewrite E in E'.
  assert (q = q'); [|subst; rewrite H, H'; reflexivity].
  clear -E'. revert q' E'. induction q as [|x q IH]; intros [|y q'] E; try discriminate; auto.
  cbn in E. injection E as -> E. f_equal. auto.
Qed.

Lemma sum_q_app a b : (sum_q (a ++ b) == sum_q a + sum_q b)%Q.
Proof.
  induction a as [|x a IH]; cbn [app].
  - change (sum_q b == 0 + sum_q b)%Q. ring.
  - change (x + sum_q (a ++ b) == x + sum_q a + sum_q b)%Q. rewrite IH. ring.
Qed.
Lemma sum_q_rev a : (sum_q (rev a) == sum_q a)%Q.
Proof. induction a as [|x a IH]; cbn [rev]; [reflexivity|]. rewrite sum_q_app, IH.
  change (sum_q a + (x + 0) == x + sum_q a)%Q. ring.
Qed.
Lemma worth_rev l w : worth l w -> worth (rev l) w.
Proof.
  intros (q & -> & H). exists (rev q). rewrite map_rev. split; [reflexivity|]. rewrite sum_q_rev. exact H.
Qed.
Lemma total_cost_app a b : total_cost (a ++ b) = total_cost a + total_cost b.
Proof.
  induction a as [|x a IH]; cbn [app]; [reflexivity|].
  change (x + total_cost (a ++ b) = x + total_cost a + total_cost b). lia.
Qed.
Lemma total_cost_rev a : total_cost (rev a) = total_cost a.
Proof. induction a as [|x a IH]; cbn [rev]; [reflexivity|]. rewrite total_cost_app, IH.
  change (total_cost a + (x + 0) = x + total_cost a). lia.
Qed.

Lemma py_max_l a b : (a <= py_max a b)%Q.
Proof.
  destruct b as [b|]; cbn; [|lra]. destruct (Qle_bool b a) eqn:E; [lra|].
  destruct (Qlt_le_dec a b) as [H|H]; [lra|]. apply Qle_bool_iff in H. congruence.
Qed.
Lemma py_max_r a b : (b <= py_max a (Some b))%Q.
Proof. cbn. destruct (Qle_bool b a) eqn:E; [apply Qle_bool_iff in E|]; lra. Qed.
Lemma py_max_one a b : py_max a b = a \/ b = Some (py_max a b).
Proof. destruct b as [b|]; cbn; auto. destruct (Qle_bool b a); auto. Qed.

Lemma opt_ge_skip v c r j : (opt r j <= opt ((v, c) :: r) j)%Q.
Proof. cbn [opt]. destruct (j - c <? 0); [lra|]. apply py_max_l. Qed.
Lemma opt_ge_take q c r j : 0 <= j - c -> (q + opt r (j - c) <= opt ((Some q, c) :: r) j)%Q.
Proof.
  intros H. cbn [opt]. replace (j - c <? 0) with false by (symmetry; apply Z.ltb_ge; lia).
  cbn [plus_value option_map]. pose proof (py_max_r (opt r j) (opt r (j - c) + q)%Q). lra.
Qed.

Definition rcost fl (r : list (option Q * Z)) := total_cost (map snd (chosen fl r)).
Definition rworth fl (r : list (option Q * Z)) := worth (map fst (chosen fl r)).

Lemma rcost_nonneg fl r : Forall (fun x : option Q * Z => 0 <= snd x) r -> 0 <= rcost fl r.
Proof.
  intros H. apply total_cost_nonneg. apply Forall_map. apply chosen_Forall. exact H.
Qed.

Lemma opt_ge r : Forall (fun x => 0 <= snd x) r -> forall fl j w, length fl = length r ->
  rcost fl r <= j -> rworth fl r w -> (w <= opt r j)%Q.
Proof.
  induction 1 as [|[v c] r Hc Hr IH]; intros fl j w Hl Hco Hw.
  - destruct fl; [|discriminate]. destruct Hw as (q & E & Hw). destruct q; [|discriminate]. cbn in *. lra.
  - destruct fl as [|b fl]; [discriminate|]. cbn in Hl. unfold rcost, rworth in *. rewrite chosen_cons in *.
    cbn [snd] in Hc. destruct b.
    + cbn [map fst snd] in *. apply worth_cons in Hw. destruct Hw as (q & w' & -> & Hw & E).
      change (total_cost (c :: map snd (chosen fl r))) with (c + rcost fl r) in Hco.
      pose proof (rcost_nonneg fl r Hr).
      assert (w' <= opt r (j - c))%Q by (apply (IH fl); auto; unfold rcost in *; lia).
      pose proof (opt_ge_take q c r j ltac:(lia)). lra.
    + pose proof (IH fl j w ltac:(lia) Hco Hw). pose proof (opt_ge_skip v c r j). lra.
Qed.

Lemma pick_length r : forall j, length (pick r j) = length r.
Proof. induction r as [|[v c] r IH]; intros j; cbn; [reflexivity|]. destruct (taken v c r j); cbn; auto. Qed.

Lemma taken_true v c r j : taken v c r j = true ->
  exists q, v = Some q /\ 0 <= j - c /\ (opt ((v, c) :: r) j == q + opt r (j - c))%Q.
Proof.
  unfold taken. intros H. apply andb_prop in H. destruct H as [H1 H2]. apply Z.leb_le in H1.
  destruct v as [q|]; [|discriminate]. cbn [plus_value option_map] in H2. apply Qeq_bool_iff in H2.
  exists q. split; [reflexivity|]. split; [auto|]. rewrite H2. ring.
Qed.
Lemma taken_false v c r j : taken v c r j = false ->
  (opt ((v, c) :: r) j == opt r j)%Q /\
  forall q, v = Some q -> 0 <= j - c -> (q + opt r (j - c) < opt ((v, c) :: r) j)%Q.
Proof.
  intros H. split.
  - cbn [opt]. destruct (j - c <? 0) eqn:E; [reflexivity|]. apply Z.ltb_ge in E.
    destruct (py_max_one (opt r j) (plus_value (opt r (j - c)) v)) as [->|Ev]; [reflexivity|].
    exfalso. unfold taken in H. replace (0 <=? j - c) with true in H by (symmetry; apply Z.leb_le; lia).
    cbn [andb opt] in H. replace (j - c <? 0) with false in H by (symmetry; apply Z.ltb_ge; lia).
    rewrite Ev in H at 1. cbv beta iota in H. rewrite Qeq_bool_refl in H. discriminate.
  - intros q -> H0. unfold taken in H. replace (0 <=? j - c) with true in H by (symmetry; apply Z.leb_le; lia).
    cbn [andb plus_value option_map] in H.
    pose proof (opt_ge_take q c r j H0) as G.
    apply Qle_lteq in G. destruct G as [G|G]; [exact G|]. exfalso.
    rewrite (proj2 (Qeq_bool_iff (opt ((Some q, c) :: r) j) (opt r (j - c) + q))) in H; [discriminate|].
    rewrite <- G. ring.
Qed.

Lemma pick_ok r : Forall (fun x => 0 <= snd x) r -> forall j, 0 <= j ->
  rcost (pick r j) r <= j /\ rworth (pick r j) r (opt r j).
Proof.
  induction 1 as [|[v c] r Hc Hr IH]; intros j Hj.
  - split; [cbn; lia|]. apply worth_nil.
  - cbn [pick snd] in *. destruct (taken v c r j) eqn:T.
    + apply taken_true in T. destruct T as (q & -> & H0 & E).
      destruct (IH (j - c) H0) as [I1 I2]. unfold rcost, rworth in *. rewrite chosen_cons. cbn [map fst snd].
      split.
      * change (total_cost (c :: map snd (chosen (pick r (j - c)) r)))
          with (c + total_cost (map snd (chosen (pick r (j - c)) r))). lia.
      * eapply worth_eq; [apply worth_cons_intro, I2|]. rewrite E. reflexivity.
    + apply taken_false in T. destruct T as [E _]. destruct (IH j Hj) as [I1 I2].
      unfold rcost, rworth in *. rewrite chosen_cons. split; [exact I1|].
      eapply worth_eq; [exact I2|]. rewrite E. reflexivity.
Qed.

Lemma pick_lex r : Forall (fun x => 0 <= snd x) r -> forall j fl w, 0 <= j -> length fl = length r ->
  rcost fl r <= j -> rworth fl r w -> (w == opt r j)%Q ->
  fl = pick r j \/
  exists i, (i < length r)%nat /\ nth i (pick r j) false = true /\ nth i fl false = false /\
            forall k, (k < i)%nat -> nth k fl false = nth k (pick r j) false.
Proof.
  induction 1 as [|[v c] r Hc Hr IH]; intros j fl w Hj Hl Hco Hw E.
  - destruct fl; [left; reflexivity|discriminate].
  - destruct fl as [|b fl]; [discriminate|]. cbn in Hl. cbn [pick snd] in *.
    unfold rcost, rworth in Hco, Hw. rewrite chosen_cons in Hco, Hw.
    destruct b; cbn [map fst snd] in Hco, Hw.
    + apply worth_cons in Hw. destruct Hw as (q & w' & -> & Hw & Ew).
      change (total_cost (c :: map snd (chosen fl r))) with (c + rcost fl r) in Hco.
      pose proof (rcost_nonneg fl r Hr).
      assert (L : (w' <= opt r (j - c))%Q) by (apply (opt_ge r Hr fl); auto; lia).
      destruct (taken (Some q) c r j) eqn:T.
      * apply taken_true in T. destruct T as (q' & Eq & H0 & E'). injection Eq as <-.
        destruct (IH (j - c) fl w' H0 ltac:(lia) ltac:(lia) Hw) as [->|(i & Hi & N1 & N2 & N3)].
        { rewrite E', Ew in E. lra. }
        { left; reflexivity. }
        right. exists (S i). cbn. split; [lia|]. split; [exact N1|]. split; [exact N2|].
        intros [|k] Hk; [reflexivity|]. apply N3. lia.
      * exfalso. apply taken_false in T. destruct T as [_ T]. pose proof (T q eq_refl ltac:(lia)). lra.
    + change (total_cost (map snd (chosen fl r))) with (rcost fl r) in Hco.
      destruct (taken v c r j) eqn:T.
      * right. exists 0%nat. cbn. split; [lia|]. split; [reflexivity|]. split; [reflexivity|]. lia.
      * apply taken_false in T. destruct T as [E' _].
        destruct (IH j fl w Hj ltac:(lia) Hco Hw) as [->|(i & Hi & N1 & N2 & N3)].
        { rewrite E, E'. reflexivity. }
        { left; reflexivity. }
        right. exists (S i). cbn. split; [lia|]. split; [exact N1|]. split; [exact N2|].
        intros [|k] Hk; [reflexivity|]. apply N3. lia.
Qed.

(** ** Back to the order of the arguments *)

Section Items.
  Variables (values : list (option Q)) (costs : list Z) (cap : Z).
  Hypothesis Hl : length values = length costs.
  Hypothesis Hc : Forall (fun c => 0 <= c) costs.
  Hypothesis H0 : 0 <= cap.
  Let items := combine values costs.
  Let Hi : length items = length costs.
  Proof. unfold items. rewrite combine_length. lia. Qed.
  Let Fr : Forall (fun x : option Q * Z => 0 <= snd x) (rev items).
  Proof. apply Forall_rev. apply Forall_combine_r. exact Hc. Qed.

  Lemma rcost_rev fl : length fl = length costs -> rcost (rev fl) (rev items) = total_cost (chosen fl costs).
  Proof.
    intros L. unfold rcost. rewrite chosen_rev by lia. rewrite map_rev, total_cost_rev.
    unfold items. rewrite chosen_snd by lia. reflexivity.
  Qed.
  Lemma rworth_rev fl w : length fl = length costs -> worth (chosen fl values) w <-> rworth (rev fl) (rev items) w.
  Proof.
    intros L. unfold rworth. rewrite chosen_rev by lia. rewrite map_rev.
    unfold items. rewrite chosen_fst by lia. split; intros W.
    - apply worth_rev. exact W.
    - rewrite <- (rev_involutive (chosen fl values)). apply worth_rev. exact W.
  Qed.

  Lemma knapsack_optimal :
    optimal values costs cap (rev (pick (rev items) cap)) (opt (rev items) cap).
  Proof.
    assert (L : length (rev (pick (rev items) cap)) = length costs)
      by (rewrite rev_length, pick_length, rev_length; exact Hi).
    destruct (pick_ok (rev items) Fr cap H0) as [P1 P2].
    split; [split; [exact L|]|split].
    - rewrite <- rcost_rev by exact L. rewrite rev_involutive. exact P1.
    - apply rworth_rev; [exact L|]. rewrite rev_involutive. exact P2.
    - intros fl w [F1 F2] W. apply (opt_ge (rev items) Fr (rev fl)).
      + rewrite !rev_length. lia.
      + rewrite rcost_rev by exact F1. exact F2.
      + apply rworth_rev; auto.
  Qed.

  Lemma knapsack_tie fl w : optimal values costs cap fl w ->
    (w == opt (rev items) cap)%Q /\
    (fl = rev (pick (rev items) cap) \/
     exists i, (i < length costs)%nat /\ nth i (rev (pick (rev items) cap)) false = true /\ nth i fl false = false /\
        forall k, (i < k < length costs)%nat -> nth k fl false = nth k (rev (pick (rev items) cap)) false).
  Proof.
    intros ((F1 & F2) & W & M).
    destruct knapsack_optimal as ((G1 & G2) & W' & M').
    assert (E : (w == opt (rev items) cap)%Q).
    { apply Qle_antisym; [apply (M' fl)|apply (M _ _ (conj G1 G2) W')]; auto. split; auto. }
    split; [exact E|].
    destruct (pick_lex (rev items) Fr cap (rev fl) w H0) as [Eq|(i & I1 & I2 & I3 & I4)]; auto.
    - rewrite !rev_length. lia.
    - rewrite rcost_rev by exact F1. exact F2.
    - apply rworth_rev; auto.
    - left. rewrite <- Eq, rev_involutive. reflexivity.
    - right. rewrite rev_length in I1. exists (length costs - 1 - i)%nat.
      assert (Lp : length (pick (rev items) cap) = length costs) by (rewrite pick_length, rev_length; exact Hi).
      split; [lia|]. split.
      + rewrite rev_nth by lia. rewrite Lp. replace (_ - S _)%nat with i by lia. exact I2.
      + split.
        * rewrite rev_nth in I3 by lia. rewrite F1 in I3. replace (length costs - 1 - i)%nat with (length costs - S i)%nat by lia. exact I3.
        * intros k Hk. specialize (I4 (length costs - 1 - k)%nat ltac:(lia)).
          rewrite rev_nth in I4 by lia. rewrite rev_nth by lia. rewrite Lp, F1 in *.
          replace (length costs - S (length costs - 1 - k))%nat with k in I4 by lia.
          replace (length costs - S k)%nat with (length costs - 1 - k)%nat by lia. exact I4.
  Qed.
End Items.
