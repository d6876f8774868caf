(** Proofs about the curves of the analyser. *)
From Verif Require Import Base BaseFacts StateModel MiscModel MiscSpec FeatureModel AnalyserModel AnalyserSpec AnalyserProofs.
From Coq Require Import String QArith Qround Qreduction Lqa.
Local Open Scope Z_scope.

(** ** Lists of performances *)
Lemma mapM_nums {A} (g : Q -> A) (f : A -> res fl) (m : list (list Q)) : (forall q, f (g q) = Ok (Num q)) ->
  mapM (mapM f) (map (map g) m) = Ok (map (map Num) m).
Proof.
  intro H. apply mapM_Forall2. induction m as [|r m IH]; [constructor|]. cbn [map]. constructor; auto.
  apply mapM_Forall2. induction r as [|q r IHr]; [constructor|]. cbn [map]. constructor; auto.
Qed.
Lemma same_len_table m n : (forall r : list Q, In r m -> List.length r = n) -> same_len (map (map Num) m) = true.
Proof. intro H. apply same_len_iff. exists n. intros r Hr. apply in_map_iff in Hr. destruct Hr as (q & <- & Hq). rewrite map_length. auto. Qed.

Lemma list_summary_lemma m n : table m n -> (0 < n)%nat ->
  exists s, list_summary1 (map (map (fun q => INum (Num q))) m) = Ok s /\ su_len s = n /\ su_folds s = List.length m /\
    is_num (su_mean s) (mean (List.concat m)) /\ is_num (su_var s) (variance (List.concat m)) /\ su_ip s = None.
Proof.
  intros [NE H] Hn. unfold list_summary1. rewrite (mapM_nums (fun q => INum (Num q)) item_num) by reflexivity. cbn [bind].
  rewrite (same_len_table m n H). cbn [guard bind]. eexists. split; [reflexivity|]. cbn [su_len su_folds su_mean su_var su_ip].
  assert (CN : List.concat m <> []). { destruct m as [|[|x r] m]; [congruence| |discriminate]. specialize (H [] (or_introl eq_refl)). cbn in H. lia. }
  rewrite <- concat_map, map_length. split.
  { eapply shortest_unique; [apply min_len_spec; destruct m; [congruence|discriminate]|]. split.
    - intros l Hl. apply in_map_iff in Hl. destruct Hl as (r & <- & Hr). rewrite map_length, (H r Hr). lia.
    - destruct m as [|r m]; [congruence|]. exists (map Num r). split; [now left|]. rewrite map_length. apply H. now left. }
  split; [reflexivity|]. split; [now apply fmean_nums|]. split; [now apply fvar_nums|reflexivity].
Qed.

(** ** The matrix *)
Lemma matrix_of_shows d m n : shows d m -> table m n -> matrix_of d = Ok (map (map Num) m).
Proof.
  intros [->| ->] [NE H]; unfold matrix_of.
  - rewrite (mapM_nums (fun q => INum (Num q)) item_num) by reflexivity. cbn [bind]. now rewrite (same_len_table m n H).
  - rewrite (mapM_nums (fun q => AVal (Num q)) num_of) by reflexivity. cbn [bind]. now rewrite (same_len_table m n H).
Qed.
Lemma finite_table (m : list (list Q)) : existsb (existsb not_finite) (map (map Num) m) = false.
Proof.
  apply not_true_is_false. intro E. apply existsb_exists in E. destruct E as (r & Hr & E). apply existsb_exists in E.
  destruct E as (x & Hx & E). apply in_map_iff in Hr. destruct Hr as (q & <- & _). apply in_map_iff in Hx. destruct Hx as (y & <- & _). discriminate.
Qed.
Lemma check_passes l ts : Forall2 (fun p t => fst p = fst t /\ shows (snd p) (snd t) /\ exists n, table (snd t) n) l ts -> check_plotting l = Ok tt.
Proof.
  induction 1 as [|[n d] t l ts (_ & S & k & T) F IH]; [reflexivity|]. cbn [check_plotting snd] in *. rewrite (matrix_of_shows d _ k S T).
  cbn [bind]. now rewrite finite_table.
Qed.

(** Column averages. *)
Lemma col_means_ok m n : table m n -> exists pts, col_means (map (map Num) m) = Ok pts /\ List.length pts = n /\
  forall j y, nth_error pts j = Some y -> is_num y (mean (column 0%Q m j)).
Proof.
  intros [NE H]. destruct m as [|r m]; [congruence|]. unfold col_means. cbn [map]. change (map Num r :: map (map Num) m) with (map (map Num) (r :: m)).
  assert (Lr : List.length (map Num r) = n) by (rewrite map_length; apply H; now left). rewrite Lr.
  eexists. split; [reflexivity|]. split; [now rewrite map_length, seq_length|].
  intros j y E. rewrite nth_error_map in E. destruct (nth_error (seq 0 n) j) as [i|] eqn:Es; [|discriminate]. cbn [option_map] in E.
  assert (Hj : (j < n)%nat). { rewrite <- (seq_length n 0). apply nth_error_Some. congruence. }
  assert (i = j). { pose proof (nth_error_nth _ _ 0%nat Es) as N. rewrite seq_nth in N by auto. lia. } subst i.
  assert (E' : y = fmean (map Num (column 0%Q (r :: m) j))).
  { assert (E2 : Some y = Some (fmean (map (fun r0 => nth j r0 NaN) (map (map Num) (r :: m))))) by (rewrite <- E; reflexivity).
    assert (E3 : y = fmean (map (fun r0 => nth j r0 NaN) (map (map Num) (r :: m)))) by congruence. rewrite E3. f_equal. unfold column. rewrite !map_map.
    apply map_ext_in. intros x Hx. rewrite (nth_indep _ NaN (Num 0%Q)) by (rewrite map_length, (H x Hx); auto). apply map_nth. }
  rewrite E'. apply fmean_nums. discriminate.
Qed.

(** ** Every k-th position *)
Lemma multiples k n : (0 < k)%nat ->
  filter (fun i => Nat.eqb (i mod k) 0) (seq 0 n) = map (fun j => (j * k)%nat) (seq 0 ((n + k - 1) / k)).
Proof.
  intro Hk. induction n as [|n IH].
  - replace ((0 + k - 1) / k)%nat with 0%nat; [reflexivity|]. symmetry. apply Nat.div_small. lia.
  - rewrite seq_S, filter_app, IH. change (0 + n)%nat with n. cbn [filter]. pose proof (Nat.div_mod n k ltac:(lia)) as D. pose proof (Nat.mod_upper_bound n k ltac:(lia)) as U.
    set (q := (n / k)%nat) in *. destruct (Nat.eqb_spec (n mod k) 0) as [Z|Z].
    + assert (A : ((n + k - 1) / k = q)%nat). { symmetry. apply (Nat.div_unique _ _ _ (k - 1)); lia. }
      assert (B : ((Datatypes.S n + k - 1) / k = Datatypes.S q)%nat). { symmetry. apply (Nat.div_unique _ _ _ 0); lia. }
      rewrite A, B, seq_S, map_app. change (0 + q)%nat with q. cbn [map]. do 2 f_equal. lia.
    + assert (A : ((n + k - 1) / k = Datatypes.S q)%nat). { symmetry. apply (Nat.div_unique _ _ _ (n mod k - 1)); lia. }
      assert (B : ((Datatypes.S n + k - 1) / k = Datatypes.S q)%nat). { symmetry. apply (Nat.div_unique _ _ _ (n mod k)); lia. }
      rewrite A, B, app_nil_r. reflexivity.
Qed.
Lemma ceil_lt k n j : (0 < k)%nat -> (j < (n + k - 1) / k <-> j * k < n)%nat.
Proof.
  intro Hk. split; intro H.
  - assert (A : (k * Datatypes.S j <= n + k - 1)%nat). { pose proof (Nat.mul_div_le (n + k - 1) k ltac:(lia)) as L. nia. } nia.
  - apply Nat.div_le_lower_bound; [lia|]. nia.
Qed.
Lemma every_spec k l : (0 < k)%nat -> List.length (every (Z.of_nat k) l) = ((List.length l + k - 1) / k)%nat /\
  forall j, (j * k < List.length l)%nat -> nth_error (every (Z.of_nat k) l) j = nth_error l (j * k).
Proof.
  intro Hk. unfold every. assert (E : filter (fun i => Z.of_nat i mod Z.of_nat k =? 0) (seq 0 (List.length l)) = map (fun j => (j * k)%nat) (seq 0 ((List.length l + k - 1) / k))).
  { rewrite <- (multiples k _ Hk). apply filter_ext. intro i. rewrite <- Nat2Z.inj_mod. destruct (Nat.eqb_spec (i mod k) 0) as [->|N]; [reflexivity|]. apply Z.eqb_neq. lia. }
  rewrite E, map_map. split; [now rewrite map_length, seq_length|]. intros j Hj. rewrite nth_error_map.
  assert (L : (j < (List.length l + k - 1) / k)%nat) by now apply ceil_lt.
  rewrite (nth_error_nth' (seq 0 _) 0%nat) by (rewrite seq_length; auto). rewrite seq_nth by auto. cbn [option_map Nat.add].
  symmetry. now apply nth_error_nth'.
Qed.
Lemma arange_spec k n : (0 < k)%nat -> List.length (arange n (Z.of_nat k)) = ((n + k - 1) / k)%nat /\
  forall j x, nth_error (arange n (Z.of_nat k)) j = Some x -> x = inject_Z (Z.of_nat (j * k)).
Proof.
  intro Hk. unfold arange. replace (0 <? Z.of_nat k) with true by (symmetry; apply Z.ltb_lt; lia).
  assert (E : Z.to_nat ((Z.of_nat n + Z.of_nat k - 1) / Z.of_nat k) = ((n + k - 1) / k)%nat).
  { replace (Z.of_nat n + Z.of_nat k - 1) with (Z.of_nat (n + k - 1)) by lia. rewrite <- Nat2Z.inj_div. apply Nat2Z.id. }
  rewrite E. split; [now rewrite map_length, seq_length|]. intros j x H. rewrite nth_error_map in H.
  destruct (nth_error (seq 0 ((n + k - 1) / k)) j) as [i|] eqn:Es; [|discriminate].
  assert (Hj : (j < (n + k - 1) / k)%nat). { rewrite <- (seq_length ((n + k - 1) / k) 0). apply nth_error_Some. congruence. }
  pose proof (nth_error_nth _ _ 0%nat Es) as N. rewrite seq_nth in N by auto. cbn in N. subst i.
  cbn [option_map] in H. assert (x = inject_Z (Z.of_nat j * Z.of_nat k)) by congruence. subst x. now rewrite Nat2Z.inj_mul.
Qed.

(** ** The curves against the number of queries *)
Definition one_rel (k : nat) (sh : Q) (t : string * list (list Q)) (c : curve) : Prop :=
  exists xs ys, c = (fst t, xs, ys) /\ averages k sh (snd t) xs ys.

Lemma ys_ok k m n pts : (0 < k)%nat -> List.length pts = n ->
  (forall j y, nth_error pts j = Some y -> is_num y (mean (column 0%Q m j))) ->
  let ys := if Z.of_nat k =? 1 then pts else every (Z.of_nat k) pts in
  List.length ys = ((n + k - 1) / k)%nat /\ forall j y, nth_error ys j = Some y -> is_num y (mean (column 0%Q m (j * k))).
Proof.
  intros Hk L H ys. subst ys. destruct (Z.eqb_spec (Z.of_nat k) 1) as [E|E].
  - assert (k = 1%nat) by lia. subst k. split; [rewrite L; replace (n + 1 - 1)%nat with n by lia; now rewrite Nat.div_1_r|].
    intros j y Hj. rewrite Nat.mul_1_r. auto.
  - destruct (every_spec k pts Hk) as [L' N]. rewrite L', L. split; auto. intros j y Hj.
    assert (B : (j * k < List.length pts)%nat). { apply ceil_lt; auto. rewrite <- L'. apply nth_error_Some. congruence. }
    rewrite N in Hj by auto. auto.
Qed.
Lemma table_unique m n n' : table m n -> table m n' -> n = n'.
Proof. intros [NE H] [_ H']. destruct m as [|r m]; [congruence|]. rewrite <- (H r), <- (H' r); auto; now left. Qed.

Lemma plain_curves all sums k : (0 < k)%nat -> forall l ts sh,
  Forall2 (fun p t => fst p = fst t /\ shows (snd p) (snd t) /\ exists n, table (snd t) n) l ts ->
  exists cs, num_curves all sums None (Z.of_nat k) (Some sh) l = Ok cs /\ Forall2 (one_rel k sh) ts cs.
Proof.
  intros Hk l ts sh F. induction F as [|[nm d] [nm' m] l ts (E & S & n & T) F IH]; [exists []; split; [reflexivity|constructor]|].
  cbn [fst snd] in *. subst nm'. destruct IH as (cs & Ec & Fc). cbn [num_curves]. rewrite (matrix_of_shows d m n S T). cbn [bind].
  destruct (col_means_ok m n T) as (pts & Ep & Lp & Hp). rewrite Ep. cbn [bind].
  replace (Z.of_nat k =? 0) with false by (symmetry; apply Z.eqb_neq; lia). cbn [negb guard bind].
  destruct (ys_ok k m n pts Hk Lp Hp) as [Ly Hy]. cbn zeta in Ly, Hy. set (ys := if Z.of_nat k =? 1 then pts else every (Z.of_nat k) pts) in *.
  destruct (arange_spec k n Hk) as [Lx Hx]. rewrite Lp. rewrite map_length, Lx, Ly, Nat.eqb_refl. cbn [guard bind]. rewrite Ec. cbn [bind].
  eexists. split; [reflexivity|]. constructor; auto. exists (map (fun x => x + sh)%Q (arange n (Z.of_nat k))), ys. split; [reflexivity|].
  split; [now rewrite map_length, Lx, Ly|]. split; [|split].
  - intros n' j T'. rewrite (table_unique m n' n T' T), map_length, Lx. now apply ceil_lt.
  - intros j x H. rewrite nth_error_map in H. destruct (nth_error (arange n (Z.of_nat k)) j) as [z|] eqn:Ez; [|discriminate].
    apply Hx in Ez. cbn [option_map] in H. assert (x = (z + sh)%Q) by congruence. subst x z. reflexivity.
  - exact Hy.
Qed.

Lemma ceil_next k n : (0 < k)%nat -> ((Datatypes.S n + k - 1) / k = if Nat.eqb (n mod k) 0 then Datatypes.S ((n + k - 1) / k) else (n + k - 1) / k)%nat.
Proof.
  intro Hk. pose proof (Nat.div_mod n k ltac:(lia)) as D. pose proof (Nat.mod_upper_bound n k ltac:(lia)) as U. set (q := (n / k)%nat) in *.
  destruct (Nat.eqb_spec (n mod k) 0) as [Z|Z].
  - assert (A : ((n + k - 1) / k = q)%nat). { symmetry. apply (Nat.div_unique _ _ _ (k - 1)); lia. } rewrite A.
    symmetry. apply (Nat.div_unique _ _ _ 0); lia.
  - assert (A : ((n + k - 1) / k = Datatypes.S q)%nat). { symmetry. apply (Nat.div_unique _ _ _ (n mod k - 1)); lia. } rewrite A.
    symmetry. apply (Nat.div_unique _ _ _ (n mod k)); lia.
Qed.

Lemma start_curves all sums k s : (0 < k)%nat -> forall l ts sh,
  Forall2 (fun p t => fst p = fst t /\ shows (snd p) (snd t) /\ exists n, table (snd t) n) l ts ->
  (forall t n, In t ts -> table (snd t) n -> (n mod k = 0)%nat) ->
  exists cs, num_curves all sums (Some s) (Z.of_nat k) (Some sh) l = Ok cs /\ Forall2 (from_start k s) ts cs.
Proof.
  intros Hk l ts sh F. revert sh. induction F as [|[nm d] [nm' m] l ts (E & S & n & T) F IH]; intros sh DV; [exists []; split; [reflexivity|constructor]|].
  cbn [fst snd] in *. subst nm'. destruct (IH 0%Q) as (cs & Ec & Fc); [intros; eapply DV; [right; eauto|auto]|].
  pose proof (DV (nm, m) n (or_introl eq_refl) T) as Dn.
  cbn [num_curves]. rewrite (matrix_of_shows d m n S T). cbn [bind].
  destruct (col_means_ok m n T) as (pts & Ep & Lp & Hp). rewrite Ep. cbn [bind].
  replace (Z.of_nat k =? 0) with false by (symmetry; apply Z.eqb_neq; lia). cbn [negb guard bind].
  destruct (ys_ok k m n pts Hk Lp Hp) as [Ly Hy]. cbn zeta in Ly, Hy. set (ys := if Z.of_nat k =? 1 then pts else every (Z.of_nat k) pts) in *.
  destruct (arange_spec k (Datatypes.S n) Hk) as [Lx Hx]. rewrite Lp. rewrite map_length, Lx. cbn [List.length]. rewrite Ly.
  pose proof (ceil_next k n Hk) as CN. rewrite Dn in CN. cbn [Nat.eqb] in CN. rewrite CN, Nat.eqb_refl. cbn [guard bind]. rewrite Ec. cbn [bind].
  eexists. split; [reflexivity|]. constructor; auto. 
  destruct (arange (Datatypes.S n) (Z.of_nat k)) as [|x0 xs] eqn:EA; [rewrite CN in Lx; discriminate|].
  assert (x0 = 0%Q) by (exact (Hx 0%nat x0 eq_refl)). subst x0.
  exists (map (fun x => x + 0)%Q xs), ys. split; [reflexivity|]. cbn [List.length] in Lx.
  split; [rewrite map_length; lia|]. split; [|split].
  - intros n' j T'. rewrite (table_unique m n' n T' T), map_length. replace (List.length xs) with ((n + k - 1) / k)%nat by lia. now apply ceil_lt.
  - intros j x H. rewrite nth_error_map in H. destruct (nth_error xs j) as [z|] eqn:Ez; [|discriminate].
    pose proof (Hx (Datatypes.S j) z Ez) as Hz. cbn [option_map] in H. assert (x = (z + 0)%Q) by congruence. subst x z. rewrite Qplus_0_r.
    replace ((j + 1) * k)%nat with (Datatypes.S j * k)%nat by lia. reflexivity.
  - exact Hy.
Qed.
Lemma start_fails all sums k s : (0 < k)%nat -> forall l ts sh,
  Forall2 (fun p t => fst p = fst t /\ shows (snd p) (snd t) /\ exists n, table (snd t) n) l ts ->
  (exists t n, In t ts /\ table (snd t) n /\ (n mod k <> 0)%nat) ->
  num_curves all sums (Some s) (Z.of_nat k) (Some sh) l = Err ValueErr.
Proof.
  intros Hk l ts sh F. revert sh. induction F as [|[nm d] [nm' m] l ts (E & S & n & T) F IH]; intros sh (t0 & n0 & I0 & T0 & N0); [destruct I0|].
  cbn [fst snd] in *. subst nm'. cbn [num_curves]. rewrite (matrix_of_shows d m n S T). cbn [bind].
  destruct (col_means_ok m n T) as (pts & Ep & Lp & Hp). rewrite Ep. cbn [bind].
  replace (Z.of_nat k =? 0) with false by (symmetry; apply Z.eqb_neq; lia). cbn [negb guard bind].
  destruct (ys_ok k m n pts Hk Lp Hp) as [Ly Hy]. cbn zeta in Ly, Hy. set (ys := if Z.of_nat k =? 1 then pts else every (Z.of_nat k) pts) in *.
  destruct (arange_spec k (Datatypes.S n) Hk) as [Lx Hx]. rewrite Lp. rewrite map_length, Lx. cbn [List.length]. rewrite Ly.
  pose proof (ceil_next k n Hk) as CN. destruct (Nat.eqb_spec (n mod k) 0) as [Z|Z].
  - rewrite CN, Nat.eqb_refl. cbn [guard bind]. rewrite IH; [reflexivity|]. destruct I0 as [<-|I0]; [|eauto].
    cbn [snd] in T0. rewrite (table_unique m n0 n T0 T) in N0. contradiction.
  - replace (Nat.eqb ((Datatypes.S n + k - 1) / k) (Datatypes.S ((n + k - 1) / k))) with false; [reflexivity|]. symmetry. apply Nat.eqb_neq. lia.
Qed.

(** The shift. *)
Lemma shift_first all sums start step p l sh : start = None \/ (exists s, start = Some s) ->
  (all = false -> sh = 1%Q) -> (all = true -> exists su, sget (fst p) sums = Some su /\ sh = match su_ip su with None => 1%Q | Some _ => 0%Q end) ->
  num_curves all sums start step None (p :: l) = num_curves all sums start step (Some sh) (p :: l).
Proof.
  intros _ H1 H2. destruct p as [n d]. cbn [num_curves fst] in *. destruct all.
  - destruct (H2 eq_refl) as (su & E & ->). rewrite E. reflexivity.
  - rewrite (H1 eq_refl). reflexivity.
Qed.
