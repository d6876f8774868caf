(** Theorems about scores of committees, expected errors and density weighting: C48, C67, C68 and C70. *)
From Verif Require Import Base BaseFacts IndexModel MLModel SplitModel MiscModel MiscSpec MiscProofs MiscProps
  QueryModel QuerySpec QueryProofs QueryProofs2 QueryNumpy QueryProofs5 QueryProps.
From Coq Require Import QArith Qabs Qfield Lqa.
Local Open Scope Z_scope.

(** The documentation has the margin strategy take the largest difference of the two largest probabilities.
    It takes the smallest: never one with a larger difference than one left. *)
Theorem C48_documented_refuted : forall (A : Type) np (x y : A) cols r s dr ds,
  numpy_ok np -> x <> y -> (2 <= cols)%nat -> length r = cols -> length s = cols ->
  top_gap r dr -> top_gap s ds -> (dr < ds)%Q ->
  snd (select_by_prediction_mat np Margin [x; y] (Mat cols [r; s]) 1) = Ok [x].
Proof.
  intros A np x y cols r s dr ds NP XY C LR LS R S D.
  destruct (C47_uncertainty A np Margin [x; y] cols [r; s] 1 NP ltac:(discriminate) C) as (sel & E & H); [repeat constructor; auto|reflexivity|lia|].
  rewrite E. f_equal. cbn in H. destruct H as (score & SC & BB).
  destruct (C47_members _ _ _ _ _ BB) as (L & _ & I & _). change (Z.to_nat 1) with 1%nat in *. destruct sel as [|z [|]]; try discriminate L. f_equal.
  destruct (I z (or_introl eq_refl)) as [->|[->|[]]]; auto. exfalso.
  assert (ND : NoDup [x; z]) by (constructor; [intros [H|[]]; auto|constructor; [auto|constructor]]).
  assert (LE : (score 0%nat <= score 1%nat)%Q) by (apply (nth_of_best [x; z] score 1 [z] ND BB 1%nat 0%nat z x); cbn; auto; intros [H|[]]; auto).
  pose proof (SC 0%nat r eq_refl) as S1. pose proof (SC 1%nat s eq_refl) as S2.
  inversion S1 as [|r1 p1 x1 L1 E1|]; subst. inversion S2 as [|r2 p2 x2 L2 E2|]; subst.
  pose proof (top_gap_unique _ _ _ R L1). pose proof (top_gap_unique _ _ _ S L2). lra.
Qed.
Print Assumptions C48_documented_refuted.

(** ** C67 *)

Lemma committee_ok {A} (preds : list (list A)) n : (2 <= length preds)%nat -> Forall (fun X => length X = n) preds ->
  check_committee Nat.eqb (map (@length A) preds) = Ok n.
Proof.
  intros L F. destruct preds as [|X preds]; [cbn in L; lia|]. inversion F as [|? ? E F']; subst. cbn [map check_committee].
  assert (G : forallb (Nat.eqb (length X)) (map (@length A) preds) = true).
  { apply forallb_forall. intros k J. apply in_map_iff in J. destruct J as (Y & <- & J). rewrite Forall_forall in F'. apply Nat.eqb_eq. symmetry. auto. }
  unfold guard. rewrite G. cbn [bind]. rewrite map_length. destruct preds; [cbn in L; lia|]. reflexivity.
Qed.

(** Vote entropy is what its name says, for every committee and every order of counting. *)
Theorem C67_votes : forall np preds n, (2 <= length preds)%nat -> Forall (fun X => length X = n) preds ->
  exists s, vote_entropy np preds = Ok s /\ length s = n /\
    forall i, (i < n)%nat -> vote_score (log np) (column 0 preds i) (nth i s 0%Q).
Proof.
  intros np preds n L F. unfold vote_entropy. rewrite (committee_ok preds n L F). cbn [bind].
  edestruct (mapM_range (fun i => votes <- mapM (fun X => py_nth X i) preds ;;
                 Ok (- qsum (map (fun e => vote_term np (length preds) (snd e)) (counter votes)))%Q) n) as (r & E & LR & N).
  { intros i I. rewrite (mapM_column 0 preds i n I F). cbn [bind]. eauto. }
  exists r. split; [exact E|]. split; [auto|]. intros i I labels ND C share size.
  erewrite (nth_error_nth r i); [|apply N; [exact I|rewrite (mapM_column 0 preds i n I F); cbn [bind]; reflexivity]].
  apply Qopp_comp. rewrite total_qsum, (counter_terms (vote_term np (length preds))).
  assert (P : Permutation (map fst (counter (column 0 preds i))) labels).
  { apply NoDup_Permutation; [apply counter_NoDup|auto|]. intro v. rewrite counter_fst. symmetry. apply C. }
  rewrite (total_perm _ _ (Permutation_map _ P)). unfold vote_term, of_nat, share, size, column. rewrite map_length. reflexivity.
Qed.
Print Assumptions C67_votes.

(** A committee that agrees on one instance and not on another scores the latter higher. *)
Theorem C67_disagreement : forall np preds n s i j, log_signs (log np) -> Forall (fun X => length X = n) preds ->
  vote_entropy np preds = Ok s -> (i < n)%nat -> (j < n)%nat ->
  unanimous (column 0 preds i) -> ~ unanimous (column 0 preds j) -> (nth i s 0 <= 0 < nth j s 0)%Q.
Proof.
  intros np preds n s i j [NEG POS] F E I J UI UJ.
  assert (L : (2 <= length preds)%nat).
  { destruct preds as [|X [|Y preds]]; [discriminate E|discriminate E|cbn; lia]. }
  destruct (C67_votes np preds n L F) as (s' & E' & _ & V). rewrite E in E'. injection E' as <-.
  assert (SZ : (0 < inject_Z (Z.of_nat (length preds)))%Q) by (unfold inject_Z, Qlt; cbn; lia).
  split.
  - destruct preds as [|X preds]; [cbn in L; lia|]. set (votes := column 0 (X :: preds) i) in *. set (v := nth i X 0).
    assert (VI : In v votes) by (left; reflexivity).
    rewrite (V i I [v]); [|repeat constructor; intros []|intro w; fold votes; split; [intros [<-|[]]; auto|intro J'; left; apply UI; auto]].
    fold votes. assert (C : count_occ Z.eq_dec votes v = length votes).
    { clear - UI VI. assert (G : forall l, (forall x, In x l -> x = v) -> count_occ Z.eq_dec l v = length l).
      { induction l as [|x l IH]; intro H; [reflexivity|]. cbn. rewrite (H x (or_introl eq_refl)). destruct (Z.eq_dec v v); [|congruence]. f_equal. apply IH. intros y Y. apply H. now right. }
      apply G. intros x X0. now apply UI. }
    cbn [map]. cbv beta. rewrite C. assert (LV : length votes = length (X :: preds)) by (unfold votes, column; now rewrite map_length). rewrite LV. cbn [map].
    set (k := inject_Z (Z.of_nat (length (X :: preds)))) in *. unfold total. cbn [fold_right].
    assert (1 <= (k + (1 # 1000000000)) / k)%Q as G by (apply Qle_shift_div_l; lra). specialize (POS _ G).
    assert (K : (k / k == 1)%Q) by (field; lra). rewrite K. lra.
  - set (votes := column 0 preds j) in *. assert (LV : length votes = length preds) by (unfold votes, column; now rewrite map_length).
    rewrite (V j J (nodup Z.eq_dec votes)); [|apply NoDup_nodup|intro w; apply nodup_In]. fold votes. rewrite LV.
    set (k := inject_Z (Z.of_nat (length preds))) in *.
    assert (T : forall v, In v votes -> (inject_Z (Z.of_nat (count_occ Z.eq_dec votes v)) / k * log np ((inject_Z (Z.of_nat (count_occ Z.eq_dec votes v)) + (1 # 1000000000)) / k) < 0)%Q).
    { intros v VI. set (c := count_occ Z.eq_dec votes v). assert (C1 : (1 <= c)%nat) by (pose proof (proj1 (count_occ_In Z.eq_dec votes v) VI); unfold c; lia).
      assert (C2 : (c < length preds)%nat).
      { rewrite <- LV. destruct (Nat.eq_dec c (length votes)) as [EQ|NE].
        - exfalso. apply UJ. assert (G : forall l, count_occ Z.eq_dec l v = length l -> forall x, In x l -> x = v).
          { clear. induction l as [|y l IH]; intros H x X; [destruct X|]. cbn in H. pose proof (count_occ_bound Z.eq_dec v l) as B. destruct (Z.eq_dec y v); [|lia].
            destruct X as [<-|X]; auto. }
          intros x y X Y. rewrite (G votes EQ x X), (G votes EQ y Y). reflexivity.
        - pose proof (count_occ_bound Z.eq_dec v votes). unfold c in *. lia. }
      assert (Q1 : (1 <= inject_Z (Z.of_nat c))%Q) by (unfold inject_Z, Qle; cbn; lia).
      assert (Q2 : (inject_Z (Z.of_nat c) + 1 <= k)%Q).
      { unfold k. change 1%Q with (inject_Z 1). rewrite <- inject_Z_plus, <- Zle_Qle. lia. }
      assert (A1 : (0 < inject_Z (Z.of_nat c) / k)%Q) by (apply Qlt_shift_div_l; lra).
      assert (A2 : (log np ((inject_Z (Z.of_nat c) + (1 # 1000000000)) / k) < 0)%Q) by (apply NEG; split; [apply Qlt_shift_div_l; lra|apply Qlt_shift_div_r; lra]).
      set (a := (inject_Z (Z.of_nat c) / k)%Q) in *. set (b := log np _) in *. clearbody a b. clear - A1 A2. nra. }
    assert (NE : nodup Z.eq_dec votes <> []).
    { intro E0. apply UJ. intros x y X. apply (nodup_In Z.eq_dec) in X. rewrite E0 in X. destruct X. }
    assert (S : forall l, (forall v, In v l -> In v votes) -> l <> [] -> (total (map (fun v => inject_Z (Z.of_nat (count_occ Z.eq_dec votes v)) / k * log np ((inject_Z (Z.of_nat (count_occ Z.eq_dec votes v)) + (1 # 1000000000)) / k)) l) < 0)%Q).
    { unfold total. induction l as [|v l IH]; intros H N; [contradiction|]. cbn [map fold_right]. pose proof (T v (H v (or_introl eq_refl))) as TV.
      destruct l as [|w l]; [cbn [map fold_right]; lra|]. assert (G := IH (fun u U => H u (or_intror U)) ltac:(discriminate)). lra. }
    specialize (S (nodup Z.eq_dec votes) (fun v X => proj1 (nodup_In Z.eq_dec votes v) X) NE). lra.
Qed.
Print Assumptions C67_disagreement.

(** Label matrices: the entropy counts, label by label, the members that predict it. *)
Theorem C67_label_votes : forall np cols preds n, (2 <= length preds)%nat ->
  Forall (fun X => length X = n /\ Forall (fun r => length r = cols) X) preds ->
  let all := concat (concat preds) in
  (forall x, In x all -> x = 0 \/ x = 1) -> In 0 all -> In 1 all ->
  exists s, vote_entropy_matrix np cols preds = Ok s /\ length s = n /\
    forall i, (i < n)%nat ->
      let share j := inject_Z (Z.of_nat (count_occ Z.eq_dec (column 0 (column [] preds i) j) 1)) in
      let size := inject_Z (Z.of_nat (length preds)) in
      (nth i s 0 == - total (map (fun j => share j / size * log np ((share j + (1 # 1000000000)) / size))
                               (filter (fun j => existsb (Z.eqb 1) (column 0%Z (column [] preds i) j)) (seq 0 cols))))%Q.
Proof.
  intros np cols preds n L F all BIN I0 I1. assert (F1 : Forall (fun X => length X = n) preds) by (eapply Forall_impl; [|exact F]; intros X [H _]; auto).
  unfold vote_entropy_matrix. rewrite (committee_ok preds n L F1). cbn [bind]. fold all.
  assert (G : forallb (fun x => (x =? 0) || (x =? 1)) all && existsb (Z.eqb 0) all && existsb (Z.eqb 1) all = true).
  { rewrite !andb_true_iff. split; [split|]; [|now apply existsb_in|now apply existsb_in]. apply forallb_forall. intros x J. specialize (BIN x J). lia. }
  unfold guard. rewrite G. cbn [bind].
  assert (R : forall i, (i < n)%nat -> Forall (fun r => length r = cols) (column [] preds i)).
  { intros i I. clear - F I. induction F as [|X preds [E FX] F IH]; [constructor|]. constructor; auto. rewrite Forall_forall in FX. apply FX, nth_In. lia. }
  assert (B : forall i j, (i < n)%nat -> (j < cols)%nat -> forall x, In x (column 0 (column [] preds i) j) -> x = 0 \/ x = 1).
  { intros i j I J x K. apply BIN. apply in_map_iff in K. destruct K as (r & <- & K). specialize (R i I). rewrite Forall_forall in R. specialize (R r K).
    apply in_map_iff in K. destruct K as (X & <- & K). unfold all. apply in_concat. exists (nth i X []). split; [|apply nth_In; lia].
    apply in_concat. exists X. split; [auto|]. apply nth_In. rewrite Forall_forall in F1. rewrite (F1 X K). auto. }
  set (v := fun i j => zsum (column 0 (column [] preds i) j)).
  assert (CNT : forall l, (forall x, In x l -> x = 0 \/ x = 1) -> zsum l = Z.of_nat (count_occ Z.eq_dec l 1) /\ (zsum l =? 0) = negb (existsb (Z.eqb 1) l)).
  { intros l H. assert (E : zsum l = Z.of_nat (count_occ Z.eq_dec l 1)).
    { unfold zsum. induction l as [|x l IH]; [reflexivity|]. cbn [fold_right count_occ]. rewrite IH by (intros y Y; apply H; now right).
      destruct (H x (or_introl eq_refl)) as [-> | ->]; [destruct (Z.eq_dec 0 1)|destruct (Z.eq_dec 1 1)]; try congruence; lia. }
    split; auto. rewrite E. destruct (existsb (Z.eqb 1) l) eqn:EX; cbn [negb].
    - apply existsb_in in EX. apply (count_occ_In Z.eq_dec) in EX. apply Z.eqb_neq. lia.
    - apply Z.eqb_eq. destruct (count_occ Z.eq_dec l 1) eqn:EC; auto. exfalso. assert (In 1 l) as J by (apply (count_occ_In Z.eq_dec); lia).
      apply existsb_in in J. congruence. }
  set (body := fun i => (- qsum (map (fun w => vote_term np (length preds) (Z.to_nat w)) (filter (fun w => negb (w =? 0)) (map (v i) (range cols)))))%Q).
  rewrite (mapM_pure _ body).
  - eexists. split; [reflexivity|]. split; [unfold range; now rewrite map_length, seq_length|]. intros i I. unfold range.
    pose (share := fun j => inject_Z (Z.of_nat (count_occ Z.eq_dec (column 0 (column [] preds i) j) 1))). pose (size := inject_Z (Z.of_nat (length preds))).
    rewrite (nth_indep _ 0%Q (body 0%nat)) by (rewrite map_length, seq_length; auto). rewrite map_nth, seq_nth by auto. cbn [Nat.add]. unfold body.
    rewrite total_qsum. apply Qopp_comp. unfold range.
    assert (H : forall l, (forall j, In j l -> (j < cols)%nat) ->
      (total (map (fun w => vote_term np (length preds) (Z.to_nat w)) (filter (fun w => negb (w =? 0)) (map (v i) l))) ==
       total (map (fun j => share j / size * log np ((share j + (1 # 1000000000)) / size)) (filter (fun j => existsb (Z.eqb 1) (column 0%Z (column [] preds i) j)) l)))%Q).
    { induction l as [|j l IH]; intro H; [reflexivity|]. cbn [map filter]. specialize (IH (fun k K => H k (or_intror K))).
      destruct (CNT _ (B i j I (H j (or_introl eq_refl)))) as [C1 C2]. fold (v i j) in C1, C2. rewrite C2, negb_involutive.
      destruct (existsb (Z.eqb 1) (column 0 (column [] preds i) j)); [|exact IH]. unfold total in *. cbn [map fold_right]. rewrite IH.
      unfold vote_term, of_nat. rewrite C1, Nat2Z.id. reflexivity. }
    apply H. intros j J. apply in_seq in J. lia.
  - intros i I. apply in_range in I. rewrite (mapM_column [] preds i n I F1). cbn [bind].
    rewrite (mapM_pure _ (v i)); [reflexivity|]. intros j J. apply in_range in J. rewrite (mapM_column 0 _ j cols J (R i I)). reflexivity.
Qed.
Print Assumptions C67_label_votes.

(** The divergence is what its name says, zero where the members agree and positive where they do not. *)
Theorem C67_divergence : forall np cols preds n, (2 <= length preds)%nat -> Forall (fun X => length X = n /\ Forall (fun r => length r = cols) X) preds ->
  exists s, kl_divergence np cols preds = Ok s /\ length s = n /\
    forall i, (i < n)%nat -> kl_score (log np) cols (column [] preds i) (nth i s 0%Q).
Proof.
  intros np cols preds n L F. assert (F1 : Forall (fun X => length X = n) preds) by (eapply Forall_impl; [|exact F]; intros X [H _]; auto).
  unfold kl_divergence. rewrite (committee_ok preds n L F1). cbn [bind].
  assert (R : forall i, (i < n)%nat -> Forall (fun r => length r = cols) (column [] preds i)).
  { intros i I. clear - F I. induction F as [|X preds [E FX] F IH]; [constructor|]. constructor; auto. rewrite Forall_forall in FX. apply FX, nth_In. lia. }
  set (term := fun i j => qsum (map (fun p => (p * log np ((p + (1 # 1000000000)) / (qsum (column 0%Q (column [] preds i) j) / of_nat (length preds) + (1 # 1000000000))))%Q) (column 0%Q (column [] preds i) j))).
  edestruct (mapM_range (fun i => rows <- mapM (fun X => py_nth X i) preds ;;
                 labs <- mapM (fun j => ps <- mapM (fun r => py_nth r j) rows ;;
                                        let consensus := (qsum ps / of_nat (length preds) + (1 # 1000000000))%Q in
                                        Ok (qsum (map (fun p => p * log np ((p + (1 # 1000000000)) / consensus)) ps)%Q))
                              (range cols) ;;
                 Ok (qsum labs)) n) as (r & E & LR & N).
  2: exists r; split; [exact E|]; split; [auto|]; intros i I.
  - intros i I. rewrite (mapM_column [] preds i n I F1). cbn [bind].
    rewrite (mapM_pure _ (term i)); [cbn [bind]; eauto|].
    intros j J. apply in_range in J. rewrite (mapM_column 0%Q _ j cols J (R i I)). reflexivity.
  - erewrite (nth_error_nth r i); [|apply N; [exact I|]]; cycle 1.
    + rewrite (mapM_column [] preds i n I F1). cbn [bind]. rewrite (mapM_pure _ (term i)); [cbn [bind]; reflexivity|].
      intros j J. apply in_range in J. rewrite (mapM_column 0%Q _ j cols J (R i I)). reflexivity.
    + unfold kl_score. rewrite total_qsum. unfold range.
      assert (X : forall f g : nat -> Q, (forall j, f j = g j) -> (total (map f (seq 0 cols)) == total (map g (seq 0 cols)))%Q) by (intros f g H; rewrite (map_ext f g H); reflexivity).
      apply X. intro j. unfold term, mean, of_nat, column. rewrite !map_length. reflexivity.
Qed.
Print Assumptions C67_divergence.

Theorem C67_divergence_sign : forall np cols preds n s i, log_bound (log np) ->
  Forall (fun X => length X = n /\ Forall (fun r => length r = cols /\ Forall (fun p => 0 <= p)%Q r) X) preds ->
  kl_divergence np cols preds = Ok s -> (i < n)%nat ->
  (0 <= nth i s 0)%Q /\
  ((exists j r r', (j < cols)%nat /\ In r (column [] preds i) /\ In r' (column [] preds i) /\ ~ nth j r 0 == nth j r' 0)%Q -> (0 < nth i s 0)%Q) /\
  ((forall j r r', (j < cols)%nat -> In r (column [] preds i) -> In r' (column [] preds i) -> nth j r 0 == nth j r' 0)%Q -> (nth i s 0 == 0)%Q).
Proof.
  intros np cols preds n s i [LB L1] F E I.
  assert (L : (2 <= length preds)%nat).
  { destruct preds as [|X [|Y preds]]; [discriminate E|discriminate E|cbn; lia]. }
  destruct (C67_divergence np cols preds n L) as (s' & E' & _ & V).
  { eapply Forall_impl; [|exact F]. intros X [H G]. split; auto. eapply Forall_impl; [|exact G]. intros r [H' _]. auto. }
  rewrite E in E'. injection E' as <-. specialize (V i I). unfold kl_score in V.
  assert (R : Forall (fun r => length r = cols /\ Forall (fun p => 0 <= p)%Q r) (column [] preds i)).
  { clear - F I. induction F as [|X preds [H FX] F IH]; [constructor|]. constructor; auto. rewrite Forall_forall in FX. apply FX, nth_In. lia. }
  set (rows := column [] preds i) in *. assert (NE : rows <> []) by (unfold rows, column; destruct preds; [cbn in L; lia|discriminate]).
  assert (P : forall j, Forall (fun p => 0 <= p)%Q (column 0%Q rows j)).
  { intro j. clear - R. induction R as [|r rows [_ H] R IH]; [constructor|]. constructor; auto. rewrite Forall_forall in H.
    destruct (nth_in_or_default j r 0%Q) as [J| ->]; [auto|lra]. }
  assert (K : forall j, column 0%Q rows j <> []) by (intro j; destruct rows; [contradiction|discriminate]).
  set (T := fun j => total (map (fun p => (p * log np ((p + (1 # 1000000000)) / (mean (column 0 rows j) + (1 # 1000000000))))%Q) (column 0%Q rows j))) in *.
  assert (T0 : forall j, (0 <= T j)%Q) by (intro j; apply (kl_class (log np) LB (column 0%Q rows j) (K j) (P j))).
  assert (S0 : forall l, (0 <= total (map T l))%Q) by (unfold total; induction l as [|j l IH]; cbn [map fold_right]; [lra|specialize (T0 j); lra]).
  rewrite V. split; [apply S0|]. split.
  - intros (j & r & r' & J & A & B & N). assert (TJ : (0 < T j)%Q).
    { apply (kl_class (log np) LB (column 0%Q rows j) (K j) (P j)). exists (nth j r 0%Q), (nth j r' 0%Q). split; [|split; [|auto]]; unfold column; apply (in_map (fun r => nth j r 0%Q)); auto. }
    assert (G : forall l, In j l -> (T j <= total (map T l))%Q).
    { unfold total. induction l as [|k l IH]; intro H; [destruct H|]. cbn [map fold_right]. destruct H as [->|H]; [specialize (S0 l); unfold total in S0; lra|].
      specialize (IH H). specialize (T0 k). lra. }
    specialize (G (seq 0 cols) ltac:(apply in_seq; lia)). lra.
  - intro EQ. assert (G : forall l, (forall j, In j l -> (j < cols)%nat) -> (total (map T l) == 0)%Q); [|apply G; intros j J; apply in_seq in J; lia].
    unfold total. induction l as [|j l IH]; intro H; [reflexivity|]. cbn [map fold_right]. rewrite IH by (intros k J; apply H; now right).
    assert (TJ : (T j == 0)%Q); [|rewrite TJ; ring]. specialize (H j (or_introl eq_refl)).
    assert (exists r0, In r0 rows) as [r0 R0] by (clear - NE; destruct rows as [|r0 rows']; [contradiction|exists r0; now left]). set (a := nth j r0 0%Q).
    assert (AL : forall p, In p (column 0%Q rows j) -> (p == a)%Q).
    { intros p J. apply in_map_iff in J. destruct J as (r & <- & J). apply EQ; auto. }
    assert (KN : (0 < inject_Z (Z.of_nat (length (column 0%Q rows j))))%Q) by (unfold column; rewrite map_length; clear - NE; destruct rows; [contradiction|]; unfold inject_Z, Qlt; cbn; lia).
    assert (MN : (mean (column 0 rows j) == a)%Q).
    { unfold mean. assert (S : forall l, (forall p, In p l -> (p == a)%Q) -> (total l == inject_Z (Z.of_nat (length l)) * a)%Q).
      { unfold total. intro l2. induction l2 as [|p l2 IHl]; intro HA; [cbn [fold_right length Z.of_nat]; unfold inject_Z; ring|]. cbn [fold_right length]. rewrite IHl by (intros q Q0; apply HA; now right).
        rewrite (HA p (or_introl eq_refl)), Nat2Z.inj_succ. unfold Z.succ. rewrite inject_Z_plus. unfold inject_Z at 3. ring. }
      rewrite (S _ AL). field. lra. }
    assert (A0 : (0 <= a)%Q). { specialize (P j). rewrite Forall_forall in P. apply P. unfold column, a. apply (in_map (fun r => nth j r 0%Q)). auto. }
    unfold T. assert (S : forall l, (forall p, In p l -> (p == a)%Q) -> (total (map (fun p => (p * log np ((p + (1 # 1000000000)) / (mean (column 0 rows j) + (1 # 1000000000))))%Q) l) == 0)%Q); [|apply S; exact AL].
    unfold total. intro l2. induction l2 as [|p l2 IHl]; intro HA; [reflexivity|]. cbn [map fold_right]. rewrite IHl by (intros q Q0; apply HA; now right).
    assert (ONE : ((p + (1 # 1000000000)) / (mean (column 0 rows j) + (1 # 1000000000)) == 1)%Q).
    { rewrite MN, (HA p (or_introl eq_refl)). field. lra. }
    rewrite (L1 _ ONE). ring.
Qed.
Print Assumptions C67_divergence_sign.

(** What is refused: fewer than two members, members that do not match, label matrices without a 0 or a 1 or
    with anything else. *)
Theorem C67_rejects : forall np cols (vs : list (list Z)) (ms : list (list (list Z))) (ps : list (list (list Q))),
  ((length vs <= 1)%nat -> vote_entropy np vs = Err ValueErr) /\
  ((length ms <= 1)%nat -> vote_entropy_matrix np cols ms = Err ValueErr) /\
  ((length ps <= 1)%nat -> kl_divergence np cols ps = Err ValueErr) /\
  ((exists a b, In a vs /\ In b vs /\ length a <> length b) -> vote_entropy np vs = Err TypeErr) /\
  ((exists a b, In a ps /\ In b ps /\ length a <> length b) -> kl_divergence np cols ps = Err TypeErr) /\
  (forall n, (2 <= length ms)%nat -> Forall (fun X => length X = n) ms ->
     let all := concat (concat ms) in
     ~ In 0 all \/ ~ In 1 all \/ (exists x, In x all /\ x <> 0 /\ x <> 1) -> vote_entropy_matrix np cols ms = Err ValueErr).
Proof.
  intros np cols vs ms ps.
  assert (SM : forall A (l : list (list A)), (length l <= 1)%nat -> check_committee Nat.eqb (map (@length A) l) = Err ValueErr).
  { intros A [|X [|Y l]] H; [reflexivity|reflexivity|cbn in H; lia]. }
  assert (UN : forall A (l : list (list A)), (exists a b, In a l /\ In b l /\ length a <> length b) -> check_committee Nat.eqb (map (@length A) l) = Err TypeErr).
  { intros A [|X l] (a & b & IA & IB & N); [destruct IA|]. cbn [map check_committee].
    assert (G : forallb (Nat.eqb (length X)) (map (@length A) l) = false).
    { apply not_true_is_false. intro T. rewrite forallb_forall in T. apply N.
      assert (H : forall c, In c (X :: l) -> length c = length X).
      { intros c [<-|J]; auto. specialize (T (length c) (in_map _ _ _ J)). apply Nat.eqb_eq in T. auto. }
      rewrite (H a IA), (H b IB). reflexivity. }
    unfold guard. rewrite G. reflexivity. }
  unfold vote_entropy, vote_entropy_matrix, kl_divergence.
  split; [intro H; now rewrite (SM _ _ H)|]. split; [intro H; now rewrite (SM _ _ H)|]. split; [intro H; now rewrite (SM _ _ H)|].
  split; [intro H; now rewrite (UN _ _ H)|]. split; [intro H; now rewrite (UN _ _ H)|].
  intros n L F H. set (all := concat (concat ms)) in *. rewrite (committee_ok ms n L F). cbn [bind].
  assert (G : forallb (fun x => (x =? 0) || (x =? 1)) all && existsb (Z.eqb 0) all && existsb (Z.eqb 1) all = false).
  { apply not_true_is_false. intro T. rewrite !andb_true_iff, forallb_forall in T. destruct T as [[T1 T2] T3].
    apply existsb_in in T2, T3. destruct H as [H|[H|(x & J & X0 & X1)]]; auto. specialize (T1 x J). apply orb_true_iff in T1. lia. }
  unfold guard. rewrite G. reflexivity.
Qed.
Print Assumptions C67_rejects.

(** Non-vacuity: three members, two instances; [1 - 1/x] has the properties asked of a logarithm. *)
Definition lg1 (x : Q) : Q := (1 - 1 / x)%Q.
Example C67_case : log_signs lg1 /\ log_bound lg1 /\
  (exists s, vote_entropy (np0 lg1) [[5; 5]; [5; 7]; [5; 5]] = Ok s /\ length s = 2%nat) /\
  unanimous (column 0 [[5; 5]; [5; 7]; [5; 5]] 0) /\ ~ unanimous (column 0 [[5; 5]; [5; 7]; [5; 5]] 1) /\
  (exists s, kl_divergence (np0 lg1) 2 [[[1#2; 1#2]; [1; 0]%Q]; [[1#2; 1#2]; [0; 1]%Q]] = Ok s /\ length s = 2%nat).
Proof.
  assert (I : forall x, (0 < x -> x * (1 / x) == 1)%Q) by (intros; field; lra).
  split; [|split; [|split; [|split; [|split]]]].
  - unfold lg1. split; intros x H.
    + assert (1 < 1 / x)%Q by (apply Qlt_shift_div_l; lra). lra.
    + assert (1 / x <= 1)%Q by (apply Qle_shift_div_r; lra). lra.
  - unfold lg1. split; intros x H; [lra|]. rewrite H. reflexivity.
  - eexists. split; reflexivity.
  - cbn. intros x y [<-|[<-|[<-|[]]]] [<-|[<-|[<-|[]]]]; reflexivity.
  - cbn. intro U. specialize (U 5 7 (or_introl eq_refl) (or_intror (or_introl eq_refl))). discriminate.
  - eexists. split; reflexivity.
Qed.

(** ** C68 *)

(** With the classes 0, ..., k-1 the expected loss weighs each class by its own probability. *)
Theorem C68_weights : forall k pv loss, Forall (fun r => length r = k) pv ->
  exists s, eer_scores (map Z.of_nat (seq 0 k)) pv loss = Ok s /\ length s = length pv /\
    forall i row, nth_error pv i = Some row -> (nth i s 0 == total (map (fun y => nth y row 0 * loss i (Z.of_nat y)) (seq 0 k)))%Q.
Proof.
  intros k pv loss F. unfold eer_scores.
  set (g := fun i => total (map (fun y => (nth y (nth i pv []) 0 * loss i (Z.of_nat y))%Q) (seq 0 k))).
  rewrite (mapM_pure _ g).
  - eexists. split; [reflexivity|]. split; [unfold range; now rewrite map_length, seq_length|].
    intros i row E. assert (I : (i < length pv)%nat) by (apply nth_error_Some; congruence). unfold range.
    rewrite (nth_indep _ 0%Q (g 0%nat)) by (rewrite map_length, seq_length; auto). rewrite map_nth, seq_nth by auto. unfold g. cbn [Nat.add].
    rewrite (nth_error_nth _ _ [] E). reflexivity.
  - intros i J. apply in_range in J. rewrite (py_nth_default []) by auto. cbn [bind]. set (row := nth i pv []).
    assert (LR : length row = k) by (rewrite Forall_forall in F; apply F, nth_In; auto).
    assert (M : mapM (fun y => match py_index (length row) y with None => Err IndexErr | Some j => p <- py_nth row j ;; Ok (p * loss i y)%Q end) (map Z.of_nat (seq 0 k))
              = Ok (map (fun y => (nth y row 0 * loss i (Z.of_nat y))%Q) (seq 0 k))).
    { clear - LR. assert (H : forall l, (forall y, In y l -> (y < k)%nat) ->
        mapM (fun y => match py_index (length row) y with None => Err IndexErr | Some j => p <- py_nth row j ;; Ok (p * loss i y)%Q end) (map Z.of_nat l)
        = Ok (map (fun y => (nth y row 0 * loss i (Z.of_nat y))%Q) l)).
      { induction l as [|y l IH]; intro H; [reflexivity|]. cbn [map mapM]. pose proof (H y (or_introl eq_refl)) as Y.
        unfold py_index at 1. destruct (Z.leb_spec 0 (Z.of_nat y)); [|lia]. destruct (Z.ltb_spec (Z.of_nat y) (Z.of_nat (length row))); [|lia]. cbn [andb].
        rewrite Nat2Z.id, (py_nth_default 0%Q) by lia. cbn [bind]. rewrite IH by (intros z Z0; apply H; now right). reflexivity. }
      apply H. intros y J. apply in_seq in J. lia. }
    rewrite M. reflexivity.
Qed.
Print Assumptions C68_weights.

(** With the classes -1 and 1, both are weighed by the probability of the latter. *)
Theorem C68_signed_refuted : forall pv loss, Forall (fun r => length r = 2%nat) pv ->
  exists s, eer_scores [-1; 1] pv loss = Ok s /\ length s = length pv /\
    forall i p q, nth_error pv i = Some [p; q] -> (nth i s 0 == q * loss i (-1)%Z + q * loss i 1%Z)%Q.
Proof.
  intros pv loss F. unfold eer_scores.
  set (g := fun i => (nth 1 (nth i pv []) 0 * loss i (-1)%Z + (nth 1 (nth i pv []) 0 * loss i 1%Z + 0))%Q).
  rewrite (mapM_pure _ g).
  - eexists. split; [reflexivity|]. split; [unfold range; now rewrite map_length, seq_length|].
    intros i p q E. assert (I : (i < length pv)%nat) by (apply nth_error_Some; congruence). unfold range.
    rewrite (nth_indep _ 0%Q (g 0%nat)) by (rewrite map_length, seq_length; auto). rewrite map_nth, seq_nth by auto. unfold g. cbn [Nat.add].
    rewrite (nth_error_nth _ _ [] E). cbn [nth]. ring.
  - intros i J. apply in_range in J. rewrite (py_nth_default []) by auto. cbn [bind]. unfold g. set (row := nth i pv []).
    assert (LR : length row = 2%nat) by (rewrite Forall_forall in F; apply F, nth_In; auto).
    destruct row as [|p [|q [|]]]; try discriminate LR. reflexivity.
Qed.
Print Assumptions C68_signed_refuted.

(** A class that is no column number, such as the last of 1, ..., k, makes the call fail. *)
Theorem C68_out_of_range_refuted : forall k pv loss, Forall (fun r => length r = k) pv -> pv <> [] -> (1 <= k)%nat ->
  eer_scores (map (fun y => Z.of_nat (S y)) (seq 0 k)) pv loss = Err IndexErr.
Proof.
  intros k pv loss F NE K. destruct pv as [|row pv]; [contradiction|]. inversion F as [|? ? LR F']; subst. unfold eer_scores, range. cbn [length seq mapM].
  unfold py_nth at 1. cbn [nth_error bind].
  assert (H : forall k0 l, (k0 + l = length row)%nat -> (1 <= l)%nat ->
    mapM (fun y => match py_index (length row) y with None => Err IndexErr | Some j => p <- py_nth row j ;; Ok (p * loss 0%nat y)%Q end)
      (map (fun y => Z.of_nat (S y)) (seq k0 l)) = Err IndexErr).
  { intros k0 l. revert k0. induction l as [|l IH]; intros k0 E L; [lia|]. cbn [seq map mapM]. destruct l as [|l].
    - unfold py_index at 1. destruct (Z.leb_spec 0 (Z.of_nat (S k0))); [|lia]. destruct (Z.ltb_spec (Z.of_nat (S k0)) (Z.of_nat (length row))); [lia|]. cbn [andb].
      destruct (Z.leb_spec (- Z.of_nat (length row)) (Z.of_nat (S k0))); [|lia]. destruct (Z.ltb_spec (Z.of_nat (S k0)) 0); [lia|]. reflexivity.
    - unfold py_index at 1. destruct (Z.leb_spec 0 (Z.of_nat (S k0))); [|lia]. destruct (Z.ltb_spec (Z.of_nat (S k0)) (Z.of_nat (length row))); [|lia]. cbn [andb].
      rewrite Nat2Z.id, (py_nth_default 0%Q) by lia. cbn [bind]. rewrite IH by lia. reflexivity. }
  rewrite H by lia. reflexivity.
Qed.
Print Assumptions C68_out_of_range_refuted.

Example C68_case : let loss (i : nat) (y : Z) := inject_Z (10 * Z.of_nat i + y + 2) in
  (exists s, eer_scores [0; 1] [[1#4; 3#4]; [1#2; 1#2]] loss = Ok s /\ (nth 0 s 0 == 11 # 4)%Q) /\
  (exists s, eer_scores [-1; 1] [[1#4; 3#4]; [1#2; 1#2]] loss = Ok s /\ (nth 0 s 0 == 3)%Q).
Proof. cbv zeta. split; eexists; (split; [reflexivity|reflexivity]). Qed.

(** ** C70 *)

(** Density weighting: of two instances equally uncertain by a measure that is positive, the one chosen is at
    least as far from the rest; by the margin, which is taken negative, at most as far. *)
Theorem C70_diversity : forall (A : Type) np power m (U : list A) cols pv dis batch sel,
  numpy_ok np -> m <> Boundary -> (2 <= cols)%nat -> Forall (fun r => length r = cols) pv -> length pv = length U -> NoDup U ->
  length dis = length U -> Forall (fun r => length r = length U) dis -> 0 < batch <= Z.of_nat (length U) ->
  density_weighted np power m U cols None (Some pv) dis batch = Ok sel ->
  forall i j x y ri rj, nth_error U i = Some x -> nth_error U j = Some y -> nth_error pv i = Some ri -> nth_error pv j = Some rj ->
    In x sel -> ~ In y sel ->
    let far k := power (mean (column 0%Q dis k)) in
    exists ui uj, uncertain_raw (log np) m ri ui /\ uncertain_raw (log np) m rj uj /\
      ((ui == uj /\ 0 < ui)%Q -> (far j <= far i)%Q) /\ ((ui == uj /\ ui < 0)%Q -> (far i <= far j)%Q).
Proof.
  intros A np power m U cols pv dis batch sel NP NB C F L ND LD FD B E i j x y ri rj EI EJ RI RJ X Y far.
  destruct (C47_density_weighted A np power m U cols pv dis batch NP NB C F L LD FD B) as (sel' & score & _ & E' & SC & BB).
  rewrite E in E'. injection E' as <-. pose proof (nth_of_best U score _ sel ND BB i j x y EI EJ X Y) as LE.
  destruct (SC i ri RI) as (ui & U1 & S1). destruct (SC j rj RJ) as (uj & U2 & S2). exists ui, uj. split; auto. split; auto.
  assert (FE : forall k, power (total (column 0 dis k) / inject_Z (Z.of_nat (length U)))%Q = far k).
  { intro k. unfold far, mean, column. rewrite map_length, LD. reflexivity. }
  rewrite FE in S1, S2. rewrite S1, S2 in LE. clear - LE. set (a := far i) in *. set (b := far j) in *. clearbody a b. split; intros [EQ SG]; rewrite <- EQ in LE.
  - destruct (Qlt_le_dec a b) as [H|H]; auto. exfalso. assert (ui * a < ui * b)%Q; [|lra]. rewrite !(Qmult_comm ui). now apply Qmult_lt_compat_r.
  - destruct (Qlt_le_dec b a) as [H|H]; auto. exfalso. assert ((- ui) * b < (- ui) * a)%Q; [|lra]. rewrite !(Qmult_comm (- ui)). apply Qmult_lt_compat_r; lra.
Qed.
Print Assumptions C70_diversity.

(** So with the margin the chosen one of two instances with the same gap is never the more diverse one. *)
Theorem C70_margin_refuted : forall (A : Type) np power (U : list A) cols pv dis batch sel,
  numpy_ok np -> (2 <= cols)%nat -> Forall (fun r => length r = cols) pv -> length pv = length U -> NoDup U ->
  length dis = length U -> Forall (fun r => length r = length U) dis -> 0 < batch <= Z.of_nat (length U) ->
  density_weighted np power Margin U cols None (Some pv) dis batch = Ok sel ->
  forall i j x y ri rj d, nth_error U i = Some x -> nth_error U j = Some y -> nth_error pv i = Some ri -> nth_error pv j = Some rj ->
    In x sel -> ~ In y sel -> top_gap ri d -> top_gap rj d -> (0 < d)%Q ->
    (power (mean (column 0%Q dis i)) <= power (mean (column 0%Q dis j)))%Q.
Proof.
  intros A np power U cols pv dis batch sel NP C F L ND LD FD B E i j x y ri rj d EI EJ RI RJ X Y G1 G2 D.
  destruct (C70_diversity A np power Margin U cols pv dis batch sel NP ltac:(discriminate) C F L ND LD FD B E i j x y ri rj EI EJ RI RJ X Y) as (ui & uj & U1 & U2 & _ & H).
  apply H. inversion U1 as [|? ? V1|]; subst. inversion V1 as [|? d1 ? T1 E1|]; subst. inversion U2 as [|? ? V2|]; subst. inversion V2 as [|? d2 ? T2 E2|]; subst.
  pose proof (top_gap_unique _ _ _ G1 T1). pose proof (top_gap_unique _ _ _ G2 T2). split; lra.
Qed.
Print Assumptions C70_margin_refuted.

Example C70_case :
  let dis := [[0; 1; 2]; [1; 0; 5]; [2; 5; 0]]%Q in
  density_weighted (np0 lg1) (fun x => x) Margin [1; 2; 3] 2 None (Some [[1#4; 3#4]; [3#4; 1#4]; [3#4; 1#4]]) dis 1 = Ok [1] /\
  density_weighted (np0 lg1) (fun x => x) LeastConfident [1; 2; 3] 2 None (Some [[1#4; 3#4]; [3#4; 1#4]; [3#4; 1#4]]) dis 1 = Ok [3].
Proof. split; reflexivity. Qed.
