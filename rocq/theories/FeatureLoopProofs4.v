(** Proofs about the loop that acquires feature values: the strategies and completions of the package. *)
From Verif Require Import Base BaseFacts SetFacts IndexModel MLModel MLSpec MLProofs MLProofs2 MLProofs3 MLProps MiscModel QueryModel QuerySpec MLQuerySpec
  FeatureModel FeatureSpec FeatureProofs FeatureProofs2 FeatureProofs3 FeatureProps StateModel
  FeatureLoopModel FeatureLoopSpec FeatureLoopProofs.
From Coq Require Import QArith Lqa.
Local Open Scope Z_scope.

Lemma parts_pool n train f L U : rows_ok n train -> parts train f L U -> pool_of n f (MPColl L) L /\ pool_of n f (MPColl U) U.
Proof.
  intros [_ IN] (RL & RU & _ & G). split; (split; [reflexivity|]; split; [assumption|]); intros p Hp; apply IN; apply (proj2 (G p)); auto.
Qed.

Section Package.
  Variables (X : fmat) (n f : nat) (train : list Z).
  Hypothesis HX : data n f X.
  Hypothesis Ht : rows_ok n train.
  Hypothesis Nt : train <> [].

  Section Afasmc.
    Variables (steps : fmat -> list (list Z) -> nat -> nat -> Q * fmat) (max_in max_out : nat).
    Hypothesis HS : steps_ok f steps.
    Hypothesis HM : (1 <= max_out <= max_in)%nat.

    Notation used := (used X f train steps max_in max_out).

    Lemma step_train st c t : af_train st = Some t -> af_train (af_step steps max_in max_out X f st c) = Some t.
    Proof.
      intro E. destruct c as [nat_ o u|mask]; cbn [af_step].
      - unfold afasmc_select. destruct (Nat.leb _ _); [exact E|]. match goal with |- context[match ?x with Ok _ => _ | Err _ => _ end] => destruct x as [[o' u']|e] end; [|exact E].
        rewrite E. cbn [settle]. match goal with |- context[match ?x with Ok _ => _ | Err _ => _ end] => destruct x as [[M mask]|e] end; reflexivity.
      - unfold afasmc_by_mask. rewrite E. destruct (_ && _ && _)%bool; [|exact E].
        match goal with |- context[match ?x with Ok _ => _ | Err _ => _ end] => destruct x as [M|e] end; [reflexivity|exact E].
    Qed.
    Lemma used_train t : used t -> af_train t = Some (NdArray train).
    Proof.
      intros [calls ->]. unfold af_run. assert (E : af_train {| af_train := Some (NdArray train); af_mats := [] |} = Some (NdArray train)) by reflexivity.
      revert E. generalize {| af_train := Some (NdArray train); af_mats := [] |}. induction calls as [|c calls IH]; intros st E; [exact E|].
      apply IH. now apply step_train.
    Qed.
    Lemma used_next t native L U : used t -> used (fst (afasmc_strategy steps max_in max_out f native X t L U)).
    Proof.
      intros [calls ->]. exists (calls ++ [CSelect native (MPColl L) (MPColl U)]). unfold af_run. rewrite fold_left_app. reflexivity.
    Qed.

    Lemma afasmc_cases native t L U : used t -> parts train f L U ->
      (List.length (pairs U) <= 1)%nat /\ snd (afasmc_strategy steps max_in max_out f native X t L U) = Ok TheRest \/
      (2 <= List.length (pairs U))%nat /\
        exists i j, snd (afasmc_strategy steps max_in max_out f native X t L U) = Ok (Chosen [IPair i j]) /\ entries train f (i, j).
    Proof.
      intros Ut P. destruct (parts_pool n train f L U Ht P) as [PL PU]. pose proof P as (RL & RU & D & G).
      assert (PLen : ml_pool_len (MPColl U) = List.length (pairs U)) by (cbn; eapply pairs_len; eassumption).
      unfold afasmc_strategy. destruct (Nat.le_gt_cases (List.length (pairs U)) 1) as [K|K].
      - left. split; [exact K|]. destruct (C57_one_left steps max_in max_out X f t native (MPColl L) (MPColl U) (fun _ M => Ok M) [] None 0 0 0 []) as (E & _).
        { lia. } now rewrite E.
      - right. split; [lia|]. pose proof (used_train t Ut) as ET. destruct Ut as [calls ->].
        assert (Hf : (0 < f)%nat) by (pose proof (reachable_good _ _ RU) as (_ & _ & H & _); lia).
        destruct Ht as [ND IN]. destruct HX as [SX FX].
        destruct (C57_afasmc steps max_in max_out X n f (Some (NdArray train)) calls native (MPColl L) (MPColl U) L U train SX FX HS HM Hf PL PU)
          as (M & r & i & j & E & Er & _ & CE); auto; [lia|rewrite ET; reflexivity| |].
        { intros p Hp. apply (proj2 (G p)). now left. }
        exists i, (Z.of_nat j). rewrite E. split; [reflexivity|]. split; cbn [fst snd]; [eapply nth_error_In; eauto|].
        assert (IJ : inside (List.length train) f (r, j)).
        { destruct CE as [C1 C2]. destruct (Nat.le_gt_cases 2 (List.length (af_mats (af_run steps max_in max_out X f (Some (NdArray train)) calls) ++ [M]))) as [Q1|Q1].
          - exact (proj1 (C1 Q1)).
          - exact (proj1 (C2 ltac:(lia))). }
        destruct IJ as [_ IJ]. cbn [snd] in IJ. lia.
    Qed.

    Lemma afasmc_lawful native : lawful (afasmc_strategy steps max_in max_out f native) X train f used.
    Proof.
      intros t L U Ut P. split; [now apply used_next|]. destruct (afasmc_cases native t L U Ut P) as [[K ->]|(K & i & j & -> & E)]; [exact K|].
      split; [exact K|]. eauto.
    Qed.
    Lemma afasmc_never_fails native t L U : used t -> parts train f L U -> exists a, snd (afasmc_strategy steps max_in max_out f native X t L U) = Ok a.
    Proof. intros Ut P. destruct (afasmc_cases native t L U Ut P) as [[_ ->]|(_ & i & j & -> & _)]; eauto. Qed.

    Lemma afasmc_private native X' : data n f X' -> private_strategy (afasmc_strategy steps max_in max_out f native) X X' n train f used.
    Proof.
      intros HX' t L U Ut P (_ & _ & AG). pose proof P as (RL & RU & D & G). destruct Ht as [ND IN].
      assert (Hin : forall p, In p (pairs L) -> In (fst p) train) by (intros p Hp; apply (proj2 (G p)); now left).
      unfold afasmc_strategy, afasmc_select. destruct (Nat.leb _ _); [reflexivity|]. cbn [check_ml_ind bind].
      rewrite (used_train t Ut). cbn [settle train_vals].
      destruct (entries_mask f train native L RL ND Hin) as (c & mask & E1 & E2 & S2 & Z2 & K2).
      destruct HX as [SX FX], HX' as [SX' FX'].
      destruct (rows_at_ok X n f train SX IN) as (rows & E3 & R3 & S3 & F3). destruct (rows_at_ok X' n f train SX' IN) as (rows' & E3' & R3' & S3' & F3').
      rewrite E1, E3, E3'. cbn [bind]. unfold afasmc_mc.
      assert (LR : List.length rows = List.length train) by apply S3. assert (LR' : List.length rows' = List.length train) by apply S3'.
      rewrite LR, LR', E2. cbn [bind].
      rewrite (C75_private steps max_in max_out false rows rows' mask (List.length train) f); auto.
      intros a b C. destruct (cell_inside _ _ _ _ _ _ S2 C) as [Ha Hb].
      apply (K2 (a, b) (conj Ha Hb)) in C. destruct C as (i & Hi & Hp). cbn [fst snd] in *.
      destruct (AG i (Z.of_nat b) Hp) as (x & y & C1 & C2 & FE). rewrite Nat2Z.id in C1, C2. exists x, y.
      destruct R3 as [_ R3], R3' as [_ R3']. unfold cell in *. rewrite (R3 _ _ Hi), (R3' _ _ Hi). auto.
    Qed.
  End Afasmc.

  (** The random strategy. *)
  Lemma random_cases t L U : proper_draws t -> parts train f L U ->
    proper_draws (fst (random_strategy f X t L U)) /\
    ((List.length (pairs U) <= 1)%nat /\ snd (random_strategy f X t L U) = Ok TheRest \/
     (2 <= List.length (pairs U))%nat /\ exists i j, snd (random_strategy f X t L U) = Ok (Chosen [IPair i j]) /\ In (i, j) (pairs U)).
  Proof.
    intros Ht' P. destruct (parts_pool n train f L U Ht P) as [PL PU]. pose proof P as (RL & RU & D & G).
    assert (PLen : List.length (mcont U) = List.length (pairs U)) by (eapply pairs_len; eassumption).
    assert (EX : List.length X = n) by apply HX.
    split; [intros k m; apply (Ht' (S k) m)|]. unfold random_strategy. cbn [snd]. rewrite EX.
    destruct (Nat.le_gt_cases (List.length (pairs U)) 1) as [K|K].
    - left. split; [exact K|]. unfold feature_random. cbn [ml_pool_len]. rewrite PLen. now rewrite (proj2 (Nat.leb_le _ _) K).
    - right. split; [lia|]. destruct (C57_random n f (MPColl U) U 1 (t 0%nat (ml_len U)) PU) as [C _]; [cbn; lia|].
      destruct C as (sel & E & Ls & _ & Hs); [lia|apply Ht'|]. destruct sel as [|[i j] [|]]; cbn [List.length] in Ls; try lia.
      exists i, j. split; [exact E|]. apply Hs. now left.
  Qed.
  Lemma random_lawful : lawful (random_strategy f) X train f proper_draws /\ asks_unknown (random_strategy f) X train f proper_draws.
  Proof.
    split.
    - intros t L U Ut P. destruct (random_cases t L U Ut P) as [N [[K ->]|(K & i & j & -> & E)]]; (split; [exact N|]); [exact K|].
      split; [exact K|]. exists i, j. split; [reflexivity|]. apply P. now right.
    - intros t L U l Ut P E. destruct (random_cases t L U Ut P) as [N [[K E']|(K & i & j & E' & Hi)]]; rewrite E in E'; [discriminate|].
      injection E' as ->. intros i0 j0 [Q1|[]]. injection Q1 as -> ->. exact Hi.
  Qed.

  (** The stability strategy: its state is the training set, once it is fixed. *)
  Lemma stability_lawful svd ranks native : svd_ok f svd -> ranks <> [] ->
    lawful (stability_strategy svd ranks f native) X train f (fun t => t = Some (NdArray train)).
  Proof.
    intros HS NR t L U -> P. destruct (parts_pool n train f L U Ht P) as [PL PU]. pose proof P as (RL & RU & D & G).
    assert (PLen : ml_pool_len (MPColl U) = List.length (pairs U)) by (cbn; eapply pairs_len; eassumption).
    assert (Hf : (0 < f)%nat) by (pose proof (reachable_good _ _ RU) as (_ & _ & H & _); lia).
    destruct Ht as [ND IN]. destruct HX as [SX FX].
    assert (Hin : forall p, In p (pairs L) -> In (fst p) train) by (intros p Hp; apply (proj2 (G p)); now left).
    unfold stability_strategy. destruct (Nat.le_gt_cases (List.length (pairs U)) 1) as [K|K].
    - destruct (C57_one_left (fun S _ _ _ => (0%Q, S)) 0 0 X f {| af_train := None; af_mats := [] |} native (MPColl L) (MPColl U) svd ranks (Some (NdArray train)) 0 0 0 []) as (_ & E & _).
      { lia. } rewrite E. cbn [fst snd]. auto.
    - assert (OC : (exists q, inside (List.length train) f q /\ observed train L q) \/ forall q, inside (List.length train) f q -> ~ observed train L q).
      { destruct (pairs L) as [|[i j] l] eqn:EP.
        - right. intros q _ (i & _ & Q1). rewrite EP in Q1. destruct Q1.
        - left. assert (K1 : In i train) by (apply (Hin (i, j)); now left). assert (K2 : entries train f (i, j)) by (apply G; left; now left).
          destruct K2 as [_ K2]. cbn [snd] in K2. apply In_nth_error in K1. destruct K1 as [r K1].
          exists (r, Z.to_nat j). split.
          + split; cbn [fst snd]; [apply nth_error_Some; congruence|lia].
          + exists i. cbn [fst snd]. rewrite Z2Nat.id by lia. split; [exact K1|]. rewrite EP. now left. }
      destruct OC as [OC|OC].
      + destruct (C57_stability svd ranks X n f (Some (NdArray train)) native (MPColl L) (MPColl U) L U train SX FX HS Hf PL PU)
          as (rows & mask & mats & r & i & j & _ & _ & _ & _ & E & Er & _ & CE); auto; [lia|reflexivity| |].
        { destruct (pairs U) as [|[i j] l] eqn:EP; [cbn in K; lia|].
          assert (K2 : entries train f (i, j)) by (apply G; right; now left). destruct K2 as [K1 K2]. cbn [fst snd] in *.
          apply In_nth_error in K1. destruct K1 as [r K1]. exists (r, Z.to_nat j). split.
          - split; cbn [fst snd]; [apply nth_error_Some; congruence|lia].
          - intros (i' & Q1 & Q2). cbn [fst snd] in *. assert (i' = i) by congruence. subst i'. rewrite Z2Nat.id in Q2 by lia.
            apply (D _ Q2). now left. }
        rewrite E. cbn [fst snd]. split; [reflexivity|]. split; [lia|]. exists i, (Z.of_nat j). split; [reflexivity|].
        split; cbn [fst snd]; [eapply nth_error_In; eauto|].
        assert (IJ : inside (List.length train) f (r, j)).
        { destruct CE as [C1 C2]. destruct (Nat.le_gt_cases 2 (List.length mats)) as [Q1|Q1]; [exact (proj1 (C1 Q1))|exact (proj1 (C2 ltac:(lia)))]. }
        destruct IJ as [_ IJ]. cbn [snd] in IJ. lia.
      + rewrite (C57_stability_rejects svd ranks X n f (Some (NdArray train)) native (MPColl L) (MPColl U) L U train SX NR PL PU); auto; [|lia|reflexivity].
        cbn [fst snd]. auto.
  Qed.
End Package.

(** The mask of the known entries of the training set. *)
Lemma known_mask n f omega : (exists m, ml_reachable m omega) ->
  (forall r j, In (r, j) (pairs omega) -> 0 <= r < Z.of_nat n /\ 0 <= j < Z.of_nat f) ->
  exists mask, ml_mask omega n f 1 false = Ok mask /\ has_shape mask n f /\ zero_one mask /\
    forall a b, (a < n)%nat -> (b < f)%nat -> (cell mask a b = Some 1 <-> In (Z.of_nat a, Z.of_nat b) (pairs omega)).
Proof.
  intros [m R] H. destruct (dense_mask_lemma m omega n f 1 R) as (mask & E & Sh & C).
  { intros [r j] K. apply H in K. cbn [fst snd]. lia. }
  assert (D : forall a b, (a < n)%nat -> (b < f)%nat -> cell mask a b = Some 1 /\ In (Z.of_nat a, Z.of_nat b) (pairs omega) \/
    cell mask a b = Some 0 /\ ~ In (Z.of_nat a, Z.of_nat b) (pairs omega)).
  { intros a b Ha Hb. destruct (C a b Ha Hb) as [C1 C2]. destruct (in_dec pair_dec (Z.of_nat a, Z.of_nat b) (pairs omega)); auto. }
  exists mask. split; [exact E|]. split; [exact Sh|]. split.
  - intros a b v K. destruct (cell_inside _ _ _ _ _ _ Sh K) as [Ha Hb]. destruct (D a b Ha Hb) as [[Q1 _]|[Q1 _]]; rewrite K in Q1; injection Q1; auto.
  - intros a b Ha Hb. destruct (D a b Ha Hb) as [[Q1 Q2]|[Q1 Q2]]; rewrite Q1; split; auto; intro; [discriminate|tauto].
Qed.

Lemma afasmc_completion_facts steps max_in max_out n f : steps_ok f steps -> (1 <= max_out <= max_in)%nat ->
  private_completion (afasmc_completion steps max_in max_out f) n f /\
  forall rows omega, data n f rows -> (exists m, ml_reachable m omega) ->
    (forall r j, In (r, j) (pairs omega) -> 0 <= r < Z.of_nat n /\ 0 <= j < Z.of_nat f) ->
    exists M, afasmc_completion steps max_in max_out f rows omega = Ok M /\ data n f M /\
      forall r j, In (r, j) (pairs omega) -> same_at M rows (Z.to_nat r) (Z.to_nat j).
Proof.
  intros HS HM. split.
  - intros rows rows' omega R H ((S1 & F1) & (S2 & F2) & AG). destruct (known_mask n f omega R H) as (mask & E & Sh & Zo & C).
    assert (L1 : List.length rows = n) by apply S1. assert (L2 : List.length rows' = n) by apply S2.
    unfold afasmc_completion, afasmc_mc. rewrite L1, L2, E. cbn [bind]. apply (C75_private steps max_in max_out false rows rows' mask n f); auto.
    intros a b K. destruct (cell_inside _ _ _ _ _ _ Sh K) as [Ha Hb]. apply C in K; auto. apply AG in K. now rewrite !Nat2Z.id in K.
  - intros rows omega (S1 & F1) R H. destruct (known_mask n f omega R H) as (mask & E & Sh & Zo & C).
    assert (L1 : List.length rows = n) by apply S1. unfold afasmc_completion, afasmc_mc. rewrite L1, E. cbn [bind].
    destruct (C75_afasmc steps max_in max_out false rows mask n f HM S1 Sh F1 Zo HS) as (M & i & k & EM & _ & _ & SM & FM & A1 & _); [discriminate|].
    exists M. split; [exact EM|]. split; [split; assumption|]. intros r j K. apply A1. pose proof (H r j K) as [Hr Hj].
    apply C; [lia|lia|]. now rewrite !Z2Nat.id by lia.
Qed.

(** The iterative completion with a decomposition that reproduces its argument gives the data back, hidden values included. *)
Lemma impute_reveals svd s X mask n f : has_shape X n f -> has_shape mask n f -> finite X -> zero_one mask ->
  sv_min s = None -> sv_max s = None -> (0 < sv_iters s)%nat -> (forall k M, has_shape M n f -> svd k M = Ok M) ->
  forall chk Y, impute svd s X mask chk = Ok Y -> forall a b, (a < n)%nat -> (b < f)%nat -> same_at Y X a b.
Proof.
  intros SX SM FX Zo L1 L2 IT ID chk Y E. unfold impute in E. destruct (chk && negb (mask_passes X mask))%bool; [discriminate|].
  assert (CL : forall R, clip s R = R).
  { intro R. unfold clip, clip1. rewrite L1, L2. rewrite map_ext with (g := fun r => r); [apply map_id|]. intro. apply map_id. }
  assert (K : forall todo i A, has_shape A n f -> (forall a b, cell mask a b = Some 0 -> same_at A X a b) -> finite A ->
    ((forall a b, (a < n)%nat -> (b < f)%nat -> same_at A X a b) \/ (0 < todo)%nat) ->
    impute_loop svd s X mask todo i A = Ok Y -> forall a b, (a < n)%nat -> (b < f)%nat -> same_at Y X a b).
  { induction todo as [|todo IH]; intros i A SA HA FA D H; cbn [impute_loop] in H.
    - injection H as <-. destruct D as [D|D]; [exact D|lia].
    - rewrite (ID _ A SA) in H. cbn [bind] in H. rewrite CL in H.
      assert (NW : forall a b, (a < n)%nat -> (b < f)%nat -> same_at (mplus (unseen mask A) (seen mask X)) X a b).
      { intros a b Ha Hb. destruct (shape_cell mask n f a b SM Ha Hb) as [m Em]. destruct (Zo _ _ _ Em) as [-> | ->].
        - destruct (mixture_missing mask A X n f a b SM SA SX) as (x & y & C1 & C2 & FE); auto.
          destruct (HA a b Em) as (x' & y' & C1' & C2' & FE'). exists x, y'. split; [exact C1|]. split; [exact C2'|].
          assert (y = x') by congruence. subst x'. destruct (FA _ _ _ C2) as [q ->]. destruct x; cbn in *; try contradiction. destruct y'; cbn in *; try contradiction. lra.
        - apply (mixture_observed mask A X n f a b SM SA SX); auto. }
      destruct (converged s A A mask); [injection H as <-; exact NW|].
      eapply (IH (S i) (mplus (unseen mask A) (seen mask X))); eauto.
      + apply mixture_shape; auto.
      + intros a b C. destruct (cell_inside _ _ _ _ _ _ SM C). auto.
      + apply mixture_finite; auto. }
  apply (K (sv_iters s) 0%nat (unseen mask X)); auto.
  - now apply unseen_shape.
  - intros a b C. destruct (cell_inside _ _ _ _ _ _ SM C) as [Ha Hb]. destruct (shape_cell X n f a b SX Ha Hb) as [x Ex].
    destruct (FX _ _ _ Ex) as [q ->]. unfold unseen. eexists _, (Num q). rewrite mzip_cell, C, Ex. split; [reflexivity|]. split; [reflexivity|].
    cbn [fmul feq]. rewrite Qred_correct. change (inject_Z (1 - 0)) with 1%Q. ring.
  - now apply unseen_finite.
Qed.
