(** Theorems about the feature query strategies (C57) and matrix completion (C75, C76). *)
From Verif Require Import Base BaseFacts IndexModel MLModel MLSpec MLProofs MLProofs2 MLProofs3 MiscModel MiscSpec QueryModel QuerySpec
  QueryProofs QueryProofs2 MLQuerySpec FeatureModel FeatureSpec FeatureProofs FeatureProofs2 FeatureProofs3 FeatureProofs4.
From Verif Require SplitSpec SplitProofs QueryProps3.
From Coq Require Import QArith Qabs Qreduction Lqa.
Local Open Scope Z_scope.

(** ** C57. AFASMC, after any history of calls: the completion agrees with the data on the observed entries and is
    added to the completions of the earlier calls. The first time, the first unobserved entry is returned; later, the
    first unobserved entry of greatest variance over all completions so far, and if no unobserved entry has a
    positive variance, the very first entry, observed or not. *)
Theorem C57_afasmc : forall steps max_in max_out X n f train calls native obs unk o u trs,
  has_shape X n f -> finite X -> steps_ok f steps -> (1 <= max_out <= max_in)%nat -> (0 < f)%nat ->
  let st := af_run steps max_in max_out X f train calls in
  pool_of n f obs o -> pool_of n f unk u -> (2 <= ml_pool_len unk)%nat ->
  training (af_train st) o u trs -> NoDup trs -> trs <> [] -> (forall i, In i trs -> 0 <= i < Z.of_nat n) ->
  (forall p, In p (pairs o) -> In (fst p) trs) ->
  exists M r i j,
    afasmc_select steps max_in max_out X f st native obs unk =
    ({| af_train := Some (NdArray trs); af_mats := af_mats st ++ [M] |}, Ok (Chosen [IPair i (Z.of_nat j)])) /\
    nth_error trs r = Some i /\
    (forall q, observed trs o q -> exists i', nth_error trs (fst q) = Some i' /\
       exists x y, cell M (fst q) (snd q) = Some x /\ cell X (Z.to_nat i') (snd q) = Some y /\ feq x y) /\
    chosen_entry (length trs) f (observed trs o) (af_mats st ++ [M]) (r, j).
Proof. intros. eapply afasmc_lemma; eauto. Qed.
Print Assumptions C57_afasmc.

(** With the training set given by a mask: the same choice, counted within the training set. *)
Theorem C57_by_mask : forall steps max_in max_out X n f train calls t mask,
  has_shape X n f -> finite X -> steps_ok f steps -> (1 <= max_out <= max_in)%nat -> (0 < f)%nat ->
  let st := af_run steps max_in max_out X f train calls in
  af_train st = Some t -> train_vals t <> [] -> (forall i, In i (train_vals t) -> 0 <= i < Z.of_nat n) ->
  has_shape mask (length (train_vals t)) f -> zero_one mask ->
  exists M p, afasmc_by_mask steps max_in max_out X f st mask = ({| af_train := Some t; af_mats := af_mats st ++ [M] |}, Ok p) /\
    chosen_entry (length (train_vals t)) f (fun q => cell mask (fst q) (snd q) = Some 1) (af_mats st ++ [M]) p.
Proof.
  intros steps max_in max_out X n f train calls t mask SX FX OK HI Hf st T NE IN SM Z.
  pose proof (run_ok steps max_in max_out X n f SX FX OK train calls) as J. fold st in J. unfold history_ok in J. rewrite T in J.
  assert (LT : (0 < length (train_vals t))%nat) by (destruct (train_vals t); [congruence|cbn; lia]).
  destruct (rows_at_ok X n f _ SX IN) as (rows & E3 & R3 & S3 & F3). specialize (F3 FX).
  destruct (afasmc_ok steps max_in max_out false rows mask _ f HI S3 SM F3 Z OK) as (M & i0 & k0 & E4 & _ & _ & S4 & F4 & A4 & _); [discriminate|].
  assert (FM : Forall (fun M => has_shape M (length (train_vals t)) f /\ finite M) (af_mats st ++ [M])).
  { apply Forall_app. split; [exact J|constructor; auto]. }
  destruct (choose_spec _ f (af_mats st ++ [M]) mask LT Hf SM Z FM) as (p & E5 & I5 & C5).
  exists M, p. split; [|exact C5]. unfold afasmc_by_mask. rewrite T.
  assert (RE : rectangular mask = true).
  { apply rectangular_spec. destruct mask as [|r mask']; [destruct SM as [L _]; cbn in L; lia|]. split; [discriminate|].
    destruct SM as [L S]. split; [auto|]. intros x Hx. cbn [hd]. rewrite (S x Hx), (S r); auto. now left. }
  assert (W : width mask = f).
  { unfold width. destruct mask as [|r mask']; [destruct SM as [L _]; cbn in L; lia|]. cbn. apply SM. now left. }
  rewrite RE, W, Nat.eqb_refl. replace (Nat.eqb (length mask) (length (train_vals t))) with true by (symmetry; apply Nat.eqb_eq; apply SM).
  cbn [andb]. rewrite E3. cbn [bind]. rewrite E4. now rewrite E5.
Qed.
Print Assumptions C57_by_mask.

(** Without a training set or with a mask of another shape nothing happens. *)
Theorem C57_by_mask_rejects : forall steps max_in max_out X f st mask svd ranks,
  (af_train st = None -> afasmc_by_mask steps max_in max_out X f st mask = (st, Err ValueErr)) /\
  (forall t, af_train st = Some t -> ~ (mask <> [] /\ has_shape mask (length (train_vals t)) f) ->
   afasmc_by_mask steps max_in max_out X f st mask = (st, Err AssertErr) /\
   stability_by_mask svd ranks X f (Some t) mask = Err AssertErr).
Proof.
  intros steps max_in max_out X f st mask svd ranks. split; [intro T; unfold afasmc_by_mask; now rewrite T|].
  intros t T H.
  assert (C : rectangular mask && Nat.eqb (length mask) (length (train_vals t)) && Nat.eqb (width mask) f = false).
  { apply not_true_is_false. intro E. apply H. apply andb_true_iff in E. destruct E as [E E3]. apply andb_true_iff in E. destruct E as [E1 E2].
    apply Nat.eqb_eq in E2, E3. apply rectangular_spec in E1. destruct E1 as [N [_ S]]. split; auto. split; auto.
    intros r Hr. rewrite (S r Hr). exact E3. }
  unfold afasmc_by_mask, stability_by_mask. rewrite T, C. auto.
Qed.
Print Assumptions C57_by_mask_rejects.

(** At most one unknown entry: it is returned as it is, by all three strategies. *)
Theorem C57_one_left : forall steps max_in max_out X f st native obs unk svd ranks train n m batch sh,
  (ml_pool_len unk <= 1)%nat ->
  afasmc_select steps max_in max_out X f st native obs unk = (st, Ok TheRest) /\
  stability_select svd ranks X f train native obs unk = (train, Ok TheRest) /\
  feature_random n m unk batch sh = Ok TheRest.
Proof.
  intros. unfold afasmc_select, stability_select, feature_random.
  replace (Nat.leb (ml_pool_len unk) 1) with true by (symmetry; apply Nat.leb_le; auto). auto.
Qed.
Print Assumptions C57_one_left.

(** Once the training set is fixed, the set of unknown entries is not looked at: any two of them give the same
    result, so that the entry returned need not be among them. *)
Theorem C57_unknown_ignored_refuted : forall steps max_in max_out X f st t native obs unk unk' u u' svd ranks,
  af_train st = Some t -> (2 <= ml_pool_len unk)%nat -> (2 <= ml_pool_len unk')%nat ->
  check_ml_ind (Z.of_nat (length X)) (Z.of_nat f) unk = Ok u -> check_ml_ind (Z.of_nat (length X)) (Z.of_nat f) unk' = Ok u' ->
  afasmc_select steps max_in max_out X f st native obs unk = afasmc_select steps max_in max_out X f st native obs unk' /\
  (stability_select svd ranks X f (Some t) native obs unk = stability_select svd ranks X f (Some t) native obs unk').
Proof.
  intros steps max_in max_out X f st t native obs unk unk' u u' svd ranks T L L' C C'. unfold afasmc_select, stability_select.
  replace (Nat.leb (ml_pool_len unk) 1) with false by (symmetry; apply Nat.leb_gt; lia).
  replace (Nat.leb (ml_pool_len unk') 1) with false by (symmetry; apply Nat.leb_gt; lia).
  rewrite C, C', T. cbn [bind]. destruct (check_ml_ind (Z.of_nat (length X)) (Z.of_nat f) obs); cbn [bind]; auto.
Qed.
Print Assumptions C57_unknown_ignored_refuted.

(** A training set given as a plain list: IndexError as soon as an observed entry has a native instance number. *)
Theorem C57_plain_list_refuted : forall steps max_in max_out X n f st trs obs unk o u svd ranks,
  has_shape X n f -> af_train st = Some (PyList trs) -> pool_of n f obs o -> pool_of n f unk u -> (2 <= ml_pool_len unk)%nat ->
  pairs o <> [] ->
  afasmc_select steps max_in max_out X f st true obs unk = ({| af_train := af_train st; af_mats := af_mats st |}, Err IndexErr) /\
  stability_select svd ranks X f (Some (PyList trs)) true obs unk = (Some (PyList trs), Err IndexErr).
Proof.
  intros steps max_in max_out X n f st trs obs unk o u svd ranks SX T (Co & Ro & _) (Cu & Ru & _) L NE.
  assert (ME : map_entries (PyList trs) true o = Err IndexErr).
  { unfold map_entries. destruct (mcont o) as [|x l] eqn:EM; [exfalso; apply NE; unfold pairs; now rewrite EM|]. reflexivity. }
  assert (LX : length X = n) by apply SX.
  unfold afasmc_select, stability_select. replace (Nat.leb (ml_pool_len unk) 1) with false by (symmetry; apply Nat.leb_gt; lia).
  rewrite LX, Cu, Co, T. cbn [bind settle]. rewrite ME. auto.
Qed.
Print Assumptions C57_plain_list_refuted.

(** An observed entry of an instance outside the training set: IndexError; the training set stays settled. *)
Theorem C57_outside : forall steps max_in max_out X n f st trs native obs unk o u svd ranks,
  has_shape X n f -> af_train st = Some (NdArray trs) -> pool_of n f obs o -> pool_of n f unk u -> (2 <= ml_pool_len unk)%nat ->
  (exists p, In p (pairs o) /\ ~ In (fst p) trs) ->
  afasmc_select steps max_in max_out X f st native obs unk = ({| af_train := af_train st; af_mats := af_mats st |}, Err IndexErr) /\
  stability_select svd ranks X f (Some (NdArray trs)) native obs unk = (Some (NdArray trs), Err IndexErr).
Proof.
  intros steps max_in max_out X n f st trs native obs unk o u svd ranks SX T (Co & Ro & _) (Cu & Ru & _) L (p & Ip & Np).
  assert (ME : map_entries (NdArray trs) native o = Err IndexErr).
  { unfold map_entries. pose proof (reachable_good _ _ Ro) as (_ & _ & _ & F & _). rewrite (pairs_map _ _ F).
    replace (mapM _ (map pair_idx (pairs o))) with (@Err (list mlidx) IndexErr); [reflexivity|]. symmetry.
    induction (pairs o) as [|q l IH]; [destruct Ip|]. cbn [map mapM]. destruct q as [i j]. cbn [pair_idx fst snd ins_of].
    unfold argwhere0 at 1. cbn [train_vals]. destruct (zindex i trs) as [z|] eqn:EZ.
    - destruct Ip as [<-|Ip].
      + exfalso. apply Np. cbn. clear - EZ. revert z EZ. induction trs as [|y trs IH]; cbn; intros z E; [discriminate|].
        destruct (i =? y) eqn:Ey; [left; lia|]. destruct (zindex i trs) as [w|]; [|discriminate]. right. eauto.
      + destruct native; cbn [bind]; rewrite (IH Ip); reflexivity.
    - destruct native; reflexivity. }
  assert (LX : length X = n) by apply SX.
  unfold afasmc_select, stability_select. replace (Nat.leb (ml_pool_len unk) 1) with false by (symmetry; apply Nat.leb_gt; lia).
  rewrite LX, Cu, Co, T. cbn [bind settle]. rewrite ME. auto.
Qed.
Print Assumptions C57_outside.

(** Committee stability: the same choice over the completions of the committee members of one call. *)
Theorem C57_stability : forall svd ranks X n f train native obs unk o u trs,
  has_shape X n f -> finite X -> svd_ok f svd -> (0 < f)%nat ->
  pool_of n f obs o -> pool_of n f unk u -> (2 <= ml_pool_len unk)%nat ->
  training train o u trs -> NoDup trs -> trs <> [] -> (forall i, In i trs -> 0 <= i < Z.of_nat n) ->
  (forall p, In p (pairs o) -> In (fst p) trs) ->
  (exists q, inside (length trs) f q /\ ~ observed trs o q) -> (exists q, inside (length trs) f q /\ observed trs o q) ->
  exists rows mask mats r i j,
    rows_of X trs rows /\ has_shape mask (length trs) f /\
    (forall q, inside (length trs) f q -> cell mask (fst q) (snd q) = Some (if zz_mem (nth (fst q) trs 0, Z.of_nat (snd q)) (pairs o) then 1 else 0)) /\
    Forall2 (fun rank M => impute svd (member rank) rows mask true = Ok M) ranks mats /\
    stability_select svd ranks X f train native obs unk = (Some (NdArray trs), Ok (Chosen [IPair i (Z.of_nat j)])) /\
    nth_error trs r = Some i /\
    Forall (fun M => forall q, observed trs o q -> same_at M rows (fst q) (snd q)) mats /\
    chosen_entry (length trs) f (observed trs o) mats (r, j).
Proof. intros. eapply stability_lemma; eauto. Qed.
Print Assumptions C57_stability.

(** With nothing or everything observed the committee fails (unless it is empty). *)
Theorem C57_stability_rejects : forall svd ranks X n f train native obs unk o u trs,
  has_shape X n f -> ranks <> [] -> pool_of n f obs o -> pool_of n f unk u -> (2 <= ml_pool_len unk)%nat ->
  training train o u trs -> NoDup trs -> trs <> [] -> (forall i, In i trs -> 0 <= i < Z.of_nat n) ->
  (forall p, In p (pairs o) -> In (fst p) trs) ->
  (forall q, inside (length trs) f q -> observed trs o q) \/ (forall q, inside (length trs) f q -> ~ observed trs o q) ->
  stability_select svd ranks X f train native obs unk = (Some (NdArray trs), Err AssertErr).
Proof.
  intros svd ranks X n f train native obs unk o u trs SX NR (Co & Ro & Wo) (Cu & Ru & Wu) Nu T ND NE IN OB ALL.
  assert (LX : length X = n) by apply SX. assert (LT : (0 < length trs)%nat) by (destruct trs; [congruence|cbn; lia]).
  pose proof (in_effect f _ _ _ _ Ro Ru T) as ES.
  destruct (entries_mask f trs native o Ro ND OB) as (c & mask & E1 & E2 & S2 & Z2 & K2).
  destruct (rows_at_ok X n f trs SX IN) as (rows & E3 & R3 & S3 & F3).
  assert (MP : mask_passes rows mask = false).
  { apply not_true_is_false. intro E. apply (mask_passes_iff f rows mask (length trs)) in E; auto.
    destruct E as [(q0 & I0 & C0) (q1 & I1 & C1)]. destruct ALL as [A|A].
    - apply (A q0) in I0 as O. apply K2 in O; auto. congruence.
    - apply (A q1 I1). now apply K2. }
  unfold stability_select. replace (Nat.leb (ml_pool_len unk) 1) with false by (symmetry; apply Nat.leb_gt; lia).
  rewrite LX, Cu, Co. cbn [bind]. rewrite ES, E1. cbn [bind train_vals]. rewrite E2. cbn [bind].
  unfold stability_by_mask. cbn [train_vals]. destruct (rectangular mask && Nat.eqb (length mask) (length trs) && Nat.eqb (width mask) f); [|reflexivity].
  destruct ranks as [|r rs]; [congruence|]. cbn [mapM]. rewrite E3. cbn [bind]. unfold impute. rewrite MP. reflexivity.
Qed.
Print Assumptions C57_stability_rejects.

(** Random: that many different unknown entries; ValueError if more are asked for. *)
Theorem C57_random : forall n f unk u batch sh, pool_of n f unk u -> (2 <= ml_pool_len unk)%nat ->
  (0 <= batch <= Z.of_nat (length (mcont u)) -> SplitSpec.shuffle (length (mcont u)) sh ->
   exists sel, feature_random (Z.of_nat n) (Z.of_nat f) unk batch sh = Ok (Chosen (map pair_idx sel)) /\
     Z.of_nat (length sel) = batch /\ NoDup sel /\ forall p, In p sel -> In p (pairs u)) /\
  (Z.of_nat (length (mcont u)) < batch -> feature_random (Z.of_nat n) (Z.of_nat f) unk batch sh = Err ValueErr).
Proof.
  intros n f unk u batch sh (Cu & Ru & Wu) L. unfold feature_random.
  replace (Nat.leb (ml_pool_len unk) 1) with false by (symmetry; apply Nat.leb_gt; lia). rewrite Cu. cbn [bind]. split.
  - intros B S. pose proof (reachable_good _ _ Ru) as (_ & _ & _ & F & ND). 
    destruct (QueryProps3.draw (mcont u) batch sh S B) as (perm & sel & E1 & E2 & LE & I & N). rewrite E1. cbn [bind]. rewrite E2. cbn [bind].
    assert (D : forall l, (forall x, In x l -> In x (mcont u)) -> exists ps, l = map pair_idx ps /\ forall p, In p ps -> In p (pairs u)).
    { induction l as [|x l IH]; intro H; [exists []; split; [reflexivity|intros p []]|].
      destruct IH as (ps & -> & HP); [intros; apply H; now right|]. rewrite Forall_forall in F.
      pose proof (H x (or_introl eq_refl)) as Hx. pose proof (F x Hx) as Fx. destruct x as [|i j| | |]; try contradiction.
      exists ((i, j) :: ps). split; [reflexivity|]. intros p [<-|Hp]; auto. now apply in_pairs. }
    destruct (D sel I) as (ps & -> & HP). exists ps. rewrite map_length in LE. split; [reflexivity|]. split; [lia|]. split; auto.
    apply (NoDup_map_inv pair_idx). auto.
  - intro B. unfold randperm. destruct (Z.gtb_spec batch (Z.of_nat (length (mcont u)) - 1 + 1)); [reflexivity|lia].
Qed.
Print Assumptions C57_random.

(** *** Concrete cases *)
Definition ex_X : fmat := [[Num 1; Num 2]; [Num 3; Num 4]; [Num 5; Num 6]].
(** A search filling in the sum of the observed values, and one always filling in 7. *)
Definition ex_steps (S : fmat) (mask : list (list Z)) (i k : nat) : Q * fmat := (0%Q, map (map (fun _ => fsum (concat S))) S).
Definition ex_const (S : fmat) (mask : list (list Z)) (i k : nat) : Q * fmat := (0%Q, map (map (fun _ => Num 7)) S).
Definition ex_obs1 : ml_pool := MPList [IPair 0 0].
Definition ex_obs2 : ml_pool := MPList [IPair 0 0; IPair 0 1].
Definition ex_unk : ml_pool := MPList [IPair 2 0; IPair 2 1].

Lemma fsum_finite l : (forall x, In x l -> exists q, x = Num q) -> exists q, fsum l = Num q.
Proof.
  induction l as [|x l IH]; intro H; [exists 0%Q; reflexivity|]. destruct (H x (or_introl eq_refl)) as [q ->].
  destruct IH as [z E]; [intros; apply H; now right|]. unfold fsum in *. cbn [fold_right]. rewrite E. cbn. eauto.
Qed.
Lemma ex_steps_ok f : steps_ok f ex_steps /\ steps_ok f ex_const.
Proof.
  split; intros n S mask i k SS FS SM; cbn [ex_steps ex_const snd]; (split; [now apply map_shape|]);
    intros a b v E; rewrite map_cell in E; destruct (cell S a b); try discriminate; injection E as <-; eauto.
  apply fsum_finite. intros x Hx. apply concat_cell in Hx. destruct Hx as (a' & b' & C). eauto.
Qed.

(** The hypotheses of [C57_afasmc] hold for a second call, whose result is the unknown entry of greatest variance. *)
Example C57_case :
  let st := af_run ex_steps 100 10 ex_X 2 (Some (NdArray [0; 2])) [CSelect true ex_obs1 ex_unk] in
  has_shape ex_X 3 2 /\ finite ex_X /\ (exists o u, pool_of 3 2 ex_obs2 o /\ pool_of 3 2 ex_unk u /\
    training (af_train st) o u [0; 2] /\ forall p, In p (pairs o) -> In (fst p) [0; 2]) /\
  length (af_mats st) = 1%nat /\
  snd (afasmc_select ex_steps 100 10 ex_X 2 {| af_train := Some (NdArray [0; 2]); af_mats := [] |} true ex_obs1 ex_unk) = Ok (Chosen [IPair 0 1]) /\
  snd (afasmc_select ex_steps 100 10 ex_X 2 st true ex_obs2 ex_unk) = Ok (Chosen [IPair 2 0]).
Proof.
  cbn zeta. split; [split; [reflexivity|]; intros r [<-|[<-|[<-|[]]]]; reflexivity|].
  split. { intros [|[|[|a]]] [|[|[|b]]] v E; cbn in E; try discriminate; try (injection E as <-; eauto); destruct a; discriminate. }
  split; [|split; [|split]]; [|vm_compute; reflexivity|vm_compute; reflexivity|vm_compute; reflexivity].
  assert (P : forall l, l <> [] -> (exists c w, ml_init (MList l) (Some 2) = Ok (c, w) /\ lsize c = Some 2 /\ within 3 c) -> exists c, pool_of 3 2 (MPList l) c).
  { intros l NE (c & w & E & L & W). exists c. split; [|split; [exact (mr_list 2 l (Some 2) c w NE E L)|exact W]].
    unfold check_ml_ind. destruct l; [congruence|]. change (Z.of_nat 2) with 2. now rewrite E. }
  destruct (P [IPair 0 0; IPair 0 1]) as [o O]; [discriminate| |].
  { eexists _, _. split; [reflexivity|]. split; [reflexivity|]. intros p [<-|[<-|[]]]; cbn; lia. }
  destruct (P [IPair 2 0; IPair 2 1]) as [u U]; [discriminate| |].
  { eexists _, _. split; [reflexivity|]. split; [reflexivity|]. intros p [<-|[<-|[]]]; cbn; lia. }
  exists o, u. split; [exact O|]. split; [exact U|]. split; [vm_compute; reflexivity|].
  destruct O as (C & _). vm_compute in C. injection C as <-. intros p [<-|[<-|[]]]; cbn; auto.
Qed.

(** The entry returned may already be observed although unknown ones remain: here the first entry of the training
    set, in the second call, when the two completions agree. *)
Theorem C57_known_refuted : exists X steps st obs unk o i j, steps_ok 2 steps /\ finite X /\
  st = af_run steps 100 10 X 2 (Some (NdArray [0; 2])) [CSelect true ex_obs1 ex_unk] /\
  pool_of 3 2 obs o /\ (exists q, inside 2 2 q /\ ~ observed [0; 2] o q) /\
  snd (afasmc_select steps 100 10 X 2 st true obs unk) = Ok (Chosen [IPair i j]) /\ In (i, j) (pairs o).
Proof.
  exists ex_X, ex_const. eexists. exists ex_obs2, ex_unk. eexists. exists 0, 0.
  split; [apply ex_steps_ok|]. split; [apply C57_case|]. split; [reflexivity|].
  assert (E : ml_init (MList [IPair 0 0; IPair 0 1]) (Some 2) = Ok ({| mcont := [IPair 0 0; IPair 0 1]; is_set := true; lsize := Some 2 |}, [])) by reflexivity.
  split; [split; [unfold check_ml_ind, ex_obs2; change (Z.of_nat 2) with 2; rewrite E; reflexivity|]|].
  { split; [eapply mr_list; [|exact E|reflexivity]; discriminate|]. intros p [<-|[<-|[]]]; cbn; lia. }
  split. { exists (1, 0)%nat. split; [split; cbn; lia|]. intros (i & Ei & Ip). cbn in Ei, Ip. injection Ei as <-. destruct Ip as [H|[H|[]]]; discriminate. }
  split; [vm_compute; reflexivity|cbn; auto].
Qed.
Print Assumptions C57_known_refuted.

(** ** C75. Matrix completion keeps the observed values. *)
Theorem C75_afasmc : forall steps max_in max_out chk X mask n f,
  (1 <= max_out <= max_in)%nat -> has_shape X n f -> has_shape mask n f -> finite X -> zero_one mask -> steps_ok f steps ->
  (chk = true -> (0 < n)%nat /\ (exists q, inside n f q /\ cell mask (fst q) (snd q) = Some 0) /\ (exists q, inside n f q /\ cell mask (fst q) (snd q) = Some 1)) ->
  exists R i k, afasmc_mask steps max_in max_out chk X mask = Ok R /\ (i < max_out)%nat /\ (k < max_in)%nat /\
    has_shape R n f /\ finite R /\
    (forall a b, cell mask a b = Some 1 -> same_at R X a b) /\
    (forall a b, cell mask a b = Some 0 -> same_at R (snd (steps (seen mask X) mask i k)) a b).
Proof.
  intros steps max_in max_out chk X mask n f HI SX SM FX Z OK C. apply afasmc_ok; auto.
  intro E. destruct (C E) as (Hn & C0 & C1). apply (mask_passes_iff f X mask n); auto.
Qed.
Print Assumptions C75_afasmc.

(** AFASMC does not look at unobserved values (as long as they are finite): changing them changes nothing. *)
Theorem C75_private : forall steps max_in max_out chk X X' mask n f,
  has_shape X n f -> has_shape X' n f -> has_shape mask n f -> zero_one mask -> finite X -> finite X' ->
  (forall a b, cell mask a b = Some 1 -> same_at X X' a b) ->
  afasmc_mask steps max_in max_out chk X mask = afasmc_mask steps max_in max_out chk X' mask.
Proof.
  intros steps max_in max_out chk X X' mask n f SX SX' SM Z F F' H. unfold afasmc_mask.
  assert (MP : mask_passes X mask = mask_passes X' mask).
  { unfold mask_passes, width. assert (LE : length X = length X') by (destruct SX, SX'; congruence). rewrite LE.
    replace (length (hd [] X)) with (length (hd [] X')); [reflexivity|].
    destruct X as [|r X], X' as [|r' X']; try discriminate; auto. cbn. destruct SX as [_ S1], SX' as [_ S2]. rewrite (S1 r), (S2 r'); auto; now left. }
  rewrite MP, (seen_same mask X X' n f); auto.
Qed.
Print Assumptions C75_private.

(** "The unobserved entries can be anything": a NaN there is handed to the search and comes back. *)
Theorem C75_nan_refuted : forall steps max_in max_out chk X mask n f a b R,
  has_shape X n f -> has_shape mask n f -> cell X a b = Some NaN ->
  (forall i k, has_shape (snd (steps (seen mask X) mask i k)) n f) ->
  afasmc_mask steps max_in max_out chk X mask = Ok R ->
  cell (seen mask X) a b = Some NaN /\ cell R a b = Some NaN.
Proof.
  intros steps max_in max_out chk X mask n f a b R SX SM C OK E.
  destruct (cell_inside _ _ _ _ _ _ SX C) as [Ha Hb]. destruct (shape_cell mask n f a b SM Ha Hb) as [m Em].
  unfold afasmc_mask in E. destruct (chk && negb (mask_passes X mask)); [discriminate|].
  destruct (search (steps (seen mask X) mask) max_in max_out) as [Y|e] eqn:ES; [|discriminate]. cbn [bind] in E. injection E as <-.
  apply search_any in ES. destruct ES as (i & k & ES). assert (S : has_shape Y n f) by (rewrite ES; apply OK).
  destruct (shape_cell Y n f a b S Ha Hb) as [y Ey].
  split.
  - unfold seen. rewrite mzip_cell, Em, C. reflexivity.
  - unfold mplus. rewrite mzip_cell. unfold unseen, seen. rewrite !mzip_cell, Em, Ey, C. f_equal.
    change (fmul (Num (inject_Z m)) NaN) with NaN. destruct (fmul (Num (inject_Z (1 - m))) y); reflexivity.
Qed.
Print Assumptions C75_nan_refuted.

(** Iterative SVD: observed values are kept and the others lie within the limits. *)
Theorem C75_impute : forall svd s X mask n f chk,
  has_shape X n f -> has_shape mask n f -> finite X -> zero_one mask -> svd_ok f svd -> (0 < sv_iters s)%nat ->
  (chk = true -> (0 < n)%nat /\ (exists q, inside n f q /\ cell mask (fst q) (snd q) = Some 0) /\ (exists q, inside n f q /\ cell mask (fst q) (snd q) = Some 1)) ->
  exists R, impute svd s X mask chk = Ok R /\ has_shape R n f /\ finite R /\
    (forall a b, cell mask a b = Some 1 -> same_at R X a b) /\
    ((forall lo hi, sv_min s = Some lo -> sv_max s = Some hi -> (lo <= hi)%Q) ->
     forall a b v, cell mask a b = Some 0 -> cell R a b = Some v ->
     exists q, v = Num q /\ (forall lo, sv_min s = Some lo -> (lo <= q)%Q) /\ (forall hi, sv_max s = Some hi -> (q <= hi)%Q)).
Proof.
  intros svd s X mask n f chk SX SM FX Z OK IT C. apply (impute_ok svd s X mask n f); auto.
  intro E. destruct (C E) as (Hn & C0 & C1). apply (mask_passes_iff f X mask n); auto.
Qed.
Print Assumptions C75_impute.

(** Round by round: the start holds the hidden values and zeros at the observed ones; round [j] decomposes with the full
    rank, or rank [2^j] up to the full rank when it grows, limits the reconstruction and keeps the observed values; it
    stops after the first round in which the missing entries moved little, otherwise after the given number. *)
Theorem C75_rounds : forall svd s X mask n f chk,
  has_shape X n f -> has_shape mask n f -> finite X -> zero_one mask -> svd_ok f svd -> (0 < sv_iters s)%nat ->
  (chk = true -> (0 < n)%nat /\ (exists q, inside n f q /\ cell mask (fst q) (snd q) = Some 0) /\ (exists q, inside n f q /\ cell mask (fst q) (snd q) = Some 1)) ->
  exists k (A B : nat -> fmat),
    (1 <= k <= sv_iters s)%nat /\
    has_shape (A 0%nat) n f /\ (forall a b, cell mask a b = Some 0 -> same_at (A 0%nat) X a b) /\
    (forall a b, cell mask a b = Some 1 -> exists q, cell (A 0%nat) a b = Some (Num q) /\ (q == 0)%Q) /\
    (forall j, (j < k)%nat -> round svd s X mask n f (if sv_grow s then Nat.min (2 ^ j) (sv_rank s) else sv_rank s) (A j) (B j) (A (S j))) /\
    (forall j, (S j < k)%nat -> ~ moved_little s mask (A j) (B j)) /\
    (k = sv_iters s \/ moved_little s mask (A (pred k)) (B (pred k))) /\
    impute svd s X mask chk = Ok (A k).
Proof.
  intros svd s X mask n f chk SX SM FX Z OK IT C. apply (impute_rounds svd s X mask n f); auto.
  intro E. destruct (C E) as (Hn & C0 & C1). apply (mask_passes_iff f X mask n); auto.
Qed.
Print Assumptions C75_rounds.

(** But the imputation starts from the hidden values instead of the observed ones. If the first decomposition
    reproduces its argument (as one of rank one does when all hidden entries lie in one row or one column), the
    result is the complete data. *)
Theorem C75_leak_refuted : forall svd s X mask n f chk R a0 b0 q0,
  has_shape X n f -> has_shape mask n f -> finite X -> zero_one mask -> (0 < sv_iters s)%nat ->
  (chk = true -> (0 < n)%nat /\ exists q, inside n f q /\ cell mask (fst q) (snd q) = Some 1) ->
  sv_min s = None -> sv_max s = None -> (0 < sv_thr s)%Q ->
  svd (rank_at s 0) (unseen mask X) = Ok R -> has_shape R n f ->
  (forall a b, (a < n)%nat -> (b < f)%nat -> same_at R (unseen mask X) a b) ->
  cell mask a0 b0 = Some 0 -> cell X a0 b0 = Some (Num q0) -> ~ (q0 == 0)%Q ->
  exists Y, impute svd s X mask chk = Ok Y /\ forall a b, (a < n)%nat -> (b < f)%nat -> same_at Y X a b.
Proof.
  intros svd s X mask n f chk R a0 b0 q0 SX SM FX Z IT C L1 L2 T E SR SA C0 CX NQ.
  destruct (impute_leak svd s X mask n f SX SM FX Z chk R a0 b0 q0) as (Y & EY & _ & A); auto; [|eauto].
  intro EC. destruct (C EC) as (Hn & C1). apply (mask_passes_iff f X mask n); auto. split; auto.
  exists (a0, b0). split; auto. exact (cell_inside _ _ _ _ _ _ SM C0).
Qed.
Print Assumptions C75_leak_refuted.

(** Without iterations the hidden values are returned and the observed ones are zero. *)
Theorem C75_no_iterations_refuted : forall svd s X mask n f,
  has_shape X n f -> has_shape mask n f -> finite X -> zero_one mask -> sv_iters s = 0%nat ->
  exists R, impute svd s X mask false = Ok R /\ forall a b x, cell X a b = Some x ->
    (cell mask a b = Some 0 -> exists y, cell R a b = Some y /\ feq y x) /\
    (cell mask a b = Some 1 -> exists y, cell R a b = Some y /\ feq y (Num 0)).
Proof.
  intros svd s X mask n f SX SM FX Z IT. exists (unseen mask X). unfold impute. rewrite IT. cbn [andb impute_loop]. split; auto.
  intros a b x Cx. destruct (FX _ _ _ Cx) as [q ->]. unfold unseen. rewrite mzip_cell, Cx.
  split; intros ->; (eexists; split; [reflexivity|]); cbn [fmul feq]; rewrite Qred_correct.
  - change (inject_Z (1 - 0)) with 1%Q. ring.
  - change (inject_Z (1 - 1)) with 0%Q. ring.
Qed.
Print Assumptions C75_no_iterations_refuted.

(** Masks that are not of the shape of the data or do not have both a zero and a one are rejected. *)
Theorem C75_rejects : forall steps max_in max_out svd s X mask,
  length mask <> length X \/ (exists r, In r mask /\ length r <> width X) \/ ~ In 0 (concat mask) \/ ~ In 1 (concat mask) \/
  (exists v, In v (concat mask) /\ v <> 0 /\ v <> 1) ->
  afasmc_mask steps max_in max_out true X mask = Err AssertErr /\ impute svd s X mask true = Err AssertErr.
Proof.
  intros steps max_in max_out svd s X mask H.
  assert (MP : mask_passes X mask = false).
  { apply not_true_is_false. intro E. unfold mask_passes in E. repeat (apply andb_true_iff in E; destruct E as [E ?]).
    apply Nat.eqb_eq in E, H2. rewrite forallb_forall in H3. apply zmem_in in H0, H1.
    destruct H as [H|[(r & Hr & Lr)|[H|[H|(v & Iv & V0 & V1)]]]].
    - congruence.
    - specialize (H3 r Hr). apply Nat.eqb_eq in H3. congruence.
    - apply H. now apply zunique_in.
    - apply H. now apply zunique_in.
    - apply zunique_in in Iv. pose proof (zunique_NoDup (concat mask)) as ND. destruct (zunique (concat mask)) as [|x [|y [|]]]; try discriminate.
      cbn in *. inversion ND as [|? ? N1 N2]; subst. cbn in N1. lia. }
  unfold afasmc_mask, impute. rewrite MP. auto.
Qed.
Print Assumptions C75_rejects.

(** *** Concrete cases *)
Definition ex_mask : list (list Z) := [[1; 0]; [1; 1]].
Definition ex_Y : fmat := [[Num 1; Num 2]; [Num 3; Num 4]].
Definition ex_id (r : nat) (M : fmat) : res fmat := Ok M.
(** A decomposition that keeps the rank-th part of everything. *)
Definition ex_part (r : nat) (M : fmat) : res fmat := Ok (map (map (fun x => fmul (Num (Z.of_nat r # 4)) x)) M).
Example C75_rounds_case :
  let s it := {| sv_rank := 3; sv_thr := 1 # 4; sv_iters := it; sv_grow := true; sv_min := None; sv_max := Some (3 # 2) |} in
  impute ex_part (s 1%nat) [[Num 1; Num 8]; [Num 3; Num 4]] ex_mask true = Ok [[Num 1; Num (3 # 2)]; [Num 3; Num 4]] /\
  impute ex_part (s 2%nat) [[Num 1; Num 8]; [Num 3; Num 4]] ex_mask true = Ok [[Num 1; Num (3 # 4)]; [Num 3; Num 4]] /\
  impute ex_part (s 3%nat) [[Num 1; Num 8]; [Num 3; Num 4]] ex_mask true = Ok [[Num 1; Num (9 # 16)]; [Num 3; Num 4]] /\
  impute ex_part (s 50%nat) [[Num 1; Num 8]; [Num 3; Num 4]] ex_mask true = Ok [[Num 1; Num (9 # 16)]; [Num 3; Num 4]].
Proof. repeat split; vm_compute; reflexivity. Qed.
Example C75_case :
  has_shape ex_Y 2 2 /\ has_shape ex_mask 2 2 /\ finite ex_Y /\ zero_one ex_mask /\ svd_ok 2 ex_id /\
  afasmc_mask ex_const 100 10 true ex_Y ex_mask = Ok [[Num 1; Num 7]; [Num 3; Num 4]] /\
  impute ex_id (member 1) ex_Y ex_mask true = Ok ex_Y /\
  afasmc_mask ex_const 100 10 false [[Num 1; NaN]; [Num 3; Num 4]] ex_mask = Ok [[Num 1; NaN]; [Num 3; Num 4]].
Proof.
  split; [split; [reflexivity|]; intros r [<-|[<-|[]]]; reflexivity|].
  split; [split; [reflexivity|]; intros r [<-|[<-|[]]]; reflexivity|].
  split. { intros [|[|a]] [|[|b]] v E; cbn in E; try discriminate; try (injection E as <-; eauto); try (destruct a; discriminate); destruct b; discriminate. }
  split. { intros [|[|a]] [|[|b]] v E; cbn in E; try discriminate; try (injection E as <-; eauto); try (destruct a; discriminate); destruct b; discriminate. }
  split. { intros n r M S F. exists M. auto. }
  repeat split; vm_compute; reflexivity.
Qed.

(** ** C76. The rounds of AFASMC. A round returns a matrix of smallest objective among its steps. *)
Theorem C76_round : forall step i max_in, (0 < max_in)%nat ->
  exists obj M l, inner step i max_in 0 0%Q (0%Q, []) = (obj, M, l) /\ (l < max_in)%nat /\
  exists k, (k <= l)%nat /\ (obj, M) = step i k /\ forall j, (j <= l)%nat -> (obj <= fst (step i j))%Q.
Proof.
  intros step i max_in H. destruct (inner_start step i max_in H) as ([o M] & l & E & L & k & K & Eb & Mi). exists o, M, l. split; auto. split; auto.
  exists k. split; auto.
Qed.
Print Assumptions C76_round.

(** The steps of a round go on until two objectives in a row differ by less than a millionth. *)
Lemma inner_long step i B : forall todo k prev best,
  (forall j, (0 < j < B)%nat -> ((1 # 1000000) * fst (step i (Nat.pred j)) <= Qabs (fst (step i j) - fst (step i (Nat.pred j))))%Q) ->
  ((0 < k)%nat -> prev = fst (step i (Nat.pred k))) -> (B < k + todo)%nat ->
  (B <= snd (inner step i todo k prev best))%nat.
Proof.
  induction todo as [|todo IH]; intros k prev best H HP L; cbn [inner].
  - cbn. lia.
  - destruct (Nat.ltb 0 k) eqn:E0; cbn [andb].
    + apply Nat.ltb_lt in E0. rewrite (HP E0). destruct (le_lt_dec B k) as [G|G].
      * match goal with |- context [if ?c then _ else _] => destruct c end; cbn [snd]; auto.
        match goal with |- context [if ?c then _ else _] => destruct c end; cbn [snd]; auto.
        all: try (apply IH; [auto|reflexivity|lia]).
        all: try (match goal with |- context [if ?c then _ else _] => destruct c end; cbn [snd]; auto; apply IH; [auto|reflexivity|lia]).
      * assert (Q : Qle_bool ((1 # 1000000) * fst (step i (Nat.pred k))) (Qabs (fst (step i k) - fst (step i (Nat.pred k)))) = true).
        { apply Qle_bool_iff. apply H. lia. }
        rewrite Q. cbn [negb]. apply IH; [auto|reflexivity|lia].
    + apply IH; [auto|reflexivity|lia].
Qed.

(** If no round stops before its step [max_out_iter], the completion comes from the first round, however good the
    results of the others. *)
Theorem C76_first_round_refuted : forall steps max_in max_out X mask,
  let step := steps (seen mask X) mask in
  (1 <= max_out < max_in)%nat -> (forall i k, (0 <= fst (step i k))%Q) ->
  (forall i k, (i < max_out)%nat -> (0 < k < max_out)%nat ->
     ((1 # 1000000) * fst (step i (Nat.pred k)) <= Qabs (fst (step i k) - fst (step i (Nat.pred k))))%Q) ->
  exists k, (k < max_in)%nat /\
    afasmc_mask steps max_in max_out false X mask = Ok (mplus (unseen mask (snd (step 0%nat k))) (seen mask X)).
Proof.
  intros steps max_in max_out X mask step HI HP HL. unfold afasmc_mask. cbn [andb]. fold step.
  rewrite (search_first step max_in max_out); auto; [|lia|].
  - cbn [bind]. destruct (found_step step max_in 0 ltac:(lia)) as (k & K & E). exists k. split; auto. now rewrite E.
  - intros j Hj. unfold last_step. apply inner_long; [|lia|lia]. intros k Hk. apply HL; auto.
Qed.
Print Assumptions C76_first_round_refuted.

(** Fewer inner steps than rounds: with one inner step every search of two or more rounds fails; and without any round
    or step nothing is found. *)
Theorem C76_overrun_refuted : forall steps max_in max_out X mask,
  ((2 <= max_out)%nat -> afasmc_mask steps 1 max_out false X mask = Err IndexErr) /\
  (max_in = 0%nat \/ max_out = 0%nat -> afasmc_mask steps max_in max_out false X mask = Err NameErr).
Proof.
  intros steps max_in max_out X mask. unfold afasmc_mask. cbn [andb]. split.
  - intro H. now rewrite search_overrun.
  - intros [-> | ->]; unfold search; [destruct max_out; reflexivity|destruct max_in; reflexivity].
Qed.
Print Assumptions C76_overrun_refuted.

(** Two rounds of three steps: the objective of the second round (1) is smaller than that of the first (4), whose matrix is
    returned. *)
Definition ex_rounds (S : fmat) (mask : list (list Z)) (i k : nat) : Q * fmat :=
  if Nat.eqb i 0 then ((6 - inject_Z (Z.of_nat k))%Q, map (map (fun _ => Num 10)) S)
  else ((3 - inject_Z (Z.of_nat k))%Q, map (map (fun _ => Num 20)) S).
Example C76_case :
  afasmc_mask ex_rounds 3 2 false ex_Y ex_mask = Ok [[Num 1; Num 10]; [Num 3; Num 4]] /\
  (forall i k, (i < 2)%nat -> (0 < k < 2)%nat ->
     ((1 # 1000000) * fst (ex_rounds ex_Y ex_mask i (Nat.pred k)) <= Qabs (fst (ex_rounds ex_Y ex_mask i k) - fst (ex_rounds ex_Y ex_mask i (Nat.pred k))))%Q) /\
  afasmc_mask ex_rounds 1 2 false ex_Y ex_mask = Err IndexErr.
Proof.
  split; [vm_compute; reflexivity|]. split; [|vm_compute; reflexivity].
  intros [|[|i]] k Hi Hk; try lia; replace k with 1%nat by lia; vm_compute; discriminate.
Qed.
