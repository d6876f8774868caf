(** Proofs about the selection of features. *)
From Verif Require Import Base BaseFacts IndexModel MLModel MLSpec MLProofs MLProofs2 MLProofs3 MiscModel MiscSpec QueryModel QuerySpec
  QueryProofs QueryProofs2 MLQuerySpec FeatureModel FeatureSpec FeatureProofs FeatureProofs2.
From Verif Require SplitProofs.
From Coq Require Import QArith Qabs Qreduction Lqa.
Local Open Scope Z_scope.

(** ** Observed entries as a mask of the training set *)
Lemma map_entries_train m trs native o : ml_reachable m o -> (forall p, In p (pairs o) -> In (fst p) trs) ->
  map_entries (NdArray trs) native o = (cw <- map_to_train_ml (NdArray trs) native o ;; Ok (fst cw)).
Proof.
  intros R H. pose proof (reachable_good m o R) as (_ & _ & _ & F & _). unfold map_entries, map_to_train_ml.
  rewrite (pairs_map m o F).
  assert (E : forall l, (forall p, In p l -> In p (pairs o)) ->
    mapM (fun x => p <- argwhere0 (NdArray trs) native (ins_of x) ;;
                   match x with
                   | IPair _ j | ILong _ j => Ok (IPair p j)
                   | IManyT _ js => Ok (IManyT p js)
                   | IManyL _ js => Ok (IManyL p js)
                   | IOne _ => Err IndexErr
                   end) (map pair_idx l) =
    mapM (fun x => if zmem (ins_of x) (train_vals (NdArray trs))
                   then p <- argwhere0 (NdArray trs) native (ins_of x) ;;
                        Ok (match x with IPair _ j => IPair p j | IManyT _ js => IManyT p js | other => other end)
                   else Err AssertErr) (map pair_idx l)).
  { induction l as [|[i j] l IH]; intro I; [reflexivity|]. cbn [map mapM]. rewrite IH by (intros; apply I; now right).
    cbn [pair_idx fst snd ins_of train_vals]. replace (zmem i trs) with true; [reflexivity|].
    symmetry. apply zmem_in. apply (H (i, j)). apply I. now left. }
  rewrite E by auto. destruct (mapM _ (map pair_idx (pairs o))) as [xs|e]; reflexivity.
Qed.

Lemma entries_mask f trs native o : ml_reachable (Z.of_nat f) o -> NoDup trs ->
  (forall p, In p (pairs o) -> In (fst p) trs) ->
  exists c mask, map_entries (NdArray trs) native o = Ok c /\ ml_mask c (length trs) f 1 false = Ok mask /\
  has_shape mask (length trs) f /\ zero_one mask /\
  forall q, inside (length trs) f q -> (cell mask (fst q) (snd q) = Some 1 <-> observed trs o q).
Proof.
  intros R ND H. rewrite (map_entries_train (Z.of_nat f)) by auto. pose proof (reachable_good _ _ R) as G. pose proof G as (_ & _ & _ & F & _).
  assert (Z1 : forall mask, has_shape mask (length trs) f -> (forall a b, (a < length trs)%nat -> (b < f)%nat -> exists v, cell mask a b = Some v /\ (v = 0 \/ v = 1)) -> zero_one mask).
  { intros mask S K a b v E. destruct (cell_inside _ _ _ _ _ _ S E) as [Ha Hb]. destruct (K a b Ha Hb) as (w & E' & D). congruence. }
  destruct (mcont o) as [|x0 xs0] eqn:EM.
  - assert (PE : pairs o = []) by (unfold pairs; now rewrite EM).
    unfold map_to_train_ml. rewrite EM. cbn [mapM bind ml_init]. cbn [fst]. eexists _, _. split; [reflexivity|]. split; [reflexivity|].
    split; [apply zeros_shape|]. split.
    + apply Z1; [apply zeros_shape|]. intros a b Ha Hb. exists 0. split; auto. now apply zeros_cell.
    + intros q [Ha Hb]. rewrite zeros_cell by auto. split; [discriminate|]. intros (i & _ & I). rewrite PE in I. destruct I.
  - destruct (map_ml_lemma (Z.of_nat f) trs native o R) as (c & w & m' & E & R' & P & _ & _); auto; [congruence|].
    rewrite E. cbn [bind fst].
    destruct (dense_mask_lemma m' c (length trs) f 1 R') as (mask & EK & S & C).
    { intros [a b] I. apply P in I. cbn [fst snd] in *. destruct I as (i & Hi & Ha & Hn).
      pose proof (good_range _ _ _ G Hi) as Gr. cbn [snd] in Gr. split; [|lia].
      assert (Z.to_nat a < length trs)%nat by (apply nth_error_Some; congruence). lia. }
    exists c, mask. split; auto. split; auto. split; auto.
    assert (OB : forall q, In (Z.of_nat (fst q), Z.of_nat (snd q)) (pairs c) <-> observed trs o q).
    { intro q. rewrite P. cbn [fst snd]. rewrite Nat2Z.id. unfold observed. split.
      - intros (i & Hi & _ & Hn). eauto.
      - intros (i & Hn & Hi). exists i. repeat split; auto. lia. }
    assert (DEC : forall a b, In (Z.of_nat a, Z.of_nat b) (pairs c) \/ ~ In (Z.of_nat a, Z.of_nat b) (pairs c)).
    { intros a b. destruct (zz_mem (Z.of_nat a, Z.of_nat b) (pairs c)) eqn:Ez; [left; now apply zz_mem_in|right; intro X; apply zz_mem_in in X; congruence]. }
    split.
    + apply Z1; auto. intros a b Ha Hb. destruct (C a b Ha Hb) as [C1 C2]. destruct (DEC a b) as [D|D]; [exists 1|exists 0]; auto.
    + intros q [Ha Hb]. destruct (C _ _ Ha Hb) as [C1 C2]. rewrite <- OB. split; [|auto].
      intro X. destruct (DEC (fst q) (snd q)) as [D|D]; auto. rewrite (C2 D) in X. discriminate.
Qed.

(** ** Rows of the training set *)
Lemma rows_at_ok X n f trs : has_shape X n f -> (forall i, In i trs -> 0 <= i < Z.of_nat n) ->
  exists rows, rows_at X trs = Ok rows /\ rows_of X trs rows /\ has_shape rows (length trs) f /\ (finite X -> finite rows).
Proof.
  intros [L S] H. unfold rows_at. exists (map (fun i => nth (Z.to_nat i) X []) trs). split; [|split; [|split]].
  - rewrite <- (map_id trs) at 1. apply mapM_map_ok. intros i Hi. rewrite py_index_in; [reflexivity|]. rewrite L. auto.
  - split; [apply map_length|]. intros r i E. rewrite nth_error_map, E. cbn [option_map]. symmetry. apply nth_error_nth'.
    apply nth_error_In in E. specialize (H i E). rewrite L. lia.
  - split; [apply map_length|]. intros r Hr. apply in_map_iff in Hr. destruct Hr as (i & <- & Hi). apply S. apply nth_In. rewrite L. specialize (H i Hi). lia.
  - intros F a b v E. unfold cell in E. rewrite nth_error_map in E. destruct (nth_error trs a) as [i|] eqn:Ei; [|discriminate]. cbn in E.
    apply nth_error_In in Ei. specialize (H i Ei).
    apply (F (Z.to_nat i) b). unfold cell. rewrite (nth_error_nth' X []) by lia. auto.
Qed.
Lemma rows_at_any X n f trs rows : has_shape X n f -> rows_at X trs = Ok rows -> has_shape rows (length trs) f /\ (finite X -> finite rows).
Proof.
  intros [L S] E. pose proof (SplitProofs.mapM_Forall2 _ _ _ E) as H. clear E.
  assert (K : Forall (fun r => exists p, nth_error X p = Some r) rows).
  { induction H as [|i r trs rows Hi _ IH]; constructor; auto. destruct (py_index (length X) i) as [p|] eqn:Ep; [|discriminate].
    injection Hi as <-. exists p. apply nth_error_nth'. unfold py_index in Ep.
    destruct ((0 <=? i) && (i <? Z.of_nat (length X))) eqn:C1; [injection Ep as <-; lia|].
    destruct ((- Z.of_nat (length X) <=? i) && (i <? 0)) eqn:C2; [injection Ep as <-; lia|discriminate]. }
  split; [split|].
  - clear K. induction H; cbn; auto.
  - intros r Hr. rewrite Forall_forall in K. destruct (K r Hr) as [p Ep]. apply S. eapply nth_error_In; eauto.
  - intros F a b v C. unfold cell in C. destruct (nth_error rows a) as [r|] eqn:Er; [|discriminate].
    rewrite Forall_forall in K. destruct (K r (nth_error_In _ _ Er)) as [p Ep]. apply (F p b). unfold cell. now rewrite Ep.
Qed.

(** ** Histories *)
Lemma outer_any step max_in : (0 < max_in)%nat -> forall todo i conv best R, length conv = max_in ->
  (i = 0%nat /\ (0 < todo)%nat \/ exists i', snd best = found_by step max_in i') -> outer step todo i conv best = Ok R ->
  exists i', R = found_by step max_in i'.
Proof.
  intro Hm. induction todo as [|todo IH]; intros i conv best R L H E; cbn [outer] in E.
  - injection E as <-. destruct H as [[_ H]|H]; [lia|auto].
  - rewrite L in E. assert (Ef : exists o k, inner step i max_in 0 0%Q (0%Q, []) = (o, found_by step max_in i, k)).
    { unfold found_by. destruct (inner step i max_in 0 0%Q (0%Q, [])) as [[o x] k]. cbn. eauto. }
    destruct Ef as (o & k & Ef). rewrite Ef in E. destruct (Nat.ltb i max_in); [|discriminate]. cbv zeta in E.
    match type of E with (if Nat.ltb 0 i && ?c then Ok (snd ?b) else outer step todo (S i) ?cv ?b) = _ => set (cond := c) in E; set (b' := b) in E; set (cv' := cv) in E end.
    assert (Sb : exists i', snd b' = found_by step max_in i').
    { subst b'. destruct (Nat.eqb i 0) eqn:E0; [exists i; reflexivity|]. apply Nat.eqb_neq in E0. destruct H as [[-> _]|H]; [lia|].
      match goal with |- context [if ?c then _ else best] => destruct c end; [exists i; reflexivity|auto]. }
    destruct (Nat.ltb 0 i && cond); [injection E as <-; auto|].
    apply (IH (S i) cv' b' R); auto. subst cv'. now rewrite set_nth_length.
Qed.
Lemma search_any step max_in max_out R : search step max_in max_out = Ok R -> exists i k, R = snd (step i k).
Proof.
  unfold search. destruct max_in as [|mi]; [destruct max_out; discriminate|]. destruct max_out as [|mo]; [discriminate|]. intro E.
  destruct (outer_any step (S mi) ltac:(lia) (S mo) 0 (repeat 0%Q (S mi)) (0%Q, []) R) as [i Ei]; auto.
  - apply repeat_length.
  - left. split; [reflexivity|lia].
  - destruct (found_step step (S mi) i ltac:(lia)) as (k & _ & Ek). exists i, k. congruence.
Qed.
Lemma afasmc_mask_any steps max_in max_out chk X mask n f M : has_shape X n f -> finite X -> has_shape mask n f -> steps_ok f steps ->
  afasmc_mask steps max_in max_out chk X mask = Ok M -> has_shape M n f /\ finite M.
Proof.
  intros SX FX SM OK E. unfold afasmc_mask in E. destruct (chk && negb (mask_passes X mask)); [discriminate|].
  destruct (search (steps (seen mask X) mask) max_in max_out) as [R|e] eqn:ES; [|discriminate]. cbn [bind] in E. injection E as <-.
  apply search_any in ES. destruct ES as (i & k & ->). destruct (OK n (seen mask X) mask i k) as [S1 F1]; auto.
  { apply mzip_shape; auto. } { now apply seen_finite. }
  split; [apply mixture_shape; auto|apply mixture_finite; auto].
Qed.
Lemma mask_set_shape n m v i mat j mat' : has_shape mat n m -> mask_set n m v i mat j = Ok mat' -> has_shape mat' n m.
Proof.
  intros [L S] E. unfold mask_set in E. destruct (py_index n i) as [p|] eqn:Ep; [|discriminate]. destruct (py_index m j) as [q|]; [|discriminate].
  injection E as <-. split; [now rewrite set_nth_length|]. intros r H. apply In_nth_error in H. destruct H as [k Hk].
  rewrite nth_error_set_nth in Hk. destruct (Nat.eqb k p); [|apply S; eapply nth_error_In; eauto].
  destruct (Nat.ltb_spec p (length mat)); [|discriminate]. injection Hk as <-. rewrite set_nth_length. apply S, nth_In. auto.
Qed.
Lemma foldM_shape {B} n m (g : list (list Z) -> B -> res (list (list Z))) :
  (forall mat x mat', has_shape mat n m -> g mat x = Ok mat' -> has_shape mat' n m) ->
  forall l mat mat', has_shape mat n m -> foldM g mat l = Ok mat' -> has_shape mat' n m.
Proof.
  intro H. induction l as [|x l IH]; intros mat mat' S E; cbn [foldM] in E; [injection E as <-; auto|].
  destruct (g mat x) as [m1|e] eqn:E1; [|discriminate]. cbn [bind] in E. eauto.
Qed.
Lemma ml_mask_shape c n m fill mat : ml_mask c n m fill false = Ok mat -> has_shape mat n m.
Proof.
  unfold ml_mask. apply foldM_shape; [|apply zeros_shape]. intros mt x mt' S E. destruct x; cbn [mask_item] in E; try discriminate.
  - eapply mask_set_shape; eauto.
  - revert E. apply foldM_shape; auto. intros. eapply mask_set_shape; eauto.
  - revert E. apply foldM_shape; auto. intros. eapply mask_set_shape; eauto.
Qed.

Section History.
  Variables (steps : fmat -> list (list Z) -> nat -> nat -> Q * fmat) (max_in max_out : nat) (X : fmat) (n f : nat).
  Hypothesis SX : has_shape X n f.
  Hypothesis FX : finite X.
  Hypothesis OK : steps_ok f steps.

  Definition history_ok (st : afasmc) : Prop :=
    match af_train st with
    | None => af_mats st = []
    | Some t => Forall (fun M => has_shape M (length (train_vals t)) f /\ finite M) (af_mats st)
    end.

  Lemma settle_kept t o u : settle (Some t) o u = t. Proof. reflexivity. Qed.

  Lemma step_ok st c : history_ok st -> history_ok (af_step steps max_in max_out X f st c).
  Proof.
    intro J. destruct c as [native obs unk|mask]; cbn [af_step].
    - unfold afasmc_select. destruct (Nat.leb (ml_pool_len unk) 1); [exact J|].
      destruct (check_ml_ind (Z.of_nat (length X)) (Z.of_nat f) unk) as [u|e]; [|exact J]. cbn [bind].
      destruct (check_ml_ind (Z.of_nat (length X)) (Z.of_nat f) obs) as [o|e]; [|exact J]. cbn [bind].
      set (t := settle (af_train st) o u).
      assert (J' : Forall (fun M => has_shape M (length (train_vals t)) f /\ finite M) (af_mats st)).
      { unfold history_ok in J. subst t. unfold settle. destruct (af_train st); [auto|]. rewrite J. constructor. }
      match goal with |- history_ok (fst (match ?ee with Ok _ => _ | Err _ => _ end)) => destruct ee as [[M mask]|e] eqn:E end; [|exact J'].
      cbn [fst]. unfold history_ok. cbn [af_train af_mats]. apply Forall_app. split; auto. constructor; [|constructor].
      destruct (map_entries t native o) as [c|] ; [|discriminate]. cbn [bind] in E.
      destruct (rows_at X (train_vals t)) as [rows|] eqn:ER; [|discriminate]. cbn [bind] in E.
      destruct (rows_at_any X n f _ _ SX ER) as [Sr Fr].
      unfold afasmc_mc in E. assert (LR : length rows = length (train_vals t)) by apply Sr. rewrite LR in E.
      destruct (ml_mask c (length (train_vals t)) f 1 false) as [mk|] eqn:EM; [|discriminate]. cbn [bind] in E.
      destruct (afasmc_mask steps max_in max_out false rows mk) as [M'|] eqn:EA; [|discriminate]. cbn [bind] in E. injection E as <- <-.
      eapply afasmc_mask_any; eauto. eapply ml_mask_shape; eauto.
    - unfold afasmc_by_mask. destruct (af_train st) as [t|] eqn:ET; [|exact J].
      destruct (rectangular mask && Nat.eqb (length mask) (length (train_vals t)) && Nat.eqb (width mask) f) eqn:EC; [|exact J].
      destruct (rows_at X (train_vals t)) as [rows|] eqn:ER; [|exact J]. cbn [bind].
      destruct (afasmc_mask steps max_in max_out false rows mask) as [M|] eqn:EA; [|exact J].
      cbn [fst]. unfold history_ok in *. rewrite ET in J. cbn [af_train af_mats]. apply Forall_app. split; auto. constructor; [|constructor].
      destruct (rows_at_any X n f _ _ SX ER) as [Sr Fr]. apply andb_true_iff in EC. destruct EC as [EC E3]. apply andb_true_iff in EC. destruct EC as [E1 E2].
      apply Nat.eqb_eq in E2, E3. apply rectangular_spec in E1. destruct E1 as [_ Sm].
      eapply afasmc_mask_any; eauto. split; [auto|]. destruct Sm as [_ Sm]. intros r Hr. rewrite (Sm r Hr). exact E3.
  Qed.
  Lemma run_ok train calls : history_ok (af_run steps max_in max_out X f train calls).
  Proof.
    unfold af_run. assert (J : history_ok {| af_train := train; af_mats := [] |}) by (unfold history_ok; cbn; destruct train; [constructor|reflexivity]).
    revert J. generalize {| af_train := train; af_mats := [] |}. induction calls as [|c calls IH]; intros st J; [exact J|]. cbn [fold_left].
    apply IH. now apply step_ok.
  Qed.

  Lemma in_effect train o u trs : ml_reachable (Z.of_nat f) o -> ml_reachable (Z.of_nat f) u ->
    training train o u trs -> settle train o u = NdArray trs.
  Proof.
    intros Ro Ru T. destruct train as [t|]; cbn in *; [auto|]. f_equal. destruct T as [S I].
    destruct (instances_lemma (Z.of_nat f) o Ro) as (_ & _ & _ & _ & _ & _ & _ & _ & _ & Io & _).
    destruct (instances_lemma (Z.of_nat f) u Ru) as (_ & _ & _ & _ & _ & _ & _ & _ & _ & Iu & _).
    assert (EX : forall l l' : list Z, StronglySorted Z.lt l -> StronglySorted Z.lt l' -> (forall x, In x l <-> In x l') -> l = l').
    { clear. induction l as [|a l IH]; intros [|b l'] S1 S2 H; auto.
      - exfalso. apply (H b). now left.
      - exfalso. apply (H a). now left.
      - inversion S1 as [|? ? S1' F1]; subst. inversion S2 as [|? ? S2' F2]; subst. rewrite Forall_forall in F1, F2.
        assert (a = b).
        { destruct (proj1 (H a) (or_introl eq_refl)) as [->|Ha]; auto. destruct (proj2 (H b) (or_introl eq_refl)) as [->|Hb]; auto.
          specialize (F1 b Hb). specialize (F2 a Ha). lia. }
        subst b. f_equal. apply IH; auto. intro x. split; intro Hx.
        + destruct (proj1 (H x) (or_intror Hx)) as [<-|]; auto. specialize (F1 a Hx). lia.
        + destruct (proj2 (H x) (or_intror Hx)) as [<-|]; auto. specialize (F2 a Hx). lia. }
    apply EX; auto; [apply zunique_sorted|]. intro x. rewrite zunique_in, in_app_iff, I, Io, Iu. split.
    - intros [[j H]|[j H]]; eauto.
    - intros (j & [H|H]); eauto.
  Qed.

  Lemma chosen_iff m (k k' : nat * nat -> Prop) mats p : (forall q, inside m f q -> (k q <-> k' q)) -> inside m f p ->
    chosen_entry m f k mats p -> chosen_entry m f k' mats p.
  Proof.
    intros K Ip [H1 H2]. split; intro L.
    - destruct (H1 L) as (A & B & C). split; auto. split.
      + intros (q & v & Iq & Nq & Sq & Pv). destruct B as (B1 & (B2 & v0 & B3 & B4) & B5).
        { exists q, v. rewrite K by auto. auto. }
        split; auto. split.
        * split; [rewrite <- K; auto|]. exists v0. split; auto. intros q' w Iq' Nq'. apply B4; auto. rewrite K; auto.
        * intros q' Iq' (N' & w & S' & M'). apply B5; auto. split; [rewrite K; auto|]. exists w. split; auto.
          intros q2 w2 I2 N2. apply M'; auto. rewrite <- K; auto.
      + intros Z. apply C. intros q v Iq Nq Sq. apply (Z q); auto. rewrite <- K; auto.
    - destruct (H2 L) as (A & B & C). split; auto. split.
      + intros (q & Iq & Nq). destruct B as (B1 & B2 & B3).
        { exists q. rewrite K; auto. }
        split; auto. split; [rewrite <- K; auto|]. intros q' I' N'. apply B3; auto. rewrite K; auto.
      + intros Z. apply C. intros q Iq. rewrite K; auto.
  Qed.

  Lemma afasmc_lemma train calls native obs unk o u trs : (1 <= max_out <= max_in)%nat -> (0 < f)%nat ->
    let st := af_run steps max_in max_out X f train calls in
    pool_of n f obs o -> pool_of n f unk u -> (2 <= ml_pool_len unk)%nat ->
    training (af_train st) o u trs -> NoDup trs -> trs <> [] -> (forall i, In i trs -> 0 <= i < Z.of_nat n) ->
    (forall p, In p (pairs o) -> In (fst p) trs) ->
    exists M r i j,
      afasmc_select steps max_in max_out X f st native obs unk =
      ({| af_train := Some (NdArray trs); af_mats := af_mats st ++ [M] |}, Ok (Chosen [IPair i (Z.of_nat j)])) /\
      nth_error trs r = Some i /\
      (forall q, observed trs o q -> exists i', nth_error trs (fst q) = Some i' /\
         exists x y, cell M (fst q) (snd q) = Some x /\ cell X (Z.to_nat i') (snd q) = Some y /\ feq x y) /\
      chosen_entry (length trs) f (observed trs o) (af_mats st ++ [M]) (r, j).
  Proof.
    intros HI Hf st (Co & Ro & Wo) (Cu & Ru & Wu) Nu T ND NE IN OB.
    pose proof (run_ok train calls) as J. fold st in J. assert (LX : length X = n) by apply SX.
    pose proof (in_effect _ _ _ _ Ro Ru T) as ES.
    destruct (entries_mask f trs native o Ro ND OB) as (c & mask & E1 & E2 & S2 & Z2 & K2).
    destruct (rows_at_ok X n f trs SX IN) as (rows & E3 & R3 & S3 & F3). specialize (F3 FX).
    destruct (afasmc_ok steps max_in max_out false rows mask (length trs) f HI S3 S2 F3 Z2 OK) as (M & i0 & k0 & E4 & _ & _ & S4 & F4 & A4 & _); [discriminate|].
    assert (FM : Forall (fun M => has_shape M (length trs) f /\ finite M) (af_mats st ++ [M])).
    { apply Forall_app. split; [|constructor; auto]. unfold history_ok in J. unfold training in T. destruct (af_train st) as [t|]; [subst t; exact J|]. rewrite J. constructor. }
    assert (LT : (0 < length trs)%nat) by (destruct trs; [congruence|cbn; lia]).
    destruct (choose_spec (length trs) f (af_mats st ++ [M]) mask LT Hf S2 Z2 FM) as ([r j] & E5 & I5 & C5).
    destruct (nth_error trs r) as [i|] eqn:Er.
    2:{ exfalso. apply nth_error_None in Er. destruct I5 as [I5 _]. cbn in I5. lia. }
    exists M, r, i, j. split; [|split; [auto|split]].
    - unfold afasmc_select. replace (Nat.leb (ml_pool_len unk) 1) with false by (symmetry; apply Nat.leb_gt; lia).
      rewrite LX, Cu, Co. cbn [bind]. rewrite ES. cbn [train_vals]. rewrite E1. cbn [bind]. rewrite E3. cbn [bind].
      unfold afasmc_mc. assert (LR : length rows = length trs) by apply S3. rewrite LR, E2. cbn [bind]. rewrite E4. cbn [bind].
      rewrite E5. cbn [bind fst snd]. unfold py_nth. rewrite Er. reflexivity.
    - intros q Oq. pose proof Oq as (i' & Ei & Iq). exists i'. split; auto.
      assert (Inq : inside (length trs) f q).
      { split; [apply nth_error_Some; congruence|]. pose proof (good_range _ _ _ (reachable_good _ _ Ro) Iq) as G. cbn in G. lia. }
      destruct (A4 (fst q) (snd q)) as (x & y & Ex & Ey & Q); [now apply K2|]. exists x, y. split; auto. split; auto.
      destruct R3 as [_ R3]. unfold cell in *. rewrite (R3 _ _ Ei) in Ey. exact Ey.
    - eapply chosen_iff; [|exact I5|exact C5]. intros q Iq. apply K2. auto.
  Qed.
End History.

(** ** Committee *)
Section Committee.
  Variables (svd : nat -> fmat -> res fmat) (ranks : list nat) (X : fmat) (n f : nat).
  Hypothesis SX : has_shape X n f.
  Hypothesis FX : finite X.
  Hypothesis OK : svd_ok f svd.

  Lemma mask_passes_iff rows mask m : has_shape rows m f -> has_shape mask m f -> (0 < m)%nat -> zero_one mask ->
    (mask_passes rows mask = true <->
     (exists q, inside m f q /\ cell mask (fst q) (snd q) = Some 0) /\ (exists q, inside m f q /\ cell mask (fst q) (snd q) = Some 1)).
  Proof.
    intros SR SM Hm Z. assert (W : width rows = f).
    { unfold width. destruct rows as [|r rows]; [destruct SR as [L _]; cbn in L; lia|]. cbn. apply SR. now left. }
    unfold mask_passes. rewrite W.
    replace (Nat.eqb (length mask) (length rows)) with true by (symmetry; apply Nat.eqb_eq; destruct SM, SR; congruence).
    replace (forallb (fun r => Nat.eqb (length r) f) mask) with true.
    2:{ symmetry. apply forallb_forall. intros r Hr. apply Nat.eqb_eq. apply SM. auto. }
    cbn [andb]. pose proof (mask_check mask) as MC.
    assert (RE : rectangular mask = true).
    { apply rectangular_spec. destruct mask as [|r mask]; [destruct SM as [L _]; cbn in L; lia|]. split; [discriminate|].
      destruct SM as [L S]. split; [auto|]. intros x Hx. cbn [hd]. rewrite (S x Hx), (S r); auto. now left. }
    rewrite RE in MC. cbn [andb] in MC. rewrite MC. unfold mask_ok.
    assert (CI : forall v, In v (concat mask) <-> exists q, inside m f q /\ cell mask (fst q) (snd q) = Some v).
    { intro v. split.
      - intro H. apply in_concat in H. destruct H as (r & Hr & Hv). apply In_nth_error in Hr. apply In_nth_error in Hv.
        destruct Hr as [a Ea]. destruct Hv as [b Eb]. exists (a, b). assert (C : cell mask a b = Some v) by (unfold cell; now rewrite Ea).
        split; auto. exact (cell_inside _ _ _ _ _ _ SM C).
      - intros (q & _ & C). eapply cell_in_concat; eauto. }
    rewrite <- !CI. apply rectangular_spec in RE. split; [tauto|]. intros [H0 H1]. repeat split; try tauto; try apply RE.
    intros x Hx. apply CI in Hx. destruct Hx as (q & _ & C). eapply Z; eauto.
  Qed.

  Lemma members_ok rows mask m : has_shape rows m f -> finite rows -> has_shape mask m f -> zero_one mask -> mask_passes rows mask = true ->
    exists mats, mapM (fun r => impute svd (member r) rows mask true) ranks = Ok mats /\ length mats = length ranks /\
    Forall (fun M => has_shape M m f /\ finite M) mats /\
    Forall (fun M => forall a b, cell mask a b = Some 1 -> same_at M rows a b) mats /\
    Forall2 (fun r M => impute svd (member r) rows mask true = Ok M) ranks mats.
  Proof.
    intros SR FR SM Z MP. induction ranks as [|r rs IH]; [exists []; repeat split; constructor|].
    destruct IH as (mats & E & L & F1 & F2 & F3).
    destruct (impute_ok svd (member r) rows mask m f SR SM FR OK true) as (M & EM & SMM & FM & AM & _); auto.
    { cbn. lia. }
    exists (M :: mats). cbn [mapM]. rewrite EM. cbn [bind]. rewrite E. split; [reflexivity|]. cbn. repeat split; try constructor; auto.
  Qed.

  Lemma stability_mask_lemma trs mask : NoDup trs -> trs <> [] -> (forall i, In i trs -> 0 <= i < Z.of_nat n) -> (0 < f)%nat ->
    has_shape mask (length trs) f -> zero_one mask ->
    (exists q, inside (length trs) f q /\ cell mask (fst q) (snd q) = Some 0) ->
    (exists q, inside (length trs) f q /\ cell mask (fst q) (snd q) = Some 1) ->
    exists rows mats p, rows_of X trs rows /\
      Forall2 (fun r M => impute svd (member r) rows mask true = Ok M) ranks mats /\
      stability_by_mask svd ranks X f (Some (NdArray trs)) mask = Ok p /\ inside (length trs) f p /\
      Forall (fun M => forall a b, cell mask a b = Some 1 -> same_at M rows a b) mats /\
      chosen_entry (length trs) f (fun q => cell mask (fst q) (snd q) = Some 1) mats p.
  Proof.
    intros ND NE IN Hf SM Z Q0 Q1. assert (LT : (0 < length trs)%nat) by (destruct trs; [congruence|cbn; lia]).
    destruct (rows_at_ok X n f trs SX IN) as (rows & E3 & R3 & S3 & F3). specialize (F3 FX).
    assert (MP : mask_passes rows mask = true) by (apply (mask_passes_iff rows mask (length trs)); auto).
    destruct (members_ok rows mask (length trs) S3 F3 SM Z MP) as (mats & E4 & L4 & F4 & A4 & I4).
    destruct (choose_spec (length trs) f mats mask LT Hf SM Z F4) as (p & E5 & I5 & C5).
    exists rows, mats, p. split; auto. split; auto. split; [|auto].
    unfold stability_by_mask. cbn [train_vals].
    assert (RE : rectangular mask = true).
    { apply rectangular_spec. destruct mask as [|r mask']; [destruct SM as [L _]; cbn in L; lia|]. split; [discriminate|].
      destruct SM as [L S]. split; [auto|]. intros x Hx. cbn [hd]. rewrite (S x Hx), (S r); auto. now left. }
    assert (W : width mask = f).
    { unfold width. destruct mask as [|r mask']; [destruct SM as [L _]; cbn in L; lia|]. cbn. apply SM. now left. }
    rewrite RE, W, Nat.eqb_refl. replace (Nat.eqb (length mask) (length trs)) with true by (symmetry; apply Nat.eqb_eq; apply SM).
    cbn [andb]. replace (mapM _ ranks) with (Ok mats); [exact E5|]. rewrite <- E4. rewrite E3. reflexivity.
  Qed.

  Lemma stability_lemma train native obs unk o u trs : (0 < f)%nat ->
    pool_of n f obs o -> pool_of n f unk u -> (2 <= ml_pool_len unk)%nat ->
    training train o u trs -> NoDup trs -> trs <> [] -> (forall i, In i trs -> 0 <= i < Z.of_nat n) ->
    (forall p, In p (pairs o) -> In (fst p) trs) ->
    (exists q, inside (length trs) f q /\ ~ observed trs o q) -> (exists q, inside (length trs) f q /\ observed trs o q) ->
    exists rows mask mats r i j,
      rows_of X trs rows /\ has_shape mask (length trs) f /\
      (forall q, inside (length trs) f q -> cell mask (fst q) (snd q) = Some (if zz_mem (nth (fst q) trs 0, Z.of_nat (snd q)) (pairs o) then 1 else 0)) /\
      Forall2 (fun r M => impute svd (member r) rows mask true = Ok M) ranks mats /\
      stability_select svd ranks X f train native obs unk = (Some (NdArray trs), Ok (Chosen [IPair i (Z.of_nat j)])) /\
      nth_error trs r = Some i /\
      Forall (fun M => forall q, observed trs o q -> same_at M rows (fst q) (snd q)) mats /\
      chosen_entry (length trs) f (observed trs o) mats (r, j).
  Proof.
    intros Hf (Co & Ro & Wo) (Cu & Ru & Wu) Nu T ND NE IN OB Q0 Q1.
    assert (LX : length X = n) by apply SX.
    pose proof (in_effect f _ _ _ _ Ro Ru T) as ES.
    destruct (entries_mask f trs native o Ro ND OB) as (c & mask & E1 & E2 & S2 & Z2 & K2).
    assert (K0 : forall q, inside (length trs) f q -> cell mask (fst q) (snd q) = Some 0 <-> ~ observed trs o q).
    { intros q Iq. rewrite <- K2 by auto. destruct (shape_cell mask _ _ (fst q) (snd q) S2) as [v Ev]; try apply Iq.
      destruct (Z2 _ _ _ Ev) as [->| ->]; rewrite Ev; split; intro; try congruence. }
    destruct (stability_mask_lemma trs mask ND NE IN Hf S2 Z2) as (rows & mats & [r j] & R3 & I4 & E5 & I5 & A5 & C5).
    { destruct Q0 as (q & Iq & Nq). exists q. split; auto. now apply K0. }
    { destruct Q1 as (q & Iq & Nq). exists q. split; auto. now apply K2. }
    destruct (nth_error trs r) as [i|] eqn:Er.
    2:{ exfalso. apply nth_error_None in Er. destruct I5 as [I5 _]. cbn in I5. lia. }
    exists rows, mask, mats, r, i, j. split; [auto|]. split; [auto|]. split.
    { intros q Iq. destruct (zz_mem (nth (fst q) trs 0, Z.of_nat (snd q)) (pairs o)) eqn:Ez.
      - apply K2; auto. apply zz_mem_in in Ez. exists (nth (fst q) trs 0). split; auto. apply nth_error_nth'. apply Iq.
      - apply K0; auto. intros (i' & Ei & Ip). rewrite (nth_error_nth _ _ _ Ei) in Ez. apply zz_mem_in in Ip. congruence. }
    split; [auto|]. split.
    { unfold stability_select. replace (Nat.leb (ml_pool_len unk) 1) with false by (symmetry; apply Nat.leb_gt; lia).
      rewrite LX, Cu, Co. cbn [bind]. rewrite ES, E1. cbn [bind train_vals]. rewrite E2. cbn [bind]. rewrite E5. cbn [bind fst snd].
      unfold py_nth. rewrite Er. reflexivity. }
    split; [auto|]. split.
    { eapply Forall_impl; [|exact A5]. intros M A q Oq. apply A. apply K2; auto.
      destruct Oq as (i' & Ei & Ip). split; [apply nth_error_Some; congruence|].
      pose proof (good_range _ _ _ (reachable_good _ _ Ro) Ip) as G. cbn in G. lia. }
    eapply chosen_iff; [|exact I5|exact C5]. intros q Iq. apply K2. auto.
  Qed.
End Committee.
