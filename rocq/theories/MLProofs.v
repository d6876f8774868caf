(** Proofs about multi-label indexes. *)
From Verif Require Import Base BaseFacts SetFacts IndexModel IndexProofs MLModel MLSpec.
Local Open Scope Z_scope.

Lemma zlist_eqb_eq a : forall b, zlist_eqb a b = true <-> a = b.
Proof.
  induction a as [|x a IH]; intros [|y b]; simpl; split; intro H; try discriminate; auto.
  - apply andb_prop in H. destruct H as [H1 H2]. apply Z.eqb_eq in H1. apply IH in H2. congruence.
  - injection H as -> ->. rewrite Z.eqb_refl. simpl. now apply IH.
Qed.

Lemma idx_eqb_eq a b : idx_eqb a b = true <-> a = b.
Proof.
  destruct a, b; simpl; rewrite ?andb_true_iff, ?Z.eqb_eq, ?zlist_eqb_eq; split;
  intro H; try discriminate; intuition congruence.
Qed.

Lemma idx_eqb_refl a : idx_eqb a a = true.
Proof. now apply idx_eqb_eq. Qed.

Lemma idx_mem_in x l : idx_mem x l = true <-> In x l.
Proof.
  unfold idx_mem. rewrite existsb_exists. split.
  - intros (y & Hy & E). apply idx_eqb_eq in E. now subst.
  - intro H. exists x. split; auto. apply idx_eqb_refl.
Qed.

Lemma idx_mem_not x l : idx_mem x l = false <-> ~ In x l.
Proof. rewrite <- idx_mem_in. destruct (idx_mem x l); split; congruence. Qed.

Lemma pair_dec (a b : Z * Z) : {a = b} + {a <> b}.
Proof. decide equality; apply Z.eq_dec. Qed.

Lemma denoted_in m x p : scalar_ok m x = true -> (In p (denoted m x) <-> denotes m x p).
Proof.
  destruct p as [a b]. destruct x as [i|i j|i js|i js|i j]; simpl; intro H.
  - rewrite in_map_iff. split.
    + intros (k & E & Hk). injection E as <- <-. apply in_zrange in Hk. auto.
    + intros [-> Hb]. exists b. split; auto. now apply in_zrange.
  - intuition congruence.
  - rewrite in_map_iff. split.
    + intros (k & E & Hk). injection E as <- <-. apply filter_In in Hk. destruct Hk as [H1 H2].
      apply andb_prop in H2. destruct H2. repeat split; auto; lia.
    + intros (-> & Hb & B). exists b. split; auto. apply filter_In. split; auto. lia.
  - rewrite in_map_iff. split.
    + intros (k & E & Hk). injection E as <- <-. apply filter_In in Hk. destruct Hk as [H1 H2].
      apply andb_prop in H2. destruct H2. repeat split; auto; lia.
    + intros (-> & Hb & B). exists b. split; auto. apply filter_In. split; auto. lia.
  - intuition congruence.
Qed.

Lemma denoted_range m x p : scalar_ok m x = true -> In p (denoted m x) -> 0 <= snd p < m.
Proof.
  intros H Hp. apply denoted_in in Hp; auto. destruct x; simpl in *; try (subst p; simpl; lia); intuition.
Qed.

(** *** Flattening *)
Lemma flatten_one_spec m x :
  flatten_one m x = if scalar_ok m x then Ok (denoted m x) else Err AssertErr.
Proof. destruct x; reflexivity. Qed.

Lemma flatten_all_spec m l :
  flatten_all m l = if forallb (scalar_ok m) l then Ok (flat_map (denoted m) l) else Err AssertErr.
Proof.
  unfold flatten_all. induction l as [|x l IH]; simpl; auto.
  rewrite flatten_one_spec. destruct (scalar_ok m x); simpl; auto.
  destruct (mapM (flatten_one m) l) as [r|e]; destruct (forallb (scalar_ok m) l); simpl in *;
    try discriminate; congruence.
Qed.

Lemma flatten_spec chk m l :
  flatten_idx chk (Some m) l =
    if (match l with [] => chk | _ => false end) then Err TypeErr
    else if 0 <? m then
      (if forallb (scalar_ok m) l then Ok (flat_map (denoted m) l) else Err AssertErr)
    else Err AssertErr.
Proof.
  unfold flatten_idx. destruct l as [|x l].
  - destruct chk; simpl; auto.
  - assert (C : (if chk then check_index (x :: l) else Ok tt) = Ok tt) by (destruct chk; reflexivity).
    rewrite C. simpl bind. destruct (0 <? m); auto. apply flatten_all_spec.
Qed.

(** *** The collection invariant *)
Definition is_pair_ok (m : Z) (x : mlidx) : Prop :=
  match x with IPair _ j => 0 <= j < m | _ => False end.

Definition good (m : Z) (c : mlic) : Prop :=
  is_set c = true /\ lsize c = Some m /\ 0 < m /\
  Forall (is_pair_ok m) (mcont c) /\ NoDup (mcont c).

Lemma pairs_map m c : Forall (is_pair_ok m) (mcont c) -> mcont c = map pair_idx (pairs c).
Proof.
  unfold pairs. induction 1 as [|x l Hx F IH]; simpl; auto.
  destruct x; simpl in Hx; try contradiction. simpl. f_equal. exact IH.
Qed.

Lemma pair_idx_inj p q : pair_idx p = pair_idx q -> p = q.
Proof. destruct p, q; unfold pair_idx; simpl. congruence. Qed.

Lemma in_pairs c i j : In (i, j) (pairs c) <-> In (IPair i j) (mcont c).
Proof.
  unfold pairs. rewrite in_flat_map. split.
  - intros (x & Hx & H). destruct x; simpl in H; try contradiction. destruct H as [H|[]].
    injection H as -> ->. exact Hx.
  - intro H. exists (IPair i j). split; simpl; auto.
Qed.

Lemma pairs_NoDup c : NoDup (mcont c) -> NoDup (pairs c).
Proof.
  unfold pairs. induction 1 as [|x l Hx N IH]; simpl; [constructor|].
  destruct x; simpl; auto. constructor; auto. intro H. apply Hx.
  apply in_flat_map in H. destruct H as (y & Hy & H). destruct y; simpl in H; try contradiction.
  destruct H as [H|[]]. injection H as -> ->. exact Hy.
Qed.

Lemma good_range m c p : good m c -> In p (pairs c) -> 0 <= snd p < m.
Proof.
  intros (_ & _ & _ & F & _) H. destruct p as [i j]. apply in_pairs in H.
  rewrite Forall_forall in F. exact (F _ H).
Qed.

Definition set_of (c : mlic) (p : Z * Z) : Prop := In p (pairs c).

(** One pair added. *)
Lemma add2_pair m c i j : good m c -> 0 <= j < m ->
  let r := ml_add2 c (IPair i j) in
  good m (fst r) /\ (exists w, snd r = Ok w) /\
  (forall p, set_of (fst r) p <-> set_of c p \/ p = (i, j)).
Proof.
  intros G Hj. pose proof G as (G1 & G2 & G3 & G4 & G5). unfold ml_add2. rewrite G2. simpl ml_check.
  destruct (j >=? m) eqn:E; [lia|]. simpl orb. cbn iota.
  unfold ml_insert. rewrite G1. destruct (idx_mem (IPair i j) (mcont c)) eqn:M; cbn [fst snd].
  - split; [exact G|]. split; [eauto|]. intros [a b]. unfold set_of. split; auto.
    intros [H|H]; auto. injection H as -> ->. apply in_pairs. now apply idx_mem_in.
  - apply idx_mem_not in M. split.
    + repeat split; auto; cbn.
      * apply Forall_app. split; auto.
      * now apply NoDup_snoc.
    + split; [eauto|]. intros [a b]. unfold set_of. rewrite !in_pairs. cbn. rewrite in_app_iff. simpl.
      intuition congruence.
Qed.

Lemma discard2_any m c v : good m c ->
  let r := ml_discard2 c v in
  good m (fst r) /\
  (snd r = match v with IManyL _ _ => Err TypeErr | _ => Ok (if idx_mem v (mcont c) then [] else [WInexistent]) end) /\
  (forall p, set_of (fst r) p <-> set_of c p /\ v <> pair_idx p).
Proof.
  intros G. pose proof G as (G1 & G2 & G3 & G4 & G5). unfold ml_discard2. rewrite G1.
  destruct (match v with IManyL _ _ => true | _ => false end) eqn:L.
  - destruct v; try discriminate. cbn. split; auto. split; auto. intros p. split; [|tauto].
    intro H. split; auto. destruct p; discriminate.
  - assert (E : match v with
                | IManyL _ _ => (c, Err TypeErr)
                | _ => if negb (idx_mem v (mcont c)) then (c, Ok [WInexistent])
                       else ({| mcont := filter (fun x => negb (idx_eqb v x)) (mcont c);
                                is_set := true; lsize := lsize c |}, Ok [])
                end = if negb (idx_mem v (mcont c)) then (c, Ok [WInexistent])
                      else ({| mcont := filter (fun x => negb (idx_eqb v x)) (mcont c);
                                is_set := true; lsize := lsize c |}, Ok [])) by (destruct v; [..|discriminate|]; reflexivity).
    rewrite E. clear E.
    assert (E : match v with IManyL _ _ => Err TypeErr | _ => Ok (if idx_mem v (mcont c) then [] else [WInexistent]) end
                = Ok (if idx_mem v (mcont c) then [] else [WInexistent])) by (destruct v; [..|discriminate|]; reflexivity).
    rewrite E. clear E.
    destruct (idx_mem v (mcont c)) eqn:M; cbn [negb fst snd].
    + split; [|split; auto].
      * repeat split; cbn; auto.
        -- apply Forall_forall. intros x Hx. apply filter_In in Hx. rewrite Forall_forall in G4. apply G4, Hx.
        -- now apply NoDup_filter.
      * intros [a b]. unfold set_of. rewrite !in_pairs. cbn. rewrite filter_In.
        assert (negb (idx_eqb v (IPair a b)) = true <-> v <> pair_idx (a, b)).
        { rewrite negb_true_iff. rewrite <- idx_eqb_eq. unfold pair_idx; simpl.
          destruct (idx_eqb v (IPair a b)); split; congruence. }
        tauto.
    + split; [exact G|split; auto]. apply idx_mem_not in M. intros [a b]. unfold set_of. rewrite in_pairs.
      split; [|tauto]. intro H. split; auto. intros ->. apply M, H.
Qed.

Lemma discard2_pair m c i j : good m c ->
  let r := ml_discard2 c (IPair i j) in
  good m (fst r) /\ (exists w, snd r = Ok w) /\
  (forall p, set_of (fst r) p <-> set_of c p /\ p <> (i, j)).
Proof.
  intro G. destruct (discard2_any m c (IPair i j) G) as (A & B & C). cbn zeta.
  split; [exact A|]. split; [eexists; exact B|]. intros [a b]. rewrite C. unfold pair_idx; simpl.
  intuition congruence.
Qed.

Lemma loop_pairs m (f : mlic -> mlidx -> mlic * res (list warning)) (mk : Z * Z -> request (Z * Z)) ps :
  (forall c p, good m c -> 0 <= snd p < m ->
     let r := f c (pair_idx p) in
     good m (fst r) /\ (exists w, snd r = Ok w) /\
     forall q, set_of (fst r) q <-> set_step (set_of c) (mk p) q) ->
  forall c, good m c -> (forall p, In p ps -> 0 <= snd p < m) ->
  let r := ml_loop f c (map pair_idx ps) in
  good m (fst r) /\ (exists w, snd r = Ok w) /\
  (forall q, set_of (fst r) q <-> set_fold (set_of c) (map mk ps) q).
Proof.
  intro Hf. induction ps as [|p ps IH]; intros c G R; cbn [map ml_loop].
  - cbn. split; auto. split; eauto. reflexivity.
  - destruct (Hf c p G (R p (or_introl eq_refl))) as (A & (w & B) & C).
    destruct (f c (pair_idx p)) as [c1 r1]; cbn [fst snd] in *. subst r1.
    destruct (IH c1 A) as (A2 & (w2 & B2) & C2); [intros; apply R; now right|].
    cbn zeta in *. destruct (ml_loop f c1 (map pair_idx ps)) as [c2 r2]; cbn [fst snd] in *. subst r2.
    cbn [fst snd]. split; auto. split; eauto. intro q. rewrite C2.
    unfold set_fold. cbn [fold_left]. apply set_fold_ext. exact C.
Qed.

Lemma flat_denoted_range m l p : forallb (scalar_ok m) l = true ->
  In p (flat_map (denoted m) l) -> 0 <= snd p < m.
Proof.
  intros F H. apply in_flat_map in H. destruct H as (x & Hx & H).
  rewrite forallb_forall in F. eapply denoted_range; eauto.
Qed.

Lemma update_good m c l : good m c ->
  let o := MUpdate l in
  let r := ml_update true c l in
  good m (fst r) /\ (accepts m o = true <-> exists w, snd r = Ok w) /\
  (accepts m o = false -> fst r = c) /\
  (forall p, set_of (fst r) p <-> set_fold (set_of c) (effects m o) p).
Proof.
  intro G. pose proof G as (G1 & G2 & G3 & G4 & G5). cbn zeta. unfold ml_update, effects.
  rewrite G2, flatten_spec. destruct l as [|x l].
  - cbn. repeat split; auto; try discriminate. intros (w & H); discriminate.
  - destruct (0 <? m) eqn:E; [|lia]. cbn [accepts].
    destruct (forallb (scalar_ok m) (x :: l)) eqn:F.
    + destruct (loop_pairs m ml_add2 Put (flat_map (denoted m) (x :: l))) with (c := c) as (A & B & C); auto.
      * intros c0 p G0 Hp. destruct p as [i j]. apply (add2_pair m c0 i j); auto.
      * intros p Hp. eapply flat_denoted_range; eauto.
      * cbn zeta in *. split; auto. split; [tauto|]. split; [discriminate|]. exact C.
    + cbn. repeat split; auto; try discriminate; try apply G. intros (w & H); discriminate.
Qed.

Lemma difference_good m c l : good m c ->
  let o := MDiff l in
  let r := ml_difference_update true c l in
  good m (fst r) /\ (accepts m o = true <-> exists w, snd r = Ok w) /\
  (accepts m o = false -> fst r = c) /\
  (forall p, set_of (fst r) p <-> set_fold (set_of c) (effects m o) p).
Proof.
  intro G. pose proof G as (G1 & G2 & G3 & G4 & G5). cbn zeta. unfold ml_difference_update, effects.
  rewrite G2, flatten_spec. destruct l as [|x l].
  - cbn. repeat split; auto; try discriminate. intros (w & H); discriminate.
  - destruct (0 <? m) eqn:E; [|lia]. cbn [accepts].
    destruct (forallb (scalar_ok m) (x :: l)) eqn:F.
    + destruct (loop_pairs m ml_discard2 Take (flat_map (denoted m) (x :: l))) with (c := c) as (A & B & C); auto.
      * intros c0 p G0 Hp. destruct p as [i j]. apply (discard2_pair m c0 i j); auto.
      * intros p Hp. eapply flat_denoted_range; eauto.
      * cbn zeta in *. split; auto. split; [tauto|]. split; [discriminate|]. exact C.
    + cbn. repeat split; auto; try discriminate; try apply G. intros (w & H); discriminate.
Qed.

Lemma row_list_ok m i : 0 < m ->
  accepts m (MUpdate (map (IPair i) (zrange m))) = true /\
  flat_map (denoted m) (map (IPair i) (zrange m)) = denoted m (IOne i).
Proof.
  intro Hm. split.
  - simpl. destruct (map (IPair i) (zrange m)) eqn:E.
    + apply map_eq_nil in E. assert (In 0 (zrange m)) by (apply in_zrange; lia). rewrite E in H. destruct H.
    + rewrite <- E. apply forallb_forall. intros x Hx. apply in_map_iff in Hx.
      destruct Hx as (j & <- & Hj). apply in_zrange in Hj. simpl. lia.
  - simpl. induction (zrange m) as [|j l IH]; simpl; auto. now rewrite IH.
Qed.

Lemma step_good m c o : good m c -> plain o ->
  let r := ml_step c o in
  good m (fst r) /\ (accepts m o = true <-> exists w, snd r = Ok w) /\
  (accepts m o = false -> fst r = c) /\
  (forall p, set_of (fst r) p <-> set_fold (set_of c) (effects m o) p).
Proof.
  intros G P. pose proof G as (G1 & G2 & G3 & G4 & G5).
  destruct o as [v|v|l|l]; cbn [ml_step]; [| |now apply update_good|now apply difference_good].
  - destruct v as [i|i j|i js|i js|i j]; cbn [ml_add plain] in *; try contradiction.
    + rewrite G2. destruct (row_list_ok m i G3) as [R1 R2].
      destruct (update_good m c (map (IPair i) (zrange m)) G) as (A & B & C & D). cbn zeta in *.
      unfold effects in D. rewrite R1 in D. rewrite R2 in D.
      split; auto. split; [rewrite <- B, R1; simpl; tauto|]. split; [discriminate|]. exact D.
    + cbn zeta. destruct (j <? m) eqn:E.
      * destruct (add2_pair m c i j G ltac:(lia)) as (A & B & C). cbn zeta in *.
        split; auto. split; [simpl; rewrite E; tauto|]. split; [simpl; congruence|].
        unfold effects. simpl accepts. rewrite E. exact C.
      * assert (X : ml_add2 c (IPair i j) = (c, Err ValueErr)).
        { unfold ml_add2. rewrite G2. simpl. destruct (j >=? m) eqn:F; [reflexivity|lia]. }
        rewrite X. unfold effects. simpl. rewrite E. cbn.
        split; auto. split; [|split; auto; reflexivity]. split; [discriminate|]. intros (w & H); discriminate.
    + assert (X : exists e, ml_add2 c (IManyL i js) = (c, Err e)).
      { unfold ml_add2. rewrite G2. simpl. destruct (existsb _ _); [eauto|]. rewrite G1. eauto. }
      destruct X as [e X]. cbn zeta. rewrite X. cbn. split; auto. split; [|split; auto; reflexivity].
      split; [discriminate|]. intros (w & H); discriminate.
    + cbn. split; auto. split; [|split; auto; reflexivity]. split; [discriminate|]. intros (w & H); discriminate.
  - destruct v as [i|i j|i js|i js|i j]; cbn [ml_discard].
    + rewrite G2. destruct (row_list_ok m i G3) as [R1 R2].
      destruct (difference_good m c (map (IPair i) (zrange m)) G) as (A & B & C & D). cbn zeta in *.
      unfold effects in D. change (accepts m (MDiff (map (IPair i) (zrange m)))) with
        (accepts m (MUpdate (map (IPair i) (zrange m)))) in *.
      rewrite R1 in D. rewrite R2 in D.
      split; auto. split; [rewrite <- B, R1; simpl; tauto|]. split; [discriminate|]. exact D.
    + destruct (discard2_pair m c i j G) as (A & B & C). cbn zeta in *.
      split; auto. split; [simpl; tauto|]. split; [discriminate|]. exact C.
    + destruct (discard2_any m c (IManyT i js) G) as (A & B & C). cbn zeta in *. rewrite B.
      split; auto. split; [split; eauto|]. split; [discriminate|].
      intros [a b]. rewrite C. unfold effects; simpl. unfold pair_idx; simpl.
      split; [tauto|]. intro H. split; auto. discriminate.
    + destruct (discard2_any m c (IManyL i js) G) as (A & B & C). cbn zeta in *. rewrite B.
      split; auto. split; [split; [discriminate|intros (w & H); discriminate]|].
      split; [intros _; unfold ml_discard2; now rewrite G1|].
      intros [a b]. rewrite C. unfold effects; simpl. unfold pair_idx; simpl.
      split; [tauto|]. intro H. split; auto. discriminate.
    + destruct (discard2_any m c (ILong i j) G) as (A & B & C). cbn zeta in *. rewrite B.
      split; auto. split; [split; eauto|]. split; [discriminate|].
      intros [a b]. rewrite C. unfold effects; simpl. unfold pair_idx; simpl.
      split; [tauto|]. intro H. split; auto. discriminate.
Qed.

(** *** Construction *)
Lemma dedup_idx_spec l : NoDup (dedup_idx l) /\ (forall x, In x (dedup_idx l) <-> In x l).
Proof.
  unfold dedup_idx.
  assert (X : forall l s, NoDup s ->
    NoDup (fold_left (fun s x => if idx_mem x s then s else s ++ [x]) l s) /\
    (forall x, In x (fold_left (fun s x => if idx_mem x s then s else s ++ [x]) l s) <-> In x s \/ In x l)).
  { clear. induction l as [|y l IH]; simpl; intros s N.
    - split; [exact N|]. intro; tauto.
    - destruct (idx_mem y s) eqn:E.
      + destruct (IH s N) as [A B]. split; auto. intro x. rewrite B. apply idx_mem_in in E.
        intuition. subst. auto.
      + apply idx_mem_not in E. destruct (IH (s ++ [y]) (NoDup_snoc s y N E)) as [A B]. split; auto.
        intro x. rewrite B, in_app_iff. simpl. intuition. }
  destruct (X l [] (NoDup_nil _)) as [A B]. split; auto. intro x. rewrite B. simpl. tauto.
Qed.

Lemma init_list_spec l ls c w : l <> [] -> ml_init (MList l) ls = Ok (c, w) ->
  exists m, lsize c = Some m /\ good m c /\ forallb (scalar_ok m) l = true /\
    match ls with Some m' => m' = m | None => infer_label_size false l = Ok m end /\
    (forall p, set_of c p <-> In p (flat_map (denoted m) l)) /\
    (w = if Nat.eqb (List.length (pairs c)) (List.length (flat_map (denoted m) l)) then [] else [WRepeat]).
Proof.
  intros Hl H. destruct l as [|x l]; [congruence|]. clear Hl. unfold ml_init in H.
  destruct (match ls with None => infer_label_size false (x :: l) | Some m => Ok m end) as [m|e] eqn:E;
    [|discriminate].
  cbn [bind] in H. rewrite flatten_spec in H. destruct (0 <? m) eqn:P; [|discriminate].
  destruct (forallb (scalar_ok m) (x :: l)) eqn:F; [|discriminate]. cbn [bind] in H.
  injection H as <- <-. exists m. cbn [lsize].
  change (denoted m x ++ flat_map (denoted m) l) with (flat_map (denoted m) (x :: l)) in *.
  set (ps := flat_map (denoted m) (x :: l)) in *.
  destruct (dedup_idx_spec (map pair_idx ps)) as [N I].
  assert (G : good m {| mcont := dedup_idx (map pair_idx ps); is_set := true; lsize := Some m |}).
  { repeat split; cbn; auto; [lia|]. apply Forall_forall. intros y Hy. apply I in Hy. apply in_map_iff in Hy.
    destruct Hy as ([i j] & <- & Hp). simpl. apply (flat_denoted_range m (x :: l) (i, j)) in Hp; auto. }
  split; auto. split; auto. split; auto. split; [destruct ls; congruence|]. split.
  - intros [a b]. unfold set_of. rewrite in_pairs. cbn [mcont]. rewrite I, in_map_iff. split.
    + intros (q & E' & Hq). destruct q; unfold pair_idx in E'; simpl in E'. injection E' as -> ->. exact Hq.
    + intro Hq. exists (a, b). auto.
  - f_equal. f_equal. rewrite <- (map_length pair_idx (pairs _)).
    now rewrite <- (pairs_map m _ (proj1 (proj2 (proj2 (proj2 G))))).
Qed.

Lemma reachable_good m c : ml_reachable m c -> good m c.
Proof.
  induction 1 as [Hm|l ls c w Hl H Hs|c o R IH P].
  - repeat split; auto; constructor.
  - destruct (init_list_spec l ls c w Hl H) as (m' & H1 & H2 & _). assert (m' = m) by congruence. now subst.
  - now apply step_good.
Qed.

Lemma C05_step_lemma m c o : ml_reachable m c -> plain o ->
  let r := ml_step c o in
  NoDup (pairs (fst r)) /\
  (forall p, In p (pairs (fst r)) -> 0 <= snd p < m) /\
  (accepts m o = true <-> exists w, snd r = Ok w) /\
  (accepts m o = false -> fst r = c) /\
  (forall p, In p (pairs (fst r)) <-> set_after (fun q => In q (pairs c)) (effects m o) p).
Proof.
  intros R P. apply reachable_good in R. destruct (step_good m c o R P) as (A & B & C & D).
  cbn zeta in *. split; [apply pairs_NoDup; apply A|]. split; [intros p; apply (good_range m _ p A)|].
  split; auto. split; auto. intro p. rewrite (set_after_fold pair_dec). apply D.
Qed.

Lemma C05_history_lemma m c h : ml_reachable m c -> Forall plain h ->
  NoDup (pairs (ml_run c h)) /\
  (forall p, In p (pairs (ml_run c h)) -> 0 <= snd p < m) /\
  (forall p, In p (pairs (ml_run c h)) <-> set_after (fun q => In q (pairs c)) (flat_map (effects m) h) p).
Proof.
  intros R P.
  assert (X : good m (ml_run c h) /\ forall p, set_of (ml_run c h) p <-> set_fold (set_of c) (flat_map (effects m) h) p).
  { apply reachable_good in R. revert c R. induction P as [|o h Po Ph IH]; intros c G.
    - split; auto. reflexivity.
    - change (ml_run c (o :: h)) with (ml_run (fst (ml_step c o)) h). cbn [flat_map].
      destruct (step_good m c o G Po) as (A & _ & _ & D). cbn zeta in *.
      destruct (IH _ A) as [I1 I2]. split; [exact I1|]. intro p.
      etransitivity; [apply I2|]. rewrite set_fold_app. apply set_fold_ext. exact D. }
  destruct X as [X1 X2]. split; [apply pairs_NoDup; apply X1|]. split; [intros p; apply (good_range m _ p X1)|].
  intro p. rewrite (set_after_fold pair_dec). apply X2.
Qed.
