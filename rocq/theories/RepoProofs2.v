(** Proofs about the matrix repository. *)
From Verif Require Import Base BaseFacts IndexModel IndexProofs MLModel StateModel Dict OracleModel OracleSpec
  OracleProofs RepoModel RepoSpec RepoProofs.
From Coq Require Import QArith.
Local Open Scope Z_scope.

Record holds (w : option nat) (inst : bool) (d : nat) (r : mrepo) (es : list mentry) : Prop := {
  h_w : m_width r = w;
  h_inst : m_inst r = inst;
  h_d : m_feat r = d;
  h_y : m_y r = map e_label es;
  h_idx : m_idx r = map e_index es;
  h_X : inst = true -> m_X r = map e_example es;
  h_uniq : NoDup (map e_index es);
  h_len : inst = true -> Forall (fun e => List.length (e_example e) = d) es
}.

Lemma zmem_in k l : zmem k l = true <-> In k l.
Proof.
  unfold zmem. rewrite existsb_exists. split.
  - intros (x & I & E). apply Z.eqb_eq in E. now subst.
  - intro I. exists k. split; auto. apply Z.eqb_refl.
Qed.

Lemma label_fits_spec w l : label_fits w l = None <-> right_label w l.
Proof.
  destruct w, l; cbn; try (split; [discriminate|tauto]); try tauto.
  destruct (Nat.eqb_spec (List.length l) n); split; try discriminate; tauto.
Qed.

(** One entry. *)
Lemma mr_add_spec w inst d r es l k c x : holds w inst d r es ->
  match add_entries w inst d es [(l, k, x)] with
  | Some (es', ok) => exists r' o, mr_add r l k c x = (r', o) /\ holds w inst d r' es' /\ (ok = true <-> exists b, o = Ok b)
  | None => exists e, mr_add r l k c x =
      ({| m_width := w; m_inst := true; m_feat := d; m_y := m_y r ++ [l]; m_idx := m_idx r ++ [k]; m_X := m_X r;
          m_cost := match c with Some q => (m_cost r + q)%Q | None => m_cost r end; m_costs := m_costs r ++ [c];
          m_num := m_num r; m_hist := m_hist r |}, Err e) /\ (x = None -> e = GenericErr)
  end.
Proof.
  intros H. pose proof H as [W I D Y X XX U L]. cbn [add_entries]. unfold mr_add. rewrite X, W, I, D.
  destruct (in_dec Z.eq_dec k (map e_index es)) as [J|J].
  - apply zmem_in in J. rewrite J. exists r, (Ok true). split; auto. split; auto. split; eauto.
  - assert (zmem k (map e_index es) = false) as -> by (rewrite <- zmem_in in J; destruct (zmem _ _); auto; now exfalso; apply J).
    destruct (right_label_dec w l) as [RL|RL].
    + rewrite (proj2 (label_fits_spec w l) RL). unfold right_example. destruct inst.
      * destruct x as [v|].
        -- destruct (Nat.eqb_spec (List.length v) d) as [E|E].
           ++ eexists. eexists. split; [reflexivity|]. split; [|split; eauto].
              split; cbn; auto; rewrite ?map_app; cbn; try congruence.
              ** intros _. now rewrite XX.
              ** apply NoDup_snoc; auto.
              ** intros _. apply Forall_app. split; auto.
           ++ exists ValueErr. split; auto. discriminate.
        -- exists GenericErr. split; auto.
      * eexists. eexists. split; [reflexivity|]. split; [|split; eauto].
        split; cbn; auto; rewrite ?map_app; cbn; try congruence. apply NoDup_snoc; auto.
    + destruct (label_fits w l) as [e|] eqn:E; [|apply label_fits_spec in E; contradiction].
      exists r, (Err e). split; auto. split; auto. split; [discriminate|intros [b B]; discriminate].
Qed.

Definition drop_cost (e : mlabel * Z * option Q * option vec) : mlabel * Z * option vec :=
  let '(l, k, c, x) := e in (l, k, x).

Lemma add_entries_cons w inst d es e new :
  add_entries w inst d es (e :: new) =
  match add_entries w inst d es [e] with
  | Some (es', true) => add_entries w inst d es' new
  | Some (es', false) => Some (es', false)
  | None => None
  end.
Proof.
  destruct e as [[l k] x]. cbn [add_entries]. destruct (in_dec Z.eq_dec k (map e_index es)); auto.
  destruct (right_label_dec w l); auto. destruct (right_example inst d x); auto.
Qed.

Lemma mr_loop_spec w inst d : forall new r es es' ok, holds w inst d r es ->
  add_entries w inst d es (map drop_cost new) = Some (es', ok) ->
  exists r' o, mr_loop r new = (r', o) /\ holds w inst d r' es' /\ (ok = true <-> o = Ok tt).
Proof.
  induction new as [|[[[l k] c] x] new IH]; intros r es es' ok H A.
  - injection A as <- <-. exists r, (Ok tt). cbn. split; auto. split; auto. tauto.
  - cbn [map drop_cost] in A. rewrite add_entries_cons in A. pose proof (mr_add_spec w inst d r es l k c x H) as S.
    destruct (add_entries w inst d es [(l, k, x)]) as [[es1 [|]]|]; [| |discriminate];
      destruct S as (r1 & o & E & H1 & O); cbn [mr_loop]; rewrite E.
    + destruct (proj1 O eq_refl) as [b ->]. eapply IH; eauto.
    + injection A as <- <-. destruct o as [b|e]; [exfalso; assert (false = true) by (apply O; eauto); discriminate|].
      exists r1, (Err e). split; auto. split; auto. split; discriminate.
Qed.

Lemma mr_loop_damaged w inst d : forall new r es, holds w inst d r es ->
  add_entries w inst d es (map drop_cost new) = None -> exists e, snd (mr_loop r new) = Err e.
Proof.
  induction new as [|[[[l k] c] x] new IH]; intros r es H A; [discriminate|].
  cbn [map drop_cost] in A. rewrite add_entries_cons in A. pose proof (mr_add_spec w inst d r es l k c x H) as S.
  destruct (add_entries w inst d es [(l, k, x)]) as [[es1 [|]]|]; [|discriminate|]; cbn [mr_loop].
  - destruct S as (r1 & o & E & H1 & O). destruct (proj1 O eq_refl) as [b ->]. rewrite E. eapply IH; eauto.
  - destruct S as (e & E & _). rewrite E. cbn. eauto.
Qed.

Lemma zip_drop ls : forall (ks : list Z) (cs : list (option Q)) (xs : list (option vec)),
  List.length ks = List.length ls -> List.length cs = List.length ls -> List.length xs = List.length ls ->
  map drop_cost (combine (combine (combine ls ks) cs) xs) = combine (combine ls ks) xs.
Proof.
  induction ls as [|l ls IH]; intros [|k ks] [|c cs] [|x xs] H1 H2 H3; try discriminate; auto.
  cbn [combine map drop_cost]. f_equal. apply IH; auto.
Qed.

Lemma column_len {T} n (o : option (list T)) : (forall l, o = Some l -> List.length l = n) -> List.length (column n o) = n.
Proof. intro H. destruct o; cbn; [rewrite map_length; auto|apply repeat_length]. Qed.

Lemma select_filter {T U} (f : T -> bool) (g : T -> U) l : select (map f l) (map g l) = Ok (map g (filter f l)).
Proof. induction l as [|a l IH]; cbn; auto. rewrite IH. cbn. now destruct (f a). Qed.

Lemma select_drop {U} (g : mentry -> U) x es : forall p n,
  find_example (map e_example es) x = Some p -> Forall (fun e => List.length (e_example e) = List.length x) es ->
  select (map (fun i => negb (Nat.eqb i (n + p))) (seq n (List.length es))) (map g es) = Ok (map g (drop_example x es)).
Proof.
  induction es as [|e es IH]; intros p n H F; [discriminate|]. inversion F as [|? ? L F']; subst.
  cbn [map find_example] in H. unfold np_all_eq in H. rewrite L, Nat.eqb_refl in H. cbn [drop_example List.length seq map select].
  destruct (zlist_eqb (e_example e) x) eqn:E.
  - injection H as <-. apply zl_ok in E. destruct (vec_dec (e_example e) x); [|contradiction].
    rewrite Nat.add_0_r, Nat.eqb_refl. cbn [negb].
    assert (S : forall m, (n < m)%nat -> select (map (fun i => negb (Nat.eqb i n)) (seq m (List.length es))) (map g es) = Ok (map g es)).
    { clear. induction es as [|e es IH]; intros m Hm; cbn; auto. rewrite IH by lia. cbn.
      destruct (Nat.eqb_spec m n); [lia|reflexivity]. }
    rewrite S by lia. reflexivity.
  - destruct (find_example (map e_example es) x) as [q|] eqn:Q; [|discriminate]. injection H as <-.
    destruct (vec_dec (e_example e) x) as [V|V]; [apply zl_ok in V; congruence|].
    replace (n + S q)%nat with (S n + q)%nat by lia. rewrite (IH q (S n) eq_refl F').
    cbn [bind map]. destruct (Nat.eqb_spec n (S n + q)); [lia|reflexivity].
Qed.

Lemma find_none es x : find_example (map e_example es) x = None ->
  Forall (fun e => List.length (e_example e) = List.length x) es -> drop_example x es = es.
Proof.
  induction es as [|e es IH]; cbn; auto. intros H F. inversion F as [|? ? L F']; subst.
  unfold np_all_eq in H. rewrite L, Nat.eqb_refl in H. destruct (zlist_eqb (e_example e) x) eqn:E; [discriminate|].
  destruct (vec_dec (e_example e) x) as [V|V]; [apply zl_ok in V; congruence|].
  destruct (find_example _ x); [discriminate|]. rewrite IH; auto.
Qed.

Lemma find_bound X x p : find_example X x = Some p -> (p < List.length X)%nat.
Proof.
  revert p. induction X as [|v X IH]; cbn; intros p H; [discriminate|]. destruct (np_all_eq v x).
  - injection H as <-. lia.
  - destruct (find_example X x); [|discriminate]. injection H as <-. specialize (IH _ eq_refl). lia.
Qed.

Lemma drop_example_incl x es e : In e (drop_example x es) -> In e es.
Proof. induction es as [|a es IH]; cbn; auto. destruct (vec_dec (e_example a) x); cbn; tauto. Qed.

Lemma drop_example_nodup x es : NoDup (map e_index es) -> NoDup (map e_index (drop_example x es)).
Proof.
  induction es as [|a es IH]; cbn; auto. intro N. inversion N as [|? ? Na Ns]; subst. destruct (vec_dec (e_example a) x); auto.
  cbn. constructor; auto. intro J. apply Na. apply in_map_iff in J. destruct J as (e & E & J).
  apply in_map_iff. exists e. split; auto. eapply drop_example_incl; eauto.
Qed.

Lemma filter_nodup {T} (f : T -> bool) (g : T -> Z) l : NoDup (map g l) -> NoDup (map g (filter f l)).
Proof.
  induction l as [|a l IH]; cbn; auto. intro N. inversion N as [|? ? Na Nl]; subst. destruct (f a); auto. cbn. constructor; auto.
  intro J. apply Na. apply in_map_iff in J. destruct J as (e & E & J). apply in_map_iff. exists e. split; auto.
  apply filter_In in J. tauto.
Qed.

Lemma mr_step_spec w inst d r es o es' : holds w inst d r es ->
  (forall k x, o = MDiscard k (Some x) -> List.length x = d) ->
  op_entries w inst d es o = Some es' -> holds w inst d (fst (mr_step r o)) es'.
Proof.
  intros H SD OE. destruct o as [l k c x|ls ks cs xs|k x]; cbn [mr_step].
  - cbn [op_entries] in OE. pose proof (mr_add_spec w inst d r es l k c x H) as S.
    destruct (add_entries w inst d es [(l, k, x)]) as [[es1 ok]|]; [|discriminate]. injection OE as <-.
    destruct S as (r' & o & E & H' & _). now rewrite E.
  - unfold mr_update. cbn [op_entries] in OE.
    assert (SL : same_length ls (Some ks) cs xs = (Nat.eqb (List.length ks) (List.length ls) &&
         match cs with Some l => Nat.eqb (List.length l) (List.length ls) | None => true end &&
         match xs with Some l => Nat.eqb (List.length l) (List.length ls) | None => true end)) by reflexivity.
    rewrite SL. destruct (_ && _ && _) eqn:E; cbn [negb].
    + apply same_length_spec in SL. destruct SL as (S1 & S2 & S3). specialize (S1 _ eq_refl).
      replace (match xs with Some l => map Some l | None => repeat None (List.length ls) end)
        with (column (List.length ls) xs) in OE by (destruct xs; reflexivity).
      rewrite <- (zip_drop ls ks (column (List.length ls) cs) (column (List.length ls) xs)) in OE
        by (auto using column_len).
      destruct (add_entries w inst d es _) as [[es1 ok]|] eqn:AE; [|discriminate]. injection OE as <-.
      destruct (mr_loop_spec w inst d _ r es es1 ok H AE) as (r' & o & L & H' & _). rewrite L.
      destruct o; cbn; auto. destruct H'. split; auto.
    + injection OE as <-. auto.
  - pose proof H as [W I D Y X XX U L]. cbn [op_entries] in OE.
    assert (ZM : match k with Some k => negb (zmem k (m_idx r)) | None => false end =
                 match k with Some k => if in_dec Z.eq_dec k (map e_index es) then false else true | None => false end).
    { destruct k as [k|]; auto. rewrite X. destruct (in_dec Z.eq_dec k (map e_index es)) as [J|J].
      - apply zmem_in in J. now rewrite J.
      - rewrite <- zmem_in in J. destruct (zmem _ _); [now destruct J|reflexivity]. }
    assert (G : forall f : mentry -> bool, forall mask, mask = map f es ->
       holds w inst d (fst (mr_keep r mask)) (filter f es)).
    { intros f mask ->. unfold mr_keep. rewrite Y, X, !select_filter, I. destruct inst.
      - rewrite XX, select_filter by auto. cbn. split; cbn; auto.
        + now apply filter_nodup.
        + intros _. specialize (L eq_refl). rewrite Forall_forall in *. intros e He. apply filter_In in He. apply L, He.
      - cbn. split; cbn; auto using filter_nodup; discriminate. }
    destruct x as [x|].
    + assert (T : mr_discard r k (Some x) = if match k with Some k => negb (zmem k (m_idx r)) | None => false end then (r, Ok true)
        else if negb (m_inst r) then (r, Err GenericErr) else match find_example (m_X r) x with
          | None => (r, Ok true)
          | Some p => if Nat.ltb p (List.length (m_idx r))
                     then mr_keep r (map (fun i => negb (Nat.eqb i p)) (seq 0 (List.length (m_idx r))))
                     else (r, Err IndexErr) end) by (destruct k; reflexivity).
      rewrite T, ZM. clear T.
      all: match goal with |- context[if ?b then _ else _] => destruct b eqn:B end.
      all: try (injection OE as <-; exact H).
      all: rewrite I; destruct inst; cbn [negb]; [|injection OE as <-; exact H].
      all: injection OE as <-; rewrite XX by auto; specialize (L eq_refl); specialize (SD _ _ eq_refl).
      all: assert (L' : Forall (fun e => List.length (e_example e) = List.length x) es) by (rewrite SD; exact L).
      all: destruct (find_example (map e_example es) x) as [p|] eqn:F; [|rewrite (find_none _ _ F L'); exact H].
      all: pose proof (find_bound _ _ _ F) as FB; rewrite map_length in FB; rewrite X, map_length.
      all: assert (Nat.ltb p (List.length es) = true) as -> by (apply Nat.ltb_lt; auto).
      all: unfold mr_keep; rewrite Y, X, XX, I by auto.
      all: change (fun i => negb (Nat.eqb i p)) with (fun i => negb (Nat.eqb i (0 + p))).
      all: rewrite !(select_drop _ x es p 0 F L'); cbn; split; cbn; auto using drop_example_nodup.
      all: intros _; rewrite Forall_forall in *; intros e He; apply L; eapply drop_example_incl; eauto.
    + destruct k as [k|]; [|injection OE as <-; exact H]. unfold mr_discard. rewrite ZM.
      destruct (in_dec Z.eq_dec k (map e_index es)); injection OE as <-; [|exact H].
      apply G. rewrite X, map_map. apply map_ext. intro e. destruct (Z.eq_dec (e_index e) k) as [E|E].
      * rewrite E, Z.eqb_refl. reflexivity.
      * apply Z.eqb_neq in E. now rewrite E.
Qed.

Lemma mr_run_spec w inst d : forall h r es es', holds w inst d r es -> sized_discards d h ->
  entries_after w inst d es h = Some es' -> holds w inst d (fst (mr_run r h)) es'.
Proof.
  induction h as [|o h IH]; intros r es es' H SD E; cbn in *; [now injection E as <-|].
  destruct (op_entries w inst d es o) as [es1|] eqn:OE; [|discriminate].
  assert (H1 : holds w inst d (fst (mr_step r o)) es1).
  { eapply mr_step_spec; eauto. intros k x ->. apply (SD k x). now left. }
  destruct (mr_step r o) as [r1 a]. cbn in H1. specialize (IH r1 es1 es' H1).
  destruct (mr_run r1 h) as [r2 t]. cbn in *. apply IH; auto. intros k x J. apply (SD k x). now right.
Qed.

Lemma mr_init_spec labels indexes examples r : mr_init labels indexes examples = Ok r -> NoDup indexes ->
  holds (m_width r) (is_some examples) (m_feat r) r (initial_entries labels indexes examples).
Proof.
  unfold mr_init. destruct (same_length _ _ _ _) eqn:E; [|discriminate]. cbn [negb]. apply same_length_spec in E.
  destruct E as (E1 & E2 & _). specialize (E1 _ eq_refl). intros H N.
  destruct (label_shape labels) as [w|]; [|discriminate]. cbn [bind] in H.
  set (d := match examples with Some (x :: _) => List.length x | _ => O end) in *.
  destruct (match examples with Some xs => _ | None => true end) eqn:EX; [|discriminate]. cbn [guard bind] in H. injection H as <-.
  set (xs := match examples with Some xs => xs | None => repeat [] (List.length labels) end).
  assert (LX : List.length xs = List.length labels).
  { unfold xs. destruct examples; [auto|apply repeat_length]. }
  assert (P : forall ks (ls : list mlabel) (vs : list vec), List.length ks = List.length ls -> List.length vs = List.length ls ->
     ls = map e_label (combine (combine ks ls) vs) /\ ks = map e_index (combine (combine ks ls) vs) /\ vs = map e_example (combine (combine ks ls) vs)).
  { clear. induction ks as [|k ks IH]; intros [|l ls] [|v vs] H1 H2; try discriminate; auto.
    cbn. destruct (IH ls vs) as (A & B & C); auto. rewrite <- A, <- B, <- C. auto. }
  destruct (P indexes labels xs) as (PL & PI & PX); auto. unfold initial_entries. fold xs.
  split; cbn [m_width m_inst m_feat m_y m_idx m_X].
  - reflexivity.
  - now destruct examples.
  - reflexivity.
  - exact PL.
  - exact PI.
  - intro T. destruct examples; [exact PX|discriminate].
  - now rewrite <- PI.
  - intro T. destruct examples as [vs|]; [|discriminate]. rewrite andb_true_iff in EX. destruct EX as [EX _].
    assert (H : Forall (fun v => List.length v = d) xs).
    { apply Forall_forall. intros v Hv. rewrite forallb_forall in EX. apply EX in Hv. now apply Nat.eqb_eq. }
    rewrite PX in H. now rewrite Forall_map in H.
Qed.

(** If every call succeeds, nothing is damaged. *)
Lemma all_ok_entries w inst d : forall h r es, holds w inst d r es -> sized_discards d h ->
  Forall (fun a => exists b, a = Ok b) (snd (mr_run r h)) -> exists es', entries_after w inst d es h = Some es'.
Proof.
  induction h as [|o h IH]; intros r es H SD F; cbn in *; [eauto|].
  assert (OK : exists es1, op_entries w inst d es o = Some es1).
  { destruct (op_entries w inst d es o) as [es1|] eqn:OE; [eauto|]. exfalso.
    assert (Bad : exists e, snd (mr_step r o) = Err e).
    { destruct o as [l k c x|ls ks cs xs|k x]; cbn [op_entries mr_step] in *.
      - pose proof (mr_add_spec w inst d r es l k c x H) as S.
        destruct (add_entries w inst d es [(l, k, x)]) as [[es1 ok]|]; [discriminate|].
        destruct S as (e & E & _). rewrite E. cbn. eauto.
      - unfold mr_update.
        assert (SL : same_length ls (Some ks) cs xs = (Nat.eqb (List.length ks) (List.length ls) &&
         match cs with Some l => Nat.eqb (List.length l) (List.length ls) | None => true end &&
         match xs with Some l => Nat.eqb (List.length l) (List.length ls) | None => true end)) by reflexivity.
        rewrite SL. destruct (_ && _ && _) eqn:E; cbn [negb]; [|discriminate].
        apply same_length_spec in SL. destruct SL as (S1 & S2 & S3). specialize (S1 _ eq_refl).
        replace (match xs with Some l => map Some l | None => repeat None (List.length ls) end)
          with (column (List.length ls) xs) in OE by (destruct xs; reflexivity).
        rewrite <- (zip_drop ls ks (column (List.length ls) cs) (column (List.length ls) xs)) in OE
          by (auto using column_len).
        destruct (add_entries w inst d es _) as [[es1 ok]|] eqn:AE; [discriminate|].
        destruct (mr_loop_damaged w inst d _ r es H AE) as [e L].
        destruct (mr_loop r _) as [r' o]. cbn in L. subst o. cbn. eauto.
      - exfalso. destruct k as [k|]; [destruct (in_dec _ _ _)|]; destruct x; try destruct inst; discriminate. }
    destruct (mr_step r o) as [r1 a]. destruct (mr_run r1 h) as [r2 t]. cbn in *. destruct Bad as [e ->].
    inversion F as [|? ? [b B] ?]. discriminate. }
  destruct OK as [es1 OE]. rewrite OE.
  assert (H1 : holds w inst d (fst (mr_step r o)) es1).
  { eapply mr_step_spec; eauto. intros k x ->. apply (SD k x). now left. }
  destruct (mr_step r o) as [r1 a]. cbn in H1. specialize (IH r1 es1 H1).
  destruct (mr_run r1 h) as [r2 t]. cbn in *. inversion F; subst. apply IH; auto. intros k x J. apply (SD k x). now right.
Qed.

(** Positions of an index. *)
Lemma positions_nodup n k l : NoDup l ->
  match positions_from n k l with
  | [] => ~ In k l
  | [p] => (n <= p)%nat /\ nth_error l (p - n) = Some k
  | _ => False
  end.
Proof.
  revert n. induction l as [|j l IH]; intros n N; cbn; [tauto|]. inversion N as [|? ? Nj Nl]; subst.
  specialize (IH (S n) Nl). destruct (Z.eqb_spec j k) as [->|ne].
  - destruct (positions_from (S n) k l) as [|p [|q ps]].
    + split; auto. now rewrite Nat.sub_diag.
    + destruct IH as [_ IH]. apply nth_error_In in IH. contradiction.
    + contradiction.
  - destruct (positions_from (S n) k l) as [|p [|q ps]].
    + intros [->|J]; auto.
    + destruct IH as [Hp IH]. split; [lia|]. now replace (p - n)%nat with (S (p - S n)) by lia.
    + contradiction.
Qed.

(** The costs. *)
Definition present (l : list (option Q)) : list Q := flat_map (fun c => match c with Some q => [q] | None => [] end) l.
