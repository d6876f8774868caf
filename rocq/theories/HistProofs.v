(** Facts about the printed history. *)
From Verif Require Import Base BaseFacts IndexModel MLModel StateModel Dict OracleModel OracleSpec OracleProofs RepoModel RepoSpec RepoProofs RepoProofs2 HistModel HistSpec.
From Coq Require Import QArith String.
Local Open Scope Z_scope.

Section Table.
  Context {K A : Type}.
  Variable si : shown K -> string.
  Variable sa : shown A -> string.
  Variable sp : option (shown Q) -> string.
  Variable st : Q -> string.

  Lemma as_shown_unpacked {T} (l : list T) : as_shown l (unpacked l).
  Proof. destruct l as [|x [|y l]]; cbn; auto. Qed.

  Lemma table_lists qs total : lists_queries si sa sp st (history_table si sa sp st qs total) qs total.
  Proof.
    unfold history_table. set (m := map _ _).
    assert (L : List.length m = List.length qs) by (unfold m; rewrite map_length, combine_length, seq_length; lia).
    split; [|split].
    - rewrite app_length, L. cbn. lia.
    - intros i ls cs ks H. exists (unpacked ks), (unpacked ls), (option_map unpacked cs).
      split; [apply as_shown_unpacked|]. split; [apply as_shown_unpacked|].
      split; [destruct cs; cbn; auto; apply as_shown_unpacked|].
      assert (I : (i < List.length qs)%nat) by (apply nth_error_Some; congruence).
      rewrite nth_error_app1 by lia. unfold m. rewrite nth_error_map.
      assert (C : nth_error (combine (seq 0 (List.length qs)) qs) i = Some (i, (ls, cs, ks))).
      { assert (G : forall s (l : list (list A * option (list Q) * list K)) j q, nth_error l j = Some q -> nth_error (combine (seq s (List.length l)) l) j = Some ((s + j)%nat, q)).
        { clear. intros s l. revert s. induction l as [|a l IH]; intros s j q H; [destruct j; discriminate|].
          destruct j; cbn in *; [injection H as ->; f_equal; f_equal; lia|]. rewrite (IH (S s) j q H). f_equal. f_equal. lia. }
        apply (G O qs i). exact H. }
      rewrite C. reflexivity.
    - rewrite nth_error_app2 by lia. rewrite L, Nat.sub_diag. reflexivity.
  Qed.
End Table.

Lemma fold_plus_app (a b : list Q) q : fold_left Qplus (a ++ b) q = fold_left Qplus b (fold_left Qplus a q).
Proof. apply fold_left_app. Qed.

Section Element.
  Context {A : Type}.
  Implicit Types (r : erepo A).

  Definition kept r r' := e_inst r' = e_inst r /\ is_some (e_exa r') = is_some (e_exa r) /\ e_num r' = e_num r /\ e_hist r' = e_hist r.

  Lemma add_ok r k l c x : (e_inst r = true -> exists v, x = Some (inl v)) ->
    exists r', er_add r k l c x = (r', Ok tt) /\ kept r r' /\
      e_cost r' = fold_left Qplus (match c with Some q => [q] | None => [] end) (e_cost r).
  Proof.
    intro X. unfold er_add, kept. destruct (e_inst r) eqn:I.
    - destruct (X eq_refl) as [v ->]. eexists. split; [reflexivity|]. cbn. destruct (e_exa r), c; cbn; auto.
    - eexists. split; [reflexivity|]. cbn. rewrite I. destruct c; auto.
  Qed.

  Lemma loop_ok : forall es r, (e_inst r = true -> Forall (fun e => exists v, snd e = Some (inl v)) es) ->
    exists r', er_loop r es = (r', Ok tt) /\ kept r r' /\
      e_cost r' = fold_left Qplus (flat_map (fun e => match snd (fst e) with Some q => [q] | None => [] end) es) (e_cost r).
  Proof.
    induction es as [|[[[k l] c] x] es IH]; intros r X; [exists r; repeat split; auto|]. cbn [er_loop flat_map fst snd].
    destruct (add_ok r k l c x) as (r1 & E & (K1 & K2 & K3 & K4) & C).
    { intro I. specialize (X I). inversion X; auto. }
    rewrite E. destruct (IH r1) as (r2 & E2 & (L1 & L2 & L3 & L4) & C2).
    { rewrite K1. intro I. specialize (X I). inversion X; auto. }
    exists r2. rewrite E2, C2, C, fold_plus_app. repeat split; congruence.
  Qed.

  Lemma costs_zip (ks : list key) (ls : list A) cs (xs : option (list vec)) :
    List.length ks = List.length ls -> same_lengths (List.length ls) cs = true -> same_lengths (List.length ls) xs = true ->
    flat_map (fun e : key * A * option Q * option (vec + unit) => match snd (fst e) with Some q => [q] | None => [] end)
      (combine (combine (combine ks ls) (column (List.length ls) cs)) (map (option_map inl) (column (List.length ls) xs))) =
    match cs with Some l => l | None => [] end.
  Proof.
    revert ls cs xs. induction ks as [|k ks IH]; intros [|l ls] cs xs L C X; try discriminate.
    - cbn. destruct cs as [[|q cs]|]; try discriminate; reflexivity.
    - injection L as L. destruct cs as [[|q cs]|]; destruct xs as [[|x xs]|]; try discriminate; cbn in *.
      + f_equal. specialize (IH ls (Some cs) (Some xs) L C X). exact IH.
      + f_equal. specialize (IH ls (Some cs) None L C eq_refl). exact IH.
      + exact (IH ls None (Some xs) L eq_refl X).
      + exact (IH ls None None L eq_refl eq_refl).
  Qed.

  Lemma step_books r (o : eop A) :
    e_inst (er_step r o) = e_inst r /\ is_some (e_exa (er_step r o)) = is_some (e_exa r) /\
    e_hist (er_step r o) = e_hist r ++ logged (e_inst r) o /\
    e_num (er_step r o) = (e_num r + List.length (logged (e_inst r) o))%nat /\
    e_cost (er_step r o) = fold_left Qplus (paid (e_inst r) o) (e_cost r).
  Proof.
    assert (Z : forall r' : erepo A, kept r r' -> e_cost r' = e_cost r ->
        e_inst r' = e_inst r /\ is_some (e_exa r') = is_some (e_exa r) /\ e_hist r' = e_hist r ++ [] /\
        e_num r' = (e_num r + 0)%nat /\ e_cost r' = e_cost r).
    { intros r' (K1 & K2 & K3 & K4) C. rewrite app_nil_r, Nat.add_0_r. auto. }
    assert (Z0 := Z r ltac:(repeat split) eq_refl).
    destruct o as [k l c x|ks ls cs xs|k l c x|k]; cbn [er_step].
    - cbn [logged]. destruct (e_inst r && negb (is_some x)) eqn:R.
      + apply andb_true_iff in R. destruct R as [I X]. destruct x; [discriminate|]. cbn [option_map].
        assert (E : er_add r k l c None = (r, Err GenericErr)) by (unfold er_add; now rewrite I). rewrite E.
        cbn [fst paid]. rewrite I. destruct c; cbn in *; rewrite ?app_nil_r, ?Nat.add_0_r; auto.
      + destruct (add_ok r k l c (option_map inl x)) as (r' & E & K & C).
        { intro I. rewrite I in R. destruct x as [v|]; [|discriminate]. now exists v. }
        rewrite E. cbn [fst paid]. rewrite R. destruct K as (K1 & K2 & K3 & K4). rewrite C, app_nil_r, Nat.add_0_r.
        destruct c; auto.
    - unfold er_update. cbn [logged]. destruct (accepted (e_inst r) ks ls cs xs) eqn:AC.
      + pose proof AC as AC'. apply accepted_same in AC'. destruct AC' as [S HI]. rewrite S. cbn [negb].
        assert (Len : List.length ks = List.length ls /\ same_lengths (List.length ls) cs = true /\ same_lengths (List.length ls) xs = true).
        { unfold accepted in AC. rewrite !andb_true_iff in AC. destruct AC as [[L1 L2] L3]. apply Nat.eqb_eq in L1.
          split; auto. split; [exact L2|]. destruct xs; auto. }
        destruct Len as (L1 & L2 & L3).
        set (es := combine _ _). destruct (loop_ok es r) as (r' & E & (K1 & K2 & K3 & K4) & C).
        { intro I. unfold es. destruct xs as [xs|].
          - apply Forall_forall. intros [[[a b] c] x] J. apply in_combine_r in J. apply in_map_iff in J.
            destruct J as (w & W & J). cbn [column] in J. apply in_map_iff in J. destruct J as (v & V & _). subst. now exists v.
          - destruct (HI I) as [W|W]; [congruence|]. subst ls. destruct ks; [constructor|discriminate]. }
        rewrite E. cbn [fst er_log e_inst e_exa e_hist e_num e_cost paid List.length]. rewrite K1, K2, K3, K4, C.
        assert (CZ : flat_map (fun e => match snd (fst e) with Some q => [q] | None => [] end) es = match cs with Some l => l | None => [] end)
          by (apply costs_zip; auto).
        rewrite CZ. split; auto. split; auto. split; auto. split; [lia|]. destruct cs; [|reflexivity]. now rewrite AC.
      + assert (PN : paid (e_inst r) (EUpdate ks ls cs xs) = []) by (destruct cs; cbn; [now rewrite AC|auto]). rewrite PN. cbn [fold_left List.length].
        destruct (same_length ls (Some ks) cs xs) eqn:S; cbn [negb fst]; [|exact Z0].
        assert (D : e_inst r = true /\ xs = None /\ ls <> []).
        { unfold accepted in AC. unfold same_length in S. rewrite !andb_true_iff in S. destruct S as [[S1 S2] S3].
          rewrite S1 in AC. cbn [andb] in AC. destruct cs as [cs|]; [rewrite S2 in AC|]; cbn [andb] in AC;
            (destruct xs as [xs|]; [congruence|]); destruct (e_inst r); try discriminate; (split; [auto|]; split; [auto|]); intros ->; discriminate. }
        destruct D as (I & -> & NE). destruct ls as [|l ls]; [contradiction|]. destruct ks as [|k ks]; [discriminate|].
        cbn [column repeat map combine List.length option_map].
        destruct cs as [[|q cs]|]; cbn [column map repeat combine er_loop]; [exfalso; unfold same_length in S; cbn in S; rewrite andb_false_r in S; discriminate| |];
          (unfold er_add; rewrite I; cbn [fst]; rewrite <- I; exact Z0).
    - unfold er_update_one. cbn [logged].
      assert (PD : paid (e_inst r) (EUpdateOne k l c x) = if e_inst r then [] else match x with None | Some [_] => match c with Some c => [c] | None => [] end | Some _ => [] end).
      { destruct c; cbn; auto. destruct (e_inst r), x as [[|? [|? ?]]|]; auto. }
      rewrite PD. clear PD.
      destruct (e_inst r) eqn:I.
      + destruct x as [[|v [|v' x]]|]; cbn [fst List.length fold_left]; try (now rewrite I in *); unfold er_add; rewrite I; cbn [fst]; rewrite ?I; apply Z0.
      + assert (G : forall y, y = None \/ y = Some (inr tt) -> forall X, X = match er_add r k l c y with
               | (r', Ok _) => (er_log r' [l] (option_map (fun q => [q]) c) [k], Ok tt)
               | (r', Err e) => (r', Err e) end ->
             e_inst (fst X) = false /\ is_some (e_exa (fst X)) = is_some (e_exa r) /\
             e_hist (fst X) = e_hist r ++ [([l], option_map (fun q => [q]) c, [k])] /\ e_num (fst X) = (e_num r + 1)%nat /\
             e_cost (fst X) = fold_left Qplus (match c with Some c => [c] | None => [] end) (e_cost r)).
        { intros y _ X ->. destruct (add_ok r k l c y) as (r' & E & (K1 & K2 & K3 & K4) & C); [congruence|]. rewrite E. cbn.
          rewrite K1, K2, K3, K4, C, I. repeat split; auto. lia. }
        destruct x as [[|v [|v' x]]|]; cbn [fst List.length fold_left].
        * rewrite I. exact Z0.
        * apply (G (Some (inr tt))); auto.
        * rewrite I. exact Z0.
        * apply (G None); auto.
    - cbn [logged paid fold_left List.length]. unfold er_discard. destruct (negb (existsb _ _)); cbn [fst]; [exact Z0|].
      destruct (negb (has key_eqb _ _)); cbn [fst]; [apply Z; repeat split|].
      destruct (e_inst r) eqn:I; cbn [fst]; [|apply Z; repeat split; auto].
      destruct (dget key_eqb k (dflt (e_ind r))); cbn [fst]; [|apply Z; repeat split; auto].
      destruct (negb (has zlist_eqb _ _)); cbn [fst]; apply Z; repeat split; auto. cbn. now destruct (e_exa r).
  Qed.

  Lemma run_books had : forall h r, is_some (e_exa r) = had -> (e_inst r = true -> had = true) ->
    forall inst, inst = e_inst r ->
    e_hist (ec_run r h) = since_cleared logged had inst (e_hist r) h /\
    (e_num r = List.length (e_hist r) -> e_num (ec_run r h) = List.length (e_hist (ec_run r h))) /\
    (forall acc, e_cost r = sum acc -> e_cost (ec_run r h) = sum (since_cleared paid had inst acc h)).
  Proof.
    induction h as [|c h IH]; intros r E I inst ->; [cbn; auto|].
    unfold ec_run. cbn [fold_left]. fold (ec_run (ec_step r c) h). destruct c as [o|]; cbn [ec_step since_cleared].
    - destruct (step_books r o) as (B1 & B2 & B3 & B4 & B5).
      destruct (IH (er_step r o) ltac:(congruence) ltac:(rewrite B1; exact I) (e_inst r) ltac:(congruence)) as (H1 & H2 & H3). rewrite H1, B3. split; auto.
      split.
      + intro N. specialize (H2 ltac:(rewrite B3, B4, N, app_length; reflexivity)). rewrite H1, B3 in H2. exact H2.
      + intros acc C. apply H3. rewrite B5, C. unfold sum. now rewrite fold_plus_app.
    - unfold er_clear. destruct (e_exa r) eqn:EX; cbn [is_some] in E; subst had; cbn [fst].
      + match goal with |- context[ec_run ?r1 h] => destruct (IH r1 eq_refl (fun _ => eq_refl) false eq_refl) as (H1 & H2 & H3) end; auto.
      + match goal with |- context[ec_run ?r1 h] => destruct (IH r1 eq_refl I (e_inst r) eq_refl) as (H1 & H2 & H3) end; auto.
  Qed.

  Lemma init_books (labels : list A) indexes examples r : er_init labels indexes examples = Ok r ->
    e_inst r = is_some examples /\ is_some (e_exa r) = is_some examples /\ e_hist r = [] /\ e_num r = O /\ e_cost r = 0%Q.
  Proof.
    unfold er_init. destruct (negb _); [discriminate|]. intro H. injection H as <-. cbn. destruct examples; auto.
  Qed.
End Element.

(** ** MatrixRepository *)
Lemma zmem_dec k l : zmem k l = if in_dec Z.eq_dec k l then true else false.
Proof.
  destruct (in_dec Z.eq_dec k l) as [I|I]; [now apply zmem_in|]. apply not_true_iff_false. now rewrite zmem_in.
Qed.

Definition mkept (r r' : mrepo) :=
  m_width r' = m_width r /\ m_inst r' = m_inst r /\ m_feat r' = m_feat r /\ m_num r' = m_num r /\ m_hist r' = m_hist r.

Lemma madd_kept r l k c x : mkept r (fst (mr_add r l k c x)).
Proof.
  unfold mr_add, mkept. destruct (zmem k (m_idx r)); auto. destruct (label_fits _ _); auto.
  destruct (m_inst r) eqn:I; cbn; auto. destruct x as [v|]; [destruct (Nat.eqb _ _)|]; cbn; auto.
Qed.
Lemma mloop_kept : forall es r, mkept r (fst (mr_loop r es)).
Proof.
  induction es as [|[[[l k] c] x] es IH]; intro r; [repeat split|]. cbn [mr_loop].
  pose proof (madd_kept r l k c x) as (K1 & K2 & K3 & K4 & K5). destruct (mr_add r l k c x) as [r1 [b|e]]; cbn [fst] in *.
  - destruct (IH r1) as (L1 & L2 & L3 & L4 & L5). repeat split; congruence.
  - repeat split; auto.
Qed.

(** What an addition charges. *)
Lemma mloop_charged : forall es r,
  m_cost (fst (mr_loop r es)) = fold_left Qplus (charged (m_width r) (m_inst r) (m_feat r) (m_idx r) es) (m_cost r).
Proof.
  induction es as [|[[[l k] c] x] es IH]; intro r; [reflexivity|]. cbn [mr_loop charged].
  pose proof (madd_kept r l k c x) as (K1 & K2 & K3 & _). unfold mr_add in *. rewrite zmem_dec in *.
  destruct (in_dec Z.eq_dec k (m_idx r)) as [J|J]; [apply IH|].
  destruct (right_label_dec (m_width r) l) as [R|R].
  - rewrite (proj2 (label_fits_spec _ _) R) in *. unfold right_example.
    destruct (m_inst r) eqn:I.
    + destruct x as [v|]; [destruct (Nat.eqb _ _)|]; cbn [fst] in *; rewrite ?IH; cbn [m_width m_inst m_feat m_idx m_cost];
        rewrite fold_plus_app, ?I; destruct c; reflexivity.
    + cbn [fst] in *. rewrite IH. cbn [m_width m_inst m_feat m_idx m_cost]. rewrite fold_plus_app, ?I. destruct c; reflexivity.
  - destruct (label_fits (m_width r) l) eqn:F; [reflexivity|]. apply label_fits_spec in F. contradiction.
Qed.

Lemma mdiscard_kept r k x : mkept r (fst (mr_discard r k x)) /\ m_cost (fst (mr_discard r k x)) = m_cost r.
Proof.
  assert (Keep : forall mask, mkept r (fst (mr_keep r mask)) /\ m_cost (fst (mr_keep r mask)) = m_cost r).
  { intros mask. unfold mr_keep, mkept. destruct (select mask (m_y r)), (select mask (m_idx r)); cbn; auto 10.
    destruct (m_inst r) eqn:I; cbn; auto 10. destruct (select mask (m_X r)); cbn; auto 10. }
  assert (Z : mkept r r /\ m_cost r = m_cost r) by (repeat split).
  unfold mr_discard. destruct k as [k|]; [destruct (negb (zmem k (m_idx r))); [auto|]|];
      (destruct x as [x|]; [|auto]); (destruct (negb (m_inst r)); [auto|]); destruct (find_example _ _); auto; destruct (Nat.ltb _ _); auto.
Qed.

Definition record_of (o : mop) (a : res bool) : list (list mlabel * option (list Q) * list Z) :=
  match o, a with MUpdate ls ks cs xs, Ok _ => [(ls, cs, ks)] | _, _ => [] end.

Lemma mstep_books r o :
  m_cost (fst (mr_step r o)) = fold_left Qplus (call_charged (m_width r) (m_inst r) (m_feat r) (m_idx r) o) (m_cost r) /\
  m_hist (fst (mr_step r o)) = m_hist r ++ record_of o (snd (mr_step r o)) /\
  m_num (fst (mr_step r o)) = (m_num r + List.length (record_of o (snd (mr_step r o))))%nat.
Proof.
  destruct o as [l k c x|ls ks cs xs|k x]; cbn [mr_step call_charged record_of List.length].
  - pose proof (mloop_charged [(l, k, c, x)] r) as M. cbn [mr_loop] in M.
    pose proof (madd_kept r l k c x) as (_ & _ & _ & K1 & K2). rewrite K1, K2, app_nil_r, Nat.add_0_r. split; auto.
    destruct (mr_add r l k c x) as [r1 [b|e]]; exact M.
  - unfold mr_update. unfold same_length.
    change (match cs with Some l => Nat.eqb (List.length l) (List.length ls) | None => true end) with (same_lengths (List.length ls) cs).
    change (match xs with Some l => Nat.eqb (List.length l) (List.length ls) | None => true end) with (same_lengths (List.length ls) xs).
    destruct (_ && _ && _); cbn [negb]; [|cbn; rewrite app_nil_r, Nat.add_0_r; auto].
    change (each (List.length ls) cs) with (column (List.length ls) cs). change (each (List.length ls) xs) with (column (List.length ls) xs).
    match goal with |- context[mr_loop r ?es] => pose proof (mloop_charged es r) as M; pose proof (mloop_kept es r) as (K1 & K2 & K3 & K4 & K5);
      destruct (mr_loop r es) as [r1 [u|e]] end; cbn in *.
    + rewrite K4, K5. repeat split; auto. lia.
    + rewrite K4, K5, app_nil_r, Nat.add_0_r. auto.
  - destruct (mdiscard_kept r k x) as [(_ & _ & _ & K1 & K2) C]. rewrite K1, K2, C, app_nil_r, Nat.add_0_r. auto.
Qed.

Lemma cstep_books s c :
  ms_hist (fst (mc_step s c)) = match c with MClear => [] | MCall o => ms_hist s ++ record_of o (snd (mc_step s c)) end /\
  (ms_num s = List.length (ms_hist s) -> ms_num (fst (mc_step s c)) = List.length (ms_hist (fst (mc_step s c)))).
Proof.
  destruct c as [o|]; [|destruct s; cbn; auto]. destruct s as [r|num hist]; cbn [mc_step].
  - destruct (mstep_books r o) as (_ & H & N). destruct (mr_step r o) as [r' a]. cbn in *. split; auto. rewrite H, N, app_length. lia.
  - assert (Z : forall (l : list (list mlabel * option (list Q) * list Z)), l = l ++ []) by (intro; now rewrite app_nil_r).
    destruct o as [l k c x|ls ks cs xs|[k|] x]; cbn; auto.
    destruct (same_length _ _ _ _); cbn; auto. destruct ks; cbn; auto.
    split; auto. rewrite app_length. cbn. lia.
Qed.

Lemma crun_books : forall h s,
  ms_hist (fst (mc_run s h)) = returned (ms_hist s) (combine h (snd (mc_run s h))) /\
  (ms_num s = List.length (ms_hist s) -> ms_num (fst (mc_run s h)) = List.length (ms_hist (fst (mc_run s h)))).
Proof.
  induction h as [|c h IH]; intro s; [cbn; auto|]. cbn [mc_run]. destruct (cstep_books s c) as [H N].
  destruct (mc_step s c) as [s1 a]. cbn [fst snd] in *. destruct (IH s1) as [H1 N1]. destruct (mc_run s1 h) as [s2 t].
  cbn [fst snd combine] in *. split; [|auto]. rewrite H1. destruct c as [o|]; cbn [returned]; [|now rewrite H].
  rewrite H. destruct o; cbn [record_of]; rewrite ?app_nil_r; auto. destruct a; rewrite ?app_nil_r; auto.
Qed.

Lemma minit_books labels indexes examples r : mr_init labels indexes examples = Ok r ->
  m_num r = O /\ m_hist r = [] /\ m_cost r = 0%Q.
Proof.
  unfold mr_init. intro H. destruct (negb _); [discriminate|]. destruct (label_shape labels); [|discriminate]. cbn [bind] in H.
  match goal with H : context[guard ?b _] |- _ => destruct b end; [|discriminate]. cbn [guard bind] in H. injection H as <-. auto.
Qed.
