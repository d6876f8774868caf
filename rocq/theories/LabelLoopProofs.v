(** Facts behind the theorems about labelling a pool by hand. *)
From Verif Require Import Base BaseFacts IndexModel IndexSpec IndexProofs MLModel StateModel OracleModel RepoModel QueryModel QuerySpec QueryProofs QueryProps
  BlindModel NoisyLoopSpec NoisyLoopProofs LabelLoopModel LabelLoopSpec.
From Coq Require Import QArith.
Local Open Scope Z_scope.

Lemma as_ints_ids c l : ids c l -> as_ints c = l.
Proof.
  unfold ids, elems, as_ints. revert l. induction (cont c) as [|v vs IH]; intros [|z l] E; cbn in E; try discriminate; [reflexivity|].
  injection E as E1 E2. cbn. rewrite E1, (IH _ E2). reflexivity.
Qed.

Lemma unique_sorted l : StronglySorted Z.lt l -> np_unique (map KInt l) = map KInt l.
Proof.
  induction l as [|a l IH]; intro S; [reflexivity|]. inversion S as [|? ? S1 F]; subst. cbn. unfold np_unique in IH. rewrite (IH S1).
  destruct l as [|b l]; [reflexivity|]. inversion F as [|? ? H1 H2]; subst. cbn. rewrite (proj2 (Z.compare_lt_iff a b) H1). reflexivity.
Qed.
Lemma no_strings l : existsb is_str (map KInt l) = false.
Proof. induction l; auto. Qed.
Lemma index_of_ok l : StronglySorted Z.lt l -> l <> [] -> WF (index_of l) /\ ids (index_of l) l.
Proof.
  intros S NE. split; [apply WF_reachable; apply reach_list|]. unfold index_of, ids, elems, ic_init.
  destruct l as [|a l]; [congruence|]. cbn [map]. set (v := VNp (KInt a) :: map (fun z => VNp (KInt z)) l). cbn [fst cont].
  rewrite map_map. cbn [norm]. rewrite map_id. unfold np_asarray, v. cbn [map norm]. rewrite map_map. cbn [norm].
  replace (KInt a :: map (fun x => KInt x) l) with (map KInt (a :: l)) by reflexivity. rewrite no_strings. apply unique_sorted, S.
Qed.

Lemma arange_sorted a n : StronglySorted Z.lt (arange a n).
Proof.
  unfold arange. generalize 0%nat as i. induction n as [|n IH]; intro i; cbn; constructor; [apply IH|].
  apply Forall_forall. intros x Hx. apply in_map_iff in Hx. destruct Hx as (j & <- & Hj). apply in_seq in Hj. lia.
Qed.
Lemma arange_first X_unlab X_lab : arange (Z.of_nat (List.length X_unlab)) (List.length X_lab) = first_indexes X_unlab X_lab.
Proof. unfold arange, first_indexes. apply map_ext. intro i. lia. Qed.

(** ** The strategy *)
Section Choice.
  Context {M : Type}.
  Variables (np : numpy) (k : learner vec M) (ms : measure).
  Hypotheses (NP : numpy_ok np) (AR : answers_rows k ms).

  Lemma rows_len {A} (X : list A) U xs : rows X U = Ok xs -> List.length xs = List.length U.
  Proof. unfold rows. intro E. apply mapM_length in E. congruence. Qed.
  Lemma rows_in {A} (X : list A) U : (forall i, In i U -> 0 <= i < Z.of_nat (List.length X)) -> exists xs, rows X U = Ok xs.
  Proof.
    induction U as [|i U IH]; intro B; [exists []; reflexivity|]. destruct IH as [xs E]; [intros; apply B; now right|].
    assert (Bi : 0 <= i < Z.of_nat (List.length X)) by (apply B; now left).
    unfold rows in *. cbn [mapM]. rewrite E. unfold py_index.
    destruct (Z.leb_spec 0 i); [|lia]. destruct (Z.ltb_spec i (Z.of_nat (List.length X))); [|lia]. cbn [andb].
    unfold py_nth. destruct (nth_error X (Z.to_nat i)) as [x|] eqn:N; [|apply nth_error_None in N; lia]. cbn [bind]. eexists. reflexivity.
  Qed.

  Lemma select_one (X : list vec) y m L U : U <> [] -> (forall i, In i U -> 0 <= i < Z.of_nat (List.length X)) ->
    exists i, uncertainty_select np k X y ms (Some m) L U 1 = Ok [i] /\ In i U.
  Proof.
    intros NE B. unfold uncertainty_select. cbn [guard Z.ltb Z.compare bind]. destruct (Z.leb_spec (Z.of_nat (List.length U)) 1) as [H|H].
    - destruct U as [|a [|b U]]; [congruence| |cbn in H; lia]. exists a. split; [reflexivity|now left].
    - cbn [the_model bind]. destruct (rows_in X U B) as [ux E]. rewrite E. cbn [bind]. pose proof (rows_len _ _ _ E) as LU.
      assert (BB : forall score sel, best_batch U score (Z.to_nat 1) sel -> exists i, Ok sel = Ok [i] /\ In i U).
      { intros score sel BB. destruct (C47_members _ _ _ _ _ BB) as (Ls & _ & I & _). destruct sel as [|a [|b sel]]; try discriminate Ls.
        exists a. split; [reflexivity|]. apply I. now left. }
      pose proof (AR m ux) as A. destruct (Z.leb_spec (Z.of_nat (List.length U)) 1) as [H'|_]; [lia|].
      assert (D : ms = Boundary \/ ms <> Boundary) by (destruct ms; auto; right; discriminate). destruct D as [D|D].
      + rewrite D in *. destruct A as (v & E2 & Lv).
        destruct (C47_boundary Z np U v 1 (outputs k m ux) NP (or_introl E2)) as (sel & E3 & S); [congruence|lia|].
        rewrite E3. cbn [snd]. destruct (Z.leb_spec (Z.of_nat (List.length U)) 1); [lia|]. eapply BB, S.
      + assert (A' : exists cols r, outputs k m ux = Mat cols r /\ (2 <= cols)%nat /\ List.length r = List.length ux /\ Forall (fun x => List.length x = cols) r).
        { destruct ms; try exact A. congruence. }
        destruct A' as (cols & r & E2 & C & Lr & F). rewrite E2.
        destruct (C47_uncertainty Z np ms U cols r 1 NP D C F) as (sel & E3 & S); [congruence|lia|].
        rewrite E3. destruct (Z.leb_spec (Z.of_nat (List.length U)) 1); [lia|]. destruct S as (score & _ & S). eapply BB, S.
  Qed.
End Choice.

Lemma select_blind {M} np (k : learner vec M) X y y' ms m L L' U : 
  uncertainty_select np k X y ms (Some m) L U 1 = uncertainty_select np k X y' ms (Some m) L' U 1.
Proof. reflexivity. Qed.

(** ** What is unlabelled *)
Lemma unlabelled_in n gs z : In z (unlabelled n gs) <-> exists i, z = Z.of_nat i /\ (i < n)%nat /\ ~ In i (map g_at gs).
Proof.
  unfold unlabelled. rewrite in_map_iff. split.
  - intros (i & <- & H). apply filter_In in H. destruct H as [H1 H2]. apply in_seq in H1. exists i. split; [reflexivity|]. split; [lia|].
    destruct (in_dec _ _ _); [discriminate|assumption].
  - intros (i & -> & H & N). exists i. split; [reflexivity|]. apply filter_In. split; [apply in_seq; lia|]. destruct (in_dec _ _ _); tauto.
Qed.
Lemma unlabelled_nil n : unlabelled n [] = arange 0 n.
Proof.
  unfold unlabelled, arange.
  replace (filter _ (seq 0 n)) with (seq 0 n); [reflexivity|]. symmetry. generalize 0%nat. induction n as [|n IH]; intro i; [reflexivity|].
  cbn. f_equal. apply IH.
Qed.
Lemma unlabelled_snoc n gs g : filter (fun x => negb (Z.eqb x (at_of g))) (unlabelled n gs) = unlabelled n (gs ++ [g]).
Proof.
  unfold unlabelled, at_of. rewrite map_app. cbn [map]. generalize (map g_at gs) as l. intro l. induction (seq 0 n) as [|i s IH]; [reflexivity|].
  cbn [filter]. destruct (in_dec Nat.eq_dec i l) as [I|I]; destruct (in_dec Nat.eq_dec i (l ++ [g_at g])) as [J|J].
  - exact IH.
  - elim J. apply in_or_app. now left.
  - cbn [map filter]. apply in_app_iff in J. destruct J as [J|[J|[]]]; [contradiction|]. subst i. rewrite Z.eqb_refl. exact IH.
  - cbn [map filter]. destruct (Z.eqb_spec (Z.of_nat i) (Z.of_nat (g_at g))) as [E|E].
    + elim J. apply in_or_app. right. left. lia.
    + cbn [negb]. f_equal. exact IH.
Qed.
Lemma unlabelled_len n gs : NoDup (map g_at gs) -> (forall g, In g gs -> (g_at g < n)%nat) ->
  (List.length (unlabelled n gs) + List.length gs = n)%nat.
Proof.
  intros ND B. unfold unlabelled. rewrite map_length. rewrite <- (map_length g_at gs).
  assert (B' : forall i, In i (map g_at gs) -> (i < n)%nat) by (intros i H; apply in_map_iff in H; destruct H as (g & <- & H); auto).
  revert ND B'. generalize (map g_at gs) as l. intros l ND B'. clear B.
  assert (P : Permutation (filter (fun i => if in_dec Nat.eq_dec i l then false else true) (seq 0 n) ++ l) (seq 0 n)).
  { apply NoDup_Permutation.
    - apply NoDup_app_intro; [apply NoDup_filter, seq_NoDup|exact ND|]. intros x H1 H2. apply filter_In in H1. destruct H1 as [_ H1].
      destruct (in_dec _ _ _); [discriminate|contradiction].
    - apply seq_NoDup.
    - intro x. rewrite in_app_iff, filter_In, in_seq. split.
      + intros [[H _]|H]; [lia|]. specialize (B' x H). lia.
      + intro H. destruct (in_dec Nat.eq_dec x l); [tauto|]. left. split; [lia|reflexivity]. }
  apply Permutation_length in P. rewrite app_length, seq_length in P. exact P.
Qed.

(** ** The repository *)
Lemma repo_takes r d v i (x : vec) : m_width r = None -> m_inst r = true -> m_feat r = d -> List.length x = d -> ~ In i (m_idx r) ->
  exists r', mr_update r [LNum v] [i] None (Some [x]) = (r', Ok tt) /\ m_width r' = None /\ m_inst r' = true /\ m_feat r' = d /\
    m_y r' = m_y r ++ [LNum v] /\ m_idx r' = m_idx r ++ [i] /\ m_X r' = m_X r ++ [x] /\ m_hist r' = m_hist r ++ [([LNum v], None, [i])] /\
    m_num r' = S (m_num r).
Proof.
  intros W I F L N. unfold mr_update. cbn. unfold mr_add, zmem.
  replace (existsb (Z.eqb i) (m_idx r)) with false.
  2:{ symmetry. apply not_true_iff_false. intro E. apply existsb_exists in E. destruct E as (a & Ha & E). apply Z.eqb_eq in E. subst. contradiction. }
  rewrite W. cbn [label_fits]. rewrite I, F, L, Nat.eqb_refl. eexists. split; [reflexivity|]. cbn. auto 10.
Qed.

Lemma set_nth_other {A} (l : list A) p q v : p <> q -> nth_error (set_nth p v l) q = nth_error l q.
Proof. revert p q. induction l as [|a l IH]; intros [|p] [|q] N; cbn; auto; try congruence. Qed.
Lemma set_nth_this {A} (l : list A) p v : (p < List.length l)%nat -> nth_error (set_nth p v l) p = Some v.
Proof. revert p. induction l as [|a l IH]; intros [|p] H; cbn in *; try lia; auto. apply IH. lia. Qed.
Lemma set_nth_len {A} (l : list A) p v : List.length (set_nth p v l) = List.length l.
Proof. revert p. induction l as [|a l IH]; intros [|p]; cbn; auto. Qed.

(** ** The loop *)
Section Rounds.
  Context {M : Type}.
  Variables (np : numpy) (k : learner vec M) (ms : measure) (trainer : nat -> list vec -> list Z -> M) (lbl : nat -> list vec -> res Z).
  Variables (X_lab : list vec) (y_lab : list Z) (X_unlab : list vec) (place : list Z).
  Hypotheses (NP : numpy_ok np) (AR : answers_rows k ms) (FD : fit_data X_lab y_lab X_unlab place).

  Let nu := List.length X_unlab.
  Let firsts := first_indexes X_unlab X_lab.

  Definition asked (gs : list given) : Prop := forall t g, nth_error gs t = Some g -> forall y' L',
    uncertainty_select np k (X_unlab ++ X_lab) y' ms (Some (trainer t X_lab y_lab)) L' (unlabelled nu (firstn t gs)) 1 = Ok [at_of g].

  Record written (gs : list given) (s : lstate M) : Prop := {
    w_given : given_by lbl X_unlab gs;
    w_asked : asked gs;
    w_width : m_width (repo s) = None;
    w_inst : m_inst (repo s) = true;
    w_feat : forall x, In x X_lab \/ In x X_unlab -> List.length x = m_feat (repo s);
    w_y : m_y (repo s) = map LNum (y_lab ++ map g_label gs);
    w_idx : m_idx (repo s) = firsts ++ map at_of gs;
    w_X : m_X (repo s) = X_lab ++ map g_x gs;
    w_hist : m_hist (repo s) = map (fun g => ([LNum (g_label g)], None, [at_of g])) gs;
    w_num : m_num (repo s) = List.length gs;
    w_own : labels_with (place ++ y_lab) gs (own_y s);
    w_mdl : mdl s = trainer (List.length gs) X_lab y_lab }.

  Record sets (gs : list given) (s : lstate M) : Prop := {
    s_labW : WF (lab s); s_lab : ids (lab s) (firsts ++ map at_of gs);
    s_unlW : WF (unl s); s_unl : ids (unl s) (unlabelled nu gs) }.

  Lemma given_bounds gs : given_by lbl X_unlab gs -> forall g, In g gs -> (g_at g < nu)%nat.
  Proof.
    intros [_ G] g I. apply In_nth_error in I. destruct I as [t E]. destruct (G t g E) as [N _]. apply nth_error_Some. unfold nu. congruence.
  Qed.
  Lemma first_not gs i : (i < nu)%nat -> ~ In i (map g_at gs) -> ~ In (Z.of_nat i) (firsts ++ map at_of gs).
  Proof.
    intros B N H. apply in_app_iff in H. destruct H as [H|H]; apply in_map_iff in H.
    - destruct H as (j & E & _). unfold nu in *. lia.
    - destruct H as (g & E & I). apply N. unfold at_of in E. apply Nat2Z.inj in E. rewrite <- E. apply in_map, I.
  Qed.
  Lemma firsts_ne gs : firsts ++ map at_of gs <> [].
  Proof. destruct FD as (NE & _). unfold firsts, first_indexes. destruct X_lab; [congruence|]. cbn. discriminate. Qed.

  Lemma asked_snoc gs g : asked gs -> (forall y' L',
      uncertainty_select np k (X_unlab ++ X_lab) y' ms (Some (trainer (List.length gs) X_lab y_lab)) L' (unlabelled nu gs) 1 = Ok [at_of g]) ->
    asked (gs ++ [g]).
  Proof.
    intros A H t g' E y' L'. destruct (Nat.lt_ge_cases t (List.length gs)) as [B|B].
    - rewrite nth_error_app1 in E by exact B. rewrite firstn_app. replace (t - List.length gs)%nat with 0%nat by lia. rewrite app_nil_r. apply (A t g' E).
    - rewrite nth_error_app2 in E by exact B. destruct (t - List.length gs)%nat as [|d] eqn:D; [|destruct d; discriminate]. injection E as <-.
      replace t with (List.length gs) by lia. rewrite firstn_app, firstn_all, Nat.sub_diag, app_nil_r. apply H.
  Qed.
  Lemma given_snoc gs g : given_by lbl X_unlab gs -> ~ In (g_at g) (map g_at gs) -> nth_error X_unlab (g_at g) = Some (g_x g) ->
    lbl (List.length gs) [g_x g] = Ok (g_label g) -> given_by lbl X_unlab (gs ++ [g]).
  Proof.
    intros [ND G] N E1 E2. split.
    - rewrite map_app. apply NoDup_app_intro; [exact ND|repeat constructor; intros []|]. intros x H [<-|[]]. contradiction.
    - intros t g' E. destruct (Nat.lt_ge_cases t (List.length gs)) as [B|B].
      + rewrite nth_error_app1 in E by exact B. apply (G t g' E).
      + rewrite nth_error_app2 in E by exact B. destruct (t - List.length gs)%nat as [|d] eqn:D; [|destruct d; discriminate]. injection E as <-.
        replace t with (List.length gs) by lia. split; assumption.
  Qed.
  Lemma own_snoc gs g y : labels_with (place ++ y_lab) gs y -> (g_at g < nu)%nat -> ~ In (g_at g) (map g_at gs) ->
    labels_with (place ++ y_lab) (gs ++ [g]) (write_label y (at_of g) (g_label g)).
  Proof.
    intros (Ly & W & O) B N. assert (Bg : (g_at g < List.length y)%nat).
    { rewrite Ly, app_length. destruct FD as (_ & _ & Lp & _). unfold nu in B. lia. }
    unfold write_label, py_index, at_of. destruct (Z.leb_spec 0 (Z.of_nat (g_at g))); [|lia].
    destruct (Z.ltb_spec (Z.of_nat (g_at g)) (Z.of_nat (List.length y))); [|lia]. cbn [andb]. rewrite Nat2Z.id. split; [|split].
    - rewrite set_nth_len. exact Ly.
    - intros g' I. apply in_app_iff in I. destruct I as [I|[<-|[]]].
      + rewrite set_nth_other; [apply W, I|]. intro E. apply N. rewrite E. apply in_map, I.
      + apply set_nth_this, Bg.
    - intros i J. rewrite map_app, in_app_iff in J. rewrite set_nth_other; [apply O; tauto|]. intro E. apply J. right. left. exact E.
  Qed.

  (** One round: it stops because the pool is empty or because the labelling code raises, and otherwise writes one label. *)
  Lemma one_round gs s : written gs s -> sets gs s ->
    let r := label_round np k ms trainer lbl X_lab y_lab X_unlab (List.length gs) s in
    (List.length gs = nu /\ snd r = Err IndexErr /\ written gs (fst r) /\ sets gs (fst r)) \/
    exists i x, (i < nu)%nat /\ ~ In i (map g_at gs) /\ nth_error X_unlab i = Some x /\
      (forall y' L', uncertainty_select np k (X_unlab ++ X_lab) y' ms (Some (trainer (List.length gs) X_lab y_lab)) L' (unlabelled nu gs) 1 = Ok [Z.of_nat i]) /\
      match lbl (List.length gs) [x] with
      | Ok v => let gs' := gs ++ [{| g_at := i; g_x := x; g_label := v |}] in snd r = Ok tt /\ written gs' (fst r) /\ sets gs' (fst r)
      | Err e => snd r = Err e /\ written gs (fst r) /\
          ids (lab (fst r)) (firsts ++ map at_of gs ++ [Z.of_nat i]) /\ ids (unl (fst r)) (filter (fun z => negb (z =? Z.of_nat i)) (unlabelled nu gs))
      end.
  Proof.
    intros W S. cbv zeta. destruct W as [Gv As Wi In_ Ft Yy Id Xx Hi Nm Ow Md]. destruct S as [LW LI UW UI].
    pose proof (given_bounds gs Gv) as GB. pose proof (unlabelled_len nu gs (proj1 Gv) GB) as LEN.
    unfold label_round. rewrite (as_ints_ids _ _ LI), (as_ints_ids _ _ UI), Md.
    destruct (unlabelled nu gs) as [|u us] eqn:EU.
    - left. split; [cbn in LEN; lia|]. unfold uncertainty_select. cbn. split; [reflexivity|]. split; constructor; cbn; auto. rewrite EU. exact UI.
    - right. rewrite <- EU in *.
      destruct (select_one np k ms NP AR (X_unlab ++ X_lab) (own_y s) (trainer (List.length gs) X_lab y_lab) (firsts ++ map at_of gs) (unlabelled nu gs)) as (z & E & Iz).
      { rewrite EU. discriminate. }
      { intros z Hz. apply unlabelled_in in Hz. destruct Hz as (i & -> & B & _). rewrite app_length. unfold nu in B. lia. }
      rewrite E. apply unlabelled_in in Iz. destruct Iz as (i & -> & B & N). destruct (nth_error X_unlab i) as [x|] eqn:Ex; [|apply nth_error_None in Ex; unfold nu in B; lia].
      exists i, x. split; [exact B|]. split; [exact N|]. split; [exact Ex|].
      assert (SEL : forall y' L', uncertainty_select np k (X_unlab ++ X_lab) y' ms (Some (trainer (List.length gs) X_lab y_lab)) L' (unlabelled nu gs) 1 = Ok [Z.of_nat i]).
      { intros y' L'. rewrite <- E. apply select_blind. }
      split; [exact SEL|]. cbn [map].
      destruct (add_int (lab s) _ (Z.of_nat i) LW LI (firsts_ne gs) (first_not gs i B N)) as (L1 & w1 & E1 & LW1 & LI1). rewrite E1.
      destruct (drop_int (unl s) _ (Z.of_nat i) UW UI) as (U1 & w2 & E2 & UW1 & UI1). rewrite E2.
      assert (Er : rows X_unlab [Z.of_nat i] = Ok [x]).
      { unfold rows. cbn [mapM]. unfold py_index. destruct (Z.leb_spec 0 (Z.of_nat i)); [|lia].
        destruct (Z.ltb_spec (Z.of_nat i) (Z.of_nat (List.length X_unlab))); [|unfold nu in B; lia]. cbn [andb]. rewrite Nat2Z.id. unfold py_nth. rewrite Ex. reflexivity. }
      rewrite Er. cbv beta iota. rewrite <- app_assoc in LI1. destruct (lbl (List.length gs) [x]) as [v|e] eqn:El.
      + set (g := {| g_at := i; g_x := x; g_label := v |}).
        destruct (repo_takes (repo s) (m_feat (repo s)) v (Z.of_nat i) x Wi In_ eq_refl) as (r' & E3 & Wi' & In' & Ft' & Yy' & Id' & Xx' & Hi' & Nm').
        { apply Ft. right. eapply nth_error_In, Ex. }
        { rewrite Id. apply first_not; assumption. }
        rewrite E3. cbn [fst snd fold_left]. split; [reflexivity|]. split.
        * constructor; cbn [repo own_y mdl]; auto.
          -- apply given_snoc; assumption.
          -- apply asked_snoc; assumption.
          -- intros x' Hx'. rewrite Ft'. apply Ft, Hx'.
          -- rewrite Yy', Yy, !map_app, <- app_assoc. reflexivity.
          -- rewrite Id', Id, map_app, <- app_assoc. reflexivity.
          -- rewrite Xx', Xx, map_app, <- app_assoc. reflexivity.
          -- rewrite Hi', Hi, map_app. reflexivity.
          -- rewrite Nm', Nm, app_length. cbn. lia.
          -- apply (own_snoc gs g (own_y s)); assumption.
          -- rewrite app_length. cbn [List.length]. now rewrite Nat.add_1_r.
        * constructor; cbn [lab unl]; auto.
          -- rewrite map_app. exact LI1.
          -- rewrite <- unlabelled_snoc. exact UI1.
      + cbn [fst snd]. split; [reflexivity|]. split; [|split; assumption]. constructor; auto.
  Qed.

  Definition ended (n : nat) (gs : list given) (s : lstate M) (o : ending) : Prop :=
    match o with
    | Finished => List.length gs = n /\ sets gs s
    | Stopped e =>
        (e = IndexErr /\ List.length gs = nu /\ (nu < n)%nat /\ sets gs s) \/
        (exists i x, (List.length gs < n)%nat /\ (i < nu)%nat /\ ~ In i (map g_at gs) /\ nth_error X_unlab i = Some x /\ lbl (List.length gs) [x] = Err e /\
          ids (lab s) (firsts ++ map at_of gs ++ [Z.of_nat i]) /\ ids (unl s) (filter (fun z => negb (z =? Z.of_nat i)) (unlabelled nu gs)))
    end.

  Lemma all_rounds n : forall gs s, written gs s -> sets gs s ->
    let '(s', o) := label_rounds np k ms trainer lbl X_lab y_lab X_unlab n (List.length gs) s in
    exists gs', written gs' s' /\ ended (List.length gs + n) gs' s' o.
  Proof.
    induction n as [|n IH]; intros gs s W St.
    - cbn. exists gs. split; [exact W|]. split; [lia|exact St].
    - cbn [label_rounds]. pose proof (one_round gs s W St) as R. cbv zeta in R.
      destruct (label_round np k ms trainer lbl X_lab y_lab X_unlab (List.length gs) s) as [s1 r1]. cbn [fst snd] in R.
      destruct R as [(L & -> & W1 & S1)|(i & x & B & N & Ex & _ & R)].
      + exists gs. split; [exact W1|]. left. split; [reflexivity|]. split; [exact L|]. split; [lia|exact S1].
      + destruct (lbl (List.length gs) [x]) as [v|e] eqn:El.
        * destruct R as (-> & W1 & S1). specialize (IH _ _ W1 S1). rewrite app_length in IH. cbn [List.length] in IH.
          replace (List.length gs + 1)%nat with (S (List.length gs)) in IH by lia. replace (List.length gs + S n)%nat with (S (List.length gs) + n)%nat by lia. exact IH.
        * destruct R as (-> & W1 & I1 & I2). exists gs. split; [exact W1|]. right. exists i, x. repeat (split; [first [assumption|lia]|]). exact I2.
  Qed.

  Lemma from_start n : exists s o gs, label_main np k ms trainer lbl X_lab y_lab X_unlab place n = Ok (s, o) /\ written gs s /\ ended n gs s o.
  Proof.
    pose proof FD as (NE & Ly & Lp & d & D & F). unfold label_main. fold nu.
    assert (IL : WF (index_of (arange (Z.of_nat nu) (List.length X_lab))) /\ ids (index_of (arange (Z.of_nat nu) (List.length X_lab))) firsts).
    { unfold nu, firsts. rewrite <- arange_first. apply index_of_ok; [apply arange_sorted|]. rewrite arange_first. pose proof (firsts_ne []) as H. cbn in H. rewrite app_nil_r in H. exact H. }
    assert (IU : WF (index_of (arange 0 nu)) /\ ids (index_of (arange 0 nu)) (unlabelled nu [])).
    { rewrite unlabelled_nil. destruct nu as [|m] eqn:E; [split; [apply WF_reachable, reach_list|reflexivity]|].
      apply index_of_ok; [apply arange_sorted|]. unfold arange. cbn. discriminate. }
    destruct IL as [WL IL], IU as [WU IU].
    assert (ER : exists r, mr_init (map LNum y_lab) (as_ints (index_of (arange (Z.of_nat nu) (List.length X_lab)))) (Some X_lab) = Ok r /\
      m_width r = None /\ m_inst r = true /\ m_feat r = d /\ m_y r = map LNum y_lab /\ m_idx r = firsts /\ m_X r = X_lab /\ m_hist r = [] /\ m_num r = 0%nat).
    { rewrite (as_ints_ids _ _ IL). unfold mr_init.
      assert (Lf : List.length firsts = List.length X_lab) by (unfold firsts, first_indexes; now rewrite map_length, seq_length).
      unfold same_length. rewrite map_length, Lf, Ly, !Nat.eqb_refl. cbn [andb negb].
      assert (Sh : label_shape (map LNum y_lab) = Ok None).
      { destruct y_lab as [|v vs]; [destruct X_lab; [congruence|discriminate]|]. unfold label_shape. cbn [map].
        assert (H : forallb (fun l => match l with LNum _ => true | LVec _ => false end) (map LNum vs) = true) by (clear; induction vs; auto).
        cbn. rewrite ?H. reflexivity. }
      rewrite Sh. cbn [bind]. destruct X_lab as [|x xs] eqn:EX; [congruence|].
      assert (Dx : List.length x = d) by (apply F; left; now left).
      assert (FB : forallb (fun x0 => Nat.eqb (List.length x0) (List.length x)) (x :: xs) = true).
      { apply forallb_forall. intros x0 H. apply Nat.eqb_eq. rewrite Dx. apply F. now left. }
      rewrite FB. destruct (Nat.ltb_spec 0 (List.length x)); [|lia]. cbn [andb guard bind]. eexists. split; [reflexivity|]. cbn. auto 10. }
    destruct ER as (r & ER & H1 & H2 & H3 & H4 & H5 & H6 & H7 & H8). rewrite ER. cbn [bind].
    set (s0 := {| lab := _; unl := _; repo := r; own_y := _; mdl := _ |}).
    assert (W : written [] s0).
    { constructor; cbn; auto; try (now rewrite app_nil_r).
      - split; [constructor|]. intros [|t] g E; discriminate.
      - intros [|t] g E; discriminate.
      - intros x Hx. rewrite H3. apply F, Hx.
      - split; [reflexivity|]. split; [intros g []|reflexivity]. }
    assert (S : sets [] s0) by (constructor; cbn; rewrite ?app_nil_r; assumption).
    pose proof (all_rounds n [] s0 W S) as A. cbn [List.length] in A. destruct (label_rounds _ _ _ _ _ _ _ _ n 0 s0) as [s o]. destruct A as (gs & A1 & A2).
    exists s, o, gs. auto.
  Qed.
End Rounds.

Lemma asked_same {M} np (k : learner vec M) ms trainer X_lab y_lab X_unlab gs1 : forall gs2, List.length gs1 = List.length gs2 ->
  asked np k ms trainer X_lab y_lab X_unlab gs1 -> asked np k ms trainer X_lab y_lab X_unlab gs2 -> map g_at gs1 = map g_at gs2.
Proof.
  induction gs1 as [|g1 gs1 IH] using rev_ind; intros gs2 L A1 A2; [destruct gs2; [reflexivity|discriminate]|].
  destruct (exists_last (l := gs2)) as (gs2' & g2 & ->); [intros ->; rewrite app_length in L; cbn in L; lia|].
  rewrite !app_length in L. cbn in L. assert (L' : List.length gs1 = List.length gs2') by lia.
  assert (P : forall gs g, asked np k ms trainer X_lab y_lab X_unlab (gs ++ [g]) -> asked np k ms trainer X_lab y_lab X_unlab gs /\
    uncertainty_select np k (X_unlab ++ X_lab) [] ms (Some (trainer (List.length gs) X_lab y_lab)) [] (unlabelled (List.length X_unlab) gs) 1 = Ok [at_of g]).
  { intros gs g A. split.
    - intros t g' E y' L0. assert (B : (t < List.length gs)%nat) by (apply nth_error_Some; congruence).
      specialize (A t g'). rewrite nth_error_app1, firstn_app in A by exact B. replace (t - List.length gs)%nat with 0%nat in A by lia. rewrite app_nil_r in A. apply A, E.
    - specialize (A (List.length gs) g). rewrite nth_error_app2, firstn_app, firstn_all, Nat.sub_diag, app_nil_r in A by lia. apply A. reflexivity. }
  destruct (P _ _ A1) as [B1 C1], (P _ _ A2) as [B2 C2]. specialize (IH gs2' L' B1 B2).
  unfold unlabelled in *. rewrite <- L', <- IH in C2. rewrite C1 in C2. injection C2 as C2. unfold at_of in C2. rewrite !map_app, IH. cbn. f_equal. f_equal. lia.
Qed.
