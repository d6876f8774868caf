(** Proofs about the multi-label oracle, the pool of oracles and the votes. *)
From Verif Require Import Base BaseFacts IndexModel IndexProofs MLModel MLSpec MLProofs StateModel StateProofs StateProofs2
  Dict OracleModel OracleSpec OracleProofs.
From Coq Require Import String QArith.
Local Open Scope Z_scope.

(** ** Multi-label oracle *)
Section MO.
  Context {A : Type}.
  Implicit Type o : moracle A.

  Definition entry_fact (costf : bool) (lc : option crow) (e : list A * Z * option vec * option crow) :=
    let '(l, k, _, c) := e in (k, (l, stored_cost costf lc c)).

  Lemma mo_add_one_spec o l k x c o' r : mo_add_one o l k x c = (o', r) ->
    mo_m o' = mo_m o /\ mo_inst o' = mo_inst o /\ mo_costf o' = mo_costf o /\ mo_label_cost o' = mo_label_cost o /\
    match mind_get k (mo_ind o) with
    | Some _ => o' = o /\ r = Ok true
    | None =>
        (row_ok (mo_m o) (mo_inst o) (mo_costf o) (mo_label_cost o) (l, k, x, c) = true /\
         mo_ind o' = mind_set k (l, stored_cost (mo_costf o) (mo_label_cost o) c) (mo_ind o) /\ r = Ok false) \/
        (row_ok (mo_m o) (mo_inst o) (mo_costf o) (mo_label_cost o) (l, k, x, c) = false /\
         mo_ind o' = mo_ind o /\ exists e, r = Err e)
    end.
  Proof.
    unfold mo_add_one. intro H. destruct (mind_get k (mo_ind o)) as [v|] eqn:G.
    - injection H as <- <-. repeat split.
    - unfold row_ok. destruct (Nat.eqb (List.length l) (mo_m o)) eqn:EL; cbn [negb andb] in *.
      2:{ injection H as <- <-. do 4 (split; [reflexivity|]). right. eauto. }
      destruct (mo_inst o) eqn:EI; [destruct x as [x|]; cbn [is_some implb andb] in *|]; cbn [implb andb].
      2:{ injection H as <- <-. do 4 (split; [reflexivity || auto|]). right. eauto. }
      all: destruct (mo_costf o) eqn:EC; cbn [mo_with_exa mo_costf mo_label_cost mo_m mo_ind] in H; rewrite ?EC in H;
        unfold stored_cost.
      1,3: destruct (match c with Some c0 => Some c0 | None => mo_label_cost o end) as [[q|q|q]|] eqn:ES;
        cbn [crow_len] in H; try destruct (Nat.eqb (List.length q) (mo_m o)) eqn:EQ; cbn [negb] in H;
        injection H as <- <-; cbn; rewrite ?EI, ?EC; do 4 (split; [reflexivity|]);
        ((left; repeat split; fail) || (right; repeat split; eauto; fail)).
      all: injection H as <- <-; cbn; rewrite ?EI, ?EC; do 4 (split; [reflexivity|]); left; repeat split.
  Qed.

  Lemma mo_run_spec h : forall o i,
    mo_m (mo_run o h) = mo_m o /\ mo_costf (mo_run o h) = mo_costf o /\
    mo_inst (mo_run o h) = mo_inst o /\
    mind_get i (mo_ind (mo_run o h)) =
    match mind_get i (mo_ind o) with
    | Some v => Some v
    | None => earliest Z.eq_dec i (map (entry_fact (mo_costf o) (mo_label_cost o))
                (filter (row_ok (mo_m o) (mo_inst o) (mo_costf o) (mo_label_cost o)) h))
    end.
  Proof.
    induction h as [|e h IH]; intros o i.
    - cbn. repeat split. now destruct (mind_get i (mo_ind o)).
    - destruct e as [[[l k] x] c]. change (mo_run o ((l, k, x, c) :: h)) with (mo_run (fst (mo_add_one o l k x c)) h).
      destruct (mo_add_one o l k x c) as [o1 r] eqn:E. apply mo_add_one_spec in E. cbn [fst].
      destruct E as (M & I & C & L & E). specialize (IH o1 i). rewrite M, I, C, L in IH.
      destruct IH as (M' & C' & I' & IH). split; [auto|]. split; [auto|]. split; [auto|]. rewrite IH. clear IH.
      destruct (mind_get k (mo_ind o)) as [v|] eqn:G.
      + destruct E as [-> _]. destruct (mind_get i (mo_ind o)) eqn:Gi; auto.
        cbn [filter]. destruct (row_ok _ _ _ _ (l, k, x, c)); auto. cbn.
        destruct (Z.eq_dec i k) as [->|]; [congruence|reflexivity].
      + destruct E as [(OK & D & _)|(OK & D & _)]; rewrite D.
        * unfold mind_get, mind_set in *. rewrite dget_dset by apply Z.eqb_eq. cbn [filter]. rewrite OK. cbn.
          destruct (Z.eqb_spec i k) as [->|n].
          -- rewrite G. destruct (Z.eq_dec k k); [reflexivity|contradiction].
          -- destruct (Z.eq_dec i k); [contradiction|]. reflexivity.
        * cbn [filter]. rewrite OK. reflexivity.
  Qed.

  Lemma map_repeat' {X Y} (f : X -> Y) x n : map f (repeat x n) = repeat (f x) n.
  Proof. induction n; cbn; congruence. Qed.

  Definition has_cost (cost : mcost) : bool := match cost with MCNone => false | _ => true end.

  Lemma mo_init_spec labels examples indexes cost o : mo_init labels examples indexes cost = Ok o ->
    mo_inst o = is_some examples /\ mo_costf o = has_cost cost /\ mo_label_cost o = common_cost (mo_m o) cost /\
    labels <> [] /\ (mo_m o > 0)%nat /\ Forall (fun r => List.length r = mo_m o) labels /\
    (forall i, mind_get i (mo_ind o) = latest Z.eq_dec i (initial_rows (mo_m o) labels indexes cost)).
  Proof.
    unfold mo_init. destruct labels as [|[|a r] rest]; try discriminate.
    set (m := List.length (a :: r)). set (labels := (a :: r) :: rest).
    destruct (forallb _ labels) eqn:EF; cbn [negb]; [|discriminate].
    assert (RL : Forall (fun r => List.length r = m) labels).
    { apply Forall_forall. intros x Hx. rewrite forallb_forall in EF. apply EF in Hx. now apply Nat.eqb_eq. }
    assert (NE : labels <> []) by discriminate. assert (Mp : (m > 0)%nat) by (cbn; lia).
    clearbody labels m. clear EF. unfold mo_build.
    destruct (same_length labels examples indexes _) eqn:E; cbn [negb]; [|discriminate].
    apply same_length_spec in E. destruct E as (Hx & Hk & Hc).
    intro H. assert (mo_m o = m) as Em by now injection H as <-. rewrite Em.
    assert (mo_inst o = is_some examples) as Ei by (injection H as <-; now destruct examples). 
    assert (mo_label_cost o = snd (mo_costs (List.length labels) m cost)) as El by now injection H as <-.
    assert (mo_costf o = is_some (fst (mo_costs (List.length labels) m cost))) as Ec
      by (injection H as <-; cbn; now destruct (fst _)).
    split; [auto|]. split.
    { rewrite Ec. destruct cost as [|arr l|arr l]; cbn; auto. now destruct (Nat.eqb _ _). }
    split.
    { rewrite El. destruct cost as [|arr l|arr l]; cbn; auto. now destruct (Nat.eqb _ _). }
    split; [auto|]. split; [auto|]. split; [auto|]. intro i.
    assert (EI : mo_ind o = dset_all Z.eqb (combine (match indexes with Some l => l | None => zrange (Z.of_nat (List.length labels)) end)
       (combine labels (match fst (mo_costs (List.length labels) m cost) with Some l => map Some l | None => repeat None (List.length labels) end))) [])
      by now injection H as <-.
    unfold mind_get. rewrite EI. rewrite (dset_all_latest _ Z.eq_dec Z.eqb_eq).
    match goal with |- match ?x with _ => _ end = ?y => assert (X : x = y); [|rewrite X; now destruct y] end.
    f_equal.
    set (ks := match indexes with Some l => l | None => _ end).
    set (cs := match fst _ with Some l => map Some l | None => _ end).
    assert (LK : List.length ks = List.length labels).
    { unfold ks. destruct indexes; auto. rewrite zrange_length. lia. }
    assert (LC : List.length cs = List.length labels).
    { unfold cs. destruct (fst _); [rewrite map_length; auto|apply repeat_length]. }
    rewrite (combine_seq 0 ([], None)) by (rewrite combine_length; lia). rewrite LK.
    unfold initial_rows. apply map_ext_in. intros j Hj. apply in_seq in Hj. rewrite combine_nth by lia.
    f_equal; [|f_equal].
    - unfold ks. destruct indexes; auto. unfold zrange. rewrite Nat2Z.id.
      now rewrite (nth_map_seq (fun i => Z.of_nat i)) by lia.
    - unfold cs, initial_cost. clear cs LC EI El Ec H. destruct cost as [|arr l|arr l]; cbn in *.
      + apply nth_repeat.
      + destruct (Nat.eqb (List.length l) m); cbn in *.
        * rewrite map_repeat'. rewrite nth_indep with (d' := Some (CArr l)) by (rewrite repeat_length; lia). apply nth_repeat.
        * assert (L : List.length (map CNum l) = List.length labels) by auto. rewrite map_length in L.
          rewrite map_map. destruct (nth_error l j) eqn:En.
          -- cbn. erewrite nth_error_nth; [reflexivity|]. now rewrite nth_error_map, En.
          -- apply nth_error_None in En. lia.
      + assert (L : List.length (map (if arr then CArr else CLst) l) = List.length labels) by auto. rewrite map_length in L.
        rewrite map_map. destruct (nth_error l j) eqn:En.
        -- cbn. erewrite nth_error_nth; [reflexivity|]. now rewrite nth_error_map, En.
        -- apply nth_error_None in En. lia.
  Qed.

  (** Cost rows are present exactly when the oracle works with costs. *)
  Definition costs_fit (o : moracle A) : Prop :=
    forall i row c, mind_get i (mo_ind o) = Some (row, c) -> is_some c = mo_costf o.

  Lemma earliest_in {K V} dec (k : K) (l : list (K * V)) v : earliest dec k l = Some v -> In (k, v) l.
  Proof.
    induction l as [|[k' w] l IH]; cbn; [discriminate|]. destruct (dec k k') as [->|]; intro H;
      [injection H as ->; now left|right; auto].
  Qed.

  Lemma mo_history labels examples indexes cost o h : mo_init labels examples indexes cost = Ok o ->
    mo_m (mo_run o h) = mo_m o /\ mo_inst (mo_run o h) = is_some examples /\ mo_costf (mo_run o h) = has_cost cost /\
    (forall i, mind_get i (mo_ind (mo_run o h)) = row_known (mo_m o) labels examples indexes cost h i) /\
    costs_fit (mo_run o h).
  Proof.
    intro H. pose proof (mo_init_spec _ _ _ _ _ H) as (I & C & L & NE & Mp & RL & D).
    assert (RK : forall i, mind_get i (mo_ind (mo_run o h)) = row_known (mo_m o) labels examples indexes cost h i).
    { intro i. destruct (mo_run_spec h o i) as (_ & _ & _ & R). rewrite R, D, I, C, L. unfold row_known. reflexivity. }
    destruct (mo_run_spec h o 0) as (M' & C' & I' & _).
    split; [auto|]. split; [congruence|]. split; [congruence|]. split; [auto|].
    intros i row c G. rewrite RK in G. rewrite C', C. unfold row_known in G.
    destruct (latest Z.eq_dec i (initial_rows (mo_m o) labels indexes cost)) as [v|] eqn:El.
    - injection G as ->. apply latest_in in El. unfold initial_rows in El. apply in_map_iff in El.
      destruct El as (j & E & Hj). injection E as _ _ <-. apply in_seq in Hj. clear - H Hj.
      assert (X : exists m, mo_build m labels examples indexes cost = Ok o /\ m = mo_m o).
      { unfold mo_init in H. destruct labels as [|[|a r] rest]; try discriminate.
        destruct (negb _); [discriminate|]. eexists. split; [exact H|]. unfold mo_build in H.
        destruct (negb _); [discriminate|]. now injection H as <-. }
      destruct X as (m & X & <-). unfold mo_build in X.
      destruct (same_length labels examples indexes _) eqn:E; cbn [negb] in X; [|discriminate]. clear X.
      apply same_length_spec in E. destruct E as (_ & _ & Hc).
      destruct cost as [|arr l|arr l]; cbn in *; auto.
      + destruct (Nat.eqb (List.length l) m); cbn in *; auto.
        specialize (Hc _ eq_refl). rewrite map_length in Hc. destruct (nth_error l j) eqn:En; auto.
        apply nth_error_None in En. lia.
      + specialize (Hc _ eq_refl). rewrite map_length in Hc. destruct (nth_error l j) eqn:En; auto.
        apply nth_error_None in En. lia.
    - apply earliest_in in G. apply in_map_iff in G. destruct G as ([[[l k] x] c'] & E & F).
      apply filter_In in F. destruct F as [_ F]. injection E as _ _ <-. unfold row_ok in F.
      unfold stored_cost in *. destruct cost; cbn in *; auto;
        rewrite !andb_true_iff in F; destruct F as [_ F];
        destruct c' as [|]; cbn; auto; destruct (Nat.eqb _ _); cbn in *; auto; discriminate.
  Qed.

  Lemma take_spec {T} (row : list T) js r : take row js = Ok r <->
    Forall2 (fun j x => nth_error row (Z.to_nat j) = Some x) js r.
  Proof.
    unfold take. revert r. induction js as [|j js IH]; cbn; intro r.
    - split; intro H; [injection H as <-; constructor|inversion H; auto].
    - unfold py_nth. destruct (nth_error row (Z.to_nat j)) as [x|] eqn:E; cbn.
      + destruct (mapM _ js) as [ys|e] eqn:M; cbn.
        * split; intro H.
          -- injection H as <-. constructor; auto. now apply IH.
          -- inversion H; subst. replace y with x in * by congruence.
             match goal with X : Forall2 _ js l' |- _ => apply IH in X; injection X as <- end. reflexivity.
        * split; intro H; [discriminate|]. inversion H; subst.
          match goal with X : Forall2 _ js l' |- _ => apply IH in X; discriminate end.
      + split; intro H; [discriminate|]. inversion H; subst. congruence.
  Qed.

  Lemma Forall2_map_l {X Y Z'} (f : X -> Y) (R : Y -> Z' -> Prop) l r :
    Forall2 (fun x z => R (f x) z) l r <-> Forall2 R (map f l) r.
  Proof.
    revert r. induction l as [|x l IH]; intro r; cbn; split; intro H; inversion H; subst; constructor; auto; now apply IH.
  Qed.

  Lemma asked_spec m k : asked m k =
    match k with ILong _ _ => Err ValueErr | _ =>
      if scalar_ok (Z.of_nat m) k then Ok (map snd (denoted (Z.of_nat m) k)) else Err AssertErr end.
  Proof.
    destruct k as [i|i j|i js|i js|i j]; cbn; auto.
    - now rewrite map_map, map_id.
    - now rewrite map_map, map_id.
    - now rewrite map_map, map_id.
  Qed.

  Lemma mo_query_one_spec o k a : costs_fit o ->
    (mo_query_one o k = Ok a <-> right_answer (mo_m o) (fun i => mind_get i (mo_ind o)) k a).
  Proof.
    intro CF. unfold mo_query_one, right_answer. rewrite asked_spec.
    assert (NL : (forall i j, k <> ILong i j) <-> match k with ILong _ _ => False | _ => True end).
    { destruct k; split; intros; try discriminate; auto. eapply H; reflexivity. }
    rewrite NL. destruct (match k with ILong _ _ => Err ValueErr | _ => _ end) as [js|e] eqn:EJ.
    2:{ cbn. split; [discriminate|]. intros (X & S & _). destruct k; try contradiction; rewrite S in EJ; discriminate. }
    assert (EJ' : match k with ILong _ _ => False | _ => True end /\ scalar_ok (Z.of_nat (mo_m o)) k = true /\
    js = map snd (denoted (Z.of_nat (mo_m o)) k)).
    { destruct k; try discriminate; destruct (scalar_ok _ _) eqn:S; try discriminate; injection EJ as <-; auto. }
    destruct EJ' as (X & S & EJs). cbn [bind]. clear EJ.
    destruct (mind_get (ins_of k) (mo_ind o)) as [[row c]|] eqn:G.
    2:{ split; [discriminate|]. intros (_ & _ & ? & ? & ? & _). discriminate. }
    pose proof (CF _ _ _ G) as F.
    assert (T : forall ls, take row js = Ok ls <->
       Forall2 (fun p l => nth_error row (Z.to_nat (snd p)) = Some l) (denoted (Z.of_nat (mo_m o)) k) ls).
    { intro ls. rewrite take_spec, EJs. now rewrite <- Forall2_map_l. }
    destruct a as [ls qs]. split.
    - intro H. destruct (take row js) as [ls'|e] eqn:ET; cbn in H; [|discriminate].
      split; [auto|]. split; [auto|]. exists row, c. split; [auto|].
      destruct (mo_costf o) eqn:EC.
      + destruct c as [[cs|cs|q]|]; try discriminate. destruct (take cs js) as [cs'|e] eqn:EQ; cbn in H; [|discriminate].
        injection H as <- <-. cbn. split; [eauto|]. split; [now apply T|]. apply take_spec in EQ. rewrite EJs in EQ.
        now rewrite <- Forall2_map_l in EQ.
      + injection H as <- <-. destruct c; [discriminate|]. cbn. split; [auto|]. split; [now apply T|].
        rewrite EJs. clear. generalize (denoted (Z.of_nat (mo_m o)) k). intro l.
        induction l; cbn; constructor; auto.
    - intros (_ & _ & row' & c' & E & P & H1 & H2). injection E as <- <-. cbn in H1, H2. apply T in H1. rewrite H1. cbn.
      destruct (mo_costf o) eqn:EC.
      + destruct P as [->|[cs ->]]; [discriminate|]. cbn in H2.
        assert (take cs js = Ok qs) as -> by (apply take_spec; rewrite EJs; now rewrite <- Forall2_map_l). reflexivity.
      + destruct c; [discriminate|]. cbn in H2. f_equal. f_equal. rewrite EJs. clear - H2.
        induction H2 as [|? ? ? ? E _ IH]; cbn; auto. rewrite E. f_equal. exact IH.
  Qed.

  Lemma mapM_iff {X Y} (f : X -> res Y) (R : X -> Y -> Prop) : (forall x y, f x = Ok y <-> R x y) ->
    forall l r, mapM f l = Ok r <-> Forall2 R l r.
  Proof.
    intros HR l. induction l as [|x l IH]; cbn; intro r.
    - split; intro H; [injection H as <-; constructor|inversion H; auto].
    - split; intro H.
      + destruct (f x) as [y|] eqn:E; cbn in H; [|discriminate]. destruct (mapM f l) as [ys|] eqn:M; cbn in H; [|discriminate].
        injection H as <-. constructor; [now apply HR|now apply IH].
      + inversion H; subst. apply HR in H2. rewrite H2. cbn. apply IH in H4. rewrite H4. reflexivity.
  Qed.

  Lemma mo_query_spec o ks lss css : costs_fit o ->
    (mo_query o ks = Ok (lss, css) <->
     ks <> [] /\ List.length lss = List.length css /\
     Forall2 (right_answer (mo_m o) (fun i => mind_get i (mo_ind o))) ks (combine lss css)).
  Proof.
    intro CF. unfold mo_query. destruct ks as [|k ks].
    { cbn. split; [discriminate|intros [X _]; contradiction]. }
    assert (NE : k :: ks <> []) by discriminate. set (KS := k :: ks) in *.
    assert (check_index KS = Ok tt) as -> by reflexivity. cbn [bind]. clearbody KS.
    rewrite <- (mapM_iff (mo_query_one o) _ (fun x y => mo_query_one_spec o x y CF)).
    destruct (mapM (mo_query_one o) KS) as [r|e]; cbn.
    - split.
      + intro H. injection H as H. apply split_combine_iff in H. destruct H as [L ->]. auto.
      + intros (_ & L & H). injection H as ->. f_equal. now apply split_combine_iff.
    - split; [discriminate|intros (_ & _ & H); discriminate].
  Qed.

  Lemma mo_query_ex_fails o xs : exists e, mo_query_ex o xs = Err e.
  Proof.
    unfold mo_query_ex. destruct (mo_inst o); cbn; eauto.
    match goal with |- context[mapM ?f xs] => destruct (mapM f xs) as [qs|e] end; cbn; eauto.
    destruct qs as [|[x [[j|js]|]] qs]; eauto. destruct (_ && _); eauto.
  Qed.
End MO.

(** ** Pool *)
Lemma string_eqb_ok a b : String.eqb a b = true <-> a = b.
Proof. apply String.eqb_eq. Qed.

Lemma first_names_snoc l x : first_names (l ++ [x]) =
  if existsb (String.eqb x) l then first_names l else first_names l ++ [x].
Proof.
  induction l as [|a l IH]; cbn; auto. rewrite IH.
  destruct (String.eqb_spec x a) as [->|n]; cbn.
  - destruct (existsb (String.eqb a) l) eqn:E; auto. f_equal. rewrite filter_app. cbn. rewrite String.eqb_refl. cbn.
    now rewrite app_nil_r.
  - destruct (existsb (String.eqb x) l); auto. cbn. f_equal. rewrite filter_app. cbn.
    destruct (String.eqb_spec a x); [congruence|]. reflexivity.
Qed.

Lemma first_names_in l x : In x (first_names l) <-> In x l.
Proof.
  induction l as [|a l IH]; cbn; [tauto|]. rewrite filter_In, IH.
  destruct (String.eqb_spec a x); cbn; intuition congruence.
Qed.

Lemma dset_keys_fst {V} k (v : V) d : map fst (dset String.eqb k v d) =
  if existsb (String.eqb k) (map fst d) then map fst d else map fst d ++ [k].
Proof.
  induction d as [|[k' w] d IH]; cbn; auto. destruct (String.eqb_spec k k') as [->|n]; cbn; auto.
  rewrite IH. now destruct (existsb _ _).
Qed.

Lemma existsb_first_names l x : existsb (String.eqb x) (first_names l) = existsb (String.eqb x) l.
Proof.
  apply eq_true_iff_eq. rewrite !existsb_exists. split; intros (y & H & E); exists y; split; auto; now apply first_names_in.
Qed.

(** The pool contents as a function of the additions. *)
Definition pool_matches (p : pool) (added : list (string * oracle)) : Prop :=
  (forall n, dget String.eqb n (p_dict p) = latest string_dec n added) /\
    map fst (p_dict p) = first_names (map fst added).

Lemma pool_ask_all p added ks names : pool_matches p added ->
  mapM (pool_ask p ks) names =
  mapM (fun n => match latest string_dec n added with Some o => or_query o ks | None => Err KeyErr end) names.
Proof.
  intros [H _]. induction names as [|n names IH]; cbn; auto. rewrite IH. unfold pool_ask. now rewrite H.
Qed.

Lemma fold_right_Qplus_app a b : (fold_right Qplus 0 (a ++ b) == fold_right Qplus 0 a + fold_right Qplus 0 b)%Q.
Proof. induction a as [|x a IH]; cbn; [now rewrite Qplus_0_l|]. rewrite IH. now rewrite Qplus_assoc. Qed.

Lemma pool_run_spec h : forall p added, pool_matches p added ->
  p_hist (pool_run p h) = p_hist p ++ bookkeeping added h /\
    (p_cost (pool_run p h) == p_cost p + total_cost (bookkeeping added h))%Q.
Proof.
  induction h as [|o h IH]; intros p added PM.
  - cbn. rewrite app_nil_r. split; [auto|]. unfold total_cost. cbn. now rewrite Qplus_0_r.
  - change (pool_run p (o :: h)) with (pool_run (pool_step p o) h).
    destruct o as [n o|ks n|ks ns]; cbn [pool_step bookkeeping].
    + specialize (IH (pool_add p n o) (added ++ [(n, o)])). cbn [pool_add p_hist p_cost] in IH. apply IH.
      destruct PM as [P1 P2]. split.
      * intro k. cbn. rewrite dget_dset by apply string_eqb_ok. rewrite latest_app. cbn. rewrite P1.
        destruct (String.eqb_spec k n) as [->|ne]; [now destruct (string_dec n n)|]. now destruct (string_dec k n).
      * cbn. rewrite dset_keys_fst, map_app. cbn. rewrite first_names_snoc, P2, existsb_first_names. reflexivity.
    + unfold pool_query. destruct n as [n|]; [|apply IH; auto].
      unfold all_answer. rewrite <- (pool_ask_all p added ks [n] PM). cbn [mapM].
      destruct (pool_ask p ks n) as [r|e]; cbn [bind fst]; [|apply IH; auto].
      specialize (IH (pool_record p [n] [r] ks (qsum (snd r))) added PM).
      cbn [pool_record p_hist p_cost] in IH. destruct IH as [IH1 IH2]. split.
      * rewrite IH1, <- app_assoc. reflexivity.
      * rewrite IH2. unfold total_cost. cbn [map fold_right]. unfold record_cost at 2. cbn.
        rewrite app_nil_r, qsum_fold_right. now rewrite <- !Qplus_assoc.
    + unfold pool_query_s. unfold all_answer. destruct PM as [P1 P2] eqn:PM'. rewrite P2.
      rewrite <- (pool_ask_all p added ks _ (conj P1 P2)).
      destruct (mapM (pool_ask p ks) _) as [rs|e]; cbn [fst]; [|apply IH; auto].
      match goal with |- context[pool_record p ?names rs ks ?c] =>
        specialize (IH (pool_record p names rs ks c) added (conj P1 P2)) end.
      cbn [pool_record p_hist p_cost] in IH. destruct IH as [IH1 IH2]. split.
      * rewrite IH1, <- app_assoc. reflexivity.
      * rewrite IH2. unfold total_cost. cbn [map fold_right]. unfold record_cost at 2. cbn [fst snd].
        rewrite flat_map_concat_map, qsum_fold_right. now rewrite <- !Qplus_assoc.
Qed.

(** The table shown by [repr]. *)
Definition asked_of (n : string) (es : list (string * (list key * list Q))) : list (list key * list Q) :=
  map snd (filter (fun e => String.eqb n (fst e)) es).

Lemma dset_sum n c q c0 q0 d : dget String.eqb n d = Some (c0, q0) ->
  (fold_right Qplus 0 (map (fun e : string * (nat * Q) => snd (snd e)) (dset String.eqb n (c, q0 + q) d)) ==
   fold_right Qplus 0 (map (fun e => snd (snd e)) d) + q)%Q.
Proof.
  induction d as [|[k [c1 q1]] d IH]; cbn; [discriminate|]. destruct (String.eqb n k).
  - intro E. injection E as -> ->. cbn. rewrite <- !Qplus_assoc. apply Qplus_comp; [reflexivity|]. apply Qplus_comm.
  - intro E. cbn. rewrite IH by auto. apply Qplus_assoc.
Qed.

Lemma repr_sum es : forall d d', foldM repr_add d es = Ok d' ->
  (fold_right Qplus 0 (map (fun e => snd (snd e)) d') ==
   fold_right Qplus 0 (map (fun e => snd (snd e)) d) + fold_right Qplus 0 (flat_map (fun e => snd (snd e)) es))%Q.
Proof.
  induction es as [|e es IH]; cbn; intros d d' H.
  - injection H as <-. now rewrite Qplus_0_r.
  - unfold repr_add at 1 in H. destruct (dget String.eqb (fst e) d) as [[c0 q0]|] eqn:G; [|discriminate].
    cbn [bind] in H. apply IH in H. rewrite H, (dset_sum _ _ _ _ _ _ G), fold_right_Qplus_app, qsum_fold_right.
    now rewrite Qplus_assoc.
Qed.

Lemma repr_fold es : forall d, (forall e, In e es -> In (fst e) (map fst d)) ->
  exists d', foldM repr_add d es = Ok d' /\ map fst d' = map fst d /\
    forall n c q, dget String.eqb n d = Some (c, q) ->
      exists q', dget String.eqb n d' = Some ((c + List.length (asked_of n es))%nat, q') /\
        (q' == q + fold_right Qplus 0 (flat_map snd (asked_of n es)))%Q.
Proof.
  induction es as [|e es IH]; intros d H.
  - exists d. cbn. split; [auto|]. split; [auto|]. intros n c q ->. exists q. split; [f_equal; f_equal; lia|].
    now rewrite Qplus_0_r.
  - cbn. unfold repr_add at 1. destruct (dget String.eqb (fst e) d) as [[c0 q0]|] eqn:G.
    2:{ exfalso. apply (dget_in _ string_eqb_ok) in G. apply G, H. now left. }
    cbn [bind]. set (d1 := dset String.eqb (fst e) (S c0, (q0 + qsum (snd (snd e)))%Q) d).
    assert (K1 : map fst d1 = map fst d).
    { unfold d1. rewrite dset_keys_fst. replace (existsb (String.eqb (fst e)) (map fst d)) with true; auto.
      symmetry. apply existsb_exists. exists (fst e). split; [|apply String.eqb_refl]. apply H. now left. }
    destruct (IH d1) as (d' & F & K & P).
    { intros e' He'. rewrite K1. apply H. now right. }
    exists d'. split; [exact F|]. split; [congruence|]. intros n c q Gn.
    unfold asked_of. cbn [filter]. destruct (String.eqb_spec n (fst e)) as [->|ne].
    + assert (E : (c0, q0) = (c, q)) by congruence. injection E as -> ->.
      destruct (P (fst e) (S c) (q + qsum (snd (snd e)))%Q) as (q' & G' & E').
      { unfold d1. rewrite dget_dset by apply string_eqb_ok. now rewrite String.eqb_refl. }
      exists q'. cbn [map List.length flat_map]. split; [rewrite G'; f_equal; f_equal; unfold asked_of; lia|].
      rewrite E', fold_right_Qplus_app, qsum_fold_right. unfold asked_of. now rewrite <- Qplus_assoc.
    + apply (P n c q). unfold d1. rewrite dget_dset by apply string_eqb_ok.
      destruct (String.eqb_spec n (fst e)); [contradiction|exact Gn].
Qed.

(** Only names of the pool are recorded. *)
Lemma bookkeeping_names h : forall added r n, In r (bookkeeping added h) -> In n (fst (fst r)) ->
  In n (map fst added) \/ exists o, In (PAdd n o) h.
Proof.
  assert (A : forall added names ks rs n, all_answer added names ks = Some rs -> In n names -> In n (map fst added)).
  { unfold all_answer. intros added names ks rs n H I.
    destruct (mapM _ names) as [x|] eqn:M; [|discriminate]. apply mapM_inv in M. clear H.
    induction M as [|a b l l' E _ IH]; [contradiction|]. destruct I as [->|I]; auto.
    destruct (latest string_dec n added) eqn:E'; [|discriminate]. apply latest_in in E'.
    apply in_map_iff. eexists. split; [|exact E']. reflexivity. }
  induction h as [|o h IH]; cbn; intros added r n I J; [contradiction|].
  destruct o as [m o|ks m|ks ns].
  - destruct (IH _ _ _ I J) as [X|[o' X]]; [|right; eauto]. rewrite map_app, in_app_iff in X. cbn in X.
    destruct X as [X|[<-|[]]]; auto. right. eauto.
  - destruct m as [m|]; [|destruct (IH _ _ _ I J) as [X|[? X]]; eauto].
    destruct (all_answer added [m] ks) as [rs|] eqn:AA; [|destruct (IH _ _ _ I J) as [X|[? X]]; eauto].
    destruct I as [<-|I]; [left; eapply A; eauto|destruct (IH _ _ _ I J) as [X|[? X]]; eauto].
  - match type of I with context[all_answer added ?names ks] => destruct (all_answer added names ks) as [rs|] eqn:AA end;
      [|destruct (IH _ _ _ I J) as [X|[? X]]; eauto].
    destruct I as [<-|I]; [left; eapply A; eauto|destruct (IH _ _ _ I J) as [X|[? X]]; eauto].
Qed.

Lemma pool_names h : forall p added, pool_matches p added ->
  pool_matches (pool_run p h) (added ++ flat_map (fun o => match o with PAdd n o => [(n, o)] | _ => [] end) h).
Proof.
  induction h as [|o h IH]; intros p added PM; [cbn; now rewrite app_nil_r|].
  change (pool_run p (o :: h)) with (pool_run (pool_step p o) h). destruct o as [n o|ks n|ks ns]; cbn [flat_map pool_step app].
  - replace (added ++ (n, o) :: flat_map _ h) with ((added ++ [(n, o)]) ++ flat_map (fun o => match o with PAdd n o => [(n, o)] | _ => [] end) h)
      by now rewrite <- app_assoc.
    apply IH. destruct PM as [P1 P2]. split.
    * intro k. cbn. rewrite dget_dset by apply string_eqb_ok. rewrite latest_app. cbn. rewrite P1.
      destruct (String.eqb_spec k n) as [->|ne]; [now destruct (string_dec n n)|]. now destruct (string_dec k n).
    * cbn. rewrite dset_keys_fst, map_app. cbn. rewrite first_names_snoc, P2, existsb_first_names. reflexivity.
  - apply IH. unfold pool_query. destruct n; auto. destruct (pool_ask p ks s); auto.
  - apply IH. unfold pool_query_s. destruct (mapM _ _); auto.
Qed.

Lemma mapM_len {A B} (f : A -> res B) l r : mapM f l = Ok r -> List.length l = List.length r.
Proof. intro H. apply mapM_inv in H. induction H; cbn; auto. Qed.

Lemma bookkeeping_lengths h : forall added b, In b (bookkeeping added h) ->
  List.length (fst (fst b)) = List.length (snd (fst b)).
Proof.
  assert (A : forall added ns ks rs, all_answer added ns ks = Some rs -> List.length ns = List.length rs).
  { unfold all_answer. intros added ns ks rs. destruct (mapM _ ns) as [x|] eqn:E; [|discriminate].
    intro H. injection H as <-. eapply mapM_len; eauto. }
  induction h as [|o h IH]; cbn; intros added b I; [contradiction|]. destruct o as [n o|ks n|ks ns]; eauto.
  - destruct n as [n|]; eauto. destruct (all_answer added [n] ks) eqn:E; eauto. destruct I as [<-|I]; [apply A in E; auto|eauto].
  - destruct (all_answer added _ ks) eqn:E; eauto. destruct I as [<-|I]; [apply A in E; auto|eauto].
Qed.

Lemma mo_init_cost_rows A (labels : list (list A)) examples indexes arr rows o :
  mo_init labels examples indexes (MCMat arr rows) = Ok o -> List.length rows = List.length labels.
Proof.
  intro H. unfold mo_init in H. destruct labels as [|[|a r] rest]; try discriminate.
  destruct (negb _); [discriminate|]. unfold mo_build in H.
  destruct (same_length _ _ _ _) eqn:E; [|discriminate]. apply same_length_spec in E. destruct E as (_ & _ & E).
  specialize (E _ eq_refl). now rewrite map_length in E.
Qed.
