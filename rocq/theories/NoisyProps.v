(** Theorems about the choice of instance and oracle by CEAL: C88. *)
From Verif Require Import Base IndexModel IndexProofs OracleModel OracleSpec MiscModel MiscSpec MetricSpec QueryModel QuerySpec QueryProofs
  QueryProofs2 QueryNumpy NoisyModel NoisySpec NoisyProofs.
From Coq Require Import String QArith Lqa.
Local Open Scope Z_scope.

(** The instance and the oracle are those of greatest value, the earliest of equal ones. *)
Theorem C88_choice : forall dist np y c ini knn L U cols predict given ev, numpy_ok np ->
  let k := neighbours_used given ini in
  ready dist y ini knn c L U cols predict k ->
  exists v i j x name, value_table y ini (knn (Z.to_nat k)) c L U predict v /\
    best_cell (List.length (iterset c)) (List.length U) v i j /\
    nth_error U j = Some x /\ nth_error (iterset c) i = Some name /\
    ceal_by_mat np (new_ceal y c ini knn) c L U cols predict given ev = Ok ([x], [name]).
Proof.
  intros dist np y c ini knn L U cols predict given ev NP k RD.
  destruct (ceal_choice dist np y c c ini knn L U cols predict given ev NP RD) as (v & i & j & x & VT & BC & EX & E).
  destruct (nth_error (iterset c) i) as [name|] eqn:EN.
  - exists v, i, j, x, name. auto.
  - apply nth_error_None in EN. destruct BC as (X & _). lia.
Qed.
Print Assumptions C88_choice.

(** [select] passes its predictions on; asking for the cost to be evaluated changes nothing. *)
Theorem C88_eval_cost_refuted : forall np s c L U cols predict given ev ev',
  ceal_select np s c L U cols predict given ev = ceal_by_mat np s c L U cols predict given ev' /\
  ceal_select np s c L U cols predict given true = ceal_select np s c L U cols predict given false.
Proof.
  intros np s c L U cols predict given ev ev'. split; [|reflexivity]. unfold ceal_select, ceal_by_mat.
  replace (Z.min (Z.min _ _) _) with (Z.min (match given with Some n => n | None => 10 end) (Z.of_nat (List.length (c_ini s)) - 1)) by lia.
  reflexivity.
Qed.
Print Assumptions C88_eval_cost_refuted.

(** The last unlabelled instance cannot be asked for, nor can any with a single initial instance. *)
Theorem C88_last_instance_refuted : forall np s c L U cols predict given ev, (List.length U <= 1)%nat ->
  ceal_by_mat np s c L U cols predict given ev = Err ValueErr.
Proof. intros. unfold ceal_by_mat. destruct (Nat.leb_spec (List.length U) 1); [reflexivity|lia]. Qed.
Print Assumptions C88_last_instance_refuted.
Theorem C88_no_neighbours : forall np y c c' ini knn L U cols predict given ev, numpy_ok np ->
  (2 <= List.length U)%nat -> List.length predict = List.length U -> (1 <= cols)%nat -> Forall (fun r => List.length r = cols) predict ->
  neighbours_used given ini <= 0 ->
  ceal_by_mat np (new_ceal y c' ini knn) c L U cols predict given ev = Err ValueErr.
Proof.
  intros np y c c' ini knn L U cols predict given ev NP LU LP C FP N. unfold ceal_by_mat.
  destruct (Nat.leb_spec (List.length U) 1); [reflexivity|]. fold (neighbours_used given ini). change (c_ini (new_ceal y c' ini knn)) with ini.
  fold (neighbours_used given ini). unfold q_columns.
  destruct (mapM_each (least_confident_score np cols) (fun row x => True) predict) as (rx & E & F).
  { intros row I. rewrite Forall_forall in FP. destruct (least_ok np row cols NP (FP row I) C) as (x & p & E & LG & ->). eauto. }
  rewrite E. cbn [bind]. apply Forall2_length_eq in F. destruct U as [|x U]; [cbn in LU; lia|]. cbn [List.length seq combine mapM fst snd].
  destruct rx as [|u rx]; [cbn in F; lia|]. cbn [py_nth nth_error bind]. unfold q_column at 1.
  destruct (Z.ltb_spec 0 (neighbours_used given ini)); [lia|]. reflexivity.
Qed.
Print Assumptions C88_no_neighbours.

Lemma larger_pos c m : larger c (1 # 10000) m -> (0 < m)%Q.
Proof. intros [[E H]|[E H]]; lra. Qed.
Lemma larger_unique a b m m' : larger a b m -> larger a b m' -> (m == m')%Q.
Proof. intros [[E H]|[E H]] [[E' H']|[E' H']]; lra. Qed.
Lemma price_unique o L c c' : price o L c -> price o L c' -> c = c'.
Proof. intros (x & r & l & -> & A) (x' & r' & l' & E & A'). injection E as <- <-. destruct (answers_unique _ _ _ _ _ _ A A'). auto. Qed.
Lemma over_same a b m : (0 < m)%Q -> (a < b)%Q -> (a / m < b / m)%Q.
Proof. intros M H. unfold Qdiv. apply Qmult_lt_compat_r; auto. now apply Qinv_lt_0_compat. Qed.

(** An oracle that is right about the farther neighbour only is preferred to one that is right about the nearest only. *)
Theorem C88_nearest_refuted : forall dist np y a b ini knn L U cols predict ev p1 p2 z1 z2 d1 d2 c, numpy_ok np ->
  neighbours_used (Some 2) ini = 2 ->
  ready dist y ini knn (Listed [a; b]) L U cols predict 2 ->
  (forall x, In x U -> knn 2%nat x = [(p1, d1 x); (p2, d2 x)] /\ (0 <= d1 x < d2 x)%Q) ->
  nth_error ini p1 = Some z1 -> nth_error ini p2 = Some z2 ->
  correct y a z1 -> ~ correct y a z2 -> ~ correct y b z1 -> correct y b z2 ->
  price a L c -> price b L c -> Forall (Forall (fun q => q < 1)%Q) predict ->
  exists x, In x U /\ ceal_by_mat np (new_ceal y (Listed [a; b]) ini knn) (Listed [a; b]) L U cols predict (Some 2) ev = Ok ([x], [KInt 1]).
Proof.
  intros dist np y a b ini knn L U cols predict ev p1 p2 z1 z2 d1 d2 c NP NU RD KN E1 E2 A1 A2 B1 B2 PA PB LT.
  pose proof RD as RD0. destruct RD0 as (LU & LP & C & FP & _).
  pose proof (C88_choice dist np y (Listed [a; b]) ini knn L U cols predict (Some 2) ev NP) as X. cbv zeta in X. rewrite NU in X.
  destruct (X RD) as (v & i & j & x & name & VT & BC & EX & EN & E). clear X RD.
  exists x. split; [eapply nth_error_In; eauto|]. rewrite E. do 3 f_equal.
  destruct (nth_error predict j) as [row|] eqn:ER.
  2:{ apply nth_error_None in ER. assert (j < List.length U)%nat by (apply nth_error_Some; congruence). lia. }
  destruct (KN x (nth_error_In _ _ EX)) as [KX [D0 D1]].
  pose proof (VT 0%nat j (KInt 0) a x row eq_refl eq_refl EX ER) as (qa & pa & ca & ma & SA & LA & PRA & MA & VA).
  pose proof (VT 1%nat j (KInt 1) b x row eq_refl eq_refl EX ER) as (qb & pb & cb & mb & SB & LB & PRB & MB & VB).
  change (Z.to_nat 2) with 2%nat in *. rewrite KX in SA, SB.
  rewrite (price_unique _ _ _ _ PRA PA) in MA. rewrite (price_unique _ _ _ _ PRB PB) in MB.
  pose proof (larger_unique _ _ _ _ MA MB) as EM. pose proof (larger_pos _ _ MA) as M0. pose proof (largest_unique _ _ _ LA LB) as EP.
  assert (P1 : (pa < 1)%Q). { destruct LA as [I _]. rewrite Forall_forall in LT. specialize (LT row (nth_error_In _ _ ER)). rewrite Forall_forall in LT. auto. }
  destruct SA as (wa & FA & QA). destruct SB as (wb & FB & QB).
  inversion FA as [|? w1 ? wa' (z & Z1 & W1) FA']; subst. inversion FA' as [|? w2 ? wa'' (z' & Z2 & W2) FA'']; subst. inversion FA''; subst.
  inversion FB as [|? w3 ? wb' (z'' & Z3 & W3) FB']; subst. inversion FB' as [|? w4 ? wb'' (z3 & Z4 & W4) FB'']; subst. inversion FB''; subst.
  cbn [fst snd] in *. rewrite E1 in Z1, Z3. rewrite E2 in Z2, Z4. injection Z1 as <-. injection Z3 as <-. injection Z2 as <-. injection Z4 as <-.
  destruct W1 as [[_ ->]|[? _]]; [|contradiction]. destruct W2 as [[? _]|[_ ->]]; [contradiction|].
  destruct W3 as [[? _]|[_ ->]]; [contradiction|]. destruct W4 as [[_ ->]|[? _]]; [|contradiction].
  cbn [total fold_right List.length] in QA, QB. change (nat_q 2) with 2%Q in *.
  assert (QQ : (qa < qb)%Q). { rewrite QA, QB. apply over_same; lra. }
  assert (LV : (v 0%nat j < v 1%nat j)%Q).
  { rewrite VA, VB, <- EM, <- EP. apply over_same; auto. apply Qmult_lt_compat_r; lra. }
  destruct BC as (I1 & J1 & BC). cbn in I1. destruct i as [|[|i]]; [|cbn in EN; congruence|lia].
  exfalso. destruct (BC 1%nat j ltac:(cbn; lia) J1) as [H|[H _]]; lra.
Qed.
Print Assumptions C88_nearest_refuted.

(** With copies of the unlabelled instances among the initial ones every oracle has value zero: the first pair is taken,
    whatever the oracles know. *)
Theorem C88_copies_refuted : forall dist np y c ini knn L U cols predict given ev, numpy_ok np ->
  let k := neighbours_used given ini in
  ready dist y ini knn c L U cols predict k ->
  (forall x p d, In x U -> In (p, d) (knn (Z.to_nat k) x) -> (d == 0)%Q) ->
  exists x U' name rest, U = x :: U' /\ iterset c = name :: rest /\
    ceal_by_mat np (new_ceal y c ini knn) c L U cols predict given ev = Ok ([x], [name]).
Proof.
  intros dist np y c ini knn L U cols predict given ev NP k RD Z0. pose proof RD as RD0. destruct RD0 as (LU & LP & _ & _ & _ & _ & _ & _ & NI & MV).
  destruct (C88_choice dist np y c ini knn L U cols predict given ev NP RD) as (v & i & j & x & name & VT & BC & EX & EN & E).
  assert (V0 : forall i j, (i < List.length (iterset c))%nat -> (j < List.length U)%nat -> (v i j == 0)%Q).
  { clear - VT LP Z0 MV. intros i j I J. destruct (nth_error (iterset c) i) as [name|] eqn:EN; [|apply nth_error_None in EN; lia].
    destruct (nth_error U j) as [x|] eqn:EX; [|apply nth_error_None in EX; lia]. destruct (nth_error predict j) as [row|] eqn:ER; [|apply nth_error_None in ER; lia].
    rewrite Forall_forall in MV. destruct (MV name (nth_error_In _ _ EN)) as (o & MO & _).
    destruct (VT i j name o x row EN MO EX ER) as (q & p & cc & m & (ws & F & Q1) & _ & _ & _ & V). rewrite V.
    assert (T : (total ws == 0)%Q).
    { pose proof (fun p d => Z0 x p d (nth_error_In _ _ EX)) as Z1. clear Q1 V. subst k. revert ws F Z1. generalize (knn (Z.to_nat (neighbours_used given ini)) x). clear.
      intros l ws F. induction F as [|[p d] w l' ws' (z & _ & H) F IH]; intro Z1; [reflexivity|]. cbn [total fold_right]. fold (total ws').
      assert (T : (total ws' == 0)%Q) by (apply IH; intros; eapply Z1; right; eauto). rewrite T. destruct H as [[_ ->]|[_ ->]]; [|ring]. cbn [snd]. rewrite (Z1 p d) by now left. ring. }
    rewrite Q1, T. unfold Qdiv. ring. }
  destruct U as [|x0 U']; [cbn in LU; lia|]. destruct (iterset c) as [|n0 rest]; [contradiction|].
  exists x0, U', n0, rest. split; auto. split; auto. rewrite E.
  destruct BC as (I1 & J1 & BC). destruct (BC 0%nat 0%nat ltac:(cbn; lia) ltac:(cbn; lia)) as [H|[_ [H|[-> H]]]].
  - rewrite !V0 in H by (auto; cbn; lia). lra.
  - lia.
  - assert (j = 0%nat) by lia. subst j. cbn in EX, EN. congruence.
Qed.
Print Assumptions C88_copies_refuted.

(** An oracle added to the pool after the strategy was made takes part in the comparison; when it is the best, the call
    fails. *)
Theorem C88_later_oracle_refuted : forall dist np y p p' new o ini knn L U cols predict given ev, numpy_ok np ->
  let k := neighbours_used given ini in
  p' = pool_add p new o -> ~ In new (map fst (p_dict p)) ->
  ready dist y ini knn (Pooled p') L U cols predict k ->
  (forall x z, In x U -> In z ini -> (0 < dist x z)%Q) -> Forall (Forall (fun q => q < 1)%Q) predict ->
  Forall (correct y o) ini ->
  (forall name o', In name (iterset (Pooled p)) -> member (Pooled p') name = Ok o' -> forall z, In z ini -> ~ correct y o' z) ->
  ceal_by_mat np (new_ceal y (Pooled p) ini knn) (Pooled p') L U cols predict given ev = Err KeyErr.
Proof.
  intros dist np y p p' new o ini knn L U cols predict given ev NP k EP NW RD DP LT CO OLD.
  assert (IT : iterset (Pooled p') = iterset (Pooled p) ++ [KStr new] /\ member (Pooled p') (KStr new) = Ok o).
  { subst p'. cbn [iterset pool_add p_dict member].
    assert (G : forall d, ~ In new (map fst d) -> Dict.dset String.eqb new o d = d ++ [(new, o)]).
    { induction d as [|[n o'] d IH]; intro H; [reflexivity|]. cbn [Dict.dset]. destruct (String.eqb_spec new n) as [->|N]; [exfalso; apply H; now left|].
      rewrite IH; [reflexivity|]. intro I. apply H. now right. }
    rewrite (G _ NW), map_app. split; [reflexivity|]. rewrite <- (G _ NW).
    rewrite (Dict.dget_dset String.eqb String.eqb_eq). now rewrite String.eqb_refl. }
  destruct IT as [IT MN]. pose proof RD as RD0. destruct RD0 as (LU & LP & _ & _ & K0 & NN & _ & _ & NI & MV).
  destruct (ceal_choice dist np y (Pooled p) (Pooled p') ini knn L U cols predict given ev NP RD) as (v & i & j & x & VT & BC & EX & E).
  rewrite E. clear E. fold k in VT. rewrite IT in BC, MV. rewrite app_length in BC. cbn [List.length] in BC.
  set (n := List.length (iterset (Pooled p))) in *.
  assert (V : forall i j, (i <= n)%nat -> (j < List.length U)%nat -> if Nat.eqb i n then (0 < v i j)%Q else (v i j == 0)%Q).
  { clear - VT LP NN K0 MV OLD CO DP LT IT MN. intros i j I J.
    destruct (nth_error U j) as [x|] eqn:EX; [|apply nth_error_None in EX; lia]. destruct (nth_error predict j) as [row|] eqn:ER; [|apply nth_error_None in ER; lia].
    specialize (NN x (nth_error_In _ _ EX)). destruct NN as (LN & _ & NE & _).
    destruct (Nat.eqb_spec i n) as [->|NI].
    - assert (EN : nth_error (iterset (Pooled p')) n = Some (KStr new)). { rewrite IT. unfold n. rewrite nth_error_app2, Nat.sub_diag by lia. reflexivity. }
      destruct (VT n j (KStr new) o x row EN MN EX ER) as (q & pp & cc & m & (ws & F & Q1) & LG & _ & MM & V). rewrite V.
      pose proof (larger_pos _ _ MM). apply Qlt_shift_div_l; auto. setoid_replace (0 * m)%Q with 0%Q by ring.
      assert (P1 : (0 < 1 - pp)%Q). { destruct LG as [I1 _]. rewrite Forall_forall in LT. specialize (LT row (nth_error_In _ _ ER)). rewrite Forall_forall in LT. specialize (LT pp I1). lra. }
      assert (T : (0 < total ws)%Q).
      { destruct (knn (Z.to_nat k) x) as [|e nn] eqn:EK; [cbn in LN; lia|].
        assert (G : forall nn ws, Forall2 (fun e w => exists z, nth_error ini (fst e) = Some z /\ ((correct y o z /\ w = snd e) \/ (~ correct y o z /\ w = 0%Q))) nn ws ->
          (forall p d, In (p, d) nn -> (0 < d)%Q) -> (0 <= total ws)%Q /\ (nn <> [] -> (0 < total ws)%Q)).
        { clear - CO. intros nn ws F. induction F as [|[p d] w nn' ws' (z & Ez & H) F IH]; intro P; [split; [cbn; lra|contradiction]|].
          assert (W : w = d). { destruct H as [[_ ->]|[H _]]; [reflexivity|]. exfalso. apply H. rewrite Forall_forall in CO. apply CO. eapply nth_error_In; eauto. }
          subst w. destruct (IH (fun p d I => P p d (or_intror I))) as [A _]. specialize (P p d (or_introl eq_refl)). cbn [total fold_right]. fold (total ws'). split; [|intros _]; lra. }
        apply (G _ _ F); [|discriminate]. intros p0 d I0. destruct (NE p0 d I0) as (z & Ez & ->). apply DP; [eapply nth_error_In; eauto|eapply nth_error_In; eauto]. }
      apply Qmult_lt_0_compat; auto. rewrite Q1. apply Qlt_shift_div_l.
      + rewrite LN. unfold nat_q. rewrite <- (Zlt_Qlt 0). lia.
      + setoid_replace (0 * nat_q (List.length (knn (Z.to_nat k) x)))%Q with 0%Q by ring. exact T.
    - assert (I' : (i < n)%nat) by lia. destruct (nth_error (iterset (Pooled p)) i) as [name|] eqn:EN; [|apply nth_error_None in EN; unfold n in *; lia].
      assert (EN' : nth_error (iterset (Pooled p')) i = Some name) by (rewrite IT, nth_error_app1; auto).
      rewrite Forall_forall in MV. destruct (MV name) as (o' & MO & _). { apply in_or_app. left. eapply nth_error_In; eauto. }
      destruct (VT i j name o' x row EN' MO EX ER) as (q & pp & cc & m & (ws & F & Q1) & _ & _ & _ & V). rewrite V.
      assert (T : (total ws == 0)%Q).
      { pose proof (OLD name o' (nth_error_In _ _ EN) MO) as O. clear - F O. induction F as [|e w nn ws (z & Ez & H) F IH]; [reflexivity|].
        cbn [total fold_right]. fold (total ws). rewrite IH. destruct H as [[H _]|[_ ->]]; [exfalso; eapply O; [eapply nth_error_In|]; eauto|ring]. }
      rewrite Q1, T. unfold Qdiv. ring. }
  destruct BC as (I1 & J1 & BC). assert (i = n).
  { destruct (Nat.eq_dec i n) as [|NI']; auto. exfalso. pose proof (V i j ltac:(lia) J1) as A. apply Nat.eqb_neq in NI'. rewrite NI' in A.
    pose proof (V n j ltac:(lia) J1) as B. rewrite Nat.eqb_refl in B. destruct (BC n j ltac:(lia) J1) as [H|[H _]]; lra. }
  subst i. destruct (nth_error (iterset (Pooled p)) n) eqn:X; [|reflexivity]. assert (Y : nth_error (iterset (Pooled p)) n <> None) by congruence.
  apply nth_error_Some in Y. unfold n in Y. lia.
Qed.
Print Assumptions C88_later_oracle_refuted.

(** Initial instances 0, 1, 2 at distances 1, 2, 3 from instances 3 and 4; all labels are 1; oracle [ora] is right on 0 only, [orb] on 1 only. *)
Definition oracle_of (ls : list Z) : oracle := match or_init (map KInt ls) None None None with Ok o => o | Err _ => {| o_type := TInt; o_inst := false; o_costf := false; o_exa := []; o_ind := [] |} end.
Definition ora := oracle_of [1; 0; 0]. Definition orb := oracle_of [0; 1; 0].
Definition y1 : list key := repeat (KInt 1) 5.
Definition dist1 (x z : Z) : Q := inject_Z (z + 1).
Definition knn1 (k : nat) (x : Z) : list (nat * Q) := firstn k [(0%nat, 1%Q); (1%nat, 2%Q); (2%nat, 3%Q)].
Definition pred1 : list (list Q) := [[6 # 10; 4 # 10]; [3 # 10; 7 # 10]]%Q.
Lemma is_correct o x : (match or_query o [KInt x] with Ok ([l], [_]) => match nth_error y1 (Z.to_nat x) with Some t => key_eqb l t | None => false end | _ => false end) = true -> correct y1 o x.
Proof.
  intro H. unfold correct, answers. destruct (or_query o [KInt x]) as [[[|l [|? ?]] [|q [|? ?]]]|]; try discriminate. exists l, q. split; [reflexivity|].
  destruct (nth_error y1 (Z.to_nat x)); [|discriminate]. apply key_eqb_eq in H. now subst.
Qed.
Lemma not_correct o x l q : or_query o [KInt x] = Ok ([l], [q]) -> nth_error y1 (Z.to_nat x) <> Some l -> ~ correct y1 o x.
Proof. intros E N (l' & q' & A & B). unfold answers in A. rewrite E in A. injection A as <- <-. contradiction. Qed.
Lemma ready1 : ready dist1 y1 [0; 1; 2] knn1 (Listed [ora; orb]) [0] [3; 4] 2 pred1 2.
Proof.
  assert (KN : forall o, o = ora \/ o = orb -> Forall (knows o) [0; 1; 2] /\ Forall (knows o) [0]).
  { intros o [-> | ->]; split; repeat constructor; do 2 eexists; vm_compute; reflexivity. }
  split; [cbn; lia|]. split; [reflexivity|]. split; [lia|]. split; [repeat constructor|]. split; [lia|]. split.
  - intros x _. split; [reflexivity|]. split; [repeat constructor; cbn; intuition lia|]. split.
    + intros p d [E|[E|[]]]; injection E as <- <-; [exists 0|exists 1]; split; reflexivity.
    + intros p q d z J Eq N. destruct q as [|[|[|q]]]; [exfalso; apply N; vm_compute; auto|exfalso; apply N; vm_compute; auto| |destruct q; discriminate].
      cbn in Eq. injection Eq as <-. destruct J as [E|[E|[]]]; injection E as <- <-; apply Qle_bool_iff; vm_compute; reflexivity.
  - split; [repeat constructor; exists (KInt 1); reflexivity|]. split; [discriminate|]. split; [discriminate|].
    repeat constructor; [exists ora|exists orb]; (split; [reflexivity|]); apply KN; auto.
Qed.
Example C88_witness : let np := np0 (fun x => x) in
  numpy_ok np /\ ready dist1 y1 [0; 1; 2] knn1 (Listed [ora; orb]) [0] [3; 4] 2 pred1 (neighbours_used (Some 2) [0; 1; 2]) /\
  correct y1 ora 0 /\ ~ correct y1 ora 1 /\ ~ correct y1 orb 0 /\ correct y1 orb 1 /\
  ceal_by_mat np (new_ceal y1 (Listed [ora; orb]) [0; 1; 2] knn1) (Listed [ora; orb]) [0] [3; 4] 2 pred1 (Some 2) None = Ok ([3], [KInt 1]).
Proof.
  intro np. split; [apply np0_ok|]. split; [exact ready1|]. split; [apply is_correct; vm_compute; reflexivity|].
  split; [eapply not_correct; [vm_compute; reflexivity|vm_compute; discriminate]|]. split; [eapply not_correct; [vm_compute; reflexivity|vm_compute; discriminate]|].
  split; [apply is_correct; vm_compute; reflexivity|]. vm_compute. reflexivity.
Qed.
