(** Proofs about CEAL. *)
From Verif Require Import Base IndexModel IndexProofs OracleModel OracleSpec MiscModel MiscSpec MetricSpec QueryModel QuerySpec QueryProofs
  QueryProofs2 NoisyModel NoisySpec.
From Coq Require Import String QArith Lqa.
Local Open Scope Z_scope.

Definition told (o : oracle) (k : key) : res (key * Q) :=
  match ind_get k (o_ind o) with
  | Some (l, c) => Ok (l, if o_costf o then match c with Some c => c | None => 1%Q end else 1%Q)
  | None => Err TypeErr
  end.
Lemma or_query_told o ks : or_query o ks = rmap (@List.split _ _) (mapM (told o) ks).
Proof. reflexivity. Qed.
Lemma answers_told o x l c : answers o x l c <-> told o (KInt x) = Ok (l, c).
Proof.
  unfold answers. rewrite or_query_told. cbn [mapM]. destruct (told o (KInt x)) as [[l' c']|e]; cbn; split; intro H; congruence.
Qed.
Lemma answers_unique o x l c l' c' : answers o x l c -> answers o x l' c' -> l = l' /\ c = c'.
Proof. rewrite !answers_told. intros A B. rewrite A in B. injection B as -> ->. auto. Qed.
Lemma known_query o ids : Forall (knows o) ids ->
  exists ls cs, or_query o (map KInt ids) = Ok (ls, cs) /\
    Forall2 (fun z l => exists c, answers o z l c) ids ls /\ Forall2 (fun z c => exists l, answers o z l c) ids cs.
Proof.
  intro F. rewrite or_query_told. destruct (mapM_each (told o) (fun k r => told o k = Ok r) (map KInt ids)) as (r & E & F2).
  { intros k I. apply in_map_iff in I. destruct I as (z & <- & I). rewrite Forall_forall in F. destruct (F z I) as (l & c & A).
    exists (l, c). apply answers_told in A. auto. }
  rewrite E. cbn [rmap]. exists (map fst r), (map snd r). split.
  - f_equal. clear. induction r as [|[a b] r IH]; [reflexivity|]. cbn. now rewrite IH.
  - clear F E. revert r F2. induction ids as [|z ids IH]; intros r F2; inversion F2 as [|? [l c] ? ? H F3]; subst; cbn; [split; constructor|].
    apply answers_told in H. destruct (IH _ F3) as [A B]. split; constructor; eauto.
Qed.
Lemma unknown_query o ids : ~ Forall (knows o) ids -> or_query o (map KInt ids) = Err TypeErr.
Proof.
  intro N. rewrite or_query_told. assert (E : mapM (told o) (map KInt ids) = Err TypeErr); [|now rewrite E].
  induction ids as [|z ids IH]; [exfalso; apply N; constructor|]. cbn [map mapM].
  destruct (told o (KInt z)) as [[l c]|e] eqn:T.
  - cbn [bind]. rewrite IH; [reflexivity|]. intro F. apply N. constructor; auto. exists l, c. now apply answers_told.
  - unfold told in T. destruct (ind_get _ _) as [[? ?]|]; [discriminate|]. injection T as <-. reflexivity.
Qed.

Lemma take_ids (ini : list Z) nn : (forall p d, In (p, d) nn -> exists z, nth_error ini p = Some z) ->
  exists ids, mapM (fun e : nat * Q => py_nth ini (fst e)) nn = Ok ids /\ Forall2 (fun e z => nth_error ini (fst e) = Some z) nn ids.
Proof.
  intro H. apply mapM_each. intros [p d] I. destruct (H p d I) as (z & E). exists z. unfold py_nth. cbn. rewrite E. auto.
Qed.

Lemma rights y o ids ls : Forall2 (fun z l => exists c, answers o z l c) ids ls ->
  Forall (fun z => exists t, nth_error y (Z.to_nat z) = Some t) ids ->
  exists ok : list bool, mapM (fun e => is_right y (fst e) (snd e)) (combine ls ids) = Ok ok /\
    Forall2 (fun (z : Z) (b : bool) => if b then correct y o z else ~ correct y o z) ids ok.
Proof.
  intro F. induction F as [|z l ids ls (c & A) F IH]; intro Y; inversion Y as [|? ? (t & E) Y']; subst; cbn [combine mapM].
  - exists []. split; constructor.
  - destruct (IH Y') as (ok & E1 & F1). exists (key_eqb l t :: ok). unfold is_right at 1. cbn [fst snd]. unfold py_nth. rewrite E. cbn [bind].
    rewrite E1. cbn [bind]. split; [reflexivity|]. constructor; auto. destruct (key_eqb l t) eqn:K.
    + apply key_eqb_eq in K. subst t. exists l, c. auto.
    + intros (l' & c' & A' & E'). destruct (answers_unique _ _ _ _ _ _ A A') as [<- _]. rewrite E in E'. injection E' as ->.
      rewrite (proj2 (key_eqb_eq l l) eq_refl) in K. discriminate.
Qed.

Lemma expertise_ok s o nn dist x k : nearest_k dist (c_ini s) x k nn -> Forall (knows o) (c_ini s) ->
  Forall (fun z => exists t, nth_error (c_y s) (Z.to_nat z) = Some t) (c_ini s) ->
  exists q, expertise s o nn k = Ok q /\ skill (c_y s) (c_ini s) o nn q.
Proof.
  intros (L & _ & P & _) K Y.
  destruct (take_ids (c_ini s) nn) as (ids & E & F). { intros p d I. destruct (P p d I) as (z & H & _). eauto. }
  assert (IN : forall z, In z ids -> In z (c_ini s)).
  { intros z I. clear - F I. induction F; [destruct I|]. destruct I as [->|I]; auto. eapply nth_error_In; eauto. }
  assert (K' : Forall (knows o) ids) by (rewrite Forall_forall in *; auto).
  assert (Y' : Forall (fun z => exists t, nth_error (c_y s) (Z.to_nat z) = Some t) ids) by (rewrite Forall_forall in *; auto).
  destruct (known_query o ids K') as (ls & cs & Q1 & F1 & _). destruct (rights (c_y s) o ids ls F1 Y') as (ok & R & F2).
  unfold expertise. rewrite E. cbn [bind]. rewrite Q1. cbn [bind fst]. rewrite R. cbn [bind]. eexists. split; [reflexivity|].
  exists (map (fun e : nat * Q * bool => if snd e then snd (fst e) else 0%Q) (combine nn ok)). split.
  - clear - F F2. revert ok F2. induction F as [|e z nn ids H F IH]; intros ok F2; inversion F2 as [|? b ? ok' Hb F3]; subst; cbn; constructor; auto.
    exists z. split; auto. destruct b; auto.
  - rewrite L. reflexivity.
Qed.

Lemma cost_ok s o L : L <> [] -> Forall (knows o) L -> exists c, labeller_cost s o L false = Ok c /\ price o L c.
Proof.
  intros NE K. destruct (known_query o L K) as (ls & cs & E & _ & F). unfold labeller_cost. rewrite E. cbn [bind snd].
  destruct L as [|x L]; [contradiction|]. inversion F as [|? c ? cs' (l & A) F']; subst. exists c. split; [reflexivity|]. exists x, L, l. auto.
Qed.

Lemma qmax_larger a b : larger a b (qmax a b).
Proof.
  unfold qmax, larger. destruct (Qle_bool a b) eqn:E.
  - apply Qle_bool_iff in E. right. split; [reflexivity|auto].
  - left. split; [reflexivity|]. apply Qlt_le_weak, Qnot_le_lt. intro H. apply Qle_bool_iff in H. congruence.
Qed.

(** An oracle of the crowd that knows the initial and the labelled instances. *)
Definition versed (c : crowd) (ini L : list Z) (name : key) : Prop :=
  exists o, member c name = Ok o /\ Forall (knows o) ini /\ Forall (knows o) L.

Lemma column_ok dist s c L n row p x : (0 < n)%Z -> nearest_k dist (c_ini s) x (Z.to_nat n) (c_knn s (Z.to_nat n) x) ->
  Forall (fun z => exists t, nth_error (c_y s) (Z.to_nat z) = Some t) (c_ini s) -> L <> [] ->
  Forall (versed c (c_ini s) L) (iterset c) -> largest row p ->
  exists col, q_column s c L n false (1 - p)%Q x = Ok col /\
    Forall2 (fun name v => exists o, member c name = Ok o /\ merit (c_y s) (c_ini s) L o (c_knn s (Z.to_nat n) x) row v) (iterset c) col.
Proof.
  intros N NN Y NE V LG. unfold q_column. destruct (Z.ltb_spec 0 n); [|lia]. cbn [guard bind].
  apply mapM_each. intros name I. rewrite Forall_forall in V. destruct (V name I) as (o & M & K1 & K2).
  rewrite M. cbn [bind]. destruct (expertise_ok s o _ dist x (Z.to_nat n) NN K1 Y) as (q & E & SK). rewrite E. cbn [bind].
  destruct (cost_ok s o L NE K2) as (cc & E2 & PR). rewrite E2. cbn [bind]. eexists. split; [reflexivity|]. exists o. split; auto.
  exists q, p, cc, (qmax cc (1 # 10000)). repeat (split; [assumption|]). split; [apply qmax_larger|]. reflexivity.
Qed.

Lemma row_major_length n columns : List.length (row_major n columns) = (n * List.length columns)%nat.
Proof.
  unfold row_major. assert (H : forall k, List.length (flat_map (fun r => map (fun col => nth r col 0%Q) columns) (seq k n)) = (n * List.length columns)%nat).
  { induction n as [|n IH]; intro k; [reflexivity|]. cbn [seq flat_map]. rewrite app_length, map_length, IH. lia. }
  apply H.
Qed.
Lemma row_major_nth n columns i j : (i < n)%nat -> (j < List.length columns)%nat ->
  nth (i * List.length columns + j) (row_major n columns) 0%Q = nth i (nth j columns []) 0%Q.
Proof.
  intros I J. unfold row_major.
  assert (H : forall n i k, (i < n)%nat -> nth (i * List.length columns + j) (flat_map (fun r => map (fun col => nth r col 0%Q) columns) (seq k n)) 0%Q
              = nth (k + i) (nth j columns []) 0%Q).
  { clear n i I. induction n as [|n IH]; intros i k I; [lia|]. cbn [seq flat_map].
    destruct i as [|i].
    - rewrite app_nth1 by (rewrite map_length; lia). cbn [Nat.mul Nat.add].
      rewrite (nth_indep _ 0%Q (nth k [] 0%Q)) by (rewrite map_length; lia). rewrite (map_nth (fun col => nth k col 0%Q)). now rewrite Nat.add_0_r.
    - rewrite app_nth2 by (rewrite map_length; lia). rewrite map_length.
      replace (S i * List.length columns + j - List.length columns)%nat with (i * List.length columns + j)%nat by lia.
      rewrite IH by lia. f_equal. lia. }
  rewrite H by auto. reflexivity.
Qed.

Lemma best_flat n columns : (0 < n)%nat -> (0 < List.length columns)%nat ->
  exists b, argmax (row_major n columns) = Ok b /\
    best_cell n (List.length columns) (fun i j => nth i (nth j columns []) 0%Q) (b / List.length columns) (b mod List.length columns).
Proof.
  intros N M. set (m := List.length columns) in *.
  assert (LEN : List.length (row_major n columns) = (n * m)%nat) by apply row_major_length.
  destruct (argmax_spec (row_major n columns)) as (b & E & B & H). { intro X. rewrite X in LEN. cbn in LEN. nia. }
  exists b. split; auto. rewrite LEN in *.
  assert (D : b = (b / m * m + b mod m)%nat) by (rewrite (Nat.div_mod b m) at 1 by lia; lia).
  assert (R : (b mod m < m)%nat) by (apply Nat.mod_upper_bound; lia).
  assert (Q1 : (b / m < n)%nat) by (apply Nat.div_lt_upper_bound; nia).
  split; [auto|split; [auto|]]. intros i' j' I' J'. specialize (H (i' * m + j')%nat ltac:(nia)).
  assert (V1 : nth b (row_major n columns) 0%Q = nth (b / m) (nth (b mod m) columns []) 0%Q) by (rewrite D at 1; now apply row_major_nth).
  assert (V2 : nth (i' * m + j') (row_major n columns) 0%Q = nth i' (nth j' columns []) 0%Q) by now apply row_major_nth.
  rewrite V1, V2 in H.
  destruct H as [H|[H LE]]; [now left|right]. split; auto.
  clear V1 V2 H E. revert D R Q1 LE. generalize (b / m)%nat (b mod m)%nat. intros q r D R Q1 LE.
  destruct (Nat.lt_trichotomy q i') as [?|[->|G]]; [now left|right; split; auto; lia|exfalso].
  pose proof (Nat.mul_le_mono_r (S i') q m G). cbn [Nat.mul] in *. lia.
Qed.

Lemma mapM_combine_seq {A B} (f : nat * A -> res B) (R : nat -> A -> B -> Prop) l : forall k,
  (forall i a, nth_error l i = Some a -> exists b, f ((k + i)%nat, a) = Ok b /\ R i a b) ->
  exists r, mapM f (combine (seq k (List.length l)) l) = Ok r /\ List.length r = List.length l /\
    forall i a, nth_error l i = Some a -> exists b, nth_error r i = Some b /\ R i a b.
Proof.
  revert R. induction l as [|a l IH]; intros R k H.
  - exists []. cbn. split; [reflexivity|]. split; [reflexivity|]. intros [|i] x E; discriminate.
  - cbn [List.length seq combine mapM]. destruct (H 0%nat a eq_refl) as (b & E & Rb). rewrite Nat.add_0_r in E. rewrite E. cbn [bind].
    destruct (IH (fun i => R (S i)) (S k)) as (r & E2 & L & HR).
    { intros i x X. destruct (H (S i) x X) as (y & Ey & Ry). exists y. rewrite <- Ey. split; auto. do 2 f_equal. lia. }
    rewrite E2. cbn [bind]. exists (b :: r). split; [reflexivity|]. split; [cbn; lia|]. intros [|i] x X; cbn in *.
    + injection X as <-. eauto.
    + auto.
Qed.

Lemma ceal_table dist np y c0 c ini knn L U cols predict k : numpy_ok np ->
  ready dist y ini knn c L U cols predict k ->
  exists columns, q_columns np (new_ceal y c0 ini knn) c L U cols predict k false = Ok columns /\
    List.length columns = List.length U /\
    value_table y ini (knn (Z.to_nat k)) c L U predict (fun i j => nth i (nth j columns []) 0%Q).
Proof.
  intros NP (LU & LP & C & FP & K & NN & Y & NL & NI & V). unfold q_columns.
  destruct (mapM_each (least_confident_score np cols) (fun row x => exists p, largest row p /\ x = (1 - p)%Q) predict) as (rx & E & F).
  { intros row I. rewrite Forall_forall in FP. destruct (least_ok np row cols NP (FP row I) C) as (x & p & E & LG & ->). eauto. }
  rewrite E. cbn [bind]. set (s := new_ceal y c0 ini knn).
  destruct (mapM_combine_seq (fun e => unc <- py_nth rx (fst e);; q_column s c L k false unc (snd e))
    (fun j x col => forall row, nth_error predict j = Some row ->
       Forall2 (fun name v => exists o, member c name = Ok o /\ merit y ini L o (knn (Z.to_nat k) x) row v) (iterset c) col) U 0) as (columns & E2 & LC & H).
  - intros j x X. destruct (nth_error predict j) as [row|] eqn:ER.
    2:{ apply nth_error_None in ER. assert (j < List.length U)%nat by (apply nth_error_Some; congruence). lia. }
    destruct (Forall2_nth_error _ _ _ F j row ER) as (u & EU & p & LG & ->). cbn [fst snd Nat.add]. unfold py_nth. rewrite EU. cbn [bind].
    destruct (column_ok dist s c L k row p x K (NN x (nth_error_In _ _ X)) Y NL V LG) as (col & EC & FC). exists col. split; [exact EC|].
    intros row' R'. injection R' as <-. exact FC.
  - exists columns. split; [exact E2|]. split; auto. intros i j name o x row Ei Mo Ex Er.
    destruct (H j x Ex) as (col & Ec & FC). specialize (FC row Er). destruct (Forall2_nth_error _ _ _ FC i name Ei) as (v & Ev & o' & Mo' & ME).
    rewrite Mo in Mo'. injection Mo' as <-. rewrite (nth_error_nth columns j [] Ec), (nth_error_nth col i 0%Q Ev). exact ME.
Qed.

Lemma ceal_choice dist np y c0 c ini knn L U cols predict given ev : numpy_ok np ->
  let k := neighbours_used given ini in
  ready dist y ini knn c L U cols predict k ->
  exists v i j x, value_table y ini (knn (Z.to_nat k)) c L U predict v /\ best_cell (List.length (iterset c)) (List.length U) v i j /\
    nth_error U j = Some x /\
    ceal_by_mat np (new_ceal y c0 ini knn) c L U cols predict given ev =
      match nth_error (iterset c0) i with Some name => Ok ([x], [name]) | None => Err KeyErr end.
Proof.
  intros NP k RD. destruct (ceal_table dist np y c0 c ini knn L U cols predict k NP RD) as (columns & E & LC & VT).
  destruct RD as (LU & _ & _ & _ & _ & _ & _ & _ & NI & _).
  destruct (best_flat (List.length (iterset c)) columns) as (b & EB & BC). { destruct (iterset c); [contradiction|cbn; lia]. } { lia. }
  rewrite LC in *. exists (fun i j => nth i (nth j columns []) 0%Q), (b / List.length U)%nat, (b mod List.length U)%nat.
  destruct (nth_error U (b mod List.length U)) as [x|] eqn:EX.
  2:{ apply nth_error_None in EX. destruct BC as (_ & X & _). lia. }
  exists x. split; [exact VT|]. split; [exact BC|]. split; [reflexivity|]. unfold ceal_by_mat.
  destruct (Nat.leb_spec (List.length U) 1); [lia|]. fold (neighbours_used given ini). change (c_ini (new_ceal y c0 ini knn)) with ini.
  fold (neighbours_used given ini). fold k. rewrite E. cbn [bind]. rewrite EB. cbn [bind]. change (c_names (new_ceal y c0 ini knn)) with (iterset c0).
  destruct (nth_error (iterset c0) (b / List.length U)); cbn [bind]; [|reflexivity]. unfold py_nth. rewrite EX. reflexivity.
Qed.
