(** Proofs about the label ranking training. *)
From Coq Require Import QArith Lqa.
From Verif Require Import Base BaseFacts RankModel RankSpec.
Local Open Scope Q_scope.

(** Vectors. *)

Lemma axpy_length c b : forall a, length (axpy c b a) = length a.
Proof. induction b as [|y b IH]; intros [|x a]; cbn; auto. Qed.

Lemma axpy_nth c b : forall a r, length b = length a -> nth r (axpy c b a) 0 == nth r a 0 + c * nth r b 0.
Proof.
  induction b as [|y b IH]; intros [|x a] r L; try discriminate L.
  - cbn. destruct r; lra.
  - cbn in L. injection L as L. destruct r as [|r]; cbn; [lra|]. now apply IH.
Qed.

Lemma dot_comm a : forall b, dot a b == dot b a.
Proof. induction a as [|x a IH]; intros [|y b]; cbn; try lra. rewrite IH. ring. Qed.

Lemma dot_axpy_l c b : forall a u, length b = length a -> dot (axpy c b a) u == dot a u + c * dot b u.
Proof.
  induction b as [|y b IH]; intros [|x a] u L; try discriminate L.
  - cbn. lra.
  - cbn in L. injection L as L. destruct u as [|z u]; cbn; [lra|]. rewrite (IH a u L). ring.
Qed.

Lemma dot_axpy_r c b a u : length b = length a -> dot u (axpy c b a) == dot u a + c * dot u b.
Proof. intro L. rewrite (dot_comm u), (dot_axpy_l c b a u L), (dot_comm a), (dot_comm b). lra. Qed.

Lemma dot_pos a : 0 <= dot a a.
Proof. induction a as [|x a IH]; cbn; [lra|]. nra. Qed.

Lemma image_length V x : length (image V x) = length V.
Proof. unfold image. apply map_length. Qed.

Lemma set_col_length n x : forall l, length (set_col n x l) = length l.
Proof. induction n as [|n IH]; intros [|y l]; cbn; auto. Qed.

Lemma set_col_nth n x : forall l q, (n < length l)%nat ->
  nth q (set_col n x l) [] = if Nat.eqb q n then x else nth q l [].
Proof.
  induction n as [|n IH]; intros [|y l] q L; cbn in L; try lia.
  - destruct q; reflexivity.
  - destruct q as [|q]; cbn; [reflexivity|]. apply IH. lia.
Qed.

Lemma set_col_Forall (P : vec -> Prop) n x : forall l, P x -> Forall P l -> Forall P (set_col n x l).
Proof.
  induction n as [|n IH]; intros [|y l] Px F; cbn; auto; inversion F; subst; constructor; auto.
Qed.

(** The best sub-model. *)

Lemma argmax_from_spec l : forall b a i,
  let r := argmax_from b a i l in
  (forall x, In x l -> x <= fst r) /\ b <= fst r /\
  ((r = (b, a)) \/ exists k, (k < length l)%nat /\ snd r = (i + k)%nat /\ fst r = nth k l 0).
Proof.
  induction l as [|x l IH]; intros b a i; cbn [argmax_from].
  - split; [intros ? []|]. split; [cbn; lra|]. now left.
  - destruct (Qle_bool x b) eqn:E.
    + apply Qle_bool_iff in E. destruct (IH b a (S i)) as (H1 & H2 & H3).
      split; [|split; [exact H2|]].
      * intros y [<-|Hy]; [lra|auto].
      * destruct H3 as [H3|(k & K1 & K2 & K3)]; [now left|]. right. exists (S k).
        split; [cbn; lia|]. split; [lia|exact K3].
    + assert (b < x) by (apply Qnot_le_lt; intro H; apply Qle_bool_iff in H; congruence).
      destruct (IH x i (S i)) as (H1 & H2 & H3).
      split; [|split; [lra|]].
      * intros y [<-|Hy]; [exact H2|auto].
      * right. destruct H3 as [H3|(k & K1 & K2 & K3)].
        -- exists O. rewrite H3. cbn. split; [lia|]. split; [lia|reflexivity].
        -- exists (S k). split; [cbn; lia|]. split; [lia|exact K3].
Qed.

Lemma argmax_spec l : l <> [] ->
  (snd (argmax l) < length l)%nat /\ fst (argmax l) = nth (snd (argmax l)) l 0 /\
  forall x, In x l -> x <= fst (argmax l).
Proof.
  destruct l as [|y l]; [congruence|]. intros _. cbn [argmax].
  destruct (argmax_from_spec l y 0 1) as (H1 & H2 & H3).
  split; [|split].
  - destruct H3 as [->|(k & K1 & -> & _)]; cbn; lia.
  - destruct H3 as [->|(k & K1 & -> & K3)]; [reflexivity|]. exact K3.
  - intros x [<-|Hx]; [exact H2|auto].
Qed.

Lemma scores_nth B V x c k : (k < 5)%nat -> nth k (scores B (image V x) c) 0 = score B V x (5 * c + k).
Proof.
  intro K. unfold scores, score, num_sub.
  rewrite (nth_indep _ 0 (dot (nth (c * 5 + 0) B []) (image V x))) by (rewrite map_length; unfold range; rewrite seq_length; lia).
  rewrite (map_nth (fun k => dot (nth (c * 5 + k) B []) (image V x))).
  unfold range. rewrite seq_nth by lia. cbn [Nat.add]. now rewrite (Nat.mul_comm c 5).
Qed.

Lemma scores_best B V x c : best B V x c (fst (argmax (scores B (image V x) c))) (snd (argmax (scores B (image V x) c))).
Proof.
  destruct (argmax_spec (scores B (image V x) c)) as (H1 & H2 & H3); [discriminate|].
  unfold scores in H1 at 2. rewrite map_length in H1. unfold range in H1. rewrite seq_length in H1.
  change num_sub with 5%nat in H1.
  split; [exact H1|]. split.
  - rewrite H2 at 1. now apply scores_nth.
  - intros k' K. apply H3. rewrite <- scores_nth by exact K. apply nth_In.
    unfold scores. rewrite map_length. unfold range. rewrite seq_length. exact K.
Qed.

(** Searching a violator. *)

Lemma search_spec B V x fy irr pick : forall n j0,
  match search B (image V x) fy irr pick j0 n with
  | None => forall j, (j0 <= j < j0 + n)%nat -> forall k, (k < 5)%nat ->
              score B V x (5 * nth (pick j) irr O + k) <= fy - 1
  | Some (j, c, k) => (j0 <= j < j0 + n)%nat /\ c = nth (pick j) irr O /\
      (exists fn, best B V x c fn k /\ fy - 1 < fn) /\
      forall i, (j0 <= i < j)%nat -> forall k0, (k0 < 5)%nat -> score B V x (5 * nth (pick i) irr O + k0) <= fy - 1
  end.
Proof.
  induction n as [|n IH]; intro j0; cbn [search].
  - intros; lia.
  - pose proof (scores_best B V x (nth (pick j0) irr O)) as Hb.
    destruct (argmax (scores B (image V x) (nth (pick j0) irr O))) as [f k] eqn:E. cbn [fst snd] in Hb.
    destruct (Qle_bool f (fy - 1)) eqn:L.
    + apply Qle_bool_iff in L. specialize (IH (S j0)).
      assert (H0 : forall k0, (k0 < 5)%nat -> score B V x (5 * nth (pick j0) irr O + k0) <= fy - 1)
        by (intros k0 K; destruct Hb as (_ & _ & Hb); specialize (Hb k0 K); lra).
      destruct (search B (image V x) fy irr pick (S j0) n) as [[[j c] k1]|].
      * destruct IH as (I1 & I2 & I3 & I4). split; [lia|]. split; [exact I2|]. split; [exact I3|].
        intros i Hi k0 K. destruct (Nat.eq_dec i j0) as [->|]; [now apply H0|]. apply I4; [lia|exact K].
      * intros j Hj k0 K. destruct (Nat.eq_dec j j0) as [->|]; [now apply H0|]. apply IH; [lia|exact K].
    + split; [lia|]. split; [reflexivity|]. split; [|intros; lia].
      exists f. split; [exact Hb|]. apply Qnot_le_lt. intro H. apply Qle_bool_iff in H. congruence.
Qed.

(** Costs. *)

Lemma cumulate_length k : forall s i, length (cumulate s i k) = k.
Proof. induction k as [|k IH]; intros s i; cbn; auto. Qed.

Lemma cumulate_nth k : forall s i n, (n < k)%nat -> s == harmonic i ->
  nth n (cumulate s (S i) k) 0 == harmonic (S i + n).
Proof.
  induction k as [|k IH]; intros s i n L Hs; [lia|]. cbn [cumulate].
  assert (Hs' : s + / inject_Z (Z.of_nat (S i)) == harmonic (S i)) by (rewrite Hs; cbn [harmonic]; reflexivity).
  destruct n as [|n].
  - cbn [nth]. now rewrite Nat.add_0_r.
  - cbn [nth]. rewrite IH; [|lia|exact Hs']. now replace (S (S i) + n)%nat with (S i + S n)%nat by lia.
Qed.

Lemma costs_nth w n : (n < 5 * w)%nat -> nth n (costs w) 0 == harmonic (S n).
Proof.
  intro L. unfold costs. rewrite (cumulate_nth (w * 5) 0 0 n); [reflexivity|lia|reflexivity].
Qed.

Lemma harmonic_ge1 n : (1 <= n)%nat -> 1 <= harmonic n.
Proof.
  induction n as [|n IH]; [lia|]. intros _. cbn [harmonic].
  destruct n as [|n]; [cbn; lra|].
  assert (0 <= / inject_Z (Z.of_nat (S (S n)))).
  { apply Qinv_le_0_compat. unfold Qle; cbn. lia. }
  specialize (IH ltac:(lia)). lra.
Qed.

(** Pairs and irrelevant classes. *)

Lemma train_pairs_in t i c : In (i, c) (train_pairs t) <->
  (i < length t)%nat /\ (c < width t)%nat /\ 1 <= entry_at t i c.
Proof.
  unfold train_pairs. rewrite in_flat_map. split.
  - intros (i' & Hi & Hc). apply in_map_iff in Hc. destruct Hc as (c' & E & Hc). injection E as -> ->.
    apply filter_In in Hc. destruct Hc as [Hc L]. apply in_range in Hi. apply in_range in Hc.
    apply Qle_bool_iff in L. auto.
  - intros (Hi & Hc & L). exists i. split; [now apply in_range|]. apply in_map_iff. exists c. split; [reflexivity|].
    apply filter_In. split; [now apply in_range|now apply Qle_bool_iff].
Qed.

Lemma train_pairs_NoDup t : NoDup (train_pairs t).
Proof.
  unfold train_pairs.
  assert (forall l, NoDup l -> NoDup (flat_map (fun i => map (fun c => (i, c))
                         (filter (fun c => Qle_bool 1 (entry_at t i c)) (range (width t)))) l)) as H.
  { induction l as [|i l IH]; intro N; cbn; [constructor|]. inversion N as [|? ? N1 N2]; subst.
    apply NoDup_app_intro.
    - apply FinFun.Injective_map_NoDup; [intros a b E; congruence|]. apply NoDup_filter. apply seq_NoDup.
    - now apply IH.
    - intros [a b] H1 H2. apply in_map_iff in H1. destruct H1 as (? & E & _). injection E as <- _.
      apply in_flat_map in H2. destruct H2 as (i' & Hi & H2). apply in_map_iff in H2.
      destruct H2 as (? & E & _). injection E as -> _. now apply N1. }
  apply H, seq_NoDup.
Qed.

Lemma irrelevant_in t i c c' : In c' (irrelevant t i c) <-> below t i c c'.
Proof.
  unfold irrelevant, below. rewrite in_app_iff, filter_In. unfold range. rewrite in_seq, Qeq_bool_iff.
  destruct (Nat.eqb_spec c (width t - 1)) as [E|E].
  - split; [intros [[? ?]|[]]; left; split; [lia|assumption]|]. intros [[? ?]|[? ?]]; [|contradiction]. left. split; [lia|assumption].
  - split.
    + intros [[? ?]|[<-|[]]]; [left; split; [lia|assumption]|right; auto].
    + intros [[? ?]|[-> ?]]; [left; split; [lia|assumption]|right; now left].
Qed.

Lemma filter_len {A} (f : A -> bool) l : (length (filter f l) <= length l)%nat.
Proof. induction l as [|x l IH]; cbn; [lia|]. destruct (f x); cbn; lia. Qed.

Lemma irrelevant_length t i c : (length (irrelevant t i c) <= width t + 1)%nat.
Proof.
  unfold irrelevant. cbn zeta. rewrite app_length.
  pose proof (filter_len (fun k => Qeq_bool (entry_at t i k) (-(1))) (range (width t))) as H.
  assert (length (range (width t)) = width t) by (unfold range; apply seq_length).
  destruct (Nat.eqb c (width t - 1)); cbn [length]; lia.
Qed.

Lemma irrelevant_NoDup t i c : ~ entry_at t i (width t - 1) == -(1) -> NoDup (irrelevant t i c).
Proof.
  intro N. unfold irrelevant. apply NoDup_app_intro.
  - apply NoDup_filter, seq_NoDup.
  - destruct (Nat.eqb c (width t - 1)); repeat constructor; intros [].
  - intros k H1 H2. destruct (Nat.eqb c (width t - 1)); [destruct H2|]. destruct H2 as [<-|[]].
    apply filter_In in H1. destruct H1 as [_ H1]. apply Qeq_bool_iff in H1. now apply N.
Qed.

Lemma below_other t i c c' : 1 <= entry_at t i c -> below t i c c' -> c' <> c.
Proof. intros L [[_ E]|[-> N]]; [intros ->; rewrite E in L; lra|congruence]. Qed.

(** One gradient step. *)

Lemma combine_nth3 (V : list vec) (a b : vec) r :
  length V = length a -> length a = length b ->
  nth r (combine V (combine a b)) ([], (0, 0)) = (nth r V [], (nth r a 0, nth r b 0)).
Proof.
  intros L1 L2. rewrite combine_nth by (rewrite combine_length, <- L2, Nat.min_id; exact L1). now rewrite combine_nth by exact L2.
Qed.

Lemma gradient_V_row m x u cy cn rate r :
  let By := nth cy (m_B m) [] in let Bn := nth cn (m_B m) [] in
  length (m_V m) = length Bn -> length Bn = length By -> (r < length (m_V m))%nat ->
  nth r (m_V (gradient m x u cy cn rate)) [] = axpy (- rate * (nth r Bn 0 - nth r By 0)) x (nth r (m_V m) []).
Proof.
  cbn zeta. intros L1 L2 R. unfold gradient; cbn [m_V].
  set (f := fun p : vec * (Q * Q) => axpy (- rate * (fst (snd p) - snd (snd p))) x (fst p)).
  rewrite (nth_indep _ [] (f ([], (0, 0)))) by (rewrite map_length, !combine_length; lia).
  rewrite map_nth, combine_nth3 by assumption. reflexivity.
Qed.

Lemma gradient_shaped d D n m x u cy cn rate :
  shaped d D n m -> (cy < n)%nat -> (cn < n)%nat -> shaped d D n (gradient m x u cy cn rate).
Proof.
  intros (L1 & F1 & L2 & F2) Hy Hn. unfold gradient.
  assert (Ly : length (nth cy (m_B m) []) = D) by (eapply (proj1 (Forall_forall _ _)) in F1; [exact F1|apply nth_In; lia]).
  assert (Ln : length (nth cn (m_B m) []) = D) by (eapply (proj1 (Forall_forall _ _)) in F1; [exact F1|apply nth_In; lia]).
  repeat apply conj; cbn [m_B m_V].
  - now rewrite !set_col_length.
  - apply set_col_Forall; [now rewrite axpy_length|]. apply set_col_Forall; [now rewrite axpy_length|exact F1].
  - rewrite map_length, !combine_length. lia.
  - apply Forall_forall. intros r Hr. apply in_map_iff in Hr. destruct Hr as ((v & q) & <- & Hr).
    cbn [fst]. rewrite axpy_length. apply in_combine_l in Hr. eapply (proj1 (Forall_forall _ _)) in F2; eauto.
Qed.

Lemma gradient_moved d D n m x cy cn rate :
  shaped d D n m -> length x = d -> (cy < n)%nat -> (cn < n)%nat -> cy <> cn ->
  moved x cy cn rate m (gradient m x (image (m_V m) x) cy cn rate).
Proof.
  intros (L1 & F1 & L2 & F2) Lx Hy Hn N.
  assert (Ly : length (nth cy (m_B m) []) = D) by (eapply (proj1 (Forall_forall _ _)) in F1; [exact F1|apply nth_In; lia]).
  assert (Ln : length (nth cn (m_B m) []) = D) by (eapply (proj1 (Forall_forall _ _)) in F1; [exact F1|apply nth_In; lia]).
  repeat apply conj; cbn zeta.
  - intros q r. unfold gradient; cbn [m_B].
    rewrite set_col_nth by (rewrite set_col_length; lia). rewrite set_col_nth by lia.
    destruct (Nat.eqb_spec q cn) as [->|Hq].
    + destruct (Nat.eqb_spec cn cy) as [E|_]; [congruence|].
      rewrite axpy_nth by (rewrite image_length; lia). lra.
    + destruct (Nat.eqb_spec q cy) as [->|_]; [|reflexivity].
      rewrite axpy_nth by (rewrite image_length; lia). lra.
  - intros r e. destruct (Nat.lt_ge_cases r D) as [R|R].
    + rewrite gradient_V_row by lia.
      assert (Lr : length (nth r (m_V m) []) = d) by (eapply (proj1 (Forall_forall _ _)) in F2; [exact F2|apply nth_In; lia]).
      rewrite axpy_nth by lia. ring.
    + rewrite (nth_overflow (m_V (gradient _ _ _ _ _ _))).
      2: { unfold gradient; cbn [m_V]. rewrite map_length, !combine_length. lia. }
      rewrite (nth_overflow (m_V m)) by lia.
      rewrite (nth_overflow (nth cy (m_B m) [])), (nth_overflow (nth cn (m_B m) [])) by lia.
      destruct e; cbn; ring.
  - reflexivity.
Qed.

(** A visit. *)

Lemma visit_shaped d D t data pick m e :
  shaped d D (5 * width t) m -> (snd (snd e) < width t)%nat ->
  (forall j, (j < length (irrelevant t (fst (snd e)) (snd (snd e))))%nat ->
     (pick (fst e) j < length (irrelevant t (fst (snd e)) (snd (snd e))))%nat) ->
  shaped d D (5 * width t) (visit data t pick m e).
Proof.
  intros Sh Hc P. destruct e as [i [ins c]]. cbn [fst snd] in *. unfold visit.
  fold (image (m_V m) (nth ins data [])). set (x := nth ins data []) in *.
  pose proof (scores_best (m_B m) (m_V m) x c) as Hb.
  destruct (argmax (scores (m_B m) (image (m_V m) x) c)) as [fy k]. cbn [fst snd] in Hb.
  pose proof (search_spec (m_B m) (m_V m) x fy (irrelevant t ins c) (pick i) (length (irrelevant t ins c)) 0) as Hs.
  destruct (search (m_B m) (image (m_V m) x) fy (irrelevant t ins c) (pick i) 0 (length (irrelevant t ins c)))
    as [[[j c'] k']|].
  - destruct Hs as (H1 & H2 & (fn & H3 & _) & _).
    assert (Hc' : (c' < width t)%nat).
    { assert (In c' (irrelevant t ins c)) as I by (rewrite H2; apply nth_In, P; lia).
      apply irrelevant_in in I. destruct I as [[? _]|[-> _]]; lia. }
    destruct Hb as (Kb & _). destruct H3 as (K3 & _).
    set (g := gradient _ _ _ _ _ _).
    assert (shaped d D (5 * width t) g) as G
      by (apply gradient_shaped; [exact Sh|unfold num_sub; lia|unfold num_sub; lia]).
    destruct (Nat.eqb i 0 || _); exact G.
  - destruct (Nat.eqb i 0 || _); exact Sh.
Qed.

Lemma visit_cases d D t data pick m i ins c :
  let x := nth ins data [] in
  let irr := irrelevant t ins c in
  let m' := visit data t pick m (i, (ins, c)) in
  shaped d D (5 * width t) m -> length x = d -> (c < width t)%nat -> 1 <= entry_at t ins c ->
  (forall j, (j < length irr)%nat -> (pick i j < length irr)%nat) ->
  quiet x c (length irr) (fun j => nth (pick i j) irr O) m m' \/
  trained x c (length irr) (fun j => nth (pick i j) irr O) m m'.
Proof.
  cbn zeta. intros Sh Lx Hc Lab P. unfold visit.
  fold (image (m_V m) (nth ins data [])). set (x := nth ins data []) in *.
  set (irr := irrelevant t ins c) in *.
  pose proof (scores_best (m_B m) (m_V m) x c) as Hb.
  destruct (argmax (scores (m_B m) (image (m_V m) x) c)) as [fy k]. cbn [fst snd] in Hb.
  pose proof (search_spec (m_B m) (m_V m) x fy irr (pick i) (length irr) 0) as Hs.
  destruct (search (m_B m) (image (m_V m) x) fy irr (pick i) 0 (length irr)) as [[[j c'] k']|].
  - right. destruct Hs as (H1 & H2 & (fn & H3 & H4) & H5).
    assert (I : In c' irr) by (rewrite H2; apply nth_In, P; lia).
    apply irrelevant_in in I.
    assert (Hc' : (c' < width t)%nat) by (destruct I as [[? _]|[-> _]]; lia).
    pose proof (below_other t ins c c' Lab I) as Ne.
    exists j, fy, k, fn, k'. rewrite <- H2.
    split; [lia|]. split; [exact Hb|]. split; [exact H3|]. split; [exact H4|].
    split; [intros i0 Hi; apply H5; lia|].
    set (rate := step_size0 * nth (length irr / (j + 1) - 1) (costs (width t)) 0).
    exists rate. destruct Hb as (Kb & _). destruct H3 as (K3 & _). split.
    + unfold rate, step_size0.
      assert (D1 : (1 <= length irr / (j + 1))%nat) by (apply Nat.div_le_lower_bound; lia).
      assert (D2 : (length irr / (j + 1) <= length irr)%nat) by (apply Nat.div_le_upper_bound; nia).
      pose proof (irrelevant_length t ins c) as D3. fold irr in D3.
      rewrite costs_nth by lia. now replace (S (length irr / (j + 1) - 1)) with (length irr / (j + 1))%nat by lia.
    + assert (M : moved x (5 * c + k) (5 * c' + k') rate m
                    (gradient m x (image (m_V m) x) (c * num_sub + k) (c' * num_sub + k') rate)).
      { change num_sub with 5%nat. rewrite !(Nat.mul_comm _ 5).
        apply (gradient_moved d D (5 * width t)); auto; lia. }
      destruct (Nat.eqb i 0 || _); exact M.
  - left. assert (Q0 : forall b : bool, quiet x c (length irr) (fun j => nth (pick i j) irr O) m (if b then snapshot m else m)).
    { intro b. unfold quiet.
      split; [now destruct b|]. split; [now destruct b|]. split; [now destruct b|].
      exists fy, k. split; [exact Hb|]. intros j Hj. apply Hs. lia. }
    apply Q0.
Qed.

(** The margin after a step. *)

Lemma image_gradient m x cy cn rate d D n :
  shaped d D n m -> length x = d -> (cy < n)%nat -> (cn < n)%nat ->
  image (m_V (gradient m x (image (m_V m) x) cy cn rate)) x =
  map (fun p => dot (axpy (- rate * (fst (snd p) - snd (snd p))) x (fst p)) x)
      (combine (m_V m) (combine (nth cn (m_B m) []) (nth cy (m_B m) []))).
Proof. intros. unfold image, gradient; cbn [m_V]. now rewrite map_map. Qed.

Lemma dot_image V x rate w : forall a b, length V = length a -> length a = length b ->
  Forall (fun r => length r = length x) V -> length w = length V ->
  dot w (map (fun p => dot (axpy (- rate * (fst (snd p) - snd (snd p))) x (fst p)) x) (combine V (combine a b))) ==
  dot w (image V x) + rate * dot x x * (dot w b - dot w a).
Proof.
  revert w. induction V as [|r V IH]; intros w a b L1 L2 F Lw.
  - destruct a; [|discriminate]. destruct b; [|discriminate]. destruct w; [|discriminate]. cbn. ring.
  - destruct a as [|p a]; [discriminate|]. destruct b as [|q b]; [discriminate|]. destruct w as [|z w]; [discriminate|].
    cbn in L1, L2, Lw. injection L1 as L1. injection L2 as L2. injection Lw as Lw. inversion F as [|? ? F1 F2]; subst.
    cbn [combine map fst snd dot image]. fold (image V x).
    rewrite IH by assumption. rewrite dot_axpy_l by congruence. ring.
Qed.

(** Sum of squares: [|v|^2 (of a - b + rate u)] *)
Lemma square_expand (a b u : vec) rate : length a = length u -> length b = length u ->
  dot (axpy rate u (axpy (-(1)) b a)) (axpy rate u (axpy (-(1)) b a)) ==
  dot a a - 2 * dot a b + dot b b + 2 * rate * (dot a u - dot b u) + rate * rate * dot u u.
Proof.
  intros La Lb.
  rewrite !dot_axpy_l by (rewrite ?axpy_length; congruence).
  rewrite !dot_axpy_r by (rewrite ?axpy_length; congruence).
  rewrite (dot_comm b a), (dot_comm u a), (dot_comm u b). ring.
Qed.

Lemma gradient_margin d D n m x cy cn rate :
  shaped d D n m -> length x = d -> (cy < n)%nat -> (cn < n)%nat -> cy <> cn ->
  let m' := gradient m x (image (m_V m) x) cy cn rate in
  let a := nth cy (m_B m) [] in let b := nth cn (m_B m) [] in let u := image (m_V m) x in
  score (m_B m') (m_V m') x cy - score (m_B m') (m_V m') x cn ==
  (score (m_B m) (m_V m) x cy - score (m_B m) (m_V m) x cn) +
  rate * (dot x x * dot (axpy rate u (axpy (-(1)) b a)) (axpy rate u (axpy (-(1)) b a)) +
          (2 - rate * rate * dot x x) * dot u u).
Proof.
  cbn zeta. intros (L1 & F1 & L2 & F2) Lx Hy Hn N.
  assert (Ly : length (nth cy (m_B m) []) = D) by (eapply (proj1 (Forall_forall _ _)) in F1; [exact F1|apply nth_In; lia]).
  assert (Ln : length (nth cn (m_B m) []) = D) by (eapply (proj1 (Forall_forall _ _)) in F1; [exact F1|apply nth_In; lia]).
  set (a := nth cy (m_B m) []) in *. set (b := nth cn (m_B m) []) in *. set (u := image (m_V m) x) in *.
  assert (Lu : length u = D) by (unfold u; rewrite image_length; exact L2).
  unfold score. unfold u at 1 2 3 4. rewrite !(image_gradient m x cy cn rate d D n) by (try split; auto).
  unfold gradient; cbn [m_B]. fold a b u.
  rewrite !set_col_nth by (rewrite ?set_col_length; lia).
  rewrite Nat.eqb_refl. destruct (Nat.eqb_spec cy cn) as [E|_]; [congruence|]. rewrite Nat.eqb_refl.
  fold a b u.
  rewrite square_expand by congruence.
  assert (F2' : Forall (fun r => length r = length x) (m_V m)) by (rewrite Lx; exact F2).
  rewrite !dot_image by (rewrite ?axpy_length; congruence || exact F2').
  fold u. rewrite !dot_axpy_l by congruence.
  rewrite (dot_comm b a), (dot_comm u a), (dot_comm u b). ring.
Qed.
