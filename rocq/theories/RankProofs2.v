(** Proofs about whole calls of the label ranking training. *)
From Coq Require Import QArith Lqa.
From Verif Require Import Base BaseFacts RankModel RankSpec RankProofs.
Local Open Scope Q_scope.

(** The visits of a call. *)

Definition visits (t : list vec) (order : list nat) : list (nat * (nat * nat)) :=
  combine (range (length order)) (visited t order).

Lemma visited_length t order : length (visited t order) = length order.
Proof. unfold visited. apply map_length. Qed.

Lemma combine_seq_nth {A} (l : list A) : forall s i p, In (i, p) (combine (seq s (length l)) l) ->
  exists k, i = (s + k)%nat /\ nth_error l k = Some p.
Proof.
  induction l as [|x l IH]; intros s i p H; cbn in H; [destruct H|].
  destruct H as [E|H].
  - injection E as <- <-. exists O. split; [lia|reflexivity].
  - apply IH in H. destruct H as (k & -> & H). exists (S k). split; [lia|exact H].
Qed.

Lemma visits_nth t order i p : In (i, p) (visits t order) -> nth_error (visited t order) i = Some p.
Proof.
  unfold visits. rewrite <- (visited_length t order). intro H. unfold range in H.
  apply combine_seq_nth in H. destruct H as (k & -> & H). exact H.
Qed.

Lemma nth_seq_map {A} (l : list A) d : map (fun q => nth q l d) (seq 0 (length l)) = l.
Proof.
  induction l as [|x l IH]; [reflexivity|]. cbn [length seq map nth]. f_equal.
  rewrite <- seq_shift, map_map. exact IH.
Qed.

Lemma visited_perm t order : Permutation order (seq 0 (length (train_pairs t))) ->
  Permutation (visited t order) (train_pairs t).
Proof.
  intro P. unfold visited. eapply Permutation_trans; [apply Permutation_map; exact P|]. now rewrite nth_seq_map.
Qed.

Lemma fair_visit t order pick i ins c : fair t order pick -> In (i, (ins, c)) (visits (add_dummy t) order) ->
  (ins < length (add_dummy t))%nat /\ (c < width (add_dummy t))%nat /\ 1 <= entry_at (add_dummy t) ins c /\
  forall j, (j < length (irrelevant (add_dummy t) ins c))%nat ->
    (pick i j < length (irrelevant (add_dummy t) ins c))%nat.
Proof.
  intros [P Hp] H. apply visits_nth in H.
  assert (In (ins, c) (train_pairs (add_dummy t))) as I
    by (eapply Permutation_in; [apply visited_perm; exact P|eapply nth_error_In; exact H]).
  apply train_pairs_in in I. destruct I as (I1 & I2 & I3).
  repeat (split; [assumption|]). now apply Hp.
Qed.

(** Induction over the visits of a call. *)
Lemma train_ind (P : model -> Prop) data t order pick m :
  P m -> (forall m e, In e (visits (add_dummy t) order) -> P m -> P (visit data (add_dummy t) pick m e)) ->
  P (train_model data t order pick m).
Proof.
  intros P0 Ps. unfold train_model. cbn zeta. fold (visits (add_dummy t) order).
  revert m P0. induction (visits (add_dummy t) order) as [|e l IH]; intros m P0; cbn [fold_left]; [exact P0|].
  apply IH; [intros; apply Ps; [now right|assumption]|]. apply Ps; [now left|exact P0].
Qed.

Lemma train_shaped d D data t order pick m : fair t order pick ->
  shaped d D (5 * width (add_dummy t)) m -> shaped d D (5 * width (add_dummy t)) (train_model data t order pick m).
Proof.
  intros F Sh. apply train_ind; [exact Sh|]. intros m0 [i [ins c]] I S0.
  destruct (fair_visit t order pick i ins c F I) as (_ & H2 & _ & H4).
  apply visit_shaped; [exact S0|exact H2|exact H4].
Qed.

(** Unmarked classes keep their sub-models. *)

Lemma set_col_other n x q : forall l, q <> n -> nth q (set_col n x l) [] = nth q l [].
Proof.
  revert q. induction n as [|n IH]; intros q [|y l] N; try reflexivity.
  - destruct q; [congruence|reflexivity].
  - destruct q as [|q]; [reflexivity|]. cbn. apply IH. congruence.
Qed.

Lemma visit_other data t pick m i ins c c0 k0 :
  (k0 < 5)%nat -> c <> c0 -> (forall c', below t ins c c' -> c' <> c0) ->
  (forall j, (j < length (irrelevant t ins c))%nat -> (pick i j < length (irrelevant t ins c))%nat) ->
  nth (5 * c0 + k0) (m_B (visit data t pick m (i, (ins, c)))) [] = nth (5 * c0 + k0) (m_B m) [].
Proof.
  intros K N Nb P. unfold visit. fold (image (m_V m) (nth ins data [])). set (x := nth ins data []).
  pose proof (scores_best (m_B m) (m_V m) x c) as Hb.
  destruct (argmax (scores (m_B m) (image (m_V m) x) c)) as [fy k]. cbn [fst snd] in Hb.
  pose proof (search_spec (m_B m) (m_V m) x fy (irrelevant t ins c) (pick i) (length (irrelevant t ins c)) 0) as Hs.
  destruct (search (m_B m) (image (m_V m) x) fy (irrelevant t ins c) (pick i) 0 (length (irrelevant t ins c)))
    as [[[j c'] k']|].
  - destruct Hs as (H1 & H2 & (fn & (K3 & _) & _) & _). destruct Hb as (Kb & _).
    assert (c' <> c0).
    { apply Nb, irrelevant_in. rewrite H2. apply nth_In, P. lia. }
    match goal with |- nth _ (m_B (if ?b then snapshot ?g else _)) _ = _ =>
      transitivity (nth (5 * c0 + k0) (m_B g) []); [now destruct b|] end.
    unfold gradient; cbn [m_B]. unfold num_sub.
    rewrite !set_col_other by lia. reflexivity.
  - now destruct (Nat.eqb i 0 || _).
Qed.

Lemma train_unmarked data t order pick m c k : fair t order pick -> unmarked t c -> (k < 5)%nat ->
  nth (5 * c + k) (m_B (train_model data t order pick m)) [] = nth (5 * c + k) (m_B m) [].
Proof.
  intros F [U1 U2] K.
  apply (train_ind (fun m' => nth (5 * c + k) (m_B m') [] = nth (5 * c + k) (m_B m) [])); [reflexivity|].
  intros m0 [i [ins c1]] I E. rewrite <- E.
  destruct (fair_visit t order pick i ins c1 F I) as (_ & H2 & H3 & H4).
  apply visit_other; [exact K| | |exact H4].
  - intros ->. now apply (proj1 (U2 ins)).
  - intros c' [[_ B]|[-> _]]; [intros ->; now apply (proj2 (U2 ins))|lia].
Qed.

(** Training only sees the marks. *)

Definition mark (a b : Q) : Prop := (1 <= a <-> 1 <= b) /\ (a == -(1) <-> b == -(1)) /\ (a == 2 <-> b == 2).

Lemma bool_iff (a b : bool) : (a = true <-> b = true) -> a = b.
Proof. destruct a, b; intuition congruence. Qed.

Lemma existsb_F2 {A B} (R : A -> B -> Prop) f g l l' :
  (forall a b, R a b -> f a = g b) -> Forall2 R l l' -> existsb f l = existsb g l'.
Proof. intros H F. induction F as [|a b l l' Hab F IH]; cbn; [reflexivity|]. now rewrite (H a b Hab), IH. Qed.

Lemma add_dummy_marks t t' : same_marks t t' -> same_marks (add_dummy t) (add_dummy t').
Proof.
  intro M. unfold add_dummy.
  assert (E : existsb (existsb (Qeq_bool 2)) t = existsb (existsb (Qeq_bool 2)) t').
  { eapply existsb_F2; [|exact M]. intros r r' Hr. cbn beta in Hr. eapply existsb_F2; [|exact Hr].
    intros a b (_ & _ & H). apply bool_iff. rewrite !Qeq_bool_iff. split; intro; symmetry; apply H; now symmetry. }
  rewrite E. destruct (existsb (existsb (Qeq_bool 2)) t'); [exact M|].
  clear E. unfold same_marks in *. induction M as [|r r' t t' Hr M IH]; cbn [map]; constructor; [|exact IH].
  apply Forall2_app; [exact Hr|]. repeat constructor; intro; assumption.
Qed.

Lemma F2_length {A B} (R : A -> B -> Prop) l l' : Forall2 R l l' -> length l = length l'.
Proof. induction 1; cbn; congruence. Qed.

Lemma marks_width t t' : same_marks t t' -> width t = width t'.
Proof. intros [|r r' l l' Hr M]; [reflexivity|]. unfold width; cbn [hd]. eapply F2_length; exact Hr. Qed.

Lemma marks_length t t' : same_marks t t' -> length t = length t'.
Proof. intro M. eapply F2_length; exact M. Qed.

Lemma F2_nth {A B} (R : A -> B -> Prop) l l' d d' n : R d d' -> Forall2 R l l' -> R (nth n l d) (nth n l' d').
Proof. intros Rd F. revert n. induction F as [|a b l l' H F IH]; intros [|n]; cbn; auto. Qed.

Lemma marks_entry t t' i c : same_marks t t' -> mark (entry_at t i c) (entry_at t' i c).
Proof.
  intro M. unfold entry_at. apply (F2_nth mark).
  - repeat split; intro; assumption.
  - apply (F2_nth (Forall2 mark) t t' [] [] i); [constructor|exact M].
Qed.

Lemma marks_pairs t t' : same_marks t t' -> train_pairs t = train_pairs t'.
Proof.
  intro M. unfold train_pairs. rewrite (marks_length t t' M), (marks_width t t' M).
  apply flat_map_ext. intro i. f_equal. apply filter_ext. intro c. apply bool_iff.
  rewrite !Qle_bool_iff. apply (marks_entry t t' i c M).
Qed.

Lemma marks_irrelevant t t' i c : same_marks t t' -> irrelevant t i c = irrelevant t' i c.
Proof.
  intro M. unfold irrelevant. rewrite (marks_width t t' M). f_equal.
  apply filter_ext. intro k. apply bool_iff. rewrite !Qeq_bool_iff. apply (marks_entry t t' i k M).
Qed.

Lemma visit_marks data t t' pick m e : same_marks t t' -> visit data t pick m e = visit data t' pick m e.
Proof.
  intro M. destruct e as [i [ins c]]. unfold visit. now rewrite (marks_irrelevant t t' ins c M), (marks_width t t' M).
Qed.

Lemma train_marks data t t' order pick m : same_marks t t' ->
  train_model data t order pick m = train_model data t' order pick m.
Proof.
  intro M. apply add_dummy_marks in M. unfold train_model. cbn zeta.
  assert (E : visited (add_dummy t) order = visited (add_dummy t') order)
    by (unfold visited; now rewrite (marks_pairs _ _ M)).
  rewrite E. revert m. induction (combine (range (length order)) (visited (add_dummy t') order)) as [|e l IH]; intro m;
    cbn [fold_left]; [reflexivity|]. now rewrite (visit_marks data _ _ pick m e M), IH.
Qed.

(** Averages. *)

Definition keeps (p : nat * model) : bool :=
  Nat.eqb (fst p) 0 || (Nat.ltb 10 (m_rounds (snd p)) && Nat.eqb (fst p mod 5) 0).

Lemma visit_sums data t pick m e :
  let m' := visit data t pick m e in
  (keeps (fst e, m') = true /\ m_Anum m' = S (m_Anum m) /\
     m_AB m' = add_mat (m_AB m) (m_B m') /\ m_AV m' = add_mat (m_AV m) (m_V m')) \/
  (keeps (fst e, m') = false /\ m_Anum m' = m_Anum m /\ m_AB m' = m_AB m /\ m_AV m' = m_AV m).
Proof.
  cbn zeta. destruct e as [i [ins c]]. unfold visit.
  destruct (argmax _) as [fy k].
  set (m1 := match search _ _ _ _ _ _ _ with None => m | Some _ => _ end).
  assert (H1 : m_AB m1 = m_AB m /\ m_AV m1 = m_AV m /\ m_Anum m1 = m_Anum m).
  { unfold m1. destruct (search _ _ _ _ _ _ _) as [[[? ?] ?]|]; repeat split; reflexivity. }
  destruct H1 as (H1 & H2 & H3).
  destruct (Nat.eqb i 0 || (Nat.ltb avg_begin (m_rounds m1) && Nat.eqb (i mod avg_size) 0)) eqn:E.
  - left. split; [exact E|]. cbn. rewrite H1, H2, H3. auto.
  - right. split; [exact E|]. auto.
Qed.

Lemma add_mat_ok n w a b : length b = n -> Forall (fun r => length r = w) b ->
  match a with None => True | Some a => length a = n /\ Forall (fun r => length r = w) a end ->
  exists c, add_mat a b = Some c /\ length c = n /\ Forall (fun r => length r = w) c /\
    forall q r, nth r (nth q c []) 0 == summed a q r + nth r (nth q b []) 0.
Proof.
  intros Lb Fb Ha. destruct a as [a|]; cbn [add_mat].
  - destruct Ha as [La Fa]. eexists. split; [reflexivity|].
    split; [rewrite map_length, combine_length; lia|]. split.
    + apply Forall_forall. intros r Hr. apply in_map_iff in Hr. destruct Hr as ((u & v) & <- & Hr).
      rewrite axpy_length. cbn [fst]. apply in_combine_l in Hr. now apply (proj1 (Forall_forall _ _) Fa).
    + intros q r. cbn [summed]. destruct (Nat.lt_ge_cases q n) as [Lq|Lq].
      * set (f := fun p : vec * vec => axpy 1 (snd p) (fst p)).
        rewrite (nth_indep _ [] (f ([], []))) by (rewrite map_length, combine_length; lia).
        rewrite map_nth, combine_nth by lia. unfold f; cbn [fst snd].
        rewrite axpy_nth; [ring|].
        rewrite (proj1 (Forall_forall _ _) Fa (nth q a [])) by (apply nth_In; lia).
        apply (proj1 (Forall_forall _ _) Fb). apply nth_In; lia.
      * rewrite !(nth_overflow _ []) by (rewrite ?map_length, ?combine_length; lia). destruct r; cbn; ring.
  - exists b. repeat (split; [auto|]). intros. cbn [summed]. ring.
Qed.

Lemma visit_average d D n m' m keep :
  sums_ok d D n m -> shaped d D n m' ->
  (keep = true /\ m_Anum m' = S (m_Anum m) /\
     m_AB m' = add_mat (m_AB m) (m_B m') /\ m_AV m' = add_mat (m_AV m) (m_V m')) \/
  (keep = false /\ m_Anum m' = m_Anum m /\ m_AB m' = m_AB m /\ m_AV m' = m_AV m) ->
  sums_ok d D n m' /\ m_Anum m' = (m_Anum m + if keep then 1 else 0)%nat /\
  (forall q r, summed (m_AB m') q r == summed (m_AB m) q r + if keep then nth r (nth q (m_B m') []) 0 else 0) /\
  (forall q r, summed (m_AV m') q r == summed (m_AV m) q r + if keep then nth r (nth q (m_V m') []) 0 else 0).
Proof.
  intros [S1 S2] (L1 & F1 & L2 & F2) [(-> & A & EB & EV)|(-> & A & EB & EV)].
  - destruct (add_mat_ok n D (m_AB m) (m_B m')) as (b & B1 & B2 & B3 & B4); [exact L1|exact F1| |].
    { destruct (m_AB m); [|exact I]. split; apply S1. }
    destruct (add_mat_ok D d (m_AV m) (m_V m')) as (v & V1 & V2 & V3 & V4); [exact L2|exact F2| |].
    { destruct (m_AV m); [|exact I]. split; apply S2. }
    rewrite B1 in EB. rewrite V1 in EV.
    split; [|split; [lia|split]].
    + unfold sums_ok. rewrite EB, EV, A. repeat split; auto; lia.
    + intros q r. rewrite EB. cbn [summed]. apply B4.
    + intros q r. rewrite EV. cbn [summed]. apply V4.
  - split; [|split; [lia|split]].
    + unfold sums_ok. rewrite EB, EV, A. now split.
    + intros q r. rewrite EB. ring.
    + intros q r. rewrite EV. ring.
Qed.

Lemma kept_cons p l : kept (p :: l) = (if keeps p then [snd p] else []) ++ kept l.
Proof. unfold kept. cbn [filter]. fold (keeps p). now destruct (keeps p). Qed.

Lemma train_average d D data t order pick m :
  fair t order pick -> shaped d D (5 * width (add_dummy t)) m -> sums_ok d D (5 * width (add_dummy t)) m ->
  let m' := train_model data t order pick m in
  let l := kept (after (visit data (add_dummy t) pick) m (visits (add_dummy t) order)) in
  sums_ok d D (5 * width (add_dummy t)) m' /\ m_Anum m' = (m_Anum m + length l)%nat /\
  (forall q r, summed (m_AB m') q r == summed (m_AB m) q r + total (fun s => nth r (nth q (m_B s) []) 0) l) /\
  (forall q r, summed (m_AV m') q r == summed (m_AV m) q r + total (fun s => nth r (nth q (m_V s) []) 0) l).
Proof.
  intros F. cbn zeta. unfold train_model. cbn zeta. fold (visits (add_dummy t) order).
  assert (H : forall e, In e (visits (add_dummy t) order) -> In e (visits (add_dummy t) order)) by auto.
  revert H m. generalize (visits (add_dummy t) order) at 1 3 4 5 6 7 8 9 as l.
  induction l as [|e l IH]; intros H m Sh So; cbn [fold_left after].
  - split; [exact So|]. split; [cbn; lia|]. split; intros; cbn; ring.
  - set (m1 := visit data (add_dummy t) pick m e).
    assert (Sh1 : shaped d D (5 * width (add_dummy t)) m1).
    { destruct e as [i [ins c]]. specialize (H _ (or_introl eq_refl)).
      destruct (fair_visit t order pick i ins c F H) as (_ & H2 & _ & H4).
      apply visit_shaped; assumption. }
    destruct (visit_average d D (5 * width (add_dummy t)) m1 m (keeps (fst e, m1)) So Sh1)
      as (So1 & N1 & B1 & V1); [apply visit_sums|].
    destruct (IH (fun e' I => H e' (or_intror I)) m1 Sh1 So1) as (I1 & I2 & I3 & I4).
    rewrite kept_cons. split; [exact I1|].
    destruct (keeps (fst e, m1)); cbn [app snd length total].
    + split; [lia|]. split; intros q r.
      * rewrite I3, B1. ring.
      * rewrite I4, V1. ring.
    + split; [lia|]. split; intros q r.
      * rewrite I3, B1. ring.
      * rewrite I4, V1. ring.
Qed.

(** Every call with an instance keeps at least one copy. *)

Lemma add_dummy_pair w t : matrix w t -> exists i c, In (i, c) (train_pairs (add_dummy t)).
Proof.
  intros [N F]. unfold add_dummy. destruct (existsb (existsb (Qeq_bool 2)) t) eqn:E.
  - apply existsb_exists in E. destruct E as (r & Hr & E). apply existsb_exists in E. destruct E as (a & Ha & E).
    apply Qeq_bool_iff in E.
    destruct (In_nth _ _ [] Hr) as (i & Hi & Ei). destruct (In_nth _ _ 0 Ha) as (c & Hc & Ec).
    exists i, c. apply train_pairs_in. split; [exact Hi|]. split.
    + unfold width. destruct t as [|r0 t]; [congruence|]. cbn [hd].
      rewrite (proj1 (Forall_forall _ _) F r0 (or_introl eq_refl)).
      now rewrite <- (proj1 (Forall_forall _ _) F r Hr).
    + unfold entry_at. rewrite Ei, Ec, <- E. lra.
  - destruct t as [|r0 t]; [congruence|]. exists O, (length r0). apply train_pairs_in. cbn [map length].
    split; [lia|]. split; [unfold width; cbn [hd]; rewrite app_length; cbn; lia|].
    unfold entry_at. cbn [nth]. rewrite app_nth2 by lia. rewrite Nat.sub_diag. cbn. lra.
Qed.

Lemma train_keeps w data t order pick m : matrix w t -> fair t order pick ->
  (1 <= length (kept (after (visit data (add_dummy t) pick) m (visits (add_dummy t) order))))%nat.
Proof.
  intros M [P _]. destruct (add_dummy_pair w t M) as (i & c & I).
  destruct order as [|q order].
  - apply Permutation_nil in P. destruct (train_pairs (add_dummy t)); [destruct I|discriminate].
  - unfold visits, visited, range. cbn [length seq map combine after]. rewrite kept_cons.
    unfold keeps at 1. cbn [fst Nat.eqb orb app length]. lia.
Qed.

(** The margin, from the description of a step. *)

Lemma dot_ext a : forall b u v, length a = length b -> length u = length v ->
  (forall r, nth r a 0 == nth r b 0) -> (forall r, nth r u 0 == nth r v 0) -> dot a u == dot b v.
Proof.
  induction a as [|x a IH]; intros [|y b] u v L Lu Ha Hu; try discriminate L; [reflexivity|].
  destruct u as [|z u]; destruct v as [|w v]; try discriminate Lu; [reflexivity|]. cbn in L, Lu.
  cbn [dot]. pose proof (Ha O) as H1. pose proof (Hu O) as H2. cbn [nth] in H1, H2. rewrite H1, H2.
  rewrite (IH b u v); [reflexivity|congruence|congruence| |].
  - intro r. apply (Ha (S r)).
  - intro r. apply (Hu (S r)).
Qed.

Lemma shaped_col d D n m q : shaped d D n m -> (q < n)%nat -> length (nth q (m_B m) []) = D.
Proof. intros (L & F & _) Hq. apply (proj1 (Forall_forall _ _) F). apply nth_In. lia. Qed.

Lemma image_nth V x r : (r < length V)%nat -> nth r (image V x) 0 = dot (nth r V []) x.
Proof.
  intro L. unfold image. rewrite (nth_indep _ 0 (dot [] x)) by (rewrite map_length; exact L).
  apply (map_nth (fun r => dot r x)).
Qed.

Lemma score_ext d D n m m' x q : shaped d D n m -> shaped d D n m' -> (q < n)%nat ->
  (forall r, nth r (nth q (m_B m) []) 0 == nth r (nth q (m_B m') []) 0) ->
  (forall r e, nth e (nth r (m_V m) []) 0 == nth e (nth r (m_V m') []) 0) ->
  score (m_B m) (m_V m) x q == score (m_B m') (m_V m') x q.
Proof.
  intros S1 S2 Hq HB HV. unfold score. apply dot_ext.
  - now rewrite (shaped_col d D n m q S1 Hq), (shaped_col d D n m' q S2 Hq).
  - rewrite !image_length. destruct S1 as (_ & _ & -> & _). now destruct S2 as (_ & _ & -> & _).
  - exact HB.
  - intro r. destruct S1 as (_ & _ & L1 & F1). destruct S2 as (_ & _ & L2 & F2).
    destruct (Nat.lt_ge_cases r D) as [R|R].
    + rewrite !image_nth by lia. apply dot_ext; [|reflexivity|exact (HV r)|reflexivity].
      rewrite (proj1 (Forall_forall _ _) F1) by (apply nth_In; lia).
      now rewrite (proj1 (Forall_forall _ _) F2) by (apply nth_In; lia).
    + rewrite !nth_overflow by (rewrite image_length; lia). reflexivity.
Qed.

Lemma moved_margin d D n m m' x cy cn rate :
  shaped d D n m -> shaped d D n m' -> length x = d -> (cy < n)%nat -> (cn < n)%nat -> cy <> cn ->
  moved x cy cn rate m m' -> 0 <= rate -> rate * rate * dot x x <= 2 ->
  score (m_B m) (m_V m) x cy - score (m_B m) (m_V m) x cn <=
  score (m_B m') (m_V m') x cy - score (m_B m') (m_V m') x cn.
Proof.
  intros S1 S2 Lx Hy Hn N (M1 & M2 & _) R0 R2.
  set (g := gradient m x (image (m_V m) x) cy cn rate).
  assert (Sg : shaped d D n g) by (now apply gradient_shaped).
  destruct (gradient_moved d D n m x cy cn rate S1 Lx Hy Hn N) as (G1 & G2 & _). fold g in G1, G2. cbn zeta in M1, M2, G1, G2.
  assert (E : forall q, (q < n)%nat -> score (m_B m') (m_V m') x q == score (m_B g) (m_V g) x q).
  { intros q Hq. apply (score_ext d D n); auto; intros; [now rewrite M1, G1|now rewrite M2, G2]. }
  rewrite (E cy Hy), (E cn Hn).
  pose proof (gradient_margin d D n m x cy cn rate S1 Lx Hy Hn N) as H. cbn zeta in H. fold g in H. rewrite H.
  set (w := axpy rate _ _). pose proof (dot_pos w) as P1. pose proof (dot_pos x) as P2.
  pose proof (dot_pos (image (m_V m) x)) as P3.
  set (A := dot w w) in *. set (X := dot x x) in *. set (U := dot (image (m_V m) x) (image (m_V m) x)) in *.
  assert (0 <= X * A) by (apply Qmult_le_0_compat; assumption).
  assert (0 <= (2 - rate * rate * X) * U) by (apply Qmult_le_0_compat; lra).
  assert (0 <= rate * (X * A + (2 - rate * rate * X) * U)) by (apply Qmult_le_0_compat; lra).
  lra.
Qed.

(** The product of the averages. *)

Lemma nth_scaled c l e : nth e (map (fun v => v / c) l) 0 == nth e l 0 / c.
Proof.
  revert e. induction l as [|x l IH]; intros [|e]; cbn; try reflexivity; try (unfold Qdiv; ring). apply IH.
Qed.

Lemma sum_below_ext n f g : (forall r, (r < n)%nat -> f r == g r) -> sum_below n f == sum_below n g.
Proof. induction n as [|n IH]; intro H; cbn; [reflexivity|]. rewrite IH, H; [reflexivity|lia|intros; apply H; lia]. Qed.

Lemma sum_below_S n f : sum_below (S n) f == f O + sum_below n (fun r => f (S r)).
Proof. induction n as [|n IH]; [cbn; ring|]. cbn [sum_below] in *. rewrite IH. ring. Qed.

Lemma dot_sum a : forall b, length a = length b -> dot a b == sum_below (length b) (fun r => nth r a 0 * nth r b 0).
Proof.
  induction a as [|x a IH]; intros [|y b] L; try discriminate L; [reflexivity|]. cbn [dot length].
  rewrite sum_below_S. cbn [nth]. rewrite IH by (cbn in L; congruence). reflexivity.
Qed.

Lemma mean_entry c (av : list vec) (b : vec) e : length av = length b ->
  dot (map (fun r => nth e r 0) (map (map (fun v => v / c)) av)) (map (fun v => v / c) b) ==
  sum_below (length b) (fun r => (nth e (nth r av []) 0 / c) * (nth r b 0 / c)).
Proof.
  intro L. rewrite dot_sum by (rewrite !map_length; exact L). rewrite map_length.
  apply sum_below_ext. intros r R. rewrite nth_scaled.
  rewrite map_map. rewrite (nth_indep _ 0 (nth e (map (fun v => v / c) []) 0)) by (rewrite map_length; lia).
  rewrite (map_nth (fun r0 => nth e (map (fun v => v / c) r0) 0)). now rewrite nth_scaled.
Qed.

Lemma get_BV_ok d D n m : sums_ok d D n m -> (1 <= m_Anum m)%nat ->
  exists bv, get_BV d m = Some bv /\ length bv = d /\ Forall (fun r => length r = n) bv /\
    forall e q, (e < d)%nat -> (q < n)%nat ->
      nth q (nth e bv []) 0 ==
      sum_below D (fun r => (summed (m_AV m) r e / inject_Z (Z.of_nat (m_Anum m))) *
                            (summed (m_AB m) q r / inject_Z (Z.of_nat (m_Anum m)))).
Proof.
  intros [S1 S2] A. unfold get_BV.
  destruct (m_AB m) as [ab|] eqn:EB; [|lia]. destruct (m_AV m) as [av|] eqn:EV; [|lia].
  destruct S1 as (_ & L1 & F1). destruct S2 as (_ & L2 & F2).
  set (k := m_Anum m) in *. set (c := inject_Z (Z.of_nat k)).
  assert (Em : forall a, mean_mat (Some a) k = Some (map (map (fun v => v / c)) a))
    by (intro a; unfold mean_mat, c; destruct k; [lia|reflexivity]).
  rewrite !Em. eexists. split; [reflexivity|].
  split; [rewrite map_length; unfold range; now rewrite seq_length|]. split.
  - apply Forall_forall. intros r Hr. apply in_map_iff in Hr. destruct Hr as (e & <- & _). now rewrite !map_length.
  - intros e q He Hq.
    set (f := fun e0 : nat => map (fun b => dot (map (fun r => nth e0 r 0) (map (map (fun v => v / c)) av)) b)
                                  (map (map (fun v => v / c)) ab)).
    rewrite (nth_indep _ [] (f O)) by (rewrite map_length; unfold range; rewrite seq_length; exact He).
    rewrite (map_nth f). unfold range. rewrite seq_nth by exact He. cbn [Nat.add]. unfold f. rewrite map_map.
    set (g := fun x => dot (map (fun r => nth e r 0) (map (map (fun v => v / c)) av)) (map (fun v => v / c) x)).
    rewrite (nth_indep _ 0 (g [])) by (rewrite map_length; lia). rewrite (map_nth g). unfold g.
    assert (Lq : length (nth q ab []) = D) by (apply (proj1 (Forall_forall _ _) F1); apply nth_In; lia).
    rewrite mean_entry by lia. rewrite Lq. cbn [summed]. reflexivity.
Qed.
