(** ROC curve, area and precision-recall curve: the functions as a whole. *)
From Verif Require Import Base BaseFacts MiscModel MiscSpec MiscProofs MetricModel MetricSpec MetricProofs MetricProofs2 MetricProofs3.
From Coq Require Import QArith Lqa Qfield.
Local Open Scope Z_scope.

Lemma desc_length p y s : List.length y = List.length s -> List.length (desc p y s) = List.length s.
Proof.
  intro L. rewrite (Permutation_length (desc_perm p y s)). unfold samples. rewrite combine_length, map_length, L. apply Nat.min_id.
Qed.
Lemma desc_nil p y s : List.length y = List.length s -> desc p y s = [] <-> s = [].
Proof.
  intro L. pose proof (desc_length p y s L) as H. destruct (desc p y s), s; split; try congruence; cbn in H; discriminate.
Qed.

(** The highest-scored sample is counted at its own threshold. *)
Lemma head_counted z L : (0 < fp (z :: L) (snd z) + tp (z :: L) (snd z))%nat.
Proof.
  unfold fp, tp. rewrite !count_cons. assert (E : Qle_bool (snd z) (snd z) = true) by (apply Qle_bool_iff; lra). rewrite E.
  destruct (fst z); cbn; lia.
Qed.

Definition scale (P N : nat) (x : nat * nat) : Q * Q := (qn (fst x) / qn N, qn (snd x) / qn P)%Q.

Lemma roc_eq y s g p : List.length y = List.length s -> pos_in_force y g p ->
  let L := desc p y s in
  let P := count fst L in let N := count (fun x => negb (fst x)) L in
  roc_curve true y s g =
    match map snd L with
    | [] => Err IndexErr
    | t :: _ =>
      if Nat.leb N 0 then Err ValueErr else if Nat.leb P 0 then Err ValueErr
      else Ok (map (fun x => qn (fst x) / qn N)%Q ((O, O) :: map (point L) L),
               map (fun x => qn (snd x) / qn P)%Q ((O, O) :: map (point L) L), (t + 1)%Q :: map snd L)
    end.
Proof.
  intros LN PF L P N. unfold roc_curve. rewrite (fps_tps_eq y s g p LN PF). cbn [bind]. fold L.
  pose proof (desc_sorted p y s) as SH. fold L in SH. 
  assert (LT : forall d, L <> [] -> last (map (tp L) (map snd L)) d = P) by (intros; now apply last_tp).
  assert (LF : forall d, L <> [] -> last (map (fp L) (map snd L)) d = N) by (intros; now apply last_fp).
  destruct L as [|z M] eqn:EL; [reflexivity|]. rewrite <- EL in *. assert (NE : L <> []) by (rewrite EL; discriminate).
  assert (HD : (negb (Nat.eqb (hd O (map (fp L) (map snd L))) 0) || negb (Nat.eqb (hd O (map (tp L) (map snd L))) 0))%bool = true).
  { pose proof (head_counted z M) as H. rewrite EL. cbn [map hd]. rewrite orb_true_iff, !negb_true_iff, !Nat.eqb_neq. lia. }
  assert (T : (match map (tp L) (map snd L) with [] => true | _ => false end || negb (Nat.eqb (hd O (map (fp L) (map snd L))) 0) ||
               negb (Nat.eqb (hd O (map (tp L) (map snd L))) 0))%bool = true) by (rewrite <- orb_assoc, HD; apply orb_true_r).
  rewrite T. clear T HD.
  assert (ET : map snd L = snd z :: map snd M) by (rewrite EL; reflexivity).
  assert (N2 : forall (l : list nat) x, l <> [] -> last (x :: l) O = last l O) by (intros [|? ?] x H; [congruence|reflexivity]).
  assert (F0 : map (fp L) (map snd L) <> []) by (rewrite ET; discriminate). assert (T0 : map (tp L) (map snd L) <> []) by (rewrite ET; discriminate).
  assert (EF : map (fun x => qn (fst x) / qn N)%Q (map (point L) L) = map (fun x => qn x / qn N)%Q (map (fp L) (map snd L))) by now rewrite !map_map.
  assert (EP : map (fun x => qn (snd x) / qn P)%Q (map (point L) L) = map (fun x => qn x / qn P)%Q (map (tp L) (map snd L))) by now rewrite !map_map.
  cbn [map fst snd]. rewrite EF, EP. clear EF EP. specialize (LT O NE). specialize (LF O NE).
  set (F := map (fp L) (map snd L)) in *. set (TT := map (tp L) (map snd L)) in *. rewrite ET. cbn [bind].
  rewrite !N2, LT, LF by auto.
  destruct (Nat.leb N 0); [reflexivity|]. destruct (Nat.leb P 0); reflexivity.
Qed.

Lemma combine_map_same {A B C} (f : A -> B) (g : A -> C) l : combine (map f l) (map g l) = map (fun x => (f x, g x)) l.
Proof. induction l; cbn; congruence. Qed.

(** The area is the share of well-ordered pairs, ties counting half. *)
Lemma auc_pairs y s g p P N gt eq : List.length y = List.length s -> pos_in_force y g p ->
  how_many (pos_sample p y) P -> how_many (neg_sample p y) N -> (0 < P)%nat -> (0 < N)%nat ->
  how_many (fun ij => pos_sample p y (fst ij) /\ neg_sample p y (snd ij) /\ above s (fst ij) (snd ij)) gt ->
  how_many (fun ij => pos_sample p y (fst ij) /\ neg_sample p y (snd ij) /\ level s (fst ij) (snd ij)) eq ->
  exists q, roc_auc_score true y s g = Ok q /\ (q == ratio (2 * gt + eq) (2 * (P * N)))%Q.
Proof.
  intros LN PF HP HN P0 N0 HG HE. unfold roc_auc_score. rewrite (roc_eq y s g p LN PF).
  rewrite (hm_unique _ _ _ (hm_positives p y s LN) HP), (hm_unique _ _ _ (hm_negatives p y s LN) HN).
  set (L := desc p y s). pose proof (desc_sorted p y s) as SH. fold L in SH.
  assert (NE : L <> []). { intro E. pose proof (hm_positives p y s LN) as H. fold L in H. rewrite E in H. pose proof (hm_unique _ _ _ H HP). cbn in *. lia. }
  destruct (map snd L) as [|t ts] eqn:ET; [destruct L; [congruence|discriminate]|].
  destruct (Nat.leb_spec N 0); [lia|]. destruct (Nat.leb_spec P 0); [lia|]. cbn [bind fst snd]. unfold auc.
  rewrite !map_length, Nat.eqb_refl. cbn [guard bind List.length]. rewrite map_length.
  assert (LL : Nat.leb 2 (S (List.length L)) = true) by (apply Nat.leb_le; destruct L; [congruence|cbn; lia]). rewrite LL. cbn [guard bind].
  eexists; split; [reflexivity|]. rewrite combine_map_same. fold (scale P N).
  pose proof (points_sorted L SH L) as PS. pose proof (curve_sorted P N _ P0 N0 PS) as CS. fold (scale P N) in CS.
  rewrite (isort_id lex_le) by exact CS. unfold scale. rewrite (trapz_area P N); auto.
  - rewrite (area_all L SH). unfold L. rewrite (cross_perm _ _ _ _ (desc_perm p y s) (desc_perm p y s)), cross_counts.
    rewrite (hm_unique _ _ _ (hm_gt p y s) HG), (hm_unique _ _ _ (hm_eq p y s) HE). unfold ratio. rewrite !nat_q_mul. reflexivity.
  - clear -PS. induction PS as [|x l PS IH H]; constructor; auto. destruct H as [|z l [H _]]; constructor; auto.
Qed.

(** ** Precision and recall *)
Lemma searchsorted_spec l v : let i := searchsorted l v in
  (forall k x, (k < i)%nat -> nth_error l k = Some x -> (x < v)%nat) /\
  (forall x, nth_error l i = Some x -> (v <= x)%nat) /\ ((exists x, In x l /\ (v <= x)%nat) -> (i < List.length l)%nat).
Proof.
  induction l as [|x l (A & B & C)]; cbn.
  - split; [intros k x H; lia|]. split; [discriminate|]. intros (x & [] & _).
  - destruct (Nat.leb_spec v x) as [H|H].
    + split; [intros k y K; lia|]. split; [intros y J; cbn in J; congruence|]. lia.
    + split; [|split].
      * intros [|k] y K J; cbn in J; [congruence|]. apply (A k); auto. lia.
      * intros y J. cbn in J. auto.
      * intros (y & [->|J] & K); [lia|]. assert (searchsorted l v < List.length l)%nat; [apply C; eauto|lia].
Qed.
Lemma count_total L : (count fst L + count (fun x : sample => negb (fst x)) L)%nat = List.length L.
Proof. apply count_neg. Qed.
Lemma firstn_map {A B} (f : A -> B) n l : firstn n (map f l) = map f (firstn n l).
Proof. revert l. induction n; intros [|x l]; cbn; congruence. Qed.

Lemma prc_eq y s g p : List.length y = List.length s -> pos_in_force y g p -> s <> [] ->
  let L := desc p y s in
  let P := count fst L in
  let i := searchsorted (map (tp L) (map snd L)) P in
  let M := rev (firstn (S i) L) in
  precision_recall_curve true y s g =
    Ok (map (fun x => Num (ratio (tp L (snd x)) (tp L (snd x) + fp L (snd x)))) M ++ [Num 1],
        map (fun x => fdiv (nat_q (tp L (snd x))) (nat_q P)) M ++ [Num 0],
        map snd M) /\ (i < List.length L)%nat.
Proof.
  intros LN PF NE L P i M. unfold precision_recall_curve. rewrite (fps_tps_eq y s g p LN PF). cbn [bind]. fold L.
  pose proof (desc_sorted p y s) as SH. fold L in SH.
  assert (NL : L <> []) by (intro E; apply (proj1 (desc_nil p y s LN)) in E; congruence).
  pose proof (last_tp L O NL SH) as LT. fold P in LT. rewrite LT. fold i.
  assert (I : (i < List.length L)%nat).
  { destruct (searchsorted_spec (map (tp L) (map snd L)) P) as (_ & _ & C). fold i in C. rewrite !map_length in C. apply C.
    exists (last (map (tp L) (map snd L)) O). split; [|lia]. assert (NM : map (tp L) (map snd L) <> []) by (destruct L; [congruence|discriminate]).
    rewrite (app_removelast_last O NM) at 2. apply in_app_iff. right. now left. }
  split; auto.
  assert (G : guard (negb match map (tp L) (map snd L) with [] => true | _ :: _ => false end) IndexErr = Ok tt) by (destruct L; [congruence|reflexivity]).
  rewrite G. cbn [bind]. f_equal. unfold backwards.
  rewrite !map_map, combine_map_same, !map_map, !firstn_map, <- !map_rev. fold M. f_equal. f_equal.
  f_equal. apply map_ext_in. intros x J. cbn [fst snd].
  assert (PO : (0 < tp L (snd x) + fp L (snd x))%nat).
  { apply in_rev in J. assert (JL : In x L). { rewrite <- (firstn_skipn (S i) L). apply in_app_iff. now left. }
    unfold tp, fp. clear -JL. induction L as [|z L IH]; [destruct JL|]. rewrite !count_cons. destruct JL as [->|JL]; [|specialize (IH JL); lia].
    assert (E : Qle_bool (snd x) (snd x) = true) by (apply Qle_bool_iff; lra). rewrite E. destruct (fst x); cbn; lia. }
  rewrite fdiv_num; [reflexivity|]. unfold qn. fold (nat_q (tp L (snd x) + fp L (snd x))). rewrite nat_q_0. lia.
Qed.
