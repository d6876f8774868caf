(** Proofs about [majority_vote] and [get_majority_vote]. *)
From Verif Require Import Base BaseFacts IndexModel IndexProofs MLModel StateModel StateProofs StateProofs2
  Dict OracleModel OracleSpec OracleProofs OracleProofs2.
From Coq Require Import String QArith.
Local Open Scope nat_scope.

Fixpoint firsts (l : list key) : list key :=
  match l with [] => [] | x :: l' => x :: filter (fun y => negb (key_eqb x y)) (firsts l') end.

Lemma firsts_in l x : In x (firsts l) <-> In x l.
Proof.
  induction l as [|a l IH]; cbn; [tauto|]. rewrite filter_In, IH, negb_true_iff, key_eqb_neq.
  destruct (key_dec a x); intuition congruence.
Qed.

Lemma firsts_snoc l x : firsts (l ++ [x]) = if in_dec key_dec x l then firsts l else firsts l ++ [x].
Proof.
  induction l as [|a l IH]; [reflexivity|]. cbn [app firsts]. rewrite IH.
  destruct (in_dec key_dec x (a :: l)) as [I'|N']; destruct (in_dec key_dec x l) as [I|N]; auto.
  - destruct I' as [->|]; [|contradiction]. rewrite filter_app. cbn. rewrite key_eqb_refl. cbn. now rewrite app_nil_r.
  - exfalso. apply N'. now right.
  - rewrite filter_app. cbn. replace (key_eqb a x) with false; auto. symmetry. apply key_eqb_neq.
    intros ->. apply N'. now left.
Qed.

Lemma dset_absent {V} k (v : V) d : ~ In k (map fst d) -> dset key_eqb k v d = d ++ [(k, v)].
Proof.
  induction d as [|[k' w] d IH]; cbn; auto. intro H. destruct (key_eqb k k') eqn:E.
  - apply key_eqb_eq in E. subst. tauto.
  - rewrite IH by tauto. reflexivity.
Qed.

Lemma dget_map_keys (f : key -> nat) l k : dget key_eqb k (map (fun x => (x, f x)) l) =
  if in_dec key_dec k l then Some (f k) else None.
Proof.
  induction l as [|a l IH]; [reflexivity|]. cbn [map dget]. rewrite IH. destruct (in_dec key_dec k (a :: l)) as [I|N].
  - destruct (key_eqb k a) eqn:E; [apply key_eqb_eq in E; now subst|]. apply key_eqb_neq in E.
    destruct I as [->|I]; [congruence|]. now destruct (in_dec key_dec k l).
  - destruct (key_eqb k a) eqn:E; [apply key_eqb_eq in E; subst; exfalso; apply N; now left|].
    destruct (in_dec key_dec k l); auto. exfalso. apply N. now right.
Qed.

Lemma dset_map_keys (f : key -> nat) l k v : In k l -> NoDup l ->
  dset key_eqb k v (map (fun x => (x, f x)) l) = map (fun x => (x, if key_eqb k x then v else f x)) l.
Proof.
  induction l as [|a l IH]; cbn; [tauto|]. intros H N. inversion N as [|? ? Na Nl]; subst.
  destruct (key_eqb k a) eqn:E.
  - apply key_eqb_eq in E. subst. f_equal. apply map_ext_in. intros x Hx.
    replace (key_eqb a x) with false; auto. symmetry. apply key_eqb_neq. congruence.
  - f_equal. apply IH; auto. destruct H as [->|]; auto. rewrite key_eqb_refl in E. discriminate.
Qed.

Lemma firsts_nodup l : NoDup (firsts l).
Proof.
  induction l as [|a l IH]; cbn; constructor.
  - rewrite filter_In, key_eqb_refl. intros [_ X]. discriminate.
  - now apply NoDup_filter.
Qed.

Lemma counter_spec ls : counter ls = map (fun k => (k, votes ls k)) (firsts ls).
Proof.
  induction ls as [|x ls IH] using rev_ind; [reflexivity|].
  unfold counter. rewrite fold_left_app. fold (counter ls). cbn [fold_left]. rewrite IH. rewrite dget_map_keys, firsts_snoc.
  assert (V : forall k, votes (ls ++ [x]) k = votes ls k + if key_dec x k then 1 else 0).
  { intro k. unfold votes. rewrite count_occ_app. cbn. now destruct (key_dec x k). }
  destruct (in_dec key_dec x (firsts ls)) as [I|N]; destruct (in_dec key_dec x ls) as [I'|N'];
    try (exfalso; rewrite firsts_in in *; tauto).
  - rewrite dset_map_keys by (auto using firsts_nodup). apply map_ext. intro k. f_equal. rewrite V.
    destruct (key_dec x k) as [->|n]; [rewrite key_eqb_refl; lia|]. apply key_eqb_neq in n. rewrite n. lia.
  - rewrite dset_absent.
    + rewrite map_app. cbn. f_equal.
      * apply map_ext_in. intros k Hk. rewrite V. destruct (key_dec x k) as [->|]; [contradiction|]. f_equal. lia.
      * f_equal. f_equal. rewrite V. unfold votes. apply (count_occ_not_In key_dec) in N'. rewrite N'.
        destruct (key_dec x x); [reflexivity|contradiction].
    + rewrite map_map. cbn. now rewrite map_id.
Qed.

Definition mc_step (best : option (key * nat)) (e : key * nat) :=
  match best with None => Some e | Some b => if Nat.ltb (snd b) (snd e) then Some e else best end.

Lemma most_common_spec d : match most_common d with
  | None => d = []
  | Some b => exists p q, d = p ++ b :: q /\ (forall e, In e p -> snd e < snd b) /\ (forall e, In e d -> snd e <= snd b)
  end.
Proof.
  induction d as [|x d IH] using rev_ind; [reflexivity|].
  unfold most_common. rewrite fold_left_app. fold (most_common d). cbn [fold_left].
  destruct (most_common d) as [b|].
  - destruct IH as (p & q & -> & H1 & H2). destruct (Nat.ltb_spec (snd b) (snd x)).
    + exists (p ++ b :: q), []. split; [auto|]. split.
      * intros e He. apply H2 in He. lia.
      * intros e He. apply in_app_iff in He. destruct He as [He|[<-|[]]]; auto. apply H2 in He. lia.
    + exists p, (q ++ [x]). split; [now rewrite <- app_assoc|]. split; auto.
      intros e He. rewrite in_app_iff in He. destruct He as [He|[<-|[]]]; auto.
  - subst. exists [], []. split; [auto|]. split; [intros ? []|intros e [<-|[]]; auto].
Qed.

Lemma firsts_before ls p l q : firsts ls = p ++ l :: q ->
  exists pre post, ls = pre ++ l :: post /\ forall x, In x pre -> In x p.
Proof.
  revert p l q. induction ls as [|a ls IH]; cbn; intros p l q H; [destruct p; discriminate|].
  destruct p as [|b p]; cbn in H.
  - injection H as -> _. exists [], ls. split; [auto|intros ? []].
  - injection H as -> H.
    assert (S : exists p' q', firsts ls = p' ++ l :: q' /\ forall x, In x p' -> x = b \/ In x p).
    { clear IH. revert p H. generalize (firsts ls). intro fl. induction fl as [|c fl IH]; cbn; intros p H; [destruct p; discriminate|].
      destruct (key_eqb b c) eqn:E; cbn in H.
      - apply key_eqb_eq in E. subst c. destruct (IH p H) as (p' & q' & -> & Hp). exists (b :: p'), q'. split; [auto|].
        intros x [<-|Hx]; auto.
      - destruct p as [|p0 p]; cbn in H.
        + injection H as -> _. exists [], fl. split; [auto|intros ? []].
        + injection H as -> H. destruct (IH p H) as (p' & q' & -> & Hp). exists (p0 :: p'), q'. split; [auto|].
          intros x [<-|Hx]; [right; now left|]. destruct (Hp x Hx); auto. right. now right. }
    destruct S as (p' & q' & E & Hp). destruct (IH _ _ _ E) as (pre & post & -> & Hpre).
    exists (b :: pre), post. split; [auto|]. intros x [<-|Hx]; [now left|].
    destruct (Hp x (Hpre x Hx)) as [->|]; [now left|now right].
Qed.

Lemma winner_unique ls n l n' l' : winner ls n l -> winner ls n' l' -> n = n' /\ l = l'.
Proof.
  intros (E & M & pre & post & S & P) (E' & M' & pre' & post' & S' & P').
  assert (n = n') by (pose proof (M l'); pose proof (M' l); lia). split; auto. subst n'.
  assert (T : forall (a b : list key) x y c d, a ++ x :: c = b ++ y :: d -> (In x b \/ In y a \/ x = y)).
  { induction a as [|a0 a IH]; intros [|b0 b] x y c d HH; cbn in HH; injection HH as ? HH; subst; cbn; auto.
    destruct (IH _ _ _ _ _ HH) as [|[|]]; auto. }
  rewrite S in S'. destruct (T _ _ _ _ _ _ S') as [I|[I|I]]; auto; exfalso.
  - apply P' in I. lia.
  - apply P in I. lia.
Qed.

Lemma most_common_winner ls b : most_common (counter ls) = Some b -> winner ls (snd b) (fst b).
Proof.
  intro H. pose proof (most_common_spec (counter ls)) as S. rewrite H in S. destruct S as (p & q & E & H1 & H2).
  rewrite counter_spec in E, H2.
  assert (F : firsts ls = map fst p ++ fst b :: map fst q).
  { apply (f_equal (map fst)) in E. rewrite map_map in E. cbn in E. rewrite map_id in E. rewrite E, map_app. reflexivity. }
  assert (V : forall e, In e (p ++ b :: q) -> snd e = votes ls (fst e)).
  { rewrite <- E. intros e He. apply in_map_iff in He. destruct He as (k & <- & _). reflexivity. }
  split; [apply V, in_app_iff; right; now left|]. split.
  - intro x. destruct (in_dec key_dec x ls) as [I|N].
    + apply (H2 (x, votes ls x)). apply in_map_iff. exists x. split; auto. now apply firsts_in.
    + apply (count_occ_not_In key_dec) in N. unfold votes. rewrite N. lia.
  - destruct (firsts_before _ _ _ _ F) as (pre & post & S & P). exists pre, post. split; auto.
    intros x Hx. apply P in Hx. apply in_map_iff in Hx. destruct Hx as (e & <- & He).
    rewrite <- V by (apply in_app_iff; now left). auto.
Qed.

Lemma most_common_none ls : most_common (counter ls) = None <-> ls = [].
Proof.
  pose proof (most_common_spec (counter ls)) as S. rewrite counter_spec in *. split; intro H.
  - rewrite H in S. destruct ls; [auto|discriminate].
  - subst. reflexivity.
Qed.

Lemma majority_vote_lemma ls w n l : majority_vote ls w = Ok (n, l) <->
  (forall ws, w = Some ws -> List.length ws = List.length ls) /\ winner ls n l.
Proof.
  unfold majority_vote. destruct (match w with None => true | Some w0 => _ end) eqn:EW; cbn [guard bind].
  - assert (W : forall ws, w = Some ws -> List.length ws = List.length ls).
    { intros ws ->. apply Nat.eqb_eq in EW. lia. }
    destruct (most_common (counter ls)) as [[l' n']|] eqn:E.
    + apply most_common_winner in E. cbn in E. split.
      * intro H. injection H as -> ->. auto.
      * intros [_ H]. destruct (winner_unique _ _ _ _ _ H E) as [-> ->]. reflexivity.
    + apply most_common_none in E. subst. split; [discriminate|].
      intros [_ (_ & _ & pre & post & X & _)]. destruct pre; discriminate.
  - split; [discriminate|]. intros [W _]. destruct w as [ws|]; [|discriminate].
    apply Nat.eqb_neq in EW. exfalso. apply EW. symmetry. auto.
Qed.

Lemma head_fold (rs : list (list key * list Q)) ls cs :
  mapM (fun r => match fst r with [] => Err IndexErr | l :: _ => Ok (l, qsum (snd r)) end) rs = Ok (combine ls cs) ->
  List.length ls = List.length cs -> heads rs ls /\ cs = map (fun r => qsum (snd r)) rs.
Proof.
  intros H L. apply mapM_inv in H. revert ls cs H L. induction rs as [|r rs IH]; intros ls cs H L.
  - inversion H as [E|]. destruct ls, cs; try discriminate. split; constructor.
  - destruct ls as [|l ls], cs as [|c cs]; try discriminate; cbn in H; inversion H as [|? ? ? ? E F]; subst.
    destruct (fst r) as [|l' rest] eqn:E'; [discriminate|]. injection E as -> <-.
    destruct (IH ls cs F) as [A B]; [now injection L|]. split; [constructor; eauto|cbn; congruence].
Qed.

Lemma head_fold_conv (rs : list (list key * list Q)) ls :
  heads rs ls ->
  rmap (@List.split _ _) (mapM (fun r => match fst r with [] => Err IndexErr | l :: _ => Ok (l, qsum (snd r)) end) rs) =
  Ok (ls, map (fun r => qsum (snd r)) rs).
Proof.
  induction 1 as [|r l rs ls (rest & E) H IH]; cbn; auto. rewrite E. cbn.
  destruct (mapM _ rs) as [x|] eqn:M; cbn in IH |- *; [|discriminate]. injection IH as IH. rewrite IH. reflexivity.
Qed.

Lemma total_qsum (rs : list (list key * list Q)) :
  (qsum (map (fun r => qsum (snd r)) rs) == fold_right Qplus 0 (flat_map snd rs))%Q.
Proof.
  rewrite qsum_fold_right. induction rs as [|r rs IH]; cbn; [reflexivity|].
  rewrite fold_right_Qplus_app, IH, qsum_fold_right. reflexivity.
Qed.

Lemma votes_of_results rs n l c :
  (r <- rmap (@List.split _ _) (mapM (fun r : list key * list Q => match fst r with [] => Err IndexErr | l :: _ => Ok (l, qsum (snd r)) end) rs) ;;
   vote_of r) = Ok (n, l, c) ->
  exists ls, heads rs ls /\ winner ls n l /\ (c == fold_right Qplus 0 (flat_map snd rs))%Q.
Proof.
  intro H. destruct (mapM _ rs) as [x|] eqn:M; cbn in H; [|discriminate].
  destruct (List.split x) as [ls cs] eqn:S. apply split_combine_iff in S. destruct S as [L ->].
  apply head_fold in M; auto. destruct M as [A ->]. exists ls. split; auto.
  unfold vote_of in H. cbn [fst snd] in H. destruct (majority_vote ls None) as [[n' l']|] eqn:V; cbn in H; [|discriminate].
  injection H as -> -> <-. apply majority_vote_lemma in V. split; [tauto|]. apply total_qsum.
Qed.

Lemma votes_of_results_conv rs ls n l : heads rs ls -> winner ls n l ->
  exists c, (r <- rmap (@List.split _ _) (mapM (fun r : list key * list Q => match fst r with [] => Err IndexErr | l :: _ => Ok (l, qsum (snd r)) end) rs) ;;
   vote_of r) = Ok (n, l, c).
Proof.
  intros A W. rewrite (head_fold_conv rs ls A). cbn [bind]. unfold vote_of. cbn [fst snd].
  assert (V : majority_vote ls None = Ok (n, l)) by (apply majority_vote_lemma; split; [discriminate|auto]).
  rewrite V. cbn. eauto.
Qed.

(** On a list of oracles. *)
Lemma query_results_list_eq os ks rs : mapM (fun o => or_query o ks) os = Ok rs ->
  query_results_list os ks =
  rmap (@List.split _ _) (mapM (fun r : list key * list Q => match fst r with [] => Err IndexErr | l :: _ => Ok (l, qsum (snd r)) end) rs).
Proof.
  unfold query_results_list. intro H. f_equal. revert rs H. induction os as [|o os IH]; cbn; intros rs H.
  - injection H as <-. reflexivity.
  - destruct (or_query o ks) as [r|]; cbn in H |- *; [|discriminate].
    destruct (mapM (fun o => or_query o ks) os) as [rs'|]; cbn in H; [|discriminate]. injection H as <-. cbn.
    rewrite (IH _ eq_refl). destruct (fst r); reflexivity.
Qed.

Lemma query_results_list_err os ks e : mapM (fun o => or_query o ks) os = Err e ->
  exists e', query_results_list os ks = Err e'.
Proof.
  unfold query_results_list. revert e. induction os as [|o os IH]; cbn; intros e H; [discriminate|].
  destruct (or_query o ks) as [r|]; cbn in H |- *; [|eauto].
  destruct (mapM (fun o => or_query o ks) os) as [rs'|]; cbn in H; [discriminate|].
  destruct (IH _ eq_refl) as [e' E]. destruct (fst r); cbn; eauto.
  match goal with |- context[mapM ?f os] => destruct (mapM f os) as [y|] end; cbn in *; [discriminate|eauto].
Qed.

Lemma mapM_res {A B} (f : A -> res B) l : (exists r, mapM f l = Ok r) \/ (exists e, mapM f l = Err e).
Proof. destruct (mapM f l); eauto. Qed.
