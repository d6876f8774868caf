(** Proofs about pools of oracles. *)
From Coq Require Import String.
From Verif Require Import Base BaseFacts IndexModel MLModel MLProofs StateModel StateProofs StateProofs2 Dict OracleModel OracleSpec OracleProofs OracleProofs2
  PoolModel PoolSpec.
From Coq Require Import QArith Lqa.
Local Open Scope Q_scope.

Lemma sum_app a b : sum (a ++ b) == sum a + sum b.
Proof. apply fold_right_Qplus_app. Qed.
Lemma sum_rows rows : sum (map qsum rows) == sum (List.concat rows).
Proof.
  induction rows as [|r rows IH]; cbn [map List.concat]; [reflexivity|]. rewrite sum_app, <- IH. unfold sum. cbn [fold_right]. rewrite qsum_fold_right. reflexivity.
Qed.
Lemma even_table rows : even rows = true <-> table rows.
Proof.
  unfold table. destruct rows as [|r rows]; cbn [even]; [split; [intros _ a b []|reflexivity]|]. rewrite forallb_forall. split.
  - intros H a b Ha Hb. assert (E : forall x, In x (r :: rows) -> List.length x = List.length r) by (intros x [<-|Hx]; [reflexivity|apply Nat.eqb_eq; auto]).
    now rewrite (E a), (E b).
  - intros H x Hx. apply Nat.eqb_eq. apply H; [now right|now left].
Qed.

Section Proofs.
  Context {O K A : Type}.
  Variables (ask : O -> K -> res (A * list (list Q))) (lax : bool).
  Notation mpool := (mpool O K A).

  (** The model's calls as events. *)
  Definition told (a : mact O K) : list (event O K) :=
    match a with
    | MAdd n o => [Added n o]
    | MQuery ks (Some n) => [Asked ks (Some [n])]
    | MQuery ks None => []
    | MQueryS ks ns => [Asked ks ns]
    end.
  Definition adds (a : mact O K) : list (string * O) := match a with MAdd n o => [(n, o)] | _ => [] end.

  Definition matches (p : mpool) (added : list (string * O)) : Prop :=
    (forall n, dget String.eqb n (mp_dict p) = latest string_dec n added) /\ map fst (mp_dict p) = first_names (map fst added).
  Lemma matches_new : matches mp_new []. Proof. split; reflexivity. Qed.
  Lemma matches_dict p p' added : mp_dict p' = mp_dict p -> matches p added -> matches p' added.
  Proof. intros E [H1 H2]. unfold matches. now rewrite E. Qed.
  Lemma matches_add p added n o : matches p added -> matches (mp_add p n o) (added ++ [(n, o)]).
  Proof.
    intros [P1 P2]. split.
    - intro k. cbn. rewrite dget_dset by apply string_eqb_ok. rewrite latest_app. cbn. rewrite P1.
      destruct (String.eqb_spec k n) as [->|ne]; [now destruct (string_dec n n)|]. now destruct (string_dec k n).
    - cbn. rewrite dset_keys_fst, map_app. cbn. rewrite first_names_snoc, P2, existsb_first_names. reflexivity.
  Qed.
  Lemma ask_reply p added ks n : matches p added -> mp_ask ask p ks n = reply ask added ks n.
  Proof. intros [H _]. unfold mp_ask, reply. now rewrite H. Qed.
  Lemma asks_replies p added ks names : matches p added -> mapM (mp_ask ask p ks) names = mapM (reply ask added ks) names.
  Proof. intro M. induction names as [|n ns IH]; cbn [mapM]; [reflexivity|]. now rewrite (ask_reply p added) by auto; rewrite IH. Qed.
  Lemma record_dict (p : mpool) names rs ks : mp_dict (fst (mp_record lax p names rs ks)) = mp_dict p.
  Proof. unfold mp_record. destruct (bind _ _); reflexivity. Qed.
  Lemma record_hist (p : mpool) names rs ks : mp_hist (fst (mp_record lax p names rs ks)) = mp_hist p ++ [(names, rs, ks)].
  Proof. unfold mp_record. destruct (bind _ _); reflexivity. Qed.
  Lemma query_as_s p ks n : fst (mp_query ask lax p ks (Some n)) = fst (mp_query_s ask lax p ks (Some [n])).
  Proof.
    unfold mp_query, mp_query_s. cbn [mapM]. destruct (mp_ask ask p ks n) as [r|e]; cbn [bind]; [|reflexivity]. now destruct (mp_record _ _ _ _ _).
  Qed.
  Lemma query_s_state p ks ns added : matches p added ->
    fst (mp_query_s ask lax p ks ns) =
    let names := match ns with Some l => l | None => first_names (map fst added) end in
    match mapM (reply ask added ks) names with Ok rs => fst (mp_record lax p names rs ks) | Err _ => p end.
  Proof.
    intro M. unfold mp_query_s. rewrite (proj2 M). cbv zeta. rewrite (asks_replies p added) by auto. destruct (mapM _ _); [|reflexivity]. now destruct (mp_record _ _ _ _ _).
  Qed.
  Lemma matches_step p a added : matches p added -> matches (mp_step ask lax p a) (added ++ adds a).
  Proof.
    intro M. assert (QS : forall ks ns, matches (fst (mp_query_s ask lax p ks ns)) added).
    { intros ks ns. rewrite (query_s_state p ks ns added M). cbv zeta. destruct (mapM _ _); [|exact M]. eapply matches_dict; [apply record_dict|exact M]. }
    destruct a as [n o|ks [n|]|ks ns]; cbn [mp_step adds]; rewrite ?app_nil_r; [now apply matches_add|rewrite query_as_s; apply QS|exact M|apply QS].
  Qed.
  Lemma ledger_step p a added h : matches p added ->
    mp_hist p ++ ledger ask added (told a ++ h) = mp_hist (mp_step ask lax p a) ++ ledger ask (added ++ adds a) h.
  Proof.
    intro M. assert (QS : forall ks ns, mp_hist p ++ ledger ask added (Asked ks ns :: h) = mp_hist (fst (mp_query_s ask lax p ks ns)) ++ ledger ask added h).
    { intros ks ns. rewrite (query_s_state p ks ns added M). cbn [ledger]. cbv zeta. destruct (mapM _ _); [|reflexivity]. rewrite record_hist, <- app_assoc. reflexivity. }
    destruct a as [n o|ks [n|]|ks ns]; cbn [mp_step adds told app]; rewrite ?app_nil_r; [reflexivity|rewrite query_as_s; apply QS|reflexivity|apply QS].
  Qed.
  Lemma run_ledger h : forall p added, matches p added ->
    mp_hist (mp_run ask lax p h) = mp_hist p ++ ledger ask added (flat_map told h) /\ matches (mp_run ask lax p h) (added ++ flat_map adds h).
  Proof.
    induction h as [|a h IH]; intros p added M; cbn [flat_map].
    - cbn [mp_run fold_left ledger]. rewrite !app_nil_r. auto.
    - change (mp_run ask lax p (a :: h)) with (mp_run ask lax (mp_step ask lax p a) h).
      destruct (IH _ _ (matches_step p a added M)) as [H1 H2]. rewrite <- app_assoc in H2. split; [|exact H2].
      rewrite H1. symmetry. now apply ledger_step.
  Qed.

  Lemma ledger_lengths h : forall added q, In q (ledger ask added h) -> List.length (fst (fst q)) = List.length (snd (fst q)).
  Proof.
    induction h as [|[n o|ks ns] h IH]; cbn [ledger]; intros added q Hq; [contradiction|eauto|]. cbv zeta in Hq. destruct (mapM _ _) eqn:E; [|eauto].
    destruct Hq as [<-|Hq]; [|eauto]. cbn [fst snd]. now apply mapM_len in E.
  Qed.
  Lemma ledger_names h : forall added q n, In q (ledger ask added h) -> In n (fst (fst q)) ->
    In n (map fst added) \/ In n (flat_map (fun e => match e with Added n _ => [n] | _ => [] end) h).
  Proof.
    induction h as [|[m o|ks ns] h IH]; cbn [ledger flat_map]; intros added q n Hq Hn; [contradiction| |].
    - destruct (IH _ _ _ Hq Hn) as [I|I]; [|right; right; exact I]. rewrite map_app in I. apply in_app_iff in I. destruct I as [I|[<-|[]]]; [auto|right; now left].
    - cbv zeta in Hq. destruct (mapM _ _) eqn:E; [|eauto]. destruct Hq as [<-|Hq]; [|eauto]. cbn [fst snd] in Hn. left.
      apply mapM_inv in E. clear - E Hn.
      assert (F : forall l rs, Forall2 (fun n r => reply ask added ks n = Ok r) l rs -> In n l -> In n (map fst added)).
      { clear. induction 1 as [|x r l rs Hx F IH]; [contradiction|]. intros [->|I]; [|auto]. unfold reply in Hx.
        destruct (latest string_dec n added) as [o|] eqn:L; [|discriminate]. clear - L. induction added as [|[k v] d IH]; [discriminate|]. cbn in *.
        destruct (latest string_dec n d); [right; auto|]. destruct (string_dec n k); [left; auto|discriminate]. }
      eapply F; eauto.
  Qed.
End Proofs.

(** ** Costs *)
Lemma charged_cons {K A} (q : answered K A) qs : charged (q :: qs) == sum (List.concat (rows_of q)) + charged qs.
Proof. unfold charged. cbn [flat_map]. apply sum_app. Qed.
Lemma charged_app {K A} (a b : list (answered K A)) : charged (a ++ b) == charged a + charged b.
Proof. unfold charged. rewrite flat_map_app. apply sum_app. Qed.
Lemma qsum_sum l : qsum l == sum l. Proof. apply qsum_fold_right. Qed.

Lemma tabular_table rows : tabular rows = true <-> table rows.
Proof.
  unfold tabular, table. rewrite forallb_forall. split.
  - intros H a b Ha Hb. specialize (H a Ha). rewrite forallb_forall in H. apply Nat.eqb_eq. auto.
  - intros H a Ha. apply forallb_forall. intros b Hb. apply Nat.eqb_eq. auto.
Qed.
Lemma tabular_even rows : tabular rows = even rows.
Proof. apply Bool.eq_true_iff_eq. rewrite tabular_table, even_table. reflexivity. Qed.
Lemma total_even lax rows : even rows = true -> exists t, np_total lax rows = Ok (One t) /\ t == sum (List.concat rows).
Proof. intro E. unfold np_total. rewrite E. eexists. split; [reflexivity|]. rewrite qsum_sum. apply sum_rows. Qed.

(** ** Rows of different lengths *)
Lemma broadcast_ok a b m : m <> 1%nat -> (List.length a = 1 \/ List.length a = m)%nat -> (List.length b = 1 \/ List.length b = m)%nat ->
  exists s, broadcast a b = Ok s /\ (List.length s = 1 \/ List.length s = m)%nat /\
    (List.length s = m <-> List.length a = m \/ List.length b = m)%nat /\ forall k, (k < m)%nat -> stretched k s == stretched k a + stretched k b.
Proof.
  intros Hm Ha Hb. unfold broadcast. destruct (Nat.eqb_spec (List.length a) (List.length b)) as [E|N].
  - eexists. split; [reflexivity|]. assert (L : List.length (map (fun p : Q * Q => fst p + snd p) (combine a b)) = List.length a).
    { rewrite map_length, combine_length, <- E. lia. }
    split; [rewrite L; exact Ha|]. split; [rewrite L, E; tauto|]. intros k Hk. unfold stretched. rewrite L, <- E. destruct (Nat.eqb_spec (List.length a) 1) as [O1|O1].
    + destruct a as [|x [|? ?]]; try discriminate. destruct b as [|y [|? ?]]; try discriminate. reflexivity.
    + destruct Ha as [Ha|Ha]; [contradiction|]. assert (I : (k < List.length a)%nat) by lia. clear - E I. revert b k E I.
      induction a as [|x a IH]; intros [|y b] k E I; cbn in *; try lia. destruct k as [|k]; [reflexivity|]. apply IH; lia.
  - assert (D : ((List.length a = 1 /\ List.length b = m) \/ (List.length a = m /\ List.length b = 1))%nat) by lia.
    destruct D as [[D1 D2]|[D1 D2]].
    + destruct a as [|x [|? ?]]; try discriminate. eexists. split; [reflexivity|]. rewrite map_length. split; [auto|]. split; [tauto|].
      intros k Hk. unfold stretched. rewrite map_length. destruct (Nat.eqb_spec (List.length b) 1); [lia|]. cbn [List.length Nat.eqb nth].
      rewrite (nth_indep _ 0 (x + 0)) by (rewrite map_length; lia). rewrite (map_nth (fun y => x + y)). reflexivity.
    + destruct b as [|y [|? ?]]; try discriminate. exists (map (fun x => x + y) a). split.
      { destruct a as [|x [|x' a]]; [reflexivity|cbn in N; lia|reflexivity]. }
      rewrite map_length. split; [auto|]. split; [tauto|].
      intros k Hk. unfold stretched. rewrite map_length. destruct (Nat.eqb_spec (List.length a) 1); [lia|]. cbn [List.length Nat.eqb nth].
      rewrite (nth_indep _ 0 (0 + y)) by (rewrite map_length; lia). rewrite (map_nth (fun x => x + y)). reflexivity.
Qed.
Lemma broadcast_len a b s : broadcast a b = Ok s -> (List.length a = 1 \/ List.length a = List.length s)%nat /\ (List.length b = 1 \/ List.length b = List.length s)%nat.
Proof.
  unfold broadcast. destruct (Nat.eqb_spec (List.length a) (List.length b)) as [E|N].
  - intro H. injection H as <-. rewrite map_length, combine_length, <- E. lia.
  - destruct a as [|x [|x' a]].
    + destruct b as [|y [|y' b]]; intro H; try discriminate; injection H as <-; cbn; auto.
    + intro H. injection H as <-. rewrite map_length. cbn. auto.
    + destruct b as [|y [|y' b]]; intro H; try discriminate; injection H as <-. cbn [List.length]. rewrite !map_length. auto.
Qed.
Lemma fold_len rs : forall a s, foldM broadcast a rs = Ok s -> forall r, In r (a :: rs) -> (List.length r = 1 \/ List.length r = List.length s)%nat.
Proof.
  induction rs as [|b rs IH]; cbn [foldM]; intros a s H r Hr.
  - injection H as <-. destruct Hr as [<-|[]]. auto.
  - destruct (broadcast a b) as [t|e] eqn:E; cbn [bind] in H; [|discriminate]. pose proof (broadcast_len _ _ _ E) as [La Lb].
    pose proof (IH t s H t (or_introl eq_refl)) as Lt. destruct Hr as [<-|[<-|Hr]]; [lia|lia|]. apply (IH t s H). now right.
Qed.
Lemma fold_ok m rs : m <> 1%nat -> forall a, (forall r, In r (a :: rs) -> (List.length r = 1 \/ List.length r = m)%nat) ->
  exists s, foldM broadcast a rs = Ok s /\ (List.length s = 1 \/ List.length s = m)%nat /\ ((exists r, In r (a :: rs) /\ List.length r = m) -> List.length s = m) /\
    forall k, (k < m)%nat -> stretched k s == sum (map (stretched k) (a :: rs)).
Proof.
  intro Hm. induction rs as [|b rs IH]; intros a H.
  - exists a. split; [reflexivity|]. split; [apply H; now left|]. split; [intros (r & [<-|[]] & L); exact L|]. intros k Hk. unfold sum. cbn [map fold_right]. ring.
  - destruct (broadcast_ok a b m Hm (H a (or_introl eq_refl)) (H b (or_intror (or_introl eq_refl)))) as (t & E & Lt & It & St).
    destruct (IH t) as (s & F & Ls & Is & Ss). { intros r [<-|Hr]; [exact Lt|apply H; right; now right]. }
    exists s. cbn [foldM]. rewrite E. cbn [bind]. split; [exact F|]. split; [exact Ls|]. split.
    + intros (r & Hr & L). apply Is. destruct Hr as [<-|[<-|Hr]]; [exists t; split; [now left|tauto]|exists t; split; [now left|tauto]|exists r; split; [now right|exact L]].
    + intros k Hk. rewrite Ss by exact Hk. unfold sum. cbn [map fold_right]. rewrite (St k Hk). ring.
Qed.

(** ** The summary *)
Section Report.
  Context {K A : Type}.
  Definition lines_of (qs : list (answered K A)) : list (string * (A * list (list Q))) := flat_map (fun q => combine (fst (fst q)) (snd (fst q))) qs.
  Definition flat (e : string * (A * list (list Q))) : string * (list key * list Q) := (fst e, ([], map qsum (snd (snd e)))).
  Lemma asked_of_flat n es : asked_of n (map flat es) = map (fun r => ([], map qsum (snd r))) (map snd (filter (fun e => String.eqb n (fst e)) es)).
  Proof.
    unfold asked_of. induction es as [|e es IH]; [reflexivity|]. cbn [map filter flat fst]. destruct (String.eqb n (fst e)); cbn [map snd]; now rewrite IH.
  Qed.
  Lemma flat_costs (rs : list (A * list (list Q))) : fold_right Qplus 0 (flat_map snd (map (fun r => (@nil key, map qsum (snd r))) rs)) == sum (List.concat (flat_map snd rs)).
  Proof.
    induction rs as [|r rs IH]; [reflexivity|]. cbn [map flat_map snd]. rewrite fold_right_Qplus_app, IH, concat_app, sum_app. fold (sum (map qsum (snd r))). now rewrite sum_rows.
  Qed.
  Lemma lines_costs (qs : list (answered K A)) : (forall q, In q qs -> List.length (fst (fst q)) = List.length (snd (fst q))) ->
    fold_right Qplus 0 (flat_map (fun e => snd (snd e)) (map flat (lines_of qs))) == charged qs.
  Proof.
    induction qs as [|q qs IH]; intro W; [reflexivity|]. unfold lines_of. cbn [flat_map]. rewrite map_app, flat_map_app, fold_right_Qplus_app.
    rewrite charged_cons. fold (lines_of qs). rewrite IH by (intros; apply W; now right). apply Qplus_comp; [|reflexivity].
    specialize (W q (or_introl eq_refl)). unfold rows_of. destruct q as [[ns rs] ks]. cbn [fst snd] in *. clear - W. revert ns W.
    induction rs as [|r rs IH]; intros [|n ns] W; try discriminate; cbn [combine map flat_map]; [reflexivity|].
    rewrite fold_right_Qplus_app, IH by (now injection W). unfold flat. cbn [fst snd]. fold (sum (map qsum (snd r))). rewrite sum_rows, concat_app, sum_app. reflexivity.
  Qed.
End Report.

(** ** The full history *)
Lemma dget_fold_index {V : Type} (names : list string) : forall (rs : list V) off d n,
  List.length names = List.length rs ->
  dget String.eqb n (fold_left (fun d e => dset String.eqb (snd e) (fst e) d) (combine (seq off (List.length names)) names) d) =
  match latest string_dec n (combine names (seq off (List.length names))) with Some i => Some i | None => dget String.eqb n d end.
Proof.
  induction names as [|m ns IH]; intros rs off d n L; [reflexivity|]. destruct rs as [|r rs]; [discriminate|]. cbn [List.length seq combine fold_left latest fst snd].
  rewrite (IH rs) by (now injection L). destruct (latest string_dec n (combine ns (seq (S off) (List.length ns)))); [reflexivity|].
  rewrite dget_dset by apply string_eqb_ok. destruct (String.eqb_spec n m) as [->|D]; [now destruct (string_dec m m)|now destruct (string_dec n m)].
Qed.
Lemma latest_index {V : Type} n (names : list string) : forall (rs : list V) off, List.length names = List.length rs ->
  match latest string_dec n (combine names (seq off (List.length names))) with
  | Some i => (off <= i)%nat /\ exists r, nth_error rs (i - off) = Some r /\ latest string_dec n (combine names rs) = Some r
  | None => latest string_dec n (combine names rs) = None
  end.
Proof.
  induction names as [|m ns IH]; intros rs off L; [reflexivity|]. destruct rs as [|r rs]; [discriminate|]. cbn [List.length seq combine latest].
  specialize (IH rs (S off) ltac:(now injection L)). destruct (latest string_dec n (combine ns (seq (S off) (List.length ns)))) as [i|].
  - destruct IH as (Hi & x & Hx & ->). split; [lia|]. exists x. replace (i - off)%nat with (S (i - S off)) by lia. auto.
  - rewrite IH. destruct (string_dec n m); [|reflexivity]. split; [lia|]. exists r. rewrite Nat.sub_diag. auto.
Qed.
Lemma count_fold ns : forall d, (forall n, In n ns -> In n (map fst d)) ->
  exists d', foldM count_one d ns = Ok d' /\ map fst d' = map fst d /\
    forall n c, dget String.eqb n d = Some c -> dget String.eqb n d' = Some (c + count_occ string_dec ns n)%nat.
Proof.
  induction ns as [|m ns IH]; intros d H; cbn [foldM].
  - exists d. split; [reflexivity|]. split; [reflexivity|]. intros n c ->. f_equal. cbn. lia.
  - unfold count_one at 1. destruct (dget String.eqb m d) as [c0|] eqn:G.
    2:{ exfalso. apply (dget_in _ string_eqb_ok) in G. apply G, H. now left. }
    cbn [bind]. assert (K1 : map fst (dset String.eqb m (S c0) d) = map fst d).
    { rewrite dset_keys_fst. assert (E : existsb (String.eqb m) (map fst d) = true); [|now rewrite E]. apply existsb_exists. exists m. split; [apply H; now left|apply String.eqb_refl]. }
    destruct (IH (dset String.eqb m (S c0) d)) as (d' & F & Kd & P). { intros n Hn. rewrite K1. apply H. now right. }
    exists d'. split; [exact F|]. split; [now rewrite Kd|]. intros n c Hc. cbn [count_occ]. destruct (string_dec m n) as [->|D].
    + rewrite (P n (S c0)); [rewrite G in Hc; injection Hc as ->; f_equal; lia|]. rewrite dget_dset by apply string_eqb_ok. now rewrite String.eqb_refl.
    + apply P. rewrite dget_dset by apply string_eqb_ok. destruct (String.eqb_spec n m); [congruence|exact Hc].
Qed.
