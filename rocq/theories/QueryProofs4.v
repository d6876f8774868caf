(** Proofs about farthest-first selection. *)
From Verif Require Import Base BaseFacts IndexModel MLModel SplitModel MiscModel MiscSpec MiscProofs QueryModel QuerySpec QueryProofs QueryProofs2.
From Coq Require Import QArith Qabs Lqa.
Local Open Scope Z_scope.

Lemma to_nearest_unique dist p C x y : to_nearest dist p C x -> to_nearest dist p C y -> (x == y)%Q.
Proof.
  intros [(c & I & E) M] [(c' & I' & E') M']. apply Qle_antisym; [rewrite E'; auto|rewrite E; auto].
Qed.

Lemma to_nearest_ext dist p C C' x : (forall c, In c C <-> In c C') -> to_nearest dist p C x -> to_nearest dist p C' x.
Proof. intros H [(c & I & E) M]. split; [exists c; split; [now apply H|auto]|intros c' J; apply M, H; auto]. Qed.

Lemma to_nearest_app dist p C C' x y : to_nearest dist p C x -> to_nearest dist p C' y -> to_nearest dist p (C ++ C') (qmin x y).
Proof.
  intros [(c & I & E) M] [(c' & I' & E') M']. destruct (qmin_spec x y) as (Q1 & Q2 & Q3). split.
  - destruct Q3 as [-> | ->]; [exists c|exists c']; rewrite in_app_iff; auto.
  - intros k J. apply in_app_iff in J. destruct J as [J|J]; [specialize (M k J)|specialize (M' k J)]; lra.
Qed.

Lemma nearest_ok s p : forall cs c, to_nearest (cdist s) p (c :: cs) (nearest s c cs p).
Proof.
  intros cs c. unfold nearest.
  assert (G : forall cs C x, to_nearest (cdist s) p C x -> to_nearest (cdist s) p (C ++ cs) (fold_left (fun m c => qmin m (cdist s p c)) cs x)).
  { clear. induction cs as [|c cs IH]; intros C x H; [now rewrite app_nil_r|]. cbn [fold_left].
    replace (C ++ c :: cs) with ((C ++ [c]) ++ cs) by now rewrite <- app_assoc. apply IH. apply to_nearest_app; auto.
    split; [exists c; split; [now left|reflexivity]|intros k [<-|[]]; lra]. }
  apply (G cs [c]). split; [exists c; split; [now left|reflexivity]|intros k [<-|[]]; lra].
Qed.

Definition centred (s : coreset) (C : list nat) : Prop :=
  exists d, min_distances s = Some d /\ length d = length (ctrain s) /\
    (forall p, (p < length d)%nat -> ~ In p C -> to_nearest (cdist s) p C (nth p d 0%Q)) /\
    (forall p, (p < length d)%nat -> In p C -> (nth p d 0 == - (100))%Q) /\
    (forall p, In p (already_selected s) -> In p C).

Lemma centred_ext s C C' : (forall c, In c C <-> In c C') -> centred s C -> centred s C'.
Proof.
  intros H (d & E & L & N & O & A). exists d. split; [auto|]. split; [auto|]. split; [|split].
  - intros p J K. eapply to_nearest_ext; eauto. apply N; auto. now rewrite H.
  - intros p J K. apply O; auto. now apply H.
  - intros p J. apply H, A, J.
Qed.

Lemma ff_ext dist n C ps : farthest_first dist n C ps -> forall C', (forall c, In c C <-> In c C') -> farthest_first dist n C' ps.
Proof.
  induction 1 as [C|C p ps PN NI M F IH]; intros C' H; [constructor|]. constructor; auto.
  - now rewrite <- H.
  - intros q x y QN QI X Y. rewrite <- H in QI. apply (M q x y QN QI); eapply to_nearest_ext; eauto; intro c; now rewrite H.
  - apply IH. intro c. cbn. now rewrite H.
Qed.

Lemma nth_qmin d dist p : length d = length dist -> (p < length d)%nat ->
  nth p (map (fun e : Q * Q => qmin (fst e) (snd e)) (combine d dist)) 0%Q = qmin (nth p d 0%Q) (nth p dist 0%Q).
Proof.
  intros E L. rewrite (nth_indep _ 0%Q ((fun e : Q * Q => qmin (fst e) (snd e)) (0, 0)%Q)) by (rewrite map_length, combine_length; lia).
  rewrite (map_nth (fun e : Q * Q => qmin (fst e) (snd e))), combine_nth by auto. reflexivity.
Qed.

Lemma nth_map_seq (f : nat -> Q) n p : (p < n)%nat -> nth p (map f (seq 0 n)) 0%Q = f p.
Proof.
  intro L. rewrite (nth_indep _ 0%Q (f 0%nat)) by (rewrite map_length, seq_length; auto). rewrite map_nth, seq_nth by auto. reflexivity.
Qed.

Section Core.
  Variables (train : list Z) (dist : nat -> nat -> Q) (L U : list Z) (ps us : list nat).
  Let n := length train.
  Hypothesis SP : split_into train L U.
  Hypothesis LOC : located train L ps.
  Hypothesis US : NoDup us.
  Hypothesis US_in : forall p, In p us <-> (p < n)%nat /\ ~ In p ps.
  Hypothesis POS : forall p q, (p < n)%nat -> (q < n)%nat -> (- (100) < dist p q)%Q.
  Let val p := nth p train 0.

  (** One turn. *)
  Lemma core_step s C ind : ctrain s = train -> cdist s = dist -> centred s C -> (ind < n)%nat -> ~ In ind (already_selected s) ->
    (forall p, In p C -> (p < n)%nat) ->
    let s' := update_distances s [ind] in
    let s2 := with_distances s' (option_map (assign [ind] (fun _ => - (100))%Q) (min_distances s')) in
    ctrain s2 = train /\ cdist s2 = dist /\ already_selected s2 = already_selected s /\ centred s2 (ind :: C).
  Proof.
    intros ET ED (d & EM & LD & N & O & A) IL NA CL. cbv zeta. unfold update_distances. cbn [filter].
    destruct (mem ind (already_selected s)) eqn:E; [apply mem_iff in E; contradiction|]. cbn [negb]. rewrite EM. cbn [with_distances min_distances option_map ctrain cdist already_selected].
    split; [auto|]. split; [auto|]. split; [auto|]. rewrite ET in *. rewrite ED in *. fold n in LD.
    set (dd := map (nearest s ind []) (seq 0 (length train))). assert (LDD : length dd = n) by (unfold dd; rewrite map_length, seq_length; auto).
    eexists. cbn [with_distances min_distances ctrain cdist already_selected]. split; [reflexivity|].
    assert (LM : length (map (fun e : Q * Q => qmin (fst e) (snd e)) (combine d dd)) = n) by (rewrite map_length, combine_length; lia).
    rewrite assign_length, LM, ?ET, ?ED. split; [auto|]. split; [|split].
    - intros p PL PN. rewrite assign_nth by lia. destruct (mem p [ind]) eqn:EI; [apply mem_iff in EI; cbn in EI; exfalso; apply PN; cbn; tauto|].
      rewrite nth_qmin by lia. unfold dd. rewrite nth_map_seq by auto.
      apply (to_nearest_ext dist p (C ++ [ind])); [intro c; rewrite in_app_iff; cbn; tauto|].
      apply to_nearest_app; [apply N; [lia|intro; apply PN; now right]|rewrite <- ED; apply nearest_ok].
    - intros p PL PI. rewrite assign_nth by lia. destruct (mem p [ind]) eqn:EI; [reflexivity|].
      destruct PI as [->|PI]; [exfalso; cbn in EI; rewrite Nat.eqb_refl in EI; discriminate|].
      rewrite nth_qmin by lia. unfold dd. rewrite nth_map_seq by auto. specialize (O p ltac:(lia) PI). specialize (POS p ind PL IL).
      assert (X : nearest s ind [] p = dist p ind) by (unfold nearest; cbn; now rewrite ED). rewrite X.
      unfold qmin. destruct (Qle_bool (nth p d 0%Q) (dist p ind)) eqn:EQ; auto.
      assert (Qle_bool (nth p d 0%Q) (dist p ind) = true) by (apply Qle_bool_iff; lra). congruence.
    - intros p J. right. apply A. auto.
  Qed.

  Lemma core_loop k : forall s C nb, ctrain s = train -> cdist s = dist -> centred s C -> already_selected s = ps ->
    (forall p, In p C -> (p < n)%nat) -> (forall p, In p ps -> In p C) ->
    (length (filter (fun u => negb (mem u C)) us) >= k)%nat ->
    exists s' new, coreset_loop k s U nb = (s', Ok (nb ++ map val new)) /\ length new = k /\ farthest_first dist n C new /\
      ctrain s' = train /\ cdist s' = dist /\ already_selected s' = ps /\ centred s' (rev new ++ C).
  Proof.
    induction k as [|k IH]; intros s C nb ET ED CE AS CL PC ROOM.
    - exists s, []. cbn. rewrite app_nil_r. repeat split; auto. constructor.
    - cbn [coreset_loop]. pose proof CE as (d & EM & LD & N & O & A). rewrite EM. rewrite ET in LD. fold n in LD.
      assert (F : exists u, In u us /\ ~ In u C).
      { destruct (filter (fun u => negb (mem u C)) us) as [|u l] eqn:E; [cbn in ROOM; lia|].
        assert (In u (filter (fun u => negb (mem u C)) us)) as J by (rewrite E; now left). apply filter_In in J. destruct J as [J1 J2]. exists u. split; auto.
        intro K. apply mem_iff in K. rewrite K in J2. discriminate. }
      destruct F as (u & UI & UC). assert (UN : (u < n)%nat) by (apply US_in in UI; tauto).
      destruct (argmax_spec d) as (ind & EA & IL & MX); [intros ->; cbn in LD; lia|]. rewrite EA. rewrite LD in IL, MX.
      assert (GT : forall q, (q < n)%nat -> ~ In q C -> (forall p, In p C -> (p < n)%nat) -> (- (100) < nth q d 0)%Q).
      { intros q QN QC CC. destruct (N q ltac:(lia) QC) as [(c & I & E) _]. rewrite ED in E. rewrite E. apply POS; auto. }
      assert (IC : ~ In ind C).
      { intro J. specialize (O ind ltac:(lia) J). specialize (GT u UN UC CL). destruct (MX u UN) as [H|[H _]]; lra. }
      assert (NA : ~ In ind ps) by (intro J; apply IC, PC, J). rewrite AS. destruct (mem ind ps) eqn:EI; [apply mem_iff in EI; contradiction|].
      rewrite ET. destruct (nth_error train ind) as [x|] eqn:EX; [|apply nth_error_None in EX; fold n in EX; lia].
      assert (XU : In x U) by (apply (split_positions _ _ _ _ SP LOC ind x EX); auto). rewrite (proj2 (existsb_in x U) XU). cbn [negb].
      destruct (core_step s C ind ET ED CE IL ltac:(now rewrite AS) CL) as (ET2 & ED2 & AS2 & CE2). cbv zeta in *.
      destruct (IH _ (ind :: C) (nb ++ [x]) ET2 ED2 CE2) as (s' & new & EQ & LN & FF & ET' & ED' & AS' & CE').
      + rewrite AS2. auto.
      + intros p [<-|J]; auto.
      + intros p J. right. auto.
      + assert (G : forall l, NoDup l -> (length (filter (fun u => negb (mem u C)) l) <= S (length (filter (fun u => negb (mem u (ind :: C))) l)))%nat).
        { clear. induction l as [|a l IHl]; intro ND; [cbn; lia|]. inversion ND as [|? ? NA NDl]; subst. specialize (IHl NDl). cbn [filter].
          assert (M : mem a (ind :: C) = Nat.eqb a ind || mem a C) by reflexivity. rewrite M.
          destruct (Nat.eqb_spec a ind) as [->|NE]; cbn [orb].
          - assert (E : filter (fun u => negb (mem u (ind :: C))) l = filter (fun u => negb (mem u C)) l).
            { apply filter_ext_in. intros b J. assert (M2 : mem b (ind :: C) = Nat.eqb b ind || mem b C) by reflexivity. rewrite M2.
              destruct (Nat.eqb_spec b ind) as [->|]; [contradiction|reflexivity]. }
            rewrite E. destruct (mem ind C); cbn [negb length]; lia.
          - destruct (mem a C); cbn [negb length]; lia. }
        specialize (G us US). lia.
      + exists s', (ind :: new). rewrite <- app_assoc in EQ. cbn [app map] in EQ |- *. assert (XV : val ind = x) by (unfold val; now apply nth_error_nth). rewrite XV.
        split; [exact EQ|]. split; [cbn; lia|]. split.
        * constructor; auto. intros q a b QN QC QA QB. assert (E1 : (a == nth q d 0)%Q).
          { eapply to_nearest_unique; eauto. rewrite <- ED. apply N; auto. lia. }
          assert (E2 : (b == nth ind d 0)%Q) by (eapply to_nearest_unique; eauto; rewrite <- ED; apply N; auto; lia).
          destruct (MX q QN) as [H|[H _]]; lra.
        * repeat split; auto. cbn [rev]. rewrite <- app_assoc. exact CE'.
  Qed.

  (** When nothing is left. *)
  Lemma core_exhausted k : forall s C nb, ctrain s = train -> cdist s = dist -> centred s C -> already_selected s = ps ->
    (forall p, In p C <-> (p < n)%nat) -> (0 < n)%nat -> ~ In 0%nat ps ->
    exists s', coreset_loop k s U nb = (s', Ok (nb ++ repeat (val 0%nat) k)).
  Proof.
    induction k as [|k IH]; intros s C nb ET ED CE AS CA N0 NP.
    - exists s. cbn. now rewrite app_nil_r.
    - cbn [coreset_loop]. pose proof CE as (d & EM & LD & N & O & A). rewrite EM. rewrite ET in LD. fold n in LD.
      destruct (argmax_spec d) as (ind & EA & IL & MX); [intros ->; cbn in LD; lia|]. rewrite EA. rewrite LD in IL, MX.
      assert (ind = 0%nat) as ->.
      { destruct (MX 0%nat N0) as [H|[_ H]]; [|lia]. pose proof (O 0%nat ltac:(lia) (proj2 (CA 0%nat) N0)). pose proof (O ind ltac:(lia) (proj2 (CA ind) IL)). lra. }
      rewrite AS. destruct (mem 0 ps) eqn:EI; [apply mem_iff in EI; contradiction|].
      rewrite ET. destruct (nth_error train 0) as [x|] eqn:EX; [|apply nth_error_None in EX; fold n in EX; lia].
      assert (XU : In x U) by (apply (split_positions _ _ _ _ SP LOC 0%nat x EX); auto). rewrite (proj2 (existsb_in x U) XU). cbn [negb].
      destruct (core_step s C 0%nat ET ED CE IL ltac:(now rewrite AS) (fun p J => proj1 (CA p) J)) as (ET2 & ED2 & AS2 & CE2). cbv zeta in *.
      destruct (IH _ (0%nat :: C) (nb ++ [x]) ET2 ED2 CE2) as (s' & EQ); auto.
      + rewrite AS2. auto.
      + intro p. cbn. rewrite CA. lia.
      + exists s'. rewrite EQ. assert (XV : val 0%nat = x) by (unfold val; now apply nth_error_nth). rewrite XV, <- app_assoc. reflexivity.
  Qed.

  Lemma core_exhausted_bad k s C nb : ctrain s = train -> cdist s = dist -> centred s C -> already_selected s = ps ->
    (forall p, In p C <-> (p < n)%nat) -> (0 < n)%nat -> In 0%nat ps -> coreset_loop (S k) s U nb = (s, Err AssertErr).
  Proof.
    intros ET ED CE AS CA N0 NP. cbn [coreset_loop]. pose proof CE as (d & EM & LD & N & O & A). rewrite EM. rewrite ET in LD. fold n in LD.
    destruct (argmax_spec d) as (ind & EA & IL & MX); [intros ->; cbn in LD; lia|]. rewrite EA. rewrite LD in IL, MX.
    assert (ind = 0%nat) as ->.
    { destruct (MX 0%nat N0) as [H|[_ H]]; [|lia]. pose proof (O 0%nat ltac:(lia) (proj2 (CA 0%nat) N0)). pose proof (O ind ltac:(lia) (proj2 (CA ind) IL)). lra. }
    rewrite AS. rewrite (proj2 (mem_iff 0%nat ps) NP). reflexivity.
  Qed.

  (** The start of a call. *)
  Definition fresh (s : coreset) : Prop := min_distances s = None /\ already_selected s = [].
  Lemma core_start s C : ctrain s = train -> cdist s = dist -> (fresh s /\ C = []) \/ centred s C ->
    (forall p, In p C -> In p ps) -> ps <> [] ->
    exists d, min_distances (update_distances s ps) = Some d /\
      let s2 := with_selected (with_distances (update_distances s ps) (Some (assign ps (fun _ => - (100))%Q d))) ps in
      ctrain s2 = train /\ cdist s2 = dist /\ already_selected s2 = ps /\ centred s2 ps.
  Proof.
    intros ET ED ST CP NE. pose proof (located_lt _ _ _ LOC) as PL. fold n in PL.
    assert (FIN : forall d, length d = n -> (forall p, (p < n)%nat -> ~ In p ps -> to_nearest dist p ps (nth p d 0%Q)) ->
      min_distances (update_distances s ps) = Some d -> ctrain (update_distances s ps) = train -> cdist (update_distances s ps) = dist ->
      exists d, min_distances (update_distances s ps) = Some d /\
      let s2 := with_selected (with_distances (update_distances s ps) (Some (assign ps (fun _ => - (100))%Q d))) ps in
      ctrain s2 = train /\ cdist s2 = dist /\ already_selected s2 = ps /\ centred s2 ps).
    { intros d LD N E E1 E2. exists d. split; auto. cbn. repeat split; auto. exists (assign ps (fun _ => - (100))%Q d). cbn. rewrite assign_length, E1, E2. split; [reflexivity|]. split; [auto|]. split; [|split; [|auto]].
      - intros p J K. rewrite assign_nth by auto. destruct (mem p ps) eqn:EM; [apply mem_iff in EM; contradiction|]. apply N; [lia|auto].
      - intros p J K. rewrite assign_nth by auto. rewrite (proj2 (mem_iff p ps) K). reflexivity. }
    unfold update_distances in *. destruct ST as [[[F1 F2] ->]|(d & EM & LD & N & O & A)].
    - rewrite F2 in *. assert (E : filter (fun d => negb (mem d [])) ps = ps) by (clear; induction ps as [|a l IH]; [auto|]; cbn [filter]; rewrite IH; auto).
      rewrite E in *. destruct ps as [|c cs] eqn:EP; [contradiction|]. rewrite F1 in *.
      apply (FIN (map (nearest s c cs) (seq 0 (length (ctrain s))))); auto.
      + rewrite map_length, seq_length, ET. reflexivity.
      + intros p J K. rewrite nth_map_seq by (rewrite ET; auto). rewrite <- ED. apply nearest_ok.
    - rewrite ET in LD. fold n in LD. destruct (filter (fun d => negb (mem d (already_selected s))) ps) as [|c cs] eqn:E.
      + apply (FIN d); auto. intros p J K. apply (to_nearest_ext dist p C).
        * intro k. split; auto. intro I. destruct (mem k (already_selected s)) eqn:EK; [apply mem_iff in EK; auto|].
          exfalso. assert (In k []) as []. rewrite <- E. apply filter_In. rewrite EK. auto.
        * rewrite <- ED. apply N; [lia|]. intro I. apply K, CP, I.
      + rewrite EM in *. apply (FIN (map (fun e : Q * Q => qmin (fst e) (snd e)) (combine d (map (nearest s c cs) (seq 0 (length (ctrain s))))))); auto.
        * rewrite map_length, combine_length, map_length, seq_length, ET. fold n. lia.
        * intros p J K. rewrite nth_qmin by (rewrite ?map_length, ?seq_length, ?ET; fold n; lia). rewrite nth_map_seq by (rewrite ET; auto).
          apply (to_nearest_ext dist p (C ++ (c :: cs))).
          -- intro k. rewrite in_app_iff, <- E, filter_In. split; [intros [I|[I _]]; auto|]. intro I.
             destruct (mem k (already_selected s)) eqn:EK; [left; apply A; now apply mem_iff|right; auto].
          -- apply to_nearest_app; [rewrite <- ED; apply N; [lia|intro I; apply K, CP, I]|rewrite <- ED; apply nearest_ok].
  Qed.
End Core.

Lemma room_all ps us : (forall p, In p us -> ~ In p ps) -> filter (fun u => negb (mem u ps)) us = us.
Proof.
  induction us as [|u us IH]; intro H; [reflexivity|]. cbn. destruct (mem u ps) eqn:E.
  - apply mem_iff in E. exfalso. apply (H u); [now left|auto].
  - cbn. f_equal. apply IH. intros p J. apply H. now right.
Qed.

Lemma coreset_ok train dist s C L U ps batch :
  ctrain s = train -> cdist s = dist -> (fresh s /\ C = []) \/ centred s C ->
  split_into train L U -> located train L ps -> L <> [] -> (forall p, In p C -> In p ps) ->
  (forall p q, (p < length train)%nat -> (q < length train)%nat -> (- (100) < dist p q)%Q) ->
  0 <= batch <= Z.of_nat (length U) ->
  exists s' new, coreset_select s L U batch = (s', Ok (map (fun p => nth p train 0) new)) /\ length new = Z.to_nat batch /\
    farthest_first dist (length train) ps new /\ ctrain s' = train /\ cdist s' = dist /\ already_selected s' = ps /\ centred s' (rev new ++ ps).
Proof.
  intros ET ED ST SP LOC NE CP POS B. pose proof SP as (ND & _).
  destruct (positions_left _ _ _ _ SP LOC) as (us & P & NDU & IN). apply Permutation_length in P. rewrite map_length in P.
  assert (NP : ps <> []) by (intros ->; inversion LOC; subst; contradiction).
  destruct (core_start train dist L ps us LOC IN s C ET ED ST CP NP) as (d & EM & CS). cbv zeta in CS. destruct CS as (ET2 & ED2 & AS2 & CE2).
  unfold coreset_select. rewrite ET. rewrite (located_item _ _ _ ND LOC). rewrite EM.
  destruct (core_loop train dist L U ps us SP LOC NDU IN POS (Z.to_nat batch) _ ps [] ET2 ED2 CE2 AS2) as (s' & new & EQ & R); auto.
  - apply (located_lt _ _ _ LOC).
  - rewrite room_all by (intros p J; apply IN in J; tauto). lia.
  - exists s', new. cbn [app] in EQ. split; [exact EQ|exact R].
Qed.
