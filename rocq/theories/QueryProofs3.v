(** Proofs about selection by graph density. *)
From Verif Require Import Base BaseFacts IndexModel MLModel SplitModel MiscModel MiscSpec MiscProofs QueryModel QuerySpec QueryProofs QueryProofs2.
From Coq Require Import QArith Qabs Lqa.
Local Open Scope Z_scope.

Lemma densest_ext nbrs d r ps e : densest_first nbrs d r ps e -> forall d2 r2, (forall q, r2 q <-> r q) -> (forall q, r q -> d2 q = d q) ->
  exists e2, densest_first nbrs d2 r2 ps e2 /\ forall q, r q -> ~ In q ps -> e2 q = e q.
Proof.
  induction 1 as [d r|d r p ps e Rp M D IH]; intros d2 r2 HR HD.
  - exists d2. split; [constructor|auto].
  - destruct (IH (drop nbrs p d2) (fun q => r2 q /\ q <> p)) as (e2 & D2 & E2).
    + intro q. rewrite HR. tauto.
    + intros q [J _]. unfold drop. destruct (in_dec Nat.eq_dec q (nbrs p)); rewrite ?(HD q J), ?(HD p Rp); reflexivity.
    + exists e2. split.
      * constructor; [now apply HR|intros q J; apply HR in J; rewrite (HD q J), (HD p Rp); auto|exact D2].
      * intros q J N. apply E2; [split; auto; intros ->; apply N; now left|intro K; apply N; now right].
Qed.

Lemma densest_app nbrs d r ps e : densest_first nbrs d r ps e -> forall qs f, densest_first nbrs e (fun q => r q /\ ~ In q ps) qs f ->
  exists f2, densest_first nbrs d r (ps ++ qs) f2 /\ forall q, r q -> ~ In q ps -> ~ In q qs -> f2 q = f q.
Proof.
  induction 1 as [d r|d r p ps e Rp M D IH]; intros qs f F.
  - destruct (densest_ext _ _ _ _ _ F d r) as (f2 & F2 & E2); [intro q; cbn; tauto|auto|]. exists f2. split; [auto|].
    intros q J _ N. apply E2; auto.
  - destruct (densest_ext _ _ _ _ _ F e (fun q => (r q /\ q <> p) /\ ~ In q ps)) as (f1 & F1 & E1); [intro q; cbn; intuition congruence|auto|].
    destruct (IH _ _ F1) as (f2 & F2 & E2). exists f2. split; [cbn; constructor; auto|].
    intros q J N1 N2. rewrite E2; [apply E1; cbn; auto|split; auto; intros ->; apply N1; now left|intro K; apply N1; now right|auto].
Qed.

Lemma densest_rest nbrs d r ps e : densest_first nbrs d r ps e -> NoDup ps /\ forall p, In p ps -> r p.
Proof.
  induction 1 as [d r|d r p ps e Rp M D [ND I]]; [split; [constructor|intros p []]|]. split.
  - constructor; auto. intro J. apply I in J. tauto.
  - intros q [<-|J]; auto. apply I in J. tauto.
Qed.

Section Density.
  Variables (g : graph) (L U : list Z) (ps us : list nat) (batch : Z).
  Let n := length (gtrain g).
  Hypothesis SP : split_into (gtrain g) L U.
  Hypothesis LOC : located (gtrain g) L ps.
  Hypothesis US : NoDup us.
  Hypothesis US_in : forall p, In p us <-> (p < n)%nat /\ ~ In p ps.
  Hypothesis ROOM : batch < Z.of_nat (length us).
  Let val p := nth p (gtrain g) 0.

  (** Everything labelled or chosen is below everything free. *)
  Definition below (sel : list nat) (den : list Q) : Prop :=
    length den = n /\ forall p q, (p < n)%nat -> In p ps \/ In p sel -> In q us -> ~ In q sel -> (nth p den 0 < nth q den 0)%Q.

  Lemma density_loop_ok k : forall fuel sel got den d (r : nat -> Prop),
    (k <= fuel)%nat -> batch = Z.of_nat (length sel + k) ->
    NoDup sel -> (forall p, In p sel -> In p us) -> got = map val sel ->
    below sel den -> (forall q, r q <-> In q us /\ ~ In q sel) -> (forall q, r q -> nth q den 0%Q = d q) ->
    exists new den' d', density_loop fuel g ps U batch den sel got = (den', Ok (Some (map val (sel ++ new)))) /\ length new = k /\
      densest_first (gneighbors g) d r new d' /\ below (sel ++ new) den' /\ forall q, r q -> ~ In q new -> nth q den' 0%Q = d' q.
  Proof.
    induction k as [|k IH]; intros fuel sel got den d r FU EB ND IN EG [LEN BL] HR HD.
    - exists [], den, d. rewrite app_nil_r. split; [|split; [reflexivity|split; [constructor|split; [split; auto|auto]]]].
      destruct fuel; cbn [density_loop]; rewrite EG, map_length; (destruct (Z.leb_spec batch (Z.of_nat (length sel))); [reflexivity|lia]).
    - destruct fuel as [|fuel]; [lia|]. cbn [density_loop]. rewrite EG, map_length. destruct (Z.leb_spec batch (Z.of_nat (length sel))); [lia|].
      destruct (one_left us sel US ltac:(lia)) as (u & Iu & Nu). assert (UN : (u < n)%nat) by (apply US_in in Iu; tauto).
      destruct (argmax_spec den) as (s & EA & SL & MX); [intros ->; cbn in LEN; lia|]. rewrite EA. rewrite LEN in SL, MX.
      assert (SF : In s us /\ ~ In s sel).
      { destruct (in_dec Nat.eq_dec s ps) as [H1|H1]; [specialize (BL s u SL (or_introl H1) Iu Nu); destruct (MX u UN) as [H2|[H2 _]]; lra|].
        destruct (in_dec Nat.eq_dec s sel) as [H2|H2]; [specialize (BL s u SL (or_intror H2) Iu Nu); destruct (MX u UN) as [H3|[H3 _]]; lra|].
        split; auto. apply US_in. auto. }
      destruct SF as [SU SN].
      destruct (nth_error (gtrain g) s) as [x|] eqn:EX; [|apply nth_error_None in EX; fold n in EX; lia].
      assert (XU : In x U) by (apply (split_positions _ _ _ _ SP LOC s x EX); apply US_in in SU; tauto).
      rewrite (proj2 (existsb_in x U) XU). cbn [negb].
      assert (XV : val s = x) by (unfold val; now apply nth_error_nth).
      assert (XG : existsb (Z.eqb x) (map val sel) = false).
      { destruct (existsb (Z.eqb x) (map val sel)) eqn:E; auto. exfalso. apply existsb_in, in_map_iff in E. destruct E as (s' & E & J).
        apply SN. destruct SP as (NDT & _). assert (s' < n)%nat by (apply IN, US_in in J; tauto).
        assert (s' = s); [|now subst]. apply (proj1 (NoDup_nth_error (gtrain g)) NDT); auto.
        rewrite EX, <- E. unfold val. now apply nth_error_nth'. }
      rewrite XG. set (ds := nth s den 0%Q). set (den1 := assign (gneighbors g s) (fun x => x - ds)%Q den).
      assert (L1 : length den1 = n) by (unfold den1; rewrite assign_length; auto).
      destruct (min_of_spec den1) as (lo & E1 & M1); [intros E; rewrite E in L1; cbn in L1; lia|]. rewrite E1. rewrite L1 in M1.
      set (den2 := assign ps (fun _ => lo - 1)%Q den1). assert (L2 : length den2 = n) by (unfold den2; rewrite assign_length; auto).
      destruct (min_of_spec den2) as (lo2 & E2 & M2); [intros E; rewrite E in L2; cbn in L2; lia|]. rewrite E2. rewrite L2 in M2.
      set (den3 := assign (sel ++ [s]) (fun _ => lo2 - 1)%Q den2). assert (L3 : length den3 = n) by (unfold den3; rewrite assign_length; auto).
      assert (FREE : forall q, In q us -> ~ In q (sel ++ [s]) -> nth q den3 0%Q = nth q den1 0%Q /\ nth q den2 0%Q = nth q den1 0%Q).
      { intros q Q1 Q2. assert (Q3 : (q < n)%nat /\ ~ In q ps) by now apply US_in.
        assert (N2 : nth q den2 0%Q = nth q den1 0%Q).
        { unfold den2. rewrite assign_nth by lia. destruct (mem q ps) eqn:E; auto. apply mem_iff in E. tauto. }
        split; auto. unfold den3. rewrite assign_nth by lia. destruct (mem q (sel ++ [s])) eqn:E; auto. apply mem_iff in E. contradiction. }
      destruct (IH fuel (sel ++ [s]) (map val sel ++ [x]) den3 (drop (gneighbors g) s d) (fun q => r q /\ q <> s)) as (new & den' & d' & EQ & LN & DF & BL' & HD').
      + lia.
      + rewrite app_length. cbn. lia.
      + apply NoDup_snoc; auto.
      + intros p J. apply in_app_iff in J. destruct J as [J|[<-|[]]]; auto.
      + rewrite map_app. cbn. now rewrite XV.
      + split; [auto|]. intros p q PN PI QU QN. destruct (FREE q QU QN) as [F3 F2]. assert (QL : (q < n)%nat) by (apply US_in in QU; tauto).
        unfold den3 at 1. rewrite assign_nth by lia. destruct (mem p (sel ++ [s])) eqn:E.
        * specialize (M2 q QL). rewrite F3. rewrite F2 in M2. lra.
        * destruct PI as [PI|PI]; [|apply mem_iff in PI; congruence]. unfold den2. rewrite assign_nth by lia.
          rewrite (proj2 (mem_iff p ps) PI). specialize (M1 q QL). rewrite F3. lra.
      + intro q. rewrite HR, in_app_iff. cbn. intuition congruence.
      + intros q [Q1 Q2]. assert (Q3 : In q us /\ ~ In q (sel ++ [s])).
        { apply HR in Q1. rewrite in_app_iff. cbn. intuition congruence. }
        destruct (FREE q (proj1 Q3) (proj2 Q3)) as [F3 _]. rewrite F3. assert (QL : (q < n)%nat) by (destruct Q3 as [Q3 _]; apply US_in in Q3; tauto).
        unfold den1. rewrite assign_nth by lia. unfold drop, ds. rewrite (HD q Q1), (HD s (proj2 (HR s) (conj SU SN))).
        destruct (in_dec Nat.eq_dec q (gneighbors g s)) as [J|J]; destruct (mem q (gneighbors g s)) eqn:E; auto.
        * assert (mem q (gneighbors g s) = true) by now apply mem_iff. congruence.
        * apply mem_iff in E. contradiction.
      + exists (s :: new), den', d'. rewrite <- app_assoc in EQ, BL'. cbn [app] in EQ, BL'. split; [exact EQ|]. split; [cbn; lia|]. split; [|split; [auto|]].
        * constructor; [apply HR; auto| |auto]. intros q J. rewrite <- (HD q J), <- (HD s (proj2 (HR s) (conj SU SN))). apply MX. apply HR in J. destruct J as [J _]. apply US_in in J. tauto.
        * intros q J N. apply HD'; [split; auto; intros ->; apply N; now left|intro K; apply N; now right].
  Qed.
End Density.

Lemma density_select_ok g L U ps density batch fuel :
  split_into (gtrain g) L U -> located (gtrain g) L ps -> length density = length (gtrain g) ->
  0 < batch < Z.of_nat (length U) -> (Z.to_nat batch <= fuel)%nat ->
  exists new den' d', density_select fuel g density L U batch = (den', Ok (Some (map (fun p => nth p (gtrain g) 0) new))) /\
    length new = Z.to_nat batch /\
    densest_first (gneighbors g) (fun q => nth q density 0%Q) (fun q => (q < length (gtrain g))%nat /\ ~ In q ps) new d' /\
    length den' = length density /\
    forall q, (q < length (gtrain g))%nat -> ~ In q ps -> ~ In q new -> nth q den' 0%Q = d' q.
Proof.
  intros SP LOC LD B F. destruct (positions_left _ _ _ _ SP LOC) as (us & P & ND & IN). pose proof SP as (NDT & _).
  unfold density_select. destruct (Z.ltb_spec 0 batch); [|lia]. cbn [negb]. destruct (Z.leb_spec (Z.of_nat (length U)) batch); [lia|].
  rewrite (located_first _ _ _ NDT LOC).
  apply Permutation_length in P. rewrite map_length in P.
  destruct us as [|u us']; [cbn in P; lia|]. set (us := u :: us') in *.
  assert (UL : (u < length (gtrain g))%nat) by (apply IN; now left).
  destruct (min_of_spec density) as (lo & E & M); [intros ->; cbn in LD; lia|]. rewrite E. rewrite LD in M.
  destruct (density_loop_ok g L U ps us batch SP LOC ND IN ltac:(lia) (Z.to_nat batch) fuel [] [] (assign ps (fun _ => lo - 1)%Q density)
              (fun q => nth q density 0%Q) (fun q => (q < length (gtrain g))%nat /\ ~ In q ps)) as (new & den' & d' & EQ & LN & DF & [BL1 BL2] & HD); auto.
  - cbn. lia.
  - constructor.
  - intros p [].
  - split; [now rewrite assign_length|]. intros p q PN [PI|[]] QU _. pose proof (proj1 (IN q) QU) as [Q1 Q2].
    rewrite assign_nth by lia. rewrite assign_nth by lia. rewrite (proj2 (mem_iff p ps) PI). destruct (mem q ps) eqn:EM; [apply mem_iff in EM; contradiction|].
    specialize (M q Q1). lra.
  - intro q. rewrite IN. cbn. tauto.
  - intros q [Q1 Q2]. rewrite assign_nth by lia. destruct (mem q ps) eqn:EM; auto. apply mem_iff in EM. contradiction.
  - exists new, den', d'. cbn [app] in EQ. split; [exact EQ|]. split; auto. split; auto. split; [lia|]. intros q Q1 Q2 Q3. apply HD; auto.
Qed.
