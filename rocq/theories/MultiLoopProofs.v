(** Proofs about the multi-label main loop. *)
From Verif Require Import Base BaseFacts SetFacts IndexModel MLModel MLSpec MLProofs MLProofs2 MLProps StateModel StateSpec StateProofs
  SelfProofs MultiLoopModel MultiLoopSpec.
From Coq Require Import String QArith.
Local Open Scope Z_scope.

Lemma cont_pairs m c : ml_reachable m c -> List.length (mcont c) = List.length (pairs c).
Proof.
  intro R. apply reachable_good in R. destruct R as (_ & _ & _ & F & _).
  rewrite (pairs_map m c F) at 1. apply map_length.
Qed.

Lemma pairs_nodup m c : ml_reachable m c -> NoDup (pairs c).
Proof. intro R. apply reachable_good in R. apply pairs_NoDup. apply R. Qed.

Lemma zsum_snoc l x : zsum (l ++ [x]) = zsum l + x.
Proof. unfold zsum. induction l as [|a l IH]; cbn [app fold_right]; [|rewrite IH]; lia. Qed.

Section Loop.
  Context {A B M : Type}.
  Variables (X : list B) (y : list (list A)) (m : nat) (unknown : A).
  Variables (fit : M -> list B -> list (list A) -> res M) (perf : M -> Q)
            (strat : nat -> M -> mlic -> mlic -> res answer) (budget : Z).
  Hypothesis Hy : has_shape y (List.length y) m.
  Hypothesis HX : List.length X = List.length y.
  Let mz := Z.of_nat m.
  Notation use := (usable (List.length y) m).
  Notation turn := (ml_turn X y m unknown fit perf strat).
  Notation rounds := (ml_rounds X y m unknown fit perf strat budget).

  Lemma moved L U l : ml_reachable mz L -> ml_reachable mz U -> apart L U -> use L U l ->
    exists w1 w2 L1 U1, ml_update true L l = (L1, Ok w1) /\ ml_difference_update true U l = (U1, Ok w2) /\
      ml_reachable mz L1 /\ ml_reachable mz U1 /\
      (forall p, In p (pairs L1) <-> In p (pairs L) \/ denoted_by mz l p) /\
      (forall p, In p (pairs U1) <-> In p (pairs U) /\ ~ denoted_by mz l p) /\
      apart L1 U1 /\ Permutation (pairs L1 ++ pairs U1) (pairs L ++ pairs U).
  Proof.
    intros RL RU D (N & V & I).
    assert (F : forallb (scalar_ok mz) l = true). { apply forallb_forall. intros x Hx. apply V. exact Hx. }
    destruct (ml_update_any mz L true l (reachable_good _ _ RL) (or_intror N) F) as (G1 & (w1 & E1) & H1).
    destruct (ml_difference_any mz U true l (reachable_good _ _ RU) (or_intror N) F) as (G2 & (w2 & E2) & H2).
    assert (R1 : ml_reachable mz (fst (ml_update true L l))) by exact (mr_step mz L (MUpdate l) RL Logic.I).
    assert (R2 : ml_reachable mz (fst (ml_difference_update true U l))) by exact (mr_step mz U (MDiff l) RU Logic.I).
    destruct (ml_update true L l) as [L1 r1]; destruct (ml_difference_update true U l) as [U1 r2]; cbn [fst snd] in *. subst r1 r2.
    exists w1, w2, L1, U1. split; auto. split; auto. split; auto. split; auto.
    assert (H1' : forall p, In p (pairs L1) <-> In p (pairs L) \/ denoted_by mz l p).
    { intro p. rewrite H1, (flat_denoted_by mz l p F). reflexivity. }
    assert (H2' : forall p, In p (pairs U1) <-> In p (pairs U) /\ ~ denoted_by mz l p).
    { intro p. rewrite H2, (flat_denoted_by mz l p F). reflexivity. }
    split; auto. split; auto.
    assert (D1 : apart L1 U1).
    { intros p P1 P2. apply H1' in P1. apply H2' in P2. destruct P1 as [P1|P1]; [|tauto]. exact (D p P1 (proj1 P2)). }
    split; [exact D1|]. apply NoDup_Permutation.
    - apply NoDup_app_intro; eauto using pairs_nodup.
    - apply NoDup_app_intro; eauto using pairs_nodup.
    - intro p. rewrite !in_app_iff, H1', H2'.
      destruct (in_dec pair_dec p (flat_map (denoted mz) l)) as [K|K]; rewrite (flat_denoted_by mz l p F) in K.
      + specialize (I p K). tauto.
      + tauto.
  Qed.

  Lemma revealed chk l : (chk = true -> l <> []) ->
    (forall x, In x l -> (forall i j, x <> ILong i j) /\ 0 <= ins_of x < Z.of_nat (List.length y) /\
                       scalar_ok (Z.of_nat m) x = true) ->
    exists xs mat ids, get_Xy chk l X y (Z.of_nat m) unknown = Ok (xs, mat, ids) /\ reveals X y m unknown l xs mat.
  Proof.
    intros N V. destruct (C09_labelmatrix A y m unknown chk l Hy N V) as (mat & ids & E & Ei & Es & Ec).
    destruct (C09_get_Xy A B X y m unknown chk l Hy N HX V) as (xs & mat' & ids' & G & E' & L & R).
    rewrite E in E'. injection E' as <- <-. exists xs, mat, ids. split; [exact G|].
    unfold reveals. rewrite <- Ei. split; [exact L|]. split; [exact Es|]. intros r i Hi. split; [now apply R|].
    intros b Hb. now apply Ec.
  Qed.

  Definition cost_of_list (l : list mlidx) : Z :=
    match l with [] => 0 | x :: _ => if len_is_1 x then Z.of_nat m else Z.of_nat (List.length l) end.

  Definition record (l : list mlidx) (t : M) : entry mlidx :=
    EState (state_init (inl l) (SNum (perf t)) None (Some (SNum (inject_Z (cost_of_list l))))).

  Lemma record_facts l t : proper (record l t) /\ queried (record l t) = l /\ spent (record l t) = inject_Z (cost_of_list l).
  Proof. split; [split; [eexists; reflexivity|exact Logic.I]|]. split; reflexivity. Qed.

  (** A turn that does not succeed changes nothing, or only moves the selection. *)
  Lemma turn_cases k s : ml_reachable mz (lab s) -> ml_reachable mz (unl s) -> apart (lab s) (unl s) ->
    (forall l, strat k (mdl s) (lab s) (unl s) = Ok (Picked l) -> use (lab s) (unl s) l) ->
    match turn k s with
    | (s1, Ok _) => exists l xs mat t, strat k (mdl s) (lab s) (unl s) = Ok (Picked l) /\ use (lab s) (unl s) l /\
        reveals X y m unknown l xs mat /\ fit (mdl s) xs mat = Ok t /\
        lab s1 = fst (ml_update true (lab s) l) /\ unl s1 = fst (ml_difference_update true (unl s) l) /\
        mdl s1 = t /\ sav s1 = fst (sio_add (sav s) (record l t))
    | (s1, Err _) => mdl s1 = mdl s /\ sav s1 = sav s /\
        ((lab s1 = lab s /\ unl s1 = unl s) \/
         exists l, strat k (mdl s) (lab s) (unl s) = Ok (Picked l) /\ use (lab s) (unl s) l /\
           lab s1 = fst (ml_update true (lab s) l) /\ unl s1 = fst (ml_difference_update true (unl s) l))
    end.
  Proof.
    intros RL RU D HA. unfold ml_turn.
    destruct (strat k (mdl s) (lab s) (unl s)) as [a|e] eqn:Es; [|auto].
    destruct a as [l| |l]; cbn [cost_for]; [|auto|destruct l; auto].
    destruct l as [|x l]; [auto|].
    set (l' := x :: l) in *. pose proof (HA _ eq_refl) as V. pose proof V as (N & V1 & _).
    destruct (moved _ _ _ RL RU D V) as (w1 & w2 & L1 & U1 & E1 & E2 & _). rewrite E1, E2.
    destruct (revealed true l' (fun _ => N) V1) as (xs & mat & ids & E3 & R). rewrite E3.
    destruct (fit (mdl s) xs mat) as [t|e] eqn:Ef.
    - change (if len_is_1 x then Z.of_nat m else Z.of_nat (List.length l')) with (cost_of_list l').
      fold (record l' t). destruct (sio_add (sav s) (record l' t)) as [v r] eqn:Ea.
      assert (r = Ok tt) as ->. { unfold sio_add in Ea. cbn in Ea. now injection Ea as _ <-. }
      exists l', xs, mat, t. cbn [lab unl mdl sav fst]. split; [reflexivity|]. split; [exact V|]. split; [exact R|].
      split; [exact Ef|]. rewrite ?E1, ?E2, ?Ea. cbn [fst]. auto.
    - cbn [lab unl mdl sav]. split; auto. split; auto. right. exists l'. rewrite ?E1, ?E2. cbn [fst]. auto.
  Qed.

  (** The invariant at the head of the loop, for a loop started with [L0], [U0], the model [t0] and a new
      record. *)
  Definition inv (tr te : list mlidx) (L0 U0 : mlic) (t0 : M) (s : mstate) : Prop :=
    let sels := selections (sav s) in
    ml_reachable mz (lab s) /\ ml_reachable mz (unl s) /\ apart (lab s) (unl s) /\
    Permutation (pairs (lab s) ++ pairs (unl s)) (pairs L0 ++ pairs U0) /\
    (forall p, In p (pairs (lab s)) <-> In p (pairs L0) \/ denoted_by mz (List.concat sels) p) /\
    (forall p, In p (pairs (unl s)) <-> In p (pairs U0) /\ ~ denoted_by mz (List.concat sels) p) /\
    trained X y m unknown fit t0 sels (mdl s) /\
    s_train (sav s) = tr /\ s_test (sav s) = te /\ s_L (sav s) = L0 /\ s_U (sav s) = U0 /\
    (forall e, In e (s_states (sav s)) -> proper e /\ queried e <> [] /\ forallb (scalar_ok mz) (queried e) = true /\
                 spent e = inject_Z (cost_of_list (queried e))) /\
    (s_cost (sav s) == inject_Z (zsum (map cost_of_list sels)))%Q /\
    inside (List.length y) (lab s) /\ inside (List.length y) (unl s).

  Lemma inv_division tr te L0 U0 t0 s : inv tr te L0 U0 t0 s -> division (List.length y) m (lab s) (unl s).
  Proof. intros (RL & RU & D & _ & _ & _ & _ & _ & _ & _ & _ & _ & _ & H1 & H2). exact (conj RL (conj RU (conj D (conj H1 H2)))). Qed.

  Lemma inside_perm n L U L1 U1 : Permutation (pairs L1 ++ pairs U1) (pairs L ++ pairs U) -> inside n L -> inside n U ->
    inside n L1 /\ inside n U1.
  Proof.
    intros P HL HU. assert (K : forall p, In p (pairs L1 ++ pairs U1) -> 0 <= fst p < Z.of_nat n).
    { intros p Hp. apply (Permutation_in _ P) in Hp. apply in_app_iff in Hp. destruct Hp; auto. }
    split; intros p Hp; apply K; apply in_app_iff; auto.
  Qed.

  Lemma trained_snoc t ls t1 l xs mat t2 : trained X y m unknown fit t ls t1 ->
    reveals X y m unknown l xs mat -> fit t1 xs mat = Ok t2 -> trained X y m unknown fit t (ls ++ [l]) t2.
  Proof.
    induction 1 as [t|t l0 xs0 mat0 t1 ls t3 R0 F0 T IH]; intros R F; cbn [app].
    - eapply tr_more; eauto. constructor.
    - eapply tr_more; eauto.
  Qed.

  Lemma denoted_snoc ls l p : denoted_by mz (List.concat (ls ++ [l])) p <-> denoted_by mz (List.concat ls) p \/ denoted_by mz l p.
  Proof.
    unfold denoted_by. rewrite concat_app. cbn [List.concat]. rewrite app_nil_r. setoid_rewrite in_app_iff. firstorder.
  Qed.

  Lemma add_facts (v : sio mlic mlidx) e : proper e ->
    s_states (fst (sio_add v e)) = s_states v ++ [e] /\ (s_cost (fst (sio_add v e)) == s_cost v + spent e)%Q /\
    s_L (fst (sio_add v e)) = s_L v /\ s_U (fst (sio_add v e)) = s_U v /\
    s_train (fst (sio_add v e)) = s_train v /\ s_test (fst (sio_add v e)) = s_test v.
  Proof.
    intro P. destruct (adds_proper (fun c _ => (c, Ok [])) (fun c _ => (c, Ok [])) [e] (Forall_cons e P (Forall_nil _)) v)
      as (A1 & A2 & _ & A4 & A5 & A6 & A7 & _).
    cbn [map sio_run fold_left sio_step fold_right] in *. split; auto. split; [rewrite A2; ring|]. auto.
  Qed.

  Lemma inv_turn tr te L0 U0 t0 k s : always (List.length y) m strat use -> inv tr te L0 U0 t0 s ->
    match turn k s with
    | (s1, Ok _) => inv tr te L0 U0 t0 s1 /\ exists l, strat k (mdl s) (lab s) (unl s) = Ok (Picked l) /\
        use (lab s) (unl s) l /\ selections (sav s1) = selections (sav s) ++ [l] /\
        (forall p, In p (pairs (lab s1)) <-> In p (pairs (lab s)) \/ denoted_by mz l p)
    | (s1, Err _) => apart (lab s1) (unl s1) /\ Permutation (pairs (lab s1) ++ pairs (unl s1)) (pairs L0 ++ pairs U0) /\
        sav s1 = sav s /\ mdl s1 = mdl s /\ exists l,
        (forall p, In p (pairs (lab s1)) <-> In p (pairs L0) \/ denoted_by mz (List.concat (selections (sav s)) ++ l) p) /\
        (forall p, In p (pairs (unl s1)) <-> In p (pairs U0) /\ ~ denoted_by mz (List.concat (selections (sav s)) ++ l) p)
    end.
  Proof.
    intros HA I0. pose proof (inv_division _ _ _ _ _ _ I0) as Dv.
    destruct I0 as (RL & RU & D & P & IL & IU & T & S1 & S2 & S3 & S4 & IE & C & N1 & N2).
    pose proof (turn_cases k s RL RU D (fun l E => HA _ _ _ _ _ Dv E)) as TC. destruct (turn k s) as [s1 [u|e]].
    - destruct TC as (l & xs & mat & t & Es & V & R & F & El & Eu & Em & Ev).
      destruct (record_facts l t) as (P1 & P2 & P3). destruct (add_facts (sav s) (record l t) P1) as (A1 & A2 & A3 & A4 & A5 & A6).
      rewrite <- Ev in A1, A2, A3, A4, A5, A6.
      assert (Sel : selections (sav s1) = selections (sav s) ++ [l]).
      { unfold selections. rewrite A1, map_app. cbn [map]. now rewrite P2. }
      destruct (moved _ _ _ RL RU D V) as (w1 & w2 & L1 & U1 & E1 & E2 & R1 & R2 & H1 & H2 & D1 & P4).
      rewrite E1 in El. rewrite E2 in Eu. cbn [fst] in El, Eu.
      split.
      + unfold inv. rewrite Sel, El, Eu. split; [auto|]. split; [auto|]. split; [auto|]. split; [now rewrite P4|].
        split. { intro p. rewrite H1, IL, denoted_snoc. tauto. }
        split. { intro p. rewrite H2, IU, denoted_snoc. tauto. }
        split. { rewrite Em. eapply trained_snoc; eauto. }
        split; [congruence|]. split; [congruence|]. split; [congruence|]. split; [congruence|]. split.
        * intros e He. rewrite A1 in He. apply in_app_iff in He. destruct He as [He|[<-|[]]]; [now apply IE|].
          split; [exact P1|]. rewrite P2. destruct V as (V1 & V2 & _). split; [exact V1|]. split; [|exact P3].
          apply forallb_forall. intros x Hx. now apply V2.
        * split; [rewrite A2, P3, C, map_app; cbn [map]; rewrite zsum_snoc, inject_Z_plus; reflexivity|].
          exact (inside_perm _ _ _ _ _ P4 N1 N2).
      + exists l. split; [exact Es|]. split; [exact V|]. split; [exact Sel|]. rewrite El. exact H1.
    - destruct TC as (Em & Ev & [[El Eu]|(l & Es & V & El & Eu)]).
      + rewrite El, Eu. split; [exact D|]. split; [exact P|]. split; [exact Ev|]. split; [exact Em|].
        exists []. rewrite app_nil_r. auto.
      + destruct (moved _ _ _ RL RU D V) as (w1 & w2 & L1 & U1 & E1 & E2 & R1 & R2 & H1 & H2 & D1 & P4).
        rewrite E1 in El. rewrite E2 in Eu. cbn [fst] in El, Eu. rewrite El, Eu. split; [exact D1|]. split; [now rewrite P4|].
        split; [exact Ev|]. split; [exact Em|]. exists l.
        assert (K : forall p, denoted_by mz (List.concat (selections (sav s)) ++ l) p <->
                  denoted_by mz (List.concat (selections (sav s))) p \/ denoted_by mz l p).
        { intro p. unfold denoted_by. setoid_rewrite in_app_iff. firstorder. }
        split; intro p; rewrite ?H1, ?H2, ?IL, ?IU, K; tauto.
  Qed.

  Lemma inv_rounds tr te L0 U0 t0 : always (List.length y) m strat use -> forall fuel k ini s, inv tr te L0 U0 t0 s ->
    match rounds fuel k ini s with
    | (s1, Failed _) => apart (lab s1) (unl s1) /\ Permutation (pairs (lab s1) ++ pairs (unl s1)) (pairs L0 ++ pairs U0) /\
        exists s0, inv tr te L0 U0 t0 s0 /\ sav s1 = sav s0 /\ mdl s1 = mdl s0 /\ exists l,
        (forall p, In p (pairs (lab s1)) <-> In p (pairs L0) \/ denoted_by mz (List.concat (selections (sav s1)) ++ l) p) /\
        (forall p, In p (pairs (unl s1)) <-> In p (pairs U0) /\ ~ denoted_by mz (List.concat (selections (sav s1)) ++ l) p)
    | (s1, _) => inv tr te L0 U0 t0 s1
    end.
  Proof.
    intro HA. induction fuel as [|f IH]; intros k ini s I; cbn [ml_rounds];
      (destruct (_ <=? budget); [|exact I]); [exact I|].
    pose proof (inv_turn tr te L0 U0 t0 k s HA I) as T. destruct (turn k s) as [s1 [u|e]].
    - apply IH. apply T.
    - destruct T as (T1 & T2 & T3 & T4 & T5). rewrite T3. split; auto. split; auto. exists s. auto.
  Qed.

  Lemma inv_start tr te L0 U0 t0 : division (List.length y) m L0 U0 ->
    inv tr te L0 U0 t0 {| lab := L0; unl := U0; mdl := t0; sav := sio_new tr te L0 U0 |}.
  Proof.
    intros (RL & RU & D & N1 & N2). unfold inv, selections. cbn.
    split; auto. split; auto. split; auto. split; auto.
    assert (Z : forall p, denoted_by mz [] p <-> False) by (intro p; split; [intros (x & [] & _)|tauto]).
    split; [intro p; rewrite Z; tauto|]. split; [intro p; rewrite Z; tauto|]. split; [constructor|].
    repeat (split; [reflexivity|]). split; [intros e []|]. split; [reflexivity|auto].
  Qed.
End Loop.
