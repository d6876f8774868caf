(** The multi-label main loop: what each round gains, and when the loop ends. *)
From Verif Require Import Base BaseFacts SetFacts IndexModel MLModel MLSpec MLProofs MLProofs2 MLProps StateModel StateSpec StateProofs
  SelfProofs MultiLoopModel MultiLoopSpec MultiLoopProofs.
From Coq Require Import String QArith.
Local Open Scope Z_scope.

Lemma scalar_all n m L U l : usable n m L U l -> forallb (scalar_ok (Z.of_nat m)) l = true.
Proof. intros (_ & V & _). apply forallb_forall. intros x Hx. now apply V. Qed.

Lemma gain_bound n m L U L1 l : usable n m L U l -> NoDup (pairs L1) ->
  (forall p, In p (pairs L1) <-> In p (pairs L) \/ denoted_by (Z.of_nat m) l p) ->
  size L1 <= size L + Z.of_nat (List.length (flat_map (denoted (Z.of_nat m)) l)).
Proof.
  intros V N H. unfold size. rewrite <- Nat2Z.inj_add, <- app_length. apply Nat2Z.inj_le.
  apply NoDup_incl_length; auto. intros p Hp. apply H in Hp. rewrite in_app_iff.
  rewrite (flat_denoted_by _ l p (scalar_all _ _ _ _ _ V)). exact Hp.
Qed.

Lemma gain_some m L U L1 l : NoDup (pairs L) -> NoDup (pairs L1) -> apart L U -> productive m U l ->
  (forall p, In p (pairs L1) <-> In p (pairs L) \/ denoted_by (Z.of_nat m) l p) -> size L + 1 <= size L1.
Proof.
  intros N N1 D (p & H1 & H2) H. unfold size.
  assert (I : (List.length (p :: pairs L) <= List.length (pairs L1))%nat).
  { apply NoDup_incl_length.
    - constructor; auto. intro K. exact (D p K H2).
    - intros q [<-|Hq]; apply H; auto. }
  cbn in I. lia.
Qed.

Lemma gain_mono m L L1 l : NoDup (pairs L) ->
  (forall p, In p (pairs L1) <-> In p (pairs L) \/ denoted_by (Z.of_nat m) l p) -> size L <= size L1.
Proof.
  intros N H. unfold size. apply Nat2Z.inj_le. apply NoDup_incl_length; auto. intros q Hq. apply H. auto.
Qed.

Lemma zrange_nodup n : NoDup (zrange n).
Proof.
  unfold zrange. apply FinFun.Injective_map_NoDup; [intros a b; lia|]. apply seq_NoDup.
Qed.

Lemma countable_denoted m l : countable l -> 
  NoDup (flat_map (denoted (Z.of_nat m)) l) /\
  (l <> [] -> Z.of_nat (List.length (flat_map (denoted (Z.of_nat m)) l)) = cost_of_list m l).
Proof.
  intros [[N P]|[i ->]].
  - assert (E : exists ps, l = map pair_idx ps).
    { clear N. induction l as [|x l IH]; [now exists []|]. destruct IH as [ps ->]; [intros; apply P; now right|].
      destruct (P x (or_introl eq_refl)) as (i & j & ->). now exists ((i, j) :: ps). }
    destruct E as [ps ->].
    assert (F : flat_map (denoted (Z.of_nat m)) (map pair_idx ps) = ps).
    { clear. induction ps as [|[i j] ps IH]; cbn; auto. now rewrite IH. }
    rewrite F. split; [now apply NoDup_map_inv in N|]. intro NE. destruct ps as [|[i j] ps]; [now destruct NE|].
    cbn [map cost_of_list pair_idx fst snd len_is_1]. now rewrite <- (map_length pair_idx ((i, j) :: ps)).
  - cbn [flat_map denoted cost_of_list len_is_1]. rewrite app_nil_r. split.
    + apply FinFun.Injective_map_NoDup; [intros a b; congruence|]. apply zrange_nodup.
    + intros _. rewrite map_length. unfold zrange. rewrite map_length. unfold range. rewrite seq_length. lia.
Qed.

Lemma gain_exact n m L U L1 l : usable n m L U l -> fresh m U l -> countable l -> apart L U ->
  NoDup (pairs L) -> NoDup (pairs L1) ->
  (forall p, In p (pairs L1) <-> In p (pairs L) \/ denoted_by (Z.of_nat m) l p) ->
  size L1 = size L + cost_of_list m l.
Proof.
  intros V F C D N N1 H. pose proof (scalar_all _ _ _ _ _ V) as S.
  destruct (countable_denoted m l C) as [ND LD]. rewrite <- (LD (proj1 V)).
  unfold size. rewrite <- Nat2Z.inj_add, <- app_length. f_equal. apply Permutation_length.
  apply NoDup_Permutation; auto.
  - apply NoDup_app_intro; auto. intros p P1 P2. rewrite (flat_denoted_by _ l p S) in P2. exact (D p P1 (F p P2)).
  - intro p. rewrite in_app_iff, H, (flat_denoted_by _ l p S). reflexivity.
Qed.

Section Ends.
  Context {A B M : Type}.
  Variables (X : list B) (y : list (list A)) (m : nat) (unknown : A).
  Variables (fit : M -> list B -> list (list A) -> res M) (perf : M -> Q)
            (strat : nat -> M -> mlic -> mlic -> res answer) (budget : Z).
  Hypothesis Hy : has_shape y (List.length y) m.
  Hypothesis HX : List.length X = List.length y.
  Notation use := (usable (List.length y) m).
  Notation rounds := (ml_rounds X y m unknown fit perf strat budget).
  Notation INV := (inv X y m unknown fit).
  Variables (tr te : list mlidx) (L0 U0 : mlic) (t0 : M).
  Hypothesis HA : always (List.length y) m strat use.

  Lemma guard_size (s : @mstate M) : ml_reachable (Z.of_nat m) (lab s) -> Z.of_nat (List.length (mcont (lab s))) = size (lab s).
  Proof. intro R. unfold size. now rewrite (cont_pairs _ _ R). Qed.

  Lemma rounds_end (HP : always (List.length y) m strat (fun _ U l => productive m U l)) : forall fuel k s, INV tr te L0 U0 t0 s ->
    budget + 1 - (size (lab s) - size L0) <= Z.of_nat fuel ->
    snd (rounds fuel k (size L0) s) <> Running.
  Proof.
    induction fuel as [|f IH]; intros k s I F; cbn [ml_rounds]; pose proof (inv_division _ _ _ _ _ _ _ _ _ _ _ I) as Dv; pose proof I as (RL & RU & D & _);
      rewrite (guard_size s RL); destruct (Z.leb_spec (size (lab s) - size L0) budget) as [E|E]; try discriminate; try lia.
    pose proof (inv_turn X y m unknown fit perf strat Hy HX tr te L0 U0 t0 k s HA I) as T.
    destruct (ml_turn X y m unknown fit perf strat k s) as [s1 [u|e]]; [|discriminate].
    destruct T as (I1 & l & Es & V & _ & H). pose proof I1 as (RL1 & _).
    apply IH; auto. pose proof (HP _ _ _ _ _ Dv Es) as P.
    pose proof (gain_some m _ _ _ l (pairs_nodup _ _ RL) (pairs_nodup _ _ RL1) D P H). lia.
  Qed.

  Lemma rounds_done b (HB : always (List.length y) m strat (fun _ _ l => Z.of_nat (List.length (flat_map (denoted (Z.of_nat m)) l)) <= b)) :
    0 <= b -> forall fuel k s, INV tr te L0 U0 t0 s ->
    size (lab s) - size L0 <= budget + b ->
    snd (rounds fuel k (size L0) s) = Done ->
    budget < size (lab (fst (rounds fuel k (size L0) s))) - size L0 <= budget + b.
  Proof.
    intros B0. induction fuel as [|f IH]; intros k s I F; cbn [ml_rounds]; pose proof (inv_division _ _ _ _ _ _ _ _ _ _ _ I) as Dv; pose proof I as (RL & RU & D & _);
      rewrite (guard_size s RL); destruct (Z.leb_spec (size (lab s) - size L0) budget) as [E|E]; try discriminate; cbn [fst snd]; try lia.
    pose proof (inv_turn X y m unknown fit perf strat Hy HX tr te L0 U0 t0 k s HA I) as T.
    destruct (ml_turn X y m unknown fit perf strat k s) as [s1 [u|e]]; [|discriminate].
    destruct T as (I1 & l & Es & V & _ & H). pose proof I1 as (RL1 & _).
    apply IH; auto. pose proof (HB _ _ _ _ _ Dv Es) as P. cbn beta in P.
    pose proof (gain_bound _ m _ _ _ l V (pairs_nodup _ _ RL1) H). lia.
  Qed.

  Lemma rounds_costs (HF : always (List.length y) m strat (fun _ U l => fresh m U l)) (HC : always (List.length y) m strat (fun _ _ l => countable l)) :
    forall fuel k ini s, INV tr te L0 U0 t0 s ->
    size (lab s) = size L0 + zsum (map (cost_of_list m) (selections (sav s))) ->
    match rounds fuel k ini s with
    | (_, Failed _) => True
    | (s1, _) => size (lab s1) = size L0 + zsum (map (cost_of_list m) (selections (sav s1)))
    end.
  Proof.
    induction fuel as [|f IH]; intros k ini s I F; cbn [ml_rounds]; (destruct (_ <=? budget); [|exact F]); [exact F|].
    pose proof (inv_division _ _ _ _ _ _ _ _ _ _ _ I) as Dv; pose proof I as (RL & RU & D & _).
    pose proof (inv_turn X y m unknown fit perf strat Hy HX tr te L0 U0 t0 k s HA I) as T.
    destruct (ml_turn X y m unknown fit perf strat k s) as [s1 [u|e]]; [|exact Logic.I].
    destruct T as (I1 & l & Es & V & Sel & H). pose proof I1 as (RL1 & _).
    apply IH; auto. rewrite Sel, map_app. cbn [map]. rewrite zsum_snoc.
    rewrite (gain_exact _ m _ _ _ l V (HF _ _ _ _ _ Dv Es) (HC _ _ _ _ _ Dv Es) D (pairs_nodup _ _ RL) (pairs_nodup _ _ RL1) H). lia.
  Qed.

  Lemma rounds_once (HF : always (List.length y) m strat (fun _ U l => fresh m U l)) :
    forall fuel k ini s, INV tr te L0 U0 t0 s -> once m L0 (selections (sav s)) ->
    match rounds fuel k ini s with
    | (_, Failed _) => True
    | (s1, _) => once m L0 (selections (sav s1))
    end.
  Proof.
    induction fuel as [|f IH]; intros k ini s I F; cbn [ml_rounds]; (destruct (_ <=? budget); [|exact F]); [exact F|].
    pose proof (inv_division _ _ _ _ _ _ _ _ _ _ _ I) as Dv; pose proof I as (RL & RU & D & _ & IL & _).
    pose proof (inv_turn X y m unknown fit perf strat Hy HX tr te L0 U0 t0 k s HA I) as T.
    destruct (ml_turn X y m unknown fit perf strat k s) as [s1 [u|e]]; [|exact Logic.I].
    destruct T as (I1 & l & Es & V & Sel & H). apply IH; auto. rewrite Sel.
    pose proof (HF _ _ _ _ _ Dv Es) as Fr. cbn beta in Fr. destruct F as [F1 F2]. split.
    - intros j l1 p Hj Hp. destruct (Nat.lt_ge_cases j (List.length (selections (sav s)))) as [Lt|Ge].
      + rewrite nth_error_app1 in Hj by exact Lt. eapply F1; eauto.
      + rewrite nth_error_app2 in Hj by exact Ge. destruct (j - _)%nat as [|[|?]]; try discriminate. injection Hj as <-.
        intro K. apply (D p); [apply IL; now left|now apply Fr].
    - intros j j' l1 l2 p Hjj H1 H2 P1 P2.
      assert (j < List.length (selections (sav s)))%nat.
      { assert (j' < List.length (selections (sav s) ++ [l]))%nat by (apply nth_error_Some; congruence).
        rewrite app_length in *. cbn in *. lia. }
      rewrite nth_error_app1 in H1 by lia.
      destruct (Nat.lt_ge_cases j' (List.length (selections (sav s)))) as [Lt|Ge].
      + rewrite nth_error_app1 in H2 by exact Lt. exact (F2 j j' l1 l2 p Hjj H1 H2 P1 P2).
      + rewrite nth_error_app2 in H2 by exact Ge. destruct (j' - _)%nat as [|[|?]]; try discriminate. injection H2 as <-.
        apply (D p); [|now apply Fr]. apply IL. right. destruct P1 as (x & Hx & Px). exists x. split; auto.
        apply in_concat. exists l1. split; auto. eapply nth_error_In; eauto.
  Qed.

  (** A strategy that gives the pool itself once at most [b] entries are unlabelled. *)
  Lemma rounds_pool b (HP : always (List.length y) m strat (fun _ U l => productive m U l))
      (HG : forall k t L U, division (List.length y) m L U -> (size U <= b -> strat k t L U = Ok ThePool) /\
                            (b < size U -> exists l, strat k t L U = Ok (Picked l)))
      (HT : forall t xs mat, exists t', fit t xs mat = Ok t') :
    forall fuel k s, INV tr te L0 U0 t0 s -> size U0 <= budget -> size (unl s) < Z.of_nat fuel ->
    exists s1, rounds fuel k (size L0) s = (s1, Failed AttrErr) /\ size (unl s1) <= b /\ size (lab s1) + size (unl s1) = size L0 + size U0 /\
      INV tr te L0 U0 t0 s1.
  Proof.
    induction fuel as [|f IH]; intros k s I HU F; [unfold size in F; lia|]. cbn [ml_rounds]; pose proof (inv_division _ _ _ _ _ _ _ _ _ _ _ I) as Dv; pose proof I as (RL & RU & D & P & _).
    assert (T : size (lab s) + size (unl s) = size L0 + size U0).
    { apply Permutation_length in P. rewrite !app_length in P. unfold size. lia. }
    rewrite (guard_size s RL). destruct (Z.leb_spec (size (lab s) - size L0) budget) as [E|E]; [|unfold size in *; lia].
    destruct (HG k (mdl s) (lab s) (unl s) Dv) as [G1 G2].
    destruct (Z.le_gt_cases (size (unl s)) b) as [Le|Gt].
    - unfold ml_turn. rewrite (G1 Le). cbn [cost_for]. exists s. auto.
    - destruct (G2 Gt) as [l El].
      pose proof (turn_cases X y m unknown fit perf strat Hy HX k s RL RU D (fun l E => HA _ _ _ _ _ Dv E)) as TC.
      pose proof (inv_turn X y m unknown fit perf strat Hy HX tr te L0 U0 t0 k s HA I) as TI.
      unfold ml_turn in *. rewrite El in *. pose proof (HA _ _ _ _ _ Dv El) as V. pose proof V as (N & V1 & _).
      destruct l as [|x l]; [now destruct N|]. cbn [cost_for] in *.
      destruct (moved y m strat _ _ _ RL RU D V) as (w1 & w2 & L1 & U1 & E1 & E2 & R1 & R2 & H1 & H2 & D1 & P1). rewrite E1, E2 in *.
      destruct (revealed X y m unknown Hy HX true (x :: l) (fun _ => N) V1) as (xs & mat & ids & E3 & R). rewrite E3 in *.
      destruct (HT (mdl s) xs mat) as [t Ef]. rewrite Ef in *.
      destruct (sio_add _ _) as [v r] eqn:Ea.
      assert (r = Ok tt) as ->. { unfold sio_add in Ea. cbn in Ea. now injection Ea as _ <-. }
      destruct TI as [I1 _]. apply IH; auto. cbn [unl].
      pose proof (gain_some m _ _ _ _ (pairs_nodup _ _ RL) (pairs_nodup _ _ R1) D (HP _ _ _ _ _ Dv El) H1) as Gn.
      apply Permutation_length in P1. rewrite !app_length in P1. unfold size in *. lia.
  Qed.
End Ends.

Lemma whole_pairs m is p : denoted_by (Z.of_nat m) (map IOne is) p <-> In (fst p) is /\ 0 <= snd p < Z.of_nat m.
Proof.
  unfold denoted_by. destruct p as [i j]. cbn [fst snd]. split.
  - intros (x & Hx & Hd). apply in_map_iff in Hx. destruct Hx as (i' & <- & Hi). destruct Hd. cbn in *. subst. auto.
  - intros [Hi Hj]. exists (IOne i). split; [now apply in_map|]. split; auto.
Qed.

Lemma whole_length m is : List.length (flat_map (denoted (Z.of_nat m)) (map IOne is)) = (List.length is * m)%nat.
Proof.
  induction is as [|i is IH]; cbn [map flat_map denoted List.length]; auto. rewrite app_length, IH, map_length. unfold zrange.
  rewrite map_length. unfold range. rewrite seq_length. lia.
Qed.

Lemma whole_nodup m is : NoDup is -> NoDup (flat_map (denoted (Z.of_nat m)) (map IOne is)).
Proof.
  induction 1 as [|i is N _ IH]; cbn [map flat_map denoted]; [constructor|]. apply NoDup_app_intro; auto.
  - apply FinFun.Injective_map_NoDup; [intros a b; congruence|]. apply zrange_nodup.
  - intros p P1 P2. apply in_map_iff in P1. destruct P1 as (j & <- & _).
    assert (F : forallb (scalar_ok (Z.of_nat m)) (map IOne is) = true). { apply forallb_forall. intros x Hx. apply in_map_iff in Hx. now destruct Hx as (? & <- & _). }
    apply (flat_denoted_by (Z.of_nat m) _ _ F) in P2. apply whole_pairs in P2. now apply N.
Qed.

Section Main.
  Context {A B M : Type}.
  Variables (X : list B) (y : list (list A)) (m : nat) (unknown : A).
  Variables (fit0 fit : M -> list B -> list (list A) -> res M) (perf : M -> Q)
            (strat : nat -> M -> mlic -> mlic -> res answer) (budget : Z).

  Lemma main_cases fuel t00 L0 U0 v : setting X y m L0 U0 ->
    exists xs mat, reveals X y m unknown (mcont L0) xs mat /\
      ml_main X y m unknown fit0 fit perf strat budget fuel t00 L0 U0 v =
      match fit0 t00 xs mat with
      | Err e => ({| lab := L0; unl := U0; mdl := t00; sav := v |}, Failed e)
      | Ok t0 => ml_rounds X y m unknown fit perf strat budget fuel 0 (size L0)
                   {| lab := L0; unl := U0; mdl := t0; sav := v |}
      end.
  Proof.
    intros (Hy & HX & RL & RU & D & HL & _).
    assert (V : forall x, In x (mcont L0) -> (forall i j, x <> ILong i j) /\ 0 <= ins_of x < Z.of_nat (List.length y) /\
                       scalar_ok (Z.of_nat m) x = true).
    { intros x Hx. pose proof (reachable_good _ _ RL) as (_ & _ & _ & F & _).
      rewrite (pairs_map _ _ F) in Hx. apply in_map_iff in Hx. destruct Hx as ([i j] & <- & Hp).
      split; [discriminate|]. split; [exact (HL _ Hp)|].
      rewrite Forall_forall in F. 
      assert (K : In (pair_idx (i, j)) (mcont L0)).
      { rewrite (pairs_map (Z.of_nat m) L0) by now apply Forall_forall. now apply in_map. }
      specialize (F _ K). cbn in F |- *. destruct F. apply andb_true_iff. split; [now apply Z.leb_le|now apply Z.ltb_lt]. }
    destruct (revealed X y m unknown Hy HX false (mcont L0) (fun K => match K with eq_refl => I end) V) as (xs & mat & ids & E & R).
    exists xs, mat. split; [exact R|]. unfold ml_main. rewrite E. destruct (fit0 t00 xs mat); [|reflexivity].
    unfold size. now rewrite (cont_pairs _ _ RL).
  Qed.
End Main.
