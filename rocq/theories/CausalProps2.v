(** Property C130: the multi-label experiment. *)
From Verif Require Import Base BaseFacts IndexModel MLModel MLSpec MLProofs MLProps StateModel StateSpec MultiLoopModel MultiLoopSpec MultiLoopProofs MultiLoopProps CausalSpec.
From Coq Require Import String QArith Permutation.
Local Open Scope Z_scope.
Local Notation length := List.length.

Lemma shape_ext {A} (a b : list (list A)) n m : has_shape a n m -> has_shape b n m ->
  (forall r c, (r < n)%nat -> (c < m)%nat -> cell a r c = cell b r c) -> a = b.
Proof.
  intros [LA WA] [LB WB] H. apply nth_ext with (d := []) (d' := []); [congruence|]. intros r Hr.
  assert (Ra : In (nth r a []) a) by now apply nth_In. assert (Rb : In (nth r b []) b) by (apply nth_In; congruence).
  assert (Ea : nth_error a r = Some (nth r a [])) by now apply nth_error_nth'.
  assert (Eb : nth_error b r = Some (nth r b [])) by (apply nth_error_nth'; congruence).
  assert (X : forall c, nth_error (nth r a []) c = nth_error (nth r b []) c).
  { intro c. destruct (Nat.lt_ge_cases c m) as [Hc|Hc].
    - specialize (H r c ltac:(congruence) Hc). unfold cell in H. now rewrite Ea, Eb in H.
    - transitivity (@None A); [|symmetry]; apply nth_error_None; [rewrite (WA _ Ra)|rewrite (WB _ Rb)]; auto. }
  generalize X. generalize (nth r a []) (nth r b []). clear. induction l as [|x l IH]; intros [|z l'] X; auto.
  - specialize (X 0%nat). discriminate.
  - specialize (X 0%nat). discriminate.
  - pose proof (X 0%nat) as X0. injection X0 as ->. f_equal. apply IH. intro c. exact (X (S c)).
Qed.

Lemma denoted_decided m l p : denoted_by m l p \/ ~ denoted_by m l p.
Proof.
  unfold denoted_by. induction l as [|x l IH]; [right; intros (x & [] & _)|].
  assert (D : denotes m x p \/ ~ denotes m x p).
  { destruct p as [i j]. assert (P : forall q : Z * Z, (i, j) = q \/ (i, j) <> q).
    { intros [a b]. destruct (Z.eq_dec i a), (Z.eq_dec j b); subst; [left|right|right|right]; congruence. }
    assert (G : forall a, i = a \/ i <> a) by (intros; lia). assert (R : 0 <= j < m \/ ~ 0 <= j < m) by lia.
    assert (Z4 : forall js, In j js \/ ~ In j js) by (intros; destruct (in_dec Z.eq_dec j js); auto).
    destruct x; cbn [denotes fst snd]; try apply P;
      (match goal with |- context [i = ?a] => destruct (G a) end; destruct R; try tauto);
      match goal with |- context [In j ?js] => destruct (Z4 js) end; tauto. }
  destruct D as [D|D]; [left; exists x; cbn; auto|]. destruct IH as [(z & I & E)|N]; [left; exists z; cbn; auto|].
  right. intros (z & [<-|I] & E); auto. apply N. eauto.
Qed.

Section Loop.
  Context {A B M : Type}.
  Variables (X : list B) (y y' : list (list A)) (m : nat) (unknown : A).
  Variables (fit0 fit : M -> list B -> list (list A) -> res M) (perf : M -> Q)
            (strat : list (list A) -> nat -> M -> mlic -> mlic -> res answer) (budget : Z).
  Hypothesis Hy : has_shape y (length y) m.
  Hypothesis Hy' : has_shape y' (length y) m.
  Hypothesis HX : length X = length y.
  Hypothesis HA : always (length y) m (strat y) (usable (length y) m).
  Hypothesis HB : forall k t L U, division (length y) m L U -> agree_entries y y' L -> strat y k t L U = strat y' k t L U.

  Lemma revealed_same chk l : (chk = true -> l <> []) ->
    (forall x, In x l -> (forall i j, x <> ILong i j) /\ 0 <= ins_of x < Z.of_nat (length y) /\ scalar_ok (Z.of_nat m) x = true) ->
    (forall i b, denoted_by (Z.of_nat m) l (i, Z.of_nat b) -> cell y (Z.to_nat i) b = cell y' (Z.to_nat i) b) ->
    get_Xy chk l X y (Z.of_nat m) unknown = get_Xy chk l X y' (Z.of_nat m) unknown.
  Proof.
    intros N V E. assert (LY : length y' = length y) by apply Hy'.
    assert (Hy2 : has_shape y' (length y') m) by now rewrite LY.
    assert (V2 : forall x, In x l -> (forall i j, x <> ILong i j) /\ 0 <= ins_of x < Z.of_nat (length y') /\ scalar_ok (Z.of_nat m) x = true) by now rewrite LY.
    destruct (C09_labelmatrix A y m unknown chk l Hy N V) as (mat & ids & G & -> & S & C).
    destruct (C09_labelmatrix A y' m unknown chk l Hy2 N V2) as (mat' & ids' & G' & -> & S' & C').
    assert (mat = mat').
    { eapply shape_ext; eauto. intros r c Hr Hc. destruct (nth_error (first_occ (map ins_of l)) r) as [i|] eqn:Ei.
      - destruct (C r i c Ei Hc) as [C1 C2]. destruct (C' r i c Ei Hc) as [C1' C2'].
        assert (D : denoted_by (Z.of_nat m) l (i, Z.of_nat c) \/ ~ denoted_by (Z.of_nat m) l (i, Z.of_nat c)).
        { apply denoted_decided. }
        destruct D as [D|D]; [rewrite C1, C1' by auto; now apply E|rewrite C2, C2' by auto; reflexivity].
      - apply nth_error_None in Ei. lia. }
    subst mat'. unfold get_Xy. rewrite LY, G, G'. reflexivity.
  Qed.

  Notation turn z := (ml_turn X z m unknown fit perf (strat z)).
  Notation rounds z := (ml_rounds X z m unknown fit perf (strat z) budget).

  Lemma turn_same k s : division (length y) m (lab s) (unl s) ->
    (forall p, In p (pairs (lab s)) -> In p (pairs (lab (fst (turn y k s))))) /\
    (snd (turn y k s) = Ok tt -> division (length y) m (lab (fst (turn y k s))) (unl (fst (turn y k s)))) /\
    (agree_entries y y' (lab (fst (turn y k s))) -> turn y' k s = turn y k s).
  Proof.
    intro D. pose proof D as (RL & RU & DA & IL & IU). unfold ml_turn.
    destruct (strat y k (mdl s) (lab s) (unl s)) as [a|e] eqn:S; cbn [fst snd].
    2:{ split; auto. split; [discriminate|]. intro E. rewrite <- HB, S; auto. }
    destruct a as [l| |l].
    2:{ cbn [cost_for fst snd]. split; auto. split; [discriminate|]. intro E. rewrite <- HB, S; auto. }
    2:{ destruct l as [|x l]; cbn [cost_for fst snd]; (split; [auto|]); (split; [discriminate|]); intro E; rewrite <- HB, S; auto. }
    destruct (cost_for m (Picked l)) as [c|e] eqn:C; cbn [fst snd].
    2:{ split; auto. split; [discriminate|]. intro E. rewrite <- HB, S; auto. now rewrite C. }
    pose proof (HA _ _ _ _ _ D S) as U.
    destruct (moved y m (strat y) (lab s) (unl s) l RL RU DA U) as (w1 & w2 & L1 & U1 & E1 & E2 & R1 & R2 & P1 & P2 & D1 & Pm).
    rewrite E1, E2. destruct (inside_perm (length y) _ _ _ _ Pm IL IU) as [I1 I2].
    destruct U as (N & V & U0).
    assert (Res : forall b : mstate (M := M) * res unit, lab (fst b) = L1 -> unl (fst b) = U1 -> forall g : Prop,
       ((forall i b, In (i, Z.of_nat b) (pairs L1) -> cell y (Z.to_nat i) b = cell y' (Z.to_nat i) b) -> g) ->
       (forall p, In p (pairs (lab s)) -> In p (pairs (lab (fst b)))) /\
       (snd b = Ok tt -> division (length y) m (lab (fst b)) (unl (fst b))) /\ (agree_entries y y' (lab (fst b)) -> g)).
    { intros b EL EU g Hg. rewrite EL, EU. split; [intros p I; apply P1; auto|]. split; [intros _; exact (conj R1 (conj R2 (conj D1 (conj I1 I2))))|exact Hg]. }
    assert (SY : (forall i b, In (i, Z.of_nat b) (pairs L1) -> cell y (Z.to_nat i) b = cell y' (Z.to_nat i) b) ->
       strat y' k (mdl s) (lab s) (unl s) = Ok (Picked l) /\ get_Xy true l X y' (Z.of_nat m) unknown = get_Xy true l X y (Z.of_nat m) unknown).
    { intro G. split.
      - rewrite <- HB; auto. intros i b I. apply G, P1. auto.
      - symmetry. apply revealed_same; auto. intros i b I. apply G, P1. auto. }
    destruct (get_Xy true l X y (Z.of_nat m) unknown) as [[[xs ys] ids]|e] eqn:EG.
    2:{ apply Res; auto. intro G. destruct (SY G) as [-> ->]. now rewrite C, E1, E2. }
    destruct (fit (mdl s) xs ys) as [t|e] eqn:EF.
    2:{ apply Res; auto. intro G. destruct (SY G) as [-> ->]. now rewrite C, E1, E2, EF. }
    destruct (sio_add (sav s) _) as [v [u|e]] eqn:EV.
    - apply Res; auto. intro G. destruct (SY G) as [-> ->]. now rewrite C, E1, E2, EF, EV.
    - apply Res; auto. intro G. destruct (SY G) as [-> ->]. now rewrite C, E1, E2, EF, EV.
  Qed.

  Lemma rounds_same fuel : forall k ini s, division (length y) m (lab s) (unl s) ->
    (forall p, In p (pairs (lab s)) -> In p (pairs (lab (fst (rounds y fuel k ini s))))) /\
    (agree_entries y y' (lab (fst (rounds y fuel k ini s))) -> rounds y' fuel k ini s = rounds y fuel k ini s).
  Proof.
    induction fuel as [|n IH]; intros k ini s D; cbn [ml_rounds].
    - destruct (_ <=? budget); cbn; auto.
    - destruct (_ <=? budget); cbn [fst]; auto. destruct (turn_same k s D) as (G & K & E).
      destruct (turn y k s) as [s1 [[]|e]]; cbn [fst snd] in *.
      + destruct (IH (S k) ini s1 (K eq_refl)) as [G1 E1]. split; [auto|]. intro H.
        rewrite E; [now apply E1|]. intros i b I. apply H. now apply G1.
      + split; auto. intro H. now rewrite E.
  Qed.

  Lemma main_same fuel t00 L U v : division (length y) m L U ->
    agree_entries y y' (lab (fst (ml_main X y m unknown fit0 fit perf (strat y) budget fuel t00 L U v))) ->
    ml_main X y' m unknown fit0 fit perf (strat y') budget fuel t00 L U v = ml_main X y m unknown fit0 fit perf (strat y) budget fuel t00 L U v.
  Proof.
    intros D. unfold ml_main.
    assert (G : agree_entries y y' L -> get_Xy false (mcont L) X y' (Z.of_nat m) unknown = get_Xy false (mcont L) X y (Z.of_nat m) unknown).
    { destruct D as (RL & _ & _ & HL & _). intro E. symmetry.
      assert (Q : forall x, In x (mcont L) -> exists i j, x = IPair i j /\ In (i, j) (pairs L) /\ scalar_ok (Z.of_nat m) x = true).
      { intros x Hx. pose proof (reachable_good _ _ RL) as (_ & _ & _ & F & _). pose proof Hx as Hx'.
        rewrite (pairs_map _ _ F) in Hx. apply in_map_iff in Hx. destruct Hx as ([i j] & <- & Hp). exists i, j. split; [reflexivity|]. split; auto.
        rewrite Forall_forall in F. specialize (F _ Hx'). cbn in F |- *. destruct F. apply andb_true_iff. split; [now apply Z.leb_le|now apply Z.ltb_lt]. }
      apply revealed_same; [discriminate| |].
      - intros x I. destruct (Q x I) as (i & j & -> & P & S). split; [discriminate|]. split; [exact (HL _ P)|exact S].
      - intros i b (x & I & K). destruct (Q x I) as (i' & j & -> & P & S). cbn in K. injection K as -> <-. now apply E. }
    destruct (get_Xy false (mcont L) X y (Z.of_nat m) unknown) as [[[xs ys] ids]|e]; cbn [fst lab]; [|intro E; now rewrite G].
    destruct (fit0 t00 xs ys) as [t0|e] eqn:F; cbn [fst lab]; [|intro E; now rewrite G, F].
    intro E. destruct (rounds_same fuel 0 (Z.of_nat (length (mcont L))) {| lab := L; unl := U; mdl := t0; sav := v |} D) as [G1 E1].
    rewrite G; [rewrite F; now apply E1|]. intros i b I. apply E. now apply G1.
  Qed.
End Loop.

(** Two tables of labels of the same shape that agree on the entries labelled at the end: the same experiment, with the same
    selections, record and model, and the same end, be it by an exception. *)
Theorem C130_multi_label : forall A B M (X : list B) (y y' : list (list A)) m unknown
    (fit0 fit : M -> list B -> list (list A) -> res M) perf (strat : list (list A) -> nat -> M -> mlic -> mlic -> res answer)
    budget fuel t00 tr te L0 U0 s o,
  setting X y m L0 U0 -> has_shape y' (length y) m -> always (length y) m (strat y) (usable (length y) m) ->
  (forall k t L U, division (length y) m L U -> agree_entries y y' L -> strat y k t L U = strat y' k t L U) ->
  ml_main X y m unknown fit0 fit perf (strat y) budget fuel t00 L0 U0 (sio_new tr te L0 U0) = (s, o) ->
  agree_entries y y' (lab s) ->
  ml_main X y' m unknown fit0 fit perf (strat y') budget fuel t00 L0 U0 (sio_new tr te L0 U0) = (s, o).
Proof.
  intros A B M X y y' m unknown fit0 fit perf strat budget fuel t00 tr te L0 U0 s o (Hy & HX & D) Hy' HA HB E G.
  rewrite <- E. apply main_same; auto. now rewrite E.
Qed.
Print Assumptions C130_multi_label.

(** The experiment of C105, with the label of the entry that is not asked for changed. *)
Example C130_multi_label_example :
  setting [10; 11] ex_y 2 ex_L ex_U /\ has_shape [[1; -1]; [-1; 7]] 2 2 /\ always 2 2 ex_strat (usable 2 2) /\
  exists s, ml_main [10; 11] ex_y 2 0 ex_fit ex_fit (fun _ => 0%Q) ex_strat 1 5 [] ex_L ex_U (sio_new [] [] ex_L ex_U) = (s, Done) /\
    agree_entries ex_y [[1; -1]; [-1; 7]] (lab s) /\ pairs (lab s) = [(0, 0); (0, 1); (1, 0)].
Proof.
  split; [exact ex_setting|]. split; [split; [reflexivity|intros r [<-|[<-|[]]]; reflexivity]|].
  split; [apply C105_case|]. destruct C105_case as (_ & _ & _ & _ & _ & _ & _ & (s & E & P & _) & _). exists s. split; [exact E|]. split; [|exact P].
  intros i b I. rewrite P in I. cbn in I. destruct I as [I|[I|[I|[]]]]; injection I as <- I; destruct b as [|[|b]]; try lia; reflexivity.
Qed.
