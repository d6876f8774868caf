(** C110: the main loop of an experiment with AURO. *)
From Verif Require Import Base BaseFacts SetFacts IndexModel MLModel MLSpec MLProofs MLProofs2 MLProofs3 MLProps MiscModel QueryModel MLQueryModel MLQuerySpec
  MLQueryProofs StateModel StateSpec StateProofs StateProofs2 AuroModel AuroSpec AuroProofs AuroProps MultiLoopProofs CostLoopModel CostLoopSpec CostLoopProofs
  CostLoopProofs2 AuroLoopModel AuroLoopSpec AuroLoopProofs AuroLoopProofs2.
From Coq Require Import String QArith Sorted Lqa.
Local Open Scope Z_scope.

Lemma begin {B M} (X : list B) y n m (fit : option M -> list B -> list (list Q) -> res M) L0 old :
  List.length X = n -> has_shape y n m -> collection n m L0 ->
  exists xs rows ids, get_Xy false (mcont L0) X y (Z.of_nat m) 0%Q = Ok (xs, rows, ids) /\
    forall t0, fit old xs rows = Ok t0 -> begun fit X y n m L0 old t0.
Proof.
  intros HX Sy K. assert (Ly : List.length y = n) by apply Sy. assert (Sy' : has_shape y (List.length y) m) by now rewrite Ly.
  destruct (to_pairs n m L0 K) as (_ & TP & TE).
  assert (Hin : forall x, In x (mcont L0) -> (forall i j, x <> ILong i j) /\ 0 <= ins_of x < Z.of_nat (List.length y) /\ scalar_ok (Z.of_nat m) x = true).
  { intros x Hx. rewrite <- TE in Hx. apply in_map_iff in Hx. destruct Hx as (p & <- & Hp). apply TP in Hp.
    apply (holds_bounds n m L0 _ K) in Hp. rewrite Ly. split; [discriminate|]. cbn. lia. }
  destruct (C09_get_Xy Q B X y m 0%Q false (mcont L0) Sy' ltac:(discriminate) ltac:(congruence) Hin) as (xs & rows & ids & E & E1 & Lx & Ex).
  destruct (C09_labelmatrix Q y m 0%Q false (mcont L0) Sy' ltac:(discriminate) Hin) as (rows' & ids' & E2 & E3 & [E4 E4'] & E5).
  rewrite E1 in E2. injection E2 as <- <-. exists xs, rows, ids. split; [exact E|]. intros t0 Ef.
  assert (Bd : forall i, In i ids -> 0 <= i < Z.of_nat n).
  { intros i Hi. rewrite E3 in Hi. apply (proj1 (first_occ_in _ _)) in Hi. apply in_map_iff in Hi. destruct Hi as (x & <- & Hx). rewrite <- Ly. now apply Hin. }
  assert (Dn : forall i j, denoted_by (Z.of_nat m) (mcont L0) (Z.of_nat i, Z.of_nat j) <-> holds L0 (i, j)).
  { intros i j. unfold denoted_by. split.
    - intros (x & Hx & D). rewrite <- TE in Hx. apply in_map_iff in Hx. destruct Hx as (p & <- & Hp). cbn in D. injection D as D1 D2.
      assert (p = (i, j)) as <- by (destruct p; cbn in *; f_equal; lia). now apply TP.
    - intro H. apply TP in H. exists (to_idx (i, j)). split; [|reflexivity]. rewrite <- TE. now apply in_map. }
  exists (map Z.to_nat ids), xs, rows. split; [|split; [|split; [|split; [|exact Ef]]]].
  - assert (Ni : NoDup ids) by (rewrite E3; apply first_occ_NoDup). clear -Ni Bd. induction Ni as [|i ids H Ni IH]; cbn; constructor.
    + intro Q0. apply in_map_iff in Q0. destruct Q0 as (k & Ek & Hk). apply H. assert (k = i); [|now subst].
      specialize (Bd k (or_intror Hk)) as B1. specialize (Bd i (or_introl eq_refl)) as B2. lia.
    + apply IH. intros k Hk. apply Bd. now right.
  - intro i. rewrite in_map_iff. split.
    + intros (k & <- & Hk). rewrite E3 in Hk. apply (proj1 (first_occ_in _ _)) in Hk. apply in_map_iff in Hk. destruct Hk as (x & <- & Hx).
      rewrite <- TE in Hx. apply in_map_iff in Hx. destruct Hx as ([a b] & <- & Hp). apply TP in Hp. cbn [ins_of to_idx fst]. rewrite Nat2Z.id. eauto.
    + intros (j & Hj). exists (Z.of_nat i). split; [apply Nat2Z.id|]. rewrite E3. apply (proj2 (first_occ_in _ _)). apply TP in Hj.
      change (Z.of_nat i) with (ins_of (to_idx (i, j))). apply in_map. rewrite <- TE. now apply in_map.
  - clear -Lx Ex Bd HX. revert xs Lx Ex. induction ids as [|i ids IH]; intros [|x xs] Lx Ex; try discriminate; cbn [map]; constructor.
    + pose proof (Ex 0%nat i eq_refl) as E. cbn in E. congruence.
    + apply IH; [intros k Hk; apply Bd; now right|cbn in Lx; lia|]. intros r k Hk. exact (Ex (S r) k Hk).
  - assert (E5' : forall r i, nth_error ids r = Some i -> exists row, nth_error rows r = Some row /\ List.length row = m /\ forall j, (j < m)%nat ->
               (holds L0 (Z.to_nat i, j) -> nth j row 0%Q = value y (Z.to_nat i) j) /\ (~ holds L0 (Z.to_nat i, j) -> nth j row 0%Q = 0%Q)).
    { intros r i Hr. assert (Hi : 0 <= i < Z.of_nat n) by (apply Bd; eapply nth_error_In; eauto).
      destruct (nth_error rows r) as [row|] eqn:Er.
      2:{ apply nth_error_None in Er. assert (r < List.length ids)%nat by (apply nth_error_Some; congruence). lia. }
      exists row. split; [reflexivity|]. split; [apply E4'; eapply nth_error_In; eauto|]. intros j Hj.
      destruct (E5 r i j Hr Hj) as [D1 D2]. unfold cell in D1 at 1, D2. rewrite Er in D1, D2.
      rewrite (value_cell y n m (Z.to_nat i) j Sy ltac:(lia) Hj) in D1.
      assert (Dn' : denoted_by (Z.of_nat m) (mcont L0) (i, Z.of_nat j) <-> holds L0 (Z.to_nat i, j)) by (rewrite <- Dn, Z2Nat.id by lia; reflexivity).
      rewrite Dn' in D1, D2.
      split; intro H; apply nth_error_nth; auto. }
    clear -E4 E5'. revert rows E4 E5'. induction ids as [|i ids IH]; intros [|row rows] Lr Er; try discriminate; cbn [map]; constructor.
    + destruct (Er 0%nat i eq_refl) as (row' & E & H). injection E as ->. exact H.
    + apply IH; [cbn in Lr; lia|]. intros r k Hk. exact (Er (S r) k Hk).
Qed.

Lemma main_facts {B M} (X : list B) y n m train argsort (fit : option M -> list B -> list (list Q) -> res M) refit scores judge addr tr te L0 U0 st k s o :
  auro_setting X y n m train argsort scores addr L0 U0 st ->
  auro_main X y m argsort fit refit scores judge addr tr te L0 U0 st k = (s, o) ->
  (exists e xs ys, fit (nth addr (heap st) None) xs ys = Err e /\ o = Failed e /\
     s = {| lab := L0; unl := U0; qry := y; strat := st; sav := sio_new tr te L0 U0 |}) \/
  exists t0, begun fit X y n m L0 (nth addr (heap st) None) t0 /\
    match o with
    | Done => exists asks, inv X y n m refit judge addr tr te L0 U0 t0 s asks /\ List.length asks = k /\ askable n U0 = (k + askable n (unl s))%nat
    | Failed e => exists asks extra, hurt X y n m refit judge addr tr te L0 U0 t0 s asks extra /\
        ((e = ValueErr /\ extra = [] /\ List.length asks = askable n U0 /\ (askable n U0 < k)%nat /\ forall i, (pairs_of (unl s) i <= 1)%nat) \/
         (List.length extra = 1%nat /\ ((exists t xs ys, refit t xs ys = Err e) \/ exists t, judge t = Err e)))
    end.
Proof.
  intros (HX & Sy & (K0 & K1 & A0 & G) & Ha & HA & HS) H. unfold auro_main in H.
  destruct (begin X y n m fit L0 (nth addr (heap st) None) HX Sy K0) as (xs & rows & ids & E & Bg). rewrite E in H. cbn [bind fst snd] in H.
  destruct (fit (nth addr (heap st) None) xs rows) as [t0|e] eqn:Ef.
  2:{ left. injection H as <- <-. exists e, xs, rows. auto. }
  right. exists t0. split; [now apply Bg|].
  assert (Hs : nth_error (heap (set_model addr st t0)) addr = Some (Some t0)).
  { cbn [heap set_model]. rewrite MLProofs3.nth_error_set_nth, Nat.eqb_refl. rewrite (proj2 (Nat.ltb_lt _ _)) by exact Ha. reflexivity. }
  pose proof (inv_start X y n m refit judge addr Sy tr te L0 U0 t0 K0 K1 A0 _ Hs) as I0.
  pose proof (rounds_inv X y n m argsort fit refit scores judge addr HX Sy HA HS tr te L0 U0 t0 k _ _ I0) as R. rewrite H in R. exact R.
Qed.

(** However the loop is left, the labelled and the unlabelled pairs are a division of the training pairs; the pairs of the
    questions, all different, have moved from the unlabelled to the labelled ones, and nothing else has moved. There is a record for
    each question, except for one in progress when an exception left the loop, and the records rebuild the pools. *)
Theorem C110_pool : forall B M (X : list B) y n m train argsort (fit : option M -> list B -> list (list Q) -> res M) refit scores judge addr tr te L0 U0 st k s o,
  auro_setting X y n m train argsort scores addr L0 U0 st ->
  auro_main X y m argsort fit refit scores judge addr tr te L0 U0 st k = (s, o) ->
  division n m train (lab s) (unl s) /\
  exists asks extra L U, List.length asks = turns (sav s) /\ (List.length extra <= 1)%nat /\ Forall (proper_question n m) (asks ++ extra) /\
    NoDup (flat_map two (asks ++ extra)) /\ (forall p, asked (asks ++ extra) p -> holds U0 p) /\
    moved_by (asks ++ extra) L0 U0 (lab s) (unl s) /\ rebuilt (sav s) = Ok (tr, te, L, U) /\ moved_by asks L0 U0 L U /\
    match o with Done => extra = [] /\ L = lab s /\ U = unl s | Failed _ => True end.
Proof.
  intros B M X y n m train argsort fit refit scores judge addr tr te L0 U0 st k s o HS H.
  pose proof HS as (_ & Sy & HD & _). pose proof HD as (K0 & K1 & A0 & G).
  assert (Dv : forall al L U, collection n m L -> collection n m U -> apart L U -> moved_by al L0 U0 L U -> (forall p, asked al p -> holds U0 p) -> division n m train L U).
  { intros al L U KL KU A [H1 H2] Hi. split; [exact KL|]. split; [exact KU|]. split; [exact A|]. intro p. rewrite <- G, H1, H2. specialize (Hi p).
    destruct (holds_dec L p) as [D|D]; rewrite H1 in D; [tauto|]. tauto. }
  destruct (main_facts X y n m train argsort fit refit scores judge addr tr te L0 U0 st k s o HS H) as [(e & xs & ys & _ & -> & ->)|(t0 & _ & F)].
  - assert (N0 : forall p, ~ asked [] p) by (intros p (a & [] & _)).
    assert (M0 : moved_by [] L0 U0 L0 U0) by (split; intro p; specialize (N0 p); tauto).
    split; [exact HD|]. exists [], [], L0, U0. cbn [app lab unl sav flat_map]. split; [reflexivity|]. split; [cbn; lia|]. split; [constructor|]. split; [constructor|].
    split; [intros p Hp; destruct (N0 p Hp)|]. auto.
  - assert (HU : exists asks extra, hurt X y n m refit judge addr tr te L0 U0 t0 s asks extra /\
        match o with Done => extra = [] /\ rebuilt (sav s) = Ok (tr, te, lab s, unl s) | _ => True end).
    { destruct o as [|e].
      - destruct F as (asks & I & _). exists asks, []. split; [exact (AuroLoopProofs2.inv_hurt X y n m fit refit judge addr (proj1 HS) tr te L0 U0 t0 s asks I)|]. split; [reflexivity|apply I].
      - destruct F as (asks & extra & Hu & _). exists asks, extra. auto. }
    destruct HU as (asks & extra & (Le & KL & KU & A & Mo & Pr & Nd & In0 & _ & _ & _ & Hh & L & U & W & Mo1) & D).
    split; [now apply (Dv (asks ++ extra))|].
    destruct o as [|e]; [destruct D as [-> W']; exists asks, [], (lab s), (unl s)|exists asks, extra, L, U].
    all: split; [apply Hh|]; do 5 (split; [assumption|]); split; [assumption|]; split; [rewrite ?app_nil_r in *; assumption|auto].
Qed.
Print Assumptions C110_pool.

(** The label matrix that the loop writes to holds the answers at the pairs asked for and the given labels elsewhere. *)
Theorem C110_answers : forall B M (X : list B) y n m train argsort (fit : option M -> list B -> list (list Q) -> res M) refit scores judge addr tr te L0 U0 st k s o,
  auro_setting X y n m train argsort scores addr L0 U0 st ->
  auro_main X y m argsort fit refit scores judge addr tr te L0 U0 st k = (s, o) ->
  exists asks, answered y (qry s) asks /\ NoDup (flat_map two asks) /\ moved_by asks L0 U0 (lab s) (unl s).
Proof.
  intros B M X y n m train argsort fit refit scores judge addr tr te L0 U0 st k s o HS H.
  destruct (main_facts X y n m train argsort fit refit scores judge addr tr te L0 U0 st k s o HS H) as [(e & xs & ys & _ & -> & ->)|(t0 & _ & F)].
  - exists []. assert (N0 : forall p, ~ asked [] p) by (intros p (a & [] & _)). split; [split; [reflexivity|intros a []]|]. split; [constructor|].
    split; intro p; specialize (N0 p); cbn [lab unl]; tauto.
  - destruct o as [|e].
    + destruct F as (asks & (_ & _ & _ & Mo & _ & Nd & _ & _ & An & _) & _). exists asks. auto.
    + destruct F as (asks & extra & (_ & _ & _ & _ & Mo & _ & Nd & _ & _ & An & _) & _). exists (asks ++ extra). auto.
Qed.
Print Assumptions C110_answers.

(** With labels 1 (relevant) and -1: both numbers are -1 exactly for two irrelevant labels; otherwise one number is 1, for a
    relevant label, and the other is 0.5, whether that label is relevant or not. *)
Theorem C110_meaning : forall y a v1 v2, reply y a v1 v2 ->
  (forall i j, value y i j = 1%Q \/ value y i j = (-1)%Q) ->
  let y1 := value y (who a) (one a) in
  let y2 := value y (who a) (other a) in
  (v1 = (-1)%Q \/ v2 = (-1)%Q <-> y1 = (-1)%Q /\ y2 = (-1)%Q) /\
  (v1 = 1%Q -> y1 = 1%Q /\ v2 = (1 # 2)%Q /\ y2 = (-1)%Q) /\
  (v2 = 1%Q -> y2 = 1%Q /\ v1 = (1 # 2)%Q) /\
  (y1 = 1%Q /\ y2 = 1%Q -> v1 = (1 # 2)%Q).
Proof.
  intros y a v1 v2 R P y1 y2. subst y1 y2. unfold reply in R. set (y1 := value y (who a) (one a)) in *. set (y2 := value y (who a) (other a)) in *.
  assert (P1 : y1 = 1%Q \/ y1 = (-1)%Q) by apply P. assert (P2 : y2 = 1%Q \/ y2 = (-1)%Q) by apply P. clearbody y1 y2.
  destruct P1 as [-> | ->], P2 as [-> | ->]; destruct R as [(R1 & R2 & -> & ->)|[([R1|R1] & R2 & -> & ->)|([R1|R1] & R2 & -> & ->)]]; try lra;
    (split; [split; [intros [D|D]; (discriminate D || auto)|intros [D1 D2]; (discriminate D1 || discriminate D2 || auto)]|]);
    repeat split; intros; auto; try discriminate; try (destruct H; discriminate).
Qed.
Print Assumptions C110_meaning.

(** At the end the model is the one trained on the labels known at first and then taught by each question in turn; so is the
    model judged in each record. Each question is about an instance with most unlabelled labels. *)
Theorem C110_training : forall B M (X : list B) y n m train argsort (fit : option M -> list B -> list (list Q) -> res M) refit scores judge addr tr te L0 U0 st k s,
  auro_setting X y n m train argsort scores addr L0 U0 st ->
  auro_main X y m argsort fit refit scores judge addr tr te L0 U0 st k = (s, Done) ->
  exists t0 asks t, begun fit X y n m L0 (nth addr (heap st) None) t0 /\ learns refit X y m t0 asks t /\
    nth_error (heap (strat s)) addr = Some (Some t) /\ List.length asks = k /\ history refit judge X y m t0 tr te L0 U0 (sav s) asks.
Proof.
  intros B M X y n m train argsort fit refit scores judge addr tr te L0 U0 st k s HS H.
  destruct (main_facts X y n m train argsort fit refit scores judge addr tr te L0 U0 st k s Done HS H) as [(e & xs & ys & _ & D & _)|(t0 & Bg & asks & I & Lk & _)]; [discriminate|].
  destruct I as (_ & _ & _ & _ & _ & _ & _ & _ & _ & (t & Ht & Le) & _ & _ & _ & _ & _ & Hh). exists t0, asks, t. auto.
Qed.
Print Assumptions C110_training.

(** An exception keeps the records made so far as they are. *)
Theorem C110_training_failed : forall B M (X : list B) y n m train argsort (fit : option M -> list B -> list (list Q) -> res M) refit scores judge addr tr te L0 U0 st k s e,
  auro_setting X y n m train argsort scores addr L0 U0 st ->
  auro_main X y m argsort fit refit scores judge addr tr te L0 U0 st k = (s, Failed e) ->
  (turns (sav s) = 0%nat /\ exists xs ys, fit (nth addr (heap st) None) xs ys = Err e) \/
  exists t0 asks, begun fit X y n m L0 (nth addr (heap st) None) t0 /\ history refit judge X y m t0 tr te L0 U0 (sav s) asks.
Proof.
  intros B M X y n m train argsort fit refit scores judge addr tr te L0 U0 st k s e HS H.
  destruct (main_facts X y n m train argsort fit refit scores judge addr tr te L0 U0 st k s _ HS H) as [(e' & xs & ys & D1 & D & ->)|(t0 & Bg & asks & extra & Hu & _)].
  - left. injection D as <-. split; [reflexivity|]. eauto.
  - right. exists t0, asks. split; [exact Bg|]. apply Hu.
Qed.
Print Assumptions C110_training_failed.

(** The number of rounds: as many as wanted while there are two unlabelled labels of one instance; after that the loop fails with
    ValueError, however many pairs are unlabelled, at most one of each instance. *)
Theorem C110_rounds : forall B M (X : list B) y n m train argsort (fit : option M -> list B -> list (list Q) -> res M) refit scores judge addr tr te L0 U0 st k s o,
  auro_setting X y n m train argsort scores addr L0 U0 st -> never_raises fit refit judge ->
  auro_main X y m argsort fit refit scores judge addr tr te L0 U0 st k = (s, o) ->
  turns (sav s) = Nat.min k (askable n U0) /\ (o = Done <-> (k <= askable n U0)%nat) /\
  ((askable n U0 < k)%nat -> o = Failed ValueErr /\ forall i, (pairs_of (unl s) i <= 1)%nat).
Proof.
  intros B M X y n m train argsort fit refit scores judge addr tr te L0 U0 st k s o HS (N1 & N2 & N3) H.
  destruct (main_facts X y n m train argsort fit refit scores judge addr tr te L0 U0 st k s o HS H) as [(e & xs & ys & D & _)|(t0 & _ & F)].
  - destruct (N1 (nth addr (heap st) None) xs ys) as [t E]. congruence.
  - destruct o as [|e].
    + destruct F as (asks & I & Lk & E). destruct I as (_ & _ & _ & _ & _ & _ & _ & _ & _ & _ & _ & _ & _ & _ & _ & (Hl & _)).
      rewrite <- Hl, Lk. split; [lia|]. split; [|lia]. split; [lia|auto].
    + destruct F as (asks & extra & Hu & [(-> & -> & Ll & Lt & Few)|(_ & [(t & xs & ys & D)|(t & D)])]).
      * destruct Hu as (_ & _ & _ & _ & _ & _ & _ & _ & _ & _ & _ & (Hl & _) & _). rewrite <- Hl, Ll. split; [lia|]. split; [|auto].
        split; [discriminate|lia].
      * destruct (N2 t xs ys) as [t' E]. congruence.
      * destruct (N3 t) as [q E]. congruence.
Qed.
Print Assumptions C110_rounds.

(** Three instances with three labels, the first of them labelled. *)
Definition demo_y : list (list Q) := [[1; -1; 1]; [-1; 1; -1]; [1; 1; -1]]%Q.
Definition demo_L : mlic := {| mcont := [IPair 0 0; IPair 0 1; IPair 0 2]; is_set := true; lsize := Some 3 |}.
Definition demo_U : mlic := {| mcont := [IPair 1 0; IPair 1 1; IPair 1 2; IPair 2 0; IPair 2 1; IPair 2 2]; is_set := true; lsize := Some 3 |}.
Definition demo_row : list fl := map (fun q => Num q) [1; 0; 0; 0; 0; 9; 0; 0; 0; 0; 2; 0; 0; 0; 0; 3; 0; 0; 0; 0]%Q.
Definition demo_scores (t : list (list Q)) (xs : list nat) : nat * list (list fl) := (20%nat, map (fun _ => demo_row) xs).
Definition demo_fit (old : option (list (list Q))) (xs : list nat) (ys : list (list Q)) : res (list (list Q)) := Ok ys.
Definition demo_refit (t : list (list Q)) (xs : list nat) (ys : list (list Q)) : res (list (list Q)) := Ok (t ++ ys).
Definition demo_judge (t : list (list Q)) : res Q := Ok (inject_Z (Z.of_nat (List.length t))).
Definition demo_main (k : nat) := auro_main [7; 8; 9]%nat demo_y 3 ins_sort demo_fit demo_refit demo_scores demo_judge 1 [] [] demo_L demo_U {| heap := [None; None]; AuroModel.own := 0 |} k.

Example C110_example :
  auro_setting [7; 8; 9]%nat demo_y 3 3 [0; 1; 2]%nat ins_sort demo_scores 1 demo_L demo_U {| heap := [None; None]; AuroModel.own := 0 |} /\
  never_raises demo_fit demo_refit demo_judge /\ askable 3 demo_U = 2%nat.
Proof.
  split; [|split; [|reflexivity]].
  - split; [reflexivity|]. split; [split; [reflexivity|intros r [<-|[<-|[<-|[]]]]; reflexivity]|]. split; [|split; [cbn; lia|split; [exact ins_sort_ok|]]].
    + split; [|split; [|split]].
      * split; [apply (mr_list 3 [IPair 0 0; IPair 0 1; IPair 0 2] (Some 3) demo_L []); [discriminate|reflexivity|reflexivity]|].
        intros q [<-|[<-|[<-|[]]]]; cbn; lia.
      * split; [apply (mr_list 3 [IPair 1 0; IPair 1 1; IPair 1 2; IPair 2 0; IPair 2 1; IPair 2 2] (Some 3) demo_U []); [discriminate|reflexivity|reflexivity]|].
        intros q [<-|[<-|[<-|[<-|[<-|[<-|[]]]]]]]; cbn; lia.
      * intros q [<-|[<-|[<-|[]]]] [E|[E|[E|[E|[E|[E|[]]]]]]]; discriminate.
      * intros [i j]. unfold holds. cbn [fst snd]. cbn. split.
        -- intros [[E|[E|[E|[]]]]|[E|[E|[E|[E|[E|[E|[]]]]]]]]; injection E as E1 E2; split; lia.
        -- intros [[<-|[<-|[<-|[]]]] Hj]; destruct j as [|[|[|j]]]; try lia; cbn; auto 12.
    + intros t xs. split.
      * split; [reflexivity|]. split; [cbn; apply map_length|]. intros r Hr. cbn in Hr. apply in_map_iff in Hr. destruct Hr as (x & <- & _). reflexivity.
      * intros r Hr. cbn [demo_scores snd] in Hr. apply in_map_iff in Hr. destruct Hr as (x & <- & _). intros v Hv. unfold demo_row in Hv.
        apply in_map_iff in Hv. destruct Hv as (q & <- & _). eauto.
  - split; [|split]; intros; eexists; reflexivity.
Qed.
Example C110_example_run :
  let (s, o) := demo_main 3 in
  o = Failed ValueErr /\ turns (sav s) = 2%nat /\ pairs (unl s) = [(1, 0); (2, 0)] /\
  map (fun i => nth i (qry s) []) [1; 2]%nat = [[-1; 1; 1 # 2]; [1; 1; 1 # 2]]%Q /\
  nth 1 (heap (strat s)) None = Some [[1; -1; 1]; [0; 1; 1 # 2]; [0; 1; 1 # 2]]%Q /\ snd (demo_main 2) = Done.
Proof. vm_compute. repeat split. Qed.
