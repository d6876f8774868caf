(** Selections from different pools and with different batch sizes agree: C124. *)
From Verif Require Import Base BaseFacts IndexModel MLModel SplitModel MLProofs3 MiscModel MiscSpec MiscProofs MiscProps
  QueryModel QuerySpec QueryProofs QueryProofs2 QueryProofs3 QueryProofs4 QueryProps QueryProps2 QueryNumpy RationalSpec RationalProofs.
From Coq Require Import QArith Qabs Lqa.
Local Open Scope Z_scope.

(** Uncertainty sampling, where [p x] is what the model predicts for instance [x]. *)
Theorem C124_uncertainty : forall np m p cols,
  numpy_ok np -> m <> Boundary -> (2 <= cols)%nat -> (forall x, length (p x) = cols) ->
  consistent (fun U b => snd (select_by_prediction_mat np m U (Mat cols (map p U)) b))
             (fun x y => exists s, uncertain (log np) m (p x) s /\ uncertain (log np) m (p y) s).
Proof.
  intros np m p cols NP NB C P.
  assert (exists s, (forall x, uncertain (log np) m (p x) (s x)) /\
     match m with
     | Entropy => forall x, s x = entropy np (map clip (p x))
     | Margin => forall x, margin_score np cols (p x) = Ok (s x)
     | _ => forall x, least_confident_score np cols (p x) = Ok (s x)
     end) as (s & Us & Es).
  { destruct m; [| | |congruence].
    - exists (fun x => match least_confident_score np cols (p x) with Ok v => v | Err _ => 0%Q end).
      split; intro x; destruct (least_ok np (p x) cols NP (P x) ltac:(lia)) as (v & q & -> & LG & ->); [|reflexivity]. econstructor; eauto. reflexivity.
    - exists (fun x => match margin_score np cols (p x) with Ok v => v | Err _ => 0%Q end).
      split; intro x; destruct (margin_ok np (p x) cols NP (P x) C) as (v & -> & T); [|reflexivity]. econstructor; eauto. ring.
    - exists (fun x => entropy np (map clip (p x))). split; intro x; [apply entropy_uncertain|reflexivity]. }
  apply top_consistent with (s := s).
  - intros U b N B. unfold select_by_prediction_mat. destruct (Z.ltb_spec 0 b); [|lia]. cbn [negb].
    destruct (Z.leb_spec (Z.of_nat (length U)) b) as [W|W]; [exists U; split; [auto|now apply whole_top]|].
    destruct cols as [|[|k]]; [lia|lia|]. set (cols := S (S k)) in *.
    assert (K : exists sel, (ps <- nlargestarg (argsort np (map s U)) b ;; take U ps) = Ok sel /\ top s U b sel).
    { destruct (largest_batch np U (map s U) b NP ltac:(apply map_length) ltac:(lia)) as (sel & E & BB). exists sel. split; auto.
      refine (best_top s U b sel _ N _ _ BB); [lia|]. intros i x E'. cbn beta. rewrite (nth_map_score s U i x E'). reflexivity. }
    destruct m; [| | |congruence]; cbn [snd].
    + rewrite (mapM_map_ok _ p s) by (intros; apply Es). exact K.
    + rewrite (mapM_map_ok _ p s) by (intros; apply Es). exact K.
    + rewrite !map_map. rewrite (map_ext (fun x => entropy np (map clip (p x))) s) by (intro; now rewrite Es). exact K.
  - intros x y E. exists (s x). split; auto. specialize (Us y).
    inversion Us; subst; econstructor; eauto; (etransitivity; [exact E|]; assumption).
Qed.
Print Assumptions C124_uncertainty.

(** The distance to the decision boundary, where [d x] is the signed distance of instance [x]. *)
Theorem C124_boundary : forall np d, numpy_ok np ->
  consistent (fun U b => snd (select_by_prediction_mat np Boundary U (Vec (map d U)) b)) (fun x y => (Qabs (d x) == Qabs (d y))%Q).
Proof.
  intros np d NP. apply top_consistent with (s := fun x => (- Qabs (d x))%Q); [|intros x y E; lra].
  intros U b N B. destruct (C47_boundary Z np U (map d U) b _ NP (or_introl eq_refl) ltac:(apply map_length) B) as (sel & E & T).
  rewrite E. exists sel. split; [reflexivity|]. destruct (Z.leb_spec (Z.of_nat (length U)) b) as [W|W]; [subst; now apply whole_top|].
  refine (best_top _ U b sel _ N _ _ T); [lia|]. intros i x E'. cbn beta. rewrite (nth_map_score d U i x E'). reflexivity.
Qed.
Print Assumptions C124_boundary.

(** Committees by vote entropy, where member [h] votes [h x] on instance [x]. *)
Theorem C124_votes : forall np (members : list (Z -> Z)), numpy_ok np -> (2 <= length members)%nat ->
  consistent (fun U b => select_largest np U (vote_entropy np (map (fun h => map h U) members)) b)
             (fun x y => exists s, vote_score (log np) (map (fun h => h x) members) s /\ vote_score (log np) (map (fun h => h y) members) s).
Proof.
  intros np members NP M.
  set (sc := fun x => (- qsum (map (fun e => vote_term np (length members) (snd e)) (counter (map (fun h => h x) members))))%Q).
  assert (V : forall x, vote_score (log np) (map (fun h => h x) members) (sc x)).
  { intro x. destruct (C67_votes np (map (fun h => [h x]) members) 1) as (s & E & L & S); [now rewrite map_length|apply Forall_forall; intros X I; apply in_map_iff in I; destruct I as (? & <- & _); reflexivity|].
    specialize (S 0%nat ltac:(lia)). unfold column in S. rewrite map_map in S. cbn [nth] in S.
    replace (sc x) with (nth 0 s 0%Q); [exact S|]. unfold vote_entropy in E.
    rewrite (committee_ok (map (fun h : Z -> Z => [h x]) members) 1) in E; [|now rewrite map_length|apply Forall_forall; intros X I; apply in_map_iff in I; destruct I as (? & <- & _); reflexivity].
    cbn [bind range seq mapM] in E. rewrite (mapM_map_ok _ (fun h => [h x]) (fun h => h x)) in E by reflexivity. cbn [bind] in E.
    injection E as <-. cbn [nth]. now rewrite map_length. }
  apply top_consistent with (s := sc).
  - intros U b N B. apply largest_top; auto. right.
    assert (F : Forall (fun X => length X = length U) (map (fun h : Z -> Z => map h U) members)).
    { apply Forall_forall. intros X I. apply in_map_iff in I. destruct I as (h & <- & _). apply map_length. }
    exists (map sc U). split; [|split; [apply map_length|intros i x E; rewrite (nth_map_score sc U i x E); reflexivity]].
    unfold vote_entropy. rewrite (committee_ok _ (length U)); [|now rewrite map_length|exact F]. cbn [bind].
    assert (G : forall W k, (forall i x, nth_error W i = Some x -> nth_error U (k + i) = Some x) ->
       mapM (fun i => votes <- mapM (fun X => py_nth X i) (map (fun h : Z -> Z => map h U) members) ;;
          Ok (- qsum (map (fun e => vote_term np (length (map (fun h : Z -> Z => map h U) members)) (snd e)) (counter votes)))%Q) (seq k (length W)) = Ok (map sc W)).
    { induction W as [|x W IH]; intros k Hk; [reflexivity|]. cbn [length seq mapM map].
      rewrite (mapM_map_ok _ (fun h => map h U) (fun h => h x)).
      - cbn [bind]. rewrite IH; [cbn [bind]; now rewrite map_length|]. intros i y E. replace (S k + i)%nat with (k + S i)%nat by lia. now apply Hk.
      - intros h _. unfold py_nth. rewrite (map_nth_error h k U (d := x)); [reflexivity|]. specialize (Hk 0%nat x eq_refl). now rewrite Nat.add_0_r in Hk. }
    apply (G U 0%nat). auto.
  - intros x y E. exists (sc x). split; auto. intros labels ND C. cbn zeta. etransitivity; [exact E|]. apply V; auto.
Qed.
Print Assumptions C124_votes.

(** Any other score that depends on the instance alone, as the prediction of the learned selector; from the other end too. *)
Theorem C124_scores : forall np (s : Z -> Q), numpy_ok np ->
  consistent (fun U b => select_largest np U (Ok (map s U)) b) (fun x y => (s x == s y)%Q) /\
  consistent (fun U b => select_smallest np U (Ok (map s U)) b) (fun x y => (s x == s y)%Q).
Proof.
  intros np s NP. split.
  - apply top_consistent with (s := s); auto. intros U b N B. apply largest_top; auto. right. exists (map s U). split; auto.
    split; [apply map_length|]. intros i x E. rewrite (nth_map_score s U i x E). reflexivity.
  - apply top_consistent with (s := fun x => (- s x)%Q); [|intros x y E; lra]. intros U b N B.
    destruct (C47_scores Z np U (map s U) b NP ltac:(apply map_length) B) as (_ & sel & E & T). exists sel. split; auto.
    destruct (Z.leb_spec (Z.of_nat (length U)) b) as [W|W]; [subst; now apply whole_top|].
    refine (best_top _ U b sel _ N _ _ T); [lia|]. intros i x E'. cbn beta. rewrite (nth_map_score s U i x E'). reflexivity.
Qed.
Print Assumptions C124_scores.

(** What consistency gives when there are no ties. The order of the pool does not matter; a larger batch contains the
    smaller one; instances that are not selected may leave the pool; and selecting in two calls, the second on what the
    first left, gives the same as selecting in one. *)
Theorem C124_consequences : forall choose tied U b sel, consistent choose tied -> NoDup U -> no_ties tied U -> 0 < b -> choose U b = Ok sel ->
  (forall V, Permutation U V -> exists sel', choose V b = Ok sel' /\ Permutation sel sel') /\
  (forall c, b <= c -> exists sel', choose U c = Ok sel' /\ incl sel sel') /\
  (forall V, NoDup V -> incl V U -> incl sel V -> exists sel', choose V b = Ok sel' /\ Permutation sel sel') /\
  (forall c V, 0 < c -> NoDup V -> (forall x, In x V <-> In x U /\ ~ In x sel) ->
     exists rest all, choose V c = Ok rest /\ choose U (b + c) = Ok all /\ Permutation all (sel ++ rest)).
Proof.
  intros choose tied U b sel [BA ST] NU NT B E.
  assert (IS : incl sel U /\ NoDup sel /\ Z.of_nat (length sel) = Z.min b (Z.of_nat (length U))).
  { destruct (BA U b NU B) as (s & E' & N & I & L). assert (s = sel) by congruence. subst. auto. }
  destruct IS as (IS & NS & LS).
  assert (P2 : forall V, NoDup V -> incl V U -> incl sel V -> exists sel', choose V b = Ok sel' /\ Permutation sel sel').
  { intros V NV IV SV. destruct (BA V b NV B) as (s & E' & N & I & L). exists s. split; auto. apply NoDup_Permutation_bis; auto.
    - assert (length V <= length U)%nat by (apply NoDup_incl_length; auto).
      lia.
    - intros x X. destruct (ST U V b b [] sel s x) as [H|(y & Y & NE & T)]; auto; [constructor|intros y []|cbn; lia|].
      exfalso. apply (NT x y); auto. }
  split; [|split; [|split]]; auto.
  - intros V P. apply P2.
    + eapply Permutation_NoDup; eauto.
    + intros x X. eapply Permutation_in; [symmetry; exact P|auto].
    + intros x X. eapply Permutation_in; [exact P|auto].
  - intros c BC. destruct (BA U c NU ltac:(lia)) as (s & E' & N & I & L). exists s. split; auto. intros x X.
    destruct (ST U U b c [] sel s x) as [H|(y & Y & NE & T)]; auto; [apply incl_refl|lia|constructor|intros y []|cbn; lia|].
    exfalso. apply (NT x y); auto.
  - intros c V Hc NV HV. destruct (BA V c NV Hc) as (rest & Er & Nr & Ir & Lr). destruct (BA U (b + c) NU ltac:(lia)) as (all & Ea & Na & Ia & La).
    exists rest, all. split; auto. split; auto.
    assert (IV : incl V U) by (intros x X; now apply HV).
    assert (Isel : incl sel all).
    { intros x X. destruct (ST U U b (b + c) [] sel all x) as [H|(y & Y & NE & T)]; auto; [apply incl_refl|lia|constructor|intros y []|cbn; lia|].
      exfalso. apply (NT x y); auto. }
    assert (LV : length U = (length sel + length V)%nat).
    { rewrite <- app_length. apply Permutation_length. apply NoDup_Permutation; auto.
      - apply NoDup_app_intro; auto. intros x X Y. apply HV in Y. tauto.
      - intro x. rewrite in_app_iff, HV. destruct (in_dec Z.eq_dec x sel); split; intuition. }
    apply NoDup_Permutation_bis; auto.
    + rewrite app_length. lia.
    + intros x X. apply in_app_iff. destruct (in_dec Z.eq_dec x sel) as [H|H]; [now left|right].
      destruct (ST U V (b + c) c sel all rest x) as [K|(y & Y & NE & T)]; auto; [lia| | | |].
      * intros y Y. split; auto. rewrite HV. tauto.
      * destruct (Z.min_spec b (Z.of_nat (length U))) as [[_ M]|[_ M]]; rewrite M in LS; [lia|]. exfalso. apply H.
        refine (NoDup_length_incl (l' := U) NS _ IS x (Ia x X)). lia.
      * apply HV. auto.
      * exfalso. apply (NT x y); auto.
Qed.
Print Assumptions C124_consequences.

(** With ties the order of the pool decides: of two instances with the same prediction, the one selected is not the one
    selected when they are listed the other way round. *)
Theorem C124_ties_refuted : forall np m (p : Z -> list Q) cols x y,
  numpy_ok np -> m <> Boundary -> (2 <= cols)%nat -> length (p x) = cols -> p x = p y -> x <> y ->
  let choose U := snd (select_by_prediction_mat np m U (Mat cols (map p U)) 1) in
  exists a b, choose [x; y] = Ok [a] /\ choose [y; x] = Ok [b] /\ a <> b.
Proof.
  intros np m p cols x y NP NB C L E NE choose. unfold choose, select_by_prediction_mat. cbn [Z.ltb Z.compare negb length Z.of_nat Z.leb map].
  rewrite <- E. destruct cols as [|[|k]]; [lia|lia|]. set (cols := S (S k)) in *.
  change (Z.of_nat 2 <=? 1) with false. cbn [Pos.of_succ_nat Pos.succ Z.leb Z.compare Pos.compare Pos.compare_cont].
  assert (K : forall sc, length sc = 2%nat -> exists a b, (ps <- nlargestarg (argsort np sc) 1 ;; take [x; y] ps) = Ok [a] /\
     (ps <- nlargestarg (argsort np sc) 1 ;; take [y; x] ps) = Ok [b] /\ a <> b).
  { intros sc Ls. destruct (C33_largest sc (argsort np sc) 1 (proj1 NP sc) ltac:(lia)) as (ps & -> & LP & ND & I & _).
    cbn [bind]. destruct ps as [|q [|]]; cbn in LP; try lia. specialize (I q (or_introl eq_refl)). rewrite Ls in I.
    destruct q as [|[|]]; [| |lia]; cbn; eauto. }
  destruct m; [| | |congruence]; cbn [snd mapM].
  - destruct (least_ok np (p x) cols NP L ltac:(lia)) as (v & q & -> & _). cbn [bind]. apply K. reflexivity.
  - destruct (margin_ok np (p x) cols NP L C) as (v & -> & _). cbn [bind]. apply K. reflexivity.
  - apply K. reflexivity.
Qed.
Print Assumptions C124_ties_refuted.

(** Density weighting measures an instance by its distance to the pool: when an instance that was not selected leaves the
    pool, the selection may change, without any ties. Three points on a line. *)
Theorem C124_density_weighted_refuted : forall np, numpy_ok np ->
  let at_ (x : Z) := match x with 0 => 0%Q | 1 => 1%Q | _ => 10%Q end in
  let p (x : Z) := match x with 0 => [52 # 100; 48 # 100]%Q | 1 => [1 # 2; 1 # 2]%Q | _ => [1; 0]%Q end in
  let choose U b := density_weighted np (fun x => x) LeastConfident U 2 (Some (map p U)) None (map (fun x => map (fun y => Qabs (at_ x - at_ y)) U) U) b in
  choose [0; 1; 2] 1 = Ok [0] /\ choose [0; 1] 1 = Ok [1].
Proof.
  intros np NP at_ p choose.
  assert (LC : forall row u a b, uncertain_raw (log np) LeastConfident row u -> row = [a; b] -> (b <= a)%Q -> (u == 1 - a)%Q).
  { intros row u a b H -> Hab. inversion H as [r x H' | |]; subst. inversion H' as [r q x [I F] E| |]; subst. rewrite E.
    apply Forall_inv in F. destruct I as [<-|[<-|[]]]; [reflexivity|]. apply Qplus_comp; [reflexivity|]. apply Qopp_comp. apply Qle_antisym; auto. }
  assert (ONE : forall (U : list Z) score sel q x, best_batch U score 1 sel -> nth_error U q = Some x ->
     (forall r, (r < length U)%nat -> r <> q -> (score r < score q)%Q) -> sel = [x]).
  { intros U score sel q x (ps & ND & L & F & M) E G. destruct ps as [|r [|]]; try discriminate. inversion F as [|? y ? ? Hy F']; subst. inversion F'; subst.
    destruct (Nat.eq_dec r q) as [->|NE]; [congruence|]. exfalso.
    assert (r < length U)%nat by (apply nth_error_Some; congruence). specialize (G r ltac:(auto) NE).
    assert (q < length U)%nat by (apply nth_error_Some; congruence). specialize (M r q (or_introl eq_refl) ltac:(auto)).
    apply (Qlt_not_le _ _ G). apply M. intros [X|[]]. congruence. }
  split; unfold choose.
  - destruct (C47_density_weighted Z np (fun x => x) LeastConfident [0; 1; 2] 2 (map p [0; 1; 2]) (map (fun x => map (fun y => Qabs (at_ x - at_ y)) [0; 1; 2]) [0; 1; 2]) 1) as (sel & sc & E & _ & S & BB);
      auto; try discriminate; try (repeat constructor); try lia; [cbn; lia|].
    rewrite E. f_equal. apply (ONE _ _ _ 0%nat 0 BB eq_refl).
    destruct (S 0%nat _ eq_refl) as (u0 & U0 & S0). destruct (S 1%nat _ eq_refl) as (u1 & U1 & S1). destruct (S 2%nat _ eq_refl) as (u2 & U2 & S2).
    apply (LC _ _ _ _) with (2 := eq_refl) in U0; [|discriminate]. apply (LC _ _ _ _) with (2 := eq_refl) in U1; [|discriminate]. apply (LC _ _ _ _) with (2 := eq_refl) in U2; [|discriminate].
    rewrite U0 in S0. rewrite U1 in S1. rewrite U2 in S2. intros r R NE. destruct r as [|[|[|r]]]; [congruence| | |cbn in R; lia]; rewrite S0; [rewrite S1|rewrite S2]; reflexivity.
  - destruct (C47_density_weighted Z np (fun x => x) LeastConfident [0; 1] 2 (map p [0; 1]) (map (fun x => map (fun y => Qabs (at_ x - at_ y)) [0; 1]) [0; 1]) 1) as (sel & sc & E & _ & S & BB);
      auto; try discriminate; try (repeat constructor); try lia; [cbn; lia|].
    rewrite E. f_equal. apply (ONE _ _ _ 1%nat 1 BB eq_refl).
    destruct (S 0%nat _ eq_refl) as (u0 & U0 & S0). destruct (S 1%nat _ eq_refl) as (u1 & U1 & S1).
    apply (LC _ _ _ _) with (2 := eq_refl) in U0; [|discriminate]. apply (LC _ _ _ _) with (2 := eq_refl) in U1; [|discriminate].
    rewrite U0 in S0. rewrite U1 in S1. intros r R NE. destruct r as [|[|r]]; [|congruence|cbn in R; lia]. rewrite S0, S1. reflexivity.
Qed.
Print Assumptions C124_density_weighted_refuted.

(** ** Cases *)

Definition pred3 (x : Z) : list Q := match x with 5 => [9 # 10; 1 # 10]%Q | 6 => [6 # 10; 4 # 10]%Q | 7 => [2 # 10; 8 # 10]%Q | _ => [1; 0]%Q end.
Definition by_margin (U : list Z) (b : Z) : res (list Z) := snd (select_by_prediction_mat (np0 (fun x => x)) Margin U (Mat 2 (map pred3 U)) b).
Example C124_case : by_margin [5; 6; 7] 1 = Ok [6] /\ by_margin [7; 5; 6] 1 = Ok [6] /\ by_margin [5; 6; 7] 2 = Ok [7; 6] /\ by_margin [5; 7] 1 = Ok [7].
Proof. repeat split; reflexivity. Qed.
Example C124_case_numpy : numpy_ok (np0 (fun x => x)) /\ forall x, length (pred3 x) = 2%nat.
Proof. split; [apply np0_ok|]. intro x. unfold pred3. destruct x as [|[[[]|[]| ]|[[]|[]| ]| ]|]; reflexivity. Qed.
Lemma margin2 lg a b s : (b <= a)%Q -> uncertain lg Margin [a; b] s \/ uncertain lg Margin [b; a] s -> (s == b - a)%Q.
Proof.
  intros H U. assert (exists d, (top_gap [a; b] d \/ top_gap [b; a] d) /\ (s == - d)%Q) as (d & T & ->).
  { destruct U as [U|U]; inversion U; subst; eauto. }
  assert (exists x y, Permutation [a; b] [x; y] /\ (y <= x)%Q /\ (d == x - y)%Q) as (x & y & P & L & ->).
  { destruct T as [(x & y & rest & P & L & _ & D)|(x & y & rest & P & L & _ & D)]; pose proof (Permutation_length P) as Ln; destruct rest; try discriminate;
      exists x, y; repeat split; auto. transitivity [b; a]; auto. constructor. }
  apply Permutation_length_2_inv in P. destruct P as [E|E]; injection E as -> ->; [ring|]. assert (a == b)%Q by (apply Qle_antisym; auto). lra.
Qed.
Example C124_case_no_ties : no_ties (fun x y => exists s, uncertain (fun x => x) Margin (pred3 x) s /\ uncertain (fun x => x) Margin (pred3 y) s) [5; 6; 7].
Proof.
  assert (V : forall x s, In x [5; 6; 7] -> uncertain (fun x => x) Margin (pred3 x) s -> (s == match x with 5%Z => - (8 # 10) | 6%Z => - (2 # 10) | _ => - (6 # 10) end)%Q).
  { intros x s [<-|[<-|[<-|[]]]] U; cbn [pred3] in U.
    - rewrite (margin2 (fun x => x) (9 # 10) (1 # 10) s); [reflexivity|discriminate|now left].
    - rewrite (margin2 (fun x => x) (6 # 10) (4 # 10) s); [reflexivity|discriminate|now left].
    - rewrite (margin2 (fun x => x) (8 # 10) (2 # 10) s); [reflexivity|discriminate|now right]. }
  intros x y Ix Iy NE (s & Ux & Uy). pose proof (V x s Ix Ux) as A. rewrite (V y s Iy Uy) in A. clear - A Ix Iy NE.
  destruct Ix as [<-|[<-|[<-|[]]]], Iy as [<-|[<-|[<-|[]]]]; try congruence; discriminate A.
Qed.
