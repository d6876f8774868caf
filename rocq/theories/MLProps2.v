(** Property C06, continued: the label size read off lists of labels; refused arguments. *)
From Verif Require Import Base BaseFacts MLModel MLSpec MLProofs MLProofs2 MLProps.
Local Open Scope Z_scope.

(** The list of labels an index carries. *)
Definition carries (x : mlidx) (js : list Z) : Prop := exists i, x = IManyT i js \/ x = IManyL i js.

(** With whole instances and lists of labels, the label size is found exactly when all lists have the same
    length: it is the largest label plus one. *)
Theorem C06_inferred_from_lists : forall chk l m,
  (forall x, In x l -> (exists i, x = IOne i) \/ exists js, carries x js) ->
  (infer_label_size chk l = Ok m <->
   (exists n, forall x js, In x l -> carries x js -> List.length js = n) /\
   (exists x js j, In x l /\ carries x js /\ In j js /\ m = j + 1) /\
   (forall x js j, In x l -> carries x js -> In j js -> j < m)).
Proof.
  intros chk l m H.
  set (ls := flat_map (fun x => match x with IManyT _ js | IManyL _ js => [js] | _ => [] end) l).
  assert (Sc : forall js, In js ls <-> exists x, In x l /\ carries x js).
  { intro js. unfold ls. rewrite in_flat_map. split.
    - intros (x & Hx & Hj). exists x. split; auto. destruct x; cbn in Hj; try contradiction; destruct Hj as [->|[]]; eexists; eauto.
    - intros (x & Hx & i & [->| ->]); eexists; (split; [exact Hx|]); cbn; auto. }
  assert (Se : seconds l = map inr ls).
  { unfold seconds, ls. clear Sc ls. induction l as [|x l IH]; cbn [flat_map]; auto.
    rewrite map_app, <- IH by (intros; apply H; now right).
    destruct (H x (or_introl eq_refl)) as [[i ->]|(js & i & [->| ->])]; reflexivity. }
  assert (E2 : existsb len_is_2 l = match ls with [] => false | _ => true end).
  { unfold ls. clear Sc Se ls. induction l as [|x l IH]; cbn; auto. rewrite IH by (intros; apply H; now right).
    destruct (H x (or_introl eq_refl)) as [[i ->]|(js & i & [->| ->])]; reflexivity. }
  assert (Res : (if existsb len_is_2 l then m0 <- np_max_seconds (seconds l);; Ok (m0 + 1)
           else if forallb len_is_1 l then Err GenericErr else Err ValueErr) = Ok m <->
         (exists n, forall js, In js ls -> List.length js = n) /\
         (exists js j, In js ls /\ In j js /\ m = j + 1) /\ (forall js j, In js ls -> In j js -> j < m)).
  { rewrite E2, Se. unfold np_max_seconds.
    assert (A : flat_map (fun a : Z + list Z => match a with inl j => [j] | inr _ => [] end) (map inr ls) = []).
    { clear. induction ls; simpl; congruence. }
    assert (B : flat_map (fun a : Z + list Z => match a with inl _ => [] | inr js => [List.length js] end) (map inr ls) = map (@List.length Z) ls).
    { clear. induction ls; simpl; congruence. }
    assert (C : flat_map (fun a : Z + list Z => match a with inl _ => [] | inr js => js end) (map inr ls) = List.concat ls).
    { clear. induction ls; simpl; congruence. }
    rewrite A, B, C. clear A B C. destruct ls as [|js0 ls0] eqn:El.
    - split; [destruct (forallb _ _); discriminate|]. intros (_ & (js & j & [] & _) & _).
    - cbn [map]. rewrite <- El.
      assert (F : forallb (Nat.eqb (List.length js0)) (map (@List.length Z) ls0) = true <-> exists n, forall js, In js ls -> List.length js = n).
      { rewrite forallb_forall, El. split.
        - intro K. exists (List.length js0). intros js [<-|Hj]; auto. symmetry. apply Nat.eqb_eq, K. now apply in_map.
        - intros [n K] k Hk. apply in_map_iff in Hk. destruct Hk as (js & <- & Hj). apply Nat.eqb_eq.
          rewrite (K js0), (K js); auto; [now right|now left]. }
      destruct (forallb _ _) eqn:Ef.
      + assert (Ic : forall j, In j (List.concat ls) <-> exists js, In js ls /\ In j js) by (intro; apply in_concat).
        destruct (List.concat ls) as [|x s]; cbn [zmax_list bind].
        * split; [discriminate|]. intros (_ & (js & j & Hjs & Hj & _) & _). destruct (proj2 (Ic j) (ex_intro _ js (conj Hjs Hj))).
        * destruct (fold_max_spec s x) as (M1 & M2 & M3).
          assert (I' : In (fold_left Z.max s x) (x :: s)) by (destruct M3 as [->|M3]; cbn; auto). split.
          -- intro E. injection E as <-. split; [now apply F|]. split.
             ++ apply Ic in I'. destruct I' as (js & K1 & K2). eauto.
             ++ intros js j K1 K2. assert (I : In j (x :: s)) by (apply Ic; eauto). destruct I as [->|I]; [lia|]. specialize (M2 j I). lia.
          -- intros (_ & (js & j & K1 & K2 & ->) & U). f_equal. f_equal. assert (I : In j (x :: s)) by (apply Ic; eauto).
             apply Ic in I'. destruct I' as (js' & K1' & K2'). specialize (U _ _ K1' K2').
             assert (j <= fold_left Z.max s x) by (destruct I as [->|I]; [lia|auto]). lia.
      + split; [discriminate|]. intros (K & _). apply F in K. discriminate. }
  assert (Res' : (if existsb len_is_2 l then m0 <- np_max_seconds (seconds l);; Ok (m0 + 1)
           else if forallb len_is_1 l then Err GenericErr else Err ValueErr) = Ok m <->
     (exists n, forall x js, In x l -> carries x js -> List.length js = n) /\
     (exists x js j, In x l /\ carries x js /\ In j js /\ m = j + 1) /\
     (forall x js j, In x l -> carries x js -> In j js -> j < m)).
  { rewrite Res. split; intros ([n K1] & (K2 & K3)); (split; [exists n|]).
    - intros x js Hx Hc. apply K1, Sc. eauto.
    - destruct K2 as (js & j & Hj & Hi & ->). apply Sc in Hj. destruct Hj as (x & Hx & Hc). split; [exists x, js, j; auto|].
      intros x' js' j' Hx' Hc' Hi'. apply (K3 js'); auto. apply Sc. eauto.
    - intros js Hj. apply Sc in Hj. destruct Hj as (x & Hx & Hc). eauto.
    - destruct K2 as (x & js & j & Hx & Hc & Hi & ->). split; [exists js, j; split; [apply Sc; eauto|auto]|].
      intros js' j' Hj' Hi'. apply Sc in Hj'. destruct Hj' as (x' & Hx' & Hc'). eauto. }
  unfold infer_label_size. destruct chk; [|exact Res']. destruct l as [|x l]; [|exact Res'].
  cbn [check_index bind]. split; [discriminate|]. intros (_ & (x & js & j & [] & _) & _).
Qed.
Print Assumptions C06_inferred_from_lists.

(** Single labels and lists of labels in one list are refused. *)
Theorem C06_inferred_mixed : forall chk l i j x js, In (IPair i j) l -> In x l -> carries x js ->
  infer_label_size chk l = Err TypeErr.
Proof.
  intros chk l i j x js H1 H2 H3. unfold infer_label_size.
  assert (N : (if chk then check_index l else Ok tt) = Ok tt) by (destruct chk, l; try reflexivity; destruct H1). rewrite N. cbn [bind].
  assert (E : existsb len_is_2 l = true) by (apply existsb_exists; exists (IPair i j); auto). rewrite E. unfold np_max_seconds.
  destruct (flat_map (fun a : Z + list Z => match a with inl j => [j] | inr _ => [] end) (seconds l)) as [|a ra] eqn:Ea.
  - exfalso. assert (K : In j []); [|destruct K]. rewrite <- Ea. apply in_flat_map. exists (inl j). split; [|now left].
    unfold seconds. apply in_flat_map. exists (IPair i j). split; [auto|now left].
  - destruct (flat_map (fun a : Z + list Z => match a with inl _ => [] | inr js => [List.length js] end) (seconds l)) as [|b rb] eqn:Eb; [|reflexivity].
    exfalso. assert (K : In (List.length js) []); [|destruct K]. rewrite <- Eb. apply in_flat_map. exists (inr js). split; [|now left].
    unfold seconds. apply in_flat_map. exists x. split; auto. destruct H3 as (i' & [->| ->]); now left.
Qed.
Print Assumptions C06_inferred_mixed.

(** Whole instances only: the label size cannot be found. *)
Theorem C06_inferred_whole : forall chk l, (forall x, In x l -> exists i, x = IOne i) -> (chk = true -> l <> []) ->
  infer_label_size chk l = Err GenericErr.
Proof.
  intros chk l H N. unfold infer_label_size.
  assert (C : (if chk then check_index l else Ok tt) = Ok tt) by (destruct chk, l; try reflexivity; now destruct (N eq_refl)).
  rewrite C. cbn [bind]. clear C N.
  assert (E : existsb len_is_2 l = false /\ forallb len_is_1 l = true).
  { induction l as [|x l IH]; cbn; auto. destruct (H x (or_introl eq_refl)) as [i ->]. cbn. apply IH. intros; apply H; now right. }
  destruct E as [-> ->]. reflexivity.
Qed.
Print Assumptions C06_inferred_whole.

(** Integration refuses what flattening refuses: no index, or a label size that is not positive. *)
Theorem C06_integrate_refused : forall chk m l,
  (integrate_idx true (Some m) [] = Err TypeErr) /\
  (m <= 0 -> (chk = true -> l <> []) -> integrate_idx chk (Some m) l = Err AssertErr /\ flatten_idx chk (Some m) l = Err AssertErr).
Proof.
  intros chk m l. split; [reflexivity|]. intros Hm N.
  assert (C : (if chk then check_index l else Ok tt) = Ok tt) by (destruct chk, l; try reflexivity; now destruct (N eq_refl)).
  unfold integrate_idx, flatten_idx. rewrite C. cbn [bind].
  assert (E : 0 <? m = false) by (apply Z.ltb_ge; lia). rewrite E. split; reflexivity.
Qed.
Print Assumptions C06_integrate_refused.

Example C06_lists_applies :
  infer_label_size true [IOne 3; IManyL 1 [0; 4]; IManyT 2 [1; 2]] = Ok 5 /\
  infer_label_size true [IManyL 1 [0; 4]; IManyL 2 [1]] = Err TypeErr /\
  infer_label_size true [IManyL 1 [0; 4]; IPair 2 1] = Err TypeErr /\
  integrate_idx true (Some 0) [IPair 2 1] = Err AssertErr.
Proof. repeat split. Qed.

(** A collection of feature indexes is constructed from the same lists, with the same contents; every refusal is a plain Exception. *)
Theorem C05_feature_construction : forall l m, l <> [] -> 0 < m ->
  (forallb (scalar_ok m) l = true ->
   exists c w, feature_init (MList l) (Some m) = Ok (c, w) /\ ml_reachable m c /\
     NoDup (pairs c) /\ (forall p, In p (pairs c) <-> exists x, In x l /\ denotes m x p) /\
     (w = [] <-> NoDup (flat_map (denoted m) l))) /\
  (forallb (scalar_ok m) l = false -> feature_init (MList l) (Some m) = Err GenericErr) /\
  (forall fs e, feature_init (MList l) fs = Err e -> e = GenericErr).
Proof.
  intros l m Hl Hm. destruct (C05_construction l m Hl Hm) as [A B]. unfold feature_init. split; [|split].
  - intro S. destruct (A S) as (c & w & E & H). rewrite E. eauto.
  - intro S. now rewrite (B S).
  - intros fs e. destruct (ml_init (MList l) fs); congruence.
Qed.
Print Assumptions C05_feature_construction.
Example C05_feature_applies :
  feature_init (MList [IPair 0 1; IManyT 1 [0; 2]]) (Some 3) =
    Ok ({| mcont := [IPair 0 1; IPair 1 0; IPair 1 2]; is_set := true; lsize := Some 3 |}, []) /\
  feature_init (MList [IPair 0 3]) (Some 3) = Err GenericErr.
Proof. split; reflexivity. Qed.
