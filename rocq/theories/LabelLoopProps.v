(** Theorems about labelling a pool by hand. *)
From Verif Require Import Base BaseFacts IndexModel IndexSpec MLModel StateModel OracleModel RepoModel QueryModel QuerySpec QueryProofs QueryProps
  QueryNumpy BlindModel NoisyLoopSpec LabelLoopModel LabelLoopSpec LabelLoopProofs.
From Coq Require Import QArith.
Local Open Scope Z_scope.

(** ** The books *)
(** Whatever the labelling code does, the loop starts, and at its end the repository holds the first examples and then, in
    the order they were given, the instances labelled by hand, each with its features, the label given to it and its index;
    the strategy holds the same labels. If the loop ran to its end there are [n] of them, and the two collections say which
    instances have a label. It stops early in two ways: the pool is empty, or the labelling code raises. In the second case
    the instance it was shown is counted as labelled and is not in the pool any more, but no label of it is held anywhere. *)
Theorem C112_books : forall M np (k : learner vec M) ms trainer lbl X_lab y_lab X_unlab place n,
  numpy_ok np -> answers_rows k ms -> fit_data X_lab y_lab X_unlab place ->
  exists s o gs, label_main np k ms trainer lbl X_lab y_lab X_unlab place n = Ok (s, o) /\
    given_by lbl X_unlab gs /\
    mr_training (repo s) = (Some (X_lab ++ map g_x gs), map LNum (y_lab ++ map g_label gs), first_indexes X_unlab X_lab ++ map at_of gs) /\
    m_hist (repo s) = map (fun g => ([LNum (g_label g)], None, [at_of g])) gs /\ m_num (repo s) = List.length gs /\
    labels_with (place ++ y_lab) gs (own_y s) /\
    let agree := ids (lab s) (first_indexes X_unlab X_lab ++ map at_of gs) /\ ids (unl s) (unlabelled (List.length X_unlab) gs) in
    match o with
    | Finished => List.length gs = n /\ agree
    | Stopped e =>
        (e = IndexErr /\ List.length gs = List.length X_unlab /\ (List.length gs < n)%nat /\ agree) \/
        (exists i x, (List.length gs < n)%nat /\ nth_error X_unlab i = Some x /\ ~ In i (map g_at gs) /\ lbl (List.length gs) [x] = Err e /\
          ids (lab s) (first_indexes X_unlab X_lab ++ map at_of gs ++ [Z.of_nat i]) /\
          ids (unl s) (filter (fun z => negb (z =? Z.of_nat i)) (unlabelled (List.length X_unlab) gs)))
    end.
Proof.
  intros M np k ms trainer lbl X_lab y_lab X_unlab place n NP AR FD.
  destruct (from_start np k ms trainer lbl X_lab y_lab X_unlab place NP AR FD n) as (s & o & gs & E & [Gv As Wi In_ Ft Yy Id Xx Hi Nm Ow Md] & En).
  exists s, o, gs. split; [exact E|]. split; [exact Gv|]. split; [unfold mr_training; rewrite In_, Yy, Id, Xx; reflexivity|].
  split; [exact Hi|]. split; [exact Nm|]. split; [exact Ow|]. cbv zeta. destruct o as [|e]; cbn [ended] in En.
  - destruct En as [L [? ? ? ?]]. auto.
  - destruct En as [(-> & L & Ln & [? ? ? ?])|(i & x & L & _ & N & Ex & El & I1 & I2)].
    + left. rewrite L. auto.
    + right. exists i, x. auto 10.
Qed.
Print Assumptions C112_books.

(** ** How many rounds *)
(** With labelling code that never raises the loop runs to its end exactly when it has no more rounds than the pool has
    instances; with more rounds it labels the whole pool and then stops by IndexError. *)
Theorem C112_rounds : forall M np (k : learner vec M) ms trainer lbl X_lab y_lab X_unlab place n,
  numpy_ok np -> answers_rows k ms -> fit_data X_lab y_lab X_unlab place -> (forall t x, exists v, lbl t x = Ok v) ->
  exists s o, label_main np k ms trainer lbl X_lab y_lab X_unlab place n = Ok (s, o) /\
    m_num (repo s) = Nat.min n (List.length X_unlab) /\
    o = (if (n <=? List.length X_unlab)%nat then Finished else Stopped IndexErr) /\
    forall i, (i < List.length X_unlab)%nat -> (In (Z.of_nat i) (m_idx (repo s)) <-> In (KInt (Z.of_nat i)) (elems (lab s))) /\
      (In (Z.of_nat i) (m_idx (repo s)) <-> ~ In (KInt (Z.of_nat i)) (elems (unl s))).
Proof.
  intros M np k ms trainer lbl X_lab y_lab X_unlab place n NP AR FD NR.
  destruct (from_start np k ms trainer lbl X_lab y_lab X_unlab place NP AR FD n) as (s & o & gs & E & [Gv As Wi In_ Ft Yy Id Xx Hi Nm Ow Md] & En).
  exists s, o. split; [exact E|].
  pose proof (unlabelled_len (List.length X_unlab) gs (proj1 Gv) (given_bounds lbl X_unlab gs Gv)) as LEN.
  assert (C : sets X_lab X_unlab gs s /\ List.length gs = Nat.min n (List.length X_unlab) /\ o = (if (n <=? List.length X_unlab)%nat then Finished else Stopped IndexErr)).
  { destruct o as [|e]; cbn [ended] in En.
    - destruct En as [L Se]. split; [exact Se|]. split; [lia|]. destruct (Nat.leb_spec n (List.length X_unlab)); [reflexivity|lia].
    - destruct En as [(-> & L & Ln & Se)|(i & x & L & _ & _ & _ & El & _)].
      + split; [exact Se|]. split; [lia|]. destruct (Nat.leb_spec n (List.length X_unlab)); [lia|reflexivity].
      + destruct (NR (List.length gs) [x]) as [v Ev]. congruence. }
  destruct C as ([_ IL _ IU] & L & O). split; [congruence|]. split; [exact O|]. intros i B. unfold ids in IL, IU. rewrite IL, IU, Id.
  assert (KI : forall l, In (KInt (Z.of_nat i)) (map KInt l) <-> In (Z.of_nat i) l).
  { intro l. rewrite in_map_iff. split; [intros (z & Ez & H); injection Ez as ->; exact H|intro H; eauto]. }
  rewrite !KI. split; [reflexivity|]. rewrite unlabelled_in, in_app_iff. split.
  - intros H (j & Ej & _ & N). apply Nat2Z.inj in Ej. subst j. destruct H as [H|H]; apply in_map_iff in H.
    + destruct H as (j & Ej & _). lia.
    + destruct H as (g & Eg & I). apply N. unfold at_of in Eg. apply Nat2Z.inj in Eg. rewrite <- Eg. apply in_map, I.
  - intro H. right. destruct (in_dec Nat.eq_dec i (map g_at gs)) as [I|I].
    + apply in_map_iff in I. destruct I as (g & <- & I). apply in_map_iff. exists g. auto.
    + elim H. exists i. auto.
Qed.
Print Assumptions C112_rounds.

(** ** What is asked *)
(** The loop trains the model on the first examples in every round. So what is asked in round [t] is what the strategy
    chooses from the instances without a label by a model of the first examples only: neither the labels given by hand nor
    the labels the strategy holds, whatever they are ([y'], [L']), have a part in it. *)
Theorem C112_asked : forall M np (k : learner vec M) ms trainer lbl X_lab y_lab X_unlab place n s o,
  numpy_ok np -> answers_rows k ms -> fit_data X_lab y_lab X_unlab place ->
  label_main np k ms trainer lbl X_lab y_lab X_unlab place n = Ok (s, o) ->
  exists gs, given_by lbl X_unlab gs /\ m_idx (repo s) = first_indexes X_unlab X_lab ++ map at_of gs /\
    mdl s = trainer (List.length gs) X_lab y_lab /\
    forall t g, nth_error gs t = Some g -> forall y' L',
      uncertainty_select np k (X_unlab ++ X_lab) y' ms (Some (trainer t X_lab y_lab)) L' (unlabelled (List.length X_unlab) (firstn t gs)) 1 = Ok [at_of g].
Proof.
  intros M np k ms trainer lbl X_lab y_lab X_unlab place n s o NP AR FD E.
  destruct (from_start np k ms trainer lbl X_lab y_lab X_unlab place NP AR FD n) as (s' & o' & gs & E' & [Gv As Wi In_ Ft Yy Id Xx Hi Nm Ow Md] & _).
  rewrite E in E'. injection E' as <- <-. exists gs. auto.
Qed.
Print Assumptions C112_asked.

(** Two people who label the same pool, and never fail to give a label, are asked for the same instances in the same order
    and end with the same model, whatever labels they give. *)
Theorem C112_same_questions : forall M np (k : learner vec M) ms trainer lbl1 lbl2 X_lab y_lab X_unlab place1 place2 n s1 o1 s2 o2,
  numpy_ok np -> answers_rows k ms -> fit_data X_lab y_lab X_unlab place1 -> fit_data X_lab y_lab X_unlab place2 ->
  (forall t x, exists v, lbl1 t x = Ok v) -> (forall t x, exists v, lbl2 t x = Ok v) ->
  label_main np k ms trainer lbl1 X_lab y_lab X_unlab place1 n = Ok (s1, o1) ->
  label_main np k ms trainer lbl2 X_lab y_lab X_unlab place2 n = Ok (s2, o2) ->
  o1 = o2 /\ m_idx (repo s1) = m_idx (repo s2) /\ m_X (repo s1) = m_X (repo s2) /\ mdl s1 = mdl s2.
Proof.
  intros M np k ms trainer lbl1 lbl2 X_lab y_lab X_unlab place1 place2 n s1 o1 s2 o2 NP AR FD1 FD2 N1 N2 E1 E2.
  destruct (C112_rounds M np k ms trainer lbl1 X_lab y_lab X_unlab place1 n NP AR FD1 N1) as (s & o & E & C1 & D1 & _). rewrite E1 in E. injection E as <- <-.
  destruct (C112_rounds M np k ms trainer lbl2 X_lab y_lab X_unlab place2 n NP AR FD2 N2) as (s & o & E & C2 & D2 & _). rewrite E2 in E. injection E as <- <-.
  destruct (from_start np k ms trainer lbl1 X_lab y_lab X_unlab place1 NP AR FD1 n) as (s & o & g1 & E & W1 & _). rewrite E1 in E. injection E as <- <-.
  destruct (from_start np k ms trainer lbl2 X_lab y_lab X_unlab place2 NP AR FD2 n) as (s & o & g2 & E & W2 & _). rewrite E2 in E. injection E as <- <-.
  assert (L : List.length g1 = List.length g2) by (rewrite <- (w_num _ _ _ _ _ _ _ _ _ _ _ W1), <- (w_num _ _ _ _ _ _ _ _ _ _ _ W2), C1, C2; reflexivity).
  pose proof (asked_same np k ms trainer X_lab y_lab X_unlab g1 g2 L (w_asked _ _ _ _ _ _ _ _ _ _ _ W1) (w_asked _ _ _ _ _ _ _ _ _ _ _ W2)) as S.
  split; [congruence|].
  destruct W1 as [[_ G1] _ _ _ _ _ I1 X1 _ _ _ M1], W2 as [[_ G2] _ _ _ _ _ I2 X2 _ _ _ M2]. split; [|split].
  - rewrite I1, I2. f_equal. unfold at_of. rewrite <- !(map_map g_at Z.of_nat), S. reflexivity.
  - rewrite X1, X2. f_equal.
    assert (G1' : forall g, In g g1 -> nth_error X_unlab (g_at g) = Some (g_x g)) by (intros g H; apply In_nth_error in H; destruct H as [t H]; apply (G1 t g H)).
    assert (G2' : forall g, In g g2 -> nth_error X_unlab (g_at g) = Some (g_x g)) by (intros g H; apply In_nth_error in H; destruct H as [t H]; apply (G2 t g H)).
    clear - S G1' G2'. revert g2 S G2'. induction g1 as [|a l IH]; intros [|b l2] S G2'; try discriminate; [reflexivity|].
    injection S as Sa S. cbn. rewrite (IH (fun g H => G1' g (or_intror H)) l2 S (fun g H => G2' g (or_intror H))). f_equal.
    pose proof (G1' a (or_introl eq_refl)) as A. pose proof (G2' b (or_introl eq_refl)) as B. rewrite Sa in A. congruence.
  - rewrite M1, M2, L. reflexivity.
Qed.
Print Assumptions C112_same_questions.

(** ** A label that is not given *)
(** "Every instance counted as labelled has a label" is false when the labelling code raises before the pool is empty. *)
Theorem C112_lost : forall M np (k : learner vec M) ms trainer lbl X_lab y_lab X_unlab place n s e,
  numpy_ok np -> answers_rows k ms -> fit_data X_lab y_lab X_unlab place ->
  label_main np k ms trainer lbl X_lab y_lab X_unlab place n = Ok (s, Stopped e) -> (m_num (repo s) < List.length X_unlab)%nat ->
  exists i, (i < List.length X_unlab)%nat /\ In (KInt (Z.of_nat i)) (elems (lab s)) /\ ~ In (KInt (Z.of_nat i)) (elems (unl s)) /\
    ~ In (Z.of_nat i) (m_idx (repo s)) /\ nth_error (own_y s) i = nth_error place i.
Proof.
  intros M np k ms trainer lbl X_lab y_lab X_unlab place n s e NP AR FD E H.
  destruct (from_start np k ms trainer lbl X_lab y_lab X_unlab place NP AR FD n) as (s' & o & gs & E' & [Gv As Wi In_ Ft Yy Id Xx Hi Nm Ow Md] & En).
  rewrite E in E'. injection E' as <- <-. cbn [ended] in En. destruct En as [(_ & L & _)|(i & x & L & B & N & Ex & El & I1 & I2)]; [lia|].
  exists i. split; [exact B|]. unfold ids in I1, I2. rewrite I1, I2. split; [|split; [|split]].
  - apply in_map. rewrite !in_app_iff. right. right. now left.
  - intro J. apply in_map_iff in J. destruct J as (z & Ez & J). injection Ez as ->. apply filter_In in J. destruct J as [_ J]. rewrite Z.eqb_refl in J. discriminate.
  - rewrite Id. apply first_not; assumption.
  - destruct Ow as (_ & _ & O). rewrite O by exact N. apply nth_error_app1. destruct FD as (_ & _ & Lp & _). rewrite Lp. exact B.
Qed.
Print Assumptions C112_lost.

(** ** A case *)
(** A pool of four with two features, two first examples; the model is a number, and an instance is the more uncertain the nearer its first feature is to 5. *)
Definition ex_k : learner vec nat :=
  {| fit := fun _ _ => Ok 0%nat; refit := fun m _ _ => Ok m; bag := fun m _ _ => Ok [m];
     outputs := fun _ xs => Mat 2 (map (fun x : vec => let p := (inject_Z (hd 0%Z x) / 10)%Q in [p; 1 - p]%Q) xs);
     proba := fun _ _ => []; classify := fun _ _ => [] |}.
Definition ex_lab : list vec := [[0; 1]; [10; 1]].
Definition ex_pool : list vec := [[1; 7]; [6; 7]; [9; 7]; [3; 7]].
Definition ex_trainer (t : nat) (_ : list vec) (_ : list Z) : nat := t.
Lemma ex_answers : answers_rows ex_k LeastConfident.
Proof.
  intros m xs. exists 2%nat. eexists. split; [reflexivity|]. split; [lia|]. rewrite map_length. split; [reflexivity|].
  apply Forall_forall. intros r H. apply in_map_iff in H. destruct H as (x & <- & _). reflexivity.
Qed.
Lemma ex_fit : fit_data ex_lab [0; 1] ex_pool [-1; -1; -1; -1].
Proof.
  split; [discriminate|]. split; [reflexivity|]. split; [reflexivity|]. exists 2%nat. split; [lia|].
  intros x [H|H]; repeat (destruct H as [<-|H]; [reflexivity|]); destruct H.
Qed.
(** The instance nearest to 5 first, then the next; the labels 1 and 2 are in the repository and with the strategy. *)
Example C112_case : numpy_ok (np0 lg0) /\ answers_rows ex_k LeastConfident /\ fit_data ex_lab [0; 1] ex_pool [-1; -1; -1; -1] /\
  match label_main (np0 lg0) ex_k LeastConfident ex_trainer (fun t _ => Ok (Z.of_nat t + 1)) ex_lab [0; 1] ex_pool [-1; -1; -1; -1] 2 with
  | Ok (s, o) => o = Finished /\ m_idx (repo s) = [4; 5; 1; 3] /\ m_y (repo s) = map LNum [0; 1; 1; 2] /\ own_y s = [-1; 1; -1; 2; 0; 1] /\
      m_X (repo s) = [[0; 1]; [10; 1]; [6; 7]; [3; 7]] /\ as_ints (lab s) = [4; 5; 1; 3] /\ as_ints (unl s) = [0; 2]
  | Err _ => False
  end.
Proof. split; [apply np0_ok|]. split; [apply ex_answers|]. split; [apply ex_fit|]. vm_compute. repeat split. Qed.
(** The person who labels gives up in the second round: instance 3 counts as labelled, and has no label. *)
Example C112_lost_case :
  match label_main (np0 lg0) ex_k LeastConfident ex_trainer (fun t _ => if Nat.eqb t 1 then Err ValueErr else Ok 1) ex_lab [0; 1] ex_pool [-1; -1; -1; -1] 3 with
  | Ok (s, o) => o = Stopped ValueErr /\ m_idx (repo s) = [4; 5; 1] /\ m_num (repo s) = 1%nat /\ own_y s = [-1; 1; -1; -1; 0; 1] /\
      as_ints (lab s) = [4; 5; 1; 3] /\ as_ints (unl s) = [0; 2]
  | Err _ => False
  end.
Proof. vm_compute. repeat split. Qed.
(** Five rounds for a pool of four. *)
Example C112_rounds_case :
  match label_main (np0 lg0) ex_k LeastConfident ex_trainer (fun t _ => Ok 1) ex_lab [0; 1] ex_pool [-1; -1; -1; -1] 5 with
  | Ok (s, o) => o = Stopped IndexErr /\ m_idx (repo s) = [4; 5; 1; 3; 0; 2] \/ m_idx (repo s) = [4; 5; 1; 3; 2; 0]
  | Err _ => False
  end.
Proof. vm_compute. auto. Qed.
