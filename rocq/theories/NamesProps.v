(** The names and the order of the classes, of the committee and of the pool do not matter: C127. *)
From Verif Require Import Base BaseFacts IndexModel MLModel SplitModel MLProofs3 MiscModel MiscSpec MiscProofs MiscProps
  QueryModel QuerySpec QueryProofs QueryProofs2 QueryProofs3 QueryProofs4 QueryProofs5 QueryProps QueryProps2 QueryNumpy RationalSpec RationalProofs NamesSpec.
From Coq Require Import QArith Qabs Lqa.
Local Open Scope Z_scope.

Definition scored (choose : list Z -> Z -> res (list Z)) (s : Z -> Q) : Prop :=
  forall U b, NoDup U -> 0 < b -> exists sel, choose U b = Ok sel /\ top s U b sel.

Lemma top_swapped s s' U U' b sel sel' : (forall x, s x == s' x)%Q -> Permutation U U' -> top s U b sel -> top s' U' b sel' ->
  length sel = length sel' /\ swapped (fun x y => (s x == s y)%Q) sel sel' /\ swapped (fun x y => (s x == s y)%Q) sel' sel.
Proof.
  intros E P (N & I & L & T) (N' & I' & L' & T').
  assert (LL : length sel = length sel') by (pose proof (Permutation_length P); lia). split; [exact LL|].
  assert (K : forall (l l' : list Z), NoDup l -> NoDup l' -> length l = length l' -> forall x, In x l -> ~ In x l' -> exists y, In y l' /\ ~ In y l).
  { intros l l' Nl Nl' Ll x X X'. destruct (Exists_dec (fun y => ~ In y l) l') as [Y|Y].
    - intro y. destruct (in_dec Z.eq_dec y l); [right|left]; tauto.
    - apply Exists_exists in Y. destruct Y as (y & ? & ?). eauto.
    - exfalso. apply X'. refine (NoDup_length_incl (l' := l) Nl' _ _ x X); [lia|].
      intros y J. destruct (in_dec Z.eq_dec y l) as [|H]; auto. exfalso. apply Y, Exists_exists. eauto. }
  assert (B : forall x, In x U' -> In x U) by (intros x; apply Permutation_in; now symmetry).
  assert (B' : forall x, In x U -> In x U') by (intros x; now apply Permutation_in).
  split; intros x X X'.
  - destruct (K sel sel' N N' LL x X X') as (y & Y & Y'). exists y. split; [auto|]. split; [auto|]. apply Qle_antisym.
    + rewrite (E x), (E y). apply T'; auto.
    + apply T; auto.
  - destruct (K sel' sel N' N (eq_sym LL) x X X') as (y & Y & Y'). exists y. split; [auto|]. split; [auto|]. apply Qle_antisym.
    + apply T; auto.
    + rewrite (E x), (E y). apply T'; auto.
Qed.

Lemma scored_interchangeable choose choose' s s' (tied : Z -> Z -> Prop) : scored choose s -> scored choose' s' -> (forall x, s x == s' x)%Q ->
  (forall x y, (s x == s y)%Q -> tied x y) -> interchangeable choose choose' tied.
Proof.
  intros C C' E T U U' b N P B. destruct (C U b N B) as (sel & S & H). destruct (C' U' b (Permutation_NoDup P N) B) as (sel' & S' & H').
  exists sel, sel'. split; [exact S|]. split; [exact S'|]. destruct (top_swapped s s' U U' b sel sel' E P H H') as (L & W & W').
  split; [exact L|]. split; intros x X Y; [destruct (W x X Y) as (y & ? & ? & ?)|destruct (W' x X Y) as (y & ? & ? & ?)]; exists y; auto.
Qed.

Lemma uncertain_same lg m row row' x : Permutation row row' -> uncertain lg m row x -> uncertain lg m row' x.
Proof.
  intros P H. inversion H as [? p ? (I & F) E|? d ? (a & b & rest & Q' & R) E|? ? E]; subst.
  - apply u_least with (p := p); auto. split; [eapply Permutation_in; eauto|]. rewrite Forall_forall in *. intros y J. apply F. eapply Permutation_in; [symmetry; exact P|exact J].
  - apply u_margin with (d := d); auto. exists a, b, rest. split; [now rewrite <- P|exact R].
  - apply u_entropy. rewrite E. apply Qopp_comp. apply total_perm. now apply Permutation_map.
Qed.

Lemma uncertain_one lg m row x y : uncertain lg m row x -> uncertain lg m row y -> (x == y)%Q.
Proof.
  intros H H'. inversion H; subst; inversion H'; subst.
  - rewrite H1, H3. rewrite (largest_unique row p p0); auto. reflexivity.
  - rewrite H1, H3. rewrite (top_gap_unique row d d0); auto. reflexivity.
  - rewrite H0, H1. reflexivity.
Qed.

Lemma uncertain_ext lg m row x y : (x == y)%Q -> uncertain lg m row x -> uncertain lg m row y.
Proof. intros E H. inversion H; subst; econstructor; eauto; rewrite <- E; assumption. Qed.

Lemma uncertainty_scored np m p cols : numpy_ok np -> m <> Boundary -> (2 <= cols)%nat -> (forall x, length (p x) = cols) ->
  exists s, (forall x, uncertain (log np) m (p x) (s x)) /\ scored (fun U b => snd (select_by_prediction_mat np m U (Mat cols (map p U)) b)) s.
Proof.
  intros NP NB C P.
  assert (exists s, forall x, uncertain (log np) m (p x) (s x)) as (s & Us).
  { destruct m; [| | |congruence].
    - exists (fun x => match least_confident_score np cols (p x) with Ok v => v | Err _ => 0%Q end).
      intro x; destruct (least_ok np (p x) cols NP (P x) ltac:(lia)) as (v & q & -> & LG & ->). econstructor; eauto. reflexivity.
    - exists (fun x => match margin_score np cols (p x) with Ok v => v | Err _ => 0%Q end).
      intro x; destruct (margin_ok np (p x) cols NP (P x) C) as (v & -> & T). econstructor; eauto. ring.
    - exists (fun x => entropy np (map clip (p x))). intro x. apply entropy_uncertain. }
  exists s. split; [exact Us|]. intros U b N B.
  destruct (C47_uncertainty Z np m U cols (map p U) b NP NB C) as (sel & E & H); [|apply map_length|exact B|].
  { apply Forall_forall. intros r I. apply in_map_iff in I. destruct I as (x & <- & _). apply P. }
  exists sel. split; [exact E|]. destruct (Z.leb_spec (Z.of_nat (length U)) b) as [W|W]; [subst; now apply whole_top|].
  destruct H as (score & S & BB). refine (best_top s U b sel score N _ _ BB); [lia|].
  intros i x J. exact (uncertain_one _ _ _ _ _ (S i (p x) (map_nth_error p i U J)) (Us x)).
Qed.

(** Uncertainty sampling, where the models predict [p x] and [p' x] for instance [x]: each row may list its classes in
    another order. *)
Theorem C127_classes : forall np np' m p p' cols,
  numpy_ok np -> numpy_ok np' -> log np = log np' -> m <> Boundary -> (2 <= cols)%nat -> (forall x, length (p x) = cols) ->
  (forall x, Permutation (p x) (p' x)) ->
  interchangeable (fun U b => snd (select_by_prediction_mat np m U (Mat cols (map p U)) b))
                  (fun U b => snd (select_by_prediction_mat np' m U (Mat cols (map p' U)) b))
                  (fun x y => exists s, uncertain (log np) m (p x) s /\ uncertain (log np) m (p y) s).
Proof.
  intros np np' m p p' cols NP NP' LG NB C L P.
  destruct (uncertainty_scored np m p cols NP NB C L) as (s & Us & S).
  destruct (uncertainty_scored np' m p' cols NP' NB C) as (s' & Us' & S'). { intro x. rewrite <- (L x). apply Permutation_length. now symmetry. }
  apply scored_interchangeable with (s := s) (s' := s'); auto.
  - intro x. eapply uncertain_one; [apply Us|]. eapply uncertain_same; [symmetry; apply P|]. rewrite LG. apply Us'.
  - intros x y E. exists (s y). split; [|apply Us]. eapply uncertain_ext; [exact E|apply Us].
Qed.
Print Assumptions C127_classes.

(** The distance to the decision boundary: exchanging the two classes changes the signs, and nothing else. *)
Theorem C127_boundary : forall np np' d d', numpy_ok np -> numpy_ok np' -> (forall x, d' x == d x \/ d' x == - d x)%Q ->
  interchangeable (fun U b => snd (select_by_prediction_mat np Boundary U (Vec (map d U)) b))
                  (fun U b => snd (select_by_prediction_mat np' Boundary U (Vec (map d' U)) b))
                  (fun x y => (Qabs (d x) == Qabs (d y))%Q).
Proof.
  assert (K : forall np d, numpy_ok np -> scored (fun U b => snd (select_by_prediction_mat np Boundary U (Vec (map d U)) b)) (fun x => (- Qabs (d x))%Q)).
  { intros np d NP U b N B. destruct (C47_boundary Z np U (map d U) b _ NP (or_introl eq_refl) ltac:(apply map_length) B) as (sel & E & T).
    rewrite E. exists sel. split; [reflexivity|]. destruct (Z.leb_spec (Z.of_nat (length U)) b) as [W|W]; [subst; now apply whole_top|].
    refine (best_top _ U b sel _ N _ _ T); [lia|]. intros i x E'. cbn beta. rewrite (nth_map_score d U i x E'). reflexivity. }
  intros np np' d d' NP NP' H. apply scored_interchangeable with (s := fun x => (- Qabs (d x))%Q) (s' := fun x => (- Qabs (d' x))%Q).
  - now apply K.
  - now apply K.
  - intro x. apply Qopp_comp. destruct (H x) as [E|E]; rewrite E; [reflexivity|]. symmetry. apply Qabs_opp.
  - intros x y E. lra.
Qed.
Print Assumptions C127_boundary.

(** ** Committees *)

Definition vterm (lg : Q -> Q) (votes : list Z) (v : Z) : Q :=
  (inject_Z (Z.of_nat (count_occ Z.eq_dec votes v)) / inject_Z (Z.of_nat (length votes)) *
   lg ((inject_Z (Z.of_nat (count_occ Z.eq_dec votes v)) + (1 # 1000000000)) / inject_Z (Z.of_nat (length votes))))%Q.
Definition vsum lg votes : Q := (- total (map (vterm lg votes) (nodup Z.eq_dec votes)))%Q.

Lemma vsum_score lg votes : vote_score lg votes (vsum lg votes).
Proof.
  intros labels N I. cbn zeta. unfold vsum. apply Qopp_comp. apply total_perm. apply Permutation_map.
  apply NoDup_Permutation; [apply NoDup_nodup|exact N|]. intro v. rewrite nodup_In. symmetry. apply I.
Qed.

Lemma vsum_only lg votes x : vote_score lg votes x -> (x == vsum lg votes)%Q.
Proof. intro H. apply (H (nodup Z.eq_dec votes)); [apply NoDup_nodup|]. intro v. apply nodup_In. Qed.

Lemma count_renamed f votes v : renames f votes -> In v votes -> count_occ Z.eq_dec (map f votes) (f v) = count_occ Z.eq_dec votes v.
Proof.
  intros R I. assert (G : forall l, incl l votes -> count_occ Z.eq_dec (map f l) (f v) = count_occ Z.eq_dec l v).
  { induction l as [|u l IH]; intro Il; [reflexivity|]. cbn [map count_occ]. rewrite IH by (intros w W; apply Il; now right).
    destruct (Z.eq_dec (f u) (f v)) as [E|E], (Z.eq_dec u v) as [E'|E']; try reflexivity; [|congruence].
    exfalso. apply E'. apply R; auto. apply Il. now left. }
  apply G, incl_refl.
Qed.

Lemma count_order (l l' : list Z) v : Permutation l l' -> count_occ Z.eq_dec l v = count_occ Z.eq_dec l' v.
Proof. induction 1; cbn [count_occ]; repeat destruct Z.eq_dec; congruence. Qed.

Lemma vsum_renamed lg f votes votes' : renames f votes -> Permutation votes' (map f votes) -> (vsum lg votes == vsum lg votes')%Q.
Proof.
  intros R P. assert (LE : length votes' = length votes) by (rewrite (Permutation_length P); apply map_length).
  symmetry. rewrite (vsum_score lg votes' (map f (nodup Z.eq_dec votes))).
  - unfold vsum. apply Qopp_comp. rewrite map_map. rewrite LE.
    erewrite map_ext_in; [reflexivity|]. intros v I. apply nodup_In in I. cbn beta.
    rewrite (count_order _ _ (f v) P), (count_renamed f votes v R I). reflexivity.
  - assert (G : forall l, NoDup l -> incl l votes -> NoDup (map f l)).
    { induction 1 as [|u l NI N IH]; intro Il; [constructor|]. cbn [map]. constructor; [|apply IH; intros w W; apply Il; now right].
      intro J. apply in_map_iff in J. destruct J as (w & E & W). apply NI. rewrite (R u w); auto; [apply Il; now left|apply Il; now right]. }
    apply G; [apply NoDup_nodup|]. intros v J. now apply nodup_In in J.
  - intro v. rewrite in_map_iff. split.
    + intros (u & <- & J). apply nodup_In in J. eapply Permutation_in; [symmetry; exact P|]. now apply in_map.
    + intro J. eapply Permutation_in in J; [|exact P]. apply in_map_iff in J. destruct J as (u & <- & J). exists u. split; [auto|]. now apply nodup_In.
Qed.

Lemma column_votes {A B} (d : B) (members : list (A -> B)) U i x : nth_error U i = Some x ->
  column d (map (fun h => map h U) members) i = map (fun h => h x) members.
Proof.
  intro E. unfold column. rewrite map_map. apply map_ext. intro h. apply nth_error_nth. now apply map_nth_error.
Qed.

Lemma votes_scored np (members : list (Z -> Z)) : numpy_ok np -> (2 <= length members)%nat ->
  scored (fun U b => select_largest np U (vote_entropy np (map (fun h => map h U) members)) b) (fun x => vsum (log np) (map (fun h => h x) members)).
Proof.
  intros NP M U b N B. apply largest_top; auto. right.
  destruct (C67_votes np (map (fun h => map h U) members) (length U)) as (s & E & L & S); [now rewrite map_length| |].
  { apply Forall_forall. intros X I. apply in_map_iff in I. destruct I as (h & <- & _). apply map_length. }
  exists s. split; [exact E|]. split; [exact L|]. intros i x J. rewrite <- (column_votes 0 members U i x J). apply vsum_only. apply S.
  apply nth_error_Some. congruence.
Qed.

(** Vote entropy: the members may be listed in another order, and on every instance the classes may have other names. *)
Theorem C127_votes : forall np np' (members members' : list (Z -> Z)), numpy_ok np -> numpy_ok np' -> log np = log np' -> (2 <= length members)%nat ->
  (forall x, exists f, renames f (map (fun h => h x) members) /\ Permutation (map (fun h => h x) members') (map (fun h => f (h x)) members)) ->
  interchangeable (fun U b => select_largest np U (vote_entropy np (map (fun h => map h U) members)) b)
                  (fun U b => select_largest np' U (vote_entropy np' (map (fun h => map h U) members')) b)
                  (fun x y => exists s, vote_score (log np) (map (fun h => h x) members) s /\ vote_score (log np) (map (fun h => h y) members) s).
Proof.
  intros np np' members members' NP NP' LG M H.
  assert (M' : (2 <= length members')%nat).
  { destruct (H 0) as (f & _ & P). apply Permutation_length in P. rewrite !map_length in P. lia. }
  eapply scored_interchangeable; [exact (votes_scored np members NP M)|exact (votes_scored np' members' NP' M')| |].
  - intro x. cbn beta. rewrite <- LG. destruct (H x) as (f & R & P). apply (vsum_renamed (log np) f); auto. now rewrite map_map.
  - intros x y E. exists (vsum (log np) (map (fun h => h y) members)). split; [|apply vsum_score].
    intros labels N I. cbn zeta. rewrite <- E. now apply vsum_score.
Qed.
Print Assumptions C127_votes.

Definition kterm (lg : Q -> Q) (ps : list Q) : Q := total (map (fun p => p * lg ((p + (1 # 1000000000)) / (mean ps + (1 # 1000000000))))%Q ps).
Definition ksum lg cols (rows : list (list Q)) : Q := total (map (fun j => kterm lg (column 0%Q rows j)) (seq 0 cols)).

Lemma total_ext {A} (f g : A -> Q) l : (forall a, In a l -> f a == g a)%Q -> (total (map f l) == total (map g l))%Q.
Proof.
  unfold total. induction l as [|a l IH]; intro H; cbn [map fold_right]; [reflexivity|].
  rewrite (H a (or_introl eq_refl)), IH; [reflexivity|]. intros b J. apply H. now right.
Qed.

Lemma kterm_order lg ps ps' : (forall x y, x == y -> lg x == lg y)%Q -> Permutation ps ps' -> (kterm lg ps == kterm lg ps')%Q.
Proof.
  intros R P. unfold kterm. rewrite (total_perm _ _ (Permutation_map _ P)). apply total_ext. intros p _.
  apply Qmult_comp; [reflexivity|]. apply R. unfold mean. rewrite (total_perm _ _ P), (Permutation_length P). reflexivity.
Qed.

Lemma map_nth_seq {A B} (F : A -> B) (d : A) l : map (fun j => F (nth j l d)) (seq 0 (length l)) = map F l.
Proof.
  induction l as [|a l IH]; [reflexivity|]. cbn [length seq map nth]. f_equal. rewrite <- seq_shift, map_map. exact IH.
Qed.

Lemma ksum_listed lg cols order rows : Permutation order (seq 0 cols) -> (ksum lg cols (map (listed order) rows) == ksum lg cols rows)%Q.
Proof.
  intro P. assert (L : length order = cols) by (rewrite (Permutation_length P); apply seq_length). unfold ksum.
  rewrite <- (total_perm _ _ (Permutation_map (fun j => kterm lg (column 0%Q rows j)) P)). rewrite <- (map_nth_seq _ 0%nat order), L.
  apply total_ext. intros j J. apply in_seq in J.
  replace (column 0%Q (map (listed order) rows) j) with (column 0%Q rows (nth j order 0%nat)); [reflexivity|].
  unfold column. rewrite map_map. apply map_ext. intro r. unfold listed.
  rewrite (nth_indep (map _ order) 0%Q (nth 0%nat r 0%Q)) by (rewrite map_length; lia). symmetry. apply (map_nth (fun j => nth j r 0%Q)).
Qed.

Lemma divergence_scored np cols (members : list (Z -> list Q)) : numpy_ok np -> (2 <= length members)%nat -> (forall h x, In h members -> length (h x) = cols) ->
  scored (fun U b => select_largest np U (kl_divergence np cols (map (fun h => map h U) members)) b) (fun x => ksum (log np) cols (map (fun h => h x) members)).
Proof.
  intros NP M W U b N B. apply largest_top; auto. right.
  destruct (C67_divergence np cols (map (fun h => map h U) members) (length U)) as (s & E & L & S); [now rewrite map_length| |].
  { apply Forall_forall. intros X I. apply in_map_iff in I. destruct I as (h & <- & I). split; [apply map_length|].
    apply Forall_forall. intros r J. apply in_map_iff in J. destruct J as (x & <- & _). auto. }
  exists s. split; [exact E|]. split; [exact L|]. intros i x J. rewrite <- (column_votes [] members U i x J). apply S.
  apply nth_error_Some. congruence.
Qed.

(** Divergence: the members may be listed in another order, and the classes, the same for all members, in another order. *)
Theorem C127_divergence : forall np np' cols order (members members' : list (Z -> list Q)), numpy_ok np -> numpy_ok np' -> log np = log np' ->
  (forall x y, x == y -> log np x == log np y)%Q -> (2 <= length members)%nat -> (forall h x, In h members -> length (h x) = cols) ->
  Permutation order (seq 0 cols) -> (forall x, Permutation (map (fun h => h x) members') (map (fun h => listed order (h x)) members)) ->
  interchangeable (fun U b => select_largest np U (kl_divergence np cols (map (fun h => map h U) members)) b)
                  (fun U b => select_largest np' U (kl_divergence np' cols (map (fun h => map h U) members')) b)
                  (fun x y => exists s, kl_score (log np) cols (map (fun h => h x) members) s /\ kl_score (log np) cols (map (fun h => h y) members) s).
Proof.
  intros np np' cols order members members' NP NP' LG R M W P H.
  assert (LO : length order = cols) by (rewrite (Permutation_length P); apply seq_length).
  assert (M' : (2 <= length members')%nat).
  { pose proof (Permutation_length (H 0)) as L. rewrite !map_length in L. lia. }
  assert (W' : forall h x, In h members' -> length (h x) = cols).
  { intros h x I. assert (J : In (h x) (map (fun h => listed order (h x)) members)).
    { eapply Permutation_in; [apply H|]. apply in_map_iff. eauto. }
    apply in_map_iff in J. destruct J as (g & E & _). rewrite <- E. unfold listed. rewrite map_length. exact LO. }
  eapply scored_interchangeable; [exact (divergence_scored np cols members NP M W)|exact (divergence_scored np' cols members' NP' M' W')| |].
  - intro x. cbn beta. rewrite <- LG. rewrite <- (ksum_listed (log np) cols order _ P). rewrite map_map. unfold ksum. apply total_ext. intros j _.
    apply kterm_order; [exact R|]. unfold column. apply Permutation_map. symmetry. apply H.
  - intros x y E. exists (ksum (log np) cols (map (fun h => h y) members)). split; [|unfold kl_score; reflexivity].
    unfold kl_score. symmetry. exact E.
Qed.
Print Assumptions C127_divergence.

(** Without ties both select the same instances. *)
Theorem C127_same : forall choose choose' tied U U' b sel sel', interchangeable choose choose' tied -> NoDup U -> Permutation U U' -> 0 < b ->
  no_ties tied U -> choose U b = Ok sel -> choose' U' b = Ok sel' -> incl sel U -> incl sel' U -> forall x, In x sel <-> In x sel'.
Proof.
  intros choose choose' tied U U' b sel sel' H N P B T E E' I I' x.
  destruct (H U U' b N P B) as (s & s' & S & S' & _ & W & W'). rewrite S in E. rewrite S' in E'. injection E as ->. injection E' as ->.
  split; intro X.
  - destruct (in_dec Z.eq_dec x sel') as [|D]; [auto|]. exfalso. destruct (W x X D) as (y & Y & NY & Q). apply (T x y); auto. intros ->. auto.
  - destruct (in_dec Z.eq_dec x sel) as [|D]; [auto|]. exfalso. destruct (W' x X D) as (y & Y & NY & Q). apply (T x y); auto. intros ->. auto.
Qed.
Print Assumptions C127_same.

(** ** Cases *)
Definition pred_a (x : Z) : list Q := match x with 5 => [9 # 10; 1 # 10; 0]%Q | 6 => [4 # 10; 4 # 10; 2 # 10]%Q | _ => [2 # 10; 8 # 10; 0]%Q end.
Definition pred_b (x : Z) : list Q := match x with 5 => [0; 9 # 10; 1 # 10]%Q | 6 => [2 # 10; 4 # 10; 4 # 10]%Q | _ => [8 # 10; 0; 2 # 10]%Q end.
Example C127_classes_case : (forall x, Permutation (pred_a x) (pred_b x)) /\ numpy_ok (np0 (fun x => x)) /\
  snd (select_by_prediction_mat (np0 (fun x => x)) Margin [5; 6; 7] (Mat 3 (map pred_a [5; 6; 7])) 2) = Ok [7; 6] /\
  snd (select_by_prediction_mat (np0 (fun x => x)) Margin [7; 5; 6] (Mat 3 (map pred_b [7; 5; 6])) 2) = Ok [7; 6].
Proof.
  split; [|split; [apply np0_ok|split; reflexivity]].
  assert (K : forall a b c : Q, Permutation [a; b; c] [c; a; b]). { intros a b c. etransitivity; [|apply perm_swap]. constructor. constructor. }
  assert (K' : forall a b c : Q, Permutation [a; b; c] [b; c; a]). { intros a b c. etransitivity; [apply perm_swap|]. constructor. constructor. }
  intro x. unfold pred_a, pred_b. destruct x as [|[[[]|[]| ]|[[]|[]| ]| ]|]; first [apply K|apply K'].
Qed.
Definition vote_a : list (Z -> Z) := [(fun x => x mod 2); (fun x => 1); (fun x => if x <? 3 then 1 else 0)].
Definition vote_b : list (Z -> Z) := [(fun x => 7); (fun x => if x <? 3 then 7 else 8); (fun x => 8 - x mod 2)].
Example C127_votes_case : (forall x, exists f, renames f (map (fun h => h x) vote_a) /\ Permutation (map (fun h => h x) vote_b) (map (fun h => f (h x)) vote_a)) /\
  (exists sel, select_largest (np0 (fun x => x)) [1; 2; 3] (vote_entropy (np0 (fun x => x)) (map (fun h => map h [1; 2; 3]) vote_a)) 1 = Ok sel).
Proof.
  split; [|eexists; vm_compute; reflexivity]. intro x. exists (fun v => 8 - v). split; [intros u v _ _ E; lia|].
  cbn [map vote_a vote_b]. replace (8 - (if x <? 3 then 1 else 0)) with (if x <? 3 then 7 else 8) by (destruct (x <? 3); reflexivity).
  etransitivity; [apply Permutation_sym, (Permutation_cons_append [_; _] _)|]. reflexivity.
Qed.
Definition prob_a : list (Z -> list Q) := [(fun x => if x <? 2 then [1 # 4; 3 # 4] else [1; 0]); (fun x => [1 # 2; 1 # 2])]%Q.
Definition prob_b : list (Z -> list Q) := [(fun x => [1 # 2; 1 # 2]); (fun x => if x <? 2 then [3 # 4; 1 # 4] else [0; 1])]%Q.
Example C127_divergence_case : (forall h x, In h prob_a -> length (h x) = 2%nat) /\ Permutation [1; 0]%nat (seq 0 2) /\
  (forall x, Permutation (map (fun h => h x) prob_b) (map (fun h => listed [1; 0]%nat (h x)) prob_a)) /\
  let np := np0 (fun x => x) in
  (forall x y, x == y -> log np x == log np y)%Q /\
  select_largest np [1; 2; 3] (kl_divergence np 2 (map (fun h => map h [1; 2; 3]) prob_a)) 2 = Ok [2; 3] /\
  exists sel, select_largest np [2; 3; 1] (kl_divergence np 2 (map (fun h => map h [2; 3; 1]) prob_b)) 2 = Ok sel /\ ~ In 1 sel.
Proof.
  split; [|split; [constructor|split]].
  - intros h x [<-|[<-|[]]]; [destruct (x <? 2)|]; reflexivity.
  - intro x. cbn. destruct (x <? 2); cbn; constructor.
  - split; [auto|]. split; [vm_compute; reflexivity|]. eexists. split; [vm_compute; reflexivity|]. intros [|[|[]]]; discriminate.
Qed.
Example C127_boundary_case : let d (x : Z) := inject_Z (x - 5) in
  snd (select_by_prediction_mat (np0 (fun x => x)) Boundary [3; 4; 9] (Vec (map d [3; 4; 9])) 2) = Ok [4; 3] /\
  snd (select_by_prediction_mat (np0 (fun x => x)) Boundary [3; 4; 9] (Vec (map (fun x => - d x)%Q [3; 4; 9])) 2) = Ok [4; 3].
Proof. split; vm_compute; reflexivity. Qed.
