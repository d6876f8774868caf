(** Proofs about IEthresh: what a call does to the records. *)
From Verif Require Import Base IndexModel IndexProofs Dict OracleModel OracleSpec VoteProofs MiscModel MiscSpec MetricSpec MetricProofs QueryModel QuerySpec
  QueryProofs QueryProofs2 NoisyModel NoisySpec NoisyProofs.
From Coq Require Import String QArith Lqa.
Local Open Scope Z_scope.

Lemma Zeqb_iff a b : Z.eqb a b = true <-> a = b.
Proof. apply Z.eqb_eq. Qed.
Lemma dget_zset {V} x (v : V) d z : dget Z.eqb z (dset Z.eqb x v d) = if Z.eqb z x then Some v else dget Z.eqb z d.
Proof. apply dget_dset, Zeqb_iff. Qed.

Lemma put_length {A} (l : list A) i v : List.length (put l i v) = List.length l.
Proof. revert i. induction l as [|x l IH]; intros [|i]; cbn; auto. Qed.
Lemma put_same {A} (l : list A) i v d : (i < List.length l)%nat -> nth i (put l i v) d = v.
Proof. revert i. induction l as [|x l IH]; intros [|i] H; cbn in *; try lia; auto. apply IH. lia. Qed.
Lemma put_other {A} (l : list A) i j v d : i <> j -> nth j (put l i v) d = nth j l d.
Proof. revert i j. induction l as [|x l IH]; intros [|i] [|j] H; cbn; auto; try contradiction. Qed.

Lemma label_by_unique c x name l l' : label_by c x name l -> label_by c x name l' -> l = l'.
Proof. intros (o & q & M & A) (o' & q' & M' & A'). rewrite M in M'. injection M' as <-. now destruct (answers_unique _ _ _ _ _ _ A A'). Qed.
Lemma labels_by_unique c x names ls ls' : Forall2 (label_by c x) names ls -> Forall2 (label_by c x) names ls' -> ls = ls'.
Proof.
  intro F. revert ls'. induction F as [|n l ns ls H F IH]; intros ls' F'; inversion F' as [|? l' ? ls'' H' F'']; subst; auto.
  f_equal; [eapply label_by_unique; eauto|auto].
Qed.

Lemma ask_one c names x i l : (name <- (match nth_error names i with Some k => Ok k | None => Err KeyErr end) ;;
             o <- member c name ;;
             r <- or_query o [KInt x] ;; py_nth (fst r) 0) = Ok l <->
  exists name, nth_error names i = Some name /\ label_by c x name l.
Proof.
  destruct (nth_error names i) as [name|]; cbn [bind].
  2:{ split; [discriminate|]. intros (n & E & _). discriminate. }
  destruct (member c name) as [o|e] eqn:M; cbn [bind].
  2:{ split; [discriminate|]. intros (n & E & o & q & M' & _). injection E as <-. congruence. }
  rewrite or_query_told. cbn [mapM]. destruct (told o (KInt x)) as [[l' q]|e] eqn:T; cbn.
  - split.
    + intro E. injection E as ->. exists name. split; auto. exists o, q. split; auto. now apply answers_told.
    + intros (n & E & o' & q' & M' & A). injection E as <-. rewrite M in M'. injection M' as <-. apply answers_told in A. congruence.
  - split; [discriminate|]. intros (n & E & o' & q' & M' & A). injection E as <-. rewrite M in M'. injection M' as <-. apply answers_told in A. congruence.
Qed.

Lemma ask_loop_ok c names x sel : forall h h' ls, NoDup sel -> (forall i, In i sel -> (i < List.length h)%nat) ->
  ask_loop c names x sel h = (h', Ok ls) ->
  Forall2 (fun i l => exists name, nth_error names i = Some name /\ label_by c x name l) sel ls /\
  List.length h' = List.length h /\
  (forall i, ~ In i sel -> nth i h' [] = nth i h []) /\
  (forall i l, In i sel -> (exists name, nth_error names i = Some name /\ label_by c x name l) -> nth i h' [] = dset Z.eqb x l (nth i h [])).
Proof.
  induction sel as [|i sel IH]; intros h h' ls ND LT E; cbn [ask_loop] in E.
  - injection E as <- <-. repeat split; auto; try constructor. intros i l [].
  - destruct (bind _ _) as [l|e] eqn:A; [|discriminate]. apply ask_one in A.
    destruct (ask_loop c names x sel _) as [h2 r] eqn:E2. destruct r as [ls'|e]; [|discriminate]. injection E as <- <-.
    inversion ND as [|? ? NI ND']; subst. apply IH in E2; auto.
    2:{ intros j J. rewrite put_length. apply LT. now right. }
    destruct E2 as (F & LEN & OUT & IN). rewrite put_length in LEN. repeat split; auto.
    + intros j J. rewrite OUT by (intro; apply J; now right). apply put_other. intro. apply J. now left.
    + intros j l' [<-|J] H'.
      * rewrite OUT by auto. rewrite put_same by (apply LT; now left). destruct A as (n & En & Hn), H' as (n' & En' & Hn').
        rewrite En in En'. injection En' as <-. now rewrite (label_by_unique _ _ _ _ _ Hn Hn').
      * rewrite (IN j l' J H'). rewrite put_other; auto. intros <-. contradiction.
Qed.

Lemma ui_loop_ok st n h votes sel : forall ui ui', NoDup sel -> (forall i, In i sel -> (i < List.length ui)%nat) ->
  ui_loop st n sel h votes ui = (ui', Ok tt) ->
  List.length ui' = List.length ui /\ (forall i, ~ In i sel -> nth i ui' None = nth i ui None) /\
  (forall i, In i sel -> calc_uia st n (nth i h []) votes = Ok (nth i ui' None)).
Proof.
  induction sel as [|i sel IH]; intros ui ui' ND LT E; cbn [ui_loop] in E.
  - injection E as <-. repeat split; auto. intros i [].
  - destruct (calc_uia st n (nth i h []) votes) as [u|e] eqn:C; [|discriminate]. inversion ND as [|? ? NI ND']; subst.
    apply IH in E; auto. 2:{ intros j J. rewrite put_length. apply LT. now right. }
    destruct E as (LEN & OUT & IN). rewrite put_length in LEN. split; auto. split.
    + intros j J. rewrite OUT by (intro; apply J; now right). apply put_other. intro. apply J. now left.
    + intros j [<-|J]; auto. rewrite OUT by auto. rewrite put_same by (apply LT; now left). exact C.
Qed.

Lemma chosen_in eps ui m i : max_of ui = Some m ->
  (In i (chosen eps ui) <-> exists u, nth_error ui i = Some (Some u) /\ (eps * m <= u)%Q).
Proof.
  intro M. unfold chosen. rewrite M, filter_In, in_seq. split.
  - intros [[_ L] H]. cbn in L. destruct (nth i ui None) as [u|] eqn:E; [|discriminate]. exists u. apply Qle_bool_iff in H. split; auto.
    rewrite (nth_error_nth' ui None) by lia. now rewrite E.
  - intros (u & E & H). assert (i < List.length ui)%nat by (apply nth_error_Some; congruence). split; [cbn; lia|].
    rewrite (nth_error_nth ui i None E). now apply Qle_bool_iff.
Qed.
Lemma chosen_lt eps ui i : In i (chosen eps ui) -> (i < List.length ui)%nat.
Proof. unfold chosen. destruct (max_of ui); [|intros []]. rewrite filter_In, in_seq. cbn. lia. Qed.
Lemma chosen_NoDup eps ui : NoDup (chosen eps ui).
Proof. unfold chosen. destruct (max_of ui); [|constructor]. apply NoDup_filter, seq_NoDup. Qed.

Lemma max_of_spec ui m : max_of ui = Some m -> exists us, ui = map Some us /\ largest us m.
Proof.
  revert m. induction ui as [|x ui IH]; intros m E; [discriminate|]. destruct ui as [|y ui].
  - cbn in E. subst x. exists [m]. split; [reflexivity|]. split; [now left|]. repeat constructor. lra.
  - change (max_of (x :: y :: ui)) with (match x, max_of (y :: ui) with Some a, Some b => Some (qmax a b) | _, _ => None end) in E.
    destruct x as [a|]; [|discriminate]. destruct (max_of (y :: ui)) as [b|] eqn:EB; [|discriminate]. injection E as <-.
    destruct (IH b eq_refl) as (us & -> & I & F). exists (a :: us). split; [reflexivity|]. unfold qmax, largest. destruct (Qle_bool a b) eqn:L.
    + apply Qle_bool_iff in L. split; [now right|]. constructor; auto.
    + assert (b < a)%Q by (apply Qnot_le_lt; intro H; apply Qle_bool_iff in H; congruence). split; [now left|]. constructor; [lra|].
      eapply Forall_impl; [|exact F]. cbn. intros q Hq. lra.
Qed.
Lemma max_of_all us : us <> [] -> exists m, max_of (map Some us) = Some m.
Proof.
  induction us as [|a us IH]; [contradiction|]. intros _. destruct us as [|b us]; [cbn; eauto|].
  destruct IH as [m E]; [discriminate|]. change (max_of (map Some (a :: b :: us))) with (match max_of (map Some (b :: us)) with Some b => Some (qmax a b) | _ => None end).
  rewrite E. eauto.
Qed.

(** What a successful call does. *)
Record step_facts (st : stats) (c : crowd) (s : ie) (x : Z) (s' : ie) (names : list key) (ls : list key) (v : key) : Prop := {
  sf_names : Forall2 (fun i name => nth_error (ie_names s) i = Some name) (chosen (ie_eps s) (ie_ui s)) names;
  sf_labels : Forall2 (label_by c x) names ls;
  sf_vote : exists n, winner ls n v;
  sf_same : ie_names s' = ie_names s /\ ie_eps s' = ie_eps s /\ List.length (ie_hist s') = List.length (ie_hist s) /\ List.length (ie_ui s') = List.length (ie_ui s);
  sf_out : forall i, ~ In i (chosen (ie_eps s) (ie_ui s)) -> nth i (ie_hist s') [] = nth i (ie_hist s) [] /\ nth i (ie_ui s') None = nth i (ie_ui s) None;
  sf_hist : forall i name l, In i (chosen (ie_eps s) (ie_ui s)) -> nth_error (ie_names s) i = Some name -> label_by c x name l ->
    nth i (ie_hist s') [] = dset Z.eqb x l (nth i (ie_hist s) []);
  sf_votes : ie_votes s' = dset Z.eqb x v (ie_votes s);
  sf_ui : forall i, In i (chosen (ie_eps s) (ie_ui s)) ->
    calc_uia st (List.length (iterset c)) (nth i (ie_hist s') []) (ie_votes s') = Ok (nth i (ie_ui s') None)
}.

Lemma names_of names sel ls (P : key -> key -> Prop) : Forall2 (fun i l => exists name, nth_error names i = Some name /\ P name l) sel ls ->
  exists ns, mapM (fun i => match nth_error names i with Some k => Ok k | None => Err KeyErr end) sel = Ok ns /\
    Forall2 (fun i name => nth_error names i = Some name) sel ns /\ Forall2 P ns ls.
Proof.
  intro F. induction F as [|i l sel ls (n & E & H) F (ns & E2 & F1 & F2)]; [exists []; repeat constructor|].
  exists (n :: ns). cbn [mapM]. rewrite E. cbn [bind]. rewrite E2. repeat split; constructor; auto.
Qed.

Lemma ie_step st c s x s' names : List.length (ie_hist s) = List.length (ie_ui s) -> ie_given st c s x = (s', Ok names) ->
  exists ls v, step_facts st c s x s' names ls v.
Proof.
  intros LH E. unfold ie_given in E. destruct (ie_ui s) as [|u0 ui0] eqn:EU; [discriminate|]. rewrite <- EU in *. clear u0 ui0 EU.
  set (sel := chosen (ie_eps s) (ie_ui s)) in *. destruct (ask_loop c (ie_names s) x sel (ie_hist s)) as [h r] eqn:A. destruct r as [ls|e]; [|discriminate].
  assert (LT : forall i, In i sel -> (i < List.length (ie_ui s))%nat) by (intros; eapply chosen_lt; eauto).
  apply ask_loop_ok in A; [|apply chosen_NoDup|rewrite LH; auto]. destruct A as (F & LEN & OUT & IN).
  destruct (majority_vote ls None) as [[n v]|e] eqn:MV; [|discriminate]. apply majority_vote_lemma in MV. destruct MV as [_ W].
  cbn [ie_votes with_hist with_votes ie_ui ie_names] in E.
  destruct (ui_loop st _ sel h _ (ie_ui s)) as [ui r] eqn:UL. destruct r as [[]|e]; [|discriminate].
  apply ui_loop_ok in UL; [|apply chosen_NoDup|auto]. destruct UL as (LU & OU & IU).
  destruct (names_of _ _ _ _ F) as (ns & EN & F1 & F2). fold sel in EN. rewrite EN in E. injection E as <- <-.
  exists ls, v. constructor; fold sel; cbn [with_ui with_votes with_hist ie_names ie_eps ie_hist ie_ui ie_votes]; auto.
  - eauto.
  - intros i name l I N L. apply IN; eauto.
Qed.

(** ** How the log grows *)

Lemma snoc_split {A} (log : list A) e pre d post : log ++ [e] = pre ++ d :: post ->
  (post = [] /\ pre = log /\ d = e) \/ (exists post', post = post' ++ [e] /\ log = pre ++ d :: post').
Proof.
  destruct post as [|b post] using rev_ind; intro E.
  - left. apply app_inj_tail in E. destruct E. auto.
  - right. clear IHpost. rewrite app_comm_cons, app_assoc in E. apply app_inj_tail in E. destruct E as [-> ->]. eauto.
Qed.
Lemma said_snoc log c x names name z l : said (log ++ [(c, x, names)]) name z l <->
  (z = x /\ In name names /\ label_by c x name l) \/ (~ (z = x /\ In name names) /\ said log name z l).
Proof.
  split.
  - intros (pre & c' & ns & post & E & I & L & N). apply snoc_split in E. destruct E as [(-> & -> & E)|(post' & -> & ->)].
    + injection E as <- <- <-. left. auto.
    + right. split.
      * intros [-> J]. apply (N c names); auto. apply in_or_app. right. now left.
      * exists pre, c', ns, post'. repeat split; auto. intros c2 n2 J. apply (N c2 n2). apply in_or_app. now left.
  - intros [(-> & I & L)|(NX & pre & c' & ns & post & -> & I & L & N)].
    + exists log, c, names, []. repeat split; auto.
    + exists pre, c', ns, (post ++ [(c, x, names)]). rewrite <- app_assoc. repeat split; auto.
      intros c2 n2 J. apply in_app_or in J. destruct J as [J|[J|[]]]; eauto. injection J as <- -> <-. intro. apply NX. auto.
Qed.
Lemma voted_snoc log c x names z v : (exists ls, Forall2 (label_by c x) names ls) ->
  voted (log ++ [(c, x, names)]) z v <->
  (z = x /\ (exists ls n, Forall2 (label_by c x) names ls /\ winner ls n v)) \/ (z <> x /\ voted log z v).
Proof.
  intros _. split.
  - intros (pre & c' & ns & post & E & W & N). apply snoc_split in E. destruct E as [(-> & -> & E)|(post' & -> & ->)].
    + injection E as <- <- <-. left. auto.
    + right. split.
      * intros ->. apply (N c names). apply in_or_app. right. now left.
      * exists pre, c', ns, post'. repeat split; auto. intros c2 n2 J. apply (N c2 n2). apply in_or_app. now left.
  - intros [(-> & W)|(NX & pre & c' & ns & post & -> & W & N)].
    + exists log, c, names, []. repeat split; auto.
    + exists pre, c', ns, (post ++ [(c, x, names)]). rewrite <- app_assoc. repeat split; auto.
      intros c2 n2 J. apply in_app_or in J. destruct J as [J|[J|[]]]; [eapply N; eauto|]. injection J as <- <- <-. contradiction.
Qed.
Lemma asked_snoc log c x names name z : was_asked (log ++ [(c, x, names)]) name z <-> (z = x /\ In name names) \/ was_asked log name z.
Proof.
  split.
  - intros (c' & ns & I & J). apply in_app_or in I. destruct I as [I|[I|[]]]; [right; exists c', ns; auto|]. injection I as <- <- <-. auto.
  - intros [[-> J]|(c' & ns & I & J)]; [exists c, names|exists c', ns]; split; auto; apply in_or_app; auto. right. now left.
Qed.
Lemma standing_snoc st log e name u : ~ (exists c x names, e = (c, x, names) /\ In name names) -> standing st log name u -> standing st (log ++ [e]) name u.
Proof.
  intros N [[NA ->]|(pre & c & x & ns & post & -> & I & NA & O)].
  - left. split; auto. destruct e as [[c x] names]. intros z A. apply asked_snoc in A. destruct A as [[_ A]|A]; [apply N; eauto|now apply (NA z)].
  - right. exists pre, c, x, ns, (post ++ [e]). rewrite <- app_assoc. repeat split; auto. destruct e as [[c' x'] names].
    intros z A. apply asked_snoc in A. destruct A as [[_ A]|A]; [apply N; eauto|now apply (NA z)].
Qed.

(** ** Means and variances of zeros and ones *)
Definition bit (b : bool) : Q := if b then 1%Q else 0%Q.
Lemma bits_sum bs : (MiscModel.qsum (map bit bs) == nat_q (count (fun b => b) bs))%Q.
Proof.
  induction bs as [|b bs IH]; [reflexivity|]. cbn [map MiscModel.qsum fold_right]. fold (MiscModel.qsum (map bit bs)). rewrite IH. unfold count. cbn [filter]. destruct b; cbn [bit List.length].
  - unfold nat_q. rewrite Nat2Z.inj_succ, <- Z.add_1_l, inject_Z_plus. reflexivity.
  - ring.
Qed.
Lemma bits_mean bs : (qmean (map bit bs) == ratio (count (fun b => b) bs) (List.length bs))%Q.
Proof. unfold qmean, ratio, qlen. rewrite bits_sum, map_length. reflexivity. Qed.
Lemma bits_sq bs m : (MiscModel.qsum (map (fun x => (x - m) * (x - m)) (map bit bs)) ==
  nat_q (count (fun b => b) bs) * (1 - 2 * m) + nat_q (List.length bs) * m * m)%Q.
Proof.
  induction bs as [|b bs IH]; [cbn; unfold nat_q; cbn; ring|]. cbn [map MiscModel.qsum fold_right].
  fold (MiscModel.qsum (map (fun x => (x - m) * (x - m))%Q (map bit bs))). rewrite IH. unfold count. cbn [filter List.length].
  assert (S1 : forall n, (nat_q (S n) == 1 + nat_q n)%Q). { intro n. unfold nat_q. rewrite Nat2Z.inj_succ, <- Z.add_1_l, inject_Z_plus. reflexivity. }
  destruct b; cbn [bit List.length]; rewrite !S1; ring.
Qed.
Lemma bits_var bs : bs <> [] -> let p := ratio (count (fun b => b) bs) (List.length bs) in (qvar (map bit bs) == p * (1 - p))%Q.
Proof.
  intros NE p. unfold qvar. unfold qmean at 1. unfold qlen. rewrite !map_length.
  assert (N0 : ~ (nat_q (List.length bs) == 0)%Q). { destruct bs; [contradiction|]. unfold nat_q. cbn [List.length]. intro H. unfold Qeq in H. cbn in H. lia. }
  assert (E : (MiscModel.qsum (map (fun x => (x - qmean (map bit bs)) * (x - qmean (map bit bs))) (map bit bs)) ==
               nat_q (count (fun b => b) bs) * (1 - 2 * p) + nat_q (List.length bs) * p * p)%Q).
  { rewrite bits_sq. assert (M : (qmean (map bit bs) == p)%Q) by apply bits_mean. rewrite M. reflexivity. }
  rewrite E. change (inject_Z (Z.of_nat (List.length bs))) with (nat_q (List.length bs)). unfold p, ratio. field. exact N0.
Qed.

(** ** The invariant *)
Record inv (st : stats) (names : list key) (eps : Q) (log : list event) (s : ie) : Prop := {
  i_names : ie_names s = names;
  i_eps : ie_eps s = eps;
  i_len : List.length (ie_hist s) = List.length names /\ List.length (ie_ui s) = List.length names;
  i_hist : forall i name, nth_error names i = Some name ->
    NoDup (map fst (nth i (ie_hist s) [])) /\ (forall x l, dget Z.eqb x (nth i (ie_hist s) []) = Some l <-> said log name x l);
  i_asked : forall name x, was_asked log name x -> exists l, said log name x l;
  i_votes : forall x v, dget Z.eqb x (ie_votes s) = Some v <-> voted log x v;
  i_voted : forall name x l, said log name x l -> exists v, voted log x v;
  i_ui : forall i name, nth_error names i = Some name -> standing st log name (nth i (ie_ui s) None)
}.

Lemma dget_pair {V} (d : list (Z * V)) : NoDup (map fst d) -> forall x v, In (x, v) d -> dget Z.eqb x d = Some v.
Proof.
  induction d as [|[a w] d IH]; intros ND x v I; [destruct I|]. cbn in ND. inversion ND as [|? ? NI ND']; subst. cbn [dget].
  destruct I as [E|I]; [injection E as -> ->; now rewrite Z.eqb_refl|].
  destruct (Z.eqb_spec x a) as [->|]; auto. exfalso. apply NI. apply in_map_iff. exists (a, v). auto.
Qed.
Lemma dget_in_pair {V} (d : list (Z * V)) x v : dget Z.eqb x d = Some v -> In (x, v) d.
Proof.
  induction d as [|[a w] d IH]; [discriminate|]. cbn [dget]. destruct (Z.eqb_spec x a) as [->|]; intro E; [injection E as ->; now left|right; auto].
Qed.

Lemma rewards_ok h votes : (forall x l, In (x, l) h -> exists v, dget Z.eqb x votes = Some v) ->
  exists bs, rewards h votes = Ok (map bit bs) /\ List.length bs = List.length h /\
    Forall2 (fun (e : Z * key) (b : bool) => b = true <-> dget Z.eqb (fst e) votes = Some (snd e)) h bs.
Proof.
  induction h as [|[x l] h IH]; intro H; [exists []; repeat constructor|].
  destruct IH as (bs & E & L & F). { intros; eapply H; right; eauto. }
  destruct (H x l (or_introl eq_refl)) as (v & V). exists (key_eqb l v :: bs). unfold rewards in *. cbn [mapM fst snd]. rewrite V. cbn [bind]. rewrite E. cbn [bind].
  split; [destruct (key_eqb l v); reflexivity|]. split; [cbn; lia|]. constructor; auto. cbn [fst snd]. rewrite V. rewrite key_eqb_eq. split; congruence.
Qed.

Lemma count_agree (h votes : list (Z * key)) bs : NoDup (map fst h) ->
  Forall2 (fun (e : Z * key) (b : bool) => b = true <-> dget Z.eqb (fst e) votes = Some (snd e)) h bs ->
  how_many (fun x => exists l, dget Z.eqb x h = Some l /\ dget Z.eqb x votes = Some l) (count (fun b => b) bs).
Proof.
  intros ND F. eapply hm_ext with (P := fun x => exists l, In (x, l) h /\ dget Z.eqb x votes = Some l).
  { intro x. split; intros (l & A & B); exists l; split; auto; [now apply dget_pair|now apply dget_in_pair]. }
  induction F as [|[x l] b h bs H F IH]; [apply hm_zero; intros x (l & [] & _)|]. cbn in ND. inversion ND as [|? ? NI ND']; subst.
  destruct (IH ND') as (xs & NX & LX & HX). unfold count. cbn [filter]. destruct b.
  - exists (x :: xs). split; [|split].
    + constructor; auto. intro I. apply HX in I. destruct I as (l' & I & _). apply NI. apply in_map_iff. exists (x, l'). auto.
    + cbn. unfold count in LX. lia.
    + intro z. split.
      * intros [<-|I]; [exists l; split; [now left|now apply H]|]. apply HX in I. destruct I as (l' & I & V). exists l'. split; auto. now right.
      * intros (l' & [E|I] & V); [injection E as <- <-; now left|right; apply HX; eauto].
  - exists xs. split; [auto|split; [auto|]]. intro z. rewrite HX. split.
    + intros (l' & I & V). exists l'. split; auto. now right.
    + intros (l' & [E|I] & V); [|eauto]. injection E as <- <-. cbn in H. apply H in V. discriminate.
Qed.

Lemma uia_ok st n h votes log name : root_like (sqrt st) -> NoDup (map fst h) -> h <> [] ->
  (forall x l, dget Z.eqb x h = Some l <-> said log name x l) -> (forall x v, dget Z.eqb x votes = Some v <-> voted log x v) ->
  (forall x, was_asked log name x -> exists l, said log name x l) ->
  (forall x l, said log name x l -> exists v, voted log x v) ->
  exists u, calc_uia st n h votes = Ok u /\ optimistic st n log name u.
Proof.
  intros (RP & _) ND NE HS HV HA HSV. destruct (rewards_ok h votes) as (bs & E & L & F).
  { intros x l I. apply dget_pair in I; auto. apply HS in I. destruct (HSV x l I) as (v & V). exists v. now apply HV. }
  unfold calc_uia. rewrite E. cbn [bind]. eexists. split; [reflexivity|].
  exists (List.length bs), (count (fun b => b) bs). split; [|split; [|split]].
  - exists (map fst h). split; auto. split; [rewrite map_length; lia|]. intro x. split.
    + intro I. apply in_map_iff in I. destruct I as ([x' l] & <- & I). apply dget_pair in I; auto. apply HS in I. destruct I as (pre & c & ns & post & -> & I & _). exists c, ns. split; auto. apply in_or_app. right. now left.
    + intro A. destruct (HA x A) as (l & S1). apply HS in S1. apply dget_in_pair in S1. apply in_map_iff. exists (x, l). auto.
  - destruct h; [contradiction|]. cbn in L. lia.
  - eapply hm_ext; [|apply (count_agree h votes bs ND F)]. intro x. cbv beta. split; intros (l & A & B); exists l; split; [now apply HS|now apply HV|now apply HS|now apply HV].
  - destruct (t_crit st (n - 1)) as [t|]; auto. assert (BN : bs <> []) by (destruct h; [contradiction|destruct bs; [discriminate|discriminate]]).
    destruct (map bit bs) as [|r rs] eqn:MB; [destruct bs; [contradiction|discriminate]|]. rewrite <- MB.
    rewrite (RP _ _ (bits_var bs BN)), bits_mean. reflexivity.
Qed.

Lemma Forall2_in_l {A B} (R : A -> B -> Prop) l l' : Forall2 R l l' -> forall a, In a l -> exists b, In b l' /\ R a b.
Proof. intro F. induction F as [|u v l l' R1 F IH]; intros z J; [destruct J|]. destruct J as [<-|J]; [exists v; split; [now left|auto]|]. destruct (IH z J) as (w & I & Hw). exists w. split; auto. now right. Qed.
Lemma Forall2_in_r {A B} (R : A -> B -> Prop) l l' : Forall2 R l l' -> forall b, In b l' -> exists a, In a l /\ R a b.
Proof. intro F. induction F as [|u v l l' R1 F IH]; intros z J; [destruct J|]. destruct J as [<-|J]; [exists u; split; [now left|auto]|]. destruct (IH z J) as (w & I & Hw). exists w. split; auto. now right. Qed.

Lemma nth_NoDup (names : list key) i j n : NoDup names -> nth_error names i = Some n -> nth_error names j = Some n -> i = j.
Proof. intros ND A B. eapply NoDup_nth_error; eauto; [apply nth_error_Some; congruence|congruence]. Qed.

Lemma inv_new st c0 eps : inv st (iterset c0) (match eps with Some e => e | None => (8 # 10)%Q end) [] (new_ie c0 eps).
Proof.
  constructor; cbn [new_ie ie_names ie_eps ie_hist ie_votes ie_ui]; auto.
  - now rewrite !repeat_length.
  - intros i name E. assert (i < List.length (iterset c0))%nat by (apply nth_error_Some; congruence).
    assert (R : nth i (repeat (@nil (Z * key)) (List.length (iterset c0))) [] = []). { generalize (List.length (iterset c0)). clear. intro n. revert i. induction n; intros [|i]; cbn; auto. }
    rewrite R. split; [constructor|]. intros x l. split; [discriminate|]. intros (pre & ? & ? & ? & X & _). destruct pre; discriminate.
  - intros name x (c & ns & [] & _).
  - intros x v. split; [discriminate|]. intros (pre & ? & ? & ? & X & _). destruct pre; discriminate.
  - intros name x l (pre & ? & ? & ? & X & _). destruct pre; discriminate.
  - intros i name E. left. split; [intros x (c & ns & [] & _)|]. assert (L : (i < List.length (iterset c0))%nat) by (apply nth_error_Some; congruence).
    revert i L E. generalize (iterset c0). intros l i L _. revert i L. induction l; intros [|i] L; cbn in *; try lia; auto. apply IHl. lia.
Qed.

Lemma in_names (names : list key) sel (ns : list key) i name : NoDup names -> Forall2 (fun i name => nth_error names i = Some name) sel ns -> nth_error names i = Some name ->
  (In i sel <-> In name ns).
Proof.
  intros ND F E. split; intro I.
  - destruct (Forall2_in_l _ _ _ F i I) as (n & J & E'). congruence.
  - destruct (Forall2_in_r _ _ _ F name I) as (j & J & E'). now rewrite (nth_NoDup names i j name ND E E').
Qed.

Lemma inv_step st names eps log s c x s' ns : root_like (sqrt st) -> NoDup names -> inv st names eps log s -> ie_given st c s x = (s', Ok ns) ->
  inv st names eps (log ++ [(c, x, ns)]) s'.
Proof.
  intros RL ND I E. pose proof (i_len _ _ _ _ _ I) as [LH LU]. destruct (ie_step st c s x s' ns) as (ls & v & SF); [congruence|auto|].
  destruct SF as [F1 F2 [n W] (SN & SE & SL1 & SL2) OUT HI VO UI]. rewrite (i_names _ _ _ _ _ I) in *.
  assert (LAB : forall name, In name ns -> exists l, label_by c x name l). { intros name J. destruct (Forall2_in_l _ _ _ F2 name J) as (l & _ & H). eauto. }
  assert (HH : forall i name, nth_error names i = Some name -> NoDup (map fst (nth i (ie_hist s') [])) /\
    (forall z l, dget Z.eqb z (nth i (ie_hist s') []) = Some l <-> said (log ++ [(c, x, ns)]) name z l)).
  { intros i name Ei. destruct (i_hist _ _ _ _ _ I i name Ei) as [NDi Hi]. pose proof (in_names names _ _ i name ND F1 Ei) as IFF.
    destruct (in_dec Nat.eq_dec i (chosen (ie_eps s) (ie_ui s))) as [J|J].
    - pose proof (proj1 IFF J) as Jn. destruct (LAB name Jn) as (l & Hl). rewrite (HI i name l J Ei Hl). split; [apply dset_nodup; auto; apply Zeqb_iff|].
      intros z l'. rewrite dget_zset, said_snoc. destruct (Z.eqb_spec z x) as [->|NX].
      + split.
        * intro X. injection X as <-. left. auto.
        * intros [(_ & _ & H')|(N & _)]; [now rewrite (label_by_unique _ _ _ _ _ Hl H')|exfalso; apply N; auto].
      + rewrite Hi. split; [intro S1; right; split; auto; intros [X _]; contradiction|intros [(X & _)|(_ & S1)]; [contradiction|auto]].
    - destruct (OUT i J) as [-> _]. split; auto. intros z l'. rewrite Hi, said_snoc. split.
      + intro S1. right. split; auto. intros [_ X]. apply J. now apply IFF.
      + intros [(_ & X & _)|(_ & S1)]; auto. exfalso. apply J. now apply IFF. }
  assert (VV : forall z w, dget Z.eqb z (ie_votes s') = Some w <-> voted (log ++ [(c, x, ns)]) z w).
  { intros z w. rewrite VO, dget_zset, voted_snoc by eauto. destruct (Z.eqb_spec z x) as [->|NX].
    - split; [intro X; injection X as <-; left; split; auto; eauto|]. intros [(_ & ls' & n' & F' & W')|(X & _)]; [|contradiction].
      rewrite (labels_by_unique _ _ _ _ _ F2 F') in W. f_equal. eapply winner_unique; eauto.
    - rewrite (i_votes _ _ _ _ _ I). split; [auto|]. intros [(X & _)|(_ & X)]; [contradiction|auto]. }
  assert (AA : forall name z, was_asked (log ++ [(c, x, ns)]) name z -> exists l, said (log ++ [(c, x, ns)]) name z l).
  { intros name z A. apply asked_snoc in A. destruct (Z.eq_dec z x) as [->|NX].
    - destruct (in_dec key_dec name ns) as [J|J].
      + destruct (LAB name J) as (l & Hl). exists l. apply said_snoc. left. auto.
      + destruct A as [[_ X]|A]; [contradiction|]. destruct (i_asked _ _ _ _ _ I name x A) as (l & S1). exists l. apply said_snoc. right. split; auto. intros [_ X]; contradiction.
    - destruct A as [[X _]|A]; [contradiction|]. destruct (i_asked _ _ _ _ _ I name z A) as (l & S1). exists l. apply said_snoc. right. split; auto. intros [X _]; contradiction. }
  assert (SV : forall name z l, said (log ++ [(c, x, ns)]) name z l -> exists w, voted (log ++ [(c, x, ns)]) z w).
  { intros name z l S1. apply said_snoc in S1. destruct (Z.eq_dec z x) as [->|NX].
    - exists v. apply voted_snoc; eauto. left. split; eauto.
    - destruct S1 as [(X & _)|(_ & S1)]; [contradiction|]. destruct (i_voted _ _ _ _ _ I name z l S1) as (w & V). exists w. apply voted_snoc; eauto. }
  constructor; auto.
  - rewrite SE. apply (i_eps _ _ _ _ _ I).
  - split; congruence.
  - intros i name Ei. pose proof (in_names names _ _ i name ND F1 Ei) as IFF. destruct (in_dec Nat.eq_dec i (chosen (ie_eps s) (ie_ui s))) as [J|J].
    + right. exists log, c, x, ns, []. split; auto. split; [now apply IFF|]. split; [intros z (? & ? & [] & _)|].
      destruct (HH i name Ei) as [NDi Hi]. pose proof (proj1 IFF J) as Jn. destruct (LAB name Jn) as (l & Hl).
      destruct (uia_ok st (List.length (iterset c)) (nth i (ie_hist s') []) (ie_votes s') (log ++ [(c, x, ns)]) name RL NDi) as (u & Eu & O); auto.
      * intro X. assert (S1 : said (log ++ [(c, x, ns)]) name x l) by (apply said_snoc; left; auto). apply Hi in S1. rewrite X in S1. discriminate.
      * intros z l' S1. eapply SV; eauto.
      * rewrite (UI i J) in Eu. injection Eu as ->. exact O.
    + destruct (OUT i J) as [_ ->]. apply standing_snoc; [|apply (i_ui _ _ _ _ _ I); auto]. intros (c' & x' & n' & X & Y). injection X as <- <- <-. apply J. now apply IFF.
Qed.

Lemma inv_history st c0 eps log s : root_like (sqrt st) -> NoDup (iterset c0) -> history st (new_ie c0 eps) log s ->
  inv st (iterset c0) (match eps with Some e => e | None => (8 # 10)%Q end) log s.
Proof. intros RL ND H. induction H; [apply inv_new|]. eapply inv_step; eauto. Qed.

(** ** Calls that succeed *)
Lemma ask_loop_progress c names x sel : forall h, (forall i, In i sel -> exists name l, nth_error names i = Some name /\ label_by c x name l) ->
  exists h' ls, ask_loop c names x sel h = (h', Ok ls).
Proof.
  induction sel as [|i sel IH]; intros h H; cbn [ask_loop]; [eauto|].
  destruct (H i (or_introl eq_refl)) as (name & l & E & L).
  rewrite (proj2 (ask_one c names x i l)) by eauto.
  destruct (IH (put h i (dset Z.eqb x l (nth i h []))) (fun j J => H j (or_intror J))) as (h' & ls & E'). rewrite E'. cbn. eauto.
Qed.
Lemma ui_loop_progress st n h votes sel : forall ui, (forall i, In i sel -> exists u, calc_uia st n (nth i h []) votes = Ok u) ->
  exists ui', ui_loop st n sel h votes ui = (ui', Ok tt).
Proof.
  induction sel as [|i sel IH]; intros ui H; cbn [ui_loop]; [eauto|].
  destruct (H i (or_introl eq_refl)) as (u & E). rewrite E. apply IH. intros j J. apply H. now right.
Qed.
Lemma majority_some ls : ls <> [] -> exists n v, majority_vote ls None = Ok (n, v).
Proof.
  intro N. unfold majority_vote. cbn [guard bind]. destruct (most_common (OracleModel.counter ls)) as [[v n]|] eqn:E; [eauto|].
  apply most_common_none in E. contradiction.
Qed.

Lemma ratio_range k a : (k <= a)%nat -> (0 < a)%nat -> (0 <= ratio k a <= 1)%Q.
Proof.
  intros L P. assert (A : (0 < nat_q a)%Q) by (unfold nat_q; rewrite <- (Zlt_Qlt 0); lia).
  assert (K : (0 <= nat_q k)%Q) by (unfold nat_q; rewrite <- (Zle_Qle 0); lia).
  assert (KA : (nat_q k <= nat_q a)%Q) by (unfold nat_q; rewrite <- Zle_Qle; lia).
  unfold ratio. split; [apply Qle_shift_div_l|apply Qle_shift_div_r]; lra.
Qed.
Lemma said_asked log name x l : said log name x l -> was_asked log name x.
Proof. intros (pre & c & ns & post & -> & I & _). exists c, ns. split; auto. apply in_or_app. right. now left. Qed.
Lemma optimistic_num st n log name u : stats_ok st -> (2 <= n)%nat -> optimistic st n log name u -> exists q, u = Some q /\ (0 <= q)%Q.
Proof.
  intros [(RP & R0 & R1 & _) (_ & TL)] N (a & k & HA & PA & HK & M). destruct n as [|[|n]]; try lia. cbn [Nat.sub] in M.
  destruct (TL n) as (t & ET & PT). rewrite ET in M. destruct u as [q|]; [|destruct M]. exists q. split; auto. rewrite M.
  assert (KA : (k <= a)%nat). { eapply hm_le; [|exact HK|exact HA]. intros x (l & S1 & _). eapply said_asked; eauto. }
  destruct (ratio_range k a KA PA) as [P0 P1].
  assert (S1 : (0 <= sqrt st (ratio k a * (1 - ratio k a)))%Q). { apply R0. apply Qmult_le_0_compat; lra. }
  assert (S2 : (0 < sqrt st (nat_q (S (S n))))%Q). { apply R1. unfold nat_q. rewrite <- (Zlt_Qlt 0). lia. }
  assert (X : (0 <= t * sqrt st (ratio k a * (1 - ratio k a)) / sqrt st (nat_q (S (S n))))%Q).
  { apply Qle_shift_div_l; auto. setoid_replace (0 * sqrt st (nat_q (S (S n))))%Q with 0%Q by ring. apply Qmult_le_0_compat; lra. }
  lra.
Qed.
Lemma standing_num st log name u : stats_ok st -> Forall (fun e : event => (2 <= List.length (iterset (fst (fst e))))%nat) log ->
  standing st log name u -> exists q, u = Some q /\ (0 <= q)%Q.
Proof.
  intros SO F [[_ ->]|(pre & c & x & ns & post & -> & _ & _ & O)]; [exists 1%Q; split; [reflexivity|lra]|].
  rewrite Forall_forall in F. eapply optimistic_num; [exact SO| |exact O]. apply (F (c, x, ns)). apply in_or_app. right. now left.
Qed.

Lemma ie_progress st c0 eps log s c x : stats_ok st -> NoDup (iterset c0) -> iterset c0 <> [] -> (match eps with Some e => e | None => (8 # 10)%Q end <= 1)%Q ->
  history st (new_ie c0 eps) log s -> Forall (fun e : event => (2 <= List.length (iterset (fst (fst e))))%nat) log ->
  (forall name, In name (iterset c0) -> exists l, label_by c x name l) ->
  exists s' names, ie_given st c s x = (s', Ok names) /\ names <> [].
Proof.
  intros SO ND NE EP H F K. pose proof (inv_history st c0 eps log s (proj1 SO) ND H) as I.
  destruct (i_len _ _ _ _ _ I) as [LH LU]. set (names := iterset c0) in *. set (e := match eps with Some e => e | None => (8 # 10)%Q end) in *.
  assert (US : exists us, ie_ui s = map Some us /\ Forall (fun q => 0 <= q)%Q us).
  { assert (A : forall i, (i < List.length (ie_ui s))%nat -> exists q, nth i (ie_ui s) None = Some q /\ (0 <= q)%Q).
    { intros i L. destruct (nth_error names i) as [name|] eqn:En; [|apply nth_error_None in En; lia]. eapply standing_num; [exact SO|exact F|]. apply (i_ui _ _ _ _ _ I); eauto. }
    clear - A. induction (ie_ui s) as [|u us IH]; [exists []; repeat constructor|]. destruct IH as (l & -> & FL). { intros i L. apply (A (S i)). cbn. lia. }
    destruct (A 0%nat ltac:(cbn; lia)) as (q & E & P). cbn in E. subst u. exists (q :: l). split; [reflexivity|]. constructor; auto. }
  destruct US as (us & EU & FU). assert (NU : us <> []). { intros ->. cbn in EU. rewrite EU in LU. destruct names; [contradiction|discriminate]. }
  destruct (max_of_all us NU) as (m & EM). destruct (max_of_spec (map Some us) m EM) as (us' & EQ & LG).
  assert (us' = us). { clear - EQ. revert us' EQ. induction us; intros [|? ?] E; try discriminate; auto. cbn in E. injection E as -> E. f_equal. auto. } subst us'.
  set (sel := chosen (ie_eps s) (ie_ui s)).
  assert (SEL : sel <> []).
  { destruct LG as [IM FM]. apply In_nth_error in IM. destruct IM as (i & Ei). assert (J : In i sel).
    { unfold sel. rewrite EU. apply (chosen_in (ie_eps s) (map Some us) m i EM). exists m. split; [rewrite nth_error_map, Ei; reflexivity|].
      rewrite (i_eps _ _ _ _ _ I). rewrite Forall_forall in FU. specialize (FU m (nth_error_In _ _ Ei)). fold e.
      setoid_replace m with (1 * m)%Q at 2 by ring. apply Qmult_le_compat_r; auto. }
    intro X. rewrite X in J. destruct J. }
  assert (LT : forall i, In i sel -> (i < List.length (ie_ui s))%nat) by (intros; eapply chosen_lt; eauto).
  assert (KN : forall i, In i sel -> exists name l, nth_error (ie_names s) i = Some name /\ label_by c x name l).
  { intros i J. apply LT in J. rewrite (i_names _ _ _ _ _ I). destruct (nth_error names i) as [name|] eqn:En; [|apply nth_error_None in En; lia].
    destruct (K name (nth_error_In _ _ En)) as (l & L). eauto. }
  assert (NZ : match ie_ui s with [] => False | _ => True end) by (rewrite EU; destruct us; [contradiction|exact Logic.I]).
  assert (G : forall (B : Type) (a b : B), match ie_ui s with [] => a | _ => b end = b) by (intros; destruct (ie_ui s); [destruct NZ|reflexivity]).
  unfold ie_given. rewrite G. fold sel. cbv zeta.
  destruct (ask_loop_progress c (ie_names s) x sel (ie_hist s) KN) as (h' & ls & EA). rewrite EA.
  pose proof EA as EA'. apply ask_loop_ok in EA'; [|apply chosen_NoDup|intros i J; apply LT in J; lia]. destruct EA' as (F2 & LEN & OUT & IN).
  assert (NL : ls <> []). { intros ->. inversion F2 as [X|]. congruence. }
  destruct (majority_some ls NL) as (n & v & EV). rewrite EV. cbn [with_hist with_votes ie_votes ie_ui ie_names].
  destruct (ui_loop_progress st (List.length (iterset c)) h' (dset Z.eqb x v (ie_votes s)) sel (ie_ui s)) as (ui' & EUI).
  { intros i J. destruct (KN i J) as (name & l & En & L). rewrite (IN i l J (ex_intro _ name (conj En L))).
    rewrite (i_names _ _ _ _ _ I) in En. destruct (i_hist _ _ _ _ _ I i name En) as [NDi Hi].
    destruct (rewards_ok (dset Z.eqb x l (nth i (ie_hist s) [])) (dset Z.eqb x v (ie_votes s))) as (bs & EB & _).
    { intros z l' D. apply dget_pair in D; [|apply dset_nodup; auto; apply Zeqb_iff]. rewrite dget_zset in D. rewrite dget_zset. destruct (Z.eqb z x); [eauto|].
      apply Hi in D. destruct (i_voted _ _ _ _ _ I name z l' D) as (w & W). exists w. now apply (i_votes _ _ _ _ _ I). }
    unfold calc_uia. rewrite EB. cbn [bind]. eauto. }
  rewrite EUI. destruct (names_of _ _ _ _ F2) as (ns & EN & F1 & _). rewrite EN. exists (with_ui (with_votes (with_hist s h') (dset Z.eqb x v (ie_votes s))) ui'), ns.
  split; [reflexivity|]. intros ->. inversion F1 as [X|]. congruence.
Qed.
