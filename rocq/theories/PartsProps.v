(** A batch is the same as its parts one after the other: C125. *)
From Verif Require Import Base BaseFacts IndexModel MLModel StateModel Dict OracleModel RepoModel PartsSpec.
From Coq Require Import String QArith Lqa.
Local Open Scope Z_scope.
Local Notation length := List.length.

Lemma loop_two {S V W} (f : S -> V -> S * res (list W)) (loop : S -> list V -> S * res (list W)) :
  (forall s, loop s [] = (s, Ok [])) ->
  (forall s v vs, loop s (v :: vs) = match f s v with (s1, Err e) => (s1, Err e)
     | (s1, Ok w) => match loop s1 vs with (s2, Err e) => (s2, Err e) | (s2, Ok w') => (s2, Ok (w ++ w')) end end) ->
  forall vs ws s, in_two loop s vs ws.
Proof.
  intros L0 L1. induction vs as [|v vs IH]; intros ws s t w; cbn [app].
  - rewrite L0. split; [intro H; exists s, [], w; auto|]. intros (s1 & w1 & w2 & E & H & ->). injection E as <- <-. exact H.
  - rewrite !L1. destruct (f s v) as [s1 [w0|e]].
    + specialize (IH ws s1). unfold in_two in IH. destruct (loop s1 (vs ++ ws)) as [s2 [w'|e]] eqn:E.
      * destruct (proj1 (IH s2 w') eq_refl) as (s3 & w1 & w2 & A & B & ->). rewrite A. split.
        -- intro H. injection H as <- <-. exists s3, (w0 ++ w1), w2. rewrite app_assoc. auto.
        -- intros (s4 & w3 & w4 & H & H' & ->). injection H as <- <-. rewrite B in H'. injection H' as <- <-. now rewrite app_assoc.
      * split; [discriminate|]. intros (s4 & w3 & w4 & H & H' & ->). exfalso. destruct (loop s1 vs) as [s5 [w5|]] eqn:A; [|discriminate].
        injection H as -> <-. specialize (proj2 (IH t (w5 ++ w4))). intro K. enough ((s2, @Err (list W) e) = (t, Ok (w5 ++ w4))) by discriminate. apply K. eauto 6.
    + split; [discriminate|]. intros (? & ? & ? & H & _). discriminate.
Qed.

(** Index collections. *)
Theorem C125_sets : forall c vs ws, in_two ic_update c vs ws /\ in_two ic_difference_update c vs ws.
Proof. intros c vs ws. split; [apply (loop_two ic_add)|apply (loop_two ic_discard)]; reflexivity. Qed.
Print Assumptions C125_sets.

Lemma flatten_app m a b : flatten_all m (a ++ b) = match flatten_all m a, flatten_all m b with Ok x, Ok y => Ok (x ++ y) | Err e, _ => Err e | _, Err e => Err e end.
Proof.
  unfold flatten_all. induction a as [|x a IH]; cbn [app mapM].
  - destruct (mapM (flatten_one m) b); reflexivity.
  - destruct (flatten_one m x) as [p|e]; [|reflexivity]. cbn [bind]. destruct (mapM (flatten_one m) (a ++ b)) as [l|]; cbn [bind rmap] in *;
      destruct (mapM (flatten_one m) a) as [l1|]; cbn [bind rmap] in *; destruct (mapM (flatten_one m) b) as [l2|]; cbn [bind rmap] in *; try congruence.
    cbn. injection IH as IH. now rewrite IH, app_assoc.
Qed.
Lemma ml_loop_size f : (forall c v, lsize (fst (f c v)) = lsize c) -> forall vs c, lsize (fst (ml_loop f c vs)) = lsize c.
Proof.
  intro H. induction vs as [|v vs IH]; intro c; [reflexivity|]. cbn. specialize (H c v). destruct (f c v) as [c1 [w|]]; [|exact H]. cbn in H.
  specialize (IH c1). destruct (ml_loop f c1 vs) as [c2 [|]]; cbn in *; congruence.
Qed.
Lemma add2_size c v : lsize (fst (ml_add2 c v)) = lsize c.
Proof.
  assert (I : forall v, lsize (fst (ml_insert c v)) = lsize c) by (intro u; unfold ml_insert; destruct u, (is_set c); try destruct (idx_mem _ _); reflexivity).
  unfold ml_add2. destruct v; try destruct (ml_check _ _); auto.
Qed.
Lemma discard2_size c v : lsize (fst (ml_discard2 c v)) = lsize c.
Proof. unfold ml_discard2. destruct v, (is_set c); try destruct (idx_mem _ _); reflexivity. Qed.

(** Multi-label collections whose number of labels is known, with lists that are not empty. *)
Theorem C125_label_sets : forall c m vs ws, lsize c = Some m -> vs <> [] -> ws <> [] ->
  in_two (ml_update true) c vs ws /\ in_two (ml_difference_update true) c vs ws.
Proof.
  intros c m vs ws M V W.
  assert (G : forall f, (forall c v, lsize (fst (f c v)) = lsize c) ->
     in_two (fun c l => match flatten_idx true (lsize c) l with Err e => (c, Err e) | Ok ps => ml_loop f c (map pair_idx ps) end) c vs ws).
  { intros f Hf t w. cbn beta. unfold flatten_idx. rewrite M.
    assert (C : forall l, l <> [] -> check_index l = Ok tt) by (intros [|]; [congruence|reflexivity]).
    rewrite (C vs V). rewrite (C (vs ++ ws)) by (intro Ap; apply app_eq_nil in Ap; tauto). cbn [bind].
    destruct (Z.ltb_spec 0 m).
    2:{ split; [discriminate|]. intros (? & ? & ? & X & _). discriminate. }
    rewrite flatten_app. destruct (flatten_all m vs) as [x|e] eqn:X; [|split; [discriminate|intros (? & ? & ? & Y & _); discriminate]].
    destruct (flatten_all m ws) as [y|e] eqn:Y.
    - rewrite map_app. rewrite (loop_two f (ml_loop f) ltac:(reflexivity) ltac:(reflexivity) (map pair_idx x) (map pair_idx y) c t w).
      split; intros (s1 & w1 & w2 & A & B & ->); exists s1, w1, w2; (split; [exact A|]); (split; [|reflexivity]);
        pose proof (ml_loop_size f Hf (map pair_idx x) c) as L; rewrite A in L; cbn [fst] in L; rewrite L, M in *.
      + cbn beta. rewrite C by auto. cbn [bind]. destruct (Z.ltb_spec 0 m); [|lia]. now rewrite Y.
      + cbn beta in B. rewrite C in B by auto. cbn [bind] in B. destruct (Z.ltb_spec 0 m); [|lia]. now rewrite Y in B.
    - split; [discriminate|]. intros (s1 & w1 & w2 & A & B & ->). exfalso.
      pose proof (ml_loop_size f Hf (map pair_idx x) c) as L. rewrite A in L. cbn [fst] in L. rewrite L, M in B.
      rewrite C in B by auto. cbn [bind] in B. destruct (Z.ltb_spec 0 m); [|lia]. rewrite Y in B. discriminate. }
  split; [apply (G ml_add2 add2_size)|apply (G ml_discard2 discard2_size)].
Qed.
Print Assumptions C125_label_sets.

Lemma mapM_app {A B} (f : A -> res B) a b : mapM f (a ++ b) = match mapM f a, mapM f b with Ok x, Ok y => Ok (x ++ y) | Err e, _ => Err e | _, Err e => Err e end.
Proof.
  induction a as [|x a IH]; cbn [app mapM]; [now destruct (mapM f b)|]. destruct (f x) as [p|e]; [|reflexivity]. cbn [bind]. rewrite IH.
  destruct (mapM f a); cbn [bind]; [|reflexivity]. destruct (mapM f b); reflexivity.
Qed.
Lemma split_app {A B} (x y : list (A * B)) : List.split (x ++ y) = (fst (List.split x) ++ fst (List.split y), snd (List.split x) ++ snd (List.split y)).
Proof. induction x as [|[a b] x IH]; cbn; [now destruct (List.split y)|]. rewrite IH. destruct (List.split x). reflexivity. Qed.

(** Asking an oracle, by indexes and by examples. *)
Theorem C125_questions : forall o ks ks' xs xs', xs <> [] -> xs' <> [] ->
  (forall ls cs, or_query o (ks ++ ks') = Ok (ls, cs) <->
     exists l1 c1 l2 c2, or_query o ks = Ok (l1, c1) /\ or_query o ks' = Ok (l2, c2) /\ ls = l1 ++ l2 /\ cs = c1 ++ c2) /\
  (forall ls cs, or_query_ex o (xs ++ xs') = Ok (ls, cs) <->
     exists l1 c1 l2 c2, or_query_ex o xs = Ok (l1, c1) /\ or_query_ex o xs' = Ok (l2, c2) /\ ls = l1 ++ l2 /\ cs = c1 ++ c2).
Proof.
  intros o ks ks' xs xs' NX NX'.
  assert (G : forall ks ks' ls cs, or_query o (ks ++ ks') = Ok (ls, cs) <->
     exists l1 c1 l2 c2, or_query o ks = Ok (l1, c1) /\ or_query o ks' = Ok (l2, c2) /\ ls = l1 ++ l2 /\ cs = c1 ++ c2).
  { clear. intros ks ks' ls cs. unfold or_query. rewrite mapM_app. set (f := fun k => match ind_get k (o_ind o) with Some _ => _ | None => _ end).
    destruct (mapM f ks) as [x|e]; cbn [rmap]; [|split; [discriminate|intros (? & ? & ? & ? & X & _); discriminate]].
    destruct (mapM f ks') as [y|e]; cbn [rmap]; [|split; [discriminate|intros (? & ? & ? & ? & _ & X & _); discriminate]].
    rewrite split_app. destruct (List.split x) as [l1 c1], (List.split y) as [l2 c2]. cbn [fst snd]. split.
    - intro H. injection H as <- <-. exists l1, c1, l2, c2. auto.
    - intros (a & b & c & d & E1 & E2 & -> & ->). injection E1 as <- <-. injection E2 as <- <-. reflexivity. }
  split; [apply G|]. intros ls cs. unfold or_query_ex. destruct (o_inst o); cbn [negb]; [|split; [discriminate|intros (? & ? & ? & ? & X & _); discriminate]].
  replace (match xs ++ xs' with [] => [[]] | _ => xs ++ xs' end) with (xs ++ xs') by (destruct xs; [congruence|reflexivity]).
  replace (match xs with [] => [[]] | _ => xs end) with xs by (destruct xs; [congruence|reflexivity]).
  replace (match xs' with [] => [[]] | _ => xs' end) with xs' by (destruct xs'; [congruence|reflexivity]).
  rewrite mapM_app. set (f := fun x => match exa_get x (o_exa o) with Some _ => _ | None => _ end).
  destruct (mapM f xs) as [x|e]; cbn [bind]; [|split; [discriminate|intros (? & ? & ? & ? & X & _); discriminate]].
  destruct (mapM f xs') as [y|e]; cbn [bind]; [apply G|split; [discriminate|intros (? & ? & ? & ? & _ & X & _); discriminate]].
Qed.
Print Assumptions C125_questions.

Lemma add_loop_app a b : forall o, or_add_loop o (a ++ b) = match or_add_loop o a with (o', Ok _) => or_add_loop o' b | (o', Err e) => (o', Err e) end.
Proof. induction a as [|[[[l k] x] c] a IH]; intro o; [reflexivity|]. cbn. destruct (or_add_one o l k x c) as [o' [|]]; auto. Qed.
Lemma combine_app {A B} (a a' : list A) (b b' : list B) : length a = length b -> combine (a ++ a') (b ++ b') = combine a b ++ combine a' b'.
Proof. revert b. induction a as [|x a IH]; intros [|y b] E; try discriminate; [reflexivity|]. cbn. rewrite IH; auto. Qed.
Lemma column_joined {A} n m (a b ab : option (list A)) : joined a b ab -> (forall l, a = Some l -> length l = n) -> (forall l, b = Some l -> length l = m) ->
  column (n + m) ab = column n a ++ column m b.
Proof. intros J La Lb. destruct a, b; cbn in J; try contradiction; subst ab; cbn; [apply map_app|]. apply repeat_app. Qed.
Lemma column_length {A} n (a : option (list A)) : (forall l, a = Some l -> length l = n) -> length (column n a) = n.
Proof. intro H. destruct a; cbn; [rewrite map_length; auto|apply repeat_length]. Qed.

(** Teaching an oracle: a batch of well-formed knowledge against its parts. *)
Lemma teach_many o ls ks xs cs : length ks = length ls -> (forall l, xs = Some l -> length l = length ls) -> (forall l, cs = Some l -> length l = length ls) ->
  or_teach o (TMany ls ks xs cs) = or_add_loop o (combine (combine (combine ls ks) (map (option_map inl) (column (length ls) xs))) (column (length ls) cs)).
Proof.
  intros K X C.
  assert (S : forall A (v : list A), length v = length ls -> same_length v (Some ls) xs cs = true).
  { intros A v Lv. unfold same_length. rewrite Lv, Nat.eqb_refl. destruct xs, cs; cbn; rewrite ?X, ?C, ?Nat.eqb_refl; auto. }
  unfold or_teach. destruct (Nat.eqb_spec (length ks) 1) as [E|E].
  - rewrite S by auto. replace (length ls) with 1%nat by lia. reflexivity.
  - replace (same_length ls (Some ks) xs cs) with true; [reflexivity|]. symmetry. unfold same_length. rewrite K, Nat.eqb_refl. destruct xs, cs; cbn; rewrite ?X, ?C, ?Nat.eqb_refl; auto.
Qed.
Theorem C125_teaching : forall o ls ls' ks ks' xs xs' xxs cs cs' ccs,
  length ks = length ls -> length ks' = length ls' -> joined xs xs' xxs -> joined cs cs' ccs ->
  (forall l, xs = Some l -> length l = length ls) -> (forall l, xs' = Some l -> length l = length ls') ->
  (forall l, cs = Some l -> length l = length ls) -> (forall l, cs' = Some l -> length l = length ls') ->
  or_teach o (TMany (ls ++ ls') (ks ++ ks') xxs ccs) =
    match or_teach o (TMany ls ks xs cs) with (o', Ok _) => or_teach o' (TMany ls' ks' xs' cs') | (o', Err e) => (o', Err e) end.
Proof.
  intros o ls ls' ks ks' xs xs' xxs cs cs' ccs K K' JX JC X X' C C'.
  rewrite (teach_many o ls ks xs cs) by auto.
  rewrite (teach_many o (ls ++ ls') (ks ++ ks') xxs ccs).
  - rewrite !app_length. rewrite (column_joined _ _ xs xs' xxs JX X X'), (column_joined _ _ cs cs' ccs JC C C'), map_app.
    rewrite (combine_app ls ls' ks ks') by auto. rewrite combine_app by (rewrite map_length, column_length, combine_length by auto; lia).
    rewrite combine_app by (rewrite !combine_length, map_length, !column_length by auto; lia).
    rewrite add_loop_app. destruct (or_add_loop o _) as [o' [u|e]]; [|reflexivity]. now rewrite teach_many.
  - rewrite !app_length. lia.
  - intros l E. destruct xs, xs'; cbn in JX; try contradiction; subst; try discriminate. injection E as <-. rewrite !app_length, X, X'; auto.
  - intros l E. destruct cs, cs'; cbn in JC; try contradiction; subst; try discriminate. injection E as <-. rewrite !app_length, C, C'; auto.
Qed.
Print Assumptions C125_teaching.

(** But an example of one feature must be taught in a list: alone it is refused. *)
Theorem C125_teaching_alone_refuted : forall o l k v c,
  o_inst o = true -> o_costf o = false -> key_ty l = o_type o ->
  or_teach o (TOne l k (Some [v]) c) = (o, Err TypeErr) /\ snd (or_teach o (TMany [l] [k] (Some [[v]]) None)) = Ok tt.
Proof.
  intros o l k v c I F T. assert (TE : ty_eqb (key_ty l) (o_type o) = true) by (rewrite T; destruct (o_type o); reflexivity).
  split; cbn; unfold or_add_one; rewrite TE, I; cbn; [reflexivity|]. now rewrite F.
Qed.
Print Assumptions C125_teaching_alone_refuted.

(** Asking through a pool: the total cost is the same; the history has an entry for each call. *)
Theorem C125_pool : forall p ks ks' name p1 r1 p2 r2,
  pool_query p ks (Some name) = (p1, Ok r1) -> pool_query p1 ks' (Some name) = (p2, Ok r2) ->
  exists p3, pool_query p (ks ++ ks') (Some name) = (p3, Ok (fst r1 ++ fst r2, snd r1 ++ snd r2)) /\
    p_dict p3 = p_dict p2 /\ (p_cost p3 == p_cost p2)%Q /\ length (p_hist p2) = S (length (p_hist p3)).
Proof.
  intros p ks ks' name p1 r1 p2 r2 H1 H2. unfold pool_query in *. destruct (pool_ask p ks name) as [r|] eqn:A1; [|discriminate]. injection H1 as <- ->.
  destruct (pool_ask (pool_record p [name] [r1] ks (qsum (snd r1))) ks' name) as [r|] eqn:A2; [|discriminate]. injection H2 as <- ->.
  unfold pool_ask in *. cbn [pool_record p_dict] in *. destruct (dget String.eqb name (p_dict p)) as [o|]; [|discriminate].
  assert (E : or_query o (ks ++ ks') = Ok (fst r1 ++ fst r2, snd r1 ++ snd r2)).
  { destruct (C125_questions o ks ks' [[]] [[]]) as [Q _]; try discriminate. destruct r1 as [l1 c1], r2 as [l2 c2]. apply Q. exists l1, c1, l2, c2. auto. }
  rewrite E. eexists. split; [reflexivity|]. cbn [pool_record p_dict p_cost p_hist snd]. split; [reflexivity|]. split; [|rewrite !app_length; cbn; lia].
  assert (QS : forall l a, (fold_left Qplus l a == a + fold_left Qplus l 0)%Q).
  { induction l as [|x l IH]; intro a; cbn; [ring|]. rewrite IH, (IH (0 + x)%Q). ring. }
  unfold qsum. rewrite fold_left_app. rewrite (QS (snd r2) (fold_left _ _ _)). ring.
Qed.
Print Assumptions C125_pool.

(** The repositories: what they hold and the total cost are the same; only the number of queries and the history tell the
    two calls from one. *)
Definition same_element {A} (r r' : erepo A) : Prop :=
  e_inst r = e_inst r' /\ e_idx r = e_idx r' /\ e_exa r = e_exa r' /\ e_ind r = e_ind r' /\ e_lab r = e_lab r' /\ e_cost r = e_cost r' /\ e_costs r = e_costs r'.
Section Element.
  Context {A : Type}.
  Implicit Types r : erepo A.
  Lemma er_loop_app a b : forall r, er_loop r (a ++ b) = match er_loop r a with (r', Ok _) => er_loop r' b | (r', Err e) => (r', Err e) end.
  Proof. induction a as [|[[[k l] c] x] a IH]; intro r; [reflexivity|]. cbn. destruct (er_add r k l c x) as [r' [|]]; auto. Qed.
  Lemma er_loop_same es : forall r r', same_element r r' -> same_element (fst (er_loop r es)) (fst (er_loop r' es)) /\ snd (er_loop r es) = snd (er_loop r' es).
  Proof.
    induction es as [|[[[k l] c] x] es IH]; intros r r' S; [auto|]. cbn.
    assert (K : same_element (fst (er_add r k l c x)) (fst (er_add r' k l c x)) /\ snd (er_add r k l c x) = snd (er_add r' k l c x)).
    { destruct S as (S1 & S2 & S3 & S4 & S5 & S6 & S7). unfold er_add. rewrite S1. destruct (e_inst r') eqn:I; [destruct x as [[v|]|]|]; cbn;
        (split; [|reflexivity]); unfold same_element; cbn; rewrite ?S1, ?S2, ?S3, ?S4, ?S5, ?S6, ?S7, ?I; repeat split; auto. }
    destruct K as [K1 K2]. destruct (er_add r k l c x) as [a1 b1], (er_add r' k l c x) as [a2 b2]. cbn in K1, K2. subst b2. destruct b1; [apply IH; exact K1|]. cbn. auto.
  Qed.
  Lemma er_loop_num es : forall r, e_num (fst (er_loop r es)) = e_num r /\ e_hist (fst (er_loop r es)) = e_hist r.
  Proof.
    induction es as [|[[[k l] c] x] es IH]; intro r; [auto|]. cbn.
    assert (K : e_num (fst (er_add r k l c x)) = e_num r /\ e_hist (fst (er_add r k l c x)) = e_hist r) by (unfold er_add; destruct (e_inst r); [destruct x as [[v|]|]|]; auto).
    destruct (er_add r k l c x) as [a1 [b1|]]; cbn in *; [|auto]. destruct (IH a1). intuition congruence.
  Qed.
End Element.
Lemma same_length_joined {A B C D} (ls : list A) (ks : list B) (cs : option (list C)) (xs : option (list D)) :
  length ks = length ls -> (forall l, cs = Some l -> length l = length ls) -> (forall l, xs = Some l -> length l = length ls) -> same_length ls (Some ks) cs xs = true.
Proof. intros K X Y. unfold same_length. rewrite K, Nat.eqb_refl. destruct cs, xs; cbn; rewrite ?X, ?Y, ?Nat.eqb_refl; auto. Qed.
Lemma joined_length {A} n m (a b ab : option (list A)) : joined a b ab -> (forall l, a = Some l -> length l = n) -> (forall l, b = Some l -> length l = m) ->
  forall l, ab = Some l -> length l = (n + m)%nat.
Proof. intros J X Y l E. destruct a, b; cbn in J; try contradiction; subst; [|discriminate]. injection E as <-. rewrite app_length, X, Y; auto. Qed.

Theorem C125_repository : forall (A : Type) (r : erepo A) ks ks' ls ls' cs cs' ccs xs xs' xxs,
  length ks = length ls -> length ks' = length ls' -> joined xs xs' xxs -> joined cs cs' ccs ->
  (forall l, xs = Some l -> length l = length ls) -> (forall l, xs' = Some l -> length l = length ls') ->
  (forall l, cs = Some l -> length l = length ls) -> (forall l, cs' = Some l -> length l = length ls') ->
  forall r1 r2, er_update r ks ls cs xs = (r1, Ok tt) -> er_update r1 ks' ls' cs' xs' = (r2, Ok tt) ->
  exists r3, er_update r (ks ++ ks') (ls ++ ls') ccs xxs = (r3, Ok tt) /\ same_element r3 r2 /\ e_num r2 = S (e_num r3) /\
    e_hist r3 = e_hist r ++ [(ls ++ ls', ccs, ks ++ ks')] /\ e_hist r2 = e_hist r ++ [(ls, cs, ks); (ls', cs', ks')].
Proof.
  intros A r ks ks' ls ls' cs cs' ccs xs xs' xxs K K' JX JC X X' C C' r1 r2 H1 H2.
  unfold er_update in *. rewrite same_length_joined in H1, H2 by auto.
  rewrite same_length_joined; [|rewrite !app_length; lia|rewrite app_length; exact (joined_length _ _ _ _ _ JC C C')|rewrite app_length; exact (joined_length _ _ _ _ _ JX X X')].
  cbn [negb] in *. rewrite app_length. rewrite (column_joined _ _ xs xs' xxs JX X X'), (column_joined _ _ cs cs' ccs JC C C'), map_app.
  rewrite (combine_app ks ks' ls ls') by auto. rewrite combine_app by (rewrite column_length, combine_length by auto; lia).
  rewrite combine_app by (rewrite !combine_length, map_length, !column_length by auto; lia).
  rewrite er_loop_app. destruct (er_loop r _) as [q1 [[]|]] eqn:E1; [|discriminate]. injection H1 as <-.
  destruct (er_loop (er_log q1 ls cs ks) _) as [q2 [[]|]] eqn:E2; [|discriminate]. injection H2 as <-.
  match type of E2 with er_loop _ ?es = _ => destruct (er_loop_same es (er_log q1 ls cs ks) q1) as [S1 S2]; [unfold same_element, er_log; cbn; auto 10|];
    destruct (er_loop_num es (er_log q1 ls cs ks)) as [N1 N2]; destruct (er_loop_num es q1) as [N3 N4] end.
  match type of E1 with er_loop _ ?es = _ => destruct (er_loop_num es r) as [N5 N6] end.
  rewrite E1 in N5, N6. rewrite E2 in S1, S2, N1, N2. cbn [fst snd] in *.
  destruct (er_loop q1 _) as [q3 a3]. cbn [fst snd] in *. subst a3. eexists. split; [reflexivity|]. split.
  - destruct S1 as (A1 & A2 & A3 & A4 & A5 & A6 & A7). unfold same_element, er_log. cbn. repeat split; congruence.
  - cbn [er_log e_num e_hist] in *. rewrite N1, N3, N2, N4, N6, <- app_assoc. auto.
Qed.
Print Assumptions C125_repository.

Definition same_matrix (r r' : mrepo) : Prop :=
  m_width r = m_width r' /\ m_inst r = m_inst r' /\ m_feat r = m_feat r' /\ m_y r = m_y r' /\ m_idx r = m_idx r' /\ m_X r = m_X r' /\ m_cost r = m_cost r' /\ m_costs r = m_costs r'.
Lemma mr_loop_app a b : forall r, mr_loop r (a ++ b) = match mr_loop r a with (r', Ok _) => mr_loop r' b | (r', Err e) => (r', Err e) end.
Proof. induction a as [|[[[l k] c] x] a IH]; intro r; [reflexivity|]. cbn. destruct (mr_add r l k c x) as [r' [|]]; auto. Qed.
Lemma mr_loop_same es : forall r r', same_matrix r r' -> same_matrix (fst (mr_loop r es)) (fst (mr_loop r' es)) /\ snd (mr_loop r es) = snd (mr_loop r' es).
Proof.
  induction es as [|[[[l k] c] x] es IH]; intros r r' S; [auto|]. cbn.
  assert (K : same_matrix (fst (mr_add r l k c x)) (fst (mr_add r' l k c x)) /\ snd (mr_add r l k c x) = snd (mr_add r' l k c x)).
  { pose proof S as S'. destruct S as (S1 & S2 & S3 & S4 & S5 & S6 & S7 & S8). unfold mr_add. rewrite S1, S2, S3, S4, S5, S6, S7, S8.
    destruct (zmem k (m_idx r')); [auto|]. destruct (label_fits (m_width r') l); [auto|].
    destruct (m_inst r') eqn:I; [destruct x as [v|]; [destruct (Nat.eqb _ _)|]|]; (split; [|reflexivity]); unfold same_matrix; cbn; rewrite ?I, ?S2; auto 10. }
  destruct K as [K1 K2]. destruct (mr_add r l k c x) as [a1 b1], (mr_add r' l k c x) as [a2 b2]. cbn in K1, K2. subst b2. destruct b1; [apply IH; exact K1|]. cbn. auto.
Qed.
Lemma mr_loop_num es : forall r, m_num (fst (mr_loop r es)) = m_num r /\ m_hist (fst (mr_loop r es)) = m_hist r.
Proof.
  induction es as [|[[[l k] c] x] es IH]; intro r; [auto|]. cbn.
  assert (K : m_num (fst (mr_add r l k c x)) = m_num r /\ m_hist (fst (mr_add r l k c x)) = m_hist r).
  { unfold mr_add. destruct (zmem _ _); [auto|]. destruct (label_fits _ _); [auto|]. destruct (m_inst r); [destruct x as [v|]; [destruct (Nat.eqb _ _)|]|]; auto. }
  destruct (mr_add r l k c x) as [a1 [b1|]]; cbn in *; [|auto]. destruct (IH a1). intuition congruence.
Qed.

Theorem C125_matrix_repository : forall r ks ks' ls ls' cs cs' ccs xs xs' xxs,
  length ks = length ls -> length ks' = length ls' -> joined xs xs' xxs -> joined cs cs' ccs ->
  (forall l, xs = Some l -> length l = length ls) -> (forall l, xs' = Some l -> length l = length ls') ->
  (forall l, cs = Some l -> length l = length ls) -> (forall l, cs' = Some l -> length l = length ls') ->
  forall r1 r2, mr_update r ls ks cs xs = (r1, Ok tt) -> mr_update r1 ls' ks' cs' xs' = (r2, Ok tt) ->
  exists r3, mr_update r (ls ++ ls') (ks ++ ks') ccs xxs = (r3, Ok tt) /\ same_matrix r3 r2 /\ m_num r2 = S (m_num r3) /\
    m_hist r3 = m_hist r ++ [(ls ++ ls', ccs, ks ++ ks')] /\ m_hist r2 = m_hist r ++ [(ls, cs, ks); (ls', cs', ks')].
Proof.
  intros r ks ks' ls ls' cs cs' ccs xs xs' xxs K K' JX JC X X' C C' r1 r2 H1 H2.
  unfold mr_update in *. rewrite same_length_joined in H1, H2 by auto.
  rewrite same_length_joined; [|rewrite !app_length; lia|rewrite app_length; exact (joined_length _ _ _ _ _ JC C C')|rewrite app_length; exact (joined_length _ _ _ _ _ JX X X')].
  cbn [negb] in *. rewrite app_length. rewrite (column_joined _ _ xs xs' xxs JX X X'), (column_joined _ _ cs cs' ccs JC C C').
  rewrite (combine_app ls ls' ks ks') by auto. rewrite combine_app by (rewrite column_length, combine_length by auto; lia).
  rewrite combine_app by (rewrite !combine_length, !column_length by auto; lia).
  rewrite mr_loop_app. destruct (mr_loop r _) as [q1 [[]|]] eqn:E1; [|discriminate]. injection H1 as <-.
  match type of H2 with match mr_loop ?q ?es with _ => _ end = _ => set (q1' := q) in *; set (es2 := es) in * end.
  destruct (mr_loop q1' es2) as [q2 [[]|]] eqn:E2; [|discriminate]. injection H2 as <-.
  destruct (mr_loop_same es2 q1' q1) as [S1 S2]; [unfold same_matrix, q1'; cbn; auto 10|].
  destruct (mr_loop_num es2 q1') as [N1 N2]. destruct (mr_loop_num es2 q1) as [N3 N4].
  match type of E1 with mr_loop _ ?es = _ => destruct (mr_loop_num es r) as [N5 N6] end.
  rewrite E1 in N5, N6. rewrite E2 in S1, S2, N1, N2. cbn [fst snd] in *.
  destruct (mr_loop q1 es2) as [q3 a3]. cbn [fst snd] in *. subst a3. eexists. split; [reflexivity|]. split.
  - destruct S1 as (A1 & A2 & A3 & A4 & A5 & A6 & A7 & A8). unfold same_matrix. cbn. repeat split; congruence.
  - unfold q1' in *. cbn [m_num m_hist] in *. rewrite N1, N3, N2, N4, N6, <- app_assoc. auto.
Qed.
Print Assumptions C125_matrix_repository.

(** ** Cases *)

Example C125_case_sets :
  ic_update {| cont := [VKey (KInt 1)]; etype := Some TInt |} [VKey (KInt 2); VKey (KInt 1); VKey (KInt 3)] =
    ({| cont := map (fun i => VKey (KInt i)) [1; 2; 3]; etype := Some TInt |}, Ok [WRepeat]).
Proof. reflexivity. Qed.
Example C125_case_repository : exists r r1 r2, er_init [10; 20] [KInt 0; KInt 1] (Some [[1]; [2]]) = Ok r /\
  er_update r [KInt 5] [30] (Some [2]%Q) (Some [[7]]) = (r1, Ok tt) /\ er_update r1 [KInt 6; KInt 7] [40; 50] (Some [1; 1]%Q) (Some [[8]; [9]]) = (r2, Ok tt) /\ (e_cost r2 == 4)%Q.
Proof. do 3 eexists. repeat split; reflexivity. Qed.
Example C125_case_matrix : exists r r1 r2, mr_init [LNum 10] [0] None = Ok r /\
  mr_update r [LNum 3] [5] None None = (r1, Ok tt) /\ mr_update r1 [LNum 4; LNum 6] [6; 5] None None = (r2, Ok tt) /\ m_idx r2 = [0; 5; 6].
Proof. do 3 eexists. repeat split; reflexivity. Qed.
Example C125_case_pool : exists o p1 r1 p2 r2, or_init [KInt 1; KInt 2; KInt 3] None None (Some [1; 2; 3]%Q) = Ok o /\
  pool_query (pool_add pool_new "a" o) [KInt 0] (Some "a"%string) = (p1, Ok r1) /\ pool_query p1 [KInt 2; KInt 1] (Some "a"%string) = (p2, Ok r2) /\ (p_cost p2 == 6)%Q.
Proof. do 5 eexists. repeat split; reflexivity. Qed.
Example C125_case_alone : exists o, or_init [KInt 1] (Some [[4]]) None None = Ok o /\ o_inst o = true /\ o_costf o = false /\ key_ty (KInt 9) = o_type o.
Proof. eexists. repeat split; reflexivity. Qed.
Example C125_case_labels : exists c w, ml_update true {| mcont := []; is_set := true; lsize := Some 2 |} [IOne 0; IPair 1 1] = (c, Ok w) /\ length (mcont c) = 3%nat.
Proof. do 2 eexists. repeat split; reflexivity. Qed.
