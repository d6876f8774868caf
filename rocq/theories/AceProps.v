(** Property C115: the life of a threaded experiment. *)
From Verif Require Import Base BaseFacts AceModel AceSpec.

Section Facts.
Context {R T G : Type}.
Variable body : T -> nat -> option G -> R -> R * option R.
Notation rr := (run_rounds R T G body).

Lemma run_facts t g todo : forall sv i fs, List.length todo <= List.length sv ->
  let '(sv', fs', l) := rr t g i todo sv fs in
  List.length sv' = List.length sv /\
  (forall j r, nth_error sv j = Some r ->
     nth_error sv' j = Some (match nth_error todo j with Some true => fst (body t (i + j) g r) | _ => r end)) /\
  (forall j, j < i -> fs' j = fs j) /\ (forall j, i + List.length todo <= j -> fs' j = fs j) /\
  (forall j r, nth_error sv j = Some r -> j < List.length todo ->
     fs' (i + j) = match nth_error todo j with Some true => kept (snd (body t (i + j) g r)) (fs (i + j)) | _ => fs (i + j) end) /\
  map who l = map (fun j => i + j) (filter (fun j => nth j todo false) (seq 0 (List.length todo))) /\
  (forall x, In x l -> snd (fst x) = g /\ exists j, who x = i + j /\ nth_error todo j = Some true /\ nth_error sv j = Some (snd x)).
Proof.
  induction todo as [|b todo IH]; intros sv i fs L.
  - assert (E : rr t g i [] sv fs = (sv, fs, [])) by (destruct sv; reflexivity). rewrite E. split; auto. split; [|split; [|split; [|split; [|split]]]]; auto.
    + intros j r H. destruct j; exact H.
    + intros j r _ H. cbn in H. lia.
    + intros x [].
  - destruct sv as [|r sv]; [cbn in L; lia|]. cbn [List.length] in L. cbn [run_rounds].
    assert (Sh : forall j, S i + j = i + S j) by (intro; lia).
    assert (Sq : map (fun j => i + j) (filter (fun j => nth j (b :: todo) false) (seq 0 (S (List.length todo)))) =
                 (if b then [i] else []) ++ map (fun j => S i + j) (filter (fun j => nth j todo false) (seq 0 (List.length todo)))).
    { cbn [seq filter nth]. rewrite <- seq_shift.
      assert (E : forall l, filter (fun j => match j with O => b | S n => nth n todo false end) (map S l) = map S (filter (fun j => nth j todo false) l)).
      { induction l as [|x l IHl]; cbn [map filter]; auto. rewrite IHl. destruct (nth x todo false); reflexivity. }
      destruct b; cbn [map]; rewrite E, map_map; cbn [app]; [rewrite Nat.add_0_r; f_equal|]; apply map_ext; intro; lia. }
    destruct b.
    + destruct (body t i g r) as [r' o] eqn:Eb. specialize (IH sv (S i) (put_file R fs i o) ltac:(lia)).
      destruct (rr t g (S i) todo sv (put_file R fs i o)) as [[sv' fs'] l]. destruct IH as (I1 & I2 & I3 & I4 & I5 & I6 & I7).
      split; [cbn; lia|]. split; [|split; [|split; [|split; [|split]]]].
      * intros [|j] x Hx; cbn [nth_error] in *; [injection Hx as <-; rewrite Nat.add_0_r, Eb; reflexivity|]. rewrite <- Sh. auto.
      * intros j Hj. rewrite I3 by lia. unfold put_file. destruct (Nat.eqb_spec j i); [lia|auto].
      * intros j Hj. cbn [List.length] in Hj. rewrite I4 by lia. unfold put_file. destruct (Nat.eqb_spec j i); [lia|auto].
      * intros [|j] x Hx Hj; cbn [nth_error List.length] in *.
        -- injection Hx as <-. rewrite Nat.add_0_r, I3 by lia. unfold put_file. rewrite Nat.eqb_refl, Eb. reflexivity.
        -- rewrite <- Sh, (I5 j x Hx) by lia. unfold put_file. destruct (Nat.eqb_spec (S i + j) i); [lia|auto].
      * cbn [List.length]. rewrite Sq. cbn [map app]. rewrite I6. reflexivity.
      * intros x [<-|Hx]; [split; auto; exists 0; cbn; auto|]. destruct (I7 x Hx) as (P1 & j & P2 & P3 & P4). split; auto.
        exists (S j). rewrite <- Sh. auto.
    + specialize (IH sv (S i) fs ltac:(lia)).
      destruct (rr t g (S i) todo sv fs) as [[sv' fs'] l]. destruct IH as (I1 & I2 & I3 & I4 & I5 & I6 & I7).
      split; [cbn; lia|]. split; [|split; [|split; [|split; [|split]]]].
      * intros [|j] x Hx; cbn [nth_error] in *; [exact Hx|]. rewrite <- Sh. auto.
      * intros j Hj. apply I3. lia.
      * intros j Hj. cbn [List.length] in Hj. apply I4. lia.
      * intros [|j] x Hx Hj; cbn [nth_error List.length] in *.
        -- rewrite Nat.add_0_r. apply I3. lia.
        -- rewrite <- Sh. apply (I5 j x Hx). lia.
      * cbn [List.length]. rewrite Sq. exact I6.
      * intros x Hx. destruct (I7 x Hx) as (P1 & j & P2 & P3 & P4). split; auto. exists (S j). rewrite <- Sh. auto.
Qed.

Lemma recover_facts alive : forall fresh i (fs : nat -> option R), List.length alive = List.length fresh ->
  match recover_rounds R i alive fresh fs with
  | Ok l => List.length l = List.length fresh /\
            forall j b r, nth_error alive j = Some b -> nth_error fresh j = Some r ->
              (b = true -> fs (i + j) <> None) /\
              nth_error l j = Some (match fs (i + j) with Some x => (b, x) | None => (true, r) end)
  | Err e => e = FileErr /\ exists j, nth_error alive j = Some true /\ fs (i + j) = None
  end.
Proof.
  induction alive as [|b alive IH]; intros [|r fresh] i fs L; try discriminate.
  - cbn. split; auto. intros [|j] ? ? H; discriminate.
  - cbn [recover_rounds]. injection L as L. specialize (IH fresh (S i) fs L).
    assert (Sh : forall j, S i + j = i + S j) by (intro; lia).
    destruct (recover_round R b (fs i) r) as [x|e] eqn:E; cbn [bind].
    + assert (X : (b = true -> fs i <> None) /\ x = match fs i with Some y => (b, y) | None => (true, r) end).
      { destruct b, (fs i); cbn in E; try discriminate; injection E as <-; split; auto; discriminate. }
      destruct (recover_rounds R (S i) alive fresh fs) as [l|e]; cbn [bind].
      * destruct IH as [I1 I2]. split; [cbn; lia|]. intros [|j] b0 r0 H1 H2; cbn [nth_error] in *.
        -- injection H1 as <-. injection H2 as <-. rewrite Nat.add_0_r. destruct X as [X1 X2]. split; auto. now f_equal.
        -- rewrite <- Sh. auto.
      * destruct IH as (-> & j & H1 & H2). split; auto. exists (S j). rewrite <- Sh. auto.
    + destruct b, (fs i) eqn:F; cbn in E; try discriminate. injection E as <-. split; auto. exists 0. rewrite Nat.add_0_r. auto.
Qed.
Lemma exists_round todo : existsb (fun b : bool => b) todo = true <-> exists j, nth_error todo j = Some true.
Proof.
  rewrite existsb_exists. split.
  - intros (x & I & ->). now apply In_nth_error in I.
  - intros (j & H). exists true. split; auto. now apply nth_error_In in H.
Qed.
Lemma nth_repeat_true n j : j < n -> nth j (repeat true n) false = true.
Proof. revert j. induction n; intros [|j] L; cbn; try lia; auto. apply IHn. lia. Qed.
Lemma nth_repeat_error {A} (x : A) n j : j < n -> nth_error (repeat x n) j = Some x.
Proof. revert j. induction n; intros [|j] L; cbn; try lia; auto. apply IHn. lia. Qed.

Notation todo_ := (todo_of R T G).
Notation rounds_ := (rounds R T G).
Lemma seq_filter_all n : filter (fun j => nth j (repeat true n) false) (seq 0 n) = seq 0 n.
Proof.
  assert (K : forall m k, filter (fun j => nth j (repeat true (k + m)) false) (seq k m) = seq k m).
  { induction m as [|m IH]; intro k; cbn [seq filter]; auto. rewrite nth_repeat_true by lia. f_equal. rewrite <- Nat.add_succ_comm. apply IH. }
  apply (K n 0).
Qed.

(** What one call of [start] does when it runs rounds. *)
Definition ran (t : T) (g : option G) (todo : list bool) (sv : list R) (w : world R T G) (w' : world R T G) : Prop :=
  (exists l, log w' = log w ++ l /\ map who l = filter (fun j => nth j todo false) (seq 0 (List.length todo)) /\
     forall x, In x l -> snd (fst x) = g /\ nth_error sv (who x) = Some (snd x)) /\
  List.length (results w') = List.length sv /\
  (forall j r, nth_error sv j = Some r ->
     nth_error (results w') j = Some (match nth_error todo j with Some true => fst (body t j g r) | _ => r end)) /\
  (forall j, files w' j = match nth_error todo j, nth_error sv j with Some true, Some r => kept (snd (body t j g r)) (files w j) | _, _ => files w j end).
Lemma start_spec w (a : ace R T G) t g : a_target a = Some t -> a_threads a = 0 -> List.length (todo_ a) = List.length (a_saver a) ->
  (exists j, nth_error (todo_ a) j = Some true) ->
  exists a2 w', start R T G body w a g = (w', Ok tt) /\ obj w' = Some a2 /\ state w' = State a2 /\ a_fresh a2 = a_fresh a /\ a_target a2 = Some t /\
    a_params a2 = Some g /\ a_alive a2 = repeat false (rounds_ a) /\ ran t g (todo_ a) (a_saver a) w w'.
Proof.
  intros Ht H0 L Ex. unfold start. rewrite Ht, H0. rewrite (proj2 (exists_round _) Ex).
  pose proof (run_facts t g (todo_ a) (a_saver a) 0 (files w) ltac:(lia)) as F.
  destruct (rr t g 0 (todo_ a) (a_saver a) (files w)) as [[sv fs] l]. destruct F as (F1 & F2 & F3 & F4 & F5 & F6 & F7).
  eexists _, _. split; [reflexivity|]. cbn [obj state]. split; auto. split; auto. cbn. split; auto. split; auto. split; auto. split; auto.
  unfold ran. cbn [log files results obj with_saver a_saver]. split; [|split; [|split]]; auto.
  - exists l. split; auto. split; [rewrite F6; cbn; now rewrite map_id|]. intros x Hx. destruct (F7 x Hx) as (A & j & B & _ & C). split; auto. now rewrite B.
  - intro j. destruct (Nat.lt_ge_cases j (List.length (todo_ a))) as [K|K].
    + destruct (nth_error (a_saver a) j) as [r|] eqn:E.
      * pose proof (F5 j r E K) as H5. cbn [Nat.add] in H5. rewrite H5. destruct (nth_error (todo_ a) j) as [[]|]; reflexivity.
      * apply nth_error_None in E. lia.
    + rewrite F4 by (cbn; lia). destruct (nth_error (todo_ a) j) eqn:E; auto. assert (j < List.length (todo_ a)) by (apply nth_error_Some; congruence). lia.
Qed.
End Facts.

(** An experiment that is not interrupted: every round is run once, in the order of the numbers, from its own first record
    and with the parameters of the call; the results are the records at the end, and what the rounds saved is in their files. *)
Theorem C115_complete : forall R T G (body : T -> nat -> option G -> R -> R * option R) w f t g, f <> [] ->
  snd (step R T G body (fst (step R T G body w (New f (Some t)))) (Start g)) = Ok tt /\
  let w' := run R T G body w [New f (Some t); Start g] in
  (exists l, log w' = log w ++ l /\ map who l = seq 0 (List.length f) /\
     forall x, In x l -> snd (fst x) = g /\ nth_error f (who x) = Some (snd x)) /\
  forall i, nth_error (results w') i = option_map (fun r => fst (body t i g r)) (nth_error f i) /\
    files w' i = match nth_error f i with Some r => kept (snd (body t i g r)) (files w i) | None => files w i end.
Proof.
  intros R T G body w f t g Hf.
  set (w0 := set_obj R T G w (Some (new R T G f (Some t)))).
  assert (Nt : forall j, j < List.length f -> nth_error (repeat true (List.length f)) j = Some true) by (intros; now apply nth_repeat_error).
  destruct (start_spec body w0 (new R T G f (Some t)) t g) as (a2 & w' & E & Eo & _ & _ & _ & _ & _ & (l & L1 & L2 & L3) & Le & Rs & Fs); auto.
  { cbn. apply repeat_length. }
  { exists 0. apply Nt. destruct f; [congruence|cbn; lia]. }
  assert (Es : step R T G body w0 (Start g) = (w', Ok tt)) by exact E.
  assert (Er : run R T G body w [New f (Some t); Start g] = w') by (unfold run; cbn [fold_left]; change (fst (step R T G body w (New f (Some t)))) with w0; now rewrite Es).
  change (fst (step R T G body w (New f (Some t)))) with w0. rewrite Es, Er. split; auto. cbn zeta.
  change (todo_of R T G (new R T G f (Some t))) with (repeat true (List.length f)) in *. cbn [new a_saver] in *.
  split.
  - exists l. split; [exact L1|]. split; [|exact L3]. rewrite L2, repeat_length. apply seq_filter_all.
  - intro i. rewrite Fs. cbn [w0 set_obj files]. destruct (nth_error f i) as [r|] eqn:En.
    + assert (i < List.length f) by (apply nth_error_Some; congruence). rewrite (Rs i r En), (Nt i) by auto. auto.
    + apply nth_error_None in En. split; [cbn; apply nth_error_None; lia|]. destruct (nth_error (repeat true (List.length f)) i) as [[]|]; auto.
Qed.
Print Assumptions C115_complete.

Lemma quiet_keeps R T G body qs : Forall (@quiet R T G) qs -> forall w a, obj w = Some a ->
  exists a', obj (run R T G body w qs) = Some a' /\ a_params a' = a_params a /\ a_fresh a' = a_fresh a /\ a_alive a' = a_alive a /\
    a_saver a' = a_saver a /\ a_todo a' = a_todo a /\ a_threads a' = a_threads a /\ files (run R T G body w qs) = files w.
Proof.
  induction 1 as [|e qs Q _ IH]; intros w a E; [exists a; cbn; auto 10|].
  change (run R T G body w (e :: qs)) with (run R T G body (fst (step R T G body w e)) qs).
  destruct e; cbn in Q; try contradiction.
  - assert (Es : fst (step R T G body w (SetTarget t)) = set_obj R T G w (Some (set_target R T G a t))) by (unfold step; now rewrite E).
    rewrite Es. destruct (IH (set_obj R T G w (Some (set_target R T G a t))) (set_target R T G a t) eq_refl) as (a' & H1 & H2 & H3 & H4 & H5 & H6 & H7 & H8).
    exists a'. auto 10.
  - assert (Es : obj (fst (step R T G body w Save)) = Some a /\ files (fst (step R T G body w Save)) = files w)
      by (unfold step; rewrite E; unfold save; destruct (a_params a); cbn; rewrite ?E; auto).
    destruct Es as [Eo Ef]. destruct (IH _ a Eo) as (a' & H1 & H2 & H3 & H4 & H5 & H6 & H7 & H8). exists a'. rewrite <- Ef. auto 10.
Qed.

(** An experiment that was made or recovered but not started cannot be saved: the call raises, and it has emptied the state
    file, so that an earlier complete state in it is lost. *)
Theorem C115_save_unstarted_refuted : forall R T G body w e qs,
  (exists f t, e = New f t) \/ (e = Recover /\ snd (step R T G body w e) = Ok tt) -> Forall (@quiet R T G) qs ->
  let w' := run R T G body w (e :: qs) in
  let w'' := fst (step R T G body w' Save) in
  snd (step R T G body w' Save) = Err AttrErr /\ state w'' = Broken /\ snd (step R T G body w'' Recover) = Err GenericErr.
Proof.
  intros R T G body w e qs He Q.
  assert (O : exists a, obj (fst (step R T G body w e)) = Some a /\ a_params a = None).
  { destruct He as [(f & t & ->)|(-> & E)]; [exists (new R T G f t); auto|]. cbn [step] in *. unfold recover in *.
    destruct (state w); try discriminate. destruct (recover_rounds _ _ _ _ _); [|discriminate]. cbn. eexists. auto. }
  destruct O as (a & O & P). destruct (quiet_keeps R T G body qs Q _ a O) as (a' & O' & P' & _).
  cbn zeta. change (run R T G body w (e :: qs)) with (run R T G body (fst (step R T G body w e)) qs).
  set (w' := run R T G body (fst (step R T G body w e)) qs) in *. rewrite P in P'.
  assert (S : step R T G body w' Save = ({| obj := obj w'; state := Broken; files := files w'; log := log w' |}, Err AttrErr)).
  { unfold step. rewrite O'. unfold save. rewrite P', O'; reflexivity. }
  rewrite S. cbn [fst snd state]. auto.
Qed.
Print Assumptions C115_save_unstarted_refuted.

Lemma objects R T G body h : forall w, (forall a, obj w = Some a -> a_alive a = repeat false (rounds R T G a)) ->
  forall a, obj (run R T G body w h) = Some a -> a_alive a = repeat false (rounds R T G a).
Proof.
  induction h as [|e h IH]; intros w I; [exact I|]. change (run R T G body w (e :: h)) with (run R T G body (fst (step R T G body w e)) h).
  apply IH. intros a. destruct e; cbn [step].
  - cbn. intro E. injection E as <-. reflexivity.
  - destruct (obj w) as [b|] eqn:Eb; cbn; intro E; [|congruence]. injection E as <-. cbn. now apply I.
  - destruct (obj w) as [b|] eqn:Eb; [|cbn; congruence]. unfold start. destruct (a_target b); [|cbn; rewrite Eb; intro E; injection E as <-; now apply I].
    destruct (existsb _ _); [destruct (a_threads b)|].
    + destruct (run_rounds _ _ _ _ _ _ _ _ _ _) as [[sv fs] l]. cbn. intro E. injection E as <-. reflexivity.
    + cbn. intro E. injection E as <-. cbn. now apply I.
    + cbn. intro E. injection E as <-. cbn. now apply I.
  - destruct (obj w) as [b|] eqn:Eb; [|cbn; congruence]. cbn. unfold killed.
    destruct (a_target b); [|discriminate]. destruct (nth_error (todo_of R T G b) k) as [[]|]; try discriminate.
    destruct (nth_error (a_saver b) k); [|discriminate]. destruct (a_threads b); [|discriminate].
    destruct (run_rounds _ _ _ _ _ _ _ _ _ _) as [[sv fs] l]. discriminate.
  - destruct (obj w) as [b|] eqn:Eb; [|cbn; congruence]. unfold save. destruct (a_params b); cbn; rewrite Eb; intro E; injection E as <-; now apply I.
  - discriminate.
  - unfold recover. destruct (state w); [now apply I|now apply I|]. destruct (recover_rounds _ _ _ _ _); [|now apply I].
    cbn. intro E. injection E as <-. reflexivity.
Qed.

(** Once started, it can be saved; recovering the saved state gives the experiment with the records of the files, and with
    its first record for a round that saved nothing. *)
Theorem C115_saved : forall R T G body h g qs fs, Forall (@quiet R T G) qs ->
  let w := run R T G body {| obj := None; state := NoState; files := fs; log := [] |} h in
  snd (step R T G body w (Start g)) = Ok tt ->
  let w' := run R T G body (fst (step R T G body w (Start g))) qs in
  exists a, obj w' = Some a /\ snd (step R T G body w' Save) = Ok tt /\
  let w'' := run R T G body w' [Save; Exit] in
  snd (step R T G body w'' Recover) = Ok tt /\
  exists a', obj (fst (step R T G body w'' Recover)) = Some a' /\ a_target a' = a_target a /\ a_fresh a' = a_fresh a /\
    forall i r, nth_error (a_fresh a) i = Some r ->
      nth_error (a_saver a') i = Some (match files w' i with Some x => x | None => r end) /\
      nth_error (todo_of R T G a') i = Some (match files w' i with Some _ => false | None => true end).
Proof.
  intros R T G body h g qs fs Q w Ok' w'.
  assert (O : exists a, obj (fst (step R T G body w (Start g))) = Some a /\ a_params a <> None).
  { cbn [step] in *. destruct (obj w) as [b|]; [|discriminate]. unfold start in *. destruct (a_target b); [|discriminate].
    destruct (existsb _ _); [destruct (a_threads b)|].
    - destruct (run_rounds _ _ _ _ _ _ _ _ _ _) as [[sv f] l]. cbn. eexists. split; [reflexivity|discriminate].
    - discriminate.
    - cbn. eexists. split; [reflexivity|discriminate]. }
  destruct O as (a & O & P). destruct (quiet_keeps R T G body qs Q _ a O) as (a1 & O1 & P1 & _). fold w' in O1. exists a1. split; auto.
  assert (Al : a_alive a1 = repeat false (rounds R T G a1)).
  { apply (objects R T G body (h ++ Start g :: qs) {| obj := None; state := NoState; files := fs; log := [] |}); [discriminate|].
    unfold run. rewrite fold_left_app. exact O1. }
  rewrite <- P1 in P. assert (S : step R T G body w' Save = ({| obj := obj w'; state := State a1; files := files w'; log := log w' |}, Ok tt)).
  { unfold step. rewrite O1. unfold save. destruct (a_params a1); [now rewrite O1|congruence]. }
  split; [now rewrite S|]. cbn zeta. set (w'' := run R T G body w' [Save; Exit]).
  assert (W : w'' = {| obj := None; state := State a1; files := files w'; log := log w' |}).
  { unfold w'', run. cbn [fold_left]. rewrite S. reflexivity. }
  rewrite W. cbn [step]. unfold recover. cbn [state files].
  pose proof (recover_facts (a_alive a1) (a_fresh a1) 0 (files w')) as F. rewrite Al in *. specialize (F (repeat_length _ _)).
  destruct (recover_rounds R 0 (repeat false (rounds R T G a1)) (a_fresh a1) (files w')) as [l|e].
  - destruct F as [F1 F2]. split; auto. eexists. split; [reflexivity|]. cbn [a_target a_fresh a_saver todo_of a_todo]. split; auto. split; auto.
    intros i r E. destruct (F2 i false r) as [_ F]; auto.
    { apply nth_repeat_error. apply nth_error_Some. unfold rounds. congruence. }
    cbn [Nat.add] in F. rewrite !nth_error_map, F. destruct (files w' i); cbn; auto.
  - destruct F as (_ & j & F & _). exfalso. apply nth_error_In in F. now apply repeat_spec in F.
Qed.
Print Assumptions C115_saved.

Lemma nth_eqb_seq k n i : i < n -> nth_error (map (Nat.eqb k) (seq 0 n)) i = Some (Nat.eqb k i).
Proof.
  intro L. rewrite nth_error_map. assert (E : nth_error (seq 0 n) i = Some i).
  { rewrite (nth_error_nth' _ 0) by (rewrite seq_length; auto). now rewrite seq_nth. }
  now rewrite E.
Qed.

(** An experiment killed while round [k] is running, one round at a time, then recovered and started again. The files hold
    what was saved, or what had been in them before. Recovering raises exactly if there is no file for round [k]. Otherwise
    round [k] and the rounds without a file are run, with the parameters of the new call, round [k] from the record in its
    file and the others from the beginning; for all other rounds the record in the file is the result. *)
Theorem C115_interrupted : forall R T G (body : T -> nat -> option G -> R -> R * option R) w f t g k part, k < List.length f ->
  let w1 := run R T G body w [New f (Some t); Killed g k part] in
  (forall i, files w1 i = if i <? k then match nth_error f i with Some r => kept (snd (body t i g r)) (files w i) | None => files w i end
                          else if i =? k then kept part (files w i) else files w i) /\
  (files w1 k = None -> snd (step R T G body w1 Recover) = Err FileErr) /\
  (files w1 k <> None -> snd (step R T G body w1 Recover) = Ok tt /\ forall g',
     let w2 := run R T G body w1 [Recover; Start g'] in
     (exists l, log w2 = log w1 ++ l /\
        map who l = filter (fun i => (i =? k) || match files w1 i with Some _ => false | None => true end) (seq 0 (List.length f)) /\
        forall x, In x l -> snd (fst x) = g' /\
          Some (snd x) = match files w1 (who x) with Some r => Some r | None => nth_error f (who x) end) /\
     List.length (results w2) = List.length f /\
     forall i r, nth_error f i = Some r ->
       nth_error (results w2) i = Some (match files w1 i with
                                        | Some x => if i =? k then fst (body t i g' x) else x
                                        | None => fst (body t i g' r)
                                        end)).
Proof.
  intros R T G body w f t g k part Hk.
  set (w0 := set_obj R T G w (Some (new R T G f (Some t)))). set (n := List.length f) in *.
  set (w1 := run R T G body w [New f (Some t); Killed g k part]). cbn zeta.
  assert (Tk : firstn k (repeat true n) = repeat true k).
  { replace n with (k + (n - k)) by lia. rewrite repeat_app, firstn_app, repeat_length, Nat.sub_diag, firstn_O, app_nil_r, <- (repeat_length true k) at 1. now rewrite firstn_all. }
  destruct (nth_error f k) as [rk|] eqn:Ek; [|apply nth_error_None in Ek; unfold n in *; lia].
  pose proof (run_facts body t g (repeat true k) f 0 (files w)) as F. rewrite repeat_length in F. specialize (F ltac:(unfold n in *; lia)).
  destruct (run_rounds R T G body t g 0 (repeat true k) f (files w)) as [[sv fs] l] eqn:Er.
  destruct F as (F1 & F2 & F3 & F4 & F5 & F6 & F7).
  set (a2 := with_saver R T G (begin R T G (new R T G f (Some t)) g) (map (Nat.eqb k) (seq 0 n)) sv).
  assert (W : w1 = {| obj := None; state := State a2; files := put_file R fs k part; log := log w ++ l ++ [(k, g, rk)] |}).
  { unfold w1, run. cbn [fold_left step fst set_obj obj]. unfold killed. cbn [new a_target a_saver a_threads].
    change (todo_of R T G (new R T G f (Some t))) with (repeat true n). rewrite nth_repeat_error by auto. rewrite Ek, Tk.
    cbn [set_obj files]. rewrite Er. reflexivity. }
  assert (Fi : forall i, files w1 i = if i <? k then match nth_error f i with Some r => kept (snd (body t i g r)) (files w i) | None => files w i end
                          else if i =? k then kept part (files w i) else files w i).
  { intro i. rewrite W. cbn [files]. unfold put_file. destruct (Nat.eqb_spec i k) as [->|N].
    - rewrite Nat.ltb_irrefl. rewrite F4 by lia. destruct part; reflexivity.
    - destruct (Nat.ltb_spec i k) as [L|L]; [|now rewrite F4 by lia]. destruct (nth_error f i) as [r|] eqn:E; [|apply nth_error_None in E; unfold n in *; lia].
      pose proof (F5 i r E L) as H5. cbn [Nat.add] in H5. now rewrite H5, nth_repeat_error. }
  split; [exact Fi|]. cbn [step]. unfold recover at 1 2.
  pose proof (recover_facts (map (Nat.eqb k) (seq 0 n)) f 0 (files w1)) as F. rewrite map_length, seq_length in F. specialize (F eq_refl).
  assert (Es : state w1 = State a2) by now rewrite W. rewrite Es. change (a_alive a2) with (map (Nat.eqb k) (seq 0 n)). change (a_fresh a2) with f.
  destruct (recover_rounds R 0 (map (Nat.eqb k) (seq 0 n)) f (files w1)) as [ps|e] eqn:Ep.
  - destruct F as [P1 P2]. split.
    + intro N. destruct (P2 k true rk) as [X _]; auto; [rewrite nth_eqb_seq, Nat.eqb_refl by auto; reflexivity|]. now destruct (X eq_refl).
    + intro N. split; auto. intro g'.
      set (a3 := {| a_fresh := f; a_target := a_target a2; a_params := None; a_alive := repeat false (rounds R T G a2); a_saver := map snd ps; a_threads := 0; a_todo := Some (map fst ps) |} : ace R T G).
      assert (Nth : forall i r, nth_error f i = Some r -> nth_error ps i = Some (match files w1 i with Some x => (k =? i, x) | None => (true, r) end)).
      { intros i r E. assert (i < n) by (apply nth_error_Some; congruence). destruct (P2 i (k =? i) r) as [_ X]; auto. now rewrite nth_eqb_seq. }
      assert (R1 : fst (step R T G body w1 Recover) = set_obj R T G w1 (Some a3)).
      { cbn [step]. unfold recover. rewrite Es. change (a_alive a2) with (map (Nat.eqb k) (seq 0 n)). change (a_fresh a2) with f. rewrite Ep. reflexivity. }
      destruct (start_spec body (set_obj R T G w1 (Some a3)) a3 t g') as (a4 & w2 & E4 & O4 & _ & _ & _ & _ & _ & (l4 & L1 & L2 & L3) & Le & Rs & Fs); auto.
      { change (todo_of R T G a3) with (map fst ps). cbn. now rewrite !map_length. }
      { exists k. change (todo_of R T G a3) with (map fst ps). rewrite nth_error_map, (Nth k rk Ek). destruct (files w1 k); cbn; now rewrite ?Nat.eqb_refl. }
      assert (W2 : run R T G body w1 [Recover; Start g'] = w2).
      { unfold run. cbn [fold_left]. rewrite R1. assert (X : step R T G body (set_obj R T G w1 (Some a3)) (Start g') = (w2, Ok tt)) by exact E4. now rewrite X. }
      rewrite W2. change (todo_of R T G a3) with (map fst ps) in *. change (a_saver a3) with (map snd ps) in *.
      assert (Nf : forall i, i < n -> exists r, nth_error f i = Some r) by (intros i Hi; destruct (nth_error f i) eqn:E; [eauto|apply nth_error_None in E; unfold n in *; lia]).
      assert (In4 : forall i, nth i (map fst ps) false = true -> i < n).
      { intros i H. destruct (Nat.lt_ge_cases i n) as [|K]; auto. rewrite nth_overflow in H; [discriminate|]. rewrite map_length. lia. }
      split.
      * exists l4. split; [exact L1|]. split.
        -- rewrite L2, map_length, P1. apply filter_ext_in. intros i Hi. apply in_seq in Hi. destruct (Nf i) as [r E]; [unfold n; lia|].
           pose proof (Nth i r E) as X. apply (map_nth_error fst) in X. rewrite (nth_error_nth _ _ false X).
           destruct (files w1 i); cbn [fst]; [rewrite Nat.eqb_sym; now rewrite orb_false_r|now rewrite orb_true_r].
        -- intros x Hx. destruct (L3 x Hx) as [A B]. split; auto. rewrite nth_error_map in B.
           destruct (Nat.lt_ge_cases (who x) n) as [Hi|Hi].
           ++ destruct (Nf _ Hi) as [r E]. rewrite (Nth _ r E) in B. rewrite E. rewrite <- B. destruct (files w1 (who x)); reflexivity.
           ++ assert (X : nth_error ps (who x) = None) by (apply nth_error_None; lia). rewrite X in B. discriminate.
      * split; [rewrite Le, map_length; exact P1|]. intros i r E. pose proof (Nth i r E) as X. rewrite (Rs i (match files w1 i with Some x => x | None => r end)).
        -- rewrite nth_error_map, X. destruct (files w1 i); cbn [option_map fst]; auto. rewrite (Nat.eqb_sym k i). destruct (i =? k); reflexivity.
        -- rewrite nth_error_map, X. destruct (files w1 i); reflexivity.
  - destruct F as (-> & j & F & N0). cbn [Nat.add] in N0. assert (j = k).
    { assert (j < n) by (rewrite <- (seq_length n 0), <- (map_length (Nat.eqb k)); apply nth_error_Some; congruence).
      rewrite nth_eqb_seq in F by auto. injection F as F. symmetry. now apply Nat.eqb_eq. }
    subst j. split; auto. intro N. now destruct N.
Qed.
Print Assumptions C115_interrupted.

Lemma same_nth {A} (l m : list A) : (forall i, nth_error l i = nth_error m i) -> l = m.
Proof.
  revert m. induction l as [|x l IH]; intros [|y m] H; auto; try (specialize (H 0); discriminate).
  pose proof (H 0) as E. cbn in E. injection E as ->. f_equal. apply IH. intro i. apply (H (S i)).
Qed.

(** In a directory without results, if every round saves its record at its end and round [k] comes to the same end from
    what it had saved, the interrupted and the undisturbed experiment have the same results. *)
Theorem C115_resumed : forall R T G (body : T -> nat -> option G -> R -> R * option R) w f t g k part r, nth_error f k = Some r ->
  (forall i, files w i = None) -> (forall i x, snd (body t i g x) = Some (fst (body t i g x))) ->
  fst (body t k g part) = fst (body t k g r) ->
  results (run R T G body w [New f (Some t); Killed g k (Some part); Recover; Start g]) = results (run R T G body w [New f (Some t); Start g]).
Proof.
  intros R T G body w f t g k part r Ek Nf Sv Re. assert (Hk : k < List.length f) by (apply nth_error_Some; congruence).
  destruct (C115_interrupted R T G body w f t g k (Some part) Hk) as (Fi & _ & Go).
  set (w1 := run R T G body w [New f (Some t); Killed g k (Some part)]) in *.
  assert (Fk : files w1 k = Some part) by (rewrite Fi, Nat.ltb_irrefl, Nat.eqb_refl; reflexivity).
  destruct Go as [_ Go]; [congruence|]. specialize (Go g). destruct Go as ((l & L1 & L2 & L3) & Len & Rs).
  change (run R T G body w [New f (Some t); Killed g k (Some part); Recover; Start g]) with (run R T G body w1 [Recover; Start g]).
  set (w2 := run R T G body w1 [Recover; Start g]) in *.
  destruct (C115_complete R T G body w f t g) as (_ & _ & Cs); [destruct f; [cbn in Hk; lia|discriminate]|].
  set (w3 := run R T G body w [New f (Some t); Start g]) in *.
  apply same_nth. intro i. destruct (Cs i) as [-> _]. destruct (nth_error f i) as [x|] eqn:Ex.
  - rewrite (Rs i x Ex), Fi, Nf. cbn [option_map]. f_equal. rewrite Ex. destruct (Nat.ltb_spec i k) as [L|L].
    + rewrite Sv. cbn [kept]. destruct (Nat.eqb_spec i k); [lia|auto].
    + destruct (Nat.eqb_spec i k) as [->|N]; [|auto]. cbn [kept]. rewrite Re. congruence.
  - cbn [option_map]. apply nth_error_None. apply nth_error_None in Ex. fold w2. rewrite Len. exact Ex.
Qed.
Print Assumptions C115_resumed.

Lemma killed_log R T G (body : T -> nat -> option G -> R -> R * option R) w f t g k part : k < List.length f ->
  exists l, log (run R T G body w [New f (Some t); Killed g k part]) = log w ++ l /\ map who l = seq 0 (S k).
Proof.
  intro Hk. destruct (nth_error f k) as [rk|] eqn:Ek; [|apply nth_error_None in Ek; lia].
  assert (Tk : firstn k (repeat true (List.length f)) = repeat true k).
  { replace (List.length f) with (k + (List.length f - k)) by lia. rewrite repeat_app, firstn_app, repeat_length, Nat.sub_diag, firstn_O, app_nil_r, <- (repeat_length true k) at 1. now rewrite firstn_all. }
  pose proof (run_facts body t g (repeat true k) f 0 (files w)) as F. rewrite repeat_length in F. specialize (F ltac:(lia)).
  unfold run. cbn [fold_left step fst set_obj obj]. unfold killed. cbn [new a_target a_saver a_threads].
  change (todo_of R T G (new R T G f (Some t))) with (repeat true (List.length f)). rewrite nth_repeat_error by auto. rewrite Ek, Tk. cbn [set_obj files].
  destruct (run_rounds R T G body t g 0 (repeat true k) f (files w)) as [[sv fs] l]. destruct F as (_ & _ & _ & _ & _ & F6 & _).
  exists (l ++ [(k, g, rk)]). split; [reflexivity|]. rewrite map_app. cbn [map]. unfold who at 2. cbn [fst].
  rewrite seq_S. f_equal. transitivity (map (Nat.add 0) (filter (fun j => nth j (repeat true k) false) (seq 0 k))); [exact F6|].
  cbn. rewrite map_id. apply seq_filter_all.
Qed.

(** Results of an earlier experiment in the same directory. Round [k] had not saved when the process was killed: it is
    begun again from the record of the earlier experiment. A round after [k] whose file is there is never run, and the
    record of the earlier experiment is given as its result. *)
Theorem C115_stale_refuted : forall R T G (body : T -> nat -> option G -> R -> R * option R) w f t g k old, k < List.length f -> files w k = Some old ->
  let w' := run R T G body w [New f (Some t); Killed g k None; Recover; Start g] in
  (exists before after, log w' = before ++ (k, g, old) :: after) /\
  forall i other, k < i < List.length f -> files w i = Some other ->
    nth_error (results w') i = Some other /\
    exists l, log w' = log w ++ l /\ ~ In i (map who l).
Proof.
  intros R T G body w f t g k old Hk Fo.
  destruct (C115_interrupted R T G body w f t g k None Hk) as (Fi & _ & Go).
  destruct (killed_log R T G body w f t g k None Hk) as (l1 & L1 & M1).
  set (w1 := run R T G body w [New f (Some t); Killed g k None]) in *.
  assert (Fk : files w1 k = Some old) by (rewrite Fi, Nat.ltb_irrefl, Nat.eqb_refl; exact Fo).
  destruct Go as [_ Go]; [congruence|]. specialize (Go g). destruct Go as ((l & La & Lb & Lc) & Len & Rs).
  cbn zeta. change (run R T G body w [New f (Some t); Killed g k None; Recover; Start g]) with (run R T G body w1 [Recover; Start g]).
  set (w2 := run R T G body w1 [Recover; Start g]) in *.
  split.
  - assert (Ik : In k (map who l)) by (rewrite Lb; apply filter_In; split; [apply in_seq; lia|now rewrite Nat.eqb_refl]).
    apply in_map_iff in Ik. destruct Ik as (x & Ex & Ix). destruct (Lc x Ix) as [Pg Pr]. rewrite Ex, Fk in Pr. injection Pr as Pr.
    apply in_split in Ix. destruct Ix as (u & v & ->). exists (log w1 ++ u), v. rewrite La, <- app_assoc. do 2 f_equal.
    destruct x as [[j h] r]. cbn in *. unfold who in Ex. cbn in Ex. congruence.
  - intros i other Hi Fo'. assert (Fi' : files w1 i = Some other).
    { rewrite Fi. destruct (Nat.ltb_spec i k); [lia|]. destruct (Nat.eqb_spec i k); [lia|auto]. }
    split.
    + destruct (nth_error f i) as [r|] eqn:E; [|apply nth_error_None in E; lia]. rewrite (Rs i r E), Fi'. destruct (Nat.eqb_spec i k); [lia|auto].
    + exists (l1 ++ l). split; [now rewrite La, L1, app_assoc|]. rewrite map_app, M1, Lb. intro In'. apply in_app_iff in In'. destruct In' as [In'|In'].
      * apply in_seq in In'. lia.
      * apply filter_In in In'. destruct In' as [_ B]. rewrite Fi' in B. destruct (Nat.eqb_spec i k); [lia|discriminate].
Qed.
Print Assumptions C115_stale_refuted.

(** The parameters are not part of what is recovered: started without parameters, the recovered experiment runs its rounds
    without, whatever the interrupted one was given. *)
Theorem C115_parameters_refuted : forall R T G (body : T -> nat -> option G -> R -> R * option R) w f t g k part, k < List.length f ->
  let w1 := run R T G body w [New f (Some t); Killed (Some g) k (Some part)] in
  let w2 := run R T G body w1 [Recover; Start None] in
  (exists before, log w1 = before ++ [(k, Some g, nth k f part)]) /\
  exists l, log w2 = log w1 ++ l /\ In (k, None, part) l /\ forall x, In x l -> snd (fst x) = None.
Proof.
  intros R T G body w f t g k part Hk.
  destruct (C115_interrupted R T G body w f t (Some g) k (Some part) Hk) as (Fi & _ & Go).
  assert (Bf : exists before, log (run R T G body w [New f (Some t); Killed (Some g) k (Some part)]) = before ++ [(k, Some g, nth k f part)]).
  { destruct (nth_error f k) as [r|] eqn:E; [|apply nth_error_None in E; lia].
    unfold run. cbn [fold_left step fst set_obj obj]. unfold killed. cbn [new a_target a_saver a_threads].
    change (todo_of R T G (new R T G f (Some t))) with (repeat true (List.length f)). rewrite nth_repeat_error by auto. rewrite E.
    destruct (run_rounds _ _ _ _ _ _ _ _ _ _) as [[sv fs] l]. cbn. exists (log w ++ l). rewrite app_assoc. now rewrite (nth_error_nth _ _ part E). }
  set (w1 := run R T G body w [New f (Some t); Killed (Some g) k (Some part)]) in *. cbn zeta.
  assert (Fk : files w1 k = Some part) by (rewrite Fi, Nat.ltb_irrefl, Nat.eqb_refl; reflexivity).
  destruct Go as [_ Go]; [congruence|]. specialize (Go None). destruct Go as ((l & La & Lb & Lc) & _ & _).
  split; [exact Bf|]. exists l. split; [exact La|]. split.
  - assert (Ik : In k (map who l)) by (rewrite Lb; apply filter_In; split; [apply in_seq; lia|now rewrite Nat.eqb_refl]).
    apply in_map_iff in Ik. destruct Ik as (x & Ex & Ix). destruct (Lc x Ix) as [Pg Pr]. rewrite Ex, Fk in Pr. injection Pr as Pr.
    destruct x as [[j h] r]. unfold who in Ex. cbn in *. congruence.
  - intros x Hx. now destruct (Lc x Hx).
Qed.
Print Assumptions C115_parameters_refuted.

(** Three rounds. A record is a list of numbers; a round adds its number and, if given, its parameter, and saves; round 2
    saves nothing. *)
Definition body3 (t : nat) (i : nat) (g : option nat) (r : list nat) : list nat * option (list nat) :=
  let r' := r ++ [t; i] ++ match g with Some x => [x] | None => [] end in (r', if Nat.eqb i 2 then None else Some r').
Definition empty : world (list nat) nat nat := {| obj := None; state := NoState; files := fun _ => None; log := [] |}.
Definition fresh3 : list (list nat) := [[10]; [11]; [12]].

Example C115_case_complete :
  results (run _ _ _ body3 empty [New fresh3 (Some 7); Start (Some 5)]) = [[10; 7; 0; 5]; [11; 7; 1; 5]; [12; 7; 2; 5]] /\ fresh3 <> [].
Proof. split; [reflexivity|discriminate]. Qed.
Example C115_case_saved :
  let w := run _ _ _ body3 empty [New fresh3 None; SetTarget 7] in
  snd (step _ _ _ body3 w (Start (Some 5))) = Ok tt /\
  results (run _ _ _ body3 w [Start (Some 5); SetTarget 8; Save; Exit; Recover]) = [[10; 7; 0; 5]; [11; 7; 1; 5]; [12]] /\
  results (run _ _ _ body3 w [Start (Some 5); SetTarget 8; Save; Exit; Recover; Start None]) = [[10; 7; 0; 5]; [11; 7; 1; 5]; [12; 8; 2]].
Proof. repeat split. Qed.
Example C115_case_unstarted :
  let w := run _ _ _ body3 empty [New fresh3 (Some 7); Start (Some 5); Recover] in
  state w <> Broken /\ state (fst (step _ _ _ body3 w Save)) = Broken.
Proof. split; [discriminate|reflexivity]. Qed.
Example C115_case_interrupted :
  let w1 := run _ _ _ body3 empty [New fresh3 (Some 7); Killed (Some 5) 1 (Some [11; 99])] in
  snd (step _ _ _ body3 w1 Recover) = Ok tt /\
  results (run _ _ _ body3 w1 [Recover; Start (Some 6)]) = [[10; 7; 0; 5]; [11; 99; 7; 1; 6]; [12; 7; 2; 6]] /\
  snd (step _ _ _ body3 (run _ _ _ body3 empty [New fresh3 (Some 7); Killed (Some 5) 1 None]) Recover) = Err FileErr.
Proof. repeat split. Qed.
(** A round that sets the last element of its record, one step at a time, is resumable. *)
Definition body_set (t : nat) (i : nat) (g : option nat) (r : list nat) : list nat * option (list nat) :=
  let r' := firstn 1 r ++ [t; i] in (r', Some r').
Example C115_case_resumed :
  (forall i x, snd (body_set 7 i None x) = Some (fst (body_set 7 i None x))) /\
  fst (body_set 7 1 None [11; 7]) = fst (body_set 7 1 None [11]) /\
  results (run _ _ _ body_set empty [New fresh3 (Some 7); Killed None 1 (Some [11; 7]); Recover; Start None]) = [[10; 7; 0]; [11; 7; 1]; [12; 7; 2]].
Proof. repeat split. Qed.
(** Two experiments in one directory. *)
Example C115_case_stale :
  let w := run _ _ _ body_set empty [New fresh3 (Some 7); Start None] in
  files w 1 = Some [11; 7; 1] /\ files w 2 = Some [12; 7; 2] /\
  results (run _ _ _ body_set w [New [[20]; [21]; [22]] (Some 8); Killed None 1 None; Recover; Start None]) = [[20; 8; 0]; [11; 8; 1]; [12; 7; 2]].
Proof. repeat split. Qed.
