(** Property C119. *)
From Verif Require Import Base StratModel StratSpec.
From Coq Require Import String Lia.
Local Open Scope string_scope.

Lemma look_in {A} k (l : list (string * A)) : look k l = None <-> ~ In k (map fst l).
Proof.
  induction l as [|[k' v] l IH]; cbn; [tauto|]. destruct (String.eqb_spec k k') as [->|N]; [split; [discriminate|tauto]|].
  rewrite IH. split; [intros H [E|I]; auto|tauto].
Qed.
Lemma look_some {A} k v (l : list (string * A)) : NoDup (map fst l) -> (look k l = Some v <-> In (k, v) l).
Proof.
  induction l as [|[k' w] l IH]; cbn; intro N; [split; [discriminate|tauto]|]. inversion N as [|? ? NI N']; subst.
  destruct (String.eqb_spec k k') as [->|Ne].
  - split; [intro E; injection E as ->; auto|]. intros [E|I]; [now injection E as ->|]. exfalso. apply NI. now apply (in_map fst) in I.
  - rewrite (IH N'). split; auto. intros [E|I]; auto. injection E as -> _. congruence.
Qed.
Lemma given_in {A} k (l : list (string * A)) : given k l = true <-> In k (map fst l).
Proof.
  unfold given. rewrite existsb_exists. rewrite in_map_iff. split.
  - intros ([k' v] & I & E). apply String.eqb_eq in E. cbn in E. subst k'. exists (k, v). auto.
  - intros ([k' v] & E & I). cbn in E. subst k'. exists (k, v). split; auto. apply String.eqb_refl.
Qed.
Lemma eqb_in k l : existsb (String.eqb k) l = true <-> In k l.
Proof.
  rewrite existsb_exists. split; [intros (x & I & E); apply String.eqb_eq in E; now subst|]. intro I. exists k. split; auto. apply String.eqb_refl.
Qed.
Lemma in_eq_str (k : string) l : existsb (String.eqb k) l = false -> ~ In k l.
Proof. intros E I. apply eqb_in in I. congruence. Qed.

Section Facts.
  Context {V D Obj : Type} (body : string -> D -> D -> list (string * option V) -> res Obj).
  Lemma get_strategy x y name s kw : look name exports = Some (Strategy s) -> ~ In "X" (keywords kw) -> ~ In "y" (keywords kw) ->
    get_query_strategy body (Some x) y name kw = (a <- bind_kwargs s kw ;; body name x y a).
  Proof.
    intros E NX Ny. unfold get_query_strategy. rewrite E. unfold keywords in *.
    destruct (given "X" kw) eqn:GX; [apply given_in in GX; tauto|]. destruct (given "y" kw) eqn:Gy; [apply given_in in Gy; tauto|]. reflexivity.
  Qed.
  Lemma bind_ok s (kw : list (string * V)) :
    (forall k, In k (required s) -> In k (keywords kw)) -> (extra s = None -> forall k, In k (keywords kw) -> In k (names_of s)) ->
    bind_kwargs s kw = Ok (map (fun k => (k, look k kw)) (words_of s)).
  Proof.
    intros R C. unfold bind_kwargs. rewrite (proj2 (forallb_forall _ _)) by (intros k I; apply given_in, R; auto).
    destruct (extra s) eqn:E; auto. rewrite (proj2 (forallb_forall _ _)); auto. intros [k v] I. apply eqb_in, C; auto. now apply (in_map fst) in I.
  Qed.
  Lemma bind_missing s (kw : list (string * V)) k : In k (required s) -> ~ In k (keywords kw) -> bind_kwargs s kw = Err TypeErr.
  Proof.
    intros I N. unfold bind_kwargs. destruct (forallb (fun k0 => given k0 kw) (required s)) eqn:F; auto. exfalso.
    rewrite forallb_forall in F. apply F in I. apply given_in in I. auto.
  Qed.
  Lemma bind_unknown s (kw : list (string * V)) k : extra s = None -> In k (keywords kw) -> ~ In k (names_of s) -> bind_kwargs s kw = Err TypeErr.
  Proof.
    intros E I N. unfold bind_kwargs. rewrite E. destruct (forallb (fun k0 => given k0 kw) (required s)); auto.
    destruct (forallb (fun p => existsb (String.eqb (fst p)) (names_of s)) kw) eqn:F; auto. exfalso.
    rewrite forallb_forall in F. apply in_map_iff in I. destruct I as (p & <- & I). apply F in I. apply eqb_in in I. auto.
  Qed.
End Facts.

(** Every documented strategy is found under its name, and what is given for its documented parameters reaches it
    together with the data of the toolbox, and nothing else does. *)
Theorem C119_documented : forall V D Obj (body : string -> D -> D -> list (string * option V) -> res Obj) x y name must may kw,
  In (name, (must, may)) documented -> NoDup (keywords kw) ->
  (forall k, In k must -> In k (keywords kw)) -> (forall k, In k (keywords kw) -> In k (must ++ may)) ->
  exists args, arrives kw args /\ get_query_strategy body (Some x) y name kw = body name x y args.
Proof.
  intros V D Obj body x y name must may kw I N M S.
  assert (T : forallb (fun d => match look (fst d) exports with
     | Some (Strategy s) => forallb (fun k => existsb (String.eqb k) (fst (snd d))) (required s)
        && forallb (fun k => existsb (String.eqb k) (words_of s)) (fst (snd d) ++ snd (snd d))
        && match extra s with Some _ => true | None => forallb (fun k => existsb (String.eqb k) (names_of s)) (fst (snd d) ++ snd (snd d)) end
        && negb (existsb (fun k => String.eqb k "X" || String.eqb k "y") (fst (snd d) ++ snd (snd d)))
     | _ => false end) documented = true) by reflexivity.
  rewrite forallb_forall in T. specialize (T _ I). cbn [fst snd] in T. destruct (look name exports) as [[s| |]|] eqn:L; try discriminate.
  apply andb_prop in T. destruct T as [T T4]. apply andb_prop in T. destruct T as [T T3]. apply andb_prop in T. destruct T as [T1 T2].
  rewrite forallb_forall in T1, T2. exists (map (fun k => (k, look k kw)) (words_of s)). split.
  - intros k v. rewrite in_map_iff. split.
    + intros (k' & E & _). injection E as -> E. now apply look_some.
    + intro Ik. exists k. split; [f_equal; now apply look_some|]. apply eqb_in, T2, S. now apply (in_map fst) in Ik.
  - assert (NX : forall k, (String.eqb k "X" || String.eqb k "y")%bool = true -> ~ In k (keywords kw)).
    { intros k E Ik. apply S in Ik. apply Bool.negb_true_iff in T4.
      assert (G : existsb (fun k => String.eqb k "X" || String.eqb k "y") (must ++ may) = true) by (apply existsb_exists; eauto). congruence. }
    rewrite (get_strategy body x y name s kw L) by (apply NX; reflexivity).
    rewrite bind_ok; auto.
    + intros k Ik. apply M. apply eqb_in, T1; auto.
    + intros En k Ik. rewrite En in T3. rewrite forallb_forall in T3. apply eqb_in, T3, S; auto.
Qed.
Print Assumptions C119_documented.

(** Any other name is refused as not implemented, unless it is one of the names that the package exports besides. *)
Theorem C119_unknown : forall V D Obj (body : string -> D -> D -> list (string * option V) -> res Obj) X y name kw,
  ~ In name strategies -> ~ In name not_strategies -> get_query_strategy body X y name kw = Err KeyErr.
Proof.
  intros V D Obj body X y name kw N1 N2. unfold get_query_strategy.
  assert (T : forallb (fun k => existsb (String.eqb k) strategies || existsb (String.eqb k) not_strategies) (map fst exports) = true) by reflexivity.
  rewrite forallb_forall in T. rewrite (proj2 (look_in name exports)); auto.
  intro I. apply T in I. apply Bool.orb_prop in I. destruct I as [I|I]; apply eqb_in in I; auto.
Qed.
Print Assumptions C119_unknown.

(** Those exported names, of modules and functions, do not give the documented KeyError but a TypeError. *)
Theorem C119_not_a_strategy_refuted : forall V D Obj (body : string -> D -> D -> list (string * option V) -> res Obj) x y name kw,
  In name not_strategies -> get_query_strategy body (Some x) y name kw = Err TypeErr.
Proof.
  intros V D Obj body x y name kw I.
  assert (T : forallb (fun k => match look k exports with Some Function | Some NotCallable => true | _ => false end) not_strategies = true) by reflexivity.
  rewrite forallb_forall in T. specialize (T _ I). unfold get_query_strategy. destruct (look name exports) as [[s| |]|]; try discriminate; now destruct (_ || _)%bool.
Qed.
Print Assumptions C119_not_a_strategy_refuted.

(** A toolbox made without features has no strategy at all, not even those that never look at features. *)
Theorem C119_no_features_refuted : forall V D Obj (body : string -> D -> D -> list (string * option V) -> res Obj) y name kw,
  In name strategies -> get_query_strategy body None y name kw = Err AttrErr.
Proof.
  intros V D Obj body y name kw I.
  assert (T : forallb (fun k => match look k exports with Some _ => true | None => false end) strategies = true) by reflexivity.
  rewrite forallb_forall in T. specialize (T _ I). unfold get_query_strategy. destruct (look name exports) as [e|]; auto; discriminate.
Qed.
Print Assumptions C119_no_features_refuted.

(** The data cannot be replaced: a call that names X or y is refused. *)
Theorem C119_data_fixed : forall V D Obj (body : string -> D -> D -> list (string * option V) -> res Obj) x y name kw,
  In name strategies -> In "X" (keywords kw) \/ In "y" (keywords kw) -> get_query_strategy body (Some x) y name kw = Err TypeErr.
Proof.
  intros V D Obj body x y name kw I K.
  assert (T : forallb (fun k => match look k exports with Some _ => true | None => false end) strategies = true) by reflexivity.
  rewrite forallb_forall in T. specialize (T _ I). unfold get_query_strategy. destruct (look name exports) as [e|]; [|discriminate].
  replace (given "X" kw || given "y" kw)%bool with true; auto. symmetry. apply Bool.orb_true_intro.
  destruct K as [K|K]; apply given_in in K; auto.
Qed.
Print Assumptions C119_data_fixed.

(** Without one of the parameters that must be given the call is refused; the constructor of the random choice of oracles
    refuses the missing oracles itself. *)
Theorem C119_missing : forall V D Obj (body : string -> D -> D -> list (string * option V) -> res Obj) x y name must may kw k,
  In (name, (must, may)) documented -> name <> "QueryNoisyOraclesRandom" ->
  In k must -> ~ In k (keywords kw) -> get_query_strategy body (Some x) y name kw = Err TypeErr.
Proof.
  intros V D Obj body x y name must may kw k I Nn Ik Nk.
  assert (T : forallb (fun d => String.eqb (fst d) "QueryNoisyOraclesRandom" || match look (fst d) exports with
     | Some (Strategy s) => forallb (fun k => existsb (String.eqb k) (required s)) (fst (snd d)) | _ => false end)%bool documented = true) by reflexivity.
  rewrite forallb_forall in T. specialize (T _ I). cbn [fst snd] in T. apply Bool.orb_prop in T.
  destruct T as [T|T]; [apply String.eqb_eq in T; congruence|]. destruct (look name exports) as [[s| |]|] eqn:L; try discriminate.
  rewrite forallb_forall in T. unfold get_query_strategy. rewrite L. destruct (given "X" kw || given "y" kw)%bool; auto.
  rewrite (bind_missing s kw k); auto. now apply eqb_in, T.
Qed.
Print Assumptions C119_missing.

(** A misspelt parameter is noticed by some strategies ... *)
Theorem C119_misspelt : forall V D Obj (body : string -> D -> D -> list (string * option V) -> res Obj) x y name must may kw k,
  In (name, (must, may)) documented -> ~ In name careless -> In k (keywords kw) -> ~ In k (must ++ may) ->
  get_query_strategy body (Some x) y name kw = Err TypeErr.
Proof.
  intros V D Obj body x y name must may kw k I Nc Ik Nk.
  assert (T : forallb (fun d => existsb (String.eqb (fst d)) careless || match look (fst d) exports with
     | Some (Strategy s) => match extra s with Some _ => false | None => forallb (fun k => existsb (String.eqb k) (fst (snd d) ++ snd (snd d))) (names_of s) end
     | _ => false end)%bool documented = true) by reflexivity.
  rewrite forallb_forall in T. specialize (T _ I). cbn [fst snd] in T. apply Bool.orb_prop in T.
  destruct T as [T|T]; [apply eqb_in in T; tauto|]. destruct (look name exports) as [[s| |]|] eqn:L; try discriminate.
  destruct (extra s) eqn:E; [discriminate|]. rewrite forallb_forall in T. unfold get_query_strategy. rewrite L.
  destruct (given "X" kw || given "y" kw)%bool; auto. rewrite (bind_unknown s kw k); auto. intro J. apply T in J. apply eqb_in in J. auto.
Qed.
Print Assumptions C119_misspelt.

(** ... and silently ignored by the others: the strategy is the one obtained without it. *)
Theorem C119_misspelt_refuted : forall V D Obj (body : string -> D -> D -> list (string * option V) -> res Obj) x y name must may kw k v,
  In (name, (must, may)) documented -> In name careless -> ~ In k ("X" :: "y" :: must ++ may) ->
  get_query_strategy body (Some x) y name ((k, v) :: kw) = get_query_strategy body (Some x) y name kw.
Proof.
  intros V D Obj body x y name must may kw k v I Ic Nk.
  assert (T : forallb (fun d => negb (existsb (String.eqb (fst d)) careless) || match look (fst d) exports with
     | Some (Strategy s) => match extra s with Some _ => forallb (fun k => existsb (String.eqb k) (fst (snd d) ++ snd (snd d))) (required s ++ words_of s) | None => false end
     | _ => false end)%bool documented = true) by reflexivity.
  rewrite forallb_forall in T. specialize (T _ I). cbn [fst snd] in T. apply Bool.orb_prop in T. apply eqb_in in Ic.
  destruct T as [T|T]; [apply Bool.negb_true_iff in T; congruence|]. unfold get_query_strategy. destruct (look name exports) as [[s| |]|] eqn:L; try discriminate.
  destruct (extra s) eqn:E; [|discriminate]. rewrite forallb_forall in T.
  assert (G : forall k', In k' ("X" :: "y" :: must ++ may) -> given k' ((k, v) :: kw) = given k' kw).
  { intros k' J. cbn. destruct (String.eqb_spec k' k) as [->|]; auto. tauto. }
  rewrite !G by (cbn; auto). destruct (given "X" kw || given "y" kw)%bool; auto.
  replace (bind_kwargs s ((k, v) :: kw)) with (bind_kwargs s kw); auto. unfold bind_kwargs. rewrite E.
  replace (forallb (fun k0 => given k0 ((k, v) :: kw)) (required s)) with (forallb (fun k0 => given k0 kw) (required s)).
  - destruct (forallb (fun k0 => given k0 kw) (required s)); cbn [andb]; auto. f_equal. apply map_ext_in. intros k' J. f_equal. cbn.
    destruct (String.eqb_spec k' k) as [->|]; auto. exfalso. apply Nk. do 2 right. apply eqb_in, T, in_or_app. auto.
  - assert (R : forall k', In k' (required s) -> In k' (must ++ may)) by (intros k' J; apply eqb_in, T, in_or_app; auto).
    clear - R G. induction (required s) as [|a l IH]; auto. cbn [forallb]. rewrite G by (do 2 right; apply R; cbn; auto). rewrite IH; auto.
    intros k' J. apply R. cbn. auto.
Qed.
Print Assumptions C119_misspelt_refuted.

(** The initially labelled instances that the documentation of AUDI asks for cannot be given. *)
Theorem C119_audi_refuted : forall V D Obj (body : string -> D -> D -> list (string * option V) -> res Obj) x y kw,
  get_query_strategy body (Some x) y "QueryMultiLabelAUDI" kw = match kw with [] => body "QueryMultiLabelAUDI" x y [] | _ => Err TypeErr end.
Proof.
  intros V D Obj body x y kw. unfold get_query_strategy. replace (look "QueryMultiLabelAUDI" exports) with (Some (Strategy (closed [] []))) by reflexivity.
  destruct kw as [|p kw]; auto. destruct (given "X" (p :: kw) || given "y" (p :: kw))%bool; auto.
Qed.
Print Assumptions C119_audi_refuted.

Definition echo (name : string) (x y : nat) (args : list (string * option nat)) : res (string * nat * nat * list (string * option nat)) := Ok (name, x, y, args).
Example C119_case_documented : get_query_strategy echo (Some 1) 2 "QueryInstanceGraphDensity" [("metric", 7); ("train_idx", 8)] =
  Ok ("QueryInstanceGraphDensity", 1, 2, [("train_idx", Some 8); ("metric", Some 7)]).
Proof. reflexivity. Qed.
Example C119_case_in : In ("QueryInstanceGraphDensity", (["train_idx"], ["metric"])) documented.
Proof. cbn. tauto. Qed.
Example C119_case_misspelt : get_query_strategy echo (Some 1) 2 "QueryInstanceBMDR" [("kernal", 7)] = get_query_strategy echo (Some 1) 2 "QueryInstanceBMDR" [] /\
  get_query_strategy echo (Some 1) 2 "QueryInstanceUncertainty" [("mesure", 7)] = Err TypeErr.
Proof. split; reflexivity. Qed.
Example C119_case_unknown : get_query_strategy echo (Some 1) 2 "QueryInstanceRandm" [] = Err KeyErr.
Proof. reflexivity. Qed.
Example C119_case_hidden : ~ In "QueryNoisyOraclesSelectInstanceUncertainty" strategies /\
  get_query_strategy echo (Some 1) 2 "QueryNoisyOraclesSelectInstanceUncertainty" [] = Err KeyErr.
Proof. split; [apply in_eq_str; reflexivity|reflexivity]. Qed.
