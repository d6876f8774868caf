(** Theorems about saving and loading objects (C111). *)
From Verif Require Import Base StateModel SaveModel SaveSpec SaveProofs.
From Coq Require Import String.
Open Scope string_scope.
Open Scope list_scope.

(** A file system with the directories / and /exp, and a StateIO saved there. *)
Definition fs0 : fsys nat := fun p => match p with
                                      | [] => Some FDir
                                      | ["exp"] => Some FDir
                                      | ["exp"; "AL_round_3.pkl"] => Some (FFile (Some {| at_place := InState (Some ["exp"]) "AL_round_3.pkl"; body := 7 |}))
                                      | _ => None
                                      end.
Definition box0 : pobj nat := {| at_place := InBox (Some ["exp"]) (Some ["exp"]); body := 1 |}.
Definition w0 : prog nat := {| disk := fs0; mem := [box0] |}.

(** ** Where an object goes *)
Theorem C111_save : forall B (fs : fsys B) (o : pobj B) a, ours (at_place o) ->
  (* exactly one of: saving was not asked for; there is one file to write; an oracle was given something that is no path *)
  (nowhere (at_place o) a \/ (exists p, goes_to fs (at_place o) a p) \/ (at_place o = InOracle /\ a = PNotStr)) /\
  (forall p q, goes_to fs (at_place o) a p -> goes_to fs (at_place o) a q -> p = q) /\
  (nowhere (at_place o) a -> forall k, save fs o a k = (fs, Ok tt)) /\
  (at_place o = InOracle -> a = PNotStr -> forall k, save fs o a k = (fs, Err TypeErr)) /\
  (forall p, goes_to fs (at_place o) a p ->
     (* the file holds the object afterwards, and no other file is changed *)
     (writable fs p -> exists fs', save fs o a Completes = (fs', Ok tt) /\ holds fs' p o /\ forall q, q <> p -> fs' q = fs q) /\
     (* a missing directory, or a directory in the place of the file *)
     (~ writable fs p -> forall k, save fs o a k = (fs, Err FileErr))).
Proof.
  intros B fs o a O. split; [apply place_cases, O|]. split; [intros p q; apply goes_unique|]. split; [intros N k; apply save_nowhere, N|].
  split; [intros E -> k; unfold save; rewrite E; reflexivity|].
  intros p G. split.
  - intro W. rewrite (save_goes _ _ _ _ _ _ G). unfold write. rewrite (open_can _ _ _ W). eexists. split; [reflexivity|]. split.
    + apply put_same.
    + intros q N. rewrite !put_other by assumption. reflexivity.
  - intros W k. rewrite (save_goes _ _ _ _ _ _ G). unfold write. rewrite (open_cannot _ _ _ W). reflexivity.
Qed.
Print Assumptions C111_save.
Example C111_save_example : ours (at_place box0) /\ goes_to fs0 (at_place box0) PNone ["exp"; "al_settings.pkl"] /\
  writable fs0 ["exp"; "al_settings.pkl"].
Proof.
  split; [intros f; discriminate|]. split; [|split; [intro; discriminate|reflexivity]].
  apply (gt_dir _ fs0 (InBox (Some ["exp"]) (Some ["exp"])) PNone ["exp"] "al_settings.pkl"); constructor.
Qed.

(** ** What a file holds stays there until something is saved to the same file *)
Theorem C111_kept : forall B (w : prog B) es p o, holds (disk w) p o -> untouched w p es ->
  holds (disk (runs w es)) p o /\ forall c, c <> CPool -> load (disk (runs w es)) c (PStr p) = (disk (runs w es), Ok o).
Proof.
  intros B w es p o H U. assert (K : holds (disk (runs w es)) p o) by (apply runs_keeps; assumption). split; [exact K|].
  intros c N. unfold load, read. unfold holds in K. rewrite K. destruct c; try reflexivity. congruence.
Qed.
Print Assumptions C111_kept.
Definition story0 : list (event nat) :=
  [MakeStateOf 0 PNone 4 0; Save 1 PNone Completes; MakeOracle 5; Save 2 (PStr ["exp"]) Killed; MakePool (PStr ["exp"]) 3; Quit].
Example C111_kept_example : holds (disk w0) ["exp"; "AL_round_3.pkl"] {| at_place := InState (Some ["exp"]) "AL_round_3.pkl"; body := 7 |} /\
  untouched w0 ["exp"; "AL_round_3.pkl"] story0 /\ holds (disk (runs w0 story0)) ["exp"; "AL_round_4.pkl"]
    {| at_place := InState (Some ["exp"]) "AL_round_4.pkl"; body := 0 |} /\
  spoilt (disk (runs w0 story0)) ["exp"; "oracle.pkl"] /\ is_dir (disk (runs w0 story0)) ["exp"; "AL_result"].
Proof.
  split; [reflexivity|]. split; [|split; [reflexivity|split; reflexivity]].
  cbn. repeat split; intro T; inversion T as [i a k o E G| |]; subst.
  - cbn in E. injection E as <-. apply (goes_unique _ _ _ _ _ ["exp"; "AL_round_4.pkl"]) in G; [discriminate|]. constructor.
  - cbn in E. injection E as <-. cbn in G. apply (goes_unique _ _ _ _ _ ["exp"; "oracle.pkl"]) in G; [discriminate|].
    apply (gt_dir _ _ InOracle (PStr ["exp"]) ["exp"] "oracle.pkl"); constructor.
Qed.

(** ** A save that does not complete *)
Theorem C111_interrupted : forall B (fs : fsys B) o a p k, goes_to fs (at_place o) a p -> writable fs p -> k <> Completes ->
  spoilt (fst (save fs o a k)) p /\ (forall q, q <> p -> fst (save fs o a k) q = fs q) /\
  (forall c, load (fst (save fs o a k)) c (PStr p) = (fst (save fs o a k), Err GenericErr)) /\
  (* a toolbox whose settings file it was cannot be made any more *)
  (forall merge q b k', goes_to (fst (save fs o a k)) (InBox (Some q) None) PNone p ->
     box_new merge (fst (save fs o a k)) (PStr q) b k' = (fst (save fs o a k), Err GenericErr)).
Proof.
  intros B fs o a p k G W N. rewrite (save_goes _ _ _ _ _ _ G). unfold write. rewrite (open_can _ _ _ W).
  assert (E : fst (match k with
                   | Completes => (put_node (put_node fs p (Some (FFile None))) p (Some (FFile (Some o))), Ok tt)
                   | Raises e => (put_node fs p (Some (FFile None)), Err e)
                   | Killed => (put_node fs p (Some (FFile None)), Ok tt)
                   end) = put_node fs p (Some (FFile None))) by (destruct k; [congruence|reflexivity|reflexivity]).
  rewrite E. clear E. split; [apply put_same|]. split; [intros q M; apply put_other, M|]. split.
  - intro c. unfold load, read. rewrite put_same. reflexivity.
  - intros merge q b k' H. set (fs' := put_node fs p (Some (FFile None))) in *. unfold box_new.
    assert (F : (if isdir fs' q then join q "al_settings.pkl" else q) = p).
    { inversion H as [|pl a' q' n PF D DN|pl a' q' PF D]; subst; inversion PF; subst.
      - apply isdir_iff in D. rewrite D. inversion DN. reflexivity.
      - apply isdir_not in D. rewrite D. reflexivity. }
    rewrite F. unfold exists_, read, fs'. rewrite put_same. reflexivity.
Qed.
Print Assumptions C111_interrupted.
Example C111_interrupted_example : goes_to fs0 (InState (Some ["exp"]) "AL_round_3.pkl") PNone ["exp"; "AL_round_3.pkl"] /\
  writable fs0 ["exp"; "AL_round_3.pkl"] /\ (exists o, holds fs0 ["exp"; "AL_round_3.pkl"] o).
Proof. split; [constructor|]. split; [split; [intro; discriminate|reflexivity]|]. eexists. reflexivity. Qed.

(** ** Which objects share a file *)
(** In one directory: only those of the same round, or of the same class. *)
Theorem C111_names : forall B (fs fs1 fs2 : fsys B) d s1 s2 pl1 pl2 a1 a2 p1 p2,
  is_dir fs d -> is_dir fs1 d -> is_dir fs2 d -> user fs d s1 pl1 a1 -> user fs d s2 pl2 a2 ->
  goes_to fs1 pl1 a1 p1 -> goes_to fs2 pl2 a2 p2 -> (p1 = p2 <-> s1 = s2).
Proof.
  intros B fs fs1 fs2 d s1 s2 pl1 pl2 a1 a2 p1 p2 D D1 D2.
  assert (W : forall (f : fsys B) s pl a p, is_dir f d -> user fs d s pl a -> goes_to f pl a p ->
              p = match s with
                  | SState r => d ++ [sio_file_name r] | SBox => d ++ ["al_settings.pkl"] | SPool => d ++ ["multi_thread_state.pkl"]
                  | SOracle => d ++ ["oracle.pkl"] | SRound r => (d ++ ["AL_result"]) ++ [sio_file_name r]
                  end).
  { intros f s pl a p Df U G. inversion U as [r pl' a' E|d' a'|a'| |r pl' a' Dr E]; subst.
    - unfold state_place in E. apply isdir_iff in D. rewrite D in E. injection E as <-. inversion G as [| ? ? ? ? PF|? ? ? PF]; subst; [reflexivity| |]; inversion PF.
    - inversion G as [|? ? ? ? PF Dd DN|? ? ? PF Dd]; subst; inversion PF; subst; [inversion DN; reflexivity|contradiction].
    - inversion G as [|? ? ? ? PF Dd DN|? ? ? PF Dd]; subst; inversion PF; subst; [inversion DN; reflexivity|contradiction].
    - inversion G as [|? ? ? ? PF Dd DN|? ? ? PF Dd]; subst; inversion PF; subst; [inversion DN; reflexivity|contradiction].
    - unfold pool_state, state_place in E. apply isdir_iff in Dr. unfold join in E. rewrite Dr in E. injection E as <-.
      inversion G as [| ? ? ? ? PF|? ? ? PF]; subst; [reflexivity| |]; inversion PF. }
  intros U1 U2 G1 G2. rewrite (W _ _ _ _ _ D1 U1 G1), (W _ _ _ _ _ D2 U2 G2). split; [|intros ->; reflexivity].
  assert (L : forall n1 n2 : string, (d ++ ["AL_result"]) ++ [n1] <> d ++ [n2]).
  { intros n1 n2 E. apply app_inj_tail in E. destruct E as [E _]. exact (snoc_neq d _ E). }
  destruct s1 as [r| | | |r], s2 as [r'| | | |r']; intro E; try reflexivity.
  all: try (exfalso; eapply L; first [exact E|symmetry; exact E]).
  all: apply app_inj_tail in E; destruct E as [_ E].
  all: try (apply file_name_inj in E; subst; reflexivity).
  all: discriminate E.
Qed.
Print Assumptions C111_names.
Example C111_names_example : is_dir fs0 ["exp"] /\ user fs0 ["exp"] (SState 3) (InState (Some ["exp"]) "AL_round_3.pkl") PNone /\
  user fs0 ["exp"] (SState 12) (InState (Some ["exp"]) "AL_round_12.pkl") PNone /\ user fs0 ["exp"] SOracle InOracle (PStr ["exp"]) /\
  let fs := disk (runs w0 [MakePool (PStr ["exp"]) 0]) in user fs ["exp"] (SRound 3) (InState (Some ["exp"; "AL_result"]) "AL_round_3.pkl") PNone.
Proof. split; [reflexivity|]. split; [constructor; reflexivity|]. split; [constructor; reflexivity|]. split; [constructor|]. constructor; reflexivity. Qed.

(** A path that is not a directory is one file for everybody who is given it, whatever its class and its round. *)
Theorem C111_one_file : forall B (fs : fsys B) q, is_dir fs [] -> ~ is_dir fs q ->
  (forall r pl, state_place fs (PStr q) r = Ok pl -> forall (fs' : fsys B) a, goes_to fs' pl a q) /\
  (forall d a, goes_to fs (InBox (Some q) d) a q) /\ (forall a, goes_to fs (InPool q) a q) /\ goes_to fs InOracle (PStr q) q.
Proof.
  intros B fs q R N. split.
  - intros r pl E fs' a. unfold state_place in E. pose proof N as N'. apply isdir_not in N'. rewrite N' in E. injection E as <-.
    assert (Q : q <> []) by (intros ->; contradiction).
    pose proof (gt_state _ fs' (dirname q) (basename q) a) as G. fold (join (dirname q) (basename q)) in G. rewrite (parts q Q) in G. exact G.
  - split; [|split]; intros; apply gt_file; try exact N; constructor.
Qed.
Print Assumptions C111_one_file.

(** So of the folds of an experiment saved with such a path only the last one saved remains (al_experiment.py 349-356). *)
Theorem C111_folds_refuted : forall B (w : prog B) q r1 r2 b1 b2, is_dir (disk w) [] -> ~ is_dir (disk w) q -> is_dir (disk w) (removelast q) ->
  let n := List.length (mem w) in
  let w' := runs w [MakeState (PStr q) r1 b1; MakeState (PStr q) r2 b2; Save n PNone Completes; Save (S n) PNone Completes] in
  exists pl, holds (disk w') q {| at_place := pl; body := b2 |} /\ forall p, p <> q -> disk w' p = disk w p.
Proof.
  intros B w q r1 r2 b1 b2 R N D n w'. assert (Q : q <> []) by (intros ->; contradiction).
  pose proof N as N'. apply isdir_not in N'. set (pl := InState (Some (dirname q)) (basename q)). exists pl.
  set (o1 := {| at_place := pl; body := b1 |}). set (o2 := {| at_place := pl; body := b2 |}).
  assert (E2 : runs w [MakeState (PStr q) r1 b1; MakeState (PStr q) r2 b2] = {| disk := disk w; mem := (mem w ++ [o1]) ++ [o2] |}).
  { assert (St : forall (v : prog B) r b, disk v = disk w ->
      fst (step v (MakeState (PStr q) r b)) = {| disk := disk w; mem := mem v ++ [{| at_place := pl; body := b |}] |}).
    { intros v r b Ev. cbn [step]. unfold state_place. rewrite Ev, N'. reflexivity. }
    unfold runs. cbn [fold_left]. rewrite (St w r1 b1 eq_refl). rewrite St by reflexivity. reflexivity. }
  assert (G : forall fs' : fsys B, goes_to fs' pl PNone q).
  { intro fs'. pose proof (gt_state _ fs' (dirname q) (basename q) PNone) as G. fold (join (dirname q) (basename q)) in G.
    rewrite (parts q Q) in G. exact G. }
  assert (EW : w' = runs {| disk := disk w; mem := (mem w ++ [o1]) ++ [o2] |} [Save n PNone Completes; Save (S n) PNone Completes]).
  { unfold w', runs in *. rewrite <- E2. reflexivity. }
  assert (I1 : nth_error ((mem w ++ [o1]) ++ [o2]) n = Some o1).
  { rewrite <- app_assoc, nth_error_app2 by (unfold n; lia). unfold n. rewrite Nat.sub_diag. reflexivity. }
  assert (I2 : nth_error ((mem w ++ [o1]) ++ [o2]) (S n) = Some o2).
  { rewrite nth_error_app2 by (rewrite app_length; cbn [List.length]; unfold n; lia).
    replace (S n - List.length (mem w ++ [o1])) with 0 by (rewrite app_length; cbn [List.length]; unfold n; lia). reflexivity. }
  assert (Wr : writable (disk w) q) by (split; assumption).
  set (f1 := put_node (put_node (disk w) q (Some (FFile None))) q (Some (FFile (Some o1)))).
  assert (Wr1 : writable f1 q).
  { split; unfold is_dir, f1; [rewrite put_same; discriminate|]. rewrite !put_other; [exact D| |]; intro X; apply (f_equal (@List.length _)) in X;
      pose proof (app_removelast_last "" Q) as Y; apply (f_equal (@List.length _)) in Y; rewrite app_length in Y; cbn in Y; lia. }
  assert (S1 : save (disk w) o1 PNone Completes = (f1, Ok tt)).
  { rewrite (save_goes _ _ o1 PNone Completes q (G _)). unfold write. rewrite (open_can _ _ _ Wr). reflexivity. }
  assert (S2 : save f1 o2 PNone Completes = (put_node (put_node f1 q (Some (FFile None))) q (Some (FFile (Some o2))), Ok tt)).
  { rewrite (save_goes _ _ o2 PNone Completes q (G _)). unfold write. rewrite (open_can _ _ _ Wr1). reflexivity. }
  rewrite EW. unfold runs. cbn [fold_left step mem disk]. rewrite I1, S1. cbn [fst is_killed mem disk step]. rewrite I2, S2. cbn [fst disk]. split.
  - apply put_same.
  - intros p M. unfold f1. rewrite !put_other by assumption. reflexivity.
Qed.
Print Assumptions C111_folds_refuted.
Example C111_folds_example : let w' := runs w0 [MakeState (PStr ["exp"; "res.pkl"]) 0 10; MakeState (PStr ["exp"; "res.pkl"]) 1 11;
    Save 1 PNone Completes; Save 2 PNone Completes] in
  is_dir fs0 [] /\ ~ is_dir fs0 ["exp"; "res.pkl"] /\ is_dir fs0 ["exp"] /\
  holds (disk w') ["exp"; "res.pkl"] {| at_place := InState (Some ["exp"]) "res.pkl"; body := 11 |}.
Proof. split; [reflexivity|]. split; [intro; discriminate|]. split; reflexivity. Qed.

(** Two experiments on the same fold with one toolbox: the second replaces the results of the first. *)
Theorem C111_rerun_refuted : forall B (w : prog B) i p d bb r b1 b1' b2 b2', nth_error (mem w) i = Some {| at_place := InBox p (Some d); body := bb |} ->
  is_dir (disk w) d -> ~ is_dir (disk w) (d ++ [sio_file_name r]) ->
  let n := List.length (mem w) in let f := d ++ [sio_file_name r] in let pl := InState (Some d) (sio_file_name r) in
  let w1 := runs w [MakeStateOf i PNone r b1; Edit n b1'; Save n PNone Completes] in
  let w2 := runs w1 [MakeStateOf i PNone r b2; Edit (S n) b2'; Save (S n) PNone Completes] in
  holds (disk w1) f {| at_place := pl; body := b1' |} /\ holds (disk w2) f {| at_place := pl; body := b2' |} /\
  forall q, q <> f -> disk w2 q = disk w q.
Proof.
  intros B w i p d bb r b1 b1' b2 b2' I D N n f pl.
  (* one experiment, from any program with the toolbox and the directory *)
  assert (One : forall (v : prog B) m b b', nth_error (mem v) i = Some {| at_place := InBox p (Some d); body := bb |} -> is_dir (disk v) d ->
            ~ is_dir (disk v) f -> m = List.length (mem v) ->
            exists fs', runs v [MakeStateOf i PNone r b; Edit m b'; Save m PNone Completes] = {| disk := fs'; mem := mem v ++ [{| at_place := pl; body := b' |}] |} /\
              holds fs' f {| at_place := pl; body := b' |} /\ forall q, q <> f -> fs' q = disk v q).
  { intros v m b b' Iv Dv Nv Em. pose proof Dv as Dv'. apply isdir_iff in Dv'.
    assert (Wr : writable (disk v) f) by (split; [exact Nv|unfold f; rewrite removelast_last; exact Dv]).
    eexists. split.
    - unfold runs. cbn [fold_left step]. rewrite Iv. unfold state_place. rewrite Dv'. cbn [bind grown fst disk mem].
      assert (Im : forall x, nth_error (mem v ++ [x]) m = Some x) by (intro x; rewrite nth_error_app2 by lia; rewrite Em, Nat.sub_diag; reflexivity).
      cbn [step fst mem disk]. rewrite Im. cbn [fst mem disk at_place].
      assert (Es : forall x y, set_obj (mem v ++ [x]) m y = mem v ++ [y]).
      { intros x y. unfold set_obj. subst m. rewrite firstn_app, Nat.sub_diag, firstn_all. cbn [firstn]. rewrite app_nil_r, skipn_all2, app_nil_r;
          [reflexivity|]. rewrite app_length. cbn. lia. }
      rewrite Es. cbn [step fst mem disk]. rewrite Im.
      rewrite (save_goes _ _ {| at_place := pl; body := b' |} PNone Completes f (gt_state _ _ d (sio_file_name r) PNone)).
      unfold write. rewrite (open_can _ _ _ Wr). reflexivity.
    - split; [apply put_same|]. intros q M. rewrite !put_other by assumption. reflexivity. }
  destruct (One w n b1 b1' I D N eq_refl) as (f1 & E1 & H1 & K1). cbv zeta. rewrite E1. cbn [disk]. split; [exact H1|].
  assert (Df : d <> f) by (intro X; symmetry in X; apply (snoc_neq d (sio_file_name r)), X).
  destruct (One {| disk := f1; mem := mem w ++ [{| at_place := pl; body := b1' |}] |} (S n) b2 b2') as (f2 & E2 & H2 & K2).
  - cbn. rewrite nth_error_app1; [exact I|]. apply nth_error_Some. congruence.
  - cbn. unfold is_dir. rewrite K1 by exact Df. exact D.
  - cbn. unfold is_dir. unfold holds in H1. rewrite H1. discriminate.
  - cbn. rewrite app_length. cbn. unfold n. lia.
  - rewrite E2. cbn [disk]. split; [exact H2|]. intros q M. rewrite K2 by exact M. apply K1, M.
Qed.
Print Assumptions C111_rerun_refuted.
Example C111_rerun_example : nth_error (mem w0) 0 = Some {| at_place := InBox (Some ["exp"]) (Some ["exp"]); body := 1 |} /\ is_dir (disk w0) ["exp"] /\
  ~ is_dir (disk w0) (["exp"] ++ [sio_file_name 3]) /\ (exists o, holds (disk w0) (["exp"] ++ [sio_file_name 3]) o).
Proof. split; [reflexivity|]. split; [reflexivity|]. split; [intro; discriminate|]. eexists. reflexivity. Qed.

(** ** When the directory is looked for *)
(** A StateIO looks when it is made, and cannot be saved if its path becomes a directory afterwards; a toolbox looks at every save. *)
Theorem C111_late_directory : forall B (w : prog B) es q r pl d, is_dir (disk w) [] -> ~ is_dir (disk w) q ->
  state_place (disk w) (PStr q) r = Ok pl -> is_dir (disk (runs w es)) q ->
  (forall b a k, save (disk (runs w es)) {| at_place := pl; body := b |} a k = (disk (runs w es), Err FileErr)) /\
  forall a, goes_to (disk (runs w es)) (InBox (Some q) d) a (q ++ ["al_settings.pkl"]).
Proof.
  intros B w es q r pl d R N E D. split.
  - intros b a k. rewrite (save_goes _ _ {| at_place := pl; body := b |} a k q).
    + unfold write. rewrite open_cannot; [reflexivity|]. intros [W _]. apply W, D.
    + apply (proj1 (C111_one_file B (disk w) q R N) r pl E).
  - intro a. eapply gt_dir; [constructor|exact D|constructor].
Qed.
Print Assumptions C111_late_directory.
Example C111_late_example : is_dir (disk w0) [] /\ ~ is_dir (disk w0) ["exp"; "run1"] /\
  state_place (disk w0) (PStr ["exp"; "run1"]) 0 = Ok (InState (Some ["exp"]) "run1") /\
  is_dir (disk (runs w0 [MkDir ["exp"; "run1"]])) ["exp"; "run1"].
Proof. split; [reflexivity|]. split; [intro; discriminate|]. split; reflexivity. Qed.

(** ** Loading *)
(** What loading gives, exactly: only [recover] looks at the class. *)
Theorem C111_load : forall B (fs : fsys B) p,
  (forall o c, holds fs p o -> c <> CPool -> load fs c (PStr p) = (fs, Ok o)) /\
  (forall o, holds fs p o -> (forall q, at_place o <> InPool q) -> load fs CPool (PStr p) = (fs, Err TypeErr)) /\
  (forall o q, holds fs p o -> at_place o = InPool q -> is_dir fs (q ++ ["AL_result"]) -> load fs CPool (PStr p) = (fs, Ok o)) /\
  (forall c, spoilt fs p -> load fs c (PStr p) = (fs, Err GenericErr)) /\
  (forall c, fs p = None \/ is_dir fs p -> load fs c (PStr p) = (fs, Err FileErr)) /\
  (forall c a, (forall q, a <> PStr q) -> load fs c a = (fs, Err TypeErr)).
Proof.
  intros B fs p. unfold holds, spoilt, is_dir. split; [|split; [|split; [|split; [|split]]]].
  - intros o c H N. unfold load, read. rewrite H. destruct c; try reflexivity. congruence.
  - intros o H N. unfold load, read. rewrite H. destruct (at_place o) eqn:E; try reflexivity. elim (N p0). reflexivity.
  - intros o q H E D. unfold load, read. rewrite H, E. unfold pool_place, exists_, join. rewrite D. reflexivity.
  - intros c H. unfold load, read. rewrite H. reflexivity.
  - intros c [H|H]; unfold load, read; rewrite H; reflexivity.
  - intros c [|q|] N; try reflexivity. elim (N q). reflexivity.
Qed.
Print Assumptions C111_load.

(** Loading an oracle can return an object that is no oracle; the same for StateIO and ToolBox. *)
Theorem C111_class_refuted : exists (fs : fsys nat) p o, holds fs p o /\ (forall f, at_place o <> InOther f) /\ at_place o <> InOracle /\
  load fs COracle (PStr p) = (fs, Ok o) /\ load fs CBox (PStr p) = (fs, Ok o).
Proof.
  exists fs0, ["exp"; "AL_round_3.pkl"]. eexists. split; [reflexivity|]. split; [intros f; discriminate|]. split; [discriminate|].
  split; reflexivity.
Qed.
Print Assumptions C111_class_refuted.

(** A toolbox made with the path of the file of a StateIO or of an oracle takes over its attributes without an error, and then
    replaces the file by itself when it is saved. *)
Theorem C111_takes_over : forall B (w : prog B) merge q o b k, is_dir (disk w) [] -> is_dir (disk w) (removelast q) -> holds (disk w) q o -> k <> Killed ->
  (at_place o = InOracle \/ exists d n, at_place o = InState d n) ->
  let n := List.length (mem w) in
  snd (step w (MakeBox merge (PStr q) b k)) = Ok tt /\
  let w' := runs w [MakeBox merge (PStr q) b k; Save n PNone Completes] in
  exists d, holds (disk w') q {| at_place := InBox (Some q) d; body := merge b (body o) |} /\ forall p, p <> q -> disk w' p = disk w p.
Proof.
  intros B w merge q o b k R D H K P n. unfold holds in H. assert (N : isdir (disk w) q = false) by (unfold isdir; rewrite H; reflexivity).
  assert (X : exists d, box_new merge (disk w) (PStr q) b k = (disk w, Ok {| at_place := InBox (Some q) d; body := merge b (body o) |})).
  { unfold box_new. rewrite N. unfold exists_, read. rewrite H. cbn [bind]. unfold taken.
    destruct P as [->|(d & m & ->)]; eexists; reflexivity. }
  destruct X as [d X]. assert (Kk : is_killed k = false) by (destruct k; try reflexivity; congruence). split.
  - cbn [step]. rewrite X, Kk. reflexivity.
  - set (o' := {| at_place := InBox (Some q) d; body := merge b (body o) |}) in *.
    assert (G : goes_to (disk w) (at_place o') PNone q) by (apply gt_file; [constructor|apply isdir_not, N]).
    assert (Wr : writable (disk w) q) by (split; [apply isdir_not, N|exact D]).
    exists d. unfold runs. cbn [fold_left step]. rewrite X, Kk. cbn [grown fst mem disk step]. rewrite nth_error_app2 by (unfold n; lia).
    unfold n. rewrite Nat.sub_diag. cbn [nth_error]. rewrite (save_goes _ _ o' PNone Completes q G). unfold write. rewrite (open_can _ _ _ Wr).
    cbn [fst disk]. split; [apply put_same|]. intros p M. rewrite !put_other by assumption. reflexivity.
Qed.
Print Assumptions C111_takes_over.
Example C111_takes_over_example : let q := ["exp"; "AL_round_3.pkl"] in is_dir (disk w0) [] /\ is_dir (disk w0) (removelast q) /\
  exists o, holds (disk w0) q o /\ exists d n, at_place o = InState d n.
Proof. split; [reflexivity|]. split; [reflexivity|]. eexists. split; [reflexivity|]. do 2 eexists. reflexivity. Qed.

(** ** Objects made without a path *)
(** A StateIO, a toolbox or an oracle made without a path is made in memory only, whatever the disk holds, and saving it
    without a path reports success and writes nothing; a path that is no string is refused by all of them. *)
Theorem C111_nowhere : forall B (w : prog B) e, (exists r b, e = MakeState PNone r b) \/ (exists m b k, e = MakeBox m PNone b k /\ k <> Killed) \/ (exists b, e = MakeOracle b) ->
  snd (step w e) = Ok tt /\ disk (fst (step w e)) = disk w /\
  exists o, mem (fst (step w e)) = mem w ++ [o] /\ forall k, snd (step (fst (step w e)) (Save (List.length (mem w)) PNone k)) = Ok tt /\
    disk (fst (step (fst (step w e)) (Save (List.length (mem w)) PNone k))) = disk w.
Proof.
  intros B w e H.
  assert (X : exists o, step w e = ({| disk := disk w; mem := mem w ++ [o] |}, Ok tt) /\ forall k, save (disk w) o PNone k = (disk w, Ok tt)).
  { destruct H as [(r & b & ->)|[(m & b & k & -> & K)|(b & ->)]].
    - eexists. split; [reflexivity|]. reflexivity.
    - eexists. split; [cbn; destruct k; try reflexivity; congruence|]. reflexivity.
    - eexists. split; [reflexivity|]. reflexivity. }
  destruct X as (o & -> & S). cbn [fst snd]. split; [reflexivity|]. split; [reflexivity|]. exists o. split; [reflexivity|]. intro k.
  cbn [step mem]. rewrite nth_error_app2, Nat.sub_diag by lia. cbn [nth_error disk]. rewrite S. split; reflexivity.
Qed.
Print Assumptions C111_nowhere.
Example C111_nowhere_example : (exists r b, @MakeState nat PNone 3 7 = MakeState PNone r b).
Proof. do 2 eexists. reflexivity. Qed.

Theorem C111_not_a_path : forall B (w : prog B) e, (exists r b, e = MakeState PNotStr r b) \/ (exists m b k, e = MakeBox m PNotStr b k /\ k <> Killed) \/
  (exists a b, (forall p, a <> PStr p) /\ e = MakePool a b) \/ (exists i o k, nth_error (mem w) i = Some o /\ at_place o = InOracle /\ k <> Killed /\ e = Save i PNotStr k) ->
  snd (step w e) = Err TypeErr /\ disk (fst (step w e)) = disk w /\ mem (fst (step w e)) = mem w.
Proof.
  intros B w e [(r & b & ->)|[(m & b & k & -> & K)|[(a & b & A & ->)|(i & o & k & N & P & K & ->)]]].
  - auto.
  - destruct k; try congruence; auto.
  - destruct a as [|p|]; try (split; [reflexivity|split; reflexivity]). elim (A p eq_refl).
  - cbn [step]. rewrite N. unfold save. rewrite P. destruct k; try congruence; auto.
Qed.
Print Assumptions C111_not_a_path.
Example C111_not_a_path_example : snd (step w0 (MakePool PNone 7%nat)) = Err TypeErr.
Proof. reflexivity. Qed.

(** ** The file system stays sound, and no directory is ever lost *)
Theorem C111_sound : forall B (w : prog B) es, sound (disk w) -> sound (disk (runs w es)) /\ forall p, is_dir (disk w) p -> is_dir (disk (runs w es)) p.
Proof. intros B w es S. split; [apply sound_runs, S|]. intros p. apply runs_dirs. Qed.
Print Assumptions C111_sound.
Example C111_sound_example : sound fs0.
Proof.
  split; [reflexivity|]. intros p n H. destruct p as [|a [|b [|c p]]]; cbn in H; try reflexivity.
  - cbn in H. unfold is_dir. revert H. unfold fs0. cbn. repeat (match goal with |- context [match ?x with _ => _ end] => destruct x end; try congruence; try reflexivity).
  - exfalso. apply H. unfold fs0. cbn. repeat (match goal with |- context [match ?x with _ => _ end] => destruct x end; try reflexivity).
  - exfalso. apply H. unfold fs0. cbn. destruct p; repeat (match goal with |- context [match ?x with _ => _ end] => destruct x end; try reflexivity).
Qed.
