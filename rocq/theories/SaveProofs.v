(** Facts behind the theorems about saving and loading. *)
From Verif Require Import Base StateModel SaveModel SaveSpec.
From Coq Require Import Ascii String Decimal DecimalNat DecimalString.
Open Scope string_scope.
Open Scope list_scope.

Lemma path_eqb_spec p q : reflect (p = q) (path_eqb p q).
Proof. unfold path_eqb. destruct (list_eq_dec string_dec p q); constructor; assumption. Qed.
Lemma path_eqb_refl p : path_eqb p p = true.
Proof. destruct (path_eqb_spec p p); congruence. Qed.
Lemma path_eqb_neq p q : p <> q -> path_eqb p q = false.
Proof. destruct (path_eqb_spec p q); congruence. Qed.

Lemma parts p : p <> [] -> join (dirname p) (basename p) = p.
Proof. intro N. unfold join, dirname, basename. symmetry. apply app_removelast_last, N. Qed.
Lemma dirname_snoc d n : dirname (d ++ [n]) = d.
Proof. apply removelast_last. Qed.
Lemma snoc_neq (d : path) n : d ++ [n] <> d.
Proof. intro E. apply (f_equal (@List.length _)) in E. rewrite app_length in E. cbn in E. lia. Qed.

Section P.
Variable B : Type.
Implicit Types (fs : fsys B) (o : pobj B) (w : prog B) (e : event B).

Lemma put_same fs p x : put_node fs p x p = x.
Proof. unfold put_node. rewrite path_eqb_refl. reflexivity. Qed.
Lemma put_other fs p x q : q <> p -> put_node fs p x q = fs q.
Proof. intro N. unfold put_node. rewrite path_eqb_neq by assumption. reflexivity. Qed.

Lemma isdir_iff fs p : isdir fs p = true <-> is_dir fs p.
Proof. unfold isdir, is_dir. destruct (fs p) as [[|x]|]; split; congruence. Qed.
Lemma isdir_not fs p : isdir fs p = false <-> ~ is_dir fs p.
Proof. rewrite <- isdir_iff. destruct (isdir fs p); split; congruence. Qed.

Lemma open_can fs p : writable fs p -> open_wb fs p = (put_node fs p (Some (FFile None)), Ok tt).
Proof. intros [N D]. apply isdir_not in N. apply isdir_iff in D. unfold open_wb, dirname. rewrite N, D. reflexivity. Qed.
Lemma open_cannot fs p : ~ writable fs p -> open_wb fs p = (fs, Err FileErr).
Proof.
  intro N. unfold open_wb. destruct (isdir fs p) eqn:E; [reflexivity|]. destruct (isdir fs (dirname p)) eqn:F; [|reflexivity].
  elim N. split; [apply isdir_not, E|apply isdir_iff, F].
Qed.
Lemma writable_dec fs p : {writable fs p} + {~ writable fs p}.
Proof.
  unfold writable. destruct (isdir fs p) eqn:E.
  - right. intros [N _]. apply N, isdir_iff, E.
  - destruct (isdir fs (removelast p)) eqn:F.
    + left. split; [apply isdir_not, E|apply isdir_iff, F].
    + right. intros [_ D]. apply isdir_iff in D. congruence.
Qed.

(** Saving an object is writing the file it goes to. *)
Lemma save_goes fs o a k p : goes_to fs (at_place o) a p -> save fs o a k = write fs p o k.
Proof.
  unfold save. intro G. inversion G as [d n a' E1 E2 E3|pl a' q n PF D DN E1 E2 E3|pl a' q PF D E1 E2 E3]; subst.
  - reflexivity.
  - apply isdir_iff in D. inversion PF; subst; match goal with H : _ = at_place o |- _ => rewrite <- H in * end; inversion DN; subst;
      rewrite D; reflexivity.
  - apply isdir_not in D. inversion PF; subst; match goal with H : _ = at_place o |- _ => rewrite <- H in * end; rewrite D; reflexivity.
Qed.

Lemma save_nowhere fs o a k : nowhere (at_place o) a -> save fs o a k = (fs, Ok tt).
Proof. unfold save. intro N. inversion N; reflexivity. Qed.

Lemma place_cases fs pl a : ours pl -> (nowhere pl a) \/ (exists p, goes_to fs pl a p) \/ (pl = InOracle /\ a = PNotStr).
Proof.
  intro O. assert (H : forall q, path_for pl a q -> (exists n, default_name pl n) -> exists p, goes_to fs pl a p).
  { intros q PF [n DN]. destruct (isdir fs q) eqn:E; [apply isdir_iff in E|apply isdir_not in E]; eexists.
    - eapply gt_dir; eassumption.
    - eapply gt_file; eassumption. }
  destruct pl as [[d|] n|[p|] d|p| |f].
  - right. left. eexists. constructor.
  - left. constructor.
  - right. left. eapply H; [constructor|eexists; constructor].
  - left. constructor.
  - right. left. eapply H; [constructor|eexists; constructor].
  - destruct a as [|p|]; [left; constructor| |right; right; auto]. right. left. eapply H; [constructor|eexists; constructor].
  - elim (O f). reflexivity.
Qed.

Lemma goes_unique fs pl a p q : goes_to fs pl a p -> goes_to fs pl a q -> p = q.
Proof.
  intros G H. set (o := {| at_place := pl; body := tt |}). inversion G as [d n a' E1 E2 E3|pl1 a1 q1 n1 PF D DN|pl1 a1 q1 PF D]; subst.
  - inversion H as [|? ? ? ? PF|? ? ? PF]; subst; [reflexivity| |]; inversion PF.
  - inversion H as [|? ? q2 n2 PF2 D2 DN2|? ? ? PF2 D2]; subst; [inversion PF| |]; inversion PF; subst; inversion PF2; subst.
    all: try (inversion DN; subst; inversion DN2; subst; reflexivity). all: contradiction.
  - inversion H as [|? ? q2 n2 PF2 D2 DN2|? ? ? PF2 D2]; subst; [inversion PF| |]; inversion PF; subst; inversion PF2; subst;
      try reflexivity; contradiction.
Qed.

Lemma write_other fs p o k q : q <> p -> fst (write fs p o k) q = fs q.
Proof.
  intro N. unfold write. destruct (writable_dec fs p) as [W|W]; [rewrite (open_can _ _ W)|rewrite (open_cannot _ _ W); reflexivity].
  destruct k; cbn; rewrite ?put_other by assumption; reflexivity.
Qed.

Lemma makedirs_keeps rest : forall fs pre q x, fs q = Some x -> fst (makedirs fs pre rest) q = Some x.
Proof.
  induction rest as [|n rest IH]; intros fs pre q x E; [exact E|]. cbn. destruct (fs (join pre n)) as [[|y]|] eqn:F; [apply IH, E|exact E|].
  apply IH. rewrite put_other; [exact E|]. intros ->. congruence.
Qed.
Lemma pool_place_keeps fs a q x : fs q = Some x -> fst (pool_place fs a) q = Some x.
Proof.
  intro E. unfold pool_place. destruct a as [|p|]; try exact E. destruct (exists_ fs (join p "AL_result")); [exact E|].
  generalize (makedirs_keeps (join p "AL_result") fs [] q x E). destruct (makedirs fs [] (join p "AL_result")) as [fs' [u|e]]; auto.
Qed.

Lemma grown_disk w fs r : disk (fst (grown w fs r)) = fs.
Proof. destruct r; reflexivity. Qed.

Lemma is_dir_any fs q : {is_dir fs q} + {~ is_dir fs q}.
Proof. destruct (isdir fs q) eqn:E; [left; apply isdir_iff, E|right; apply isdir_not, E]. Qed.

(** A new toolbox changes at most the file it would be saved to, and this only if there is nothing yet. *)
Lemma box_keeps merge fs a b k p x : fs p = Some x ->
  (forall q, a = PStr q -> ~ (goes_to fs (InBox (Some q) None) PNone p /\ fs p = None)) ->
  fst (box_new merge fs a b k) p = Some x.
Proof.
  intros E NT. unfold box_new. destruct a as [|q|]; try exact E.
  set (file := if isdir fs q then join q "al_settings.pkl" else q). fold file.
  destruct (exists_ fs file) eqn:X; [exact E|].
  set (o := {| at_place := InBox (Some q) (Some (if isdir fs q then q else dirname q)); body := b |}).
  assert (S : save fs o PNone k = write fs file o k) by reflexivity. rewrite S.
  assert (N : p <> file). { intros ->. unfold exists_ in X. rewrite E in X. discriminate. }
  generalize (write_other fs file o k p N). destruct (write fs file o k) as [fs' [u|er]]; cbn; intros ->; exact E.
Qed.

Lemma step_keeps w e p x : disk w p = Some x -> (forall y, x = FFile y -> ~ touches w p e) -> disk (fst (step w e)) p = Some x.
Proof.
  intros E NT. destruct w as [fs m]. cbn [disk mem] in *. destruct e as [a r b|i a r b|merge a b k|a b|i r b|b|i b|i a k|c a| |q|q]; cbn [step disk mem].
  - rewrite grown_disk. exact E.
  - destruct (nth_error m i) as [[pl bo]|]; [|exact E]. destruct pl; try exact E. rewrite grown_disk. exact E.
  - assert (H : fst (box_new merge fs a b k) p = Some x).
    { apply box_keeps; [exact E|]. intros q -> [_ Y]. congruence. }
    destruct (box_new merge fs a b k) as [fs' r]. destruct (is_killed k); [exact H|]. rewrite grown_disk. exact H.
  - generalize (pool_place_keeps fs a p x E). destruct (pool_place fs a) as [fs' [u|er]]; auto.
  - destruct (nth_error m i) as [[pl bo]|]; [|exact E]. destruct pl; try exact E. rewrite grown_disk. exact E.
  - exact E.
  - destruct (nth_error m i); exact E.
  - destruct (nth_error m i) as [o|] eqn:F; [|exact E].
    assert (H : fst (save fs o a k) p = Some x).
    { destruct (at_place o) as [d n|pp d|pp| |f] eqn:PL.
      5: { unfold save. rewrite PL. exact E. }
      all: destruct (place_cases fs (at_place o) a) as [N|[[q G]|[O A]]];
        [rewrite PL; intro; congruence|rewrite save_nowhere by assumption; exact E| |unfold save; rewrite O, A; exact E].
      all: rewrite (save_goes _ _ _ _ _ G); destruct (path_eqb_spec p q) as [->|N]; [|rewrite write_other by assumption; exact E].
      all: destruct x as [|y]; [unfold write; rewrite open_cannot; [exact E|intros [W _]; apply W, E]|].
      all: elim (NT y eq_refl); econstructor; [exact F|exact G]. }
    destruct (save fs o a k) as [fs' r]. exact H.
  - unfold load. destruct a as [|q|]; try (rewrite grown_disk; exact E). destruct (read fs q) as [o|er]; [|exact E].
    destruct c; try exact E. destruct (at_place o); try exact E.
    generalize (pool_place_keeps fs (PStr p0) p x E). destruct (pool_place fs (PStr p0)) as [fs' [u|er]]; intro H; exact H.
  - exact E.
  - destruct (exists_ fs q) eqn:X; [exact E|]. destruct (isdir fs (dirname q)); [|exact E]. cbn. rewrite put_other; [exact E|].
    intros ->. unfold exists_ in X. rewrite E in X. discriminate.
  - destruct (fs q) as [[|y]|] eqn:F; try exact E. cbn. destruct (path_eqb_spec p q) as [->|N]; [|rewrite put_other by assumption; exact E].
    assert (x = FFile y) by congruence. subst x. elim (NT y eq_refl). constructor.
Qed.

Lemma runs_keeps es : forall w p x, disk w p = Some (FFile x) -> untouched w p es -> disk (runs w es) p = Some (FFile x).
Proof.
  induction es as [|e es IH]; intros w p x E U; [exact E|]. destruct U as [N U]. cbn. apply (IH (fst (step w e))); [|exact U].
  apply step_keeps; auto.
Qed.

(** Directories are never lost. *)
Lemma runs_dirs es : forall w p, is_dir (disk w) p -> is_dir (disk (runs w es)) p.
Proof.
  induction es as [|e es IH]; intros w p E; [exact E|]. cbn. apply (IH (fst (step w e))). apply step_keeps; [exact E|]. intros; discriminate.
Qed.

(** ** Sound file systems stay sound *)
Lemma sound_write fs p x : sound fs -> writable fs p -> sound (put_node fs p (Some (FFile x))).
Proof.
  intros [R S] [N D]. assert (P0 : p <> []) by (intros ->; contradiction). split.
  - unfold is_dir. rewrite put_other by congruence. exact R.
  - intros q n. unfold is_dir. destruct (path_eqb_spec (q ++ [n]) p) as [<-|M].
    + intros _. rewrite removelast_last in D. rewrite put_other; [exact D|]. intro X. symmetry in X. apply (snoc_neq q n), X.
    + rewrite put_other by assumption. intro H. specialize (S q n H). destruct (path_eqb_spec q p) as [->|M2]; [contradiction|].
      rewrite put_other by assumption. exact S.
Qed.
Lemma sound_dir fs p n : sound fs -> fs (p ++ [n]) = None -> is_dir fs p -> sound (put_node fs (p ++ [n]) (Some FDir)).
Proof.
  intros [R S] E D. split.
  - unfold is_dir. rewrite put_other; [exact R|]. destruct p; discriminate.
  - intros q m. unfold is_dir. destruct (path_eqb_spec (q ++ [m]) (p ++ [n])) as [X|M].
    + intros _. apply app_inj_tail in X. destruct X as [-> ->]. rewrite put_other; [exact D|]. intro X. symmetry in X. apply (snoc_neq p n), X.
    + rewrite put_other by assumption. intro H. specialize (S q m H). destruct (path_eqb_spec q (p ++ [n])) as [->|M2].
      * apply put_same.
      * rewrite put_other by assumption. exact S.
Qed.
Lemma sound_remove fs p x : sound fs -> fs p = Some (FFile x) -> sound (put_node fs p None).
Proof.
  intros [R S] E. split.
  - unfold is_dir. rewrite put_other; [exact R|]. intros <-. unfold is_dir in R. congruence.
  - intros q n. unfold is_dir. destruct (path_eqb_spec (q ++ [n]) p) as [<-|M]; [rewrite put_same; congruence|].
    rewrite put_other by assumption. intro H. specialize (S q n H). destruct (path_eqb_spec q p) as [->|M2].
    + unfold is_dir in S. congruence.
    + rewrite put_other by assumption. exact S.
Qed.
Lemma put_put fs p x y : forall q, put_node (put_node fs p x) p y q = put_node fs p y q.
Proof. intro q. unfold put_node. destruct (path_eqb q p); reflexivity. Qed.
Lemma sound_ext fs fs' : (forall q, fs' q = fs q) -> sound fs -> sound fs'.
Proof. intros H [R S]. unfold sound, is_dir in *. split; [rewrite H; exact R|]. intros p n. rewrite !H. apply S. Qed.
Lemma sound_full fs p o k : sound fs -> sound (fst (write fs p o k)).
Proof.
  intro S. unfold write. destruct (writable_dec fs p) as [W|W]; [rewrite (open_can _ _ W)|rewrite (open_cannot _ _ W); exact S].
  destruct k; cbn; try (apply sound_write; assumption). eapply sound_ext; [apply put_put|]. apply sound_write; assumption.
Qed.
Lemma sound_save fs o a k : sound fs -> sound (fst (save fs o a k)).
Proof.
  intro S. unfold save. destruct (at_place o) as [[d|] n|[p|] d|p| |f]; try exact S; try (apply sound_full, S).
  destruct a; try exact S. apply sound_full, S.
Qed.
Lemma sound_makedirs rest : forall fs pre, sound fs -> is_dir fs pre -> sound (fst (makedirs fs pre rest)).
Proof.
  induction rest as [|n rest IH]; intros fs pre S D; [exact S|]. cbn. destruct (fs (join pre n)) as [[|y]|] eqn:F.
  - apply IH; [exact S|exact F].
  - exact S.
  - apply IH; [apply sound_dir; assumption|apply put_same].
Qed.
Lemma sound_pool fs a : sound fs -> sound (fst (pool_place fs a)).
Proof.
  intro S. unfold pool_place. destruct a as [|p|]; try exact S. destruct (exists_ fs (join p "AL_result")); [exact S|].
  generalize (sound_makedirs (join p "AL_result") fs [] S (proj1 S)). destruct (makedirs fs [] (join p "AL_result")) as [fs' [u|e]]; auto.
Qed.
Lemma sound_step w e : sound (disk w) -> sound (disk (fst (step w e))).
Proof.
  intro S. destruct w as [fs m]. cbn [disk mem] in *. destruct e as [a r b|i a r b|merge a b k|a b|i r b|b|i b|i a k|c a| |q|q]; cbn [step disk mem].
  - rewrite grown_disk. exact S.
  - destruct (nth_error m i) as [[pl bo]|]; [|exact S]. destruct pl; try exact S. rewrite grown_disk. exact S.
  - assert (H : sound (fst (box_new merge fs a b k))).
    { unfold box_new. destruct a as [|q|]; try exact S.
      destruct (exists_ fs (if isdir fs q then join q "al_settings.pkl" else q)); [exact S|].
      set (o := {| at_place := InBox (Some q) (Some (if isdir fs q then q else dirname q)); body := b |}).
      generalize (sound_save fs o PNone k S). destruct (save fs o PNone k) as [fs' [u|er]]; auto. }
    destruct (box_new merge fs a b k) as [fs' r]. destruct (is_killed k); [exact H|]. rewrite grown_disk. exact H.
  - generalize (sound_pool fs a S). destruct (pool_place fs a) as [fs' [u|er]]; auto.
  - destruct (nth_error m i) as [[pl bo]|]; [|exact S]. destruct pl; try exact S. rewrite grown_disk. exact S.
  - exact S.
  - destruct (nth_error m i); exact S.
  - destruct (nth_error m i) as [o|] eqn:F; [|exact S].
    generalize (sound_save fs o a k S). destruct (save fs o a k) as [fs' r]. auto.
  - unfold load. destruct a as [|q|]; try (rewrite grown_disk; exact S). destruct (read fs q) as [o|er]; [|exact S].
    destruct c; try exact S. destruct (at_place o); try exact S.
    generalize (sound_pool fs (PStr p) S). destruct (pool_place fs (PStr p)) as [fs' [u|er]]; intro H; exact H.
  - exact S.
  - destruct (exists_ fs q) eqn:X; [exact S|]. destruct (isdir fs (dirname q)) eqn:D; [|exact S]. cbn.
    destruct q as [|c q] using rev_ind; [unfold exists_ in X; destruct S as [R _]; unfold is_dir in R; rewrite R in X; discriminate|].
    rewrite dirname_snoc in D. apply isdir_iff in D. apply sound_dir; [exact S| |exact D]. unfold exists_ in X.
    destruct (fs (q ++ [c])); [discriminate|reflexivity].
  - destruct (fs q) as [[|y]|] eqn:F; try exact S. cbn. eapply sound_remove; eassumption.
Qed.
Lemma sound_runs es : forall w, sound (disk w) -> sound (disk (runs w es)).
Proof. induction es as [|e es IH]; intros w S; [exact S|]. cbn. apply (IH (fst (step w e))), sound_step, S. Qed.
End P.

(** ** File names *)
Lemma append_inj_l s : forall t u, (s ++ t = s ++ u)%string -> t = u.
Proof. induction s as [|c s IH]; intros t u E; [exact E|]. cbn in E. injection E as E. apply IH, E. Qed.
Lemma append_length s : forall t, String.length (s ++ t)%string = (String.length s + String.length t)%nat.
Proof. induction s as [|c s IH]; intro t; [reflexivity|]. cbn. rewrite IH. reflexivity. Qed.
Lemma append_inj_r s : forall t u, (t ++ s = u ++ s)%string -> t = u.
Proof.
  induction t as [|c t IH]; intros u E.
  - destruct u as [|c u]; [reflexivity|]. apply (f_equal String.length) in E. cbn in E. rewrite append_length in E. lia.
  - destruct u as [|c' u]; [apply (f_equal String.length) in E; cbn in E; rewrite append_length in E; lia|].
    cbn in E. injection E as -> E. f_equal. apply IH, E.
Qed.
Lemma file_name_inj r s : sio_file_name r = sio_file_name s -> r = s.
Proof.
  unfold sio_file_name. intro E. apply append_inj_l, append_inj_r in E.
  assert (N : forall n, Nat.to_uint n <> Nil).
  { intros n X. pose proof X as Y. apply (f_equal Nat.of_uint) in Y. rewrite DecimalNat.Unsigned.of_to in Y. cbn in Y. subst n. discriminate X. }
  generalize (NilZero.usu (Nat.to_uint r) (N r)) (NilZero.usu (Nat.to_uint s) (N s)). rewrite E. intros H1 H2. rewrite H1 in H2. injection H2 as H2.
  apply (f_equal Nat.of_uint) in H2. rewrite !DecimalNat.Unsigned.of_to in H2. exact H2.
Qed.
Lemma file_name_first r : exists s, sio_file_name r = String "A"%char s.
Proof. unfold sio_file_name. eexists. reflexivity. Qed.
