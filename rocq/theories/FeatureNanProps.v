(** C57: what is asked for when a completion has entries that are not numbers. *)
From Verif Require Import Base IndexModel MLModel MLSpec MiscModel QueryModel FeatureModel FeatureSpec FeatureProofs FeatureProofs2.
From Coq Require Import QArith.
Local Open Scope Z_scope.

Lemma fvar_nan (g : fmat -> fl) mats : (fvar (map g mats) = NaN /\ exists M, In M mats /\ forall v, g M <> Num v) \/
  ((exists v, fvar (map g mats) = Num v) /\ forall M, In M mats -> exists v, g M = Num v).
Proof.
  unfold fvar. assert (K : (nums (map g mats) = None /\ exists M, In M mats /\ forall v, g M <> Num v) \/
    ((exists vs, nums (map g mats) = Some vs) /\ forall M, In M mats -> exists v, g M = Num v)).
  { induction mats as [|M mats IH]; cbn [map nums]; [right; split; [now exists []|intros M []]|].
    destruct (g M) as [q|s|] eqn:E; [|left; split; [auto|exists M; split; [now left|congruence]]|left; split; [auto|exists M; split; [now left|congruence]]].
    destruct IH as [[-> (N & HN & X)]|[[vs ->] A]]; [left; split; [auto|exists N; split; [now right|auto]]|right].
    split; [now exists (q :: vs)|]. intros N [<-|HN]; [now exists q|auto]. }
  destruct K as [[-> X]|[[vs ->] A]]; [left|right]; split; eauto.
Qed.
Lemma first_nan_at l : forall k s, nth_error l s = Some NaN -> (forall t, (t < s)%nat -> exists x, nth_error l t = Some x /\ x <> NaN) -> first_nan k l = Some (k + s)%nat.
Proof.
  induction l as [|x l IH]; intros k s E H; [now destruct s|]. destruct s as [|s]; cbn in E.
  - injection E as ->. cbn. now rewrite Nat.add_0_r.
  - destruct (H 0%nat ltac:(lia)) as (y & Ey & Ny). cbn in Ey. injection Ey as <-. cbn [first_nan].
    rewrite Nat.add_succ_r. assert (G : first_nan (S k) l = Some (S k + s)%nat) by (apply IH; [auto|intros t Ht; apply (H (S t)); lia]). cbn in G.
    destruct x; [exact G|exact G|congruence].
Qed.

(** From the second call on, an entry whose value is not a number in one of the completions is asked for before all others: the first
    one in the order of the rows, whether it is known or not. *)
Theorem C57_not_a_number : forall n f (mats : list fmat) mask p, has_shape mask n f -> (2 <= length mats)%nat -> Forall (fun M => has_shape M n f) mats ->
  first_such n f (fun q => exists M, In M mats /\ forall v, cell M (fst q) (snd q) <> Some (Num v)) p ->
  FeatureModel.choose n f mats mask = Ok p.
Proof.
  intros n f mats mask [a b] SM LM FM ([Ha Hb] & Pp & First). cbn [fst snd] in *. unfold FeatureModel.choose. apply Nat.leb_le in LM. change (Nat.leb 2 (length mats) = true) in LM. rewrite LM.
  set (S := mzip (fun m v => fmul v (Num (inject_Z (1 - m)))) mask (var_mat n f mats)).
  assert (SS : has_shape S n f) by (apply mzip_shape; auto; apply var_mat_shape).
  assert (G : forall x y M, (x < n)%nat -> (y < f)%nat -> In M mats -> exists w, cell M x y = Some w /\ nth y (nth x M []) NaN = w).
  { intros x y M Hx Hy HM. rewrite Forall_forall in FM. destruct (shape_cell M n f x y (FM M HM) Hx Hy) as [w E]. exists w. split; [auto|].
    unfold cell in E. destruct (nth_error M x) as [r|] eqn:Er; [|discriminate]. rewrite (nth_error_nth _ _ _ Er). apply (nth_error_nth _ _ _ E). }
  assert (C : forall x y, (x < n)%nat -> (y < f)%nat -> exists m, nth_error (concat S) (x * f + y) = Some (fmul (fvar (map (fun mat : fmat => nth y (nth x mat []) NaN) mats)) (Num (inject_Z (1 - m))))).
  { intros x y Hx Hy. rewrite (concat_nth S n f) by auto. unfold S. rewrite mzip_cell, var_mat_cell by auto. destruct (shape_cell mask n f x y SM Hx Hy) as [m ->]. now exists m. }
  assert (FN : first_nan 0 (concat S) = Some (0 + (a * f + b))%nat).
  { apply first_nan_at.
    - destruct (C a b Ha Hb) as [m ->]. destruct Pp as (M & HM & N). destruct (fvar_nan (fun mat => nth b (nth a mat []) NaN) mats) as [[-> _]|[_ A]]; [reflexivity|].
      destruct (A M HM) as [v Ev]. destruct (G a b M Ha Hb HM) as (w & Ew & W). exfalso. apply (N v). congruence.
    - intros t Ht. assert (Bt : (t < n * f)%nat) by nia. destruct (pos_inside n f t Bt) as [[I1 I2] P]. cbn [fst snd] in I1, I2.
      destruct (C _ _ I1 I2) as [m E]. rewrite P in E. eexists. split; [exact E|].
      destruct (fvar_nan (fun mat => nth (t mod f) (nth (t / f) mat []) NaN) mats) as [[_ (M & HM & N)]|[[v ->] _]]; [|discriminate]. exfalso.
      destruct (First (t / f, t mod f)%nat) as [X|X]; [split; auto| | |].
      + exists M. split; [auto|]. intros v Ev. cbn [fst snd] in Ev. destruct (G _ _ M I1 I2 HM) as (w & Ew & W). apply (N v). congruence.
      + injection X as -> ->. lia.
      + unfold before in X. cbn [fst snd] in X. destruct X as [X|[-> X]]; [nia|lia]. }
  unfold fl_argmax. rewrite FN. cbn [bind plus]. f_equal. f_equal.
  - rewrite Nat.div_add_l by lia. rewrite Nat.div_small by auto. lia.
  - rewrite Nat.add_comm, Nat.mod_add by lia. now apply Nat.mod_small.
Qed.
Print Assumptions C57_not_a_number.

(** Two completions of two rows; the entry (1, 0) is known and not a number in the second one. *)
Definition ex_nan_mats : list fmat := [[[Num 1; Num 2]; [Num 3; Num 4]]; [[Num 1; Num 5]; [NaN; NaN]]]%Q.
Example ex_nan : first_such 2 2 (fun q => exists M, In M ex_nan_mats /\ forall v, cell M (fst q) (snd q) <> Some (Num v)) (1, 0)%nat /\
  FeatureModel.choose 2 2 ex_nan_mats [[1; 0]; [1; 0]] = Ok (1, 0)%nat.
Proof.
  split; [|reflexivity]. split; [split; cbn; lia|]. split.
  - exists [[Num 1; Num 5]; [NaN; NaN]]%Q. split; [cbn; auto|]. intros v E. cbn in E. discriminate.
  - intros [a b] [Ha Hb] (M & HM & N). cbn [fst snd] in *. unfold before. cbn [fst snd].
    destruct a as [|[|a]]; [|destruct b as [|b]; [now left|right; lia]|lia]. exfalso.
    destruct b as [|[|b]]; [| |lia]; destruct HM as [<-|[<-|[]]]; cbn in N; (eapply N; reflexivity).
Qed.
