(** Theorems about QUIRE's evaluation of an instance: C92. *)
From Verif Require Import Base BaseFacts MiscModel MiscSpec QueryModel QuerySpec QueryProofs QueryProofs2 QueryProps3 QuireModel MLQuerySpec QuireSpec QuireProofs QuireProofs2.
From Coq Require Import QArith Qabs Qfield Lqa Setoid Morphisms.
Local Open Scope Q_scope.

(** ** C92. A new object keeps the kernel, the labels and the inverse of the regularised kernel. *)
Theorem C92_object : forall inv K lam y B, let n := length K in let o := quire_new inv K lam y in
  0 < lam -> symmetric_on n (at_ K) -> inverse_of B n (regularised K lam) ->
  (forall M A, inverse_of A n (at_ M) -> inverse_of (inv M) n (at_ M)) ->
  quire_ok n o /\ kern o = K /\ lmbda o = lam /\ labels o = y.
Proof.
  intros inv K lam y B n o Hl Hs HB Hinv. split; [|auto]. split; [exact Hl|]. split; [exact Hs|].
  assert (T : forall A, inverse_of A n (at_ (table n n (regularised K lam))) <-> inverse_of A n (regularised K lam)).
  { intro A. split; intros H a b Ha Hb; rewrite <- (H a b Ha Hb); apply (tot_ext (range n)); intros c Hc; unfold range in Hc; apply in_seq in Hc; rewrite table_at by lia; reflexivity. }
  apply T. unfold o, quire_new. cbn [lap]. apply (Hinv _ B). now apply T.
Qed.
Print Assumptions C92_object.

(** The matrix the code uses as the inverse of the unlabelled block of [L] is that inverse exactly when the kernel
    between labelled instances annihilates the kernel between labelled and unlabelled ones. *)
Theorem C92_inverse : forall inv o n Lx Ux, quire_ok n o -> parts n Lx Ux -> semidefinite_on Lx (at_ (kern o)) ->
  inverse_of (inv (scaled_eye (lmbda o) (length Lx))) (length Lx) (fun a b => if Nat.eqb a b then lmbda o else 0) ->
  (inverse_of (inv_laa inv o Lx Ux) (length Ux) (fun a b => at_ (lap o) (nth a Ux 0%nat) (nth b Ux 0%nat)) <->
   forall l u, In l Lx -> In u Ux -> total (map (fun j => at_ (kern o) l j * at_ (kern o) j u) Lx) == 0).
Proof. intros inv o n Lx Ux Hok Hp Psd He. exact (inverse_iff inv o n Lx Ux Hok Hp He Psd). Qed.
Print Assumptions C92_inverse.

(** Refuted: "the shortcut computes the inverse". For a kernel with positive values, like the default one, it never does. *)
Theorem C92_inverse_refuted : forall inv o n Lx Ux, quire_ok n o -> parts n Lx Ux -> semidefinite_on Lx (at_ (kern o)) ->
  inverse_of (inv (scaled_eye (lmbda o) (length Lx))) (length Lx) (fun a b => if Nat.eqb a b then lmbda o else 0) ->
  (forall a b, (a < n)%nat -> (b < n)%nat -> 0 < at_ (kern o) a b) -> Lx <> [] -> Ux <> [] ->
  ~ inverse_of (inv_laa inv o Lx Ux) (length Ux) (fun a b => at_ (lap o) (nth a Ux 0%nat) (nth b Ux 0%nat)).
Proof.
  intros inv o n Lx Ux Hok Hp Psd He Pos NL NU H. pose proof (proj1 (C92_inverse inv o n Lx Ux Hok Hp Psd He) H) as H'. clear H. rename H' into H.
  destruct Lx as [|l P]; [contradiction|]. destruct Ux as [|u U]; [contradiction|]. specialize (H l u (or_introl eq_refl) (or_introl eq_refl)).
  assert (M : forall a, In a ((l :: P) ++ u :: U) -> (a < n)%nat). { intros a Ha. apply (Permutation_in _ Hp) in Ha. unfold range in Ha. apply in_seq in Ha. lia. }
  assert (G : forall q, (forall j, In j q -> (j < n)%nat) -> 0 <= total (map (fun j => at_ (kern o) l j * at_ (kern o) j u) q)).
  { induction q as [|j q IH]; cbn [map total fold_right]; intro R; [lra|]. fold (total (map (fun j => at_ (kern o) l j * at_ (kern o) j u) q)).
    pose proof (IH (fun i Hi => R i (or_intror Hi))). pose proof (Pos l j ltac:(apply M; now left) ltac:(apply R; now left)).
    pose proof (Pos j u ltac:(apply R; now left) ltac:(apply M, in_or_app; right; now left)). nra. }
  cbn [map total fold_right] in H. fold (total (map (fun j => at_ (kern o) l j * at_ (kern o) j u) P)) in H.
  pose proof (G P ltac:(intros j Hj; apply M, in_or_app; left; now right)). pose proof (Pos l l ltac:(apply M; now left) ltac:(apply M; now left)).
  pose proof (Pos l u ltac:(apply M; now left) ltac:(apply M, in_or_app; right; now left)). nra.
Qed.
Print Assumptions C92_inverse_refuted.

(** Leaving one instance out: given the inverse [C] of the symmetric matrix [M], the matrix used for the remaining positions
    is their inverse exactly when at most one position remains or the column of [C] is zero elsewhere. *)
Theorem C92_left_out_refuted : forall C M k i, (i < k)%nat -> ~ at_ C i i == 0 -> symmetric_on k (at_ M) -> inverse_of C k (at_ M) ->
  ((forall a b, In a (without k i) -> In b (without k i) ->
      total (map (fun c => inv_luu C k i a c * at_ M c b) (without k i)) == if Nat.eqb a b then 1 else 0) <->
   ((k <= 2)%nat \/ forall c, In c (without k i) -> at_ C c i == 0)).
Proof. intros C M k i Hi Hc Ms Hinv. exact (update_iff C M k i Hi Hc Ms Hinv). Qed.
Print Assumptions C92_left_out_refuted.

(** The published formula, [W] being the inverse of the block of the other unlabelled instances, is what is computed when
    both shortcuts are right. *)
Theorem C92_formula : forall inv det odd o n Lx Ux i W, quire_ok n o -> parts n Lx Ux ->
  let C := inv_laa inv o Lx Ux in let k := length Ux in let L := at_ (lap o) in let u a := nth a Ux 0%nat in let R := without k i in
  inverse_of C k (fun a b => L (u a) (u b)) -> (i < k)%nat -> ~ at_ C i i == 0 -> ~ L (u i) (u i) == 0 ->
  ((k <= 2)%nat \/ forall c, In c R -> at_ C c i == 0) ->
  (forall a b, In a R -> In b R -> total (map (fun c => L (u a) (u c) * W c b) R) == if Nat.eqb a b then 1 else 0) ->
  exists v, quire_eva inv det odd o Lx Ux i = Num v /\
    v == L (u i) (u i) - det (block (lap o) Ux Ux) / L (u i) (u i) +
         2 * Qabs (total (map (fun l => (L (u i) l - total (map (fun b => total (map (fun a => L (u i) (u a) * W a b) R) * L (u b) l) R)) * nth l (labels o) 0) Lx)).
Proof.
  intros inv det odd o n Lx Ux i W Hok Hp C k L u R HC Hi Ci Li HU HW.
  unfold quire_eva. fold C k L R. fold (without k i). fold R. change (nth i Ux 0%nat) with (u i).
  assert (Q1 : Qeq_bool (at_ C i i) 0 = false) by (apply not_true_is_false; intro E; apply Ci; now apply Qeq_bool_iff).
  assert (Q2 : Qeq_bool (L (u i) (u i)) 0 = false) by (apply not_true_is_false; intro E; apply Li; now apply Qeq_bool_iff).
  rewrite Q1, Q2. cbn [orb]. eexists. split; [reflexivity|].
  set (M := table k k (fun a b => L (u a) (u b))).
  assert (MA : forall a b, (a < k)%nat -> (b < k)%nat -> at_ M a b = L (u a) (u b)) by (intros; unfold M; now rewrite table_at).
  assert (UN : forall a, (a < k)%nat -> (u a < n)%nat). { intros a Ha. apply (mem n Lx Ux Hp). right. now apply nth_In. }
  assert (MS : symmetric_on k (at_ M)).
  { intros a b Ha Hb. rewrite !MA by auto. destruct Hok as (Hl & Hs & Hinv). apply (L_sym n (at_ (kern o)) L (lmbda o) Hs Hinv); auto. }
  assert (MI : inverse_of C k (at_ M)).
  { intros a b Ha Hb. rewrite <- (HC a b Ha Hb). apply (tot_ext (range k)). intros c Hc. unfold range in Hc. apply in_seq in Hc. rewrite MA by (auto; lia). reflexivity. }
  assert (EQ : forall a b, In a R -> In b R -> inv_luu C k i a b == W a b).
  { apply (inv_unique R (inv_luu C k i) (fun a b => L (u a) (u b)) W (without_nodup k i)); [|exact HW].
    intros a b Ha Hb. pose proof (proj2 (C92_left_out_refuted C M k i Hi Ci MS MI) HU a b Ha Hb) as E. rewrite <- E. apply (tot_ext R).
    intros c Hc. apply in_without in Hc, Hb. rewrite MA by tauto. reflexivity. }
  apply Qplus_comp; [reflexivity|]. apply Qmult_comp; [reflexivity|]. apply Qabs_wd.
  change (fold_right Qplus 0) with total. apply (tot_ext Lx). intros l Hl. apply Qmult_comp; [|reflexivity]. apply Qplus_comp; [reflexivity|]. apply Qopp_comp.
  apply (tot_ext R). intros b Hb. apply Qmult_comp; [|reflexivity]. apply (tot_ext R). intros a Ha. rewrite (EQ a b Ha Hb). reflexivity.
Qed.
Print Assumptions C92_formula.

Lemma eval_two E e a b c : 0 < a -> 0 < c -> (forall z0 z1, E [z0; z1] == e + a * z0 * z0 + 2 * b * z0 * z1 + c * z1 * z1) ->
  evaluation E 2 0 (e + (a - b * b / c)) /\ evaluation E 2 1 (e + (c - b * b / a)).
Proof.
  intros Ha Hc H.
  assert (S : forall w, 0 <= w * w) by (intro w; nra).
  assert (B0 : forall s v, v == e + (a - b * b / c) * (s * s) -> least_energy E 2 0 s v).
  { intros s v Hv. split.
    - exists [s; - (b * s / c)]. split; [reflexivity|]. split; [reflexivity|]. rewrite H, Hv. field. lra.
    - intros z Lz Hz. destruct z as [|z0 [|z1 [|]]]; try discriminate. cbn in Hz. rewrite H, Hv, Hz.
      assert (Q : e + a * s * s + 2 * b * s * z1 + c * z1 * z1 - (e + (a - b * b / c) * (s * s)) == c * ((z1 + b * s / c) * (z1 + b * s / c))) by (field; lra).
      pose proof (S (z1 + b * s / c)). nra. }
  assert (B1 : forall s v, v == e + (c - b * b / a) * (s * s) -> least_energy E 2 1 s v).
  { intros s v Hv. split.
    - exists [- (b * s / a); s]. split; [reflexivity|]. split; [reflexivity|]. rewrite H, Hv. field. lra.
    - intros z Lz Hz. destruct z as [|z0 [|z1 [|]]]; try discriminate. cbn in Hz. rewrite H, Hv, Hz.
      assert (Q : e + a * z0 * z0 + 2 * b * z0 * s + c * s * s - (e + (c - b * b / a) * (s * s)) == a * ((z0 + b * s / a) * (z0 + b * s / a))) by (field; lra).
      pose proof (S (z0 + b * s / a)). nra. }
  split.
  - exists (e + (a - b * b / c)), (e + (a - b * b / c)). split; [apply B0; field; lra|]. split; [apply B0; field; lra|]. destruct (Qle_bool _ _); reflexivity.
  - exists (e + (c - b * b / a)), (e + (c - b * b / a)). split; [apply B1; field; lra|]. split; [apply B1; field; lra|]. destruct (Qle_bool _ _); reflexivity.
Qed.

Lemma located_mem train l ps p : NoDup train -> located train l ps -> (In p ps <-> exists x, In x l /\ nth_error train p = Some x).
Proof.
  intros ND F. induction F as [|x q l ps E F IH]; cbn; [split; [intros []|intros (x & [] & _)]|]. rewrite IH. split.
  - intros [<-|(y & Hy & Ey)]; [exists x; auto|exists y; auto].
  - intros (y & [<-|Hy] & Ey); [left|right; eauto]. apply (proj1 (NoDup_nth_error train) ND); [apply nth_error_Some; congruence|congruence].
Qed.
Lemma parts_of train L U lx ux : split_into train L U -> located train L lx -> located train U ux -> NoDup lx -> parts (length train) lx ux.
Proof.
  intros (ND & NU & IN & DJ) LL LU Nl. unfold parts. apply NoDup_Permutation.
  - assert (Nu : NoDup ux).
    { clear - NU LU ND. induction LU as [|x q l ps E F IH]; [constructor|]. inversion NU; subst. constructor; [|auto]. rewrite (located_mem train l ps q ND F). intros (y & Hy & Ey). congruence. }
    assert (DD : forall p, In p lx -> In p ux -> False).
    { intros p H1 H2. apply (located_mem train L lx p ND LL) in H1. apply (located_mem train U ux p ND LU) in H2. destruct H1 as (x & Hx & E1). destruct H2 as (y & Hy & E2).
      rewrite E1 in E2. injection E2 as <-. eapply DJ; eauto. }
    clear - Nl Nu DD. induction lx as [|a lx IH]; [exact Nu|]. inversion Nl; subst. cbn. constructor; [rewrite in_app_iff; intros [X|X]; [auto|apply (DD a); cbn; auto]|]. apply IH; [auto|]. intros p J1 J2. apply (DD p); cbn; auto.
  - apply seq_NoDup.
  - intro p. rewrite in_app_iff, (located_mem train L lx p ND LL), (located_mem train U ux p ND LU). unfold range. rewrite in_seq. split.
    + intros [(x & _ & E)|(x & _ & E)]; (split; [lia|]; cbn; apply nth_error_Some; congruence).
    + intros [_ H]. cbn in H. destruct (nth_error train p) as [x|] eqn:E; [|apply nth_error_None in E; lia]. pose proof (nth_error_In _ _ E) as Ix. apply IN in Ix. destruct Ix; [left|right]; eauto.
Qed.
Lemma chosen_in train eva L U us : split_into train L U -> (2 <= length U)%nat -> located train U us -> forall w v,
  quire_select train eva L U = Ok [v] -> nth_error train w = Some v -> In v U -> In w us.
Proof. intros (ND & _) _ LU w v _ NT Hv. apply (located_mem train U us w ND LU). eauto. Qed.
Lemma psd_sub n l K : semidefinite_on (range n) K -> NoDup l -> (forall j, In j l -> (j < n)%nat) -> forall x : nat -> Q,
  0 <= tot l (fun i => tot l (fun j => x i * x j * K i j)).
Proof.
  intros Psd N R x. pose proof (Psd (fun i => if existsb (Nat.eqb i) l then x i else 0)) as HQ.
  assert (ONE : forall f : nat -> Q, tot (range n) (fun j => (if existsb (Nat.eqb j) l then x j else 0) * f j) == tot l (fun j => x j * f j)).
  { intro f. assert (P : Permutation (range n) (l ++ filter (fun j => negb (existsb (Nat.eqb j) l)) (range n))).
    { apply NoDup_Permutation; [apply seq_NoDup| |].
      - clear - N. assert (NF : NoDup (filter (fun j => negb (existsb (Nat.eqb j) l)) (range n))) by (apply NoDup_filter, seq_NoDup).
        assert (DD : forall a, In a l -> In a (filter (fun j => negb (existsb (Nat.eqb j) l)) (range n)) -> False).
        { intros a Ha Hf. apply filter_In in Hf. destruct Hf as [_ Hf]. apply negb_true_iff in Hf. assert (existsb (Nat.eqb a) l = true) by (apply existsb_exists; exists a; split; [auto|apply Nat.eqb_refl]). congruence. }
        revert DD. generalize (filter (fun j => negb (existsb (Nat.eqb j) l)) (range n)) NF. clear NF. intros m Nm DD. induction l as [|a l IH]; [exact Nm|]. inversion N; subst. cbn.
        constructor; [rewrite in_app_iff; intros [X|X]; [auto|apply (DD a); cbn; auto]|]. apply IH; [auto|]. intros p H3 H4. apply (DD p); cbn; auto.
      - intro a. rewrite in_app_iff, filter_In, negb_true_iff. unfold range. rewrite in_seq. split.
        + intro Ha. destruct (existsb (Nat.eqb a) l) eqn:E; [left|right; auto]. apply existsb_exists in E. destruct E as (c & Hc & E). apply Nat.eqb_eq in E. now subst.
        + intros [Ha|[Ha _]]; [apply R in Ha; lia|exact Ha]. }
    rewrite (tot_perm _ _ _ P), tot_app. rewrite (tot_zero (filter _ _)).
    - rewrite Qplus_0_r. apply tot_ext. intros j Hj. assert (E : existsb (Nat.eqb j) l = true) by (apply existsb_exists; exists j; split; [auto|apply Nat.eqb_refl]). rewrite E. reflexivity.
    - intros j Hj. apply filter_In in Hj. destruct Hj as [_ Hj]. apply negb_true_iff in Hj. rewrite Hj. ring. }
  change (0 <= tot (range n) (fun i => tot (range n) (fun j => (if existsb (Nat.eqb i) l then x i else 0) * (if existsb (Nat.eqb j) l then x j else 0) * K i j))) in HQ.
  assert (E : tot (range n) (fun i => tot (range n) (fun j => (if existsb (Nat.eqb i) l then x i else 0) * (if existsb (Nat.eqb j) l then x j else 0) * K i j)) ==
              tot l (fun i => tot l (fun j => x i * x j * K i j))).
  { rewrite (tot_ext (range n) _ (fun i => (if existsb (Nat.eqb i) l then x i else 0) * tot l (fun j => x j * K i j))).
    - rewrite ONE. apply tot_ext. intros i _. rewrite <- tot_scal. apply tot_ext. intros; ring.
    - intros i _. rewrite <- ONE, <- tot_scal. apply tot_ext. intros; ring. }
  rewrite E in HQ. exact HQ.
Qed.

(** With exactly two unlabelled instances that have nothing to do with the labelled ones, the instance chosen is one with
    the least worst-case energy. *)
Theorem C92_two : forall inv det odd o train L U lx s t, let n := length train in
  quire_ok n o -> semidefinite_on (range n) (at_ (kern o)) -> split_into train L U -> located train L lx -> located train U [s; t] -> NoDup lx ->
  inverse_of (inv (scaled_eye (lmbda o) (length lx))) (length lx) (fun a b => if Nat.eqb a b then lmbda o else 0) ->
  (forall l, In l lx -> at_ (kern o) l s == 0 /\ at_ (kern o) l t == 0) ->
  (forall a b c d, det [[a; b]; [c; d]] == a * d - b * c) ->
  exists i v w, (i < 2)%nat /\ quire_query inv det odd o train L U = Ok [nth (nth i [s; t] 0%nat) train 0%Z] /\
    evaluation (label_energy o lx [s; t]) 2 i v /\ evaluation (label_energy o lx [s; t]) 2 (1 - i) w /\ v <= w.
Proof.
  intros inv det odd o train L U lx s t n Hok Psd SP LL LU Nlx He Dec Hdet. pose proof SP as (ND & NU & IN & DJ).
  assert (Hp : parts n lx [s; t]) by (eapply parts_of; eauto).
  assert (M : forall a, In a lx \/ In a [s; t] <-> (a < n)%nat) by exact (mem n lx [s; t] Hp).
  set (K := at_ (kern o)) in *. set (Lp := at_ (lap o)) in *. set (lam := lmbda o) in *.
  destruct Hok as (Hlam & Hs & Hinv). fold K lam in Hlam, Hs, Hinv.
  assert (Hok : quire_ok n o) by (split; [exact Hlam|split; [exact Hs|exact Hinv]]).
  assert (Ns : (s < n)%nat) by (apply M; cbn; auto). assert (Nt : (t < n)%nat) by (apply M; cbn; auto).
  assert (Nst : s <> t). { pose proof (u_nodup n lx [s; t] Hp) as X. inversion X; subst. intros ->. cbn in *. tauto. }
  pose proof (p_nodup n lx [s; t] Hp) as Np.
  (* the blocks *)
  assert (UC : C_inverts K Lp lam lx [s; t]).
  { apply (uncoupled_right n K Lp lam lx [s; t] Hlam Hs Hp Hinv). intros l u Hl Hu. apply tot_zero. intros j Hj.
    destruct (Dec j Hj) as [D1 D2]. destruct Hu as [<-|[<-|[]]]; [rewrite D1|rewrite D2]; ring. }
  assert (CV : forall a b, In a [s; t] -> In b [s; t] -> C K lam lx a b == K a b + (if Nat.eqb a b then lam else 0)).
  { intros a b Ha Hb. unfold C. rewrite (tot_zero lx); [ring|]. intros j Hj. destruct (Dec j Hj) as [D1 D2]. destruct Hb as [<-|[<-|[]]]; [rewrite D1|rewrite D2]; ring. }
  assert (Kst : K s t == K t s) by (apply Hs; auto).
  assert (LS : forall a b, (a < n)%nat -> (b < n)%nat -> Lp a b == Lp b a) by exact (L_sym n K Lp lam Hs Hinv).
  set (p := K s s + lam) in *. set (q := K t t + lam) in *. set (r := K s t) in *.
  assert (QF : forall x y, 0 <= K s s * x * x + 2 * r * x * y + K t t * y * y).
  { intros x y. pose proof (Psd (fun i => if Nat.eqb s i then x else if Nat.eqb t i then y else 0)) as HQ. change total with (fun l => total l) in HQ. cbv beta in HQ.
    change (0 <= tot (range n) (fun i => tot (range n) (fun j => (if Nat.eqb s i then x else if Nat.eqb t i then y else 0) * (if Nat.eqb s j then x else if Nat.eqb t j then y else 0) * K i j))) in HQ.
    assert (ONE : forall f : nat -> Q, tot (range n) (fun j => (if Nat.eqb s j then x else if Nat.eqb t j then y else 0) * f j) == x * f s + y * f t).
    { intro f. rewrite (tot_ext (range n) _ (fun j => (if Nat.eqb s j then x * f j else 0) + (if Nat.eqb t j then y * f j else 0))).
      - rewrite tot_plus. rewrite (tot_delta (range n) s (fun j => x * f j)), (tot_delta (range n) t (fun j => y * f j)); [reflexivity|apply seq_NoDup|apply in_seq; lia|apply seq_NoDup|apply in_seq; lia].
      - intros j _. destruct (Nat.eqb_spec s j) as [->|]; [destruct (Nat.eqb_spec t j); [congruence|ring]|destruct (Nat.eqb t j); ring]. }
    rewrite (tot_ext (range n) _ (fun i => (if Nat.eqb s i then x else if Nat.eqb t i then y else 0) * (x * K i s + y * K i t))) in HQ.
    - rewrite ONE in HQ. rewrite <- Kst in HQ. fold r in HQ. lra.
    - intros i _. rewrite <- (ONE (K i)). rewrite <- tot_scal. apply tot_ext. intros; ring. }
  assert (Pp : 0 < p) by (pose proof (QF 1 0); unfold p; lra). assert (Pq : 0 < q) by (pose proof (QF 0 1); unfold q; lra).
  assert (Dd : 0 < p * q - r * r).
  { pose proof (QF r (- p)) as HQ. assert (Q2 : 0 <= p * (K t t * p - r * r)) by (unfold p in *; nra).
    assert (Q3 : 0 <= K t t * p - r * r). { apply Qnot_lt_le. intro X. nra. } unfold q. nra. }
  set (a := Lp s s) in *. set (b := Lp s t) in *. set (c := Lp t t) in *.
  assert (Lts : Lp t s == b) by (apply LS; auto).
  assert (E11 : p * a + r * b == 1).
  { pose proof (UC s s ltac:(cbn; auto) ltac:(cbn; auto)) as E. rewrite !tot_cons, tot_nil, !CV in E by (cbn; auto). rewrite Nat.eqb_refl in E.
    destruct (Nat.eqb_spec s t); [contradiction|]. rewrite Lts in E. fold a r p in E. lra. }
  assert (E21 : r * a + q * b == 0).
  { pose proof (UC t s ltac:(cbn; auto) ltac:(cbn; auto)) as E. rewrite !tot_cons, tot_nil, !CV in E by (cbn; auto). rewrite Nat.eqb_refl in E.
    destruct (Nat.eqb_spec t s); [congruence|]. rewrite Lts, <- Kst in E. fold a r q in E. lra. }
  assert (E22 : r * b + q * c == 1).
  { pose proof (UC t t ltac:(cbn; auto) ltac:(cbn; auto)) as E. rewrite !tot_cons, tot_nil, !CV in E by (cbn; auto). rewrite Nat.eqb_refl in E.
    destruct (Nat.eqb_spec t s); [congruence|]. rewrite <- Kst in E. fold b c r q in E. lra. }
  assert (Ea : (p * q - r * r) * a == q).
  { transitivity (q * (p * a + r * b) - r * (r * a + q * b)); [ring|]. rewrite E11, E21. ring. }
  assert (Eb : (p * q - r * r) * b == - r).
  { transitivity (p * (r * a + q * b) - r * (p * a + r * b)); [ring|]. rewrite E11, E21. ring. }
  assert (Ec : (p * q - r * r) * c == p).
  { assert (X : q * ((p * q - r * r) * c) == q * p) by (transitivity ((p * q - r * r) * (q * c)); [ring|]; assert (Y : q * c == 1 - r * b) by lra; rewrite Y; transitivity (p * q - r * r - r * ((p * q - r * r) * b)); [ring|]; rewrite Eb; ring).
    assert (Z : / q * (q * ((p * q - r * r) * c)) == / q * (q * p)) by (rewrite X; reflexivity). assert (Nq : ~ q == 0) by lra.
    transitivity (/ q * (q * ((p * q - r * r) * c))); [field; auto|]. rewrite Z. field. auto. }
  assert (Pa : 0 < a) by (apply Qnot_le_lt; intro X; nra). assert (Pc : 0 < c) by (apply Qnot_le_lt; intro X; nra).
  assert (Pdet : 0 < a * c - b * b).
  { assert (X : (p * q - r * r) * ((p * q - r * r) * (a * c - b * b)) == p * q - r * r).
    { transitivity (((p * q - r * r) * a) * ((p * q - r * r) * c) - ((p * q - r * r) * b) * ((p * q - r * r) * b)); [ring|]. rewrite Ea, Eb, Ec. ring. }
    apply Qnot_le_lt. intro Y. assert ((p * q - r * r) * (a * c - b * b) <= 0) by nra. nra. }
  (* no coupling in [Lp] either *)
  assert (L0 : forall u l, In u [s; t] -> In l lx -> Lp u l == 0).
  { intros u l Hu Hl. apply (tot_squares_zero lx (fun l => Lp u l)); [|exact Hl].
    assert (R : forall j, In j lx -> tot lx (fun c => Lp u c * K c j) + lam * Lp u j == 0).
    { intros j Hj. assert (Nj : (j < n)%nat) by (apply M; auto). assert (Nu : (u < n)%nat) by (apply M; auto). pose proof (Hinv u j Nu Nj) as E.
      change (tot (range n) (fun c => Lp u c * (K c j + (if Nat.eqb c j then lam else 0))) == if Nat.eqb u j then 1 else 0) in E.
      destruct (Nat.eqb_spec u j) as [->|]; [exfalso; apply (pu_disj n lx [s; t] Hp j Hj Hu)|]. rewrite (split_sum n lx [s; t] Hp) in E.
      assert (Z : tot [s; t] (fun c => Lp u c * (K c j + (if Nat.eqb c j then lam else 0))) == 0).
      { apply tot_zero. intros v Hv. assert (v <> j) by (intros ->; apply (pu_disj n lx [s; t] Hp j Hj Hv)). destruct (Nat.eqb_spec v j); [contradiction|].
        assert (Nv : (v < n)%nat) by (apply M; auto). rewrite (Hs v j Nv Nj). destruct (Dec j Hj) as [D1 D2]. destruct Hv as [<-|[<-|[]]]; [rewrite D1|rewrite D2]; ring. }
      rewrite Z in E. rewrite (tot_ext lx _ (fun c => Lp u c * K c j + (if Nat.eqb j c then lam * Lp u c else 0))) in E.
      - rewrite tot_plus, (tot_delta lx j (fun c => lam * Lp u c) Np Hj) in E. lra.
      - intros v Hv. rewrite (Nat.eqb_sym j v). destruct (Nat.eqb v j); ring. }
    assert (T : tot lx (fun j => tot lx (fun c => Lp u c * K c j) * Lp u j) + lam * tot lx (fun j => Lp u j * Lp u j) == 0).
    { rewrite <- tot_scal, <- tot_plus. apply tot_zero. intros j Hj. transitivity ((tot lx (fun c => Lp u c * K c j) + lam * Lp u j) * Lp u j); [ring|]. rewrite (R j Hj). ring. }
    assert (PS : 0 <= tot lx (fun j => tot lx (fun c => Lp u c * K c j) * Lp u j)).
    { rewrite (tot_ext lx _ (fun j => tot lx (fun c => Lp u c * Lp u j * K c j))).
      - rewrite tot_swap. apply (psd_sub n lx K Psd); [exact Np|]. intros j Hj. apply M. auto.
      - intros j Hj. rewrite <- tot_scal_r. apply tot_ext. intros; ring. }
    nra. }
  (* evaluations *)
  set (D := a * c - b * b) in *.
  assert (EVA : forall i, (i < 2)%nat -> exists v, quire_eva inv det odd o lx [s; t] i = Num v /\ v == (if Nat.eqb i 0 then a - D / a else c - D / c)).
  { intros i Hi. unfold quire_eva.
    assert (CI : at_ (inv_laa inv o lx [s; t]) i i == if Nat.eqb i 0 then p else q).
    { rewrite (inv_laa_at inv o n lx [s; t] Hok Hp He i i) by (cbn; lia). fold K lam. destruct i as [|[|]]; try lia; cbn [nth Nat.eqb]; rewrite CV by (cbn; auto); rewrite Nat.eqb_refl; reflexivity. }
    assert (Q1 : Qeq_bool (at_ (inv_laa inv o lx [s; t]) i i) 0 = false).
    { apply not_true_is_false. intro X. apply Qeq_bool_iff in X. rewrite CI in X. destruct (Nat.eqb i 0); lra. }
    assert (Q2 : Qeq_bool (at_ (lap o) (nth i [s; t] 0%nat) (nth i [s; t] 0%nat)) 0 = false).
    { apply not_true_is_false. intro X. apply Qeq_bool_iff in X. destruct i as [|[|]]; try lia; cbn [nth] in X; fold Lp in X; [fold a in X|fold c in X]; lra. }
    rewrite Q1, Q2. cbn [orb]. eexists. split; [reflexivity|]. fold Lp.
    match goal with |- context [Qabs ?x] => assert (T0 : x == 0) end.
    { apply (tot_zero lx). intros l Hl. rewrite (L0 (nth i [s; t] 0%nat) l) by (auto; destruct i as [|[|]]; try lia; cbn; auto).
      match goal with |- (0 - ?x) * _ == 0 => assert (X : x == 0) end.
      { apply (tot_zero (filter (fun c => negb (Nat.eqb c i)) (range (length [s; t])))). intros v Hv. apply filter_In in Hv. destruct Hv as [Hv _]. unfold range in Hv. apply in_seq in Hv. cbn in Hv.
        rewrite (L0 (nth v [s; t] 0%nat) l) by (auto; destruct v as [|[|]]; try lia; cbn; auto). ring. }
      rewrite X. ring. }
    rewrite T0. change (Qabs 0) with 0.
    assert (DT : det (block (lap o) [s; t] [s; t]) == D). { cbn [block map]. fold Lp. rewrite Hdet. fold a b c. rewrite Lts. reflexivity. }
    rewrite DT. destruct i as [|[|]]; try lia; cbn [nth Nat.eqb]; [fold a|fold c]; ring. }
  (* the energy *)
  set (e := tot lx (fun i => tot lx (fun j => nth i (labels o) 0 * nth j (labels o) 0 * Lp i j))).
  assert (EN : forall z0 z1, label_energy o lx [s; t] [z0; z1] == e + a * z0 * z0 + 2 * b * z0 * z1 + c * z1 * z1).
  { intros z0 z1. unfold label_energy. fold Lp. cbn [combine].
    change (tot (map (fun l => (l, nth l (labels o) 0)) lx ++ [(s, z0); (t, z1)]) (fun p => tot (map (fun l => (l, nth l (labels o) 0)) lx ++ [(s, z0); (t, z1)]) (fun q => snd p * snd q * Lp (fst p) (fst q)))
      == e + a * z0 * z0 + 2 * b * z0 * z1 + c * z1 * z1).
    rewrite tot_app, tot_map. cbn [fst snd].
    rewrite (tot_ext lx _ (fun i => tot lx (fun j => nth i (labels o) 0 * nth j (labels o) 0 * Lp i j))).
    - fold e. rewrite !tot_cons, tot_nil, !tot_app, !tot_map, !tot_cons, !tot_nil. cbn [fst snd]. fold a b c. rewrite Lts.
      rewrite (tot_zero lx (fun l => z0 * nth l (labels o) 0 * Lp s l)), (tot_zero lx (fun l => z1 * nth l (labels o) 0 * Lp t l)); [ring| |]; intros l Hl; rewrite (L0 _ l) by (cbn; auto); ring.
    - intros i Hi. rewrite tot_app, tot_map, !tot_cons, tot_nil. cbn [fst snd]. assert (Ni : (i < n)%nat) by (apply M; auto).
      rewrite (LS i s), (LS i t), (L0 s i), (L0 t i) by (cbn; auto). ring. }
  destruct (eval_two (label_energy o lx [s; t]) e a b c Pa Pc EN) as [V0 V1].
  (* the choice *)
  assert (LEN : length U = 2%nat) by (apply Forall2_length_eq in LU; exact LU).
  unfold quire_query. rewrite LEN. cbn [Nat.leb]. rewrite (located_first train L lx ND LL), (located_first train U [s; t] ND LU). cbn [bind].
  set (eva := fun p0 : nat => quire_eva inv det odd o lx [s; t] (index_of p0 [s; t])).
  assert (IX : index_of s [s; t] = 0%nat /\ index_of t [s; t] = 1%nat).
  { cbn [index_of]. rewrite !Nat.eqb_refl. destruct (Nat.eqb_spec t s); [congruence|auto]. }
  destruct (EVA 0%nat ltac:(lia)) as (v0 & EV0 & W0). destruct (EVA 1%nat ltac:(lia)) as (v1 & EV1 & W1). cbn [Nat.eqb] in W0, W1.
  assert (Es : eva s = Num v0) by (unfold eva; rewrite (proj1 IX); exact EV0). assert (Et : eva t = Num v1) by (unfold eva; rewrite (proj2 IX); exact EV1).
  destruct (C69_minimal train eva L U [s; t] SP ltac:(lia) LU) as (w & x & v & SEL & VU & NT & EW & MIN).
  { intros z [<-|[<-|[]]]; [rewrite Es|rewrite Et]; exact I. }
  { exists s, v0. split; [now left|exact Es]. }
  assert (WH : w = s \/ w = t). { assert (Iw : In w [s; t]) by (apply (chosen_in train eva L U [s; t] SP ltac:(lia) LU w v SEL NT VU)). cbn in Iw. intuition. }
  assert (MONO : forall g h, 0 < g -> 0 < h -> g - D / g <= h - D / h -> g <= h).
  { intros g h Pg Ph Hle. apply Qnot_lt_le. intro X. assert (Y : D / g <= D / h). { apply Qle_shift_div_l; [exact Ph|]. assert (Z : D / g * h == D * (h / g)) by (field; lra). rewrite Z.
      assert (h / g <= 1) by (apply Qle_shift_div_r; lra). nra. } lra. }
  assert (DIV : forall g h, 0 < g -> g <= h -> b * b / h <= b * b / g).
  { intros g h Pg Hle. apply Qle_shift_div_l; [exact Pg|]. assert (Z : b * b / h * g == b * b * (g / h)) by (field; lra). rewrite Z.
    assert (g / h <= 1) by (apply Qle_shift_div_r; lra). nra. }
  destruct WH as [-> | ->].
  - exists 0%nat, (e + (a - b * b / c)), (e + (c - b * b / a)). split; [lia|]. split; [|split; [exact V0|split; [exact V1|]]].
    + rewrite SEL. cbn [nth]. now rewrite (nth_error_nth _ _ 0%Z NT).
    + pose proof (MIN t v1 ltac:(cbn; auto)  Et) as HQ. rewrite Es in EW. injection EW as <-. rewrite W0, W1 in HQ. pose proof (MONO a c Pa Pc HQ) as ac.
      assert (X : a - b * b / c == D / c) by (unfold D; field; lra). assert (Y : c - b * b / a == D / a) by (unfold D; field; lra). rewrite X, Y.
      apply Qplus_le_compat; [lra|]. apply Qle_shift_div_l; [exact Pa|]. assert (Z : D / c * a == D * (a / c)) by (field; lra). rewrite Z. assert (a / c <= 1) by (apply Qle_shift_div_r; lra). nra.
  - exists 1%nat, (e + (c - b * b / a)), (e + (a - b * b / c)). split; [lia|]. split; [|split; [exact V1|split; [exact V0|]]].
    + rewrite SEL. cbn [nth]. now rewrite (nth_error_nth _ _ 0%Z NT).
    + pose proof (MIN s v0 ltac:(cbn; auto) Es) as HQ. rewrite Et in EW. injection EW as <-. rewrite W0, W1 in HQ. pose proof (MONO c a Pc Pa HQ) as ac.
      assert (X : a - b * b / c == D / c) by (unfold D; field; lra). assert (Y : c - b * b / a == D / a) by (unfold D; field; lra). rewrite X, Y.
      apply Qplus_le_compat; [lra|]. apply Qle_shift_div_l; [exact Pc|]. assert (Z : D / a * c == D * (c / a)) by (field; lra). rewrite Z. assert (c / a <= 1) by (apply Qle_shift_div_r; lra). nra.
Qed.
Print Assumptions C92_two.

(** Refuted: "the instance chosen has the least worst-case energy". One labelled instance and three unlabelled ones, with a
    positive semidefinite kernel and exact inverses and determinant: the third unlabelled instance is chosen although the
    second has a smaller worst case. *)
Definition ex_K : list (list Q) := [[1; 1#4; 1#4; 3#4]; [1#4; 1; 3#4; 0]; [1#4; 3#4; 1; 1#4]; [3#4; 0; 1#4; 1]].
Definition ex_lap : list (list Q) := [[12#13; -2#13; 0; -6#13]; [-2#13; 12#13; -6#13; 2#13]; [0; -6#13; 12#13; -2#13]; [-6#13; 2#13; -2#13; 12#13]].
Definition ex_inv (M : list (list Q)) : list (list Q) := if Nat.eqb (length M) 1 then [[2]] else ex_lap.
Definition ex_quire : quire := quire_new ex_inv ex_K (1#2) [0; 0; 0; 1].
Definition ex_train : list Z := [10; 20; 30; 40]%Z.
Lemma ex_ok : quire_ok 4 ex_quire.
Proof.
  split; [reflexivity|]. split.
  - intros [|[|[|[|]]]] [|[|[|[|]]]] Ha Hb; try lia; reflexivity.
  - intros [|[|[|[|]]]] [|[|[|[|]]]] Ha Hb; try lia; vm_compute; reflexivity.
Qed.
Theorem C92_choice_refuted : exists inv odd K lam y train L U lx ux, let o := quire_new inv K lam y in let n := length train in
  length K = n /\ quire_ok n o /\ semidefinite_on (range n) (at_ K) /\ split_into train L U /\ located train L lx /\ located train U ux /\ NoDup lx /\
  inverse_of (inv (scaled_eye lam (length lx))) (length lx) (fun a b => if Nat.eqb a b then lam else 0) /\
  quire_query inv (determinant (length ux)) odd o train L U = Ok [nth (nth 2 ux 0%nat) train 0%Z] /\
  exists v w, evaluation (label_energy o lx ux) (length ux) 1 v /\ evaluation (label_energy o lx ux) (length ux) 2 w /\ v < w.
Proof.
  exists ex_inv, (fun _ => NaN), ex_K, (1#2), [0; 0; 0; 1], ex_train, [40%Z], [10; 20; 30]%Z, [3%nat], [0%nat; 1%nat; 2%nat]. cbn zeta.
  assert (S : forall w, 0 <= w * w) by (intro w; nra).
  split; [reflexivity|]. split; [exact ex_ok|]. split; [|split; [|split; [|split; [|split; [|split; [|split]]]]]].
  - intro x. set (a := x 0%nat). set (b := x 1%nat). set (c := x 2%nat). set (d := x 3%nat).
    assert (E : total (map (fun i => total (map (fun j => x i * x j * at_ ex_K i j) (range 4))) (range 4)) ==
                a * a + b * b + c * c + d * d + (1#2) * a * b + (1#2) * a * c + (3#2) * a * d + (3#2) * b * c + (1#2) * c * d).
    { cbn -[Qmult Qplus]. fold a b c d. unfold at_, ex_K. cbn [nth]. ring. }
    change (length ex_train) with 4%nat. rewrite E. pose proof (S (a + (1#4) * b + (1#4) * c + (3#4) * d)). pose proof (S (b + (11#15) * c - (1#5) * d)). pose proof (S (c + (6#13) * d)). pose proof (S d). lra.
  - split; [repeat constructor; cbn; intuition congruence|]. split; [repeat constructor; cbn; intuition congruence|]. split; [cbn; intuition|]. intros z; cbn; intuition congruence.
  - repeat constructor.
  - repeat constructor.
  - repeat constructor. intros [].
  - intros [|] [|] Ha Hb; cbn in Ha, Hb; try lia. reflexivity.
  - vm_compute. reflexivity.
  - cbn [length]. set (E := label_energy _ _ _).
    assert (EE : forall x y z, E [x; y; z] == (12#13) * x * x + (12#13) * y * y + (12#13) * z * z + (12#13) - (4#13) * x * y - (12#13) * x - (12#13) * y * z + (4#13) * y - (4#13) * z).
    { intros. unfold E, label_energy. cbn -[Qmult Qplus]. unfold at_, ex_lap. cbn [nth]. ring. }
    clearbody E.
    assert (B1 : forall s, s == 1 \/ s == -1 -> least_energy E 3 1 s (4#3)).
    { intros s Hs. split.
      - exists [(1#2) + (1#6) * s; s; (1#6) + (1#2) * s]. split; [reflexivity|]. split; [reflexivity|]. rewrite EE. destruct Hs as [Hs|Hs]; rewrite Hs; reflexivity.
      - intros z Lz Hz. destruct z as [|x [|y [|z [|]]]]; try discriminate. cbn [nth] in Hz. rewrite EE, Hz.
        pose proof (S (x - (1#2) - (1#6) * s)). pose proof (S (z - (1#6) - (1#2) * s)). destruct Hs as [Hs|Hs]; rewrite Hs in *; lra. }
    assert (B2 : least_energy E 3 2 1 (8#7)).
    { split.
      - exists [4#7; 3#7; 1]. split; [reflexivity|]. split; [reflexivity|]. rewrite EE. reflexivity.
      - intros z Lz Hz. destruct z as [|x [|y [|z [|]]]]; try discriminate. cbn [nth] in Hz. rewrite EE, Hz.
        pose proof (S (x - (4#7) - (1#6) * (y - (3#7)))). pose proof (S (y - (3#7))). lra. }
    assert (B3 : least_energy E 3 2 (-1) (8#5)).
    { split.
      - exists [2#5; -3#5; -1]. split; [reflexivity|]. split; [reflexivity|]. rewrite EE. reflexivity.
      - intros z Lz Hz. destruct z as [|x [|y [|z [|]]]]; try discriminate. cbn [nth] in Hz. rewrite EE, Hz.
        pose proof (S (x - (2#5) - (1#6) * (y + (3#5)))). pose proof (S (y + (3#5))). lra. }
    exists (4#3), (8#5). split; [|split; [|reflexivity]].
    + exists (4#3), (4#3). split; [apply B1; left; reflexivity|]. split; [apply B1; right; reflexivity|]. reflexivity.
    + exists (8#7), (8#5). split; [exact B2|]. split; [exact B3|]. reflexivity.
Qed.
Print Assumptions C92_choice_refuted.

(** The hypotheses above can be met. *)
Definition ex_pos : quire := {| kern := [[1; 1#2]; [1#2; 1]]; lap := [[3#4; -1#4]; [-1#4; 3#4]]; lmbda := 1#2; labels := [1; 0] |}.
Definition ex_apart : quire := {| kern := [[1; 1#2; 0]; [1#2; 1; 0]; [0; 0; 1]]; lap := [[3#4; -1#4; 0]; [-1#4; 3#4; 0]; [0; 0; 2#3]]; lmbda := 1#2; labels := [0; 0; 1] |}.
Definition ex_eye (M : list (list Q)) : list (list Q) := [[2]].
Example C92_witness :
  (quire_ok 2 ex_pos /\ parts 2 [0%nat] [1%nat] /\ semidefinite_on [0%nat] (at_ (kern ex_pos)) /\
   inverse_of (ex_eye (scaled_eye (1#2) 1)) 1 (fun a b => if Nat.eqb a b then 1#2 else 0) /\
   forall a b, (a < 2)%nat -> (b < 2)%nat -> 0 < at_ (kern ex_pos) a b) /\
  (~ at_ ex_lap 0 0 == 0 /\ symmetric_on 4 (at_ (table 4 4 (regularised ex_K (1#2)))) /\
   inverse_of ex_lap 4 (at_ (table 4 4 (regularised ex_K (1#2))))) /\
  (quire_ok 3 ex_apart /\ semidefinite_on (range 3) (at_ (kern ex_apart)) /\ split_into [5; 6; 7]%Z [7%Z] [5; 6]%Z /\ located [5; 6; 7]%Z [7%Z] [2%nat] /\
   located [5; 6; 7]%Z [5; 6]%Z [0%nat; 1%nat] /\
   inverse_of (inv_laa ex_eye ex_apart [2%nat] [0%nat; 1%nat]) 2 (fun a b => at_ (lap ex_apart) (nth a [0%nat; 1%nat] 0%nat) (nth b [0%nat; 1%nat] 0%nat)) /\
   (forall l, In l [2%nat] -> at_ (kern ex_apart) l 0 == 0 /\ at_ (kern ex_apart) l 1 == 0) /\
   (forall a b c d, determinant 2 [[a; b]; [c; d]] == a * d - b * c)).
Proof.
  assert (S : forall w, 0 <= w * w) by (intro w; nra).
  split; [|split].
  - split; [|split; [|split; [|split]]].
    + split; [reflexivity|]. split; intros [|[|]] [|[|]] Ha Hb; try lia; vm_compute; reflexivity.
    + apply Permutation_refl.
    + intro x. cbn -[Qmult Qplus]. pose proof (S (x 0%nat)). change (at_ [[1; 1#2]; [1#2; 1]] 0 0) with 1. lra.
    + intros [|] [|] Ha Hb; try lia. reflexivity.
    + intros [|[|]] [|[|]] Ha Hb; try lia; reflexivity.
  - split; [vm_compute; discriminate|]. split.
    + intros [|[|[|[|]]]] [|[|[|[|]]]] Ha Hb; try lia; vm_compute; reflexivity.
    + intros [|[|[|[|]]]] [|[|[|[|]]]] Ha Hb; try lia; vm_compute; reflexivity.
  - split; [|split; [|split; [|split; [|split; [|split; [|split]]]]]].
    + split; [reflexivity|]. split; intros [|[|[|]]] [|[|[|]]] Ha Hb; try lia; vm_compute; reflexivity.
    + intro x. set (a := x 0%nat). set (b := x 1%nat). set (c := x 2%nat).
      assert (E : total (map (fun i => total (map (fun j => x i * x j * at_ (kern ex_apart) i j) (range 3))) (range 3)) == a * a + a * b + b * b + c * c).
      { cbn -[Qmult Qplus]. fold a b c. unfold at_. cbn [nth]. ring. }
      rewrite E. pose proof (S (a + (1#2) * b)). pose proof (S b). pose proof (S c). lra.
    + split; [repeat constructor; cbn; intuition congruence|]. split; [repeat constructor; cbn; intuition congruence|]. split; [cbn; intuition|]. intros z; cbn; intuition congruence.
    + repeat constructor.
    + repeat constructor.
    + intros [|[|]] [|[|]] Ha Hb; try lia; vm_compute; reflexivity.
    + intros l [<-|[]]. split; reflexivity.
    + intros. cbn -[Qmult Qplus Qopp]. unfold at_. cbn [nth]. ring.
Qed.

(** The contract of [C92_object] holds of exact inversion, here of two by two matrices. *)
Definition ex_inv2 (M : list (list Q)) : list (list Q) :=
  let d := at_ M 0 0 * at_ M 1 1 - at_ M 0 1 * at_ M 1 0 in [[at_ M 1 1 / d; - at_ M 0 1 / d]; [- at_ M 1 0 / d; at_ M 0 0 / d]].
Example C92_witness_object :
  (forall M A, inverse_of A 2 (at_ M) -> inverse_of (ex_inv2 M) 2 (at_ M)) /\ inverse_of [[3#4; -1#4]; [-1#4; 3#4]] 2 (regularised [[1; 1#2]; [1#2; 1]] (1#2)).
Proof.
  split.
  - intros M A H. pose proof (H 0%nat 0%nat ltac:(lia) ltac:(lia)) as H00. pose proof (H 0%nat 1%nat ltac:(lia) ltac:(lia)) as H01.
    pose proof (H 1%nat 0%nat ltac:(lia) ltac:(lia)) as H10. pose proof (H 1%nat 1%nat ltac:(lia) ltac:(lia)) as H11. clear H.
    unfold sum_over in *. cbn [seq map fold_right Nat.eqb] in *.
    set (m00 := at_ M 0 0) in *. set (m01 := at_ M 0 1) in *. set (m10 := at_ M 1 0) in *. set (m11 := at_ M 1 1) in *.
    assert (D : ~ m00 * m11 - m01 * m10 == 0).
    { intro Z. assert (P : forall a b c d : Q, a * m00 + (b * m10 + 0) == 1 -> a * m01 + (b * m11 + 0) == 0 -> c * m00 + (d * m10 + 0) == 0 -> c * m01 + (d * m11 + 0) == 1 -> False).
      { intros a b c d E1 E2 E3 E4. assert (X : (a * m00 + (b * m10 + 0)) * (c * m01 + (d * m11 + 0)) - (a * m01 + (b * m11 + 0)) * (c * m00 + (d * m10 + 0)) == (a * d - b * c) * (m00 * m11 - m01 * m10)) by ring.
        rewrite E1, E2, E3, E4, Z in X. lra. }
      eapply P; eauto. }
    intros [|[|]] [|[|]] Ha Hb; try lia; unfold sum_over, ex_inv2; cbn [seq map fold_right Nat.eqb nth]; fold m00 m01 m10 m11; field; auto.
  - intros [|[|]] [|[|]] Ha Hb; try lia; vm_compute; reflexivity.
Qed.
