(** From QUIRE's matrices to blocks; the update for one instance left out; two unlabelled instances. *)
From Verif Require Import Base BaseFacts MiscModel MiscSpec QueryModel QuireModel MLQuerySpec QuireSpec QuireProofs.
From Coq Require Import QArith Qabs Qfield Lqa Setoid Morphisms.
Local Open Scope Q_scope.

Lemma table_at r c f a b : (a < r)%nat -> (b < c)%nat -> at_ (table r c f) a b = f a b.
Proof.
  intros Ha Hb. unfold at_, table, range. rewrite (nth_indep _ [] (map (f 0%nat) (seq 0 c))) by (rewrite map_length, seq_length; auto).
  rewrite (map_nth (fun i => map (f i) (seq 0 c))), seq_nth by auto. cbn [Nat.add].
  rewrite (nth_indep _ 0 (f a 0%nat)) by (rewrite map_length, seq_length; auto). rewrite (map_nth (f a)), seq_nth by auto. reflexivity.
Qed.
Lemma block_at M rows cols a b : (a < length rows)%nat -> (b < length cols)%nat -> at_ (block M rows cols) a b = at_ M (nth a rows 0%nat) (nth b cols 0%nat).
Proof.
  intros Ha Hb. unfold at_ at 1, block. rewrite (nth_indep _ [] (map (at_ M 0) cols)) by (rewrite map_length; auto).
  rewrite (map_nth (fun i => map (at_ M i) cols)). rewrite (nth_indep _ 0 (at_ M (nth a rows 0%nat) 0%nat)) by (rewrite map_length; auto). now rewrite map_nth.
Qed.
Lemma dot_at k c A B a b : (a < length A)%nat -> (b < c)%nat -> at_ (dot k c A B) a b = tot (range k) (fun i => at_ A a i * at_ B i b).
Proof.
  intros Ha Hb. unfold at_ at 1, dot. set (g := fun r => map (fun j => sum_to k (fun i => nth i r 0 * at_ B i j)) (range c)).
  rewrite (nth_indep _ [] (g [])) by (rewrite map_length; auto). rewrite (map_nth g). unfold g, range.
  set (h := fun j => sum_to k (fun i => nth i (nth a A []) 0 * at_ B i j)). rewrite (nth_indep _ 0 (h 0%nat)) by (rewrite map_length, seq_length; auto).
  rewrite (map_nth h), seq_nth by auto. reflexivity.
Qed.
Lemma tot_positions (l : list nat) f : tot l f = tot (range (length l)) (fun c => f (nth c l 0%nat)).
Proof.
  unfold tot, range. f_equal. rewrite <- (map_map (fun c => nth c l 0%nat) f). f_equal.
  induction l as [|a l IH]; [reflexivity|]. cbn [length seq map nth]. f_equal. rewrite <- seq_shift, map_map. exact IH.
Qed.
Lemma block_length M rows cols : length (block M rows cols) = length rows. Proof. apply map_length. Qed.
Lemma dot_length k c A B : length (dot k c A B) = length A. Proof. apply map_length. Qed.

Lemma inv_eye B l lam a b : ~ lam == 0 -> inverse_of B l (fun a b => if Nat.eqb a b then lam else 0) -> (a < l)%nat -> (b < l)%nat ->
  at_ B a b == if Nat.eqb a b then / lam else 0.
Proof.
  intros Nz H Ha Hb. specialize (H a b Ha Hb). change (sum_over l (fun c => nth c (nth a B []) 0 * (if Nat.eqb c b then lam else 0))) with
    (tot (range l) (fun c => at_ B a c * (if Nat.eqb c b then lam else 0))) in H.
  assert (X : tot (range l) (fun c => at_ B a c * (if Nat.eqb c b then lam else 0)) == tot (range l) (fun c => if Nat.eqb b c then at_ B a c * lam else 0))
    by (apply tot_ext; intros c _; rewrite Nat.eqb_sym; destruct (Nat.eqb b c); ring).
  rewrite X in H.
  rewrite (tot_delta (range l) b (fun c => at_ B a c * lam)) in H; [|apply seq_NoDup|unfold range; apply in_seq; lia].
  destruct (Nat.eqb a b).
  - assert (E : at_ B a b == (at_ B a b * lam) * / lam) by (field; auto). rewrite E, H. ring.
  - assert (E : at_ B a b == (at_ B a b * lam) * / lam) by (field; auto). rewrite E, H. ring.
Qed.

Lemma nth_eqb (l : list nat) a b : NoDup l -> (a < length l)%nat -> (b < length l)%nat -> Nat.eqb (nth a l 0%nat) (nth b l 0%nat) = Nat.eqb a b.
Proof.
  intros N Ha Hb. destruct (Nat.eqb_spec a b) as [->|D]; [apply Nat.eqb_refl|]. apply Nat.eqb_neq. intro E. apply D.
  now apply (proj1 (NoDup_nth l 0%nat) N).
Qed.

Section Object.
  Context (inv : list (list Q) -> list (list Q)) (o : quire) (n : nat) (Lx Ux : list nat).
  Let K := at_ (kern o).
  Let L := at_ (lap o).
  Let lam := lmbda o.
  Hypothesis Hok : quire_ok n o.
  Hypothesis Hparts : parts n Lx Ux.
  Hypothesis Heye : inverse_of (inv (scaled_eye lam (length Lx))) (length Lx) (fun a b => if Nat.eqb a b then lam else 0).

  Lemma sym_K a b : (a < n)%nat -> (b < n)%nat -> K a b == K b a. Proof. apply Hok. Qed.
  Lemma inv_A a b : (a < n)%nat -> (b < n)%nat -> tot (range n) (fun c => L a c * (K c b + (if Nat.eqb c b then lam else 0))) == if Nat.eqb a b then 1 else 0.
  Proof. destruct Hok as (_ & _ & H). apply H. Qed.
  Lemma lam_pos : 0 < lam. Proof. apply Hok. Qed.
  Lemma nd_u : NoDup Ux. Proof. apply (u_nodup n Lx Ux Hparts). Qed.

  Lemma inv_laa_at a b : (a < length Ux)%nat -> (b < length Ux)%nat -> at_ (inv_laa inv o Lx Ux) a b == C K lam Lx (nth a Ux 0%nat) (nth b Ux 0%nat).
  Proof.
    intros Ha Hb. unfold inv_laa. rewrite table_at by auto. unfold C. fold K lam.
    rewrite (dot_at _ _ _ _ a b) by (rewrite ?dot_length, ?block_length; auto). rewrite nth_eqb by (auto; apply nd_u).
    assert (E : tot (range (length Lx)) (fun i => at_ (dot (length Lx) (length Lx) (block (kern o) Ux Lx) (inv (scaled_eye lam (length Lx)))) a i * at_ (block (kern o) Lx Ux) i b)
              == / lam * tot Lx (fun j => K (nth a Ux 0%nat) j * K j (nth b Ux 0%nat))).
    { rewrite (tot_positions Lx), <- tot_scal. apply tot_ext. intros i Hi. unfold range in Hi. apply in_seq in Hi. rewrite block_at by (auto; lia). fold K.
      rewrite dot_at by (rewrite ?block_length; auto; lia).
      rewrite (tot_ext _ _ (fun c => if Nat.eqb i c then K (nth a Ux 0%nat) (nth c Lx 0%nat) * / lam else 0)).
      - rewrite (tot_delta _ i (fun c => K (nth a Ux 0%nat) (nth c Lx 0%nat) * / lam)); [ring|apply seq_NoDup|apply in_seq; lia].
      - intros c Hc. unfold range in Hc. apply in_seq in Hc. rewrite block_at by (auto; lia). fold K.
        assert (IE : at_ (inv (scaled_eye lam (length Lx))) c i == if Nat.eqb c i then / lam else 0) by (apply (inv_eye _ (length Lx)); auto; try lia; pose proof lam_pos; lra). rewrite IE. rewrite Nat.eqb_sym. destruct (Nat.eqb i c); ring. }
    rewrite E. ring.
  Qed.

  Lemma inverse_blocks : inverse_of (inv_laa inv o Lx Ux) (length Ux) (fun a b => L (nth a Ux 0%nat) (nth b Ux 0%nat)) <-> C_inverts K L lam Lx Ux.
  Proof.
    assert (E : forall a b, (a < length Ux)%nat -> (b < length Ux)%nat ->
      sum_over (length Ux) (fun c => nth c (nth a (inv_laa inv o Lx Ux) []) 0 * L (nth c Ux 0%nat) (nth b Ux 0%nat)) ==
      tot Ux (fun c => C K lam Lx (nth a Ux 0%nat) c * L c (nth b Ux 0%nat))).
    { intros a b Ha Hb. rewrite (tot_positions Ux). change (sum_over (length Ux) (fun c => nth c (nth a (inv_laa inv o Lx Ux) []) 0 * L (nth c Ux 0%nat) (nth b Ux 0%nat))) with
        (tot (range (length Ux)) (fun c => at_ (inv_laa inv o Lx Ux) a c * L (nth c Ux 0%nat) (nth b Ux 0%nat))).
      apply tot_ext. intros c Hc. unfold range in Hc. apply in_seq in Hc. rewrite inv_laa_at by lia. reflexivity. }
    split; intros H.
    - intros a b Ha Hb. apply In_nth with (d := 0%nat) in Ha, Hb. destruct Ha as (i & Hi & <-). destruct Hb as (j & Hj & <-).
      rewrite <- E by auto. rewrite (H i j Hi Hj). rewrite nth_eqb by (auto; apply nd_u). reflexivity.
    - intros a b Ha Hb. rewrite E by auto. rewrite (H (nth a Ux 0%nat) (nth b Ux 0%nat)) by (apply nth_In; auto). rewrite nth_eqb by (auto; apply nd_u). reflexivity.
  Qed.

  Lemma inverse_iff : semidefinite_on Lx K ->
    inverse_of (inv_laa inv o Lx Ux) (length Ux) (fun a b => L (nth a Ux 0%nat) (nth b Ux 0%nat)) <->
    forall l u, In l Lx -> In u Ux -> total (map (fun j => K l j * K j u) Lx) == 0.
  Proof.
    intro Psd. rewrite inverse_blocks. split.
    - intros H l u Hl Hu. exact (right_uncoupled n K L lam Lx Ux lam_pos sym_K Hparts inv_A Psd H l u Hl Hu).
    - intro H. apply (uncoupled_right n K L lam Lx Ux lam_pos sym_K Hparts inv_A). exact H.
  Qed.
End Object.

(** ** The update for one instance left out. *)
Lemma in_without k i a : In a (without k i) <-> (a < k)%nat /\ a <> i.
Proof. unfold without, range. rewrite filter_In, in_seq, negb_true_iff, Nat.eqb_neq. intuition lia. Qed.
Lemma without_nodup k i : NoDup (without k i). Proof. apply NoDup_filter, seq_NoDup. Qed.
Lemma without_sum k i f : (i < k)%nat -> tot (range k) f == f i + tot (without k i) f.
Proof.
  intro Hi. rewrite <- (tot_cons i (without k i) f). apply tot_perm. apply NoDup_Permutation.
  - apply seq_NoDup.
  - constructor; [rewrite in_without; tauto|apply without_nodup].
  - intro a. cbn [In]. rewrite in_without. unfold range. rewrite in_seq. destruct (Nat.eq_dec a i) as [->|D]; split; intro H; [now left|lia|right; lia|]. destruct H as [H|H]; lia.
Qed.

Section Update.
  Context (C M : list (list Q)) (k i : nat).
  Hypothesis Hi : (i < k)%nat.
  Hypothesis Hc : ~ at_ C i i == 0.
  Hypothesis Msym : symmetric_on k (at_ M).
  Hypothesis Hinv : inverse_of C k (at_ M).
  Let R := without k i.
  Let D a b := at_ C a b - at_ C a i * at_ C i b / at_ C i i.

  Lemma C_inv a b : (a < k)%nat -> (b < k)%nat -> tot (range k) (fun c => at_ C a c * at_ M c b) == if Nat.eqb a b then 1 else 0.
  Proof. exact (Hinv a b). Qed.
  Lemma range_in a : In a (range k) <-> (a < k)%nat. Proof. unfold range. rewrite in_seq. lia. Qed.
  Lemma C_sym a b : (a < k)%nat -> (b < k)%nat -> at_ C a b == at_ C b a.
  Proof.
    intros Ha Hb. apply (sym_right (range k) (at_ C) (at_ M)); rewrite ?range_in; auto; [apply seq_NoDup| |]; intros c d Qc Qd; rewrite range_in in *; [apply Msym|apply C_inv]; auto.
  Qed.
  Lemma D_inv a b : In a R -> In b R -> tot R (fun c => D a c * at_ M c b) == if Nat.eqb a b then 1 else 0.
  Proof.
    intros Ha Hb. apply in_without in Ha, Hb. destruct Ha as [Ha Na], Hb as [Hb Nb].
    pose proof (C_inv a b Ha Hb) as E1. pose proof (C_inv i b Hi Hb) as E2. rewrite (without_sum k i) in E1, E2 by auto. fold R in E1, E2.
    destruct (Nat.eqb_spec i b) as [X|_]; [congruence|].
    unfold D. rewrite (tot_ext R _ (fun c => at_ C a c * at_ M c b - at_ C a i / at_ C i i * (at_ C i c * at_ M c b))).
    - rewrite tot_minus, tot_scal. assert (X2 : tot R (fun c => at_ C i c * at_ M c b) == - (at_ C i i * at_ M i b)) by lra.
      assert (X1 : tot R (fun c => at_ C a c * at_ M c b) == (if Nat.eqb a b then 1 else 0) - at_ C a i * at_ M i b) by lra. rewrite X1, X2. field. exact Hc.
    - intros c Qc. field. exact Hc.
  Qed.
  Lemma D_sym a b : In a R -> In b R -> D a b == D b a.
  Proof. intros Ha Hb. apply in_without in Ha, Hb. unfold D. rewrite (C_sym a b), (C_sym a i), (C_sym i b) by tauto. field. exact Hc. Qed.

  Lemma update_iff :
    (forall a b, In a R -> In b R -> tot R (fun c => inv_luu C k i a c * at_ M c b) == if Nat.eqb a b then 1 else 0) <->
    ((k <= 2)%nat \/ forall c, In c R -> at_ C c i == 0).
  Proof.
    set (s := tot R (fun c => at_ C c i * at_ C c i)).
    assert (EL : forall a b, inv_luu C k i a b == at_ C a b - s / at_ C i i).
    { intros a b. unfold inv_luu. fold (without k i). fold R. change (fold_right Qplus 0 (map (fun c => at_ C c i * at_ C c i) R)) with s. field. exact Hc. }
    assert (SAME : (forall a b, In a R -> In b R -> tot R (fun c => inv_luu C k i a c * at_ M c b) == if Nat.eqb a b then 1 else 0) <->
      forall a b, In a R -> In b R -> at_ C a i * at_ C b i == s).
    { split.
      - intros H a b Ha Hb. assert (E : inv_luu C k i a b == D a b).
        { apply (inv_unique R (inv_luu C k i) (at_ M) D (without_nodup k i)); auto.
          apply (sym_right R D (at_ M) (without_nodup k i)); [|exact D_inv]. intros c d Qc Qd. apply in_without in Qc, Qd. apply Msym; tauto. }
        rewrite EL in E. unfold D in E. pose proof Hb as Hb'. apply in_without in Hb'. rewrite (C_sym i b) in E by tauto.
        assert (E2 : s / at_ C i i == at_ C a i * at_ C b i / at_ C i i) by lra.
        assert (E3 : s == s / at_ C i i * at_ C i i) by (field; exact Hc). rewrite E3, E2. field. exact Hc.
      - intros H a b Ha Hb. rewrite <- (D_inv a b Ha Hb). apply tot_ext. intros c Qc. rewrite EL. unfold D. rewrite <- (H a c Ha Qc).
        pose proof Qc as Qc'. apply in_without in Qc'. rewrite (C_sym i c) by tauto. reflexivity. }
    rewrite SAME. split.
    - intro H. destruct (le_lt_dec k 2) as [Lk|Lk]; [now left|right].
      assert (exists a b, In a R /\ In b R /\ a <> b) as (a & b & Ha & Hb & Nab).
      { unfold R. destruct i as [|[|j]].
        - exists 1%nat, 2%nat. rewrite !in_without. lia.
        - exists 0%nat, 2%nat. rewrite !in_without. lia.
        - exists 0%nat, 1%nat. rewrite !in_without. lia. }
      assert (Z : s <= 0).
      { (* s contains both squares, each equal to s *)
        assert (T : s == at_ C a i * at_ C a i + tot (filter (fun c => negb (Nat.eqb c a)) R) (fun c => at_ C c i * at_ C c i)).
        { unfold s. rewrite <- (tot_cons a (filter (fun c => negb (Nat.eqb c a)) R) (fun c => at_ C c i * at_ C c i)). apply tot_perm. apply NoDup_Permutation; [apply without_nodup| |].
          - constructor; [rewrite filter_In, negb_true_iff, Nat.eqb_neq; tauto|apply NoDup_filter, without_nodup].
          - intro c. cbn [In]. rewrite filter_In, negb_true_iff, Nat.eqb_neq. split; [intro X; destruct (Nat.eq_dec c a); [left; auto|right; auto]|intros [<-|X]; [exact Ha|tauto]]. }
        assert (Hb2 : In b (filter (fun c => negb (Nat.eqb c a)) R)) by (rewrite filter_In, negb_true_iff, Nat.eqb_neq; auto).
        pose proof (H a a Ha Ha) as Sa. assert (T0 : tot (filter (fun c => negb (Nat.eqb c a)) R) (fun c => at_ C c i * at_ C c i) <= 0) by lra.
        pose proof (tot_squares_zero _ (fun c => at_ C c i) T0 b Hb2) as Zb. pose proof (H b b Hb Hb) as Sb. rewrite Zb in Sb. lra. }
      intros c Qc. exact (tot_squares_zero R (fun c => at_ C c i) Z c Qc).
    - intros [Lk|Z] a b Ha Hb.
      + assert (E : R = [a] /\ b = a).
        { apply in_without in Ha, Hb. unfold R, without, range. destruct k as [|[|[|]]]; try lia. destruct i as [|[|]]; try lia; destruct a as [|[|]]; try lia; destruct b as [|[|]]; try lia; split; reflexivity. }
        destruct E as [E ->]. unfold s. rewrite E, tot_cons, tot_nil. ring.
      + rewrite (Z a Ha). unfold s. rewrite tot_zero; [ring|]. intros c Qc. rewrite (Z c Qc). ring.
  Qed.
End Update.
