(** C49, C92: pools given as one-dimensional indexes, and QUIRE with any exact matrix inversion. *)
From Verif Require Import Base BaseFacts IndexModel MLModel MLSpec MLProofs3 MLProps MiscModel MiscSpec SplitSpec QueryModel QuerySpec QueryProofs QueryProofs2 QueryProps3
  QuireModel MLQuerySpec QuireSpec QuireProofs QuireProofs2 QuireProps.
From Coq Require Import QArith Lqa.
Local Open Scope Z_scope.

(** Random pairs from a pool given by one-dimensional indexes, instance first: all of it is returned when it has no more entries than asked for,
    otherwise as many different pairs as asked for, each with its index in the pool. *)
Theorem C49_flat : forall n m a batch sh, 0 < n -> 0 < m -> NoDup a -> (forall x, In x a -> 0 <= x < n * m) -> 0 <= batch ->
  (Z.of_nat (length a) <= batch -> ml_random n m (MPFlat a) batch TInsLab sh = Ok TheRest) /\
  (batch < Z.of_nat (length a) -> shuffle (length a) sh ->
   exists sel, ml_random n m (MPFlat a) batch TInsLab sh = Ok (Chosen (map (fun p => IPair (fst p) (snd p)) sel)) /\
     Z.of_nat (length sel) = batch /\ NoDup sel /\ forall p, In p sel -> 0 <= fst p < n /\ 0 <= snd p < m /\ In (fst p + snd p * n) a).
Proof.
  intros n m a batch sh Hn Hm ND R B. split; [intro H; unfold ml_random; cbn [ml_pool_len]; destruct (Z.leb_spec (Z.of_nat (length a)) batch); [reflexivity|lia]|].
  intros LT SH. destruct (C07_construct n m OrdF a Hn Hm ltac:(discriminate) R) as (c & w & E & RC & PC & b & EB & NB & IB).
  destruct (C05_only_pairs m c RC) as (MC & _ & _).
  destruct (C07_onedim m c n OrdF RC ltac:(discriminate)) as (b' & EB' & DB & _); [intros p Hp; apply PC in Hp; tauto|]. rewrite EB in EB'. injection EB' as <-.
  assert (LB : length (mcont c) = length a).
  { rewrite MC, map_length. assert (P : Permutation b a) by (apply NoDup_Permutation; auto). apply Permutation_length in P. rewrite <- P, DB, map_length. reflexivity. }
  unfold ml_random. cbn [ml_pool_len]. destruct (Z.leb_spec (Z.of_nat (length a)) batch); [lia|].
  replace (check_ml_ind n m (MPFlat a)) with (Ok c : res mlic) by (destruct a as [|x a]; [cbn in LT; lia|unfold check_ml_ind; rewrite E; reflexivity]).
  cbn [bind]. rewrite <- LB in SH. rewrite MC in *. rewrite map_length in *.
  destruct (draw (pairs c) batch sh SH ltac:(lia)) as (perm & sel & E1 & E2 & L & I & N). rewrite E1. cbn [bind]. exists sel.
  assert (E3 : take (map (fun p => IPair (fst p) (snd p)) (pairs c)) perm = Ok (map (fun p => IPair (fst p) (snd p)) sel)).
  { clear - E2. revert sel E2. unfold take. induction perm as [|p perm IH]; intros sel E; cbn [mapM] in *; [injection E as <-; reflexivity|].
    unfold py_nth at 1 in E. unfold py_nth at 1. rewrite nth_error_map. destruct (nth_error (pairs c) p) as [x|]; cbn in *; [|discriminate].
    destruct (mapM (py_nth (pairs c)) perm) as [r|e]; cbn in E; [|discriminate]. injection E as <-. rewrite (IH r eq_refl). reflexivity. }
  rewrite E3. cbn [bind]. split; [reflexivity|]. split; [lia|]. split.
  - apply N. assert (K : NoDup b) by exact NB. rewrite DB in K. exact (NoDup_map_inv _ _ K).
  - intros p Hp. apply PC. auto.
Qed.
Print Assumptions C49_flat.

Example C49_flat_case : NoDup [5; 1; 3] /\ shuffle 3 [2; 0; 1]%nat /\ ml_random 3 2 (MPFlat [5; 1; 3]) 2 TInsLab [2; 0; 1]%nat = Ok (Chosen [IPair 0 1; IPair 2 1]) /\
  ml_random 3 2 (MPFlat [5; 1; 3]) 3 TInsLab [2; 0; 1]%nat = Ok TheRest.
Proof.
  split; [repeat constructor; cbn; intuition lia|]. split; [|split; reflexivity].
  unfold shuffle. cbn. apply NoDup_Permutation; [repeat constructor; cbn; intuition lia|repeat constructor; cbn; intuition lia|cbn; intuition lia].
Qed.

(** QUIRE's shortcut with any function that inverts every matrix of the size of the labelled set that has an inverse. *)
Definition inverts (k : nat) (inv : list (list Q) -> list (list Q)) : Prop := forall M A, inverse_of A k (at_ M) -> inverse_of (inv M) k (at_ M).
Lemma eye_inverse inv lam k : (0 < lam)%Q -> inverts k inv -> inverse_of (inv (scaled_eye lam k)) k (fun a b => if Nat.eqb a b then lam else 0%Q).
Proof.
  intros P I.
  assert (T : forall A, inverse_of A k (at_ (scaled_eye lam k)) <-> inverse_of A k (fun a b => if Nat.eqb a b then lam else 0%Q)).
  { intro A. split; intros H a b Ha Hb; rewrite <- (H a b Ha Hb); apply (tot_ext (range k)); intros c Hc; unfold range in Hc; apply in_seq in Hc; unfold scaled_eye;
      (rewrite table_at by lia); reflexivity. }
  apply T, (I (scaled_eye lam k) (table k k (fun a b => if Nat.eqb a b then / lam else 0%Q))), T. intros a b Ha Hb.
  assert (G : forall l, NoDup l -> (tot l (fun c => at_ (table k k (fun a b => if Nat.eqb a b then / lam else 0%Q)) a c * (if Nat.eqb c b then lam else 0)) ==
     if existsb (Nat.eqb a) (filter (fun c => Nat.ltb c k) l) then if Nat.eqb a b then 1 else 0 else 0)%Q).
  { induction l as [|c l IH]; intro N; [reflexivity|]. inversion N; subst. specialize (IH H2). unfold tot, total in *. cbn [map fold_right filter].
    rewrite IH. clear IH. destruct (Nat.ltb_spec c k) as [L|L].
    - rewrite table_at by lia. cbn [existsb]. destruct (Nat.eqb_spec a c) as [->|NE]; cbn [orb].
      + assert (X : existsb (Nat.eqb c) (filter (fun c => Nat.ltb c k) l) = false).
        { apply not_true_is_false. intro X. apply existsb_exists in X. destruct X as (d & D & Q0). apply Nat.eqb_eq in Q0. subst d. apply filter_In in D. tauto. }
        rewrite X. destruct (Nat.eqb c b); field; lra.
      + ring.
    - assert (Z0 : at_ (table k k (fun a b => if Nat.eqb a b then / lam else 0%Q)) a c = 0%Q).
      { unfold at_, table. apply nth_overflow. destruct (Nat.lt_ge_cases a (length (map (fun i => map ((fun a b => if Nat.eqb a b then / lam else 0%Q) i) (range k)) (range k)))) as [X|X].
        - assert (IN : In (nth a (map (fun i => map ((fun a b => if Nat.eqb a b then / lam else 0%Q) i) (range k)) (range k)) []) (map (fun i => map ((fun a b => if Nat.eqb a b then / lam else 0%Q) i) (range k)) (range k))) by (apply nth_In; auto).
          apply in_map_iff in IN. destruct IN as (i & EI & _). rewrite <- EI, map_length. unfold range. rewrite seq_length. exact L.
        - rewrite nth_overflow by exact X. cbn. lia. }
      rewrite Z0. ring. }
  change (tot (range k) (fun c => at_ (table k k (fun a b => if Nat.eqb a b then / lam else 0%Q)) a c * (if Nat.eqb c b then lam else 0)) == if Nat.eqb a b then 1 else 0)%Q.
  rewrite G by (unfold range; apply seq_NoDup).
  replace (existsb (Nat.eqb a) (filter (fun c => Nat.ltb c k) (range k))) with true; [reflexivity|]. symmetry. apply existsb_exists. exists a. split; [|apply Nat.eqb_refl].
  apply filter_In. split; [unfold range; apply in_seq; lia|]. apply Nat.ltb_lt. auto.
Qed.

Theorem C92_shortcut : forall inv o n Lx Ux, quire_ok n o -> parts n Lx Ux -> semidefinite_on Lx (at_ (kern o)) -> inverts (length Lx) inv ->
  (inverse_of (inv_laa inv o Lx Ux) (length Ux) (fun a b => at_ (lap o) (nth a Ux 0%nat) (nth b Ux 0%nat)) <->
   forall l u, In l Lx -> In u Ux -> (total (map (fun j => at_ (kern o) l j * at_ (kern o) j u) Lx) == 0)%Q).
Proof.
  intros inv o n Lx Ux OK P S I. apply (C92_inverse inv o n Lx Ux OK P S). apply eye_inverse; [exact (proj1 OK)|exact I].
Qed.
Print Assumptions C92_shortcut.
Theorem C92_shortcut_refuted : forall inv o n Lx Ux, quire_ok n o -> parts n Lx Ux -> semidefinite_on Lx (at_ (kern o)) -> inverts (length Lx) inv ->
  (forall a b, (a < n)%nat -> (b < n)%nat -> (0 < at_ (kern o) a b)%Q) -> Lx <> [] -> Ux <> [] ->
  ~ inverse_of (inv_laa inv o Lx Ux) (length Ux) (fun a b => at_ (lap o) (nth a Ux 0%nat) (nth b Ux 0%nat)).
Proof.
  intros inv o n Lx Ux OK P S I. apply (C92_inverse_refuted inv o n Lx Ux OK P S). apply eye_inverse; [exact (proj1 OK)|exact I].
Qed.
Print Assumptions C92_shortcut_refuted.

(** Two instances, one of them labelled, with kernel 1 on the diagonal and 1/2 beside it. *)
Definition ex_one (M : list (list Q)) : list (list Q) := [[/ at_ M 0 0]]%Q.
Definition ex_two : quire := {| kern := [[1; 1 # 2]; [1 # 2; 1]]%Q; lap := [[8 # 15; - 2 # 15]; [- 2 # 15; 8 # 15]]%Q; lmbda := 1%Q; labels := [1; 1]%Q |}.
Example C92_shortcut_case : inverts 1 ex_one /\ quire_ok 2 ex_two /\ parts 2 [0%nat] [1%nat] /\ semidefinite_on [0%nat] (at_ (kern ex_two)) /\
  forall a b, (a < 2)%nat -> (b < 2)%nat -> (0 < at_ (kern ex_two) a b)%Q.
Proof.
  split.
  - intros M A H a b Ha Hb. specialize (H a b Ha Hb). destruct a; [|lia]. destruct b; [|lia].
    change (at_ A 0 0 * at_ M 0 0 + 0 == 1)%Q in H. change (/ at_ M 0 0 * at_ M 0 0 + 0 == 1)%Q.
    assert (N : ~ (at_ M 0 0 == 0)%Q) by (intro Z0; rewrite Z0 in H; lra). field. exact N.
  - split; [|split; [|split]].
    + split; [reflexivity|]. split.
      * intros [|[|a]] [|[|b]] Ha Hb; try lia; reflexivity.
      * intros [|[|a]] [|[|b]] Ha Hb; try lia; reflexivity.
    + apply Permutation_refl.
    + intro x. cbn. pose proof (Qlt_le_dec (x 0%nat) 0) as [L|L]; nra.
    + intros [|[|a]] [|[|b]] Ha Hb; try lia; reflexivity.
Qed.
