(** Proofs about the analyser. *)
From Verif Require Import Base BaseFacts StateModel MiscModel MiscSpec FeatureModel AnalyserModel AnalyserSpec.
From Verif Require MiscProofs MetricProofs7.
From Coq Require Import String QArith Qround Qreduction Lqa.
Local Open Scope Z_scope.

Lemma F2_length {A B} (R : A -> B -> Prop) l l' : Forall2 R l l' -> List.length l = List.length l'.
Proof. induction 1; cbn; congruence. Qed.
Lemma F2_impl {A B} (R R' : A -> B -> Prop) l l' : (forall x y, R x y -> R' x y) -> Forall2 R l l' -> Forall2 R' l l'.
Proof. intro H. induction 1; constructor; auto. Qed.
Lemma nth_firstn {A} (l : list A) : forall n j, (j < n)%nat -> nth_error (firstn n l) j = nth_error l j.
Proof. induction l as [|x l IH]; intros [|n] [|j] H; try lia; cbn; auto. apply IH. lia. Qed.

(** ** Means *)
Lemma len_neq0 {A} (l : list A) : l <> [] -> ~ (inject_Z (Z.of_nat (List.length l)) == 0)%Q.
Proof. destruct l; [congruence|]. intros _ E. unfold Qeq in E. cbn in E. lia. Qed.

Lemma fsum_nums l : is_num (fsum (map Num l)) (total l).
Proof.
  induction l as [|x l (p & E & H)]; [exists 0%Q; split; reflexivity|]. unfold fsum in *. cbn [map fold_right]. rewrite E.
  exists (Qred (x + p)). split; [reflexivity|]. rewrite Qred_correct, H. reflexivity.
Qed.
Lemma fmean_nums l : l <> [] -> is_num (fmean (map Num l)) (mean l).
Proof.
  intro NE. unfold fmean. rewrite map_length. destruct (fsum_nums l) as (p & -> & H). cbn [fquot]. unfold fdiv.
  pose proof (len_neq0 l NE) as N. destruct (Qeq_bool (inject_Z (Z.of_nat (List.length l))) 0) eqn:E; [apply Qeq_bool_eq in E; contradiction|].
  eexists. split; [reflexivity|]. unfold mean. now rewrite H.
Qed.
Lemma fmean_list (ls : list (list Q)) : (forall l, In l ls -> l <> []) ->
  exists ms, map fmean (map (map Num) ls) = map Num ms /\ Forall2 Qeq ms (map mean ls).
Proof.
  induction ls as [|l ls IH]; intro H; [exists []; split; [reflexivity|constructor]|].
  destruct (IH (fun x Hx => H x (or_intror Hx))) as (ms & E & F). destruct (fmean_nums l) as (p & Ep & Hp); [apply H; now left|].
  exists (p :: ms). cbn [map]. rewrite E, Ep. split; [reflexivity|constructor; auto].
Qed.
Lemma total_eq l l' : Forall2 Qeq l l' -> (total l == total l')%Q.
Proof. induction 1 as [|x y l l' H F IH]; [reflexivity|]. cbn. unfold total in IH. now rewrite IH, H. Qed.
Lemma mean_eq l l' : Forall2 Qeq l l' -> (mean l == mean l')%Q.
Proof. intro F. unfold mean. rewrite (total_eq l l' F). induction F as [|x y l l' H F IH]; [reflexivity|]. cbn [List.length]. now rewrite (F2_length _ _ _ F). Qed.
Lemma variance_eq l l' : Forall2 Qeq l l' -> (variance l == variance l')%Q.
Proof.
  intro F. unfold variance. apply mean_eq. pose proof (mean_eq l l' F) as M. revert M. generalize (mean l) (mean l'). intros a b M.
  induction F as [|x y l l' H F IH]; [constructor|]. cbn. constructor; auto. now rewrite H, M.
Qed.
Lemma nums_map l : nums (map Num l) = Some l.
Proof. induction l as [|x l IH]; [reflexivity|]. cbn. now rewrite IH. Qed.
Lemma fvar_nums l : l <> [] -> is_num (fvar0 (map Num l)) (variance l).
Proof. destruct l as [|x l]; [congruence|]. intros _. unfold fvar0. cbn [map]. unfold fvar. change (Num x :: map Num l) with (map Num (x :: l)). rewrite nums_map. eexists. split; reflexivity. Qed.

(** The mean of a table is the mean of the means of its rows. *)
Lemma total_app a b : (total (a ++ b) == total a + total b)%Q.
Proof. induction a as [|x a IH]; [change (total b == 0 + total b)%Q; ring|]. change (x + total (a ++ b) == x + total a + total b)%Q. rewrite IH. ring. Qed.
Lemma total_means (m : list (list Q)) n : (0 < n)%nat -> (forall r, In r m -> List.length r = n) ->
  (total (map mean m) * inject_Z (Z.of_nat n) == total (List.concat m))%Q /\
  List.length (List.concat m) = (List.length m * n)%nat.
Proof.
  intros Hn. induction m as [|r m IH]; intro H; [split; [cbn; ring|reflexivity]|].
  destruct IH as [IH1 IH2]; [intros; apply H; now right|]. cbn [map List.concat List.length]. rewrite app_length, IH2, (H r) by now left.
  split; [|lia]. rewrite total_app, <- IH1. change (total (mean r :: map mean m)) with (mean r + total (map mean m))%Q.
  unfold mean at 1. rewrite (H r) by now left.
  assert (N : ~ (inject_Z (Z.of_nat n) == 0)%Q) by (intro E; unfold Qeq in E; cbn in E; lia). field. exact N.
Qed.
Lemma mean_concat m n : (0 < n)%nat -> table m n -> (mean (List.concat m) == mean (map mean m))%Q.
Proof.
  intros Hn [NE H]. destruct (total_means m n Hn H) as [E L]. unfold mean at 1 2. rewrite L, map_length, <- E.
  pose proof (len_neq0 m NE) as N. rewrite Nat2Z.inj_mul, inject_Z_mult.
  assert (N' : ~ (inject_Z (Z.of_nat n) == 0)%Q) by (intro E'; unfold Qeq in E'; cbn in E'; lia). field. auto.
Qed.

(** ** Lengths *)
Lemma min_fold l : forall a, (fold_left Nat.min l a <= a)%nat /\ (forall x, In x l -> (fold_left Nat.min l a <= x)%nat) /\
  (fold_left Nat.min l a = a \/ In (fold_left Nat.min l a) l).
Proof.
  induction l as [|y l IH]; intro a; cbn; [split; [lia|split; [intros x []|auto]]|].
  destruct (IH (Nat.min a y)) as (L & F & E). split; [lia|]. split.
  - intros x [<-|Hx]; [lia|auto].
  - destruct E as [E|E]; [|auto]. rewrite E. destruct (Nat.min_spec a y) as [[_ ->]|[_ ->]]; auto.
Qed.
Lemma min_len_spec {A} (l : list (list A)) : l <> [] -> shortest (min_len l) l.
Proof.
  destruct l as [|r l]; [congruence|]. intros _. unfold min_len. destruct (min_fold (map (@List.length A) l) (List.length r)) as (L & F & E). split.
  - intros x [<-|Hx]; [auto|]. apply F. now apply in_map.
  - destruct E as [E|E]; [exists r; split; [now left|auto]|]. apply in_map_iff in E. destruct E as (x & E & Hx). exists x. split; [now right|auto].
Qed.
Lemma shortest_unique {A} n n' (l : list (list A)) : shortest n l -> shortest n' l -> n = n'.
Proof. intros [F (x & Hx & E)] [F' (x' & Hx' & E')]. specialize (F _ Hx'). specialize (F' _ Hx). lia. Qed.
Lemma same_len_iff {A} (l : list (list A)) : same_len l = true <-> exists n, forall r, In r l -> List.length r = n.
Proof.
  unfold same_len. rewrite forallb_forall. split.
  - intro H. exists (List.length (hd [] l)). intros r Hr. apply Nat.eqb_eq. auto.
  - intros [n H] r Hr. apply Nat.eqb_eq. rewrite (H r Hr). destruct l as [|x l]; [destruct Hr|]. cbn. symmetry. apply H. now left.
Qed.

(** ** Extraction *)
Lemma mapM_Forall2 {A B} (f : A -> res B) l ys : Forall2 (fun x y => f x = Ok y) l ys -> mapM f l = Ok ys.
Proof. induction 1 as [|x y l ys H F IH]; [reflexivity|]. cbn. rewrite H. cbn. now rewrite IH. Qed.
Lemma mapM_error {A B} (f : A -> res B) l e : (forall x, In x l -> f x = Err e \/ exists y, f x = Ok y) ->
  (exists x, In x l /\ f x = Err e) -> mapM f l = Err e.
Proof.
  induction l as [|x l IH]; intros H (x0 & Hi & E); [contradiction|]. cbn [mapM].
  destruct (H x (or_introl eq_refl)) as [-> |[y Ey]]; [reflexivity|]. rewrite Ey. cbn [bind].
  destruct Hi as [->|Hi]; [congruence|]. rewrite IH; eauto. intros; apply H; now right.
Qed.
Lemma value_of_iff k s v : value_of k s = Ok v <-> holds k s v.
Proof. unfold value_of, holds. destruct (sget k (a_dict s)); split; intro H; congruence. Qed.
Lemma value_of_err k s : (exists v, value_of k s = Ok v) \/ (value_of k s = Err ValueErr /\ sget k (a_dict s) = None).
Proof. unfold value_of. destruct (sget k (a_dict s)); eauto. Qed.
Lemma values_ok k l : (forall s, In s l -> exists v, holds k s v) -> exists vs, mapM (value_of k) l = Ok vs /\ Forall2 (holds k) l vs.
Proof.
  intro H. destruct (MetricProofs7.mapM_res (value_of k) l) as [(vs & E & F)|(s & e & Hs & Es & _)].
  - exists vs. split; auto. eapply F2_impl; [|exact F]. intros s v. apply value_of_iff.
  - destruct (H s Hs) as [v Hv]. apply value_of_iff in Hv. congruence.
Qed.
Lemma values_err k l : (exists s, In s l /\ sget k (a_dict s) = None) -> mapM (value_of k) l = Err ValueErr.
Proof.
  intros (s & Hs & E). apply mapM_error.
  - intros x Hx. destruct (value_of_err k x) as [H|[H _]]; auto.
  - exists s. split; auto. unfold value_of. now rewrite E.
Qed.
Lemma values_dec k (l : list astate) : (forall s, In s l -> exists v, holds k s v) \/ (exists s, In s l /\ sget k (a_dict s) = None).
Proof.
  induction l as [|s l IH]; [left; intros s []|]. destruct (sget k (a_dict s)) as [v|] eqn:E; [|right; exists s; split; [now left|auto]].
  destruct IH as [H|(x & Hx & Ex)]; [left|right; exists x; split; [now right|auto]]. intros x [<-|Hx]; eauto.
Qed.

Lemma extract_one_ok k runs : (forall r s, In r runs -> In s (r_states r) -> exists v, holds k s v) ->
  exists m, extract_one k runs = Ok m /\
    Forall2 (fun r line => exists vs, line = initial (r_ip r) ++ vs /\ Forall2 (holds k) (r_states r) vs) runs m.
Proof.
  induction runs as [|r runs IH]; intro H; [exists []; split; [reflexivity|constructor]|].
  destruct (values_ok k (r_states r)) as (vs & E & F); [intros; eapply H; [now left|auto]|].
  destruct IH as (m & Em & Fm); [intros; eapply H; [right; eauto|auto]|].
  exists ((initial (r_ip r) ++ vs) :: m). split; [|constructor; eauto].
  unfold extract_one in *. cbn [mapM]. rewrite E. cbn [bind]. rewrite Em. reflexivity.
Qed.
Lemma extract_one_err k runs : (exists r s, In r runs /\ In s (r_states r) /\ sget k (a_dict s) = None) -> extract_one k runs = Err ValueErr.
Proof.
  intros (r & s & Hr & Hs & E). apply mapM_error.
  - intros x _. destruct (values_dec k (r_states x)) as [H|H].
    + destruct (values_ok k _ H) as (vs & -> & _). cbn [bind]. eauto.
    + rewrite (values_err k _ H). auto.
  - exists r. split; auto. rewrite (values_err k (r_states r)); [reflexivity|eauto].
Qed.

Lemma state_vals ks s : (forall k, In k ks -> exists v, holds k s v) ->
  exists vs, mapM (fun k => value_of k s) ks = Ok vs /\ Forall2 (fun k v => holds k s v) ks vs.
Proof.
  induction ks as [|k ks IH]; intro H; [exists []; split; [reflexivity|constructor]|].
  destruct (H k (or_introl eq_refl)) as [v Hv]. destruct IH as (vs & E & F); [intros; apply H; now right|].
  exists (v :: vs). split; [|constructor; auto]. cbn. rewrite (proj2 (value_of_iff k s v) Hv). cbn. now rewrite E.
Qed.
Lemma extract_many_ok ks runs : (forall r s k, In r runs -> In s (r_states r) -> In k ks -> exists v, holds k s v) ->
  exists m, extract_many ks runs = Ok m /\
    Forall2 (fun r line => Forall2 (fun s t => Forall2 (fun k v => holds k s v) ks t) (r_states r) line) runs m.
Proof.
  induction runs as [|r runs IH]; intro H; [exists []; split; [reflexivity|constructor]|].
  assert (L : forall l, (forall s k, In s l -> In k ks -> exists v, holds k s v) ->
    exists line, mapM (fun s => mapM (fun k => value_of k s) ks) l = Ok line /\ Forall2 (fun s t => Forall2 (fun k v => holds k s v) ks t) l line).
  { induction l as [|s l IHl]; intro Hl; [exists []; split; [reflexivity|constructor]|].
    destruct (state_vals ks s) as (vs & E & F); [intros; eapply Hl; [now left|auto]|].
    destruct IHl as (line & El & Fl); [intros; eapply Hl; [right; eauto|auto]|].
    exists (vs :: line). split; [|constructor; auto]. cbn. rewrite E. cbn. now rewrite El. }
  destruct (L (r_states r)) as (line & E & F); [intros; eapply H; [now left|auto|auto]|].
  destruct IH as (m & Em & Fm); [intros; eapply H; [right; eauto|eauto|auto]|].
  exists (line :: m). split; [|constructor; auto]. unfold extract_many in *. cbn [mapM]. rewrite E. cbn [bind]. now rewrite Em.
Qed.
Lemma extract_many_err ks runs : (exists r s k, In r runs /\ In s (r_states r) /\ In k ks /\ sget k (a_dict s) = None) ->
  extract_many ks runs = Err ValueErr.
Proof.
  intros (r & s & k & Hr & Hs & Hk & E).
  assert (K : forall s, mapM (fun k => value_of k s) ks = Err ValueErr \/ exists y, mapM (fun k => value_of k s) ks = Ok y).
  { intro x. destruct (MetricProofs7.mapM_res (fun k => value_of k x) ks) as [(vs & Ev & _)|(k' & e & _ & Ek & Em)]; [eauto|].
    left. destruct (value_of_err k' x) as [[v Hv]|[Hv _]]; congruence. }
  assert (L : forall l, mapM (fun s => mapM (fun k => value_of k s) ks) l = Err ValueErr \/ exists y, mapM (fun s => mapM (fun k => value_of k s) ks) l = Ok y).
  { intro l. destruct (MetricProofs7.mapM_res (fun s => mapM (fun k => value_of k s) ks) l) as [(vs & Ev & _)|(k' & e & _ & Ek & Em)]; [eauto|].
    left. destruct (K k') as [H|[y H]]; congruence. }
  apply mapM_error; [auto|]. exists r. split; auto. apply mapM_error; [auto|]. exists s. split; auto. apply mapM_error.
  - intros x _. destruct (value_of_err x s) as [H|[H _]]; auto.
  - exists k. split; auto. unfold value_of. now rewrite E.
Qed.

(** ** Batch sizes *)
Lemma nat_mem_in x l : nat_mem x l = true <-> In x l.
Proof. induction l as [|y l IH]; cbn; [split; [discriminate|tauto]|]. rewrite orb_true_iff, Nat.eqb_eq, IH. intuition. Qed.
Lemma nat_distinct_in x l : In x (nat_distinct l) <-> In x l.
Proof.
  induction l as [|y l IH]; [reflexivity|]. cbn. destruct (nat_mem y l) eqn:E.
  - rewrite IH. apply nat_mem_in in E. split; [auto|intros [<-|H]; auto].
  - cbn. now rewrite IH.
Qed.
Lemma nat_distinct_one l b : nat_distinct l = [b] <-> l <> [] /\ forall x, In x l -> x = b.
Proof.
  split.
  - intro E. assert (I : forall x, In x l <-> x = b) by (intro x; rewrite <- nat_distinct_in, E; cbn; intuition).
    split; [|intros x Hx; now apply I]. intros ->. discriminate.
  - intros [NE H]. induction l as [|x l IH]; [congruence|]. cbn. destruct (nat_mem x l) eqn:E.
    + apply IH; [|intros; apply H; now right]. intros ->. discriminate.
    + rewrite (H x) by now left. destruct l as [|y l]; [reflexivity|]. exfalso.
      assert (nat_mem x (y :: l) = true) by (apply nat_mem_in; rewrite (H x), (H y) by (cbn; auto); now left). congruence.
Qed.
Lemma removelast_nth {A} (l : list A) j x : nth_error (removelast l) j = Some x <-> nth_error l j = Some x /\ (Datatypes.S j < List.length l)%nat.
Proof.
  revert j. induction l as [|y l IH]; intro j; [destruct j; cbn; intuition; discriminate|].
  destruct l as [|z l]; [destruct j as [|j]; cbn; [intuition; try discriminate; lia|]; destruct j; cbn; intuition; try discriminate; lia|].
  change (removelast (y :: z :: l)) with (y :: removelast (z :: l)). destruct j as [|j]; cbn [nth_error List.length]; [intuition; lia|].
  rewrite IH. cbn [List.length]. intuition; lia.
Qed.
Lemma check_batch_iff r b : check_batch r = Some b <-> steady b r.
Proof.
  unfold check_batch, steady. destruct (nat_distinct (map a_batch (removelast (r_states r)))) as [|b' [|c l]] eqn:E.
  - split; [discriminate|]. intros [L H]. exfalso. destruct (r_states r) as [|s [|s' l]]; cbn in L; try lia.
    assert (In (a_batch s) (nat_distinct (map a_batch (removelast (s :: s' :: l))))) by (apply nat_distinct_in; now left). now rewrite E in H0.
  - pose proof (proj1 (nat_distinct_one _ _) E) as [NE H]. split.
    + intro X. injection X as <-. split.
      * destruct (r_states r) as [|s [|s' l]]; cbn in *; try congruence; lia.
      * intros j s Hj L. apply H. apply in_map. apply (nth_error_In _ j). now apply removelast_nth.
    + intros [L X]. f_equal. symmetry. destruct (r_states r) as [|s [|s' l]] eqn:Er; cbn in L; try lia.
      rewrite <- (X 0%nat s) by (cbn; try reflexivity; lia). apply H. now left.
  - split; [discriminate|]. intros [L X]. exfalso.
    assert (A : nat_distinct (map a_batch (removelast (r_states r))) = [b]).
    { apply nat_distinct_one. split.
      - destruct (r_states r) as [|s [|s' l']]; cbn in L; try lia. discriminate.
      - intros x Hx. apply in_map_iff in Hx. destruct Hx as (s & <- & Hs). apply In_nth_error in Hs. destruct Hs as [j Hj].
        apply removelast_nth in Hj. destruct Hj. eauto. }
    rewrite A in E. discriminate.
Qed.
Lemma all_some_in {A} (l : list (option A)) r : all_some l = Some r -> forall x, In x l <-> exists a, x = Some a /\ In a r.
Proof.
  revert r. induction l as [|o l IH]; intros r E x; cbn in E.
  - injection E as <-. split; [intros []|intros (a & _ & [])].
  - destruct o as [a|]; [|discriminate]. destruct (all_some l) as [r'|]; [|discriminate]. injection E as <-.
    specialize (IH r' eq_refl x). cbn. rewrite IH. split.
    + intros [<-|(b & -> & Hb)]; [exists a; auto|exists b; auto].
    + intros (b & -> & [<-|Hb]); eauto.
Qed.
Lemma all_some_none {A} (l : list (option A)) : all_some l = None -> In None l.
Proof.
  induction l as [|o l IH]; cbn; [discriminate|]. destruct o as [a|]; [|auto]. destruct (all_some l); [discriminate|auto].
Qed.
Definition batch_of_runs (runs : list arun) : option nat :=
  match all_some (map check_batch runs) with
  | Some bs => match nat_distinct bs with [b] => Some b | _ => None end
  | None => None
  end.
Lemma batch_of_runs_iff runs b : runs <> [] -> (batch_of_runs runs = Some b <-> forall r, In r runs -> steady b r).
Proof.
  intro NE. unfold batch_of_runs. destruct (all_some (map check_batch runs)) as [bs|] eqn:E.
  - pose proof (all_some_in _ _ E) as I. assert (A : (forall r, In r runs -> steady b r) <-> (forall x, In x bs -> x = b)).
    { split; intro H.
      - intros x Hx. assert (Hx' : In (Some x) (map check_batch runs)) by (apply I; eauto). apply in_map_iff in Hx'.
        destruct Hx' as (r & Er & Hr). apply H in Hr. apply check_batch_iff in Hr. congruence.
      - intros r Hr. apply check_batch_iff. assert (Hx : In (check_batch r) (map check_batch runs)) by now apply in_map.
        apply I in Hx. destruct Hx as (a & -> & Ha). now rewrite (H a Ha). }
    rewrite A. assert (NB : bs <> []).
    { intros ->. destruct runs as [|r runs]; [congruence|]. assert (Hx : In (check_batch r) (map check_batch (r :: runs))) by (now left).
      apply I in Hx. destruct Hx as (a & _ & []). }
    split.
    + destruct (nat_distinct bs) as [|c [|]] eqn:D; try discriminate. intro X. injection X as ->. now apply nat_distinct_one in D.
    + intro H. rewrite (proj2 (nat_distinct_one bs b)); auto.
  - split; [discriminate|]. intro H. exfalso. apply all_some_none in E. apply in_map_iff in E. destruct E as (r & Er & Hr).
    apply H in Hr. apply check_batch_iff in Hr. congruence.
Qed.

(** ** The summary of runs *)
Lemma fold_perf_ok n r qs : performances n r qs -> (n <= List.length (r_states r))%nat -> fold_perf n r = Ok (map Num qs).
Proof.
  intros (ip & ps & -> & I & L & H) Hn. unfold fold_perf.
  assert (E : mapM (fun s => match sget "performance"%string (a_dict s) with Some v => num_of v | None => Err KeyErr end) (firstn n (r_states r)) = Ok (map Num ps)).
  { apply mapM_Forall2. clear I. revert ps L H Hn. generalize (r_states r). revert n.
    induction n as [|n IH]; intros l ps L H Hn; [destruct ps; [constructor|discriminate]|].
    destruct l as [|s l]; cbn in Hn; [lia|]. destruct ps as [|p ps]; [discriminate|]. cbn [firstn map]. constructor.
    - destruct (H 0%nat p eq_refl) as (s' & E & Hh). cbn in E. injection E as <-. unfold holds in Hh. now rewrite Hh.
    - apply IH; [injection L as L; auto| |lia]. intros j q E. exact (H (Datatypes.S j) q E). }
  rewrite E. cbn [bind]. destruct (r_ip r) as [p|]; cbn [initial] in I.
  - destruct ip as [|q [|]]; try discriminate. cbn in I. assert (p = AVal (Num q)) by congruence. subst p. reflexivity.
  - destruct ip; [reflexivity|discriminate].
Qed.
Lemma perf_length n r qs : performances n r qs -> List.length qs = (List.length (initial (r_ip r)) + n)%nat.
Proof. intros (ip & ps & -> & I & L & H). rewrite app_length, L. apply (f_equal (@List.length aval)) in I. rewrite map_length in I. lia. Qed.

Lemma fold_costs n r : (n <= List.length (r_states r))%nat -> List.length (fold_cost n r) = n /\
  forall j c, nth_error (fold_cost n r) j = Some c -> exists s, nth_error (r_states r) j = Some s /\
    (holds "cost" s c \/ sget "cost"%string (a_dict s) = None /\ c = AVal (Num 0)).
Proof.
  intro L. unfold fold_cost. split; [rewrite map_length, firstn_length; lia|].
  intros j c E. rewrite nth_error_map in E. destruct (nth_error (firstn n (r_states r)) j) as [s|] eqn:Es; [|discriminate].
  assert (Hj : (j < n)%nat). { assert (j < List.length (firstn n (r_states r)))%nat by (apply nth_error_Some; congruence). rewrite firstn_length in H. lia. }
  rewrite nth_firstn in Es by auto. exists s. split; auto. cbn in E. unfold holds.
  destruct (sget "cost"%string (a_dict s)) as [v|]; injection E as <-; auto.
Qed.

Lemma summary_lemma runs n data : runs <> [] -> shortest n (map r_states runs) -> Forall2 (performances n) runs data ->
  (forall r, In r data -> r <> []) -> (forall r r', In r runs -> In r' runs -> r_ip r = None -> r_ip r' = None) ->
  exists s, stateio_summary runs = Ok s /\ su_len s = n /\ su_folds s = List.length runs /\
    is_num (su_mean s) (mean (map mean data)) /\ is_num (su_var s) (variance (map mean data)) /\
    su_ip s = r_ip (last runs {| r_ip := None; r_states := [] |}) /\
    Forall2 (fun r cs => List.length cs = n /\ forall j c, nth_error cs j = Some c ->
       exists st, nth_error (r_states r) j = Some st /\ (holds "cost" st c \/ sget "cost"%string (a_dict st) = None /\ c = AVal (Num 0))) runs (su_costs s) /\
    (forall b, su_flag s = true /\ su_batch s = b <-> forall r, In r runs -> steady b r) /\
    (su_flag s = false -> su_batch s = 0%nat).
Proof.
  intros NE SH F ND IP. unfold stateio_summary. fold (batch_of_runs runs).
  assert (SM : min_len (map r_states runs) = n).
  { eapply shortest_unique; [apply min_len_spec|exact SH]. destruct runs; [congruence|discriminate]. }
  assert (LE : forall r, In r runs -> (n <= List.length (r_states r))%nat) by (intros r Hr; apply SH; now apply in_map).
  assert (E : mapM (fold_perf n) runs = Ok (map (map Num) data)).
  { apply mapM_Forall2. clear - F LE. induction F as [|r qs runs data H F IH]; [constructor|]. cbn [map]. constructor.
    - apply fold_perf_ok; auto. apply LE. now left.
    - apply IH. intros; apply LE; now right. }
  assert (SL : same_len (map (map Num) data) = true).
  { apply same_len_iff. destruct runs as [|r0 runs]; [congruence|]. exists (List.length (initial (r_ip r0)) + n)%nat.
    intros l Hl. apply in_map_iff in Hl. destruct Hl as (qs & <- & Hq). rewrite map_length.
    assert (X : exists r, In r (r0 :: runs) /\ performances n r qs).
    { clear - F Hq. induction F as [|r q rs qs' H F IH]; [destruct Hq|]. destruct Hq as [->|Hq]; [exists r; split; [now left|auto]|].
      destruct (IH Hq) as (r' & Hr' & P). exists r'. split; [now right|auto]. }
    destruct X as (r & Hr & P). rewrite (perf_length _ _ _ P). f_equal. specialize (IP r r0 Hr (or_introl eq_refl)) as I1.
    pose proof (IP r0 r (or_introl eq_refl) Hr) as I2. destruct (r_ip r), (r_ip r0); cbn; auto; exfalso; [specialize (I2 eq_refl)|specialize (I1 eq_refl)]; discriminate. }
  destruct (fmean_list data ND) as (ms & EM & FM).
  assert (NM : ms <> []). { intros ->. inversion FM. destruct data; [|discriminate]. inversion F. subst. congruence. }
  destruct runs as [|r0 runs]; [congruence|]. rewrite SM, E. cbn [bind]. rewrite SL. cbn [guard bind].
  eexists. split; [reflexivity|]. cbn [su_len su_folds su_mean su_var su_ip su_costs su_flag su_batch]. rewrite EM.
  split; [reflexivity|]. split; [reflexivity|].
  split. { destruct (fmean_nums ms NM) as (p & Ep & Hp). exists p. split; auto. rewrite Hp. now apply mean_eq. }
  split. { destruct (fvar_nums ms NM) as (p & Ep & Hp). exists p. split; auto. rewrite Hp. now apply variance_eq. }
  split; [reflexivity|]. split.
  { clear - LE. induction (r0 :: runs) as [|r rs IH]; [constructor|]. cbn [map]. constructor; [apply fold_costs; apply LE; now left|].
    apply IH. intros; apply LE; now right. }
  split.
  - intro b. rewrite <- (batch_of_runs_iff (r0 :: runs) b NE). destruct (batch_of_runs (r0 :: runs)) as [b'|].
    + split; [intros [_ ->]; auto|intro H; injection H as ->; auto].
    + split; [intros [H _]; discriminate|discriminate].
  - destruct (batch_of_runs (r0 :: runs)); [discriminate|reflexivity].
Qed.

Lemma summary_mixed runs n data : shortest n (map r_states runs) -> Forall2 (performances n) runs data ->
  (exists r, In r runs /\ r_ip r = None) -> (exists r, In r runs /\ r_ip r <> None) -> stateio_summary runs = Err ValueErr.
Proof.
  intros SH F (r1 & H1 & N1) (r2 & H2 & N2). unfold stateio_summary. fold (batch_of_runs runs).
  assert (NE : runs <> []) by (intros ->; destruct H1).
  assert (SM : min_len (map r_states runs) = n).
  { eapply shortest_unique; [apply min_len_spec|exact SH]. destruct runs; [congruence|discriminate]. }
  assert (LE : forall r, In r runs -> (n <= List.length (r_states r))%nat) by (intros r Hr; apply SH; now apply in_map).
  assert (E : mapM (fold_perf n) runs = Ok (map (map Num) data)).
  { apply mapM_Forall2. clear - F LE. induction F as [|r qs runs data H F IH]; [constructor|]. cbn [map]. constructor.
    - apply fold_perf_ok; auto. apply LE. now left.
    - apply IH. intros; apply LE; now right. }
  assert (X : forall r, In r runs -> exists qs, In qs data /\ performances n r qs).
  { clear - F. induction F as [|r q rs qs' H F IH]; [intros r []|]. intros r' [<-|Hr]; [exists q; split; [now left|auto]|].
    destruct (IH r' Hr) as (q' & Hq & P). exists q'. split; [now right|auto]. }
  assert (SL : same_len (map (map Num) data) = false).
  { apply not_true_is_false. intro S. apply same_len_iff in S. destruct S as [k S].
    destruct (X r1 H1) as (q1 & I1 & P1). destruct (X r2 H2) as (q2 & I2 & P2).
    pose proof (S _ (in_map (map Num) _ _ I1)) as L1. pose proof (S _ (in_map (map Num) _ _ I2)) as L2.
    rewrite map_length, (perf_length _ _ _ P1) in L1. rewrite map_length, (perf_length _ _ _ P2) in L2.
    rewrite N1 in L1. destruct (r_ip r2); [|congruence]. cbn in *. lia. }
  destruct runs as [|r0 runs]; [congruence|]. rewrite SM, E. cbn [bind]. now rewrite SL.
Qed.
