(** Property C117. *)
From Verif Require Import Base BaseFacts MLModel BinaryModel BinarySpec.
From Coq Require Import QArith Lqa Lia.
Local Open Scope Z_scope.

Arguments Dummy {M} cls.
Arguments Fitted {M} m.
Arguments clfs {M} _.
Arguments n_labels {M} _.
Arguments n_features {M} _.

Lemma column_constant Y j c : constant Y j c -> exists n, column_of Y j = repeat c (S n).
Proof.
  intros [N H]. unfold column_of. destruct (lines Y) as [|r l] eqn:E; [congruence|]. exists (length l). clear E N.
  cbn. rewrite (H r) by (cbn; auto). f_equal. assert (K : forall r, In r l -> nth j r 0 = c) by (intros; apply H; cbn; auto). clear H.
  induction l as [|a l IH]; cbn; auto. rewrite (K a) by (cbn; auto). f_equal. apply IH. intros; apply K; cbn; auto.
Qed.
Lemma nodup_repeat c n : nodup Z.eq_dec (repeat c (S n)) = [c].
Proof.
  induction n as [|n IH]; auto. change (repeat c (S (S n))) with (c :: repeat c (S n)). cbn [nodup].
  destruct (in_dec Z.eq_dec c (repeat c (S n))) as [I|I]; auto. exfalso. apply I. cbn. auto.
Qed.
Lemma fit_constant M (b : base M) X Y j c : constant Y j c -> fit_label M b X (column_of Y j) = Ok (Dummy c).
Proof. intro H. destruct (column_constant _ _ _ H) as (n & E). unfold fit_label. rewrite E, nodup_repeat. reflexivity. Qed.
Lemma fit_mixed M (b : base M) X Y j : mixed Y j \/ lines Y = [] -> fit_label M b X (column_of Y j) = rmap Fitted (b_fit M b (rows_of X) (column_of Y j)).
Proof.
  intros H. unfold fit_label. destruct (nodup Z.eq_dec (column_of Y j)) as [|a [|a' l]] eqn:E; auto. exfalso.
  destruct H as [(r & r' & I & I' & N)|H]; [|unfold column_of in E; rewrite H in E; discriminate]. apply N.
  assert (K : forall r, In r (lines Y) -> nth j r 0 = a).
  { intros q Iq. assert (In (nth j q 0) (column_of Y j)) as J by (unfold column_of; apply (in_map (fun r => nth j r 0)); auto).
    apply (nodup_In Z.eq_dec) in J. rewrite E in J. destruct J as [J|[]]; auto. }
  now rewrite (K r), (K r').
Qed.
Lemma constant_or_mixed Y j : lines Y <> [] -> (exists c, constant Y j c) \/ mixed Y j.
Proof.
  intro N. destruct (lines Y) as [|r l] eqn:E; [congruence|]. clear N.
  destruct (Forall_dec (fun q => nth j q 0 = nth j r 0) (fun q => Z.eq_dec _ _) l) as [F|F].
  - left. exists (nth j r 0). split; [congruence|]. rewrite E. intros q [<-|I]; auto. rewrite Forall_forall in F. auto.
  - right. apply neg_Forall_Exists_neg in F; [|intro q; apply Z.eq_dec]. apply Exists_exists in F. destruct F as (q & I & H).
    exists q, r. rewrite E. cbn. auto.
Qed.

Lemma fit_labels_ok M (b : base M) X Y ls : forall done cs, fit_labels M b X Y ls done = (cs, Ok tt) ->
  exists new, cs = done ++ new /\ Forall2 (fun i c => fit_label M b X (column_of Y i) = Ok c) ls new.
Proof.
  induction ls as [|i ls IH]; intros done cs E; cbn in E.
  - injection E as <-. exists []. rewrite app_nil_r. auto.
  - destruct (fit_label M b X (column_of Y i)) as [c|e] eqn:F; [|discriminate]. destruct (IH _ _ E) as (new & -> & H).
    exists (c :: new). rewrite <- app_assoc. split; auto.
Qed.
Lemma fit_labels_err M (b : base M) X Y ls : forall done cs e, fit_labels M b X Y ls done = (cs, Err e) -> (length cs < length done + length ls)%nat /\ (length done <= length cs)%nat.
Proof.
  induction ls as [|i ls IH]; intros done cs e E; cbn in E; [discriminate|].
  destruct (fit_label M b X (column_of Y i)) as [c|e'] eqn:F.
  - apply IH in E. rewrite app_length in E. cbn in *. lia.
  - injection E as <- <-. cbn. lia.
Qed.
Lemma Forall2_len {A B} (P : A -> B -> Prop) l m : Forall2 P l m -> length m = length l.
Proof. induction 1; cbn; auto. Qed.
Lemma Forall2_nth_err {A B} (P : A -> B -> Prop) l m : Forall2 P l m -> forall i a, nth_error l i = Some a -> exists c, nth_error m i = Some c /\ P a c.
Proof. induction 1; intros [|i] a E; cbn in *; try discriminate; [injection E as ->; eauto|auto]. Qed.

Lemma trained M (b : base M) s X Y s' : br_train M b s X Y = (s', Ok tt) ->
  exists cs, clfs s' = Some cs /\ n_labels s' = wide Y /\ n_features s' = width_of X /\ length cs = wide Y /\
    forall j, (j < wide Y)%nat -> exists c, nth_error cs j = Some c /\ fit_label M b X (column_of Y j) = Ok c.
Proof.
  unfold br_train. destruct (fit_labels M b X Y (seq 0 (wide Y)) []) as [cs r] eqn:E. cbn. intro H. injection H as <- ->.
  destruct (fit_labels_ok _ _ _ _ _ _ _ E) as (new & -> & F). exists new. cbn. do 3 (split; auto). split.
  - apply Forall2_len in F. now rewrite seq_length in F.
  - intros j Hj. apply (Forall2_nth_err _ _ _ F j j). rewrite (nth_error_nth' _ 0%nat) by (rewrite seq_length; auto). now rewrite seq_nth.
Qed.

Lemma columns_at {M A} (s : br M) X (one : clf M -> res (list A)) cs cols :
  clfs s = Some cs -> columns_by M s X one = Ok cols ->
  width_of X = n_features s /\ length cols = n_labels s /\
  forall j, (j < n_labels s)%nat -> exists c, nth_error cs j = Some c /\ one c = Ok (nth j cols []).
Proof.
  intros C E. unfold columns_by, guard in E. rewrite C in E. destruct (Nat.eqb_spec (width_of X) (n_features s)); [|discriminate]. cbn [bind] in E.
  pose proof (mapM_length _ _ _ E) as L. rewrite seq_length in L. do 2 (split; auto). intros j Hj. apply mapM_inv in E.
  destruct (Forall2_nth_err _ _ _ E j j) as (col & N & F).
  { rewrite (nth_error_nth' _ 0%nat) by (rewrite seq_length; auto). now rewrite seq_nth. }
  unfold py_nth in F. destruct (nth_error cs j) as [c|] eqn:Nc; [|discriminate]. cbn [bind] in F. exists c. split; auto. rewrite F. f_equal.
  symmetry. now apply nth_error_nth.
Qed.

(** ** Histories *)

(** Only the last training counts. *)
Theorem C117_last : forall M (b : base M) s h X Y,
  br_life M b s (h ++ [(X, Y)]) = fst (br_train M b (br_new M) X Y).
Proof. intros. unfold br_life. rewrite fold_left_app. reflexivity. Qed.
Print Assumptions C117_last.

(** Without a training, or with another number of features, predictions raise. *)
Theorem C117_refused : forall M (b : base M) X,
  br_predict M b (br_new M) X = Err ValueErr /\ br_real M b (br_new M) X = Err ValueErr /\ br_proba M b (br_new M) X = Err ValueErr /\
  forall s X0 Y, width_of X <> width_of X0 -> let s' := fst (br_train M b s X0 Y) in
    br_predict M b s' X = Err ValueErr /\ br_real M b s' X = Err ValueErr /\ br_proba M b s' X = Err ValueErr.
Proof.
  intros. do 3 (split; [reflexivity|]). intros s X0 Y N. unfold br_predict, br_real, br_proba, columns_by, br_train, guard. cbn.
  destruct (Nat.eqb_spec (width_of X) (width_of X0)); [congruence|]. auto.
Qed.
Print Assumptions C117_refused.

Lemma columns_short M A (s : br M) X (one : clf M -> res (list A)) cs : clfs s = Some cs -> (length cs < n_labels s)%nat ->
  forall cols, columns_by M s X one <> Ok cols.
Proof.
  intros C L cols E. destruct (columns_at _ _ _ _ _ C E) as (_ & _ & H). destruct (H (length cs) L) as (c & N & _).
  assert (K : nth_error cs (length cs) <> None) by congruence. apply nth_error_Some in K. lia.
Qed.
(** A training that fails destroys what was learned before: no prediction succeeds until the next training. *)
Theorem C117_failed_refuted : forall M (b : base M) s h X Y s' e X',
  br_train M b (br_life M b s h) X Y = (s', Err e) ->
  (exists e', br_predict M b s' X' = Err e') /\ (exists e', br_real M b s' X' = Err e') /\ exists e', br_proba M b s' X' = Err e'.
Proof.
  intros M b s h X Y s' e X' E. unfold br_train in E. destruct (fit_labels M b X Y (seq 0 (wide Y)) []) as [cs r] eqn:F. cbn in E. injection E as <- ->.
  apply fit_labels_err in F. rewrite seq_length in F. cbn in F.
  assert (K : forall A (one : clf M -> res (list A)), exists e', columns_by M {| clfs := Some cs; n_labels := wide Y; n_features := width_of X |} X' one = Err e').
  { intros A one. destruct (columns_by M _ X' one) as [cols|e'] eqn:C; [|eauto]. exfalso. eapply columns_short; [| |exact C]; [reflexivity|cbn; lia]. }
  split; [|split]; apply K.
Qed.
Print Assumptions C117_failed_refuted.

(** ** Labels *)

(** A label predicts from its own column: other columns do not matter. *)
Theorem C117_independent : forall M (b : base M) s s2 X Y Y' s' s2' X' j,
  br_train M b s X Y = (s', Ok tt) -> br_train M b s2 X Y' = (s2', Ok tt) ->
  (j < wide Y)%nat -> (j < wide Y')%nat -> column_of Y j = column_of Y' j ->
  (forall P P', br_predict M b s' X' = Ok P -> br_predict M b s2' X' = Ok P' -> nth j P [] = nth j P' []) /\
  (forall P P', br_real M b s' X' = Ok P -> br_real M b s2' X' = Ok P' -> nth j P [] = nth j P' []) /\
  (forall P P', br_proba M b s' X' = Ok P -> br_proba M b s2' X' = Ok P' -> nth j P [] = nth j P' []).
Proof.
  intros M b s s2 X Y Y' s' s2' X' j T T' Hj Hj' EC. destruct (trained _ _ _ _ _ _ T) as (cs & C & L & _ & _ & H).
  destruct (trained _ _ _ _ _ _ T') as (cs' & C' & L' & _ & _ & H'). destruct (H j Hj) as (c & N & F). destruct (H' j Hj') as (c' & N' & F').
  rewrite EC in F. assert (c = c') as <- by congruence.
  assert (K : forall A (one : clf M -> res (list A)) P P', columns_by M s' X' one = Ok P -> columns_by M s2' X' one = Ok P' -> nth j P [] = nth j P' []).
  { intros A one P P' E E'. destruct (columns_at _ _ _ _ _ C E) as (_ & _ & G). destruct (columns_at _ _ _ _ _ C' E') as (_ & _ & G').
    rewrite L in G. rewrite L' in G'. destruct (G j Hj) as (d & Nd & Od). destruct (G' j Hj') as (d' & Nd' & Od'). congruence. }
  split; [|split]; intros P P'; apply K.
Qed.
Print Assumptions C117_independent.

Lemma at_constant M (b : base M) s X Y s' j c : br_train M b s X Y = (s', Ok tt) -> (j < wide Y)%nat -> constant Y j c ->
  forall A X' (one : clf M -> res (list A)) P, columns_by M s' X' one = Ok P -> one (Dummy c) = Ok (nth j P []).
Proof.
  intros T Hj K A X' one P E. destruct (trained _ _ _ _ _ _ T) as (cs & C & L & _ & _ & H). destruct (H j Hj) as (d & N & F).
  rewrite (fit_constant M b X Y j c K) in F. injection F as <-. destruct (columns_at _ _ _ _ _ C E) as (_ & _ & G). rewrite L in G.
  destruct (G j Hj) as (d' & N' & O). congruence.
Qed.
Lemma at_mixed M (b : base M) s X Y s' j : br_train M b s X Y = (s', Ok tt) -> (j < wide Y)%nat -> mixed Y j ->
  exists m, fitted_on b X Y j m /\ forall A X' (one : clf M -> res (list A)) P, columns_by M s' X' one = Ok P -> one (Fitted m) = Ok (nth j P []).
Proof.
  intros T Hj K. destruct (trained _ _ _ _ _ _ T) as (cs & C & L & _ & _ & H). destruct (H j Hj) as (d & N & F).
  rewrite fit_mixed in F by auto. unfold fitted_on. destruct (b_fit M b (rows_of X) (column_of Y j)) as [m|e]; [|discriminate]. injection F as <-.
  exists m. split; auto. intros A X' one P E. destruct (columns_at _ _ _ _ _ C E) as (_ & _ & G). rewrite L in G.
  destruct (G j Hj) as (d' & N' & O). congruence.
Qed.
Lemma second_repeat {A} (x z : A) n : second (repeat [x; z] n) = Ok (repeat z n).
Proof. unfold second. induction n as [|n IH]; cbn; auto. rewrite IH. reflexivity. Qed.
Lemma map_repeat' {A B} (f : A -> B) x n : map f (repeat x n) = repeat (f x) n.
Proof. induction n; cbn; congruence. Qed.

(** A label that is 0, or 1, for all training instances is predicted so for all instances, with certainty. *)
Theorem C117_constant : forall M (b : base M) s X Y s' X' j c,
  br_train M b s X Y = (s', Ok tt) -> (j < wide Y)%nat -> constant Y j c -> c = 0 \/ c = 1 ->
  (forall P, br_predict M b s' X' = Ok P -> nth j P [] = repeat c (length (rows_of X'))) /\
  (forall P, br_proba M b s' X' = Ok P -> nth j P [] = repeat (inject_Z c) (length (rows_of X'))) /\
  (forall P, br_real M b s' X' = Ok P ->
     length (nth j P []) = length (rows_of X') /\ forall r, In r (nth j P []) -> (r == inject_Z (2 * c - 1))%Q).
Proof.
  intros M b s X Y s' X' j c T Hj K H.
  assert (D : dummy_proba c (length (rows_of X')) = Ok (repeat (if c =? 0 then [1; 0] else [0; 1])%Q (length (rows_of X')))) by (destruct H as [->| ->]; reflexivity).
  split; [|split]; intros P E; pose proof (at_constant M b s X Y s' j c T Hj K _ _ _ _ E) as O; cbn beta iota in O.
  - congruence.
  - rewrite D in O. cbn [bind] in O. destruct H as [->| ->]; cbn [Z.eqb] in O; rewrite second_repeat in O; injection O as <-; reflexivity.
  - unfold dummy_real in O. rewrite D in O. cbn [rmap bind] in O. rewrite map_repeat' in O.
    assert (exists q, nth j P [] = repeat q (length (rows_of X')) /\ (q == inject_Z (2 * c - 1))%Q) as (q & -> & Eq).
    { destruct H as [->| ->]; cbn [Z.eqb map] in O; rewrite second_repeat in O; injection O as <-; eexists; (split; [reflexivity|]); reflexivity. }
    rewrite repeat_length. split; auto. intros r I. apply repeat_spec in I. now subst.
Qed.
Print Assumptions C117_constant.

(** With labels 1 and -1, a label that is -1 for all training instances is predicted -1, but its probability of being
    positive is 1, and so is its real-valued prediction. *)
Theorem C117_negative_refuted : forall M (b : base M) s X Y s' X' j,
  br_train M b s X Y = (s', Ok tt) -> (j < wide Y)%nat -> constant Y j (-1) ->
  (forall P, br_predict M b s' X' = Ok P -> nth j P [] = repeat (-1) (length (rows_of X'))) /\
  (forall P, br_proba M b s' X' = Ok P -> nth j P [] = repeat 1%Q (length (rows_of X'))) /\
  (forall P, br_real M b s' X' = Ok P ->
     length (nth j P []) = length (rows_of X') /\ forall r, In r (nth j P []) -> (r == 1)%Q).
Proof.
  intros M b s X Y s' X' j T Hj K.
  split; [|split]; intros P E; pose proof (at_constant M b s X Y s' j (-1) T Hj K _ _ _ _ E) as O; cbn beta iota in O.
  - congruence.
  - cbn [dummy_proba py_index bind] in O. change (dummy_proba (-1) (length (rows_of X'))) with (Ok (repeat [0; 1]%Q (length (rows_of X')))) in O.
    cbn [bind] in O. rewrite second_repeat in O. now injection O as <-.
  - unfold dummy_real in O. change (dummy_proba (-1) (length (rows_of X'))) with (Ok (repeat [0; 1]%Q (length (rows_of X')))) in O.
    cbn [rmap bind] in O. rewrite map_repeat' in O. cbn [map] in O. rewrite second_repeat in O. injection O as <-. rewrite repeat_length. split; auto.
    intros r I. apply repeat_spec in I. subst. reflexivity.
Qed.
Print Assumptions C117_negative_refuted.

(** Any other value that all training instances share leaves no probability and no real-valued prediction, for no label. *)
Theorem C117_outside_refuted : forall M (b : base M) s X Y s' X' j c P,
  br_train M b s X Y = (s', Ok tt) -> (j < wide Y)%nat -> constant Y j c -> c < -2 \/ 1 < c ->
  br_real M b s' X' <> Ok P /\ br_proba M b s' X' <> Ok P.
Proof.
  intros M b s X Y s' X' j c P T Hj K H. assert (D : forall n, dummy_proba c n = Err IndexErr).
  { intro n. unfold dummy_proba, py_index. destruct (Z.leb_spec 0 c), (Z.ltb_spec c (Z.of_nat 2)), (Z.leb_spec (- Z.of_nat 2) c), (Z.ltb_spec c 0); cbn; auto; lia. }
  split; intro E; pose proof (at_constant M b s X Y s' j c T Hj K _ _ _ _ E) as O; cbn beta iota in O; unfold dummy_real in O; rewrite D in O; discriminate.
Qed.
Print Assumptions C117_outside_refuted.

(** A label with several values is left to its own fit of the classifier. *)
Theorem C117_fitted : forall M (b : base M) s X Y s' j,
  br_train M b s X Y = (s', Ok tt) -> (j < wide Y)%nat -> mixed Y j ->
  exists m, fitted_on b X Y j m /\ forall X',
    (forall P, br_predict M b s' X' = Ok P -> b_predict M b m (rows_of X') = Ok (nth j P [])) /\
    (forall P, br_proba M b s' X' = Ok P -> exists R, b_proba M b m (rows_of X') = Ok R /\ length (nth j P []) = length R /\
       forall i p, nth_error (nth j P []) i = Some p -> exists row, nth_error R i = Some row /\ nth_error row 1 = Some p) /\
    (forall P v, b_kind M b <> IsOther -> b_decision M b m (rows_of X') = Ok (D1 v) -> br_real M b s' X' = Ok P -> nth j P [] = v).
Proof.
  intros M b s X Y s' j T Hj K. destruct (at_mixed M b s X Y s' j T Hj K) as (m & F & O). exists m. split; auto. intro X'.
  split; [|split].
  - intros P E. apply (O _ _ _ _ E).
  - intros P E. pose proof (O _ _ _ _ E) as R. cbn beta iota in R. destruct (b_proba M b m (rows_of X')) as [R0|e]; [|discriminate]. cbn [bind] in R.
    exists R0. split; auto. unfold second in R. split; [apply (mapM_length _ _ _ R)|]. intros i p N. apply mapM_inv in R. clear - R N.
    revert i N. induction R as [|row q l l' H _ IH]; intros [|i] N; cbn in *; try discriminate; auto.
    injection N as ->. exists row. split; auto. unfold py_nth in H. destruct row as [|a0 [|a1 l2]]; cbn in *; congruence.
  - intros P v NK D E. pose proof (O _ _ _ _ E) as R. cbn beta iota in R. rewrite D in R. cbn [bind] in R. destruct (b_kind M b); congruence.
Qed.
Print Assumptions C117_fitted.

(** A classifier that is neither an SVC nor a logistic regression has the real-valued prediction 0, whatever it learned. *)
Theorem C117_other_refuted : forall M (b : base M) s X Y s' X' j P,
  br_train M b s X Y = (s', Ok tt) -> (j < wide Y)%nat -> mixed Y j -> b_kind M b = IsOther ->
  br_real M b s' X' = Ok P -> nth j P [] = repeat 0%Q (length (rows_of X')).
Proof.
  intros M b s X Y s' X' j P T Hj K NK E. destruct (at_mixed M b s X Y s' j T Hj K) as (m & F & O).
  pose proof (O _ _ _ _ E) as R. cbn beta iota in R. rewrite NK in R. congruence.
Qed.
Print Assumptions C117_other_refuted.

(** With labels 0 and 1, predictions and real-valued predictions always succeed and agree: an instance has a label exactly if
    its value is positive. *)
Theorem C117_agree : forall M (b : base M) s X Y s' X',
  br_train M b s X Y = (s', Ok tt) -> lines Y <> [] -> labels_in Y [0; 1] -> decides b 0 1 -> width_of X' = width_of X ->
  exists P R, br_predict M b s' X' = Ok P /\ br_real M b s' X' = Ok R /\ length P = wide Y /\ length R = wide Y /\
    forall j i, (j < wide Y)%nat -> (i < length (rows_of X'))%nat ->
      (nth i (nth j P []) 0 = 0 \/ nth i (nth j P []) 0 = 1) /\
      (nth i (nth j P []) 0 = 1 <-> (0 < nth i (nth j R []) 0)%Q).
Proof.
  intros M b s X Y s' X' T NE LI [NK Dec] W. destruct (trained _ _ _ _ _ _ T) as (cs & C & L & Fe & Lc & H).
  set (one_p := fun c : clf M => match c with Dummy cls => Ok (repeat cls (length (rows_of X'))) | Fitted m => b_predict M b m (rows_of X') end).
  assert (One : forall j, (j < wide Y)%nat -> exists c p r, nth_error cs j = Some c /\ one_p c = Ok p /\
     match c with
     | Dummy cls => r <- dummy_real cls (length (rows_of X')) ;; second r
     | Fitted m => match b_kind M b with
                   | IsOther => Ok (repeat 0%Q (length (rows_of X')))
                   | _ => d <- b_decision M b m (rows_of X') ;; match d with D1 v => Ok v | DN v => second v end
                   end
     end = Ok r /\
     forall i, (i < length (rows_of X'))%nat -> (nth i p 0 = 0 \/ nth i p 0 = 1) /\ (nth i p 0 = 1 <-> (0 < nth i r 0)%Q)).
  { intros j Hj. destruct (H j Hj) as (c & N & F). exists c. destruct (constant_or_mixed Y j NE) as [(v & Kv)|Mx].
    - rewrite (fit_constant M b X Y j v Kv) in F. injection F as <-. cbn [one_p].
      assert (Hv : v = 0 \/ v = 1).
      { destruct Kv as [N0 Kv]. destruct (lines Y) as [|r0 l0] eqn:El; [congruence|]. rewrite <- (Kv r0) by (cbn; auto).
        specialize (LI r0 j). rewrite El in LI. destruct LI as [Q0|[Q0|[]]]; cbn; auto. }
      destruct Hv as [->| ->].
      + exists (repeat 0 (length (rows_of X'))), (repeat (0 * 2 - 1)%Q (length (rows_of X'))). split; auto. split; auto. split.
        * unfold dummy_real. change (dummy_proba 0 (length (rows_of X'))) with (Ok (repeat [1; 0]%Q (length (rows_of X')))). cbn [rmap bind].
          rewrite map_repeat'. cbn [map]. apply second_repeat.
        * intros i Hi. rewrite nth_repeat. rewrite (nth_indep _ _ (0 * 2 - 1)%Q) by (rewrite repeat_length; auto). rewrite nth_repeat.
          split; auto. split; [discriminate|]. intro Q0. vm_compute in Q0. discriminate.
      + exists (repeat 1 (length (rows_of X'))), (repeat (1 * 2 - 1)%Q (length (rows_of X'))). split; auto. split; auto. split.
        * unfold dummy_real. change (dummy_proba 1 (length (rows_of X'))) with (Ok (repeat [0; 1]%Q (length (rows_of X')))). cbn [rmap bind].
          rewrite map_repeat'. cbn [map]. apply second_repeat.
        * intros i Hi. rewrite (nth_indep _ _ 1) by (rewrite repeat_length; auto). rewrite nth_repeat.
          rewrite (nth_indep _ _ (1 * 2 - 1)%Q) by (rewrite repeat_length; auto). rewrite nth_repeat. split; auto. split; [reflexivity|auto].
    - rewrite fit_mixed in F by auto. destruct (b_fit M b (rows_of X) (column_of Y j)) as [m|e] eqn:Bf; [|discriminate]. injection F as <-.
      destruct (Dec (rows_of X) (column_of Y j) m (rows_of X') Bf) as (p & v & Ep & Ev & Lp & Lv & Ag).
      { intros z I. unfold column_of in I. apply in_map_iff in I. destruct I as (r0 & <- & I). destruct (LI r0 j I Hj) as [Q0|[Q0|[]]]; auto. }
      exists p, v. split; auto. cbn [one_p]. split; auto. rewrite Ev. cbn [bind]. split; [destruct (b_kind M b); congruence|]. exact Ag. }
  assert (Build : forall A (one : clf M -> res (list A)), (forall j, (j < wide Y)%nat -> exists c p, nth_error cs j = Some c /\ one c = Ok p) ->
     exists P, columns_by M s' X' one = Ok P).
  { intros A one G. unfold columns_by, guard. rewrite C, Fe, W, Nat.eqb_refl, L. cbn [bind].
    assert (G' : forall l, (forall j, In j l -> (j < wide Y)%nat) -> exists P, mapM (fun i => c <- py_nth cs i ;; one c) l = Ok P).
    { induction l as [|j l IH]; intro I; cbn; [eauto|]. destruct (G j) as (c & p & N & O); [apply I; cbn; auto|].
      unfold py_nth at 1. rewrite N. cbn [bind]. rewrite O. cbn [bind]. destruct IH as (P & E); [intros; apply I; cbn; auto|]. rewrite E. cbn. eauto. }
    apply G'. intros j I. apply in_seq in I. lia. }
  destruct (Build _ one_p) as (P & EP). { intros j Hj. destruct (One j Hj) as (c & p & r & N & O & _). eauto. }
  destruct (Build _ (fun c => match c with
     | Dummy cls => r <- dummy_real cls (length (rows_of X')) ;; second r
     | Fitted m => match b_kind M b with
                   | IsOther => Ok (repeat 0%Q (length (rows_of X')))
                   | _ => d <- b_decision M b m (rows_of X') ;; match d with D1 v => Ok v | DN v => second v end
                   end
     end)) as (R & ER). { intros j Hj. destruct (One j Hj) as (c & p & r & N & _ & O & _). eauto. }
  exists P, R. split; [exact EP|]. split; [exact ER|].
  destruct (columns_at _ _ _ _ _ C EP) as (_ & LP & GP). destruct (columns_at _ _ _ _ _ C ER) as (_ & LR & GR). rewrite L in *.
  do 2 (split; auto). intros j i Hj Hi. destruct (One j Hj) as (c & p & r & N & Op & Or & Ag).
  destruct (GP j Hj) as (c1 & N1 & O1). destruct (GR j Hj) as (c2 & N2 & O2).
  assert (c1 = c) by congruence. assert (c2 = c) by congruence. subst c1 c2.
  assert (p = nth j P []) by congruence. assert (r = nth j R []) by congruence. subst p r. apply Ag. exact Hi.
Qed.
Print Assumptions C117_agree.

(** ** A case: a classifier that cuts the first feature at one half. *)

Definition cut_at (lo hi : Z) (k : kind) : base unit :=
  {| b_kind := k; b_fit := fun _ y => match y with [] => Err ValueErr | _ => Ok tt end;
     b_predict := fun _ X => Ok (map (fun r => if Qle_bool (nth 0 r 0%Q) (1 # 2) then lo else hi) X);
     b_proba := fun _ X => Ok (map (fun r => if Qle_bool (nth 0 r 0%Q) (1 # 2) then [3 # 4; 1 # 4] else [1 # 4; 3 # 4])%Q X);
     b_decision := fun _ X => Ok (D1 (map (fun r => nth 0 r 0 - (1 # 2))%Q X)) |}.
Example C117_case_decides : decides (cut_at 0 1 IsSVC) 0 1.
Proof.
  split; [discriminate|]. intros X y m X' _ _. cbn. eexists _, _. do 2 (split; [reflexivity|]). rewrite !map_length. do 2 (split; auto).
  intros i Hi. set (f := fun r => if Qle_bool (nth 0 r 0%Q) (1 # 2) then 0 else 1). set (g := fun r : list Q => (nth 0 r 0 - (1 # 2))%Q).
  rewrite (nth_indep _ 0 (f [])) by (rewrite map_length; auto). rewrite (map_nth f). rewrite (nth_indep _ 0%Q (g [])) by (rewrite map_length; auto).
  rewrite (map_nth g). unfold f, g. destruct (Qle_bool (nth 0 (nth i X' []) 0%Q) (1 # 2)) eqn:E.
  - apply Qle_bool_iff in E. split; auto. split; [discriminate|intro; lra].
  - split; auto. split; auto. intros _. destruct (Qlt_le_dec (1 # 2) (nth 0 (nth i X' []) 0%Q)) as [K|K]; [lra|]. apply Qle_bool_iff in K. congruence.
Qed.
Definition train_x : matrix := {| rows_of := [[0]; [1]; [1]]%Q; width_of := 1 |}.
Definition train_y : table := {| lines := [[0; 1; 0]; [1; 1; 0]; [1; 1; 0]]; wide := 3 |}.
Definition test_x : matrix := {| rows_of := [[0]; [1]]%Q; width_of := 1 |}.
Definition trained_case : br unit := fst (br_train unit (cut_at 0 1 IsSVC) (br_new unit) train_x train_y).
Example C117_case_trained : br_train unit (cut_at 0 1 IsSVC) (br_new unit) train_x train_y = (trained_case, Ok tt) /\
  lines train_y <> [] /\ labels_in train_y [0; 1] /\ mixed train_y 0 /\ constant train_y 1 1 /\ constant train_y 2 0.
Proof.
  split; [reflexivity|]. split; [discriminate|]. split.
  { intros r j I Hj. cbn in Hj. assert (j = 0 \/ j = 1 \/ j = 2)%nat as [->|[->| ->]] by lia; destruct I as [<-|[<-|[<-|[]]]]; cbn; auto. }
  split; [exists [0; 1; 0], [1; 1; 0]; cbn; repeat split; auto; discriminate|].
  split; (split; [discriminate|]; intros r [<-|[<-|[<-|[]]]]; reflexivity).
Qed.
Example C117_case_predict : br_predict unit (cut_at 0 1 IsSVC) trained_case test_x = Ok [[0; 1]; [1; 1]; [0; 0]].
Proof. reflexivity. Qed.
Example C117_case_real : rmap (map (map Qred)) (br_real unit (cut_at 0 1 IsSVC) trained_case test_x) = Ok [[-1 # 2; 1 # 2]; [1; 1]; [-1; -1]]%Q.
Proof. reflexivity. Qed.
Example C117_case_proba : br_proba unit (cut_at 0 1 IsSVC) trained_case test_x = Ok [[1 # 4; 3 # 4]; [1; 1]; [0; 0]]%Q.
Proof. reflexivity. Qed.
(** The same data with -1 for 0. *)
Definition signed_y : table := {| lines := [[-1; 1; -1]; [1; 1; -1]; [1; 1; -1]]; wide := 3 |}.
Example C117_case_signed :
  let b := cut_at (-1) 1 IsSVC in let s := fst (br_train unit b (br_new unit) train_x signed_y) in
  constant signed_y 2 (-1) /\ br_predict unit b s test_x = Ok [[-1; 1]; [1; 1]; [-1; -1]] /\ br_proba unit b s test_x = Ok [[1 # 4; 3 # 4]; [1; 1]; [1; 1]]%Q.
Proof. cbn zeta. split; [split; [discriminate|]; intros r [<-|[<-|[<-|[]]]]; reflexivity|]. split; reflexivity. Qed.
(** Another classifier. *)
Example C117_case_other :
  let b := cut_at 0 1 IsOther in let s := fst (br_train unit b (br_new unit) train_x train_y) in
  rmap (map (map Qred)) (br_real unit b s test_x) = Ok [[0; 0]; [1; 1]; [-1; -1]]%Q.
Proof. reflexivity. Qed.
(** A classifier that fails: the second training destroys the first. *)
Definition picky : base unit :=
  {| b_kind := IsSVC; b_fit := fun X y => if Nat.eqb (length X) (length y) then Ok tt else Err ValueErr;
     b_predict := b_predict unit (cut_at 0 1 IsSVC); b_proba := b_proba unit (cut_at 0 1 IsSVC); b_decision := b_decision unit (cut_at 0 1 IsSVC) |}.
Example C117_case_failed :
  let s := br_life unit picky (br_new unit) [(train_x, train_y)] in
  br_predict unit picky s test_x = Ok [[0; 1]; [1; 1]; [0; 0]] /\
  snd (br_train unit picky s test_x train_y) = Err ValueErr /\ br_predict unit picky (fst (br_train unit picky s test_x train_y)) test_x = Err IndexErr.
Proof. repeat split; reflexivity. Qed.
