(** Theorems about LAL: C93. *)
From Verif Require Import Base BaseFacts MiscModel MiscSpec QueryModel QuerySpec QueryProofs QueryProps QueryNumpy LalModel LalSpec.
From Coq Require Import QArith Lqa.
Local Open Scope Z_scope.

Lemma mean_average l : l <> [] -> average l (mean l).
Proof.
  intro N. unfold average, mean, total. field. intro E. destruct l; [contradiction|].
  unfold Qeq in E. cbn [inject_Z Qnum Qden] in E. cbn [length] in E. lia.
Qed.

(** ** C93. The instances selected are, of the unlabelled ones, those with the largest reduction of the error the trained
    selector predicts from the state of learning. *)
Theorem C93_choice : forall np x o reg L U batch f, numpy_ok np -> selector o = Some reg ->
  0 < batch < Z.of_nat (length U) -> L <> [] -> (forall i, In i (L ++ U) -> - n_rows x <= i < n_rows x) ->
  fit_forest x L = Ok f -> trees f <> [] -> depths f <> [] ->
  exists rows sel, Forall2 (learning_state x f L U) U rows /\ lal_select np x o L U batch = Ok sel /\
    best_batch U (fun p => reg (nth p rows [])) (Z.to_nat batch) sel.
Proof.
  intros np x o reg L U batch f NP So B NL R Ff NT Nd. set (rows := lal_features x f L U).
  assert (LU : length rows = length U) by apply map_length.
  assert (UN : U <> []) by (intros ->; cbn in B; lia).
  destruct (C47_scores Z np U (map reg rows) batch NP) as [(sel & E & BB) _]; [now rewrite map_length|lia|].
  exists rows, sel. split; [|split].
  - unfold rows, lal_features. set (g := fun i => _). assert (G : forall i, learning_state x f L U i (g i)).
    { intro i. unfold g, learning_state. cbn zeta. do 4 eexists. split; [reflexivity|]. split; [apply mean_average; intro Z0; apply map_eq_nil in Z0; auto|].
      split; [apply mean_average; intro Z0; apply map_eq_nil in Z0; auto|]. split; [now apply mean_average|].
      unfold positives.
      assert (C : forall l, length (filter (fun x0 => negb (Qle_bool x0 0)) (map (label x) l)) = length (filter (fun k => if Qlt_le_dec 0 (label x k) then true else false) l)).
      { induction l as [|k l IH]; [reflexivity|]. cbn [map filter]. destruct (Qlt_le_dec 0 (label x k)) as [H|H].
        - assert (Q : Qle_bool (label x k) 0 = false). { apply not_true_is_false. intro Q. apply Qle_bool_iff in Q. lra. } rewrite Q. cbn [negb length]. now rewrite IH.
        - apply Qle_bool_iff in H. rewrite H. exact IH. }
      rewrite C. field. intro Q. destruct L; [contradiction|]. unfold Qeq in Q. cbn [inject_Z Qnum Qden length] in Q. lia. }
    assert (FA : forall l, Forall2 (learning_state x f L U) l (map g l)) by (induction l; cbn [map]; constructor; auto). apply FA.
  - unfold lal_select. rewrite So. unfold rows_exist, guard.
    assert (F : forall l, (forall i, In i l -> In i (L ++ U)) -> forallb (fun i => (- n_rows x <=? i) && (i <? n_rows x)) l = true).
    { intros l H. apply forallb_forall. intros i Hi. specialize (R i (H i Hi)). lia. }
    rewrite (F U), (F L) by (intros; apply in_or_app; auto). cbn [bind]. rewrite Ff. cbn [bind]. exact E.
  - destruct (Z.leb_spec (Z.of_nat (length U)) batch); [lia|]. destruct BB as (ps & ND & Lp & F & M). exists ps. split; [exact ND|]. split; [exact Lp|]. split; [exact F|].
    assert (N : forall p, (p < length U)%nat -> nth p (map reg rows) 0%Q = reg (nth p rows [])).
    { intros p Hp. rewrite (nth_indep _ 0%Q (reg [])) by (rewrite map_length; lia). apply map_nth. }
    intros p q Hp Hq Nq. specialize (M p q Hp Hq Nq). rewrite !N in M; [exact M| |exact Hq].
    clear - F Hp. induction F as [|a b ps sel E F IH]; [destruct Hp|]. destruct Hp as [<-|Hp]; [apply nth_error_Some; congruence|auto].
Qed.
Print Assumptions C93_choice.

(** Without a trained selector every call fails, whatever is asked; with one, a pool of at most the batch size is returned
    whole without training anything. *)
Theorem C93_untrained : forall np x o L U batch,
  (selector o = None -> lal_select np x o L U batch = Err ValueErr) /\
  (selector o <> None -> batch <= 0 -> lal_select np x o L U batch = Err AssertErr) /\
  (selector o <> None -> 0 < batch -> Z.of_nat (length U) <= batch -> lal_select np x o L U batch = Ok U).
Proof.
  intros np x o L U batch. unfold lal_select, select_largest, guard. split; [intros ->; reflexivity|]. destruct (selector o); [|split; congruence].
  split; intros _ B; [destruct (Z.ltb_spec 0 batch); [lia|reflexivity]|]. intro H. destruct (Z.ltb_spec 0 batch); [|lia]. cbn [bind].
  destruct (Z.leb_spec (Z.of_nat (length U)) batch); [reflexivity|lia].
Qed.
Print Assumptions C93_untrained.

(** A file is written only where there was none. Downloading writes what was delivered, byte by byte, up to a failure. *)
Lemma receive_spec total w ps : forall c x, receive total w ps = (c, x) ->
  (x = Ok tt -> whole ps /\ c = w ++ delivered ps) /\ exists k, c = firstn k (w ++ delivered ps).
Proof.
  revert w. induction ps as [|[b| |k] ps IH]; intros w c x; cbn [receive delivered].
  - intro E. injection E as <- <-. split; [intros _; split; [constructor|now rewrite app_nil_r]|]. exists (length w). now rewrite app_nil_r, firstn_all.
  - destruct b as [|z b].
    + intro E. apply IH in E. destruct E as [E1 E2]. split; [|exact E2]. intro X. destruct (E1 X) as [W C]. split; [constructor; [eauto|exact W]|exact C].
    + destruct total as [n|].
      * destruct (n =? 0).
        -- intro E. injection E as <- <-. split; [discriminate|]. exists (length w). rewrite firstn_app, firstn_all, Nat.sub_diag. cbn. now rewrite app_nil_r.
        -- intro E. apply IH in E. rewrite <- app_assoc in E. destruct E as [E1 E2]. split; [|exact E2]. intro X. destruct (E1 X) as [W C]. split; [constructor; [eauto|exact W]|exact C].
      * intro E. injection E as <- <-. split; [discriminate|]. exists (length w). rewrite firstn_app, firstn_all, Nat.sub_diag. cbn. now rewrite app_nil_r.
  - intro E. injection E as <- <-. split; [discriminate|]. exists (length w). now rewrite app_nil_r, firstn_all.
  - intro E. injection E as <- <-. split; [discriminate|]. exists k. now rewrite app_nil_r.
Qed.

Theorem C93_download : forall m net d d' k x, download_data m net d = (d', k, x) ->
  (forall m', m' <> m -> d' m' = d m') /\
  match d m with
  | Some c => d' m = Some c /\ k = 0%nat /\ x = Ok tt
  | None => k = 1%nat /\
      match net with
      | None => d' m = None /\ x = Err GenericErr
      | Some r => (length_header r = None -> d' m = None /\ x = Err KeyErr) /\
                  (length_header r <> None -> exists c, d' m = Some c /\ (exists j, c = firstn j (delivered (pieces r))) /\
                     (x = Ok tt -> whole (pieces r) /\ c = delivered (pieces r)) /\
                     (forall n, length_header r = Some (Some n) -> n <> 0 -> whole (pieces r) -> x = Ok tt))
      end
  end.
Proof.
  intros m net d d' k x. unfold download_data. assert (PO : forall c m', m' <> m -> put d m c m' = d m') by (intros c [] N; unfold put; destruct m; cbn; congruence).
  assert (PS : forall c, put d m c m = Some c) by (intro c; unfold put; destruct m; reflexivity).
  destruct (d m) as [c|] eqn:Dm; [intro E; injection E as <- <- <-; rewrite Dm; auto|].
  destruct net as [r|]; [|intro E; injection E as <- <- <-; rewrite Dm; auto].
  destruct (length_header r) as [tot|] eqn:Hr; [|intro E; injection E as <- <- <-; rewrite Dm; split; [auto|]; split; [auto|]; split; [auto|congruence]].
  destruct (receive tot [] (pieces r)) as [c y] eqn:E. intro E2. injection E2 as <- <- <-. split; [apply PO|]. split; [reflexivity|]. split; [discriminate|].
  intros _. exists c. rewrite PS. split; [reflexivity|]. destruct (receive_spec tot [] (pieces r) c y E) as [S1 S2]. cbn [app] in *. split; [exact S2|]. split; [exact S1|].
  intros n Hn Nz W. injection Hn as ->. clear S1 S2 Hr. revert E. generalize (@nil Z) as w. induction W as [|p ps (b & ->) W IH]; intros w; cbn [receive]; [congruence|].
  destruct b as [|z b]; [apply IH|]. replace (n =? 0) with false by lia. apply IH.
Qed.
Print Assumptions C93_download.

(** Over every history of objects made, downloads and trainings: a file once there is never written again, and only
    requests for a missing file are made. *)
Theorem C93_kept : forall t cs w m c, wdisk w m = Some c -> wdisk (run t w cs) m = Some c.
Proof.
  intros t cs. induction cs as [|x cs IH]; intros w m c H; [exact H|]. apply IH.
  assert (D : forall m' net d, d m = Some c -> fst (fst (download_data m' net d)) m = Some c).
  { intros m' net d E. destruct (download_data m' net d) as [[d' k] y] eqn:F. pose proof (C93_download _ _ _ _ _ _ F) as (O & X). cbn [fst].
    assert (ED : {m = m'} + {m <> m'}) by decide equality. destruct ED as [<-|N]; [rewrite E in X; tauto|rewrite (O m N); exact E]. }
  destruct x as [n b om s net|k net|k src]; cbn [step].
  - unfold lal_new. destruct (negb _); [exact H|]. destruct (negb b); [exact H|]. destruct om as [m'|]; [|exact H]. destruct s; [|exact H].
    pose proof (D m' net (wdisk w) H) as X. destruct (download_data m' net (wdisk w)) as [[d' r] [u|e]]; [|exact X].
    destruct (train_selector t Default d' _) as [o' [u'|e]]; exact X.
  - destruct (nth_error (objects w) k) as [o|]; [|exact H]. pose proof (D (lmode o) net (wdisk w) H) as X. destruct (download_data (lmode o) net (wdisk w)) as [[d' r] y]. exact X.
  - destruct (nth_error (objects w) k) as [o|]; exact H.
Qed.
Print Assumptions C93_kept.

Theorem C93_requests : forall t cs w, (forall m, wdisk w m <> None) -> requests (run t w cs) = requests w.
Proof.
  intros t cs. induction cs as [|x cs IH]; intros w H; [reflexivity|]. change (run t w (x :: cs)) with (run t (step t w x) cs). rewrite IH.
  - assert (D : forall m net d, d m <> None -> snd (fst (download_data m net d)) = 0%nat) by (intros m net d E; unfold download_data; destruct (d m); [reflexivity|congruence]).
    destruct x as [n b om s net|k net|k src]; cbn [step].
    + unfold lal_new. destruct (negb _); [apply Nat.add_0_r|]. destruct (negb b); [apply Nat.add_0_r|]. destruct om as [m'|]; [|apply Nat.add_0_r]. destruct s; [|apply Nat.add_0_r].
      pose proof (D m' net (wdisk w) (H m')) as X. destruct (download_data m' net (wdisk w)) as [[d' r] [u|e]]; cbn in X; subst r; [|apply Nat.add_0_r].
      destruct (train_selector t Default d' _) as [o' [u'|e]]; apply Nat.add_0_r.
    + destruct (nth_error (objects w) k) as [o|]; [|reflexivity]. pose proof (D (lmode o) net (wdisk w) (H _)) as X. destruct (download_data (lmode o) net (wdisk w)) as [[d' r] y]. cbn in X. subst r. apply Nat.add_0_r.
    + destruct (nth_error (objects w) k) as [o|]; reflexivity.
  - intro m. destruct (wdisk w m) as [c|] eqn:E; [|destruct (H m E)]. rewrite (C93_kept t [x] w m c E : wdisk (step t w x) m = Some c). discriminate.
Qed.
Print Assumptions C93_requests.

(** Making an object with [train_slt]: after a failure nothing is made; a file already there is trained from. *)
Theorem C93_new : forall t n b m s net d d' k x, lal_new t n b m s net d = (d', k, x) ->
  match x with
  | Ok o => n = 2%nat /\ b = true /\ m = Some (lmode o) /\
            (if s then exists c data, d' (lmode o) = Some c /\ load t c = Ok data /\ selector o = Some (fit_regressor t data)
             else selector o = None /\ d' = d /\ k = 0%nat)
  | Err e => (n <> 2%nat \/ b = false -> e = ValueErr /\ d' = d /\ k = 0%nat) /\
             (n = 2%nat -> b = true -> m = None -> e = AssertErr /\ d' = d /\ k = 0%nat) /\
             (n = 2%nat -> b = true -> forall m', m = Some m' -> s = true /\
                forall c, d m' = Some c -> d' = d /\ k = 0%nat /\ load t c = Err e)
  end.
Proof.
  intros t n b m s net d d' k x. unfold lal_new. destruct (Nat.eqb_spec n 2) as [Hn|Hn]; cbn [negb].
  2:{ intro E. injection E as <- <- <-. split; [auto|]. split; intros; contradiction. }
  destruct b; cbn [negb]; [|intro E; injection E as <- <- <-; split; [auto|split; intros; discriminate]].
  destruct m as [m|]; [|intro E; injection E as <- <- <-; split; [intros [?|?]; [contradiction|discriminate]|split; [auto|intros; discriminate]]].
  destruct s; [|intro E; injection E as <- <- <-; cbn; auto 10].
  destruct (download_data m net d) as [[d1 k1] [u|e]] eqn:D.
  - destruct (train_selector t Default d1 {| lmode := m; selector := None |}) as [o' y] eqn:T. unfold train_selector in T. cbn [lmode] in T.
    destruct (d1 m) as [c|] eqn:Dm.
    + destruct (load t c) as [dat|e] eqn:Lc; injection T as <- <-; intro E; injection E as <- <- <-.
      * cbn [lmode selector]. split; [auto|]. split; [auto|]. split; [auto|]. exists c, dat. auto.
      * split; [intros [?|?]; [contradiction|discriminate]|]. split; [discriminate|]. intros _ _ m' Em. injection Em as <-. split; [reflexivity|].
        intros c' Ec. pose proof (C93_download _ _ _ _ _ _ D) as (_ & X). rewrite Ec in X. destruct X as (X & -> & _). rewrite Dm in X. injection X as <-.
        unfold download_data in D. rewrite Ec in D. injection D as <- _. auto.
    + injection T as <- <-. intro E. injection E as <- <- <-. split; [intros [?|?]; [contradiction|discriminate]|]. split; [discriminate|]. intros _ _ m' Em. injection Em as <-. split; [reflexivity|].
      intros c' Ec. pose proof (C93_download _ _ _ _ _ _ D) as (_ & X). rewrite Ec in X. destruct X as (X & _). congruence.
  - intro E. injection E as <- <- <-. split; [intros [?|?]; [contradiction|discriminate]|]. split; [discriminate|]. intros _ _ m' Em. injection Em as <-. split; [reflexivity|].
    intros c' Ec. unfold download_data in D. rewrite Ec in D. discriminate.
Qed.
Print Assumptions C93_new.

(** Training: a failure leaves the selector as it was; success replaces it. *)
Theorem C93_train : forall t src d o o' x, train_selector t src d o = (o', x) ->
  lmode o' = lmode o /\
  match x with
  | Err e => o' = o /\ (src = Directory -> e = ValueErr)
  | Ok _ => exists c data, (src = Given (Some c) \/ src = Default /\ d (lmode o) = Some c) /\ load t c = Ok data /\ selector o' = Some (fit_regressor t data)
  end.
Proof.
  intros t src d o o' x. unfold train_selector.
  assert (G : forall c, (src = Given (Some c) \/ src = Default /\ d (lmode o) = Some c) ->
    match load t c with Err e => (o, Err e) | Ok data => ({| lmode := lmode o; selector := Some (fit_regressor t data) |}, Ok tt) end = (o', x) ->
    lmode o' = lmode o /\ match x with Err e => o' = o /\ (src = Directory -> e = ValueErr)
      | Ok _ => exists c data, (src = Given (Some c) \/ src = Default /\ d (lmode o) = Some c) /\ load t c = Ok data /\ selector o' = Some (fit_regressor t data) end).
  { intros c Hc. destruct (load t c) as [dat|e] eqn:E; intro X; injection X as <- <-; cbn; [split; [reflexivity|]; exists c, dat; auto|]. split; [reflexivity|]. split; [reflexivity|]. destruct Hc as [->|[-> _]]; discriminate. }
  destruct src as [| |[c|]].
  - destruct (d (lmode o)) as [c|] eqn:E; [apply G; auto|]. intro X. injection X as <- <-. split; [reflexivity|]. split; [reflexivity|discriminate].
  - intro X. injection X as <- <-. auto.
  - apply G. auto.
  - intro X. injection X as <- <-. split; [reflexivity|]. split; [reflexivity|discriminate].
Qed.
Print Assumptions C93_train.

(** Refuted: "the data file is downloaded if no accepted file is found". A download that breaks off anywhere, or a process
    that ends during it, leaves a file with what had arrived; after any further history, making an object of that mode
    loads those bytes, makes no request and, when they cannot be loaded, fails. *)
Theorem C93_interrupted_refuted : forall t m r d h ps1 p ps2 cs net2,
  d m = None -> length_header r = Some h -> pieces r = ps1 ++ p :: ps2 -> whole ps1 -> (p = Broken \/ exists k, p = Killed k) ->
  exists c, (exists j, c = firstn j (delivered ps1)) /\
    forall e, load t c = Err e ->
    let w1 := step t {| wdisk := d; objects := []; requests := 0 |} (CNew 2 true (Some m) true (Some r)) in
    objects w1 = [] /\ lal_new t 2 true (Some m) true net2 (wdisk (run t w1 cs)) = (wdisk (run t w1 cs), 0%nat, Err e).
Proof.
  intros t m r d h ps1 p ps2 cs net2 Dm Hr Hp W Hb.
  destruct (download_data m (Some r) d) as [[d' k] x] eqn:D. pose proof (C93_download _ _ _ _ _ _ D) as (_ & X). rewrite Dm in X. destruct X as (-> & _ & X).
  destruct X as (c & Dc & (j & Hj) & Xok & _); [congruence|]. assert (DE : delivered (pieces r) = delivered ps1).
  { rewrite Hp. clear - W Hb. induction W as [|q ps (b & ->) W IH]; cbn [app delivered]; [destruct Hb as [->|(k & ->)]; reflexivity|now rewrite IH]. }
  rewrite DE in Hj. exists c. split; [exists j; exact Hj|]. intros e Le. cbn zeta.
  assert (XE : exists e0, x = Err e0).
  { destruct x as [[]|e0]; [|eauto]. destruct (Xok eq_refl) as [Wh _]. rewrite Hp in Wh. unfold whole in Wh. apply Forall_app in Wh. destruct Wh as [_ Wh]. inversion Wh as [|? ? (b & Eb) _]. destruct Hb as [->|(k & ->)]; discriminate. }
  destruct XE as [e0 ->].
  set (w1 := step t _ _). assert (W1 : objects w1 = [] /\ wdisk w1 m = Some c).
  { unfold w1. cbn [step]. unfold lal_new. cbn [Nat.eqb negb wdisk objects requests]. rewrite D. cbn. auto. }
  split; [apply W1|]. pose proof (C93_kept t cs w1 m c (proj2 W1)) as K. generalize dependent (wdisk (run t w1 cs)). intros dd K.
  unfold lal_new. cbn [Nat.eqb negb]. unfold download_data. rewrite K. unfold train_selector. cbn [lmode]. rewrite K, Le. reflexivity.
Qed.
Print Assumptions C93_interrupted_refuted.

(** Refuted: "a complete download is checked": what is announced is not compared with what arrives. *)
Theorem C93_length_refuted : forall m d n ps, d m = None -> n <> 0 -> whole ps ->
  snd (download_data m (Some {| length_header := Some (Some n); pieces := ps |}) d) = Ok tt.
Proof.
  intros m d n ps Dm Nz W. destruct (download_data m _ d) as [[d' k] x] eqn:D. pose proof (C93_download _ _ _ _ _ _ D) as (_ & X). rewrite Dm in X. destruct X as (_ & _ & X).
  destruct X as (c & _ & _ & _ & X); [discriminate|]. exact (X n eq_refl Nz W).
Qed.
Print Assumptions C93_length_refuted.

(** The hypotheses can be met: a forest of two trees, three unlabelled instances; a broken download. *)
Definition ex_forest : forest := {| trees := [(fun i => inject_Z i); (fun i => inject_Z (2 * i))]; oob := 1#2; importances := [1#3; 2#3]%Q; depths := [2; 4]%Q |}.
Definition ex_data : data := {| n_rows := 4; n_dim := 2; label := (fun i => if i =? 0 then 1 else 0)%Q; fit_forest := fun _ => Ok ex_forest; std := fun _ => 0%Q |}.
Definition ex_trainer : trainer := {| load := fun c => if (length c =? 3)%nat then Ok ([], []) else Err ValueErr; fit_regressor := fun _ row => nth 0 row 0%Q |}.
Definition ex_response : response := {| length_header := Some (Some 3); pieces := [Chunk [7]; Killed 1; Chunk [8]] |}.
Definition ex_empty : disk := fun _ => None.
Example C93_witness :
  (exists reg, let o := {| lmode := Iterative; selector := Some reg |} in
     numpy_ok (np0 (fun _ => 0%Q)) /\ 0 < 1 < Z.of_nat (length [1; 3; 2]) /\ (forall i, In i ([0] ++ [1; 3; 2]) -> - n_rows ex_data <= i < n_rows ex_data) /\
     lal_select (np0 (fun _ => 0%Q)) ex_data o [0] [1; 3; 2] 1 = Ok [3] /\
     Forall2 (Forall2 Qeq) (lal_features ex_data ex_forest [0] [1; 3]) [[3#2; 0; 1; 1#2; 0; 0; 3; 1]; [9#2; 0; 1; 1#2; 0; 0; 3; 1]]%Q) /\
  (whole [Chunk [7]] /\ pieces ex_response = [Chunk [7]] ++ Killed 1 :: [Chunk [8]] /\
   (let w := step ex_trainer {| wdisk := ex_empty; objects := []; requests := 0 |} (CNew 2 true (Some Iterative) true (Some ex_response)) in
    wdisk w Iterative = Some [7] /\ wdisk w Independent = None /\ objects w = [] /\ requests w = 1%nat) /\
   load ex_trainer [7] = Err ValueErr) /\
  (exists o, snd (lal_new ex_trainer 2 true (Some Independent) true (Some {| length_header := Some (Some 9); pieces := [Chunk [7; 8]; Chunk []; Chunk [9]] |}) ex_empty) = Ok o /\ selector o <> None).
Proof.
  split; [|split].
  - exists (fun row => nth 0 row 0%Q). cbn zeta. split; [apply np0_ok|]. split; [cbn; lia|]. split; [cbn; intuition lia|]. split; [reflexivity|repeat constructor].
  - split; [repeat constructor; eauto|]. split; [reflexivity|]. split; [|reflexivity]. cbn. auto.
  - eexists. split; [reflexivity|discriminate].
Qed.
