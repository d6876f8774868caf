(** Proofs about the heap of a toolbox program. *)
From Verif Require Import Base BaseFacts IndexModel IndexSpec MLModel MLSpec OracleModel SplitModel ToolModel ToolSpec.
From Coq Require Import String QArith.
Local Open Scope Z_scope.

(** ** put *)
Lemma put_length {A} n (x : A) l : List.length (put n x l) = List.length l.
Proof. revert n. induction l as [|y l IH]; destruct n; cbn; auto. Qed.
Lemma put_same {A} n (x : A) l : (n < List.length l)%nat -> nth_error (put n x l) n = Some x.
Proof. revert n. induction l as [|y l IH]; destruct n; cbn; intro H; try lia; auto. apply IH. lia. Qed.
Lemma put_other {A} n m (x : A) l : n <> m -> nth_error (put n x l) m = nth_error l m.
Proof. revert n m. induction l as [|y l IH]; destruct n, m; cbn; intro H; auto; try congruence. Qed.
Lemma put_nth_other {A} n m (x d : A) l : n <> m -> nth m (put n x l) d = nth m l d.
Proof. intro H. rewrite <- !nth_default_eq. unfold nth_default. now rewrite put_other. Qed.
Lemma put_nth_same {A} n (x d : A) l : (n < List.length l)%nat -> nth n (put n x l) d = x.
Proof. intro H. rewrite <- !nth_default_eq. unfold nth_default. now rewrite put_same. Qed.
Lemma put_in {A} n (x y : A) l : In y (put n x l) -> y = x \/ In y l.
Proof.
  revert n. induction l as [|z l IH]; destruct n; cbn; auto; intros [H|H]; auto.
  destruct (IH n H); auto.
Qed.

(** ** Valid references *)
Definition vbuf (v : vobj) : nat := match v with VList b => b | VView b _ _ => b end.
Definition valid_v (h : heap) (v : vobj) : Prop := (vbuf v < List.length (h_buf h))%nat.
Definition valid_out (h : heap) (o : nat) : Prop := (o < List.length (h_out h))%nat /\ Forall (valid_v h) (out_at h o).
Definition valid_quad (h : heap) (q : quad nat) : Prop :=
  valid_out h (q_train q) /\ valid_out h (q_test q) /\ valid_out h (q_label q) /\ valid_out h (q_unlabel q).
Definition valid_box (h : heap) (b : live) : Prop := forall q, b_split b = Some q -> valid_quad h q.

Lemma grown_refl h : grown h h.
Proof. repeat split; exists []; now rewrite app_nil_r. Qed.
Lemma grown_trans h1 h2 h3 : grown h1 h2 -> grown h2 h3 -> grown h1 h3.
Proof.
  intros ((a & A) & (b & B) & (c & C)) ((a' & A') & (b' & B') & (c' & C')).
  repeat split; eexists; [rewrite A', A|rewrite B', B|rewrite C', C]; now rewrite <- app_assoc.
Qed.
Lemma grown_lengths h h' : grown h h' ->
  (List.length (h_buf h) <= List.length (h_buf h') /\ List.length (h_out h) <= List.length (h_out h') /\
   List.length (h_coll h) <= List.length (h_coll h'))%nat.
Proof. intros ((a & A) & (b & B) & (c & C)). rewrite A, B, C, !app_length. lia. Qed.
Lemma grown_buf h h' b : grown h h' -> (b < List.length (h_buf h))%nat -> buf_at h' b = buf_at h b.
Proof. intros ((a & A) & _) H. unfold buf_at. rewrite A. now apply app_nth1. Qed.
Lemma grown_read h h' v : grown h h' -> valid_v h v -> read h' v = read h v.
Proof. intros G V. destruct v; cbn [read]; rewrite (grown_buf h h'); auto. Qed.
Lemma grown_out h h' o : grown h h' -> (o < List.length (h_out h))%nat -> out_at h' o = out_at h o.
Proof. intros (_ & (a & A) & _) H. unfold out_at. rewrite A. now apply app_nth1. Qed.
Lemma grown_read_out h h' o : grown h h' -> valid_out h o -> read_out h' o = read_out h o.
Proof.
  intros G [H V]. unfold read_out. rewrite (grown_out h h'); auto. apply map_ext_in. intros v I.
  rewrite Forall_forall in V. now apply grown_read, V.
Qed.
Lemma grown_valid_v h h' v : grown h h' -> valid_v h v -> valid_v h' v.
Proof. intros G V. unfold valid_v in *. pose proof (grown_lengths h h' G). lia. Qed.
Lemma grown_valid_out h h' o : grown h h' -> valid_out h o -> valid_out h' o.
Proof.
  intros G [H V]. split; [pose proof (grown_lengths h h' G); lia|]. rewrite (grown_out h h'); auto.
  eapply Forall_impl; [|exact V]. intros; eapply grown_valid_v; eauto.
Qed.
Lemma grown_valid_quad h h' q : grown h h' -> valid_quad h q -> valid_quad h' q.
Proof. intros G (A & B & C & D). repeat split; eapply grown_valid_out; eauto. Qed.
Lemma grown_valid_box h h' b : grown h h' -> valid_box h b -> valid_box h' b.
Proof. intros G V q E. eapply grown_valid_quad; eauto. Qed.
Lemma grown_contents h h' b : grown h h' -> valid_box h b -> contents h' b = contents h b.
Proof.
  intros G V. unfold contents. destruct (b_split b) as [q|] eqn:E; auto. destruct (V q E) as (A & B & C & D).
  now rewrite !(grown_read_out h h').
Qed.

(** ** Allocation *)
Lemma new_bufs_grown h ls : grown h (fst (new_bufs h ls)).
Proof. repeat split; cbn; eexists; try reflexivity; now rewrite app_nil_r. Qed.
Lemma new_out_grown h vs : grown h (fst (new_out h vs)).
Proof. repeat split; cbn; eexists; try reflexivity; now rewrite app_nil_r. Qed.
Lemma new_coll_grown h c : grown h (fst (new_coll h c)).
Proof. repeat split; cbn; eexists; try reflexivity; now rewrite app_nil_r. Qed.
Lemma new_bufs_read h ls : map (read (fst (new_bufs h ls))) (snd (new_bufs h ls)) = ls.
Proof.
  cbn. rewrite map_map. cbn [read]. unfold buf_at. cbn [h_buf].
  transitivity (map (fun i => nth i ls []) (seq 0 (List.length ls))).
  - replace (seq (List.length (h_buf h)) (List.length ls)) with (map (fun i => (List.length (h_buf h) + i)%nat) (seq 0 (List.length ls))).
    + rewrite map_map. apply map_ext. intro i. rewrite app_nth2 by lia. f_equal. lia.
    + clear. generalize (List.length (h_buf h)). intro n. generalize (List.length ls). intro k.
      revert n. induction k as [|k IH]; intro n; cbn; auto. f_equal; [lia|]. rewrite <- seq_shift, map_map. rewrite <- (IH (S n)).
      apply map_ext. intro. lia.
  - clear. induction ls as [|l ls IH]; cbn; auto. f_equal. rewrite <- seq_shift, map_map. exact IH.
Qed.
Lemma new_bufs_fresh h ls v : In v (snd (new_bufs h ls)) -> (List.length (h_buf h) <= vbuf v)%nat /\ valid_v (fst (new_bufs h ls)) v.
Proof.
  cbn. intro I. apply in_map_iff in I. destruct I as (i & <- & I). apply in_seq in I. unfold valid_v. cbn. rewrite app_length. lia.
Qed.

(** A new outer list of new lists. *)
Lemma new_lists_spec h ls h' o : new_lists h ls = (h', o) ->
  grown h h' /\ o = List.length (h_out h) /\ valid_out h' o /\ read_out h' o = ls /\
  (forall v, In v (out_at h' o) -> (List.length (h_buf h) <= vbuf v)%nat).
Proof.
  unfold new_lists. intro E. pose proof (new_bufs_grown h ls) as G1. pose proof (new_bufs_read h ls) as R. pose proof (new_bufs_fresh h ls) as F.
  destruct (new_bufs h ls) as [h1 vs] eqn:E1. cbn [fst snd] in *. pose proof (new_out_grown h1 vs) as G2.
  unfold new_out in *. injection E as <- <-. cbn [fst] in G2.
  assert (EO : h_out h1 = h_out h) by (unfold new_bufs in E1; injection E1 as <- <-; reflexivity).
  set (h2 := {| h_buf := h_buf h1; h_out := h_out h1 ++ [vs]; h_coll := h_coll h1 |}) in *.
  assert (OA : out_at h2 (List.length (h_out h1)) = vs) by (unfold out_at, h2; cbn; rewrite app_nth2, Nat.sub_diag; auto; lia).
  split; [eapply grown_trans; eauto|]. split; [now rewrite EO|].
  split; [split; [unfold h2; cbn; rewrite app_length; cbn; lia|]|split].
  - rewrite OA. apply Forall_forall. intros v I. apply F in I. eapply grown_valid_v; [exact G2|apply I].
  - unfold read_out. rewrite OA. etransitivity; [|exact R]. apply map_ext_in. intros v I. apply grown_read; auto. now apply F.
  - rewrite OA. intros v I. now apply F.
Qed.

(** Everything of a quadruple is new. *)
Definition quad_fresh (h h' : heap) (q : quad nat) : Prop :=
  forall o, o = q_train q \/ o = q_test q \/ o = q_label q \/ o = q_unlabel q ->
  (List.length (h_out h) <= o)%nat /\ forall v, In v (out_at h' o) -> (List.length (h_buf h) <= vbuf v)%nat.
Lemma new_quad_spec h c h' q : new_quad h c = (h', q) ->
  grown h h' /\ valid_quad h' q /\ quad_fresh h h' q /\
  read_out h' (q_train q) = q_train c /\ read_out h' (q_test q) = q_test c /\
  read_out h' (q_label q) = q_label c /\ read_out h' (q_unlabel q) = q_unlabel c.
Proof.
  unfold new_quad. intro E.
  destruct (new_lists h (q_train c)) as [h1 a] eqn:E1. destruct (new_lists h1 (q_test c)) as [h2 b] eqn:E2.
  destruct (new_lists h2 (q_label c)) as [h3 l] eqn:E3. destruct (new_lists h3 (q_unlabel c)) as [h4 u] eqn:E4.
  injection E as <- <-. apply new_lists_spec in E1, E2, E3, E4.
  destruct E1 as (G1 & A1 & V1 & R1 & F1), E2 as (G2 & A2 & V2 & R2 & F2), E3 as (G3 & A3 & V3 & R3 & F3), E4 as (G4 & A4 & V4 & R4 & F4).
  assert (G34 := G4). assert (G24 : grown h2 h4) by (eapply grown_trans; eauto). assert (G14 : grown h1 h4) by (eapply grown_trans; eauto).
  pose proof (grown_lengths _ _ G1). pose proof (grown_lengths _ _ G2). pose proof (grown_lengths _ _ G3).
  split; [eapply grown_trans; eauto|]. cbn [q_train q_test q_label q_unlabel].
  split; [repeat split; try apply V4; [apply (grown_valid_out h1 h4)|apply (grown_valid_out h1 h4)|apply (grown_valid_out h2 h4)|apply (grown_valid_out h2 h4)|apply (grown_valid_out h3 h4)|apply (grown_valid_out h3 h4)]; auto|].
  split.
  { intros o [->|[->|[->| ->]]]; cbn [q_train q_test q_label q_unlabel].
    - split; [lia|]. rewrite (grown_out h1 h4) by (auto; apply V1). exact F1.
    - split; [lia|]. rewrite (grown_out h2 h4) by (auto; apply V2). intros v I. apply F2 in I. lia.
    - split; [lia|]. rewrite (grown_out h3 h4) by (auto; apply V3). intros v I. apply F3 in I. lia.
    - split; [lia|]. intros v I. apply F4 in I. lia. }
  rewrite (grown_read_out h1 h4), (grown_read_out h2 h4), (grown_read_out h3 h4); auto.
Qed.
