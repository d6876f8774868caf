(** C58, continued: what the curves against the cost are not drawn for. *)
From Verif Require Import Base BaseFacts StateModel MiscModel MiscSpec FeatureModel AnalyserModel AnalyserSpec AnalyserProps.
From Coq Require Import String QArith.
Local Open Scope Z_scope.

Lemma mapM_each {A B} (f : A -> res B) l r x : mapM f l = Ok r -> In x l -> exists y, f x = Ok y.
Proof.
  revert r. induction l as [|a l IH]; intros r H []; cbn in H; destruct (f a) as [b|] eqn:E; try discriminate; cbn in H.
  - subst. eauto.
  - destruct (mapM f l) as [bs|]; [|discriminate]. eapply IH; eauto.
Qed.

(** A query whose cost is neither a number nor a list of numbers, or whose performance is not one number. *)
Definition unfit (c p : aval) : Prop :=
  (exists o, c = AObj o) \/ ((forall q, p <> AVal (Num q)) /\ (forall q, p <> ASeq [Num q])).

(** One such query of one method, and no curves are drawn for any method. *)
Theorem C58_unfit : forall interp a shift start interval n m f c p rest,
  In (n, DPairs m) (an_data a) -> In f m -> In (c :: p :: rest) f -> unfit c p ->
  forall cs, cost_plot interp a shift start interval <> Ok cs.
Proof.
  intros interp a shift start interval n m f c p rest I If It U cs H. unfold cost_plot in H.
  destruct (mapM _ (an_data a)) as [data|] eqn:E; [|discriminate]. clear H.
  destruct (mapM_each _ _ _ _ E I) as [y Y]. cbn [snd fst] in Y. destruct (cost_fold (DPairs m)) as [g|] eqn:G; [|discriminate]. clear Y E.
  unfold cost_fold in G. destruct (mapM_each _ _ _ _ G If) as [h Hh]. clear G. destruct (mapM_each _ _ _ _ Hh It) as [z Z]. clear Hh. cbn in Z.
  destruct (aval_nums c) as [cq|] eqn:C; [|discriminate]. cbn in Z. destruct (aval_nums p) as [pq|] eqn:P; [|discriminate]. cbn in Z.
  destruct (one_num pq) as [q|] eqn:O; [|discriminate].
  destruct U as [[o ->]|[N1 N2]]; [discriminate|].
  unfold one_num in O. destruct pq as [|q' [|]]; try discriminate. injection O as ->.
  destruct p as [x|l|o]; cbn in P; [| |discriminate].
  - destruct x as [q'| |]; cbn in P; try discriminate. eapply N1; eauto.
  - destruct l as [|x l]; [discriminate|]. cbn in P. destruct x as [q'| |]; cbn in P; try discriminate.
    destruct l as [|x l]; [eapply N2; eauto|]. cbn in P. destruct (fin x); [|discriminate]. cbn in P. destruct (mapM fin l); discriminate.
Qed.
Print Assumptions C58_unfit.
(** Two performances for one query; an object for a cost; with one performance and a cost the curve is drawn. *)
Example C58_unfit_case : forall interp,
  let a d := {| an_data := [("m"%string, DPairs [[d]])]; an_sum := []; an_all := Some false |} in
  unfit (AVal (Num 1)) (ASeq [Num 1; Num 1]) /\ unfit (AObj 0) (AVal (Num 1)) /\ ~ unfit (AVal (Num 1)) (AVal (Num 1)) /\
  exists cs, cost_plot interp (a [AVal (Num 1); AVal (Num 1)]) 0 None (Some 1%Q) = Ok cs.
Proof.
  intros interp a. split; [right; split; discriminate|]. split; [left; eauto|]. split.
  - intros [[o H]|[H _]]; [discriminate|]. now apply (H 1%Q).
  - eexists. vm_compute. reflexivity.
Qed.
