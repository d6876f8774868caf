(** C47, continued: the selections from data and labels, where the model is trained inside. *)
From Verif Require Import Base BaseFacts IndexModel MLModel MiscModel QueryModel QuerySpec QueryProofs QueryProps BlindModel.
From Coq Require Import QArith.
Local Open Scope Z_scope.

(** Whatever the data, the labels and the model: a batch size that is not positive is refused, and a pool no larger than the batch
    is returned as it is; for uncertainty sampling, the query by committee and expected error reduction. *)
Theorem C47_batches : forall F M np (k : learner F M) X y m kl cols logloss given L U batch,
  (batch <= 0 -> uncertainty_select np k X y m given L U batch = Err AssertErr /\
     committee_select np k X y kl cols given L U batch = Err AssertErr /\
     reduction_select np k X y logloss given L U batch = Err AssertErr) /\
  (0 < batch -> Z.of_nat (length U) <= batch -> uncertainty_select np k X y m given L U batch = Ok U /\
     committee_select np k X y kl cols given L U batch = Ok U /\
     reduction_select np k X y logloss given L U batch = Ok U).
Proof.
  intros F M np k X y m kl cols logloss given L U batch. unfold uncertainty_select, committee_select, reduction_select, guard. split.
  - intro B. destruct (Z.ltb_spec 0 batch); [lia|]. auto.
  - intros B C. destruct (Z.ltb_spec 0 batch); [|lia]. cbn [bind]. destruct (Z.leb_spec (Z.of_nat (length U)) batch); [auto|lia].
Qed.
Print Assumptions C47_batches.

(** Otherwise uncertainty sampling takes the most uncertain instances of the pool by what the model says of them: the model given,
    or else the one fitted to the labelled instances and their labels. *)
Theorem C47_select : forall F M np (k : learner F M) X y m given L U batch mo ux cols rs,
  numpy_ok np -> m <> Boundary -> (2 <= cols)%nat -> 0 < batch < Z.of_nat (length U) ->
  match given with
  | Some g => mo = g
  | None => exists xs ys, rows X L = Ok xs /\ rows y L = Ok ys /\ fit k xs ys = Ok mo
  end ->
  rows X U = Ok ux -> outputs k mo ux = Mat cols rs -> length rs = length U -> Forall (fun r => length r = cols) rs ->
  exists sel score, uncertainty_select np k X y m given L U batch = Ok sel /\
    (forall i row, nth_error rs i = Some row -> uncertain (log np) m row (score i)) /\ best_batch U score (Z.to_nat batch) sel.
Proof.
  intros F M np k X y m given L U batch mo ux cols rs NP NB C B G EU EO LR FR.
  destruct (C47_uncertainty Z np m U cols rs batch NP NB C FR LR) as (sel & E & H); [lia|].
  destruct (Z.leb_spec (Z.of_nat (length U)) batch); [lia|]. destruct H as (score & S & BB). exists sel, score. split; auto.
  unfold uncertainty_select, guard. destruct (Z.ltb_spec 0 batch); [|lia]. cbn [bind]. destruct (Z.leb_spec (Z.of_nat (length U)) batch); [lia|].
  assert (T : the_model k X y given L = Ok mo).
  { unfold the_model. destruct given as [g|]; [now subst|]. destruct G as (xs & ys & -> & E2 & E3). cbn [bind]. rewrite E2. cbn [bind]. exact E3. }
  rewrite T. cbn [bind]. rewrite EU. cbn [bind]. rewrite EO. exact E.
Qed.
Print Assumptions C47_select.
Definition a_learner : learner Q Z :=
  {| fit := fun _ ys => Ok (fold_right Z.add 0 ys); refit := fun m _ _ => Ok m; bag := fun m _ _ => Ok [m];
     outputs := fun m xs => Mat 2 (map (fun x => [x; 1 - x]%Q) xs); proba := fun _ xs => map (fun x => [x; 1 - x]%Q) xs; classify := fun m xs => map (fun _ => m) xs |}.
Example C47_select_case : exists mo xs ys ux rs,
  rows [1#2; 1#4; 1#8]%Q [0] = Ok xs /\ rows [1; 0; 1] [0] = Ok ys /\ fit a_learner xs ys = Ok mo /\
  rows [1#2; 1#4; 1#8]%Q [1; 2] = Ok ux /\ outputs a_learner mo ux = Mat 2 rs /\ length rs = 2%nat /\ Forall (fun r => length r = 2%nat) rs.
Proof. do 5 eexists. repeat (split; [reflexivity|]). repeat constructor. Qed.
