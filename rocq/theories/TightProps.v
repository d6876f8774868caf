(** C21: which exception a multi-label oracle raises when it is asked by example. *)
From Verif Require Import Base BaseFacts IndexModel MLModel OracleModel OracleSpec OracleProofs OracleProofs2.
From Coq Require Import String QArith.
Local Open Scope Z_scope.

(** Built without examples it says so, whatever was taught since. Built with them it raises a TypeError, except that a first label
    outside the label set is noticed before, if all the vectors are known. *)
Theorem C21_multilabel_errors : forall A labels examples indexes cost (o : moracle A) h qs,
  mo_init labels examples indexes cost = Ok o ->
  (examples = None -> mo_query_ex (mo_run o h) qs = Err GenericErr) /\
  (examples <> None -> mo_query_ex (mo_run o h) qs = Err TypeErr \/ mo_query_ex (mo_run o h) qs = Err AssertErr) /\
  (mo_query_ex (mo_run o h) qs = Err AssertErr -> exists x j qs', qs = (x, Some (inl j)) :: qs' /\ ~ 0 <= j < Z.of_nat (mo_m o)).
Proof.
  intros A labels examples indexes cost o h qs H.
  destruct (mo_history labels examples indexes cost o h H) as (M & I & _).
  unfold mo_query_ex. rewrite I, M.
  set (f := fun x : list Z * option (Z + list Z) => match mexa_get (fst x) (mo_exa (mo_run o h)) with Some _ => Ok x | None => Err TypeErr end).
  assert (F : forall l r, mapM f l = Ok r -> r = l).
  { induction l as [|x l IH]; intros r E; cbn [mapM] in E; [now injection E as <-|]. unfold f in E at 1. destruct (mexa_get _ _); [|discriminate].
    cbn [bind] in E. destruct (mapM f l) as [r'|]; [|discriminate]. cbn [bind] in E. injection E as <-. now rewrite (IH r' eq_refl). }
  assert (G : forall l e, mapM f l = Err e -> e = TypeErr).
  { induction l as [|x l IH]; intros e E; cbn [mapM] in E; [discriminate|]. unfold f in E at 1. destruct (mexa_get _ _); cbn [bind] in E; [|congruence].
    destruct (mapM f l) as [r'|]; cbn [bind] in E; [discriminate|]. injection E as <-. auto. }
  destruct examples as [xs|]; cbn [is_some negb].
  - split; [discriminate|]. destruct (mapM f qs) as [r|e] eqn:E; cbn [bind].
    + apply F in E. subst r. destruct qs as [|[x [[j|js]|]] qs']; try (split; [auto|discriminate]).
      cbv beta iota. destruct (Z.leb_spec 0 j), (Z.ltb_spec j (Z.of_nat (mo_m o))); cbn [andb]; (split; [intros _; first [now left|now right]|]); try (intro Y; discriminate Y); intros _; exists x, j, qs'; (split; [reflexivity|lia]).
    + apply G in E. subst e. split; [auto|discriminate].
  - split; [auto|]. split; [congruence|discriminate].
Qed.
Print Assumptions C21_multilabel_errors.

Example C21_multilabel_errors_example :
  exists o : moracle Z, mo_init [[1; 0]; [0; 1]] (Some [[3; 4]; [5; 6]]) None MCNone = Ok o /\
    mo_query_ex o [([3; 4], Some (inl 1))] = Err TypeErr /\ mo_query_ex o [([3; 4], Some (inl 2))] = Err AssertErr /\
    mo_query_ex o [([7; 7], Some (inl 2))] = Err TypeErr.
Proof. eexists. repeat split; vm_compute; reflexivity. Qed.
