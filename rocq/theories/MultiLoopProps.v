(** Property C105: the main loop of a multi-label experiment. *)
From Verif Require Import Base BaseFacts IndexModel MLModel MLSpec MLProofs MLProofs2 MLProps StateModel StateSpec StateProofs StateProofs3 StateProps
  MultiLoopModel MultiLoopSpec MultiLoopProofs MultiLoopProofs2.
From Coq Require Import String QArith.
Local Open Scope Z_scope.

(** Whatever happens, an exception in any round included, no entry is lost, doubled, or in both collections. *)
Theorem C105_pool : forall A B M (X : list B) (y : list (list A)) m unknown
    (fit0 fit : M -> list B -> list (list A) -> res M) perf strat budget fuel t00 tr te L0 U0,
  setting X y m L0 U0 -> always (List.length y) m strat (usable (List.length y) m) ->
  let s := fst (ml_main X y m unknown fit0 fit perf strat budget fuel t00 L0 U0 (sio_new tr te L0 U0)) in
  apart (lab s) (unl s) /\ Permutation (pairs (lab s) ++ pairs (unl s)) (pairs L0 ++ pairs U0).
Proof.
  intros A B M X y m unknown fit0 fit perf strat budget fuel t00 tr te L0 U0 St HA.
  destruct (main_cases X y m unknown fit0 fit perf strat budget fuel t00 L0 U0 (sio_new tr te L0 U0) St) as (xs & mat & _ & E).
  rewrite E. destruct St as (Hy & HX & Dv). cbn zeta.
  destruct (fit0 t00 xs mat) as [t0|e]; [|cbn; destruct Dv as (_ & _ & D & _); auto].
  pose proof (inv_rounds X y m unknown fit perf strat budget Hy HX tr te L0 U0 t0 HA fuel 0 (size L0) _
                (inv_start X y m unknown fit perf strat tr te L0 U0 t0 Dv)) as I.
  destruct (ml_rounds X y m unknown fit perf strat budget fuel 0 (size L0) _) as [s1 [| |e]]; cbn [fst].
  - destruct I as (_ & _ & D & P & _). auto.
  - destruct I as (_ & _ & D & P & _). auto.
  - destruct I as (D & P & _). auto.
Qed.
Print Assumptions C105_pool.

(** Unless the loop was left by an exception, the labelled entries are the initial ones and those asked for, the unlabelled
    ones are the others, and the record is complete: the collections rebuilt from it
    have the same entries, and the total cost is the sum of the costs recorded. *)
Theorem C105_record : forall A B M (X : list B) (y : list (list A)) m unknown
    (fit0 fit : M -> list B -> list (list A) -> res M) perf strat budget fuel t00 tr te L0 U0 s o,
  setting X y m L0 U0 -> always (List.length y) m strat (usable (List.length y) m) ->
  ml_main X y m unknown fit0 fit perf strat budget fuel t00 L0 U0 (sio_new tr te L0 U0) = (s, o) ->
  (forall e, o <> Failed e) ->
  let asked := denoted_by (Z.of_nat m) (List.concat (selections (sav s))) in
  (forall p, In p (pairs (lab s)) <-> In p (pairs L0) \/ asked p) /\
  (forall p, In p (pairs (unl s)) <-> In p (pairs U0) /\ ~ asked p) /\
  (exists L U, ml_workspace (sav s) None = Ok (tr, te, L, U) /\
     Permutation (pairs L) (pairs (lab s)) /\ Permutation (pairs U) (pairs (unl s))) /\
  (s_cost (sav s) == fold_right Qplus 0 (map spent (s_states (sav s))))%Q.
Proof.
  intros A B M X y m unknown fit0 fit perf strat budget fuel t00 tr te L0 U0 s o St HA E NF. cbn zeta.
  destruct (main_cases X y m unknown fit0 fit perf strat budget fuel t00 L0 U0 (sio_new tr te L0 U0) St) as (xs & mat & _ & E').
  rewrite E in E'. destruct St as (Hy & HX & Dv). 
  destruct (fit0 t00 xs mat) as [t0|e]; [|injection E' as _ ->; now destruct (NF e)].
  pose proof (inv_rounds X y m unknown fit perf strat budget Hy HX tr te L0 U0 t0 HA fuel 0 (size L0) _
                (inv_start X y m unknown fit perf strat tr te L0 U0 t0 Dv)) as I.
  rewrite <- E' in I. assert (I' : inv X y m unknown fit tr te L0 U0 t0 s) by (destruct o as [| |e]; auto; now destruct (NF e)).
  clear I. destruct I' as (RL & RU & D & P & IL & IU & T & S1 & S2 & S3 & S4 & IE & C & N1 & N2).
  split; [exact IL|]. split; [exact IU|]. split.
  - destruct (ml_workspace_lemma (Z.of_nat m) (sav s) (Z.of_nat (List.length (s_states (sav s))))) as (L & U & W & ND1 & ND2 & H1 & H2).
    + rewrite S3. apply Dv.
    + rewrite S4. apply Dv.
    + lia.
    + rewrite Nat2Z.id, firstn_all. intros e He. now destruct (IE e He) as (K1 & K2 & K3 & _).
    + rewrite Nat2Z.id, firstn_all, S3 in H1. rewrite Nat2Z.id, firstn_all, S4 in H2. rewrite S1, S2 in W.
      exists L, U. rewrite (proj1 (C13_iteration_argument _ _ _ _ (sav s) 0)).
      split; [exact W|]. rewrite flat_map_concat_map in H1, H2. fold (selections (sav s)) in H1, H2.
      split; apply NoDup_Permutation; eauto using pairs_nodup; intro p; rewrite ?H1, ?H2, ?IL, ?IU; reflexivity.
  - rewrite C. unfold selections. clear - IE. induction (s_states (sav s)) as [|e l IH]; [reflexivity|].
    cbn [map]. unfold zsum in *. cbn [fold_right]. rewrite inject_Z_plus, IH by (intros; apply IE; now right).
    destruct (IE e (or_introl eq_refl)) as (_ & _ & _ & K). rewrite K. reflexivity.
Qed.
Print Assumptions C105_record.

(** If it was left by an exception, the record and the collections differ by one selection at most: the one
    of the round that failed, which is in the collections but not in the record. *)
Theorem C105_failed : forall A B M (X : list B) (y : list (list A)) m unknown
    (fit0 fit : M -> list B -> list (list A) -> res M) perf strat budget fuel t00 tr te L0 U0 s e,
  setting X y m L0 U0 -> always (List.length y) m strat (usable (List.length y) m) ->
  ml_main X y m unknown fit0 fit perf strat budget fuel t00 L0 U0 (sio_new tr te L0 U0) = (s, Failed e) ->
  exists l, let asked := denoted_by (Z.of_nat m) (List.concat (selections (sav s)) ++ l) in
  (forall p, In p (pairs (lab s)) <-> In p (pairs L0) \/ asked p) /\
  (forall p, In p (pairs (unl s)) <-> In p (pairs U0) /\ ~ asked p).
Proof.
  intros A B M X y m unknown fit0 fit perf strat budget fuel t00 tr te L0 U0 s e St HA E.
  destruct (main_cases X y m unknown fit0 fit perf strat budget fuel t00 L0 U0 (sio_new tr te L0 U0) St) as (xs & mat & _ & E').
  rewrite E in E'. destruct St as (Hy & HX & Dv).
  destruct (fit0 t00 xs mat) as [t0|e'].
  - pose proof (inv_rounds X y m unknown fit perf strat budget Hy HX tr te L0 U0 t0 HA fuel 0 (size L0) _
                (inv_start X y m unknown fit perf strat tr te L0 U0 t0 Dv)) as I.
    rewrite <- E' in I. destruct I as (_ & _ & s0 & _ & _ & _ & l & H). exists l. exact H.
  - injection E' as -> _. exists []. cbn.
    assert (K : forall p, denoted_by (Z.of_nat m) [] p <-> False) by (intro p; split; [intros (x & [] & _)|tauto]).
    split; intro p; rewrite K; tauto.
Qed.
Print Assumptions C105_failed.

(** The model: trained once on what the initially labelled entries reveal, then once per selection recorded, in
    their order, on what that selection alone reveals. No label that was not asked for reaches it. *)
Theorem C105_training : forall A B M (X : list B) (y : list (list A)) m unknown
    (fit0 fit : M -> list B -> list (list A) -> res M) perf strat budget fuel t00 tr te L0 U0 s o,
  setting X y m L0 U0 -> always (List.length y) m strat (usable (List.length y) m) ->
  ml_main X y m unknown fit0 fit perf strat budget fuel t00 L0 U0 (sio_new tr te L0 U0) = (s, o) ->
  exists xs mat, reveals X y m unknown (mcont L0) xs mat /\
    match fit0 t00 xs mat with
    | Err e => o = Failed e /\ mdl s = t00 /\ selections (sav s) = []
    | Ok t0 => trained X y m unknown fit t0 (selections (sav s)) (mdl s)
    end.
Proof.
  intros A B M X y m unknown fit0 fit perf strat budget fuel t00 tr te L0 U0 s o St HA E.
  destruct (main_cases X y m unknown fit0 fit perf strat budget fuel t00 L0 U0 (sio_new tr te L0 U0) St) as (xs & mat & R & E').
  exists xs, mat. split; [exact R|]. rewrite E in E'. destruct St as (Hy & HX & Dv).
  destruct (fit0 t00 xs mat) as [t0|e]; [|now injection E' as -> ->].
  pose proof (inv_rounds X y m unknown fit perf strat budget Hy HX tr te L0 U0 t0 HA fuel 0 (size L0) _
                (inv_start X y m unknown fit perf strat tr te L0 U0 t0 Dv)) as I.
  rewrite <- E' in I. destruct o as [| |e].
  - apply I.
  - apply I.
  - destruct I as (_ & _ & s0 & I & -> & -> & _). apply I.
Qed.
Print Assumptions C105_training.

(** A strategy that asks only for unlabelled entries never has an entry labelled twice. *)
Theorem C105_shown_once : forall A B M (X : list B) (y : list (list A)) m unknown
    (fit0 fit : M -> list B -> list (list A) -> res M) perf strat budget fuel t00 tr te L0 U0 s o,
  setting X y m L0 U0 -> always (List.length y) m strat (usable (List.length y) m) ->
  always (List.length y) m strat (fun _ U l => fresh m U l) ->
  ml_main X y m unknown fit0 fit perf strat budget fuel t00 L0 U0 (sio_new tr te L0 U0) = (s, o) ->
  (forall e, o <> Failed e) ->
  once m L0 (selections (sav s)).
Proof.
  intros A B M X y m unknown fit0 fit perf strat budget fuel t00 tr te L0 U0 s o St HA HF E NF.
  destruct (main_cases X y m unknown fit0 fit perf strat budget fuel t00 L0 U0 (sio_new tr te L0 U0) St) as (xs & mat & R & E').
  rewrite E in E'. destruct St as (Hy & HX & Dv).
  destruct (fit0 t00 xs mat) as [t0|e]; [|injection E' as _ ->; now destruct (NF e)].
  pose proof (rounds_once X y m unknown fit perf strat budget Hy HX tr te L0 U0 t0 HA HF fuel 0 (size L0) _
                (inv_start X y m unknown fit perf strat tr te L0 U0 t0 Dv)) as I.
  rewrite <- E' in I. destruct o as [| |e]; [| |now destruct (NF e)]; apply I; split; intros k; destruct k; discriminate.
Qed.
Print Assumptions C105_shown_once.

(** The recorded cost is the number of entries labelled, when every selection is a list of distinct pairs or
    one whole instance, unlabelled before. *)
Theorem C105_cost : forall A B M (X : list B) (y : list (list A)) m unknown
    (fit0 fit : M -> list B -> list (list A) -> res M) perf strat budget fuel t00 tr te L0 U0 s o,
  setting X y m L0 U0 -> always (List.length y) m strat (usable (List.length y) m) ->
  always (List.length y) m strat (fun _ U l => fresh m U l) ->
  always (List.length y) m strat (fun _ _ l => countable l) ->
  ml_main X y m unknown fit0 fit perf strat budget fuel t00 L0 U0 (sio_new tr te L0 U0) = (s, o) ->
  (forall e, o <> Failed e) ->
  (s_cost (sav s) == inject_Z (size (lab s) - size L0))%Q.
Proof.
  intros A B M X y m unknown fit0 fit perf strat budget fuel t00 tr te L0 U0 s o St HA HF HC E NF.
  destruct (main_cases X y m unknown fit0 fit perf strat budget fuel t00 L0 U0 (sio_new tr te L0 U0) St) as (xs & mat & R & E').
  rewrite E in E'. destruct St as (Hy & HX & Dv).
  destruct (fit0 t00 xs mat) as [t0|e]; [|injection E' as _ ->; now destruct (NF e)].
  pose proof (inv_start X y m unknown fit perf strat tr te L0 U0 t0 Dv) as I0.
  pose proof (inv_rounds X y m unknown fit perf strat budget Hy HX tr te L0 U0 t0 HA fuel 0 (size L0) _ I0) as I.
  pose proof (rounds_costs X y m unknown fit perf strat budget Hy HX tr te L0 U0 t0 HA HF HC fuel 0 (size L0) _ I0) as J.
  rewrite <- E' in I, J. cbn [lab sav selections] in J.
  assert (K : inv X y m unknown fit tr te L0 U0 t0 s /\ size (lab s) = size L0 + zsum (map (cost_of_list m) (selections (sav s)))).
  { destruct o as [| |e]; [| |now destruct (NF e)]; (split; [exact I|]); apply J; cbn; lia. }
  destruct K as [(_ & _ & _ & _ & _ & _ & _ & _ & _ & _ & _ & _ & C & _) K]. rewrite C. 
  replace (size (lab s) - size L0) with (zsum (map (cost_of_list m) (selections (sav s)))) by lia. reflexivity.
Qed.
Print Assumptions C105_cost.

(** A selection of two or more whole instances is counted as one: [k] instances with [m] unlabelled labels
    each have [k * m] entries labelled in the round, and the cost recorded for it is [m]. *)
Theorem C105_cost_refuted : forall A B M (X : list B) (y : list (list A)) m unknown
    (fit : M -> list B -> list (list A) -> res M) perf strat k (s : mstate) is s1,
  has_shape y (List.length y) m -> List.length X = List.length y -> division (List.length y) m (lab s) (unl s) ->
  (2 <= List.length is)%nat -> NoDup is ->
  (forall i, In i is -> forall j, 0 <= j < Z.of_nat m -> In (i, j) (pairs (unl s))) ->
  strat k (mdl s) (lab s) (unl s) = Ok (Picked (map IOne is)) ->
  ml_turn X y m unknown fit perf strat k s = (s1, Ok tt) ->
  size (lab s1) - size (lab s) = Z.of_nat (List.length is * m) /\
  (s_cost (sav s1) - s_cost (sav s) == inject_Z (Z.of_nat m))%Q /\
  Z.of_nat m < Z.of_nat (List.length is * m).
Proof.
  intros A B M X y m unknown fit perf strat k s is s1 Hy HX (RL & RU & D & N1 & N2) H2 ND Fr Es Et.
  assert (Mp : 0 < Z.of_nat m) by (apply reachable_good in RL; apply RL).
  assert (V : usable (List.length y) m (lab s) (unl s) (map IOne is)).
  { split; [destruct is; [cbn in H2; lia|discriminate]|]. split.
    - intros x Hx. apply in_map_iff in Hx. destruct Hx as (i & <- & Hi). split; [discriminate|]. split; [|reflexivity].
      apply (N2 (i, 0)). apply Fr; auto. lia.
    - intros p Hp. apply whole_pairs in Hp. right. destruct p. now apply Fr. }
  pose proof (turn_cases X y m unknown fit perf strat Hy HX k s RL RU D) as TC.
  rewrite Es, Et in TC. destruct TC as (l & xs & mat & t & El & _ & _ & _ & E1 & _ & _ & Ev).
  { intros l [= <-]. exact V. }
  injection El as <-. destruct (moved y m strat _ _ _ RL RU D V) as (w1 & w2 & L1 & U1 & F1 & F2 & R1 & _ & H1 & _).
  rewrite F1 in E1. cbn [fst] in E1. subst L1.
  assert (G : size (lab s1) = size (lab s) + Z.of_nat (List.length is * m)).
  { unfold size. rewrite <- Nat2Z.inj_add, <- (whole_length m is), <- app_length. f_equal. apply Permutation_length.
    assert (F : forallb (scalar_ok (Z.of_nat m)) (map IOne is) = true).
    { apply forallb_forall. intros x Hx. apply in_map_iff in Hx. now destruct Hx as (? & <- & _). }
    apply NoDup_Permutation; eauto using pairs_nodup.
    - apply NoDup_app_intro; eauto using pairs_nodup, whole_nodup. intros p P1 P2.
      apply (flat_denoted_by (Z.of_nat m) _ _ F) in P2. apply whole_pairs in P2. apply (D p P1). destruct p. now apply Fr.
    - intro p. rewrite in_app_iff, H1, (flat_denoted_by (Z.of_nat m) _ p F). reflexivity. }
  split; [lia|]. split.
  - destruct (record_facts m perf (map IOne is) t) as (P1 & P2 & P3).
    destruct (add_facts (sav s) _ P1) as (_ & A2 & _). rewrite <- Ev in A2. rewrite A2, P3.
    destruct is; [cbn in H2; lia|]. cbn [map cost_of_list len_is_1]. ring.
  - nia.
Qed.
Print Assumptions C105_cost_refuted.

(** The loop ends when every selection has an unlabelled entry: after at most [budget + 1] rounds it was left,
    by its condition or by an exception. *)
Theorem C105_ends : forall A B M (X : list B) (y : list (list A)) m unknown
    (fit0 fit : M -> list B -> list (list A) -> res M) perf strat budget fuel t00 tr te L0 U0,
  setting X y m L0 U0 -> always (List.length y) m strat (usable (List.length y) m) ->
  always (List.length y) m strat (fun _ U l => productive m U l) ->
  budget + 1 <= Z.of_nat fuel ->
  snd (ml_main X y m unknown fit0 fit perf strat budget fuel t00 L0 U0 (sio_new tr te L0 U0)) <> Running.
Proof.
  intros A B M X y m unknown fit0 fit perf strat budget fuel t00 tr te L0 U0 St HA HP F.
  destruct (main_cases X y m unknown fit0 fit perf strat budget fuel t00 L0 U0 (sio_new tr te L0 U0) St) as (xs & mat & R & E').
  rewrite E'. destruct St as (Hy & HX & Dv). destruct (fit0 t00 xs mat) as [t0|e]; [|discriminate].
  apply (rounds_end X y m unknown fit perf strat budget Hy HX tr te L0 U0 t0 HA HP).
  - apply (inv_start X y m unknown fit perf strat tr te L0 U0 t0 Dv).
  - cbn [lab]. lia.
Qed.
Print Assumptions C105_ends.

(** When it is left by its condition, more than [budget] entries were labelled, and at most [budget + b] when no
    selection asks for more than [b]. *)
Theorem C105_done : forall A B M (X : list B) (y : list (list A)) m unknown
    (fit0 fit : M -> list B -> list (list A) -> res M) perf strat budget fuel t00 tr te L0 U0 b s,
  setting X y m L0 U0 -> always (List.length y) m strat (usable (List.length y) m) ->
  always (List.length y) m strat (fun _ _ l => Z.of_nat (List.length (flat_map (denoted (Z.of_nat m)) l)) <= b) ->
  0 <= b -> 0 <= budget ->
  ml_main X y m unknown fit0 fit perf strat budget fuel t00 L0 U0 (sio_new tr te L0 U0) = (s, Done) ->
  budget < size (lab s) - size L0 <= budget + b.
Proof.
  intros A B M X y m unknown fit0 fit perf strat budget fuel t00 tr te L0 U0 b s St HA HB B0 Bu E.
  destruct (main_cases X y m unknown fit0 fit perf strat budget fuel t00 L0 U0 (sio_new tr te L0 U0) St) as (xs & mat & R & E').
  rewrite E in E'. destruct St as (Hy & HX & Dv). destruct (fit0 t00 xs mat) as [t0|e]; [|discriminate].
  pose proof (rounds_done X y m unknown fit perf strat budget Hy HX tr te L0 U0 t0 HA b HB B0 fuel 0 _
                (inv_start X y m unknown fit perf strat tr te L0 U0 t0 Dv)) as K.
  rewrite <- E' in K. cbn [fst snd lab] in K. apply K; [lia|reflexivity].
Qed.
Print Assumptions C105_done.

(** With no more than [budget] unlabelled entries, it is never left by its condition. *)
Theorem C105_small_pool : forall A B M (X : list B) (y : list (list A)) m unknown
    (fit0 fit : M -> list B -> list (list A) -> res M) perf strat budget fuel t00 tr te L0 U0,
  setting X y m L0 U0 -> always (List.length y) m strat (usable (List.length y) m) -> size U0 <= budget ->
  snd (ml_main X y m unknown fit0 fit perf strat budget fuel t00 L0 U0 (sio_new tr te L0 U0)) <> Done.
Proof.
  intros A B M X y m unknown fit0 fit perf strat budget fuel t00 tr te L0 U0 St HA HU E.
  pose proof (C105_pool A B M X y m unknown fit0 fit perf strat budget fuel t00 tr te L0 U0 St HA) as (_ & P).
  destruct (ml_main X y m unknown fit0 fit perf strat budget fuel t00 L0 U0 (sio_new tr te L0 U0)) as [s o] eqn:Em. cbn [fst snd] in *. subst o.
  destruct (main_cases X y m unknown fit0 fit perf strat budget fuel t00 L0 U0 (sio_new tr te L0 U0) St) as (xs & mat & R & E').
  rewrite Em in E'. destruct St as (Hy & HX & Dv). destruct (fit0 t00 xs mat) as [t0|e]; [|discriminate].
  pose proof (inv_start X y m unknown fit perf strat tr te L0 U0 t0 Dv) as I0.
  pose proof (inv_rounds X y m unknown fit perf strat budget Hy HX tr te L0 U0 t0 HA fuel 0 (size L0) _ I0) as I.
  rewrite <- E' in I. destruct I as (RL & _).
  assert (G : forall f k s0, ml_rounds X y m unknown fit perf strat budget f k (size L0) s0 = (s, Done) ->
               budget < Z.of_nat (List.length (mcont (lab s))) - size L0).
  { clear. induction f as [|f IH]; intros k s0 E; cbn [ml_rounds] in E;
      (destruct (Z.leb_spec (Z.of_nat (List.length (mcont (lab s0))) - size L0) budget) as [H|H];
       [|injection E as ->; exact H]); [discriminate|].
    destruct (ml_turn _ _ _ _ _ _ _ k s0) as [s1 [u|e]]; [|discriminate]. eapply IH, E. }
  specialize (G _ _ _ (eq_sym E')). rewrite (cont_pairs _ _ RL) in G.
  apply Permutation_length in P. rewrite !app_length in P. unfold size in *. lia.
Qed.
Print Assumptions C105_small_pool.

(** The documented use, all the strategies returning the pool itself when at most [b] entries are left: with a pool of at most [budget] entries
    and training that succeeds, the loop ends with an AttributeError, with up to [b] entries that were never
    labelled and a record of all the selections before. *)
Theorem C105_last_entries : forall A B M (X : list B) (y : list (list A)) m unknown
    (fit0 fit : M -> list B -> list (list A) -> res M) perf strat budget fuel t00 tr te L0 U0 b,
  setting X y m L0 U0 -> always (List.length y) m strat (usable (List.length y) m) ->
  always (List.length y) m strat (fun _ U l => productive m U l) ->
  (forall k t L U, division (List.length y) m L U ->
     (size U <= b -> strat k t L U = Ok ThePool) /\ (b < size U -> exists l, strat k t L U = Ok (Picked l))) ->
  (forall t xs mat, exists t', fit0 t xs mat = Ok t') -> (forall t xs mat, exists t', fit t xs mat = Ok t') ->
  size U0 <= budget -> size U0 < Z.of_nat fuel ->
  exists s, ml_main X y m unknown fit0 fit perf strat budget fuel t00 L0 U0 (sio_new tr te L0 U0) = (s, Failed AttrErr) /\
    size (unl s) <= b /\ size (lab s) = size L0 + size U0 - size (unl s) /\
    (forall p, In p (pairs (lab s)) <-> In p (pairs L0) \/ denoted_by (Z.of_nat m) (List.concat (selections (sav s))) p).
Proof.
  intros A B M X y m unknown fit0 fit perf strat budget fuel t00 tr te L0 U0 b St HA HP HG HT0 HT HU F.
  destruct (main_cases X y m unknown fit0 fit perf strat budget fuel t00 L0 U0 (sio_new tr te L0 U0) St) as (xs & mat & R & E').
  rewrite E'. destruct St as (Hy & HX & Dv). destruct (HT0 t00 xs mat) as [t0 ->].
  destruct (rounds_pool X y m unknown fit perf strat budget Hy HX tr te L0 U0 t0 HA b HP HG HT fuel 0 _
             (inv_start X y m unknown fit perf strat tr te L0 U0 t0 Dv) HU F) as (s1 & E & K1 & K2 & I).
  exists s1. split; [exact E|]. split; [exact K1|]. split; [lia|]. apply I.
Qed.
Print Assumptions C105_last_entries.

(** ** A case *)
(** The first unlabelled entry; the pool itself when one is left. *)
Definition ex_strat (k : nat) (t : list (list (list Z))) (L U : mlic) : res answer :=
  match mcont U with x :: _ :: _ => Ok (Picked [x]) | _ => Ok ThePool end.
(** A model that remembers the tables it was trained on. *)
Definition ex_fit (t : list (list (list Z))) (xs : list Z) (mat : list (list Z)) : res (list (list (list Z))) := Ok (t ++ [mat]).
Definition ex_y : list (list Z) := [[1; -1]; [-1; 1]].
Definition ex_L : mlic := {| mcont := [IPair 0 0]; is_set := true; lsize := Some 2 |}.
Definition ex_U : mlic := {| mcont := [IPair 0 1; IPair 1 0; IPair 1 1]; is_set := true; lsize := Some 2 |}.

Lemma ex_setting : setting [10; 11] ex_y 2 ex_L ex_U.
Proof.
  split; [split; [reflexivity|intros r [<-|[<-|[]]]; reflexivity]|]. split; [reflexivity|].
  split. { eapply (mr_list 2 [IPair 0 0] (Some 2) _ []); [discriminate|reflexivity|reflexivity]. }
  split. { eapply (mr_list 2 [IPair 0 1; IPair 1 0; IPair 1 1] (Some 2) _ []); [discriminate|reflexivity|reflexivity]. }
  split. { intros p [<-|[]] H. cbn in H. repeat destruct H as [H|H]; try discriminate. destruct H. }
  split; intros p H; cbn in H; repeat destruct H as [<-|H]; cbn; try lia; destruct H.
Qed.

Lemma ex_first k t L U l : division 2 2 L U -> ex_strat k t L U = Ok (Picked l) ->
  exists i j, l = [IPair i j] /\ In (i, j) (pairs U) /\ 0 <= i < 2 /\ 0 <= j < 2.
Proof.
  intros (_ & RU & _ & _ & N) E. unfold ex_strat in E. destruct (mcont U) as [|x [|x' r]] eqn:Em; try discriminate.
  injection E as <-. apply reachable_good in RU. destruct RU as (_ & _ & _ & F & _).
  pose proof F as F0. rewrite Em in F. apply Forall_inv in F. destruct x as [i|i j|i js|i js|i j]; try contradiction.
  exists i, j. split; [reflexivity|].
  assert (K : In (i, j) (pairs U)).
  { assert (K : In (pair_idx (i, j)) (map pair_idx (pairs U))) by (rewrite <- (pairs_map _ _ F0), Em; now left).
    apply in_map_iff in K. destruct K as ([a b] & Ea & K). now injection Ea as -> ->. }
  split; [exact K|]. split; [apply (N _ K)|exact F].
Qed.

Example C105_case :
  setting [10; 11] ex_y 2 ex_L ex_U /\
  always 2 2 ex_strat (usable 2 2) /\ always 2 2 ex_strat (fun _ U l => fresh 2 U l) /\
  always 2 2 ex_strat (fun _ U l => productive 2 U l) /\ always 2 2 ex_strat (fun _ _ l => countable l) /\
  always 2 2 ex_strat (fun _ _ l => Z.of_nat (List.length (flat_map (denoted 2) l)) <= 1) /\
  (forall k t L U, division 2 2 L U ->
     (size U <= 1 -> ex_strat k t L U = Ok ThePool) /\ (1 < size U -> exists l, ex_strat k t L U = Ok (Picked l))) /\
  (** two rounds within the budget *)
  (exists s, ml_main [10; 11] ex_y 2 0 ex_fit ex_fit (fun _ => 0%Q) ex_strat 1 5 [] ex_L ex_U (sio_new [] [] ex_L ex_U) = (s, Done) /\
    pairs (lab s) = [(0, 0); (0, 1); (1, 0)] /\ pairs (unl s) = [(1, 1)] /\
    selections (sav s) = [[IPair 0 1]; [IPair 1 0]] /\ (s_cost (sav s) == 2)%Q /\
    mdl s = [[[1; 0]]; [[0; -1]]; [[-1; 0]]]) /\
  (** a budget that exceeds the pool *)
  (exists s, ml_main [10; 11] ex_y 2 0 ex_fit ex_fit (fun _ => 0%Q) ex_strat 3 5 [] ex_L ex_U (sio_new [] [] ex_L ex_U) = (s, Failed AttrErr) /\
    pairs (unl s) = [(1, 1)]).
Proof.
  split; [exact ex_setting|].
  split. { intros k t L U l D E. destruct (ex_first k t L U l D E) as (i & j & -> & Hp & Hi & Hj).
    split; [discriminate|]. split.
    - intros x [<-|[]]. split; [discriminate|]. split; [exact Hi|]. cbn. apply andb_true_iff. split; [now apply Z.leb_le|now apply Z.ltb_lt].
    - intros p (x & [<-|[]] & ->). now right. }
  split. { intros k t L U l D E. destruct (ex_first k t L U l D E) as (i & j & -> & Hp & Hi & Hj). now intros p (x & [<-|[]] & ->). }
  split. { intros k t L U l D E. destruct (ex_first k t L U l D E) as (i & j & -> & Hp & Hi & Hj).
    exists (i, j). split; auto. exists (IPair i j). split; [now left|reflexivity]. }
  split. { intros k t L U l D E. destruct (ex_first k t L U l D E) as (i & j & -> & Hp & Hi & Hj).
    left. split; [repeat constructor; intros []|]. intros x [<-|[]]. eauto. }
  split. { intros k t L U l D E. destruct (ex_first k t L U l D E) as (i & j & -> & _). cbn. lia. }
  split. { intros k t L U (_ & RU & _). unfold size. rewrite <- (cont_pairs _ _ RU). unfold ex_strat.
    destruct (mcont U) as [|x [|x' r]]; cbn [List.length]; split; intro H; eauto; lia. }
  split; eexists; vm_compute; repeat split; reflexivity.
Qed.

(** Two whole instances in a round. *)
Example C105_cost_case :
  let y := [[1; 2]; [3; 4]; [5; 6]] in
  let s := {| lab := {| mcont := [IPair 2 0]; is_set := true; lsize := Some 2 |};
              unl := {| mcont := [IPair 0 0; IPair 0 1; IPair 1 0; IPair 1 1]; is_set := true; lsize := Some 2 |};
              mdl := tt; sav := sio_new [] [] {| mcont := []; is_set := true; lsize := Some 2 |} {| mcont := []; is_set := true; lsize := Some 2 |} |} in
  let two := fun (k : nat) (t : unit) (L U : mlic) => Ok (Picked (map IOne [0; 1])) in
  let keep := fun (t : unit) (xs : list Z) (mat : list (list Z)) => Ok t in
  has_shape y (List.length y) 2 /\ division (List.length y) 2 (lab s) (unl s) /\
  (forall i, In i [0; 1] -> forall j, 0 <= j < Z.of_nat 2 -> In (i, j) (pairs (unl s))) /\
  exists s1, ml_turn [10; 11; 12] y 2 0 keep (fun _ => 0%Q) two 0 s = (s1, Ok tt) /\
    size (lab s1) - size (lab s) = 4 /\ (s_cost (sav s1) == 2)%Q.
Proof.
  cbn zeta. cbn [lab unl]. split; [split; [reflexivity|intros r [<-|[<-|[<-|[]]]]; reflexivity]|]. split.
  - split. { eapply (mr_list 2 [IPair 2 0] (Some 2) _ []); [discriminate|reflexivity|reflexivity]. }
    split. { eapply (mr_list 2 [IPair 0 0; IPair 0 1; IPair 1 0; IPair 1 1] (Some 2) _ []); [discriminate|reflexivity|reflexivity]. }
    split. { intros p [<-|[]] H. cbn in H. repeat destruct H as [H|H]; try discriminate. destruct H. }
    split; intros p H; cbn in H; repeat destruct H as [<-|H]; cbn; try lia; destruct H.
  - split.
    + intros i Hi j Hj. assert (j = 0 \/ j = 1) by lia. cbn in *. destruct Hi as [<-|[<-|[]]], H as [->| ->]; tauto.
    + eexists. vm_compute. repeat split; reflexivity.
Qed.
