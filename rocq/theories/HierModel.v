(** Model of the rounds of examples/AL_settings/cost_sensitive.py, lines 66-72: the selected pairs are completed by
    [hierarchical_multilabel_mark], added to the labelled and removed from the unlabelled pairs. Simplification: the
    collections are duplicate-free lists, and whatever the strategy selected is an argument. *)
From Verif Require Import Base CostModel.

(** 69-72: [hierarchical_multilabel_mark], [update], [difference_update]. *)
Definition cost_round (n_classes : nat) (tree y : list (list Z)) (s : list (nat * nat) * list (nat * nat))
                      (selected : list (nat * nat)) : res (list (nat * nat) * list (nat * nat)) :=
  let (label_ind, unlab_ind) := s in
  r <- hierarchical_mark n_classes selected label_ind tree y ;;
  Ok (fold_left pair_add r label_ind, filter (fun p => negb (pair_mem p r)) unlab_ind).

(** 66-72: the rounds one after another. *)
Definition cost_rounds (n_classes : nat) (tree y : list (list Z)) (s : list (nat * nat) * list (nat * nat))
                       (queries : list (list (nat * nat))) : res (list (nat * nat) * list (nat * nat)) :=
  foldM (cost_round n_classes tree y) s queries.
