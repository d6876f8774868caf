(** Model of query_strategy/query_labels.py: the instance selection strategies, and of the random
    strategies there and in query_strategy/multi_label.py.

    Simplifications: numbers are exact rationals without NaN or infinity unless said otherwise; training and
    evaluating the user's classifier is left out, what it returns is an argument; indexes are integers; a
    batch that Python returns as a list made from a set is a list in the order of insertion. *)
From Verif Require Import Base IndexModel MLModel MiscModel.
From Coq Require Import QArith Qabs.
Local Open Scope Z_scope.

(** The numpy routines whose result is not determined by their input: [np.argsort] (ties), [np.partition]
    along a row at the given positions, and the floating-point [np.log]. *)
Record numpy := { argsort : list Q -> list nat; partition : list nat -> list Q -> list Q; log : Q -> Q }.

Definition qsum (l : list Q) : Q := fold_right Qplus 0%Q l.
Definition of_nat (n : nat) : Q := inject_Z (Z.of_nat n).

(** [a[positions]] *)
Definition take {A} (a : list A) (positions : list nat) : res (list A) := mapM (py_nth a) positions.

(** An array by its number of dimensions; a matrix knows how many columns it has. *)
Inductive arr := Vec (v : list Q) | Mat (cols : nat) (rows : list (list Q)) | Deep.

Inductive measure := LeastConfident | Margin | Entropy | Boundary.

(** ** QueryInstanceUncertainty *)

(** 217: [pv[pv <= 0] = 1e-06] *)
Definition clip (x : Q) : Q := if Qle_bool x 0 then (1 # 1000000)%Q else x.

(** 218 (also 1936): [-np.sum(vec * np.log(vec+1e-9))] *)
Definition entropy (np : numpy) (row : list Q) : Q :=
  (- qsum (map (fun x => x * log np (x + (1 # 1000000000))) row))%Q.

(** 224-225 (also 1940-1941). With one column both positions are the same one; without columns numpy
    rejects them. *)
Definition margin_score (np : numpy) (cols : nat) (row : list Q) : res Q :=
  match cols with
  | O => Err ValueErr
  | S O => x <- py_nth row 0 ;; Ok (x - x)%Q
  | _ => let pat := partition np [cols - 2; cols - 1]%nat row in
         a <- py_nth pat (cols - 2) ;;
         b <- py_nth pat (cols - 1) ;;
         Ok (a - b)%Q
  end.

(** 230-231 (also 1945-1946) *)
Definition least_confident_score (np : numpy) (cols : nat) (row : list Q) : res Q :=
  match cols with
  | O => Err ValueErr
  | _ => let pat := partition np [cols - 1]%nat row in
         b <- py_nth pat (cols - 1) ;;
         Ok (1 - b)%Q
  end.

(** 200-209: the distances from a vector or a matrix of one column. *)
Definition boundary_scores (predict : arr) : res (list Q) :=
  match predict with
  | Deep => Err AssertErr                                                   (* 201 *)
  | Mat cols rows => _ <- guard (Nat.eqb cols 1) GenericErr ;;              (* 203-204 *)
                     Ok (map Qabs (concat rows))                            (* 206 *)
  | Vec v => Ok (map Qabs v)                                                (* 208 *)
  end.

(** 171-232 [select_by_prediction_mat]; [predict] is a float array: [np.asarray] does not copy it, so the
    replacement at 217 reaches the caller's array, which is returned first. *)
Definition select_by_prediction_mat {A} (np : numpy) (m : measure) (U : list A) (predict : arr) (batch : Z)
  : arr * res (list A) :=
  if negb (0 <? batch) then (predict, Err AssertErr)                        (* 191 *)
  else if Z.of_nat (length U) <=? batch then (predict, Ok U)                (* 194-195 *)
  else match m, predict with
  | Boundary, _ =>
      (predict, scores <- boundary_scores predict ;;
                ps <- nsmallestarg (argsort np scores) batch ;; take U ps)  (* 209 *)
  | _, Vec _ | _, Deep => (predict, Err GenericErr)                         (* 211-213 *)
  | _, Mat 1%nat _ => (predict, Err GenericErr)
  | Entropy, Mat cols rows =>
      let rows' := map (map clip) rows in                                   (* 217 *)
      (Mat cols rows', ps <- nlargestarg (argsort np (map (entropy np) rows')) batch ;; take U ps)
  | Margin, Mat cols rows =>
      (predict, scores <- mapM (margin_score np cols) rows ;;
                ps <- nlargestarg (argsort np scores) batch ;; take U ps)   (* 226 *)
  | LeastConfident, Mat cols rows =>
      (predict, scores <- mapM (least_confident_score np cols) rows ;;
                ps <- nlargestarg (argsort np scores) batch ;; take U ps)   (* 232 *)
  end.

(** ** Selection from a score per instance: QueryInstanceQBC 463-473 (and 403-439), QueryInstanceLAL
    1733-1786, and with the smallest scores QueryExpectedErrorReduction 676-713. The scores are computed
    only when there are more instances than asked for. *)
Definition select_largest {A} (np : numpy) (U : list A) (score : res (list Q)) (batch : Z) : res (list A) :=
  _ <- guard (0 <? batch) AssertErr ;;
  if Z.of_nat (length U) <=? batch then Ok U
  else s <- score ;; ps <- nlargestarg (argsort np s) batch ;; take U ps.
Definition select_smallest {A} (np : numpy) (U : list A) (score : res (list Q)) (batch : Z) : res (list A) :=
  _ <- guard (0 <? batch) AssertErr ;;
  if Z.of_nat (length U) <=? batch then Ok U
  else s <- score ;; ps <- nsmallestarg (argsort np s) batch ;; take U ps.

(** ** QueryInstanceQBC *)

(** 494-502 [_check_committee_results]; no member is None. The message of the exception at 497 cannot be
    built ([int] of a shape), so it is a TypeError that is raised. *)
Definition check_committee {S} (eqb : S -> S -> bool) (shapes : list S) : res S :=
  match shapes with
  | [] => Err ValueErr                                                      (* 500-501 *)
  | s :: shapes' =>
      _ <- guard (forallb (eqb s) shapes') TypeErr ;;                       (* 496-498 *)
      _ <- guard (negb (Nat.eqb (length shapes') 0)) ValueErr ;;            (* 500-501 *)
      Ok s
  end.

(** 544 [collections.Counter]: distinct votes with their numbers. *)
Fixpoint counter (votes : list Z) : list (Z * nat) :=
  match votes with
  | [] => []
  | v :: votes' => (v, S (count (Z.eqb v) votes')) :: filter (fun e => negb (Z.eqb v (fst e))) (counter votes')
  end.

(** 547 (and 542): [c / size * np.log((c+1e-9) / size)] *)
Definition vote_term (np : numpy) (size c : nat) : Q :=
  (of_nat c / of_nat size * log np ((of_nat c + (1 # 1000000000)) / of_nat size))%Q.

(** 528, 542-552: [calc_vote_entropy] on vectors of predicted classes. *)
Definition vote_entropy (np : numpy) (preds : list (list Z)) : res (list Q) :=
  n <- check_committee Nat.eqb (map (@length Z) preds) ;;
  mapM (fun i => votes <- mapM (fun X => py_nth X i) preds ;;
                 Ok (- qsum (map (fun e => vote_term np (length preds) (snd e)) (counter votes)))%Q)
       (range n).

(** 529-541: [calc_vote_entropy] on matrices of 0 and 1; both must occur (530-532). *)
Definition vote_entropy_matrix (np : numpy) (cols : nat) (preds : list (list (list Z))) : res (list Q) :=
  n <- check_committee Nat.eqb (map (@length (list Z)) preds) ;;
  let all := concat (concat preds) in
  _ <- guard (forallb (fun x => (x =? 0) || (x =? 1)) all && existsb (Z.eqb 0) all && existsb (Z.eqb 1) all) ValueErr ;;
  mapM (fun i => rows <- mapM (fun X => py_nth X i) preds ;;                (* 535 *)
                 voting <- mapM (fun j => l <- mapM (fun r => py_nth r j) rows ;; Ok (zsum l)) (range cols) ;;
                 Ok (- qsum (map (fun v => vote_term np (length preds) (Z.to_nat v))
                                 (filter (fun v => negb (v =? 0)) voting)))%Q)
       (range n).

(** 578-591: [calc_avg_KL_divergence] *)
Definition kl_divergence (np : numpy) (cols : nat) (preds : list (list (list Q))) : res (list Q) :=
  n <- check_committee Nat.eqb (map (@length (list Q)) preds) ;;
  mapM (fun i => rows <- mapM (fun X => py_nth X i) preds ;;                (* 583 *)
                 labs <- mapM (fun j => ps <- mapM (fun r => py_nth r j) rows ;;
                                        let consensus := (qsum ps / of_nat (length preds) + (1 # 1000000000))%Q in
                                        Ok (qsum (map (fun p => p * log np ((p + (1 # 1000000000)) / consensus)) ps)%Q))
                              (range cols) ;;
                 Ok (qsum labs))
       (range n).

(** ** QueryExpectedErrorReduction, 695-711: [loss i y] is the log loss after training with label [y] for
    candidate [i]; the class is used as a column number (710), a negative one counting from the end. *)
Definition eer_scores (classes : list Z) (pv : list (list Q)) (loss : nat -> Z -> Q) : res (list Q) :=
  mapM (fun i => row <- py_nth pv i ;;
                 terms <- mapM (fun y => match py_index (length row) y with
                                         | None => Err IndexErr
                                         | Some j => p <- py_nth row j ;; Ok (p * loss i y)%Q
                                         end) classes ;;
                 Ok (qsum terms))
       (range (length pv)).

(** ** QueryInstanceQUIRE, 830-883: the choice; [eva p] is the evaluation of the instance at position [p] of
    the training set, which may be NaN or infinite. *)
Definition fl_lt (a b : fl) : bool :=
  match a, b with
  | Num x, Num y => negb (Qle_bool y x)
  | Num _, Inf neg => negb neg
  | Inf neg, Num _ => neg
  | Inf true, Inf false => true
  | _, _ => false
  end.
Fixpoint quire_loop (eva : nat -> fl) (best : option nat) (low : fl) (U : list nat) : option nat :=
  match U with
  | [] => best
  | p :: U' => if fl_lt (eva p) low then quire_loop eva (Some p) (eva p) U'   (* 880-882 *)
               else quire_loop eva best low U'
  end.

(** [np.where(train_idx == i)[0]] *)
Fixpoint where_from (k : nat) (train : list Z) (x : Z) : list nat :=
  match train with
  | [] => []
  | y :: train' => if y =? x then k :: where_from (S k) train' x else where_from (S k) train' x
  end.
Definition np_where (train : list Z) (x : Z) : list nat := where_from 0 train x.

Definition quire_select (train : list Z) (eva : nat -> fl) (L U : list Z) : res (list Z) :=
  if (length U <=? 1)%nat then Ok U                                         (* 830-831 *)
  else _ <- mapM (fun i => py_nth (np_where train i) 0) L ;;                (* 836 *)
       us <- mapM (fun i => py_nth (np_where train i) 0) U ;;               (* 837 *)
       x <- py_nth train (match quire_loop eva None (Inf false) us with
                          | Some p => p
                          | None => length train - 1                        (* -1 *)
                          end) ;;
       Ok [x].

(** ** QueryInstanceRandom 299-323 (and QueryRandom 269-293) *)

(** What is passed as the unlabelled index. *)
Inductive pool (A : Type) := PColl (l : list A) | PList (l : list A) | PArray (l : list A).
Arguments PColl {A} l. Arguments PList {A} l. Arguments PArray {A} l.
Definition items {A} (p : pool A) : list A := match p with PColl l | PList l | PArray l => l end.

Definition random_select {A} (p : pool A) (batch : Z) (sh : list nat) : res (list A) :=
  if Z.of_nat (length (items p)) <=? batch then Ok (items p)                (* 319-320 *)
  else perm <- randperm (Z.of_nat (length (items p)) - 1) (Some batch) sh ;; (* 321 *)
       tpl <- match p with
              | PColl l => Ok l                                             (* 322 *)
              | PList _ => Err TypeErr                     (* the method [list.index] is not iterable *)
              | PArray _ => Err AttrErr
              end ;;
       take tpl perm.                                                       (* 323 *)

(** ** QueryMultiLabelRandom, multi_label.py 1163-1203 *)

Inductive ml_pool := MPColl (c : mlic) | MPList (l : list mlidx) | MPFlat (a : list Z).
Definition ml_pool_len (p : ml_pool) : nat :=
  match p with MPColl c => length (mcont c) | MPList l => length l | MPFlat a => length a end.

(** base.py 72-86 [_check_multi_label_ind]; the label matrix has [n] rows and [m] columns. *)
Definition check_ml_ind (n m : Z) (p : ml_pool) : res mlic :=
  let safe r := match r with Ok (c, _) => Ok c | Err _ => Err ValueErr end in
  match p with
  | MPColl c => Ok c
  | MPList [] | MPFlat [] => Err ValueErr
  | MPList l => safe (ml_init (MList l) (Some m))
  | MPFlat a => safe (ml_construct_1d a n m OrdF)
  end.

Inductive ml_choice := TheRest | Chosen (l : list mlidx).
Inductive select_type := TIns | TInsLab | TOther.

Definition ml_random (n m : Z) (p : ml_pool) (batch : Z) (t : select_type) (sh : list nat) : res ml_choice :=
  match t with
  | TOther => Err ValueErr                                                  (* 1202-1203 *)
  | _ =>
      if Z.of_nat (ml_pool_len p) <=? batch then Ok TheRest                 (* 1189-1190, 1196-1197 *)
      else c <- check_ml_ind n m p ;;
           let from := match t with
                       | TIns => map IOne (ml_instance_index c)             (* 1192 *)
                       | _ => mcont c                                       (* 1200 *)
                       end in
           perm <- randperm (Z.of_nat (length from) - 1) (Some batch) sh ;;
           l <- take from perm ;;
           Ok (Chosen l)
  end.

(** ** Shared by the greedy strategies *)

(** [np.argmax]: the first position of a largest value. *)
Fixpoint argmax_from (best : nat) (bv : Q) (i : nat) (l : list Q) : nat :=
  match l with
  | [] => best
  | v :: l' => if Qle_bool v bv then argmax_from best bv (S i) l' else argmax_from i v (S i) l'
  end.
Definition argmax (l : list Q) : res nat :=
  match l with
  | [] => Err ValueErr
  | v :: l' => Ok (argmax_from 0 v 1 l')
  end.

Definition min_of (l : list Q) : res Q :=
  match l with
  | [] => Err ValueErr
  | v :: l' => Ok (fold_left qmin l' v)
  end.
Definition mem (p : nat) (ps : list nat) : bool := existsb (Nat.eqb p) ps.

(** [a[ps] = f(a[ps])] *)
Definition assign (ps : list nat) (f : Q -> Q) (a : list Q) : list Q :=
  map (fun e => if mem (fst e) ps then f (snd e) else snd e) (combine (seq 0 (length a)) a).

(** ** QueryInstanceGraphDensity, 959-1008 *)

(** [gneighbors p]: the columns of the non-zero entries of row [p] of the graph. *)
Record graph := { gtrain : list Z; gneighbors : nat -> list nat }.

(** 998-1007: [fuel] bounds the number of turns; [None]: the loop is still running. *)
Fixpoint density_loop (fuel : nat) (g : graph) (labelled : list nat) (U : list Z) (batch : Z)
         (density : list Q) (selected_arr : list nat) (got : list Z) : list Q * res (option (list Z)) :=
  if batch <=? Z.of_nat (length got) then (density, Ok (Some got))
  else match fuel with
  | O => (density, Ok None)
  | S fuel' =>
      match argmax density with
      | Err e => (density, Err e)
      | Ok selected =>
          let arr' := selected_arr ++ [selected] in
          let ds := nth selected density 0%Q in
          let density1 := assign (gneighbors g selected) (fun x => x - ds)%Q density in  (* 1001-1002 *)
          match nth_error (gtrain g) selected with
          | None => (density1, Err IndexErr)
          | Some x =>
              if negb (existsb (Z.eqb x) U) then (density1, Err AssertErr)               (* 1003 *)
              else let got' := if existsb (Z.eqb x) got then got else got ++ [x] in      (* 1004 *)
                   match min_of density1 with
                   | Err e => (density1, Err e)
                   | Ok lo =>
                       let density2 := assign labelled (fun _ => lo - 1)%Q density1 in    (* 1005 *)
                       match min_of density2 with
                       | Err e => (density2, Err e)
                       | Ok lo2 => density_loop fuel' g labelled U batch
                                     (assign arr' (fun _ => lo2 - 1)%Q density2) arr' got'  (* 1007 *)
                       end
                   end
          end
      end
  end.

(** 980-1008: the densities persist from call to call. *)
Definition density_select (fuel : nat) (g : graph) (density : list Q) (L U : list Z) (batch : Z)
  : list Q * res (option (list Z)) :=
  if negb (0 <? batch) then (density, Err AssertErr)                        (* 980 *)
  else if Z.of_nat (length U) <=? batch then (density, Ok (Some U))         (* 985-986 *)
  else match mapM (fun i => py_nth (np_where (gtrain g) i) 0) L with        (* 990-993 *)
  | Err e => (density, Err e)
  | Ok labelled =>
      match min_of density with
      | Err e => (density, Err e)
      | Ok lo => density_loop fuel g labelled U batch (assign labelled (fun _ => lo - 1)%Q density) [] []
      end
  end.

(** ** QueryInstanceCoresetGreedy, 1809-1888 *)

(** The distance between the training points at two positions is given; [min_distances] is None at first. *)
Record coreset := { ctrain : list Z; cdist : nat -> nat -> Q;
                    min_distances : option (list Q); already_selected : list nat }.
Definition with_distances (s : coreset) (d : option (list Q)) : coreset :=
  {| ctrain := ctrain s; cdist := cdist s; min_distances := d; already_selected := already_selected s |}.
Definition with_selected (s : coreset) (l : list nat) : coreset :=
  {| ctrain := ctrain s; cdist := cdist s; min_distances := min_distances s; already_selected := l |}.

(** [np.min(dist, axis=1)] for at least one center. *)
Definition nearest (s : coreset) (c : nat) (centers : list nat) (p : nat) : Q :=
  fold_left (fun m c => qmin m (cdist s p c)) centers (cdist s p c).

(** 1829-1844 with [only_new=True], [reset_dist=False] *)
Definition update_distances (s : coreset) (centers : list nat) : coreset :=
  match filter (fun d => negb (mem d (already_selected s))) centers with    (* 1831-1833 *)
  | [] => s
  | c :: centers' =>
      let dist := map (nearest s c centers') (seq 0 (length (ctrain s))) in (* 1837 *)
      with_distances s (Some match min_distances s with
                             | None => dist                                 (* 1840 *)
                             | Some d => map (fun e => qmin (fst e) (snd e)) (combine d dist)   (* 1844 *)
                             end)
  end.

(** 1878-1887 *)
Fixpoint coreset_loop (k : nat) (s : coreset) (U : list Z) (new_batch : list Z) : coreset * res (list Z) :=
  match k with
  | O => (s, Ok new_batch)
  | S k' =>
      match match min_distances s with None => Err TypeErr | Some d => argmax d end with
      | Err e => (s, Err e)
      | Ok ind =>
          if mem ind (already_selected s) then (s, Err AssertErr)           (* 1882 *)
          else match nth_error (ctrain s) ind with
          | None => (s, Err IndexErr)
          | Some x =>
              if negb (existsb (Z.eqb x) U) then (s, Err AssertErr)         (* 1883 *)
              else let s' := update_distances s [ind] in
                   coreset_loop k' (with_distances s' (option_map (assign [ind] (fun _ => - (100))%Q) (min_distances s')))
                                U (new_batch ++ [x])                         (* 1885-1887 *)
          end
      end
  end.

(** 1871-1888 [select]; the training index is a numpy array. [item()] wants exactly one match. *)
Definition coreset_select (s : coreset) (L U : list Z) (batch : Z) : coreset * res (list Z) :=
  match mapM (fun x => match np_where (ctrain s) x with [p] => Ok p | _ => Err ValueErr end) L with
  | Err e => (s, Err e)
  | Ok labelled =>
      let s1 := update_distances s labelled in                              (* 1872 *)
      match min_distances s1 with
      | None => (s1, Err TypeErr)                                           (* 1875 on None *)
      | Some d =>
          let s2 := with_selected (with_distances s1 (Some (assign labelled (fun _ => - (100))%Q d))) labelled in
          coreset_loop (Z.to_nat batch) s2 U []
      end
  end.

(** ** QueryInstanceDensityWeighted, 1922-1958 *)

(** The model's prediction and the one passed in are matrices with [cols] columns; [dis] is the square matrix of distances
    between unlabelled instances, [power] the map [x ** beta]. *)
Definition density_weighted {A} (np : numpy) (power : Q -> Q) (m : measure) (U : list A) (cols : nat)
           (model_pred given_pred : option (list (list Q))) (dis : list (list Q)) (batch : Z) : res (list A) :=
  pv <- match model_pred, given_pred with
        | None, None => Err ValueErr                                        (* 1924-1925 *)
        | Some pv, _ => Ok pv                                               (* 1926-1927 *)
        | None, Some pv => _ <- guard (Nat.eqb (length pv) (length U)) AssertErr ;; Ok pv   (* 1929-1930 *)
        end ;;
  pat <- match m with
         | Entropy => Ok (map (entropy np) pv)                              (* 1936 *)
         | Margin => mapM (margin_score np cols) pv
         | LeastConfident => mapM (least_confident_score np cols) pv
         | Boundary => Err ValueErr                                         (* 1949; already refused at 1914 *)
         end ;;
  cols_ <- mapM (fun j => mapM (fun r => py_nth r j) dis) (range (length dis)) ;;
  let div := map (fun c => power (qsum c / of_nat (length dis))%Q) cols_ in   (* 1953-1954 *)
  _ <- guard (Nat.eqb (length pat) (length div) && Nat.eqb (length div) (length U)) AssertErr ;;   (* 1956 *)
  let scores := map (fun e => (fst e * snd e)%Q) (combine pat div) in       (* 1957 *)
  ps <- nlargestarg (argsort np scores) batch ;;
  take U ps.
