(** Model of [QueryInstanceLAL] (alipy/query_strategy/query_labels.py 1585-1786): the data file and its download, the
    selector and its training, the selection.

    Simplifications: floats are exact rationals; [np.std] is an argument; training a forest gives its trees' predictions,
    score, importances and depths as functions of the labelled indexes; a file is its bytes; a download is what the
    network delivers, in pieces, with the failure of the connection or the end of the process as possible pieces;
    progress output is left out except for the exceptions it can raise. *)
From Verif Require Import Base MiscModel QueryModel.
From Coq Require Import QArith.
Local Open Scope Z_scope.

(** ** Data files *)

(** 1632-1634 [mode] *)
Inductive mode := Iterative | Independent.
Definition mode_eqb (a b : mode) : bool := match a, b with Iterative, Iterative | Independent, Independent => true | _, _ => false end.
(** 1630-1631: the file of each mode in [data_path]; [None] when it does not exist. *)
Definition disk := mode -> option (list Z).
Definition put (d : disk) (m : mode) (c : list Z) : disk := fun m' => if mode_eqb m m' then Some c else d m'.

(** What [requests.get] delivers: [length_header] is [None] without a content-length header and [Some None] when it is no
    number; the body comes in chunks and may break off. When the process ends, only the first [kept] bytes written so
    far have reached the file. *)
Inductive piece := Chunk (b : list Z) | Broken | Killed (kept : nat).
Record response := { length_header : option (option Z); pieces : list piece }.

(** 1655-1662: the loop over the chunks, with what has been written. *)
Fixpoint receive (total : option Z) (written : list Z) (ps : list piece) : list Z * res unit :=
  match ps with
  | [] => (written, Ok tt)
  | Broken :: _ => (written, Err GenericErr)
  | Killed kept :: _ => (firstn kept written, Err GenericErr)
  | Chunk [] :: ps' => receive total written ps'                            (* 1657 *)
  | Chunk b :: ps' =>
      match total with
      | None => (written, Err ValueErr)                                     (* float() and int() in 1659-1661 *)
      | Some n => if n =? 0 then (written, Err ZeroDivErr)                  (* 1659 *)
                  else receive total (written ++ b) ps'                     (* 1662 *)
      end
  end.

(** 1641-1685: [net] is [None] when no connection can be made. The number of requests made is returned. *)
Definition download_data (m : mode) (net : option response) (d : disk) : disk * nat * res unit :=
  match d m with
  | Some _ => (d, 0%nat, Ok tt)                                             (* 1646, 1667 *)
  | None =>
      match net with
      | None => (d, 1%nat, Err GenericErr)                                  (* 1650 *)
      | Some r =>
          match length_header r with
          | None => (d, 1%nat, Err KeyErr)                                  (* 1651 *)
          | Some total =>
              match receive total [] (pieces r) with
              | (c, x) => (put d m c, 1%nat, x)                             (* 1653: the file is opened before the loop *)
              end
          end
      end
  end.

(** ** The object *)

(** [predict] of the regressor for one row of features. *)
Definition regressor := list Q -> Q.
Record lal := { lmode : mode; selector : option regressor }.

(** [np.load] of the bytes and the training of the regressor. *)
Record trainer := { load : list Z -> res (list (list Q) * list Q); fit_regressor : list (list Q) * list Q -> regressor }.

(** 1687-1731 *)
Inductive source := Default | Directory | Given (content : option (list Z)).
Definition train_selector (t : trainer) (src : source) (d : disk) (o : lal) : lal * res unit :=
  match (match src with
         | Default => Ok (d (lmode o))                                      (* 1710-1711 *)
         | Directory => Err ValueErr                                        (* 1713-1714 *)
         | Given c => Ok c
         end) with
  | Err e => (o, Err e)
  | Ok None => (o, Err FileErr)                                             (* 1716 *)
  | Ok (Some c) =>
      match load t c with
      | Err e => (o, Err e)
      | Ok data => ({| lmode := lmode o; selector := Some (fit_regressor t data) |}, Ok tt)   (* 1731 *)
      end
  end.

(** 1623-1639: [classes] is the number of labels in [y], [mode] is [None] when it is not one of the two names. *)
Definition lal_new (t : trainer) (classes : nat) (is_dir : bool) (m : option mode) (train_slt : bool) (net : option response) (d : disk)
  : disk * nat * res lal :=
  if negb (Nat.eqb classes 2) then (d, 0%nat, Err ValueErr)                 (* 1625-1627 *)
  else if negb is_dir then (d, 0%nat, Err ValueErr)                         (* 1628-1629 *)
  else match m with
       | None => (d, 0%nat, Err AssertErr)                                  (* 1632 *)
       | Some m =>
           let o := {| lmode := m; selector := None |} in
           if train_slt then                                                (* 1636 *)
             match download_data m net d with
             | (d', k, Err e) => (d', k, Err e)
             | (d', k, Ok _) =>
                 match train_selector t Default d' o with
                 | (_, Err e) => (d', k, Err e)
                 | (o', Ok _) => (d', k, Ok o')
                 end
             end
           else (d, 0%nat, Ok o)
       end.

(** ** Selection *)

(** What training the forest on the labelled instances gives: [predict_proba(...)[:, 0]] of each tree for an instance,
    [oob_score_], [feature_importances_] and the depths of the trees. *)
Record forest := { trees : list (Z -> Q); oob : Q; importances : list Q; depths : list Q }.
(** The data: number of rows and columns of [X], labels, training of the forest, [np.std]. *)
Record data := { n_rows : Z; n_dim : Z; label : Z -> Q; fit_forest : list Z -> res forest; std : list Q -> Q }.

Definition mean (l : list Q) : Q := (fold_right Qplus 0 l / inject_Z (Z.of_nat (length l)))%Q.
Definition positives (l : list Q) : Q := inject_Z (Z.of_nat (length (filter (fun x => negb (Qle_bool x 0)) l))).

(** 1757-1777: one row per unlabelled instance. *)
Definition lal_features (x : data) (f : forest) (L U : list Z) : list (list Q) :=
  let temp i := map (fun t => t i) (trees f) in                             (* 1758 *)
  let n := inject_Z (Z.of_nat (length L)) in
  let f_2 := map (fun i => std x (temp i)) U in                             (* 1761 *)
  let f_3 := (positives (map (label x) L) / n)%Q in                         (* 1763 *)
  let f_5 := std x (map (fun w => w / inject_Z (n_dim x))%Q (importances f)) in   (* 1767 *)
  map (fun i => [mean (temp i); std x (temp i); f_3; oob f; f_5; mean f_2; mean (depths f); n]) U.

(** Indexing the rows of an array with a list of integers. *)
Definition rows_exist (x : data) (l : list Z) : bool := forallb (fun i => (- n_rows x <=? i) && (i <? n_rows x)) l.

(** 1733-1786 *)
Definition lal_select (np : numpy) (x : data) (o : lal) (L U : list Z) (batch : Z) : res (list Z) :=
  match selector o with
  | None => Err ValueErr                                                    (* 1734-1738 *)
  | Some reg =>
      select_largest np U
        (_ <- guard (rows_exist x U) IndexErr ;;                            (* 1747 *)
         _ <- guard (rows_exist x L) IndexErr ;;                            (* 1748-1749 *)
         f <- fit_forest x L ;;                                             (* 1752 *)
         Ok (map reg (lal_features x f L U))) batch                         (* 1780 *)
  end.

(** ** Histories: objects made, downloads and trainings, on one disk. *)
Inductive call :=
| CNew (classes : nat) (is_dir : bool) (m : option mode) (train_slt : bool) (net : option response)
| CDownload (k : nat) (net : option response)
| CTrain (k : nat) (src : source).
Record world := { wdisk : disk; objects : list lal; requests : nat }.
Definition set_at {A} (k : nat) (x : A) (l : list A) : list A := firstn k l ++ x :: skipn (S k) l.
Definition step (t : trainer) (w : world) (c : call) : world :=
  match c with
  | CNew n b m s net =>
      match lal_new t n b m s net (wdisk w) with
      | (d, k, x) => {| wdisk := d; objects := match x with Ok o => objects w ++ [o] | Err _ => objects w end; requests := requests w + k |}
      end
  | CDownload k net =>
      match nth_error (objects w) k with
      | None => w
      | Some o => match download_data (lmode o) net (wdisk w) with (d, r, _) => {| wdisk := d; objects := objects w; requests := requests w + r |} end
      end
  | CTrain k src =>
      match nth_error (objects w) k with
      | None => w
      | Some o => {| wdisk := wdisk w; objects := set_at k (fst (train_selector t src (wdisk w) o)) (objects w); requests := requests w |}
      end
  end.
Definition run (t : trainer) (w : world) (cs : list call) : world := fold_left (step t) cs w.
