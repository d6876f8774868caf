(** Model of the progress display of [StateIO] (alipy/experiment/state_io.py): [get_current_performance]
    (299-318), [__repr__] (355-371), [_refresh_dataline] (373-375) and the printing part of
    [add_state] (180-186).

    Simplifications: numbers are exact rationals; a report is the record of the numbers it shows, not
    their formatting; the standard deviation is given by its square; a performance is a number, a
    sequence (iterable) or an object that is neither; [print] itself does not fail. *)
From Verif Require Import Base IndexModel MLModel StateModel.
From Coq Require Import String QArith.
Local Open Scope Z_scope.

(** The shown performance: mean and squared standard deviation, or "nan". *)
Inductive shown_perf := PNan | PVal (mean var : Q).

Record report := {
  r_round : nat; r_labelled : nat; r_percent : Q; r_queries : nat; r_cost : Q; r_perf : shown_perf }.

(** What [add_state] writes: a whole table (header and data line) or the data line alone. *)
Inductive output := OTable (r : report) | OLine (r : report).

Definition qlen {A} (l : list A) : Q := inject_Z (Z.of_nat (List.length l)).

(** [np.mean], [np.std] squared. *)
Definition mean (l : list Q) : Q := (qsum l / qlen l)%Q.
Definition variance (l : list Q) : Q := mean (map (fun x => (x - mean l) * (x - mean l))%Q l).

Section Progress.
  Context {C E : Type}.
  Variables (upd diff : C -> list E -> C * res (list warning)) (clen : C -> nat).

  (** The attributes used by the display. *)
  Record vsio := {
    v_sio : sio C E; v_round : nat; v_verbose : bool; v_interval : Z; v_first : bool }.

  (** [self[i].get_value('performance')]: a plain dict has no such method. *)
  Definition perf_of (e : entry E) : res (sval E) :=
    match e with EDict _ => Err AttrErr | EState s => st_get s "performance"%string end.

  (** [np.mean(tmp)]: everything must be a number. *)
  Definition number (v : sval E) : res Q := match v with SNum q => Ok q | _ => Err TypeErr end.

  (** state_io.py 299-318 [get_current_performance]. *)
  Definition current_perf (s : sio C E) : res shown_perf :=
    match s_states s with
    | [] => Ok (PVal 0 0)                                                       (* 312-313 *)
    | _ =>
        tmp <- mapM perf_of (s_states s) ;;                                     (* 315 *)
        match tmp with
        | SIdx _ :: _ | SSeq _ :: _ => Ok PNan                                  (* 316-317 *)
        | _ => qs <- mapM number tmp ;; Ok (PVal (mean qs) (variance qs))       (* 319 *)
        end
    end.

  (** state_io.py 355-371 [__repr__]. *)
  Definition make_report (v : vsio) : res report :=
    let s := v_sio v in
    match (clen (s_L s) + clen (s_U s))%nat with
    | O => Err ZeroDivErr                                                       (* 362 *)
    | S n =>
        p <- current_perf s ;;                                                  (* 370 *)
        Ok {| r_round := v_round v; r_labelled := clen (s_L s);
              r_percent := (100 * Z.of_nat (clen (s_L s))) # Pos.of_succ_nat n;
              r_queries := List.length (s_states s); r_cost := s_cost s; r_perf := p |}
    end.

  Definition with_sio (v : vsio) (s : sio C E) (first : bool) : vsio :=
    {| v_sio := s; v_round := v_round v; v_verbose := v_verbose v; v_interval := v_interval v; v_first := first |}.

  (** state_io.py 165-186 [add_state] with its printing. *)
  Definition v_add (v : vsio) (e : entry E) : vsio * list output * res unit :=
    let '(s', r) := sio_add (v_sio v) e in
    let v1 := with_sio v s' (v_first v) in
    match r with
    | Err x => (v1, [], Err x)
    | Ok _ =>
        if v_verbose v then
          if v_interval v =? 0 then (v1, [], Err ZeroDivErr)                    (* len % 0 *)
          else if Z.of_nat (List.length (s_states s')) mod v_interval v =? 0 then   (* 180 *)
            match make_report v1 with
            | Err x => (v1, [], Err x)
            | Ok rep => if v_first v
                        then (with_sio v s' false, [OTable rep], Ok tt)         (* 181-183 *)
                        else (v1, [OLine rep], Ok tt)                           (* 185 *)
            end
          else (v1, [], Ok tt)
        else (v1, [], Ok tt)
    end.

  (** The other calls print nothing. *)
  Definition v_step (v : vsio) (o : sop E) : vsio * list output :=
    match o with
    | IAdd e => fst (v_add v e)
    | _ => (with_sio v (sio_step upd diff (v_sio v) o) (v_first v), [])
    end.

  (** A history of calls; what each of them printed. *)
  Fixpoint v_run (v : vsio) (h : list (sop E)) : vsio * list (list output) :=
    match h with
    | [] => (v, [])
    | o :: h' => let (v1, out) := v_step v o in
                 let (v2, outs) := v_run v1 h' in (v2, out :: outs)
    end.

  (** state_io.py 75-111 [__init__]. *)
  Definition v_new (round : nat) (train test : list E) (L U : C) (verbose : bool) (interval : Z) : vsio :=
    {| v_sio := sio_new train test L U; v_round := round; v_verbose := verbose; v_interval := interval;
       v_first := true |}.
End Progress.
Arguments vsio C E : clear implicits.
