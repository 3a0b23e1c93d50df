(** C34-C36: any number of [ConcurrencyLimit] instances sharing one limit, and
    their response futures.  First the system built from the model, then an
    independent specification of how it must behave. *)
From Verif Require Import Base Middleware Limits.
Set Implicit Arguments.

Section ConcSpec.
  Context {W Req Resp Err : Type} (svc : Service W Req Resp Err) (max : nat).

  (** What the owners of the instances and futures can do, in any order.  An
      object is named by its position of creation. *)
  Inductive cop :=
  | CReady (i : nat)                (* poll_ready on instance [i] *)
  | CCall (i : nat) (r : Req)       (* call on instance [i] *)
  | CClone (i : nat)
  | CNew (s : st svc)               (* another service put under the same limit (GlobalConcurrencyLimitLayer,
                                       limit/concurrency/layer.rs:32-60: [with_semaphore] on the shared semaphore) *)
  | CDropSvc (i : nat)
  | CPoll (j : nat)                 (* poll future [j] *)
  | CDropFut (j : nat)
  | CEnv (g : W -> W).              (* anything else in the program *)
  Inductive cobs :=
  | CoReady (a : poll (result unit Err))
  | CoCalled (j : nat)
  | CoCloned (i : nat)
  | CoPolled (a : poll (result Resp Err))
  | CoDone
  | CoNone                          (* no such object (any more) *)
  | CoPanic | CoDiverge.

  (** ** The system.  Dropped objects leave [None] behind. *)
  Notation cl := (conc_limit svc (fun _ => false) true).
  Record sys := Sys { y_insts : list (option (st cl)); y_futs : list (option (fut cl)); y_w : sem * W }.

  (** One fresh service [s] under a new limit of [max]. *)
  Definition sys0 (s : st svc) (w : W) : sys := Sys [Some (conc_new svc s)] [] (sem_new max, w).

  Definition sys_step (o : cop) (y : sys) : sys * cobs :=
    match o with
    | CReady i =>
        match nth_error (y_insts y) i with
        | Some (Some c) =>
            match poll_ready cl c (y_w y) with
            | (w1, Val (c1, a)) => (Sys (set_nth i (Some c1) (y_insts y)) (y_futs y) w1, CoReady a)
            | (w1, Panic) => (Sys (y_insts y) (y_futs y) w1, CoPanic)
            | (w1, Diverge) => (Sys (y_insts y) (y_futs y) w1, CoDiverge)
            end
        | _ => (y, CoNone)
        end
    | CCall i r =>
        match nth_error (y_insts y) i with
        | Some (Some c) =>
            match call cl c r (y_w y) with
            | (w1, Val (c1, f)) =>
                (Sys (set_nth i (Some c1) (y_insts y)) (y_futs y ++ [Some f]) w1, CoCalled (length (y_futs y)))
            | (w1, Panic) => (Sys (y_insts y) (y_futs y) w1, CoPanic)
            | (w1, Diverge) => (Sys (y_insts y) (y_futs y) w1, CoDiverge)
            end
        | _ => (y, CoNone)
        end
    | CClone i =>
        match nth_error (y_insts y) i with
        | Some (Some c) =>
            match clone cl c (y_w y) with
            | (w1, Val c1) => (Sys (y_insts y ++ [Some c1]) (y_futs y) w1, CoCloned (length (y_insts y)))
            | (w1, Panic) => (Sys (y_insts y) (y_futs y) w1, CoPanic)
            | (w1, Diverge) => (Sys (y_insts y) (y_futs y) w1, CoDiverge)
            end
        | _ => (y, CoNone)
        end
    | CNew s => (Sys (y_insts y ++ [Some (conc_new svc s)]) (y_futs y) (y_w y), CoCloned (length (y_insts y)))
    | CDropSvc i =>
        match nth_error (y_insts y) i with
        | Some (Some c) => (Sys (set_nth i None (y_insts y)) (y_futs y) (drop_svc cl c (y_w y)), CoDone)
        | _ => (y, CoNone)
        end
    | CPoll j =>
        match nth_error (y_futs y) j with
        | Some (Some f) =>
            match poll_fut cl f (y_w y) with
            | (w1, Val (f1, a)) => (Sys (y_insts y) (set_nth j (Some f1) (y_futs y)) w1, CoPolled a)
            | (w1, Panic) => (Sys (y_insts y) (y_futs y) w1, CoPanic)
            | (w1, Diverge) => (Sys (y_insts y) (y_futs y) w1, CoDiverge)
            end
        | _ => (y, CoNone)
        end
    | CDropFut j =>
        match nth_error (y_futs y) j with
        | Some (Some f) => (Sys (y_insts y) (set_nth j None (y_futs y)) (drop_fut cl f (y_w y)), CoDone)
        | _ => (y, CoNone)
        end
    | CEnv g => (Sys (y_insts y) (y_futs y) (fst (y_w y), g (snd (y_w y))), CoDone)
    end.

  (** A history stops at a panic.  Entries: what was observed, and the inner
      world (the wrapped services' own doings) after it. *)
  Fixpoint sys_run (y : sys) (l : list cop) : list (cobs * W) * sys :=
    match l with
    | [] => ([], y)
    | o :: l' =>
        let '(y1, b) := sys_step o y in
        match b with
        | CoPanic | CoDiverge => ([(b, snd (y_w y1))], y1)
        | _ => let '(h, y2) := sys_run y1 l' in ((b, snd (y_w y1)) :: h, y2)
        end
    end.

  (** ** The specification: bare services, a flag per instance saying whether it
      has a permit, the instances waiting for one in order of arrival, and the
      requests in flight.  There is no semaphore. *)
  Record spec := Spec {
    p_insts : list (option (st svc * bool)); p_line : list nat; p_futs : list (option (fut svc)); p_w : W }.
  Definition spec0 (s : st svc) (w : W) : spec := Spec [Some (s, false)] [] [] w.

  Definition in_flight (sp : spec) : nat :=
    length (List.filter (fun f => match f with Some _ => true | None => false end) (p_futs sp)).
  Definition holding (sp : spec) : nat :=
    length (List.filter (fun x => match x with Some (_, true) => true | _ => false end) (p_insts sp)).
  (** Permits neither held by an instance nor by a request in flight. *)
  Definition unused (sp : spec) : nat := max - (holding sp + in_flight sp).

  (** How many wait ahead of [i]: its position in the line; the whole line if it
      is not in it. *)
  Fixpoint ahead (i : nat) (line : list nat) : nat :=
    match line with
    | [] => 0
    | k :: l => if k =? i then 0 else S (ahead i l)
    end.
  Definition leave (i : nat) (line : list nat) : list nat := List.filter (fun k => negb (k =? i)) line.
  Definition join (i : nat) (line : list nat) : list nat :=
    if existsb (Nat.eqb i) line then line else line ++ [i].

  Definition spec_step (o : cop) (sp : spec) : spec * cobs :=
    match o with
    | CReady i =>
        match nth_error (p_insts sp) i with
        | Some (Some (s, permit)) =>
            (* has a permit, or gets one because there is one for it and for everybody ahead *)
            if permit || (ahead i (p_line sp) <? unused sp) then
              let line := if permit then p_line sp else leave i (p_line sp) in
              match poll_ready svc s (p_w sp) with
              | (w1, Val (s1, a)) => (Spec (set_nth i (Some (s1, true)) (p_insts sp)) line (p_futs sp) w1, CoReady a)
              | (w1, Panic) => (Spec (p_insts sp) line (p_futs sp) w1, CoPanic)
              | (w1, Diverge) => (Spec (p_insts sp) line (p_futs sp) w1, CoDiverge)
              end
            else
              (* waits; the wrapped service is not touched *)
              (Spec (p_insts sp) (join i (p_line sp)) (p_futs sp) (p_w sp), CoReady Pending)
        | _ => (sp, CoNone)
        end
    | CCall i r =>
        match nth_error (p_insts sp) i with
        | Some (Some (s, true)) =>
            match call svc s r (p_w sp) with
            | (w1, Val (s1, f)) =>
                (* the permit goes with the request *)
                (Spec (set_nth i (Some (s1, false)) (p_insts sp)) (p_line sp) (p_futs sp ++ [Some f]) w1,
                 CoCalled (length (p_futs sp)))
            | (w1, Panic) => (Spec (p_insts sp) (p_line sp) (p_futs sp) w1, CoPanic)
            | (w1, Diverge) => (Spec (p_insts sp) (p_line sp) (p_futs sp) w1, CoDiverge)
            end
        | Some (Some (_, false)) => (sp, CoPanic)
        | _ => (sp, CoNone)
        end
    | CClone i =>
        match nth_error (p_insts sp) i with
        | Some (Some (s, _)) =>
            match clone svc s (p_w sp) with
            | (w1, Val s1) =>
                (Spec (p_insts sp ++ [Some (s1, false)]) (p_line sp) (p_futs sp) w1, CoCloned (length (p_insts sp)))
            | (w1, Panic) => (Spec (p_insts sp) (p_line sp) (p_futs sp) w1, CoPanic)
            | (w1, Diverge) => (Spec (p_insts sp) (p_line sp) (p_futs sp) w1, CoDiverge)
            end
        | _ => (sp, CoNone)
        end
    | CNew s =>
        (Spec (p_insts sp ++ [Some (s, false)]) (p_line sp) (p_futs sp) (p_w sp), CoCloned (length (p_insts sp)))
    | CDropSvc i =>
        match nth_error (p_insts sp) i with
        | Some (Some (s, _)) =>
            (Spec (set_nth i None (p_insts sp)) (leave i (p_line sp)) (p_futs sp) (drop_svc svc s (p_w sp)), CoDone)
        | _ => (sp, CoNone)
        end
    | CPoll j =>
        match nth_error (p_futs sp) j with
        | Some (Some f) =>
            match poll_fut svc f (p_w sp) with
            | (w1, Val (f1, a)) => (Spec (p_insts sp) (p_line sp) (set_nth j (Some f1) (p_futs sp)) w1, CoPolled a)
            | (w1, Panic) => (Spec (p_insts sp) (p_line sp) (p_futs sp) w1, CoPanic)
            | (w1, Diverge) => (Spec (p_insts sp) (p_line sp) (p_futs sp) w1, CoDiverge)
            end
        | _ => (sp, CoNone)
        end
    | CDropFut j =>
        match nth_error (p_futs sp) j with
        | Some (Some f) =>
            (Spec (p_insts sp) (p_line sp) (set_nth j None (p_futs sp)) (drop_fut svc f (p_w sp)), CoDone)
        | _ => (sp, CoNone)
        end
    | CEnv g => (Spec (p_insts sp) (p_line sp) (p_futs sp) (g (p_w sp)), CoDone)
    end.

  Fixpoint spec_run (sp : spec) (l : list cop) : list (cobs * W) * spec :=
    match l with
    | [] => ([], sp)
    | o :: l' =>
        let '(sp1, b) := spec_step o sp in
        match b with
        | CoPanic | CoDiverge => ([(b, p_w sp1)], sp1)
        | _ => let '(h, sp2) := spec_run sp1 l' in ((b, p_w sp1) :: h, sp2)
        end
    end.

  (** Directly on the system: requests in flight, and everything dropped. *)
  Definition live {A} (l : list (option A)) : nat :=
    length (List.filter (fun f => match f with Some _ => true | None => false end) l).
End ConcSpec.
Arguments CReady {W Req Resp Err svc} i.
Arguments CCall {W Req Resp Err svc} i r.
Arguments CClone {W Req Resp Err svc} i.
Arguments CNew {W Req Resp Err svc} s.
Arguments CDropSvc {W Req Resp Err svc} i.
Arguments CPoll {W Req Resp Err svc} j.
Arguments CDropFut {W Req Resp Err svc} j.
Arguments CEnv {W Req Resp Err svc} g.
Arguments Spec {W Req Resp Err svc} _ _ _ _.
Arguments Sys {W Req Resp Err svc} _ _ _.
