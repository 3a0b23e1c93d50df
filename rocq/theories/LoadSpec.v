(** Specification of load tracking (C53-C55): histories of one PendingRequests or
    PeakEwma and all the requests made through it. *)
From Verif Require Import Base Middleware Load.
Set Implicit Arguments.

(** What its owner, and the owners of the futures and of the handles that the
    TrackCompletion kept, can do, in any order.  Requests are numbered in the order of the calls. *)
Inductive lop (W Req : Type) :=
| LReady
| LCall (r : Req)
| LPoll (j : nat)                 (* poll the future of request [j] *)
| LDropFut (j : nat)              (* drop it *)
| LDropHandle (j : nat)           (* drop the handle that was kept from request [j] *)
| LLoad
| LDropSvc
| LEnv (g : W -> W).              (* anything else in the program *)
Arguments LReady {W Req}.
Arguments LCall {W Req} r.
Arguments LPoll {W Req} j.
Arguments LDropFut {W Req} j.
Arguments LDropHandle {W Req} j.
Arguments LLoad {W Req}.
Arguments LDropSvc {W Req}.
Arguments LEnv {W Req} g.

Inductive lobs (Resp Err Met : Type) :=
| LoReady (a : poll (result unit Err))
| LoCalled
| LoPolled (a : poll (result (Resp * bool) Err))   (* the response, and whether the handle was kept *)
| LoLoad (m : Met)
| LoDone
| LoNone                          (* no such object (any more) *)
| LoPanic | LoDiverge.
Arguments LoReady {Resp Err Met} a.
Arguments LoCalled {Resp Err Met}.
Arguments LoPolled {Resp Err Met} a.
Arguments LoLoad {Resp Err Met} m.
Arguments LoDone {Resp Err Met}.
Arguments LoNone {Resp Err Met}.
Arguments LoPanic {Resp Err Met}.
Arguments LoDiverge {Resp Err Met}.

Section System.
  Context {W Req Resp Err C T Met : Type} (svc : Service W Req Resp Err).
  Context (start : M W T) (finish : T -> C -> W -> C * W) (keep : Resp -> W -> W * bool).
  Notation lop := (lop W Req).
  Notation lobs := (lobs Resp Err Met).

  (** ** The system built from the model. *)
  Context (load : M (arc (C := C) * W) Met).
  Notation tl := (tracked_load svc start finish keep).
  Record lsys := LSys {
    l_svc : option (st tl); l_futs : list (option (fut tl)); l_kept : list (option T); l_w : arc (C := C) * W }.
  Definition lsys0 (s : st svc) (x : arc * W) : lsys := LSys (Some s) [] [] x.

  Definition lsys_step (o : lop) (y : lsys) : lsys * lobs :=
    match o with
    | LReady =>
        match l_svc y with
        | Some s =>
            match poll_ready tl s (l_w y) with
            | (w1, Val (s1, a)) => (LSys (Some s1) (l_futs y) (l_kept y) w1, LoReady a)
            | (w1, Panic) => (LSys (l_svc y) (l_futs y) (l_kept y) w1, LoPanic)
            | (w1, Diverge) => (LSys (l_svc y) (l_futs y) (l_kept y) w1, LoDiverge)
            end
        | None => (y, LoNone)
        end
    | LCall r =>
        match l_svc y with
        | Some s =>
            match call tl s r (l_w y) with
            | (w1, Val (s1, f)) => (LSys (Some s1) (l_futs y ++ [Some f]) (l_kept y ++ [None]) w1, LoCalled)
            | (w1, Panic) => (LSys (l_svc y) (l_futs y) (l_kept y) w1, LoPanic)
            | (w1, Diverge) => (LSys (l_svc y) (l_futs y) (l_kept y) w1, LoDiverge)
            end
        | None => (y, LoNone)
        end
    | LPoll j =>
        match nth_error (l_futs y) j with
        | Some (Some f) =>
            match poll_fut tl f (l_w y) with
            | (w1, Val (f1, a)) =>
                let kept := match a with Ready (Ok (_, Some t)) => set_nth j (Some t) (l_kept y) | _ => l_kept y end in
                let b := match a with
                         | Pending => Pending
                         | Ready (Ok (v, h)) => Ready (Ok (v, match h with Some _ => true | None => false end))
                         | Ready (Er e) => Ready (Er e)
                         end in
                (LSys (l_svc y) (set_nth j (Some f1) (l_futs y)) kept w1, LoPolled b)
            | (w1, Panic) => (LSys (l_svc y) (l_futs y) (l_kept y) w1, LoPanic)
            | (w1, Diverge) => (LSys (l_svc y) (l_futs y) (l_kept y) w1, LoDiverge)
            end
        | _ => (y, LoNone)
        end
    | LDropFut j =>
        match nth_error (l_futs y) j with
        | Some (Some f) => (LSys (l_svc y) (set_nth j None (l_futs y)) (l_kept y) (drop_fut tl f (l_w y)), LoDone)
        | _ => (y, LoNone)
        end
    | LDropHandle j =>
        match nth_error (l_kept y) j with
        | Some (Some t) =>
            (LSys (l_svc y) (l_futs y) (set_nth j None (l_kept y)) (drop_handle finish t (l_w y)), LoDone)
        | _ => (y, LoNone)
        end
    | LLoad =>
        match l_svc y with
        | Some s =>
            match load (l_w y) with
            | (w1, Val m) => (LSys (l_svc y) (l_futs y) (l_kept y) w1, LoLoad m)
            | (w1, Panic) => (LSys (l_svc y) (l_futs y) (l_kept y) w1, LoPanic)
            | (w1, Diverge) => (LSys (l_svc y) (l_futs y) (l_kept y) w1, LoDiverge)
            end
        | None => (y, LoNone)
        end
    | LDropSvc =>
        match l_svc y with
        | Some s => (LSys None (l_futs y) (l_kept y) (drop_svc tl s (l_w y)), LoDone)
        | None => (y, LoNone)
        end
    | LEnv g => (LSys (l_svc y) (l_futs y) (l_kept y) (fst (l_w y), g (snd (l_w y))), LoDone)
    end.

  (** A history stops at a panic.  Entries: what was done, what was observed, and the
      world (clock, wrapped service, ...) after it. *)
  Fixpoint lsys_run (y : lsys) (l : list lop) : list (lop * lobs * W) :=
    match l with
    | [] => []
    | o :: l' =>
        let '(y1, b) := lsys_step o y in
        (o, b, snd (l_w y1)) :: match b with LoPanic | LoDiverge => [] | _ => lsys_run y1 l' end
    end.

  (** ** The reference: no reference count, no handles.  Every request is waiting
      for its response, or its handle is kept, or it is finished; [estimate] is told
      when a request finishes. *)
  Inductive rq := Waiting (t : T) | Kept (t : T) | Finished.
  Record rsys := RSys {
    r_svc : option (st svc); r_futs : list (option (fut svc)); r_reqs : list rq; r_est : C; r_w : W }.
  Definition rsys0 (s : st svc) (c : C) (w : W) : rsys := RSys (Some s) [] [] c w.
  Definition is_open (q : rq) : bool := match q with Finished => false | _ => true end.
  Definition open (y : rsys) : nat := length (List.filter is_open (r_reqs y)).
  (** Load, given the number of unfinished requests. *)
  Context (rload : nat -> C -> W -> C * W * Met).

  Definition rsys_step (o : lop) (y : rsys) : rsys * lobs :=
    match o with
    | LReady =>
        match r_svc y with
        | Some s =>
            match poll_ready svc s (r_w y) with
            | (w1, Val (s1, a)) => (RSys (Some s1) (r_futs y) (r_reqs y) (r_est y) w1, LoReady a)
            | (w1, Panic) => (RSys (r_svc y) (r_futs y) (r_reqs y) (r_est y) w1, LoPanic)
            | (w1, Diverge) => (RSys (r_svc y) (r_futs y) (r_reqs y) (r_est y) w1, LoDiverge)
            end
        | None => (y, LoNone)
        end
    | LCall r =>
        match r_svc y with
        | Some s =>
            match start (r_w y) with
            | (w1, Val t) =>
                match call svc s r w1 with
                | (w2, Val (s1, f)) => (RSys (Some s1) (r_futs y ++ [Some f]) (r_reqs y ++ [Waiting t]) (r_est y) w2, LoCalled)
                | (w2, Panic) =>
                    let '(c3, w3) := finish t (r_est y) w2 in (RSys (r_svc y) (r_futs y) (r_reqs y) c3 w3, LoPanic)
                | (w2, Diverge) => (RSys (r_svc y) (r_futs y) (r_reqs y) (r_est y) w2, LoDiverge)
                end
            | (w1, Panic) => (RSys (r_svc y) (r_futs y) (r_reqs y) (r_est y) w1, LoPanic)
            | (w1, Diverge) => (RSys (r_svc y) (r_futs y) (r_reqs y) (r_est y) w1, LoDiverge)
            end
        | None => (y, LoNone)
        end
    | LPoll j =>
        match nth_error (r_futs y) j with
        | Some (Some f) =>
            match poll_fut svc f (r_w y) with
            | (w1, Val (f1, a)) =>
                let futs1 := set_nth j (Some f1) (r_futs y) in
                match a with
                | Pending => (RSys (r_svc y) futs1 (r_reqs y) (r_est y) w1, LoPolled Pending)
                | Ready (Er e) => (RSys (r_svc y) futs1 (r_reqs y) (r_est y) w1, LoPolled (Ready (Er e)))
                | Ready (Ok v) =>
                    match nth_error (r_reqs y) j with
                    | Some (Waiting t) =>
                        let '(w2, k) := keep v w1 in
                        if k then (RSys (r_svc y) futs1 (set_nth j (Kept t) (r_reqs y)) (r_est y) w2, LoPolled (Ready (Ok (v, true))))
                        else let '(c3, w3) := finish t (r_est y) w2 in
                             (RSys (r_svc y) futs1 (set_nth j Finished (r_reqs y)) c3 w3, LoPolled (Ready (Ok (v, false))))
                    | _ => (RSys (r_svc y) (r_futs y) (r_reqs y) (r_est y) w1, LoPanic)   (* polled after it had answered *)
                    end
                end
            | (w1, Panic) => (RSys (r_svc y) (r_futs y) (r_reqs y) (r_est y) w1, LoPanic)
            | (w1, Diverge) => (RSys (r_svc y) (r_futs y) (r_reqs y) (r_est y) w1, LoDiverge)
            end
        | _ => (y, LoNone)
        end
    | LDropFut j =>
        match nth_error (r_futs y) j with
        | Some (Some f) =>
            let w1 := drop_fut svc f (r_w y) in
            match nth_error (r_reqs y) j with
            | Some (Waiting t) =>
                let '(c2, w2) := finish t (r_est y) w1 in
                (RSys (r_svc y) (set_nth j None (r_futs y)) (set_nth j Finished (r_reqs y)) c2 w2, LoDone)
            | _ => (RSys (r_svc y) (set_nth j None (r_futs y)) (r_reqs y) (r_est y) w1, LoDone)
            end
        | _ => (y, LoNone)
        end
    | LDropHandle j =>
        match nth_error (r_reqs y) j with
        | Some (Kept t) =>
            let '(c1, w1) := finish t (r_est y) (r_w y) in
            (RSys (r_svc y) (r_futs y) (set_nth j Finished (r_reqs y)) c1 w1, LoDone)
        | _ => (y, LoNone)
        end
    | LLoad =>
        match r_svc y with
        | Some s =>
            let '(c1, w1, m) := rload (open y) (r_est y) (r_w y) in
            (RSys (r_svc y) (r_futs y) (r_reqs y) c1 w1, LoLoad m)
        | None => (y, LoNone)
        end
    | LDropSvc =>
        match r_svc y with
        | Some s => (RSys None (r_futs y) (r_reqs y) (r_est y) (drop_svc svc s (r_w y)), LoDone)
        | None => (y, LoNone)
        end
    | LEnv g => (RSys (r_svc y) (r_futs y) (r_reqs y) (r_est y) (g (r_w y)), LoDone)
    end.
  Fixpoint rsys_run (y : rsys) (l : list lop) : list (lop * lobs * W) :=
    match l with
    | [] => []
    | o :: l' =>
        let '(y1, b) := rsys_step o y in
        (o, b, r_w y1) :: match b with LoPanic | LoDiverge => [] | _ => rsys_run y1 l' end
    end.
End System.

(** ** The number of unfinished requests, from the history alone. *)
Inductive life := InFuture | WithHandle | Over.
Definition life_step {W Req Resp Err Met : Type} (l : list life) (e : lop W Req * lobs Resp Err Met) : list life :=
  match e with
  | (LCall _, LoCalled) => l ++ [InFuture]
  | (LPoll j, LoPolled (Ready (Ok (_, kept)))) => set_nth j (if kept then WithHandle else Over) l
  | (LDropFut j, LoDone) => match nth_error l j with Some InFuture => set_nth j Over l | _ => l end
  | (LDropHandle j, LoDone) => set_nth j Over l
  | _ => l
  end.
Definition lives {W Req Resp Err Met : Type} (h : list (lop W Req * lobs Resp Err Met * W)) : list life :=
  fold_left (fun l e => life_step l (fst e)) h [].
Definition unfinished {W Req Resp Err Met : Type} (h : list (lop W Req * lobs Resp Err Met * W)) : nat :=
  length (List.filter (fun x => match x with Over => false | _ => true end) (lives h)).

(** With CompleteOnResponse: the requests whose future has neither answered with
    a response nor been dropped. *)
Definition ended {W Req Resp Err Met : Type} (h : list (lop W Req * lobs Resp Err Met * W)) (j : nat) : bool :=
  existsb (fun e => match fst e with
                    | (LPoll i, LoPolled (Ready (Ok _))) => i =? j
                    | (LDropFut i, LoDone) => i =? j
                    | _ => false
                    end) h.
Definition called {W Req Resp Err Met : Type} (h : list (lop W Req * lobs Resp Err Met * W)) : nat :=
  length (List.filter (fun e => match fst e with (LCall _, LoCalled) => true | _ => false end) h).
Definition unanswered {W Req Resp Err Met : Type} (h : list (lop W Req * lobs Resp Err Met * W)) : nat :=
  length (List.filter (fun j => negb (ended h j)) (seq 0 (called h))).
