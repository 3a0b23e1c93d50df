(** Shared vocabulary of the model: polls, results, panics, worlds, services,
    and the drivers that play the role of a caller.

    Conventions.
    - A Rust function taking [&mut self] becomes a function returning the new
      self.  Everything that is *not* owned by the value (clock, other tasks,
      channels, the environment of the wrapped service, ...) lives in a world
      [W], threaded through explicitly.
    - A panic is the explicit outcome [Panic]; a loop that the Rust code does
      not bound runs on fuel and yields the explicit outcome [Diverge] when the
      fuel is used up.  Neither is a normal-looking value. *)
From Coq Require Export List Bool Arith ZArith Lia.
Export ListNotations.
Set Implicit Arguments.

(** std::task::Poll *)
Inductive poll (A : Type) : Type := Pending | Ready (a : A).
Arguments Pending {A}.
Arguments Ready {A} a.

(** std::result::Result (constructor [Er] is Rust's [Err]) *)
Inductive result (A E : Type) : Type := Ok (a : A) | Er (e : E).
Arguments Ok {A E} a.
Arguments Er {A E} e.

(** How running a piece of Rust code can end. *)
Inductive out (A : Type) : Type := Val (a : A) | Panic | Diverge.
Arguments Val {A} a.
Arguments Panic {A}.
Arguments Diverge {A}.

(** A computation: reads and changes the world, then ends in some way.  The
    world is returned even on a panic, so effects before it stay visible. *)
Definition M (W A : Type) : Type := W -> W * out A.

Definition ret {W A} (a : A) : M W A := fun w => (w, Val a).
Definition panic {W A} : M W A := fun w => (w, Panic).
Definition diverge {W A} : M W A := fun w => (w, Diverge).
Definition bind {W A B} (m : M W A) (k : A -> M W B) : M W B :=
  fun w => match m w with
           | (w1, Val a) => k a w1
           | (w1, Panic) => (w1, Panic)
           | (w1, Diverge) => (w1, Diverge)
           end.
Definition get {W A} (f : W -> A) : M W A := fun w => (w, Val (f w)).
Definition modify {W} (f : W -> W) : M W unit := fun w => (f w, Val tt).

Notation "x <- m ;; k" := (bind m (fun x => k))
  (at level 61, m at next level, right associativity).
Notation "' p <- m ;; k" := (bind m (fun x => let p := x in k))
  (at level 61, p pattern, m at next level, right associativity).
Notation "m ;;; k" := (bind m (fun _ => k)) (at level 61, right associativity).

(** tower-service/src/lib.rs:311-358, trait [Service].
    [st] is the Rust type implementing [Service], [fut] its associated
    [Future].  [clone], [drop_svc] and [drop_fut] are [Clone::clone] and the
    [Drop] glue: they matter because permits, load handles and the like are
    released there.  Drops cannot fail.  The [&mut Context] (waker) argument is not modelled. *)
Record Service (W Req Resp Err : Type) : Type := MkService {
  st : Type;
  fut : Type;
  poll_ready : st -> M W (st * poll (result unit Err));
  call : st -> Req -> M W (st * fut);
  poll_fut : fut -> M W (fut * poll (result Resp Err));
  clone : st -> M W st;
  drop_svc : st -> W -> W;
  drop_fut : fut -> W -> W
}.
Arguments MkService {W Req Resp Err} st fut poll_ready call poll_fut clone drop_svc drop_fut.

(** Result::map_err / Result::map, Poll::map *)
Definition map_er {A E E'} (f : E -> E') (r : result A E) : result A E' :=
  match r with Ok a => Ok a | Er e => Er (f e) end.
Definition map_ok {A B E} (f : A -> B) (r : result A E) : result B E :=
  match r with Ok a => Ok (f a) | Er e => Er e end.
Definition poll_map {A B} (f : A -> B) (p : poll A) : poll B :=
  match p with Pending => Pending | Ready a => Ready (f a) end.

(** ** Drivers: what a caller can do with one service instance / one future.

    Rust's ownership rules mean that one service instance and one response
    future are each driven by one owner at a time; everything the rest of the
    program does meanwhile can only reach them through the world.  So a history
    of one object is a list of the owner's operations, each preceded by an
    arbitrary change [g : W -> W] of the world (time passing, other tasks
    running, the wrapped service's environment changing its mind...). *)

Section Drivers.
  Context {W Req Resp Err : Type} (svc : Service W Req Resp Err).

  (** Poll one future, once per element of the list, until it completes.
      Answers are listed in chronological order together with the world right
      after each poll. *)
  Fixpoint run_fut (f : fut svc) (w : W) (gs : list (W -> W))
    : list (W * out (poll (result Resp Err))) :=
    match gs with
    | [] => []
    | g :: gs' =>
        match poll_fut svc f (g w) with
        | (w1, Val (f1, Pending)) => (w1, Val Pending) :: run_fut f1 w1 gs'
        | (w1, Val (_, Ready r)) => [(w1, Val (Ready r))]
        | (w1, Panic) => [(w1, Panic)]
        | (w1, Diverge) => [(w1, Diverge)]
        end
    end.

  (** What the owner of a service instance sees. *)
  Inductive sop := SReady | SCall (r : Req).
  Inductive sobs :=
  | ObsReady (a : poll (result unit Err))
  | ObsCall (r : Req) (f : fut svc)
  | ObsSkip        (* the contract forbids the operation here: not performed *)
  | ObsPanic
  | ObsDiverge.

  (** Phase of an instance according to its owner: the [Service] contract
      (tower-service/src/lib.rs:321-356) allows [call] only after a
      [poll_ready] that answered [Ready(Ok)] not yet used up by a [call], and
      nothing at all after [Ready(Err)]. *)
  Inductive phase := Idle | Primed | Dead.

  Definition phase_after (a : poll (result unit Err)) : phase :=
    match a with
    | Pending => Idle
    | Ready (Ok _) => Primed
    | Ready (Er _) => Dead
    end.

  (** Drive one instance through a list of operations, respecting the contract
      (operations the contract forbids are skipped).  Each entry lists the world
      right before the operation, what was observed, and the world after it. *)
  Fixpoint run_svc (p : phase) (s : st svc) (w : W) (ops : list ((W -> W) * sop))
    : list (W * sobs * W) :=
    match ops with
    | [] => []
    | (g, o) :: ops' =>
        match o, p with
        | _, Dead => (g w, ObsSkip, g w) :: run_svc p s (g w) ops'
        | SCall _, Idle => (g w, ObsSkip, g w) :: run_svc p s (g w) ops'
        | SReady, _ =>
            match poll_ready svc s (g w) with
            | (w1, Val (s1, a)) => (g w, ObsReady a, w1) :: run_svc (phase_after a) s1 w1 ops'
            | (w1, Panic) => [(g w, ObsPanic, w1)]
            | (w1, Diverge) => [(g w, ObsDiverge, w1)]
            end
        | SCall r, Primed =>
            match call svc s r (g w) with
            | (w1, Val (s1, f)) => (g w, ObsCall r f, w1) :: run_svc Idle s1 w1 ops'
            | (w1, Panic) => [(g w, ObsPanic, w1)]
            | (w1, Diverge) => [(g w, ObsDiverge, w1)]
            end
        end
    end.
End Drivers.

Arguments SReady {Req}.
Arguments SCall {Req} r.
Arguments ObsReady {W Req Resp Err svc} a.
Arguments ObsCall {W Req Resp Err svc} r f.
Arguments ObsSkip {W Req Resp Err svc}.
Arguments ObsPanic {W Req Resp Err svc}.
Arguments ObsDiverge {W Req Resp Err svc}.

(** ** Recording wrapper.

    [logged inj svc] behaves exactly like [svc] but appends to a log in the
    world every operation performed on it together with its answer.  Newest
    event first. *)
Inductive ev (Req Resp Err : Type) : Type :=
| EvReady (a : poll (result unit Err))
| EvCall (r : Req)
| EvPoll (a : poll (result Resp Err))
| EvClone
| EvDropSvc
| EvDropFut.
Arguments EvReady {Req Resp Err} a.
Arguments EvCall {Req Resp Err} r.
Arguments EvPoll {Req Resp Err} a.
Arguments EvClone {Req Resp Err}.
Arguments EvDropSvc {Req Resp Err}.
Arguments EvDropFut {Req Resp Err}.

(** Run a computation of the base world inside the world-with-a-log. *)
Definition lift_log {W L A} (m : M W A) : M (W * list L) A :=
  fun wl => match m (fst wl) with (w1, o) => ((w1, snd wl), o) end.
Definition emit {W L} (e : L) : M (W * list L) unit :=
  fun wl => ((fst wl, e :: snd wl), Val tt).
(** A change of the base world, seen in the world-with-a-log. *)
Definition env_log {W L} (g : W -> W) : (W * list L) -> W * list L :=
  fun wl => (g (fst wl), snd wl).

Definition logged {W L Req Resp Err} (inj : ev Req Resp Err -> L)
  (svc : Service W Req Resp Err) : Service (W * list L) Req Resp Err :=
  MkService (st svc) (fut svc)
    (fun s => x <- lift_log (poll_ready svc s) ;; emit (inj (EvReady (snd x))) ;;; ret x)
    (fun s r => x <- lift_log (call svc s r) ;; emit (inj (EvCall r)) ;;; ret x)
    (fun f => x <- lift_log (poll_fut svc f) ;; emit (inj (EvPoll (snd x))) ;;; ret x)
    (fun s => x <- lift_log (clone svc s) ;; emit (inj EvClone) ;;; ret x)
    (fun s wl => (drop_svc svc s (fst wl), inj EvDropSvc :: snd wl))
    (fun f wl => (drop_fut svc f (fst wl), inj EvDropFut :: snd wl)).

(** A plain asynchronous computation (a Rust [Future] that is not tied to a
    service: a policy's future, an async predicate, ...). *)
Record Task (W A : Type) : Type := MkTask {
  tst : Type;
  tpoll : tst -> M W (tst * poll A);
  tdrop : tst -> W -> W
}.
Arguments MkTask {W A} tst tpoll tdrop.

(** ** Time.  tokio's clock and timers: [now] is [tokio::time::Instant::now()];
    a [Sleep] is represented by its deadline, and polling it answers [Ready]
    exactly when [fired].  Polling it also changes the world: [nap] registers
    the task's waker with the timer (or does whatever else tokio does there).
    The only facts about timers the proofs use are that a timer never fires
    early (it may fire late: millisecond granularity) and that polling one
    neither moves the clock nor makes any timer fire or unfire. *)
Record Rt (W : Type) : Type := MkRt {
  now : W -> Z;
  fired : W -> Z -> bool;
  nap : Z -> W -> W;
  fired_sound : forall w d, fired w d = true -> (d <= now w)%Z;
  now_nap : forall w d, now (nap d w) = now w;
  fired_nap : forall w d d', fired (nap d w) d' = fired w d'
}.

(** [Sleep::poll] (tokio::time): has the deadline passed? *)
Definition sleep_poll {W} (rt : Rt W) (d : Z) : M W bool :=
  b <- get (fun w => fired rt w d) ;; modify (nap rt d) ;;; ret b.
