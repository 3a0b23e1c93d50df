(** Several load-tracked services at once: the [Arc]s of all of them, on a heap. *)
From Verif Require Import Base ReadyCache Load Middleware.
Set Implicit Arguments.

(** tower/src/load/pending_requests.rs:19-28, peak_ewma.rs:41-57: every tracked service has an [Arc] of its own.
    Load.v models one of them, in a world with just that [Arc]; here the services and handles hold addresses
    (addresses are not used again).  [c_gone] is a history variable: how often the service owning the cell has been
    dropped.  Nothing reads it. *)
Section Arcs.
  Context {W C : Type}.
  Record cell := Cell { c_arc : arc (C := C); c_gone : nat }.
  Notation HW := (list cell * W)%type.

  (** An operation on the [Arc] at an address.  (A dangling address, which safe Rust has not, panics.) *)
  Definition at_arc (a : nat) {A} (m : M (arc * W) A) : M HW A :=
    fun x =>
      match nth_error (fst x) a with
      | None => (x, Panic)
      | Some c => match m (c_arc c, snd x) with
                  | ((r1, w1), o) => ((set_nth a (Cell r1 (c_gone c)) (fst x), w1), o)
                  end
      end.
  Definition at_arc_drop (a : nat) (own : bool) (g : arc * W -> arc * W) (x : HW) : HW :=
    match nth_error (fst x) a with
    | None => x
    | Some c => let '(r1, w1) := g (c_arc c, snd x) in
                (set_nth a (Cell r1 (if own then S (c_gone c) else c_gone c)) (fst x), w1)
    end.
  (** [Arc::new]; [fresh] also computes the content (a clock reading, for PeakEwma). *)
  Definition new_arc (fresh : W -> arc * W) : M HW nat :=
    fun x => let '(r, w1) := fresh (snd x) in ((fst x ++ [Cell r 0], w1), Val (length (fst x))).
  (** Code that has none of these [Arc]s. *)
  Definition off_heap {A} (m : M W A) : M HW A :=
    fun x => match m (snd x) with (w1, o) => ((fst x, w1), o) end.

  (** PendingRequests, PeakEwma: pending_requests.rs:78-98, peak_ewma.rs:110-129, completion.rs:41-84. *)
  Context {Req Resp Err T : Type} (svc : Service W Req Resp Err).
  Context (start : M W T) (finish : T -> C -> W -> C * W) (keep : Resp -> W -> W * bool).
  Notation tl := (tracked_load svc start finish keep).
  Definition tracked_at : Service HW Req (Resp * option (nat * T)) Err :=
    MkService (nat * st svc) (nat * tc_fut svc (T := T))
      (fun s => '(s1, a) <- at_arc (fst s) (poll_ready tl (snd s)) ;; ret ((fst s, s1), a))
      (fun s r => '(s1, f) <- at_arc (fst s) (call tl (snd s) r) ;; ret ((fst s, s1), (fst s, f)))
      (fun f => '(f1, p) <- at_arc (fst f) (poll_fut tl (snd f)) ;;
                ret ((fst f, f1), poll_map (map_ok (fun v => (fst v, option_map (pair (fst f)) (snd v)))) p))
      (fun _ => panic)
      (fun s => at_arc_drop (fst s) true (drop_svc tl (snd s)))
      (fun f => at_arc_drop (fst f) false (drop_fut tl (snd f))).
  (** [Load::load] of one of them *)
  Definition load_at {Met} (load : M (arc * W) Met) (s : st tracked_at) : M HW Met := at_arc (fst s) load.

  (** PendingRequestsDiscover, PeakEwmaDiscover: pending_requests.rs:119-143, peak_ewma.rs:185-214. *)
  Definition tracked_discover {K E} (D : Discover W K (st svc) E) (fresh : W -> arc * W) : Discover HW K (st tracked_at) E :=
    map_discover (W := HW)
      (MkDiscover (dst D) (fun d => off_heap (poll_discover D d)) (fun d x => (fst x, ddrop D d (snd x))))
      (fun s => a <- new_arc fresh ;; ret (a, s)).
End Arcs.
Arguments Cell {C} c_arc c_gone.
Arguments load_at {W C Req Resp Err T} svc start finish keep {Met} load s.

(** PendingRequests, its [Load] and PendingRequestsDiscover *)
Definition pending_requests {W Req Resp Err} (svc : Service W Req Resp Err) (keep : Resp -> W -> W * bool) :=
  tracked_at svc (pr_start (W := W)) pr_finish keep.
Definition pending_load {W Req Resp Err} (svc : Service W Req Resp Err) (keep : Resp -> W -> W * bool) : st (pending_requests svc keep) -> M _ nat :=
  load_at svc (pr_start (W := W)) pr_finish keep pr_load.
Definition pending_discover {W Req Resp Err K E} (svc : Service W Req Resp Err) (keep : Resp -> W -> W * bool) (D : Discover W K (st svc) E) :=
  tracked_discover svc (pr_start (W := W)) pr_finish keep D (fun w => (arc_new tt, w)).
Arguments pending_load {W Req Resp Err} svc keep s.
