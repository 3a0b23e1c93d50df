(** Model of tower/src/load: TrackCompletion, PendingRequests, PeakEwma, Constant and their Discover wrappers. *)
From Verif Require Import Base ReadyCache Float.
From Flocq Require Import Core BinarySingleNaN.
Set Implicit Arguments.

(** ** PendingRequests and PeakEwma: what they have in common.

    Both own an [Arc] (its strong count, and its content: nothing, or the RTT
    estimate behind a mutex).  [call] clones the [Arc] into a [Handle] that
    travels with the response future and then, as the [TrackCompletion] decides,
    with the response.  [T] is the rest of the handle (the time it was created). *)
Section Tracked.
  Context {W Req Resp Err : Type} (svc : Service W Req Resp Err).
  Context {C T : Type}.
  (** creating the rest of a handle; its [Drop] (before the [Arc] goes) *)
  Context (start : M W T) (finish : T -> C -> W -> C * W).
  (** completion.rs:30-39, [TrackCompletion::track_completion]: user code.  It is
      given the handle with the response; [keep] says whether the handle lives on
      (in the response, or wherever it was put) or is dropped there and then. *)
  Context (keep : Resp -> W -> W * bool).

  Record arc := Arc { strong : nat; content : C }.
  Notation AW := (arc * W)%type.
  Definition lift_w {A} (m : M W A) : M AW A :=
    fun x => match m (snd x) with (w1, o) => ((fst x, w1), o) end.

  (** pending_requests.rs:62-64, peak_ewma.rs:101-107 *)
  Definition new_handle : M AW T :=
    t <- lift_w start ;;
    modify (fun x : AW => (Arc (S (strong (fst x))) (content (fst x)), snd x)) ;;; ret t.
  (** peak_ewma.rs:287-295, then the drop of the [Arc] *)
  Definition drop_handle (t : T) (x : AW) : AW :=
    let '(c1, w1) := finish t (content (fst x)) (snd x) in
    (Arc (Nat.pred (strong (fst x))) c1, w1).

  (** completion.rs:48-57 *)
  Record tc_fut := TcFut { tc_inner : fut svc; tc_handle : option T }.
  (** completion.rs:78-83.  An error leaves the handle where it is. *)
  Definition tc_poll (f : tc_fut) : M AW (tc_fut * poll (result (Resp * option T) Err)) :=
    '(i, a) <- lift_w (poll_fut svc (tc_inner f)) ;;
    match a with
    | Pending => ret (TcFut i (tc_handle f), Pending)
    | Ready (Er e) => ret (TcFut i (tc_handle f), Ready (Er e))
    | Ready (Ok v) =>
        match tc_handle f with
        | None => panic
        | Some t =>
            k <- lift_w (fun w => let '(w1, k) := keep v w in (w1, Val k)) ;;
            if k then ret (TcFut i None, Ready (Ok (v, Some t)))
            else modify (drop_handle t) ;;; ret (TcFut i None, Ready (Ok (v, None)))
        end
    end.
  (** Fields in order: the future, the handle. *)
  Definition tc_drop (f : tc_fut) (x : AW) : AW :=
    let x1 := (fst x, drop_fut svc (tc_inner f) (snd x)) in
    match tc_handle f with None => x1 | Some t => drop_handle t x1 end.

  (** pending_requests.rs:91-97, peak_ewma.rs:122-128.  The handle is made first; a
      panic of the wrapped service drops it. *)
  Definition tl_call (s : st svc) (r : Req) : M AW (st svc * tc_fut) :=
    t <- new_handle ;;
    fun x => match call svc s r (snd x) with
             | (w1, Val (s1, f)) => ((fst x, w1), Val (s1, TcFut f (Some t)))
             | (w1, Panic) => (drop_handle t (fst x, w1), Panic)
             | (w1, Diverge) => ((fst x, w1), Diverge)
             end.
  (** pending_requests.rs:78-98, peak_ewma.rs:110-129.  Neither is [Clone]. *)
  Definition tracked_load : Service AW Req (Resp * option T) Err :=
    MkService (st svc) tc_fut
      (fun s => lift_w (poll_ready svc s)) tl_call tc_poll (fun _ => panic)
      (fun s x => (Arc (Nat.pred (strong (fst x))) (content (fst x)), drop_svc svc s (snd x)))
      tc_drop.
  (** A fresh [Arc]: the service's own reference. *)
  Definition arc_new (c : C) : arc := Arc 1 c.
End Tracked.
Arguments Arc {C} strong content.
Arguments TcFut {W Req Resp Err svc T} tc_inner tc_handle.

(** completion.rs:87-94 *)
Definition complete_on_response {W Resp : Type} (_ : Resp) (w : W) : W * bool := (w, false).

(** ** PendingRequests (pending_requests.rs) *)
Section PendingRequests.
  Context {W : Type}.
  Definition pr_start : M W unit := ret tt.
  Definition pr_finish (_ : unit) (c : unit) (w : W) : unit * W := (c, w).
  (** pending_requests.rs:70-73.  [usize] subtraction: a panic if it underflows. *)
  Definition pr_load : M (arc (C := unit) * W) nat :=
    fun x => match strong (fst x) with 0 => (x, Panic) | S n => (x, Val n) end.
End PendingRequests.

(** ** PeakEwma (peak_ewma.rs) *)
Local Open Scope Z_scope.
Definition add64 (x y : f64) : f64 := Bplus mode_NE x y.
Definition sub64 (x y : f64) : f64 := Bminus mode_NE x y.
Definition div64 (x y : f64) : f64 := Bdiv mode_NE x y.
Definition neg64 (x : f64) : f64 := Bopp x.
Definition lt64 (x y : f64) : bool := Bltb x y.
Definition u64_max : Z := 18446744073709551615.
Definition nanos_per_sec : Z := 1000000000.
Definition u32_mod : Z := 4294967296.

(** peak_ewma.rs:303-308.  A [Duration] is a number of nanoseconds. *)
Definition nanos (d : Z) : f64 :=
  add64 (f64_of (d mod nanos_per_sec) 0) (f64_of (Z.min u64_max ((d / nanos_per_sec) * nanos_per_sec)) 0).
(** [Instant::saturating_duration_since] *)
Definition since (a b : Z) : Z := Z.max 0 (a - b).

Section PeakEwma.
  Context {W : Type}.
  (** [Instant::now]: time may pass between any two readings. *)
  Context (clk : W -> W * Z).
  (** [f64::exp]: left to the platform. *)
  Context (exp64 : f64 -> f64).

  (** peak_ewma.rs:80-84.  [asserts]: have all [debug_assert!]s evaluated so far
      been true?  The model goes on as a release build does; as long as [asserts]
      is true a debug build does the same (and the mutex is never poisoned). *)
  Record rtt_est := RttEst { update_at : Z; rtt_ns : f64; asserts : bool }.
  Definition f_zero : f64 := f64_of 0 0.
  Definition f_one : f64 := f64_of 1 0.
  (** peak_ewma.rs:219-225 *)
  Definition rtt_new (rtt : f64) (w : W) : rtt_est * W :=
    let '(w1, now) := clk w in (RttEst now rtt (lt64 f_zero rtt), w1).
  (** peak_ewma.rs:237-282 *)
  Definition rtt_next (decay_ns : f64) (old : f64) (last now rtt_dur : Z) : f64 :=
    let rtt := nanos rtt_dur in
    if lt64 old rtt then rtt
    else
      let elapsed := nanos (since now last) in
      let decay := exp64 (div64 (neg64 elapsed) decay_ns) in
      let recency := sub64 f_one decay in
      add64 (mul64 old decay) (mul64 rtt recency).
  Definition rtt_update (decay_ns : f64) (sent_at recv_at : Z) (e : rtt_est) (w : W) : rtt_est * W :=
    let '(w1, now) := clk w in
    (RttEst now (rtt_next decay_ns (rtt_ns e) (update_at e) now (since recv_at sent_at))
       (asserts e && (sent_at <=? recv_at) && (update_at e <=? now)), w1).
  (** peak_ewma.rs:228-232 *)
  Definition rtt_decay (decay_ns : f64) (e : rtt_est) (w : W) : rtt_est * W :=
    let '(w1, now) := clk w in rtt_update decay_ns now now e w1.

  (** peak_ewma.rs:101-107 *)
  Definition pe_start : M W Z := fun w => let '(w1, now) := clk w in (w1, Val now).
  (** peak_ewma.rs:287-295 *)
  Definition pe_finish (decay_ns : f64) (sent_at : Z) (e : rtt_est) (w : W) : rtt_est * W :=
    let '(w1, now) := clk w in rtt_update decay_ns sent_at now e w1.
  (** peak_ewma.rs:91-99 *)
  Definition peak_ewma_new (decay_ns : f64) (default_rtt : Z) (w : W) : arc * W :=
    let '(e, w1) := rtt_new (nanos default_rtt) w in
    (Arc 1 (RttEst (update_at e) (rtt_ns e) (asserts e && lt64 f_zero decay_ns)), w1).
  (** peak_ewma.rs:131-151.  [as u32] keeps the low 32 bits; [- 1] and [+ 1] wrap in
      a release build, so the product is with [strong_count as u32]. *)
  Definition pe_load (decay_ns : f64) : M (arc (C := rtt_est) * W) f64 :=
    fun x => let '(a, w) := x in
      let n := Z.of_nat (strong a) mod u32_mod in
      let pending := (n - 1) mod u32_mod in
      let '(e, w1) := rtt_decay decay_ns (content a) w in
      let ok := (1 <=? n) && (pending + 1 <? u32_mod) in
      ((Arc (strong a) (RttEst (update_at e) (rtt_ns e) (asserts e && ok)), w1),
       Val (mul64 (rtt_ns e) (f64_of ((pending + 1) mod u32_mod) 0))).
End PeakEwma.

(** ** Discovery wrappers: pending_requests.rs:119-143, peak_ewma.rs:185-214, constant.rs:61-80. *)
Definition map_discover {W K S S' E} (D : Discover W K S E) (f : S -> M W S') : Discover W K S' E :=
  MkDiscover (dst D)
    (fun d => '(d1, p) <- poll_discover D d ;;
       match p with
       | Pending => ret (d1, Pending)
       | Ready None => ret (d1, Ready None)
       | Ready (Some (Er e)) => ret (d1, Ready (Some (Er e)))
       | Ready (Some (Ok (Insert k s))) => s1 <- f s ;; ret (d1, Ready (Some (Ok (Insert k s1))))
       | Ready (Some (Ok (Remove k))) => ret (d1, Ready (Some (Ok (Remove k))))
       end)
    (ddrop D).

(** ** Constant (constant.rs:28-59) *)
Section Constant.
  Context {W Req Resp Err M' : Type} (svc : Service W Req Resp Err).
  Definition constant : Service W Req Resp Err :=
    MkService (st svc * M') (fut svc)
      (fun s => '(s1, a) <- poll_ready svc (fst s) ;; ret ((s1, snd s), a))
      (fun s r => '(s1, f) <- call svc (fst s) r ;; ret ((s1, snd s), f))
      (poll_fut svc) (fun _ => panic) (fun s => drop_svc svc (fst s)) (drop_fut svc).
  Definition constant_load (s : st constant) : M' := snd s.
End Constant.
