(** Model of tower/src/hedge/. *)
From Verif Require Import Base Util Middleware.
Set Implicit Arguments.

(** ** RotatingHistogram (hedge/rotating_histogram.rs)

    The third-party [hdrhistogram::Histogram] is represented by the list of the
    recorded values, newest first. *)
Record histo := Histo { h_read : list Z; h_write : list Z; h_last : Z; h_period : Z }.

Definition u64_max : Z := (2 ^ 64 - 1)%Z.

(** rotating_histogram.rs:67-73: [nanos] of a duration given in nanoseconds
    (seconds and subsecond part recombined with saturation). *)
Definition nanos (d : Z) : Z :=
  Z.min u64_max (Z.min u64_max (d / 1000000000 * 1000000000) + d mod 1000000000)%Z.

(** rotating_histogram.rs:20-29 *)
Definition histo_new (t : Z) (period : Z) : histo := Histo [] [] t period.

(** rotating_histogram.rs:41-53 (with [rotate] 55-59 and [clear] 61-64).
    [as u32] truncates.  Division by a zero period panics. *)
Definition maybe_rotate (t : Z) (h : histo) : out histo :=
  let delta := Z.max 0 (t - h_last h)%Z in
  if (nanos (h_period h) =? 0)%Z then Panic
  else
    let rotations := ((nanos delta / nanos (h_period h)) mod 2 ^ 32)%Z in
    let last' := (h_last h + h_period h * rotations)%Z in
    if (2 <=? rotations)%Z then Val (Histo [] [] last' (h_period h))
    else if (rotations =? 1)%Z then Val (Histo (h_write h) [] last' (h_period h))
    else Val (Histo (h_read h) (h_write h) last' (h_period h)).

(** rotating_histogram.rs:31-34 followed by a use of the read side. *)
Definition histo_read (t : Z) (h : histo) : out (histo * list Z) :=
  match maybe_rotate t h with
  | Val h1 => Val (h1, h_read h1)
  | Panic => Panic
  | Diverge => Diverge
  end.

(** rotating_histogram.rs:36-39 followed by [record]. *)
Definition histo_record (t : Z) (v : Z) (h : histo) : out histo :=
  match maybe_rotate t h with
  | Val h1 => Val (Histo (h_read h1) (v :: h_write h1) (h_last h1) (h_period h1))
  | Panic => Panic
  | Diverge => Diverge
  end.

(** hedge/mod.rs:203-210: milliseconds, rounded up, saturating at u64::MAX. *)
Definition millis (d : Z) : Z :=
  Z.min u64_max (Z.min u64_max (d / 1000000000 * 1000)
                 + (d mod 1000000000 + 1000000 - 1) / 1000000)%Z.

(** ** Latency (hedge/latency.rs) *)
Section Latency.
  Context {W Req Resp Err : Type} (rt : Rt W) (svc : Service W Req Resp Err).
  (** [record d]: [Record::record] on the shared recorder. *)
  Context (record : Z -> M W unit).

  (** latency.rs:27-35 *)
  Record latency_fut := LatFut { lf_start : Z; lf_inner : fut svc }.

  (** latency.rs:50-89: the start time is read *before* the inner call; only a
      successful response is recorded. *)
  Definition latency : Service W Req Resp Err :=
    MkService (st svc) latency_fut
      (fun s => poll_ready svc s)
      (fun s r => t <- get (now rt) ;; '(s1, f) <- call svc s r ;; ret (s1, LatFut t f))
      (fun f =>
         '(f1, p) <- poll_fut svc (lf_inner f) ;;
         match p with
         | Pending => ret (LatFut (lf_start f) f1, Pending)
         | Ready (Er e) => ret (LatFut (lf_start f) f1, Ready (Er e))
         | Ready (Ok a) =>
             t <- get (now rt) ;;
             record (Z.max 0 (t - lf_start f)) ;;;
             ret (LatFut (lf_start f) f1, Ready (Ok a))
         end)
      (fun s => clone svc s)
      (fun s => drop_svc svc s)
      (fun f => drop_fut svc (lf_inner f)).
End Latency.

(** ** Delay (hedge/delay.rs) *)
Section Delay.
  Context {W Req Resp Err : Type} (rt : Rt W) (svc : Service W Req Resp Err).
  (** [policy.delay(&request)] *)
  Context (delay_of : Req -> M W Z).

  (** delay.rs:26-52 *)
  Inductive delay_state :=
  | DDelaying (deadline : Z) (req : option Req)
  | DCalled (o : oneshot_st svc).
  Record delay_fut := DelayFut { df_svc : option (st svc); df_state : delay_state }.

  (** delay.rs:75-126.  Always ready; [call] clones the service and starts the
      timer; the clone is driven as a [Oneshot] when the timer has fired.  The
      loop of [poll] runs at most twice.  Not [Clone]. *)
  Definition delay : Service W Req Resp Err :=
    MkService (st svc) delay_fut
      (fun s => ret (s, Ready (Ok tt)))
      (fun s r =>
         d <- delay_of r ;;
         s1 <- clone svc s ;;
         t <- get (now rt) ;;
         ret (s, DelayFut (Some s1) (DDelaying (t + d) (Some r))))
      (fun f =>
         let called sv o :=
           '(o1, p) <- oneshot_poll o ;; ret (DelayFut sv (DCalled o1), p) in
         match df_state f with
         | DDelaying d req =>
             b <- sleep_poll rt d ;;
             if b then
               match req, df_svc f with
               | Some r, Some s => called None (oneshot_new svc s r)
               | _, _ => panic
               end
             else ret (f, Pending)
         | DCalled o => called (df_svc f) o
         end)
      (fun _ => panic)
      (fun s => drop_svc svc s)
      (fun f w =>
         let w1 := match df_svc f with Some s => drop_svc svc s w | None => w end in
         match df_state f with DDelaying _ _ => w1 | DCalled o => oneshot_drop o w1 end).
End Delay.

(** ** Select (hedge/select.rs) *)
Section Select.
  Context {W Req Resp EA EB : Type}.
  Context (a : Service W Req Resp EA) (b : Service W Req Resp EB).
  (** [policy.clone_request(&request)] *)
  Context (clone_req : Req -> M W (option Req)).

  (** select.rs:26-34 *)
  Record select_fut := SelFut { sel_a : fut a; sel_b : option (fut b) }.

  (** select.rs:49-105.  Both services are polled every time; [b] is called
      before [a].  Errors: [inl] from [a], [inr] from [b].  Not [Clone]. *)
  Definition select : Service W Req Resp (EA + EB) :=
    MkService (st a * st b) select_fut
      (fun s =>
         '(a1, pa) <- poll_ready a (fst s) ;;
         '(b1, pb) <- poll_ready b (snd s) ;;
         ret ((a1, b1),
              match pa, pb with
              | Ready (Ok _), Ready (Ok _) => Ready (Ok tt)
              | Ready (Er e), _ => Ready (Er (inl e))
              | _, Ready (Er e) => Ready (Er (inr e))
              | _, _ => Pending
              end))
      (fun s r =>
         cr <- clone_req r ;;
         match cr with
         | Some r1 =>
             '(b1, fb) <- call b (snd s) r1 ;;
             '(a1, fa) <- call a (fst s) r ;;
             ret ((a1, b1), SelFut fa (Some fb))
         | None =>
             '(a1, fa) <- call a (fst s) r ;;
             ret ((a1, snd s), SelFut fa None)
         end)
      (fun f =>
         '(fa1, pa) <- poll_fut a (sel_a f) ;;
         match pa with
         | Ready v => ret (SelFut fa1 (sel_b f), Ready (map_er inl v))
         | Pending =>
             match sel_b f with
             | None => ret (SelFut fa1 None, Pending)
             | Some fb =>
                 '(fb1, pb) <- poll_fut b fb ;;
                 ret (SelFut fa1 (Some fb1), poll_map (map_er inr) pb)
             end
         end)
      (fun _ => panic)
      (fun s w => drop_svc b (snd s) (drop_svc a (fst s) w))
      (fun f w =>
         let w1 := drop_fut a (sel_a f) w in
         match sel_b f with Some fb => drop_fut b fb w1 | None => w1 end).
End Select.

(** ** Hedge (hedge/mod.rs) *)
Section Hedge.
  Context {W Req Resp Err : Type} (rt : Rt W) (svc : Service W Req Resp Err).
  (** hedge/mod.rs:56-62, trait [Policy]. *)
  Context (clone_request : Req -> option Req) (can_retry : Req -> bool).
  Context (min_data_points : Z).
  (** [value_at_quantile(latency_percentile)] of hdrhistogram on the recorded
      values, in milliseconds: third-party, left abstract. *)
  Context (quantile : list Z -> Z).
  (** Where the shared [Arc<Mutex<RotatingHistogram>>] lives in the world. *)
  Context (getH : W -> histo) (setH : histo -> W -> W).

  Definition with_histo {A} (f : Z -> histo -> out (histo * A)) : M W A :=
    fun w => match f (now rt w) (getH w) with
             | Val (h1, x) => (setH h1 w, Val x)
             | Panic => (w, Panic)
             | Diverge => (w, Diverge)
             end.

  (** hedge/mod.rs:212-219 *)
  Definition hedge_record (d : Z) : M W unit :=
    with_histo (fun t h => match histo_record t (millis d) h with
                           | Val h1 => Val (h1, tt) | Panic => Panic | Diverge => Diverge end).

  (** hedge/mod.rs:244-252; the result is a duration in nanoseconds. *)
  Definition hedge_delay (r : Req) : M W Z :=
    with_histo (fun t h => match histo_read t h with
                           | Val (h1, l) => Val (h1, (quantile l * 1000000)%Z)
                           | Panic => Panic | Diverge => Diverge end).

  (** hedge/mod.rs:254-266: the histogram is consulted only if the policy
      produced a clone. *)
  Definition hedge_clone (r : Req) : M W (option Req) :=
    match clone_request r with
    | None => ret None
    | Some r1 =>
        with_histo (fun t h => match histo_read t h with
                               | Val (h1, l) =>
                                   Val (h1, if (min_data_points <=? Z.of_nat (length l))%Z
                                            then Some r1 else None)
                               | Panic => Panic | Diverge => Diverge end)
    end.

  (** hedge/mod.rs:221-242: an async predicate that is either immediately [Ok]
      ([inl (Some r)]; futures' [Ready] panics if polled again, [inl None]) or
      pending for ever ([inr tt]). *)
  Definition policy_task : Task W (result Req Empty_set) :=
    MkTask (option Req + unit)
      (fun t => match t with
                | inl (Some r) => ret (inl None, Ready (Ok r))
                | inl None => panic
                | inr _ => ret (t, Pending)
                end)
      (fun _ w => w).
  Definition policy_check (p : unit) (r : Req) : M W (unit * (option Req + unit)) :=
    ret (p, if can_retry r then inl (Some r) else inr tt).

  Definition hedge_a : Service W Req Resp Err := latency rt svc hedge_record.
  Definition hedge_filtered : Service W Req Resp (Err + Empty_set) :=
    async_filter hedge_a policy_task policy_check (fun p => ret p).
  Definition hedge_b : Service W Req Resp (Err + Empty_set) :=
    delay rt hedge_filtered hedge_delay.

  (** hedge/mod.rs:128-164 and 167-198. *)
  Definition hedge : Service W Req Resp (Err + (Err + Empty_set)) :=
    select hedge_a hedge_b hedge_clone.
  (** hedge/mod.rs:142-163: the inner service is cloned for the first leg. *)
  Definition hedge_new (s : st svc) : M W (st hedge) :=
    s1 <- clone svc s ;; ret (s1, (s, tt)).
End Hedge.
