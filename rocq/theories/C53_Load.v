(** C53, C54, C55: load measurement.  Specification in LoadSpec.v and EwmaSpec.v: [lsys_run] (from the model of
    PendingRequests or PeakEwma) is the history of one such service, of all the futures it hands out and of the
    handles that the TrackCompletion kept; [unfinished], [unanswered] count requests in a history. *)
From Coq Require Import Reals.
From Flocq Require Import Core BinarySingleNaN.
From Verif Require Import Base DriveSpec TranspMore Middleware Float Load LoadSpec LoadProof LoadTop EwmaSpec EwmaProof EwmaTop EwmaExact EwmaClock LoadDemo Demo.
Set Implicit Arguments.

(** Whatever the wrapped service, the TrackCompletion and the order of events: PendingRequests reports the number of
    requests that are not over - those whose future has neither given a response nor been dropped, and those whose
    handle was kept and has not been dropped. *)
Theorem C53_load_counts_unfinished W Req Resp Err (svc : Service W Req Resp Err) (keep : Resp -> W -> W * bool)
  (s : st svc) w (l : list (lop W Req)) h1 m w1 h2 :
  lsys_run pr_load (lsys0 svc pr_start pr_finish keep s (arc_new tt, w)) l = h1 ++ (LLoad, LoLoad m, w1) :: h2 ->
  m = unfinished h1.
Proof. exact (@pr_load_counts _ _ _ _ svc keep s w l h1 m w1 h2). Qed.
Print Assumptions C53_load_counts_unfinished.

(** Measuring changes nothing else: PendingRequests and PeakEwma do what the reference does, in which the wrapped
    service is used directly and each request is recorded as waiting, kept or finished.  [load] and [rload] are the
    load of the code and of the reference; [start] and [finish] what happens when a request starts and ends. *)
Theorem C53_refines_reference W Req Resp Err C T Met (svc : Service W Req Resp Err)
  (start : M W T) (finish : T -> C -> W -> C * W) (keep : Resp -> W -> W * bool)
  (load : M (arc (C := C) * W) Met) (rload : nat -> C -> W -> C * W * Met) (s : st svc) c w (l : list (lop W Req)) :
  (forall n c w, load (Arc (S n) c, w) = let '(c1, w1, m) := rload n c w in ((Arc (S n) c1, w1), Val m)) ->
  lsys_run load (lsys0 svc start finish keep s (arc_new c, w)) l = rsys_run start finish keep rload (rsys0 (T := T) svc s c w) l.
Proof. exact (fun H => @load_refines _ _ _ _ _ _ _ svc start finish keep load rload H s c w l). Qed.
Print Assumptions C53_refines_reference.

(** With CompleteOnResponse the count is of the requests that have not been answered with a response and whose
    future has not been dropped. *)
Theorem C55_counts_until_response_or_drop W Req Resp Err (svc : Service W Req Resp Err) (s : st svc) w (l : list (lop W Req)) h1 m w1 h2 :
  lsys_run pr_load (lsys0 svc pr_start pr_finish complete_on_response s (arc_new tt, w)) l = h1 ++ (LLoad, LoLoad m, w1) :: h2 ->
  m = unanswered h1.
Proof. exact (@pr_load_unanswered _ _ _ _ svc s w l h1 m w1 h2). Qed.
Print Assumptions C55_counts_until_response_or_drop.
(** "Until it is answered" would be wrong: after an error answer the request counts until its future is dropped. *)
Theorem C55_error_answer_ends_it_refuted :
  ~ (forall W Req Resp Err (svc : Service W Req Resp Err) (s : st svc) w (l : list (lop W Req)) h1 e w0 m w1 h2,
     lsys_run pr_load (lsys0 svc pr_start pr_finish complete_on_response s (arc_new tt, w)) l = h1 ++ (LLoad, LoLoad m, w1) :: h2 ->
     In (LPoll 0, LoPolled (Ready (Er e)), w0) h1 -> called h1 = 1 -> m = 0).
Proof.
  intros H. destruct error_still_counts as (h1 & w1 & E & I & C). specialize (H _ _ _ _ _ _ _ _ _ _ _ _ _ [] E I C). discriminate.
Qed.
Print Assumptions C55_error_answer_ends_it_refuted.
(** Demo: PendingRequests, its load after each step of [run_demo]. *)
Example C53_example : loads (lsys_run pr_load (lsys0 demo pr_start pr_finish complete_on_response 0 (arc_new tt, w_demo)) run_demo) = [0; 1; 2; 1; 1; 0].
Proof. vm_compute. reflexivity. Qed.
(** A TrackCompletion that keeps the handle with the response: it counts until that is dropped. *)
Example C53_example_kept :
  loads (lsys_run pr_load (lsys0 demo pr_start pr_finish (fun _ w => (w, true)) 0 (arc_new tt, w_demo))
    [LCall 1; LCall 2; LPoll 0; LDropFut 0; LLoad; LDropHandle 0; LLoad; LDropFut 1; LLoad]) = [2; 1; 0].
Proof. vm_compute. reflexivity. Qed.

(** ** PeakEwma: IEEE arithmetic.  [exp_ok]: [f64::exp] takes numbers up to 0 to numbers from 0 to 1.  Times are in
    nanoseconds. *)
(** Every load is a finite number and not negative (so loads can be compared), even if the clock misbehaves. *)
Theorem C54_load_finite W Req Resp Err (svc : Service W Req Resp Err) (keep : Resp -> W -> W * bool)
  (clk : W -> W * Z) (exp64 : f64 -> f64) (decay : f64) (default : Z) (s : st svc) w (l : list (lop W Req)) h1 m ok w1 h2 :
  exp_ok exp64 -> is_finite decay = true -> (0 < B2R decay)%R -> (0 <= default)%Z ->
  pe_history svc keep clk exp64 decay default s w l = h1 ++ (LLoad, LoLoad (m, ok), w1) :: h2 ->
  is_finite m = true /\ (0 <= B2R m)%R.
Proof. exact (fun a b c => @pe_load_finite _ _ _ _ svc keep clk exp64 decay default a b c s w l h1 m ok w1 h2). Qed.
Print Assumptions C54_load_finite.

(** If neither the default nor the time any request took exceeds [D], then the load is at most [D] times the number
    of unfinished requests plus one, up to 2^-48 - however many requests and updates there have been. *)
Theorem C54_load_bound W Req Resp Err (svc : Service W Req Resp Err) (keep : Resp -> W -> W * bool)
  (clk : W -> W * Z) (exp64 : f64 -> f64) (decay : f64) (default : Z) D (s : st svc) w (l : list (lop W Req)) h1 m ok w1 h2 :
  exp_ok exp64 -> is_finite decay = true -> (0 < B2R decay)%R ->
  (0 <= default <= D)%Z -> (1 <= D)%Z ->
  Forall (fun a => (a <= D)%Z) (ages (svc := svc) keep clk exp64 decay (pe_rstart svc clk decay default s w) l) ->
  pe_history svc keep clk exp64 decay default s w l = h1 ++ (LLoad, LoLoad (m, ok), w1) :: h2 ->
  (Z.of_nat (unfinished h1) + 1 < u32_mod)%Z ->
  (B2R m <= IZR D * (INR (unfinished h1) + 1) * (1 + bpow radix2 (-48)))%R.
Proof. exact (fun a b c => @pe_load_bound _ _ _ _ svc keep clk exp64 decay default a b c D s w l h1 m ok w1 h2). Qed.
Print Assumptions C54_load_bound.

(** While no request starts or ends, successive loads do not increase. *)
Theorem C54_load_decays W Req Resp Err (svc : Service W Req Resp Err) (keep : Resp -> W -> W * bool)
  (clk : W -> W * Z) (exp64 : f64 -> f64) (decay : f64) (default : Z) (s : st svc) w (l : list (lop W Req)) h0 m1 ok1 w1 h1 m2 ok2 w2 h2 :
  exp_ok exp64 -> is_finite decay = true -> (0 < B2R decay)%R -> (0 <= default)%Z ->
  pe_history svc keep clk exp64 decay default s w l =
    h0 ++ (LLoad, LoLoad (m1, ok1), w1) :: h1 ++ (LLoad, LoLoad (m2, ok2), w2) :: h2 ->
  Forall (@quiet W Req Resp Err) h1 -> (B2R m2 <= B2R m1)%R.
Proof. exact (fun a b c => @pe_load_decays _ _ _ _ svc keep clk exp64 decay default a b c s w l h0 m1 ok1 w1 h1 m2 ok2 w2 h2). Qed.
Print Assumptions C54_load_decays.

(** One sample: from the estimate [old] (a number as [C54_load_finite] leaves it) and a round trip of [s] nanoseconds
    comes an estimate no less than [s] (peaks count at once), up to twelve rounding errors. *)
Theorem C54_peak (exp64 : f64 -> f64) (decay : f64) old last now s :
  exp_ok exp64 -> is_finite decay = true -> (0 < B2R decay)%R ->
  is_finite old = true -> (0 <= B2R old <= bpow radix2 65)%R -> (0 <= s <= u64_max)%Z ->
  (IZR s * (1 - 12 * bpow radix2 (-53)) <= B2R (rtt_next exp64 decay old last now s))%R.
Proof.
  intros a b c F H Hs. replace (bpow radix2 (-53)) with BackoffProof.u53.
  - exact (@rtt_next_peak exp64 decay a b c old last now s F H Hs).
  - exact (eq_sym (eq_refl : bpow radix2 (-53) = BackoffProof.u53)).
Qed.
Print Assumptions C54_peak.

(** The load is exactly the moving average of the readings (EwmaSpec: every finished request with its age, and every
    earlier look at the load, each decayed by the time since the one before it), times the number of unfinished
    requests plus one.  No assumption on the clock, [exp] or the decay time. *)
Theorem C54_load_is_ewma W Req Resp Err (svc : Service W Req Resp Err) (keep : Resp -> W -> W * bool)
  (clk : W -> W * Z) (exp64 : f64 -> f64) (decay : f64) (default : Z) (s : st svc) w (l : list (lop W Req)) h1 m ok w1 h2 :
  pe_history svc keep clk exp64 decay default s w l = h1 ++ (LLoad, LoLoad (m, ok), w1) :: h2 ->
  m = mul64 (average exp64 decay (nanos default) (snd (clk w))
               (readings (svc := svc) keep clk exp64 decay (pe_rstart svc clk decay default s w) (firstn (S (length h1)) l)))
        (f64_of (Z.of_nat (S (unfinished h1)) mod u32_mod) 0).
Proof. exact (@pe_load_exact _ _ _ _ svc keep clk exp64 decay default s w l h1 m ok w1 h2). Qed.
Print Assumptions C54_load_is_ewma.
Example C54_example_readings :
  readings (svc := demo) complete_on_response clk1 exp_demo (nanos (10 * sec)) (pe_rstart demo clk1 (nanos (10 * sec)) sec 0 w_demo) run_demo =
  [(2, 0); (5, 0); (3000000008, 0); (3000000010, 3000000006); (3000000012, 0); (4000000014, 0); (4000000016, 1000000009); (4000000018, 0)]%Z.
Proof. vm_compute. reflexivity. Qed.

(** With a clock that does not run backwards every [debug_assert!] holds, and no arithmetic overflows, as long as
    there are fewer than 2^32 - 1 unfinished requests: debug and release builds do the same. *)
Theorem C54_assertions_hold W Req Resp Err (svc : Service W Req Resp Err) (keep : Resp -> W -> W * bool)
  (clk : W -> W * Z) (exp64 : f64 -> f64) (decay : f64) (default : Z) (time : W -> Z) (s : st svc) w (l : list (lop W Req)) h1 m ok w1 h2 :
  forward svc keep clk time -> (1 <= default)%Z -> is_finite decay = true -> (0 < B2R decay)%R ->
  Forall (forward_op time) l ->
  (forall g1 e g2, pe_history svc keep clk exp64 decay default s w l = g1 ++ e :: g2 -> (Z.of_nat (unfinished g1) + 1 < u32_mod)%Z) ->
  pe_history svc keep clk exp64 decay default s w l = h1 ++ (LLoad, LoLoad (m, ok), w1) :: h2 ->
  ok = true.
Proof. exact (fun Fw => @pe_asserts _ _ _ _ svc keep clk exp64 decay default time Fw s w l h1 m ok w1 h2). Qed.
Print Assumptions C54_assertions_hold.

(** The loads of [run_demo] (in nanoseconds, times a power of two), and the assertions. *)
Example C54_example :
  map (fun m => (B2SF (fst m), snd m)) (loads (pe_history demo complete_on_response clk1 exp_demo (nanos (10 * sec)) sec 0 w_demo run_demo)) =
  [(SpecFloat.S754_finite false 8388608000000000 (-24), true);   (* 0.5 s * 1 *)
   (SpecFloat.S754_finite false 8388608000000000 (-24), true);   (* 0.25 s * 2 *)
   (SpecFloat.S754_finite false 6291456000000000 (-24), true);   (* 0.125 s * 3 *)
   (SpecFloat.S754_finite false 6291456012582912 (-21), true);   (* a peak of 3 s, halved, * 2 *)
   (SpecFloat.S754_finite false 6291456012582912 (-22), true);
   (SpecFloat.S754_finite false 8388608075497472 (-24), true)].  (* 1 s, halved, * 1 *)
Proof. vm_compute. reflexivity. Qed.
Example C54_hyps : exp_ok exp_demo /\ (is_finite (nanos (10 * sec)) = true /\ (0 < B2R (nanos (10 * sec)))%R) /\
  forward demo complete_on_response clk1 clock /\
  ages (svc := demo) complete_on_response clk1 exp_demo (nanos (10 * sec)) (pe_rstart demo clk1 (nanos (10 * sec)) sec 0 w_demo) run_demo =
    [3000000006; 1000000009]%Z.
Proof. refine (conj exp_demo_ok (conj decay_demo (conj clk1_forward _))). vm_compute. reflexivity. Qed.

(** PeakEwmaDiscover accepts any [Duration] as decay time.  With zero, a release build reports NaN as the load (a
    debug build panics). *)
Theorem C54_any_decay_refuted :
  ~ (forall W Req Resp Err (svc : Service W Req Resp Err) (keep : Resp -> W -> W * bool)
     (clk : W -> W * Z) (exp64 : f64 -> f64) (decay default : Z) (s : st svc) w (l : list (lop W Req)) h1 m ok w1 h2,
     exp_ok exp64 -> (0 <= decay)%Z -> (1 <= default)%Z ->
     pe_history svc keep clk exp64 (nanos decay) default s w l = h1 ++ (LLoad, LoLoad (m, ok), w1) :: h2 ->
     is_nan m = false).
Proof.
  intros H. destruct zero_decay_nan as (h1 & m & w1 & h2 & E & N).
  assert (X := H _ _ _ _ _ _ _ _ 0%Z sec _ _ _ _ _ _ _ _ exp_demo_ok ltac:(discriminate) ltac:(discriminate) E). rewrite N in X. discriminate.
Qed.
Print Assumptions C54_any_decay_refuted.

(** ** Constant: transparent, and its load never changes. *)
Theorem C53_constant_history W Req Resp Err Met (svc : Service W Req Resp Err) s (m : Met) :
  same_history (a := svc) (b := constant svc) (fun r => r) (fun e => e) (fun _ _ f => f) s (s, m).
Proof. exact (constant_history svc s m). Qed.
Print Assumptions C53_constant_history.
Theorem C53_constant_futures W Req Resp Err Met (svc : Service W Req Resp Err) f w gs :
  drive (poll_fut (constant (M' := Met) svc)) f w gs = drive (poll_fut svc) f w gs.
Proof. exact (constant_drive svc f w gs). Qed.
Print Assumptions C53_constant_futures.
Theorem C53_constant_load W Req Resp Err Met (svc : Service W Req Resp Err) (s : st (constant (M' := Met) svc)) w :
  (forall w1 s1 a, poll_ready (constant svc) s w = (w1, Val (s1, a)) -> constant_load s1 = constant_load s) /\
  (forall r w1 s1 f, call (constant svc) s r w = (w1, Val (s1, f)) -> constant_load s1 = constant_load s).
Proof. exact (constant_keeps s w). Qed.
Print Assumptions C53_constant_load.
Example C53_example_constant :
  obs (run_svc (constant (M' := nat) warm) Idle (1, 9) scr0 [(tick 1, SReady); (tick 1, SReady); (tick 1, SCall 7)]) =
  [ObsReady Pending; ObsReady (Ready (Ok tt)); ObsCall (svc := constant (M' := nat) warm) 7 7].
Proof. reflexivity. Qed.
