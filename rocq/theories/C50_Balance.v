(** C50-C52, C19, C58, C59: the p2c balancer, its random numbers, discovery.
    Specification in BalanceSpec.v: every endpoint announced by discovery gets a
    number; the log (newest first) holds what discovery said ([inserted],
    [removed], ...), what was done to the endpoints and the loads read. *)
From Verif Require Import Base Track ContractSpec DriveSpec Demo ReadyCache CacheSpec BalanceSpec BalanceMain RngSpec RngProof Load TranspMore.
Set Implicit Arguments.

(** For all endpoints, discovery, loads, generators, histories and completion orders: [poll_ready] first takes in
    all of discovery's news, then promotes pending endpoints (failed ones are removed), then keeps the endpoint chosen
    before if it is still ready, otherwise chooses ([chooses]): the only ready endpoint, or of two distinct ready ones
    the one whose load is not greater, until one is confirmed ready or none is left (Pending).  [call] goes to the
    endpoint chosen. *)
Theorem C51_balance_history :
  forall W K Req Resp Err DErr Metric R (keq : forall a b : K, {a = b} + {a <> b})
    (svc : Service W Req Resp Err) (D : Discover W K (st svc) DErr) (sched : nat -> W -> W * list nat)
    (next_u64 : R -> M W (R * Z)) debug (load : st svc -> M W Metric) le fuel
    ops d g x,
  bal_history True True slots0 None x (run_svc (tbalance keq svc D sched next_u64 debug load le fuel) Idle (tbalance_new keq svc D sched next_u64 debug load le fuel d g) x (tk_ops ops)).
Proof. exact @balance_runs_to_spec. Qed.
Print Assumptions C51_balance_history.

(** Whatever endpoint is asked for readiness or called has been announced by discovery ([inserted k i]), its key has
    not been removed since, and no later endpoint for that key has become ready. *)
Theorem C50_uses_members :
  forall W K Req Resp Err DErr Metric R (keq : forall a b : K, {a = b} + {a <> b})
    (svc : Service W Req Resp Err) (D : Discover W K (st svc) DErr) (sched : nat -> W -> W * list nat)
    (next_u64 : R -> M W (R * Z)) debug (load : st svc -> M W Metric) le fuel
    ops d g n w l2 e l1 i,
  bal_completed (run_svc (tbalance keq svc D sched next_u64 debug load le fuel) Idle (tbalance_new keq svc D sched next_u64 debug load le fuel d g) (w, Tk n []) (tk_ops ops)) ->
  log_of (bal_end (w, Tk n []) (run_svc (tbalance keq svc D sched next_u64 debug load le fuel) Idle (tbalance_new keq svc D sched next_u64 debug load le fuel d g) (w, Tk n []) (tk_ops ops))) = l2 ++ BIn e :: l1 ->
  uses i e = true ->
  exists k u v, l1 = v ++ inserted k i :: u /\ ~ In (removed k) v /\
    forall i', In (inserted k i') v -> ~ In (BIn (TReady i' (Ready (Ok tt)))) v.
Proof. exact @balance_uses_members. Qed.
Print Assumptions C50_uses_members.

(** The event right before a call is the same endpoint's answer that it is ready. *)
Theorem C50_called_when_ready :
  forall W K Req Resp Err DErr Metric R (keq : forall a b : K, {a = b} + {a <> b})
    (svc : Service W Req Resp Err) (D : Discover W K (st svc) DErr) (sched : nat -> W -> W * list nat)
    (next_u64 : R -> M W (R * Z)) debug (load : st svc -> M W Metric) le fuel
    ops d g n w l2 i r j l1,
  bal_completed (run_svc (tbalance keq svc D sched next_u64 debug load le fuel) Idle (tbalance_new keq svc D sched next_u64 debug load le fuel d g) (w, Tk n []) (tk_ops ops)) ->
  log_of (bal_end (w, Tk n []) (run_svc (tbalance keq svc D sched next_u64 debug load le fuel) Idle (tbalance_new keq svc D sched next_u64 debug load le fuel d g) (w, Tk n []) (tk_ops ops)))
    = l2 ++ BIn (TCall i r j) :: l1 ->
  exists l0, l1 = BIn (TReady i (Ready (Ok tt))) :: l0.
Proof. exact @balance_call_checked. Qed.
Print Assumptions C50_called_when_ready.

(** An endpoint that a newer one for the same key is to replace is called at most once more and never used
    after that, unless a newer one failed to become ready. *)
Theorem C50_superseded_called_once :
  forall W K Req Resp Err DErr Metric R (keq : forall a b : K, {a = b} + {a <> b})
    (svc : Service W Req Resp Err) (D : Discover W K (st svc) DErr) (sched : nat -> W -> W * list nat)
    (next_u64 : R -> M W (R * Z)) debug (load : st svc -> M W Metric) le fuel
    ops d g n w l2 i r j l1 k i',
  bal_completed (run_svc (tbalance keq svc D sched next_u64 debug load le fuel) Idle (tbalance_new keq svc D sched next_u64 debug load le fuel d g) (w, Tk n []) (tk_ops ops)) ->
  log_of (bal_end (w, Tk n []) (run_svc (tbalance keq svc D sched next_u64 debug load le fuel) Idle (tbalance_new keq svc D sched next_u64 debug load le fuel d g) (w, Tk n []) (tk_ops ops)))
    = l2 ++ BIn (TCall i r j) :: l1 ->
  In (inserted k i) l1 -> In (inserted k i') l1 -> i < i' ->
  (forall e, In (BIn e) l2 -> uses i e = false) \/
  exists q x, i < q /\ In (inserted k q) l1 /\ In (BIn (TReady q (Ready (Er x)))) l1.
Proof. exact @balance_superseded. Qed.
Print Assumptions C50_superseded_called_once.

(** Over endpoints used according to the contract (any other use panics: [guard]), a discovery that yields fresh
    endpoints, and well-behaved loads and generator: no panic, and no hang unless discovery announces [fuel] changes
    within a single [poll_ready].  [fuel] is arbitrary.  Only discovery's errors are reported ([polls] answers
    [Er (inr _)] only). *)
Theorem C52_balance_safe :
  forall W K Req Resp Err DErr Metric R (keq : forall a b : K, {a = b} + {a <> b})
    (svc : Service W Req Resp Err) (D : Discover W K (st (guard svc)) DErr) (sched : nat -> W -> W * list nat)
    (next_u64 : R -> M W (R * Z)) debug (load : st (guard svc) -> M W Metric) le fuel
    ops d g x,
  never_panics svc -> never_diverges svc ->
  (forall d, gives (poll_discover D d) (fun a =>
     match snd a with Ready (Some (Ok (Insert _ s))) => fst s = Idle | _ => True end)) ->
  (forall s, quiet (load s)) -> (forall g, quiet (next_u64 g)) ->
  bal_history False False slots0 None x (run_svc (tbalance keq (guard svc) D sched next_u64 debug load le fuel) Idle (tbalance_new keq (guard svc) D sched next_u64 debug load le fuel d g) x (tk_ops ops)).
Proof. exact @balance_safe. Qed.
Print Assumptions C52_balance_safe.

(** As [polls] puts it: the balancer's readiness error is always discovery's. *)
Theorem C52_only_discovery_fails :
  forall K Req Resp Err DErr Metric (keq : forall a b : K, {a = b} + {a <> b}) (le : Metric -> Metric -> bool)
    a n held (l : list (@bev K Req Resp Err DErr Metric)) e o b m,
  polls keq le a n held l (Ready (Er e)) o b m -> exists x u, e = inr x /\ l = u ++ [BUpd (Ready (Some (Er x)))].
Proof. exact @only_discovery_fails. Qed.
Print Assumptions C52_only_discovery_fails.

(** [next_range(lo..hi)] is in the range, for every value of the generator. *)
Theorem C19_next_range :
  forall W R (next : R -> M W (R * Z)) debug g w u g1 w1 lo hi,
  (0 <= lo < hi)%Z -> (hi < 2 ^ 64)%Z -> generates next g w [u] g1 w1 ->
  next_range next debug g lo hi w = (w1, Val (g1, (lo + u mod (hi - lo))%Z)) /\
  (lo <= lo + u mod (hi - lo) < hi)%Z.
Proof. exact @next_range_value. Qed.
Print Assumptions C19_next_range.

(** And every element of the range can come out. *)
Theorem C19_next_range_covers :
  forall W R (next : R -> M W (R * Z)) debug g w lo hi n,
  (0 <= lo < hi)%Z -> (hi < 2 ^ 64)%Z -> (lo <= n < hi)%Z ->
  exists u, (0 <= u < 2 ^ 64)%Z /\
    forall g1 w1, generates next g w [u] g1 w1 -> next_range next debug g lo hi w = (w1, Val (g1, n)).
Proof. exact @next_range_covers. Qed.
Print Assumptions C19_next_range_covers.

(** [sample_floyd2] yields two distinct indices below the length. *)
Theorem C19_sample_distinct :
  forall W R (next : R -> M W (R * Z)) debug g w u v g2 w2 len,
  (2 <= len < 2 ^ 64)%Z -> generates next g w [u; v] g2 w2 ->
  exists a b, sample_floyd2 next debug g len w = (w2, Val (g2, (a, b))) /\
    (0 <= a < len)%Z /\ (0 <= b < len)%Z /\ a <> b.
Proof. exact @sample_distinct. Qed.
Print Assumptions C19_sample_distinct.

(** Each ordered pair of distinct indices comes from exactly one pair of residues of the two random numbers, so none is favoured or missed. *)
Theorem C19_sample_bijective :
  forall W R (next : R -> M W (R * Z)) debug len a b,
  (2 <= len < 2 ^ 64)%Z -> (0 <= a < len)%Z -> (0 <= b < len)%Z -> a <> b ->
  exists x y, ((0 <= x < len - 1)%Z /\ (0 <= y < len)%Z) /\
    forall g w u v g2 w2, generates next g w [u; v] g2 w2 ->
      (sample_floyd2 next debug g len w = (w2, Val (g2, (a, b))) <->
       (u mod (len - 1))%Z = x /\ (v mod len)%Z = y).
Proof. exact @sample_bijective. Qed.
Print Assumptions C19_sample_bijective.

(** [next_f64] is this integer divided by 2^53 (both exact in a double): in [0, 1). *)
Theorem C19_next_f64 :
  forall u, (0 <= u < 2 ^ 64)%Z -> (0 <= next_f64_num u < 2 ^ 53)%Z.
Proof. exact @f64_range. Qed.
Print Assumptions C19_next_f64.

(** A static list announces each of its services once, in order, under its index, and then always ends. *)
Theorem C59_service_list :
  forall W X E xdrop (l : list X) (w : W) n,
  disc_answers (@service_list W X E xdrop) n (service_list_new l) w =
  map (fun m => Val (Ready (match nth_error l m with Some s => Some (Ok (Insert m s)) | None => None end))) (seq 0 n).
Proof. exact @service_list_announces. Qed.
Print Assumptions C59_service_list.

(** The discovery wrappers that add a load (PendingRequestsDiscover, PeakEwmaDiscover, Constant over a discovery) change
    the announced services and nothing else: same keys, same order, same errors, same end, in the same polls.  First
    with a wrapping function without effects, for any number of polls; then with any function (PeakEwma's reads the
    clock), up to the next announcement. *)
Theorem C59_map_discover :
  forall W K S S' E (D : Discover W K S E) (g : S -> S') n d w,
  disc_answers (map_discover D (fun s => ret (g s))) n d w = map (change_map g) (disc_answers D n d w).
Proof. exact @map_discover_answers. Qed.
Print Assumptions C59_map_discover.
Theorem C59_map_discover_effects :
  forall W K S S' E (D : Discover W K S E) (f : S -> M W S') d w gs,
  drive (poll_discover (map_discover D f)) d w gs =
  fin_then (fun d => d)
    (fun d1 p => match p with
                 | Some (Ok (Insert k s)) => s1 <- f s ;; ret (d1, Some (Ok (Insert k s1)))
                 | Some (Ok (Remove k)) => ret (d1, Some (Ok (Remove k)))
                 | Some (Er e) => ret (d1, Some (Er e))
                 | None => ret (d1, None)
                 end)
    (drive (poll_discover D) d w gs).
Proof. exact @map_discover_drive. Qed.
Print Assumptions C59_map_discover_effects.
Example C59_example :
  disc_answers (map_discover (service_list (W := unit) (E := unit) (fun _ w => w)) (fun s => ret (s, true))) 3 (service_list_new [4; 6]) tt =
  [Val (Ready (Some (Ok (Insert 0 (4, true))))); Val (Ready (Some (Ok (Insert 1 (6, true))))); Val (Ready None)].
Proof. reflexivity. Qed.

(** A response of the balancer is the chosen endpoint's: same polls, same response, its error passed on. *)
Theorem C51_response_future :
  forall W K Req Resp Err DErr Metric R (keq : forall a b : K, {a = b} + {a <> b})
    (svc : Service W Req Resp Err) (D : Discover W K (st svc) DErr) (sched : nat -> W -> W * list nat)
    (next_u64 : R -> M W (R * Z)) debug (load : st svc -> M W Metric) le fuel f w gs,
  drive (poll_fut (balance keq svc D sched next_u64 debug load le fuel)) (Some f) w gs =
  fin_then Some (fun f1 r => modify (drop_fut svc f1) ;;; ret (None, map_er inl r)) (drive (poll_fut svc) f w gs).
Proof. exact @balance_response. Qed.
Print Assumptions C51_response_future.

(** Discovery may be polled after it has ended. *)
Theorem C58_discovery_not_polled_after_end_refuted :
  ~ forall W K Req Resp Err DErr Metric R (keq : forall a b : K, {a = b} + {a <> b})
    (svc : Service W Req Resp Err) (D : Discover W K (st svc) DErr) (sched : nat -> W -> W * list nat)
    (next_u64 : R -> M W (R * Z)) debug (load : st svc -> M W Metric) le fuel ops d g n w l2 u l1,
    bal_completed (run_svc (tbalance keq svc D sched next_u64 debug load le fuel) Idle
      (tbalance_new keq svc D sched next_u64 debug load le fuel d g) (w, Tk n []) (tk_ops ops)) ->
    log_of (bal_end (w, Tk n []) (run_svc (tbalance keq svc D sched next_u64 debug load le fuel) Idle
      (tbalance_new keq svc D sched next_u64 debug load le fuel d g) (w, Tk n []) (tk_ops ops))) = l2 ++ BUpd u :: l1 ->
    ~ In (BUpd (Ready None)) l1.
Proof. exact @polled_after_end. Qed.
Print Assumptions C58_discovery_not_polled_after_end_refuted.

(** Non-vacuity: two endpoints with loads 5 and 3; the second is chosen. *)
Example C50_example :
  log_of (bal_end (scr0, Tk 0 []) demo_bal_run) =
  [BIn (TCall 1 77 2); BIn (TReady 1 (Ready (Ok tt))); BLoad 0 5; BLoad 1 3; BIn (TReady 1 (Ready (Ok tt)));
   BIn (TReady 0 (Ready (Ok tt))); BUpd (Ready None);
   BUpd (Ready (Some (Ok (Insert 1 1)))); BUpd (Ready (Some (Ok (Insert 0 0))))].
Proof. vm_compute. reflexivity. Qed.
Example C50_example_completed : bal_completed demo_bal_run.
Proof. exact demo_bal_completed. Qed.
Example C19_example :
  sample_floyd2 (demo_rng (W := unit)) true [9; 7]%Z 4 tt = (tt, Val ([], (0, 3)%Z)).
Proof. vm_compute. reflexivity. Qed.
