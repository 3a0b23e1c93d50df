(** C70: Balance over PendingRequests sends a request where fewer of its requests are outstanding. *)
From Verif Require Import Base Util ReadyCache SpawnReady Load Make Middleware Limits Hedge MeterSpec FlightSpec KeepSpec KeepProof Arcs LeastSpec LeastProof LeastTop LeastPick.
Set Implicit Arguments.

(** Any number of balancers over discoveries of endpoints; whatever a program does with them and with the response
    futures: the load of an endpoint that a balancer has is the number of the program's unfinished requests to it. *)
Theorem C70_load_is_unfinished :
  forall W K Req Resp Err DErr R (keq : forall a b : K, {a = b} + {a <> b}) (svc : Service W Req Resp Err)
    (keep : Resp -> W -> W * bool) (D : Discover W K (st svc) DErr)
    (sched : nat -> list (cell (C := unit)) * W -> list (cell (C := unit)) * W * list nat)
    (next_u64 : R -> M (list (cell (C := unit)) * W) (R * Z)) debug fuel,
  (forall v w, snd (keep v w) = false) -> (forall n, heap_same (fun x => fst (sched n x))) -> (forall g, heap_same (fun x => fst (next_u64 g x))) ->
  let ps := pending_requests svc keep in let pd := pending_discover svc keep D in
  let bl := balance keq ps pd sched next_u64 debug (pending_load svc keep) Nat.leb fuel in
  forall l w ops, let y0 := ustart bl ([], w) (map (fun p => balance_new ps pd (fst p) (snd p)) l) in
  calm y0 ops -> env_off_heap ops -> let y := urun y0 ops in
  forall i b s, held_at (u_svcs y) i = Some b -> In s (endpoints (bl_cache b)) ->
  pending_load svc keep s (u_world y) = (u_world y, Val (unfinished (svc := svc) (fst s) (u_futs y))).
Proof. intros. eapply load_is_unfinished; eassumption. Qed.
Print Assumptions C70_load_is_unfinished.

(** A balancer without a choice yet, polled to readiness and then called: the request goes to one of the ready
    endpoints, the only one, or one that has no more of the program's unfinished requests than some other. *)
Theorem C70_picks_less_loaded :
  forall W K Req Resp Err DErr R (keq : forall a b : K, {a = b} + {a <> b}) (svc : Service W Req Resp Err)
    (keep : Resp -> W -> W * bool) (D : Discover W K (st svc) DErr)
    (sched : nat -> list (cell (C := unit)) * W -> list (cell (C := unit)) * W * list nat)
    (next_u64 : R -> M (list (cell (C := unit)) * W) (R * Z)) debug fuel,
  (forall v w, snd (keep v w) = false) -> (forall n, heap_same (fun x => fst (sched n x))) -> (forall g, heap_same (fun x => fst (next_u64 g x))) ->
  let ps := pending_requests svc keep in let pd := pending_discover svc keep D in
  let bl := balance keq ps pd sched next_u64 debug (pending_load svc keep) Nat.leb fuel in
  forall l w ops, let y0 := ustart bl ([], w) (map (fun p => balance_new ps pd (fst p) (snd p)) l) in
  calm y0 ops -> env_off_heap ops -> let y := urun y0 ops in
  forall i b x1 b1 r x2 b2 f, held_at (u_svcs y) i = Some b -> bl_index b = None ->
  poll_ready bl b (u_world y) = (x1, Val (b1, Ready (Ok tt))) -> call bl b1 r x1 = (x2, Val (b2, f)) ->
  (Z.of_nat (ready_len (bl_cache b1)) < 2 ^ 64)%Z ->
  let candidates := map fst (ready_endpoints (bl_cache b1)) in
  NoDup candidates /\
  exists a h, f = Some (a, h) /\ In a candidates /\
    (candidates = [a] \/ exists a', In a' candidates /\ a' <> a /\
       unfinished (svc := svc) a (u_futs y) <= unfinished (svc := svc) a' (u_futs y)).
Proof. intros. eapply picks_less_loaded; eassumption. Qed.
Print Assumptions C70_picks_less_loaded.

(** With two ready endpoints: to one that has the fewest. *)
Theorem C70_least_of_two :
  forall W K Req Resp Err DErr R (keq : forall a b : K, {a = b} + {a <> b}) (svc : Service W Req Resp Err)
    (keep : Resp -> W -> W * bool) (D : Discover W K (st svc) DErr)
    (sched : nat -> list (cell (C := unit)) * W -> list (cell (C := unit)) * W * list nat)
    (next_u64 : R -> M (list (cell (C := unit)) * W) (R * Z)) debug fuel,
  (forall v w, snd (keep v w) = false) -> (forall n, heap_same (fun x => fst (sched n x))) -> (forall g, heap_same (fun x => fst (next_u64 g x))) ->
  let ps := pending_requests svc keep in let pd := pending_discover svc keep D in
  let bl := balance keq ps pd sched next_u64 debug (pending_load svc keep) Nat.leb fuel in
  forall l w ops, let y0 := ustart bl ([], w) (map (fun p => balance_new ps pd (fst p) (snd p)) l) in
  calm y0 ops -> env_off_heap ops -> let y := urun y0 ops in
  forall i b x1 b1 r x2 b2 f, held_at (u_svcs y) i = Some b -> bl_index b = None ->
  poll_ready bl b (u_world y) = (x1, Val (b1, Ready (Ok tt))) -> call bl b1 r x1 = (x2, Val (b2, f)) ->
  let candidates := map fst (ready_endpoints (bl_cache b1)) in
  length candidates = 2 ->
  exists a h, f = Some (a, h) /\ In a candidates /\
    forall a', In a' candidates -> unfinished (svc := svc) a (u_futs y) <= unfinished (svc := svc) a' (u_futs y).
Proof. exact picks_of_two. Qed.
Print Assumptions C70_least_of_two.

(** PeakEwma too, and any other content of the Arcs: an endpoint's Arc has its own reference and one per unfinished request. *)
Theorem C70_references :
  forall W K Req Resp Err DErr C T R Met (keq : forall a b : K, {a = b} + {a <> b}) (svc : Service W Req Resp Err)
    (start : M W T) (finish : T -> C -> W -> C * W) (keep : Resp -> W -> W * bool) (D : Discover W K (st svc) DErr)
    (fresh : W -> arc (C := C) * W) (load : M (arc (C := C) * W) Met) le
    (sched : nat -> list (cell (C := C)) * W -> list (cell (C := C)) * W * list nat)
    (next_u64 : R -> M (list (cell (C := C)) * W) (R * Z)) debug fuel,
  (forall v w, snd (keep v w) = false) -> (forall w, strong (fst (fresh w)) = 1) -> (forall x, strong (fst (fst (load x))) = strong (fst x)) ->
  (forall n, heap_same (fun x => fst (sched n x))) -> (forall g, heap_same (fun x => fst (next_u64 g x))) ->
  let ps := tracked_at svc start finish keep in let pd := tracked_discover svc start finish keep D fresh in
  let bl := balance keq ps pd sched next_u64 debug (load_at svc start finish keep load) le fuel in
  forall l w ops, let y0 := ustart bl ([], w) (map (fun p => balance_new ps pd (fst p) (snd p)) l) in
  calm y0 ops -> env_off_heap ops -> let y := urun y0 ops in
  forall i b s, held_at (u_svcs y) i = Some b -> In s (endpoints (bl_cache b)) ->
  exists c, nth_error (fst (u_world y)) (fst s) = Some c /\ strong (c_arc c) = S (unfinished (svc := svc) (fst s) (u_futs y)).
Proof. exact references_all. Qed.
Print Assumptions C70_references.
Theorem C70_peak_ewma_meets : forall W (clk : W -> W * Z) exp64 decay rtt,
  (forall w, strong (fst (peak_ewma_new clk decay rtt w)) = 1) /\ (forall x, strong (fst (fst (pe_load clk exp64 decay x))) = strong (fst x)).
Proof. exact peak_ewma_meets. Qed.
Print Assumptions C70_peak_ewma_meets.

(** ** Cases: two endpoints that answer request [r] at time [r]. *)
Definition timed70 : Service Z Z unit nat :=
  MkService (W := Z) unit Z (fun s => ret (s, Ready (Ok tt))) (fun s r => ret (s, r))
    (fun f w => (w, Val (f, if (f <=? w)%Z then Ready (Ok tt) else Pending))) (fun s => ret s) (fun _ w => w) (fun _ w => w).
Definition two70 : Discover Z nat (st timed70) Empty_set := service_list (fun _ w => w).
Definition ps70 := pending_requests timed70 complete_on_response.
Definition pd70 := pending_discover timed70 complete_on_response two70.
Definition bl70 := balance Nat.eq_dec ps70 pd70 (fun n x => (x, seq 0 n)) (fun (g : Z) => ret ((g + 1)%Z, g)) true
  (pending_load timed70 complete_on_response) Nat.leb 9.
Definition start70 := ustart bl70 ([], 0%Z) [balance_new ps70 pd70 (service_list_new [tt; tt]) 0%Z].
Definition later70 (t : Z) : uop (W := list (cell (C := unit)) * Z) (Req := Z) := UEnv (fun x => (fst x, t)).
Definition went70 (ops : list uop) := map (fun f => match f with Some (Some (a, h)) => Some (a, match tc_handle h with Some _ => true | None => false end) | _ => None end) (u_futs (urun start70 ops)).
Definition busy70 (ops : list uop) := map (fun a => unfinished (svc := timed70) a (u_futs (urun start70 ops))) [0; 1].
Definition ops70 := [UReady 0; UCall 0 5; UReady 0; UCall 0 20; UReady 0; UCall 0 30; later70 5; UPoll 0; UReady 0; UCall 0 40; UReady 0; UCall 0 50]%Z.
(** The loads of the two after each step: every request goes to the less loaded one. *)
Example C70_example : map (fun n => busy70 (firstn n ops70)) (seq 0 13) =
  [[0; 0]; [0; 0]; [1; 0]; [1; 0]; [1; 1]; [1; 1]; [2; 1]; [2; 1]; [1; 1]; [1; 1]; [1; 2]; [1; 2]; [2; 2]].
Proof. vm_compute. reflexivity. Qed.
Example C70_example_loads :
  let y := urun start70 (firstn 11 ops70) in
  match held_at (u_svcs y) 0 with
  | Some b => bl_index b = Some 0 /\ map (fun s => snd (pending_load timed70 complete_on_response s (u_world y))) (endpoints (bl_cache b)) = [Val 1; Val 2]
  | None => False
  end.
Proof. vm_compute. split; reflexivity. Qed.
Example C70_example_meets : calm start70 ops70 /\ env_off_heap ops70 /\
  (forall v w, snd (complete_on_response (Resp := unit) (W := Z) v w) = false) /\
  match held_at (u_svcs (urun start70 (firstn 10 ops70))) 0 with
  | Some b => bl_index b = None /\
      match poll_ready bl70 b (u_world (urun start70 (firstn 10 ops70))) with
      | (_, Val (b1, Ready (Ok _))) => length (ready_endpoints (bl_cache b1)) = 2
      | _ => False
      end
  | None => False
  end.
Proof. split; [vm_compute; repeat split |]. split; [repeat constructor |]. split; [reflexivity |]. vm_compute. split; reflexivity. Qed.

(** The choice is made by [poll_ready] and kept.  By the time of the call another endpoint may have become less
    loaded; polling again does not help. *)
Definition stale70 := [UReady 0; UCall 0 5; UReady 0; UCall 0 20; UReady 0; later70 20; UPoll 1; UReady 0]%Z.
Theorem C70_least_at_call_refuted :
  calm start70 (stale70 ++ [UCall 0 30%Z]) /\ env_off_heap stale70 /\
  busy70 stale70 = [1; 0] /\ went70 (stale70 ++ [UCall 0 30%Z]) = [Some (0, true); None; Some (0, true)] /\
  match held_at (u_svcs (urun start70 stale70)) 0 with
  | Some b => map fst (ready_endpoints (bl_cache b)) = [0; 1]
  | None => False
  end.
Proof. split; [vm_compute; repeat split |]. split; [repeat constructor |]. vm_compute. repeat split. Qed.
Print Assumptions C70_least_at_call_refuted.
