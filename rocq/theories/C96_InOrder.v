(** C96: concurrency limits taken in a fixed order never deadlock; taken in opposite orders they do. *)
From Verif Require Import Base Util Middleware Limits MeterSpec FlightSpec InOrderSpec InOrderProof.


(** Whatever the program did before - any number of instances and clones, misuse of the contract included, anything
    dropped at any time - if no response future is left and some instance is, then some instance is ready now. *)
Theorem C96_in_order : forall W Req Resp Err (svc : Service W Req Resp Err) debug max1 max2 l w ops i s,
  1 <= max1 -> 1 <= max2 ->
  (forall s w, exists w1 s1, poll_ready svc s w = (w1, Val (s1, Ready (Ok tt)))) ->
  let y0 := order_start svc debug max1 max2 l w in
  let y := urun y0 ops in
  calm y0 ops -> only_here ops ->
  (forall j, held_at (u_futs y) j = None) -> held_at (u_svcs y) i = Some s ->
  exists i s x s1, held_at (u_svcs y) i = Some s /\
    poll_ready (in_order svc debug) s (u_world y) = (x, Val (s1, Ready (Ok tt))).
Proof. exact order_progress. Qed.
Print Assumptions C96_in_order.

(** The same, if the service behind the limits is ready just now, for each of the instances that are left. *)
Theorem C96_in_order_now : forall W Req Resp Err (svc : Service W Req Resp Err) debug max1 max2 l w ops i s,
  1 <= max1 -> 1 <= max2 ->
  let y0 := order_start svc debug max1 max2 l w in
  let y := urun y0 ops in
  (forall i (s : st (in_order svc debug)), held_at (u_svcs y) i = Some s ->
    exists w1 s1, poll_ready svc (cl_inner (cl_inner s)) (snd (snd (u_world y))) = (w1, Val (s1, Ready (Ok tt)))) ->
  calm y0 ops -> only_here ops ->
  (forall j, held_at (u_futs y) j = None) -> held_at (u_svcs y) i = Some s ->
  exists i s x s1, held_at (u_svcs y) i = Some s /\
    poll_ready (in_order svc debug) s (u_world y) = (x, Val (s1, Ready (Ok tt))).
Proof. exact order_progress_now. Qed.
Print Assumptions C96_in_order_now.

(** The same claim is false when some instances take the two permits in the opposite order: there is a run after which no
    response future is left, two instances are, and both answer [Pending] for ever, however often which of them is asked. *)
Theorem C96_opposite_orders_refuted : forall debug, exists (svc : Service unit unit unit unit) l ops,
  (forall s w, exists w1 s1, poll_ready svc s w = (w1, Val (s1, Ready (Ok tt)))) /\
  let y0 := ustart (either_order svc debug) (sem_new 1, (sem_new 1, tt)) l in
  let y := urun y0 ops in
  calm y0 ops /\ only_here ops /\ (forall j, held_at (u_futs y) j = None) /\
  held_at (u_svcs y) 1 <> None /\ held_at (u_svcs y) 2 <> None /\
  forall more, let y' := urun y (map UReady more) in
    forall i s, held_at (u_svcs y') i = Some s ->
      snd (poll_ready (either_order svc debug) s (u_world y')) = Val (s, Pending).
Proof. exact opposite. Qed.
Print Assumptions C96_opposite_orders_refuted.

(** ** The hypotheses are met: three instances, two permits of the first limit and one of the second.  One calls, one
    holds the first permit and waits for the second, one waits for the first; the future goes. *)
Definition order96 (ops : list (@uop (sem * (sem * unit)) unit)) : prog (in_order plain96 true) :=
  urun (order_start plain96 true 2 1 [tt; tt; tt] tt) ops.
Definition busy96 : list (@uop (sem * (sem * unit)) unit) :=
  [UReady 0; UCall 0 tt; UReady 1; UReady 2; UPoll 0].
Example C96_example_nobody_ready :
  forall i, i < 3 -> exists s s1, held_at (u_svcs (order96 busy96)) i = Some s /\
    snd (poll_ready (in_order plain96 true) s (u_world (order96 busy96))) = Val (s1, Pending).
Proof. intros [|[|[|i]]] H; [eexists _, _; split; vm_compute; reflexivity..|lia]. Qed.
Example C96_example : exists i s x s1,
  held_at (u_svcs (order96 (busy96 ++ [UDropFut 0]))) i = Some s /\
  poll_ready (in_order plain96 true) s (u_world (order96 (busy96 ++ [UDropFut 0]))) = (x, Val (s1, Ready (Ok tt))).
Proof.
  destruct (held_at (u_svcs (order96 (busy96 ++ [UDropFut 0]))) 0) as [s|] eqn:E.
  - apply (@C96_in_order _ _ _ _ plain96 true 2 1 [tt; tt; tt] tt (busy96 ++ [UDropFut 0]) 0 s); try lia.
    + intros [] []. eexists _, _. reflexivity.
    + vm_compute. tauto.
    + repeat constructor.
    + intros [|[|j]]; vm_compute; reflexivity.
    + exact E.
  - exfalso. revert E. vm_compute. discriminate.
Qed.

(** A service that is not always ready, but is at that time. *)
Definition gate96 : Service bool unit unit unit :=
  MkService (W := bool) unit unit (fun s (open : bool) => (open, Val (s, if open then Ready (Ok tt) else Pending))) (fun s _ => ret (s, tt))
    (fun f => ret (f, Ready (Ok tt))) (fun s => ret s) (fun _ w => w) (fun _ w => w).
Definition shut96 : list (@uop (sem * (sem * bool)) unit) :=
  [UReady 0; UCall 0 tt; UReady 1; UEnv (fun x => (fst x, (fst (snd x), false))); UDropFut 0; UReady 1; UDrop 0].
Definition open96 : @uop (sem * (sem * bool)) unit := UEnv (fun x => (fst x, (fst (snd x), true))).
Definition gated96 (ops : list (@uop (sem * (sem * bool)) unit)) : prog (in_order gate96 true) :=
  urun (order_start gate96 true 1 1 [tt; tt] true) ops.
Example C96_example_shut : exists s s1, held_at (u_svcs (gated96 shut96)) 1 = Some s /\
  snd (poll_ready (in_order gate96 true) s (u_world (gated96 shut96))) = Val (s1, Pending).
Proof. eexists _, _. split; vm_compute; reflexivity. Qed.
Lemma gate96_open (u : unit) (b : bool) : b = true -> exists w1 s1, poll_ready gate96 u b = (w1, Val (s1, Ready (Ok tt))).
Proof. intros H. rewrite H. eexists _, _. reflexivity. Qed.
Lemma gated96_open : snd (snd (u_world (urun (order_start gate96 true 1 1 [tt; tt] true) (shut96 ++ [open96])))) = true.
Proof. vm_compute. reflexivity. Qed.
Example C96_example_open_calm : calm (order_start gate96 true 1 1 [tt; tt] true) (shut96 ++ [open96]).
Proof. vm_compute. tauto. Qed.
Example C96_example_open_here : only_here (shut96 ++ [open96]).
Proof. repeat constructor. Qed.
Example C96_example_open_futures : forall j, held_at (u_futs (gated96 (shut96 ++ [open96]))) j = None.
Proof. intros [|[|j]]; vm_compute; reflexivity. Qed.
Example C96_example_open_ready : forall u : unit, exists w1 s1,
  poll_ready gate96 u (snd (snd (u_world (gated96 (shut96 ++ [open96]))))) = (w1, Val (s1, Ready (Ok tt))).
Proof. intros u. apply gate96_open. exact gated96_open. Qed.
Example C96_example_open : exists s x s1,
  held_at (u_svcs (gated96 (shut96 ++ [open96]))) 1 = Some s /\
  poll_ready (in_order gate96 true) s (u_world (gated96 (shut96 ++ [open96]))) = (x, Val (s1, Ready (Ok tt))).
Proof. eexists _, _, _. split; vm_compute; reflexivity. Qed.
