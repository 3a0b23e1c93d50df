(** C86: a CallAll drops all it is given, once: the service and the response futures. *)
From Verif Require Import Base Util CallAll Middleware Limits MeterSpec FlightSpec KeepSpec KeepProof PermitSpec PermitProof GatherSpec GatherProof.
Set Implicit Arguments.
Local Open Scope Z_scope.

(** Whatever the instances and the response futures of a stack hold ([kept], KeepSpec.v: permits, places in a queue, load,
    connections, ...): at any time in a program that polls a CallAll, takes the service out, converts it to the unordered
    one, or drops it, what there is of it is what there was, less what the instance brought along, and what is held by the
    instance, inside or taken out, and by the response futures still in progress. *)
Theorem C86_accounted :
  forall W Req Resp Err (svc : Service W Req Resp Err) (T : Stream W Req) (sched : nat -> W -> W * list nat) live osv own,
  kept live svc osv own none ->
  forall fuel s t w ops x, osv s <= live w -> others_leave T sched live ops -> grun svc T sched fuel s t w ops = x -> g_bad x = false ->
  live (g_w x) = live w - osv s + gathered osv own x.
Proof. exact @gather_accounted. Qed.
Print Assumptions C86_accounted.

(** When it has said that it is done, it has only the instance left. *)
Theorem C86_ended :
  forall W Req Resp Err (svc : Service W Req Resp Err) (T : Stream W Req) (sched : nat -> W -> W * list nat) live osv own,
  kept live svc osv own none ->
  forall fuel s t w ops x, osv s <= live w -> others_leave T sched live ops -> grun svc T sched fuel s t w ops = x -> g_bad x = false ->
  g_said x = Some (Ready None) ->
  live (g_w x) = live w - osv s + oopt (fun c => oopt osv (with_instance c)) (g_ca x) + osum osv (g_out x).
Proof. exact @gather_ended. Qed.
Print Assumptions C86_ended.

(** When it has been dropped or consumed, at whatever point, and the instance taken out of it, if any, has been dropped
    too, nothing is left. *)
Theorem C86_nothing_left :
  forall W Req Resp Err (svc : Service W Req Resp Err) (T : Stream W Req) (sched : nat -> W -> W * list nat) live osv own,
  kept live svc osv own none ->
  forall fuel s t w ops x, osv s <= live w -> others_leave T sched live ops -> grun svc T sched fuel s t w ops = x -> g_bad x = false ->
  g_ca x = None -> g_out x = [] -> live (g_w x) = live w - osv s.
Proof. exact @gather_nothing_left. Qed.
Print Assumptions C86_nothing_left.

(** Over a stack over a ConcurrencyLimit: the permits in use are those of the instance and of the response futures in
    progress (an answer that waits for its turn has none), and at the end all are free and nobody is in the queue. *)
Theorem C86_permits :
  forall W Req Resp Err (svc : Service (sem * W) Req Resp Err) (T : Stream (sem * W) Req) (sched : nat -> sem * W -> (sem * W) * list nat)
    max osv own osvt ownt,
  kept (in_use max) svc osv own none -> (forall t, kept (enrolled t) svc (osvt t) (ownt t) none) ->
  forall fuel s t w (ops : list (gop (W := sem * W))) x, osv s = 0 -> (forall i, osvt i s = 0) ->
  (forall t x, fst (fst (snext T t x)) = fst x) -> (forall n x, fst (fst (sched n x)) = fst x) -> (forall g, In (GEnv g) ops -> forall x, fst (g x) = fst x) ->
  grun svc T sched fuel s t (sem_new max, w) ops = x -> g_bad x = false ->
  (in_use max (g_w x) = gathered osv own x /\ in_use max (g_w x) <= Z.of_nat max) /\
  (g_ca x = None -> g_out x = [] -> sem_avail (fst (g_w x)) = max /\ sem_queue (fst (g_w x)) = [] /\ sem_granted (fst (g_w x)) = []).
Proof. exact @gather_permits. Qed.
Print Assumptions C86_permits.

(** ** Cases: a limit of two; request [n] is answered at poll [n + 1]; the requests come from a list. *)
Definition back86 : Service unit nat nat nat :=
  MkService (W := unit) unit nat (fun s => ret (s, Ready (Ok tt))) (fun s r => ret (s, r))
    (fun f => match f with O => ret (O, Ready (Ok 0%nat)) | S n => ret (n, Pending) end) (fun s => ret s) (fun _ w => w) (fun _ w => w).
Definition lim86 : Service (sem * unit) nat nat nat := conc_limit back86 (fun _ => false) true.
Definition list86 : Stream (sem * unit) nat :=
  MkStream (W := sem * unit) (list nat) (fun l => match l with [] => ret ([], Ready None) | r :: l' => ret (l', Ready (Some r)) end).
Definition sched86 (n : nat) (w : sem * unit) : (sem * unit) * list nat := (w, seq 0 n).
Definition run86 (ops : list (gop (W := sem * unit))) := grun lim86 list86 sched86 9 (conc_new back86 tt) [4; 0; 2; 0]%nat (sem_new 2, tt) ops.
(** In use, free, waiting; what the CallAll has; the answer. *)
Definition look86 (ops : list (gop (W := sem * unit))) :=
  let x := run86 ops in
  (g_bad x, in_use 2 (g_w x), Z.of_nat (sem_avail (fst (g_w x))), Z.of_nat (length (sem_queue (fst (g_w x)))),
   gathered (svc := lim86) has_permit one x, match g_said x with Some (Ready (Some (Ok _))) => 1 | Some (Ready None) => 2 | _ => 0 end).
Definition poll86 (n : nat) : list (gop (W := sem * unit)) := repeat GPoll n.
(** The first two requests take both permits, the third has to wait; five polls, four answers; and the end. *)
Example C86_example : map (fun n => look86 (poll86 n)) (seq 0 7) =
  [(false, 0, 2, 0, 0, 0); (false, 2, 0, 1, 2, 0); (false, 1, 0, 0, 1, 1); (false, 1, 0, 0, 1, 1); (false, 1, 1, 0, 1, 1); (false, 0, 2, 0, 0, 1); (false, 0, 2, 0, 0, 2)].
Proof. vm_compute. reflexivity. Qed.
(** Dropped while two are in progress and the service waits; consumed, when a permit is set aside for the service that
    waits, until that is dropped too. *)
Example C86_example_dropped : map look86 [poll86 1 ++ [GDrop]; poll86 1 ++ [GInto]; poll86 1 ++ [GInto; GFree]] =
  [(false, 0, 2, 0, 0, 0); (false, 0, 1, 0, 0, 0); (false, 0, 2, 0, 0, 0)].
Proof. vm_compute. reflexivity. Qed.
Example C86_example_gone : (length (g_out (run86 (poll86 1 ++ [GInto]))), length (g_out (run86 (poll86 1 ++ [GInto; GFree]))),
  match g_ca (run86 (poll86 1 ++ [GInto; GFree])) with None => true | _ => false end) = (1%nat, 0%nat, true).
Proof. vm_compute. reflexivity. Qed.
(** Unordered; and the service taken out while requests are in progress: those are still answered. *)
Example C86_example_unordered : map look86 [[GUnordered] ++ poll86 1; [GUnordered] ++ poll86 2; poll86 1 ++ [GTake; GPoll]] =
  [(false, 1, 1, 0, 1, 1); (false, 2, 0, 1, 2, 0); (false, 1, 0, 0, 1, 1)].
Proof. vm_compute. reflexivity. Qed.
Example C86_example_meets : kept (in_use 2) lim86 has_permit one none /\ (forall t, kept (enrolled t) lim86 (has_ticket t) none none) /\
  (forall t x, fst (fst (snext list86 t x)) = fst x) /\ (forall n x, fst (fst (sched86 n x)) = fst x) /\ others_leave list86 sched86 (in_use 2) (poll86 1 ++ [GInto; GFree]).
Proof.
  split; [apply permits_kept|]. split; [intros t; apply tickets_kept; reflexivity|]. split; [intros [|r t] x; reflexivity|]. split; [reflexivity|].
  split; [intros [|r t] x; reflexivity|]. split; [reflexivity|]. intros g [E|[E|[E|[]]]]; discriminate.
Qed.
