(** C85: a Buffer drops all it is given, once: the instance behind it and the response futures. *)
From Verif Require Import Base Util Buffer Middleware Limits MeterSpec FlightSpec KeepSpec KeepProof BufferTop PermitSpec PermitProof StowSpec StowProof.
Set Implicit Arguments.
Local Open Scope Z_scope.

(** Whatever the instances and the response futures of a stack hold ([kept], KeepSpec.v: permits, places in a queue,
    load, connections, ...), and however the handles, the worker, and the program interleave: behind a Buffer, what there
    is of it is what there was, less what the instance brought along, and what the Buffer still has: the worker the
    instance; the worker, then the channel, then the Buffer's response future, the response future. *)
Theorem C85_accounted : forall W Req Resp Err (svc : Service W Req Resp Err) live osv own, kept live svc osv own none ->
  forall bound s w ops y l, osv s <= live w -> env_leaves live ops -> buffer_run svc bound s w ops = (y, l) -> smooth l ->
  live (y_w y) = live w - osv s + stowed osv own y.
Proof. exact @stow_accounted. Qed.
Print Assumptions C85_accounted.

(** When the worker is gone and the program has dropped the response futures it had, nothing is left: whether the
    requests were answered, abandoned while queued, in flight or handed over, or failed with the service. *)
Theorem C85_nothing_left : forall W Req Resp Err (svc : Service W Req Resp Err) live osv own, kept live svc osv own none ->
  forall bound s w ops y l, osv s <= live w -> env_leaves live ops -> buffer_run svc bound s w ops = (y, l) -> smooth l ->
  y_wk y = None -> (forall id, y_fs y id = None) -> live (y_w y) = live w - osv s.
Proof. exact @stow_nothing_left. Qed.
Print Assumptions C85_nothing_left.

(** So a Buffer over a stack over a ConcurrencyLimit: the permits in use are those of the worker's instance and of the
    response futures not yet dropped, and at the end all permits are free and nobody is in the queue. *)
Theorem C85_permits : forall W Req Resp Err (svc : Service (sem * W) Req Resp Err) max osv own osvt ownt,
  kept (in_use max) svc osv own none -> (forall t, kept (enrolled t) svc (osvt t) (ownt t) none) ->
  forall bound s w ops y l, osv s = 0 -> (forall t, osvt t s = 0) -> (forall g, In (BEnv g) ops -> forall x, fst (g x) = fst x) ->
  buffer_run svc bound s (sem_new max, w) ops = (y, l) -> smooth l ->
  (in_use max (y_w y) = stowed osv own y /\ 0 <= in_use max (y_w y) <= Z.of_nat max) /\
  (y_wk y = None -> (forall id, y_fs y id = None) ->
   sem_avail (fst (y_w y)) = max /\ sem_queue (fst (y_w y)) = [] /\ sem_granted (fst (y_w y)) = []).
Proof. exact @stow_permits. Qed.
Print Assumptions C85_permits.

(** ** Cases: a limit of one, behind a buffer of two places; the back end answers at the second poll. *)
Definition back85 : Service unit nat nat nat :=
  MkService (W := unit) unit (bool * nat) (fun s => ret (s, Ready (Ok tt))) (fun s r => ret (s, (false, r)))
    (fun f => if fst f then ret (f, Ready (Ok (snd f))) else ret ((true, snd f), Pending)) (fun s => ret s) (fun _ w => w) (fun _ w => w).
Definition lim85 : Service (sem * unit) nat nat nat := conc_limit back85 (fun _ => false) true.
Definition run85 := buffer_run lim85 2 (conc_new back85 tt) (sem_new 1, tt).
Definition send85 (r : nat) : list (bop (W := sem * unit) (Req := nat)) := [BReady 0; BStep 0 false; BCall 0 r].
Definition work85 (n : nat) : list (bop (W := sem * unit) (Req := nat)) := repeat (BWork false) n.
Definition ops85 : list (bop (W := sem * unit) (Req := nat)) :=
  send85 33 ++ send85 34 ++ work85 16 ++ [BPollF 0 false] ++ work85 6 ++ [BDropF 0] ++ work85 5 ++ [BKill; BDropF 1].
(** In use, free, waiting, set aside; what the Buffer has. *)
Definition look85 (n : nat) :=
  let y := fst (run85 (firstn n ops85)) in
  (in_use 1 (y_w y), Z.of_nat (sem_avail (fst (y_w y))), Z.of_nat (length (sem_queue (fst (y_w y)))), Z.of_nat (length (sem_granted (fst (y_w y)))),
   stowed (svc := lim85) has_permit one y).
Definition final85 := fst (run85 ops85).

(** The worker takes the permit, calls, hands the future over; it waits for another for the second request; the first
    response future is dropped, its permit set aside for the worker, which calls and is dropped; the permit is with the
    second response future, until that is dropped too. *)
Example C85_example : map look85 [0; 11; 17; 29; 30; 31; 36; 37]%nat =
  [(0, 1, 0, 0, 0); (1, 0, 0, 0, 1); (1, 0, 1, 0, 1); (1, 0, 1, 0, 1); (0, 0, 0, 1, 0); (1, 0, 0, 0, 1); (1, 0, 0, 0, 1); (0, 1, 0, 0, 0)].
Proof. vm_compute. reflexivity. Qed.
Definition is_none {A} (x : option A) : bool := match x with None => true | _ => false end.
Example C85_example_gone : (is_none (y_wk (fst (run85 (firstn 35 ops85)))), is_none (y_wk final85), y_fnext final85, is_none (y_fs final85 0), is_none (y_fs final85 1)) =
  (false, true, 2%nat, true, true).
Proof. vm_compute. reflexivity. Qed.
Definition rough (e : bobs lim85) : bool := match e with WPanic | WHang | OPollPanic _ | OPollHang _ => true | _ => false end.
Example C85_example_meets : kept (in_use 1) lim85 has_permit one none /\ (forall t, kept (enrolled t) lim85 (has_ticket t) none none) /\
  (forall g, In (BEnv g) ops85 -> forall x, fst (g x) = fst x) /\ smooth (snd (run85 ops85)).
Proof.
  split; [apply permits_kept|]. split; [intros t; apply tickets_kept; reflexivity|]. split.
  - intros g H. unfold ops85, send85, work85 in H. repeat (rewrite in_app_iff in H; cbn [In] in H).
    repeat match goal with
    | H : _ \/ _ |- _ => destruct H as [H|H]
    | H : False |- _ => destruct H
    | H : In _ (repeat _ _) |- _ => apply repeat_spec in H
    end; discriminate.
  - assert (H : existsb rough (snd (run85 ops85)) = false) by (vm_compute; reflexivity).
    intros e He. destruct (rough e) eqn:Er; [|destruct e; try exact I; discriminate].
    assert (T : existsb rough (snd (run85 ops85)) = true) by (apply existsb_exists; exists e; split; assumption).
    rewrite T in H. discriminate H.
Qed.
(** Abandoned between the call and the hand-over: the worker has the response future, and drops it. *)
Definition ops85b : list (bop (W := sem * unit) (Req := nat)) := send85 33 ++ work85 6 ++ [BDropF 0].
Example C85_example_abandoned :
  (in_use 1 (y_w (fst (run85 ops85b))), stowed (svc := lim85) has_permit one (fst (run85 ops85b)), in_use 1 (y_w (fst (run85 (ops85b ++ work85 1))))) = (1, 1, 0).
Proof. vm_compute. reflexivity. Qed.
