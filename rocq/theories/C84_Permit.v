(** C84: no middleware over a ConcurrencyLimit leaks its permits. *)
From Verif Require Import Base Util ReadyCache SpawnReady Load Make Middleware Limits Hedge MeterSpec MeterProof FlightSpec KeepSpec PermitSpec PermitProof.
Set Implicit Arguments.
Local Open Scope Z_scope.

(** A limit, over any service, can be the bottom of a stack (KeepSpec.v): an instance has the permit it has acquired
    until it is called, the response future has it then; an instance that waits has its place in the queue. *)
Theorem C84_limit_permits : forall W Req Resp Err (svc : Service W Req Resp Err) closed debug max,
  kept (in_use max) (conc_limit svc closed debug) has_permit one none.
Proof. exact permits_kept. Qed.
Print Assumptions C84_limit_permits.
Theorem C84_limit_tickets : forall W Req Resp Err (svc : Service W Req Resp Err) closed debug t, (forall w, closed w = false) ->
  kept (enrolled t) (conc_limit svc closed debug) (has_ticket t) none none.
Proof. exact tickets_kept. Qed.
Print Assumptions C84_limit_tickets.
Theorem C84_limit_reserved : forall W Req Resp Err (svc : Service W Req Resp Err) closed debug max,
  kept (reserved max) (conc_limit (in_the_air svc) closed debug) has_permit none none.
Proof. exact reserved_kept. Qed.
Print Assumptions C84_limit_reserved.

(** Whatever a program does with instances, clones and futures of such a stack: the permits in use are those that
    the instances and the futures it holds account for, and there are never more of them than the limit. *)
Theorem C84_permits_accounted : forall W Req Resp Err (top : Service (sem * W) Req Resp Err) osv own max,
  kept (in_use max) top osv own none ->
  forall w insts ops, osum osv insts = 0 -> calm (ustart top (sem_new max, w) insts) ops -> env_spares_limit ops ->
  let y := urun (ustart top (sem_new max, w) insts) ops in
  in_use max (u_world y) = holding_in osv own y /\ 0 <= in_use max (u_world y) <= Z.of_nat max.
Proof. exact @permits_run. Qed.
Print Assumptions C84_permits_accounted.

(** The requests in flight below the limit are the permits in use, less those reserved by instances that are ready;
    so there are never more of them than the limit, whatever the stack. *)
Theorem C84_in_flight : forall W Req Resp Err (top : Service (sem * (Z * W)) Req Resp Err) osv own max,
  kept (reserved max) top osv own none ->
  forall w insts ops, osum osv insts = 0 -> calm (ustart top (sem_new max, (0, w)) insts) ops -> env_same_z (reserved max) ops ->
  let y := urun (ustart top (sem_new max, (0, w)) insts) ops in
  fst (snd (u_world y)) + holding_in osv own y = in_use max (u_world y) /\ fst (snd (u_world y)) <= Z.of_nat max.
Proof. exact permits_flight. Qed.
Print Assumptions C84_in_flight.

(** When the program has dropped them all, in whatever states, all permits are free and nobody is in the queue. *)
Theorem C84_all_back : forall W Req Resp Err (top : Service (sem * W) Req Resp Err) osv own max osvt ownt,
  kept (in_use max) top osv own none -> (forall t, kept (enrolled t) top (osvt t) (ownt t) none) ->
  forall w insts ops, osum osv insts = 0 -> (forall t, osum (osvt t) insts = 0) ->
  calm (ustart top (sem_new max, w) insts) ops -> env_spares_limit ops ->
  let y := urun (ustart top (sem_new max, w) insts) ops in
  (forall i, held_at (u_svcs y) i = None) -> (forall j, held_at (u_futs y) j = None) ->
  sem_avail (fst (u_world y)) = max /\ sem_queue (fst (u_world y)) = [] /\ sem_granted (fst (u_world y)) = [].
Proof. exact @permits_back. Qed.
Print Assumptions C84_all_back.

(** The response future of a Retry over a limit has at most one permit, for all its attempts, and none while it
    waits out a backoff. *)
Theorem C84_retry : forall W Req Resp Err (svc : Service W Req Resp Err) closed debug (pol : Policy (sem * W) Req Resp Err) fuel
    (f : retry_fut pol (conc_limit svc closed debug)),
  retrying fuel f ->
  0 <= oretry (svc := conc_limit svc closed debug) has_permit one f <= 1 /\
  (backing_off f = true -> oretry (svc := conc_limit svc closed debug) has_permit one f = 0).
Proof. exact @retry_permits. Qed.
Print Assumptions C84_retry.

(** ** Cases: a back end that fails each request at the second poll; one retry, after a pause of one poll; a timeout. *)
Definition back84 : Service Z nat unit nat :=
  MkService (W := Z) unit bool (fun s => ret (s, Ready (Ok tt))) (fun s r => ret (s, false))
    (fun f => if f then ret (true, Ready (Er 7%nat)) else ret (true, Pending)) (fun s => ret s) (fun _ w => w) (fun _ w => w).
Definition w84 : Type := (sem * (Z * Z))%type.
Definition rt84 : Rt w84.
Proof. refine (@MkRt w84 (fun x => snd (snd x)) (fun x d => (d <=? snd (snd x))%Z) (fun _ w => w) _ _ _); auto. intros w d E. apply Z.leb_le, E. Defined.
Definition pause84 : Task w84 unit := MkTask (W := w84) bool (fun t => if t then ret (true, Ready tt) else ret (true, Pending)) (fun _ w => w).
Definition once84 : Policy w84 nat unit nat :=
  @MkPolicy _ _ _ _ nat pause84 (fun p r => ret (p, Some r))
    (fun p r v => match p with O => ret (p, r, v, None) | S p' => ret (p', r, v, Some false) end) (fun p => ret p).
Definition lim84 : Service w84 nat unit nat := conc_limit (in_the_air back84) (fun _ => false) true.
Definition top84 := timeout rt84 1000 (retry once84 lim84 9).

Lemma top84_kept live osv own :
  kept live lim84 osv own none -> kept live top84 (fun s => osv (snd s)) (fun f => oretry (svc := lim84) osv own (pol := once84) (to_inner f)) none.
Proof.
  intros H. apply kp_timeout; [|intros d w; reflexivity]. apply (@kp_retry _ _ _ _ live lim84 osv own once84 9); auto.
  - split; [intros []; apply still_ret | intros t w; reflexivity].
  - intros p r. apply still_ret.
  - intros [|p] r v; apply still_ret.
  - intros p. apply still_ret.
Qed.
Definition inst84 : st top84 := (1%nat, conc_new (in_the_air back84) tt).
Definition start84 := ustart top84 (sem_new 2, (0, 0)) [inst84; inst84].
Definition ops84 : list (@uop w84 nat) :=
  [UReady 0%nat; UCall 0%nat 5%nat; UReady 0%nat; UReady 1%nat; UPoll 0%nat; UPoll 0%nat; UReady 1%nat; UPoll 0%nat; UDrop 0%nat;
   UClone 1%nat; UReady 2%nat; UDropFut 0%nat; UDrop 1%nat; UDrop 2%nat].
(** In use, free, waiting, set aside; and the requests in flight. *)
Definition look84 (n : nat) :=
  let x := u_world (urun start84 (firstn n ops84)) in
  (in_use 2 x, Z.of_nat (sem_avail (fst x)), Z.of_nat (length (sem_queue (fst x))), Z.of_nat (length (sem_granted (fst x))), fst (snd x)).
(** The call and the next reservation take both permits, instance 1 waits; the first attempt fails, its permit is set
    aside for instance 1, which takes it; the retry has to wait; instance 0 goes, and so on. *)
Example C84_example : map look84 (seq 0 15) =
  [(0, 2, 0, 0, 0); (1, 1, 0, 0, 0); (1, 1, 0, 0, 1); (2, 0, 0, 0, 1); (2, 0, 1, 0, 1); (2, 0, 1, 0, 1); (1, 0, 0, 1, 0); (2, 0, 0, 0, 0);
   (2, 0, 1, 0, 0); (1, 0, 0, 1, 0); (1, 0, 0, 1, 0); (1, 0, 1, 1, 0); (1, 0, 0, 1, 0); (0, 1, 0, 1, 0); (0, 2, 0, 0, 0)].
Proof. vm_compute. reflexivity. Qed.
Example C84_example_meets : kept (in_use 2) top84 (fun s => has_permit (snd s)) (fun f => oretry (svc := lim84) has_permit one (pol := once84) (to_inner f)) none /\
  (forall t, kept (enrolled t) top84 (fun s => has_ticket t (snd s)) (fun f => oretry (svc := lim84) (has_ticket t) none (pol := once84) (to_inner f)) none) /\
  kept (reserved 2) top84 (fun s => has_permit (snd s)) (fun f => oretry (svc := lim84) has_permit none (pol := once84) (to_inner f)) none /\
  osum (fun s => has_permit (snd s)) [inst84; inst84] = 0 /\ calm start84 ops84 /\ env_spares_limit ops84 /\ env_same_z (reserved 2) ops84.
Proof.
  split; [|split; [|split]].
  - apply top84_kept, C84_limit_permits.
  - intros t. apply top84_kept, C84_limit_tickets. reflexivity.
  - apply top84_kept, C84_limit_reserved.
  - split; [reflexivity|]. split; [vm_compute; repeat split | split; repeat constructor].
Qed.
Definition own84 (f : retry_fut once84 lim84) : Z := oretry (svc := lim84) has_permit one (pol := once84) f.

(** A Retry's future: its first attempt has the permit; no more when that has failed. *)
Example C84_example_retry : exists w1 s1 f w2 f1 w3 f2 w4 f3,
  call (retry once84 lim84 9) (1%nat, ConcSt (in_the_air back84) tt None true) 5%nat (Sem 0 [] [] 0, (0, 0)) = (w1, Val (s1, f)) /\ retrying 9 f /\ own84 f = 1 /\
  poll_fut (retry once84 lim84 9) f w1 = (w2, Val (f1, Pending)) /\ retrying 9 f1 /\ own84 f1 = 1 /\ sem_avail (fst w2) = 0%nat /\
  poll_fut (retry once84 lim84 9) f1 w2 = (w3, Val (f2, Pending)) /\ retrying 9 f2 /\ backing_off f2 = true /\ sem_avail (fst w3) = 1%nat /\
  poll_fut (retry once84 lim84 9) f2 w3 = (w4, Val (f3, Pending)) /\ retrying 9 f3 /\ backing_off f3 = false /\ own84 f3 = 1 /\ sem_avail (fst w4) = 0%nat.
Proof.
  eexists _, _, _, _, _, _, _, _, _.
  assert (R : retrying (pol := once84) (svc := lim84) 9 (RetryFut (pol := once84) (svc := lim84) (Some 5%nat) 1%nat (conc_new (in_the_air back84) tt) (RCalled (svc := lim84) false))).
  { eapply (@rt_call _ _ _ _ once84 lim84 9 (1%nat, ConcSt (in_the_air back84) tt None true) 5%nat (Sem 0 [] [] 0, (0, 0))). reflexivity. }
  split; [reflexivity|]. split; [exact R|]. split; [reflexivity|].
  split; [reflexivity|]. eapply rt_poll in R; [|instantiate (4 := (Sem 0 [] [] 0, (1, 0))); reflexivity]. split; [exact R|]. split; [reflexivity|]. split; [reflexivity|].
  split; [reflexivity|]. eapply rt_poll in R; [|instantiate (4 := (Sem 0 [] [] 0, (1, 0))); reflexivity]. split; [exact R|]. split; [reflexivity|]. split; [reflexivity|].
  split; [reflexivity|]. eapply rt_poll in R; [|instantiate (4 := (Sem 1 [] [] 0, (0, 0))); reflexivity]. split; [exact R|]. repeat split.
Qed.
