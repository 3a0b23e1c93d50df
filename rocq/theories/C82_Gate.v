(** C82: a Steer over services that share one concurrency limit (GateSpec.v). *)
From Verif Require Import Base Util Middleware Limits MeterSpec FlightSpec GateSpec GateProof.
Set Implicit Arguments.
Local Open Scope Z_scope.

(** Of the [max] permits all but one service's are reserved for being ready: a Steer over [n] services that share a
    limit of [max] never has more than [max + 1 - n] requests in flight (none if [max < n]; [nat] subtraction). *)
Theorem C82_capacity :
  forall W Req Resp Err P (svc : Service W Req Resp Err) debug
    (pick : P -> Req -> list (st (gated svc debug)) -> M (sem * W) (P * nat)) (pclone : P -> M (sem * W) P),
  (forall p r l, still (@fst sem W) (pick p r l)) ->
  forall max services p w ops,
  let y0 := gate_start pick pclone max services p w in
  calm y0 ops -> alone ops ->
  holding (routes pick pclone) (u_futs (urun y0 ops)) <= Z.of_nat (max + 1 - length services).
Proof. intros. apply gate_capacity; assumption. Qed.
Print Assumptions C82_capacity.

(** It says it is ready only if there is a permit for each of its services besides those of the requests in flight. *)
Theorem C82_ready_needs_all :
  forall W Req Resp Err P (svc : Service W Req Resp Err) debug
    (pick : P -> Req -> list (st (gated svc debug)) -> M (sem * W) (P * nat)) (pclone : P -> M (sem * W) P),
  (forall p r l, still (@fst sem W) (pick p r l)) ->
  forall max services p w ops,
  let y0 := gate_start pick pclone max services p w in
  calm y0 ops -> alone ops -> let y := urun y0 ops in
  forall s w1 s1, held_at (u_svcs y) 0 = Some s ->
  poll_ready (routes pick pclone) s (u_world y) = (w1, Val (s1, Ready (Ok tt))) ->
  Z.of_nat (length services) + holding (routes pick pclone) (u_futs y) <= Z.of_nat max.
Proof. intros. eapply gate_ready; eassumption. Qed.
Print Assumptions C82_ready_needs_all.

(** And then it is not held up by the limit: it answers [Pending] only if one of the services does. *)
Theorem C82_not_held_up :
  forall W Req Resp Err P (svc : Service W Req Resp Err) debug
    (pick : P -> Req -> list (st (gated svc debug)) -> M (sem * W) (P * nat)) (pclone : P -> M (sem * W) P),
  (forall p r l, still (@fst sem W) (pick p r l)) ->
  forall max services p w ops,
  let y0 := gate_start pick pclone max services p w in
  calm y0 ops -> alone ops -> let y := urun y0 ops in
  forall s w1 s1, held_at (u_svcs y) 0 = Some s ->
  Z.of_nat (length services) + holding (routes pick pclone) (u_futs y) <= Z.of_nat max ->
  (forall c v v1 c1, poll_ready svc c v <> (v1, Val (c1, Pending))) ->
  poll_ready (routes pick pclone) s (u_world y) <> (w1, Val (s1, Pending)).
Proof. intros. eapply gate_open; eassumption. Qed.
Print Assumptions C82_not_held_up.

(** With fewer permits than services it never serves anything: it is never ready. *)
Theorem C82_starved :
  forall W Req Resp Err P (svc : Service W Req Resp Err) debug
    (pick : P -> Req -> list (st (gated svc debug)) -> M (sem * W) (P * nat)) (pclone : P -> M (sem * W) P),
  (forall p r l, still (@fst sem W) (pick p r l)) ->
  forall max services p w ops,
  let y0 := gate_start pick pclone max services p w in
  calm y0 ops -> alone ops -> (max < length services)%nat -> let y := urun y0 ops in
  forall s w1 s1, held_at (u_svcs y) 0 = Some s ->
  poll_ready (routes pick pclone) s (u_world y) <> (w1, Val (s1, Ready (Ok tt))).
Proof. intros. eapply gate_starved; eassumption. Qed.
Print Assumptions C82_starved.

(** ** Two routes.  Requests are numbers, the picker chooses by parity; a response comes at once. *)
Definition here : Task unit (result nat unit) := MkTask nat (fun t => ret (t, Ready (Ok t))) (fun _ w => w).
Definition back : Service unit nat nat unit := service_fn here (fun r => ret r).
Definition parity (p : unit) (r : nat) (l : list (st (gated back true))) : M (sem * unit) (unit * nat) := ret (p, Nat.modulo r 2).
Definition two (max : nat) := gate_start (svc := back) (debug := true) parity (fun p => ret p) max [tt; tt] tt tt.
Lemma parity_still : forall p r l, still (@fst sem unit) (parity p r l).
Proof. intros p r l x. cbn. auto. Qed.
(** What the program gets to see of its instance: is it there, and which services are not known to be ready. *)
Definition seen (y : prog (routes (svc := back) (debug := true) parity (fun p => ret p))) : option (list nat) * Z * nat :=
  (match held_at (u_svcs y) 0 with Some s => Some (sr_not_ready s) | None => None end,
   holding _ (u_futs y), sem_avail (fst (u_world y))).
(** Three permits: two requests, then the Steer waits until one of them is gone. *)
Definition go : list (@uop (sem * unit) nat) := [UReady 0; UCall 0 4%nat; UReady 0; UCall 0 7%nat; UReady 0].
Example C82_two_calm : calm (two 3) go /\ alone go.
Proof. split; [cbn; auto 10 | repeat constructor]. Qed.
Example C82_two_run :
  seen (urun (two 3) go) = (Some [1%nat], 2, 0%nat) /\
  seen (urun (two 3) (go ++ [UDropFut 0; UReady 0])) = (Some [], 1, 0%nat).
Proof. split; vm_compute; reflexivity. Qed.
(** One permit for two services: the first has it for ever, the second waits for it. *)
Definition polls : list (@uop (sem * unit) nat) := repeat (UReady 0) 5.
Example C82_one_calm : calm (two 1) polls /\ alone polls.
Proof. split; [cbn; auto 10 | repeat constructor]. Qed.
Example C82_one_run : seen (urun (two 1) polls) = (Some [1%nat], 0, 0%nat).
Proof. vm_compute; reflexivity. Qed.
