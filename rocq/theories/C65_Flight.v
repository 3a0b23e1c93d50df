(** C65: no work goes on behind the user's back; dropping the response futures cancels it. *)
From Verif Require Import Base Util ReadyCache SpawnReady Load Make Middleware Limits Hedge MeterSpec MeterProof FlightSpec FlightProof FlightTop.
Set Implicit Arguments.
Local Open Scope Z_scope.

(** Whatever a program does with any number of instances and clones of a stack and with the response futures:
    the requests in flight at the bottom are at most [k] per response future it still holds. *)
Theorem C65_in_flight : forall W Req Resp Err (live : W -> Z) k (svc : Service W Req Resp Err),
  direct live k svc -> forall w insts ops, calm (ustart svc w insts) ops -> env_same_z live ops ->
  let y := urun (ustart svc w insts) ops in
  live w <= live (u_world y) <= live w + k * holding svc (u_futs y).
Proof. exact direct_run. Qed.
Print Assumptions C65_in_flight.

(** So once it has dropped them all, nothing is in flight any more, whether or not the instances still exist. *)
Theorem C65_nothing_detached : forall W Req Resp Err (live : W -> Z) k (svc : Service W Req Resp Err),
  direct live k svc -> forall w insts ops, calm (ustart svc w insts) ops -> env_same_z live ops ->
  let y := urun (ustart svc w insts) ops in
  holding svc (u_futs y) = 0 -> live (u_world y) = live w.
Proof. exact direct_cancelled. Qed.
Print Assumptions C65_nothing_detached.

(** Any service can be the bottom. *)
Theorem C65_any_bottom : forall W Req Resp Err (svc : Service W Req Resp Err), direct fst 1 (in_the_air svc).
Proof. exact in_the_air_direct. Qed.
Print Assumptions C65_any_bottom.

(** ** Cases: a back end that answers every request, at the second poll, with an error; two retries; hedging. *)
Definition flaky5 : Service Z nat unit nat :=
  MkService (W := Z) unit bool
    (fun s => ret (s, Ready (Ok tt)))
    (fun s r => ret (s, false))
    (fun f => if f then ret (true, Ready (Er 7%nat)) else ret (true, Pending))
    (fun s => ret s) (fun _ w => w) (fun _ w => w).
Definition rt65 : Rt (Z * Z).
Proof. refine (@MkRt (Z * Z) snd (fun w d => (d <=? snd w)%Z) (fun _ w => w) _ _ _); auto. intros w d E. apply Z.leb_le, E. Defined.
Definition twice5 : Policy (Z * Z) nat unit nat :=
  @MkPolicy _ _ _ _ nat (MkTask (W := Z * Z) unit (fun t => ret (t, Ready tt)) (fun _ w => w))
    (fun p r => ret (p, Some r))
    (fun p r v => match p with O => ret (p, r, v, None) | S p' => ret (p', r, v, Some tt) end)
    (fun p => ret p).
Definition retried5 : Service (Z * Z) nat unit nat := retry twice5 (in_the_air flaky5) 9.
Definition hedged5 := hedge rt65 retried5 Some (fun _ => true) 0 (fun _ => 0%Z) (fun _ => histo_new 0 1000000000) (fun _ w => w).
Definition limited5 := conc_limit (timeout rt65 1000 hedged5) (fun _ => false) false.
Lemma retried5_direct : direct fst 1 retried5.
Proof.
  apply dr_retry; [apply C65_any_bottom | split; [intros t; apply still_ret | intros t w; reflexivity] | | |]; intros; try apply still_ret.
  cbn. destruct p; apply still_ret.
Qed.
Lemma limited5_direct : direct (fun x : sem * (Z * Z) => fst (snd x)) 2 limited5.
Proof.
  apply dr_conc_limit, dr_timeout; [apply (dr_hedge (k := 1)); [apply retried5_direct | |] |]; intros d w; reflexivity.
Qed.
Definition start5 := ustart limited5 (sem_new 2, (0, 0)) [conc_new (timeout rt65 1000 hedged5) ((2%nat, tt), ((2%nat, tt), tt))].
Definition air5 (ops : list uop) := (fst (snd (u_world (urun start5 ops))), holding limited5 (u_futs (urun start5 ops))).

(** The original and the duplicate in flight, both retried; two at any time; none when the future is dropped. *)
Example C65_example :
  map air5 [[UReady 0%nat; UCall 0%nat 5%nat];
            [UReady 0%nat; UCall 0%nat 5%nat; UPoll 0%nat];
            [UReady 0%nat; UCall 0%nat 5%nat; UPoll 0%nat; UPoll 0%nat];
            [UReady 0%nat; UCall 0%nat 5%nat; UPoll 0%nat; UPoll 0%nat; UPoll 0%nat];
            [UReady 0%nat; UCall 0%nat 5%nat; UPoll 0%nat; UPoll 0%nat; UPoll 0%nat; UDropFut 0%nat]]
  = [(1, 1); (2, 1); (2, 1); (2, 1); (0, 0)].
Proof. vm_compute. reflexivity. Qed.
Example C65_example_calm :
  calm start5 [UReady 0%nat; UCall 0%nat 5%nat; UPoll 0%nat; UPoll 0%nat; UPoll 0%nat; UDropFut 0%nat; UDrop 0%nat; UPoll 0%nat].
Proof. vm_compute. repeat split. Qed.
