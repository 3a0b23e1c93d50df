(** C34-C36: ConcurrencyLimit.  Specification in ConcSpec.v. *)
From Verif Require Import Base Limits ConcSpec ConcProof Demo.
Set Implicit Arguments.

(** Whatever the owners of the instances (clones) and of the response futures do, never more than [max] response
    futures exist at a time. *)
Theorem C34_in_flight_bounded :
  forall W Req Resp Err (svc : Service W Req Resp Err) (max : nat) (s : st svc) (w : W) (l : list (cop svc)),
  live (y_futs (snd (sys_run (sys0 svc max s w) l))) <= max.
Proof. exact @conc_bound. Qed.
Print Assumptions C34_in_flight_bounded.

(** No permit is lost or invented: once all instances and all futures are gone, all [max] permits are free. *)
Theorem C35_all_permits_back :
  forall W Req Resp Err (svc : Service W Req Resp Err) (max : nat) (s : st svc) (w : W) (l : list (cop svc)),
  let h := sys_run (sys0 svc max s w) l in
  Forall (fun x => match fst x with CoPanic | CoDiverge => False | _ => True end) (fst h) ->
  live (y_insts (snd h)) = 0 -> live (y_futs (snd h)) = 0 ->
  sem_avail (fst (y_w (snd h))) = max.
Proof. exact @conc_all_back. Qed.
Print Assumptions C35_all_permits_back.

(** Accounting at all times: free permits, permits handed to a waiter that has not asked again yet, permits held by
    instances, and requests in flight add up to [max]. *)
Theorem C35_permits_conserved :
  forall W Req Resp Err (svc : Service W Req Resp Err) (max : nat) (s : st svc) (w : W) (l : list (cop svc)),
  let h := sys_run (sys0 svc max s w) l in
  Forall (fun x => match fst x with CoPanic | CoDiverge => False | _ => True end) (fst h) ->
  sem_avail (fst (y_w (snd h))) + length (sem_granted (fst (y_w (snd h))))
  + length (List.filter (fun c => match c with Some c => cl_permit c | None => false end) (y_insts (snd h)))
  + live (y_futs (snd h)) = max.
Proof. exact @conc_conserved. Qed.
Print Assumptions C35_permits_conserved.

(** Every answer, every operation on the wrapped services and every panic is exactly as in the specification:
    [poll_ready] asks the wrapped service iff this instance has a permit or there is one for it and for everybody
    who has been waiting longer; permits go from instances to requests and come back when these are dropped. *)
Theorem C36_refines_line :
  forall W Req Resp Err (svc : Service W Req Resp Err) (max : nat) (s : st svc) (w : W) (l : list (cop svc)),
  fst (sys_run (sys0 svc max s w) l) = fst (spec_run max (spec0 svc s w) l).
Proof. exact @conc_refines. Qed.
Print Assumptions C36_refines_line.

(** Two instances and a limit of one: the second waits until the first one's future is dropped, and the first,
    asking again afterwards, does not overtake it. *)
Example C34_example :
  map fst (fst (sys_run (sys0 demo 1 7 scr0)
    [CReady 0; CClone 0; CReady 1; CCall 0 5; CReady 0; CReady 1; CPoll 0; CReady 1; CDropFut 0;
     CReady 0; CReady 1; CCall 1 6]))
  = [CoReady (Ready (Ok tt)); CoCloned 1; CoReady Pending; CoCalled 0; CoReady Pending; CoReady Pending;
     CoPolled (Ready (Ok 5)); CoReady Pending; CoDone; CoReady Pending; CoReady (Ready (Ok tt)); CoCalled 1].
Proof. reflexivity. Qed.
Example C35_example :
  let h := sys_run (sys0 demo 2 7 scr0)
    [CReady 0; CClone 0; CCall 0 5; CReady 1; CReady 0; CDropSvc 0; CDropFut 0; CDropSvc 1] in
  live (y_insts (snd h)) = 0 /\ live (y_futs (snd h)) = 0 /\ sem_avail (fst (y_w (snd h))) = 2.
Proof. cbn. auto. Qed.
(** Two different services under one limit (GlobalConcurrencyLimitLayer): while one has a request in flight the other
    waits. *)
Example C34_global_example :
  map fst (fst (sys_run (sys0 demo 1 7 scr0)
    [CNew (svc := demo) 9; CReady 0; CCall 0 5; CReady 1; CDropFut 0; CReady 1; CCall 1 6; CPoll 1]))
  = [CoCloned 1; CoReady (Ready (Ok tt)); CoCalled 0; CoReady Pending; CoDone; CoReady (Ready (Ok tt)); CoCalled 1;
     CoPolled (Ready (Ok 6))].
Proof. reflexivity. Qed.
