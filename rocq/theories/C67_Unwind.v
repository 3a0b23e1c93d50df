(** C67: panics do not leak permits. *)
From Verif Require Import Base Middleware Limits ConcSpec ConcProof UnwindSpec UnwindProof.
Set Implicit Arguments.

(** Instances (clones) and response futures of a ConcurrencyLimit, in any order, where any operation on the wrapped
    service may panic and then takes its owner down with it: everything observable is as in the specification - the
    panicked instance is gone, its permit or its place in the line is free for the others. *)
Theorem C67_refines_line :
  forall W Req Resp Err (svc : Service W Req Resp Err) (max : nat) (s : st svc) (w : W) (l : list (cop svc)),
  fst (crash_run (sys0 svc max s w) l) = fst (crash_spec_run max (spec0 svc s w) l).
Proof. exact @crash_refines. Qed.
Print Assumptions C67_refines_line.

(** Never more than [max] response futures. *)
Theorem C67_in_flight_bounded :
  forall W Req Resp Err (svc : Service W Req Resp Err) (max : nat) (s : st svc) (w : W) (l : list (cop svc)),
  live (y_futs (snd (crash_run (sys0 svc max s w) l))) <= max.
Proof. exact @crash_bound. Qed.
Print Assumptions C67_in_flight_bounded.

(** Every permit is accounted for at all times, *)
Theorem C67_permits_conserved :
  forall W Req Resp Err (svc : Service W Req Resp Err) (max : nat) (s : st svc) (w : W) (l : list (cop svc)),
  let h := crash_run (sys0 svc max s w) l in
  ~ In CoDiverge (map fst (fst h)) ->
  sem_avail (fst (y_w (snd h))) + length (sem_granted (fst (y_w (snd h))))
  + length (List.filter (fun c => match c with Some c => cl_permit c | None => false end) (y_insts (snd h)))
  + live (y_futs (snd h)) = max.
Proof. exact @crash_conserved. Qed.
Print Assumptions C67_permits_conserved.

(** and when all instances and futures are gone - dropped or crashed - all [max] permits are free. *)
Theorem C67_all_permits_back :
  forall W Req Resp Err (svc : Service W Req Resp Err) (max : nat) (s : st svc) (w : W) (l : list (cop svc)),
  let h := crash_run (sys0 svc max s w) l in
  ~ In CoDiverge (map fst (fst h)) ->
  live (y_insts (snd h)) = 0 -> live (y_futs (snd h)) = 0 ->
  sem_avail (fst (y_w (snd h))) = max.
Proof. exact @crash_all_back. Qed.
Print Assumptions C67_all_permits_back.

(** ** Case: a service that panics in [call] for the request 0, in [poll] for the request 1, and in [poll_ready] while
    the world says so. *)
Definition fragile7 : Service bool nat nat unit :=
  MkService (W := bool) unit nat
    (fun s w => if w then (w, Panic) else (w, Val (s, Ready (Ok tt))))
    (fun s r => match r with O => panic | S r' => ret (s, r') end)
    (fun f => match f with O => panic | S f' => ret (f, Ready (Ok f')) end)
    (fun s => ret s) (fun _ w => w) (fun _ w => w).
(** One permit: the instance 0 crashes in [call]; 1, which was waiting, gets the permit; its future crashes; 2 crashes
    in [poll_ready]; 3 still finds a permit. *)
Definition tale7 : list (cop fragile7) :=
  [CClone 0; CClone 0; CClone 0; CReady 0; CReady 1; CCall 0 0; CReady 1; CCall 1 1; CReady 2; CReady 1; CPoll 0;
   CEnv (fun _ => true); CReady 2; CEnv (fun _ => false); CReady 3; CReady 1; CCall 1 7; CReady 3; CPoll 1; CDropFut 1; CReady 3; CDropSvc 1; CCall 3 0].
Definition end7 := crash_run (sys0 fragile7 1 tt false) tale7.
Example C67_example :
  map fst (fst end7) =
  [CoCloned 1; CoCloned 2; CoCloned 3; CoReady (Ready (Ok tt)); CoReady Pending; CoPanic; CoReady (Ready (Ok tt)); CoCalled 0;
   CoReady Pending; CoReady Pending; CoPanic; CoDone; CoPanic; CoDone; CoReady Pending; CoReady (Ready (Ok tt)); CoCalled 1;
   CoReady Pending; CoPolled (Ready (Ok 5)); CoDone; CoReady (Ready (Ok tt)); CoDone; CoPanic]
  /\ live (y_insts (snd end7)) = 0 /\ live (y_futs (snd end7)) = 0 /\ sem_avail (fst (y_w (snd end7))) = 1.
Proof. vm_compute. auto. Qed.
