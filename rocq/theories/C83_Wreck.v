(** C83: panics do not leak load.  Specification in WreckSpec.v (with LoadSpec.v): [wreck_run], from the model of
    PendingRequests or PeakEwma, is the history of one such service, all the futures it hands out and the handles that
    were kept, in which operations of the wrapped service may panic and everybody goes on. *)
From Verif Require Import Base Middleware Load LoadSpec LoadDemo WreckSpec WreckProof Demo.
Set Implicit Arguments.

(** Whatever the wrapped service, whichever of its operations panic and in whatever state that leaves it: the load is
    the number of requests that were accepted (their [call] returned) and are not over - a future that panicked counts
    until it is dropped, a call that panicked not at all. *)
Theorem C83_load_after_panics W Req Resp Err (svc : Service W Req Resp Err) (keep : Resp -> W -> W * bool)
  (ruin : st svc -> st svc) (ruin_fut : fut svc -> fut svc) (s : st svc) w (l : list (lop W Req)) h1 m w1 h2 :
  wreck_run ruin ruin_fut pr_load (lsys0 svc pr_start pr_finish keep s (arc_new tt, w)) l = h1 ++ (LLoad, LoLoad m, w1) :: h2 ->
  m = unfinished h1.
Proof. exact (@wreck_counts _ _ _ _ svc keep ruin ruin_fut s w l h1 m w1 h2). Qed.
Print Assumptions C83_load_after_panics.

(** Once every future and every handle that was handed out has been dropped, the load is zero again. *)
Theorem C83_no_leak W Req Resp Err (svc : Service W Req Resp Err) (keep : Resp -> W -> W * bool)
  (ruin : st svc -> st svc) (ruin_fut : fut svc -> fut svc) (s : st svc) w (l : list (lop W Req)) h1 m w1 h2 :
  wreck_run ruin ruin_fut pr_load (lsys0 svc pr_start pr_finish keep s (arc_new tt, w)) l = h1 ++ (LLoad, LoLoad m, w1) :: h2 ->
  all_dropped h1 -> m = 0.
Proof. exact (@wreck_zero _ _ _ _ svc keep ruin ruin_fut s w l h1 m w1 h2). Qed.
Print Assumptions C83_no_leak.

(** PendingRequests and PeakEwma do what the reference does, through panics too: in particular PeakEwma is told of the
    end of a request whose [call] panicked, and takes its age as a round-trip time. *)
Theorem C83_refines_reference W Req Resp Err C T Met (svc : Service W Req Resp Err)
  (start : M W T) (finish : T -> C -> W -> C * W) (keep : Resp -> W -> W * bool)
  (ruin : st svc -> st svc) (ruin_fut : fut svc -> fut svc)
  (load : M (arc (C := C) * W) Met) (rload : nat -> C -> W -> C * W * Met) (s : st svc) c w (l : list (lop W Req)) :
  (forall n c w, load (Arc (S n) c, w) = let '(c1, w1, m) := rload n c w in ((Arc (S n) c1, w1), Val m)) ->
  wreck_run ruin ruin_fut load (lsys0 svc start finish keep s (arc_new c, w)) l =
  rwreck_run start finish keep ruin ruin_fut rload (rsys0 (T := T) svc s c w) l.
Proof. exact (fun H => @wreck_refines _ _ _ _ _ _ _ svc start finish keep ruin ruin_fut load rload H s c w l). Qed.
Print Assumptions C83_refines_reference.

(** A service whose [call] panics on request 13, and whose future panics if the request was 66. *)
Definition frail : Service scr nat nat nat :=
  MkService (W := scr) nat nat (fun s => ret (s, Ready (Ok tt)))
    (fun s r => if r =? 13 then panic else ret (s, r))
    (fun f => if f =? 66 then panic else ret (f, Ready (Ok f)))
    (fun s => ret s) (fun _ w => w) (fun _ w => w).
Definition frail_run : list (lop scr nat) :=
  [LCall 1; LCall 13; LLoad; LCall 66; LLoad; LPoll 1; LLoad; LDropFut 1; LLoad; LPoll 0; LLoad; LPoll 0; LDropFut 0; LLoad].
Definition frail_history (keep : nat -> scr -> scr * bool) :=
  wreck_run (svc := frail) (fun s => s) (fun f => f) pr_load (lsys0 frail pr_start pr_finish keep 0 (arc_new tt, scr0)) frail_run.
Example C83_example : map (fun e => snd (fst e)) (frail_history complete_on_response) =
  [LoCalled; LoPanic; LoLoad 1; LoCalled; LoLoad 2; LoPanic; LoLoad 2; LoDone; LoLoad 1;
   LoPolled (Ready (Ok (1, false))); LoLoad 0; LoPanic; LoDone; LoLoad 0].
Proof. vm_compute. reflexivity. Qed.
(** The hypotheses of [C83_no_leak] (here with a handle that was kept), and its conclusion. *)
Example C83_example_dropped :
  let h := wreck_run (svc := frail) (fun s => s) (fun f => f) pr_load (lsys0 frail pr_start pr_finish (fun _ w => (w, true)) 0 (arc_new tt, scr0))
             (frail_run ++ [LDropHandle 0; LLoad]) in
  all_dropped (firstn 15 h) /\ map (fun e => snd (fst e)) (skipn 13 h) = [LoLoad 1; LoDone; LoLoad 0].
Proof.
  split; [|vm_compute; reflexivity].
  intros j Hj. destruct j as [|[|j]]; [| |vm_compute in Hj; lia].
  - split; [exists scr0; vm_compute; tauto|]. intros _. exists scr0. vm_compute. tauto.
  - split; [exists scr0; vm_compute; tauto|]. intros (v & w & I). exfalso. vm_compute in I.
    repeat (destruct I as [I|I]; [discriminate I|]). exact I.
Qed.
