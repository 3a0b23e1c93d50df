(** C72: what a Buffer keeps alive, and how much a Buffer over a ConcurrencyLimit can hold.  Specification in
    HoldSpec.v. *)
From Verif Require Import Base ContractSpec Limits FlightSpec Buffer BufferSpec BufferTop HoldSpec HoldTop Demo.
Set Implicit Arguments.

(** Any handles, futures and worker, interleaved in any way.  The wrapped service counts its response futures in the
    world ([in_the_air], FlightSpec.v: plus one per call, minus one per future dropped).  Exactly those of the requests
    called exist whose response future has not been dropped, or whose future the worker has not handed over yet. *)
Theorem C72_owned :
  forall W Req Resp Err (svc : Service W Req Resp Err) bound s w (ops : list (bop (W := Z * W) (Req := Req))) y l,
  env_fst ops -> buffer_run (in_the_air svc) bound s (0%Z, w) ops = (y, l) ->
  fst (y_w y) = Z.of_nat (length (in_flight l)).
Proof. exact @hold_owned. Qed.
Print Assumptions C72_owned.

(** A ConcurrencyLimit behind the Buffer limits all handles together: never more than [max] calls in flight. *)
Theorem C72_limit :
  forall W Req Resp Err (svc : Service W Req Resp Err) max debug bound s w
    (ops : list (bop (W := sem * W) (Req := Req))) y l,
  env_fst ops ->
  buffer_run (conc_limit svc (fun _ => false) debug) bound (conc_new svc s) (sem_new max, w) ops = (y, l) ->
  length (in_flight l) <= max.
Proof. intros. eapply hold_limit; eassumption. Qed.
Print Assumptions C72_limit.

(** And, as long as the worker exists, at most [bound] requests wait in the channel, one in the worker's hands and
    [max] are in flight: no more than that are accepted and unfinished. *)
Theorem C72_total :
  forall W Req Resp Err (svc : Service W Req Resp Err) max debug bound s w
    (ops : list (bop (W := sem * W) (Req := Req))) y l,
  env_fst ops ->
  buffer_run (conc_limit svc (fun _ => false) debug) bound (conc_new svc s) (sem_new max, w) ops = (y, l) ->
  ~ In WGone l -> length (unfinished l) <= bound + 1 + max.
Proof. exact @hold_total. Qed.
Print Assumptions C72_total.

(** ** Cases.  A channel of one, a limit of one: three requests are accepted, one is in flight, and a fourth finds no
    room; when the first is dropped the second is called. *)
Definition send72 {W} (r : nat) : list (bop (W := W) (Req := nat)) := [BReady 0; BStep 0 false; BCall 0 r] ++ repeat (BWork false) 9.
Definition ops72 : list (bop (W := sem * scr) (Req := nat)) := send72 33 ++ send72 34 ++ send72 35 ++ [BReady 0; BStep 0 false].
Definition run72 := buffer_run (conc_limit demo (fun _ => false) true) 1 (conc_new demo 5) (sem_new 1, scr0).
Example C72_example :
  unfinished (snd (run72 ops72)) = [2; 1; 0] /\ in_flight (snd (run72 ops72)) = [0] /\
  hd_error (map (fun e => match e with OReady h a => Some (h, a) | _ => None end) (snd (run72 ops72))) = Some (Some (0, Pending)).
Proof. repeat split; vm_compute; reflexivity. Qed.
Example C72_example_next : let l := snd (run72 (ops72 ++ [BDropF 0] ++ repeat (BWork false) 9)) in
  unfinished l = [2; 1] /\ in_flight l = [1].
Proof. split; vm_compute; reflexivity. Qed.
Example C72_example_meets : env_fst ops72 /\ existsb (fun e => match e with WGone => true | _ => false end) (snd (run72 ops72)) = false.
Proof.
  split; [|vm_compute; reflexivity]. intros g Hg x. unfold ops72, send72 in Hg.
  repeat (rewrite in_app_iff in Hg; cbn [In] in Hg).
  repeat match goal with
  | H : _ \/ _ |- _ => destruct H as [H|H]
  | H : False |- _ => destruct H
  | H : In _ (repeat _ _) |- _ => apply repeat_spec in H
  end; discriminate.
Qed.
(** The count: two calls, the first response future dropped after its answer was polled. *)
Definition ops72b : list (bop (W := Z * scr) (Req := nat)) := send72 33 ++ send72 34 ++ [BPollF 0 false; BDropF 0; BDropF 1].
Definition run72b := buffer_run (in_the_air demo) 1 5 (0%Z, scr0).
Example C72_example_count : fst (y_w (fst (run72b (send72 33 ++ send72 34 ++ [BPollF 0 false])))) = 2%Z /\
  fst (y_w (fst (run72b (send72 33 ++ send72 34 ++ [BPollF 0 false; BDropF 0])))) = 1%Z /\
  fst (y_w (fst (run72b (send72 33 ++ send72 34 ++ [BPollF 0 false; BDropF 0; BDropF 1])))) = 0%Z.
Proof. repeat split; vm_compute; reflexivity. Qed.
(** A request abandoned between the call and the hand-over: its future is dropped on being handed over. *)
Definition ops72c : list (bop (W := Z * scr) (Req := nat)) :=
  [BReady 0; BStep 0 false; BCall 0 33] ++ repeat (BWork false) 6 ++ [BDropF 0].
Example C72_example_abandoned :
  fst (y_w (fst (run72b ops72c))) = 1%Z /\ in_flight (snd (run72b ops72c)) = [0] /\
  fst (y_w (fst (run72b (ops72c ++ [BWork false])))) = 0%Z.
Proof. repeat split; vm_compute; reflexivity. Qed.
