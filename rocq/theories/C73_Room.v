(** C73: the room of a [Buffer] is never lost, and handles waiting for it are not passed by.  Model: Buffer.v; any
    schedule [ops] of the handles, the worker and the futures.  Specification: RoomSpec.v. *)
From Verif Require Import Base ContractSpec Demo Limits Buffer BufferSpec BufferTop RoomSpec RoomProof.
Set Implicit Arguments.

(** As long as nothing went wrong: if the handles holding a slot ([hs]), the requests in the channel and the other
    handles waiting in line ([ws]) are fewer than the bound, then [poll_ready] of any handle says yes at once. *)
Theorem C73_room :
  forall W Req Resp Err (svc : Service W Req Resp Err) bound s w
    (ops : list (bop (W := W) (Req := Req))) y l h d hs ws,
  buffer_run svc bound s w ops = (y, l) -> intact l ->
  y_hs y h = Some d -> at_rest d = true ->
  (forall j, has_slot j l = true -> In j hs) ->
  (forall j, j <> h -> since j l <> None -> In j ws) ->
  length hs + waiting l + length ws < bound ->
  snd (brun y l [BReady h; BStep h false]) = OReady h (Ready (Ok tt)) :: l.
Proof. exact @room_left. Qed.
Print Assumptions C73_room.

(** First come, first served: a handle that waits while one that came later is told it has a slot, gets one as soon as
    it asks. *)
Theorem C73_in_turn :
  forall W Req Resp Err (svc : Service W Req Resp Err) bound s w
    (ops : list (bop (W := W) (Req := Req))) y l h d,
  buffer_run svc bound s w ops = (y, l) -> never_put_off ops -> intact l ->
  y_hs y h = Some d -> at_rest d = true -> passed_by h l ->
  snd (brun y l [BReady h; BStep h false]) = OReady h (Ready (Ok tt)) :: l.
Proof. exact @not_passed. Qed.
Print Assumptions C73_in_turn.

(** Non-vacuity, bound 1, three handles: 0 takes the slot, 1 and then 2 wait; 0 sends; 0 waits too; the worker takes
    the request: the slot goes to 1, which gives it up by being dropped: it goes to 2, which takes it and uses it. *)
Definition room_ops : list (bop (W := scr) (Req := nat)) :=
  [ BClone 0; BClone 0; BReady 0; BStep 0 false; BReady 1; BStep 1 false; BReady 2; BStep 2 false; BCall 0 33;
    BReady 0; BStep 0 false; BWork false; BWork false; BWork false; BDrop 1; BReady 2; BStep 2 false; BCall 2 34;
    BWork false; BWork false; BWork false; BWork false; BWork false; BWork false ].
Definition room_run := buffer_run demo 1 5 scr0 room_ops.
Example C73_example :
  (snd room_run : list (bobs demo)) =
  [WTook 1; WAnswer (svc := demo) 0 (Ok 33); WCall (svc := demo) 0 33 33; WAsk (Ready (Ok tt)); WLive 0; OSent 2 1 34;
   OReady 2 (Ready (Ok tt)); ODropped 1; WTook 0; WStart; OReady 0 Pending; OSent 0 0 33; OReady 2 Pending; OReady 1 Pending;
   OReady 0 (Ready (Ok tt)); OCloned 0 2; OCloned 0 1] /\
  (forall j, has_slot j (snd room_run) = true -> In j []) /\
  (forall j, j <> 0 -> since j (snd room_run) <> None -> In j []) /\ waiting (snd room_run) = 0 /\ since 0 (snd room_run) <> None /\
  snd (brun (fst room_run) (snd room_run) [BReady 0; BStep 0 false]) = OReady 0 (Ready (Ok tt)) :: snd room_run.
Proof.
  split; [vm_compute; reflexivity|].
  split; [intros j; destruct j as [|[|[|j]]]; vm_compute; discriminate|].
  split; [intros j; destruct j as [|[|[|j]]]; vm_compute; congruence|]. vm_compute. repeat split; discriminate.
Qed.
Example C73_example_intact : intact (snd room_run).
Proof.
  split; [|split].
  - intros h r X. vm_compute in X. repeat destruct X as [X|X]; try discriminate; destruct X.
  - intros e X. vm_compute in X. repeat destruct X as [X|X]; try discriminate; destruct X.
  - intros X. vm_compute in X. repeat destruct X as [X|X]; try discriminate; destruct X.
Qed.

(** ... and [C73_in_turn]: bound 2; 0 and 1 have the slots and send; 2 waits, then 3; the worker takes both requests; 3 asks
    and gets a slot; 2, which waited longer, has been passed by - and is served when it asks. *)
Definition turn_ops : list (bop (W := scr) (Req := nat)) :=
  [ BClone 0; BClone 0; BClone 0; BReady 0; BStep 0 false; BReady 1; BStep 1 false; BCall 0 33; BCall 1 34;
    BReady 2; BStep 2 false; BReady 3; BStep 3 false ] ++ repeat (BWork false) 9 ++ [BReady 3; BStep 3 false].
Definition turn_run := buffer_run demo 2 5 scr0 turn_ops.
Example C73_turn_example :
  never_put_off turn_ops /\ passed_by 2 (snd turn_run) /\
  snd (brun (fst turn_run) (snd turn_run) [BReady 2; BStep 2 false]) = OReady 2 (Ready (Ok tt)) :: snd turn_run.
Proof.
  split; [|split].
  - intros h X. vm_compute in X. repeat destruct X as [X|X]; try discriminate; destruct X.
  - exists 3, [], (tl (snd turn_run)), 7. split; [vm_compute; reflexivity|]. split; [discriminate|].
    split; [vm_compute; reflexivity|]. split; [vm_compute; reflexivity|]. split; [vm_compute; reflexivity|].
    intros n. vm_compute. intros X. injection X as <-. repeat constructor.
  - vm_compute. reflexivity.
Qed.
