(** C79: [LoadShed] over a handle of a [Buffer] - the usual way to reject what does not fit in the buffer.  The buffer's
    worker, its other handles and the futures move in any way before and while the handle is asked ([others]), but
    tokio's cooperative budget never puts a [poll_ready] off.

    [load_shed]: Middleware.v.  [buffer_service], [bw]: BufSvc.v (C78).  [buffer_run]: BufferTop.v.  [standing]: BufSvcSpec.v.
    [waiting], [has_slot]: BufferSpec.v.  [intact], [never_put_off], [since]: RoomSpec.v.  [full], [never_cloned]: ShedBufSpec.v. *)
From Verif Require Import Base ContractSpec Limits Buffer BufferSpec BufferTop RoomSpec BufSvcSpec BufSvcBase BufSvc Middleware Demo ShedBufSpec ShedBufProof.
Set Implicit Arguments.

(** It never makes the caller wait. *)
Theorem C79_never_waits : forall (W Req Resp Err : Type) (cl : bool) (svc : Service W Req Resp Err) (s0 : st svc) others coop
    (c : st (load_shed (buffer_service cl s0 others coop))) (x : bw cl svc s0),
  exists x1 c1 a, poll_ready (load_shed (buffer_service cl s0 others coop)) c x = (x1, Val (c1, Ready a)).
Proof. exact @never_waits. Qed.
Print Assumptions C79_never_waits.

(** A request is shed (the future is [None], answered Overloaded) only if at the moment the handle was refused the buffer
    was full: every one of its [bound] places was taken by a request in the channel, held by a handle, or kept for a
    handle waiting in line. *)
Theorem C79_shed_only_when_full : forall (W Req Resp Err : Type) (cl : bool) (svc : Service W Req Resp Err) (s0 : st svc) others coop,
  (forall y, never_put_off (others y)) -> (forall y, coop y = false) ->
  forall bound w ops y l (c : st (load_shed (buffer_service cl s0 others coop))) (x x1 x2 : bw cl svc s0) c1 c2 r,
  buffer_run svc bound s0 w ops = (y, l) -> never_put_off ops ->
  proj1_sig x = y -> standing (ls_inner c) y = true ->
  poll_ready (load_shed (buffer_service cl s0 others coop)) c x = (x1, Val (c1, Ready (Ok tt))) ->
  call (load_shed (buffer_service cl s0 others coop)) c1 r x1 = (x2, Val (c2, None)) ->
  exists ops1 l1,
    buffer_run svc bound s0 w (ops ++ ops1) = (proj1_sig x1, OReady (fst (ls_inner c)) Pending :: l1) /\
    (intact l1 -> full bound (fst (ls_inner c)) l1).
Proof. exact @shed_full. Qed.
Print Assumptions C79_shed_only_when_full.

(** If the handle is the only one, the rule is exact: a request is shed if and only if [bound] requests were waiting in the
    channel when the handle was asked. *)
Theorem C79_alone_shed_exactly_when_full : forall (W Req Resp Err : Type) (cl : bool) (svc : Service W Req Resp Err) (s0 : st svc) others coop,
  (forall y, never_put_off (others y)) -> (forall y, coop y = false) ->
  forall bound w ops y l (c : st (load_shed (buffer_service cl s0 others coop))) (x x1 : bw cl svc s0) c1,
  buffer_run svc bound s0 w ops = (y, l) -> never_put_off ops ->
  proj1_sig x = y -> standing (ls_inner c) y = true ->
  poll_ready (load_shed (buffer_service cl s0 others coop)) c x = (x1, Val (c1, Ready (Ok tt))) ->
  exists ops1 a l1,
    buffer_run svc bound s0 w (ops ++ ops1) = (proj1_sig x1, OReady (fst (ls_inner c)) a :: l1) /\
    (intact l1 -> never_cloned l1 ->
     forall r, exists x2 c2 f, call (load_shed (buffer_service cl s0 others coop)) c1 r x1 = (x2, Val (c2, f)) /\
       (f = None <-> waiting l1 = bound)).
Proof. exact @shed_alone. Qed.
Print Assumptions C79_alone_shed_exactly_when_full.

(** The same of the buffer by itself, whoever asks, in any schedule: a handle is told [Pending] only when the buffer is
    full; if there is only one, exactly when it is. *)
Theorem C79_pending_only_when_full : forall (W Req Resp Err : Type) (svc : Service W Req Resp Err) bound s w ops (y : bsys svc) l2 h l1,
  buffer_run svc bound s w ops = (y, l2 ++ OReady h Pending :: l1) -> never_put_off ops -> intact l1 -> full bound h l1.
Proof. exact @told_pending. Qed.
Print Assumptions C79_pending_only_when_full.

Theorem C79_alone_pending_exactly_when_full : forall (W Req Resp Err : Type) (svc : Service W Req Resp Err) bound s w ops (y : bsys svc) l2 h a l1,
  buffer_run svc bound s w ops = (y, l2 ++ OReady h a :: l1) -> never_put_off ops -> intact l1 -> never_cloned l1 ->
  (a = Pending <-> waiting l1 = bound) /\ (a = Ready (Ok tt) <-> waiting l1 < bound).
Proof. exact @alone_exactly. Qed.
Print Assumptions C79_alone_pending_exactly_when_full.

(** ** With clones a request may be shed though the channel is empty. *)
Definition quiet_world (bound : nat) : bw true demo 5 := buffer_world true demo 5 bound scr0.
(** Handle 0 sends a request; handle 1 asks and is refused: it stands in line; the worker takes the request out. *)
Definition starved : list (@bop scr nat) :=
  [BClone 0; BReady 0; BStep 0 false; BCall 0 33; BReady 1; BStep 1 false; BWork false; BWork false; BWork false].
Definition starved_world : bw true demo 5 := fst (moves starved (quiet_world 1)).

(** The permit is kept for handle 1, and as long as that one does not ask again - it has answered its caller
    Overloaded long ago - every request of handle 0 is shed, although the channel is empty. *)
Theorem C79_clones_shed_only_when_full_refuted : forall n,
  buffer_run demo 1 5 scr0 starved = (proj1_sig starved_world, snd (buffer_run demo 1 5 scr0 starved)) /\
  intact (snd (buffer_run demo 1 5 scr0 starved)) /\
  waiting (snd (buffer_run demo 1 5 scr0 starved)) = 0 /\
  rounds n 44 (load_shed_new quiet (0, PsIdle)) starved_world = repeat false n.
Proof.
  intros n. split; [unfold starved_world, quiet_world; rewrite world_is; apply surjective_pairing|]. split.
  { split; [|split].
    - intros h r X. vm_compute in X. repeat destruct X as [X|X]; try discriminate; destruct X.
    - intros e X. vm_compute in X. repeat destruct X as [X|X]; try discriminate; destruct X.
    - intros X. vm_compute in X. repeat destruct X as [X|X]; try discriminate; destruct X. }
  split; [vm_compute; reflexivity|]. apply starves_demo; vm_compute; reflexivity.
Qed.
Print Assumptions C79_clones_shed_only_when_full_refuted.

(** Non-vacuity.  Bound 2, one handle: of three requests the third is shed; when the worker has taken the first one out, and
    the handle has asked, one more is let in. *)
Example C79_example : rounds 3 44 (load_shed_new quiet (0, PsIdle)) (quiet_world 2) = [true; true; false].
Proof. vm_compute. reflexivity. Qed.
Definition two_in : list (@bop scr nat) := [BReady 0; BStep 0 false; BCall 0 33; BReady 0; BStep 0 false; BCall 0 34].
Example C79_example_full :
  rounds 1 44 (load_shed_new quiet (0, PsIdle)) (fst (moves two_in (quiet_world 2))) = [false] /\
  rounds 2 44 (load_shed_new quiet (0, PsIdle)) (fst (moves (two_in ++ repeat (BWork false) 3) (quiet_world 2))) = [true; false].
Proof. split; vm_compute; reflexivity. Qed.
(** The hypotheses of the theorems: in this world, which is a state of the program, the handle stands and is refused. *)
Definition two_log : list (bobs demo) := [OSent 0 1 34; OReady 0 (Ready (Ok tt)); OSent 0 0 33; OReady 0 (Ready (Ok tt))].
Example C79_example_log : snd (buffer_run demo 2 5 scr0 two_in) = two_log.
Proof. vm_compute. reflexivity. Qed.
Example C79_example_world : buffer_run demo 2 5 scr0 two_in = (proj1_sig (fst (moves two_in (quiet_world 2))), two_log).
Proof. unfold quiet_world. rewrite world_is, <- C79_example_log. apply surjective_pairing. Qed.
Example C79_example_stands : standing (0, PsIdle) (fst (buffer_run demo 2 5 scr0 two_in)) = true.
Proof. reflexivity. Qed.
Example C79_example_refused :
  snd (buffer_run demo 2 5 scr0 (two_in ++ [BReady 0; BStep 0 false])) = OReady 0 Pending :: two_log /\ waiting two_log = 2.
Proof. split; vm_compute; reflexivity. Qed.
Example C79_example_on_time : never_put_off two_in.
Proof. intros h X. vm_compute in X. repeat destruct X as [X|X]; try discriminate; destruct X. Qed.
Lemma not_there {A} (p : A -> bool) (l : list A) x : forallb p l = true -> p x = false -> ~ In x l.
Proof. intros H Hx Hi. rewrite forallb_forall in H. rewrite (H x Hi) in Hx. discriminate. Qed.
Definition calls_only (e : bobs demo) : bool := match e with OSent _ _ _ | OReady _ _ => true | _ => false end.
Example C79_example_intact : intact two_log.
Proof. split; [|split]; intros; apply not_there with (p := calls_only); reflexivity. Qed.
Example C79_example_alone : never_cloned two_log.
Proof. intros h h'. apply not_there with (p := calls_only); reflexivity. Qed.
(** Others in the way: bound 2, handle 0 has sent one request and handle 1 holds the other slot: full for handle 2. *)
Definition shared_ops : list (@bop scr nat) :=
  [BClone 0; BClone 0; BReady 0; BStep 0 false; BCall 0 33; BReady 1; BStep 1 false; BReady 2; BStep 2 false].
Example C79_example_shared_log : snd (buffer_run demo 2 5 scr0 shared_ops) =
  [OReady 2 Pending; OReady 1 (Ready (Ok tt)); OSent 0 0 33; OReady 0 (Ready (Ok tt)); OCloned 0 2; OCloned 0 1].
Proof. vm_compute. reflexivity. Qed.
Example C79_example_shared : full (svc := demo) 2 2 [OReady 1 (Ready (Ok tt)); OSent 0 0 33; OReady 0 (Ready (Ok tt)); OCloned 0 2; OCloned 0 1].
Proof.
  intros hs ws Hh _. assert (In 1 hs) by (apply Hh; reflexivity).
  destruct hs as [|a hs]; [contradiction|]. cbn [length waiting]. lia.
Qed.
