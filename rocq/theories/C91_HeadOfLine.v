(** C91: [Steer] with each of its services wrapped in a [Buffer] of its own, as its documentation advises against
    head-of-line blocking.  [ops] is any program: the [Steer] is asked, is given requests when it has said it is ready, and in
    between the workers, the response futures and the wrapped services move in any way - or not at all; they also move in any way
    ([others]) while a handle is asked or called.  tokio's cooperative budget never puts a [poll_ready] off.  [choose] is the picker.

    [steered], [fresh_steer], [fresh_worlds], [srun], [outstanding]: SteerBufSpec.v.  [steer]: Middleware.v.  [apart]: Apart.v.
    [buffer_service], [bw]: BufSvc.v (C78).  [buffer_run]: BufferTop.v.  [waiting]: BufferSpec.v.  [intact], [never_put_off]: RoomSpec.v. *)
From Verif Require Import Base ContractSpec Limits Buffer BufferSpec BufferTop RoomSpec BufSvcSpec BufSvcBase BufSvc Middleware Apart Demo SteerBufSpec SteerBufProof.
Set Implicit Arguments.

(** After any program, [poll_ready] answers; [logs k] is what has happened at buffer [k] so far.  If the answer is [Pending] then
    one of the buffers has just been found full: [bound k] requests in its channel.  And as long as each (intact) buffer has been
    passed fewer than [bound k] requests that are still to be answered, the answer is [Ready]: however slow one of the services,
    requests for the others are let in. *)
Theorem C91_no_head_of_line_blocking : forall (W Req Resp Err P : Type) (cl : bool) (svc : Service W Req Resp Err) (s0 : st svc) others coop choose pclone,
  (forall y, never_put_off (others y)) -> (forall y, coop y = false) ->
  forall bound w n (router : P) ops c (ws : nat -> bw cl svc s0) obs,
  srun (fresh_steer others coop choose pclone n router, fresh_worlds cl svc s0 bound w, []) ops = (c, ws, obs) ->
  exists ws1 c1 a logs, poll_ready (steered others coop choose pclone) c ws = (ws1, Val (c1, a)) /\
    (forall k, k < n -> exists bops, buffer_run svc (bound k) s0 (w k) bops = (proj1_sig (ws1 k), logs k) /\ never_put_off bops) /\
    (a = Pending -> exists k l, k < n /\ logs k = OReady 0 Pending :: l /\ (intact l -> waiting l = bound k)) /\
    ((forall k, k < n -> intact (logs k) /\ outstanding k obs < bound k) -> a = Ready (Ok tt)).
Proof. exact @steer_buffers. Qed.
Print Assumptions C91_no_head_of_line_blocking.

(** No call panics, if the picker picks one of the services. *)
Theorem C91_calls_go_through : forall (W Req Resp Err P : Type) (cl : bool) (svc : Service W Req Resp Err) (s0 : st svc) others coop choose pclone,
  (forall y, never_put_off (others y)) -> (forall y, coop y = false) ->
  forall bound w n (router : P) ops c (ws : nat -> bw cl svc s0) obs,
  (forall p r l, l <> [] -> snd (choose p r l) < length l) -> 0 < n ->
  srun (fresh_steer others coop choose pclone n router, fresh_worlds cl svc s0 bound w, []) ops = (c, ws, obs) -> ~ In RBroke obs.
Proof. exact @steer_unbroken. Qed.
Print Assumptions C91_calls_go_through.

(** Two services; requests 2, 4, ... go to service 0, the others to service 1; bound 2 each; nothing moves by itself. *)
Definition by_parity (p : unit) (r : nat) (l : list (nat * bst)) : unit * nat := (p, Nat.modulo r (length l)).
Notation fork := (@steered scr nat nat nat unit true demo 5 (fun _ => []) (fun _ => false) by_parity (fun p => ret p)).
Definition at_fork (ops : list sop) : sstate (cl := true) (svc := demo) (s0 := 5) (fun _ => []) (fun _ => false) by_parity (fun p => ret p) :=
  srun (fresh_steer (fun _ => []) (fun _ => false) by_parity (fun p => ret p) 2 tt, fresh_worlds true demo 5 (fun _ => 2) (fun _ => scr0), []) ops.
Definition seen (ops : list sop) : list (sobs demo) := snd (at_fork ops).

(** The worker of buffer 1 never moves.  Its first request does not stop the next one, nor does it stop those for service 0; the
    second one does: the documented limit is exact. *)
Example C91_example : seen [SAsk; SCall 33; SAsk; SCall 34; SAsk; SCall 35; SAsk] =
  [RReady Pending; RSent 1 1 35; RReady (Ready (Ok tt)); RSent 0 0 34; RReady (Ready (Ok tt)); RSent 1 0 33; RReady (Ready (Ok tt))].
Proof. vm_compute. reflexivity. Qed.
Example C91_example_counts :
  outstanding 1 (seen [SAsk; SCall 33; SAsk; SCall 34; SAsk; SCall 35]) = 2 /\ outstanding 0 (seen [SAsk; SCall 33; SAsk; SCall 34; SAsk; SCall 35]) = 1.
Proof. split; vm_compute; reflexivity. Qed.
(** When the worker of buffer 1 has taken the first one out there is room again, though nothing has been answered. *)
Example C91_example_room : hd RBroke (seen [SAsk; SCall 33; SAsk; SCall 34; SAsk; SCall 35; SAsk; SSide 1 (repeat (BWork false) 3); SAsk]) = RReady (Ready (Ok tt)).
Proof. vm_compute. reflexivity. Qed.
(** The hypotheses. *)
Example C91_example_on_time : (forall y : bsys demo, never_put_off ((fun _ => @nil (@bop scr nat)) y)) /\ (forall y : bsys demo, (fun _ : bsys demo => false) y = false).
Proof. split; [intros y h [] | reflexivity]. Qed.
Example C91_example_picks : forall p r l, l <> [] -> snd (by_parity p r l) < length l.
Proof. intros p r l H. apply Nat.mod_upper_bound. destruct l; [congruence | discriminate]. Qed.
Example C91_example_intact : snd (buffer_run demo 2 5 scr0 [BReady 0; BStep 0 false; BCall 0 33]) = [OSent 0 0 33; OReady 0 (Ready (Ok tt))] /\
  intact (svc := demo) [OSent 0 0 33; OReady 0 (Ready (Ok tt))].
Proof.
  split; [vm_compute; reflexivity|]. split; [|split].
  - intros h r [X|[X|[]]]; discriminate X.
  - intros e [X|[X|[]]]; discriminate X.
  - intros [X|[X|[]]]; discriminate X.
Qed.

(** ** With a clone of the [Steer] the documented limit is not enough. *)
(** Two clones of a [Steer] over one buffer of bound 1: the first, ready and idle, holds the only slot, and the second is told
    [Pending] though no request was ever made. *)
Definition idle_clone : option (poll (result unit (berr (Err := nat))) * poll (result unit (berr (Err := nat)))) :=
  let c := fresh_steer (fun _ => []) (fun _ => false) by_parity (fun p => ret p) 1 tt in
  match clone fork c (fresh_worlds true demo 5 (fun _ => 1) (fun _ => scr0)) with
  | (ws1, Val c2) =>
      match poll_ready fork c ws1 with
      | (ws2, Val (_, a)) => match poll_ready fork c2 ws2 with (_, Val (_, b)) => Some (a, b) | _ => None end
      | _ => None
      end
  | _ => None
  end.
Theorem C91_clones_no_blocking_refuted : idle_clone = Some (Ready (Ok tt), Pending).
Proof. vm_compute. reflexivity. Qed.
Print Assumptions C91_clones_no_blocking_refuted.
