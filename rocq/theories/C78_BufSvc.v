(** C78: a [Buffer] as a layer like any other.  Below, the service it wraps is used as its contract demands, so what is
    safe stays safe behind it; above, its handles keep the contract.  ([C01_contract_through_any_stack] and its companions
    count [Buffer] among the layers, through [stk_buffer].)

    [contract_safe], [always_returns], [ready_persists]: ContractSpec.v.  [brun]: the program of Buffer.v.
    [sound], [standing], [awaited], [own] ...: BufSvcSpec.v.  [buffer_service]: BufSvc.v. *)
From Verif Require Import Base ContractSpec StackSpec Safe StackProof Limits Buffer BufSvcSpec BufSvcBase BufSvc BufSvcProof Middleware Demo C01_Contract.
Set Implicit Arguments.

(** Put any service that tolerates every lawful use behind a buffer of any size, and let any number of handles, their
    futures, the worker and the world move in any order: no task and no future ever panics. *)
Theorem C78_nothing_panics : forall (W Req Resp Err : Type) (cl : bool) (svc : Service W Req Resp Err) (s0 : st svc),
  contract_safe cl svc s0 ->
  forall bound w ops, no_panic (snd (brun (bsys0 svc bound s0 w) [] ops)).
Proof. exact @behind_calm. Qed.
Print Assumptions C78_nothing_panics.

(** Likewise for loops that do not end. *)
Theorem C78_nothing_hangs : forall (W Req Resp Err : Type) (cl : bool) (svc : Service W Req Resp Err) (s0 : st svc),
  always_returns cl svc s0 ->
  forall bound w ops, no_hang (snd (brun (bsys0 svc bound s0 w) [] ops)).
Proof. exact @behind_back. Qed.
Print Assumptions C78_nothing_hangs.

(** In particular for a stack of middleware over a supervised service: the worker never breaks the contract, the
    supervisor would panic. *)
Theorem C78_stack_behind : forall c W Req Resp Err (svc : Service W Req Resp Err) I, stack c svc I -> forall s0, I s0 ->
  forall bound w ops, no_panic (snd (brun (bsys0 svc bound s0 w) [] ops)).
Proof. exact @behind_stack. Qed.
Print Assumptions C78_stack_behind.

(** A handle, whatever the rest of the program does meanwhile, keeps the contract towards the layer above: a lawful use
    never panics, every operation returns, and readiness, once given, is not taken back. *)
Theorem C78_handle : forall (W Req Resp Err : Type) (cl : bool) (svc : Service W Req Resp Err) (s0 : st svc) others coop h,
  contract_safe cl svc s0 ->
  contract_safe true (buffer_service cl s0 others coop) (h, PsIdle) /\
  ready_persists true (buffer_service cl s0 others coop) (h, PsIdle) /\
  (always_returns cl svc s0 -> always_returns true (buffer_service cl s0 others coop) (h, PsIdle)).
Proof. exact @handle_contract. Qed.
Print Assumptions C78_handle.

(** The service is the program.  Of a handle that stands in it, [poll_ready] is a run of the program in which the handle
    enters [poll_ready], makes its steps, and gives the answer; it then stands with the state returned. *)
Theorem C78_ready_is : forall (W Req Resp Err : Type) (cl : bool) (svc : Service W Req Resp Err) (s0 : st svc) others coop
    s (x x1 : bw cl svc s0) s1 a,
  standing s (proj1_sig x) = true ->
  poll_ready (buffer_service cl s0 others coop) s x = (x1, Val (s1, a)) ->
  standing s1 (proj1_sig x1) = true /\ fst s1 = fst s /\
  exists ops l t, brun (proj1_sig x) [] ops = (proj1_sig x1, l) /\
    own (fst s) ops = BReady (fst s) :: t /\ steps_only (fst s) t /\ In (OReady (fst s) a) l.
Proof. exact @ready_is. Qed.
Print Assumptions C78_ready_is.

(** So is [call]; the future returned is one of the program. *)
Theorem C78_call_is : forall (W Req Resp Err : Type) (cl : bool) (svc : Service W Req Resp Err) (s0 : st svc) others coop
    s r (x x1 : bw cl svc s0) s1 f,
  standing s (proj1_sig x) = true ->
  call (buffer_service cl s0 others coop) s r x = (x1, Val (s1, f)) ->
  standing s1 (proj1_sig x1) = true /\ fst s1 = fst s /\ snd f = false /\ awaited (fst f) (proj1_sig x1) /\
  exists ops l t, brun (proj1_sig x) [] ops = (proj1_sig x1, l) /\
    own (fst s) ops = BCall (fst s) r :: t /\ steps_only (fst s) t /\
    (In (OSent (fst s) (fst f) r) l \/ exists e, In (ORefused (fst s) (fst f) r e) l).
Proof. exact @call_is. Qed.
Print Assumptions C78_call_is.

(** A future that has completed must not be polled again. *)
Theorem C78_poll_is : forall (W Req Resp Err : Type) (cl : bool) (svc : Service W Req Resp Err) (s0 : st svc) others coop
    id (x x1 : bw cl svc s0) f1 a,
  awaited id (proj1_sig x) ->
  poll_fut (buffer_service cl s0 others coop) (id, false) x = (x1, Val (f1, a)) ->
  fst f1 = id /\ (a = Pending -> snd f1 = false /\ awaited id (proj1_sig x1)) /\
  (a <> Pending -> forall x2, poll_fut (buffer_service cl s0 others coop) f1 x2 = (x2, Panic)) /\
  exists c l, brun (proj1_sig x) [] [BPollF id c] = (proj1_sig x1, l) /\ In (OPolled id a) l.
Proof. exact @poll_is. Qed.
Print Assumptions C78_poll_is.

(** The handle that Buffer::new returns stands in the program it makes. *)
Theorem C78_first_is : forall (W Req Resp Err : Type) (cl : bool) (svc : Service W Req Resp Err) (s0 : st svc) others coop bound w,
  standing (buffer_handle cl s0 others coop) (proj1_sig (buffer_world cl svc s0 bound w)) = true.
Proof. exact @first_stands. Qed.
Print Assumptions C78_first_is.

Theorem C78_clone_is : forall (W Req Resp Err : Type) (cl : bool) (svc : Service W Req Resp Err) (s0 : st svc) others coop
    s (x x1 : bw cl svc s0) s1,
  standing s (proj1_sig x) = true ->
  clone (buffer_service cl s0 others coop) s x = (x1, Val s1) ->
  standing s1 (proj1_sig x1) = true /\
  exists l, brun (proj1_sig x) [] [BClone (fst s)] = (proj1_sig x1, l) /\ In (OCloned (fst s) (fst s1)) l.
Proof. exact @clone_is. Qed.
Print Assumptions C78_clone_is.

(** And whatever anybody else does leaves the handle standing and the future awaited. *)
Theorem C78_left_alone : forall (W Req Resp Err : Type) (svc : Service W Req Resp Err) (y : bsys svc) o,
  (forall s, of_handle (fst s) o = false -> standing s y = true -> standing s (fst (bstep o y)) = true) /\
  (forall id, of_future id o = false -> awaited id y -> awaited id (fst (bstep o y))).
Proof. intros W Req Resp Err svc y o. split; [intros s; exact (@standing_other _ _ _ _ svc s o y) | intros id; exact (@awaited_other _ _ _ _ svc id o y)]. Qed.
Print Assumptions C78_left_alone.

(** Non-vacuity: a buffer over load shedding over another buffer over a supervised service.  While a handle is in the
    middle of a function, the worker makes twelve steps. *)
Definition working {W Req Resp Err} (svc : Service W Req Resp Err) (y : bsys svc) : list (@bop W Req) := repeat (BWork false) 12.
Definition punctual {W Req Resp Err} (svc : Service W Req Resp Err) (y : bsys svc) : bool := false.
Notation near := (@buffer_service _ _ _ _ true (guard warm) (Idle, 1) (@working _ _ _ _ _) (@punctual _ _ _ _ _)).
Definition near0 : st (load_shed near) := load_shed_new near (0, PsIdle).
Notation far := (@buffer_service _ _ _ _ true (load_shed near) near0 (@working _ _ _ _ _) (@punctual _ _ _ _ _)).

Example C78_example_near : stack (Caps false true true) (load_shed near)
  (fun s => exists x, snd x = PsIdle /\ s = load_shed_new near x).
Proof.
  apply (@stk_load_shed (Caps false true true)). apply (@stk_buffer (Caps false true true) _ _ _ _ (guard warm) (fun s => fst s = Idle)); [|reflexivity].
  exact (stk_base (dv := false) (stk := true) warm_never_panics (fun _ => warm_never_diverges) (fun _ => warm_keeps_ready)).
Qed.
Example C78_example_far : stack (Caps false true true) far (fun s => snd s = PsIdle).
Proof. apply (@stk_buffer (Caps false true true)) with (1 := C78_example_near). exists (0, PsIdle). auto. Qed.

Definition near_world : bw true (guard warm) (Idle, 1) := buffer_world true (guard warm) (Idle, 1) 2 scr0.
Definition far_world : bw true (load_shed near) near0 := buffer_world true (load_shed near) near0 1 near_world.
(** The far worker makes [n] steps; the near one does. *)
Definition far_works (n : nat) (x : bw true (load_shed near) near0) := fst (moves (repeat (BWork false) n) x).
Definition near_works (n : nat) (x : bw true (load_shed near) near0) :=
  fst (moves [BEnv (fun z => fst (moves (repeat (BWork false) n) z))] x).
Definition told {A B C} (o : out (A * poll (result B C))) : option (option bool) :=
  match o with Val (_, Pending) => Some None | Val (_, Ready (Ok _)) => Some (Some true) | Val (_, Ready (Er _)) => Some (Some false) | _ => None end.

(** Asked again right after the first request is in, the far buffer's one slot is free again, as its worker has taken the
    request out while it was being asked; the request is answered when both workers have worked. *)
Example C78_example_run :
  let '(x1, a1) := poll_ready far (0, PsIdle) far_world in
  match a1 with
  | Val (s1, Ready (Ok _)) =>
      match call far s1 7 x1 with
      | (x2, Val (s2, f)) =>
          let '(x3, a3) := poll_ready far s2 x2 in
          let '(x4, a4) := poll_fut far f (near_works 12 (near_works 12 (far_works 12 (near_works 12 x3)))) in
          (told a3, match a4 with Val (f4, Ready (Ok n)) => Some (f4, n) | _ => None end,
           standing s2 (proj1_sig x2))
      | _ => (None, None, false)
      end
  | _ => (None, None, false)
  end = (Some (Some true), Some ((0, true), 7), true).
Proof. vm_compute. reflexivity. Qed.

(** The supervisor sees what the worker does: behind a layer that reports readiness without asking, the worker dies. *)
Example C78_teeth :
  existsb (fun o => match o with WPanic => true | _ => false end)
    (snd (brun (bsys0 (eager (guard demo)) 1 (Idle, 0) scr0) []
      [BReady 0; BStep 0 false; BCall 0 7; BWork false; BWork false; BWork false; BWork false; BWork false; BWork false])) = true.
Proof. reflexivity. Qed.
