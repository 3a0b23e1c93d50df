(** C81: the response time of a stack of tower middleware.  [swift clk lag T rdy svc] (SwiftSpec.v) computes a bound [T]
    for each stack, from the times of the services and futures it is made of; [lag] is how long after it could make
    progress a pending future may be polled (timers that fire late, executors that are busy). *)
From Verif Require Import Base Util ReadyCache SpawnReady Load Make Middleware Limits Hedge DriveSpec MeterSpec FlightSpec SwiftSpec SwiftProof SwiftTop.
Set Implicit Arguments.
Local Open Scope Z_scope.

(** A response future of such a stack is pending only for less than [T] after the call, and if it answers it does so
    [lag] later at the latest; that is, whoever polls it when [T] is over is not told to wait any more. *)
Theorem C81_response_time : forall W Req Resp Err (clk : W -> Z) lag T rdy (svc : Service W Req Resp Err) s r w w1 s1 f gs,
  swift clk lag T rdy svc -> 0 <= lag -> call svc s r w = (w1, Val (s1, f)) -> Forall (prompt clk lag) gs ->
  Forall (fun w' => clk w' < clk w + T) (fst (drive (poll_fut svc) f w1 gs)) /\
  match snd (drive (poll_fut svc) f w1 gs) with
  | Finished _ w2 _ => clk w2 <= clk w + T + lag
  | _ => True
  end.
Proof. exact swift_response. Qed.
Print Assumptions C81_response_time.

(** A [Timeout] on top of any stack at all, over services of which nothing is assumed: [T] is its duration. *)
Theorem C81_timeout : forall W Req Resp Err (clk : W -> Z) lag (svc : Service W Req Resp Err) (rt : Rt W) dur s r w w1 s1 f gs,
  direct clk 0 svc -> 0 <= dur -> (forall d, same clk (nap rt d)) -> on_time clk rt ->
  0 <= lag -> call (timeout rt dur svc) s r w = (w1, Val (s1, f)) -> Forall (prompt clk lag) gs ->
  Forall (fun w' => clk w' < clk w + dur) (fst (drive (poll_fut (timeout rt dur svc)) f w1 gs)) /\
  match snd (drive (poll_fut (timeout rt dur svc)) f w1 gs) with
  | Finished _ w2 _ => clk w2 <= clk w + dur + lag
  | _ => True
  end.
Proof. intros. eapply swift_response; [apply sw_timeout; assumption | eassumption ..]. Qed.
Print Assumptions C81_timeout.

(** ** The order of the layers matters. *)
(** The world is the clock. *)
Definition z_rt : Rt Z.
Proof.
  refine (MkRt (fun w => w) (fun w d => d <=? w) (fun _ w => w) _ _ _).
  - intros w d E. apply Z.leb_le. exact E.
  - reflexivity.
  - reflexivity.
Defined.
(** A service that never answers. *)
Definition mute_task : Task Z (result unit unit) := MkTask unit (fun t => ret (t, Pending)) (fun _ w => w).
Definition mute : Service Z unit unit unit := service_fn mute_task (fun _ => ret tt).
(** One retry, at once. *)
Definition once {Req Resp Err} : Policy Z Req Resp Err :=
  @MkPolicy Z Req Resp Err bool (MkTask unit (fun t => ret (t, Ready tt)) (fun _ w => w))
    (fun p r => ret (p, Some r))
    (fun p r v => ret (match v with Er _ => if p then (false, r, v, Some tt) else (p, r, v, None) | Ok _ => (p, r, v, None) end))
    (fun p => ret p).
Definition impatient := load_shed (timeout z_rt 10 mute).
(** Each attempt has its own timeout here... *)
Definition timeouts_inside := retry once impatient 10.
(** ... and here all attempts together have one. *)
Definition timeout_outside := timeout z_rt 10 timeouts_inside.

Lemma quick_ready W A (clk : W -> Z) lag (X : Type) (t : X) (v : A) D l :
  quick clk lag (fun t => ret (t, Ready v)) D l t.
Proof. constructor; intros w w1 x1 _ E; discriminate. Qed.
Lemma mute_direct : direct (fun w : Z => w) 0 mute.
Proof.
  apply dr_service_fn; [split|].
  - intros t w. cbn. auto.
  - intros t w. reflexivity.
  - intros r w. cbn. auto.
Qed.
Lemma z_on_time : on_time (fun w : Z => w) z_rt.
Proof. split; [reflexivity|]. intros w d E. apply Z.leb_le. exact E. Qed.
Example C81_inside_swift : swift (fun w : Z => w) 1 (10 + 1 * (10 + 1 + (0 + 1))) true timeouts_inside.
Proof.
  apply (@sw_retry _ _ _ _ _ 1 10 0 impatient once 10 1%nat (fun p _ => if p then 1%nat else 0%nat)).
  - apply sw_load_shed with (rdy := false). apply sw_timeout; [apply mute_direct | lia | intros d w; reflexivity | apply z_on_time].
  - lia.
  - split; [intros t w; cbn; auto | intros t w; reflexivity].
  - intros p r w. cbn. auto.
  - intros p r v w. cbn. auto.
  - intros p w. cbn. auto.
  - intros [|] r; lia.
  - intros p r w w1 p1 r1 E. injection E as <- <- _. lia.
  - intros p r v w w1 p1 r1 v1 t E. split; [| apply quick_ready].
    destruct v as [v|e]; [discriminate|]. destruct p; [|discriminate]. injection E as _ <- _ _ _. lia.
Qed.
Example C81_outside_swift : swift (fun w : Z => w) 1 10 false timeout_outside.
Proof. apply sw_timeout; [exact (swift_direct C81_inside_swift) | lia | intros d w; reflexivity | apply z_on_time]. Qed.

(** Polled every time unit. *)
Definition ticks (n : nat) : list (Z -> Z) := repeat (fun w => w + 1) n.
Lemma ticks_prompt n : Forall (prompt (fun w : Z => w) 1) (ticks n).
Proof. apply Forall_forall. intros g Hg. apply repeat_spec in Hg as ->. intros w. lia. Qed.
(** When and what. *)
Definition the_end {W F A} (e : fin W F A) : option (W * A) := match e with Finished _ w a => Some (w, a) | _ => None end.
Definition start_inside : fut timeouts_inside := RetryFut (pol := once) (svc := impatient) (Some tt) true (LoadShedSt (timeout z_rt 10 mute) tt false) (RCalled (svc := impatient) (Some (TimeoutFut mute tt 10))).
Example C81_inside_call :
  exists s1, call timeouts_inside (true, LoadShedSt (timeout z_rt 10 mute) tt true) tt 0 = (0, Val (s1, start_inside)).
Proof. eexists. reflexivity. Qed.
Example C81_inside_run :
  fst (drive (poll_fut timeouts_inside) start_inside 0 (ticks 30)) = [1; 2; 3; 4; 5; 6; 7; 8; 9; 10; 11; 12; 13; 14; 15; 16; 17; 18; 19] /\
  the_end (snd (drive (poll_fut timeouts_inside) start_inside 0 (ticks 30))) = Some (20, Er (inl (inr tt))).
Proof. split; vm_compute; reflexivity. Qed.
Definition start_outside : fut timeout_outside := TimeoutFut timeouts_inside start_inside 10.
Example C81_outside_call :
  exists s1, call timeout_outside (true, LoadShedSt (timeout z_rt 10 mute) tt true) tt 0 = (0, Val (s1, start_outside)).
Proof. eexists. reflexivity. Qed.
Example C81_outside_run :
  fst (drive (poll_fut timeout_outside) start_outside 0 (ticks 30)) = [1; 2; 3; 4; 5; 6; 7; 8; 9] /\
  the_end (snd (drive (poll_fut timeout_outside) start_outside 0 (ticks 30))) = Some (10, Er (inr tt)).
Proof. split; vm_compute; reflexivity. Qed.

(** A timeout below a retry does not bound the response time by its duration. *)
Theorem C81_timeout_inside_refuted :
  ~ forall W Req Resp Err (clk : W -> Z) lag (svc : Service W Req Resp Err) (rt : Rt W) dur
      (pol : Policy W Req Resp ((Err + unit) + unit)) fuel s r w w1 s1 f gs,
    direct clk 0 svc -> 0 <= dur -> (forall d, same clk (nap rt d)) -> on_time clk rt ->
    0 <= lag -> call (retry pol (load_shed (timeout rt dur svc)) fuel) s r w = (w1, Val (s1, f)) -> Forall (prompt clk lag) gs ->
    Forall (fun w' => clk w' < clk w + dur + lag) (fst (drive (poll_fut (retry pol (load_shed (timeout rt dur svc)) fuel)) f w1 gs)).
Proof.
  intros HF. destruct C81_inside_call as (s1 & E).
  specialize (HF Z unit unit unit (fun w => w) 1 mute z_rt 10 once 10%nat _ tt 0 0 s1 start_inside (ticks 30)
    mute_direct ltac:(lia) ltac:(intros d w; reflexivity) z_on_time ltac:(lia) E (ticks_prompt 30)).
  change (retry once (load_shed (timeout z_rt 10 mute)) 10) with timeouts_inside in HF.
  rewrite (proj1 C81_inside_run) in HF. rewrite Forall_forall in HF. specialize (HF 19 ltac:(cbn; tauto)). lia.
Qed.
Print Assumptions C81_timeout_inside_refuted.
