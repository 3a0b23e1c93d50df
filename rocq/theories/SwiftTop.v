(** Proof of C81: from the layers to stacks. *)
From Verif Require Import Base Util ReadyCache SpawnReady Load Make Middleware Limits Hedge DriveSpec MeterSpec FlightSpec FlightProof FlightTop SwiftSpec SwiftProof SwiftMore.
Set Implicit Arguments.
Local Open Scope Z_scope.

Theorem swift_stack W Req Resp Err (clk : W -> Z) lag T rdy (svc : Service W Req Resp Err) :
  swift clk lag T rdy svc -> 0 <= lag -> Swift clk lag T rdy svc.
Proof.
  intros HS Hl. induction HS;
    try match goal with HS' : swift ?c ?l ?t ?r ?s |- _ => generalize (direct_timeless (swift_direct HS')); intros TL end;
    try (specialize (IHHS Hl)).
  - assumption.
  - apply service_fn_s; assumption.
  - apply weaken_s with (1 := IHHS); assumption.
  - apply boxed_s; assumption.
  - apply map_request_s; assumption.
  - apply map_response_s; assumption.
  - apply map_err_s; assumption.
  - apply map_result_s; assumption.
  - apply then_s; assumption.
  - apply and_then_s; assumption.
  - apply either_s; auto.
  - apply optional_s; assumption.
  - apply future_service_s with (1 := IHHS).
  - apply timeout_s; try assumption. apply direct_timeless. assumption.
  - eapply min_s; [apply timeout_keeps_s; assumption | apply timeout_s; assumption].
  - apply load_shed_s with (1 := IHHS).
  - apply filter_s; assumption.
  - apply async_filter_s; assumption.
  - destruct H0 as [Hp Hd]. eapply (@retry_s _ _ _ _ clk lag T true svc) with (left := left); eassumption || reflexivity.
  - apply steer_s; assumption.
  - apply reconnect_s with (1 := IHHS).
  - apply rate_limit_s with (1 := IHHS).
  - apply conc_s with (1 := IHHS).
  - apply hedge_s; assumption.
  - apply shared_s.
  - apply into_service_s; assumption.
  - apply as_service_s; assumption.
  - apply make_balance_s; assumption.
  - apply constant_s; assumption.
  - apply tracked_s; assumption.
  - apply spawn_ready_s with (1 := IHHS).
  - apply balance_s with (1 := IHHS).
Qed.

Section Drive.
  Context {W X A : Type} (clk : W -> Z) (lag : Z) (pollx : X -> M W (X * poll A)).
  Context (Hc : forall (x : X) (w w1 : W) (y : X * poll A), pollx x w = (w1, Val y) -> clk w1 = clk w).
  Definition ended_by (D : Z) (e : fin W X A) : Prop := match e with Finished _ w _ => clk w <= D | _ => True end.
  Lemma drive_quick D gs : forall l x w, quick clk lag pollx D l x -> clk w = l -> l <= D -> 0 <= lag -> Forall (prompt clk lag) gs ->
    Forall (fun w' => clk w' < D) (fst (drive pollx x w gs)) /\ ended_by (D + lag) (snd (drive pollx x w gs)).
  Proof.
    induction gs as [|g gs IH]; intros l x w HQ Hw HD Hl HG; [cbn; auto|].
    inversion HG as [|? ? G1 G2]; subst. specialize (G1 w). cbn [drive].
    destruct (pollx x (g w)) as [w1 [[x1 [|a]]| |]] eqn:E.
    - destruct (quick_step HQ G1 E) as [X1 X2]. generalize (Hc E). intros X3.
      rewrite <- X3 in X2. specialize (IH (clk w1) x1 w1 X2 eq_refl ltac:(lia) Hl G2).
      destruct (drive pollx x1 w1 gs) as [ws e]. cbn [fst snd] in *. split; [constructor; [lia | apply IH] | apply IH].
    - cbn. split; [constructor|]. rewrite (Hc E). lia.
    - cbn. auto.
    - cbn. auto.
  Qed.
End Drive.

Theorem swift_response W Req Resp Err (clk : W -> Z) lag T rdy (svc : Service W Req Resp Err) s r w w1 s1 f gs :
  swift clk lag T rdy svc -> 0 <= lag -> call svc s r w = (w1, Val (s1, f)) -> Forall (prompt clk lag) gs ->
  Forall (fun w' => clk w' < clk w + T) (fst (drive (poll_fut svc) f w1 gs)) /\
  match snd (drive (poll_fut svc) f w1 gs) with
  | Finished _ w2 _ => clk w2 <= clk w + T + lag
  | _ => True
  end.
Proof.
  intros HS Hl E HG. generalize (swift_stack HS Hl) (direct_timeless (swift_direct HS)). intros HW C.
  generalize (sw_call HW _ _ _ E) (sw_time HW) (tl_callt C _ _ _ E). intros HQ HT Hc.
  rewrite <- Hc in *. refine (@drive_quick _ _ _ clk lag (poll_fut svc) _ (clk w1 + T) gs (clk w1) f w1 HQ eq_refl _ Hl HG); [exact (tl_poll C) | lia].
Qed.
