(** Proof of C81: the other layers. *)
From Verif Require Import Base Util ReadyCache SpawnReady Load Make Middleware Limits Hedge MeterSpec FlightSpec FlightProof FlightTop SwiftSpec SwiftProof.
Set Implicit Arguments.
Local Open Scope Z_scope.

Ltac never := let w := fresh in let w1 := fresh in let x := fresh in let E := fresh in intros w w1 x E; cbn in E; inv E; discriminate.

Lemma ran W A B (m : M W A) (k : A -> M W B) w w1 b : bind m k w = (w1, Val b) -> exists w2 a, m w = (w2, Val a) /\ k a w2 = (w1, Val b).
Proof. unfold bind. destruct (m w) as [w2 [a| |]]; try discriminate. intros E. exists w2, a. auto. Qed.

Lemma service_fn_s W Req Resp Err (clk : W -> Z) lag d (K : Task W (result Resp Err)) (f : Req -> M W (tst K)) :
  0 <= d -> swift_task clk lag d K f -> Swift clk lag d true (service_fn K f).
Proof.
  intros Hd HK. constructor; [exact Hd | |].
  - intros s r w w1 s1 g E. cbn in E. inv E. injection E as <- <- <-. exact (HK _ _ _ _ E0).
  - intros _ s w w1 s1 E. discriminate.
Qed.
Lemma either_s W Req Resp Err (clk : W -> Z) lag T rdy (a b : Service W Req Resp Err) :
  Swift clk lag T rdy a -> Swift clk lag T rdy b -> Swift clk lag T rdy (either a b).
Proof.
  intros Ha Hb. constructor; [apply Ha | |].
  - intros [s|s] r w w1 s1 g E; cbn in E; inv E; injection E as <- <- <-.
    + refine (@quick_follows _ _ _ _ _ _ clk (fun w => w) lag (poll_fut a) (poll_fut (either a b)) (fun x y => y = inl x) _ _ _ _ _ (sw_call Ha _ _ _ E0) eq_refl).
      intros x y w2 w3 y1 -> Ep. cbn in Ep. inv Ep. injection Ep as <- <- ->. eauto.
    + refine (@quick_follows _ _ _ _ _ _ clk (fun w => w) lag (poll_fut b) (poll_fut (either a b)) (fun x y => y = inr x) _ _ _ _ _ (sw_call Hb _ _ _ E0) eq_refl).
      intros x y w2 w3 y1 -> Ep. cbn in Ep. inv Ep. injection Ep as <- <- ->. eauto.
  - intros Hr [s|s] w w1 s1 E; cbn in E; inv E; injection E as <- <- ->.
    + exact (sw_ready Ha Hr _ _ E0).
    + exact (sw_ready Hb Hr _ _ E0).
Qed.

Section Layers.
  Context {W Req Resp Err : Type} (clk : W -> Z) (lag T : Z) (rdy : bool) (svc : Service W Req Resp Err).
  Context (H : Swift clk lag T rdy svc) (C : Timeless clk svc).

  (** The inner future, inside something. *)
  Lemma mapped_pending A (a : poll A) B (g : A -> B) : poll_map g a = Pending -> a = Pending.
  Proof. destruct a; [reflexivity | discriminate]. Qed.

  Lemma optional_s : Swift clk lag T rdy (optional svc).
  Proof.
    refine (layer_swift H (optional svc) (fun x y => y = Some x) _ _ _).
    - intros [s|] r w w1 s1 g E; cbn in E; inv E; injection E as <- <- <-.
      + left. eexists s, r, w, _, _, _. split; [reflexivity|]. split; [exact E0 | reflexivity].
      + right. intros w0 w2 x E. discriminate.
    - intros x y w w1 y1 -> E. cbn in E. inv E. injection E as <- <- E. apply mapped_pending in E as ->. eauto.
    - intros Hr [s|] w w1 s1 E; cbn in E; [|discriminate]. inv E. injection E as <- <- E. apply mapped_pending in E as ->. exact (sw_ready H Hr _ _ E0).
  Qed.
  Lemma future_service_s (K : Task W (result (st svc) Err)) (tclone : tst K -> M W (tst K)) :
    Swift clk lag T false (future_service svc K tclone).
  Proof.
    refine (layer_swift H (future_service svc K tclone) (fun x y => y = x) _ _ _); [| | discriminate].
    - intros [s|s] r w w1 s1 g E; cbn in E; [discriminate|]; inv E; injection E as <- <- <-.
      left. eexists s, r, w, _, _, _. split; [reflexivity|]. split; [exact E0 | reflexivity].
    - intros x y w w1 y1 -> E. cbn in E. eauto.
  Qed.
  Lemma timeout_keeps_s (rt : Rt W) dur : Swift clk lag T rdy (timeout rt dur svc).
  Proof.
    refine (layer_swift H (timeout rt dur svc) (fun x y => to_inner y = x) _ _ _).
    - intros s r w w1 s1 g E; cbn in E; inv E; injection E as <- <- <-.
      left. eexists s, r, w, _, _, _. split; [reflexivity|]. split; [exact E0 | reflexivity].
    - intros x y w w1 y1 <- E. cbn in E. unfold sleep_poll in E. inv E. injection E as <- <-. eauto.
    - intros Hr. exact (into_ready H inl Hr).
  Qed.
  Lemma load_shed_s : Swift clk lag T true (load_shed svc).
  Proof.
    refine (layer_swift H (load_shed svc) (fun x y => y = Some x) _ _ _).
    - intros s r w w1 s1 g E; cbn in E. destruct (ls_ready s); inv E; injection E as <- <- <-.
      + left. eexists _, r, w, _, _, _. split; [reflexivity|]. split; [exact E0 | reflexivity].
      + right. intros w0 w2 x E. discriminate.
    - intros x y w w1 y1 -> E. cbn in E. inv E. injection E as <- <- E. apply mapped_pending in E as ->. eauto.
    - intros _ s w w1 s1 E; cbn in E. inv E; discriminate.
  Qed.
  Lemma filter_s Req' P PErr (check : P -> Req' -> M W (P * result Req PErr)) pclone :
    (forall p r, still clk (check p r)) -> Swift clk lag T rdy (filter svc check pclone).
  Proof.
    intros Hk.
    refine (layer_swift H (filter svc check pclone) (fun x y => y = inr (Some x)) _ _ _).
    - intros s r w w1 s1 g E; cbn in E. inv E; injection E as <- <- <-.
      + left. eexists _, _, _, _, _, _. split; [exact (still_val (Hk _ _) E0)|]. split; [exact E1 | reflexivity].
      + right. intros w2 w3 x E. discriminate.
    - intros x y w w1 y1 -> E. cbn [poll_fut filter] in E. unfold bind at 1 in E.
      destruct (map_poll _ _ _ _ w) as [w2 [[f1 p]| |]] eqn:Em; try discriminate.
      injection E as <- <- ->. destruct (map_poll_follows (svc := svc) _ _ eq_refl Em) as (w1' & x1 & E1 & Hs). exists w1', x1. split; [exact E1 | rewrite Hs; reflexivity].
    - intros Hr s w w1 s1 E. cbn in E. inv E. injection E as <- <- E. apply mapped_pending in E as ->. exact (sw_ready H Hr _ _ E0).
  Qed.
  Lemma async_filter_s Req' P PErr d (K : Task W (result Req PErr)) (check : P -> Req' -> M W (P * tst K)) pclone :
    0 <= lag -> 0 <= d -> still_task clk K -> (forall p r, still clk (check p r)) ->
    (forall p r w w1 p1 t, check p r w = (w1, Val (p1, t)) -> quick clk lag (tpoll K) (clk w + d) (clk w) t) ->
    Swift clk lag (d + lag + T) rdy (async_filter svc K check pclone).
  Proof.
    intros Hl Hd [HKp HKd] Hk HK. constructor.
    - generalize (sw_time H). lia.
    - intros s r w w1 s1 g E. cbn in E. inv E. injection E as <- <- <-.
      replace (clk w + (d + lag + T)) with (clk w + d + lag + T) by lia.
      refine (@quick_stages _ _ _ _ _ _ _ clk lag (tpoll K) (poll_fut svc) (poll_fut (async_filter svc K check pclone))
        (fun x y => af_state y = AfCheck x) (fun x y => af_state y = AfWait x) T (sw_time H) _ _ t _ _ Hl _ _ _); [| | | reflexivity].
      + split.
        * intros x y v2 v3 y1 Hy Ep. cbn in Ep. rewrite Hy in Ep. inv Ep.
          -- injection Ep as <- <-. left. eexists _, _. split; reflexivity.
          -- injection Ep as <- <- Ep. apply mapped_pending in Ep as ->. right. exists (tdrop K t0 w3), w4, f, f0.
             generalize (still_val (HKp x) E) (tl_callt C _ _ _ E2) (HKd t0 w3). intros X1 X2 X3.
             split; [lia|]. split; [| split; [exact E3 | reflexivity]]. rewrite X3, X2. exact (sw_call H _ _ _ E2).
        * intros u y v2 v3 y1 Hy Ep. cbn in Ep. rewrite Hy in Ep. inv Ep. injection Ep as <- <- Ep. apply mapped_pending in Ep as ->. eexists _, _. split; reflexivity.
      + lia.
      + generalize (tl_clone C _ _ E0). intros <-. exact (HK _ _ _ _ _ _ E1).
    - intros Hr s w w1 s1 E. cbn in E. inv E. injection E as <- <- E. apply mapped_pending in E as ->. exact (sw_ready H Hr _ _ E0).
  Qed.

  (** ** Retry *)
  Section Retry.
    Context (pol : Policy W Req Resp Err) (d : Z) (left : pst pol -> Req -> nat).
    Context (Hr : rdy = true) (Hl : 0 <= lag) (Hd : 0 <= d).
    Context (HKp : forall t, still clk (tpoll (pfut pol) t)) (HKd : forall t, same clk (tdrop (pfut pol) t)).
    Context (Sc : forall p r, still clk (clone_request pol p r)) (Sr : forall p r v, still clk (retry_decide pol p r v)).
    Context (Lc : forall p r w w1 p1 r1, clone_request pol p r w = (w1, Val (p1, Some r1)) -> (left p1 r1 <= left p r)%nat).
    Context (Lr : forall p r v w w1 p1 r1 v1 t, retry_decide pol p r v w = (w1, Val (p1, r1, v1, Some t)) ->
       (left p1 r1 < left p r)%nat /\ quick clk lag (tpoll (pfut pol)) (clk w + d) (clk w) t).
    Notation rfut := (retry_fut pol svc).
    Definition round : Z := T + lag + (d + lag).
    Definition budget (f : rfut) : Z :=
      match rf_req f with Some r => Z.of_nat (left (rf_pol f) r) | None => 0 end.
    (** [f] was last polled at [l] and will not be pending at [D] or later. *)
    Definition rinv (D l : Z) (f : rfut) : Prop :=
      match rf_state f with
      | RCalled x => exists e, l <= e /\ e + budget f * round <= D /\ quick clk lag (poll_fut svc) e l x
      | RWaiting t => exists e, l <= e /\ e + lag + T + budget f * round <= D /\ quick clk lag (tpoll (pfut pol)) e l t
      | RRetrying => False
      end.
    Lemma round_pos : 0 <= round.
    Proof. unfold round. generalize (sw_time H). lia. Qed.
    (** The state in the middle of a poll at time [c]. *)
    Definition rmid (D c : Z) (f : rfut) : Prop :=
      match rf_state f with
      | RCalled x => exists l e, l <= c <= l + lag /\ l <= e /\ e + budget f * round <= D /\ quick clk lag (poll_fut svc) e l x
      | RWaiting t => exists l e, l <= c <= l + lag /\ l <= e /\ e + lag + T + budget f * round <= D /\ quick clk lag (tpoll (pfut pol)) e l t
      | RRetrying => c + T + budget f * round <= D
      end.
    Lemma iter_mid D f w w1 x : rmid D (clk w) f -> retry_iter f w = (w1, Val x) ->
      clk w1 = clk w /\
      match x with
      | inl f1 => rmid D (clk w) f1
      | inr (f1, Pending) => clk w < D /\ rinv D (clk w) f1
      | inr (_, Ready _) => True
      end.
    Proof.
      intros V E. generalize round_pos. intros Hp.
      assert (HB : 0 <= budget f * round) by (apply Z.mul_nonneg_nonneg; [unfold budget; destruct (rf_req f); lia | exact Hp]).
      unfold rmid in V. unfold retry_iter in E. destruct (rf_state f) as [y|t|].
      - destruct V as (l & e & Hc & He & HD & HQ). destruct (rf_req f) as [r|] eqn:Eq_r; inv E; injection E as <- <-.
        + split; [exact (tl_poll C _ _ E0)|].
          destruct (quick_step HQ Hc E0) as [X1 X2]. split; [lia|].
          exists e. split; [lia|]. split; [|exact X2]. unfold budget in *. cbn [rf_req rf_pol]. rewrite Eq_r in HD. exact HD.
        + destruct (Lr _ _ _ _ E1) as [Y1 Y2]. generalize (tl_poll C _ _ E0) (still_val (Sr _ _ _) E1) (tl_drop_fut C f0 w2). intros X1 X2 X3.
          split; [lia|]. exists (clk w0), (clk w0 + d). split; [lia|]. split; [lia|]. split; [| exact Y2].
          unfold budget in *. cbn [rf_req rf_pol]. rewrite Eq_r in HD. unfold round in *. nia.
        + split; [|exact I]. generalize (tl_poll C _ _ E0) (still_val (Sr _ _ _) E1). lia.
        + split; [exact (tl_poll C _ _ E0)|].
          destruct (quick_step HQ Hc E0) as [X1 X2]. split; [lia|].
          exists e. split; [lia|]. split; [|exact X2]. unfold budget in *. cbn [rf_req rf_pol]. rewrite Eq_r in HD. exact HD.
        + split; [|exact I]. exact (tl_poll C _ _ E0).
      - destruct V as (l & e & Hc & He & HD & HQ). inv E; injection E as <- <-.
        + split; [exact (still_val (HKp t) E0)|]. destruct (quick_step HQ Hc E0) as [X1 X2]. split; [generalize (sw_time H); lia|].
          exists e. split; [lia|]. split; [exact HD | exact X2].
        + split; [rewrite (HKd t0); exact (still_val (HKp t) E0)|]. unfold rmid. cbn [rf_state]. change (budget (RetryFut _ _ _ RRetrying)) with (budget f). lia.
      - destruct (rf_req f) as [r|] eqn:Eq_r; inv E; try (destruct (sw_ready H Hr _ _ E0)); injection E as <- <-.
        + generalize (tl_ready C _ _ E0) (still_val (Sc _ _) E1) (tl_callt C _ _ _ E2). intros X1 X2 X3. split; [lia|].
          exists (clk w2), (clk w2 + T). split; [lia|]. split; [generalize (sw_time H); lia|]. split; [| exact (sw_call H _ _ _ E2)].
          unfold budget in *. cbn [rf_req rf_pol]. rewrite Eq_r in V. destruct o as [r1|]; [|lia].
          generalize (Lc _ _ _ E1). intros X4. nia.
        + split; [exact (tl_ready C _ _ E0) | exact I].
        + split; [exact (tl_ready C _ _ E0) | exact I].
    Qed.
    Lemma poll_mid D fuel : forall f w w1 f1, rmid D (clk w) f -> retry_poll fuel f w = (w1, Val (f1, Pending)) ->
      clk w < D /\ rinv D (clk w) f1.
    Proof.
      induction fuel as [|fuel IH]; intros f w w1 f1 V E; [discriminate|].
      cbn [retry_poll] in E. unfold bind at 1 in E. destruct (retry_iter f w) as [w2 [x| |]] eqn:Ei; try discriminate.
      destruct (@iter_mid D _ _ _ _ V Ei) as [Ec Hx]. destruct x as [f2|[f2 p]].
      - rewrite <- Ec in Hx |- *. exact (IH _ _ _ _ Hx E).
      - injection E as <- <- ->. exact Hx.
    Qed.
    Lemma retry_quick D fuel l f : rinv D l f -> quick clk lag (retry_poll (pol := pol) (svc := svc) fuel) D l f.
    Proof.
      apply (quick_rel clk lag (retry_poll fuel) (D := D) (fun l f => rinv D l f)). clear l f.
      intros l f w w1 f1 V Hw Hp. refine (@poll_mid D fuel f _ _ _ _ Hp).
      unfold rinv in V. unfold rmid. destruct (rf_state f).
      - destruct V as (e & V1 & V2 & V3). exists l, e. auto.
      - destruct V as (e & V1 & V2 & V3). exists l, e. auto.
      - destruct V.
    Qed.

    Lemma retry_s fuel n : (forall p r, (left p r <= n)%nat) -> (forall p, still clk (pol_clone pol p)) ->
      Swift clk lag (T + Z.of_nat n * round) true (retry pol svc fuel).
    Proof.
      intros Hn Sp. generalize round_pos (sw_time H). intros Hp HT. constructor; [nia | |].
      - intros s r w w1 s1 g E. cbn in E. inv E. injection E as <- <- <-. cbn [poll_fut retry].
        apply retry_quick. exists (clk w + T). generalize (still_val (Sc _ _) E0). intros X1.
        split; [lia|]. split; [| rewrite <- X1; exact (sw_call H _ _ _ E1)].
        unfold budget. cbn [rf_req rf_pol]. destruct o as [r1|]; [generalize (Hn a r1); nia | nia].
      - intros _ s w w1 s1 E. cbn in E. inv E. injection E as <- <- ->. exact (sw_ready H Hr _ _ E0).
    Qed.
  End Retry.

  (** ** Steer *)
  Lemma steer_s P (pick : P -> Req -> list (st svc) -> M W (P * nat)) pclone :
    (forall q r l, still clk (pick q r l)) -> Swift clk lag T rdy (steer svc pick pclone).
  Proof.
    intros Hk. refine (layer_swift H (steer svc pick pclone) (fun x y => y = x) _ _ _).
    - intros s r w w1 s1 g E. cbn in E. destruct (sr_not_ready s); [|discriminate]. unfold bind at 1 in E.
      destruct (pick _ _ _ w) as [w2 [[p1 i]| |]] eqn:E0; try discriminate.
      destruct (nth_error (sr_services s) i) as [x|]; [|discriminate]. inv E. injection E as <- <- <-.
      left. eexists x, r, w2, _, _, _. split; [exact (still_val (Hk _ _ _) E0)|]. split; [exact E1 | reflexivity].
    - intros x y w w1 y1 -> E. cbn in E. eauto.
    - intros Hr s w w1 s1 E. cbn in E. unfold bind at 1 in E.
      destruct (steer_poll svc (sr_services s) (sr_not_ready s) w) as [w2 [[[l nr] p]| |]] eqn:Es; try discriminate.
      injection E as <- <- ->. revert Es. generalize (sr_services s) w. induction (sr_not_ready s) as [|i q IH]; intros l0 w0 Es; [discriminate|].
      cbn [steer_poll] in Es. destruct (nth_error l0 i) as [x|]; [|discriminate]. unfold bind at 1 in Es.
      destruct (poll_ready svc x w0) as [w3 [[x1 [|[u|e]]]| |]] eqn:Ex; try discriminate.
      + exact (sw_ready H Hr _ _ Ex).
      + exact (IH _ _ Es).
  Qed.
  Lemma reconnect_s Tgt MErr (mk : Service W Tgt (st svc) MErr) target fuel : Swift clk lag T false (reconnect svc mk target fuel).
  Proof.
    refine (layer_swift H (reconnect svc mk target fuel) (fun x y => y = inl x) _ _ _); [| | discriminate].
    - intros s r w w1 s1 g E. cbn in E. destruct (rc_err s).
      + injection E as <- <- <-. right. intros w2 w3 x E. discriminate.
      + destruct (rc_st s) as [| |c]; try discriminate. inv E. injection E as <- <- <-.
        left. eexists c, r, w, _, _, _. split; [reflexivity|]. split; [exact E0 | reflexivity].
    - intros x y w w1 y1 -> E. cbn in E. inv E. injection E as <- <- E. apply mapped_pending in E as ->. eauto.
  Qed.
  Lemma rate_limit_s (rt : Rt W) rate : Swift clk lag T false (rate_limit rt rate svc).
  Proof.
    refine (layer_swift H (rate_limit rt rate svc) (fun x y => y = x) _ _ _); [| | discriminate].
    - intros s r w w1 s1 g E. cbn in E. destruct (rl_st s) as [|u n]; [discriminate|]. unfold bind at 1, get in E.
      destruct (if (1 <? _)%N then _ else _) as [st1 sleep1]. inv E. injection E as <- <- <-.
      left. eexists _, r, w, _, _, _. split; [reflexivity|]. split; [exact E0 | reflexivity].
    - intros x y w w1 y1 -> E. cbn in E. eauto.
  Qed.
  Lemma conc_s closed debug : Swift (fun x => clk (snd x)) lag T false (conc_limit svc closed debug).
  Proof.
    constructor; [apply H | | discriminate].
    intros s r w w1 s1 g E. cbn in E. destruct (cl_permit s); [|discriminate]. unfold lift_snd in E. unfold bind at 1 in E.
    destruct (call svc (cl_inner s) r (snd w)) as [w2 [[s2 f]| |]] eqn:E0; try discriminate. injection E as <- <- <-.
    refine (@quick_follows _ _ _ _ _ _ clk snd lag (poll_fut svc) (poll_fut (conc_limit svc closed debug)) (fun x y => y = x) _ _ _ _ _ (sw_call H _ _ _ E0) eq_refl).
    intros x y w3 w4 y1 -> Ep. cbn in Ep. unfold lift_snd in Ep. destruct (poll_fut svc x (snd w3)) as [w5 o] eqn:E1. injection Ep as <- ->. eauto.
  Qed.
  (** ** Hedge *)
  Lemma with_histo_clk A (rt : Rt W) getH setH (f : Z -> histo -> Base.out (histo * A)) : (forall h, same clk (setH h)) -> still clk (with_histo rt getH setH f).
  Proof. intros Hs w. unfold with_histo. destruct (f _ _) as [[h x]| |]; cbn; [split; [apply Hs | auto] | split; [reflexivity | discriminate] ..]. Qed.
  Lemma hedge_s (rt : Rt W) clone_request can_retry mdp quantile getH setH :
    (forall h, same clk (setH h)) ->
    Swift clk lag T rdy (hedge rt svc clone_request can_retry mdp quantile getH setH).
  Proof.
    intros Hs.
    assert (CB : forall s r w w1 x, call (hedge_b rt svc can_retry quantile getH setH) s r w = (w1, Val x) -> clk w1 = clk w).
    { intros s r w w1 x E. cbn [call hedge_b delay] in E. apply ran in E as (w2 & d & E0 & E). apply ran in E as (w3 & s1 & E1 & E).
      cbn [clone hedge_filtered async_filter hedge_a latency] in E1. apply ran in E1 as (w4 & s4 & E1 & E2). unfold bind, ret in E2. injection E2 as <- <-.
      unfold bind, get, ret in E. injection E as <- _.
      generalize (still_val (with_histo_clk _ _ _ _ Hs) E0) (tl_clone C _ _ E1). lia. }
    refine (layer_swift H (hedge rt svc clone_request can_retry mdp quantile getH setH) (fun x y => lf_inner (sel_a y) = x) _ _ _).
    - intros s r w w1 s1 g E. unfold hedge, select in E. cbn [call] in E. apply ran in E as (w2 & cr & E0 & E).
      assert (X1 : clk w2 = clk w).
      { unfold hedge_clone in E0. destruct (clone_request r); [exact (still_val (with_histo_clk _ _ _ _ Hs) E0) | injection E0 as <- _; reflexivity]. }
      destruct cr as [r1|].
      + apply ran in E as (w3 & [b1 fb] & E1 & E). generalize (CB _ _ _ _ _ E1). intros X2.
        apply ran in E as (w4 & [a1 fa] & E2 & E). cbn [call hedge_a latency] in E2. unfold bind at 1, get in E2.
        apply ran in E2 as (w5 & [a2 f2] & E2 & E3). injection E3 as <- <- <-. injection E as <- <- <-.
        left. eexists _, r, w3, _, _, _. split; [lia|]. split; [exact E2 | reflexivity].
      + apply ran in E as (w4 & [a1 fa] & E2 & E). cbn [call hedge_a latency] in E2. unfold bind at 1, get in E2.
        apply ran in E2 as (w5 & [a2 f2] & E2 & E3). injection E3 as <- <- <-. injection E as <- <- <-.
        left. eexists _, r, w2, _, _, _. split; [lia|]. split; [exact E2 | reflexivity].
    - intros x y w w1 y1 <- E. unfold hedge, select in E. cbn [poll_fut] in E. apply ran in E as (w2 & [fa pa] & E0 & E).
      assert (X : pa = Pending -> exists w1' x1, poll_fut svc (lf_inner (sel_a y)) w = (w1', Val (x1, Pending)) /\ lf_inner fa = x1).
      { intros ->. cbn [poll_fut hedge_a latency] in E0. apply ran in E0 as (w3 & [f1 p] & E1 & E2). destruct p as [|[v|e]].
        - injection E2 as <- <-. eexists _, _. split; [exact E1 | reflexivity].
        - unfold bind at 1, get in E2. apply ran in E2 as (w4 & u & _ & E3). discriminate.
        - discriminate. }
      destruct pa as [|v]; [|discriminate]. destruct (X eq_refl) as (w1' & x1 & E1 & Xi). exists w1', x1. split; [exact E1|].
      destruct (sel_b y) as [fb|].
      + apply ran in E as (w3 & [fb1 pb] & _ & E). injection E as <- <- _. exact Xi.
      + injection E as <- <-. exact Xi.
    - intros Hr s w w1 s1 E. unfold hedge, select in E. cbn [poll_ready hedge_a latency hedge_b delay] in E.
      apply ran in E as (w2 & [a1 pa] & E0 & E). apply ran in E as (w3 & [b1 pb] & E1 & E). injection E1 as <- <- <-.
      destruct pa as [|[u|e]]; try discriminate. exact (sw_ready H Hr _ _ E0).
  Qed.
  Lemma make_balance_s K Req' Resp' Err' DErr G (svc' : Service W Req' Resp' Err')
    (D : Discover W K (st svc') DErr) (mk : Service W Req (dst D) Err) (g0 : M W G) :
    Swift clk lag T rdy mk -> Swift clk lag T rdy (make_balance svc' D mk g0).
  Proof.
    intros Hm. refine (layer_swift Hm (make_balance svc' D mk g0) (fun x y => y = x) _ _ _).
    - intros s r w w1 s1 g E. cbn in E. left. eexists s, r, w, _, _, _. split; [reflexivity|]. split; [exact E | reflexivity].
    - intros x y w w1 y1 -> E. cbn in E. unfold bind at 1 in E. destruct (poll_fut mk x w) as [w2 [[f1 [|[v|e]]]| |]] eqn:E0; try discriminate.
      + injection E as <- <-. eauto.
      + unfold bind, ret in E. destruct (g0 w2) as [w3 [g| |]]; discriminate.
    - exact (sw_ready Hm).
  Qed.
  Lemma constant_s Met : Swift clk lag T rdy (constant (M' := Met) svc).
  Proof.
    refine (layer_swift H (constant (M' := Met) svc) (fun x y => y = x) _ _ _).
    - intros s r w w1 s1 g E. cbn in E. inv E. injection E as <- <- <-. left. eexists _, r, w, _, _, _. split; [reflexivity|]. split; [exact E0 | reflexivity].
    - intros x y w w1 y1 -> E. cbn in E. eauto.
    - intros Hr s w w1 s1 E. cbn in E. inv E. injection E as <- <- ->. exact (sw_ready H Hr _ _ E0).
  Qed.
  Lemma spawn_ready_s bg fuel : Swift clk lag T false (spawn_ready svc bg fuel).
  Proof.
    refine (layer_swift H (spawn_ready svc bg fuel) (fun x y => y = Some x) _ _ _); [| | discriminate].
    - intros s r w w1 s1 g E. cbn [call spawn_ready] in E. apply ran in E as (w2 & [s2 f] & E0 & E). injection E as <- <- <-.
      destruct s as [s|t]; [|discriminate]. cbn [sr_call] in E0. apply ran in E0 as (w3 & [s3 f3] & E0 & E1). injection E1 as <- <- <-.
      left. eexists _, r, w, _, _, _. split; [reflexivity|]. split; [exact E0 | reflexivity].
    - intros x y w w1 y1 HP E. exact (map_poll_follows (svc := svc) _ _ HP E).
  Qed.
  Lemma balance_s K DErr Met G (keq : forall a b : K, {a = b} + {a <> b}) (D : Discover W K (st svc) DErr) sched
    (next_u64 : G -> M W (G * Z)) debug (load : st svc -> M W Met) le fuel :
    Swift clk lag T false (balance keq svc D sched next_u64 debug load le fuel).
  Proof.
    refine (layer_swift H (balance keq svc D sched next_u64 debug load le fuel) (fun x y => y = Some x) _ _ _); [| | discriminate].
    - intros s r w w1 s1 g E. cbn [call balance] in E. destruct (bl_index s) as [i|]; [|discriminate].
      apply ran in E as (w2 & [c1 f] & E0 & E). injection E as <- <- <-. unfold call_ready_index in E0.
      destruct (swap_remove i (rc_ready (bl_cache s))) as [[[k [s0 t]] rd]|]; [|discriminate].
      apply ran in E0 as (w3 & [s3 f3] & E0 & E1).
      assert (X : f = f3) by (destruct (pending_contains _ _ _); [unfold bind, modify, ret in E1|]; injection E1 as _ _ <-; reflexivity). subst f.
      left. eexists _, r, w, _, _, _. split; [reflexivity|]. split; [exact E0 | reflexivity].
    - intros x y w w1 y1 HP E. exact (map_poll_follows (svc := svc) _ _ HP E).
  Qed.
  Lemma tracked_s Cn Hd (start : M W Hd) (finish : Hd -> Cn -> W -> Cn * W) (keep : Resp -> W -> W * bool) :
    still clk start -> Swift (fun x => clk (snd x)) lag T rdy (tracked_load svc start finish keep).
  Proof.
    intros Hs. constructor; [apply H | |].
    - intros s r w w1 s1 g E. cbn [call tracked_load] in E. unfold tl_call in E. apply ran in E as (w2 & t & E0 & E).
      destruct (call svc s r (snd w2)) as [w3 [[s2 f]| |]] eqn:E1; try discriminate. injection E as <- <- <-.
      assert (X : clk (snd w2) = clk (snd w)).
      { unfold new_handle in E0. apply ran in E0 as (w4 & t4 & E0 & E2). unfold bind, modify, ret in E2. injection E2 as <- <-. cbn [snd].
        unfold lift_w in E0. destruct (start (snd w)) as [w5 o] eqn:E3. injection E0 as <- ->. cbn [snd]. exact (still_val Hs E3). }
      cbv beta. rewrite <- X.
      refine (@quick_follows _ _ _ _ _ _ clk snd lag (poll_fut svc) (poll_fut (tracked_load svc start finish keep)) (fun x y => tc_inner y = x) _ _ _ _ _ (sw_call H _ _ _ E1) _); [| reflexivity].
      intros x y w4 w5 y1 <- Ep. cbn [poll_fut tracked_load] in Ep. unfold tc_poll in Ep. apply ran in Ep as (w6 & [i a] & E2 & Ep).
      unfold lift_w in E2. destruct (poll_fut svc (tc_inner y) (snd w4)) as [w7 o] eqn:E3. injection E2 as <- ->.
      destruct a as [|[v|e]]; [injection Ep as <- <-; eexists _, _; split; reflexivity | | discriminate].
      destruct (tc_handle y); [|discriminate]. apply ran in Ep as (w8 & k & _ & Ep). destruct k; discriminate.
    - intros Hr s w w1 s1 E. cbn [poll_ready tracked_load] in E. unfold lift_w in E.
      destruct (poll_ready svc s (snd w)) as [w2 o] eqn:E0. injection E as <- ->. exact (sw_ready H Hr _ _ E0).
  Qed.
End Layers.

Lemma shared_s W Tgt Req Resp Err (clk : W -> Z) lag (svc : Service W Req Resp Err) : Swift clk lag 0 true (shared (Tgt := Tgt) svc).
Proof.
  constructor; [lia | |].
  - intros s r w w1 s1 g E. constructor; intros w2 w3 x1 _ X; destruct g; discriminate.
  - intros _ s w w1 s1 E. discriminate.
Qed.
Lemma into_service_s W Tgt Made MErr (clk : W -> Z) lag T rdy (mk : Service W Tgt Made MErr) : Swift clk lag T rdy mk -> Swift clk lag T rdy (into_service mk).
Proof. intros H. constructor; [apply H | exact (sw_call H) | exact (sw_ready H)]. Qed.
Lemma as_service_s W Tgt Made MErr (clk : W -> Z) lag T rdy (mk : Service W Tgt Made MErr) : Swift clk lag T rdy mk -> Swift clk lag T rdy (as_service mk).
Proof. intros H. constructor; [apply H | exact (sw_call H) | exact (sw_ready H)]. Qed.
Lemma timeout_s W Req Resp Err (clk : W -> Z) lag (svc : Service W Req Resp Err) (rt : Rt W) dur :
  Timeless clk svc -> 0 <= dur -> (forall d, same clk (nap rt d)) -> on_time clk rt -> Swift clk lag dur false (timeout rt dur svc).
Proof.
  intros C Hd Hn [Hnow Hf]. constructor; [exact Hd | | discriminate].
  intros s r w w1 s1 g E. cbn in E. inv E. injection E as <- <- <-.
  apply (quick_rel clk lag (poll_fut (timeout rt dur svc)) (D := clk w + dur) (fun l y => to_deadline y = clk w + dur));
    [| cbn [to_deadline]; rewrite Hnow, (tl_callt C _ _ _ E0); reflexivity].
  intros l y w2 w3 y1 Hy _ Ep. cbn in Ep. unfold bind at 1 in Ep.
  destruct (poll_fut svc (to_inner y) w2) as [w4 [[f1 [|v]]| |]] eqn:E1; try discriminate.
  unfold sleep_poll, bind, get, modify, ret in Ep. destruct (fired rt w4 (to_deadline y)) eqn:Ef; [discriminate|].
  injection Ep as <- <-. split; [| exact Hy].
  generalize (tl_poll C _ _ E1). intros X. destruct (Z.lt_ge_cases (clk w2) (clk w + dur)) as [|Hge]; [assumption|].
  rewrite Hf in Ef; [discriminate | rewrite Hy; lia].
Qed.
Lemma min_s W Req Resp Err (clk : W -> Z) lag T T' rdy rdy' (svc : Service W Req Resp Err) :
  Swift clk lag T rdy svc -> Swift clk lag T' rdy' svc -> Swift clk lag (Z.min T T') rdy svc.
Proof.
  intros H H'. destruct (Z.min_spec T T') as [[_ ->]|[_ ->]]; [exact H|]. constructor; [apply H' | exact (sw_call H') | exact (sw_ready H)].
Qed.
