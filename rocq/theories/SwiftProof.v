(** Proof of C81: every layer adds what SwiftSpec.v says to the response time. *)
From Verif Require Import Base Util ReadyCache SpawnReady Load Make Middleware Limits Hedge MeterSpec FlightSpec FlightProof FlightTop SwiftSpec.
Set Implicit Arguments.
Local Open Scope Z_scope.

(** ** [quick] *)
Section Quick.
  Context {W X A : Type} (clk : W -> Z) (lag : Z) (pollx : X -> M W (X * poll A)).
  Lemma quick_rel D (R : Z -> X -> Prop) :
    (forall l x w w1 x1, R l x -> l <= clk w <= l + lag -> pollx x w = (w1, Val (x1, Pending)) -> clk w < D /\ R (clk w) x1) ->
    forall l x, R l x -> quick clk lag pollx D l x.
  Proof.
    intros HR. cofix CIH. intros l x Hx. constructor.
    - intros w w1 x1 Hw Hp. apply (HR l x w w1 x1 Hx Hw Hp).
    - intros w w1 x1 Hw Hp. apply CIH. apply (HR l x w w1 x1 Hx Hw Hp).
  Qed.
  Lemma quick_step D l x w w1 x1 : quick clk lag pollx D l x -> l <= clk w <= l + lag -> pollx x w = (w1, Val (x1, Pending)) ->
    clk w < D /\ quick clk lag pollx D (clk w) x1.
  Proof. intros [l0 x0 H1 H2] Hw Hp. split; [exact (H1 _ _ _ Hw Hp) | exact (H2 _ _ _ Hw Hp)]. Qed.
  Lemma quick_weaken D D' l x : quick clk lag pollx D l x -> D <= D' -> quick clk lag pollx D' l x.
  Proof.
    intros HQ HD. apply (quick_rel (D := D') (fun l x => quick clk lag pollx D l x)); [| exact HQ].
    intros l0 x0 w w1 x1 Hx Hw Hp. destruct (quick_step Hx Hw Hp) as [H1 H2]. split; [lia | exact H2].
  Qed.
End Quick.
Arguments quick_step {W X A clk lag pollx D l x w w1 x1} _ _ _.

(** A future [y] that is pending only when [x] is, seen through [pr]. *)
Section Transfer.
  Context {W W2 X Y A B : Type} (clk : W -> Z) (pr : W2 -> W) (lag : Z).
  Context (pollx : X -> M W (X * poll A)) (polly : Y -> M W2 (Y * poll B)).
  Definition follows (P : X -> Y -> Prop) : Prop :=
    forall x y w w1 y1, P x y -> polly y w = (w1, Val (y1, Pending)) ->
      exists w1' x1, pollx x (pr w) = (w1', Val (x1, Pending)) /\ P x1 y1.
  Lemma quick_follows (P : X -> Y -> Prop) D l x y :
    follows P -> quick clk lag pollx D l x -> P x y -> quick (fun w => clk (pr w)) lag polly D l y.
  Proof.
    intros HF HQ HP.
    apply (quick_rel (fun w => clk (pr w)) lag polly (D := D) (fun l y => exists x, quick clk lag pollx D l x /\ P x y)); [| eauto].
    clear l x y HQ HP. intros l y w w1 y1 (x & HQ & HP) Hw Hp.
    destruct (HF x y w w1 y1 HP Hp) as (w1' & x1 & Ep & HP1).
    destruct (quick_step HQ Hw Ep) as [H1 H2]. split; [exact H1|]. exists x1. auto.
  Qed.
End Transfer.

(** Two stages: when the first is over, the second starts at once. *)
Section Stages.
  Context {W X1 X2 Y A1 A2 B : Type} (clk : W -> Z) (lag : Z).
  Context (poll1 : X1 -> M W (X1 * poll A1)) (poll2 : X2 -> M W (X2 * poll A2)) (polly : Y -> M W (Y * poll B)).
  Context (P1 : X1 -> Y -> Prop) (P2 : X2 -> Y -> Prop) (d : Z) (Hd : 0 <= d).
  Definition moves_on : Prop :=
    (forall x y w w1 y1, P1 x y -> polly y w = (w1, Val (y1, Pending)) ->
       (exists w1' x1, poll1 x w = (w1', Val (x1, Pending)) /\ P1 x1 y1) \/
       (exists w' w1' u u1, clk w' = clk w /\ quick clk lag poll2 (clk w' + d) (clk w') u /\
                            poll2 u w' = (w1', Val (u1, Pending)) /\ P2 u1 y1)) /\
    (forall u y w w1 y1, P2 u y -> polly y w = (w1, Val (y1, Pending)) ->
       exists w1' u1, poll2 u w = (w1', Val (u1, Pending)) /\ P2 u1 y1).
  Lemma quick_stages D l x y : moves_on -> 0 <= lag -> l <= D ->
    quick clk lag poll1 D l x -> P1 x y -> quick clk lag polly (D + lag + d) l y.
  Proof.
    intros [M1 M2] Hl HlD HQ HP.
    apply (quick_rel clk lag polly (D := D + lag + d)
      (fun l y => (exists x, l <= D /\ quick clk lag poll1 D l x /\ P1 x y) \/
                  (exists u, quick clk lag poll2 (D + lag + d) l u /\ P2 u y))); [| left; eauto].
    clear l x y HlD HQ HP. intros l y w w1 y1 [(x & HlD & HQ & HP)|(u & HQ & HP)] Hw Hp.
    - destruct (M1 _ _ _ _ _ HP Hp) as [(w1' & x1 & Ep & HP1)|(w' & w1' & u & u1 & Ec & HQ2 & Ep & HP2)].
      + destruct (quick_step HQ Hw Ep) as [H1 H2]. split; [lia|]. left. exists x1. split; [lia|]. auto.
      + destruct (quick_step HQ2 (w := w') (w1 := w1') (x1 := u1) ltac:(lia) Ep) as [H1 H2]. rewrite Ec in *. split; [lia|].
        right. exists u1. split; [| exact HP2]. eapply quick_weaken; [exact H2 | lia].
    - destruct (M2 _ _ _ _ _ HP Hp) as (w1' & u1 & Ep & HP1).
      destruct (quick_step HQ Hw Ep) as [H1 H2]. split; [exact H1|]. right. exists u1. auto.
  Qed.
End Stages.

(** ** The clock does not move *)
Record Timeless {W Req Resp Err} (clk : W -> Z) (svc : Service W Req Resp Err) : Prop := {
  tl_ready : forall s w w1 x, poll_ready svc s w = (w1, Val x) -> clk w1 = clk w;
  tl_callt : forall s r w w1 x, call svc s r w = (w1, Val x) -> clk w1 = clk w;
  tl_poll : forall f w w1 x, poll_fut svc f w = (w1, Val x) -> clk w1 = clk w;
  tl_clone : forall s w w1 x, clone svc s w = (w1, Val x) -> clk w1 = clk w;
  tl_drop_svc : forall s, same clk (drop_svc svc s);
  tl_drop_fut : forall f, same clk (drop_fut svc f) }.
Lemma still_val W A (clk : W -> Z) (m : M W A) w w1 x : still clk m -> m w = (w1, Val x) -> clk w1 = clk w.
Proof. intros H E. destruct (H w) as [E0 _]. rewrite E in E0. exact E0. Qed.
Arguments still_val {W A clk m w w1 x} _ _.
Lemma direct_timeless W Req Resp Err (clk : W -> Z) (svc : Service W Req Resp Err) : direct clk 0 svc -> Timeless clk svc.
Proof.
  intros HD. destruct (direct_owning HD) as (own & HO).
  assert (H0 : forall f, own f = 0) by (intros f; generalize (ow_le HO f); lia).
  constructor.
  - intros s w w1 x E. exact (still_val (ow_ready HO s) E).
  - intros s r w w1 x E. generalize (ow_call HO _ _ _ E). rewrite H0. lia.
  - intros f w w1 x E. generalize (ow_poll HO _ _ E). rewrite !H0. lia.
  - intros s w w1 x E. exact (still_val (ow_clone HO s) E).
  - apply HO.
  - intros f w. rewrite (ow_drop_fut HO), H0. lia.
Qed.
Lemma swift_direct W Req Resp Err (clk : W -> Z) lag T rdy (svc : Service W Req Resp Err) :
  swift clk lag T rdy svc -> direct clk 0 svc.
Proof.
  intros HS. induction HS.
  - apply dr_apart. assumption.
  - apply dr_service_fn; assumption.
  - assumption.
  - apply dr_boxed; assumption.
  - apply dr_map_request; assumption.
  - apply dr_map_response; assumption.
  - apply dr_map_err; assumption.
  - apply dr_map_result; assumption.
  - apply dr_then; assumption.
  - apply dr_and_then; assumption.
  - apply dr_either; assumption.
  - apply dr_optional; assumption.
  - apply dr_future_service; assumption.
  - apply dr_timeout; assumption.
  - apply dr_timeout; assumption.
  - apply dr_load_shed; assumption.
  - apply dr_filter; assumption.
  - apply dr_async_filter; assumption.
  - apply dr_retry; assumption.
  - apply dr_steer; assumption.
  - apply dr_reconnect; assumption.
  - apply dr_rate_limit; assumption.
  - apply dr_conc_limit; assumption.
  - apply (@dr_hedge _ _ _ _ _ 0); assumption.
  - eapply dr_shared; eassumption.
  - apply dr_into_service; assumption.
  - apply dr_as_service; assumption.
  - apply dr_make_balance; assumption.
  - apply dr_constant; assumption.
  - apply dr_tracked_load; assumption.
  - apply dr_spawn_ready; assumption.
  - apply dr_balance; assumption.
Qed.

(** Follow a computation that returned. *)
Ltac inv H := unfold bind, ret, get, modify in H;
  repeat match type of H with
  | match ?m ?w with (_, _) => _ end = _ =>
      let E := fresh "E" in let o := fresh "o" in destruct (m w) as [? o] eqn:E; destruct o as [?| |]; try discriminate
  | (let (_, _) := ?p in _) ?w = _ => destruct p
  | (match ?p with _ => _ end) ?w = _ => destruct p; try discriminate
  end.

Section Layers.
  Context {W Req Resp Err : Type} (clk : W -> Z) (lag T : Z) (rdy : bool) (svc : Service W Req Resp Err).
  Context (H : Swift clk lag T rdy svc) (C : Timeless clk svc).

  (** A layer that hands out the inner future, perhaps wrapped: it calls the inner service at that time. *)
  Lemma layer_swift Req' Resp' Err' rdy' (out : Service W Req' Resp' Err') (P : fut svc -> fut out -> Prop) :
    (forall s r w w1 s1 g, call out s r w = (w1, Val (s1, g)) ->
       (exists s' r' w' w1' s1' f, clk w' = clk w /\ call svc s' r' w' = (w1', Val (s1', f)) /\ P f g) \/
       (forall w w1 x, poll_fut out g w <> (w1, Val (x, Pending)))) ->
    (forall f g w w1 g1, P f g -> poll_fut out g w = (w1, Val (g1, Pending)) ->
       exists w1' f1, poll_fut svc f w = (w1', Val (f1, Pending)) /\ P f1 g1) ->
    (rdy' = true -> forall s w w1 s1, poll_ready out s w <> (w1, Val (s1, Pending))) ->
    Swift clk lag T rdy' out.
  Proof.
    intros Hc Hp Hr. constructor; [apply H | | exact Hr].
    intros s r w w1 s1 g E. destruct (Hc s r w w1 s1 g E) as [(s' & r' & w' & w1' & s1' & f & Ec & Ef & HP)|Hn].
    - rewrite <- Ec. refine (@quick_follows _ _ _ _ _ _ clk (fun w => w) lag (poll_fut svc) (poll_fut out) P _ _ f g _ (sw_call H _ _ _ Ef) HP).
      intros x y w0 w2 y1. apply Hp.
    - constructor; intros w0 w2 x1 _ X; destruct (Hn _ _ _ X).
  Qed.

  Lemma weaken_s T' rdy' : T <= T' -> (rdy' = true -> rdy = true) -> Swift clk lag T' rdy' svc.
  Proof.
    intros HT HR. constructor.
    - generalize (sw_time H). lia.
    - intros s r w w1 s1 f E. eapply quick_weaken; [exact (sw_call H _ _ _ E) | lia].
    - intros X. apply H. auto.
  Qed.
  Lemma boxed_s : Swift clk lag T rdy (boxed svc).
  Proof. constructor; [apply H | exact (sw_call H) | exact (sw_ready H)]. Qed.
  Lemma map_request_s Req' (f : Req' -> M W Req) : (forall r, still clk (f r)) -> Swift clk lag T rdy (map_request f svc).
  Proof.
    intros Hf. refine (@layer_swift _ _ _ rdy (map_request f svc) (fun x y => x = y) _ _ _).
    - intros s r w w1 s1 g E. cbn in E. inv E. left. exists s, a, w0, w1, s1, g. split; [exact (still_val (Hf r) E0)|]. auto.
    - intros x y w w1 y1 -> E. eauto.
    - exact (sw_ready H).
  Qed.
  Definition is_some (f : fut svc) (g : option (fut svc)) : Prop := g = Some f.
  Lemma some_call Req' Resp' Err' (out : Service W Req' Resp' Err') s r w w1 s1 (g : option (fut svc)) :
    ('(s1, x) <- call svc s r ;; ret (s1, Some x)) w = (w1, Val (s1, g)) ->
    exists s' r' w' w1' s1' f, clk w' = clk w /\ call svc s' r' w' = (w1', Val (s1', f)) /\ is_some f g.
  Proof. intros E. inv E. injection E as <- <- <-. exists s, r, w. eexists _, _, _. split; [reflexivity|]. split; [eassumption | reflexivity]. Qed.
  Lemma map_poll_follows B (h : result Resp Err -> M W B) f g w w1 g1 :
    is_some f g -> map_poll (poll_fut svc) (drop_fut svc) h g w = (w1, Val (g1, Pending)) ->
    exists w1' f1, poll_fut svc f w = (w1', Val (f1, Pending)) /\ is_some f1 g1.
  Proof.
    intros -> E. cbn [map_poll] in E. inv E.
    injection E as <- <-. eexists _, _. split; [reflexivity | reflexivity].
  Qed.
  Lemma into_ready Err' (into : Err -> Err') : rdy = true -> forall s w w1 s1,
    ('(s1, a) <- poll_ready svc s ;; ret (s1, poll_map (map_er into) a)) w <> (w1, Val (s1, Pending)).
  Proof. intros Hr s w w1 s1 E. inv E. destruct p; [|discriminate]. exact (sw_ready H Hr _ _ E0). Qed.
  Lemma map_response_s Resp' (f : Resp -> M W Resp') : Swift clk lag T rdy (map_response f svc).
  Proof.
    refine (@layer_swift _ _ _ rdy (map_response f svc) is_some _ _ _).
    - intros s r w w1 s1 g E. left. exact (some_call svc _ _ _ E).
    - intros x y w w1 y1 HP E. exact (map_poll_follows _ _ HP E).
    - exact (sw_ready H).
  Qed.
  Lemma map_err_s Err' (f : Err -> M W Err') : Swift clk lag T rdy (map_err f svc).
  Proof.
    refine (@layer_swift _ _ _ rdy (map_err f svc) is_some _ _ _).
    - intros s r w w1 s1 g E. left. exact (some_call svc _ _ _ E).
    - intros x y w w1 y1 HP E. exact (map_poll_follows _ _ HP E).
    - intros Hr s w w1 s1 E. cbn in E. inv E; try discriminate. exact (sw_ready H Hr _ _ E0).
  Qed.
  Lemma map_result_s Resp' Err' (into : Err -> Err') (f : result Resp Err -> M W (result Resp' Err')) : Swift clk lag T rdy (map_result into f svc).
  Proof.
    refine (@layer_swift _ _ _ rdy (map_result into f svc) is_some _ _ _).
    - intros s r w w1 s1 g E. left. exact (some_call svc _ _ _ E).
    - intros x y w w1 y1 HP E. exact (map_poll_follows _ _ HP E).
    - intros Hr. exact (into_ready into Hr).
  Qed.

  (** ** Two stages *)
  Definition is_first {G} (f : fut svc) (c : chain (fut svc) G) : Prop := c = First f.
  Definition is_second {G} (t : G) (c : chain (fut svc) G) : Prop := c = Second t.
  Lemma then_s Resp' Err' d (into : Err -> Err') (K : Task W (result Resp' Err')) (f : result Resp Err -> M W (tst K)) :
    0 <= lag -> 0 <= d -> (forall x, still clk (f x)) -> swift_task clk lag d K f ->
    Swift clk lag (T + lag + d) rdy (then_ into K f svc).
  Proof.
    intros Hl Hd Hf HK. constructor.
    - generalize (sw_time H). lia.
    - intros s r w w1 s1 g E. cbn in E. inv E. injection E as <- <- <-.
      replace (clk w + (T + lag + d)) with (clk w + T + lag + d) by lia.
      apply (@quick_stages _ _ _ _ _ _ _ clk lag (poll_fut svc) (tpoll K) (poll_fut (then_ into K f svc)) is_first is_second d Hd _ _ f0).
      + split.
        * intros x y w2 w3 y1 -> Ep. cbn in Ep. inv Ep.
          -- injection Ep as <- <-. left. eexists _, _. split; reflexivity.
          -- injection Ep as <- <-. right. exists w4, w5, a0, t.
             generalize (still_val (Hf a) E1) (tl_poll C _ _ E) (tl_drop_fut C f1 w1). intros X1 X2 X3.
             split; [lia|]. split; [|split; [exact E2 | reflexivity]]. rewrite X1. exact (HK _ _ _ _ E1).
        * intros u y w2 w3 y1 -> Ep. cbn in Ep. inv Ep. injection Ep as <- <-. eexists _, _. split; reflexivity.
      + exact Hl.
      + generalize (sw_time H). lia.
      + exact (sw_call H _ _ _ E0).
      + reflexivity.
    - intros Hr. exact (into_ready into Hr).
  Qed.
  Lemma and_then_s Resp' Err' d (into : Err -> Err') (K : Task W (result Resp' Err')) (f : Resp -> M W (tst K)) :
    0 <= lag -> 0 <= d -> (forall x, still clk (f x)) -> swift_task clk lag d K f ->
    Swift clk lag (T + lag + d) rdy (and_then into K f svc).
  Proof.
    intros Hl Hd Hf HK. constructor.
    - generalize (sw_time H). lia.
    - intros s r w w1 s1 g E. cbn in E. inv E. injection E as <- <- <-.
      replace (clk w + (T + lag + d)) with (clk w + T + lag + d) by lia.
      apply (@quick_stages _ _ _ _ _ _ _ clk lag (poll_fut svc) (tpoll K) (poll_fut (and_then into K f svc)) is_first is_second d Hd _ _ f0).
      + split.
        * intros x y w2 w3 y1 -> Ep. cbn in Ep. inv Ep.
          -- injection Ep as <- <-. left. eexists _, _. split; reflexivity.
          -- injection Ep as <- <-. right. exists w4, w5, a0, t.
             generalize (still_val (Hf a) E1) (tl_poll C _ _ E) (tl_drop_fut C f1 w1). intros X1 X2 X3.
             split; [lia|]. split; [|split; [exact E2 | reflexivity]]. rewrite X1. exact (HK _ _ _ _ E1).
        * intros u y w2 w3 y1 -> Ep. cbn in Ep. inv Ep. injection Ep as <- <-. eexists _, _. split; reflexivity.
      + exact Hl.
      + generalize (sw_time H). lia.
      + exact (sw_call H _ _ _ E0).
      + reflexivity.
    - intros Hr. exact (into_ready into Hr).
  Qed.
End Layers.
