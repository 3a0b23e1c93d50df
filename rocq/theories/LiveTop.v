(** C66: from the layers to stacks and programs. *)
From Verif Require Import Base Util ReadyCache Load Make SpawnReady Middleware Limits Hedge MeterSpec MeterMore LiveSpec LiveProof LiveMore LiveHedge LiveCache.
Set Implicit Arguments.

Theorem live_lively W Req Resp Err rdy (svc : Service W Req Resp Err) I :
  live rdy svc I -> exists R, Lively rdy svc R /\ (forall s, I s -> R s).
Proof.
  intros HB. induction HB; try (destruct IHHB as (RR & HL & HI)).
  - exists R. auto.
  - eexists. split; [apply service_fn_l; assumption | auto].
  - exists RR. auto.
  - exists RR. split; [eapply forget_l; eassumption | auto].
  - eexists. split; [apply boxed_l; eassumption | auto].
  - eexists. split; [apply map_request_l; eassumption | auto].
  - eexists. split; [apply map_response_l; eassumption | auto].
  - eexists. split; [apply map_err_l; eassumption | auto].
  - eexists. split; [apply map_result_l; eassumption | auto].
  - eexists. split; [apply map_future_l; eassumption | auto].
  - eexists. split; [apply then_l; eassumption | auto].
  - eexists. split; [apply and_then_l; eassumption | auto].
  - destruct IHHB1 as (Ra & Ha & Ia'), IHHB2 as (Rb & Hb & Ib'). eexists. split; [apply either_l; eassumption |]. intros [s|s]; auto.
  - eexists. split; [apply optional_l; eassumption |]. intros [s|]; auto.
  - eexists. split; [eapply future_service_l with (I0 := I); eassumption |]. intros [s|s]; auto.
  - eexists. split; [apply timeout_l; eassumption | auto].
  - eexists. split; [eapply load_shed_l; eassumption |]. intros s (x & Hx & ->). apply HI, Hx.
  - eexists. split; [eapply filter_l; [exact HL | assumption | assumption] |]. intros s Hs. apply HI. exact Hs.
  - eexists. split; [eapply async_filter_l; [exact HL | assumption | assumption] |]. intros s Hs. apply HI. exact Hs.
  - eexists. split; [eapply retry_l; eassumption |]. intros s [H4 H5]. auto.
  - eexists. split; [eapply steer_l; eassumption |]. intros s (q & l & -> & Hl). cbn. eapply Forall_impl; [| exact Hl]. exact HI.
  - eexists. split; [eapply rate_limit_l; eassumption |]. intros s (x & w & w1 & Hx & E). unfold rate_limit_new, bind, get, ret in E. injection E as _ <-. apply HI, Hx.
  - eexists. split; [eapply conc_l; eassumption |]. intros s (x & Hx & ->). apply HI, Hx.
  - eexists. split; [eapply reconnect_l with (I0 := I) (VM := VM); eassumption |].
    intros s (m & Hm & [-> | (c & Hc & ->)]); (split; [exact Hm | cbn; auto]).
  - eexists. split; [eapply spawn_ready_l with (kept := kept); eassumption |].
    intros s (x & Hx & ->). apply HI, Hx.
  - eexists. split; [eapply hedge_l; eassumption |]. intros s (x & w & w1 & Hx & E). unfold hedge_new, bind, ret in E.
    generalize (lv_clone HL (HI x Hx) w). destruct (clone svc x w) as [w2 [x1| |]]; try discriminate. injection E as _ <-. cbn. auto.
  - eexists. split; [eapply shared_l; eassumption |]. intros s Hs. apply HI. exact Hs.
  - eexists. split; [eapply into_service_l; eassumption |]. intros s Hs. apply HI. exact Hs.
  - eexists. split; [eapply as_service_l; eassumption |]. intros s Hs. apply HI. exact Hs.
  - eexists. split; [eapply make_balance_l; eassumption |]. intros s Hs. apply HI. exact Hs.
  - eexists. split; [eapply balance_l with (I0 := I) (VD := VD); eassumption |].
    intros s (d & g & Hd & ->). split; [exact Hd | split; constructor].
  - eexists. split; [eapply constant_l; eassumption |]. intros s Hs. apply HI. exact Hs.
  - eexists. split; [eapply tracked_l; eassumption |]. intros s Hs. apply HI. exact Hs.
Qed.

Section Program.
  Context {W Req Resp Err : Type} (rdy : bool) (svc : Service W Req Resp Err) (R : st svc -> Prop) (H : Lively rdy svc R).
  Definition Hold (l : list (option (st svc))) : Prop := Forall (fun o => match o with Some s => R s | None => True end) l.
  Lemma held_R l i s : Hold l -> held_at l i = Some s -> R s.
  Proof. intros Hl. unfold held_at. destruct (nth_error l i) as [o|] eqn:E; [| discriminate]. intros ->. exact (forall_nth _ Hl E). Qed.
  Lemma ustep_l y o : Hold (u_svcs y) -> Hold (u_svcs (ustep y o)).
  Proof.
    intros Hs. destruct o as [i|i r|i|i|j|j|g]; cbn [ustep].
    - destruct (held_at (u_svcs y) i) as [s|] eqn:E; [| exact Hs]. generalize (lv_ready H (held_R i Hs E) (u_world y)).
      destruct (poll_ready svc s (u_world y)) as [w1 [[s1 a]| |]]; intros H1; apply forall_set_nth; auto.
    - destruct (held_at (u_svcs y) i) as [s|] eqn:E; [| exact Hs]. generalize (lv_call H r (held_R i Hs E) (u_world y)).
      destruct (call svc s r (u_world y)) as [w1 [[s1 f]| |]]; intros H1; apply forall_set_nth; auto. apply H1.
    - destruct (held_at (u_svcs y) i) as [s|] eqn:E; [| exact Hs]. generalize (lv_clone H (held_R i Hs E) (u_world y)).
      destruct (clone svc s (u_world y)) as [w1 [s1| |]]; intros H1; [| exact Hs | exact Hs].
      apply Forall_app. split; [exact Hs |]. constructor; [exact H1 | constructor].
    - destruct (held_at (u_svcs y) i) as [s|] eqn:E; [| exact Hs]. apply forall_set_nth; auto.
    - destruct (held_at (u_futs y) j) as [f|]; [| exact Hs]. destruct (poll_fut svc f (u_world y)) as [w1 [[f1 a]| |]]; exact Hs.
    - destruct (held_at (u_futs y) j) as [f|]; exact Hs.
    - exact Hs.
  Qed.
  Lemma urun_l l : forall y, Hold (u_svcs y) -> Hold (u_svcs (urun y l)).
  Proof. induction l as [|o l IH]; intros y Hs; [exact Hs |]. apply (IH (ustep y o)), ustep_l, Hs. Qed.
End Program.

Theorem live_run W Req Resp Err rdy (svc : Service W Req Resp Err) I : live rdy svc I ->
  forall w insts ops i s, Forall I insts -> held_at (u_svcs (urun (ustart svc w insts) ops)) i = Some s ->
  (rdy = true -> answers (poll_ready svc) s) /\
  (forall r, gives (call svc s r) (fun x => answers (poll_fut svc) (snd x))).
Proof.
  intros HL w insts ops i s Hi E. destruct (live_lively HL) as (R & HR & HI).
  assert (Hs : R s).
  { refine (held_R (R := R) i (urun_l HR ops _ _) E). unfold Hold, ustart. cbn. apply Forall_map. eapply Forall_impl; [| exact Hi]. exact HI. }
  split; [intros Er; apply (lv_becomes_ready HR Er s Hs) |].
  intros r. eapply gives_mono; [apply (lv_call HR r Hs) |]. intros x [_ Hx]; exact Hx.
Qed.

Theorem reaches_polls W X O (step : X -> M W (X * poll O)) P x : reaches step P x ->
  forall env k w, exists n, answered_within step env n k x w = true.
Proof.
  intros Hx. induction Hx as [x H1 H2 IH H3]. intros env k w.
  destruct (step x (env k w)) as [w1 [[x1 [|o]]| |]] eqn:E.
  - destruct (IH _ _ _ E env (S k) w1) as [n Hn]. exists (S n). cbn. rewrite E. exact Hn.
  - exists 1. cbn. rewrite E. reflexivity.
  - exists 1. cbn. rewrite E. reflexivity.
  - destruct (H1 (env k w)). rewrite E. reflexivity.
Qed.

Theorem live_calls_answered W Req Resp Err rdy (svc : Service W Req Resp Err) I : live rdy svc I ->
  forall w insts ops i s r, Forall I insts -> held_at (u_svcs (urun (ustart svc w insts) ops)) i = Some s ->
  forall w1 w2 s1 f, call svc s r w1 = (w2, Val (s1, f)) ->
  forall env w3, exists n, answered_within (poll_fut svc) env n 0 f w3 = true.
Proof.
  intros HL w insts ops i s r Hi E w1 w2 s1 f Ec env w3. destruct (live_run HL w ops i Hi E) as [_ Hc]. specialize (Hc r w1). rewrite Ec in Hc.
  apply (reaches_polls Hc).
Qed.
Theorem live_becomes_ready W Req Resp Err (svc : Service W Req Resp Err) I : live true svc I ->
  forall w insts ops i s, Forall I insts -> held_at (u_svcs (urun (ustart svc w insts) ops)) i = Some s ->
  forall env w1, exists n, answered_within (poll_ready svc) env n 0 s w1 = true.
Proof. intros HL w insts ops i s Hi E env w1. apply (reaches_polls (proj1 (live_run HL w ops i Hi E) eq_refl)). Qed.
Theorem live_returns W Req Resp Err rdy (svc : Service W Req Resp Err) I : live rdy svc I ->
  forall w insts ops i s, Forall I insts -> held_at (u_svcs (urun (ustart svc w insts) ops)) i = Some s ->
  forall r w1, snd (poll_ready svc s w1) <> Diverge /\ snd (call svc s r w1) <> Diverge /\ snd (clone svc s w1) <> Diverge.
Proof.
  intros HL w insts ops i s Hi E r w1. destruct (live_lively HL) as (R & HR & HI).
  assert (Hs : R s).
  { refine (held_R (R := R) i (urun_l HR ops _ _) E). unfold Hold, ustart. cbn. apply Forall_map. eapply Forall_impl; [| exact Hi]. exact HI. }
  generalize (lv_ready HR Hs w1) (lv_call HR r Hs w1) (lv_clone HR Hs w1).
  destruct (snd (poll_ready svc s w1)), (snd (call svc s r w1)), (snd (clone svc s w1)); try contradiction;
    intros _ _ _; (split; [discriminate | split; discriminate]).
Qed.

Theorem reconnect_spins W Tgt Req Resp Err MErr (svc : Service W Req Resp Err) (mk : Service W Tgt (st svc) MErr) target :
  (forall m w, exists w1 m1, poll_ready mk m w = (w1, Val (m1, Ready (Ok tt)))) ->
  (forall m w, exists w1 m1 f, call mk m target w = (w1, Val (m1, f))) ->
  (forall f w, exists w1 f1 c, poll_fut mk f w = (w1, Val (f1, Ready (Ok c)))) ->
  (forall c w, exists w1 c1 e, poll_ready svc c w = (w1, Val (c1, Ready (Er e)))) ->
  forall fuel s w, snd (poll_ready (reconnect svc mk target fuel) s w) = Diverge.
Proof.
  intros H1 H2 H3 H4. unfold reconnect. cbn [poll_ready]. intros fuel. induction fuel as [|k IH]; intros s w; [reflexivity |].
  cbn [reconnect_poll]. unfold reconnect_iter. destruct (rc_st s) as [|f|c]; unfold bind.
  - destruct (H1 (rc_mk s) w) as (w1 & m1 & ->). destruct (H2 m1 w1) as (w2 & m2 & f & ->). apply IH.
  - destruct (H3 f w) as (w1 & f1 & c & ->). apply IH.
  - destruct (H4 c w) as (w1 & c1 & e & ->). apply IH.
Qed.
