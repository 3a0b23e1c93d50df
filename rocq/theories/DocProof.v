(** C92: proofs. *)
From Verif Require Import Demo Base ContractSpec StackSpec Safe SafeUtil StackProof DriveSpec Util Middleware Limits Buffer BufSvc MeterSpec MeterProof FlightSpec KeepSpec KeepProof KeepTop SimpleSpec TranspProof SimpleProof DocCode DocSpec.
Set Implicit Arguments.

Section Wrap.
  Context {W Req Resp Err : Type} (svc : Service W Req Resp Err).

  Lemma wrap_running_drive s x w gs :
    drive (poll_fut (wrap_take svc)) (WfRun (svc := svc) s x) w gs =
    fin_then (WfRun (svc := svc) s)
      (fun x1 v => modify (drop_fut svc x1) ;;; modify (drop_svc svc s) ;;; ret (WfDone, v))
      (drive (poll_fut svc) x w gs).
  Proof.
    revert x w. induction gs as [|g gs IH]; intros x w; [reflexivity |].
    cbn [drive poll_fut wrap_take wrap_poll]. unfold wrap_await, bind, modify, ret. cbn [wrap_take poll_fut] in IH.
    destruct (poll_fut svc x (g w)) as [w1 [[x1 [|v]]| |]]; try reflexivity.
    rewrite IH. destruct (drive (poll_fut svc) x1 w1 gs) as [l e]. reflexivity.
  Qed.
  Lemma wrap_first_drive s r w g gs :
    drive (poll_fut (wrap_take svc)) (WfInit (svc := svc) s r) w (g :: gs) =
    match call svc s r (g w) with
    | (w1, Val (s1, x)) => drive (poll_fut (wrap_take svc)) (WfRun (svc := svc) s1 x) w1 ((fun y => y) :: gs)
    | (w1, Panic) => ([], Panicked w1)
    | (w1, Diverge) => ([], Spun w1)
    end.
  Proof.
    cbn [drive poll_fut wrap_take wrap_poll]. unfold bind at 1.
    destruct (call svc s r (g w)) as [w1 [[s1 x]| |]]; reflexivity.
  Qed.
  Theorem take_call s r w w1 s1 x :
    call (wrap_take svc) s r w = (w1, Val (s1, x)) ->
    clone svc s w = (w1, Val s1) /\
    forall w2 g gs,
    drive (poll_fut (wrap_take svc)) x w2 (g :: gs) =
    match call svc s r (g w2) with
    | (w3, Val (s3, y)) =>
        fin_then (WfRun (svc := svc) s3)
          (fun y1 v => modify (drop_fut svc y1) ;;; modify (drop_svc svc s3) ;;; ret (WfDone, v))
          (drive (poll_fut svc) y w3 ((fun w => w) :: gs))
    | (w3, Panic) => ([], Panicked w3)
    | (w3, Diverge) => ([], Spun w3)
    end.
  Proof.
    cbn [call wrap_take]. unfold bind, ret. destruct (clone svc s w) as [w0 [c| |]] eqn:E; try discriminate.
    intros X. injection X as <- <- <-. split; [reflexivity |]. intros w2 g gs.
    rewrite wrap_first_drive. destruct (call svc s r (g w2)) as [w3 [[s3 y]| |]]; try reflexivity.
    apply wrap_running_drive.
  Qed.

End Wrap.

(** The wrong wrapper. *)
Theorem clone_misuse W Req Resp Err (svc : Service W Req Resp Err) s r w w1 s1 x :
  call (wrap_clone (guard svc)) s r w = (w1, Val (s1, x)) ->
  forall w2, poll_fut (wrap_clone (guard svc)) x w2 = (w2, Panic).
Proof.
  cbn [call wrap_clone guard clone]. unfold bind, ret. destruct s as [[| |] s]; cbn [fst snd]; try discriminate;
    destruct (clone svc s w) as [w0 [c| |]]; try discriminate; intros X; injection X as <- <- <-; intros w2; reflexivity.
Qed.
Theorem clone_limit W Req Resp Err (svc : Service W Req Resp Err) closed debug s r w w1 s1 x :
  call (wrap_clone (conc_limit svc closed debug)) s r w = (w1, Val (s1, x)) ->
  forall w2, poll_fut (wrap_clone (conc_limit svc closed debug)) x w2 = (w2, Panic).
Proof.
  cbn [call wrap_clone clone conc_limit]. unfold bind, ret, lift_snd. destruct (clone svc (cl_inner s) (snd w)) as [w0 [c| |]]; try discriminate.
  intros X. injection X as <- <- <-. intros w2. reflexivity.
Qed.
Theorem clone_alike W Req Resp Err (svc : Service W Req Resp Err) :
  (forall s w w1 c, clone svc s w = (w1, Val c) -> c = s) ->
  forall s r w, call (wrap_clone svc) s r w = call (wrap_take svc) s r w.
Proof.
  intros H s r w. cbn [call wrap_clone wrap_take]. unfold bind, ret. destruct (clone svc s w) as [w0 [c| |]] eqn:E; try reflexivity.
  rewrite (H _ _ _ _ E). reflexivity.
Qed.

Section Keep.
  Context {W Req Resp Err : Type} (live : W -> Z) (svc : Service W Req Resp Err) (osv : st svc -> Z) (own : fut svc -> Z) (orp : Resp -> Z).
  Context (H : holds live svc osv own orp).
  Local Open Scope Z_scope.
  Lemma take_k : holds live (wrap_take svc) osv (owrap osv own) orp.
  Proof.
    assert (A : forall s x, bal live (osv s + own x) (wrap_await svc s x) (fun y => owrap osv own (fst y) + in_resp orp (snd y))).
    { intros s x. unfold wrap_await. kpoll H. destruct p as [|v].
      - apply bal_ret. cbn. lia.
      - assert (0 <= in_resp orp (Ready v)) by (destruct v as [v|e]; cbn; [apply (ho_resp0 H) | lia]).
        kdrop_fut H. kdrop_svc H. apply bal_ret. cbn. lia. }
    constructor; cbn [wrap_take poll_ready call poll_fut clone drop_svc drop_fut]; try apply H.
    - intros s r. kclone H. apply bal_ret. cbn. lia.
    - intros [s r|s x|]; cbn [wrap_poll owrap]; [| apply A | apply bal_panic].
      kcall H. eapply bal_eq; [apply A | lia].
    - intros s. apply bal_panic.
    - intros [s r|s x|]; cbn [wrap_drop owrap]; [apply (ho_drop_svc H) | | apply gone_id].
      rewrite Z.add_comm. exact (gone_two (ho_drop_fut H x) (ho_drop_svc H s) (ho_fut0 H x) (ho_svc0 H s)).
    - intros [s r|s x|]; cbn; klia H.
  Qed.
  Lemma doc_k rt dur coin : still live coin -> (forall d, same live (nap rt d)) ->
    holds live (timeout_doc rt dur svc coin) osv (odoc own) orp.
  Proof.
    intros Hq Hn. 
    constructor; cbn [timeout_doc poll_ready call poll_fut clone drop_svc drop_fut]; try apply H.
    - intros s. apply (into_ready_k H inl s (fun s => s) osv). reflexivity.
    - intros s r. bst; [apply still_get |]. kcall H. bret.
    - intros [x dl|]; cbn [odoc]; [| apply bal_panic]. cbv zeta. bst; [exact Hq |].
      assert (B : forall v : result Resp (Err + unit), 0 <= in_resp orp (Ready v)).
      { intros [v|e]; cbn; [apply (ho_resp0 H) | lia]. }
      assert (C : forall v : result Resp Err, in_resp orp (Ready v) = in_resp orp (Ready (map_er (E' := Err + unit) inl v))) by (intros [v|e]; reflexivity).
      destruct a.
      + kpoll H. destruct p as [|v].
        * bst; [apply still_sleep, Hn |]. destruct a; [kdrop_fut H; apply bal_ret; cbn; lia | apply bal_ret; cbn; lia].
        * rewrite C. assert (X := B (map_er inl v)). kdrop_fut H. apply bal_ret. cbn [fst snd odoc]. lia.
      + bst; [apply still_sleep, Hn |]. destruct a; [kdrop_fut H; apply bal_ret; cbn; lia |].
        kpoll H. destruct p as [|v]; [apply bal_ret; cbn; lia |].
        rewrite C. assert (X := B (map_er inl v)). kdrop_fut H. apply bal_ret. cbn [fst snd odoc]. lia.
    - intros s. apply bal_panic.
    - intros [x dl|]; [apply (ho_drop_fut H) | apply gone_id].
    - intros [x dl|]; cbn; klia H.
  Qed.
End Keep.
Theorem take_kept W Req Resp Err (live : W -> Z) (svc : Service W Req Resp Err) osv own orp :
  kept live svc osv own orp -> kept live (wrap_take svc) osv (owrap osv own) orp.
Proof. intros HK. apply kp_base, take_k, kept_holds, HK. Qed.
Theorem doc_kept W Req Resp Err (live : W -> Z) (svc : Service W Req Resp Err) osv own orp (rt : Rt W) dur coin :
  kept live svc osv own orp -> still live coin -> (forall d, same live (nap rt d)) ->
  kept live (timeout_doc rt dur svc coin) osv (odoc own) orp.
Proof. intros HK H1 H2. apply kp_base, doc_k; [apply kept_holds, HK | exact H1 | exact H2]. Qed.

(** The documented Timeout. *)
Section DocTimeout.
  Context {W Req Resp Err : Type} (rt : Rt W) (dur : Z) (svc : Service W Req Resp Err) (coin : M W bool).
  Notation doc := (timeout_doc rt dur svc coin).
  Local Open Scope Z_scope.
  Context (Hcoin : onward rt coin) (Hpoll : forall f, onward rt (poll_fut svc f))
    (Hdrop : forall f w, now rt w <= now rt (drop_fut svc f w)).

  Lemma doc_poll_cases x dl w w1 f1 p : poll_fut doc (DfRun x dl) w = (w1, Val (f1, p)) ->
    match p with
    | Pending => fired rt w dl = false /\ exists x1, f1 = DfRun x1 dl /\
        exists w2 w3, poll_fut svc x w2 = (w3, Val (x1, Pending)) /\ now rt w <= now rt w2
    | Ready (Er (inr tt)) => f1 = DfDone /\ dl <= now rt w1
    | Ready v => f1 = DfDone /\ exists w2 w3 x1 v0, poll_fut svc x w2 = (w3, Val (x1, Ready v0)) /\ w1 = drop_fut svc x1 w3 /\ v = map_er inl v0
    end.
  Proof.
    cbn [poll_fut timeout_doc]. cbv zeta. unfold bind at 1. destruct (Hcoin w) as [N0 F0].
    destruct (coin w) as [w0 [b| |]]; try discriminate. cbn [fst] in N0, F0. specialize (F0 dl).
    assert (FF : forall y, fired rt w0 dl = false -> y = fired rt w dl -> y = false).
    { intros y K ->. apply not_true_is_false. intros X. rewrite (F0 X) in K. discriminate K. }
    destruct b.
    - unfold bind at 1. destruct (Hpoll x w0) as [N1 F1]. destruct (poll_fut svc x w0) as [w2 [[x1 [|v]]| |]] eqn:Ep; try discriminate; cbn [fst] in N1, F1; specialize (F1 dl).
      + unfold bind, sleep_poll, get, modify, ret. cbn. unfold bind. destruct (fired rt w2 dl) eqn:Ef; intros E; injection E as <- <- <-.
        * split; [reflexivity |]. generalize (fired_sound rt w2 dl Ef) (Hdrop x1 (nap rt dl w2)). rewrite now_nap. lia.
        * split; [| exists x1; split; [reflexivity |]; exists w0, w2; split; [exact Ep | lia]].
          apply FF; [| reflexivity]. apply not_true_is_false. intros X. generalize (F1 X). congruence.
      + unfold bind, modify, ret. intros E. injection E as <- <- <-. destruct v as [v|e]; cbn [map_er]; (split; [reflexivity |]); exists w0, w2, x1; eexists; (split; [exact Ep |]); (split; reflexivity).
    - unfold sleep_poll, bind, get, modify, ret. cbn. destruct (fired rt w0 dl) eqn:Ef.
      + intros E. injection E as <- <- <-. split; [reflexivity |]. generalize (fired_sound rt w0 dl Ef) (Hdrop x (nap rt dl w0)). rewrite now_nap. lia.
      + destruct (poll_fut svc x (nap rt dl w0)) as [w2 [[x1 [|v]]| |]] eqn:Ep; try discriminate; intros E.
        * injection E as <- <- <-. split; [apply FF; auto |]. exists x1. split; [reflexivity |].
          exists (nap rt dl w0), w2. split; [exact Ep | rewrite now_nap; lia].
        * injection E as <- <- <-. destruct v as [v|e]; cbn [map_er]; (split; [reflexivity |]); exists (nap rt dl w0), w2, x1; eexists; (split; [exact Ep |]); (split; reflexivity).
  Qed.

  Lemma doc_drive_expired x dl f w2 gs : forall w l,
    drive (poll_fut doc) x w gs = (l, Finished f w2 (Er (inr tt))) -> (forall y dl', x = DfRun y dl' -> dl' = dl) -> dl <= now rt w2.
  Proof.
    revert x. induction gs as [|g gs IH]; intros x w l E Hx; [discriminate E |]. cbn [drive] in E.
    destruct x as [x dl'|]; [| discriminate E]. specialize (Hx _ _ eq_refl). subst dl'.
    destruct (poll_fut doc (DfRun x dl) (g w)) as [w1 [[f1 p]| |]] eqn:Ep; [| discriminate E | discriminate E].
    apply doc_poll_cases in Ep. destruct p as [|v].
    - destruct Ep as (_ & x1 & -> & _). destruct (drive (poll_fut doc) (DfRun x1 dl) w1 gs) as [l0 e0] eqn:Ed. injection E as _ ->.
      eapply IH; [exact Ed |]. intros y dl' K. congruence.
    - injection E as _ _ -> ->. apply Ep.
  Qed.
  Theorem doc_not_early s r w w1 s1 x gs l f w2 :
    call doc s r w = (w1, Val (s1, x)) ->
    drive (poll_fut doc) x w1 gs = (l, Finished f w2 (Er (inr tt))) -> now rt w + dur <= now rt w2.
  Proof.
    cbn [call timeout_doc]. unfold bind, get, ret. destruct (call svc s r w) as [w0 [[s0 x0]| |]]; try discriminate.
    intros E. injection E as <- <- <-. intros E. eapply doc_drive_expired; [exact E |]. intros y dl' K. congruence.
  Qed.
  Theorem doc_not_late x dl w w1 f1 p :
    poll_fut doc (DfRun x dl) w = (w1, Val (f1, p)) -> fired rt w dl = true -> p <> Pending.
  Proof. intros E K ->. apply doc_poll_cases in E. destruct E as [E _]. congruence. Qed.

  Theorem doc_verbatim gs : forall x dl w l f w2 v,
    drive (poll_fut doc) (DfRun x dl) w gs = (l, Finished f w2 v) -> v <> Er (inr tt) ->
    exists gs' l' x1 w3 v0, length gs' = S (length l) /\ length l' = length l /\
      drive (poll_fut svc) x w gs' = (l', Finished x1 w3 v0) /\ w2 = drop_fut svc x1 w3 /\ v = map_er inl v0.
  Proof.
    induction gs as [|g gs IH]; intros x dl w l f w2 v E Hv; [discriminate E |]. cbn [drive] in E.
    destruct (poll_fut doc (DfRun x dl) (g w)) as [w1 [[f1 p]| |]] eqn:Ep; [| discriminate E | discriminate E].
    apply doc_poll_cases in Ep. destruct p as [|v1].
    - destruct Ep as (_ & x1 & -> & w3 & w4 & Ep & _). destruct (drive (poll_fut doc) (DfRun x1 dl) w1 gs) as [l0 e0] eqn:Ed. injection E as <- ->.
      destruct (IH _ _ _ _ _ _ _ Ed Hv) as (gs' & l' & x2 & w5 & v0 & L1 & L2 & D & -> & ->).
      destruct gs' as [|g' gs']; [discriminate L1 |].
      exists ((fun _ => w3) :: (fun _ => g' w1) :: gs'), (w4 :: l'), x2, w5, v0. cbn [length] in *. split; [lia |]. split; [lia |].
      split; [| split; reflexivity]. cbn [drive]. rewrite Ep. cbn [drive] in D. rewrite D. reflexivity.
    - injection E as <- -> -> ->.
      assert (K : f = DfDone /\ exists w2' w3 x1 v0, poll_fut svc x w2' = (w3, Val (x1, Ready v0)) /\ w2 = drop_fut svc x1 w3 /\ v = map_er inl v0).
      { destruct v as [v|[e|[]]]; [exact Ep | exact Ep | contradiction]. }
      destruct K as (_ & w3 & w4 & x1 & v0 & K & -> & ->). exists [fun _ => w3], [], x1, w4, v0. cbn [length drive]. rewrite K. auto.
  Qed.
End DocTimeout.

Section Biased.
  Context {W Req Resp Err : Type} (rt : Rt W) (dur : Z) (svc : Service W Req Resp Err).
  Theorem doc_biased x dl w gs :
    drive (poll_fut (timeout_doc rt dur svc (ret true))) (DfRun x dl) w gs =
    fin_then (fun t => DfRun (to_inner t) (to_deadline t)) (fun t v => modify (drop_fut svc (to_inner t)) ;;; ret (DfDone, v))
      (drive (poll_fut (timeout rt dur svc)) (TimeoutFut svc x dl) w gs).
  Proof.
    refine (@drive_map _ _ _ _ _ (poll_fut (timeout rt dur svc)) (poll_fut (timeout_doc rt dur svc (ret true))) (fun t => DfRun (to_inner t) (to_deadline t)) _ _ gs (TimeoutFut svc x dl) w). intros [y d] w0. rewrite timeout_poll_eq.
    cbn. unfold bind, ret, modify, sleep_poll, get, bind. destruct (poll_fut svc y w0) as [w1 [[x1 [|v]]| |]]; try reflexivity.
    destruct (fired rt w1 d); reflexivity.
  Qed.
  Theorem guide_drive x dl w gs :
    drive (poll_fut (timeout_guide rt dur svc)) (GuideFut x dl) w gs =
    fin_then (fun t => GuideFut (to_inner t) (to_deadline t)) (fun t v => ret (GuideFut (to_inner t) (to_deadline t), v))
      (drive (poll_fut (timeout rt dur svc)) (TimeoutFut svc x dl) w gs).
  Proof.
    refine (@drive_map _ _ _ _ _ (poll_fut (timeout rt dur svc)) (poll_fut (timeout_guide rt dur svc)) (fun t => GuideFut (to_inner t) (to_deadline t)) _ _ gs (TimeoutFut svc x dl) w). intros [y d] w0. rewrite timeout_poll_eq.
    cbn. unfold bind, ret, modify, sleep_poll, get, bind. destruct (poll_fut svc y w0) as [w1 [[x1 [|v]]| |]]; try reflexivity.
    cbn. destruct (fired rt w1 d); reflexivity.
  Qed.
  Theorem guide_history s :
    same_history (a := svc) (b := timeout_guide rt dur svc) (fun r => r) inl (fun _ w1 f => GuideFut f (now rt w1 + dur)%Z) s s.
  Proof. apply (@run_wrap _ _ _ _ _ _ _ svc (timeout_guide rt dur svc) (fun s => s)); wrap_tac. Qed.
  Theorem doc_history s r w :
    call (timeout_doc rt dur svc (ret true)) s r w =
    match call svc s r w with
    | (w1, Val (s1, x)) => (w1, Val (s1, DfRun x (now rt w + dur)%Z))
    | (w1, Panic) => (w1, Panic)
    | (w1, Diverge) => (w1, Diverge)
    end.
  Proof. cbn. unfold bind, get, ret. destruct (call svc s r w) as [w1 [[s1 x]| |]]; reflexivity. Qed.
  Theorem log_call print s r w : call (log_service print svc) s r w = call svc s r (print r w) /\
    poll_ready (log_service print svc) s w = poll_ready svc s w /\
    forall f, poll_fut (log_service print svc) f w = poll_fut svc f w.
  Proof. repeat split; reflexivity. Qed.
End Biased.

Theorem response_wins_refuted :
  ~ forall W Req Resp Err (rt : Rt W) dur (svc : Service W Req Resp Err) coin x dl w w1 x1 v,
    quiet coin -> poll_fut svc x w = (w1, Val (x1, Ready v)) -> (forall w', fst (coin w') = w') ->
    exists w2, poll_fut (timeout_doc rt dur svc coin) (DfRun x dl) w = (w2, Val (DfDone, Ready (map_er inl v))).
Proof.
  intros H. destruct (H _ _ _ _ scr_rt 0%Z demo (ret false) 7 0%Z scr0 scr0 7 (Ok 7)) as [w2 E]; [intros w; exact I | reflexivity | reflexivity | discriminate E].
Qed.
Theorem take_contract c W Req Resp Err (svc : Service W Req Resp Err) I :
  stack c svc I -> c_cl c = true -> forall s0, I s0 ->
  contract_safe false (wrap_take svc) s0 /\ (c_div c = false -> always_returns false (wrap_take svc) s0) /\
  (c_stk c = true -> ready_persists false (wrap_take svc) s0).
Proof.
  intros HS Hc s0 H0. assert (K := stk_wrap_take HS Hc).
  split; [exact (stack_contract K s0 H0) |]. split; [exact (stack_returns K s0 H0) | exact (stack_persists K H0)].
Qed.
Theorem doc_contract c W Req Resp Err (svc : Service W Req Resp Err) I (rt : Rt W) dur coin :
  stack c svc I -> quiet coin -> forall s0, I s0 ->
  contract_safe false (timeout_doc rt dur svc coin) s0 /\ (c_div c = false -> always_returns false (timeout_doc rt dur svc coin) s0) /\
  (c_stk c = true -> ready_persists false (timeout_doc rt dur svc coin) s0).
Proof.
  intros HS Hc s0 H0. assert (K := stk_timeout_doc rt dur HS Hc).
  split; [exact (stack_contract K s0 H0) |]. split; [exact (stack_returns K s0 H0) | exact (stack_persists K H0)].
Qed.
