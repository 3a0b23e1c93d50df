(** The documentation's middleware keeps its side of the contract when its caller does. *)
From Verif Require Import Base ContractSpec StackSpec Safe SafeUtil Util DocCode.
Set Implicit Arguments.

Section DocSafe.
  Context {W Req Resp Err : Type} (svc : Service W Req Resp Err).
  Context (c : caps) (R Rdy : st svc -> Prop) (V : fut svc -> Prop) (HS : Safe c svc R Rdy V).
  Lemma take_safe : c_cl c = true ->
    Safe (Caps (c_div c) (c_stk c) false) (wrap_take svc) R Rdy
      (fun f => match f with WfInit s _ => Rdy s | WfRun s x => V x | WfDone => False end).
  Proof.
    intros Hcl. split; cbn [wrap_take poll_ready call poll_fut clone c_div c_stk c_cl].
    - apply HS.
    - apply HS.
    - apply HS.
    - intros s r Hs. eapply okm_bind; [eapply (sf_clone HS Hcl); apply HS; exact Hs |]. intros s1 H1. apply okm_ret. cbn. auto.
    - assert (A : forall s x, V x -> okm (c_div c) (wrap_await svc s x)
        (fun x => snd x = Pending -> match fst x with WfInit s _ => Rdy s | WfRun s x => V x | WfDone => False end)).
      { intros s x Hx. unfold wrap_await. eapply okm_bind; [apply (sf_poll HS _ Hx) |]. intros [x1 [|v]] H1; cbn in H1.
        - apply okm_ret. cbn. auto.
        - walk. discriminate. }
      intros [s r|s x|] Hf; cbn [wrap_poll]; [| apply A, Hf | contradiction].
      eapply okm_bind; [apply (sf_call HS _ _ Hf) |]. intros [s1 x] [H1 H2]. apply A, H2.
    - discriminate.
  Qed.
  Lemma log_safe print : Safe (Caps (c_div c) (c_stk c) false) (log_service print svc) R Rdy V.
  Proof.
    split; cbn [log_service poll_ready call poll_fut clone c_div c_stk c_cl]; try apply HS; [| discriminate].
    intros s r Hs. apply okm_bind with (P := fun _ => True); [apply okm_modify; exact I | intros _ _]. apply HS, Hs.
  Qed.
  Lemma doc_safe rt dur coin : quiet coin ->
    Safe (Caps (c_div c) (c_stk c) false) (timeout_doc rt dur svc coin) R Rdy
      (fun f => match f with DfRun x _ => V x | DfDone => False end).
  Proof.
    intros Hq. split; cbn [timeout_doc poll_ready call poll_fut clone c_div c_stk c_cl].
    - apply HS.
    - intros s Hs. eapply okm_bind; [apply (sf_ready HS _ Hs) |]. intros [s1 [|[u|e]]] H1; apply okm_ret; exact H1.
    - intros K s Hs. eapply okm_bind; [apply (sf_stk HS K _ Hs) |]. intros [s1 a] H1. apply okm_ret. cbn in *. destruct a; [congruence | discriminate].
    - intros s r Hs. apply okm_bind with (P := fun _ => True); [apply okm_get; intros; exact I | intros t _].
      eapply okm_bind; [apply (sf_call HS _ _ Hs) |]. intros [s1 x] [H1 H2]. apply okm_ret. cbn. auto.
    - intros [x dl|] Hx; [| contradiction]. cbv zeta.
      assert (Fin : forall x v, okm (c_div c) (modify (drop_fut svc x) ;;; ret (@DfDone _ _ _ _ svc, Ready (A := result Resp (Err + unit)) v))
        (fun x => snd x = Pending -> match fst x with DfRun x _ => V x | DfDone => False end)).
      { intros x0 v. walk. discriminate. }
      apply okm_bind with (P := fun _ => True); [apply okm_quiet, Hq | intros b _]. destruct b.
      + eapply okm_bind; [apply (sf_poll HS _ Hx) |]. intros [x1 [|v]] H1; cbn in H1; [| apply Fin].
        apply okm_bind with (P := fun _ => True); [apply okm_sleep; intros; exact I | intros b _].
        destruct b; [apply Fin | apply okm_ret; cbn; auto].
      + apply okm_bind with (P := fun _ => True); [apply okm_sleep; intros; exact I | intros b _].
        destruct b; [apply Fin |]. eapply okm_bind; [apply (sf_poll HS _ Hx) |]. intros [x1 [|v]] H1; cbn in H1; [| apply Fin].
        apply okm_ret; cbn; auto.
    - discriminate.
  Qed.
  Lemma guide_safe rt dur : Safe c (timeout_guide rt dur svc) R Rdy (fun f => V (response_future f)).
  Proof.
    split; cbn [timeout_guide poll_ready call poll_fut clone].
    - apply HS.
    - intros s Hs. eapply okm_bind; [apply (sf_ready HS _ Hs) |]. intros [s1 [|[u|e]]] H1; apply okm_ret; exact H1.
    - intros K s Hs. eapply okm_bind; [apply (sf_stk HS K _ Hs) |]. intros [s1 a] H1. apply okm_ret. cbn in *. destruct a; [congruence | discriminate].
    - intros s r Hs. eapply okm_bind; [apply (sf_call HS _ _ Hs) |]. intros [s1 x] [H1 H2].
      apply okm_bind with (P := fun _ => True); [apply okm_get; intros; exact I | intros t _]. apply okm_ret. cbn. auto.
    - intros f Hf. eapply okm_bind; [apply (sf_poll HS _ Hf) |]. intros [x1 [|v]] H1; cbn in H1; [| apply okm_ret; discriminate].
      apply okm_bind with (P := fun _ => True); [apply okm_sleep; intros; exact I | intros b _]. apply okm_ret. cbn. auto.
    - apply HS.
  Qed.
End DocSafe.
