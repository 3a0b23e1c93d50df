(** Proof device for [contract_safe]: a compositional, world-independent
    "typestate" argument. *)
From Verif Require Import Base ContractSpec StackSpec.
Set Implicit Arguments.

Definition okm {W A} (dv : bool) (m : M W A) (Q : A -> Prop) : Prop :=
  forall w, match snd (m w) with
            | Val a => Q a
            | Panic => False
            | Diverge => dv = true
            end.

Lemma okm_ret W A dv (a : A) (Q : A -> Prop) : Q a -> okm (W:=W) dv (ret a) Q.
Proof. intros H w. exact H. Qed.

Lemma okm_bind W A B dv (m : M W A) (k : A -> M W B) (P : A -> Prop) (Q : B -> Prop) :
  okm dv m P -> (forall a, P a -> okm dv (k a) Q) -> okm dv (bind m k) Q.
Proof.
  intros Hm Hk w. unfold bind. specialize (Hm w).
  destruct (m w) as [w1 [a| |]]; cbn in *; auto. apply Hk; auto.
Qed.

Lemma okm_mono W A dv (m : M W A) (P Q : A -> Prop) :
  okm dv m P -> (forall a, P a -> Q a) -> okm dv m Q.
Proof. intros H HPQ w. specialize (H w). destruct (snd (m w)); auto. Qed.

Lemma okm_modify W dv (f : W -> W) (Q : unit -> Prop) : Q tt -> okm dv (modify f) Q.
Proof. intros H w. exact H. Qed.

Lemma okm_get W A dv (f : W -> A) (Q : A -> Prop) : (forall a, Q a) -> okm dv (get f) Q.
Proof. intros H w. apply H. Qed.

Lemma okm_sleep W dv (rt : Rt W) d (Q : bool -> Prop) : (forall a, Q a) -> okm dv (sleep_poll rt d) Q.
Proof. intros H w. apply H. Qed.

Lemma okm_diverge W A dv (Q : A -> Prop) : dv = true -> okm (W:=W) dv diverge Q.
Proof. intros H w. exact H. Qed.

Lemma okm_gives W A dv (m : M W A) P : gives m P -> okm dv m P.
Proof. intros H w. specialize (H w). destruct (snd (m w)); auto; contradiction. Qed.

Lemma okm_quiet W A dv (m : M W A) : quiet m -> okm dv m (fun _ => True).
Proof. apply okm_gives. Qed.

Record Safe {W Req Resp Err} (c : caps) (svc : Service W Req Resp Err)
  (R Rdy : st svc -> Prop) (V : fut svc -> Prop) : Prop := MkSafe {
  sf_sub : forall s, Rdy s -> R s;
  sf_ready : forall s, R s ->
    okm (c_div c) (poll_ready svc s)
      (fun x => match snd x with
                | Pending => R (fst x)
                | Ready (Ok _) => Rdy (fst x)
                | Ready (Er _) => True
                end);
  sf_stk : c_stk c = true -> forall s, Rdy s ->
    okm (c_div c) (poll_ready svc s) (fun x => snd x <> Pending);
  sf_call : forall s r, Rdy s ->
    okm (c_div c) (call svc s r) (fun x => R (fst x) /\ V (snd x));
  sf_poll : forall f, V f ->
    okm (c_div c) (poll_fut svc f) (fun x => snd x = Pending -> V (fst x));
  sf_clone : c_cl c = true -> forall s, R s -> okm (c_div c) (clone svc s) R
}.

(** The same, hiding the predicates: [safe_from c svc s0]. *)
Definition safe_from {W Req Resp Err} (c : caps) (svc : Service W Req Resp Err) (s0 : st svc) :=
  exists R Rdy V, Safe c svc R Rdy V /\ R s0.

Lemma held_primed W Req Resp Err cl (svc : Service W Req Resp Err) s0 p s w w1 s1 u :
  held cl svc s0 p s -> p <> Dead ->
  poll_ready svc s w = (w1, Val (s1, Ready (Ok u))) -> held cl svc s0 Primed s1.
Proof. intros H1 H2 E. exact (@held_ready _ _ _ _ _ _ _ _ _ _ _ _ _ H1 H2 E). Qed.

Section Adequacy.
  Context {W Req Resp Err : Type} (svc : Service W Req Resp Err).

  Lemma okm_val {A dv} {m : M W A} {Q w w1 a} : okm dv m Q -> m w = (w1, Val a) -> Q a.
  Proof. intros H E. specialize (H w). rewrite E in H. exact H. Qed.

  Lemma held_inv c R Rdy V s0 :
    Safe c svc R Rdy V -> R s0 ->
    forall p s, held (c_cl c) svc s0 p s ->
      match p with Idle => R s | Primed => Rdy s | Dead => True end.
  Proof.
    intros HS H0 p s Hh. induction Hh as
      [ | p s w w1 s1 a Hh IH Hp E | s r w w1 s1 f Hh IH E | p s w w1 s1 Hc Hh IH Hp E].
    - exact H0.
    - assert (HR : R s) by (destruct p; [exact IH | apply (sf_sub HS), IH | congruence]).
      generalize (okm_val (sf_ready HS _ HR) E). cbn.
      destruct a as [|[u|e]]; cbn; auto.
    - apply (okm_val (sf_call HS _ r IH) E).
    - assert (HR : R s) by (destruct p; [exact IH | apply (sf_sub HS), IH | congruence]).
      apply (okm_val (sf_clone HS Hc _ HR) E).
  Qed.

  Lemma in_flight_inv c R Rdy V s0 :
    Safe c svc R Rdy V -> R s0 ->
    forall f, in_flight (c_cl c) svc s0 f -> V f.
  Proof.
    intros HS H0 f Hf. induction Hf as [s r w w1 s1 f Hh E | f w w1 f1 Hf IH E].
    - apply (okm_val (sf_call HS _ r (held_inv HS H0 Hh)) E).
    - apply (okm_val (sf_poll HS _ IH) E). reflexivity.
  Qed.

  Lemma okm_nopanic A dv (m : M W A) Q w : okm dv m Q -> snd (m w) <> Panic.
  Proof. intros H E. specialize (H w). rewrite E in H. exact H. Qed.
  Lemma okm_nodiv A (m : M W A) Q w : okm false m Q -> snd (m w) <> Diverge.
  Proof. intros H E. specialize (H w). rewrite E in H. discriminate. Qed.

  Theorem safe_contract c s0 :
    safe_from c svc s0 -> contract_safe (c_cl c) svc s0.
  Proof.
    intros (R & Rdy & V & HS & H0). split.
    - intros p s w Hh Hp. eapply okm_nopanic, (sf_ready HS).
      generalize (held_inv HS H0 Hh). destruct p; auto using (sf_sub HS). congruence.
    - intros s r w Hh. eapply okm_nopanic, (sf_call HS), (held_inv HS H0 Hh).
    - intros Hc p s w Hh Hp. eapply okm_nopanic, (sf_clone HS Hc).
      generalize (held_inv HS H0 Hh). destruct p; auto using (sf_sub HS). congruence.
    - intros f w Hf. eapply okm_nopanic, (sf_poll HS), (in_flight_inv HS H0 Hf).
  Qed.

  Theorem safe_returns c s0 :
    safe_from c svc s0 -> c_div c = false -> always_returns (c_cl c) svc s0.
  Proof.
    intros (R & Rdy & V & HS & H0) Hd.
    assert (H1 := sf_ready HS). assert (H2 := sf_call HS).
    assert (H3 := sf_clone HS). assert (H4 := sf_poll HS). rewrite Hd in *. split.
    - intros p s w Hh Hp. eapply okm_nodiv, H1.
      generalize (held_inv HS H0 Hh). destruct p; auto using (sf_sub HS). congruence.
    - intros s r w Hh. eapply okm_nodiv, H2, (held_inv HS H0 Hh).
    - intros Hc p s w Hh Hp. eapply okm_nodiv, (H3 Hc).
      generalize (held_inv HS H0 Hh). destruct p; auto using (sf_sub HS). congruence.
    - intros f w Hf. eapply okm_nodiv, H4, (in_flight_inv HS H0 Hf).
  Qed.

  Theorem safe_persists c s0 :
    safe_from c svc s0 -> c_stk c = true -> ready_persists (c_cl c) svc s0.
  Proof.
    intros (R & Rdy & V & HS & H0) Hk s w w1 s1 Hh E.
    apply (okm_val (sf_stk HS Hk _ (held_inv HS H0 Hh)) E). reflexivity.
  Qed.
End Adequacy.

(** Tactic: walk through a monadic computation, using a base lemma at each
    effectful leaf. *)
Ltac okm_step tac :=
  match goal with
  | |- okm _ (ret _) _ => apply okm_ret
  | |- okm _ (modify _ ;;; _) _ => apply okm_bind with (P := fun _ => True);
       [apply okm_modify; exact I | intros ? _]
  | |- okm _ (bind (get _) _) _ => apply okm_bind with (P := fun _ => True);
       [apply okm_get; intros; exact I | intros ? _]
  | |- okm _ (bind (sleep_poll _ _) _) _ => apply okm_bind with (P := fun _ => True);
       [apply okm_sleep; intros; exact I | intros ? _]
  | |- okm _ (bind _ _) _ => eapply okm_bind; [tac | cbn; intros]
  end.

Section GuardSafe.
  Context {W Req Resp Err : Type} (svc : Service W Req Resp Err).

  Lemma guard_safe dv stk :
    never_panics svc -> (dv = false -> never_diverges svc) ->
    (stk = true -> keeps_ready svc) ->
    forall s0, safe_from (Caps dv stk true) (guard svc) (Idle, s0).
  Proof.
    intros [N1 N2 N3 N4] HD HK s0.
    assert (Hrd : exists rd : st svc -> Prop,
              stk = true ->
              (forall s w w1 s1, poll_ready svc s w = (w1, Val (s1, Ready (Ok tt))) -> rd s1) /\
              (forall s w w1 s1, rd s -> poll_ready svc s w <> (w1, Val (s1, Pending)))).
    { destruct stk; [destruct (HK eq_refl) as [rd H]; exists rd; auto | exists (fun _ => True); discriminate]. }
    destruct Hrd as [rd Hrd].
    assert (D : forall A (o : out A), o <> Panic -> (dv = false -> o <> Diverge) ->
              match o with Val _ => True | Panic => False | Diverge => dv = true end).
    { intros A [a| |] H1 H2; auto. destruct dv; auto. exfalso. apply H2; auto. }
    exists (fun s => fst s <> Dead),
      (fun s => fst s = Primed /\ (stk = true -> rd (snd s))), (fun f => fst f = false).
    split; [| cbn; discriminate]. split; cbn.
    - intros [p s] [H _]. cbn in *. subst. discriminate.
    - intros [p s] Hp w. cbn in *.
      specialize (D _ _ (N1 s w) (fun e => nd_ready (HD e) s w)).
      destruct p; try congruence; unfold bind, ret;
        destruct (poll_ready svc s w) as [w1 [[s1 a]| |]] eqn:E; cbn in *; auto;
        (destruct a as [|[[]|e]]; cbn; [discriminate | | exact I]);
        (split; [reflexivity |]);
        (let K := fresh in intros K; eapply (proj1 (Hrd K)); eassumption).
    - intros K [p s] [Hp Hr] w. cbn in *. subst p.
      specialize (D _ _ (N1 s w) (fun e => nd_ready (HD e) s w)).
      unfold bind, ret. destruct (poll_ready svc s w) as [w1 [[s1 a]| |]] eqn:E; cbn in *; auto.
      intros ->. eapply (proj2 (Hrd K)); eauto.
    - intros [p s] r [Hp _] w. cbn in *. subst.
      specialize (D _ _ (N2 s r w) (fun e => nd_call (HD e) s r w)).
      unfold bind, ret. destruct (call svc s r w) as [w1 [[s1 a]| |]]; cbn in *; auto.
      split; [discriminate | reflexivity].
    - intros [b f] Hb w. cbn in *. subst.
      specialize (D _ _ (N4 f w) (fun e => nd_poll (HD e) f w)).
      unfold bind, ret. destruct (poll_fut svc f w) as [w1 [[f1 a]| |]]; cbn in *; auto.
      destruct a; cbn; auto; discriminate.
    - intros _ [p s] Hp w. cbn in *.
      specialize (D _ _ (N3 s w) (fun e => nd_clone (HD e) s w)).
      destruct p; try congruence; unfold bind, ret;
        destruct (clone svc s w) as [w1 [s1| |]]; cbn in *; auto; discriminate.
  Qed.
End GuardSafe.
