(** Proof device: an invariant over the history of one service instance. *)
From Verif Require Import Base.
Set Implicit Arguments.

Section RunInv.
  Context {W Req Resp Err : Type} (svc : Service W Req Resp Err).
  Context (Inv : phase -> st svc -> W -> Prop) (Entry : W * sobs svc * W -> Prop) (OKg : (W -> W) -> Prop).
  Hypothesis Henv : forall p s w g, Inv p s w -> OKg g -> Inv p s (g w).
  Hypothesis Hskip : forall p s w, Inv p s w -> p <> Primed -> Entry (w, ObsSkip, w).
  Hypothesis Hready : forall p s w, Inv p s w -> p <> Dead ->
    match poll_ready svc s w with
    | (w1, Val (s1, a)) => Entry (w, ObsReady a, w1) /\ Inv (phase_after a) s1 w1
    | (w1, Panic) => Entry (w, ObsPanic, w1)
    | (w1, Diverge) => Entry (w, ObsDiverge, w1)
    end.
  Hypothesis Hcall : forall s r w, Inv Primed s w ->
    match call svc s r w with
    | (w1, Val (s1, f)) => Entry (w, ObsCall r f, w1) /\ Inv Idle s1 w1
    | (w1, Panic) => Entry (w, ObsPanic, w1)
    | (w1, Diverge) => Entry (w, ObsDiverge, w1)
    end.

  Lemma run_svc_inv ops : Forall (fun o => OKg (fst o)) ops ->
    forall p s w, Inv p s w -> Forall Entry (run_svc svc p s w ops).
  Proof.
    induction 1 as [|[g o] ops Hg _ IH]; intros p s w HI; [constructor|].
    cbn in Hg. assert (HI' := Henv HI Hg).
    assert (R : p <> Dead -> Forall Entry
      match poll_ready svc s (g w) with
      | (w1, Val (s1, a)) => (g w, ObsReady a, w1) :: run_svc svc (phase_after a) s1 w1 ops
      | (w1, Panic) => [(g w, ObsPanic, w1)]
      | (w1, Diverge) => [(g w, ObsDiverge, w1)]
      end).
    { intros Hp. generalize (Hready HI' Hp).
      destruct (poll_ready svc s (g w)) as [w1 [[s1 a]| |]]; intros Hx.
      - destruct Hx. constructor; auto.
      - repeat constructor; auto.
      - repeat constructor; auto. }
    destruct o as [|r], p; cbn [run_svc]; try (apply R; discriminate).
    - constructor; [apply (Hskip HI'); discriminate | auto].
    - constructor; [apply (Hskip HI'); discriminate | auto].
    - generalize (Hcall r HI'). destruct (call svc s r (g w)) as [w1 [[s1 f]| |]]; intros Hx.
      + destruct Hx. constructor; auto.
      + repeat constructor; auto.
      + repeat constructor; auto.
    - constructor; [apply (Hskip HI'); discriminate | auto].
  Qed.
End RunInv.
