(** Closures with effects: the proofs. *)
From Verif Require Import Base Util Track RunInv ClosureSpec.
Set Implicit Arguments.

Lemma tk_ops_env {W L Req} (ops : list ((W -> W) * @sop Req)) :
  Forall (fun o => (fun g => exists g0 : W -> W, g = tk_env (L := L) g0) (fst o)) (tk_ops ops).
Proof. apply Forall_forall. intros o Ho. unfold tk_ops in Ho. apply in_map_iff in Ho. destruct Ho as (x & <- & _). cbn. eauto. Qed.

Section P.
  Context {W Req Req' Resp Resp' Err Err' : Type} (svc : Service W Req Resp Err).
  Ltac go := cbn; unfold bind, noted, tk_lift, tk_emit, tk_fresh, ret; cbn.

  Lemma req_entries (f : Req' -> M W Req) s w ops : Forall (@req_entry _ _ _ _ _ svc f) (run_svc (req_svc svc f) Idle (0, s) w (tk_ops ops)).
  Proof.
    apply (@run_svc_inv _ _ _ _ (req_svc svc f) (fun _ s _ => fst s = 0) (@req_entry _ _ _ _ _ svc f) (fun g => exists g0, g = tk_env g0)).
    - auto.
    - reflexivity.
    - intros p [i x] w' Hi _. cbn in Hi. subst i. go. destruct (poll_ready svc x (fst w')) as [w1 [[s1 a]| |]]; cbn; auto.
    - intros [i x] r w' Hi. cbn in Hi. subst i. go. unfold bind, tk_lift. destruct (f r (fst w')) as [w1 [r1| |]]; cbn; auto.
      unfold bind, tk_lift. cbn. destruct (call svc x r1 w1) as [w2 [[s1 y]| |]]; cbn; eauto.
    - apply tk_ops_env.
    - reflexivity.
  Qed.
  Lemma err_entries (f : Err -> M W Err') s w ops : Forall (@err_entry _ _ _ _ _ svc f) (run_svc (err_svc svc f) Idle (0, s) w (tk_ops ops)).
  Proof.
    apply (@run_svc_inv _ _ _ _ (err_svc svc f) (fun _ s _ => fst s = 0) (@err_entry _ _ _ _ _ svc f) (fun g => exists g0, g = tk_env g0)).
    - auto.
    - reflexivity.
    - intros p [i x] w' Hi _. cbn in Hi. subst i. go. destruct (poll_ready svc x (fst w')) as [w1 [[s1 [|[[]|e]]]| |]]; cbn; auto.
      unfold bind, noted, tk_lift, tk_emit. cbn. unfold bind, tk_lift. cbn. destruct (f e w1) as [w2 [e1| |]]; cbn; eauto.
    - intros [i x] r w' Hi. cbn in Hi. subst i. go. destruct (call svc x r (fst w')) as [w2 [[s1 y]| |]]; cbn; eauto.
    - apply tk_ops_env.
    - reflexivity.
  Qed.
  Lemma fut_entries (into : Err -> Err') (T : Task (W * tk (tev Req Resp Err + nat)) (result Resp' Err')) (f : fut (tracked (L := tev Req Resp Err + nat) inl svc) -> _) s w ops : silent T f ->
    Forall (@fut_entry _ _ _ _ _ _ svc into T f) (run_svc (fut_svc (svc := svc) into T f) Idle (0, s) w (tk_ops ops)).
  Proof.
    intros Hf.
    apply (@run_svc_inv _ _ _ _ (fut_svc (svc := svc) into T f) (fun _ s _ => fst s = 0) (@fut_entry _ _ _ _ _ _ svc into T f) (fun g => exists g0, g = tk_env g0)).
    - auto.
    - reflexivity.
    - intros p [i x] w' Hi _. cbn in Hi. subst i. go. destruct (poll_ready svc x (fst w')) as [w1 [[s1 a]| |]]; cbn; eauto.
    - intros [i x] r w' Hi. cbn in Hi. subst i. go. destruct (call svc x r (fst w')) as [w2 [[s1 y]| |]]; cbn; eauto.
      unfold fut_noted, bind, tk_emit. cbn. match goal with |- context [f ?a ?b] => generalize (Hf a b); destruct (f a b) as [w3 [t| |]] end; cbn; intros E; eauto.
    - apply tk_ops_env.
    - reflexivity.
  Qed.
End P.
Lemma fn_entries W Req Resp Err (T : Task (W * tk Req) (result Resp Err)) (f : Req -> M W (tst T)) w ops :
  Forall (@fn_entry _ _ _ _ T f) (run_svc (service_fn T (fn_noted T f)) Idle tt w (tk_ops ops)).
Proof.
  apply (@run_svc_inv _ _ _ _ (service_fn T (fn_noted T f)) (fun _ _ _ => True) (@fn_entry _ _ _ _ T f) (fun g => exists g0, g = tk_env g0)); auto.
  - reflexivity.
  - intros p s w' _ _. cbn. auto.
  - intros s r w' _. cbn. unfold bind, fn_noted, tk_emit, tk_lift. cbn. unfold bind. cbn. destruct (f r (fst w')) as [w1 [t| |]]; cbn; eauto.
  - apply tk_ops_env.
Qed.
