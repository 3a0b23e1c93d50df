(** Counterexamples for C01/C02 (statements in C01_Contract.v). *)
From Verif Require Import Base ContractSpec StackSpec Safe StackProof Util Middleware Limits Hedge Demo.
Set Implicit Arguments.

Lemma steer_clone_refuted :
  exists (W Req Resp Err : Type) (svc : Service W Req Resp Err) (s0 : st svc),
    never_panics svc /\
    ~ contract_safe true (steer (guard svc) (fun p _ _ => ret (p, 0)) (fun p : unit => ret p))
        (steer_new (guard svc) [(Idle, s0)] tt).
Proof.
  exists scr, nat, nat, nat, demo, 0. split; [exact demo_never_panics|].
  intros [_ H _ _].
  set (sv := steer (guard demo) (fun p _ _ => ret (p, 0)) (fun p : unit => ret p)) in *.
  assert (H1 : held true sv (steer_new (guard demo) [(Idle, 0)] tt) Primed
                 (SteerSt (guard demo) tt [(Primed, 0)] [])).
  { eapply held_primed with (p := Idle) (w := scr0); [constructor | discriminate | reflexivity]. }
  assert (H2 : held true sv (steer_new (guard demo) [(Idle, 0)] tt) Idle
                 (SteerSt (guard demo) tt [(Idle, 0)] [])).
  { eapply held_clone with (w := scr0); [reflexivity | exact H1 | discriminate | reflexivity]. }
  assert (H3 : held true sv (steer_new (guard demo) [(Idle, 0)] tt) Primed
                 (SteerSt (guard demo) tt [(Idle, 0)] [])).
  { eapply held_primed with (p := Idle) (w := scr0); [exact H2 | discriminate | reflexivity]. }
  apply (H _ 7 scr0 H3). reflexivity.
Qed.

Lemma closed_semaphore_refuted :
  forall debug : bool,
  exists (W Req Resp Err : Type) (svc : Service W Req Resp Err) (closed : W -> bool) (s0 : st svc),
    never_panics svc /\
    ~ contract_safe true (conc_limit svc closed debug) (conc_new svc s0).
Proof.
  intros debug. exists scr, nat, nat, nat, demo, (fun _ => true), 0.
  split; [exact demo_never_panics|]. intros [H1 H2 _ _]. destruct debug.
  - apply (H1 Idle (conc_new demo 0) (sem_new 1, scr0)); [constructor | discriminate | reflexivity].
  - apply (H2 (ConcSt demo 0 None false) 7 (sem_new 1, scr0)); [| reflexivity].
    refine (@held_primed _ _ _ _ true (conc_limit demo (fun _ => true) false) (conc_new demo 0) Idle
              (conc_new demo 0) (sem_new 1, scr0) (sem_new 1, scr0) _ tt _ _ _);
      [constructor | discriminate | reflexivity].
Qed.

Lemma reconnect_refuted :
  exists (W Tgt Req Resp Err MErr : Type) (svc : Service W Req Resp Err)
         (mk : Service W Tgt (st svc) MErr) (target : Tgt) (m0 : st mk),
    never_panics svc /\ keeps_ready svc /\ never_panics mk /\ keeps_ready mk /\
    ~ ready_persists false (reconnect svc mk target 5) (reconnect_new svc mk m0).
Proof.
  exists scr, nat, nat, nat, nat, nat, warm.
  exists (MkService unit nat (fun s => ret (s, Ready (Ok tt))) (fun s r => ret (s, r))
            (fun f w => match res_script w with
                        | [] => (w, Val (f, Pending))
                        | _ => (w, Val (f, Ready (Er 3)))
                        end)
            (fun s => ret s) (fun _ w => w) (fun _ w => w)).
  exists 9, tt. split; [exact warm_never_panics|]. split; [exact warm_keeps_ready|].
  split. { split; cbn; intros; try discriminate. destruct (res_script w); discriminate. }
  split. { exists (fun _ => True). split; intros; [exact I | discriminate]. }
  intros H. red in H.
  eapply H with (w := scr0);
    [eapply held_primed with (p := Idle) (w := Scr 0 [] [Pending]); [constructor | discriminate | reflexivity]
    | reflexivity].
Qed.

