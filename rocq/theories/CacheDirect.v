(** Direct consequences of the history theorem of ReadyCache. *)
From Verif Require Import Base ReadyCache Track CacheSpec CacheTop.
Set Implicit Arguments.

Section P.
  Context {W K Req Resp Err : Type} (keq : forall a b : K, {a = b} + {a <> b}) (svc : Service W Req Resp Err).
  Context (sched : nat -> W -> W * list nat).
  Notation TW := (W * tk (tev Req Resp Err))%type.
  Notation tcache := (cache (K := K) (tsvc svc)).
  Lemma did_not_stop (c : tcache) o (x : TW) x1 c1 b : cache_do keq sched c o x = (x1, Some c1, b) ->
    (forall q, b <> BPanic q) /\ b <> BDiverge.
  Proof.
    destruct o; cbn [cache_do].
    - cbn. intros H; injection H as _ _ <-; split; discriminate.
    - destruct (evict keq c k x) as [? [[? ?]| |]]; intros H; try discriminate; injection H as _ _ <-; split; discriminate.
    - destruct (poll_pending keq (tsched sched) c x) as [? [[? ?]| |]]; intros H; try discriminate; injection H as _ _ <-; split; discriminate.
    - destruct (check_ready keq c k x) as [? [[? ?]| |]]; intros H; try discriminate; injection H as _ _ <-; split; discriminate.
    - destruct (check_ready_index keq c n x) as [? [[? ?]| |]]; intros H; try discriminate; injection H as _ _ <-; split; discriminate.
    - destruct (call_ready keq c k r x) as [? [[? ?]| |]]; intros H; try discriminate; injection H as _ _ <-; split; discriminate.
    - destruct (call_ready_index keq c n r x) as [? [[? ?]| |]]; intros H; try discriminate; injection H as _ _ <-; split; discriminate.
  Qed.
  Lemma in_run pan dv ops : forall a x0 (c0 : tcache) x b x1 c,
    cache_history keq pan dv a x0 (cache_run keq sched c0 x0 ops) -> In (x, b, x1, Some c) (cache_run keq sched c0 x0 ops) ->
    exists a0 l a1, log_of x1 = rev l ++ log_of x /\ cache_op_ok keq b a0 l a1 /\ shows keq c a1.
  Proof.
    induction ops as [|[g o] ops IH]; intros a x0 c0 x b x1 c H I; [destruct I|].
    cbn [cache_run] in *. destruct (cache_do keq sched c0 o (tk_env g x0)) as [[y1 [c1|]] b'] eqn:E.
    2:{ destruct I as [I|[]]. discriminate. }
    destruct (did_not_stop _ _ _ E) as [N1 N2]. destruct H as [_ H].
    assert (H' : exists l a1, log_of y1 = rev l ++ log_of (tk_env g x0) /\ cache_op_ok keq b' a l a1 /\ shows keq c1 a1 /\
      cache_history keq pan dv a1 y1 (cache_run keq sched c1 y1 ops)).
    { destruct b'; try congruence; destruct H as (l & a1 & H1 & H2 & _ & _ & H3 & H4); exists l, a1; auto. }
    destruct H' as (l & a1 & H1 & H2 & H3 & H4). destruct I as [I|I]; [|eauto].
    injection I as <- <- <- <-. eauto 8.
  Qed.
  Lemma keys_distinct ops n w x b x1 c i j k s s' :
    In (x, b, x1, Some c) (cache_run keq sched (cache_new (tsvc svc)) (w, Tk n []) ops) ->
    get_ready_index c i = Some (k, s) -> get_ready_index c j = Some (k, s') -> i = j.
  Proof.
    intros I. destruct (@in_run (fun _ _ => True) True ops slots0 (w, Tk n []) (cache_new (tsvc svc)) x b x1 c (@cache_runs_to_spec W K Req Resp Err keq svc sched ops (w, Tk n [])) I) as (a0 & l & a1 & _ & _ & Sh).
    apply (sh_index_unique Sh).
  Qed.
  Lemma polled_answer ops n w x p x1 c :
    In (x, BPolled p, x1, Some c) (cache_run keq sched (cache_new (tsvc svc)) (w, Tk n []) ops) ->
    match p with
    | Ready (Ok _) => pending_len c = 0
    | Pending => 0 < pending_len c
    | Ready (Er (k, e)) => pending_contains keq c k = false /\
        exists i l, log_of x1 = TDropSvc i :: TReady i (Ready (Er e)) :: l
    end.
  Proof.
    intros I. destruct (@in_run (fun _ _ => True) True ops slots0 (w, Tk n []) (cache_new (tsvc svc)) x (BPolled p) x1 c (@cache_runs_to_spec W K Req Resp Err keq svc sched ops (w, Tk n [])) I) as (a0 & l & a1 & Hl & Ok & Sh).
    destruct (sh_pending_len Sh) as (ids & _ & L & Hi). cbn in Ok. inversion Ok as [a l' b H1 H2|a l' b H1 H2|a l' b k i e H1 H2]; subst.
    - destruct H2 as [P D]. rewrite <- L. destruct ids as [|i ids]; [reflexivity|]. exfalso.
      destruct (proj1 (Hi i) (or_introl eq_refl)) as [[k Hk]|Hd]; [rewrite P in Hk; discriminate|rewrite D in Hd; destruct Hd].
    - rewrite <- L. destruct ids as [|i ids]; [|cbn; lia]. exfalso. apply H2. split.
      + intros k. destruct (in_pend a1 k) as [i|] eqn:E; [|reflexivity]. destruct (proj2 (Hi i)); eauto.
      + destruct (doomed a1) as [|i d]; [reflexivity|]. destruct (proj2 (Hi i)). right. left. reflexivity.
    - split.
      + destruct (pending_contains keq c k) eqn:E; [|reflexivity]. apply (sh_pending Sh) in E. cbn in E. unfold put in E.
        destruct (keq k k); congruence.
      + exists i. rewrite Hl, rev_app_distr. cbn. eauto.
  Qed.
End P.
