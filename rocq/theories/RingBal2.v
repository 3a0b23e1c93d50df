(** Wake-ups: histories of a Balance. *)
From Coq Require Import Permutation.
From Verif Require Import Base Middleware ReadyCache CacheProof WakeCache RingSpec RingProof RingLoop RingTop RingBal.
Set Implicit Arguments.

Section Bal.
  Context {W K Req Resp Err : Type} (keq : forall a b : K, {a = b} + {a <> b}).
  Context (svc : Service W Req Resp Err).
  Context (rings : W -> list waker) (stop : nat -> nat -> nat -> bool).
  Context {DErr Metric R : Type} (D : Discover W K (st svc) DErr).
  Context (next_u64 : R -> M W (R * Z)) (debug : bool).
  Context (load : st svc -> M W Metric) (le : Metric -> Metric -> bool).
  Notation wcache := (wcache (K := K) svc).
  Notation wtask := (wtask (K := K) svc).
  Notation wbal := (wbalance_st (R := R) D).

  (** Discovery waits, or the task is woken. *)
  Definition dquiet (c : wcache) : Prop := wc_woken c = true \/ disc_waits false (wc_log c).
  Lemma disc_waits_app l log : (forall e, In e l -> ~ is_disc e) -> ~ In (ERing WkTask) l -> disc_waits false log -> disc_waits false (l ++ log).
  Proof.
    intros H N Hd. induction l as [|e l IH]; [exact Hd|]. assert (H1 := H e (or_introl eq_refl)).
    assert (IH' : disc_waits false (l ++ log)) by (apply IH; [intros e' He'; apply H; now right|intros X; apply N; now right]).
    destruct e as [i k b|[|t]|a]; cbn; auto.
    - destruct N. now left.
    - now destruct H1.
  Qed.
  Lemma ring_task_dec l : {In (ERing WkTask) l} + {~ In (ERing WkTask) l}.
  Proof. apply in_dec. repeat decide equality. Qed.
  Lemma dquiet_ext (c c1 : wcache) : ext c c1 -> dquiet c -> dquiet c1.
  Proof.
    intros (A & l & E & N & Hw) [Q|Q]; [left; auto|]. destruct (ring_task_dec l) as [X|X]; [left; auto|]. right. rewrite E. now apply disc_waits_app.
  Qed.
  Lemma pinv_disc a (c : wcache) : pinv c -> pinv (logged (EDisc a) c).
  Proof.
    intros H. constructor; try (apply H).
    - intros j k b [X|X]; [discriminate|]. exact (v_log H _ _ _ X).
    - intros _. now right.
  Qed.

  Lemma discover_ok fuel : forall d (c : wcache) w w1 d1 c1 e, pinv c ->
    wupdate_from_discover keq rings D fuel d c w = (w1, Val (d1, c1, e)) -> pinv c1 /\ (e = None -> dquiet c1).
  Proof.
    induction fuel as [|fuel IH]; intros d c w w1 d1 c1 e H E; [discriminate|]. cbn [wupdate_from_discover] in E.
    unfold bind in E at 1. destruct (poll_discover D d w) as [w2 [[d2 p]| |]]; try discriminate.
    assert (F : forall a, pinv (ring_all (rings w2) (logged (EDisc a) c))) by (intros a; apply pinv_rings, pinv_disc, H).
    destruct p as [|[[[k s|k]|x]|]].
    - unfold bind, fired, ret in E. injection E as <- <- <- <-. split; [apply F|]. intros _. eapply dquiet_ext; [apply ext_rings|]. right. reflexivity.
    - unfold bind, fired in E. refine (IH _ _ _ _ _ _ _ _ E). apply pinv_push, F.
    - unfold bind, fired in E. match type of E with context [wevict _ _ ?c0 k w2] => destruct (wevict keq rings c0 k w2) as [w3 [[c3 b]| |]] eqn:Ee end; try discriminate.
      refine (IH _ _ _ _ _ _ _ _ E). now apply (evict_ok _ _ _ _ (F DChange) Ee).
    - unfold bind, fired, ret in E. injection E as <- <- <- <-. split; [apply F|]. discriminate.
    - unfold bind, fired, ret in E. injection E as <- <- <- <-. split; [apply F|]. intros _. eapply dquiet_ext; [apply ext_rings|]. right. exact I.
  Qed.
  Lemma promote_ok fuel : forall (c : wcache) w w1 c1, pinv c -> wpromote_loop keq rings stop debug fuel c w = (w1, Val c1) ->
    pinv c1 /\ armed c1 /\ quiet c1 /\ ext c c1.
  Proof.
    induction fuel as [|fuel IH]; intros c w w1 c1 H E; [discriminate|]. cbn [wpromote_loop] in E. unfold bind in E.
    destruct (wpoll_pending keq rings stop c w) as [w2 [[c2 p]| |]] eqn:Ep; try discriminate.
    destruct (poll_pending_loop_ok _ _ _ _ _ H Ep) as (A1 & A2 & A3 & A4). assert (A0 := pinv_winv A1).
    destruct p as [|[u|x]].
    - destruct (debug && (wpending_len c2 =? 0)); [discriminate|]. injection E as <- <-.
      split; [exact A0|]. split; [exact A2|]. split; [|exact A4]. eapply ended_quiet; [exact A0|exact A3|discriminate].
    - destruct (debug && negb (wpending_len c2 =? 0)); [discriminate|]. injection E as <- <-.
      split; [exact A0|]. split; [exact A2|]. split; [|exact A4]. eapply ended_quiet; [exact A0|exact A3|discriminate].
    - destruct (IH _ _ _ _ A0 E) as (B1 & B2 & B3 & B4). split; [exact B1|]. split; [exact B2|]. split; [exact B3|]. eapply ext_trans; eauto.
  Qed.
  Definition asleep (c : wcache) : Prop := armed c /\ quiet c /\ dquiet c /\ ix_ready (wc_ix c) = [].
  Lemma p2c_none (c : wcache) g w w1 g1 : wp2c_ready_index next_u64 debug load le c g w = (w1, Val (g1, None)) -> ix_ready (wc_ix c) = [].
  Proof.
    unfold wp2c_ready_index, wready_len. intros E. destruct (ix_ready (wc_ix c)) as [|a [|b l]]; [reflexivity|discriminate|].
    exfalso. cbn [length] in E. unfold bind in E.
    repeat match type of E with
    | (let (_, _) := ?x in _) = _ => destruct x as [? [?| |]]; try discriminate
    | (let '(_, _) := ?x in _) _ = _ => destruct x
    | (if ?b then _ else _) _ = _ => destruct b; try discriminate
    end.
  Qed.
  Lemma loop_ok fuel : forall d (c : wcache) idx g w w1 s1 a, pinv c -> armed c -> quiet c -> dquiet c ->
    wbalance_loop keq rings D next_u64 debug load le fuel d c idx g w = (w1, Val (s1, a)) ->
    pinv (wb_cache s1) /\ (a = Pending -> asleep (wb_cache s1)).
  Proof.
    induction fuel as [|fuel IH]; intros d c idx g w w1 s1 a H A Q Dq E; [discriminate|]. cbn [wbalance_loop] in E.
    assert (Sel : forall c' w', pinv c' -> armed c' -> quiet c' -> dquiet c' ->
      ('(g1, o) <- wp2c_ready_index next_u64 debug load le c' g ;;
        match o with
        | None => if debug && negb (wready_len c' =? 0) then panic else ret (WBalSt d c' None g1, Pending)
        | Some i => wbalance_loop keq rings D next_u64 debug load le fuel d c' (Some i) g1
        end) w' = (w1, Val (s1, a)) -> pinv (wb_cache s1) /\ (a = Pending -> asleep (wb_cache s1))).
    { intros c' w' H' A' Q' D' E'. unfold bind in E'. destruct (wp2c_ready_index next_u64 debug load le c' g w') as [w2 [[g1 [i|]]| |]] eqn:Ep; try discriminate.
      - exact (IH _ _ _ _ _ _ _ _ H' A' Q' D' E').
      - destruct (debug && negb (wready_len c' =? 0)); [discriminate|]. injection E' as <- <- <-. split; [exact H'|]. intros _.
        split; [exact A'|]. split; [exact Q'|]. split; [exact D'|]. exact (p2c_none _ _ _ Ep). }
    destruct idx as [i|]; [|exact (Sel c w H A Q Dq E)].
    unfold bind in E at 1. destruct (wcheck_ready_index keq rings c i w) as [w2 [[c2 b]| |]] eqn:Ec; try discriminate.
    destruct (check_ok _ _ _ _ H Ec) as (B1 & B2 & B3 & B4).
    assert (Dq2 := dquiet_ext B3 Dq).
    destruct b as [[|]|x].
    - injection E as <- <- <-. split; [exact B1|discriminate].
    - exact (Sel c2 w2 B1 (B2 A) (B4 A Q) Dq2 E).
    - exact (Sel c2 w2 B1 (B2 A) (B4 A Q) Dq2 E).
  Qed.
  Lemma poll_ok fuel (s : wbal) w w1 s1 a : pinv (wb_cache s) ->
    wbalance_poll_ready keq rings stop next_u64 debug load le fuel s w = (w1, Val (s1, a)) ->
    pinv (wb_cache s1) /\ (a = Pending -> asleep (wb_cache s1)).
  Proof.
    intros H E. unfold wbalance_poll_ready in E. unfold bind in E at 1.
    destruct (wupdate_from_discover keq rings D fuel (wb_disc s) (with_woken false (wb_cache s)) w) as [w2 [[[d1 c1] e]| |]] eqn:Ed; try discriminate.
    destruct (discover_ok _ _ _ (pinv_woken false H) Ed) as [A1 A2].
    destruct e as [x|]; [injection E as <- <- <-; split; [exact A1|discriminate]|]. specialize (A2 eq_refl).
    unfold bind in E. destruct (wpromote_pending keq rings stop debug c1 w2) as [w3 [c2| |]] eqn:Ep; try discriminate.
    destruct (promote_ok _ _ A1 Ep) as (B1 & B2 & B3 & B4). exact (loop_ok _ _ _ _ _ B1 B2 B3 (dquiet_ext B4 A2) E).
  Qed.
  Lemma call_b_ok (s : wbal) r w w1 s1 f : pinv (wb_cache s) -> wbalance_call keq rings s r w = (w1, Val (s1, f)) -> pinv (wb_cache s1).
  Proof.
    intros H E. unfold wbalance_call in E. destruct (wb_index s) as [i|]; [|discriminate]. unfold bind in E.
    destruct (wcall_ready_index keq rings (wb_cache s) i r w) as [w2 [[c2 g]| |]] eqn:Ec; try discriminate. injection E as <- <- <-.
    now apply (call_ok _ _ _ _ _ H Ec).
  Qed.
  Lemma asleep_ring k (c : wcache) : pinv c -> asleep c -> asleep (ring k c).
  Proof.
    intros H (A & Q & Dq & Er). split; [now apply armed_ring|]. split; [now apply quiet_ring|]. split; [exact (dquiet_ext (ext_ring k c) Dq)|]. now rewrite ring_ix.
  Qed.

  Context (fuel : nat).
  Notation bwstep := (bwstep keq rings stop (D := D) next_u64 debug load le fuel).
  Notation bwrun := (bwrun keq rings stop (D := D) next_u64 debug load le fuel).
  Lemma bstep_ok o (s : wbal) w b s1 w1 : pinv (wb_cache s) -> bwstep o (s, w) = Some (b, s1, w1) ->
    pinv (wb_cache s1) /\ (b = BwPolled Pending -> asleep (wb_cache s1)) /\
    (b = @BwRang Err DErr \/ b = @BwEnved Err DErr -> asleep (wb_cache s) -> asleep (wb_cache s1)).
  Proof.
    intros H E. destruct o as [|r|k|g]; cbn [RingSpec.bwstep] in E; unfold wdo in E.
    - destruct (wbalance_poll_ready keq rings stop next_u64 debug load le fuel s w) as [w2 [[s2 a]| |]] eqn:Ep; try discriminate. injection E as <- <- <-.
      destruct (poll_ok _ _ _ H Ep) as [A B]. split; [exact A|]. split; [intros X; injection X as ->; auto|]. intros [X|X]; discriminate.
    - destruct (wbalance_call keq rings s r w) as [w2 [[s2 a]| |]] eqn:Ep; try discriminate. injection E as <- <- <-.
      split; [exact (call_b_ok _ _ _ H Ep)|]. split; [discriminate|]. intros [X|X]; discriminate.
    - injection E as <- <- <-. split; [now apply pinv_ring|]. split; [discriminate|]. intros _ A. now apply asleep_ring.
    - injection E as <- <- <-. split; [exact H|]. split; [discriminate|]. auto.
  Qed.
  Lemma brun_ok l : forall (x0 : wbal * W) i s w, pinv (wb_cache (fst x0)) -> nth_error (bwrun x0 l) i = Some (BwPolled Pending, s, w) ->
    forall n b s1 w1, i <= n -> nth_error (bwrun x0 l) n = Some (b, s1, w1) ->
    (forall j b' s' w', i < j <= n -> nth_error (bwrun x0 l) j = Some (b', s', w') -> b' = @BwRang Err DErr \/ b' = @BwEnved Err DErr) ->
    asleep (wb_cache s1).
  Proof.
    assert (Mid : forall l (x0 : wbal * W), pinv (wb_cache (fst x0)) -> asleep (wb_cache (fst x0)) -> forall n b s1 w1,
      nth_error (bwrun x0 l) n = Some (b, s1, w1) ->
      (forall j b' s' w', j <= n -> nth_error (bwrun x0 l) j = Some (b', s', w') -> b' = @BwRang Err DErr \/ b' = @BwEnved Err DErr) -> asleep (wb_cache s1)).
    { clear l. induction l as [|o l IH]; intros [s0 w0] H A n b s1 w1 E Hr; [destruct n; discriminate|]. cbn [RingSpec.bwrun] in E, Hr. cbn [fst] in *.
      destruct (bwstep o (s0, w0)) as [[[b2 s2] w2]|] eqn:Es; [|destruct n; discriminate].
      destruct (bstep_ok _ _ _ H Es) as (B1 & _ & B2). assert (A2 : asleep (wb_cache s2)) by (apply B2; [apply (Hr 0 b2 s2 w2); [lia|reflexivity]|exact A]).
      destruct n as [|n]; cbn in E; [injection E as <- <- <-; exact A2|].
      apply (IH (s2, w2) B1 A2 n b s1 w1 E). intros j b' s' w' Hj. apply (Hr (S j)). lia. }
    induction l as [|o l IH]; intros [s0 w0] i s w H E n b s1 w1 Hle En Hr; [destruct i; discriminate|]. cbn [RingSpec.bwrun] in E, En, Hr. cbn [fst] in *.
    destruct (bwstep o (s0, w0)) as [[[b2 s2] w2]|] eqn:Es; [|destruct i; discriminate].
    destruct (bstep_ok _ _ _ H Es) as (B1 & B2 & _).
    destruct i as [|i]; cbn in E.
    - injection E as -> <- <-. specialize (B2 eq_refl). destruct n as [|n]; cbn in En; [injection En as <- <- <-; exact B2|].
      apply (Mid l (s2, w2) B1 B2 n b s1 w1 En). intros j b' s' w' Hj. apply (Hr (S j)). lia.
    - destruct n as [|n]; [lia|]. cbn in En. apply (IH (s2, w2) i s w B1 E n b s1 w1); [lia|exact En|].
      intros j b' s' w' Hj. apply (Hr (S j)). lia.
  Qed.
  Theorem balance_sleeps d g w0 l i s w n b s1 w1 :
    nth_error (bwhistory keq svc rings stop D next_u64 debug load le fuel d g w0 l) i = Some (BwPolled Pending, s, w) -> i <= n ->
    nth_error (bwhistory keq svc rings stop D next_u64 debug load le fuel d g w0 l) n = Some (b, s1, w1) ->
    (forall j b' s' w', i < j <= n -> nth_error (bwhistory keq svc rings stop D next_u64 debug load le fuel d g w0 l) j = Some (b', s', w') ->
      b' = @BwRang Err DErr \/ b' = @BwEnved Err DErr) ->
    ix_ready (wc_ix (wb_cache s1)) = [] /\
    (wc_woken (wb_cache s1) = true \/
     (forall p, In p (pending_of (wb_cache s1)) -> exists k, waiting (wc_log (wb_cache s1)) (wt_sid p) k) /\
     disc_waits false (wc_log (wb_cache s1))).
  Proof.
    intros Ei Hle En Hr. destruct (@brun_ok l (wbalance_new (svc := svc) D d g, w0) _ _ _ (new_pinv svc) Ei _ _ _ _ Hle En Hr) as (A & Q & Dq & Er).
    split; [exact Er|]. destruct Q as [Q|Q]; [now left|]. destruct Dq as [Dq|Dq]; [now left|]. right. auto.
  Qed.
End Bal.
