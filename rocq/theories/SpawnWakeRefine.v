(** Proofs for C88: forgetting the wakers. *)
From Verif Require Import Base Util WakeCache RingSpec SpawnReady WakeSpawn RefineSpec SpawnWakeSpec.
Set Implicit Arguments.

Section R.
  Context {W Req Resp Err : Type} (svc : Service W Req Resp Err).
  Context (rings : W -> list waker) (gap : W -> W * list gmove) (coop : W -> bool) (fuel : nat).
  Context (HC : forall w, coop w = false).
  Notation ws := (wspawn svc).
  Notation polls := (task_polls (svc := taped svc)).

  Lemma ring_in k (c : ws) :
    match ws_in c with
    | WsSvc s => ws_in (sring k c) = WsSvc s
    | WsFut t r q j => exists q1, ws_in (sring k c) = WsFut t r q1 j
    end.
  Proof.
    unfold sring. destruct k as [|t0]; cbn [slogged swoken ws_in].
    - destruct (ws_in c); eauto.
    - destruct (ws_in c) as [s|t [s| | |] q j] eqn:E; eauto. destruct (t =? t0); cbn [sput ws_in]; eauto.
  Qed.
  Lemma rings_in l : forall c : ws,
    match ws_in c with
    | WsSvc s => ws_in (sring_all l c) = WsSvc s
    | WsFut t r q j => exists q1, ws_in (sring_all l c) = WsFut t r q1 j
    end.
  Proof.
    induction l as [|k l IH]; intros c; [destruct (ws_in c) eqn:E; cbn; eauto|].
    assert (X := ring_in k c). specialize (IH (sring k c)). change (sring_all (k :: l) c) with (sring_all l (sring k c)).
    destruct (ws_in c) as [s|t r q j].
    - rewrite X in IH. exact IH.
    - destruct X as [q1 X]. rewrite X in IH. exact IH.
  Qed.
  Lemma forget_rings l (c : ws) : forget_spawn (sring_all l c) = forget_spawn c.
  Proof.
    assert (X := rings_in l c). unfold forget_spawn. destruct (ws_in c) as [s|t r q j]; [rewrite X; reflexivity|].
    destruct X as [q1 X]. rewrite X. reflexivity.
  Qed.

  Lemma polls_app a : forall b t x, polls (a + b) t x = bind (polls a t) (polls b) x.
  Proof.
    induction a as [|a IH]; intros b t x; [reflexivity|]. cbn [task_polls Nat.add]. unfold bind in *.
    destruct (task_poll t x) as [x1 [t1| |]]; try reflexivity. apply IH.
  Qed.

  (** [k] polls take the task of [c] to that of [c1]. *)
  Definition goes (c : ws) (w : W) (k : nat) (c1 : ws) (w1 : W) : Prop :=
    exists t r q j r1 q1 j1, ws_in c = WsFut t r q j /\ ws_in c1 = WsFut t r1 q1 j1 /\
      forall tp, polls k (task_off r) (w, tp) = ((w1, tp), Val (task_off r1)).

  Lemma srun_goes (c : ws) w w1 c1 t r q j : srun rings c w = (w1, Val c1) -> ws_in c = WsFut t r q j -> exists k, goes c w k c1 w1.
  Proof.
    unfold srun. intros E Ei. rewrite Ei in E.
    assert (N : (w, @Val ws c) = (w1, Val c1) -> exists k, goes c w k c1 w1).
    { intros X. injection X as <- <-. exists 0. exists t, r, q, j, r, q, j. repeat split; auto. }
    destruct r as [s| | |]; try (apply N; exact E). destruct q; [|apply N; exact E]. clear N.
    exists 1. unfold goes.
    destruct (poll_ready svc s w) as [w2 [[s1 [|[u|e]]]| |]] eqn:Ep; try discriminate E; injection E as <- <-.
    - destruct (rings_in (rings w2) (slogged (EPoll 0 (WkChild t) true) (sput (WsFut t (TRun s1) false j) c))) as [q1 X].
      exists t, (TRun s), true, j, (TRun s1), q1, j. repeat split; [exact Ei | exact X|]. intros tp. cbn [task_polls task_off]. unfold bind, task_poll, ret. cbn [poll_ready taped]. unfold off. cbn [fst snd]. rewrite Ep. reflexivity.
    - assert (X := rings_in (rings w2) (slogged (EPoll 0 (WkChild t) false) (sfinish t (TDone (Ok s1)) j c))).
      replace (ws_in (slogged (EPoll 0 (WkChild t) false) (sfinish t (TDone (Ok s1)) j c))) with (WsFut t (TDone (svc := svc) (Ok s1)) false false) in X by (unfold sfinish; destruct j; reflexivity).
      destruct X as [q1 X]. exists t, (TRun s), true, j, (TDone (Ok s1)), q1, false. repeat split; [exact Ei | exact X|]. intros tp. cbn [task_polls task_off]. unfold bind, task_poll, ret. cbn [poll_ready taped]. unfold off. cbn [fst snd]. rewrite Ep. reflexivity.
    - assert (X := rings_in (rings w2) (slogged (EPoll 0 (WkChild t) false) (sfinish t (TDone (Er e)) j c))).
      replace (ws_in (slogged (EPoll 0 (WkChild t) false) (sfinish t (TDone (Er e)) j c))) with (WsFut t (TDone (svc := svc) (Er e)) false false) in X by (unfold sfinish; destruct j; reflexivity).
      destruct X as [q1 X]. exists t, (TRun s), true, j, (TDone (Er e)), q1, false. repeat split; [exact Ei | exact X|]. intros tp. cbn [task_polls task_off]. unfold bind, task_poll, ret. cbn [poll_ready taped]. unfold off. cbn [fst snd]. rewrite Ep. reflexivity.
    - assert (X := rings_in (rings w2) (slogged (EPoll 0 (WkChild t) false) (sfinish t TLost j c))).
      replace (ws_in (slogged (EPoll 0 (WkChild t) false) (sfinish t TLost j c))) with (WsFut t (TLost (svc := svc)) false false) in X by (unfold sfinish; destruct j; reflexivity).
      destruct X as [q1 X]. exists t, (TRun s), true, j, TLost, q1, false. repeat split; [exact Ei | exact X|]. intros tp. cbn [task_polls task_off]. unfold bind, task_poll, ret. cbn [poll_ready taped]. unfold off. cbn [fst snd]. rewrite Ep. reflexivity.
  Qed.
  Lemma goes_trans (c : ws) w k c1 w1 k1 c2 w2 : goes c w k c1 w1 -> goes c1 w1 k1 c2 w2 -> goes c w (k + k1) c2 w2.
  Proof.
    intros (t & r & q & j & r1 & q1 & j1 & A & B & C) (t' & r' & q' & j' & r2 & q2 & j2 & A' & B' & C').
    rewrite B in A'. injection A' as <- <- <- <-. exists t, r, q, j, r2, q2, j2. repeat split; auto.
    intros tp. rewrite polls_app. unfold bind. rewrite C. apply C'.
  Qed.
  Lemma gmoves_goes l : forall (c : ws) w w1 c1 t r q j, gmoves rings l c w = (w1, Val c1) -> ws_in c = WsFut t r q j -> exists k, goes c w k c1 w1.
  Proof.
    induction l as [|m l IH]; intros c w w1 c1 t r q j E Ei.
    - injection E as <- <-. exists 0, t, r, q, j, r, q, j. repeat split; auto.
    - cbn [gmoves] in E. unfold bind in E. destruct (gmove_do rings m c w) as [w2 [c2| |]] eqn:Em; try discriminate E.
      assert (X : exists k, goes c w k c2 w2).
      { destruct m as [|x]; cbn [gmove_do] in Em; [apply (srun_goes _ _ Em Ei)|]. injection Em as <- <-.
        assert (Y := ring_in x c). rewrite Ei in Y. destruct Y as [q1 Y]. exists 0, t, r, q, j, r, q1, j. repeat split; auto. }
      destruct X as [k X]. destruct X as (t' & r' & q' & j' & r1 & q1 & j1 & A & B & C).
      destruct (IH c2 w2 w1 c1 _ _ _ _ E B) as [k1 Y]. exists (k + k1). eapply goes_trans; [|exact Y].
      exists t', r', q', j', r1, q1, j1. auto.
  Qed.

  Lemma ready_refines n : forall (c : ws) w w1 c1 a, ws_ready rings gap coop n c w = (w1, Val (c1, a)) ->
    exists tp, forall rest, sr_ready (tbg gap) n (forget_spawn c) (w, tp ++ rest) = ((w1, rest), Val (forget_spawn c1, a)).
  Proof.
    induction n as [|n IH]; intros c w w1 c1 a E; [discriminate E|]. cbn [ws_ready] in E.
    destruct (ws_in c) as [x|t task q j] eqn:Ei.
    - unfold forget_spawn at 1. setoid_rewrite Ei. unfold bind at 1 in E. destruct (poll_ready svc x w) as [w2 [[x1 b]| |]] eqn:Ep; try discriminate E. unfold bind at 1 in E.
      destruct b as [|r].
      + apply IH in E. destruct E as [tp E]. exists tp. intros rest. specialize (E rest). cbn [sr_ready]. unfold bind at 1. cbn [poll_ready taped]. unfold off. cbn [fst snd]. rewrite Ep.
        exact E.
      + unfold ret in E. injection E as <- <- <-. exists []. intros rest. cbn [sr_ready app]. unfold bind at 1. cbn [poll_ready taped]. unfold off. cbn [fst snd]. rewrite Ep.
        rewrite forget_rings. reflexivity.
    - unfold bind at 1 in E. destruct (gap w) as [w2 g] eqn:Eg. unfold bind at 1 in E.
      destruct (gmoves rings g c w2) as [w3 [c2| |]] eqn:Em; try discriminate E.
      destruct (gmoves_goes _ _ _ Em Ei) as (k & t' & r & q' & j' & r1 & q1 & j1 & A & B & C). rewrite Ei in A. injection A as <- <- <- <-.
      unfold bind, get in E. rewrite B, HC in E.
      assert (X : exists tp, forall rest, bind (fun x => (x, Val (task_off r1))) (fun t1 => match t1 with
            | TRun _ => ret (SrFut t1, Pending)
            | TDone (Ok x) => sr_ready (tbg gap) n (SrSvc x)
            | TDone (Er e) => ret (SrFut TTaken, Ready (Er (SrInner e)))
            | TLost => ret (SrFut TTaken, Ready (Er SrJoin))
            | TTaken => panic end) (w3, tp ++ rest) = ((w1, rest), Val (forget_spawn c1, a))).
      { destruct r1 as [s|[x|e]| |]; try discriminate E.
        - unfold ret in E. injection E as <- <- <-. exists []. reflexivity.
        - apply IH in E. destruct E as [tp E]. exists tp. exact E.
        - unfold ret in E. injection E as <- <- <-. exists []. reflexivity.
        - unfold ret in E. injection E as <- <- <-. exists []. reflexivity. }
      destruct X as [tp X]. exists (repeat 0 k :: tp). intros rest. specialize (X rest). cbn [app]. unfold forget_spawn at 1. rewrite Ei. cbn [sr_ready].
      unfold bind in *. unfold tbg at 1, tnext. cbn [fst snd]. rewrite Eg. cbn [fst]. rewrite repeat_length. rewrite C. exact X.
  Qed.

  Lemma step_refines o (c : ws) w b c1 w1 : sstep rings gap coop fuel o (c, w) = Some (b, c1, w1) ->
    exists tp, forall rest, fstep (svc := svc) gap fuel o (forget_spawn c, (w, tp ++ rest)) = Some (b, forget_spawn c1, (w1, rest)).
  Proof.
    intros E. destruct o as [|r| | |k|g]; cbn [sstep] in E; unfold wdo in E.
    - destruct (ws_ready rings gap coop fuel (swoken false c) w) as [w2 [[c2 a]| |]] eqn:Er; try discriminate E. injection E as <- <- <-.
      apply ready_refines in Er. destruct Er as [tp Er]. exists tp. intros rest. cbn [fstep]. unfold odo. change (forget_spawn c) with (forget_spawn (swoken false c)). rewrite Er. reflexivity.
    - destruct (ws_call rings c r w) as [w2 [[c2 a]| |]] eqn:Er; try discriminate E. injection E as <- <- <-.
      unfold ws_call in Er. destruct (ws_in c) as [x|] eqn:Ei; [|discriminate Er]. unfold bind in Er. destruct (call svc x r w) as [w3 [[x1 f1]| |]] eqn:Ec; try discriminate Er.
      injection Er as <- <- <-. exists []. intros rest. cbn [fstep app]. unfold odo. unfold forget_spawn at 1. rewrite Ei. cbn [sr_call]. unfold bind. cbn [call taped]. unfold off. cbn [fst snd]. rewrite Ec.
      rewrite forget_rings. reflexivity.
    - destruct (srun rings c w) as [w2 [c2| |]] eqn:Er; try discriminate E. injection E as <- <- <-. destruct (ws_in c) as [x|t r q j] eqn:Ei.
      + unfold srun in Er. rewrite Ei in Er. injection Er as <- <-. exists []. intros rest. cbn [fstep app]. unfold forget_spawn. rewrite Ei. reflexivity.
      + destruct (srun_goes _ _ Er Ei) as (k & t' & r' & q' & j' & r1 & q1 & j1 & A & B & C). rewrite Ei in A. injection A as <- <- <- <-.
        exists [repeat 0 k]. intros rest. cbn [fstep app]. unfold forget_spawn. rewrite Ei, B. unfold odo, bind, tnext. cbn [fst snd]. rewrite repeat_length, C. reflexivity.
    - destruct (skill c w) as [w2 [c2| |]] eqn:Er; try discriminate E. injection E as <- <- <-. exists []. intros rest. cbn [fstep app]. unfold skill in Er.
      destruct (ws_in c) as [x|t [s|[x|e]| |] q j] eqn:Ei; unfold bind, modify, ret in Er; injection Er as <- <-; unfold forget_spawn; rewrite ?Ei; try reflexivity.
      unfold sfinish. destruct j; reflexivity.
    - injection E as <- <- <-. exists []. intros rest. cbn [fstep app]. change (sring k c) with (sring_all [k] c). rewrite forget_rings. reflexivity.
    - injection E as <- <- <-. exists []. intros rest. reflexivity.
  Qed.

  Lemma run_refines l : forall (c : ws) w, exists tp, forall n b c1 w1, nth_error (srun_all rings gap coop fuel (c, w) l) n = Some (b, c1, w1) ->
    exists rest, nth_error (frun (svc := svc) gap fuel (forget_spawn c, (w, tp)) l) n = Some (b, forget_spawn c1, (w1, rest)).
  Proof.
    induction l as [|o l IH]; intros c w; [exists []; intros n b c1 w1 E; destruct n; discriminate E|].
    cbn [srun_all frun]. destruct (sstep rings gap coop fuel o (c, w)) as [[[b2 c2] w2]|] eqn:Es.
    - destruct (step_refines _ _ _ Es) as [tp1 H1]. destruct (IH c2 w2) as [tp2 H2]. exists (tp1 ++ tp2). intros n b c1 w1 E. rewrite H1.
      destruct n as [|n]; [injection E as <- <- <-; exists tp2; reflexivity|]. apply (H2 _ _ _ _ E).
    - exists []. intros n b c1 w1 E. destruct n; discriminate E.
  Qed.
End R.

Theorem spawn_refines W Req Resp Err (svc : Service W Req Resp Err) rings gap coop fuel s w0 l :
  (forall w, coop w = false) ->
  exists tp, forall n b c w, nth_error (shistory svc rings gap coop fuel s w0 l) n = Some (b, c, w) ->
    exists rest, nth_error (frun (svc := svc) gap fuel (spawn_ready_new (taped svc) s, (w0, tp)) l) n = Some (b, forget_spawn c, (w, rest)).
Proof. intros HC. exact (@run_refines _ _ _ _ svc rings gap coop fuel HC l (wspawn_new svc s) w0). Qed.
