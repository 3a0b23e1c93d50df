(** Wake-ups: histories of ReadyCache and Balance. *)
From Coq Require Import Permutation.
From Verif Require Import Base Middleware ReadyCache CacheProof WakeCache RingSpec RingProof RingLoop RingTop.
Set Implicit Arguments.

Section Bal.
  Context {W K Req Resp Err : Type} (keq : forall a b : K, {a = b} + {a <> b}).
  Context (svc : Service W Req Resp Err).
  Context (rings : W -> list waker) (stop : nat -> nat -> nat -> bool).
  Notation wcache := (wcache (K := K) svc).
  Notation wtask := (wtask (K := K) svc).

  Lemma calm_quiet (c : wcache) : pinv c -> calm c -> quiet c.
  Proof.
    intros H [A|A]; [now left|right]. intros p Hp. destruct (v_wait H p Hp) as [B|(B & _)]; [|now exists (WkChild (wt_id p))].
    cbn in B. rewrite A in B. destruct B.
  Qed.
  Lemma ended_quiet (c : wcache) a : pinv c -> ended c a -> (forall e, a <> Ready (Er e)) -> quiet c.
  Proof.
    intros H E N. destruct a as [|[u|e]]; [now apply calm_quiet|right; rewrite E; intros p []|now destruct (N e)].
  Qed.

  (** *** Cache histories *)
  Definition rest_op (o : wop (K := K) svc) : Prop := match o with CRing _ | CEnv _ | CEvict _ => True | _ => False end.
  Lemma step_pinv o (c : wcache) w b c1 w1 : pinv c -> wstep keq rings stop o (c, w) = Some (b, c1, w1) -> pinv c1.
  Proof.
    intros H E. destruct o as [k s|k| |n|n r|k|g]; cbn [wstep] in E; unfold wdo in E.
    - injection E as <- <- <-. now apply pinv_push.
    - destruct (wevict keq rings c k w) as [w2 [[c2 b2]| |]] eqn:Ee; try discriminate. injection E as <- <- <-. now apply (evict_ok _ _ _ _ H Ee).
    - destruct (wpoll_pending keq rings stop (with_woken false c) w) as [w2 [[c2 b2]| |]] eqn:Ee; try discriminate. injection E as <- <- <-.
      apply pinv_winv. now apply (poll_pending_loop_ok _ _ _ _ _ (pinv_woken false H) Ee).
    - destruct (wcheck_ready_index keq rings c n w) as [w2 [[c2 b2]| |]] eqn:Ee; try discriminate. injection E as <- <- <-. now apply (check_ok _ _ _ _ H Ee).
    - destruct (wcall_ready_index keq rings c n r w) as [w2 [[c2 b2]| |]] eqn:Ee; try discriminate. injection E as <- <- <-. now apply (call_ok _ _ _ _ _ H Ee).
    - injection E as <- <- <-. now apply pinv_ring.
    - injection E as <- <- <-. exact H.
  Qed.
  Lemma step_armed o (c : wcache) w b c1 w1 : winv c -> armed c -> wstep keq rings stop o (c, w) = Some (b, c1, w1) -> armed c1.
  Proof.
    intros H A E. assert (P := pinv_winv H). destruct o as [k s|k| |n|n r|k|g]; cbn [wstep] in E; unfold wdo in E.
    - injection E as <- <- <-. unfold wpush. apply armed_push_pending. exact A.
    - destruct (wevict keq rings c k w) as [w2 [[c2 b2]| |]] eqn:Ee; try discriminate. injection E as <- <- <-. now apply (evict_ok _ _ _ _ P Ee).
    - destruct (wpoll_pending keq rings stop (with_woken false c) w) as [w2 [[c2 b2]| |]] eqn:Ee; try discriminate. injection E as <- <- <-.
      now apply (poll_pending_loop_ok _ _ _ _ _ (pinv_woken false P) Ee).
    - destruct (wcheck_ready_index keq rings c n w) as [w2 [[c2 b2]| |]] eqn:Ee; try discriminate. injection E as <- <- <-. now apply (check_ok _ _ _ _ P Ee).
    - destruct (wcall_ready_index keq rings c n r w) as [w2 [[c2 b2]| |]] eqn:Ee; try discriminate. injection E as <- <- <-. now apply (call_ok _ _ _ _ _ P Ee).
    - injection E as <- <- <-. now apply armed_ring.
    - injection E as <- <- <-. exact A.
  Qed.
  Lemma rest_quiet o (c : wcache) w b c1 w1 : rest_op o -> winv c -> armed c -> quiet c -> wstep keq rings stop o (c, w) = Some (b, c1, w1) -> quiet c1.
  Proof.
    intros R H A Q E. assert (P := pinv_winv H). destruct o as [k s|k| |n|n r|k|g]; try destruct R; cbn [wstep] in E; unfold wdo in E.
    - destruct (wevict keq rings c k w) as [w2 [[c2 b2]| |]] eqn:Ee; try discriminate. injection E as <- <- <-. exact (quiet_evict _ _ _ _ P A Q Ee).
    - injection E as <- <- <-. now apply quiet_ring.
    - injection E as <- <- <-. exact Q.
  Qed.

  (** The state before step [n] and the step. *)
  Definition state_at (x0 : wcache * W) (run : list (wobs (K := K) (Err := Err) * wcache * W)) (n : nat) : option (wcache * W) :=
    match n with
    | O => Some x0
    | S m => match nth_error run m with Some (_, c, w) => Some (c, w) | None => None end
    end.
  Lemma run_step l : forall (x0 : wcache * W) n b (c : wcache) w, nth_error (wrun keq rings stop x0 l) n = Some (b, c, w) ->
    exists o x, nth_error l n = Some o /\ state_at x0 (wrun keq rings stop x0 l) n = Some x /\ wstep keq rings stop o x = Some (b, c, w).
  Proof.
    induction l as [|o l IH]; intros x0 n b c w E; [destruct n; discriminate|]. cbn [wrun] in E |- *.
    destruct (wstep keq rings stop o x0) as [[[b1 c1] w1]|] eqn:Es; [|destruct n; discriminate].
    destruct n as [|n]; cbn in E.
    - injection E as <- <- <-. exists o, x0. auto.
    - destruct (IH _ _ _ _ _ E) as (o' & x & A & B & C). exists o', x. split; [exact A|]. split; [|exact C].
      destruct n as [|n]; cbn in B |- *; [exact B|exact B].
  Qed.
  Lemma run_pinv l : forall (x0 : wcache * W) n b (c : wcache) w, pinv (fst x0) -> nth_error (wrun keq rings stop x0 l) n = Some (b, c, w) -> pinv c.
  Proof.
    induction l as [|o l IH]; intros x0 n b c w H E; [destruct n; discriminate|]. cbn [wrun] in E. destruct x0 as [c0 w0].
    destruct (wstep keq rings stop o (c0, w0)) as [[[b1 c1] w1]|] eqn:Es; [|destruct n; discriminate].
    assert (H1 := step_pinv _ _ H Es). destruct n as [|n]; cbn in E; [injection E as <- <- <-; exact H1|exact (IH (c1, w1) n b c w H1 E)].
  Qed.
  Lemma new_pinv : pinv (wcache_new (K := K) svc).
  Proof. apply pinv_winv, winv_new. Qed.
  Lemma history_pinv w0 l n b (c : wcache) w : nth_error (whistory keq rings stop w0 l) n = Some (b, c, w) -> pinv c.
  Proof. apply run_pinv. exact new_pinv. Qed.
  Lemma history_before w0 l n b (c : wcache) w : nth_error (whistory keq rings stop w0 l) n = Some (b, c, w) ->
    exists o (c0 : wcache) w1, nth_error l n = Some o /\ pinv c0 /\ wstep keq rings stop o (c0, w1) = Some (b, c, w).
  Proof.
    intros E. destruct (run_step _ _ _ E) as (o & [c0 w1] & A & B & C). exists o, c0, w1. split; [exact A|]. split; [|exact C].
    destruct n as [|n]; cbn in B; [injection B as <- _; exact new_pinv|].
    destruct (nth_error (wrun keq rings stop (wcache_new svc, w0) l) n) as [[[b2 c2] w2]|] eqn:En; [|discriminate].
    injection B as <- <-. exact (history_pinv _ _ _ En).
  Qed.
  (** After the first poll the cache is armed for good. *)
  Lemma history_armed w0 l i a ci wi n b (c : wcache) w : nth_error (whistory keq rings stop w0 l) i = Some (OPolled a, ci, wi) -> i <= n ->
    nth_error (whistory keq rings stop w0 l) n = Some (b, c, w) -> winv c /\ armed c.
  Proof.
    intros Ei Hle. revert b c w. induction Hle as [|n Hle IH]; intros b c w E.
    - rewrite Ei in E. injection E as <- <- <-. destruct (history_before _ _ _ Ei) as (o & c0 & w1 & _ & H & Es).
      destruct o as [k s|k| |m|m r|k|g]; cbn [wstep] in Es; unfold wdo in Es; try discriminate.
      + destruct (wevict keq rings c0 k w1) as [w2 [[c2 b2]| |]]; discriminate.
      + destruct (wpoll_pending keq rings stop (with_woken false c0) w1) as [w2 [[c2 b2]| |]] eqn:Ee; try discriminate. injection Es as <- <- <-.
        destruct (poll_pending_loop_ok _ _ _ _ _ (pinv_woken false H) Ee) as (A & B & _). auto.
      + destruct (wcheck_ready_index keq rings c0 m w1) as [w2 [[c2 b2]| |]]; discriminate.
      + destruct (wcall_ready_index keq rings c0 m r w1) as [w2 [[c2 b2]| |]]; discriminate.
    - destruct (run_step _ _ _ E) as (o & [c0 w1] & A & B & C). cbn in B.
      destruct (nth_error (wrun keq rings stop (wcache_new svc, w0) l) n) as [[[b2 c2] w2]|] eqn:En; [|discriminate].
      injection B as <- <-. destruct (IH _ _ _ En) as [H1 H2]. assert (H3 := step_armed _ _ H1 H2 C).
      split; [|exact H3]. apply winv_armed; [|exact H3]. exact (history_pinv _ _ _ E).
  Qed.
  Lemma polled_inv o (c0 : wcache) w1 a c w : pinv c0 -> wstep keq rings stop o (c0, w1) = Some (OPolled a, c, w) ->
    winv c /\ armed c /\ ended c a.
  Proof.
    intros H Es. destruct o as [k s|k| |m|m r|k|g]; cbn [wstep] in Es; unfold wdo in Es; try discriminate.
    + destruct (wevict keq rings c0 k w1) as [w2 [[c2 b2]| |]]; discriminate.
    + destruct (wpoll_pending keq rings stop (with_woken false c0) w1) as [w2 [[c2 b2]| |]] eqn:Ee; try discriminate. injection Es as <- <- <-.
      destruct (poll_pending_loop_ok _ _ _ _ _ (pinv_woken false H) Ee) as (A & B & C & _). auto.
    + destruct (wcheck_ready_index keq rings c0 m w1) as [w2 [[c2 b2]| |]]; discriminate.
    + destruct (wcall_ready_index keq rings c0 m r w1) as [w2 [[c2 b2]| |]]; discriminate.
  Qed.
  (** Since a poll that answered [Pending], with only wakers firing, evictions and changes of the world after it. *)
  Lemma pending_quiet w0 l i ci wi n b (c : wcache) w : nth_error (whistory keq rings stop w0 l) i = Some (OPolled Pending, ci, wi) -> i <= n ->
    (forall j o, i < j <= n -> nth_error l j = Some o -> rest_op o) ->
    nth_error (whistory keq rings stop w0 l) n = Some (b, c, w) -> quiet c.
  Proof.
    intros Ei Hle. revert b c w. induction Hle as [|n Hle IH]; intros b c w Hr E.
    - rewrite Ei in E. injection E as <- <- <-. destruct (history_before _ _ _ Ei) as (o & c0 & w1 & _ & H & Es).
      destruct (polled_inv _ _ H Es) as (A & B & C). apply calm_quiet; [apply pinv_winv, A|exact C].
    - destruct (run_step _ _ _ E) as (o & [c0 w1] & A & B & C). cbn in B.
      destruct (nth_error (wrun keq rings stop (wcache_new svc, w0) l) n) as [[[b2 c2] w2]|] eqn:En; [|discriminate].
      injection B as <- <-. destruct (history_armed _ _ Ei Hle En) as [H1 H2].
      assert (Q : quiet c2) by (refine (IH _ _ _ _ En); intros j o' Hj; apply Hr; lia).
      refine (rest_quiet o _ _ H1 H2 Q C). apply (Hr (S n) o); [lia|exact A].
  Qed.

  (** *** Theorems about ReadyCache *)
  Theorem cache_pending w0 l i ci wi n b (c : wcache) w : nth_error (whistory keq rings stop w0 l) i = Some (OPolled Pending, ci, wi) -> i <= n ->
    (forall j o, i < j <= n -> nth_error l j = Some o -> rest_op o) ->
    nth_error (whistory keq rings stop w0 l) n = Some (b, c, w) ->
    wc_woken c = true \/ forall p, In p (pending_of c) -> exists k, waiting (wc_log c) (wt_sid p) k.
  Proof. exact (@pending_quiet w0 l i ci wi n b c w). Qed.
  Theorem cache_ring w0 l i a ci wi n b (c : wcache) w p k :
    nth_error (whistory keq rings stop w0 l) i = Some (OPolled a, ci, wi) -> i <= n ->
    nth_error (whistory keq rings stop w0 l) n = Some (b, c, w) ->
    In p (pending_of c) -> waiting (wc_log c) (wt_sid p) k -> wc_woken (ring k c) = true.
  Proof.
    intros Ei Hle E Hp Hk. destruct (history_armed _ _ Ei Hle E) as [H A]. destruct k as [|t]; [reflexivity|].
    destruct (v_own H p t Hp Hk) as [-> Nq]. cbn [ring].
    assert (X : live (wt_id p) (fu_tasks (wc_fu c)) = true) by (apply live_in; eauto). rewrite X.
    apply memn_not in Nq. rewrite Nq. cbn. destruct A as [->| ->]; [apply orb_true_r|reflexivity].
  Qed.
  Lemma calm_settled (c : wcache) : winv c -> calm c -> wc_woken c = true \/ forall p, In p (fu_tasks (wc_fu c)) -> settled (wc_log c) (wc_ix c) p.
  Proof.
    intros H [A|A]; [now left|right]. intros p Hp. destruct (v_wait H p Hp) as [B|B]; [|exact B].
    cbn in B. rewrite A in B. destruct B.
  Qed.
  Theorem cache_clean w0 l n a (c : wcache) w : nth_error (whistory keq rings stop w0 l) n = Some (OPolled a, c, w) ->
    match a with
    | Pending => wc_woken c = true \/
        NoDup (map (@wt_key _ _ _ _ _ svc) (pending_of c)) /\ (forall p, In p (pending_of c) -> wpending_contains keq c (wt_key p) = true)
    | Ready (Ok _) => pending_of c = []
    | Ready (Er _) => True
    end.
  Proof.
    intros E. destruct (history_before _ _ _ E) as (o & c0 & w1 & _ & H & Es). destruct (polled_inv _ _ H Es) as (A & B & C).
    destruct a as [|[u|e]]; [|exact C|exact I]. destruct (calm_settled A C) as [D|D]; [now left|right].
    assert (T : forall p, In p (pending_of c) -> In (wt_key p, wt_pair p) (ix_txs (wc_ix c))).
    { intros p Hp. apply (v_act A p Hp). apply (D p Hp). }
    split.
    - assert (NP := NoDup_app_remove_r _ _ (v_pair A)). revert NP T. unfold pending_of. clear - A.
      induction (fu_tasks (wc_fu c)) as [|p ts IH]; intros NP T; [constructor|]. cbn in *. inversion NP as [|? ? N1 N2]; subst. constructor.
      + intros X. apply in_map_iff in X as (p' & Ek & Hp'). apply N1.
        assert (Ex : wt_pair p' = wt_pair p).
        { assert (T1 := T p' (or_intror Hp')). rewrite Ek in T1. exact (in_keys_eq _ _ _ _ (v_tx A) T1 (T p (or_introl eq_refl))). }
        rewrite <- Ex. now apply in_map.
      + apply IH; [exact N2|]. intros p' Hp'. apply T. now right.
    - intros p Hp. unfold wpending_contains. destruct (im_find keq (wt_key p) (ix_txs (wc_ix c))) as [x|] eqn:Ef; [reflexivity|].
      apply im_find_none in Ef. destruct Ef. exact (in_map fst _ _ (T p Hp)).
  Qed.
  (** No busy loop. *)
  Lemma fu_loop_idle fuel : forall y m len (c : wcache) w, (forall p, In p (fu_tasks (wc_fu c)) -> ~ In (wt_id p) (fu_queue (wc_fu c))) ->
    length (fu_queue (wc_fu c)) < fuel ->
    exists c1, fu_loop rings stop fuel y m len c w = (w, Val (c1, match fu_tasks (wc_fu c) with [] => Ready None | _ => Pending end)) /\
      wc_log c1 = wc_log c /\ wc_woken c1 = wc_woken c /\ wc_ix c1 = wc_ix c /\ fu_tasks (wc_fu c1) = fu_tasks (wc_fu c).
  Proof.
    induction fuel as [|fuel IH]; intros y m len [[ts q nx par] i wk log] w D L; [lia|].
    cbn [fu_loop wc_fu fu_tasks fu_queue fu_next fu_parent wc_log wc_woken wc_ix] in *.
    destruct q as [|t q].
    - exists (WCache (Fu ts [] nx par) i wk log). auto.
    - destruct (find_task t ts) as [p|] eqn:Ef.
      { destruct (find_task_some _ _ Ef) as [Hp Et]. destruct (D p Hp). now left. }
      destruct (IH y m len (WCache (Fu ts q nx par) i wk log) w) as (c1 & A).
      + cbn. intros p Hp X. apply (D p Hp). now right.
      + cbn in *. lia.
      + exists c1. exact A.
  Qed.
  Theorem cache_idle w0 l n b (c : wcache) w : nth_error (whistory keq rings stop w0 l) n = Some (b, c, w) ->
    (forall p, In p (pending_of c) -> exists t, waiting (wc_log c) (wt_sid p) (WkChild t)) ->
    exists c1, wstep keq rings stop CPoll (c, w) = Some (OPolled (match pending_of c with [] => Ready (Ok tt) | _ => Pending end), c1, w) /\
      wc_log c1 = wc_log c /\ wc_woken c1 = false /\ pending_of c1 = pending_of c /\ ix_ready (wc_ix c1) = ix_ready (wc_ix c).
  Proof.
    intros E Hw. assert (H := history_pinv _ _ _ E). cbn [wstep]. unfold wdo, wpoll_pending. cbn [wpoll_pending_loop]. unfold bind at 1, wpoll_next.
    match goal with |- context [fu_loop _ _ ?f ?y ?m ?len ?c0 w] => destruct (@fu_loop_idle f y m len c0 w) as (c1 & A & B & C & D & F) end.
    - cbn. intros p Hp. destruct (Hw p Hp) as (t & Ht). destruct (v_own H p t Hp Ht) as [-> N]. exact N.
    - cbn. lia.
    - cbn [wc_fu with_fu with_woken fu_tasks fu_queue fu_next fu_parent wc_log wc_woken wc_ix] in *.
      unfold pending_of. destruct (fu_tasks (wc_fu c)) as [|p ts] eqn:Et; cbn [length] in *; rewrite A; exists c1; rewrite D; repeat split; auto; congruence.
  Qed.
  (** A poll returns if the services do. *)
  Lemma flt_len A (f : A -> bool) l : length (List.filter f l) <= length l.
  Proof. induction l as [|a l IH]; cbn; [lia|]. destruct (f a); cbn; lia. Qed.
  Definition nlive (ts : list wtask) (q : list nat) : nat := length (List.filter (fun t => negb (live t ts)) q).
  Lemma live_ids t (ts ts' : list wtask) : map (@wt_id _ _ _ _ _ svc) ts = map (@wt_id _ _ _ _ _ svc) ts' -> live t ts = live t ts'.
  Proof. unfold live. now intros ->. Qed.
  Lemma nlive_ids (ts ts' : list wtask) q : map (@wt_id _ _ _ _ _ svc) ts = map (@wt_id _ _ _ _ _ svc) ts' -> nlive ts q = nlive ts' q.
  Proof. intros E. unfold nlive. f_equal. apply filter_ext. intros t. now rewrite (live_ids _ _ _ E). Qed.
  Lemma nlive_ring k (c : wcache) : nlive (fu_tasks (wc_fu (ring k c))) (fu_queue (wc_fu (ring k c))) = nlive (fu_tasks (wc_fu c)) (fu_queue (wc_fu c)).
  Proof.
    destruct k as [|t]; [reflexivity|]. cbn [ring]. destruct (live t (fu_tasks (wc_fu c)) && negb (memn t (fu_queue (wc_fu c)))) eqn:E; [|reflexivity].
    cbn [logged wc_fu fu_tasks fu_queue]. unfold nlive. rewrite filter_app, app_length. apply andb_true_iff in E as [E _]. cbn [List.filter]. rewrite E. cbn. lia.
  Qed.
  Lemma nlive_rings l : forall c : wcache, nlive (fu_tasks (wc_fu (ring_all l c))) (fu_queue (wc_fu (ring_all l c))) = nlive (fu_tasks (wc_fu c)) (fu_queue (wc_fu c)).
  Proof. induction l as [|k l IH]; intros c; [reflexivity|]. change (ring_all (k :: l) c) with (ring_all l (ring k c)). rewrite IH. apply nlive_ring. Qed.
  Context (prompt : forall s w, exists w1 s1 a, poll_ready svc s w = (w1, Val (s1, a))).
  Context (fair : forall y m, stop y m m = true).
  Lemma fu_loop_returns fuel : forall y m len (c : wcache) w, m <= len -> (fu_tasks (wc_fu c) <> [] -> m < len) ->
    nlive (fu_tasks (wc_fu c)) (fu_queue (wc_fu c)) + (len - m) < fuel ->
    exists w1 c1 a, fu_loop rings stop fuel y m len c w = (w1, Val (c1, a)) /\ length (fu_tasks (wc_fu c1)) <= length (fu_tasks (wc_fu c)) /\
      match a with Ready (Some _) => length (fu_tasks (wc_fu c1)) < length (fu_tasks (wc_fu c)) | _ => True end.
  Proof.
    induction fuel as [|fuel IH]; intros y m len [[ts q nx par] i wk log] w L0 L1 L; [lia|].
    cbn [fu_loop wc_fu fu_tasks fu_queue fu_next fu_parent wc_log wc_woken wc_ix] in *.
    destruct q as [|t q].
    - unfold ret. eexists _, _, _. split; [reflexivity|]. cbn. destruct ts; auto.
    - destruct (find_task t ts) as [p|] eqn:Ef.
      2:{ assert (Lt : live t ts = false).
          { destruct (live t ts) eqn:El; [|reflexivity]. apply live_in in El as (p & Hp & Et). now destruct (@find_task_none _ _ _ _ _ svc stop _ _ Ef p Hp). }
          destruct (IH y m len (WCache (Fu ts q nx par) i wk log) w L0 L1) as (w1 & c1 & a & A & B & C).
          - assert (Ln : nlive ts (t :: q) = S (nlive ts q)) by (unfold nlive; cbn [List.filter]; rewrite Lt; reflexivity).
            cbn [wc_fu fu_tasks fu_queue]. lia.
          - exists w1, c1, a. cbn in *. auto. }
      destruct (find_task_some _ _ Ef) as [Hp Et].
      assert (Lv : live t ts = true) by (apply live_in; eauto).
      assert (Ln : nlive ts (t :: q) = nlive ts q) by (unfold nlive; cbn [List.filter]; now rewrite Lv).
      assert (Lm : m < len) by (apply L1; intros ->; destruct Hp).
      assert (Dl : length (del_task t ts) < length ts).
      { unfold del_task. clear - Hp Et. induction ts as [|a ts IH]; [destruct Hp|]. cbn. destruct (Nat.eqb_spec (wt_id a) t) as [Ea|Na]; cbn.
        - assert (X := flt_len (fun p => negb (wt_id p =? t)) ts). lia.
        - destruct Hp as [->|Hp]; [congruence|]. specialize (IH Hp). lia. }
      destruct (memn (wt_pair p) (ix_canceled i)).
      + unfold bind, modify, fired, ret. eexists _, _, _. split; [reflexivity|]. rewrite rings_tasks. cbn. lia.
      + unfold bind at 1. destruct (prompt (wt_svc p) w) as (w2 & s1 & b & ->). destruct b as [|[u|e]].
        * unfold bind, fired, ret.
          match goal with |- context [ring_all ?r ?c2] => set (c2' := c2); set (c3 := ring_all r c2') end.
          assert (T3 : fu_tasks (wc_fu c3) = put_svc t s1 ts) by (unfold c3; now rewrite rings_tasks).
          assert (Ids : map (@wt_id _ _ _ _ _ svc) (put_svc t s1 ts) = map (@wt_id _ _ _ _ _ svc) ts) by (apply put_svc_map; reflexivity).
          assert (Lp : length (put_svc t s1 ts) = length ts) by (unfold put_svc; apply map_length).
          assert (N3 : nlive (fu_tasks (wc_fu c3)) (fu_queue (wc_fu c3)) = nlive ts q).
          { unfold c3. rewrite nlive_rings. unfold c2'. cbn. now apply nlive_ids. }
          destruct (stop _ (S m) len) eqn:Es.
          -- eexists _, _, _. split; [reflexivity|]. cbn. rewrite T3, Lp. auto.
          -- assert (Lm' : S m <> len) by (intros <-; rewrite fair in Es; discriminate).
             match goal with |- context [fu_loop _ _ _ ?y' _ _ _ _] => destruct (IH y' (S m) len c3 w2) as (w1 & c1 & a & A & B & C) end; [lia|lia|lia|].
             exists w1, c1, a. rewrite T3, Lp in B, C. cbn. auto.
        * unfold bind, fired, ret. eexists _, _, _. split; [reflexivity|]. rewrite rings_tasks. cbn. lia.
        * unfold bind, modify, fired, ret. eexists _, _, _. split; [reflexivity|]. rewrite rings_tasks. cbn. lia.
  Qed.
  Lemma poll_pending_returns fuel : forall (c : wcache) w, pinv c -> length (fu_tasks (wc_fu c)) < fuel ->
    exists w1 c1 a, wpoll_pending_loop keq rings stop fuel c w = (w1, Val (c1, a)).
  Proof.
    induction fuel as [|fuel IH]; intros c w H L; [lia|]. cbn [wpoll_pending_loop]. unfold bind at 1, wpoll_next.
    match goal with |- context [fu_loop _ _ ?f ?y ?m ?len ?c0 w] => set (c0' := c0); destruct (@fu_loop_returns f y m len c0' w) as (w1 & c1 & a & A & B & C) end.
    - lia.
    - cbn. destruct (fu_tasks (wc_fu c)); [congruence|cbn; lia].
    - assert (X : nlive (fu_tasks (wc_fu c)) (fu_queue (wc_fu c)) <= length (fu_queue (wc_fu c))) by (unfold nlive; apply flt_len).
      change (nlive (fu_tasks (wc_fu c0')) (fu_queue (wc_fu c0'))) with (nlive (fu_tasks (wc_fu c)) (fu_queue (wc_fu c))). lia.
    - rewrite A.
      assert (H0 : winv c0') by (unfold winv; constructor; try (apply H); cbn; now left).
      assert (A0 : armed c0') by (left; reflexivity).
      destruct (fu_loop_ok _ _ _ _ _ _ _ H0 A0 A) as (B1 & B2 & B3 & B4). change (fu_tasks (wc_fu c0')) with (fu_tasks (wc_fu c)) in B, C.
      destruct a as [|[[k sid s x|k|k e]|]]; try (eexists _, _, _; reflexivity).
      + destruct B3 as [Bk Bl]. assert (P := im_swap_remove_spec keq (ix_txs (wc_ix c1)) k).
        destruct (im_swap_remove keq k (ix_txs (wc_ix c1))) as [[tx txs1]|]; [|destruct P; exact (in_map fst _ _ Bk)].
        destruct Bl as (M1 & M2 & M3 & M4 & M5). destruct (winv_untx _ B1 Bk M3 P) as [-> V].
        assert (V2 := @winv_insert _ _ _ _ _ keq _ _ k sid s x V (conj M1 (conj M2 (conj M3 (conj M4 M5))))).
        destruct (im_insert keq k (sid, s, x) (ix_ready (wc_ix c1))) as [ready1 old] eqn:Ei.
        change (ix_ready (wc_ix (set_maps txs1 (ix_ready (wc_ix c1)) c1))) with (ix_ready (wc_ix c1)) in V2. rewrite Ei in V2. cbn [fst] in V2.
        unfold bind, modify. apply IH; [exact (pinv_winv V2)|cbn; lia].
      + apply IH; [exact (pinv_winv B1)|lia].
      + destruct B3 as (x & Bk & Bx). assert (P := im_swap_remove_spec keq (ix_txs (wc_ix c1)) k).
        destruct (im_swap_remove keq k (ix_txs (wc_ix c1))) as [[tx txs1]|]; [|destruct P; exact (in_map fst _ _ Bk)].
        eexists _, _, _. reflexivity.
  Qed.
  Theorem cache_returns w0 l n b (c : wcache) w : nth_error (whistory keq rings stop w0 l) n = Some (b, c, w) ->
    exists a c1 w1, wstep keq rings stop CPoll (c, w) = Some (OPolled a, c1, w1).
  Proof.
    intros E. assert (H := history_pinv _ _ _ E). destruct (@poll_pending_returns (S (wpending_len (with_woken false c))) (with_woken false c) w (pinv_woken false H)) as (w1 & c1 & a & A); [apply Nat.lt_succ_diag_r|].
    exists a, c1, w1. cbn [wstep]. unfold wdo, wpoll_pending. now rewrite A.
  Qed.
End Bal.
