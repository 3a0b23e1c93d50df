(** ReadyCache never loses a wake-up: every operation. *)
From Coq Require Import Permutation.
From Verif Require Import Base Middleware ReadyCache CacheProof WakeCache RingSpec RingProof RingLoop.
Set Implicit Arguments.

Section Top.
  Context {W K Req Resp Err : Type} (keq : forall a b : K, {a = b} + {a <> b}).
  Context (svc : Service W Req Resp Err).
  Context (rings : W -> list waker).
  Notation wcache := (wcache (K := K) svc).
  Notation wtask := (wtask (K := K) svc).
  Notation inv := (Inv (svc := svc) (K := K)).

  (** *** Operations on a cache whose task is woken *)
  Lemma ring_true k (c : wcache) : ring k (with_woken true c) = with_woken true (ring k c).
  Proof. destruct k as [|t]; cbn; [reflexivity|]. destruct (_ && _); reflexivity. Qed.
  Lemma rings_true l : forall c : wcache, ring_all l (with_woken true c) = with_woken true (ring_all l c).
  Proof. induction l as [|k l IH]; intros c; [reflexivity|]. cbn [ring_all fold_left]. rewrite ring_true. apply IH. Qed.
  Lemma cancel_true x (c : wcache) : cancel x (with_woken true c) = with_woken true (cancel x c).
  Proof. unfold cancel. cbn [wc_ix with_woken]. destruct (find_reg x (ix_regs (wc_ix c))); [rewrite <- ring_true|]; reflexivity. Qed.
  Lemma push_pending_true (c : wcache) k sid s x :
    wpush_pending keq (with_woken true c) k sid s x = with_woken true (wpush_pending keq c k sid s x).
  Proof.
    unfold wpush_pending. cbn [wc_ix with_woken]. destruct (im_insert keq k x (ix_txs (wc_ix c))) as [txs1 [x0|]]; [|reflexivity].
    change (set_maps txs1 (ix_ready (wc_ix c)) (with_woken true c)) with (with_woken true (set_maps txs1 (ix_ready (wc_ix c)) c)).
    rewrite cancel_true. reflexivity.
  Qed.
  Lemma pinv_ring k (c : wcache) : pinv c -> pinv (ring k c).
  Proof. unfold pinv. rewrite <- ring_true. apply winv_ring. Qed.
  Lemma pinv_rings l (c : wcache) : pinv c -> pinv (ring_all l c).
  Proof. unfold pinv. rewrite <- rings_true. apply winv_rings. Qed.
  Lemma pinv_cancel x (c : wcache) : pinv c -> pinv (cancel x c).
  Proof. unfold pinv. rewrite <- cancel_true. apply winv_cancel. Qed.
  Lemma pinv_push_pending (c : wcache) k sid s x : pinv c -> loose_c c sid x -> pinv (wpush_pending keq c k sid s x).
  Proof. unfold pinv. rewrite <- push_pending_true. intros H L. apply winv_push_pending; [exact H|exact L]. Qed.
  Lemma pinv_push (c : wcache) k s : pinv c -> pinv (wpush keq c k s).
  Proof. unfold pinv, wpush. rewrite <- push_pending_true. apply (winv_push keq (c := with_woken true c)). Qed.
  Lemma pinv_unready (c : wcache) e r' : pinv c -> Permutation (ix_ready (wc_ix c)) (e :: r') ->
    pinv (set_maps (ix_txs (wc_ix c)) r' c) /\ loose_c (set_maps (ix_txs (wc_ix c)) r' c) (rsid e) (rpair e).
  Proof. intros H P. exact (Inv_unready H P). Qed.
  Lemma pinv_woken b (c : wcache) : pinv c -> pinv (with_woken b c).
  Proof. exact (fun H => H). Qed.

  (** *** No operation loses the parent's waker *)
  Lemma armed_push_pending (c : wcache) k sid s x : armed c -> armed (wpush_pending keq c k sid s x).
  Proof.
    intros H. unfold wpush_pending. destruct (im_insert keq k x (ix_txs (wc_ix c))) as [txs1 [x0|]]; [|exact H].
    exact (armed_cancel x0 (c := set_maps txs1 (ix_ready (wc_ix c)) c) H).
  Qed.
  Lemma ext_push_pending (c : wcache) k sid s x : ext c (wpush_pending keq c k sid s x).
  Proof.
    unfold wpush_pending. destruct (im_insert keq k x (ix_txs (wc_ix c))) as [txs1 [x0|]]; [|apply ext_same; auto].
    eapply ext_trans; [apply (@ext_same _ _ _ _ _ svc c (set_maps txs1 (ix_ready (wc_ix c)) c)); auto|].
    eapply ext_trans; [apply (ext_cancel x0)|]. apply ext_same; auto.
  Qed.

  (** *** evict *)
  Lemma evict_ok (c : wcache) k w w1 c1 b : pinv c -> wevict keq rings c k w = (w1, Val (c1, b)) ->
    pinv c1 /\ (armed c -> armed c1) /\ ext c c1.
  Proof.
    intros H E. unfold wevict in E.
    assert (I := im_swap_remove_spec keq (ix_txs (wc_ix c)) k).
    set (mid := match im_swap_remove keq k (ix_txs (wc_ix c)) with Some (x, txs1) => _ | None => _ end) in E.
    assert (M : pinv (fst mid) /\ (armed c -> armed (fst mid)) /\ ext c (fst mid)).
    { subst mid. destruct (im_swap_remove keq k (ix_txs (wc_ix c))) as [[x txs1]|]; cbn [fst]; [|split; [exact H|split; [auto|apply ext_refl]]].
      split; [|split].
      - rewrite cancel_set_maps. destruct (cancel_maps x c) as (F1 & F2 & F3 & F4 & F5). rewrite <- F2.
        assert (N := Permutation_NoDup (Permutation_map fst I) (v_tx H)). cbn in N. inversion N as [|? ? N1 N2]; subst.
        assert (Hc := pinv_cancel x H). refine (@Inv_txs _ _ _ _ _ _ _ _ _ _ _ _ _ txs1 Hc N2 _).
        intros p Hp Nc. assert (X := v_act Hc p Hp Nc). cbn [wc_ix with_woken] in X, Nc. rewrite F1 in X. rewrite F3 in Nc.
        apply (Permutation_in _ I) in X as [X|X]; [|exact X]. injection X as _ X. destruct Nc. now left.
      - exact (fun A => armed_cancel x (c := set_maps txs1 (ix_ready (wc_ix c)) c) A).
      - eapply ext_trans; [|apply ext_cancel]. apply ext_same; auto. }
    destruct mid as [cm hit]. cbn [fst] in M. destruct M as (M1 & M2 & M3).
    assert (P := im_swap_remove_spec keq (ix_ready (wc_ix cm)) k).
    destruct (im_swap_remove keq k (ix_ready (wc_ix cm))) as [[[[sid s] x] ready1]|].
    - unfold bind, modify, fired, ret in E. injection E as <- <- <-.
      destruct (pinv_unready M1 P) as [U _].
      split; [apply pinv_rings, U|]. split; [intros A; apply armed_rings; exact (M2 A)|].
      eapply ext_trans; [exact M3|]. eapply ext_trans; [|apply ext_rings]. apply ext_same; auto.
    - injection E as <- <- <-. auto.
  Qed.

  (** *** check_ready_index *)
  Lemma Inv_same_ready ts q nx par i wk log r' : inv ts q nx par i wk log ->
    map rsid r' = map rsid (ix_ready i) -> map rpair r' = map rpair (ix_ready i) ->
    inv ts q nx par (Ix (ix_txs i) r' (ix_canceled i) (ix_regs i) (ix_fresh i) (ix_sids i)) wk log.
  Proof.
    intros H E1 E2. apply Inv_maps; auto; try (apply H).
    - unfold sids_of. rewrite E1. apply H.
    - rewrite E1. intros x Hx. apply (v_sidlt H). apply in_or_app. now right.
    - unfold pairs_of. rewrite E2. apply H.
    - rewrite E2. intros x Hx. apply (v_pairlt H). apply in_or_app. now right.
    - intros x t Hx. assert (X : In (rsid x) (map rsid (ix_ready i))) by (rewrite <- E1; now apply in_map).
      apply in_map_iff in X as (x0 & <- & X). now apply (v_rdy H).
  Qed.
  Lemma Inv_task_poll ts q nx par i wk log sid b : ~ In sid (map (@wt_sid _ _ _ _ _ svc) ts) -> sid < ix_sids i ->
    inv ts q nx par i wk log -> inv ts q nx par i wk (EPoll sid WkTask b :: log).
  Proof.
    intros N L H.
    assert (Hne : forall p, In p ts -> (sid =? wt_sid p) = false).
    { intros p Hp. apply Nat.eqb_neq. intros ->. apply N. now apply in_map. }
    constructor; try (apply H).
    - intros p Hp. destruct (v_wait H p Hp) as [A|(A & B)]; [now left|right]. split; [|exact B]. cbn. now rewrite Hne.
    - intros p t Hp A. cbn in A. rewrite Hne in A by exact Hp. now apply (v_own H).
    - intros x t Hx A. cbn in A. destruct (sid =? rsid x); [destruct A as [_ A]; discriminate|]. exact (v_rdy H _ _ Hx A).
    - intros j k' b' [A|A]; [injection A as <- _ _; exact L|exact (v_log H _ _ _ A)].
    - intros (j & t & b' & [A|A]); [discriminate|]. apply (v_par H). now exists j, t, b'.
  Qed.
  Lemma set_nth_same A B (f : A -> B) (l : list A) : forall n x y, nth_error l n = Some x -> f y = f x -> map f (set_nth n y l) = map f l.
  Proof.
    induction l as [|a l IH]; intros [|n] x y E F; try discriminate; cbn in *.
    - injection E as ->. now rewrite F.
    - f_equal. eauto.
  Qed.
  Lemma rsid_apart ts (rd : list (K * (nat * st svc * nat))) x : NoDup (sids_of ts rd) -> In x rd -> ~ In (rsid x) (map (@wt_sid _ _ _ _ _ svc) ts).
  Proof.
    intros N Hx X. unfold sids_of in N. apply in_split in X as (a & b & E). rewrite E in N. rewrite <- app_assoc in N. cbn in N.
    apply NoDup_remove_2 in N. apply N. apply in_or_app. right. apply in_or_app. right. now apply in_map.
  Qed.
  (** Everyone pending waits, or the task is woken. *)
  Definition quiet (c : wcache) : Prop :=
    wc_woken c = true \/ forall p, In p (fu_tasks (wc_fu c)) -> exists k, waiting (wc_log c) (wt_sid p) k.
  Lemma waker_dec (a b : waker) : {a = b} + {a <> b}.
  Proof. decide equality. apply Nat.eq_dec. Qed.
  Lemma waiting_ring log i k k' : k' <> k -> waiting log i k -> waiting (ERing k' :: log) i k.
  Proof. cbn. auto. Qed.
  Lemma quiet_ring k (c : wcache) : pinv c -> armed c -> quiet c -> quiet (ring k c).
  Proof.
    intros H A [Q|Q]; [left; now apply woken_ring|].
    destruct k as [|t]; [now left|].
    destruct (live t (fu_tasks (wc_fu c)) && negb (memn t (fu_queue (wc_fu c)))) eqn:E.
    - left. cbn [ring]. rewrite E. cbn. destruct A as [->| ->]; [apply orb_true_r|reflexivity].
    - right. cbn [ring]. rewrite E. cbn [logged wc_fu wc_log fu_tasks]. intros p Hp. destruct (Q p Hp) as (k & Hk). exists k.
      apply waiting_ring; [|exact Hk]. intros <-. destruct (v_own H p t Hp Hk) as [-> Nq]. cbn in Nq.
      apply andb_false_iff in E as [E|E].
      + assert (X : live (wt_id p) (fu_tasks (wc_fu c)) = true) by (apply live_in; eauto). congruence.
      + apply negb_false_iff, memn_in in E. tauto.
  Qed.
  Lemma quiet_rings l : forall c : wcache, pinv c -> armed c -> quiet c -> quiet (ring_all l c).
  Proof.
    induction l as [|k l IH]; intros c H A Q; [exact Q|]. cbn. apply IH; [apply pinv_ring, H|apply armed_ring, A|now apply quiet_ring].
  Qed.
  Lemma quiet_cancel x (c : wcache) : pinv c -> armed c -> quiet c -> quiet (cancel x c).
  Proof.
    intros H A Q. unfold cancel. destruct (find_reg x (ix_regs (wc_ix c))) as [t|]; [|exact Q].
    set (c1 := with_ix _ c). assert (Q1 : quiet c1) by exact Q. destruct Q1 as [Q1|Q1]; [left; now apply woken_ring|].
    destruct (live t (fu_tasks (wc_fu c)) && negb (memn t (fu_queue (wc_fu c)))) eqn:E.
    - left. cbn [ring]. change (wc_fu c1) with (wc_fu c). rewrite E. cbn. destruct A as [->| ->]; [apply orb_true_r|reflexivity].
    - right. cbn [ring]. change (wc_fu c1) with (wc_fu c). rewrite E. cbn [logged wc_fu wc_log fu_tasks c1 with_ix]. intros p Hp. destruct (Q1 p Hp) as (k & Hk). exists k.
      apply waiting_ring; [|exact Hk]. intros <-. destruct (v_own H p t Hp Hk) as [-> Nq]. cbn in Nq.
      apply andb_false_iff in E as [E|E].
      + assert (X : live (wt_id p) (fu_tasks (wc_fu c)) = true) by (apply live_in; eauto). congruence.
      + apply negb_false_iff, memn_in in E. tauto.
  Qed.
  Lemma quiet_evict (c : wcache) k w w1 c1 b : pinv c -> armed c -> quiet c -> wevict keq rings c k w = (w1, Val (c1, b)) -> quiet c1.
  Proof.
    intros H A Q E. unfold wevict in E.
    assert (I := im_swap_remove_spec keq (ix_txs (wc_ix c)) k).
    set (mid := match im_swap_remove keq k (ix_txs (wc_ix c)) with Some (x, txs1) => _ | None => _ end) in E.
    assert (M : pinv (fst mid) /\ armed (fst mid) /\ quiet (fst mid)).
    { subst mid. destruct (im_swap_remove keq k (ix_txs (wc_ix c))) as [[x txs1]|]; cbn [fst]; [|auto].
      rewrite cancel_set_maps. split; [|split].
      - destruct (cancel_maps x c) as (F1 & F2 & F3 & F4 & F5). rewrite <- F2.
        assert (N := Permutation_NoDup (Permutation_map fst I) (v_tx H)). cbn in N. inversion N as [|? ? N1 N2]; subst.
        assert (Hc := pinv_cancel x H). refine (@Inv_txs _ _ _ _ _ _ _ _ _ _ _ _ _ txs1 Hc N2 _).
        intros p Hp Nc. assert (X := v_act Hc p Hp Nc). cbn [wc_ix with_woken] in X, Nc. rewrite F1 in X. rewrite F3 in Nc.
        apply (Permutation_in _ I) in X as [X|X]; [|exact X]. injection X as _ X. destruct Nc. now left.
      - exact (armed_cancel x A).
      - exact (quiet_cancel x H A Q). }
    destruct mid as [cm hit]. cbn [fst] in M. destruct M as (M1 & M2 & M3).
    assert (P := im_swap_remove_spec keq (ix_ready (wc_ix cm)) k).
    destruct (im_swap_remove keq k (ix_ready (wc_ix cm))) as [[[[sid s] x] ready1]|].
    - unfold bind, modify, fired, ret in E. injection E as <- <- <-.
      destruct (pinv_unready M1 P) as [U _]. apply quiet_rings; [exact U|exact M2|exact M3].
    - injection E as <- <- <-. auto.
  Qed.

  Lemma check_ok (c : wcache) n w w1 c1 a : pinv c -> wcheck_ready_index keq rings c n w = (w1, Val (c1, a)) ->
    pinv c1 /\ (armed c -> armed c1) /\ ext c c1 /\ (armed c -> quiet c -> quiet c1).
  Proof.
    intros H E. unfold wcheck_ready_index in E.
    destruct (nth_error (ix_ready (wc_ix c)) n) as [[k [[sid s] x]]|] eqn:En.
    2:{ injection E as <- <- <-. split; [exact H|]. split; [auto|]. split; [apply ext_refl|auto]. }
    unfold bind in E. destruct (poll_ready svc s w) as [w2 [[s1 b]| |]]; try discriminate.
    set (ready1 := set_nth n (k, (sid, s1, x)) (ix_ready (wc_ix c))) in E.
    set (c0 := fun b => logged (EPoll sid WkTask b) (set_maps (ix_txs (wc_ix c)) ready1 c)) in E.
    assert (Hi : In (k, (sid, s, x)) (ix_ready (wc_ix c))) by (eapply nth_error_In; eauto).
    assert (Hs : ~ In sid (map (@wt_sid _ _ _ _ _ svc) (fu_tasks (wc_fu c)))) by exact (rsid_apart _ _ _ (v_sid H) Hi).
    assert (Hl : sid < ix_sids (wc_ix c)) by (apply (v_sidlt H), in_or_app; right; exact (in_map rsid _ _ Hi)).
    assert (H0 : forall b, pinv (c0 b)).
    { intros b'. refine (@Inv_task_poll _ _ _ _ (wc_ix (c0 b')) _ _ sid b' Hs Hl _).
      apply (Inv_same_ready ready1 H); unfold ready1; eapply set_nth_same; eauto. }
    assert (A0 : forall b, armed c -> armed (c0 b)) by (intros b' A; exact A).
    assert (E0 : forall b, ext c (c0 b)) by (intros b'; eapply ext_logged; [reflexivity|auto]).
    assert (Q0 : forall b, quiet c -> quiet (c0 b)).
    { intros b' [Q|Q]; [now left|right]. intros p Hp. destruct (Q p Hp) as (k' & Hk). exists k'. cbn.
      destruct (Nat.eqb_spec sid (wt_sid p)) as [X|_]; [|exact Hk]. destruct Hs. rewrite X. now apply in_map. }
    destruct b as [|[u|e]].
    - change (ix_ready (wc_ix c)) with (ix_ready (wc_ix c)) in E.
      assert (P := swap_remove_spec ready1 n). destruct (swap_remove n ready1) as [[[key [[sd sv] xk]] ready2]|]; [|discriminate].
      destruct P as [P0 P]. destruct (@pinv_unready (c0 true) _ _ (H0 true) P) as [U L].
      change (ix_txs (wc_ix (c0 true))) with (ix_txs (wc_ix c)) in U, L.
      set (c2 := set_maps (ix_txs (wc_ix c)) ready2 (c0 true)) in *.
      assert (E2 : ext c c2) by (eapply ext_trans; [apply (E0 true)|]; apply ext_same; auto).
      assert (Esd : sd = sid).
      { unfold ready1 in P0. clear - P0 En. revert n P0 En. induction (ix_ready (wc_ix c)) as [|a l IH]; intros [|n] P0 En; try discriminate; cbn in *; [congruence|eauto]. }
      change (logged (EPoll sid WkTask true) (set_maps (ix_txs (wc_ix c)) ready1 c)) with (c0 true) in E. fold c2 in E.
      destruct (wpending_contains keq c2 key) eqn:Ek.
      + unfold modify, fired, ret in E. injection E as <- <- <-.
        split; [apply pinv_rings, U|]. split; [intros A; apply armed_rings, A|].
        split; [eapply ext_trans; [exact E2|apply ext_rings]|]. intros A Q. apply quiet_rings; [exact U|exact A|]. exact (Q0 true Q).
      + unfold fired, ret in E. injection E as <- <- <-.
        assert (U2 : pinv (wpush_pending keq c2 key sd sv xk)) by (apply pinv_push_pending; [exact U|exact L]).
        split; [apply pinv_rings, U2|]. split; [intros A; apply armed_rings, armed_push_pending, A|].
        split; [eapply ext_trans; [exact E2|]; eapply ext_trans; [apply ext_push_pending|apply ext_rings]|].
        intros A Q. apply quiet_rings; [exact U2|now apply armed_push_pending|].
        unfold wpending_contains in Ek. unfold wpush_pending. assert (I := im_insert_spec keq (ix_txs (wc_ix c2)) key xk).
        destruct (im_insert keq key xk (ix_txs (wc_ix c2))) as [txs1 [x0|]].
        { exfalso. destruct I as (a0 & b0 & I1 & _). destruct (im_find keq key (ix_txs (wc_ix c2))) as [[? ?]|] eqn:Ef; [discriminate|].
          apply im_find_none in Ef. apply Ef. rewrite I1, map_app. apply in_or_app. right. now left. }
        destruct (Q0 true Q) as [Q1|Q1]; [now left|right]. cbn [with_fu wc_fu fu_tasks wc_log set_maps with_ix]. intros p Hp.
        apply in_snoc in Hp as [Hp| ->]; [exact (Q1 p Hp)|]. exists WkTask. cbn. rewrite Esd, Nat.eqb_refl. auto.
    - unfold fired, ret in E. injection E as <- <- <-. split; [apply pinv_rings, H0|]. split; [intros A; apply armed_rings, A0, A|].
      split; [eapply ext_trans; [apply (E0 false)|apply ext_rings]|]. intros A Q. apply quiet_rings; [exact (H0 false)|exact A|exact (Q0 false Q)].
    - assert (P := swap_remove_spec ready1 n). destruct (swap_remove n ready1) as [[[key [[sd sv] xk]] ready2]|]; [|discriminate].
      destruct P as [P0 P]. destruct (@pinv_unready (c0 false) _ _ (H0 false) P) as [U L].
      change (ix_txs (wc_ix (c0 false))) with (ix_txs (wc_ix c)) in U, L.
      unfold modify, fired, ret in E. injection E as <- <- <-.
      split; [apply pinv_rings, U|]. split; [intros A; apply armed_rings, A|].
      split; [eapply ext_trans; [apply (E0 false)|]; eapply ext_trans; [|apply ext_rings]; apply ext_same; auto|].
      intros A Q. apply quiet_rings; [exact U|exact A|exact (Q0 false Q)].
  Qed.

  (** *** call_ready_index *)
  Lemma call_ok (c : wcache) n r w w1 c1 f : pinv c -> wcall_ready_index keq rings c n r w = (w1, Val (c1, f)) ->
    pinv c1 /\ (armed c -> armed c1) /\ ext c c1.
  Proof.
    intros H E. unfold wcall_ready_index in E. assert (P := swap_remove_spec (ix_ready (wc_ix c)) n).
    destruct (swap_remove n (ix_ready (wc_ix c))) as [[[k [[sid s] x]] ready1]|]; [|discriminate]. destruct P as [_ P].
    unfold bind in E. destruct (call svc s r w) as [w2 [[s1 g]| |]]; try discriminate.
    destruct (pinv_unready H P) as [U L]. set (c0 := set_maps (ix_txs (wc_ix c)) ready1 c) in *.
    destruct (wpending_contains keq c0 k).
    - unfold modify, fired, ret in E. injection E as <- <- <-. split; [apply pinv_rings, U|]. split; [intros A; apply armed_rings, A|].
      eapply ext_trans; [|apply ext_rings]. apply ext_same; auto.
    - unfold fired, ret in E. injection E as <- <- <-. split; [apply pinv_rings, pinv_push_pending; [exact U|exact L]|].
      split; [intros A; apply armed_rings, armed_push_pending, A|].
      eapply ext_trans; [|apply ext_rings]. eapply ext_trans; [|apply ext_push_pending]. apply ext_same; auto.
  Qed.
End Top.
