(** Refinement: the cache and the Balance with wakers, without them. *)
From Coq Require Import Permutation.
From Verif Require Import Base Middleware ReadyCache CacheProof WakeCache RingSpec RingProof RingLoop RingTop RingBal RingBal2 RefineSpec.
Set Implicit Arguments.

(** *** Index maps with mapped values *)
Section Maps.
  Context {K V U : Type} (keq : forall a b : K, {a = b} + {a <> b}) (f : V -> U).
  Definition onv (x : K * V) : K * U := (fst x, f (snd x)).
  Lemma find_onv k (m : list (K * V)) : im_find keq k (map onv m) = match im_find keq k m with Some (i, v) => Some (i, f v) | None => None end.
  Proof.
    induction m as [|[k1 v] m IH]; cbn; [reflexivity|]. destruct (keq k1 k); [reflexivity|]. rewrite IH. now destruct (im_find keq k m) as [[i v1]|].
  Qed.
  Lemma set_nth_map A B (g : A -> B) i x (l : list A) : set_nth i (g x) (map g l) = map g (set_nth i x l).
  Proof. revert i. induction l as [|a l IH]; intros [|i]; cbn; [reflexivity..|]. now rewrite IH. Qed.
  Lemma removelast_map A B (g : A -> B) (l : list A) : removelast (map g l) = map g (removelast l).
  Proof. induction l as [|a [|b l] IH]; [reflexivity..|]. cbn in *. now rewrite IH. Qed.
  Lemma swap_remove_map A B (g : A -> B) i (l : list A) :
    swap_remove i (map g l) = match swap_remove i l with Some (x, l1) => Some (g x, map g l1) | None => None end.
  Proof.
    unfold swap_remove. rewrite nth_error_map. destruct (nth_error l i) as [x|]; [|reflexivity]. cbn [option_map]. rewrite <- map_rev.
    destruct (rev l) as [|z r]; [reflexivity|]. cbn [map]. rewrite map_length, removelast_map, set_nth_map. now destruct (S i =? length l).
  Qed.
  Lemma im_swap_remove_onv k (m : list (K * V)) :
    im_swap_remove keq k (map onv m) = match im_swap_remove keq k m with Some (v, m1) => Some (f v, map onv m1) | None => None end.
  Proof.
    unfold im_swap_remove. rewrite find_onv. destruct (im_find keq k m) as [[i v]|]; [|reflexivity]. rewrite swap_remove_map.
    now destruct (swap_remove i m) as [[[k1 v1] m1]|].
  Qed.
  Lemma im_insert_onv k v (m : list (K * V)) :
    im_insert keq k (f v) (map onv m) = (map onv (fst (im_insert keq k v m)), match snd (im_insert keq k v m) with Some v0 => Some (f v0) | None => None end).
  Proof.
    induction m as [|[k1 v1] m IH]; cbn; [reflexivity|]. destruct (keq k1 k); [reflexivity|].
    change (im_insert keq k (f v) (map onv m)) with (im_insert keq k (f v) (map onv m)) in IH. rewrite IH. now destruct (im_insert keq k v m) as [m1 o].
  Qed.
End Maps.

Section Sim.
  Context {W : Type}.
  (** Running [m'] with a suitable tape does what [m] does. *)
  Definition sim {A A'} (w : W) (m : M W A) (m' : M (W * tape) A') (f : A -> A') : Prop :=
    match m w with
    | (w1, Val a) => exists used, forall rest, m' (w, used ++ rest) = ((w1, rest), Val (f a))
    | (w1, Panic) => exists used, forall rest, m' (w, used ++ rest) = ((w1, rest), Panic)
    | (_, Diverge) => True
    end.
  Lemma sim_ret A A' w (a : A) (f : A -> A') a' : a' = f a -> sim w (ret a) (ret a') f.
  Proof. intros ->. exists []. reflexivity. Qed.
  Lemma sim_panic A A' w (f : A -> A') : sim w panic panic f.
  Proof. exists []. reflexivity. Qed.
  Lemma sim_diverge A A' w m' (f : A -> A') : sim w diverge m' f.
  Proof. exact I. Qed.
  Lemma sim_off A w (m : M W A) : sim w m (off m) (fun a => a).
  Proof. unfold sim, off. destruct (m w) as [w1 [a| |]] eqn:E; [exists []|exists []|exact I]; intros rest; cbn; now rewrite E. Qed.
  Lemma sim_modify w g : sim w (modify g) (modify (offw g)) (fun a => a).
  Proof. exists []. reflexivity. Qed.
  Lemma sim_bind A A' B B' w (m : M W A) (m' : M (W * tape) A') (f : A -> A') (k : A -> M W B) (k' : A' -> M (W * tape) B') (g : B -> B') :
    sim w m m' f -> (forall a w1, m w = (w1, Val a) -> sim w1 (k a) (k' (f a)) g) -> sim w (bind m k) (bind m' k') g.
  Proof.
    unfold sim, bind. intros H Hk. destruct (m w) as [w1 [a| |]] eqn:E.
    - destruct H as (u1 & H1). specialize (Hk a w1 eq_refl). destruct (k a w1) as [w2 [b| |]]; [| |exact I].
      + destruct Hk as (u2 & H2). exists (u1 ++ u2). intros rest. rewrite <- app_assoc, H1. apply H2.
      + destruct Hk as (u2 & H2). exists (u1 ++ u2). intros rest. rewrite <- app_assoc, H1. apply H2.
    - destruct H as (u1 & H1). exists u1. intros rest. now rewrite H1.
    - exact I.
  Qed.
  Lemma sim_skip A A' B w (m : M W A) (k : A -> M W B) (m' : M (W * tape) A') f w1 a : m w = (w1, Val a) -> w1 = w -> sim w (k a) m' f -> sim w (bind m k) m' f.
  Proof. unfold sim, bind. intros E -> H. now rewrite E. Qed.
End Sim.

Section Ref.
  Context {W K Req Resp Err : Type} (keq : forall a b : K, {a = b} + {a <> b}).
  Context (svc : Service W Req Resp Err).
  Context (rings : W -> list waker) (stop : nat -> nat -> nat -> bool).
  Notation wcache := (wcache (K := K) svc).
  Notation wtask := (wtask (K := K) svc).
  Notation ocache := (cache (K := K) (taped svc)).
  Notation forget := (forget (K := K) (svc := svc)).

  Definition fv (x : nat * st svc * nat) : st (taped svc) * nat := let '(_, s, t) := x in (s, t).
  Lemma forget_onv (l : list (K * (nat * st svc * nat))) : map (@forget_ready _ _ _ _ _ svc) l = map (onv fv) l.
  Proof. apply map_ext. intros [k [[i s] t]]. reflexivity. Qed.
  Lemma forget_rings l (c : wcache) : forget (ring_all l c) = forget c.
  Proof. unfold RefineSpec.forget. now rewrite rings_tasks, rings_ix. Qed.
  Lemma forget_set_maps txs rd (c : wcache) : forget (set_maps txs rd c) =
    Cache (svc := taped svc) (rc_pending (forget c)) txs (map (@forget_ready _ _ _ _ _ svc) rd) (rc_canceled (forget c)) (rc_fresh (forget c)).
  Proof. reflexivity. Qed.
  Lemma forget_cancel x (c : wcache) : forget (cancel x c) =
    Cache (svc := taped svc) (rc_pending (forget c)) (rc_txs (forget c)) (rc_ready (forget c)) (set_canceled x (rc_canceled (forget c))) (rc_fresh (forget c)).
  Proof.
    unfold RefineSpec.forget. destruct (cancel_maps x c) as (E1 & E2 & E3 & E4 & _). now rewrite cancel_tasks, E1, E2, E3, E4.
  Qed.
  (** A continuation that lets wakers fire. *)
  Lemma sim_fired A A' w (c : wcache) (k : wcache -> M W A) (m' : M (W * tape) A') f :
    sim w (k (ring_all (rings w) c)) m' f -> sim w (bind (fired rings c) k) m' f.
  Proof. intros H. eapply sim_skip; [reflexivity|reflexivity|exact H]. Qed.

  Definition fpair {A} (x : wcache * A) : ocache * A := (forget (fst x), snd x).

  Lemma evict_sim (c : wcache) k w : sim w (wevict keq rings c k) (evict keq (forget c) k) fpair.
  Proof.
    unfold wevict, evict. cbn [rc_txs rc_ready RefineSpec.forget]. rewrite !forget_onv, im_swap_remove_onv.
    destruct (im_swap_remove keq k (ix_txs (wc_ix c))) as [[x txs1]|].
    - rewrite cancel_set_maps. cbn [wc_ix set_maps with_ix ix_ready]. destruct (cancel_maps x c) as (E1 & E2 & E3 & E4 & E5).
      destruct (im_swap_remove keq k (ix_ready (wc_ix c))) as [[[[sid s] t] r1]|].
      + cbn [fv]. eapply sim_bind; [apply sim_modify|]. intros [] w1 _. apply sim_fired. apply sim_ret. unfold fpair. cbn [fst snd].
        rewrite forget_rings. f_equal. unfold RefineSpec.forget. cbn. now rewrite cancel_tasks, E3, E4, forget_onv.
      + apply sim_ret. unfold fpair. cbn [fst snd]. f_equal. rewrite <- cancel_set_maps, forget_cancel. cbn. now rewrite forget_onv.
    - destruct (im_swap_remove keq k (ix_ready (wc_ix c))) as [[[[sid s] t] r1]|].
      + cbn [fv]. eapply sim_bind; [apply sim_modify|]. intros [] w1 _. apply sim_fired. apply sim_ret. unfold fpair. cbn [fst snd].
        rewrite forget_rings. f_equal. unfold RefineSpec.forget. cbn. now rewrite forget_onv.
      + apply sim_ret. unfold fpair, RefineSpec.forget. cbn. now rewrite forget_onv.
  Qed.
  Lemma push_pending_sim (c : wcache) k sid s x : forget (wpush_pending keq c k sid s x) = push_pending keq (forget c) k s x.
  Proof.
    unfold wpush_pending, push_pending. cbn [rc_txs RefineSpec.forget].
    destruct (im_insert keq k x (ix_txs (wc_ix c))) as [txs1 [x0|]].
    - set (c1 := set_maps _ _ c). unfold RefineSpec.forget. destruct (cancel_maps x0 c1) as (E1 & E2 & E3 & E4 & _).
      cbn [with_fu wc_fu fu_tasks wc_ix]. rewrite map_app, cancel_tasks, E1, E2, E3, E4. reflexivity.
    - unfold RefineSpec.forget. cbn. now rewrite map_app.
  Qed.
  Lemma push_sim (c : wcache) k s : forget (wpush keq c k s) = push keq (forget c) k s.
  Proof.
    unfold wpush, push. rewrite push_pending_sim. unfold push_pending. cbn [rc_txs rc_pending rc_ready rc_canceled rc_fresh RefineSpec.forget wc_ix with_ix ix_txs ix_ready ix_canceled ix_fresh wc_fu].
    destruct (im_insert keq k (ix_fresh (wc_ix c)) (ix_txs (wc_ix c))) as [txs1 old]. reflexivity.
  Qed.
  Lemma contains_sim (c : wcache) k : pending_contains keq (forget c) k = wpending_contains keq c k.
  Proof. reflexivity. Qed.

  Lemma check_sim (c : wcache) n w : sim w (wcheck_ready_index keq rings c n) (check_ready_index keq (forget c) n) fpair.
  Proof.
    unfold wcheck_ready_index, check_ready_index. cbn [rc_ready RefineSpec.forget]. rewrite nth_error_map.
    destruct (nth_error (ix_ready (wc_ix c)) n) as [[k [[sid s] x]]|]; cbn [option_map forget_ready]; [|apply sim_ret; reflexivity].
    eapply sim_bind; [apply (sim_off w (poll_ready svc s))|]. intros [s1 a] w1 _. cbn beta iota zeta.
    assert (Er : set_nth n (@pair K (st (taped svc) * nat) k (@pair (st (taped svc)) nat s1 x)) (map (@forget_ready W K Req Resp Err svc) (ix_ready (wc_ix c))) =
      map (@forget_ready _ _ _ _ _ svc) (set_nth n (k, (sid, s1, x)) (ix_ready (wc_ix c)))) by (rewrite <- set_nth_map; reflexivity).
    rewrite Er. clear Er. set (ready1 := set_nth n (k, (sid, s1, x)) (ix_ready (wc_ix c))).
    destruct a as [|[u|e]].
    - rewrite swap_remove_map. destruct (swap_remove n ready1) as [[[key [[sd sv] xk]] ready2]|]; [|apply sim_panic].
      cbn [forget_ready]. set (c2 := set_maps (ix_txs (wc_ix c)) ready2 _).
      match goal with |- context [pending_contains keq ?c' key] => change c' with (forget c2) end. rewrite contains_sim.
      destruct (wpending_contains keq c2 key).
      + eapply sim_bind; [apply sim_modify|]. intros [] w2 _. apply sim_fired. apply sim_ret. unfold fpair. cbn [fst snd]. now rewrite forget_rings.
      + apply sim_fired. apply sim_ret. unfold fpair. cbn [fst snd]. now rewrite forget_rings, push_pending_sim.
    - apply sim_fired. apply sim_ret. unfold fpair. cbn [fst snd]. now rewrite forget_rings.
    - rewrite swap_remove_map. destruct (swap_remove n ready1) as [[[key [[sd sv] xk]] ready2]|]; [|apply sim_panic].
      cbn [forget_ready]. eapply sim_bind; [apply sim_modify|]. intros [] w2 _. apply sim_fired. apply sim_ret. unfold fpair. cbn [fst snd]. now rewrite forget_rings.
  Qed.
  Lemma call_sim (c : wcache) n r w : sim w (wcall_ready_index keq rings c n r) (call_ready_index keq (forget c) n r) fpair.
  Proof.
    unfold wcall_ready_index, call_ready_index. cbn [rc_ready RefineSpec.forget]. rewrite swap_remove_map.
    destruct (swap_remove n (ix_ready (wc_ix c))) as [[[k [[sid s] x]] ready1]|]; [|apply sim_panic]. cbn [forget_ready].
    eapply sim_bind; [apply (sim_off w (call svc s r))|]. intros [s1 f] w1 _. cbn beta iota zeta.
    set (c2 := set_maps (ix_txs (wc_ix c)) ready1 _).
    match goal with |- context [pending_contains keq ?c' k] => change c' with (forget c2) end. rewrite contains_sim.
    destruct (wpending_contains keq c2 k).
    - eapply sim_bind; [apply sim_modify|]. intros [] w2 _. apply sim_fired. apply sim_ret. unfold fpair. cbn [fst snd]. now rewrite forget_rings.
    - apply sim_fired. apply sim_ret. unfold fpair. cbn [fst snd]. now rewrite forget_rings, push_pending_sim.
  Qed.

  (** *** poll_pending *)
  Definition fout (o : wout (K := K) svc) : pend_out (K := K) (taped svc) :=
    match o with
    | WoReady k _ s x => PoReady (svc := taped svc) k s x
    | WoCanceled k => PoCanceled k
    | WoFailed k e => PoFailed k e
    end.
  Notation fp := (@forget_pend W K Req Resp Err svc).
  Lemma task_at t (ts : list wtask) p : NoDup (map (@wt_id _ _ _ _ _ svc) ts) -> find_task t ts = Some p ->
    exists i, nth_error ts i = Some p /\ del_task t ts = remove_nth i ts /\
      forall s, put_svc t s ts = set_nth i (WTask t (wt_sid p) (wt_key p) (wt_pair p) s) ts.
  Proof.
    induction ts as [|a ts IH]; cbn; intros N E; [discriminate|]. inversion N as [|? ? N1 N2]; subst.
    destruct (Nat.eqb_spec (wt_id a) t) as [Et|Nt].
    - injection E as ->. exists 0. cbn. split; [reflexivity|]. subst t. split.
      + clear - N1. unfold del_task. induction ts as [|b ts IH]; [reflexivity|]. cbn in *. destruct (Nat.eqb_spec (wt_id b) (wt_id p)) as [X|X]; [destruct N1; now left|].
        cbn. f_equal. apply IH. tauto.
      + intros s. f_equal. clear - N1. induction ts as [|b ts IH]; [reflexivity|]. cbn in *. destruct (Nat.eqb_spec (wt_id b) (wt_id p)) as [X|X]; [destruct N1; now left|].
        f_equal. apply IH. tauto.
    - destruct (IH N2 E) as (i & A & B & C). exists (S i). cbn. split; [exact A|]. split; [f_equal; exact B|]. intros s. f_equal. apply C.
  Qed.
  Lemma remove_nth_map A B (g : A -> B) i (l : list A) : remove_nth i (map g l) = map g (remove_nth i l).
  Proof. revert i. induction l as [|a l IH]; intros [|i]; cbn; [reflexivity..|]. now rewrite IH. Qed.
  Definition same_ix (c c1 : wcache) : Prop :=
    ix_txs (wc_ix c1) = ix_txs (wc_ix c) /\ ix_ready (wc_ix c1) = ix_ready (wc_ix c) /\ ix_canceled (wc_ix c1) = ix_canceled (wc_ix c) /\ ix_fresh (wc_ix c1) = ix_fresh (wc_ix c).
  Lemma same_ix_rings l (c c1 : wcache) : same_ix c c1 -> same_ix c (ring_all l c1).
  Proof. unfold same_ix. now rewrite rings_ix. Qed.
  Lemma same_ix_trans (c c1 c2 : wcache) : same_ix c c1 -> same_ix c1 c2 -> same_ix c c2.
  Proof. intros (A1 & A2 & A3 & A4) (B1 & B2 & B3 & B4). unfold same_ix. rewrite B1, B2, B3, B4. auto. Qed.
  Lemma fu_loop_same fuel : forall y m len (c : wcache) w w1 c1 a, fu_loop rings stop fuel y m len c w = (w1, Val (c1, a)) ->
    same_ix c c1 /\ (fu_tasks (wc_fu c) = [] <-> a = Ready None).
  Proof.
    induction fuel as [|fuel IH]; intros y m len [[ts q nx par] i wk log] w w1 c1 a E; [discriminate|].
    cbn [fu_loop wc_fu fu_tasks fu_queue fu_next fu_parent wc_log wc_woken wc_ix] in *.
    destruct q as [|t q]; [injection E as <- <- <-; split; [repeat split|destruct ts; split; congruence]|].
    destruct (find_task t ts) as [p|] eqn:Ef.
    2:{ destruct (IH _ _ _ _ _ _ _ _ E) as [A B]. split; [exact A|exact B]. }
    assert (Nn : ts <> []) by (intros ->; discriminate).
    destruct (memn (wt_pair p) (ix_canceled i)).
    - unfold bind, modify, fired, ret in E. injection E as <- <- <-. split; [apply same_ix_rings; repeat split|split; [intros; congruence|discriminate]].
    - unfold bind in E. destruct (poll_ready svc (wt_svc p) w) as [w2 [[s1 b]| |]]; try discriminate. destruct b as [|[u|e]].
      + unfold fired, ret in E.
        match type of E with context [ring_all ?r ?c2] => set (c3 := ring_all r c2) in E; assert (S3 : same_ix (WCache (Fu ts (t :: q) nx par) i wk log) c3) by (unfold c3; apply same_ix_rings; repeat split);
          assert (T3 : fu_tasks (wc_fu c3) = put_svc t s1 ts) by (unfold c3; now rewrite rings_tasks) end.
        destruct (stop _ (S m) len).
        * injection E as <- <- <-. split; [exact S3|split; [intros; congruence|discriminate]].
        * destruct (IH _ _ _ _ _ _ _ _ E) as [A B]. split; [exact (same_ix_trans S3 A)|]. rewrite T3 in B. split; [intros; congruence|].
          intros X. apply B in X. destruct ts; [congruence|discriminate X].
      + unfold fired, ret in E. injection E as <- <- <-. split; [apply same_ix_rings; repeat split|split; [intros; congruence|discriminate]].
      + unfold modify, fired, ret in E. injection E as <- <- <-. split; [apply same_ix_rings; repeat split|split; [intros; congruence|discriminate]].
  Qed.
  Lemma fu_loop_sim fuel : forall y m len (c : wcache) w, NoDup (map (@wt_id _ _ _ _ _ svc) (fu_tasks (wc_fu c))) ->
    match fu_loop rings stop fuel y m len c w with
    | (w1, Val (c1, a)) => exists order, forall rest,
        fu_poll (svc := taped svc) (is_canceled (forget c)) order (map fp (fu_tasks (wc_fu c))) (w, rest) =
          ((w1, rest), Val (map fp (fu_tasks (wc_fu c1)), match a with Ready (Some o) => Some (fout o) | _ => None end))
    | (w1, Panic) => exists order, forall rest,
        fu_poll (svc := taped svc) (is_canceled (forget c)) order (map fp (fu_tasks (wc_fu c))) (w, rest) = ((w1, rest), Panic)
    | (_, Diverge) => True
    end.
  Proof.
    induction fuel as [|fuel IH]; intros y m len c w N; [exact I|]. cbn [fu_loop].
    destruct (fu_queue (wc_fu c)) as [|t q] eqn:Eq.
    - exists []. intros rest. cbn. now destruct (fu_tasks (wc_fu c)).
    - destruct (find_task t (fu_tasks (wc_fu c))) as [p|] eqn:Ef.
      2:{ specialize (IH y m len (with_fu (Fu (fu_tasks (wc_fu c)) q (fu_next (wc_fu c)) (fu_parent (wc_fu c))) c) w N). exact IH. }
      destruct (task_at t _ N Ef) as (i & Hi & Hd & Hs).
      assert (Hn : nth_error (map fp (fu_tasks (wc_fu c))) i = Some (fp p)) by (rewrite nth_error_map, Hi; reflexivity).
      assert (Hc : is_canceled (forget c) (pd_cancel (fp p)) = memn (wt_pair p) (ix_canceled (wc_ix c))) by reflexivity.
      destruct (memn (wt_pair p) (ix_canceled (wc_ix c))) eqn:Ec.
      + unfold bind, modify, fired, ret. exists [i]. intros rest. cbn [fu_poll]. rewrite Hn, Hc. unfold bind, modify, ret. cbn.
        rewrite rings_tasks. cbn. now rewrite Hd, remove_nth_map.
      + unfold bind at 1. destruct (poll_ready svc (wt_svc p) w) as [w2 [[s1 b]| |]] eqn:Ep.
        * assert (Hp : forall rest, poll_ready (taped svc) (pd_svc (fp p)) (w, rest) = ((w2, rest), Val (s1, b))) by (intros rest; cbn; unfold off; cbn [fst snd]; now rewrite Ep).
          destruct b as [|[u|e]].
          -- unfold bind, fired, ret.
             match goal with |- context [ring_all ?r ?c2] => set (c3 := ring_all r c2);
               assert (T3 : fu_tasks (wc_fu c3) = put_svc t s1 (fu_tasks (wc_fu c))) by (unfold c3; now rewrite rings_tasks);
               assert (C3 : ix_canceled (wc_ix c3) = ix_canceled (wc_ix c)) by (unfold c3; now rewrite rings_ix) end.
             assert (T4 : map fp (fu_tasks (wc_fu c3)) = set_nth i (Pend (svc := taped svc) (wt_key p) (wt_pair p) s1) (map fp (fu_tasks (wc_fu c)))).
             { rewrite T3, Hs, <- set_nth_map. reflexivity. }
             destruct (stop _ (S m) len).
             ++ exists [i]. intros rest. cbn [fu_poll]. rewrite Hn, Hc. unfold bind. rewrite Hp. cbn. now rewrite <- T4.
             ++ match goal with |- context [fu_loop _ _ _ ?y' _ _ _ _] => specialize (IH y' (S m) len c3 w2) end.
                assert (N3 : NoDup (map (@wt_id _ _ _ _ _ svc) (fu_tasks (wc_fu c3)))) by (rewrite T3, put_svc_map; [exact N|reflexivity]).
                specialize (IH N3). rewrite T4 in IH.
                assert (Cn : is_canceled (forget c3) = is_canceled (forget c)) by (unfold is_canceled; cbn [rc_canceled RefineSpec.forget]; now rewrite C3).
                rewrite Cn in IH. match goal with |- match ?X with _ => _ end => destruct X as [w4 [[c4 a]| |]] end; [| |exact I].
                ** destruct IH as (order & Ho). exists (i :: order). intros rest. cbn [fu_poll]. rewrite Hn, Hc. unfold bind. rewrite Hp. apply Ho.
                ** destruct IH as (order & Ho). exists (i :: order). intros rest. cbn [fu_poll]. rewrite Hn, Hc. unfold bind. rewrite Hp. apply Ho.
          -- unfold bind, fired, ret. exists [i]. intros rest. cbn [fu_poll]. rewrite Hn, Hc. unfold bind. rewrite Hp. unfold ret. rewrite rings_tasks. cbn. now rewrite Hd, remove_nth_map.
          -- unfold bind, modify, fired, ret. exists [i]. intros rest. cbn [fu_poll]. rewrite Hn, Hc. unfold bind. rewrite Hp. unfold modify, ret. rewrite rings_tasks. cbn. now rewrite Hd, remove_nth_map.
        * exists [i]. intros rest. cbn [fu_poll]. rewrite Hn, Hc. unfold bind. cbn. unfold off. cbn [fst snd]. now rewrite Ep.
        * exact I.
  Qed.
  Definition fnext (x : wcache * poll (option (wout (K := K) svc))) : list (pend (K := K) (taped svc)) * poll (option (pend_out (K := K) (taped svc))) :=
    (map fp (fu_tasks (wc_fu (fst x))), match snd x with Pending => Pending | Ready None => Ready None | Ready (Some o) => Ready (Some (fout o)) end).
  Lemma poll_next_sim (c : wcache) w : NoDup (map (@wt_id _ _ _ _ _ svc) (fu_tasks (wc_fu c))) ->
    sim w (wpoll_next rings stop c) (fu_poll_next (svc := taped svc) tsched (forget c)) fnext.
  Proof.
    intros N. unfold wpoll_next. match goal with |- sim w (fu_loop _ _ ?f ?y ?m ?len ?c0) _ _ => set (c0' := c0);
      assert (L := fu_loop_sim f y m len c0' w N); assert (S0 := fu_loop_same f y m len c0' w) end.
    assert (T0 : fu_tasks (wc_fu c0') = fu_tasks (wc_fu c)) by reflexivity.
    assert (C0 : is_canceled (forget c0') = is_canceled (forget c)) by reflexivity.
    rewrite T0, C0 in L. rewrite T0 in S0. clearbody c0'.
    assert (F : forall o w', fu_poll (K := K) (svc := taped svc) (is_canceled (forget c)) o [] w' = (w', Val ([], None))).
    { induction o as [|[|i] o IHo]; intros w'; [reflexivity|apply IHo|apply IHo]. }
    assert (G : forall order rest, fu_tasks (wc_fu c) <> [] ->
      fu_poll_next (svc := taped svc) tsched (forget c) (w, [order] ++ rest) =
      ('(l, o) <- fu_poll (svc := taped svc) (is_canceled (forget c)) order (map fp (fu_tasks (wc_fu c))) ;;
       ret (l, match o with None => Pending | Some x => Ready (Some x) end)) (w, rest)).
    { intros order rest Hne. unfold fu_poll_next. cbn [rc_pending RefineSpec.forget]. destruct (fu_tasks (wc_fu c)) as [|p0 ts]; [congruence|]. reflexivity. }
    unfold sim. match goal with |- match ?X with _ => _ end => destruct X as [w1 [[c1 a]| |]] eqn:E end; [| |exact I].
    - destruct (S0 _ _ _ eq_refl) as [_ Hn]. destruct L as (order & Ho).
      assert (D : fu_tasks (wc_fu c) = [] \/ fu_tasks (wc_fu c) <> []) by (destruct (fu_tasks (wc_fu c)); [now left|right; discriminate]).
      destruct D as [D|D].
      + assert (Ea : a = Ready None) by now apply Hn. subst a. exists []. intros rest. specialize (Ho rest). rewrite D in Ho. cbn [map] in Ho. rewrite F in Ho.
        unfold fu_poll_next. cbn [rc_pending RefineSpec.forget]. rewrite D. cbn [map app]. unfold ret, fnext. cbn [fst snd]. injection Ho as <- Ho. now rewrite <- Ho.
      + exists [order]. intros rest. rewrite (G order rest D). unfold bind. rewrite Ho. unfold ret, fnext. cbn [fst snd].
        destruct a as [|[o|]]; [reflexivity|reflexivity|]. destruct D. now apply Hn.
    - destruct L as (order & Ho).
      assert (D : fu_tasks (wc_fu c) = [] \/ fu_tasks (wc_fu c) <> []) by (destruct (fu_tasks (wc_fu c)); [now left|right; discriminate]).
      destruct D as [D|D].
      + exfalso. specialize (Ho []). rewrite D in Ho. cbn [map] in Ho. rewrite F in Ho. discriminate.
      + exists [order]. intros rest. rewrite (G order rest D). unfold bind. now rewrite Ho.
  Qed.
  Lemma poll_next_inv (c : wcache) w w1 c1 a : pinv c -> wpoll_next rings stop c w = (w1, Val (c1, a)) -> winv c1 /\ same_ix c c1 /\ outcome c1 a /\ (fu_tasks (wc_fu c) = [] <-> a = Ready None).
  Proof.
    intros H E. unfold wpoll_next in E. match type of E with fu_loop _ _ _ _ _ _ ?c0 w = _ => set (c0' := c0) in E end.
    assert (H0 : winv c0') by (unfold winv; constructor; try (apply H); cbn; now left).
    assert (A0 : armed c0') by (left; reflexivity).
    destruct (fu_loop_ok _ _ _ _ _ _ _ H0 A0 E) as (B1 & B2 & B3 & B4). destruct (fu_loop_same _ _ _ _ _ _ E) as [C1 C2]. split; [exact B1|]. split; [exact C1|]. split; [exact B3|exact C2].
  Qed.
  Lemma poll_pending_loop_sim fuel : forall (c : wcache) w, pinv c ->
    sim w (wpoll_pending_loop keq rings stop fuel c) (poll_pending_loop keq tsched fuel (forget c)) fpair.
  Proof.
    induction fuel as [|fuel IH]; intros c w H; [exact I|]. cbn [wpoll_pending_loop poll_pending_loop].
    eapply sim_bind; [apply poll_next_sim; exact (v_ids H)|]. intros [c1 a] w1 E. destruct (poll_next_inv _ H E) as (H1 & (E1 & E2 & E3 & E4) & Ho & Hn).
    unfold fnext. cbn [fst snd]. cbn [rc_txs rc_ready rc_canceled rc_fresh RefineSpec.forget].
    destruct a as [|[[k sid s x|k|k e]|]]; cbn [fout].
    - apply sim_ret. unfold fpair, RefineSpec.forget. cbn. now rewrite E1, E2, E3, E4.
    - rewrite E1, E2. assert (P := im_swap_remove_spec keq (ix_txs (wc_ix c1)) k). destruct Ho as [Hk Hl]. rewrite <- E1.
      destruct (im_swap_remove keq k (ix_txs (wc_ix c1))) as [[tx txs1]|]; [|apply sim_panic].
      destruct Hl as (L1 & L2 & L3 & L4 & L5). destruct (winv_untx _ H1 Hk L3 P) as [-> V].
      assert (V2 := @winv_insert _ _ _ _ _ keq _ _ k sid s x V (conj L1 (conj L2 (conj L3 (conj L4 L5))))).
      change (ix_ready (wc_ix (set_maps txs1 (ix_ready (wc_ix c1)) c1))) with (ix_ready (wc_ix c1)) in V2. rewrite E2 in V2.
      rewrite forget_onv. assert (I1 := im_insert_onv keq fv k (sid, s, x) (ix_ready (wc_ix c))). change (fv (sid, s, x)) with (@pair (st (taped svc)) nat s x) in I1. rewrite I1. clear I1.
      destruct (im_insert keq k (sid, s, x) (ix_ready (wc_ix c))) as [ready1 old]. cbn [fst snd] in *.
      assert (Bd : match match old with Some v0 => Some (fv v0) | None => None end with Some (s0, _) => drop_svc (taped svc) s0 | None => fun w2 => w2 end =
                   offw (match old with Some (_, s0, _) => drop_svc svc s0 | None => fun w2 => w2 end) \/ old = None).
      { destruct old as [[[? s0] ?]|]; [left; reflexivity|now right]. }
      eapply (@sim_bind W unit unit _ _ w1 _ _ (fun a => a)).
      + destruct old as [[[? s0] ?]|]; [apply sim_modify|exists []; reflexivity].
      + intros [] w2 _. rewrite <- forget_onv. assert (F : forget (set_maps txs1 ready1 c1) = Cache (svc := taped svc) (map fp (fu_tasks (wc_fu c1))) txs1 (map (@forget_ready _ _ _ _ _ svc) ready1) (ix_canceled (wc_ix c)) (ix_fresh (wc_ix c))).
        { unfold RefineSpec.forget. cbn. now rewrite E3, E4. }
        rewrite <- F. apply IH. exact (pinv_winv V2).
    - assert (F : forget c1 = Cache (svc := taped svc) (map fp (fu_tasks (wc_fu c1))) (ix_txs (wc_ix c)) (map (@forget_ready _ _ _ _ _ svc) (ix_ready (wc_ix c))) (ix_canceled (wc_ix c)) (ix_fresh (wc_ix c))).
      { unfold RefineSpec.forget. now rewrite E1, E2, E3, E4. }
      rewrite <- F. apply IH. exact (pinv_winv H1).
    - rewrite E1. destruct (im_swap_remove keq k (ix_txs (wc_ix c))) as [[tx txs1]|]; [|apply sim_panic].
      apply sim_ret. unfold fpair, RefineSpec.forget. cbn. now rewrite E2, E3, E4.
    - apply sim_ret. unfold fpair. cbn [fst snd]. f_equal. unfold RefineSpec.forget. rewrite E1, E2, E3, E4.
      assert (T : fu_tasks (wc_fu c) = []) by now apply Hn. cbn in Ho. now rewrite T, Ho.
  Qed.
  Lemma poll_pending_sim (c : wcache) w : pinv c -> sim w (wpoll_pending keq rings stop c) (poll_pending keq tsched (forget c)) fpair.
  Proof.
    intros H. unfold wpoll_pending, poll_pending. cbn [rc_pending RefineSpec.forget]. rewrite map_length. now apply poll_pending_loop_sim.
  Qed.

  (** *** Histories of the cache *)
  Lemma sim_do A A' w (m : M W A) (m' : M (W * tape) A') f a w1 : sim w m m' f -> wdo m w = Some (a, w1) ->
    exists used, forall rest, odo m' (w, used ++ rest) = Some (f a, (w1, rest)).
  Proof.
    unfold sim, wdo, odo. destruct (m w) as [w2 [b| |]]; intros H E; try discriminate. injection E as <- <-.
    destruct H as (u & Hu). exists u. intros rest. now rewrite Hu.
  Qed.
  Lemma step_sim o (c : wcache) w b c1 w1 : pinv c -> wstep keq rings stop o (c, w) = Some (b, c1, w1) ->
    exists used, forall rest, ostep keq o (forget c, (w, used ++ rest)) = Some (b, forget c1, (w1, rest)).
  Proof.
    intros H E. destruct o as [k s|k| |n|n r|k|g]; cbn [wstep ostep] in *.
    - injection E as <- <- <-. exists []. intros rest. cbn [app]. now rewrite push_sim.
    - destruct (wdo (wevict keq rings c k) w) as [[[c2 b2] w2]|] eqn:Ed; [|discriminate]. injection E as <- <- <-.
      destruct (@sim_do _ _ _ _ _ _ _ _ (evict_sim c k w) Ed) as (u & Hu). exists u. intros rest. now rewrite Hu.
    - destruct (wdo (wpoll_pending keq rings stop (with_woken false c)) w) as [[[c2 b2] w2]|] eqn:Ed; [|discriminate]. injection E as <- <- <-.
      destruct (@sim_do _ _ _ _ _ _ _ _ (poll_pending_sim w (pinv_woken false H)) Ed) as (u & Hu). exists u. intros rest. change (forget (with_woken false c)) with (forget c) in Hu. now rewrite Hu.
    - destruct (wdo (wcheck_ready_index keq rings c n) w) as [[[c2 b2] w2]|] eqn:Ed; [|discriminate]. injection E as <- <- <-.
      destruct (@sim_do _ _ _ _ _ _ _ _ (check_sim c n w) Ed) as (u & Hu). exists u. intros rest. now rewrite Hu.
    - destruct (wdo (wcall_ready_index keq rings c n r) w) as [[[c2 b2] w2]|] eqn:Ed; [|discriminate]. injection E as <- <- <-.
      destruct (@sim_do _ _ _ _ _ _ _ _ (call_sim c n r w) Ed) as (u & Hu). exists u. intros rest. now rewrite Hu.
    - injection E as <- <- <-. exists []. intros rest. cbn [app]. f_equal. f_equal. f_equal. exact (eq_sym (forget_rings [k] c)).
    - injection E as <- <- <-. exists []. reflexivity.
  Qed.
  Lemma run_sim l : forall (c : wcache) w, pinv c -> exists tp : tape, forall n b c1 w1,
    nth_error (wrun keq rings stop (c, w) l) n = Some (b, c1, w1) ->
    exists rest, nth_error (orun keq (forget c, (w, tp)) l) n = Some (b, forget c1, (w1, rest)).
  Proof.
    induction l as [|o l IH]; intros c w H; [exists []; intros [|n]; discriminate|]. cbn [wrun orun].
    destruct (wstep keq rings stop o (c, w)) as [[[b c1] w1]|] eqn:E; [|exists []; intros [|n]; discriminate].
    destruct (step_sim _ _ H E) as (u & Hu). destruct (IH c1 w1 (step_pinv keq rings stop _ _ H E)) as (tp & Ht).
    exists (u ++ tp). intros n b' c' w' En. rewrite Hu. destruct n as [|n]; cbn in En |- *; [|exact (Ht _ _ _ _ En)].
    injection En as <- <- <-. now exists tp.
  Qed.
  Theorem cache_refines w (l : list (wop svc)) : exists tp : tape, forall n b c w1,
    nth_error (whistory keq rings stop w l) n = Some (b, c, w1) ->
    exists rest, nth_error (orun keq (cache_new (taped svc), (w, tp)) l) n = Some (b, forget c, (w1, rest)).
  Proof. exact (run_sim l w (new_pinv svc)). Qed.
End Ref.
