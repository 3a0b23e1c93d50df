(** Proof of C69, continued: layers over several services; ReadyCache and Balance. *)
From Verif Require Import Base Util ReadyCache SpawnReady Load Make Middleware Limits Hedge MeterSpec MeterProof KeepSpec KeepProof.
Set Implicit Arguments.
Local Open Scope Z_scope.

Section Either.
  Context {W Req Resp Err : Type} (live : W -> Z) (a b : Service W Req Resp Err) (orp : Resp -> Z).
  Context osa oa (Ha : holds live a osa oa orp) osb ob (Hb : holds live b osb ob orp).
  Lemma either_k : holds live (either a b) (osums osa osb) (osums oa ob) orp.
  Proof.
    constructor; cbn [either poll_ready call poll_fut clone drop_svc drop_fut].
    - intros [x|y].
      + apply (ready_k Ha x (fun s => inl s) (osums osa osb)). reflexivity.
      + apply (ready_k Hb y (fun s => inr s) (osums osa osb)). reflexivity.
    - intros [x|y] r; cbn [osums]; [kcall Ha | kcall Hb]; bret.
    - intros [x|y]; cbn [osums]; [kpoll Ha | kpoll Hb]; apply bal_ret; cbn; lia.
    - intros [x|y]; cbn [osums]; [kclone Ha | kclone Hb]; bret.
    - intros [x|y]; cbn [osums]; [apply (ho_drop_svc Ha) | apply (ho_drop_svc Hb)].
    - intros [x|y]; cbn [osums]; [apply (ho_drop_fut Ha) | apply (ho_drop_fut Hb)].
    - intros [x|y]; cbn [osums]; [apply (ho_svc0 Ha) | apply (ho_svc0 Hb)].
    - intros [x|y]; cbn [osums]; [apply (ho_fut0 Ha) | apply (ho_fut0 Hb)].
    - apply (ho_resp0 Ha).
  Qed.
End Either.

Section Conc.
  Context {W Req Resp Err : Type} (live : W -> Z) (svc : Service W Req Resp Err).
  Context (osv : st svc -> Z) (own : fut svc -> Z) (orp : Resp -> Z) (H : holds live svc osv own orp).
  Notation live2 := (fun x : sem * W => live (snd x)).
  Lemma lift_snd_k A b (m : M W A) o : bal live b m o -> bal live2 b (lift_snd m) o.
  Proof. intros Hm x x1 a Hx E. unfold lift_snd in E. destruct (m (snd x)) as [w1 o1] eqn:E1. injection E as <- ->. exact (Hm _ _ _ Hx E1). Qed.
  Lemma conc_k closed debug : holds live2 (conc_limit svc closed debug) (fun s => osv (cl_inner s)) own orp.
  Proof.
    constructor; cbn [conc_limit poll_ready call poll_fut clone drop_svc drop_fut].
    - intros s.
      assert (Hi : forall wt pm, bal live2 (osv (cl_inner s))
        ('(s1, a) <- lift_snd (poll_ready svc (cl_inner s)) ;; ret (ConcSt svc s1 wt pm, a)) (fun x => osv (cl_inner (fst x)))).
      { intros wt pm. eapply bal_bind; [apply lift_snd_k, (ho_ready H) | lia |]. intros [s1 a]. bret. }
      destruct (cl_permit s); [apply Hi |]. bst; [apply still_get |]. destruct a.
      + destruct debug; [apply bal_panic | apply Hi].
      + bst; [apply still_get |]. destruct (sem_poll (cl_wait s) a) as [[m1 wait1] got].
        eapply bal_modify; [apply gone_same; intros x; reflexivity | klia H |].
        eapply bal_eq with (b := osv (cl_inner s)); [| lia]. destruct got; [apply Hi | bret].
    - intros s r. destruct (cl_permit s); [| apply bal_panic]. eapply bal_bind; [apply lift_snd_k, (ho_call H) | lia |]. intros [s1 f]. bret.
    - intros f. apply lift_snd_k, (ho_poll H).
    - intros s. eapply bal_bind; [apply lift_snd_k, (ho_clone H) | lia |]. intros s1. bret.
    - intros s x Hx. exact (ho_drop_svc H (cl_inner s) (snd x) Hx).
    - intros f x Hx. exact (ho_drop_fut H f (snd x) Hx).
    - intros s. apply (ho_svc0 H).
    - apply (ho_fut0 H).
    - apply (ho_resp0 H).
  Qed.
End Conc.

Section Reconnect.
  Context {W Tgt Req Resp Err MErr : Type} (live : W -> Z) (svc : Service W Req Resp Err) (mk : Service W Tgt (st svc) MErr) (target : Tgt).
  Context osv own orp (H : holds live svc osv own orp) om ofm (Hm : holds live mk om ofm osv).
  Notation orc := (oreconnect osv om ofm).
  Lemma reconnect_iter_k (s : reconnect_st svc mk) : bal live (orc s) (reconnect_iter target s)
    (fun x => match x with inl s1 => orc s1 | inr y => orc (fst y) end).
  Proof.
    assert (L := ho_svc0 Hm (rc_mk s)).
    unfold oreconnect at 1, reconnect_iter. destruct (rc_st s) as [|f|c].
    - kready Hm. destruct p as [|[u|e]]; try (apply bal_ret; unfold oreconnect; cbn; lia). kcall Hm.
      apply bal_ret; unfold oreconnect; cbn; lia.
    - kpoll Hm. destruct p as [|[c|e]]; cbn [in_resp]; [apply bal_ret; unfold oreconnect; cbn; lia | |].
      + assert (L2 := ho_svc0 H c). eapply bal_modify; [apply (ho_drop_fut Hm) | klia Hm |]. apply bal_ret; unfold oreconnect; cbn; lia.
      + eapply bal_modify; [apply (ho_drop_fut Hm) | klia Hm |]. apply bal_ret; unfold oreconnect; cbn; lia.
    - kready H. destruct p as [|[u|e]]; try (apply bal_ret; unfold oreconnect; cbn; lia).
      kdrop_svc H. apply bal_ret; unfold oreconnect; cbn; lia.
  Qed.
  Lemma reconnect_poll_k fuel : forall s : reconnect_st svc mk, bal live (orc s) (reconnect_poll target fuel s) (fun x => orc (fst x)).
  Proof.
    induction fuel as [|fuel IH]; intros s; [apply bal_diverge |]. cbn [reconnect_poll].
    eapply bal_bind; [apply reconnect_iter_k | lia |]. intros [s1|r]; [eapply bal_eq; [apply IH | lia] | apply bal_ret; lia].
  Qed.
  Lemma reconnect_k fuel : holds live (reconnect svc mk target fuel) orc (osums own none) orp.
  Proof.
    constructor; cbn [reconnect poll_ready call poll_fut clone drop_svc drop_fut].
    - apply reconnect_poll_k.
    - intros s r. assert (L := ho_svc0 Hm (rc_mk s)).
      destruct (rc_err s) as [e|]; [apply bal_ret; unfold oreconnect, none; cbn; unfold none; lia |].
      unfold oreconnect at 1. destruct (rc_st s) as [|f|c]; try apply bal_panic. kcall H. apply bal_ret. unfold oreconnect; cbn. lia.
    - intros [x|[e|]]; [| apply bal_ret; reflexivity | apply bal_panic]. cbn [osums]. kpoll H. apply bal_ret. cbn [fst snd osums].
      rewrite in_resp_into. lia.
    - intros s. apply bal_panic.
    - intros s. unfold oreconnect. cbv zeta. destruct (rc_st s) as [|f|c].
      + eapply gone_eq; [apply (ho_drop_svc Hm) | lia].
      + apply gone_two; [apply (ho_drop_svc Hm) | apply (ho_drop_fut Hm) | apply (ho_svc0 Hm) | apply (ho_fut0 Hm)].
      + apply gone_two; [apply (ho_drop_svc Hm) | apply (ho_drop_svc H) | apply (ho_svc0 Hm) | apply (ho_svc0 H)].
    - intros [x|o]; [apply (ho_drop_fut H) | apply gone_id].
    - intros s. unfold oreconnect. generalize (ho_svc0 Hm (rc_mk s)). destruct (rc_st s) as [|f|c]; [lia | generalize (ho_fut0 Hm f); lia | generalize (ho_svc0 H c); lia].
    - intros [x|o]; [apply (ho_fut0 H) | unfold osums, none; lia].
    - apply (ho_resp0 H).
  Qed.
End Reconnect.

Section Select.
  Context {W Req Resp EA EB : Type} (live : W -> Z).
  Context (a : Service W Req Resp EA) (b : Service W Req Resp EB) (orp : Resp -> Z).
  Context osa oa (Ha : holds live a osa oa orp) osb ob (Hb : holds live b osb ob orp).
  Lemma select_k clone_req : (forall r, still live (clone_req r)) ->
    holds live (select a b clone_req) (fun s => osa (fst s) + osb (snd s)) (osel oa ob) orp.
  Proof.
    intros Hc. constructor; cbn [select poll_ready call poll_fut clone drop_svc drop_fut].
    - intros s. assert (L := ho_svc0 Hb (snd s)). kready Ha. assert (L2 := ho_svc0 Ha s0). kready Hb. bret.
    - intros s r. assert (L := ho_svc0 Hb (snd s)). assert (L1 := ho_svc0 Ha (fst s)). bst; [apply Hc |]. destruct a0 as [r1|].
      + kcall Hb. assert (L2 := ho_svc0 Hb s0). assert (L3 := ho_fut0 Hb f). kcall Ha. apply bal_ret. unfold osel. cbn. lia.
      + kcall Ha. apply bal_ret. unfold osel. cbn. lia.
    - intros f. unfold osel at 1. assert (L := oopt_nonneg ob (sel_b f) (ho_fut0 Hb)).
      kpoll Ha. assert (L2 := ho_fut0 Ha f0).
      destruct p as [|v]; [| apply bal_ret; unfold osel; destruct v; cbn; lia].
      destruct (sel_b f) as [fb|] eqn:Eb; cbn [oopt in_resp].
      + kpoll Hb. apply bal_ret. unfold osel. cbn [sel_a sel_b fst snd oopt]. rewrite in_resp_into. lia.
      + apply bal_ret. unfold osel. cbn. lia.
    - intros s. apply bal_panic.
    - intros s. apply gone_two; [apply (ho_drop_svc Ha) | apply (ho_drop_svc Hb) | apply (ho_svc0 Ha) | apply (ho_svc0 Hb)].
    - intros f. unfold osel. cbv zeta. destruct (sel_b f) as [fb|]; cbn [oopt].
      + apply gone_two; [apply (ho_drop_fut Ha) | apply (ho_drop_fut Hb) | apply (ho_fut0 Ha) | apply (ho_fut0 Hb)].
      + eapply gone_eq; [apply (ho_drop_fut Ha) | lia].
    - intros s. generalize (ho_svc0 Ha (fst s)) (ho_svc0 Hb (snd s)). lia.
    - intros f. unfold osel. generalize (ho_fut0 Ha (sel_a f)) (oopt_nonneg ob (sel_b f) (ho_fut0 Hb)). lia.
    - apply (ho_resp0 Ha).
  Qed.
End Select.

Section Hedge.
  Context {W Req Resp Err : Type} (live : W -> Z) (svc : Service W Req Resp Err).
  Context osv own orp (H : holds live svc osv own orp).
  Context (rt : Rt W) (clone_request : Req -> option Req) (can_retry : Req -> bool) (mdp : Z) (quantile : list Z -> Z).
  Context (getH : W -> histo) (setH : histo -> W -> W).
  Context (Hnap : forall d, same live (nap rt d)) (Hset : forall h, same live (setH h)).
  Lemma with_histo_k A (f : Z -> histo -> out (histo * A)) : still live (with_histo rt getH setH f).
  Proof.
    intros w. split; [| auto]. unfold with_histo. destruct (f (now rt w) (getH w)) as [[h1 x]| |]; cbn; auto. apply Hset.
  Qed.
  Lemma hedge_k : holds live (hedge rt svc clone_request can_retry mdp quantile getH setH)
      (fun s => osv (fst s) + osv (fst (snd s)))
      (osel (a := hedge_a rt svc getH setH) (b := hedge_b rt svc can_retry quantile getH setH)
        (fun f => own (lf_inner f))
        (odelay (svc := hedge_filtered rt svc can_retry getH setH) (fun s => osv (fst s))
          (oaf (svc := hedge_a rt svc getH setH) osv (fun f => own (lf_inner f)) (C := option Req + unit)))) orp.
  Proof.
    assert (Ha : holds live (hedge_a rt svc getH setH) osv (fun f => own (lf_inner f)) orp)
      by (apply (latency_k H); intros d; apply with_histo_k).
    assert (Hf : holds live (hedge_filtered rt svc can_retry getH setH) (fun s => osv (fst s))
       (oaf (svc := hedge_a rt svc getH setH) osv (fun f => own (lf_inner f)) (C := option Req + unit)) orp).
    { refine (@async_filter_k _ _ _ _ live _ _ _ _ Ha _ _ _ (policy_task (W := W) (Req := Req)) _ _ _ _ _); [| intros p r; apply still_ret | intros p; apply still_ret].
      split; [| intros t w; reflexivity]. intros [[r|]|u]; cbn; [apply still_ret | apply still_panic | apply still_ret]. }
    assert (Hb := delay_k Hf rt Hnap (hedge_delay rt quantile getH setH) (fun r => with_histo_k _)).
    apply (select_k Ha Hb).
    intros r. unfold hedge_clone. destruct (clone_request r); [apply with_histo_k | apply still_ret].
  Qed.
End Hedge.

Lemma ocache0 W K Req Resp Err (svc : Service W Req Resp Err) (osv : st svc -> Z) (c : cache (K := K) svc) :
  (forall s, 0 <= osv s) -> 0 <= ocache osv c.
Proof.
  intros L. unfold ocache.
  generalize (osum_nonneg (fun p : pend (K := K) svc => osv (pd_svc p)) (rc_pending c) (fun p => L _)).
  generalize (osum_nonneg (fun x : K * (st svc * nat) => osv (fst (snd x))) (rc_ready c) (fun p => L _)). lia.
Qed.
Lemma make_balance_k W K Req Resp Err DErr G Tgt MErr (live : W -> Z) (svc : Service W Req Resp Err) osv
    (D : Discover W K (st svc) DErr) od (mk : Service W Tgt (dst D) MErr) om ofm (g0 : M W G) :
  holds live mk om ofm od -> (forall s, 0 <= osv s) -> still live g0 -> holds live (make_balance svc D mk g0) om ofm (obalance osv od).
Proof.
  intros H L Hg. constructor; cbn [make_balance poll_ready call poll_fut clone drop_svc drop_fut]; try apply H.
  - intros f. kpoll H. destruct p as [|[d|e]]; try bret. bst; [apply Hg |]. apply bal_ret. unfold obalance, ocache. cbn. lia.
  - intros s. unfold obalance. generalize (ho_resp0 H (bl_disc s)) (ocache0 osv (bl_cache s) L). lia.
Qed.

Lemma osum_removelast A (o : A -> Z) l x : osum o (removelast (l ++ [x])) = osum o l.
Proof. rewrite removelast_last. reflexivity. Qed.
Lemma osum_swap_remove A (o : A -> Z) i l x l1 : swap_remove i l = Some (x, l1) -> osum o l = o x + osum o l1.
Proof.
  unfold swap_remove. destruct (nth_error l i) as [y|] eqn:Ei; [| discriminate].
  destruct (rev l) as [|z r] eqn:Er; [discriminate |]. intros E.
  assert (El : l = rev r ++ [z]) by (rewrite <- (rev_involutive l), Er; reflexivity).
  clear Er. subst l. destruct (S i =? length (rev r ++ [z]))%nat eqn:En; rewrite removelast_last in E; injection E as <- <-.
  - apply Nat.eqb_eq in En. rewrite app_length in En. cbn [length] in En. rewrite nth_error_app2 in Ei by lia.
    replace (i - length (rev r))%nat with 0%nat in Ei by lia. injection Ei as <-. rewrite osum_app. cbn. lia.
  - apply Nat.eqb_neq in En. assert (Hi : (i < length (rev r ++ [z]))%nat) by (apply nth_error_Some; congruence).
    rewrite app_length in Hi, En. cbn [length] in En, Hi. rewrite nth_error_app1 in Ei by lia.
    rewrite (osum_set o _ i z Ei). rewrite osum_app. cbn. lia.
Qed.
Lemma osum_remove_nth A (o : A -> Z) l : forall i x, nth_error l i = Some x -> osum o l = o x + osum o (remove_nth i l).
Proof.
  induction l as [|y l IH]; intros [|i] x E; try discriminate; cbn in *.
  - injection E as ->. reflexivity.
  - rewrite (IH _ _ E). lia.
Qed.
Lemma osum_im_insert K V (keq : forall a b : K, {a = b} + {a <> b}) (o : K * V -> Z) (Ho : forall k k' v, o (k, v) = o (k', v)) k v m :
  forall m1 old, im_insert keq k v m = (m1, old) -> osum o m1 + oopt (fun u => o (k, u)) old = osum o m + o (k, v).
Proof.
  induction m as [|[k1 v1] m IH]; intros m1 old E; cbn in E.
  - injection E as <- <-. cbn. lia.
  - destruct (keq k1 k).
    + injection E as <- <-. cbn. rewrite (Ho k1 k v), (Ho k1 k v1). lia.
    + destruct (im_insert keq k v m) as [m2 o2]. injection E as <- <-. specialize (IH _ _ eq_refl). cbn. lia.
Qed.
Lemma osum_im_swap_remove K V (keq : forall a b : K, {a = b} + {a <> b}) (o : K * V -> Z) (Ho : forall k k' v, o (k, v) = o (k', v)) k m v m1 :
  im_swap_remove keq k m = Some (v, m1) -> osum o m = o (k, v) + osum o m1.
Proof.
  unfold im_swap_remove. destruct (im_find keq k m) as [[i v0]|]; [| discriminate].
  destruct (swap_remove i m) as [[[k1 v1] m2]|] eqn:Es; [| discriminate]. intros E. injection E as <- <-.
  rewrite (osum_swap_remove o _ _ Es). cbn. rewrite (Ho k1 k v1). reflexivity.
Qed.

Section Cache.
  Context {W K Req Resp Err : Type} (keq : forall a b : K, {a = b} + {a <> b}) (live : W -> Z).
  Context (svc : Service W Req Resp Err) osv own (H : holds live svc osv own none).
  Context (sched : nat -> W -> W * list nat) (Hsch : forall l, same live (fun w => fst (sched l w))).
  Notation cache := (cache (K := K) svc).
  Notation op := (fun p : pend (K := K) svc => osv (pd_svc p)).
  Notation ord := (fun x : K * (st svc * nat) => osv (fst (snd x))).
  Notation oc := (ocache osv (K := K)).
  Lemma op0 l : 0 <= osum op l.
  Proof. apply osum_nonneg. intros p. apply (ho_svc0 H). Qed.
  Lemma or0 l : 0 <= osum ord l.
  Proof. apply osum_nonneg. intros p. apply (ho_svc0 H). Qed.
  Lemma oc_push_pending (c : cache) k s t : oc (push_pending keq c k s t) = oc c + osv s.
  Proof.
    unfold push_pending, ocache. destruct (im_insert keq k t (rc_txs c)) as [txs1 old]. cbn [rc_pending rc_ready].
    rewrite osum_app. cbn. lia.
  Qed.
  Lemma oc_push (c : cache) k s : oc (push keq c k s) = oc c + osv s.
  Proof. rewrite <- (oc_push_pending c k s (rc_fresh c)). reflexivity. Qed.

  Lemma evict_k (c : cache) x : bal live (oc c) (evict keq c x) (fun y => oc (fst y)).
  Proof.
    unfold evict. destruct (match im_swap_remove keq x (rc_txs c) with Some _ => _ | None => _ end) as [[txs1 cn1] hit].
    destruct (im_swap_remove keq x (rc_ready c)) as [[[s t] ready1]|] eqn:E; [| apply bal_ret; reflexivity].
    assert (X := osum_im_swap_remove keq ord (fun _ _ _ => eq_refl) _ _ E). cbn [fst snd] in X.
    assert (Y := op0 (rc_pending c)). assert (Z := or0 ready1). unfold ocache at 1.
    kdrop_svc H. apply bal_ret. unfold ocache. cbn [fst rc_pending rc_ready]. lia.
  Qed.
  Definition opo (o : option (pend_out (K := K) svc)) : Z := match o with Some (PoReady _ s _) => osv s | _ => 0 end.
  Lemma fu_poll_k cn order : forall l : list (pend (K := K) svc),
    bal live (osum op l) (fu_poll cn order l) (fun y => osum op (fst y) + opo (snd y)).
  Proof.
    induction order as [|i order IH]; intros l; cbn [fu_poll]; [apply bal_ret; cbn; lia |].
    destruct (nth_error l i) as [p|] eqn:E; [| apply IH].
    assert (X := osum_remove_nth op l i E). cbv beta in X. assert (Y := op0 (remove_nth i l)). destruct (cn (pd_cancel p)).
    - kdrop_svc H. apply bal_ret. cbn [fst snd opo]. lia.
    - assert (Zs := ho_svc0 H (pd_svc p)). eapply bal_bind; [apply (ho_ready H) | lia |].
      intros [s1 [|[u|e]]]; cbn [fst].
      + eapply bal_eq; [apply IH |]. rewrite (osum_set op l i (Pend (pd_key p) (pd_cancel p) s1) E). cbn. lia.
      + apply bal_ret. cbn [fst snd opo]. lia.
      + kdrop_svc H. apply bal_ret. cbn [fst snd opo]. lia.
  Qed.
  Lemma fu_poll_next_k (c : cache) : bal live (osum op (rc_pending c)) (fu_poll_next sched c)
    (fun y => osum op (fst y) + match snd y with Ready o => opo o | Pending => 0 end).
  Proof.
    unfold fu_poll_next. destruct (rc_pending c) as [|p l]; [apply bal_ret; reflexivity |].
    bst. { intros w. generalize (Hsch (length (p :: l)) w). destruct (sched _ w). cbn. auto. }
    eapply bal_bind; [apply fu_poll_k | lia |]. intros [l1 o]. cbn [fst snd]. apply bal_ret. destruct o as [[]|]; cbn; lia.
  Qed.
  Lemma fu_end (c : cache) w w1 l : fu_poll_next sched c w = (w1, Val (l, Ready None)) -> l = [] /\ rc_pending c = [].
  Proof.
    unfold fu_poll_next. destruct (rc_pending c) as [|p l0]; [intros E; injection E as <- <-; auto |].
    unfold bind. destruct (sched (length (p :: l0)) w) as [w2 o]. destruct (fu_poll (is_canceled c) o (p :: l0) w2) as [w3 [[l1 [x|]]| |]]; discriminate.
  Qed.
  Lemma bal_bind_eq A B b b' (m : M W A) (k : A -> M W B) o o' : bal live b m o -> b <= b' ->
    (forall w w1 a, m w = (w1, Val a) -> bal live (o a + (b' - b)) (k a) o') -> bal live b' (bind m k) o'.
  Proof.
    intros Hm L Hk w w2 y Hw E. unfold bind in E. destruct (m w) as [w1 [a| |]] eqn:E1; try discriminate.
    assert (X := Hm w w1 a ltac:(lia) E1). assert (Y := Hk w w1 a E1 w1 w2 y ltac:(lia) E). lia.
  Qed.
  Lemma poll_pending_loop_k fuel : forall c : cache, bal live (oc c) (poll_pending_loop keq sched fuel c) (fun y => oc (fst y)).
  Proof.
    induction fuel as [|fuel IH]; intros c; [apply bal_diverge |]. cbn [poll_pending_loop].
    assert (Y := or0 (rc_ready c)).
    eapply bal_bind_eq; [apply fu_poll_next_k | unfold ocache; lia |]. intros w w1 [l p] Ep. cbn [fst snd].
    replace (oc c - osum op (rc_pending c)) with (osum ord (rc_ready c)) by (unfold ocache; lia).
    assert (Yl := op0 l).
    destruct p as [|[[x s t|x|x e]|]]; cbn [opo].
    - apply bal_ret. unfold ocache. cbn [rc_pending rc_ready fst]. lia.
    - destruct (im_swap_remove keq x (rc_txs c)) as [[tx txs1]|]; [| apply bal_panic].
      destruct (im_insert keq x (s, tx) (rc_ready c)) as [ready1 old] eqn:Ei.
      assert (X := osum_im_insert keq ord (fun _ _ _ => eq_refl) _ _ _ Ei). cbn [fst snd] in X. assert (Y1 := or0 ready1).
      eapply bal_modify with (c := oopt (fun u => osv (fst u)) old).
      + destruct old as [[s0 t0]|]; [apply (ho_drop_svc H) | apply gone_id].
      + assert (oopt (fun u => osv (fst u)) old = oopt (fun u : st svc * nat => ord (x, u)) old) by (destruct old; reflexivity).
        assert (0 <= oopt (fun u : st svc * nat => ord (x, u)) old) by (apply oopt_nonneg; intros u; apply (ho_svc0 H)). lia.
      + eapply bal_eq; [apply IH |]. unfold ocache. cbn [rc_pending rc_ready].
        assert (oopt (fun u => osv (fst u)) old = oopt (fun u : st svc * nat => ord (x, u)) old) by (destruct old; reflexivity). lia.
    - eapply bal_eq; [apply IH |]. unfold ocache. cbn [rc_pending rc_ready]. lia.
    - destruct (im_swap_remove keq x (rc_txs c)) as [[tx txs1]|]; [| apply bal_panic]. apply bal_ret. unfold ocache. cbn [rc_pending rc_ready fst]. lia.
    - destruct (fu_end _ _ Ep) as [-> E]. apply bal_ret. cbn [fst]. unfold ocache. rewrite E. cbn. lia.
  Qed.
  Lemma check_ready_index_k (c : cache) i : bal live (oc c) (check_ready_index keq c i) (fun y => oc (fst y)).
  Proof.
    unfold check_ready_index. destruct (nth_error (rc_ready c) i) as [[x [s t]]|] eqn:E; [| apply bal_ret; reflexivity].
    assert (X := osum_nth ord (rc_ready c) (fun x => ho_svc0 H _) _ E). cbn [fst snd] in X. assert (Y := op0 (rc_pending c)).
    eapply bal_bind; [apply (ho_ready H) | unfold ocache; lia |]. intros [s1 a]. cbv zeta. cbn [fst].
    assert (E1 := osum_set ord (rc_ready c) i (x, (s1, t)) E). cbn [fst snd] in E1.
    destruct a as [|[u|e]].
    - destruct (swap_remove i _) as [[[x2 [s2 t2]] ready2]|] eqn:E2; [| apply bal_panic].
      assert (X2 := osum_swap_remove ord _ _ E2). cbn [fst snd] in X2. assert (Y2 := or0 ready2). assert (Zs := ho_svc0 H s2).
      destruct (pending_contains keq _ x2).
      + eapply bal_modify; [apply (ho_drop_svc H) | unfold ocache; lia |]. apply bal_ret. unfold ocache. cbn [fst rc_pending rc_ready]. lia.
      + apply bal_ret. cbn [fst]. rewrite oc_push_pending. unfold ocache. cbn [rc_pending rc_ready]. lia.
    - apply bal_ret. unfold ocache. cbn [fst rc_pending rc_ready]. lia.
    - destruct (swap_remove i _) as [[[x2 [s2 t2]] ready2]|] eqn:E2; [| apply bal_panic].
      assert (X2 := osum_swap_remove ord _ _ E2). cbn [fst snd] in X2. assert (Y2 := or0 ready2). assert (Zs := ho_svc0 H s2).
      eapply bal_modify; [apply (ho_drop_svc H) | unfold ocache; lia |]. apply bal_ret. unfold ocache. cbn [fst rc_pending rc_ready]. lia.
  Qed.
  Lemma call_ready_index_k (c : cache) i r : bal live (oc c) (call_ready_index keq c i r) (fun y => oc (fst y) + own (snd y)).
  Proof.
    unfold call_ready_index. destruct (swap_remove i (rc_ready c)) as [[[x [s t]] ready1]|] eqn:E; [| apply bal_panic].
    assert (X := osum_swap_remove ord _ _ E). cbn [fst snd] in X. assert (Y := op0 (rc_pending c)). assert (Y1 := or0 ready1).
    eapply bal_bind; [apply (ho_call H) | unfold ocache; lia |]. intros [s1 f]. cbv zeta. cbn [fst snd].
    destruct (pending_contains keq _ x).
    - eapply bal_modify; [apply (ho_drop_svc H) | unfold ocache; klia H |]. apply bal_ret. unfold ocache. cbn [fst snd rc_pending rc_ready]. lia.
    - apply bal_ret. cbn [fst snd]. rewrite oc_push_pending. unfold ocache. cbn [rc_pending rc_ready]. lia.
  Qed.
  Lemma cache_drop_k (c : cache) : gone live (oc c) (cache_drop c).
  Proof.
    unfold cache_drop, ocache.
    apply (gone_two (gone_all (live := live) op (fun p => drop_svc svc (pd_svc p)) (fun p => ho_drop_svc H _) (fun p => ho_svc0 H _) (rc_pending c))
                    (gone_all (live := live) ord (fun x => drop_svc svc (fst (snd x))) (fun p => ho_drop_svc H _) (fun p => ho_svc0 H _) (rc_ready c))
                    (op0 _) (or0 _)).
  Qed.
End Cache.

Section Balance.
  Context {W K Req Resp Err DErr Met G : Type} (keq : forall a b : K, {a = b} + {a <> b}) (live : W -> Z).
  Context (svc : Service W Req Resp Err) (D : Discover W K (st svc) DErr) osv own (H : holds live svc osv own none).
  Context (sched : nat -> W -> W * list nat) (Hsch : forall l, same live (fun w => fst (sched l w))).
  Context (next_u64 : G -> M W (G * Z)) (debug : bool) (load : st svc -> M W Met) (le : Met -> Met -> bool).
  Context od (HD : disc_holds live D osv od).
  Context (Hg : forall g, still live (next_u64 g)) (Hl : forall s, still live (load s)).
  Notation oc := (ocache osv (K := K)).

  Lemma update_k fuel : forall d c, bal live (od d + oc c) (update_from_discover keq D fuel d c) (fun y => od (fst (fst y)) + oc (snd (fst y))).
  Proof.
    induction fuel as [|fuel IH]; intros d c; [apply bal_diverge |]. cbn [update_from_discover].
    assert (Y := ocache0 osv c (ho_svc0 H)).
    eapply bal_bind; [apply (do_poll HD) | lia |]. intros [d1 [|[[[x s|x]|e]|]]]; cbn [fst snd in_change]; try (apply bal_ret; cbn; lia).
    - eapply bal_eq; [apply IH |]. rewrite oc_push. lia.
    - assert (Y2 := do_0 HD d1). eapply bal_bind; [apply (evict_k keq H) | lia |]. intros [c1 b]. eapply bal_eq; [apply IH |]. cbn [fst]. lia.
  Qed.
  Lemma promote_k fuel : forall c : cache (K := K) svc, bal live (oc c) (promote_loop keq sched debug fuel c) oc.
  Proof.
    induction fuel as [|fuel IH]; intros c; [apply bal_diverge |]. cbn [promote_loop].
    eapply bal_bind; [apply (poll_pending_loop_k keq H sched Hsch) | lia |].
    intros [c1 [|[u|e]]]; cbn [fst]; [| | eapply bal_eq; [apply IH | lia]]; (destruct (debug && _); [apply bal_panic | apply bal_ret; lia]).
  Qed.
  Lemma next_range_k g a b : still live (next_range next_u64 debug g a b).
  Proof.
    unfold next_range. destruct (debug && _); [apply still_panic |]. cbv zeta. apply still_bind; [apply Hg | intros [g1 n]].
    destruct (_ =? 0)%Z; [apply still_panic | apply still_ret].
  Qed.
  Lemma p2c_k (c : cache (K := K) svc) g : still live (p2c_ready_index next_u64 debug load le c g).
  Proof.
    assert (Hi : forall i, still live (ready_index_load load c i)).
    { intros i. unfold ready_index_load. destruct (get_ready_index c i) as [[x s]|]; [apply Hl | apply still_panic]. }
    unfold p2c_ready_index. destruct (ready_len c) as [|[|n]]; try apply still_ret.
    apply still_bind.
    - unfold sample_floyd2. destruct (debug && _); [apply still_panic |]. apply still_bind; [apply next_range_k | intros [g1 a]].
      apply still_bind; [apply next_range_k | intros [g2 b]; apply still_ret].
    - intros [g1 ab]. cbv zeta. destruct (debug && _); [apply still_panic |].
      apply still_bind; [apply Hi | intros la]. apply still_bind; [apply Hi | intros lb; apply still_ret].
  Qed.
  Notation ob := (obalance osv od (K := K) (G := G)).
  Lemma balance_loop_k fuel : forall d c idx g,
    bal live (od d + oc c) (balance_loop keq D next_u64 debug load le fuel d c idx g) (fun y => ob (fst y)).
  Proof.
    induction fuel as [|fuel IH]; intros d c idx g; [apply bal_diverge |]. cbn [balance_loop].
    assert (Hsel : forall c, bal live (od d + oc c)
       ('(g1, o) <- p2c_ready_index next_u64 debug load le c g ;;
          match o with
          | None => if debug && negb (ready_len c =? 0)%nat then panic else ret (BalSt d c None g1, Pending)
          | Some i => balance_loop keq D next_u64 debug load le fuel d c (Some i) g1
          end) (fun y => ob (fst y))).
    { intros c2. bst; [apply p2c_k |]. destruct a as [g1 [i|]]; [apply IH |].
      destruct (debug && _); [apply bal_panic | apply bal_ret; reflexivity]. }
    cbv zeta. destruct idx as [i|]; [| apply Hsel]. assert (Y := do_0 HD d).
    eapply bal_bind; [apply (check_ready_index_k keq H) | lia |]. intros [c1 [[|]|e]]; cbn [fst].
    - apply bal_ret. unfold obalance. cbn [fst bl_disc bl_cache]. lia.
    - eapply bal_eq; [apply Hsel | lia].
    - eapply bal_eq; [apply Hsel | lia].
  Qed.
  Lemma balance_k fuel : holds live (balance keq svc D sched next_u64 debug load le fuel) ob (oopt own) none.
  Proof.
    constructor; cbn [balance poll_ready call poll_fut clone drop_svc drop_fut].
    - intros s. unfold obalance at 1. eapply bal_bind; [apply update_k | lia |]. intros [[d1 c1] [x|]]; cbn [fst snd].
      + apply bal_ret. unfold obalance. cbn [fst bl_disc bl_cache]. lia.
      + assert (Y := do_0 HD d1). eapply bal_bind; [apply promote_k | lia |]. intros c2. eapply bal_eq; [apply balance_loop_k | lia].
    - intros s r. destruct (bl_index s) as [i|]; [| apply bal_panic]. assert (Y := do_0 HD (bl_disc s)). unfold obalance at 1.
      eapply bal_bind; [apply (call_ready_index_k keq H) | lia |]. intros [c1 f]. apply bal_ret. unfold obalance. cbn [fst snd bl_disc bl_cache oopt]. lia.
    - intros f. apply (map_poll_k H). intros r; apply still_ret.
    - intros s. apply bal_panic.
    - intros s. unfold obalance. apply gone_two; [apply (do_drop HD) | apply (cache_drop_k H) | apply (do_0 HD) | apply ocache0, (ho_svc0 H)].
    - apply (map_drop_k H).
    - intros s. unfold obalance. generalize (do_0 HD (bl_disc s)) (ocache0 osv (bl_cache s) (ho_svc0 H)). lia.
    - apply (opt0 H).
    - apply (ho_resp0 H).
  Qed.
End Balance.
