(** Proof of C66: the remaining layers. *)
From Verif Require Import Base Util ReadyCache Load Make SpawnReady Middleware Limits Hedge MeterSpec MeterMore ConcProof LiveSpec LiveProof.
Set Implicit Arguments.

Lemma service_fn_l W Req Resp Err (T : Task W (result Resp Err)) (f : Req -> M W (tst T)) :
  (forall r, gives (f r) (answers (tpoll T))) -> Lively true (service_fn T f) (fun _ => True).
Proof.
  intros Hf. constructor; cbn [service_fn poll_ready call clone].
  - intros s Hs. gr. exact I.
  - intros _ s Hs. rg. gr. exact I.
  - intros s r Hs. gb; [apply Hf |]. intros t Ht. gr. split; [exact I | exact Ht].
  - intros s Hs. gr. exact I.
Qed.

Lemma either_l W Req Resp Err rdy (a b : Service W Req Resp Err) Ra Rb : Lively rdy a Ra -> Lively rdy b Rb ->
  Lively rdy (either a b) (fun s => match s with inl x => Ra x | inr y => Rb y end).
Proof.
  intros Ha Hb. constructor; cbn [either poll_ready call clone].
  - intros [x|y] Hs; (gb; [first [apply (lv_ready Ha Hs) | apply (lv_ready Hb Hs)] |]); intros [s1 p] H1; gr; exact H1.
  - intros E [x|y] Hs; [generalize (lv_becomes_ready Ha E x Hs) | generalize (lv_becomes_ready Hb E y Hs)]; clear Hs; [revert x | revert y];
      apply reaches_ind'; intros s Hs; rg; (gb; [exact Hs |]); intros [s1 [|o]]; cbn; [intros [_ H]; gr; exact H | intros _; gr; exact I | intros [_ H]; gr; exact H | intros _; gr; exact I].
  - intros [x|y] r Hs.
    + gb; [apply (lv_call Ha r Hs) |]. intros [x1 f] [H1 H2]. gr. split; [exact H1 |]. cbn [snd] in *. clear H1. revert f H2.
      apply reaches_ind'; intros f Hf; rg; (gb; [exact Hf |]); intros [s1 [|o]]; cbn; [intros [_ H]; gr; exact H | intros _; gr; exact I].
    + gb; [apply (lv_call Hb r Hs) |]. intros [x1 f] [H1 H2]. gr. split; [exact H1 |]. cbn [snd] in *. clear H1. revert f H2.
      apply reaches_ind'; intros f Hf; rg; (gb; [exact Hf |]); intros [s1 [|o]]; cbn; [intros [_ H]; gr; exact H | intros _; gr; exact I].
  - intros [x|y] Hs; (gb; [first [apply (lv_clone Ha Hs) | apply (lv_clone Hb Hs)] |]); intros s1 H1; gr; exact H1.
Qed.

(** Services in a larger world *)
Lemma gives_lift_snd W A (m : M W A) P : gives m P -> gives (lift_snd m) P.
Proof. intros H [x w]. specialize (H w). unfold lift_snd. cbn [fst snd]. destruct (m w) as [w1 o]. exact H. Qed.
Lemma gives_lift_w W C A (m : M W A) P : gives m P -> gives (lift_w (C := C) m) P.
Proof. intros H [x w]. specialize (H w). unfold lift_w. cbn [fst snd]. destruct (m w) as [w1 o]. exact H. Qed.

Lemma conc_l W Req Resp Err rdy (svc : Service W Req Resp Err) R closed debug : Lively rdy svc R ->
  Lively false (conc_limit svc closed debug) (fun s => R (cl_inner s)).
Proof.
  intros H. constructor; cbn [conc_limit poll_ready call clone].
  - intros s Hs. cbv zeta.
    assert (Hp : forall wt pm, gives ('(s1, a) <- lift_snd (poll_ready svc (cl_inner s)) ;; ret (ConcSt svc s1 wt pm, a)) (fun x => R (cl_inner (fst x)))).
    { intros wt pm. gb; [apply gives_lift_snd, (lv_ready H Hs) |]. intros [s1 a] H1. gr. exact H1. }
    destruct (cl_permit s); [apply Hp |].
    gb; [apply gives_get with (P := fun _ => True); auto |]. intros cl _. destruct cl; [destruct debug; [apply gives_panic | apply Hp] |].
    gb; [apply gives_get with (P := fun _ => True); auto |]. intros m _. destruct (sem_poll (cl_wait s) m) as [[m1 wait1] got].
    gb; [apply gives_mod |]. intros u _. destruct got; [apply Hp |]. gr. exact Hs.
  - discriminate.
  - intros s r Hs. destruct (cl_permit s); [| apply gives_panic]. gb; [apply gives_lift_snd, (lv_call H r Hs) |]. intros [s1 f] [H1 H2].
    gr. split; [exact H1 |]. cbn [snd] in *. clear H1. revert f H2. apply reaches_ind'. intros f Hf. rg. cbn.
    eapply gives_mono; [apply gives_lift_snd, Hf |]. intros [f1 [|o]]; cbn; tauto.
  - intros s Hs. gb; [apply gives_lift_snd, (lv_clone H Hs) |]. intros s1 H1. gr. exact H1.
Qed.

Lemma tracked_l W Req Resp Err C T rdy (svc : Service W Req Resp Err) R (start : M W T) (finish : T -> C -> W -> C * W) (keep : Resp -> W -> W * bool) :
  Lively rdy svc R -> gives start (fun _ => True) -> Lively rdy (tracked_load svc start finish keep) R.
Proof.
  intros H Hst. constructor; cbn [tracked_load poll_ready call clone].
  - intros s Hs. apply gives_lift_w, (lv_ready H Hs).
  - intros E s Hs. generalize (lv_becomes_ready H E s Hs). clear Hs. revert s. apply reaches_ind'. intros s Hs. rg.
    eapply gives_mono; [apply gives_lift_w, Hs |]. intros [s1 [|o]]; cbn; tauto.
  - intros s r Hs. unfold tl_call, new_handle. gb; [gb; [apply gives_lift_w, Hst |]; intros t _; gb; [apply gives_mod |]; intros u _; apply gives_ret with (P := fun _ => True); exact I |].
    intros t _. intros [x w]. cbn [snd fst]. generalize (lv_call H r Hs w). destruct (call svc s r w) as [w1 [[s1 f]| |]]; cbn; auto.
    intros [H1 H2]. split; [exact H1 |]. clear H1. revert f H2.
    apply reaches_ind'. intros f Hf. rg. unfold tc_poll. cbn [tc_inner tc_handle].
    gb; [apply gives_lift_w, Hf |]. intros [f1 [|[v|e]]]; cbn.
    + intros [_ Ha]. gr. exact Ha.
    + intros _. gb; [apply gives_lift_w, gives_any |]. intros k _. destruct k; [gr; exact I |]. gb; [apply gives_mod |]. intros u _. gr. exact I.
    + intros _. gr. exact I.
  - intros s Hs. apply gives_panic.
Qed.

Lemma make_balance_l W K Req Resp Err DErr G Tgt MErr rdy (svc : Service W Req Resp Err)
    (D : Discover W K (st svc) DErr) (mk : Service W Tgt (dst D) MErr) R (g0 : M W G) :
    Lively rdy mk R -> gives g0 (fun _ => True) -> Lively rdy (make_balance svc D mk g0) R.
Proof.
  intros H Hg. constructor; cbn [make_balance poll_ready call clone]; try apply H.
  intros s r Hs. eapply gives_mono; [apply (lv_call H r Hs) |]. intros [s1 f] [H1 H2]. split; [exact H1 |]. cbn [snd] in *. clear H1. revert f H2.
  apply reaches_ind'. intros f Hf. rg. cbn. gb; [exact Hf |]. intros [f1 [|[d|e]]]; cbn; [intros [_ Ha]; gr; exact Ha | | intros _; gr; exact I].
  intros _. gb; [exact Hg |]. intros g _. gr. exact I.
Qed.

Section SteerL.
  Context {W Req Resp Err P : Type} (rdy : bool) (svc : Service W Req Resp Err) (R : st svc -> Prop) (H : Lively rdy svc R).
  Context (pick : P -> Req -> list (st svc) -> M W (P * nat)) (pclone : P -> M W P).
  Lemma steer_poll_safe nr : forall l, Forall R l -> gives (steer_poll svc l nr) (fun x => Forall R (fst (fst x))).
  Proof.
    induction nr as [|i nr IH]; intros l Hl; cbn; [gr; exact Hl |]. destruct (nth_error l i) as [s|] eqn:E; [| apply gives_panic].
    gb; [apply (lv_ready H (forall_nth _ Hl E)) |]. intros [s1 p] H1. cbv zeta.
    assert (H2 : Forall R (set_nth i s1 l)) by (apply forall_set_nth; assumption).
    destruct p as [|[u|e]]; [gr; exact H2 | apply IH, H2 | gr; exact H2].
  Qed.
  Lemma steer_reach : rdy = true -> forall nr q l, Forall R l -> answers (poll_ready (steer svc pick pclone)) (SteerSt svc q l nr).
  Proof.
    intros Er nr. induction nr as [|i nr IH]; intros q l Hl.
    { rg. intros w. exact I. }
    destruct (nth_error l i) as [s|] eqn:E.
    2:{ rg. intros w. cbn. unfold bind. rewrite E. exact I. }
    revert l Hl E. generalize (lv_becomes_ready H Er s).
    assert (HQ : forall s, answers (poll_ready svc) s -> R s -> forall l, Forall R l -> nth_error l i = Some s ->
               answers (poll_ready (steer svc pick pclone)) (SteerSt svc q l (i :: nr))).
    { refine (@reaches_ind' _ _ _ _ _ (fun s => R s -> forall l, Forall R l -> nth_error l i = Some s ->
               answers (poll_ready (steer svc pick pclone)) (SteerSt svc q l (i :: nr))) _).
      intros x Hx Rx l Hl E. rg. cbn [steer poll_ready sr_services sr_not_ready steer_poll sr_router]. rewrite E.
      apply gives_bind with (P := fun y => match snd y with
        | Pending => answers (poll_ready (steer svc pick pclone)) (SteerSt svc q (fst (fst y)) (snd (fst y))) | Ready _ => True end).
      - gb; [apply gives_and; [exact Hx | apply (lv_ready H Rx)] |]. intros [s1 p] [H1 H2]. cbn [fst snd] in *. cbv zeta.
        assert (H3 : Forall R (set_nth i s1 l)) by (apply forall_set_nth; assumption).
        destruct p as [|[u|e]]; [gr; cbn | | gr; exact I].
        + apply H1; [exact H2 | exact H3 |]. rewrite nth_set, Nat.eqb_refl, E. reflexivity.
        + assert (HI := IH q _ H3). apply (proj1 (reaches_gives _ _ _)) in HI. cbn [steer poll_ready sr_services sr_not_ready sr_router] in HI.
          intros w. specialize (HI w). unfold bind in HI. destruct (steer_poll svc (set_nth i s1 l) nr w) as [w1 [[[l1 nr1] p]| |]]; cbn in *; auto.
      - intros [[l1 nr1] p] Hy. gr. destruct p; cbn in *; [exact Hy | exact I]. }
    intros Hs l Hl E. apply (HQ s (Hs (forall_nth _ Hl E)) (forall_nth _ Hl E) l Hl E).
  Qed.
  Lemma clone_all_l : forall l, Forall R l -> gives (clone_all svc l) (Forall R).
  Proof.
    induction l as [|x l IH]; intros Hl; cbn; [gr; constructor |]. inversion Hl; subst. gb; [apply (lv_clone H); eassumption |]. intros s1 H1.
    gb; [apply IH; assumption |]. intros l1 H4. gr. constructor; assumption.
  Qed.
  Lemma steer_l : (forall q r l, gives (pick q r l) (fun _ => True)) -> (forall q, gives (pclone q) (fun _ => True)) ->
    Lively rdy (steer svc pick pclone) (fun s => Forall R (sr_services s)).
  Proof.
    intros Hp Hc. constructor.
    - intros [q l nr] Hs. cbn. gb; [apply (steer_poll_safe nr Hs) |]. intros [[l1 nr1] p] H1. gr. exact H1.
    - intros E [q l nr] Hs. apply steer_reach; assumption.
    - intros [q l nr] r Hs. cbn in Hs. cbn [steer call sr_not_ready sr_router sr_services]. destruct nr; [| apply gives_panic].
      gb; [apply Hp |]. intros [q1 i] _. destruct (nth_error l i) as [s|] eqn:E; [| apply gives_panic].
      gb; [apply (lv_call H r (forall_nth _ Hs E)) |]. intros [x1 f] [H1 H2]. gr. split; [cbn; apply forall_set_nth; assumption | exact H2].
    - intros [q l nr] Hs. cbn. gb; [apply Hc |]. intros q1 _. gb; [apply (clone_all_l Hs) |]. intros l1 H1. gr. exact H1.
  Qed.
End SteerL.

Section RetryL.
  Context {W Req Resp Err : Type} (svc : Service W Req Resp Err) (R : st svc -> Prop) (H : Lively true svc R) (pol : Policy W Req Resp Err).
  Context (fuel n : nat) (VP : pst pol -> Prop) (left : pst pol -> Req -> nat).
  Context (Hfuel : 3 * n + 3 <= fuel) (Hleft : forall p r, VP p -> left p r <= n).
  Context (Hclone : forall p r, VP p -> gives (clone_request pol p r)
       (fun x => VP (fst x) /\ match snd x with Some r1 => left (fst x) r1 <= left p r | None => True end)).
  Context (Hdecide : forall p r v, VP p -> gives (retry_decide pol p r v)
       (fun x => VP (fst (fst (fst x))) /\
                 match snd x with
                 | Some t => answers (tpoll (pfut pol)) t /\ left (fst (fst (fst x))) (snd (fst (fst x))) < left p r
                 | None => True
                 end)).
  Context (Hpclone : forall p, VP p -> gives (pol_clone pol p) (fun p1 => VP p1 /\ forall r, left p1 r <= left p r)).
  Notation rfut := (retry_fut pol svc).
  Definition lft (f : rfut) : nat := match rf_req f with Some r => left (rf_pol f) r | None => 0 end.
  Definition need (f : rfut) : nat :=
    3 * lft f + match rf_state f with RCalled _ => 1 | RWaiting _ => 3 | RRetrying => 2 end.
  Definition Vrf (f : rfut) : Prop :=
    VP (rf_pol f) /\ R (rf_svc f) /\
    match rf_state f with RCalled x => answers (poll_fut svc) x | RWaiting t => answers (tpoll (pfut pol)) t | RRetrying => True end.
  Lemma need_fuel f : Vrf f -> need f <= fuel.
  Proof.
    intros (H1 & _ & _). unfold need, lft. destruct (rf_req f) as [r|]; [generalize (Hleft r H1) |]; destruct (rf_state f); lia.
  Qed.
  Notation goal := (fun y : rfut * poll (result Resp Err) => match snd y with Pending => answers (retry_poll (svc := svc) fuel) (fst y) | Ready _ => True end).
  Lemma retry_poll_l m : forall f, Vrf f -> need f <= m -> forall k, need f <= k -> gives (retry_poll (svc := svc) k f) goal.
  Proof.
    induction m as [|m IH]; intros f Hf Hm; [unfold need in Hm; destruct (rf_state f); lia |].
    destruct f as [req p s rs]. destruct Hf as (H1 & H2 & H3). cbn [rf_pol rf_svc rf_state] in *. destruct rs as [x|t|].
    - revert Hm. revert x H3.
      refine (@reaches_ind' _ _ _ _ _ (fun x => need (RetryFut req p s (RCalled x)) <= S m ->
        forall k, need (RetryFut req p s (RCalled x)) <= k -> gives (retry_poll (svc := svc) k (RetryFut req p s (RCalled x))) goal) _).
      intros x Hx Hm k Hk. destruct k as [|k]; [unfold need in Hk; cbn in Hk; lia |]. cbn [retry_poll].
      unfold retry_iter. cbn [rf_state rf_req rf_pol rf_svc].
      apply gives_bind with (P := fun y : rfut + rfut * poll (result Resp Err) =>
        match y with inl f1 => Vrf f1 /\ need f1 <= m /\ need f1 <= k | inr z => goal z end).
      2:{ intros [f1|z] Hz; [apply IH; tauto | gr; exact Hz]. }
      gb; [exact Hx |]. intros [x1 [|res]]; cbn [fst snd].
      + intros [Ha Hb]. gr. cbn. rg. apply Hb; [exact Hm |]. apply need_fuel. split; [exact H1 |]. split; [assumption | first [assumption | exact I]].
      + intros _. destruct req as [req|]; [| gr; exact I]. gb; [apply (Hdecide req res H1) |]. intros [[[p1 req1] res1] [t|]]; cbn [fst snd].
        * intros (H4 & H5 & H6). gb; [apply gives_mod |]. intros u _. gr. unfold need, lft in *. cbn [rf_req rf_pol rf_state] in *.
          split; [split; [exact H4 | split; [exact H2 | exact H5]] | lia].
        * intros _. gr. exact I.
    - revert Hm. revert t H3.
      refine (@reaches_ind' _ _ _ _ _ (fun t => need (RetryFut req p s (RWaiting t)) <= S m ->
        forall k, need (RetryFut req p s (RWaiting t)) <= k -> gives (retry_poll (svc := svc) k (RetryFut req p s (RWaiting t))) goal) _).
      intros t Ht Hm k Hk. destruct k as [|k]; [unfold need in Hk; cbn in Hk; lia |]. cbn [retry_poll].
      unfold retry_iter. cbn [rf_state rf_req rf_pol rf_svc].
      apply gives_bind with (P := fun y : rfut + rfut * poll (result Resp Err) =>
        match y with inl f1 => Vrf f1 /\ need f1 <= m /\ need f1 <= k | inr z => goal z end).
      2:{ intros [f1|z] Hz; [apply IH; tauto | gr; exact Hz]. }
      gb; [exact Ht |]. intros [t1 [|res]]; cbn [fst snd].
      + intros [Ha Hb]. gr. cbn. rg. apply Hb; [exact Hm |]. apply need_fuel. split; [exact H1 |]. split; [assumption | first [assumption | exact I]].
      + intros _. gb; [apply gives_mod |]. intros u _. gr. unfold need, lft in *. cbn [rf_req rf_pol rf_state] in *.
        split; [split; [exact H1 | split; [exact H2 | exact I]] | lia].
    - revert Hm. generalize H2. generalize (lv_becomes_ready H eq_refl s H2). clear H2 H3. revert s.
      refine (@reaches_ind' _ _ _ _ _ (fun s => R s -> need (RetryFut req p s RRetrying) <= S m ->
        forall k, need (RetryFut req p s RRetrying) <= k -> gives (retry_poll (svc := svc) k (RetryFut req p s RRetrying)) goal) _).
      intros s Hx H2 Hm k Hk. destruct k as [|k]; [unfold need in Hk; cbn in Hk; lia |]. cbn [retry_poll].
      unfold retry_iter. cbn [rf_state rf_req rf_pol rf_svc].
      apply gives_bind with (P := fun y : rfut + rfut * poll (result Resp Err) =>
        match y with inl f1 => Vrf f1 /\ need f1 <= m /\ need f1 <= k | inr z => goal z end).
      2:{ intros [f1|z] Hz; [apply IH; tauto | gr; exact Hz]. }
      gb; [apply gives_and; [exact Hx | apply (lv_ready H H2)] |]. intros [s1 [|[u|e]]]; cbn [fst snd].
      + intros [[Ha Hb] Hc]. gr. cbn. rg. apply Hb; [exact Hc | exact Hm |]. apply need_fuel. split; [exact H1 |]. split; [assumption | first [assumption | exact I]].
      + intros [_ Hc]. destruct req as [req|]; [| apply gives_panic]. gb; [apply (Hclone req H1) |]. intros [p1 saved] [H4 H5]. cbn [fst snd] in *.
        gb; [apply (lv_call H req Hc) |]. intros [s2 x] [H6 H7]. cbn [fst snd] in *. gr.
        unfold need, lft in *. cbn [rf_req rf_pol rf_state] in *.
        split; [split; [exact H4 | split; [exact H6 | exact H7]] | destruct saved; lia].
      + intros _. gr. exact I.
  Qed.
  Lemma retry_l : Lively true (retry pol svc fuel) (fun s => VP (fst s) /\ R (snd s)).
  Proof.
    constructor; cbn [retry poll_ready call clone].
    - intros [p s] [H1 H2]. cbn [fst snd] in *. gb; [apply (lv_ready H H2) |]. intros [s1 a] H3. gr. split; assumption.
    - intros E [p s] [H1 H2]. cbn [fst snd] in *. generalize (lv_becomes_ready H E _ H2). clear H2. revert s. apply reaches_ind'. intros s Hs. rg. gb; [exact Hs |].
      intros [s1 [|a]]; cbn; [intros [_ Ha] | intros _]; gr; [exact Ha | exact I].
    - intros [p s] r [H1 H2]. cbn [fst snd] in *. gb; [apply (Hclone r H1) |]. intros [p1 saved] [H4 H5]. cbn [fst snd] in *.
      gb; [apply (lv_call H r H2) |]. intros [s1 x] [H6 H7]. cbn [fst snd] in *. gb; [apply (Hpclone H4) |]. intros p2 [H8 H9].
      gb; [apply (lv_clone H H6) |]. intros s2 H10. gr. split; [split; assumption |]. cbn [snd].
      assert (HV : Vrf (RetryFut saved p2 s2 (RCalled x))) by (split; [exact H8 | split; [exact H10 | exact H7]]).
      rg. cbn [retry poll_fut]. apply retry_poll_l with (m := need (RetryFut saved p2 s2 (RCalled x))); [exact HV | lia | apply need_fuel, HV].
    - intros [p s] [H1 H2]. cbn [fst snd] in *. gb; [apply (Hpclone H1) |]. intros p1 [H3 _]. gb; [apply (lv_clone H H2) |]. intros s1 H4. gr. split; assumption.
  Qed.
End RetryL.

Section ReconnectL.
  Context {W Tgt Req Resp Err MErr : Type} (rdy : bool) (svc : Service W Req Resp Err) (mk : Service W Tgt (st svc) MErr).
  Context (target : Tgt) (fuel : nat) (R I0 : st svc -> Prop) (VM : st mk -> Prop).
  Context (H : Lively rdy svc R) (HI : forall c, I0 c -> R c) (Hfuel : 4 <= fuel).
  Context (Hfirst : forall c, I0 c -> gives (poll_ready svc c) (fun x => match snd x with Ready (Er _) => False | _ => True end)).
  Context (Hok : rdy = true -> forall c, I0 c -> reaches (poll_ready svc) (fun a => a = Ok tt) c).
  Context (Hmr : forall m, VM m -> gives (poll_ready mk m) (fun x => VM (fst x))).
  Context (Hma : rdy = true -> forall m, VM m -> answers (poll_ready mk) m).
  Context (Hmc : forall m, VM m -> gives (call mk m target)
       (fun x => VM (fst x) /\ reaches (poll_fut mk) (fun a => match a with Ok c => I0 c | Er _ => True end) (snd x))).
  Notation rst := (reconnect_st svc mk).
  Notation rpoll := (reconnect_poll (svc := svc) (mk := mk) target).
  Definition RcOk (s : rst) : Prop :=
    VM (rc_mk s) /\
    match rc_st s with
    | RcIdle => True
    | RcConnecting f => reaches (poll_fut mk) (fun a => match a with Ok c => I0 c | Er _ => True end) f
    | RcConnected c => R c
    end.
  Definition post (x : rst * poll (result unit (Err + MErr))) : Prop := RcOk (fst x).
  Lemma rc_fresh k (s : rst) c : 1 <= k -> VM (rc_mk s) -> rc_st s = RcConnected (svc := svc) (mk := mk) c -> I0 c -> gives (rpoll k s) post.
  Proof.
    intros Hk Hm E Hc. destruct k as [|k]; [lia |]. cbn [reconnect_poll]. unfold reconnect_iter. rewrite E.
    apply gives_bind with (P := fun x => match x with inl _ => False | inr r => post r end);
      [gb; [apply gives_and; [apply (lv_ready H (HI Hc)) | apply (Hfirst Hc)] |];
      intros [c1 [|[u|e]]] [H1 H2]; cbn [fst snd] in *; [gr | gr | contradiction]; split; assumption |].
    intros [s1|x] Hx; [contradiction | gr; exact Hx].
  Qed.
  Lemma rc_conn k (s : rst) f : 2 <= k -> VM (rc_mk s) -> rc_st s = RcConnecting (svc := svc) (mk := mk) f ->
    reaches (poll_fut mk) (fun a => match a with Ok c => I0 c | Er _ => True end) f -> gives (rpoll k s) post.
  Proof.
    intros Hk Hm E Hf. destruct k as [|k]; [lia |]. cbn [reconnect_poll]. unfold reconnect_iter. rewrite E.
    apply reaches_gives in Hf. apply gives_bind with (P := fun x => match x with inl s1 => VM (rc_mk s1) /\ exists c, rc_st s1 = RcConnected (svc := svc) (mk := mk) c /\ I0 c | inr r => post r end).
    - gb; [exact Hf |]. intros [f1 [|[c|e]]] H1; cbn [fst snd] in *.
      + gr.
        split; assumption.
      + gb; [apply gives_mod |]. intros u _. gr. cbn. eauto.
      + gb; [apply gives_mod |]. intros u _. gr. split; [exact Hm | exact I].
    - intros [s1|x] Hx; [| gr; exact Hx]. destruct Hx as (H1 & c & H2 & H3). apply (rc_fresh (k := k) s1 (c := c)); auto. lia.
  Qed.
  Lemma rc_idle k (s : rst) : 3 <= k -> VM (rc_mk s) -> rc_st s = RcIdle (svc := svc) (mk := mk) -> gives (rpoll k s) post.
  Proof.
    intros Hk Hm E. destruct k as [|k]; [lia |]. cbn [reconnect_poll]. unfold reconnect_iter. rewrite E. apply gives_bind with (P := fun x => match x with inl s1 => VM (rc_mk s1) /\ exists f, rc_st s1 = RcConnecting (svc := svc) (mk := mk) f /\
          reaches (poll_fut mk) (fun a => match a with Ok c => I0 c | Er _ => True end) f | inr r => post r end).
    - gb; [apply (Hmr Hm) |]. intros [m1 [|[u|e]]] H1; cbn [fst snd] in *.
      + gr. split; [exact H1 | exact I].
      + gb; [apply (Hmc H1) |]. intros [m2 f] [H2 H3]. gr. cbn. eauto.
      + gr. split; [exact H1 | exact I].
    - intros [s1|x] Hx; [| gr; exact Hx]. destruct Hx as (H1 & f & H2 & H3). apply (rc_conn (k := k) s1 (f := f)); auto. lia.
  Qed.
  Lemma rc_old k (s : rst) c : 4 <= k -> VM (rc_mk s) -> rc_st s = RcConnected (svc := svc) (mk := mk) c -> R c -> gives (rpoll k s) post.
  Proof.
    intros Hk Hm E Hc. destruct k as [|k]; [lia |]. cbn [reconnect_poll]. unfold reconnect_iter. rewrite E. apply gives_bind with (P := fun x => match x with inl s1 => VM (rc_mk s1) /\ rc_st s1 = RcIdle (svc := svc) (mk := mk) | inr r => post r end).
    - gb; [apply (lv_ready H Hc) |]. intros [c1 [|[u|e]]] H1; cbn [fst snd] in *.
      + gr. split; assumption.
      + gr. split; assumption.
      + gb; [apply gives_mod |]. intros u _. gr. cbn. auto.
    - intros [s1|x] Hx; [| gr; exact Hx]. destruct Hx as (H1 & H2). apply (rc_idle (k := k)); auto. lia.
  Qed.
  Lemma rc_ready (s : rst) : RcOk s -> gives (rpoll fuel s) post.
  Proof.
    intros [Hm Hs]. destruct (rc_st s) as [|f|c] eqn:E.
    - apply rc_idle; auto. lia.
    - apply (rc_conn s (f := f)); auto. lia.
    - apply (rc_old s (c := c)); auto.
  Qed.

  (** becoming ready *)
  Definition up (x : rst * poll (result unit (Err + MErr))) : Prop :=
    match snd x with Pending => answers (rpoll fuel) (fst x) | Ready _ => True end.
  Lemma up_intro (s : rst) : gives (rpoll fuel s) up -> answers (rpoll fuel) s.
  Proof. intros Hs. rg. exact Hs. Qed.
  Context (Etrue : rdy = true).
  Lemma rc_fresh_up c : reaches (poll_ready svc) (fun a => a = Ok tt) c ->
    forall k m e, 1 <= k -> gives (rpoll k (RcSt m (RcConnected (svc := svc) (mk := mk) c) e)) up.
  Proof.
    refine (@reaches_ind' _ _ _ _ _ (fun c => forall k m e, 1 <= k -> gives (rpoll k (RcSt m (RcConnected (svc := svc) (mk := mk) c) e)) up) _ c).
    clear c. intros c Hc k m e Hk. destruct k as [|k]; [lia |]. cbn [reconnect_poll]. unfold reconnect_iter. cbn [rc_st rc_mk rc_err]. apply gives_bind with (P := fun x => match x with inl _ => False | inr r => up r end).
    - gb; [exact Hc |]. intros [c1 [|a]] H1; cbn [fst snd] in *.
      + gr.
        cbn. apply up_intro, H1. lia.
      + subst a. gr. exact I.
    - intros [s1|x] Hx; [contradiction | gr; exact Hx].
  Qed.
  Lemma rc_conn_up f : reaches (poll_fut mk) (fun a => match a with Ok c => I0 c | Er _ => True end) f ->
    forall k m e, 2 <= k -> gives (rpoll k (RcSt m (RcConnecting (svc := svc) (mk := mk) f) e)) up.
  Proof.
    refine (@reaches_ind' _ _ _ _ _ (fun f => forall k m e, 2 <= k -> gives (rpoll k (RcSt m (RcConnecting (svc := svc) (mk := mk) f) e)) up) _ f).
    clear f. intros f Hf k m e Hk. destruct k as [|k]; [lia |]. cbn [reconnect_poll]. unfold reconnect_iter. cbn [rc_st rc_mk rc_err]. apply gives_bind with (P := fun x => match x with inl s1 => exists c, s1 = RcSt m (RcConnected (svc := svc) (mk := mk) c) e /\ I0 c | inr r => up r end).
    - gb; [exact Hf |]. intros [f1 [|[c|e1]]] H1; cbn [fst snd] in *.
      + gr.
        cbn. apply up_intro, H1. lia.
      + gb; [apply gives_mod |]. intros u _. gr. eauto.
      + gb; [apply gives_mod |]. intros u _. gr. exact I.
    - intros [s1|x] Hx; [| gr; exact Hx]. destruct Hx as (c & -> & Hc). apply rc_fresh_up; [apply (Hok Etrue Hc) | lia].
  Qed.
  Lemma rc_idle_up m : VM m -> forall k e, 3 <= k -> gives (rpoll k (RcSt m (RcIdle (svc := svc) (mk := mk)) e)) up.
  Proof.
    intros Hm. generalize (Hma Etrue Hm). revert Hm.
    intros Hm Ha. revert Ha Hm.
    refine (@reaches_ind' _ _ _ _ _ (fun m => VM m -> forall k e, 3 <= k -> gives (rpoll k (RcSt m (RcIdle (svc := svc) (mk := mk)) e)) up) _ m).
    clear m. intros m Ha Hm k e Hk. destruct k as [|k]; [lia |]. cbn [reconnect_poll]. unfold reconnect_iter. cbn [rc_st rc_mk rc_err]. apply gives_bind with (P := fun x => match x with inl s1 => exists m2 f, s1 = RcSt m2 (RcConnecting (svc := svc) (mk := mk) f) e /\
          reaches (poll_fut mk) (fun a => match a with Ok c => I0 c | Er _ => True end) f | inr r => up r end).
    - gb; [apply gives_and; [exact Ha | apply (Hmr Hm)] |]. intros [m1 [|[u|e1]]] [H1 H2]; cbn [fst snd] in *.
      + gr.
        cbn. apply up_intro, H1; [exact H2 | lia].
      + gb; [apply (Hmc H2) |]. intros [m2 f] [_ H3]. gr. eauto.
      + gr. exact I.
    - intros [s1|x] Hx; [| gr; exact Hx]. destruct Hx as (m2 & f & -> & Hf). apply rc_conn_up; [exact Hf | lia].
  Qed.
  Lemma rc_old_up c : answers (poll_ready svc) c -> forall k m e, VM m -> 4 <= k -> gives (rpoll k (RcSt m (RcConnected (svc := svc) (mk := mk) c) e)) up.
  Proof.
    refine (@reaches_ind' _ _ _ _ _ (fun c => forall k m e, VM m -> 4 <= k -> gives (rpoll k (RcSt m (RcConnected (svc := svc) (mk := mk) c) e)) up) _ c).
    clear c. intros c Hc k m e Hm Hk. destruct k as [|k]; [lia |]. cbn [reconnect_poll]. unfold reconnect_iter. cbn [rc_st rc_mk rc_err]. apply gives_bind with (P := fun x => match x with inl s1 => s1 = RcSt m (RcIdle (svc := svc) (mk := mk)) e | inr r => up r end).
    - gb; [exact Hc |]. intros [c1 [|[u|e1]]] H1; cbn [fst snd] in *.
      + gr.
        cbn. apply up_intro, H1; [exact Hm | lia].
      + gr. exact I.
      + gb; [apply gives_mod |]. intros u _. gr. reflexivity.
    - intros [s1|x] Hx; [| gr; exact Hx]. subst s1. apply rc_idle_up; [exact Hm | lia].
  Qed.
End ReconnectL.
Lemma reconnect_l W Tgt Req Resp Err MErr rdy (svc : Service W Req Resp Err) (mk : Service W Tgt (st svc) MErr) target fuel
    (R I0 : st svc -> Prop) (VM : st mk -> Prop) :
    Lively rdy svc R -> (forall c, I0 c -> R c) -> 4 <= fuel ->
    (forall c, I0 c -> gives (poll_ready svc c) (fun x => match snd x with Ready (Er _) => False | _ => True end)) ->
    (rdy = true -> forall c, I0 c -> reaches (poll_ready svc) (fun a => a = Ok tt) c) ->
    (forall m, VM m -> gives (poll_ready mk m) (fun x => VM (fst x))) ->
    (rdy = true -> forall m, VM m -> answers (poll_ready mk) m) ->
    (forall m, VM m -> gives (call mk m target)
       (fun x => VM (fst x) /\ reaches (poll_fut mk) (fun a => match a with Ok c => I0 c | Er _ => True end) (snd x))) ->
    Lively rdy (reconnect svc mk target fuel) (RcOk (mk := mk) R I0 VM).
Proof.
  intros H HI Hf H1 H2 H3 H4 H5. constructor.
  - intros s Hs. apply (rc_ready (rdy := rdy) target (fuel := fuel) H HI Hf H1 H3 H5 Hs).
  - intros E [m [|f|c] e] [Hm Hs]; cbn [rc_mk rc_st] in *; apply (up_intro (svc := svc) (mk := mk)); unfold reconnect; cbn [poll_ready].
    + eapply rc_idle_up with (I0 := I0) (VM := VM); eauto. lia.
    + eapply rc_conn_up with (I0 := I0); eauto. lia.
    + eapply rc_old_up with (I0 := I0) (VM := VM); eauto. apply (lv_becomes_ready H E c Hs).
  - intros [m q e] r [Hm Hs]. cbn [reconnect call rc_err rc_mk rc_st] in *. destruct e as [e|].
    + gr. split; [split; assumption |]. rg. gr. exact I.
    + destruct q as [|f|c]; [apply gives_panic | apply gives_panic |].
      gb; [apply (lv_call H r Hs) |]. intros [c1 x] [Hc Hx]. gr. split; [split; assumption |]. cbn [snd].
      clear Hc. revert x Hx. apply reaches_ind'. intros x Hx. rg. cbn. gb; [exact Hx |].
      intros [x1 [|a]]; cbn; [intros [_ Ha] | intros _]; gr; [exact Ha | exact I].
  - intros s Hs. apply gives_panic.
Qed.

Section SpawnL.
  Context {W Req Resp Err : Type} (rdy : bool) (svc : Service W Req Resp Err) (bg : W -> W * nat) (fuel : nat).
  Context (R kept : st svc -> Prop) (H : Lively rdy svc R) (Hfuel : 3 <= fuel).
  Context (Hk1 : forall s w w1 s1, poll_ready svc s w = (w1, Val (s1, Ready (Ok tt))) -> kept s1).
  Context (Hk2 : forall s w w1 s1, kept s -> poll_ready svc s w <> (w1, Val (s1, Pending))).
  Notation spoll := (sr_ready (svc := svc) bg).
  Notation sst := (sr_st svc).
  Definition SrOk (s : sst) : Prop :=
    match s with
    | SrSvc x => R x
    | SrFut (TRun x) => R x
    | SrFut (TDone (Ok x)) => R x /\ kept x
    | SrFut _ => True
    end.
  Lemma sr_kept k x (G : sst * poll (result unit (sr_err (Err := Err))) -> Prop) : R x -> kept x -> 1 <= k ->
    (forall x1 a, R x1 -> G (SrSvc x1, Ready a)) -> gives (spoll k (SrSvc x)) G.
  Proof.
    intros Hx Hk Hn HG. destruct k as [|k]; [lia |]. cbn [sr_ready]. intros w. unfold bind.
    generalize (lv_ready H Hx w) (@Hk2 x w).
    destruct (poll_ready svc x w) as [w1 [[x1 [|a]]| |]]; cbn; intros H1 H2; auto. destruct (H2 w1 x1 Hk). reflexivity.
  Qed.
  Lemma task_l t : SrOk (SrFut t) -> gives (task_poll t) (fun t1 => SrOk (SrFut t1)).
  Proof.
    intros Ht w. destruct t as [x|r| |]; cbn [task_poll]; try exact Ht. cbn in Ht.
    generalize (lv_ready H Ht w) (@Hk1 x w).
    destruct (poll_ready svc x w) as [w1 [[x1 [|[[]|e]]]| |]]; cbn; intros H1 H2; auto.
    split; [exact H1 | eapply H2; reflexivity].
  Qed.
  Lemma tasks_l n : forall t, SrOk (SrFut t) -> gives (task_polls n t) (fun t1 => SrOk (SrFut t1)).
  Proof.
    induction n as [|n IH]; intros t Ht; cbn [task_polls]; [gr; exact Ht |]. gb; [apply (task_l t Ht) |]. intros t1 H1. apply IH, H1.
  Qed.
  Lemma sr_fut k t : 2 <= k -> SrOk (SrFut t) -> gives (spoll k (SrFut t)) (fun x => SrOk (fst x)).
  Proof.
    intros Hk Ht. destruct k as [|k]; [lia |]. cbn [sr_ready]. gb; [apply gives_any |]. intros n _. gb; [apply (tasks_l n t Ht) |].
    intros [x|[x|e]| |] H1; [gr; exact H1 | | gr; exact I | gr; exact I | apply gives_panic].
    destruct H1 as [H1 H2]. apply sr_kept; auto. lia.
  Qed.
  Lemma sr_safe (s : sst) : SrOk s -> gives (spoll fuel s) (fun x => SrOk (fst x)).
  Proof.
    intros Hs. destruct s as [x|t]; [| apply sr_fut; [lia | exact Hs]].
    assert (Ek : exists k, fuel = S k /\ 2 <= k) by (exists (Nat.pred fuel); lia). destruct Ek as (k & Ek & Hk). rewrite Ek. cbn [sr_ready].
    gb; [apply (lv_ready H Hs) |]. intros [x1 [|a]] H1; [| gr; exact H1]. apply sr_fut; [lia | exact H1].
  Qed.

  Context (Etrue : rdy = true) (Hbg : forall w, 1 <= snd (bg w)).
  Definition sup (x : sst * poll (result unit (sr_err (Err := Err)))) : Prop :=
    match snd x with Pending => answers (spoll fuel) (fst x) | Ready _ => True end.
  Definition tup (t : rtask svc) : Prop :=
    match t with TRun x => answers (spoll fuel) (SrFut (TRun x)) | TDone (Ok x) => R x /\ kept x | _ => True end.
  Lemma tup_done n : forall t, (match t with TRun _ => False | _ => True end) -> tup t -> gives (task_polls n t) tup.
  Proof.
    induction n as [|n IH]; intros t Ht H1; cbn [task_polls]; [gr; exact H1 |].
    apply gives_bind with (P := fun t1 => t1 = t); [intros w; destruct t; [contradiction | reflexivity ..] |]. intros t1 ->. apply IH; assumption.
  Qed.
  Lemma sr_fut_up k t : 2 <= k -> (forall n, 1 <= n -> gives (task_polls n t) tup) -> gives (spoll k (SrFut t)) sup.
  Proof.
    intros Hk Ht. destruct k as [|k]; [lia |]. cbn [sr_ready].
    apply gives_bind with (P := fun n => 1 <= n). { intros w. specialize (Hbg w). destruct (bg w). exact Hbg. }
    intros n Hn. gb; [apply (Ht n Hn) |].
    intros [x|[x|e]| |] H1; [gr; exact H1 | | gr; exact I | gr; exact I | apply gives_panic].
    destruct H1 as [H1 H2]. apply sr_kept; auto; [lia |]. intros; exact I.
  Qed.
  Lemma task_up x : answers (poll_ready svc) x -> R x -> forall n, gives (task_polls n (TRun x)) tup.
  Proof.
    refine (@reaches_ind' _ _ _ _ _ (fun x => R x -> forall n, gives (task_polls n (TRun x)) tup) _ x). clear x. intros x Ha Hx.
    assert (H1 : forall n, 1 <= n -> gives (task_polls n (TRun x)) tup).
    { intros n Hn. destruct n as [|n]; [lia |]. cbn [task_polls].
      apply gives_bind with (P := fun t1 => match t1 with TRun x1 => R x1 /\ forall n, gives (task_polls n (TRun x1)) tup | _ => tup t1 end).
      - intros w. cbn [task_poll]. specialize (Ha w). generalize (lv_ready H Hx w) (@Hk1 x w).
        destruct (poll_ready svc x w) as [w1 [[x1 [|[[]|e]]]| |]]; cbn in *; intros H1 H2; auto.
        + destruct Ha as [_ Ha]. split; [exact H1 | apply Ha, H1].
        + split; [exact H1 | eapply H2; reflexivity].
      - intros t1 H1. destruct t1 as [x1|r| |]; [apply H1 | | |]; apply tup_done; auto. }
    intros [|n]; [| apply H1; lia]. cbn [task_polls]. gr. cbn [tup]. rg. apply sr_fut_up; [lia | exact H1].
  Qed.
  Lemma sr_up (s : sst) : SrOk s -> answers (spoll fuel) s.
  Proof.
    assert (Hf : forall k t, 2 <= k -> SrOk (SrFut t) -> gives (spoll k (SrFut t)) sup).
    { intros k t Hk Ht. apply sr_fut_up; [exact Hk |]. intros n _. destruct t as [x|[x|e]| |].
      - apply task_up; [apply (lv_becomes_ready H Etrue x Ht) | exact Ht].
      - apply tup_done; [exact I | exact Ht].
      - apply tup_done; exact I.
      - apply tup_done; exact I.
      - apply tup_done; exact I. }
    intros Hs. rg. change (gives (spoll fuel s) sup). destruct s as [x|t]; [| apply Hf; [lia | exact Hs]].
    assert (Ek : exists k, fuel = S k /\ 2 <= k) by (exists (Nat.pred fuel); lia). destruct Ek as (k & Ek & Hk). rewrite Ek. cbn [sr_ready].
    gb; [apply (lv_ready H Hs) |]. intros [x1 [|a]] H1; [| gr; exact I]. apply Hf; [lia | exact H1].
  Qed.
End SpawnL.
Lemma spawn_ready_l W Req Resp Err rdy (svc : Service W Req Resp Err) R (bg : W -> W * nat) fuel (kept : st svc -> Prop) :
    Lively rdy svc R -> 3 <= fuel ->
    (forall s w w1 s1, poll_ready svc s w = (w1, Val (s1, Ready (Ok tt))) -> kept s1) ->
    (forall s w w1 s1, kept s -> poll_ready svc s w <> (w1, Val (s1, Pending))) ->
    (rdy = true -> forall w, 1 <= snd (bg w)) ->
    Lively rdy (spawn_ready svc bg fuel) (SrOk R kept).
Proof.
  intros H Hf H1 H2 H3. constructor.
  - intros s Hs. eapply sr_safe; eassumption.
  - intros E s Hs. eapply sr_up; eauto.
  - intros [x|t] r Hs; cbn [spawn_ready call sr_call]; [| gb; [apply gives_panic with (P := fun _ => False) | contradiction]].
    apply gives_bind with (P := fun y => SrOk R kept (fst y) /\ answers (poll_fut svc) (snd y));
      [gb; [apply (lv_call H r Hs) |]; intros [x1 f] Hx; gr; exact Hx |]. intros [s1 f] [Hx Hy].
    gr. split; [exact Hx |]. apply map_poll_reaches; [intros; gr; exact I | exact Hy].
  - intros s Hs. apply gives_panic.
Qed.
