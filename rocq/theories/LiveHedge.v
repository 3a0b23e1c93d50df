(** Proof of C66: Hedge.  The second leg need not answer - only come back. *)
From Verif Require Import Base Util Middleware Hedge LiveSpec LiveProof.
Set Implicit Arguments.
Arguments sf_ready {W Req Resp Err svc R V} _ [s] _ _.
Arguments sf_call {W Req Resp Err svc R V} _ [s] _ _ _.
Arguments sf_poll {W Req Resp Err svc R V} _ [f] _ _.
Arguments sf_clone {W Req Resp Err svc R V} _ [s] _ _.

Lemma latency_l W Req Resp Err rdy (rt : Rt W) (svc : Service W Req Resp Err) R record :
  Lively rdy svc R -> (forall d, gives (record d) (fun _ => True)) -> Lively rdy (latency rt svc record) R.
Proof.
  intros H Hr. constructor; cbn [latency poll_ready call clone]; try apply H.
  intros s r Hs. gb; [apply gives_get with (P := fun _ => True); auto |]. intros t _. gb; [apply (lv_call H r Hs) |]. intros [s1 f] [H1 H2].
  gr. split; [exact H1 |]. cbn [snd] in *. clear H1. revert f H2. apply reaches_ind'. intros f Hf. rg. cbn. gb; [exact Hf |].
  intros [f1 [|[a|e]]]; cbn; [intros [_ Ha]; gr; exact Ha | | intros _; gr; exact I].
  intros _. gb; [apply gives_get with (P := fun _ => True); auto |]. intros t1 _. gb; [apply Hr |]. intros u _. gr. exact I.
Qed.

Section S.
  Context {W Req Resp Err : Type} (svc : Service W Req Resp Err) (R : st svc -> Prop) (V : fut svc -> Prop) (H : Safe svc R V).

  Lemma async_filter_s Req' P PErr (T : Task W (result Req PErr)) (check : P -> Req' -> M W (P * tst T)) pclone :
    (forall t, gives (tpoll T t) (fun _ => True)) -> (forall p r, gives (check p r) (fun _ => True)) -> (forall p, gives (pclone p) (fun _ => True)) ->
    Safe (async_filter svc T check pclone) (fun s => R (fst s))
      (fun f => match af_state f with AfCheck _ => R (af_svc f) | AfWait x => V x end).
  Proof.
    intros HT Hc Hp. constructor; cbn [async_filter poll_ready call clone poll_fut].
    - intros s Hs. gb; [apply (sf_ready H Hs) |]. intros [s1 a] H1. gr. exact H1.
    - intros s r Hs. gb; [apply (sf_clone H Hs) |]. intros s1 H1. gb; [apply Hc |]. intros [p1 c] _. gr. split; assumption.
    - intros [fs s] Hf. cbn [af_state af_svc] in *.
      assert (Hw : forall x s, V x -> gives ('(x1, p) <- poll_fut svc x ;; ret (AfFut (C := tst T) (AfWait x1) s, poll_map (map_er (E' := Err + PErr) inl) p))
        (fun x => match snd x with Pending => match af_state (fst x) with AfCheck _ => R (af_svc (fst x)) | AfWait y => V y end | _ => True end)).
      { intros x s0 Hx. gb; [apply (sf_poll H Hx) |]. intros [x1 [|a]] H1; gr; exact H1. }
      destruct fs as [c|x]; [| apply Hw, Hf].
      gb; [apply HT |]. intros [c1 [|[r|e]]] _; [gr; exact Hf | | gr; exact I].
      gb; [apply (sf_call H r Hf) |]. intros [s1 x] [H1 H2]. gb; [apply gives_mod |]. intros u _. apply Hw, H2.
    - intros s Hs. gb; [apply (sf_clone H Hs) |]. intros s1 H1. gb; [apply Hp |]. intros p1 _. gr. exact H1.
  Qed.

  Definition Vos (o : oneshot_st svc) : Prop := match o with OsNotReady _ s _ => R s | OsCalled _ f => V f | OsDone _ => True end.
  Lemma oneshot_s o : Vos o -> gives (oneshot_poll o) (fun x => match snd x with Pending => Vos (fst x) | _ => True end).
  Proof.
    assert (Hc : forall f, V f -> gives (oneshot_called svc f) (fun x => match snd x with Pending => Vos (fst x) | _ => True end)).
    { intros f Hf. unfold oneshot_called. gb; [apply (sf_poll H Hf) |]. intros [f1 [|[a|e]]] H1; cbn in *; [gr; exact H1 | | gr; exact I].
      gb; [apply gives_mod |]. intros u _. gr. exact I. }
    destruct o as [s q|f|]; cbn [Vos oneshot_poll]; [| apply Hc | intros _; apply gives_panic].
    intros Hs. gb; [apply (sf_ready H Hs) |]. intros [s1 [|[u|e]]] H1; cbn [fst] in *; [gr; exact H1 | | gr; exact I].
    destruct q as [r|]; [| apply gives_panic]. gb; [apply (sf_call H r H1) |]. intros [s2 f] [H2 H3]. gb; [apply gives_mod |]. intros u1 _. apply Hc, H3.
  Qed.
  Lemma delay_s (rt : Rt W) delay_of : (forall r, gives (delay_of r) (fun _ => True)) ->
    Safe (delay rt svc delay_of) R
      (fun f => match df_state f with DDelaying _ _ _ => match df_svc f with Some s => R s | None => True end | DCalled o => Vos o end).
  Proof.
    intros Hd. constructor; cbn [delay poll_ready call clone poll_fut].
    - intros s Hs. gr. exact Hs.
    - intros s r Hs. gb; [apply Hd |]. intros d _. gb; [apply (sf_clone H Hs) |]. intros s1 H1. gb; [apply gives_get with (P := fun _ => True); auto |]. intros t _.
      gr. split; assumption.
    - intros [sv ds] Hf. cbn [df_state df_svc] in *. cbv zeta.
      assert (Hc : forall sv o, Vos o -> gives ('(o1, p) <- oneshot_poll o ;; ret (DelayFut sv (DCalled o1), p))
        (fun x => match snd x with Pending => match df_state (fst x) with DDelaying _ _ _ => match df_svc (fst x) with Some s => R s | None => True end | DCalled o => Vos o end | _ => True end)).
      { intros sv0 o Ho. gb; [apply (oneshot_s o Ho) |]. intros [o1 [|a]] H1; gr; exact H1. }
      destruct ds as [d q|o]; [| apply Hc, Hf]. gb; [apply gives_sleep |]. intros [|] _; [| gr; exact Hf].
      destruct q as [r|]; [| apply gives_panic]. destruct sv as [s|]; [| apply gives_panic]. apply Hc. exact Hf.
    - intros s Hs. apply gives_panic.
  Qed.
End S.

Lemma select_l W Req Resp EA EB rdy (a : Service W Req Resp EA) (b : Service W Req Resp EB) Ra Rb Vb clone_req :
  Lively rdy a Ra -> Safe b Rb Vb -> (forall s, poll_ready b s = ret (s, Ready (Ok tt))) ->
  (forall r, gives (clone_req r) (fun _ => True)) ->
  Lively rdy (select a b clone_req) (fun s => Ra (fst s) /\ Rb (snd s)).
Proof.
  intros Ha Hb Hrb Hc. constructor; cbn [select poll_ready call clone].
  - intros [x y] [H1 H2]. cbn [fst snd] in *. gb; [apply (lv_ready Ha H1) |]. intros [x1 p] H3. rewrite Hrb. gb; [apply gives_ret with (P := fun z => fst z = y); reflexivity |].
    intros [y1 q] H4. cbn in H4. subst y1. gr. split; assumption.
  - intros E [x y] [H1 H2]. cbn [fst snd] in *. generalize (lv_becomes_ready Ha E x H1). clear H1. revert x. apply reaches_ind'. intros x Hx. rg.
    cbn [fst snd]. gb; [exact Hx |]. intros [x1 p] Hp. cbn [fst snd] in Hp. rewrite Hrb.
    gb; [apply gives_ret with (P := fun z => z = (y, Ready (Ok tt))); reflexivity |].
    intros z ->. destruct p as [|[u|e]]; gr; [apply Hp | exact I | exact I].
  - intros [x y] r [H1 H2]. cbn [fst snd] in *. gb; [apply Hc |].
    assert (Hf : forall fa, answers (poll_fut a) fa -> forall ob, match ob with Some fb => Vb fb | None => True end ->
              answers (poll_fut (select a b clone_req)) (SelFut a b fa ob)).
    { refine (@reaches_ind' _ _ _ _ _ (fun fa => forall ob, match ob with Some fb => Vb fb | None => True end ->
              answers (poll_fut (select a b clone_req)) (SelFut a b fa ob)) _).
      intros fa Hfa ob Hob. rg. cbn [select poll_fut sel_a sel_b]. gb; [exact Hfa |]. intros [fa1 [|v]]; cbn [fst snd]; [| intros _; gr; exact I].
      intros [_ Hn]. destruct ob as [fb|]; [| gr; apply Hn; exact I]. gb; [apply (sf_poll Hb Hob) |]. intros [fb1 [|v]] H3; gr; [apply Hn; exact H3 | exact I]. }
    intros [r1|] _.
    + gb; [apply (sf_call Hb r1 H2) |]. intros [y1 fb] [H3 H4]. gb; [apply (lv_call Ha r H1) |]. intros [x1 fa] [H5 H6]. gr.
      split; [split; assumption |]. apply Hf; assumption.
    + gb; [apply (lv_call Ha r H1) |]. intros [x1 fa] [H5 H6]. gr. split; [split; assumption |]. apply Hf; [assumption | exact I].
  - intros s Hs. apply gives_panic.
Qed.

Section H.
  Context {W Req Resp Err : Type} (rt : Rt W) (rdy : bool) (svc : Service W Req Resp Err) (R : st svc -> Prop) (H : Lively rdy svc R).
  Context (clone_request : Req -> option Req) (can_retry : Req -> bool) (mdp : Z) (quantile : list Z -> Z) (getH : W -> histo) (setH : histo -> W -> W).
  Lemma with_histo_gives A (f : Z -> histo -> out (histo * A)) : (forall t h, f t h <> Diverge) -> gives (with_histo rt getH setH f) (fun _ => True).
  Proof.
    intros Hf w. unfold with_histo. specialize (Hf (now rt w) (getH w)). destruct (f (now rt w) (getH w)) as [[h1 x]| |]; cbn; auto.
  Qed.
  Lemma maybe_rotate_nd t h : maybe_rotate t h <> Diverge.
  Proof. unfold maybe_rotate. destruct (_ =? 0)%Z; [discriminate |]. cbv zeta. destruct (2 <=? _)%Z; [discriminate |]. destruct (_ =? 1)%Z; discriminate. Qed.
  Lemma hedge_l : Lively rdy (hedge rt svc clone_request can_retry mdp quantile getH setH) (fun s => R (fst s) /\ R (fst (snd s))).
  Proof.
    assert (Ha : Lively rdy (hedge_a rt svc getH setH) R).
    { apply latency_l; [exact H |]. intros d. apply with_histo_gives. intros t h. unfold histo_record. generalize (maybe_rotate_nd t h).
      destruct (maybe_rotate t h); congruence. }
    assert (Hb := fun HT Hc Hp => @async_filter_s _ _ _ _ _ _ _ (lively_safe Ha) _ _ _ (policy_task (Req := Req)) (policy_check can_retry) (fun p => ret p) HT Hc Hp).
    assert (Hd : forall r : Req, gives (hedge_delay rt quantile getH setH r) (fun _ => True)).
    { intros r. apply with_histo_gives. intros t h. unfold histo_read. generalize (maybe_rotate_nd t h). destruct (maybe_rotate t h); congruence. }
    eassert (Hb1 : Safe (hedge_b rt svc can_retry quantile getH setH) _ _).
    { apply delay_s; [| exact Hd]. apply Hb.
      + intros [[r|]|u]; cbn; [gr; exact I | apply gives_panic | gr; exact I].
      + intros p r. gr. exact I.
      + intros p. gr. exact I. }
    unfold hedge. refine (select_l _ Ha Hb1 _ _).
    - reflexivity.
    - intros r. unfold hedge_clone. destruct (clone_request r); [| gr; exact I].
      apply with_histo_gives. intros t h. unfold histo_read. generalize (maybe_rotate_nd t h). destruct (maybe_rotate t h); congruence.
  Qed.
End H.
