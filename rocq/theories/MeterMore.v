(** C64: the layers with loops or several services - Retry, Steer, Reconnect, Hedge, MakeBalance, SpawnReady. *)
From Verif Require Import Base Util ReadyCache SpawnReady Load Make Middleware Limits Hedge MeterSpec MeterProof.
Set Implicit Arguments.

Section Retry.
  Context {W Req Resp Err : Type} (calls : W -> nat) (k : nat) (svc : Service W Req Resp Err).
  Context (R : st svc -> Prop) (V : fut svc -> nat -> Prop) (H : Metered calls k svc R V).
  Context (pol : Policy W Req Resp Err) (n : nat) (VP : pst pol -> Prop) (left : pst pol -> Req -> nat).
  Context (HT : still_task calls (pfut pol)) (Hn : forall p r, VP p -> left p r <= n).
  Context (Hcl : forall p r, VP p -> leaves calls (clone_request pol p r)
       (fun x => VP (fst x) /\ match snd x with Some r1 => left (fst x) r1 <= left p r | None => True end)).
  Context (Hde : forall p r v, VP p -> leaves calls (retry_decide pol p r v)
       (fun x => VP (fst (fst (fst x))) /\
                 match snd x with
                 | Some _ => left (fst (fst (fst x))) (snd (fst (fst x))) < left p r
                 | None => left (fst (fst (fst x))) (snd (fst (fst x))) <= left p r
                 end)).
  Context (Hpc : forall p, VP p -> leaves calls (pol_clone pol p) VP).

  (** credit for the retries still possible *)
  Definition due (p : pst pol) (r : option Req) : nat := match r with Some r => k * left p r | None => 0 end.
  Definition Vretry (f : retry_fut pol svc) (m : nat) : Prop :=
    R (rf_svc f) /\ VP (rf_pol f) /\
    match rf_state f with
    | RCalled x => exists m0, V x m0 /\ m0 + due (rf_pol f) (rf_req f) <= m
    | _ => rf_req f <> None -> k + due (rf_pol f) (rf_req f) <= m
    end.

  Lemma retry_iter_m f m : Vretry f m ->
    mok calls m (retry_iter f) (fun x m => match x with inl f1 => Vretry f1 m | inr y => Vretry (fst y) m end).
  Proof.
    destruct HT as [HT1 HT2]. intros (HR & HP & Hs). unfold retry_iter. destruct (rf_state f) as [x|t|] eqn:Es.
    - destruct Hs as (m0 & Hx & L). eapply mok_bind with (c := due (rf_pol f) (rf_req f)); [apply (mt_poll H Hx) | exact L |].
      intros [x1 p] m1 H1. destruct p as [|res].
      + eapply mok_ret; [| apply le_n]. split; [exact HR |]. split; [exact HP |]. cbn. eauto.
      + destruct (rf_req f) as [req|] eqn:Er.
        * eapply mok_bind with (c := 0); [apply (mok_leaves (m1 + due (rf_pol f) (Some req)) (@Hde (rf_pol f) req res HP)) | lia |].
          intros [[[p1 req1] res1] dec] m2 [[H2 H3] ->]. cbn in H2, H3. destruct dec as [t|].
          -- mmod; [apply (mt_drop_fut H) |]. eapply mok_ret; [| apply le_n].
             split; [exact HR |]. split; [exact H2 |]. cbn. intros _. nia.
          -- eapply mok_ret; [| apply le_n]. split; [exact HR |]. split; [exact H2 |]. cbn. exists m1.
             split; [exact H1 |]. nia.
        * eapply mok_ret; [| apply le_n]. split; [exact HR |]. split; [exact HP |]. cbn. exists m1. auto.
    - mst; [apply HT1 |]. destruct a as [t1 [|u]].
      + eapply mok_ret; [| apply le_n]. split; [exact HR |]. split; [exact HP |]. cbn. intros E. specialize (Hs E). lia.
      + mmod; [apply (HT2 t1) |]. eapply mok_ret; [| apply le_n].
        split; [exact HR |]. split; [exact HP |]. cbn. intros E. specialize (Hs E). lia.
    - eapply mok_bind with (c := m); [apply (mt_ready H HR) | lia |]. intros [s1 p] z [H1 ->]. cbn in H1.
      destruct p as [|[u|e]].
      + eapply mok_ret; [| apply le_n]. split; [exact H1 |]. split; [exact HP |]. cbn. intros E. specialize (Hs E). lia.
      + destruct (rf_req f) as [req|] eqn:Er; [| apply mok_panic]. specialize (Hs ltac:(discriminate)).
        eapply mok_bind with (c := 0); [apply (mok_leaves m (@Hcl (rf_pol f) req HP)) | lia |].
        intros [p1 saved] z [[H2 H3] ->]. cbn in H2, H3, Hs.
        eapply mok_bind with (c := k * left (rf_pol f) req); [apply (mt_call H req H1) | lia |].
        intros [s2 x] m2 [H4 H5]. eapply mok_ret; [| apply le_n].
        split; [exact H4 |]. split; [exact H2 |]. cbn. exists m2. split; [exact H5 |].
        destruct saved as [r1|]; cbn; nia.
      + eapply mok_ret; [| apply le_n]. split; [exact H1 |]. split; [exact HP |]. cbn. intros E. specialize (Hs E). lia.
  Qed.

  Lemma retry_poll_m fuel : forall f m, Vretry f m -> mok calls m (retry_poll fuel f) (fun x m => Vretry (fst x) m).
  Proof.
    induction fuel as [|fuel IH]; intros f m Hf; [apply mok_diverge |]. cbn [retry_poll].
    eapply mok_bind with (c := 0); [apply (retry_iter_m Hf) | lia |]. intros [f1|r] m1 H1.
    - replace (m1 + 0) with m1 by lia. apply IH, H1.
    - apply mok_ret with (n := m1); [exact H1 | lia].
  Qed.

  Lemma retry_m fuel : Metered calls (k * S n) (retry pol svc fuel) (fun s => VP (fst s) /\ R (snd s)) Vretry.
  Proof.
    constructor; cbn [retry poll_ready call poll_fut clone drop_svc drop_fut].
    - intros s [HP HR]. eapply mok_bind with (c := 0); [apply (mt_ready H HR) | lia |]. intros [s1 a] m [H1 ->].
      apply mok_ret with (n := 0); cbn; auto.
    - intros s r [HP HR].
      eapply mok_bind with (c := 0); [apply (mok_leaves (k * S n) (@Hcl (fst s) r HP)) | lia |].
      intros [p1 saved] z [[H2 H3] ->]. cbn in H2, H3.
      eapply mok_bind with (c := k * n); [apply (mt_call H r HR) | lia |]. intros [s1 x] m [H4 H5]. cbn in H4, H5.
      eapply mok_bind with (c := 0); [apply (mok_leaves (m + k * n) (@Hpc p1 H2)) | lia |].
      intros p2 z [H6 ->].
      eapply mok_bind with (c := m + k * n); [apply (mt_clone H H4) | lia |]. intros s2 z [H7 ->].
      eapply mok_ret; [| apply le_n]. split; [split; [exact H2 | exact H4] |].
      split; [exact H7 |]. split; [exact H6 |]. cbn. exists m. split; [exact H5 |].
      destruct saved as [r1|]; cbn; [| lia]. generalize (@Hn p2 r1 H6). nia.
    - intros f m Hf. apply retry_poll_m, Hf.
    - intros s [HP HR]. eapply mok_bind with (c := 0); [apply (mok_leaves 0 (@Hpc (fst s) HP)) | lia |].
      intros p1 z [H1 ->]. eapply mok_bind with (c := 0); [apply (mt_clone H HR) | lia |]. intros s1 m [H2 ->].
      apply mok_ret with (n := 0); cbn; auto.
    - intros s w. apply (mt_drop_svc H).
    - destruct HT as [HT1 HT2]. intros f w. cbv zeta. destruct (rf_state f) as [x|t|].
      + rewrite (mt_drop_fut H x _). apply (mt_drop_svc H).
      + rewrite (HT2 t _). apply (mt_drop_svc H).
      + apply (mt_drop_svc H).
  Qed.
End Retry.

Lemma forall_set_nth A (P : A -> Prop) i x l : Forall P l -> P x -> Forall P (set_nth i x l).
Proof.
  revert i. induction l as [|y l IH]; intros [|i] Hl Hx; cbn; auto; inversion Hl; subst; constructor; auto.
Qed.
Lemma forall_nth A (P : A -> Prop) i x l : Forall P l -> nth_error l i = Some x -> P x.
Proof. intros Hl E. apply nth_error_In in E. rewrite Forall_forall in Hl. auto. Qed.

Section Steer.
  Context {W Req Resp Err P : Type} (calls : W -> nat) (k : nat) (svc : Service W Req Resp Err).
  Context (R : st svc -> Prop) (V : fut svc -> nat -> Prop) (H : Metered calls k svc R V).
  Context (pick : P -> Req -> list (st svc) -> M W (P * nat)) (pclone : P -> M W P).
  Context (Hpick : forall q r l, still calls (pick q r l)) (Hpc : forall q, still calls (pclone q)).

  Lemma steer_poll_m nr : forall l, Forall R l ->
    mok calls 0 (steer_poll svc l nr) (fun x n => Forall R (fst (fst x)) /\ n = 0).
  Proof.
    induction nr as [|i nr IH]; intros l Hl; cbn [steer_poll]; [apply mok_ret with (n := 0); auto |].
    destruct (nth_error l i) as [s|] eqn:E; [| apply mok_panic].
    eapply mok_bind with (c := 0); [apply (mt_ready H (forall_nth _ Hl E)) | lia |]. intros [s1 p] m [H1 ->].
    assert (H2 : Forall R (set_nth i s1 l)) by (apply forall_set_nth; assumption).
    cbv zeta. destruct p as [|[u|e]]; [apply mok_ret with (n := 0); auto | apply IH, H2 | apply mok_ret with (n := 0); auto].
  Qed.
  Lemma clone_all_m l : Forall R l -> mok calls 0 (clone_all svc l) (fun x n => Forall R x /\ n = 0).
  Proof.
    induction l as [|s l IH]; intros Hl; cbn [clone_all]; [apply mok_ret with (n := 0); auto |].
    inversion Hl as [|? ? Hs Hl']; subst.
    eapply mok_bind with (c := 0); [apply (mt_clone H Hs) | lia |]. intros s1 m [H1 ->].
    eapply mok_bind with (c := 0); [apply (IH Hl') | lia |]. intros l1 m [H2 ->].
    apply mok_ret with (n := 0); auto.
  Qed.
  Lemma drop_all_m A (d : A -> W -> W) l : (forall x, same calls (d x)) ->
    same calls (fun w => fold_left (fun w x => d x w) l w).
  Proof. intros Hd. induction l as [|x l IH]; intros w; cbn; [auto |]. rewrite (IH _). apply Hd. Qed.

  Lemma steer_m : Metered calls k (steer svc pick pclone) (fun s => Forall R (sr_services s)) V.
  Proof.
    constructor; cbn [steer poll_ready call poll_fut clone drop_svc drop_fut]; try apply H.
    - intros s HR. eapply mok_bind with (c := 0); [apply (steer_poll_m _ HR) | lia |]. intros [[l nr] p] m [H1 ->].
      apply mok_ret with (n := 0); auto.
    - intros s r HR. destruct (sr_not_ready s); [| apply mok_panic].
      mst; [apply Hpick |]. destruct a as [p1 idx].
      destruct (nth_error (sr_services s) idx) as [x|] eqn:E; [| apply mok_panic].
      eapply mok_bind with (c := 0); [apply (mt_call H r (forall_nth _ HR E)) | lia |]. intros [x1 f] m [H1 H2].
      apply mok_ret with (n := m); [| lia]. split; [cbn; apply forall_set_nth; assumption | exact H2].
    - intros s HR. mst; [apply Hpc |].
      eapply mok_bind with (c := 0); [apply (clone_all_m HR) | lia |]. intros l1 m [H1 ->].
      apply mok_ret with (n := 0); auto.
    - intros s. apply drop_all_m. apply (mt_drop_svc H).
  Qed.
End Steer.

Section Reconnect.
  Context {W Tgt Req Resp Err MErr : Type} (calls : W -> nat) (k : nat) (svc : Service W Req Resp Err).
  Context (R : st svc -> Prop) (V : fut svc -> nat -> Prop) (H : Metered calls k svc R V).
  Context (mk : Service W Tgt (st svc) MErr) (target : Tgt).
  Context (Rm : st mk -> Prop) (Vm : fut mk -> nat -> Prop) (Hm : Metered calls 0 mk Rm Vm).
  Context (I : st svc -> Prop) (HI : forall s, I s -> R s).
  Context (Hmade : forall f w w1 f1 s, poll_fut mk f w = (w1, Val (f1, Ready (Ok s))) -> I s).

  Definition Rrc (s : reconnect_st svc mk) : Prop :=
    Rm (rc_mk s) /\ match rc_st s with
                    | RcIdle => True
                    | RcConnecting f => Vm f 0
                    | RcConnected c => R c
                    end.

  Lemma conn_poll f : Vm f 0 ->
    mok calls 0 (poll_fut mk f) (fun x n => n = 0 /\ Vm (fst x) 0 /\ match snd x with Ready (Ok s) => R s | _ => True end).
  Proof.
    intros Hf w. generalize (mt_poll Hm Hf w). generalize (@Hmade f w).
    destruct (poll_fut mk f w) as [w1 [[f1 p]| |]]; cbn; [| intros _ L; exact L | intros _ L; exact L].
    intros Hs (L0 & n & HV & L). split; [exact L0 |]. assert (n = 0) by lia. subst n.
    exists 0. split; [| exact L]. split; [reflexivity |]. split; [exact HV |].
    destruct p as [|[s|e]]; auto. apply HI. eapply Hs. reflexivity.
  Qed.
  Lemma reconnect_iter_m s : Rrc s ->
    mok calls 0 (reconnect_iter target s) (fun x n => n = 0 /\ match x with inl s1 => Rrc s1 | inr y => Rrc (fst y) end).
  Proof.
    intros [HM Hs]. unfold reconnect_iter. destruct (rc_st s) as [|f|c].
    - eapply mok_bind with (c := 0); [apply (mt_ready Hm HM) | lia |]. intros [m1 p] z [H1 ->]. cbn in H1.
      destruct p as [|[u|e]]; try (apply mok_ret with (n := 0); [split; [reflexivity | split; [exact H1 | exact Logic.I]] | lia]).
      apply (@mok_bind _ calls _ _ 0 0 0 _ _ (fun x n => (Rm (fst x) /\ Vm (snd x) 0) /\ n = 0)); [| lia |].
      + eapply mok_weaken; [apply (mt_call Hm target H1) | lia |]. intros x n [H2 H3] L. exists 0.
        assert (n = 0) by lia. subst. auto.
      + intros [m2 f] z [[H2 H3] ->]. apply mok_ret with (n := 0); [| lia]. split; [reflexivity |]. split; [exact H2 | exact H3].
    - eapply mok_bind with (c := 0); [apply (conn_poll Hs) | lia |]. intros [f1 p] z (-> & H1 & H2). cbn in H1, H2.
      destruct p as [|[c|e]].
      + apply mok_ret with (n := 0); [| lia]. split; [reflexivity |]. split; [exact HM | exact H1].
      + mmod; [apply (mt_drop_fut Hm) |]. apply mok_ret with (n := 0); [| lia]. split; [reflexivity |]. split; [exact HM | exact H2].
      + mmod; [apply (mt_drop_fut Hm) |]. apply mok_ret with (n := 0); [| lia]. split; [reflexivity |]. split; [exact HM | exact Logic.I].
    - eapply mok_bind with (c := 0); [apply (mt_ready H Hs) | lia |]. intros [c1 p] z [H1 ->]. cbn in H1.
      destruct p as [|[u|e]]; try (apply mok_ret with (n := 0); [split; [reflexivity | split; [exact HM | exact H1]] | lia]).
      mmod; [apply (mt_drop_svc H) |]. apply mok_ret with (n := 0); [| lia]. split; [reflexivity |]. split; [exact HM | exact Logic.I].
  Qed.
  Lemma reconnect_poll_m fuel : forall s, Rrc s ->
    mok calls 0 (reconnect_poll target fuel s) (fun x n => Rrc (fst x) /\ n = 0).
  Proof.
    induction fuel as [|fuel IH]; intros s Hs; [apply mok_diverge |]. cbn [reconnect_poll].
    eapply mok_bind with (c := 0); [apply (reconnect_iter_m Hs) | lia |]. intros [s1|r] z [-> H1].
    - apply IH, H1.
    - apply mok_ret with (n := 0); auto.
  Qed.
  Lemma reconnect_m fuel : Metered calls k (reconnect svc mk target fuel) Rrc
    (fun f n => match f with inl x => V x n | inr _ => True end).
  Proof.
    constructor; cbn [reconnect poll_ready call poll_fut clone drop_svc drop_fut].
    - intros s Hs. apply reconnect_poll_m, Hs.
    - intros s r [HM Hs]. destruct (rc_err s) as [e|].
      + apply mok_ret with (n := 0); [| lia]. split; [split; [exact HM | exact Hs] | exact Logic.I].
      + destruct (rc_st s) as [|f|c]; try apply mok_panic.
        eapply mok_bind with (c := 0); [apply (mt_call H r Hs) | lia |]. intros [c1 f] m [H1 H2].
        apply mok_ret with (n := m); [| lia]. split; [split; [exact HM | exact H1] | exact H2].
    - intros [x|[e|]] n Hf; [| apply mok_ret with (n := 0); cbn; auto with arith | apply mok_panic].
      eapply mok_bind with (c := 0); [apply (mt_poll H Hf) | lia |]. intros [x1 p] m H1.
      apply mok_ret with (n := m); [exact H1 | lia].
    - intros s Hs. apply mok_panic.
    - intros s w. cbv zeta. destruct (rc_st s) as [|f|c].
      + apply (mt_drop_svc Hm).
      + rewrite (mt_drop_fut Hm f _). apply (mt_drop_svc Hm).
      + rewrite (mt_drop_svc H c _). apply (mt_drop_svc Hm).
    - intros [x|o] w; [apply (mt_drop_fut H) | reflexivity].
  Qed.
End Reconnect.

(** ** Hedge *)
Section Latency.
  Context {W Req Resp Err : Type} (calls : W -> nat) (k : nat) (svc : Service W Req Resp Err).
  Context (R : st svc -> Prop) (V : fut svc -> nat -> Prop) (H : Metered calls k svc R V).
  Context (rt : Rt W) (Hnap : forall d, same calls (nap rt d)).

  Lemma latency_m record : (forall d, still calls (record d)) ->
    Metered calls k (latency rt svc record) R (fun f n => V (lf_inner f) n).
  Proof.
    intros Hr. constructor; cbn; try apply H.
    - intros s r HR. mst; [apply still_get |].
      eapply mok_bind with (c := 0); [apply (mt_call H r HR) | lia |]. intros [s1 f] m [H1 H2].
      apply mok_ret with (n := m); [split; [exact H1 | exact H2] | lia].
    - intros f n Hf. eapply mok_bind with (c := 0); [apply (mt_poll H Hf) | lia |]. intros [f1 p] m H1.
      destruct p as [|[v|e]]; try (apply mok_ret with (n := m); [exact H1 | lia]).
      mst; [apply still_get |]. mst; [apply Hr |]. apply mok_ret with (n := m); [exact H1 | lia].
    - intros f. apply (mt_drop_fut H).
  Qed.

  Definition Vos (o : oneshot_st svc) (n : nat) : Prop :=
    match o with
    | OsNotReady _ s q => R s /\ (q <> None -> k <= n)
    | OsCalled _ f => V f n
    | OsDone _ => True
    end.
  Lemma oneshot_m o n : Vos o n -> mok calls n (oneshot_poll o) (fun x n => Vos (fst x) n).
  Proof.
    assert (Hc : forall f n, V f n -> mok calls n (oneshot_called svc f) (fun x n => Vos (fst x) n)).
    { intros f n' Hf. unfold oneshot_called. eapply mok_bind with (c := 0); [apply (mt_poll H Hf) | lia |].
      intros [f1 p] m H1. destruct p as [|[v|e]]; try (apply mok_ret with (n := m); [exact H1 | lia]).
      mmod; [apply (mt_drop_fut H) |]. apply mok_ret with (n := 0); [exact I | lia]. }
    intros Ho. destruct o as [s q|f|]; cbn [oneshot_poll]; [| apply Hc, Ho | apply mok_panic].
    destruct Ho as [HR Hk]. eapply mok_bind with (c := n); [apply (mt_ready H HR) | lia |]. intros [s1 p] z [H1 ->]. cbn in H1.
    destruct p as [|[u|e]]; try (apply mok_ret with (n := n); [split; [exact H1 | exact Hk] | lia]).
    destruct q as [r|]; [| apply mok_panic].
    eapply mok_bind with (c := 0); [apply (mt_call H r H1) | specialize (Hk ltac:(discriminate)); lia |].
    intros [s2 f] m [H2 H3]. mmod; [apply (mt_drop_svc H) |]. replace (m + 0 + 0) with m by lia. apply Hc, H3.
  Qed.

  Definition Vdelay (f : delay_fut svc) (n : nat) : Prop :=
    match df_state f with
    | DDelaying _ _ r => match df_svc f with Some s => R s | None => True end /\ k <= n
    | DCalled o => Vos o n
    end.
  Lemma delay_m delay_of : (forall r, still calls (delay_of r)) -> Metered calls k (delay rt svc delay_of) R Vdelay.
  Proof.
    intros Hd. constructor; cbn [delay poll_ready call poll_fut clone drop_svc drop_fut]; try apply H.
    - intros s HR. apply mok_ret with (n := 0); auto.
    - intros s r HR. mst; [apply Hd |].
      eapply mok_bind with (c := k); [apply (mt_clone H HR) | lia |]. intros s1 z [H1 ->].
      mst; [apply still_get |]. apply mok_ret with (n := k); [| lia]. split; [exact HR |]. split; [exact H1 | cbn; lia].
    - intros f n Hf.
      assert (Hc : forall sv o n, Vos o n -> mok calls n ('(o1, p) <- oneshot_poll o ;; ret (DelayFut sv (DCalled o1), p))
                     (fun x n => Vdelay (fst x) n)).
      { intros sv o n' Ho. eapply mok_bind with (c := 0); [apply (@oneshot_m o n' Ho) | lia |]. intros [o1 p] m H1.
        apply mok_ret with (n := m); [exact H1 | lia]. }
      unfold Vdelay in Hf. cbv zeta. destruct (df_state f) as [d q|o] eqn:Es; [| apply Hc, Hf].
      mst; [apply still_sleep, Hnap |]. destruct a.
      + destruct q as [r|]; [| apply mok_panic]. destruct (df_svc f) as [s|]; [| apply mok_panic].
        apply Hc. split; [apply Hf |]. intros _. lia.
      + apply mok_ret with (n := n); [| lia]. unfold Vdelay. cbn. rewrite Es. exact Hf.
    - intros s HR. apply mok_panic.
    - intros f w. cbv zeta.
      assert (E : calls (match df_svc f with Some s => drop_svc svc s w | None => w end) = calls w)
        by (destruct (df_svc f); [apply (mt_drop_svc H) | reflexivity]).
      destruct (df_state f) as [d q|o]; [exact E |]. rewrite <- E.
      destruct o as [s q|x|]; cbn; [apply (mt_drop_svc H) | apply (mt_drop_fut H) | reflexivity].
  Qed.
End Latency.

Section Select.
  Context {W Req Resp EA EB : Type} (calls : W -> nat) (k : nat).
  Context (a : Service W Req Resp EA) (b : Service W Req Resp EB).
  Context (Ra : st a -> Prop) (Va : fut a -> nat -> Prop) (Ha : Metered calls k a Ra Va).
  Context (Rb : st b -> Prop) (Vb : fut b -> nat -> Prop) (Hb : Metered calls k b Rb Vb).

  Definition Vsel (f : select_fut a b) (n : nat) : Prop :=
    exists na nb, Va (sel_a f) na /\ match sel_b f with Some x => Vb x nb | None => True end /\ na + nb <= n.
  Lemma select_m clone_req : (forall r, still calls (clone_req r)) ->
    Metered calls (k * 2) (select a b clone_req) (fun s => Ra (fst s) /\ Rb (snd s)) Vsel.
  Proof.
    intros Hc. constructor; cbn [select poll_ready call poll_fut clone drop_svc drop_fut].
    - intros s [H1 H2]. eapply mok_bind with (c := 0); [apply (mt_ready Ha H1) | lia |]. intros [a1 pa] z [H3 ->].
      eapply mok_bind with (c := 0); [apply (mt_ready Hb H2) | lia |]. intros [b1 pb] z [H4 ->].
      apply mok_ret with (n := 0); [| lia]. cbn. auto.
    - intros s r [H1 H2]. mst; [apply Hc |]. destruct a0 as [r1|].
      + eapply mok_bind with (c := k); [apply (mt_call Hb r1 H2) | lia |]. intros [b1 fb] nb [H3 H4].
        eapply mok_bind with (c := nb); [apply (mt_call Ha r H1) | lia |]. intros [a1 fa] na [H5 H6].
        apply mok_ret with (n := na + nb); [| lia]. cbn in *. split; [auto |]. exists na, nb. cbn. auto.
      + eapply mok_bind with (c := 0); [apply (mt_call Ha r H1) | lia |]. intros [a1 fa] na [H5 H6].
        apply mok_ret with (n := na); [| lia]. cbn in *. split; [auto |]. exists na, 0. cbn. split; [exact H6 | split; [exact I | lia]].
    - intros f n (na & nb & H1 & H2 & L).
      eapply mok_bind with (c := nb); [apply (mt_poll Ha H1) | lia |]. intros [fa pa] na' H3.
      destruct pa as [|v]; [| eapply mok_ret; [| apply le_n]; exists na', nb; cbn; auto].
      destruct (sel_b f) as [fb|] eqn:Eb.
      + eapply mok_bind with (c := na'); [apply (mt_poll Hb H2) | lia |]. intros [fb1 pb] nb' H4.
        eapply mok_ret; [| apply le_n]. exists na', nb'. cbn. split; [exact H3 |]. split; [exact H4 | lia].
      + eapply mok_ret; [| apply le_n]. exists na', nb. cbn. auto.
    - intros s HR. apply mok_panic.
    - intros s w. rewrite (mt_drop_svc Hb _ _). apply (mt_drop_svc Ha).
    - intros f w. cbv zeta. destruct (sel_b f) as [fb|]; [rewrite (mt_drop_fut Hb _ _) |]; apply (mt_drop_fut Ha).
  Qed.
End Select.

Section Hedge.
  Context {W Req Resp Err : Type} (calls : W -> nat) (k : nat) (svc : Service W Req Resp Err).
  Context (R : st svc -> Prop) (V : fut svc -> nat -> Prop) (H : Metered calls k svc R V).
  Context (rt : Rt W) (clone_request : Req -> option Req) (can_retry : Req -> bool) (mdp : Z) (quantile : list Z -> Z).
  Context (getH : W -> histo) (setH : histo -> W -> W).
  Context (Hnap : forall d, same calls (nap rt d)) (Hset : forall h, same calls (setH h)).

  Lemma with_histo_still A (f : Z -> histo -> out (histo * A)) : still calls (with_histo rt getH setH f).
  Proof.
    intros w. split; [| auto]. unfold with_histo. destruct (f (now rt w) (getH w)) as [[h1 x]| |]; cbn; auto. apply Hset.
  Qed.
  Lemma hedge_m : exists V', Metered calls (k * 2) (hedge rt svc clone_request can_retry mdp quantile getH setH)
    (fun s => R (fst s) /\ R (fst (snd s))) V'.
  Proof.
    assert (Ha : Metered calls k (hedge_a rt svc getH setH) R (fun f n => V (lf_inner f) n))
      by (apply latency_m; [exact H | intros d; apply with_histo_still]).
    assert (Hf : Metered calls k (hedge_filtered rt svc can_retry getH setH) (fun s => R (fst s))
                   (@Vaf _ _ _ _ k (hedge_a rt svc getH setH) R (fun f n => V (lf_inner f) n) _)).
    { apply async_filter_m; [exact Ha | | intros p r; apply still_ret | intros p; apply still_ret].
      split; [| intros t w; reflexivity]. intros [[r|]|u]; cbn; [apply still_ret | apply still_panic | apply still_ret]. }
    assert (Hb := @delay_m _ _ _ _ calls k _ _ _ Hf rt Hnap (hedge_delay rt quantile getH setH) (fun r => with_histo_still _)).
    eexists. refine (@select_m _ _ _ _ _ calls k _ _ _ _ Ha _ _ Hb (hedge_clone rt clone_request mdp getH setH) _).
    intros r. unfold hedge_clone. destruct (clone_request r); [apply with_histo_still | apply still_ret].
  Qed.
End Hedge.

Section MakeSpawn.
  Context {W Req Resp Err : Type} (calls : W -> nat) (k : nat) (svc : Service W Req Resp Err).
  Context (R : st svc -> Prop) (V : fut svc -> nat -> Prop) (H : Metered calls k svc R V).

  Lemma make_balance_m K DErr G R0 P0 E0 (s0 : Service W R0 P0 E0) (D : Discover W K (st s0) DErr)
    (mk : Service W Req (dst D) Err) Rm Vm (g0 : M W G) :
    Metered calls k mk Rm Vm -> still calls g0 -> Metered calls k (make_balance s0 D mk g0) Rm Vm.
  Proof.
    intros Hm Hg. constructor; cbn; try apply Hm.
    intros f n Hf. eapply mok_bind with (c := 0); [apply (mt_poll Hm Hf) | lia |]. intros [f1 p] m H1.
    destruct p as [|[d|e]]; try (apply mok_ret with (n := m); [exact H1 | lia]).
    mst; [apply Hg |]. apply mok_ret with (n := m); [exact H1 | lia].
  Qed.

  Context (bg : W -> W * nat) (Hbg : same calls (fun w => fst (bg w))).
  Definition Rtask (t : rtask svc) : Prop :=
    match t with TRun s => R s | TDone (Ok s) => R s | _ => True end.
  Definition Rsp (s : sr_st svc) : Prop := match s with SrSvc x => R x | SrFut t => Rtask t end.
  Lemma task_poll_m t : Rtask t -> mok calls 0 (task_poll t) (fun t n => Rtask t /\ n = 0).
  Proof.
    intros Ht w. unfold task_poll. destruct t as [s|r| |];
      try (split; [auto |]; exists 0; split; [split; [exact Ht | reflexivity] | lia]).
    cbn in Ht. generalize (mt_ready H Ht w). destruct (poll_ready svc s w) as [w1 [[s1 p]| |]].
    - intros (L0 & n & [H1 ->] & L). cbn in H1. destruct p as [|[u|e]].
      + split; [exact L0 |]. exists 0. split; [split; [exact H1 | reflexivity] | exact L].
      + split; [exact L0 |]. exists 0. split; [split; [exact H1 | reflexivity] | exact L].
      + rewrite (mt_drop_svc H s1 w1). split; [exact L0 |]. exists 0. split; [split; [exact I | reflexivity] | exact L].
    - intros L. rewrite (mt_drop_svc H s w1). split; [apply L |]. exists 0. split; [split; [exact I | reflexivity] | lia].
    - intros L. exact L.
  Qed.
  Lemma task_polls_m n : forall t, Rtask t -> mok calls 0 (task_polls n t) (fun t n => Rtask t /\ n = 0).
  Proof.
    induction n as [|n IH]; intros t Ht; cbn [task_polls]; [apply mok_ret with (n := 0); auto |].
    eapply mok_bind with (c := 0); [apply (@task_poll_m t Ht) | lia |]. intros t1 z [H1 ->]. apply IH, H1.
  Qed.
  Lemma sr_ready_m fuel : forall s, Rsp s -> mok calls 0 (sr_ready bg fuel s) (fun x n => Rsp (fst x) /\ n = 0).
  Proof.
    induction fuel as [|fuel IH]; intros s Hs; [apply mok_diverge |]. cbn [sr_ready]. destruct s as [x|t]; cbn in Hs.
    - eapply mok_bind with (c := 0); [apply (mt_ready H Hs) | lia |]. intros [x1 a] z [H1 ->]. cbn in H1.
      destruct a as [|r]; [apply IH; exact H1 | apply mok_ret with (n := 0); [split; [exact H1 | reflexivity] | lia]].
    - mst. { intros w. generalize (Hbg w). destruct (bg w). cbn. auto. }
      eapply mok_bind with (c := 0); [apply (@task_polls_m a t Hs) | lia |]. intros t1 z [H1 ->].
      destruct t1 as [s|[s|e]| |]; cbn in H1.
      + apply mok_ret with (n := 0); [split; [exact H1 | reflexivity] | lia].
      + apply IH, H1.
      + apply mok_ret with (n := 0); [split; [exact I | reflexivity] | lia].
      + apply mok_ret with (n := 0); [split; [exact I | reflexivity] | lia].
      + apply mok_panic.
  Qed.
  Lemma spawn_ready_m fuel : Metered calls k (spawn_ready svc bg fuel) Rsp (@Vopt _ _ _ _ svc V).
  Proof.
    constructor; cbn [spawn_ready poll_ready call poll_fut clone drop_svc drop_fut].
    - intros s Hs. apply sr_ready_m, Hs.
    - intros s r Hs. unfold sr_call. destruct s as [x|t]; [| apply mok_panic].
      eapply mok_bind with (b := k) (c := 0) (P := fun x n => Rsp (fst x) /\ V (snd x) n); [| lia |].
      + eapply mok_bind with (c := 0); [apply (mt_call H r Hs) | lia |]. intros [x1 f] m [H1 H2].
        apply mok_ret with (n := m); [split; [exact H1 | exact H2] | lia].
      + intros [s1 f] m [H1 H2]. apply mok_ret with (n := m); [split; [exact H1 | exact H2] | lia].
    - intros f n Hf. apply (map_poll_mok H); [intros r; apply still_ret | exact Hf].
    - intros s HR. apply mok_panic.
    - intros s w. unfold sr_drop. destruct s as [x|[x|[x|e]| |]]; try apply (mt_drop_svc H); reflexivity.
    - intros f. apply (map_drop_mok H).
  Qed.
End MakeSpawn.
