(** Contract preservation for the remaining service transformers. *)
From Verif Require Import Base ContractSpec StackSpec Safe Util Middleware Limits Hedge SafeUtil.
Set Implicit Arguments.

Lemma okm_weaken W A (d d' : bool) (m : M W A) Q :
  (d = true -> d' = true) -> okm d m Q -> okm d' m Q.
Proof. intros Hd H w. specialize (H w). destruct (snd (m w)); auto. Qed.

Lemma safe_weaken W Req Resp Err (c c' : caps) (svc : Service W Req Resp Err) R Rdy V :
  caps_le c' c -> Safe c svc R Rdy V -> Safe c' svc R Rdy V.
Proof.
  intros (H1 & H2 & H3) [A1 A2 A3 A4 A5 A6]. split; auto; intros;
    eapply okm_weaken; eauto.
Qed.

Section Two.
  Context {W Req Resp Err : Type} (c : caps) (a b : Service W Req Resp Err).
  Context (Ra Rda : st a -> Prop) (Va : fut a -> Prop).
  Context (Rb Rdb : st b -> Prop) (Vb : fut b -> Prop).
  Hypothesis HA : Safe c a Ra Rda Va.
  Hypothesis HB : Safe c b Rb Rdb Vb.

  Definition both {A B} (P : A -> Prop) (Q : B -> Prop) (x : A + B) : Prop :=
    match x with inl y => P y | inr z => Q z end.

  Lemma either_safe : Safe c (either a b) (both Ra Rb) (both Rda Rdb) (both Va Vb).
  Proof.
    split; cbn; intros.
    - destruct s; [apply (sf_sub HA) | apply (sf_sub HB)]; auto.
    - destruct s; walk; dpoll; okdone.
    - destruct s; (eapply okm_bind; [eapply sf_stk; eauto|]); intros [s1 x] Hx; apply okm_ret; auto.
    - destruct s; walk; auto.
    - destruct f; walk; auto.
    - destruct s; walk; auto.
  Qed.
End Two.

Lemma service_fn_safe W Req Resp Err (T : Task W (result Resp Err)) (f : Req -> M W (tst T)) VT :
  task_ok T VT -> (forall r, gives (f r) VT) ->
  Safe (Caps false true true) (service_fn T f) (fun _ => True) (fun _ => True) VT.
Proof.
  intros HT Hf. split; cbn; intros; auto.
  - apply okm_ret. cbn. auto.
  - apply okm_ret. discriminate.
  - eapply okm_bind; [apply okm_gives, Hf|]. intros t Ht. apply okm_ret. auto.
  - apply okm_gives, HT; auto.
  - apply okm_ret. auto.
Qed.

Section One.
  Context {W Req Resp Err : Type} (c : caps) (svc : Service W Req Resp Err).
  Context (R Rdy : st svc -> Prop) (V : fut svc -> Prop).
  Hypothesis HS : Safe c svc R Rdy V.

  Lemma set_nth_length A i (x : A) l : length (set_nth i x l) = length l.
  Proof. revert i; induction l; destruct i; cbn; auto. Qed.
  Lemma set_nth_same A i (x : A) l : i < length l -> nth_error (set_nth i x l) i = Some x.
  Proof. revert i; induction l; destruct i; cbn; intros; auto; try lia. apply IHl; lia. Qed.
  Lemma set_nth_other A i j (x : A) l : i <> j -> nth_error (set_nth i x l) j = nth_error l j.
  Proof. revert i j; induction l; destruct i, j; cbn; intros; auto; try congruence. Qed.

  (** ** Steer.  It is [Clone] in Rust, but its clones are not safe to use (see
      steer_clone_refuted), hence [c_cl := false]. *)
  Definition Rsteer {P} (s : steer_st svc P) : Prop :=
    (forall i x, nth_error (sr_services s) i = Some x ->
       R x /\ (~ In i (sr_not_ready s) -> Rdy x)) /\
    Forall (fun i => i < length (sr_services s)) (sr_not_ready s).
  Definition Rdysteer {P} (s : steer_st svc P) : Prop := Rsteer s /\ sr_not_ready s = [].

  Lemma steer_poll_safe P (q : P) nr : forall l,
    Rsteer (SteerSt svc q l nr) ->
    okm (c_div c) (steer_poll svc l nr)
      (fun x => match snd x with
                | Pending => Rsteer (SteerSt svc q (fst (fst x)) (snd (fst x)))
                | Ready (Ok _) => Rdysteer (SteerSt svc q (fst (fst x)) (snd (fst x)))
                | Ready (Er _) => True
                end /\ length (fst (fst x)) = length l).
  Proof.
    induction nr as [|i nr IH]; intros l [H1 H2]; cbn [steer_poll].
    - apply okm_ret. cbn. split; auto. split; [split|]; auto.
    - inversion H2 as [|? ? Hi Hnr]; subst. cbn in H1, H2, Hi, Hnr.
      destruct (nth_error l i) as [s|] eqn:E; [|apply nth_error_None in E; lia].
      destruct (H1 _ _ E) as [Hs _].
      eapply okm_bind; [apply (sf_ready HS); eauto|]. intros [s1 p] Hp. cbn in Hp.
      assert (Hlen : length (set_nth i s1 l) = length l) by apply set_nth_length.
      assert (Hrest : forall j x, nth_error (set_nth i s1 l) j = Some x -> i <> j ->
                R x /\ (~ In j (i :: nr) -> Rdy x)).
      { intros j x Hj Hne. rewrite set_nth_other in Hj by auto. apply (H1 _ _ Hj). }
      destruct p as [|[u|e]]; cbn.
      + apply okm_ret. cbn. split; auto. split; cbn; [|rewrite Hlen; auto].
        intros j x Hj. destruct (Nat.eq_dec i j) as [->|Hne].
        * rewrite set_nth_same in Hj by auto. injection Hj as <-. split; auto.
          intros K; exfalso; apply K; left; auto.
        * apply (Hrest _ _ Hj Hne).
      + eapply okm_mono; [apply IH; split; cbn; [|rewrite Hlen; auto]|].
        * intros j x Hj. destruct (Nat.eq_dec i j) as [->|Hne].
          -- rewrite set_nth_same in Hj by auto. injection Hj as <-. split; auto. apply (sf_sub HS); auto.
          -- destruct (Hrest _ _ Hj Hne) as [A B]. split; auto. intros K. apply B. intros [->|K']; auto.
        * intros [[l1 nr1] q1]. cbn. rewrite Hlen. auto.
      + apply okm_ret. cbn. auto.
  Qed.

  Lemma steer_safe P (pick : P -> Req -> list (st svc) -> M W (P * nat)) pclone :
    (forall q r l, 0 < length l -> gives (pick q r l) (fun x => snd x < length l)) ->
    Safe (Caps (c_div c) true false) (steer svc pick pclone)
      (fun s => Rsteer s /\ 0 < length (sr_services s))
      (fun s => Rdysteer s /\ 0 < length (sr_services s)) V.
  Proof.
    intros Hpick. split; cbn; intros.
    - destruct H as [[A _] B]. auto.
    - destruct s as [q l nr], H as [HR Hl]. cbn in *.
      eapply okm_bind; [apply (steer_poll_safe HR)|]. intros [[l1 nr1] p] [Hp Hlen]. cbn in *.
      apply okm_ret. cbn. rewrite Hlen. destruct p as [|[u|e]]; auto.
    - destruct s as [q l nr], H0 as [[HR Hn] Hl]. cbn in *. subst nr. cbn.
      intros w. discriminate.
    - destruct s as [q l nr], H as [[HR Hn] Hl]. cbn in *. subst nr.
      eapply okm_bind; [apply okm_gives, Hpick; auto|]. intros [q1 i] Hi. cbn in *.
      destruct (nth_error l i) as [x|] eqn:E; [|apply nth_error_None in E; lia].
      destruct HR as [HR _]. cbn in HR. destruct (HR _ _ E) as [_ Hx].
      eapply okm_bind; [apply (sf_call HS); apply Hx; auto|]. intros [x1 f] [Hx1 Hf]. cbn in *.
      apply okm_ret. cbn. unfold Rsteer. cbn. rewrite set_nth_length. repeat split; auto.
      + destruct (Nat.eq_dec i i0) as [->|Hne].
        * rewrite set_nth_same in H by auto. injection H as <-. auto.
        * rewrite set_nth_other in H by auto. apply (HR _ _ H).
      + intros K. destruct (Nat.eq_dec i i0) as [->|Hne]; [exfalso; apply K; auto|].
        rewrite set_nth_other in H by auto. apply (HR _ _ H). auto.
    - apply (sf_poll HS). auto.
    - discriminate.
  Qed.

  (** ** Reconnect *)
  Lemma reconnect_safe Tgt MErr (mk : Service W Tgt (st svc) MErr) Rm Rdm Vm target fuel :
    Safe c mk Rm Rdm Vm ->
    (* the connector hands out fresh services *)
    (forall f, Vm f -> okm (c_div c) (poll_fut mk f)
       (fun x => match snd x with Ready (Ok s) => R s | _ => True end)) ->
    Safe (Caps true false false) (reconnect svc mk target fuel)
      (fun s => Rm (rc_mk s) /\
         match rc_st s with RcIdle => True | RcConnecting f => Vm f | RcConnected x => R x end)
      (fun s => Rm (rc_mk s) /\
         match rc_st s with
         | RcIdle => rc_err s <> None
         | RcConnecting f => Vm f /\ rc_err s <> None
         | RcConnected x => R x /\ (rc_err s = None -> Rdy x)
         end)
      (fun f => match f with inl x => V x | inr (Some _) => True | inr None => False end).
  Proof.
    intros HM HMs.
    assert (W1 : forall d, d = c_div c -> (d = true -> true = true)) by auto.
    split; cbn -[reconnect_poll]; intros; try discriminate.
    - destruct s as [m x e]. cbn in *. destruct x; intuition.
    - revert s H. induction fuel as [|n IH]; intros s [Hm Hx]; [intros w; reflexivity|].
      cbn [reconnect_poll].
      apply okm_bind with (P := fun x => match x with
        | inl s => Rm (rc_mk s) /\
            match rc_st s with RcIdle => True | RcConnecting f => Vm f | RcConnected x => R x end
        | inr (s, Pending) => Rm (rc_mk s) /\
            match rc_st s with RcIdle => True | RcConnecting f => Vm f | RcConnected x => R x end
        | inr (s, Ready (Ok _)) => Rm (rc_mk s) /\
         match rc_st s with
         | RcIdle => rc_err s <> None
         | RcConnecting f => Vm f /\ rc_err s <> None
         | RcConnected x => R x /\ (rc_err s = None -> Rdy x)
         end
        | inr (_, Ready (Er _)) => True end).
      2:{ intros [s1|[s1 p]] Hs; [apply IH; auto | apply okm_ret; cbn].
          destruct p as [|[|]]; auto. }
      unfold reconnect_iter. destruct s as [m x e]. cbn in *. destruct x as [|f|x].
      + eapply okm_bind; [eapply okm_weaken; [|apply (sf_ready HM); eauto]; auto|].
        intros [m1 p] Hp. cbn in *. destruct p as [|[u|e1]].
        * apply okm_ret. cbn. auto.
        * eapply okm_bind; [eapply okm_weaken; [|apply (sf_call HM); eauto]; auto|].
          intros [m2 f] [A B]. apply okm_ret. cbn. auto.
        * apply okm_ret. exact I.
      + eapply okm_bind.
        { intros w. generalize (sf_poll HM _ Hx w) (HMs _ Hx w).
          instantiate (1 := fun x => (snd x = Pending -> Vm (fst x)) /\
             match snd x with Ready (Ok s) => R s | _ => True end).
          destruct (snd (poll_fut mk f w)); auto. }
        intros [f1 p] [A B]. cbn in *. destruct p as [|[x|e1]].
        * apply okm_ret. cbn. auto.
        * apply okm_bind with (P := fun _ => True); [apply okm_modify; exact I|]. intros _ _.
          apply okm_ret. cbn. auto.
        * apply okm_bind with (P := fun _ => True); [apply okm_modify; exact I|]. intros _ _.
          apply okm_ret. cbn. split; [auto | discriminate].
      + eapply okm_bind; [eapply okm_weaken; [|apply (sf_ready HS); eauto]; auto|].
        intros [x1 p] Hp. cbn in *. destruct p as [|[u|e1]].
        * apply okm_ret. cbn. auto.
        * apply okm_ret. cbn. split; auto. split; [apply (sf_sub HS); auto | auto].
        * apply okm_bind with (P := fun _ => True); [apply okm_modify; exact I|]. intros _ _.
          apply okm_ret. cbn. auto.
    - destruct s as [m x e], H as [Hm Hx]. cbn in *. destruct e as [e|].
      + apply okm_ret. cbn. split; auto. split; auto. destruct x; intuition.
      + destruct x as [|f|x]; try (exfalso; intuition; fail).
        destruct Hx as [Hx1 Hx2].
        eapply okm_bind; [eapply okm_weaken; [|apply (sf_call HS); eauto]; auto|].
        intros [x1 f] [A B]. apply okm_ret. cbn. auto.
    - destruct f as [x|[e|]]; try contradiction.
      + eapply okm_bind; [eapply okm_weaken; [|apply (sf_poll HS); eauto]; auto|].
        intros [x1 p] Hp. apply okm_ret. cbn in *. destruct p; auto; discriminate.
      + apply okm_ret. discriminate.
  Qed.

  (** ** RateLimit: not [Clone] *)
  Lemma rate_limit_safe rt rate :
    Safe (Caps (c_div c) (c_stk c) false) (rate_limit rt rate svc)
      (fun s => R (rl_inner s))
      (fun s => Rdy (rl_inner s) /\ rl_st s <> RlLimited) V.
  Proof.
    split; cbn; intros; try discriminate.
    - apply HS, H.
    - destruct s as [s x sl]. cbn in *. destruct x; walk; try okdone; dpoll; okdone.
    - destruct s as [s x sl], H0 as [H0 Hx]. cbn in *. destruct x; [congruence|].
      eapply okm_bind; [eapply sf_stk; eauto|]. intros [s1 a] Ha. apply okm_ret. auto.
    - destruct s as [s x sl], H as [H Hx]. cbn in *. destruct x as [|u n]; [congruence|].
      apply okm_bind with (P := fun _ => True); [apply okm_get; auto|]. intros t _.
      destruct (1 <? _)%N; walk; auto.
    - apply HS; auto.
  Qed.

  (** ** ConcurrencyLimit with a private semaphore (never closed) *)
  Lemma lift_snd_ok A dv (m : M W A) Q : okm dv m Q -> okm dv (lift_snd m) Q.
  Proof. intros H [k w]. specialize (H w). unfold lift_snd. cbn. destruct (m w); auto. Qed.

  Lemma conc_limit_safe debug :
    Safe c (conc_limit svc (fun _ => false) debug)
      (fun s => R (cl_inner s))
      (fun s => Rdy (cl_inner s) /\ cl_permit s = true) V.
  Proof.
    split; cbn; intros.
    - apply HS, H.
    - destruct s as [s wt [|]]; cbn in *.
      + eapply okm_bind; [apply lift_snd_ok, (sf_ready HS); eauto|].
        intros [s1 p] Hp. apply okm_ret. cbn in *. dpoll; okdone.
      + apply okm_bind with (P := fun b => b = false); [intros w; reflexivity|]. intros ? ->.
        apply okm_bind with (P := fun _ => True); [apply okm_get; auto|]. intros m _.
        destruct (sem_poll wt m) as [[m1 w1] got].
        apply okm_bind with (P := fun _ => True); [apply okm_modify; exact I|]. intros _ _.
        destruct got; [|apply okm_ret; auto].
        eapply okm_bind; [apply lift_snd_ok, (sf_ready HS); eauto|].
        intros [s1 p] Hp. apply okm_ret. cbn in *. dpoll; okdone.
    - destruct s as [s wt pm], H0 as [H0 Hx]. cbn in *. subst pm.
      eapply okm_bind; [apply lift_snd_ok; eapply sf_stk; eauto|].
      intros [s1 a] Ha. apply okm_ret. auto.
    - destruct s as [s wt pm], H as [H Hx]. cbn in *. subst pm.
      eapply okm_bind; [apply lift_snd_ok; eapply sf_call; eauto|].
      intros [s1 a] Ha. apply okm_ret. auto.
    - apply lift_snd_ok, HS; auto.
    - eapply okm_bind; [apply lift_snd_ok; eapply sf_clone; eauto|].
      intros s1 Ha. apply okm_ret. auto.
  Qed.

  (** ** Hedge and its parts *)
  Lemma latency_safe rt record :
    (forall d, quiet (record d)) -> Safe c (latency rt svc record) R Rdy (fun f => V (lf_inner f)).
  Proof.
    intros Hr. split; cbn; try apply HS; intros; walk; okdone.
  Qed.

  Definition Vos (o : oneshot_st svc) : Prop :=
    match o with
    | OsNotReady _ s (Some _) => R s
    | OsCalled _ f => V f
    | _ => False
    end.

  Lemma oneshot_safe o : Vos o ->
    okm (c_div c) (oneshot_poll o) (fun x => snd x = Pending -> Vos (fst x)).
  Proof.
    assert (Hc : forall f, V f ->
      okm (c_div c) (oneshot_called svc f) (fun x => snd x = Pending -> Vos (fst x))).
    { intros f Hf. unfold oneshot_called. walk; okdone. }
    destruct o as [s [r|]|f|]; cbn; try contradiction; auto.
    intros Hs. eapply okm_bind; [apply (sf_ready HS); eauto|].
    intros [s1 p] Hp. cbn in *. destruct p as [|[u|e]]; [apply okm_ret; auto | | apply okm_ret; discriminate].
    eapply okm_bind; [apply (sf_call HS); eauto|]. intros [s2 f] [A B]. cbn in *.
    apply okm_bind with (P := fun _ => True); [apply okm_modify; exact I|]. intros _ _. auto.
  Qed.

  Lemma ready_oneshot_safe o : Popt R False o ->
    okm (c_div c) (ready_oneshot_poll svc o)
      (fun x => match snd x with
                | Pending => Popt R False (fst x)
                | Ready (Ok s) => Rdy s
                | Ready (Er _) => True
                end).
  Proof. destruct o as [s|]; cbn; [|contradiction]. intros Hs. walk; okdone. Qed.

  (** Delay needs [Clone] below; is not [Clone] itself. *)
  Lemma delay_safe rt delay_of :
    c_cl c = true -> (forall r, quiet (delay_of r)) ->
    Safe (Caps (c_div c) true false) (delay rt svc delay_of) R R
      (fun f => match df_state f with
                | DDelaying _ _ req => req <> None /\ Popt R False (df_svc f)
                | DCalled o => Vos o
                end).
  Proof.
    intros Hcl Hd. split; cbn; intros; auto; try discriminate.
    - apply okm_ret; auto.
    - eapply okm_bind; [apply okm_quiet; auto|]. intros d _.
      eapply okm_bind; [apply (sf_clone HS Hcl); eauto|]. intros s1 Hs1.
      apply okm_bind with (P := fun _ => True); [apply okm_get; auto|]. intros t _.
      apply okm_ret. cbn. split; auto. split; [discriminate | auto].
    - destruct f as [sv [d req|o]]; cbn in *.
      + apply okm_bind with (P := fun _ => True); [apply okm_get; auto|]. intros [|] _.
        * destruct H as [H1 H2]. destruct req as [r|]; [|congruence]. destruct sv as [s|]; [|contradiction].
          eapply okm_bind; [apply (oneshot_safe (OsNotReady svc s (Some r))); cbn; exact H2|].
          intros [o1 p] Hp. apply okm_ret. exact Hp.
        * apply okm_ret. auto.
      + eapply okm_bind; [apply oneshot_safe; exact H|]. intros [o1 p] Hp. apply okm_ret. exact Hp.
  Qed.
End One.

Section SelectSafe.
  Context {W Req Resp EA EB : Type} (c : caps).
  Context (a : Service W Req Resp EA) (b : Service W Req Resp EB).
  Context (Ra Rda : st a -> Prop) (Va : fut a -> Prop).
  Context (Rb Rdb : st b -> Prop) (Vb : fut b -> Prop).
  Hypothesis HA : Safe c a Ra Rda Va.
  Hypothesis HB : Safe c b Rb Rdb Vb.

  Lemma select_safe clone_req :
    (forall r, quiet (clone_req r)) ->
    Safe (Caps (c_div c) (c_stk c) false) (select a b clone_req)
      (fun s => Ra (fst s) /\ Rb (snd s)) (fun s => Rda (fst s) /\ Rdb (snd s))
      (fun f => Va (sel_a f) /\ Popt Vb True (sel_b f)).
  Proof.
    intros Hc. split; cbn; intros; try discriminate.
    - destruct H. split; [apply HA | apply HB]; auto.
    - destruct s as [sa sb], H as [H1 H2]; cbn in *.
      eapply okm_bind; [apply (sf_ready HA); eauto|]. intros [a1 pa] Hpa. cbn in *.
      eapply okm_bind; [apply (sf_ready HB); eauto|]. intros [b1 pb] Hpb. cbn in *.
      apply okm_ret. cbn.
      destruct pa as [|[|]], pb as [|[|]]; cbn; auto using (sf_sub HA), (sf_sub HB).
    - destruct s as [sa sb], H0 as [H1 H2]; cbn in *.
      eapply okm_bind; [apply (sf_stk HA); eauto|]. intros [a1 pa] Hpa. cbn in *.
      eapply okm_bind; [apply (sf_stk HB); eauto|]. intros [b1 pb] Hpb. cbn in *.
      apply okm_ret. cbn.
      destruct pa as [|[|]], pb as [|[|]]; cbn; congruence.
    - destruct s as [sa sb], H as [H1 H2]; cbn in *.
      eapply okm_bind; [apply okm_quiet; auto|]. intros [r1|] _.
      + eapply okm_bind; [apply (sf_call HB); eauto|]. intros [b1 fb] [A1 A2]. cbn in *.
        eapply okm_bind; [apply (sf_call HA); eauto|]. intros [a1 fa] [A3 A4]. apply okm_ret. cbn. auto.
      + eapply okm_bind; [apply (sf_call HA); eauto|]. intros [a1 fa] [A3 A4]. apply okm_ret. cbn.
        auto using (sf_sub HB).
    - destruct f as [fa fb], H as [H1 H2]; cbn in *.
      eapply okm_bind; [apply (sf_poll HA); eauto|]. intros [a1 pa] Hpa. cbn in *.
      destruct pa as [|v]; [|apply okm_ret; discriminate].
      destruct fb as [fb|]; [|apply okm_ret; cbn; auto].
      eapply okm_bind; [apply (sf_poll HB); eauto|]. intros [b1 pb] Hpb. apply okm_ret. cbn in *.
      destruct pb; [auto | discriminate].
  Qed.
End SelectSafe.

Section HedgeSafe.
  Context {W Req Resp Err : Type} (c : caps) (rt : Rt W) (svc : Service W Req Resp Err).
  Context (R Rdy : st svc -> Prop) (V : fut svc -> Prop).
  Hypothesis HS : Safe c svc R Rdy V.
  Context (clone_request : Req -> option Req) (can_retry : Req -> bool) (mdp : Z)
    (quantile : list Z -> Z) (getH : W -> histo) (setH : histo -> W -> W).
  (** The configured period is at least one nanosecond: [nanos period <> 0].
      It is fixed at construction time. *)
  Hypothesis Hper : forall w, nanos (h_period (getH w)) <> 0%Z.

  Lemma with_histo_quiet A (f : Z -> histo -> out (histo * A)) :
    (forall t h, nanos (h_period h) <> 0%Z -> exists x, f t h = Val x) ->
    quiet (with_histo rt getH setH f).
  Proof.
    intros H w. unfold with_histo. destruct (H (now rt w) (getH w) (Hper w)) as [[h1 x] ->]. exact I.
  Qed.

  Lemma maybe_rotate_ok t h : nanos (h_period h) <> 0%Z -> exists h1, maybe_rotate t h = Val h1.
  Proof.
    intros H. unfold maybe_rotate. destruct (nanos (h_period h) =? 0)%Z eqn:E; [lia|].
    destruct (2 <=? _)%Z; [eauto|]. destruct (_ =? 1)%Z; eauto.
  Qed.

  Lemma hedge_safe :
    c_cl c = true ->
    exists R' Rdy' V',
      Safe (Caps (c_div c) (c_stk c) false)
        (hedge rt svc clone_request can_retry mdp quantile getH setH) R' Rdy' V' /\
      (forall s1 s2, R s1 -> R s2 -> R' (s1, (s2, tt))).
  Proof.
    intros Hcl.
    assert (Hrec : forall d, quiet (hedge_record rt getH setH d)).
    { intros d. apply with_histo_quiet. intros t h Hh. unfold histo_record.
      destruct (maybe_rotate_ok t h Hh) as [h1 ->]. eauto. }
    assert (Hdel : forall r : Req, quiet (hedge_delay rt quantile getH setH r)).
    { intros r. apply with_histo_quiet. intros t h Hh. unfold histo_read.
      destruct (maybe_rotate_ok t h Hh) as [h1 ->]. eauto. }
    assert (Hclo : forall r, quiet (hedge_clone rt clone_request mdp getH setH r)).
    { intros r. unfold hedge_clone. destruct (clone_request r); [|intros w; exact I].
      apply with_histo_quiet. intros t h Hh. unfold histo_read.
      destruct (maybe_rotate_ok t h Hh) as [h1 ->]. eauto. }
    pose proof (latency_safe HS rt _ Hrec) as HA.
    pose proof (@async_filter_safe _ _ _ _ _ _ _ _ _ HA unit Empty_set Req (policy_task (W:=W) (Req:=Req))
                  (policy_check (W:=W) can_retry) (fun p => ret p)
                  (fun t => match t with inl None => False | _ => True end) Hcl) as HF.
    assert (HT : task_ok (policy_task (W:=W) (Req:=Req))
                   (fun t => match t with inl None => False | _ => True end)).
    { intros [[r|]|u] Ht w; cbn; auto. discriminate. }
    specialize (HF HT).
    assert (H3 : forall p r, gives (policy_check (W:=W) can_retry p r)
                   (fun x => match snd x with inl None => False | _ => True end)).
    { intros p r w. unfold policy_check. cbn. destruct (can_retry r); exact I. }
    specialize (HF H3 (fun p => (fun w => I))).
    pose proof (delay_safe HF rt _ Hcl Hdel) as HD.
    assert (HA' : Safe (Caps (c_div c) (c_stk c) false) (hedge_a rt svc getH setH)
              R Rdy (fun f => V (lf_inner f))).
    { eapply safe_weaken; [|exact HA]. repeat split; auto; discriminate. }
    assert (Hle : caps_le (Caps (c_div c) (c_stk c) false) (Caps (c_div c) true false))
      by (repeat split; auto).
    pose proof (safe_weaken Hle HD) as HD'.
    pose proof (select_safe HA' HD' _ Hclo) as HSel.
    eexists _, _, _. split; [exact HSel|]. cbn. auto.
  Qed.
End HedgeSafe.
