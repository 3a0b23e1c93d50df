(** Reconnect: every connection error is handed out by the next call, unless a later one replaces it. *)
From Verif Require Import Base Middleware Track RouteSpec RouteProof.
Set Implicit Arguments.

Section P.
  Context {W Tgt Req Resp Err MErr : Type} (svc : Service W Req Resp Err) (mk : Service W Tgt (st svc) MErr) (target : Tgt).
  Notation L := (cev (Tgt := Tgt) (Req := Req) (Resp := Resp) (Err := Err) (MErr := MErr)).
  Notation ts := (tracked (L := L) CIn svc).
  Notation tm := (tmk svc mk).
  Notation TR fuel := (treconnect svc mk target fuel).

  Lemma iter_fail (s : reconnect_st ts tm) w :
    exists l, log_of (fst (reconnect_iter target s w)) = rev l ++ log_of w /\
    match snd (reconnect_iter target s w) with
    | Val (inl s1) => failures l = [] /\ rc_err s1 = rc_err s
    | Val (inr (s1, a)) => (failures l = [] /\ rc_err s1 = rc_err s) \/ (exists x, failures l = [x] /\ rc_err s1 = Some x /\ a = Ready (Ok tt))
    | _ => True
    end.
  Proof.
    destruct s as [m cs er]. unfold reconnect_iter. cbn [rc_st rc_mk rc_err].
    destruct cs as [|[j f]|[c x]].
    - cbn. unfold bind, tk_lift. cbn.
      destruct (poll_ready mk m (fst w)) as [w1 [[m1 [|[[]|e]]]| |]]; cbn.
      + exists [CMk (TReady 0 Pending)]. split; [reflexivity|]. left. auto.
      + unfold bind, tk_lift. cbn. destruct (call mk m1 target w1) as [w2 [[m2 f]| |]]; cbn.
        * exists [CMk (TReady 0 (Ready (Ok tt))); CMk (TCall 0 target (tk_next (snd w)))]. split; [reflexivity|]. auto.
        * exists [CMk (TReady 0 (Ready (Ok tt)))]. split; [reflexivity|]. exact I.
        * exists [CMk (TReady 0 (Ready (Ok tt)))]. split; [reflexivity|]. exact I.
      + exists [CMk (TReady 0 (Ready (Er e)))]. split; [reflexivity|]. left. auto.
      + exists []. split; [reflexivity|]. exact I.
      + exists []. split; [reflexivity|]. exact I.
    - cbn. unfold bind, tk_lift. cbn.
      destruct (poll_fut mk f (fst w)) as [w1 [[f1 [|[c|e]]]| |]]; cbn.
      + exists [CMk (TPoll j Pending)]. split; [reflexivity|]. left. auto.
      + exists [CMk (TPoll j (Ready (Ok (tk_next (snd w))))); CMk (TDropFut j)]. split; [reflexivity|]. auto.
      + exists [CMk (TPoll j (Ready (Er e))); CMk (TDropFut j)]. split; [reflexivity|]. right. exists e. auto.
      + exists []. split; [reflexivity|]. exact I.
      + exists []. split; [reflexivity|]. exact I.
    - cbn. unfold bind, tk_lift. cbn.
      destruct (poll_ready svc x (fst w)) as [w1 [[x1 [|[[]|e]]]| |]]; cbn.
      + exists [CIn (TReady c Pending)]. split; [reflexivity|]. left. auto.
      + exists [CIn (TReady c (Ready (Ok tt)))]. split; [reflexivity|]. left. auto.
      + exists [CIn (TReady c (Ready (Er e))); CIn (TDropSvc c)]. split; [reflexivity|]. auto.
      + exists []. split; [reflexivity|]. exact I.
      + exists []. split; [reflexivity|]. exact I.
  Qed.
  Lemma poll_fail fuel : forall (s : reconnect_st ts tm) w,
    exists l, log_of (fst (reconnect_poll target fuel s w)) = rev l ++ log_of w /\
    match snd (reconnect_poll target fuel s w) with
    | Val (s1, a) => (failures l = [] /\ rc_err s1 = rc_err s) \/ (exists x, failures l = [x] /\ rc_err s1 = Some x /\ a = Ready (Ok tt))
    | _ => True
    end.
  Proof.
    induction fuel as [|n IH]; intros s w; [exists []; cbn; auto|].
    cbn [reconnect_poll]. unfold bind. destruct (iter_fail s w) as (l & H1 & H2).
    destruct (reconnect_iter target s w) as [w1 [[s1|[s1 a]]| |]]; cbn [fst snd] in *; try (exists l; auto; fail).
    destruct (IH s1 w1) as (l' & H3 & H4). exists (l ++ l'). split.
    { rewrite rev_app_distr, <- app_assoc, <- H1. exact H3. }
    destruct H2 as [F1 E1]. rewrite failures_app, F1. cbn [app].
    destruct (snd (reconnect_poll target n s1 w1)) as [[s2 a]| |]; auto. rewrite <- E1. exact H4.
  Qed.
  Lemma newest_app (l l' : list L) : newest_failure (l ++ l') = match newest_failure l with Some x => Some x | None => newest_failure l' end.
  Proof. induction l as [|[[| |? [|[]]| | | ]|] l IH]; cbn; auto. Qed.
  Lemma newest_rev (l : list L) : newest_failure (rev l) = match rev (failures l) with [] => None | x :: _ => Some x end.
  Proof.
    induction l as [|e l IH]; [reflexivity|]. cbn [rev]. rewrite newest_app, IH.
    destruct e as [[| |? [|[]]| | | ]|]; cbn; try (destruct (rev (failures l)); reflexivity).
  Qed.
  Lemma news_of l (w w1 : W * tk L) : log_of w1 = rev l ++ log_of w -> news w w1 = rev l.
  Proof.
    intros E. unfold news. rewrite E, app_length, Nat.add_sub.
    rewrite firstn_app, Nat.sub_diag, firstn_all. apply app_nil_r.
  Qed.

  (** [undelivered], started with an error that is held. *)
  Definition und fuel (p : option MErr) (h : list ((W * tk L) * sobs (TR fuel) * (W * tk L))) : option MErr :=
    fold_left (fun p x => match x with
                          | (_, ObsCall _ _, _) => None
                          | (w, _, w1) => match newest_failure (news w w1) with Some e => Some e | None => p end
                          end) h p.
  Definition call_ok fuel (p : option MErr) r (f : fut (TR fuel)) (w w1 : W * tk L) : Prop :=
    match p with
    | Some x => f = inr (Some x) /\ log_of w1 = log_of w
    | None => exists c f', f = inl f' /\ log_of w1 = CIn (TCall c r (fst f')) :: log_of w
    end.
  Lemma und_gen fuel ops : forall p (s : reconnect_st ts tm) w h1 w0 r f w1 h2,
    run_svc (TR fuel) p s w (tk_ops ops) = h1 ++ (w0, ObsCall r f, w1) :: h2 -> call_ok (und (rc_err s) h1) r f w0 w1.
  Proof.
    induction ops as [|[g o] ops IH]; intros p s w h1 w0 r f w1 h2 E; [destruct h1; discriminate|].
    change (tk_ops (L := L) ((g, o) :: ops)) with ((tk_env (L := L) g, o) :: tk_ops ops) in E.
    assert (Skip : forall p', (tk_env g w, ObsSkip, tk_env g w) :: run_svc (TR fuel) p' s (tk_env g w) (tk_ops ops) = h1 ++ (w0, ObsCall r f, w1) :: h2 ->
      call_ok (und (rc_err s) h1) r f w0 w1).
    { intros p' Es. destruct h1 as [|e h1]; [discriminate|]. injection Es as <- Es.
      specialize (IH _ _ _ _ _ _ _ _ _ Es). unfold und in *. cbn [fold_left].
      unfold news. rewrite Nat.sub_diag. exact IH. }
    assert (Poll : match poll_ready (TR fuel) s (tk_env g w) with
      | (w1, Val (s1, a)) => (tk_env g w, ObsReady a, w1) :: run_svc (TR fuel) (phase_after a) s1 w1 (tk_ops ops)
      | (w1, Panic) => [(tk_env g w, ObsPanic, w1)]
      | (w1, Diverge) => [(tk_env g w, ObsDiverge, w1)]
      end = h1 ++ (w0, ObsCall r f, w1) :: h2 -> call_ok (und (rc_err s) h1) r f w0 w1).
    { change (poll_ready (TR fuel) s (tk_env g w)) with (reconnect_poll (svc := ts) (mk := tm) target fuel s (tk_env g w)).
      destruct (poll_fail fuel s (tk_env g w)) as (l & H1 & H2).
      destruct (reconnect_poll (svc := ts) (mk := tm) target fuel s (tk_env g w)) as [w2 [[s1 a]| |]]; cbn [fst snd] in *; intros Es;
        destruct h1 as [|e h1]; try discriminate; injection Es as <- Es; try (destruct h1; discriminate).
      specialize (IH _ _ _ _ _ _ _ _ _ Es). unfold und in *. cbn [fold_left]. rewrite (news_of _ _ _ H1), newest_rev.
      destruct H2 as [[-> E1]|(x & -> & E1 & _)]; cbn [rev app]; rewrite E1 in IH; exact IH. }
    destruct o as [|r'], p; cbn [run_svc] in E; eauto. clear Poll Skip.
    destruct s as [m cs [x|]].
    - (* an error is held *)
      cbn in E. destruct h1 as [|e h1]; injection E.
      + intros _ <- <- <- <-. cbn. auto.
      + intros E' <-. specialize (IH _ _ _ _ _ _ _ _ _ E'). exact IH.
    - cbn in E. destruct cs as [|j|[c x]]; try (destruct h1 as [|e [|]]; discriminate).
      cbn in E. unfold bind, tk_lift in E. cbn in E.
      destruct (call svc x r' (g (fst w))) as [w2 [[x1 f1]| |]]; cbn in E; try (destruct h1 as [|e [|]]; discriminate).
      destruct h1 as [|e h1]; injection E.
      + intros _ <- <- <- <-. cbn. eauto.
      + intros E' <-. specialize (IH _ _ _ _ _ _ _ _ _ E'). exact IH.
  Qed.
  Lemma delivers fuel (m : st mk) w ops h1 w0 r f w1 h2 :
    run_svc (TR fuel) Idle (reconnect_new ts tm m) w (tk_ops ops) = h1 ++ (w0, ObsCall r f, w1) :: h2 ->
    call_ok (undelivered h1) r f w0 w1.
  Proof. intros E. exact (@und_gen fuel ops Idle (reconnect_new ts tm m) w h1 w0 r f w1 h2 E). Qed.

  Lemma failure_ready_gen fuel ops : forall p (s : reconnect_st ts tm) w w0 a w1 x,
    In (w0, ObsReady a, w1) (run_svc (TR fuel) p s w (tk_ops ops)) -> newest_failure (news w0 w1) = Some x -> a = Ready (Ok tt).
  Proof.
    induction ops as [|[g o] ops IH]; intros p s w w0 a w1 x E F; [destruct E|].
    change (tk_ops (L := L) ((g, o) :: ops)) with ((tk_env (L := L) g, o) :: tk_ops ops) in E.
    assert (Poll : In (w0, ObsReady a, w1) match poll_ready (TR fuel) s (tk_env g w) with
      | (w1, Val (s1, a)) => (tk_env g w, ObsReady a, w1) :: run_svc (TR fuel) (phase_after a) s1 w1 (tk_ops ops)
      | (w1, Panic) => [(tk_env g w, ObsPanic, w1)]
      | (w1, Diverge) => [(tk_env g w, ObsDiverge, w1)]
      end -> a = Ready (Ok tt)).
    { change (poll_ready (TR fuel) s (tk_env g w)) with (reconnect_poll (svc := ts) (mk := tm) target fuel s (tk_env g w)).
      destruct (poll_fail fuel s (tk_env g w)) as (l & H1 & H2).
      destruct (reconnect_poll (svc := ts) (mk := tm) target fuel s (tk_env g w)) as [w2 [[s1 a1]| |]]; cbn [fst snd] in *; intros [Es|Es];
        try discriminate; try contradiction; eauto.
      injection Es as <- <- <-. rewrite (news_of _ _ _ H1), newest_rev in F.
      destruct H2 as [[E1 _]|(y & _ & _ & E1)]; [rewrite E1 in F; discriminate|exact E1]. }
    destruct o as [|r'], p; cbn [run_svc] in E; try (destruct E as [E|E]; [discriminate|eauto]; fail); eauto.
    destruct (call (TR fuel) s r' (tk_env g w)) as [w2 [[s1 f1]| |]]; destruct E as [E|E]; try discriminate; try contradiction; eauto.
  Qed.
  Lemma failure_ready fuel (m : st mk) w ops w0 a w1 x :
    In (w0, ObsReady a, w1) (run_svc (TR fuel) Idle (reconnect_new ts tm m) w (tk_ops ops)) ->
    newest_failure (news w0 w1) = Some x -> a = Ready (Ok tt).
  Proof. exact (@failure_ready_gen fuel ops Idle (reconnect_new ts tm m) w w0 a w1 x). Qed.
End P.
