(** SpawnReady: no panics, no hanging polls. *)
From Verif Require Import Base Track ContractSpec SpawnReady SpawnSpec SpawnProof.
Set Implicit Arguments.

Section L.
  Context {W Req Resp Err : Type} (svc0 : Service W Req Resp Err) (bg : W -> W * nat).
  Let svc := guard svc0.
  Notation ev := (sev Req Resp Err).
  Notation TW := (W * tk ev)%type.
  Notation ss := (ssvc svc).
  Hypothesis NP : never_panics svc0.
  Hypothesis ND : never_diverges svc0.
  Context (rd : st svc0 -> Prop).
  Hypothesis K1 : forall s w w1 s1, poll_ready svc0 s w = (w1, Val (s1, Ready (Ok tt))) -> rd s1.
  Definition K2 : Prop := forall s w w1 s1, rd s -> poll_ready svc0 s w <> (w1, Val (s1, Pending)).

  Definition ph (s : st ss) : phase := fst (snd s).
  Definition GI (s : sr_st ss) : Prop :=
    match s with
    | SrSvc x => ph x <> Dead
    | SrFut (TRun x) => ph x <> Dead
    | SrFut (TDone (Ok x)) => ph x = Primed /\ rd (snd (snd x))
    | _ => True
    end.
  Definition GP (p : phase) (s : sr_st ss) : Prop :=
    match p with
    | Idle => GI s /\ s <> SrFut TTaken
    | Primed => exists x, s = SrSvc x /\ ph x = Primed
    | Dead => (exists x, s = SrSvc x) \/ s = SrFut TTaken
    end.
  Lemma ready_live (s : st ss) x : ph s <> Dead ->
    match poll_ready ss s x with
    | (x1, Val (s1, a)) => ph s1 = phase_after a /\ (a = Ready (Ok tt) -> rd (snd (snd s1))) /\
        chr x1 = chr x ++ [SSvc (TReady (fst s) a)] /\ (K2 -> rd (snd (snd s)) -> a <> Pending)
    | _ => False
    end.
  Proof.
    destruct s as [i [p s]], x as [w k]. unfold ph. cbn. intros Hp. destruct p; [| |congruence];
    unfold bind, tk_lift, bind; cbn;
    assert (H1 := np_ready NP s w); assert (H2 := nd_ready ND s w); assert (H3 := K1 s w);
    destruct (poll_ready svc0 s w) as [w1 [[s1 a]| |]] eqn:E; cbn in *; try tauto;
    (split; [reflexivity|]; split; [intros ->; eapply H3; reflexivity|]; split; [reflexivity|];
     intros K R ->; exact (K _ _ _ _ R E)).
  Qed.

  Definition evs (x x1 : TW) : Prop := exists E, chr x1 = chr x ++ E /\ Forall (fun e => match e with SSvc _ => True | _ => False end) E.
  Lemma evs_refl x : evs x x. Proof. exists []. rewrite app_nil_r. auto. Qed.
  Lemma evs_trans x y z : evs x y -> evs y z -> evs x z.
  Proof. intros (a & A & A') (b & B & B'). exists (a ++ b). rewrite B, A, app_assoc. split; auto. apply Forall_app; auto. Qed.
  Lemma evs_one x x1 e : chr x1 = chr x ++ [SSvc e] -> evs x x1.
  Proof. intros H. exists [SSvc e]. split; auto. Qed.

  Lemma task_live t x : GI (SrFut t) ->
    match task_poll t x with
    | (x1, Val t1) => GI (SrFut t1) /\ evs x x1 /\ (t1 = TLost -> t = TLost) /\ (t1 = TTaken -> t = TTaken)
    | _ => False
    end.
  Proof.
    intros HG. destruct t as [s|r| |]; cbn [task_poll]; try (split; [exact HG|]; split; [apply evs_refl|auto]).
    assert (Hr := ready_live s x HG). destruct (poll_ready ss s x) as [x1 [[s1 a]| |]]; try contradiction.
    destruct Hr as (H1 & H2 & H3 & _). destruct a as [|[[]|e]].
    - split; [cbn; rewrite H1; discriminate|]. split; [eapply evs_one; eauto|]. split; discriminate.
    - split; [split; auto|]. split; [eapply evs_one; eauto|]. split; discriminate.
    - split; [exact I|]. split; [|split; discriminate].
      eapply evs_trans; [eapply evs_one; eauto|]. eapply evs_one. apply drop_ev.
  Qed.
  Lemma tasks_live n : forall t x, GI (SrFut t) ->
    match task_polls n t x with
    | (x1, Val t1) => GI (SrFut t1) /\ evs x x1 /\ (t1 = TLost -> t = TLost) /\ (t1 = TTaken -> t = TTaken)
    | _ => False
    end.
  Proof.
    induction n as [|n IH]; intros t x H; cbn [task_polls]; [split; [exact H|]; split; [apply evs_refl|auto]|].
    unfold bind. generalize (@task_live t x H). destruct (task_poll t x) as [x1 [t1| |]]; auto.
    intros (H1 & H2 & H3 & H4). generalize (IH t1 x1 H1). destruct (task_polls n t1 x1) as [x2 [t2| |]]; auto.
    intros (G1 & G2 & G3 & G4). split; [assumption|]. split; [eapply evs_trans; eauto|]. auto.
  Qed.

  (** Turns of the loop still needed. *)
  Definition turns (s : sr_st ss) (n : nat) : Prop :=
    match s with SrSvc x => 3 <= n \/ (1 <= n /\ rd (snd (snd x))) | SrFut _ => 2 <= n end.
  Lemma sr_live fuel : forall s x, GI s -> s <> SrFut TTaken ->
    match sr_ready (sbg bg) fuel s x with
    | (x1, Val (s1, a)) => GP (phase_after a) s1 /\ evs x x1 /\ (a = Ready (Er SrJoin) -> s = SrFut TLost)
                           /\ (s1 = SrFut TLost -> False)
    | (x1, Panic) => False
    | (x1, Diverge) => evs x x1 /\ (K2 -> turns s fuel -> False)
    end.
  Proof.
    induction fuel as [|n IH]; intros s x HG Hs; cbn [sr_ready].
    { split; [apply evs_refl|]. intros _ H. destruct s; cbn in H; lia. }
    destruct s as [s|t].
    - unfold bind at 1. assert (Hr := ready_live s x HG).
      destruct (poll_ready ss s x) as [x1 [[s1 a]| |]]; try contradiction.
      destruct Hr as (H1 & H2 & H3 & H4). apply evs_one in H3. destruct a as [|r].
      + assert (G1 : GI (SrFut (TRun s1))) by (cbn; rewrite H1; discriminate).
        generalize (IH (SrFut (TRun s1)) x1 G1 ltac:(discriminate)).
        destruct (sr_ready (sbg bg) n (SrFut (TRun s1)) x1) as [x2 [[s2 a2]| |]]; auto.
        * intros (G2 & G3 & G4 & G5). split; [assumption|]. split; [eapply evs_trans; eauto|]. split; [|assumption].
          intros E. apply G4 in E. discriminate.
        * intros (G2 & G3). split; [eapply evs_trans; eauto|]. intros HK HT. apply G3; auto. cbn in *.
          destruct HT as [HT|[_ HT]]; [lia|]. exfalso. exact (H4 HK HT eq_refl).
      + unfold ret. split; [|split; [assumption|]; split; [|discriminate]].
        * destruct r as [[]|e]; cbn; eauto.
        * destruct r; discriminate.
    - unfold bind at 1. unfold sbg at 1. destruct (bg (fst x)) as [w1 k]. unfold bind.
      assert (E0 : evs x (w1, snd x)) by (exists []; rewrite app_nil_r; split; [reflexivity|constructor]).
      generalize (@tasks_live k t (w1, snd x) HG).
      destruct (task_polls k t (w1, snd x)) as [x1 [t1| |]]; try tauto. intros (G1 & G2 & G3 & G4).
      assert (E1 := evs_trans E0 G2). destruct t1 as [s|[s|e]| |].
      + unfold ret. split; [split; [exact G1|discriminate]|]. split; [assumption|]. split; discriminate.
      + destruct G1 as [G1 G1']. assert (HG1 : GI (SrSvc s)) by (cbn; rewrite G1; discriminate).
        generalize (IH (SrSvc s) x1 HG1 ltac:(discriminate)).
        destruct (sr_ready (sbg bg) n (SrSvc s) x1) as [x2 [[s2 a2]| |]]; auto.
        * intros (F2 & F3 & F4 & F5). split; [assumption|]. split; [eapply evs_trans; eauto|]. split; [|assumption].
          intros E. apply F4 in E. discriminate.
        * intros (F2 & F3). split; [eapply evs_trans; eauto|]. intros HK HT. apply F3; auto. cbn in *. right. split; [lia|assumption].
      + unfold ret. split; [right; reflexivity|]. split; [assumption|]. split; discriminate.
      + unfold ret. split; [right; reflexivity|]. split; [assumption|]. split; [|discriminate]. intros _. now rewrite G3.
      + exfalso. apply Hs. now rewrite G4.
  Qed.

  Definition fine (fuel : nat) (l : list ev) : Prop :=
    ~ In SPanic l /\ (In (SAns (Ready (Er SrJoin))) l -> In SCancel l) /\ (K2 -> 3 <= fuel -> ~ In SDiverge l).
  Lemma fine_evs fuel x x1 : evs x x1 -> fine fuel (chr x) -> fine fuel (chr x1).
  Proof.
    intros (E & H & HF) (F1 & F2 & F3). rewrite Forall_forall in HF. rewrite H. unfold fine. rewrite !in_app_iff.
    repeat split.
    - intros [?|Hi]; [tauto|]. exact (HF _ Hi).
    - intros [?|Hi]; [tauto|]. destruct (HF _ Hi).
    - intros HK Hf [?|Hi]; [now apply F3|]. exact (HF _ Hi).
  Qed.
  Lemma fine_snoc fuel l e : fine fuel l ->
    match e with
    | SPanic => False
    | SAns (Ready (Er SrJoin)) => In SCancel l
    | SDiverge => K2 -> 3 <= fuel -> False
    | _ => True
    end -> fine fuel (l ++ [e]).
  Proof.
    intros (F1 & F2 & F3) He. unfold fine. rewrite !in_app_iff. cbn [In]. repeat split.
    - intros [?|[->|[]]]; tauto.
    - intros [?|[->|[]]]; [tauto|left; exact He].
    - intros HK Hf [?|[->|[]]]; [now apply F3|auto].
  Qed.

  Definition lost_ok (s : sr_st ss) (l : list ev) : Prop := s = SrFut TLost -> In SCancel l.
  Lemma sr_run_live fuel ops : forall p s x, GP p s -> lost_ok s (chr x) -> fine fuel (chr x) ->
    fine fuel (chr (sr_run bg fuel p s x ops)).
  Proof.
    induction ops as [|[g o] ops IH]; intros p s x HP HL HF.
    { cbn [sr_run]. destruct s as [y|[y|[y|e]| |]]; cbn [sr_drop]; auto; eapply fine_evs; eauto; eapply evs_one; apply drop_ev. }
    cbn [sr_run]. set (x0 := tk_env g x).
    assert (HF0 : fine fuel (chr x0)) by exact HF. assert (HL0 : lost_ok s (chr x0)) by exact HL.
    clearbody x0. clear HF HL x.
    assert (HG : p <> Dead -> GI s /\ s <> SrFut TTaken).
    { destruct p; [intros _; exact HP| |congruence]. destruct HP as (y & -> & Hy). cbn. rewrite Hy. split; discriminate. }
    assert (R : p <> Dead -> fine fuel (chr match sr_ready (sbg bg) fuel s x0 with
            | (x1, Val (s1, a)) => sr_run bg fuel (phase_after a) s1 (fst (tk_emit (SAns a) x1)) ops
            | (x1, Panic) => fst (tk_emit SPanic x1)
            | (x1, Diverge) => fst (tk_emit SDiverge x1)
            end)).
    { intros Hp. destruct (HG Hp) as [HG1 Hs].
      generalize (@sr_live fuel s x0 HG1 Hs).
      destruct (sr_ready (sbg bg) fuel s x0) as [x1 [[s1 a]| |]]; try tauto.
      - intros (H1 & H2 & H3 & H4). apply IH.
        + exact H1.
        + intros E. now apply H4 in E.
        + rewrite emit_ev. apply fine_snoc; [eapply fine_evs; eauto|].
          destruct a as [|[|[e|]]]; auto. destruct H2 as (E & HE & _). rewrite HE. apply in_or_app. left. apply HL0. now apply H3.
      - intros (H1 & H2). rewrite emit_ev. apply fine_snoc; [eapply fine_evs; eauto|]. intros HK Hf. apply H2; auto.
        destruct s; cbn; lia. }
    assert (B : fine fuel (chr match on_task (@task_poll _ _ _ _ ss) s x0 with
            | (x1, Val s1) => sr_run bg fuel p s1 x1 ops
            | (x1, Panic) => fst (tk_emit SPanic x1)
            | (x1, Diverge) => fst (tk_emit SDiverge x1)
            end)).
    { destruct s as [y|t]; cbn [on_task]; [apply IH; assumption|]. unfold bind.
      destruct p.
      - destruct HP as [HP1 HP2]. generalize (@task_live t x0 HP1). destruct (task_poll t x0) as [x1 [t1| |]]; try tauto.
        intros (H1 & H2 & H3 & H4). unfold ret. apply IH.
        + split; [assumption|]. intros E. injection E as E. apply HP2. now rewrite H4.
        + intros E. injection E as E. destruct H2 as (E2 & HE & _). rewrite HE. apply in_or_app. left. apply HL0. now rewrite H3.
        + eapply fine_evs; eauto.
      - destruct HP as (y & E & _). discriminate.
      - destruct HP as [(y & E)|E]; [discriminate|]. injection E as ->. cbn. apply IH; auto. right. reflexivity. }
    assert (C : fine fuel (chr match on_task (@task_cancel _ _ _ _ ss) s (fst (tk_emit SCancel x0)) with
            | (x1, Val s1) => sr_run bg fuel p s1 x1 ops
            | (x1, Panic) => fst (tk_emit SPanic x1)
            | (x1, Diverge) => fst (tk_emit SDiverge x1)
            end)).
    { set (x1 := fst (tk_emit SCancel x0)).
      assert (HC : In SCancel (chr x1)) by (unfold x1; rewrite emit_ev; apply in_or_app; right; now left).
      assert (HF1 : fine fuel (chr x1)) by (unfold x1; rewrite emit_ev; apply fine_snoc; auto; exact I).
      clearbody x1. assert (HL1 : forall s', lost_ok s' (chr x1)) by (intros s' _; exact HC).
      destruct s as [y|t]; cbn [on_task]; [apply IH; auto|].
      destruct t as [y|r| |]; cbn [task_cancel]; unfold bind, modify, ret; try (apply IH; auto).
      - destruct p; [split; [exact I|discriminate]| |].
        + destruct HP as (z & E & _). discriminate.
        + destruct HP as [(z & E)|E]; discriminate.
      - intros _. rewrite drop_ev. apply in_or_app. left. exact HC.
      - eapply fine_evs; [eapply evs_one; apply drop_ev|assumption]. }
    destruct o as [|r| |], p; try exact B; try exact C; try (apply IH; assumption).
    - apply R. discriminate.
    - apply R. discriminate.
    - destruct HP as (y & -> & Hy). cbn [sr_call]. unfold bind.
      set (x9 := fst (tk_emit (SIn r) x0)).
      assert (F9 : fine fuel (chr x9)) by (unfold x9; rewrite emit_ev; apply fine_snoc; [assumption|exact I]). clearbody x9.
      assert (He := call_ev y r x9).
      assert (Hv : exists s1 f, snd (call ss y r x9) = Val (s1, f) /\ ph s1 = Idle).
      { destruct y as [i [p s]], x9 as [w k]. unfold ph in *. cbn in Hy |- *. subst p. cbn. unfold bind, tk_lift, bind. cbn.
        assert (H1 := np_call NP s r w); assert (H2 := nd_call ND s r w).
        destruct (call svc0 s r w) as [w1 [[s1 f]| |]]; cbn in *; try tauto. do 2 eexists. split; [reflexivity|reflexivity]. }
      destruct (call ss y r x9) as [x1 o]. destruct Hv as (s1 & f & Hv & Hi). cbn in Hv. subst o. destruct He as [H1 H2].
      unfold ret. apply IH.
      + split; [cbn; rewrite Hi; discriminate|discriminate].
      + discriminate.
      + rewrite emit_ev. apply fine_snoc; [|exact I]. eapply fine_evs; [eapply evs_one; exact H2|assumption].
  Qed.

  Lemma sr_log_fine fuel s w ops : fst s <> Dead -> fine fuel (sr_log svc bg fuel s w ops).
  Proof.
    intros Hs. unfold sr_log. apply sr_run_live.
    - split; [exact Hs|discriminate].
    - discriminate.
    - repeat split; cbn; tauto.
  Qed.
End L.

Lemma spawn_no_panic {W Req Resp Err} (svc : Service W Req Resp Err) (bg : W -> W * nat) fuel (s : st (guard svc)) w ops :
  never_panics svc -> never_diverges svc -> fst s <> Dead ->
  let l := sr_log (guard svc) bg fuel s w ops in
  ~ In SPanic l /\ (In (SAns (Ready (Er SrJoin))) l -> In SCancel l).
Proof.
  intros H1 H2 Hs. destruct (@sr_log_fine _ _ _ _ svc bg H1 H2 (fun _ => True) (fun _ _ _ _ _ => I) fuel s w ops Hs) as (A & B & _).
  auto.
Qed.
Lemma spawn_returns {W Req Resp Err} (svc : Service W Req Resp Err) (bg : W -> W * nat) fuel (s : st (guard svc)) w ops :
  never_panics svc -> never_diverges svc -> keeps_ready svc -> fst s <> Dead -> 3 <= fuel ->
  ~ In SDiverge (sr_log (guard svc) bg fuel s w ops).
Proof.
  intros H1 H2 (rd & K1 & K2) Hs Hf.
  destruct (@sr_log_fine _ _ _ _ svc bg H1 H2 rd K1 fuel s w ops Hs) as (_ & _ & C). auto.
Qed.
