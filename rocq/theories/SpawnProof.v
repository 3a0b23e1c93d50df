(** SpawnReady: proofs. *)
From Verif Require Import Base Track ContractSpec SpawnReady SpawnSpec.
Set Implicit Arguments.

Section P.
  Context {W Req Resp Err : Type} (svc : Service W Req Resp Err) (bg : W -> W * nat).
  Notation ev := (sev Req Resp Err).
  Notation TW := (W * tk ev)%type.
  Notation ss := (ssvc svc).
  Definition chr (x : TW) : list ev := rev (log_of x).

  Lemma use_snoc (l : list ev) e : last_use (l ++ [e]) =
    match e with SSvc (TReady _ a) => Asked a | SSvc (TCall _ _ _) => Called | SSvc (TDropSvc _) => Dropped | _ => last_use l end.
  Proof. unfold last_use. rewrite fold_left_app. reflexivity. Qed.
  Lemma asked_snoc (l : list ev) e : last_asked (l ++ [e]) =
    match e with SSvc (TReady _ a) => Some a | _ => last_asked l end.
  Proof. unfold last_asked. rewrite fold_left_app. reflexivity. Qed.
  Lemma drops_snoc (l : list ev) e : drops (l ++ [e]) = drops l + match e with SSvc (TDropSvc _) => 1 | _ => 0 end.
  Proof. unfold drops. rewrite filter_app, app_length. f_equal. destruct e as [[]| | | | | |]; reflexivity. Qed.
  Lemma log_ok_snoc (l : list ev) e : log_ok l -> event_ok l e -> log_ok (l ++ [e]).
  Proof.
    intros H He l1 e1 l2 E. destruct l2 as [|e2 l2].
    - apply app_inj_tail in E. destruct E as [<- <-]. exact He.
    - assert (X : exists l2', e2 :: l2 = l2' ++ [e] /\ l = l1 ++ e1 :: l2').
      { exists (removelast (e2 :: l2)). assert (N : e2 :: l2 <> []) by discriminate.
        assert (L := app_removelast_last e2 N). rewrite L in E at 1.
        rewrite app_comm_cons, app_assoc in E. apply app_inj_tail in E. destruct E as [-> ->].
        split; [exact L|reflexivity]. }
      destruct X as (l2' & _ & E'). exact (H _ _ _ E').
  Qed.

  (** The log of a state. *)
  Definition inv (s : sr_st ss) (l : list ev) : Prop :=
    log_ok l /\
    match s with
    | SrSvc x => fst x = 0 /\ drops l = 0 /\ last_use l <> Dropped
    | SrFut (TRun x) => fst x = 0 /\ drops l = 0 /\ last_use l = Asked Pending
    | SrFut (TDone (Ok x)) => fst x = 0 /\ drops l = 0 /\ last_use l = Asked (Ready (Ok tt))
    | SrFut (TDone (Er e)) => drops l = 1 /\ last_asked l = Some (Ready (Er e))
    | SrFut TLost => drops l = 1
    | SrFut TTaken => drops l = 1
    end.
  Definition pinv (p : phase) (s : sr_st ss) (l : list ev) : Prop :=
    match p with
    | Idle => s <> SrFut TTaken
    | Primed => (exists x, s = SrSvc x) /\ last_use l = Asked (Ready (Ok tt))
    | Dead => True
    end.

  Lemma ready_ev (s : st ss) x :
    match poll_ready ss s x with
    | (x1, Val (s1, a)) => fst s1 = fst s /\ chr x1 = chr x ++ [SSvc (TReady (fst s) a)]
    | (x1, _) => chr x1 = chr x
    end.
  Proof.
    destruct s as [i s], x as [w k]. cbn. unfold bind, tk_lift. cbn.
    destruct (poll_ready svc s w) as [w1 [[s1 a]| |]]; cbn; auto.
  Qed.
  Lemma call_ev (s : st ss) r x :
    match call ss s r x with
    | (x1, Val (s1, f)) => fst s1 = fst s /\ chr x1 = chr x ++ [SSvc (TCall (fst s) r (fst f))]
    | (x1, _) => chr x1 = chr x
    end.
  Proof.
    destruct s as [i s], x as [w k]. cbn. unfold bind, tk_lift. cbn.
    destruct (call svc s r w) as [w1 [[s1 a]| |]]; cbn; auto.
  Qed.
  Lemma drop_ev (s : st ss) x : chr (drop_svc ss s x) = chr x ++ [SSvc (TDropSvc (fst s))].
  Proof. reflexivity. Qed.
  Lemma emit_ev (e : ev) (x : TW) : chr (fst (tk_emit e x)) = chr x ++ [e].
  Proof. reflexivity. Qed.

  Lemma drop_ok (s : st ss) (l : list ev) : log_ok l -> fst s = 0 -> drops l = 0 ->
    log_ok (l ++ [SSvc (TDropSvc (fst s))]) /\ drops (l ++ [SSvc (TDropSvc (fst s))]) = 1.
  Proof.
    intros H Hi Hd. rewrite Hi. split; [|rewrite drops_snoc; lia]. apply log_ok_snoc; auto. cbn. auto.
  Qed.

  Lemma task_poll_inv t x : inv (SrFut t) (chr x) ->
    match task_poll t x with
    | (x1, Val t1) => inv (SrFut t1) (chr x1) /\ (t1 = TTaken -> t = TTaken)
    | (x1, _) => log_ok (chr x1)
    end.
  Proof.
    intros [HL HI]. destruct t as [s|r| |]; cbn [task_poll]; try (split; [split; assumption|auto]).
    destruct HI as (Hi & Hd & Hu). assert (He := ready_ev s x).
    destruct (poll_ready ss s x) as [x1 [[s1 a]| |]].
    - destruct He as [H1 H2]. rewrite Hi in *.
      assert (L1 : log_ok (chr x1)).
      { rewrite H2. apply log_ok_snoc; auto. cbn. rewrite Hu. split; [reflexivity|discriminate]. }
      assert (D1 : drops (chr x1) = 0) by (rewrite H2, drops_snoc; lia).
      destruct a as [|[u|e]].
      + split; [|discriminate]. split; [assumption|]. rewrite H2, drops_snoc, use_snoc. split; [assumption|split; [lia|reflexivity]].
      + split; [|discriminate]. split; [assumption|]. rewrite H2, drops_snoc, use_snoc. destruct u. split; [assumption|split; [lia|reflexivity]].
      + split; [|discriminate]. destruct (drop_ok s1 L1 H1 D1) as [L2 D2].
        split; [exact L2|]. split; [exact D2|]. rewrite drop_ev, asked_snoc, H2, asked_snoc. reflexivity.
    - destruct (drop_ok s (l := chr x1)) as [L2 D2]; try rewrite He; auto.
      split; [|discriminate]. split; [exact L2|exact D2].
    - now rewrite He.
  Qed.
  Lemma task_polls_inv n : forall t x, inv (SrFut t) (chr x) ->
    match task_polls n t x with
    | (x1, Val t1) => inv (SrFut t1) (chr x1) /\ (t1 = TTaken -> t = TTaken)
    | (x1, _) => log_ok (chr x1)
    end.
  Proof.
    induction n as [|n IH]; intros t x H; [split; auto|]. cbn [task_polls]. unfold bind.
    generalize (@task_poll_inv t x H). destruct (task_poll t x) as [x1 [t1| |]]; auto.
    intros [H1 H2]. generalize (IH t1 x1 H1). destruct (task_polls n t1 x1) as [x2 [t2| |]]; auto.
    intros [? ?]. auto.
  Qed.

  Lemma sr_ready_inv fuel : forall s x, inv s (chr x) -> s <> SrFut TTaken ->
    match sr_ready (sbg bg) fuel s x with
    | (x1, Val (s1, a)) => inv s1 (chr x1 ++ [SAns a]) /\ pinv (phase_after a) s1 (chr x1 ++ [SAns a])
    | (x1, _) => log_ok (chr x1)
    end.
  Proof.
    induction fuel as [|n IH]; intros s x HI Hs; [exact (proj1 HI)|]. cbn [sr_ready].
    destruct s as [s|t].
    - destruct HI as [HL (Hi & Hd & Hu)]. unfold bind at 1. assert (He := ready_ev s x).
      destruct (poll_ready ss s x) as [x1 [[s1 a]| |]]; try now rewrite He.
      destruct He as [H1 H2]. rewrite Hi in *.
      assert (L1 : log_ok (chr x1)).
      { rewrite H2. apply log_ok_snoc; auto. cbn. auto. }
      assert (D1 : drops (chr x1) = 0) by (rewrite H2, drops_snoc; lia).
      destruct a as [|r].
      + apply IH; [|discriminate]. split; [assumption|]. rewrite H2, drops_snoc, use_snoc. split; [assumption|split; [lia|reflexivity]].
      + assert (U : last_use (chr x1) = Asked (Ready r)) by (rewrite H2, use_snoc; reflexivity).
        unfold ret. split; [split|].
        * apply log_ok_snoc; auto. cbn. destruct r as [[]|e]; cbn; [assumption|]. rewrite H2, asked_snoc. reflexivity.
        * rewrite drops_snoc, use_snoc, U. split; [assumption|]. split; [lia|discriminate].
        * destruct r as [[]|e]; cbn; [|exact I]. split; [eauto|]. rewrite use_snoc. exact U.
    - unfold bind at 1. unfold sbg. destruct (bg (fst x)) as [w1 k]. unfold bind.
      generalize (@task_polls_inv k t (w1, snd x) HI).
      destruct (task_polls k t (w1, snd x)) as [x1 [t1| |]]; auto. intros [[HL HI1] HT].
      destruct t1 as [s|[s|e]| |].
      + destruct HI1 as (Hi & Hd & Hu). unfold ret. split; [split|].
        * apply log_ok_snoc; auto.
        * rewrite drops_snoc, use_snoc. split; [assumption|]. split; [lia|assumption].
        * discriminate.
      + apply IH; [|discriminate]. destruct HI1 as (Hi & Hd & Hu). split; [assumption|]. rewrite Hu. repeat split; auto. discriminate.
      + destruct HI1 as (Hd & Hu). unfold ret. split; [split|exact I].
        * apply log_ok_snoc; auto.
        * rewrite drops_snoc. lia.
      + unfold ret. split; [split|exact I].
        * apply log_ok_snoc; auto.
        * rewrite drops_snoc. lia.
      + exfalso. apply Hs. now rewrite HT.
  Qed.

  Definition clean (l : list ev) : Prop := ~ In SPanic l /\ ~ In SDiverge l.
  Lemma sr_run_ok fuel ops : forall p s x, inv s (chr x) -> pinv p s (chr x) ->
    let l := chr (sr_run bg fuel p s x ops) in
    log_ok l /\ (clean l -> drops l = 1).
  Proof.
    assert (Bad : forall (e : ev) (x : TW), (e = SPanic \/ e = SDiverge) -> log_ok (chr x) ->
      log_ok (chr (fst (tk_emit e x))) /\ (clean (chr (fst (tk_emit e x))) -> drops (chr (fst (tk_emit e x))) = 1)).
    { intros e x He HL. rewrite emit_ev. split.
      - apply log_ok_snoc; auto. destruct He; subst; exact I.
      - intros [C1 C2]. exfalso. destruct He; subst; [apply C1|apply C2]; apply in_or_app; right; now left. }
    induction ops as [|[g o] ops IH]; intros p s x HI HP.
    { cbn [sr_run]. destruct HI as [HL HI].
      assert (forall y : st ss, fst y = 0 -> drops (chr x) = 0 -> log_ok (chr (drop_svc ss y x)) /\ (clean (chr (drop_svc ss y x)) -> drops (chr (drop_svc ss y x)) = 1)).
      { intros y Hy Hd. rewrite drop_ev. destruct (drop_ok y HL Hy Hd). auto. }
      destruct s as [y|[y|[y|e]| |]]; cbn [sr_drop]; try (apply H; tauto); tauto. }
    cbn [sr_run]. set (x0 := tk_env g x).
    assert (HI0 : inv s (chr x0)) by exact HI. assert (HP0 : pinv p s (chr x0)) by exact HP. clearbody x0. clear HI HP x.
    assert (R : s <> SrFut TTaken -> 
      let l := chr match sr_ready (sbg bg) fuel s x0 with
            | (x1, Val (s1, a)) => sr_run bg fuel (phase_after a) s1 (fst (tk_emit (SAns a) x1)) ops
            | (x1, Panic) => fst (tk_emit SPanic x1)
            | (x1, Diverge) => fst (tk_emit SDiverge x1)
            end in log_ok l /\ (clean l -> drops l = 1)).
    { intros Hs. generalize (@sr_ready_inv fuel s x0 HI0 Hs).
      destruct (sr_ready (sbg bg) fuel s x0) as [x1 [[s1 a]| |]]; [|intros; apply Bad; auto|intros; apply Bad; auto].
      intros [H1 H2]. apply IH; rewrite emit_ev; assumption. }
    assert (B : let l := chr match on_task (@task_poll _ _ _ _ ss) s x0 with
            | (x1, Val s1) => sr_run bg fuel p s1 x1 ops
            | (x1, Panic) => fst (tk_emit SPanic x1)
            | (x1, Diverge) => fst (tk_emit SDiverge x1)
            end in log_ok l /\ (clean l -> drops l = 1)).
    { destruct s as [y|t]; cbn [on_task]; [apply IH; assumption|]. unfold bind.
      generalize (@task_poll_inv t x0 HI0). destruct (task_poll t x0) as [x1 [t1| |]]; [|intros; apply Bad; auto|intros; apply Bad; auto].
      intros [H1 H2]. unfold ret. apply IH; [assumption|]. destruct p; cbn in *; auto.
      - intros E. injection E as E. apply HP0. now rewrite H2.
      - destruct HP0 as [(y & E) _]. discriminate. }
    assert (C : let l := chr match on_task (@task_cancel _ _ _ _ ss) s (fst (tk_emit SCancel x0)) with
            | (x1, Val s1) => sr_run bg fuel p s1 x1 ops
            | (x1, Panic) => fst (tk_emit SPanic x1)
            | (x1, Diverge) => fst (tk_emit SDiverge x1)
            end in log_ok l /\ (clean l -> drops l = 1)).
    { set (x1 := fst (tk_emit SCancel x0)).
      assert (HI1 : inv s (chr x1)).
      { unfold x1. rewrite emit_ev. destruct HI0 as [HL HI]. split; [apply log_ok_snoc; [assumption|exact I]|].
        destruct s as [y|[y|[y|e]| |]]; rewrite ?drops_snoc, ?use_snoc, ?asked_snoc, ?Nat.add_0_r; assumption. }
      assert (HP1 : pinv p s (chr x1)).
      { unfold x1. rewrite emit_ev. destruct p; cbn in *; auto. now rewrite use_snoc. }
      clearbody x1. destruct s as [y|t]; cbn [on_task]; [apply IH; assumption|].
      destruct t as [y|r| |]; cbn [task_cancel]; unfold bind, modify, ret; try (apply IH; assumption).
      apply IH.
      - destruct HI1 as [HL (Hi & Hd & Hu)]. destruct (drop_ok y HL Hi Hd) as [L2 D2]. split; [exact L2|exact D2].
      - destruct p; cbn in *; auto; [discriminate|]. destruct HP1 as [(z & E) _]. discriminate. }
    destruct o as [|r| |], p; try exact B; try exact C; try (apply IH; assumption).
    - apply R. exact HP0.
    - apply R. destruct HP0 as [(y & ->) _]. discriminate.
    - destruct HP0 as [(y & ->) Hu]. destruct HI0 as [HL (Hi & Hd & Hn)]. cbn [sr_call]. unfold bind.
      set (x9 := fst (tk_emit (SIn r) x0)). assert (E9 : chr x9 = chr x0 ++ [SIn r]) by apply emit_ev.
      assert (HL9 : log_ok (chr x9)) by (rewrite E9; apply log_ok_snoc; [assumption|exact I]). clearbody x9.
      assert (He := call_ev y r x9). destruct (call ss y r x9) as [x1 [[s1 f]| |]];
        [|apply Bad; auto; now rewrite He|apply Bad; auto; now rewrite He].
      destruct He as [H1 H2]. unfold ret. rewrite Hi in *. apply IH.
      + rewrite emit_ev, H2. split.
        * apply log_ok_snoc; [apply log_ok_snoc; [assumption|]|].
          { cbn. split; [reflexivity|]. rewrite E9, use_snoc. split; [assumption|]. eexists. reflexivity. }
          { exists (chr x0). rewrite E9, <- app_assoc. reflexivity. }
        * rewrite !drops_snoc, !use_snoc, E9, drops_snoc.
          split; [assumption|]. split; [lia|discriminate].
      + discriminate.
  Qed.

  Lemma spawn_log_ok fuel s w ops :
    let l := sr_log svc bg fuel s w ops in
    log_ok l /\ (~ In SPanic l -> ~ In SDiverge l -> drops l = 1).
  Proof.
    cbn zeta. unfold sr_log.
    destruct (@sr_run_ok fuel ops Idle (spawn_ready_new ss (0, s)) (w, Tk 1 [])) as [H1 H2].
    - split; [intros l1 e l2 E; destruct l1; discriminate|]. cbn. repeat split; auto. discriminate.
    - discriminate.
    - split; [exact H1|]. intros. apply H2. split; assumption.
  Qed.
End P.
