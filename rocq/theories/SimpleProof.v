(** Proofs for C05-C08. *)
From Verif Require Import Base DriveSpec Util Middleware Track RunInv SimpleSpec TranspProof.
Set Implicit Arguments.

Section TimeoutProof.
  Context {W Req Resp Err : Type} (rt : Rt W) (dur : Z) (svc : Service W Req Resp Err).

  Lemma timeout_history s :
    same_history (a := svc) (b := timeout rt dur svc) (fun r => r) inl
      (fun _ w1 f => TimeoutFut svc f (now rt w1 + dur)) s s.
  Proof. apply (@run_wrap _ _ _ _ _ _ _ svc (timeout rt dur svc) (fun s => s)); wrap_tac. Qed.

  Lemma timeout_poll_eq f dl w :
    poll_fut (timeout rt dur svc) (TimeoutFut svc f dl) w =
    match poll_fut svc f w with
    | (w1, Val (f1, Ready v)) => (w1, Val (TimeoutFut svc f1 dl, Ready (map_er inl v)))
    | (w1, Val (f1, Pending)) =>
        if fired rt w1 dl then (nap rt dl w1, Val (TimeoutFut svc f1 dl, Ready (Er (inr tt))))
        else (nap rt dl w1, Val (TimeoutFut svc f1 dl, Pending))
    | (w1, Panic) => (w1, Panic)
    | (w1, Diverge) => (w1, Diverge)
    end.
  Proof.
    cbn. unfold sleep_poll, modify, bind, get, ret.
    destruct (poll_fut svc f w) as [w1 [[f1 [|v]]| |]]; try reflexivity.
    destruct (fired rt w1 dl); reflexivity.
  Qed.

  Lemma poll_and_nap_eq f dl w :
    poll_and_nap svc rt dl f w =
    match poll_fut svc f w with
    | (w1, Val (f1, Ready v)) => (w1, Val (f1, Ready v))
    | (w1, Val (f1, Pending)) => (nap rt dl w1, Val (f1, Pending))
    | (w1, Panic) => (w1, Panic)
    | (w1, Diverge) => (w1, Diverge)
    end.
  Proof.
    unfold poll_and_nap, modify, bind, ret.
    destruct (poll_fut svc f w) as [w1 [[f1 [|v]]| |]]; reflexivity.
  Qed.

  Lemma timeout_drive f dl w gs :
    timeout_history_ok (svc := svc) rt f dl w gs
      (drive (poll_fut (timeout rt dur svc)) (TimeoutFut svc f dl) w gs).
  Proof.
    revert f w. induction gs as [|g gs IH]; intros f w.
    { cbn. split; [constructor | reflexivity]. }
    unfold timeout_history_ok in *. cbn [drive]. rewrite timeout_poll_eq.
    pose proof (poll_and_nap_eq f dl (g w)) as E.
    destruct (poll_fut svc f (g w)) as [w1 [[f1 [|v]]| |]].
    - destruct (fired rt w1 dl) eqn:Ef.
      + cbn. rewrite E, fired_nap. auto.
      + specialize (IH f1 (nap rt dl w1)).
        destruct (drive (poll_fut (timeout rt dur svc)) (TimeoutFut svc f1 dl) (nap rt dl w1) gs) as [l e].
        destruct IH as [H1 H2]. split.
        { cbn. constructor; auto. rewrite fired_nap. congruence. }
        cbn [fst snd] in *. destruct e as [x w2|x w2 v|w2|w2]; cbn [length firstn drive]; try rewrite E.
        * rewrite H2. reflexivity.
        * destruct v as [a|[e|[]]]; cbn [drive firstn] in *; try rewrite E; cbn [firstn] in *.
          -- rewrite H2. reflexivity.
          -- rewrite H2. reflexivity.
          -- destruct H2 as [H2 H3]. rewrite H2. auto.
        * rewrite H2. reflexivity.
        * rewrite H2. reflexivity.
    - cbn. split; [constructor|]. destruct v as [a|e]; cbn; rewrite ?E; reflexivity.
    - cbn. rewrite E. split; [constructor | reflexivity].
    - cbn. rewrite E. split; [constructor | reflexivity].
  Qed.

  (** Together: Elapsed only once [dur] has passed since [call] returned. *)
  Lemma timeout_not_early s r w w1 s1 x gs l x' w2 :
    call (timeout rt dur svc) s r w = (w1, Val (s1, x)) ->
    drive (poll_fut (timeout rt dur svc)) x w1 gs = (l, Finished x' w2 (Er (inr tt))) ->
    (now rt w1 + dur <= now rt w2)%Z.
  Proof.
    intros Hc Hd. cbn in Hc. unfold bind, get, ret in Hc.
    destruct (call svc s r w) as [w3 [[s3 f]| |]]; try discriminate. injection Hc as -> <- <-.
    pose proof (timeout_drive f (now rt w1 + dur) w1 gs) as H.
    rewrite Hd in H. destruct H as [_ [_ H]]. apply (fired_sound rt), H.
  Qed.
End TimeoutProof.

Section LoadShedProof.
  Context {W Req Resp Err : Type} (svc : Service W Req Resp Err).
  Let tsvc := tracked (fun e : tev Req Resp Err => e) svc.

  Lemma load_shed_entries s w ops :
    Forall (shed_entry (svc := svc)) (run_svc (load_shed tsvc) Idle (load_shed_new tsvc (0, s)) w (tk_ops ops)).
  Proof.
    apply (@run_svc_inv _ _ _ _ (load_shed tsvc)
      (fun p s w => fst (ls_inner s) = 0 /\
         (p = Primed -> exists l, log_of w = TReady 0 (if ls_ready s then Ready (Ok tt) else Pending) :: l))
      (shed_entry (svc := svc)) (fun g => exists g0, g = tk_env g0)).
    - intros p s' w' g H [g0 ->]. exact H.
    - intros p s' w' _ _. reflexivity.
    - intros p [[i x] b] w' [Hi _] _. cbn in Hi. subst i. cbn. unfold bind, tk_lift, tk_emit, ret. cbn.
      destruct (poll_ready svc x (fst w')) as [w1 [[s1 [|[[]|e]]]| |]]; cbn; auto;
        (split; [auto | split; [reflexivity | intros H; try discriminate H; eexists; reflexivity]]).
    - intros [[i x] b] r w' [Hi Hl]. cbn in Hi. subst i. specialize (Hl eq_refl). cbn in Hl.
      cbn. destruct b; cbn.
      + unfold bind, tk_lift, tk_emit, tk_fresh, ret. cbn.
        destruct (call svc x r (fst w')) as [w1 [[s1 f]| |]]; cbn; auto.
        split; [auto | split; [reflexivity | discriminate]].
      + split; [auto | split; [reflexivity | discriminate]].
    - apply Forall_forall. intros o Ho. unfold tk_ops in Ho. apply in_map_iff in Ho.
      destruct Ho as (o0 & <- & _). cbn. eauto.
    - split; [reflexivity | discriminate].
  Qed.

  Lemma load_shed_drive (svc' : Service W Req Resp Err) f w gs :
    drive (poll_fut (load_shed svc')) (Some f) w gs =
    fin_then Some (fun f1 r => ret (Some f1, map_er inl r)) (drive (poll_fut svc') f w gs).
  Proof.
    apply drive_map with (wrap := Some). cbn; unfold bind, ret. intros x w0.
    destruct (poll_fut svc' x w0) as [w1 [[f1 [|v]]| |]]; reflexivity.
  Qed.
  Lemma load_shed_overloaded (svc' : Service W Req Resp Err) w g gs :
    drive (poll_fut (load_shed svc')) None w (g :: gs) = ([], Finished None (g w) (Er (inr tt))).
  Proof. reflexivity. Qed.
End LoadShedProof.

Section FilterProof.
  Context {W Req Req' Resp Err PErr P : Type} (svc : Service W Req Resp Err).
  Context (check : P -> Req' -> M W (P * result Req PErr)) (pclone : P -> M W P).
  Notation tf := (tfilter svc check pclone).

  Lemma pred_runs_threaded_cons p0 (l : list (fev (Req:=Req) (Resp:=Resp) (Err:=Err))) p q r v :
    threaded p0 (pred_runs l) ->
    match pred_runs l with [] => p = p0 | (_, _, p1, _) :: _ => p = p1 end ->
    threaded (P:=P) (Req':=Req') (Req:=Req) (PErr:=PErr) p0 (pred_runs (inr (p, r, q, v) :: l)).
  Proof. intros H1 H2. cbn. split; auto. Qed.

  Definition last_state (p0 : P) (l : list (fev (Req:=Req) (Req':=Req') (PErr:=PErr) (P:=P) (Resp:=Resp) (Err:=Err))) : P :=
    match pred_runs l with [] => p0 | (_, _, p1, _) :: _ => p1 end.

  Lemma filter_entries s p0 w ops :
    log_of w = [] ->
    Forall (fun x => filter_entry x /\ threaded p0 (pred_runs (log_of (snd x))))
      (run_svc tf Idle ((0, s), p0) w (tk_ops ops)).
  Proof.
    intros Hw.
    apply (@run_svc_inv _ _ _ _ tf
      (fun _ s w => fst (fst s) = 0 /\ snd s = last_state p0 (log_of w) /\
                    threaded p0 (pred_runs (log_of w)))
      (fun x => filter_entry x /\ threaded p0 (pred_runs (log_of (snd x))))
      (fun g => exists g0, g = tk_env g0)).
    - intros p s' w' g H [g0 ->]. exact H.
    - intros p s' w' (_ & _ & H) _. split; [reflexivity | exact H].
    - intros p [[i x] q] w' (Hi & Hq & Ht) _. cbn in Hi, Hq. subst i. cbn.
      unfold bind, tk_lift, tk_emit, ret. cbn.
      destruct (poll_ready svc x (fst w')) as [w1 [[s1 a]| |]]; cbn.
      + split; [split; [eexists; split; reflexivity | exact Ht]|]. split; [reflexivity|]. split; auto.
      + split; [exact I | exact Ht].
      + split; [exact I | exact Ht].
    - intros [[i x] q] r w' (Hi & Hq & Ht). cbn in Hi, Hq. subst i. cbn.
      unfold bind, check_logged, tk_lift, tk_emit, ret. cbn.
      assert (Hthr : forall q1 v, threaded p0 (pred_runs (inr (q, r, q1, v) :: log_of w'))).
      { intros q1 v. apply pred_runs_threaded_cons; auto. rewrite Hq. unfold last_state.
        destruct (pred_runs (log_of w')) as [|[[[? ?] ?] ?] ?]; auto. }
      unfold bind, tk_lift. cbn.
      destruct (check q r (fst w')) as [w1 [[q1 [r1|e]]| |]]; cbn; auto.
      + unfold bind, tk_lift. cbn.
        destruct (call svc x r1 w1) as [w2 [[s1 f]| |]]; cbn.
        * split; [split; [repeat eexists | exact (Hthr q1 (Ok r1))]|].
          split; [reflexivity|]. split; [reflexivity | exact (Hthr q1 (Ok r1))].
        * split; [auto | exact (Hthr q1 (Ok r1))].
        * split; [auto | exact (Hthr q1 (Ok r1))].
      + split; [split; [repeat eexists | exact (Hthr q1 (Er e))]|].
        split; [reflexivity|]. split; [reflexivity | exact (Hthr q1 (Er e))].
    - apply Forall_forall. intros o Ho. unfold tk_ops in Ho. apply in_map_iff in Ho.
      destruct Ho as (o0 & <- & _). cbn. eauto.
    - unfold last_state. rewrite Hw. cbn. auto.
  Qed.

  Lemma filter_accepted_drive f w gs :
    drive (poll_fut (filter svc check pclone)) (inr (Some f)) w gs =
    fin_then (fun f => inr (Some f)) (fun f1 r => modify (drop_fut svc f1) ;;; ret (inr None, map_er inl r))
      (drive (poll_fut svc) f w gs).
  Proof.
    apply drive_map with (wrap := fun f => inr (Some f)). cbn; unfold bind, modify, ret. intros x w0.
    destruct (poll_fut svc x w0) as [w1 [[f1 [|v]]| |]]; reflexivity.
  Qed.
  Lemma filter_rejected_drive e w g gs :
    drive (poll_fut (filter svc check pclone)) (inl (Some e)) w (g :: gs) =
    ([], Finished (inl None) (g w) (Er (inr e))).
  Proof. reflexivity. Qed.
End FilterProof.

Section AsyncFilterProof.
  Context {W Req Req' Resp Err PErr P : Type} (svc : Service W Req Resp Err).
  Context (T : Task W (result Req PErr)) (check : P -> Req' -> M W (P * tst T)) (pclone : P -> M W P).
  Notation af := (async_filter svc T check pclone).

  Lemma async_filter_ready s p w gs :
    drive (poll_ready af) (s, p) w gs =
    fin_then (fun s1 => (s1, p)) (fun s1 v => ret ((s1, p), map_er inl v)) (drive (poll_ready svc) s w gs).
  Proof.
    apply drive_map with (wrap := fun s1 => (s1, p)). cbn; unfold bind, ret. intros x w0.
    destruct (poll_ready svc x w0) as [w1 [[f1 [|v]]| |]]; reflexivity.
  Qed.

  Lemma async_filter_call s p r w w1 sp x :
    call af (s, p) r w = (w1, Val (sp, x)) ->
    exists w0 c, clone svc s w = (w0, Val (fst sp)) /\ check p r w0 = (w1, Val (snd sp, c)) /\
      x = AfFut (svc := svc) (AfCheck c) s.
  Proof.
    cbn. unfold bind, ret. destruct (clone svc s w) as [w0 [s0| |]]; try discriminate. cbn.
    destruct (check p r w0) as [w2 [[p2 c]| |]] eqn:Ec; try discriminate. intros E. injection E as <- <- <-.
    cbn. exists w0, c. auto.
  Qed.

  Lemma async_filter_drive c s w gs :
    drive (poll_fut af) (AfFut (svc := svc) (AfCheck c) s) w gs =
    fin_chain (fun c => AfFut (svc := svc) (AfCheck c) s) (fun xs => AfFut (svc := svc) (AfWait (fst xs)) (snd xs))
      (fun c1 v =>
         match v with
         | Ok r => '(s1, x) <- call svc s r ;; modify (tdrop T c1) ;;; ret (inl (x, s1))
         | Er e => ret (inr (AfFut (svc := svc) (AfCheck c1) s, Er (inr e)))
         end)
      (fun xs => '(x1, p) <- poll_fut svc (fst xs) ;; ret ((x1, snd xs), p))
      (fun xs v => ret (AfFut (svc := svc) (AfWait (fst xs)) (snd xs), map_er inl v))
      (drive (tpoll T) c w gs) gs.
  Proof.
    apply drive_chain with (wrap1 := fun c => AfFut (svc := svc) (AfCheck c) s)
      (wrap2 := fun xs => AfFut (svc := svc) (AfWait (fst xs)) (snd xs)); cbn; unfold bind, modify, ret.
    - intros [x s1] w0. cbn. destruct (poll_fut svc x w0) as [w1 [[x1 [|v]]| |]]; reflexivity.
    - intros c0 w0. destruct (tpoll T c0 w0) as [w1 [[c1 [|[r|e]]]| |]]; try reflexivity.
      destruct (call svc s r w1) as [w2 [[s1 x]| |]]; reflexivity.
  Qed.
End AsyncFilterProof.
