(** Buffer: a flat list of the possible moves. *)
From Verif Require Import Base Limits Buffer BufferSpec BufferBase.
Set Implicit Arguments.

Section Moves.
  Context {W Req Resp Err : Type} {svc : Service W Req Resp Err}.
  Notation bsys := (bsys svc).
  Notation bobs := (bobs svc).
  Notation bfut := (bfut svc).

  Definition unready (p : psend) : Prop := match p with PsIdle | PsAcquiring _ => True | _ => False end.
  Definition setw (k : worker svc) (y : bsys) : bsys := set_wk (Some k) y.
  Definition gone_to (m : sem) os w (y : bsys) : bsys :=
    BSys m (y_bound y) true [] (y_cell y) os (y_hs y) (y_hnext y) (y_fs y) (y_fnext y) None w.

  (** Polling an inner future. *)
  Inductive inner_poll (id : nat) (f : fut svc) (y : bsys) : list bobs -> bsys -> Prop :=
  | ip_val f1 a w : inner_poll id f y [OInner id f a f1; OPolled id (poll_map (map_er BInner) a)]
      (set_w w (put_fut id (BPoll f1) (match a with Pending => false | Ready _ => true end) y))
  | ip_panic w : snd (poll_fut svc f (y_w y)) = Panic ->
      inner_poll id f y [OPollPanic id] (set_w w (put_fut id (BPoll f) true y))
  | ip_hang w : snd (poll_fut svc f (y_w y)) = Diverge -> 
      inner_poll id f y [OPollHang id] (set_w w (put_fut id (BPoll f) true y)).

  Inductive hmove (y : bsys) : list bobs -> bsys -> Prop :=
  | hm_start h ps : y_hs y h = Some (Hd ps HRest) ->
      hmove y [] (put_handle h (Hd ps (if y_closed y then HErrReady else HReserve)) y)
  | hm_kept h : y_hs y h = Some (Hd PsReady HReserve) ->
      hmove y [OReady h (Ready (Ok tt))] (put_handle h (Hd PsReady HRest) y)
  | hm_got h ps m : y_hs y h = Some (Hd ps HReserve) -> unready ps -> y_closed y = false ->
      S (permits m) <= permits (y_sem y) ->
      hmove y [OReady h (Ready (Ok tt))] (put_handle h (Hd PsReady HRest) (set_sem m y))
  | hm_wait h ps m t : y_hs y h = Some (Hd ps HReserve) -> unready ps -> permits m <= permits (y_sem y) ->
      hmove y [OReady h Pending] (put_handle h (Hd (PsAcquiring t) HRest) (set_sem m y))
  | hm_closed h ps m : y_hs y h = Some (Hd ps HReserve) -> ps <> PsReady -> (y_closed y = true \/ ps = PsClosed) ->
      permits m <= permits (y_sem y) ->
      hmove y [] (put_handle h (Hd PsClosed HErrReady) (set_sem m y))
  | hm_error h ps : y_hs y h = Some (Hd ps HErrReady) ->
      hmove y [OReady h (Ready (Er (get_error_on_closed y)))] (put_handle h (Hd ps HRest) y)
  | hm_sent h r : y_hs y h = Some (Hd PsReady HRest) ->
      hmove y [OSent h (y_fnext y) r]
        (set_fnext (S (y_fnext y)) (set_fs (upd (y_fs y) (y_fnext y) (Some (BRx, false)))
          (set_os (upd (y_os y) (y_fnext y) (Os true None true))
            (put_handle h (Hd PsIdle HRest) (set_queue (y_queue y ++ [Msg r (y_fnext y)]) y)))))
  | hm_refused h r : y_hs y h = Some (Hd PsClosed HRest) ->
      hmove y [] (put_handle h (Hd PsClosed (HErrCall r)) y)
  | hm_refused_done h ps r : y_hs y h = Some (Hd ps (HErrCall r)) ->
      hmove y [ORefused h (y_fnext y) r (get_error_on_closed y)]
        (set_fnext (S (y_fnext y)) (set_fs (upd (y_fs y) (y_fnext y) (Some (BFailed (Some (get_error_on_closed y)), false)))
          (set_os (upd (y_os y) (y_fnext y) (Os false None false)) (put_handle h (Hd ps HRest) y))))
  | hm_panic h ps r : y_hs y h = Some (Hd ps HRest) -> unready ps ->
      hmove y [OCallPanic h r] (put_handle h (Hd PsClosed HRest) y)
  | hm_clone h d : y_hs y h = Some d ->
      hmove y [OCloned h (y_hnext y)]
        (set_hnext (S (y_hnext y)) (set_hs (upd (y_hs y) (y_hnext y) (Some (Hd PsIdle HRest))) y))
  | hm_drop h ps pc m : y_hs y h = Some (Hd ps pc) ->
      permits m <= permits (y_sem y) + (match ps with PsReady => 1 | _ => 0 end) ->
      (y_wk y = None -> no_senders (set_hs (upd (y_hs y) h None) y) = false) ->
      hmove y [ODropped h] (set_hs (upd (y_hs y) h None) (set_sem m y))
  | hm_drop_last h ps pc m os : y_hs y h = Some (Hd ps pc) -> y_wk y = None ->
      no_senders (set_hs (upd (y_hs y) h None) y) = true ->
      permits m <= permits (y_sem y) + (match ps with PsReady => 1 | _ => 0 end) + length (y_queue y) ->
      (forall i, os i = untx (ids (y_queue y)) (y_os y) i) ->
      hmove y [ODropped h] (set_queue [] (set_sem m (set_os os (set_hs (upd (y_hs y) h None) y)))).

  Inductive fmove (y : bsys) : list bobs -> bsys -> Prop :=
  | fm_fpanic id : y_fs y id = Some (BFailed None, false) ->
      fmove y [OPollPanic id] (put_fut id (BFailed None) true y)
  | fm_failed id e : y_fs y id = Some (BFailed (Some e), false) ->
      fmove y [OPolled id (Ready (Er e))] (put_fut id (BFailed None) true y)
  | fm_wait id : y_fs y id = Some (BRx, false) -> fmove y [OPolled id Pending] y
  | fm_first id f l y1 : y_fs y id = Some (BRx, false) -> o_val (y_os y id) = Some (Ok f) ->
      inner_poll id f (set_os (upd (y_os y) id (Os false None false)) y) l y1 -> fmove y l y1
  | fm_svc id e : y_fs y id = Some (BRx, false) -> o_val (y_os y id) = Some (Er e) ->
      fmove y [OPolled id (Ready (Er (BSvc e)))]
        (put_fut id BRx true (set_os (upd (y_os y) id (Os false None true)) y))
  | fm_closed id : y_fs y id = Some (BRx, false) -> o_val (y_os y id) = None -> o_tx (y_os y id) = false ->
      fmove y [OPolled id (Ready (Er BClosed))] (put_fut id BRx true y)
  | fm_again id f l y1 : y_fs y id = Some (BPoll f, false) -> inner_poll id f y l y1 -> fmove y l y1
  | fm_drop_failed id e d : y_fs y id = Some (BFailed e, d) ->
      fmove y [ODropFut id] (set_fs (upd (y_fs y) id None) y)
  | fm_drop_rx id d w : y_fs y id = Some (BRx, d) ->
      fmove y [ODropFut id] (set_fs (upd (y_fs y) id None)
        (set_w w (set_os (upd (y_os y) id (Os (o_tx (y_os y id)) None false)) y)))
  | fm_drop_poll id f d w : y_fs y id = Some (BPoll f, d) ->
      fmove y [ODropFut id] (set_fs (upd (y_fs y) id None) (set_w w y)).

  Definition ans_os (id : nat) (v : result (fut svc) Err) (os : nat -> oneshot svc) : nat -> oneshot svc :=
    upd os id (Os false (if o_rx (os id) then Some v else o_val (os id)) (o_rx (os id))).

  Inductive wmove (y : bsys) : list bobs -> bsys -> Prop :=
  | wm_finished k : y_wk y = Some k -> w_pc k = WRest -> w_finish k = true -> wmove y [WStart; WDone] y
  | wm_start k : y_wk y = Some k -> w_pc k = WRest -> w_finish k = false ->
      wmove y [WStart] (setw (at_pc k WNext) y)
  | wm_next k : y_wk y = Some k -> w_pc k = WNext -> w_cur k = None -> wmove y [] (setw (at_pc k WRecv) y)
  | wm_cur_skip k m : y_wk y = Some k -> w_pc k = WNext -> w_cur k = Some m -> o_rx (y_os y (m_id m)) = false ->
      wmove y [WSkip (m_id m)] (setw (Wk None (w_svc k) (w_finish k) (w_failed k) WRecv) (os_drop_tx (m_id m) y))
  | wm_cur_live k m : y_wk y = Some k -> w_pc k = WNext -> w_cur k = Some m -> o_rx (y_os y (m_id m)) = true ->
      wmove y [WLive (m_id m)] (setw (Wk None (w_svc k) (w_finish k) (w_failed k) (WGot m)) y)
  | wm_pend k : y_wk y = Some k -> w_pc k = WRecv -> wmove y [WPend] (setw (at_pc k WRest) y)
  | wm_took k m q s : y_wk y = Some k -> w_pc k = WRecv -> y_queue y = m :: q -> permits s = S (permits (y_sem y)) ->
      wmove y [WTook (m_id m)] (setw (at_pc k (WCheck m)) (set_sem s (set_queue q y)))
  | wm_done k : y_wk y = Some k -> w_pc k = WRecv -> y_queue y = [] ->
      no_senders y = true \/ (y_closed y = true /\ sem_avail (y_sem y) = y_bound y) ->
      wmove y [WDone] (setw (Wk (w_cur k) (w_svc k) true (w_failed k) WRest) y)
  | wm_skip k m : y_wk y = Some k -> w_pc k = WCheck m -> o_rx (y_os y (m_id m)) = false ->
      wmove y [WSkip (m_id m)] (setw (at_pc k WRecv) (os_drop_tx (m_id m) y))
  | wm_live k m : y_wk y = Some k -> w_pc k = WCheck m -> o_rx (y_os y (m_id m)) = true ->
      wmove y [WLive (m_id m)] (setw (at_pc k (WGot m)) y)
  | wm_refuse k m e w : y_wk y = Some k -> w_pc k = WGot m -> w_failed k = Some e ->
      wmove y [WAnswer (m_id m) (Er e)] (setw (at_pc k WNext) (set_w w (set_os (ans_os (m_id m) (Er e) (y_os y)) y)))
  | wm_ask_ok k m s1 w1 u : y_wk y = Some k -> w_pc k = WGot m -> w_failed k = None ->
      poll_ready svc (w_svc k) (y_w y) = (w1, Val (s1, Ready (Ok u))) ->
      wmove y [WAsk (Ready (Ok u))] (setw (at_pc (with_svc k s1) (WReady m)) (set_w w1 y))
  | wm_ask_pend k m s1 w1 : y_wk y = Some k -> w_pc k = WGot m -> w_failed k = None ->
      poll_ready svc (w_svc k) (y_w y) = (w1, Val (s1, Pending)) ->
      wmove y [WAsk Pending; WPend] (setw (Wk (Some m) s1 (w_finish k) (w_failed k) WRest) (set_w w1 y))
  | wm_ask_err k m s1 w1 e : y_wk y = Some k -> w_pc k = WGot m -> w_failed k = None ->
      poll_ready svc (w_svc k) (y_w y) = (w1, Val (s1, Ready (Er e))) ->
      wmove y [WAsk (Ready (Er e))] (setw (at_pc (with_svc k s1) (WStore m e)) (set_w w1 y))
  | wm_call k m s1 w1 f : y_wk y = Some k -> w_pc k = WReady m ->
      call svc (w_svc k) (m_req m) (y_w y) = (w1, Val (s1, f)) ->
      wmove y [WCall (m_id m) (m_req m) f] (setw (at_pc (with_svc k s1) (WSend m f)) (set_w w1 y))
  | wm_answer k m f w : y_wk y = Some k -> w_pc k = WSend m f ->
      wmove y [WAnswer (m_id m) (Ok f)] (setw (at_pc k WNext) (set_w w (set_os (ans_os (m_id m) (Ok f) (y_os y)) y)))
  | wm_stored k m e e' : y_wk y = Some k -> w_pc k = WStore m e -> y_cell y = Some e' ->
      wmove y [] (setw (at_pc k (WTell m)) y)
  | wm_store k m e : y_wk y = Some k -> w_pc k = WStore m e -> y_cell y = None ->
      wmove y [] (setw (at_pc k (WClose m e)) (set_cell (Some e) y))
  | wm_close k m e s : y_wk y = Some k -> w_pc k = WClose m e -> permits s = permits (y_sem y) ->
      wmove y [] (setw (Wk (w_cur k) (w_svc k) (w_finish k) (Some e) (WTell m)) (set_closed true (set_sem s y)))
  | wm_tell k m e w : y_wk y = Some k -> w_pc k = WTell m -> w_failed k = Some e ->
      wmove y [WAnswer (m_id m) (Er e)] (setw (at_pc k WNext) (set_w w (set_os (ans_os (m_id m) (Er e) (y_os y)) y)))
  | wm_die k m s os w : y_wk y = Some k ->
      (w_pc k = WGot m /\ w_failed k = None /\ snd (poll_ready svc (w_svc k) (y_w y)) = Panic \/
       w_pc k = WReady m /\ snd (call svc (w_svc k) (m_req m) (y_w y)) = Panic \/
       w_pc k = WTell m /\ w_failed k = None) ->
      permits s = length (y_queue y) + permits (y_sem y) ->
      (forall i, os i = untx (m_id m :: cur_ids (w_cur k) ++ ids (y_queue y)) (y_os y) i) ->
      wmove y [WPanic; WGone] (gone_to s os w y)
  | wm_hang_ask k m w : y_wk y = Some k -> w_pc k = WGot m -> w_failed k = None ->
      snd (poll_ready svc (w_svc k) (y_w y)) = Diverge ->
      wmove y [WHang] (setw (at_pc k (WHung m)) (set_w w y))
  | wm_hang_call k m w : y_wk y = Some k -> w_pc k = WReady m ->
      snd (call svc (w_svc k) (m_req m) (y_w y)) = Diverge ->
      wmove y [WHang] (setw (at_pc k (WHung m)) (set_w w y))
  | wm_kill k s os w : y_wk y = Some k -> w_pc k = WRest ->
      permits s = length (y_queue y) + permits (y_sem y) ->
      (forall i, os i = untx (cur_ids (w_cur k) ++ ids (y_queue y)) (y_os y) i) ->
      wmove y [WGone] (gone_to s os w y).

  Inductive move (y : bsys) : list bobs -> bsys -> Prop :=
  | mv_none : move y [] y
  | mv_env w : move y [] (set_w w y)
  | mv_h l y1 : hmove y l y1 -> move y l y1
  | mv_f l y1 : fmove y l y1 -> move y l y1
  | mv_w l y1 : wmove y l y1 -> move y l y1.

  Lemma set_sem_id (y : bsys) : y = set_sem (y_sem y) y. Proof. destruct y; reflexivity. Qed.

  Lemma inner_ok id f (y : bsys) : inner_poll id f y (snd (poll_inner id f y)) (fst (poll_inner id f y)).
  Proof.
    unfold poll_inner. destruct (poll_fut svc f (y_w y)) as [w1 [[f1 a]| |]] eqn:E; cbn [fst snd].
    - exact (ip_val id f y f1 a w1).
    - apply (@ip_panic id f y w1). rewrite E. reflexivity.
    - apply ip_hang. rewrite E. reflexivity.
  Qed.

  Lemma hstep_ok c h d (y : bsys) : y_hs y h = Some d -> move y (snd (handle_step c h d y)) (fst (handle_step c h d y)).
  Proof.
    intros Hh. unfold handle_step. destruct d as [ps pc]. cbn [h_ps h_pc]. destruct pc as [| | |r]; [apply mv_none| | |].
    - destruct ps as [|t| |]; cbn [poll_reserve].
      1,2: (destruct c; cbn [fst snd]; [apply mv_h; rewrite (set_sem_id y) at 2; eapply hm_wait; eauto; exact I|]);
          (destruct (y_closed y) eqn:Ec; cbn [fst snd];
           [apply mv_h; eapply hm_closed; eauto using forget_permits; discriminate|]);
          lazymatch goal with |- context [sem_poll ?a ?b] => destruct (sem_poll a b) as [[m t1] got] eqn:E end;
          apply poll_permits in E; destruct got; cbn [fst snd]; apply mv_h;
          [eapply hm_got; eauto; [exact I|lia]|eapply hm_wait; eauto; [exact I|lia]].
      + cbn [fst snd]. apply mv_h. apply hm_kept. exact Hh.
      + cbn [fst snd]. apply mv_h. rewrite (set_sem_id y) at 2. eapply hm_closed; eauto. discriminate.
    - apply mv_h. cbn [fst snd]. apply hm_error. exact Hh.
    - apply mv_h. cbn [fst snd]. exact (@hm_refused_done y h ps r Hh).
  Qed.

  Lemma drop_ok h d (y : bsys) : y_hs y h = Some d -> move y (snd (handle_drop h d y)) (fst (handle_drop h d y)).
  Proof.
    intros Hh. unfold handle_drop. destruct d as [ps pc]. cbn [h_ps h_pc].
    set (y1 := drop_sender ps y).
    assert (Y1 : y1 = set_sem (y_sem y1) y /\ permits (y_sem y1) <= permits (y_sem y) + match ps with PsReady => 1 | _ => 0 end).
    { unfold y1. destruct ps as [|t| |]; cbn [drop_sender].
      - split; [apply set_sem_id|lia].
      - split; [reflexivity|]. cbn. assert (X := forget_permits t (y_sem y)). lia.
      - split; [reflexivity|]. cbn. rewrite release_permits. lia.
      - split; [apply set_sem_id|lia]. }
    clearbody y1. destruct Y1 as [E1 P1]. cbn [fst snd].
    assert (E2 : set_hs (upd (y_hs y1) h None) y1 = set_hs (upd (y_hs y) h None) (set_sem (y_sem y1) y)) by (rewrite E1; reflexivity).
    rewrite E2. apply mv_h. change (y_wk (set_hs (upd (y_hs y) h None) (set_sem (y_sem y1) y))) with (y_wk y).
    destruct (y_wk y) as [k|] eqn:Ek.
    - eapply hm_drop; eauto. congruence.
    - change (no_senders (set_hs (upd (y_hs y) h None) (set_sem (y_sem y1) y))) with (no_senders (set_hs (upd (y_hs y) h None) y)).
      destruct (no_senders (set_hs (upd (y_hs y) h None) y)) eqn:En.
      + destruct (drain_eq (y_queue (set_hs (upd (y_hs y) h None) (set_sem (y_sem y1) y)))
                    (set_hs (upd (y_hs y) h None) (set_sem (y_sem y1) y))) as (m & os & E & P & O).
        rewrite E. cbn [set_hs set_sem y_queue y_sem y_os] in P, O.
        change (set_queue [] (set_sem m (set_os os (set_hs (upd (y_hs y) h None) (set_sem (y_sem y1) y)))))
          with (set_queue [] (set_sem m (set_os os (set_hs (upd (y_hs y) h None) y)))).
        eapply hm_drop_last; eauto. lia.
      + eapply hm_drop; eauto.
  Qed.

  Lemma wstep_ok c k (y : bsys) : y_wk y = Some k -> move y (snd (worker_step c k y)) (fst (worker_step c k y)).
  Proof.
    intros Hk. unfold worker_step. destruct (w_pc k) as [| | |m|m|m|m f|m e|m e|m|m] eqn:Ep; [apply mv_w..|].
    - destruct (w_finish k) eqn:Ef; cbn [fst snd]; [eapply wm_finished; eauto|eapply wm_start; eauto].
    - destruct (w_cur k) as [m|] eqn:Ec.
      + unfold os_is_closed. destruct (o_rx (y_os y (m_id m))) eqn:Ex; cbn [negb fst snd].
        * exact (@wm_cur_live y k m Hk Ep Ec Ex).
        * exact (@wm_cur_skip y k m Hk Ep Ec Ex).
      + exact (@wm_next y k Hk Ep Ec).
    - unfold poll_recv. destruct c; cbn [fst snd]; [exact (@wm_pend y k Hk Ep)|].
      destruct (y_queue y) as [|m q] eqn:Eq.
      + destruct (no_senders y || (y_closed y && (sem_avail (y_sem y) =? y_bound y))) eqn:En; cbn [fst snd].
        * eapply wm_done; eauto. apply orb_prop in En as [En|En]; [auto|]. apply andb_prop in En as [E1 E2].
          apply Nat.eqb_eq in E2. auto.
        * exact (@wm_pend y k Hk Ep).
      + cbn [fst snd]. eapply (@wm_took y k m q (sem_release (y_sem y))); eauto. apply release_permits.
    - unfold os_is_closed. destruct (o_rx (y_os y (m_id m))) eqn:Ex; cbn [negb fst snd].
      + exact (@wm_live y k m Hk Ep Ex).
      + exact (@wm_skip y k m Hk Ep Ex).
    - destruct (w_failed k) as [e|] eqn:Ef; cbn [fst snd].
      + destruct (send_eq (m_id m) (Er e) y) as (w & ->). exact (@wm_refuse y k m e w Hk Ep Ef).
      + destruct (poll_ready svc (w_svc k) (y_w y)) as [w1 [[s1 [|[u|e]]]| |]] eqn:E; cbn [fst snd].
        * assert (X := @wm_ask_pend y k m s1 w1 Hk Ep Ef E); rewrite Ef in X; exact X.
        * exact (@wm_ask_ok y k m s1 w1 u Hk Ep Ef E).
        * exact (@wm_ask_err y k m s1 w1 e Hk Ep Ef E).
        * destruct (die_eq k (m_id m) (set_w w1 y)) as (s & os & w & E1 & P & O). rewrite E1.
          eapply (@wm_die y k m s os w Hk); auto. left. rewrite E. auto.
        * eapply (@wm_hang_ask y k m w1 Hk); auto. rewrite E. auto.
    - destruct (call svc (w_svc k) (m_req m) (y_w y)) as [w1 [[s1 f]| |]] eqn:E; cbn [fst snd].
      + exact (@wm_call y k m s1 w1 f Hk Ep E).
      + destruct (die_eq k (m_id m) (set_w w1 y)) as (s & os & w & E1 & P & O). rewrite E1.
        eapply (@wm_die y k m s os w Hk); auto. right. left. rewrite E. auto.
      + eapply (@wm_hang_call y k m w1 Hk); auto. rewrite E. auto.
    - cbn [fst snd]. destruct (send_eq (m_id m) (Ok f) y) as (w & ->). exact (@wm_answer y k m f w Hk Ep).
    - destruct (y_cell y) as [e'|] eqn:Ec; cbn [fst snd].
      + exact (@wm_stored y k m e e' Hk Ep Ec).
      + exact (@wm_store y k m e Hk Ep Ec).
    - cbn [fst snd].
      exact (@wm_close y k m e (Sem (sem_avail (y_sem y)) [] (sem_granted (y_sem y)) (sem_next (y_sem y))) Hk Ep eq_refl).
    - destruct (w_failed k) as [e|] eqn:Ef; cbn [fst snd].
      + destruct (send_eq (m_id m) (Er e) y) as (w & ->). exact (@wm_tell y k m e w Hk Ep Ef).
      + destruct (die_eq k (m_id m) y) as (s & os & w & E1 & P & O). rewrite E1.
        eapply (@wm_die y k m s os w Hk); auto 10.
    - apply mv_none.
  Qed.

  Lemma bstep_move o (y : bsys) : move y (snd (bstep o y)) (fst (bstep o y)).
  Proof.
    destruct o as [h|h r|h c|h|h|id c|id|c| |g]; cbn [bstep].
    - destruct (y_hs y h) as [[ps pc]|] eqn:Hh; [|apply mv_none]. destruct pc; try apply mv_none. apply mv_h.
      exact (@hm_start y h ps Hh).
    - destruct (y_hs y h) as [[ps pc]|] eqn:Hh; [|apply mv_none]. destruct pc; try apply mv_none. apply mv_h.
      cbn [at_rest h_pc]. unfold handle_call. cbn [h_ps]. destruct ps as [|t| |]; cbn [send_item fst snd].
      + eapply hm_panic; eauto. exact I.
      + eapply hm_panic; eauto. exact I.
      + exact (@hm_sent y h r Hh).
      + exact (@hm_refused y h r Hh).
    - destruct (y_hs y h) as [d|] eqn:Hh; [|apply mv_none]. apply hstep_ok. exact Hh.
    - destruct (y_hs y h) as [d|] eqn:Hh; [|apply mv_none]. destruct (at_rest d); [|apply mv_none]. apply mv_h.
      exact (@hm_clone y h d Hh).
    - destruct (y_hs y h) as [d|] eqn:Hh; [|apply mv_none]. destruct (at_rest d); [|apply mv_none]. apply drop_ok. exact Hh.
    - destruct (y_fs y id) as [[f [|]]|] eqn:Hf; try apply mv_none. apply mv_f. unfold fut_poll.
      destruct f as [[e|]| |f].
      + exact (@fm_failed y id e Hf).
      + exact (@fm_fpanic y id Hf).
      + destruct c; [exact (@fm_wait y id Hf)|].
        destruct (o_val (y_os y id)) as [[f|e]|] eqn:Ev.
        * eapply (@fm_first y id f); eauto. apply inner_ok.
        * exact (@fm_svc y id e Hf Ev).
        * destruct (o_tx (y_os y id)) eqn:Et; [exact (@fm_wait y id Hf)|exact (@fm_closed y id Hf Ev Et)].
      + eapply (@fm_again y id f); eauto. apply inner_ok.
    - destruct (y_fs y id) as [[f d]|] eqn:Hf; [|apply mv_none]. apply mv_f. unfold fut_drop. cbn [fst snd]. destruct f as [e| |f].
      + exact (@fm_drop_failed y id e d Hf).
      + destruct (drop_rx_eq id y) as (w & E). rewrite E. exact (@fm_drop_rx y id d w Hf).
      + exact (@fm_drop_poll y id f d (drop_fut svc f (y_w y)) Hf).
    - destruct (y_wk y) as [k|] eqn:Hk; [|apply mv_none]. apply wstep_ok. exact Hk.
    - destruct (y_wk y) as [k|] eqn:Hk; [|apply mv_none]. unfold worker_rests. destruct (w_pc k) eqn:Ep; try apply mv_none.
      apply mv_w. cbn [fst snd]. destruct (drop_worker_eq k y) as (s & os & w & E & P & O). rewrite E.
      exact (@wm_kill y k s os w Hk Ep P O).
    - apply mv_env.
  Qed.
End Moves.
