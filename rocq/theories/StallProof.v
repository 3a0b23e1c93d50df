(** Proof of C75. *)
From Verif Require Import Base Limits Buffer BufferSpec BufferBase BufferMoves BufferInv1 BufferInv2 BufferInv3 BufferInv4 BufferInv5 BufferInv6 BufferInv7
  BufferTop RoomSpec RoomProof StallSpec.
Set Implicit Arguments.

Section Stall.
  Context {W Req Resp Err : Type} {svc : Service W Req Resp Err}.
  Notation bsys := (bsys svc).
  Notation bobs := (bobs svc).
  Notation bop := (bop (W := W) (Req := Req)).
  Notation asys := (asys svc).

  (** Steps of the handles and the futures. *)
  Definition quiet_op (o : bop) : Prop := match o with BWork _ | BKill => False | _ => True end.
  Definition not_worker (l : list bobs) : Prop := forallb (fun e => negb (by_worker e)) l = true.

  Lemma drain_wk q : forall y : bsys, y_wk (drain q y) = y_wk y.
  Proof. induction q as [|m q IH]; intros y; [reflexivity|]. cbn [drain]. rewrite IH. reflexivity. Qed.
  Lemma reserve_wk c p (y : bsys) : y_wk (fst (fst (poll_reserve c p y))) = y_wk y.
  Proof. unfold poll_reserve. destruct p; try reflexivity; destruct c; try reflexivity; destruct (y_closed y); try reflexivity;
    destruct (sem_poll _ _) as [[m t] [|]]; reflexivity. Qed.
  Lemma quiet_step o (y : bsys) : quiet_op o -> y_wk (fst (bstep o y)) = y_wk y /\ not_worker (snd (bstep o y)).
  Proof.
    destruct o as [h|h r|h c|h|h|id c|id|c| |g]; cbn [quiet_op bstep]; intros Q; try tauto.
    - destruct (y_hs y h) as [d|]; [|split; reflexivity]. destruct (at_rest d); split; reflexivity.
    - destruct (y_hs y h) as [d|]; [|split; reflexivity]. destruct (at_rest d); [|split; reflexivity].
      unfold handle_call. destruct (h_ps d); split; reflexivity.
    - destruct (y_hs y h) as [d|]; [|split; reflexivity]. unfold handle_step. destruct (h_pc d); try (split; reflexivity).
      assert (X := reserve_wk c (h_ps d) y). destruct (poll_reserve c (h_ps d) y) as [[y1 p] [|[[]|[]]]]; cbn [fst] in X; (split; [exact X|reflexivity]).
    - destruct (y_hs y h) as [d|]; [|split; reflexivity]. destruct (at_rest d); split; reflexivity.
    - destruct (y_hs y h) as [d|]; [|split; reflexivity]. destruct (at_rest d); [|split; reflexivity]. unfold handle_drop. cbn [fst snd].
      split; [|reflexivity]. assert (X : y_wk (drop_sender (h_ps d) y) = y_wk y) by (destruct (h_ps d); reflexivity).
      cbn [set_hs y_wk]. rewrite X. destruct (y_wk y); [exact X|]. destruct (no_senders _); [|exact X]. cbn [set_queue y_wk]. rewrite drain_wk. exact X.
    - destruct (y_fs y id) as [[f [|]]|]; try (split; reflexivity). unfold fut_poll.
      assert (P : forall f (y : bsys), y_wk (fst (poll_inner id f y)) = y_wk y /\ not_worker (snd (poll_inner id f y))).
      { intros f0 y0. unfold poll_inner. destruct (poll_fut svc f0 (y_w y0)) as [w1 [[f1 a]| |]]; split; reflexivity. }
      destruct f as [[e|]| |f]; try (split; reflexivity); [|apply P]. destruct c; [split; reflexivity|].
      destruct (o_val (y_os y id)) as [[f|e]|]; [|split; reflexivity|destruct (o_tx (y_os y id)); split; reflexivity].
      destruct (P f (set_os (upd (y_os y) id (Os false None false)) y)) as [P1 P2]. split; [rewrite P1; reflexivity|exact P2].
    - destruct (y_fs y id) as [[f b]|]; [|split; reflexivity]. unfold fut_drop. cbn [fst snd]. split; [|reflexivity].
      destruct f; try reflexivity. unfold os_drop_rx. cbn [set_fs y_wk]. destruct (o_val (y_os y id)) as [[]|]; reflexivity.
    - split; reflexivity.
  Qed.
  Lemma not_worker_facts (l : list bobs) : not_worker l -> started l = false /\ rx_pending l = false /\ (forall b, svc_pending l b = b) /\
    forall log, wlog (rev l ++ log) = wlog log.
  Proof.
    unfold not_worker. intros H.
    assert (S : started l = false). { unfold started. induction l as [|e l IH]; [reflexivity|]. cbn [forallb existsb] in H |- *. apply andb_prop in H as [H1 H2]. rewrite IH by exact H2. destruct e; try reflexivity; discriminate. }
    split; [exact S|]. split; [destruct l as [|[] [|]]; try reflexivity; discriminate|]. split.
    - intros b. clear S. induction l as [|e l IH]; [reflexivity|]. cbn [forallb] in H. apply andb_prop in H as [H1 H2].
      destruct e; try discriminate; cbn; apply IH, H2.
    - intros log. unfold wlog. rewrite List.filter_app. replace (filter _ (rev l)) with (@nil bobs); [reflexivity|]. clear S. symmetry.
      induction l as [|e l IH]; [reflexivity|]. cbn [forallb] in H. apply andb_prop in H as [H1 H2]. cbn [rev]. rewrite List.filter_app, IH by exact H2.
      cbn. destruct (by_worker e); [discriminate|reflexivity].
  Qed.

  (** ** The worker *)
  Definition wjust (y : bsys) (l : list bobs) (k : wakers) : Prop :=
    forall kk, y_wk y = Some kk -> w_pc kk = WRest -> w_finish kk = false -> k_worker k = false ->
      (w_cur kk <> None /\ k_svc k = true /\ exists rest, wlog l = WPend :: WAsk Pending :: rest) \/
      (w_cur kk = None /\ k_rx k = true /\ y_queue y = [] /\ no_senders y = false).
  Lemma wjust_step bound o (y : bsys) l k : binv bound y l -> wjust y l k ->
    wjust (fst (bstep o y)) (rev (snd (bstep o y)) ++ l) (wake_step o y (fst (bstep o y)) (snd (bstep o y)) k).
  Proof.
    intros B J.
    assert (Dq : quiet_op o -> wjust (fst (bstep o y)) (rev (snd (bstep o y)) ++ l) (wake_step o y (fst (bstep o y)) (snd (bstep o y)) k)).
    { intros Q. destruct (quiet_step o y Q) as [Ew Ev]. destruct (not_worker_facts Ev) as (F1 & F2 & F3 & F4).
      intros kk K P F. rewrite Ew in K. cbn [wake_step k_worker k_svc k_rx]. rewrite F1, F2, F3, F4. rewrite !andb_false_r, !orb_false_r, andb_true_r.
      intros E. apply orb_false_elim in E as [E1 E2]. destruct (J kk K P F E1) as [A|(A1 & A2 & A3 & A4)]; [left; exact A|]. right.
      rewrite A2 in E2 |- *. cbn [andb] in E2 |- *. rewrite E2. unfold rx_fires in E2. apply orb_false_elim in E2 as [E3 E4]. rewrite A3, A4 in *. cbn in E3, E4.
      split; [exact A1|]. split; [reflexivity|]. split; [|destruct (no_senders (fst (bstep o y))); [discriminate|reflexivity]].
      destruct (y_queue (fst (bstep o y))); [reflexivity|discriminate]. }
    destruct o as [h|h r|h c|h|h|id c|id|c| |g]; try exact (Dq I); clear Dq.
    - cbn [bstep]. destruct (y_wk y) as [k0|] eqn:K0.
      2:{ intros kk K. cbn [fst] in K. congruence. }
      assert (Cp := q_cur (bi_q B) K0). intros kk. unfold worker_step. destruct (w_pc k0) eqn:P0.
      + destruct (w_finish k0) eqn:F0; cbn [fst snd go set_wk y_wk]; intros K; [rewrite K0 in K|]; injection K as <-; [intros _; congruence|intros X; discriminate X].
      + destruct (w_cur k0) as [m|]; [destruct (os_is_closed (m_id m) y)|]; cbn [fst snd go set_wk y_wk os_drop_tx set_os]; intros K; injection K as <-; intros X; discriminate X.
      + unfold poll_recv. destruct c.
        * cbn [fst snd go set_wk y_wk]. intros K _ _. cbn [wake_step k_worker rx_pending coop_of]. rewrite orb_true_r. discriminate.
        * destruct (y_queue y) as [|m q] eqn:Q; [|cbn [fst snd go set_wk y_wk]; intros K; injection K as <-; intros X; discriminate X].
          destruct (no_senders y || _) eqn:O; cbn [fst snd go set_wk y_wk]; intros K; injection K as <-; intros _ F; [discriminate F|]. intros _.
          apply orb_false_elim in O as [O _]. right. cbn [at_pc w_cur wake_step k_rx rx_pending coop_of negb]. rewrite orb_true_r.
          split; [|split; [reflexivity|split; [exact Q|exact O]]].
          destruct (w_cur k0) eqn:C0; [|reflexivity]. exfalso. destruct Cp as [X|X]; congruence.
      + destruct (os_is_closed (m_id m) y); cbn [fst snd go set_wk y_wk]; intros K; injection K as <-; intros X; discriminate X.
      + destruct (w_failed k0) as [e|].
        { cbn [fst snd go set_wk y_wk]. intros K. injection K as <-. intros X; discriminate X. }
        destruct (poll_ready svc (w_svc k0) (y_w y)) as [w1 [[s1 [|[u|e]]]| |]]; cbn [fst snd go set_wk y_wk].
        * intros K. injection K as <-. intros _ _ _. left. cbn [w_cur wake_step k_svc svc_pending rev app]. split; [discriminate|]. split; [reflexivity|].
          exists (wlog l). reflexivity.
        * intros K. injection K as <-. intros X; discriminate X.
        * intros K. injection K as <-. intros X; discriminate X.
        * unfold die, drop_worker. cbn [set_wk y_wk]. intros K. discriminate K.
        * intros K. injection K as <-. intros X; discriminate X.
      + destruct (call svc (w_svc k0) (m_req m) (y_w y)) as [w1 [[s1 f]| |]]; cbn [fst snd go set_wk y_wk].
        * intros K. injection K as <-. intros X; discriminate X.
        * unfold die, drop_worker. cbn [set_wk y_wk]. intros K. discriminate K.
        * intros K. injection K as <-. intros X; discriminate X.
      + cbn [fst snd go set_wk y_wk]. intros K. injection K as <-. intros X; discriminate X.
      + destruct (y_cell y); cbn [fst snd go set_wk y_wk]; intros K; injection K as <-; intros X; discriminate X.
      + cbn [fst snd go set_wk y_wk]. intros K. injection K as <-. intros X; discriminate X.
      + destruct (w_failed k0); cbn [fst snd go set_wk y_wk].
        * intros K. injection K as <-. intros X; discriminate X.
        * unfold die, drop_worker. cbn [set_wk y_wk]. intros K. discriminate K.
      + cbn [fst snd]. intros K. rewrite K0 in K. injection K as <-. congruence.
    - intros kk K P F. revert K. cbn [bstep]. destruct (y_wk y) as [k0|] eqn:K0; [|cbn [fst]; congruence].
      unfold worker_rests. destruct (w_pc k0) eqn:P0; cbn [fst]; try (intros K; rewrite K0 in K; injection K as <-; congruence).
      unfold drop_worker. cbn [set_wk y_wk]. discriminate.
  Qed.

  (** ** The handles *)
  Definition line_closed (y : bsys) : Prop := y_closed y = true -> sem_queue (y_sem y) = [].
  Lemma release_nil m : sem_queue m = [] -> sem_queue (sem_release m) = [].
  Proof. intros E. unfold sem_release. rewrite E. reflexivity. Qed.
  Lemma forget_nil t m : sem_queue m = [] -> sem_queue (sem_forget t m) = [].
  Proof.
    intros E. unfold sem_forget. destruct t as [i|]; [|exact E]. destruct (mem_nat i (sem_granted m)).
    - apply release_nil. exact E.
    - cbn. rewrite E. reflexivity.
  Qed.
  Lemma drain_line q : forall y : bsys, sem_queue (y_sem y) = [] -> sem_queue (y_sem (drain q y)) = [].
  Proof. induction q as [|m q IH]; intros y E; [exact E|]. cbn [drain]. apply IH. cbn. apply release_nil. exact E. Qed.
  Lemma drop_worker_line k (y : bsys) : sem_queue (y_sem (drop_worker k y)) = [].
  Proof. unfold drop_worker. cbn. apply drain_line. reflexivity. Qed.
  Lemma drop_sender_line p (y : bsys) : line_closed y -> y_closed y = true -> sem_queue (y_sem (drop_sender p y)) = [].
  Proof. intros L C. specialize (L C). destruct p; cbn; auto using release_nil, forget_nil. Qed.
  Lemma drop_sender_closed p (y : bsys) : y_closed (drop_sender p y) = y_closed y.
  Proof. destruct p; reflexivity. Qed.
  Lemma drain_closed q : forall y : bsys, y_closed (drain q y) = y_closed y.
  Proof. induction q as [|m q IH]; intros y; [reflexivity|]. cbn [drain]. rewrite IH. reflexivity. Qed.
  Lemma line_alike (y y1 : bsys) e : alike y y1 e -> line_closed y -> line_closed y1.
  Proof.
    intros (_ & _ & _ & C & S) L H. rewrite C in H. specialize (L H). destruct S as [[-> _]|[-> _]]; [exact L|apply release_nil; exact L].
  Qed.
  Lemma line_reserve c p (y : bsys) : line_closed y -> line_closed (fst (fst (poll_reserve c p y))).
  Proof.
    intros L. unfold poll_reserve. destruct p; try exact L; destruct c; try exact L; destruct (y_closed y) eqn:C.
    - intros _. apply (@forget_nil None). apply L. exact C.
    - destruct (sem_poll _ _) as [[m t] [|]]; unfold line_closed; cbn; congruence.
    - intros _. apply forget_nil. apply L. exact C.
    - destruct (sem_poll _ _) as [[m t] [|]]; unfold line_closed; cbn; congruence.
  Qed.
  Ltac same := right; apply alike_same; reflexivity.
  Lemma worker_line c k (y : bsys) :
    sem_queue (y_sem (fst (worker_step c k y))) = [] \/ alike y (fst (worker_step c k y)) (snd (worker_step c k y)).
  Proof.
    assert (Sd : forall id v pc e, forallb other (rev e) = true ->
      alike y (fst (go k pc (os_send id v y), e)) (snd (go k pc (os_send id v y), e))).
    { intros id v pc e F. destruct (send_alike id v y) as (A & B & C & D & E). apply alike_same; cbn; assumption. }
    assert (Di : forall id (y0 : bsys) e, sem_queue (y_sem (fst (die k id y0, e : list bobs))) = []) by (intros; apply drop_worker_line).
    unfold worker_step. destruct (w_pc k) as [| | |m|m|m|m f|m e|m e|m|m].
    - destruct (w_finish k); same.
    - destruct (w_cur k) as [m|]; [|same]. destruct (os_is_closed (m_id m) y); same.
    - unfold poll_recv. destruct c; [same|]. destruct (y_queue y) as [|m q] eqn:Eq.
      + destruct (no_senders y || (y_closed y && (sem_avail (y_sem y) =? y_bound y))); same.
      + right. unfold go, add_permit, alike. cbn [fst snd]. ysimp.
        split; [reflexivity|]. split; [reflexivity|]. split; [reflexivity|]. split; [reflexivity|]. right. rewrite Eq. split; reflexivity.
    - destruct (os_is_closed (m_id m) y); same.
    - destruct (w_failed k); [right; apply Sd; reflexivity|]. destruct (poll_ready svc (w_svc k) (y_w y)) as [w1 [[s1 a]| |]].
      + destruct a as [|[[]|e]]; same.
      + left. apply Di.
      + same.
    - destruct (call svc (w_svc k) (m_req m) (y_w y)) as [w1 [[s1 f]| |]]; [same|left; apply Di|same].
    - right. apply Sd. reflexivity.
    - destruct (y_cell y); same.
    - left. reflexivity.
    - destruct (w_failed k); [right; apply Sd; reflexivity|left; apply Di].
    - same.
  Qed.
  Lemma line_step o (y : bsys) : line_closed y -> line_closed (fst (bstep o y)).
  Proof.
    intros L. destruct o as [h|h r|h c|h|h|id c|id|c| |g]; cbn [bstep].
    - destruct (y_hs y h) as [d|]; [|exact L]. destruct (at_rest d); exact L.
    - destruct (y_hs y h) as [d|]; [|exact L]. destruct (at_rest d); [|exact L]. unfold handle_call. destruct (h_ps d); exact L.
    - destruct (y_hs y h) as [d|]; [|exact L]. unfold handle_step. destruct (h_pc d); try exact L.
      assert (X := line_reserve c (h_ps d) L). destruct (poll_reserve c (h_ps d) y) as [[y1 p] [|[[]|[]]]]; exact X.
    - destruct (y_hs y h) as [d|]; [|exact L]. destruct (at_rest d); exact L.
    - destruct (y_hs y h) as [d|]; [|exact L]. destruct (at_rest d); [|exact L]. unfold handle_drop. cbn [fst].
      assert (X : line_closed (drop_sender (h_ps d) y)).
      { intros C. rewrite drop_sender_closed in C. apply drop_sender_line; assumption. }
      destruct (y_wk _); [exact X|]. destruct (no_senders _); [|exact X]. intros C. cbn [set_queue y_closed y_sem] in C |- *. rewrite drain_closed in C.
      apply drain_line. apply X. exact C.
    - destruct (y_fs y id) as [[f [|]]|]; try exact L. eapply line_alike; [apply futs_alike|exact L].
    - destruct (y_fs y id) as [[f b]|]; try exact L. eapply line_alike; [apply futd_alike|exact L].
    - destruct (y_wk y) as [k|]; [|exact L]. destruct (worker_line c k y) as [X|X]; [intros _; exact X|exact (line_alike X L)].
    - destruct (y_wk y) as [k|]; [|exact L]. destruct (worker_rests k); [|exact L]. intros _. apply drop_worker_line.
    - exact L.
  Qed.

  Definition inline (ps : psend) (pc : hpc (Req := Req)) : Prop :=
    pc = HErrReady \/ (exists t, ps = PsAcquiring t) /\ (pc = HRest \/ pc = HReserve).
  Definition hp (y : bsys) (l : list bobs) : Prop :=
    forall h, since h l <> None -> exists ps pc, y_hs y h = Some (Hd ps pc) /\ inline ps pc.
  Lemma hp_put (y y1 : bsys) l l1 h x : hp y l -> y_hs y1 = upd (y_hs y) h x -> (forall j, j <> h -> since j l1 = since j l) ->
    (since h l1 <> None -> exists ps pc, x = Some (Hd ps pc) /\ inline ps pc) -> hp y1 l1.
  Proof.
    intros P E S H j Sj. rewrite E. destruct (Nat.eq_dec j h) as [->|N]; [rewrite upd_eq; auto|]. rewrite upd_ne by exact N. apply P.
    rewrite <- S by exact N. exact Sj.
  Qed.
  Lemma since_step j h e (l : list bobs) : j <> h -> (e = OReady h Pending \/ (exists a, e = OReady h (Ready a)) \/ e = ODropped h \/ exists r, e = OCallPanic h r) ->
    since j (e :: l) = since j l.
  Proof.
    intros N H. assert (X : (h =? j) = false) by (apply Nat.eqb_neq; congruence).
    destruct H as [->|[[a ->]|[->|[r ->]]]]; cbn [since]; rewrite X; reflexivity.
  Qed.
  Lemma since_gone h e (l : list bobs) : ((exists a, e = OReady h (Ready a)) \/ e = ODropped h \/ exists r, e = OCallPanic h r) -> since h (e :: l) = None.
  Proof. intros [[a ->]|[->|[r ->]]]; cbn [since]; rewrite Nat.eqb_refl; reflexivity. Qed.
  Lemma hp_step bound o (y : bsys) l : binv bound y l -> hp y l -> hp (fst (bstep o y)) (rev (snd (bstep o y)) ++ l).
  Proof.
    intros B P. assert (M := bstep_move o y). destruct (bstep o y) as [y1 e]. cbn [fst snd] in *.
    assert (Pt : forall h ps pc, y_hs y h = Some (Hd ps pc) -> since h l <> None -> inline ps pc).
    { intros h ps pc E S. destruct (P h S) as (ps' & pc' & E' & H). rewrite E in E'. injection E' as <- <-. exact H. }
    destruct M as [|w|e y1 H|e y1 H|e y1 H].
    - exact P.
    - exact P.
    - destruct H; cbn [rev app].
      + eapply (@hp_put y _ l l h); [exact P|reflexivity|reflexivity|]. intros S. eexists _, _. split; [reflexivity|]. specialize (Pt _ _ _ H S).
        destruct (y_closed y); [left; reflexivity|]. destruct Pt as [Pt|[Pt _]]; [discriminate|]. right. auto.
      + eapply (@hp_put y _ l _ h); [exact P|reflexivity|intros j N; apply (@since_step j h); eauto|]. rewrite since_gone by eauto. congruence.
      + eapply (@hp_put y _ l _ h); [exact P|reflexivity|intros j N; apply (@since_step j h); eauto|]. rewrite since_gone by eauto. congruence.
      + eapply (@hp_put y _ l _ h); [exact P|reflexivity|intros j N; apply (@since_step j h); eauto|]. intros _. eexists _, _. split; [reflexivity|].
        right. eauto.
      + eapply (@hp_put y _ l _ h); [exact P|reflexivity|reflexivity|]. intros _. eexists _, _. split; [reflexivity|]. left. reflexivity.
      + eapply (@hp_put y _ l _ h); [exact P|reflexivity|intros j N; apply (@since_step j h); eauto|]. rewrite since_gone by eauto. congruence.
      + eapply (@hp_put y _ l _ h); [exact P|reflexivity|reflexivity|]. intros S. exfalso. destruct (Pt _ _ _ H S) as [X|[[t X] _]]; discriminate.
      + eapply (@hp_put y _ l _ h); [exact P|reflexivity|reflexivity|]. intros S. exfalso. destruct (Pt _ _ _ H S) as [X|[[t X] _]]; discriminate.
      + eapply (@hp_put y _ l _ h); [exact P|reflexivity|reflexivity|]. intros S. exfalso. destruct (Pt _ _ _ H S) as [X|[_ [X|X]]]; discriminate.
      + eapply (@hp_put y _ l _ h); [exact P|reflexivity|intros j N; apply (@since_step j h); eauto 6|]. rewrite since_gone by eauto. congruence.
      + eapply (@hp_put y _ l _ (y_hnext y)); [exact P|reflexivity|reflexivity|]. intros S. exfalso. destruct (P _ S) as (ps & pc & E & _).
        apply (ih_lt (bi_h B)) in E. lia.
      + eapply (@hp_put y _ l _ h); [exact P|reflexivity|intros j N; apply (@since_step j h); eauto 6|]. rewrite since_gone by eauto. congruence.
      + eapply (@hp_put y _ l _ h); [exact P|reflexivity|intros j N; apply (@since_step j h); eauto 6|]. rewrite since_gone by eauto. congruence.
    - assert (X : forall h, since h (rev e ++ l) = since h l).
      { destruct H; try (lazymatch goal with H : inner_poll _ _ _ _ _ |- _ => destruct H end); reflexivity. }
      apply fmove_quiet in H as (E & _). intros h. rewrite X, E. apply P.
    - assert (X : forall h, since h (rev e ++ l) = since h l) by (destruct H; reflexivity).
      apply wmove_quiet in H as (E & _). intros h. rewrite X, E. apply P.
  Qed.

  Lemma drain_hs q : forall y : bsys, y_hs (drain q y) = y_hs y.
  Proof. induction q as [|m q IH]; intros y; [reflexivity|]. cbn [drain]. rewrite IH. reflexivity. Qed.
  Lemma drop_worker_hs k (y : bsys) : y_hs (drop_worker k y) = y_hs y.
  Proof. unfold drop_worker, rx_drop. cbn [set_wk set_w set_queue y_hs]. rewrite drain_hs. cbn. destruct (w_cur k); reflexivity. Qed.
  Definition keeps (y : bsys) (r : bsys * list bobs) : Prop := y_hs (fst r) = y_hs y /\ forallb other (rev (snd r)) = true.
  Lemma alike_keeps (y : bsys) r : alike y (fst r) (snd r) -> keeps y r.
  Proof. intros (A & B & _). split; assumption. Qed.
  Lemma worker_keeps c k (y : bsys) : keeps y (worker_step c k y).
  Proof.
    assert (Di : forall id (y0 : bsys) e, y_hs y0 = y_hs y -> forallb other (rev e) = true -> keeps y (die k id y0, e : list bobs)).
    { intros id y0 e E F. split; [|exact F]. cbn [fst]. unfold die. rewrite drop_worker_hs. exact E. }
    assert (Sd : forall id v pc e, forallb other (rev e) = true -> keeps y (go k pc (os_send id v y), e)).
    { intros id v pc e F. destruct (send_alike id v y) as (A & _). split; [exact A|exact F]. }
    unfold worker_step. destruct (w_pc k) as [| | |m|m|m|m f|m e|m e|m|m].
    - destruct (w_finish k); split; reflexivity.
    - destruct (w_cur k) as [m|]; [destruct (os_is_closed (m_id m) y)|]; split; reflexivity.
    - unfold poll_recv. destruct c; [split; reflexivity|]. destruct (y_queue y); [|split; reflexivity].
      destruct (no_senders y || _); split; reflexivity.
    - destruct (os_is_closed (m_id m) y); split; reflexivity.
    - destruct (w_failed k); [apply Sd; reflexivity|]. destruct (poll_ready svc (w_svc k) (y_w y)) as [w1 [[s1 [|[[]|e]]]| |]]; try (split; reflexivity). apply Di; reflexivity.
    - destruct (call svc (w_svc k) (m_req m) (y_w y)) as [w1 [[s1 f]| |]]; try (split; reflexivity). apply Di; reflexivity.
    - apply Sd. reflexivity.
    - destruct (y_cell y); split; reflexivity.
    - split; reflexivity.
    - destruct (w_failed k); [apply Sd; reflexivity|apply Di; reflexivity].
    - split; reflexivity.
  Qed.
  Definition of_others (o : bop) : Prop := match o with BPollF _ _ | BDropF _ | BWork _ | BKill | BEnv _ => True | _ => False end.
  Lemma others_keep o (y : bsys) : of_others o -> keeps y (bstep o y).
  Proof.
    destruct o as [h'|h' r|h' c|h'|h'|id c|id|c| |g]; intros H; try destruct H; cbn [bstep].
    - destruct (y_fs y id) as [[f [|]]|]; try (split; reflexivity). apply alike_keeps, futs_alike.
    - destruct (y_fs y id) as [[f b]|]; try (split; reflexivity). apply alike_keeps, futd_alike.
    - destruct (y_wk y); [apply worker_keeps|split; reflexivity].
    - destruct (y_wk y) as [k|]; [|split; reflexivity]. destruct (worker_rests k); [|split; reflexivity]. split; [apply drop_worker_hs|reflexivity].
    - split; reflexivity.
  Qed.

  Definition fair (l : list bobs) : Prop := forall h r, ~ In (OCallPanic h r) l.
  Definition hj (y : bsys) (l : list bobs) (k : wakers) : Prop :=
    fair l -> forall h ps, y_hs y h = Some (Hd ps HRest) -> since h l <> None -> k_handle k h = false ->
      exists t, ps = PsAcquiring (Some t) /\ In t (sem_queue (y_sem y)).
  (** A handle that does not move. *)
  Lemma hj_still o (y y1 : bsys) l e k h ps : hj y l k -> fair l -> y_hs y h = Some (Hd ps HRest) -> since h l <> None ->
    begins_handle h o y = false -> k_handle (wake_step o y y1 e k) h = false -> exists t, ps = PsAcquiring (Some t) /\ In t (sem_queue (y_sem y1)).
  Proof.
    intros J F E S Bg K. cbn [wake_step k_handle] in K. rewrite Bg, andb_true_r in K. apply orb_false_elim in K as [K _]. apply orb_false_elim in K as [K1 K2].
    destruct (J F h ps E S K1) as (t & -> & I). exists t. split; [reflexivity|]. unfold sem_fires in K2. rewrite E in K2.
    apply mem_in in I. rewrite I in K2. cbn in K2. apply mem_in. destruct (mem_nat t (sem_queue (y_sem y1))); [reflexivity|discriminate].
  Qed.
  Lemma hj_step bound o (y : bsys) l k : binv bound y l -> guarded false bound y l -> hp y l -> hj y l k ->
    hj (fst (bstep o y)) (rev (snd (bstep o y)) ++ l) (wake_step o y (fst (bstep o y)) (snd (bstep o y)) k).
  Proof.
    intros B G P J F.
    assert (F0 : fair l) by (intros h r X; apply (F h r); apply in_or_app; right; exact X).
    intros h ps.
    assert (St : y_hs (fst (bstep o y)) h = y_hs y h -> since h (rev (snd (bstep o y)) ++ l) = since h l -> begins_handle h o y = false ->
      y_hs (fst (bstep o y)) h = Some (Hd ps HRest) -> since h (rev (snd (bstep o y)) ++ l) <> None ->
      k_handle (wake_step o y (fst (bstep o y)) (snd (bstep o y)) k) h = false ->
      exists t, ps = PsAcquiring (Some t) /\ In t (sem_queue (y_sem (fst (bstep o y))))).
    { intros A1 A2 A3 E S K. rewrite A1 in E. rewrite A2 in S. exact (hj_still _ _ _ _ J F0 E S A3 K). }
    destruct o as [h'|h' r|h' c|h'|h'|id c|id|c| |g].
    - revert St. cbn [bstep]. destruct (y_hs y h') as [d|] eqn:Ed; [|intros St; apply St; try reflexivity; cbn; destruct (Nat.eqb_spec h' h) as [->|]; [rewrite Ed|]; reflexivity].
      destruct (at_rest d) eqn:A; [|intros St; apply St; try reflexivity; cbn; destruct (Nat.eqb_spec h' h) as [->|]; [rewrite Ed, A|]; reflexivity].
      intros St. destruct (Nat.eq_dec h h') as [->|N].
      + intros E. cbn in E. rewrite upd_eq in E. injection E as _ E. destruct (tx_is_closed y); discriminate.
      + apply St; [cbn; rewrite upd_ne by exact N; reflexivity|reflexivity|]. cbn. apply Nat.eqb_neq in N. rewrite Nat.eqb_sym, N. reflexivity.
    - revert St F. cbn [bstep]. destruct (y_hs y h') as [d|] eqn:Ed; [|intros St _; apply St; reflexivity].
      destruct (at_rest d) eqn:A; [|intros St _; apply St; reflexivity]. unfold handle_call. destruct (h_ps d) eqn:Eps; cbn [send_item fst snd].
      1,2: intros _ F; exfalso; apply (F h' r); left; reflexivity.
      + intros St _. destruct (Nat.eq_dec h h') as [->|N].
        * intros _ S. exfalso. cbn [rev app since] in S. destruct (P _ S) as (ps' & pc' & E' & [X|[[t X] _]]); rewrite Ed in E'; injection E' as ->; cbn in *; subst; discriminate.
        * apply St; [cbn; rewrite upd_ne by exact N; reflexivity|reflexivity|reflexivity].
      + intros St _. destruct (Nat.eq_dec h h') as [->|N].
        * cbn. rewrite upd_eq. discriminate.
        * apply St; [cbn; rewrite upd_ne by exact N; reflexivity|reflexivity|reflexivity].
    - revert St F. cbn [bstep]. destruct (y_hs y h') as [d|] eqn:Ed; [|intros St _; apply St; reflexivity].
      destruct d as [ps' pc']. unfold handle_step. cbn [h_pc h_ps]. destruct pc' as [| | |r].
      + intros St _. apply St; reflexivity.
      + unfold poll_reserve. destruct ps' as [|t| |].
        * destruct c.
          { cbn [fst snd]. intros St F. destruct (Nat.eq_dec h h') as [->|N].
            - intros _ _ K. exfalso. revert K. cbn [wake_step k_handle coop_of handle_pending]. rewrite Nat.eqb_refl, orb_true_r. discriminate.
            - apply St; [cbn; rewrite upd_ne by exact N; reflexivity|apply (@since_step h h'); eauto|reflexivity]. }
          destruct (y_closed y) eqn:C.
          { cbn [fst snd]. intros St F. destruct (Nat.eq_dec h h') as [->|N]; [cbn; rewrite upd_eq; discriminate|].
            apply St; [cbn; rewrite upd_ne by exact N; reflexivity|reflexivity|reflexivity]. }
          unfold sem_poll. destruct (sem_avail (y_sem y)) as [|a]; cbn [fst snd]; intros St F.
          { destruct (Nat.eq_dec h h') as [->|N]; [|apply St; [cbn; rewrite upd_ne by exact N; reflexivity|apply (@since_step h h'); eauto|reflexivity]].
            cbn. rewrite upd_eq. intros E _ _. injection E as <-. eexists. split; [reflexivity|]. apply in_or_app. right. left. reflexivity. }
          { destruct (Nat.eq_dec h h') as [->|N]; [|apply St; [cbn; rewrite upd_ne by exact N; reflexivity|apply (@since_step h h'); eauto|reflexivity]].
            intros _. cbn [rev app]. rewrite since_gone by eauto. congruence. }
        * destruct c.
          { cbn [fst snd]. intros St F. destruct (Nat.eq_dec h h') as [->|N].
            - intros _ _ K. exfalso. revert K. cbn [wake_step k_handle coop_of handle_pending]. rewrite Nat.eqb_refl, orb_true_r. discriminate.
            - apply St; [cbn; rewrite upd_ne by exact N; reflexivity|apply (@since_step h h'); eauto|reflexivity]. }
          destruct (y_closed y) eqn:C.
          { cbn [fst snd]. intros St F. destruct (Nat.eq_dec h h') as [->|N]; [cbn; rewrite upd_eq; discriminate|].
            apply St; [cbn; rewrite upd_ne by exact N; reflexivity|reflexivity|reflexivity]. }
          assert (R := G F0 C). assert (Sw := rm_swf R).
          unfold sem_poll. destruct t as [i|].
          { destruct (mem_nat i (sem_granted (y_sem y))) eqn:Mi; cbn [fst snd]; intros St F;
              (destruct (Nat.eq_dec h h') as [->|N]; [|apply St; [cbn; rewrite upd_ne by exact N; reflexivity|apply (@since_step h h'); eauto|reflexivity]]).
            - intros _. cbn [rev app]. rewrite since_gone by eauto. congruence.
            - cbn. rewrite upd_eq. intros E _ _. injection E as <-. exists i. split; [reflexivity|].
              destruct (sw_forth Sw h' (t := i)) as [X|X]; [unfold tks; rewrite Ed; reflexivity| |exact X]. apply mem_in in X. congruence. }
          destruct (sem_avail (y_sem y)) as [|a]; cbn [fst snd]; intros St F.
          { destruct (Nat.eq_dec h h') as [->|N]; [|apply St; [cbn; rewrite upd_ne by exact N; reflexivity|apply (@since_step h h'); eauto|reflexivity]].
            cbn. rewrite upd_eq. intros E _ _. injection E as <-. eexists. split; [reflexivity|]. apply in_or_app. right. left. reflexivity. }
          { destruct (Nat.eq_dec h h') as [->|N]; [|apply St; [cbn; rewrite upd_ne by exact N; reflexivity|apply (@since_step h h'); eauto|reflexivity]].
            intros _. cbn [rev app]. rewrite since_gone by eauto. congruence. }
        * cbn [fst snd]. intros St F. destruct (Nat.eq_dec h h') as [->|N]; [|apply St; [cbn; rewrite upd_ne by exact N; reflexivity|apply (@since_step h h'); eauto|reflexivity]].
          intros _. cbn [rev app]. rewrite since_gone by eauto. congruence.
        * cbn [fst snd]. intros St F. destruct (Nat.eq_dec h h') as [->|N]; [cbn; rewrite upd_eq; discriminate|].
          apply St; [cbn; rewrite upd_ne by exact N; reflexivity|reflexivity|reflexivity].
      + cbn [fst snd]. intros St F. destruct (Nat.eq_dec h h') as [->|N]; [|apply St; [cbn; rewrite upd_ne by exact N; reflexivity|apply (@since_step h h'); eauto|reflexivity]].
        intros _. cbn [rev app]. rewrite since_gone by eauto. congruence.
      + cbn [fst snd]. intros St F. destruct (Nat.eq_dec h h') as [->|N]; [|apply St; [cbn; rewrite upd_ne by exact N; reflexivity|reflexivity|reflexivity]].
        intros _ S. exfalso. cbn [rev app since] in S. destruct (P _ S) as (ps1 & pc1 & E' & X). rewrite Ed in E'. injection E' as <- <-. destruct X as [X|[_ [X|X]]]; discriminate.
    - revert St F. cbn [bstep]. destruct (y_hs y h') as [d|] eqn:Ed; [|intros St _; apply St; reflexivity].
      destruct (at_rest d) eqn:A; [|intros St _; apply St; reflexivity]. cbn [handle_clone fst snd]. intros St F.
      destruct (Nat.eq_dec h (y_hnext y)) as [->|N]; [|apply St; [cbn; rewrite upd_ne by exact N; reflexivity|reflexivity|reflexivity]].
      intros _ S. exfalso. cbn [rev app since] in S. destruct (P _ S) as (ps1 & pc1 & E' & _). apply (ih_lt (bi_h B)) in E'. lia.
    - revert St F. cbn [bstep]. destruct (y_hs y h') as [d|] eqn:Ed; [|intros St _; apply St; reflexivity].
      destruct (at_rest d) eqn:A; [|intros St _; apply St; reflexivity]. intros St F.
      assert (X : y_hs (fst (handle_drop h' d y)) = upd (y_hs y) h' None).
      { unfold handle_drop. cbn [fst]. assert (X : y_hs (drop_sender (h_ps d) y) = y_hs y) by (destruct (h_ps d); reflexivity).
        cbn [set_hs y_wk]. destruct (y_wk _); [cbn; rewrite X; reflexivity|]. destruct (no_senders _); cbn [set_queue y_hs]; rewrite ?drain_hs; cbn; rewrite X; reflexivity. }
      destruct (Nat.eq_dec h h') as [->|N]; [rewrite X, upd_eq; discriminate|].
      apply St; [rewrite X, upd_ne by exact N; reflexivity|apply (@since_step h h'); eauto|reflexivity].
    - destruct (others_keep (BPollF id c) y I) as [K1 K2]. apply St; [rewrite K1; reflexivity|apply since_other; exact K2|reflexivity].
    - destruct (others_keep (BDropF id) y I) as [K1 K2]. apply St; [rewrite K1; reflexivity|apply since_other; exact K2|reflexivity].
    - destruct (others_keep (BWork c) y I) as [K1 K2]. apply St; [rewrite K1; reflexivity|apply since_other; exact K2|reflexivity].
    - destruct (others_keep BKill y I) as [K1 K2]. apply St; [rewrite K1; reflexivity|apply since_other; exact K2|reflexivity].
    - destruct (others_keep (BEnv g) y I) as [K1 K2]. apply St; [rewrite K1; reflexivity|apply since_other; exact K2|reflexivity].
  Qed.

  (** ** The response futures *)
  Definition not_future (e : bobs) : bool :=
    match e with OInner _ _ _ _ | OPolled _ _ | OPollPanic _ | OPollHang _ | ODropFut _ => false | _ => true end.
  Lemma waits_other id (e l : list bobs) : forallb not_future e = true -> fut_waits id (e ++ l) = fut_waits id l.
  Proof.
    induction e as [|a e IH]; [reflexivity|]. cbn [forallb app]. intros H. apply andb_prop in H as [H1 H2].
    destruct a; try discriminate; cbn [fut_waits]; apply IH, H2.
  Qed.
  Lemma in_other id (e : list bobs) b : forallb not_future e = true -> in_pending id e b = b.
  Proof. destruct e as [|[] e]; cbn; try discriminate; reflexivity. Qed.
  Lemma os_other id (e : list bobs) : forallb not_future e = true -> os_pending id e = false.
  Proof. destruct e as [|[] [|]]; cbn; try discriminate; reflexivity. Qed.
  Lemma forallb_rev' (e : list bobs) : forallb not_future (rev e) = forallb not_future e.
  Proof. induction e as [|a e IH]; [reflexivity|]. cbn [rev]. rewrite forallb_app, IH. cbn. rewrite andb_true_r. apply andb_comm. Qed.

  Definition fkeeps (y : bsys) (r : bsys * list bobs) : Prop :=
    (forall id, id <> y_fnext y -> y_fs (fst r) id = y_fs y id) /\ forallb not_future (snd r) = true.
  Lemma drain_fs q : forall y : bsys, y_fs (drain q y) = y_fs y.
  Proof. induction q as [|m q IH]; intros y; [reflexivity|]. cbn [drain]. rewrite IH. reflexivity. Qed.
  Lemma drop_worker_fs k (y : bsys) : y_fs (drop_worker k y) = y_fs y.
  Proof. unfold drop_worker, rx_drop. cbn [set_wk set_w set_queue y_fs]. rewrite drain_fs. cbn. destruct (w_cur k); reflexivity. Qed.
  Lemma worker_fkeeps c k (y : bsys) : fkeeps y (worker_step c k y).
  Proof.
    assert (Di : forall id (y0 : bsys) e, y_fs y0 = y_fs y -> forallb not_future e = true -> fkeeps y (die k id y0, e : list bobs)).
    { intros id y0 e E F. split; [|exact F]. cbn [fst]. unfold die. rewrite drop_worker_fs. intros i _. cbn. rewrite E. reflexivity. }
    assert (Sd : forall id v pc e, forallb not_future e = true -> fkeeps y (go k pc (os_send id v y), e)).
    { intros id v pc e F. split; [|exact F]. intros i _. cbn. unfold os_send. destruct (o_rx (y_os y id)); [reflexivity|]. destruct v; reflexivity. }
    unfold worker_step. destruct (w_pc k) as [| | |m|m|m|m f|m e|m e|m|m].
    - destruct (w_finish k); split; reflexivity.
    - destruct (w_cur k) as [m|]; [destruct (os_is_closed (m_id m) y)|]; split; reflexivity.
    - unfold poll_recv. destruct c; [split; reflexivity|]. destruct (y_queue y); [|split; reflexivity].
      destruct (no_senders y || _); split; reflexivity.
    - destruct (os_is_closed (m_id m) y); split; reflexivity.
    - destruct (w_failed k); [apply Sd; reflexivity|]. destruct (poll_ready svc (w_svc k) (y_w y)) as [w1 [[s1 [|[[]|e]]]| |]]; try (split; reflexivity). apply Di; reflexivity.
    - destruct (call svc (w_svc k) (m_req m) (y_w y)) as [w1 [[s1 f]| |]]; try (split; reflexivity). apply Di; reflexivity.
    - apply Sd. reflexivity.
    - destruct (y_cell y); split; reflexivity.
    - split; reflexivity.
    - destruct (w_failed k); [apply Sd; reflexivity|apply Di; reflexivity].
    - split; reflexivity.
  Qed.
  Lemma reserve_fs c p (y : bsys) : y_fs (fst (fst (poll_reserve c p y))) = y_fs y.
  Proof. unfold poll_reserve. destruct p; try reflexivity; destruct c; try reflexivity; destruct (y_closed y); try reflexivity;
    destruct (sem_poll _ _) as [[m t] [|]]; reflexivity. Qed.
  Definition of_future (o : bop) : option nat := match o with BPollF id _ | BDropF id => Some id | _ => None end.
  Lemma others_fkeep o (y : bsys) : of_future o = None -> fkeeps y (bstep o y).
  Proof.
    destruct o as [h|h r|h c|h|h|id c|id|c| |g]; cbn [of_future]; intros H; try discriminate H; clear H; cbn [bstep].
    - destruct (y_hs y h) as [d|]; [|split; reflexivity]. destruct (at_rest d); split; reflexivity.
    - destruct (y_hs y h) as [d|]; [|split; reflexivity]. destruct (at_rest d); [|split; reflexivity]. unfold handle_call.
      destruct (h_ps d); split; try reflexivity. intros id N. cbn. rewrite upd_ne by exact N. reflexivity.
    - destruct (y_hs y h) as [d|]; [|split; reflexivity]. unfold handle_step. destruct (h_pc d); try (split; reflexivity).
      + assert (X := reserve_fs c (h_ps d) y). destruct (poll_reserve c (h_ps d) y) as [[y1 p] [|[[]|[]]]]; cbn [fst] in X; (split; [intros id _; cbn; rewrite X|]; reflexivity).
      + split; [|reflexivity]. intros id N. cbn. rewrite upd_ne by exact N. reflexivity.
    - destruct (y_hs y h) as [d|]; [|split; reflexivity]. destruct (at_rest d); split; reflexivity.
    - destruct (y_hs y h) as [d|]; [|split; reflexivity]. destruct (at_rest d); [|split; reflexivity]. split; [|reflexivity]. intros id _.
      unfold handle_drop. cbn [fst]. assert (X : y_fs (drop_sender (h_ps d) y) = y_fs y) by (destruct (h_ps d); reflexivity).
      cbn [set_hs y_wk]. destruct (y_wk _); [cbn; rewrite X; reflexivity|]. destruct (no_senders _); cbn [set_queue y_fs]; rewrite ?drain_fs; cbn; rewrite X; reflexivity.
    - destruct (y_wk y); [apply worker_fkeeps|split; reflexivity].
    - destruct (y_wk y) as [k|]; [|split; reflexivity]. destruct (worker_rests k); [|split; reflexivity].
      split; [intros id _; cbn [fst]; rewrite drop_worker_fs; reflexivity|reflexivity].
    - split; reflexivity.
  Qed.
  (** The steps of a future touch no other. *)
  Definition about (i : nat) (e : bobs) : bool :=
    match e with OInner id _ _ _ | OPolled id _ | OPollPanic id | OPollHang id | ODropFut id => id =? i | _ => true end.
  Lemma inner_own i f (y : bsys) : forall id, id <> i -> y_fs (fst (poll_inner i f y)) id = y_fs y id /\ forallb (about i) (snd (poll_inner i f y)) = true.
  Proof.
    intros id N. unfold poll_inner. destruct (poll_fut svc f (y_w y)) as [w1 [[f1 a]| |]]; cbn [fst snd]; (split; [cbn; rewrite upd_ne by exact N; reflexivity|cbn; rewrite !Nat.eqb_refl; reflexivity]).
  Qed.
  Lemma future_own o i (y : bsys) : of_future o = Some i ->
    forall id, id <> i -> y_fs (fst (bstep o y)) id = y_fs y id /\ forallb (about i) (snd (bstep o y)) = true.
  Proof.
    destruct o as [h|h r|h c|h|h|id c|id|c| |g]; cbn [of_future]; intros H; try discriminate H; injection H as <-; intros j N; cbn [bstep].
    - destruct (y_fs y id) as [[f [|]]|]; try (split; reflexivity). unfold fut_poll. destruct f as [[e|]| |f].
      + split; [cbn; rewrite upd_ne by exact N; reflexivity|cbn; rewrite Nat.eqb_refl; reflexivity].
      + split; [cbn; rewrite upd_ne by exact N; reflexivity|cbn; rewrite Nat.eqb_refl; reflexivity].
      + destruct c; [split; [reflexivity|cbn; rewrite Nat.eqb_refl; reflexivity]|]. destruct (o_val (y_os y id)) as [[f|e]|].
        * apply inner_own with (f := f) (y := set_os (upd (y_os y) id (Os false None false)) y). exact N.
        * split; [cbn; rewrite upd_ne by exact N; reflexivity|cbn; rewrite Nat.eqb_refl; reflexivity].
        * destruct (o_tx (y_os y id)); (split; [cbn; rewrite ?upd_ne by exact N; reflexivity|cbn; rewrite Nat.eqb_refl; reflexivity]).
      + apply inner_own. exact N.
    - destruct (y_fs y id) as [[f b]|]; [|split; reflexivity]. unfold fut_drop. cbn [fst snd]. split; [|cbn; rewrite Nat.eqb_refl; reflexivity].
      cbn [set_fs y_fs]. rewrite upd_ne by exact N. destruct f; try reflexivity. unfold os_drop_rx. destruct (o_val (y_os y id)) as [[]|]; reflexivity.
  Qed.
  Lemma about_facts i id (e l : list bobs) : forallb (about i) e = true -> id <> i ->
    fut_waits id (rev e ++ l) = fut_waits id l /\ (forall b, in_pending id e b = b) /\ os_pending id e = false.
  Proof.
    intros H N. assert (N1 : (i =? id) = false) by (apply Nat.eqb_neq; congruence).
    assert (Ab : forall n, (n =? i) = true -> (n =? id) = false) by (intros n X; apply Nat.eqb_eq in X; subst; exact N1).
    split; [|split].
    - assert (H' : forallb (about i) (rev e) = true).
      { clear -H. induction e as [|a e IH]; [reflexivity|]. cbn [forallb] in H. apply andb_prop in H as [H1 H2]. cbn [rev]. rewrite forallb_app. rewrite IH by exact H2. cbn. rewrite H1. reflexivity. }
      clear H. induction (rev e) as [|a e' IH]; [reflexivity|]. cbn [forallb] in H'. apply andb_prop in H' as [H1 H2].
      cbn [app]. destruct a; cbn [about] in H1; cbn [fut_waits]; rewrite ?(Ab _ H1); apply IH, H2.
    - intros b. destruct e as [|a e]; [reflexivity|]. cbn [forallb] in H. apply andb_prop in H as [H1 H2]. destruct a; try reflexivity. cbn [about] in H1.
      cbn [in_pending]. rewrite (Ab _ H1). reflexivity.
    - destruct e as [|a e]; [reflexivity|]. cbn [forallb] in H. apply andb_prop in H as [H1 H2]. destruct a as [| | | | | | |n [|a]| | | | | | | | | | | | | | |]; try (destruct e; reflexivity). cbn [about] in H1.
      cbn [os_pending]. rewrite (Ab _ H1). destruct e; reflexivity.
  Qed.

  Definition fp (y : bsys) (l : list bobs) : Prop := forall id, fut_waits id l = true -> exists f, y_fs y id = Some (f, false).
  Definition fj (y : bsys) (l : list bobs) (k : wakers) : Prop :=
    forall id f, fut_waits id l = true -> y_fs y id = Some (f, false) -> k_fut k id = false ->
      match f with BRx => k_os k id = true /\ o_tx (y_os y id) = true | BPoll _ => k_in k id = true | BFailed _ => False end.
  Lemma fp_step bound o (y : bsys) l : binv bound y l -> fp y l -> fp (fst (bstep o y)) (rev (snd (bstep o y)) ++ l).
  Proof.
    intros B P id Wt. destruct (of_future o) as [i|] eqn:Eo.
    - destruct (Nat.eq_dec id i) as [->|N].
      2:{ destruct (future_own o y Eo N) as [E A]. destruct (about_facts _ l A N) as (F & _). rewrite F in Wt. rewrite E. exact (P _ Wt). }
      destruct o as [h|h r|h c|h|h|id c|id|c| |g]; try discriminate Eo; injection Eo as ->; revert Wt; cbn [bstep].
      + assert (In : forall f (y0 : bsys), fut_waits i (rev (snd (poll_inner i f y0)) ++ l) = true -> exists f1, y_fs (fst (poll_inner i f y0)) i = Some (f1, false)).
        { intros f y0. unfold poll_inner. destruct (poll_fut svc f (y_w y0)) as [w1 [[f1 [|a]]| |]]; cbn; rewrite ?Nat.eqb_refl; cbn; try discriminate.
          intros _. rewrite upd_eq. eauto. }
        destruct (y_fs y i) as [[f [|]]|] eqn:Ef.
        * intros Wt. destruct (P _ Wt) as [f' X]. congruence.
        * unfold fut_poll. destruct f as [[e|]| |f]; [cbn; rewrite Nat.eqb_refl; discriminate..| |apply In].
          destruct c; [cbn; intros _; eauto|]. destruct (o_val (y_os y i)) as [[f|e]|]; [apply In|cbn; rewrite Nat.eqb_refl; discriminate|].
          destruct (o_tx (y_os y i)); [cbn; intros _; eauto|cbn; rewrite Nat.eqb_refl; discriminate].
        * intros Wt. destruct (P _ Wt) as [f' X]. congruence.
      + destruct (y_fs y i) as [[f b]|] eqn:Ef; [cbn; rewrite Nat.eqb_refl; discriminate|]. intros Wt. destruct (P _ Wt) as [f' X]. congruence.
    - destruct (others_fkeep o y Eo) as [E A]. rewrite waits_other in Wt by (rewrite forallb_rev'; exact A).
      destruct (P _ Wt) as [f X]. exists f. rewrite E; [exact X|]. apply (f_lt (bi_f B)) in X. lia.
  Qed.
  Lemma fj_still o (y y1 : bsys) l e k id f : fj y l k -> fut_waits id l = true -> y_fs y id = Some (f, false) ->
    begins_fut id o y = false -> (forall b, in_pending id e b = b) -> k_fut (wake_step o y y1 e k) id = false ->
    match f with BRx => k_os (wake_step o y y1 e k) id = true /\ o_tx (y_os y1 id) = true | BPoll _ => k_in (wake_step o y y1 e k) id = true | BFailed _ => False end.
  Proof.
    intros J Wt E Bg Ip K. cbn [wake_step k_fut] in K. rewrite Bg, andb_true_r in K. apply orb_false_elim in K as [K _]. apply orb_false_elim in K as [K1 K2].
    specialize (J id f Wt E K1). destruct f as [e0| |f]; [exact J| |cbn [wake_step k_in]; rewrite Ip; exact J].
    destruct J as [J1 J2]. cbn [wake_step k_os]. rewrite J1 in K2 |- *. cbn [andb] in K2 |- *. rewrite K2. split; [reflexivity|].
    unfold os_fires in K2. rewrite J2 in K2. cbn in K2. destruct (o_tx (y_os y1 id)); [reflexivity|discriminate].
  Qed.
  Lemma fj_step bound o (y : bsys) l k : binv bound y l -> fp y l -> fj y l k ->
    fj (fst (bstep o y)) (rev (snd (bstep o y)) ++ l) (wake_step o y (fst (bstep o y)) (snd (bstep o y)) k).
  Proof.
    intros B P J id f Wt Ef. destruct (of_future o) as [i|] eqn:Eo.
    - destruct (Nat.eq_dec id i) as [->|N].
      2:{ destruct (future_own o y Eo N) as [E A]. destruct (about_facts _ l A N) as (F & F1 & F2). rewrite F in Wt. rewrite E in Ef.
          intros K. eapply fj_still; [exact J|exact Wt|exact Ef| |exact F1|exact K]. destruct o; try discriminate Eo; try reflexivity. injection Eo as ->. cbn.
          assert (X : (i =? id) = false) by (apply Nat.eqb_neq; congruence). rewrite X. reflexivity. }
      destruct o as [h|h r|h c|h|h|id c|id|c| |g]; try discriminate Eo; injection Eo as ->; revert Wt Ef; cbn [bstep].
      + assert (In : forall f0 (y0 : bsys) y', fut_waits i (rev (snd (poll_inner i f0 y0)) ++ l) = true -> y_fs (fst (poll_inner i f0 y0)) i = Some (f, false) ->
          match f with BRx => False | BPoll _ => k_in (wake_step (BPollF i c) y y' (snd (poll_inner i f0 y0)) k) i = true | BFailed _ => False end).
        { intros f0 y0 y'. unfold poll_inner. destruct (poll_fut svc f0 (y_w y0)) as [w1 [[f1 [|a]]| |]]; cbn; rewrite ?Nat.eqb_refl; cbn; try discriminate.
          intros _. rewrite upd_eq. intros E. injection E as <-. reflexivity. }
        assert (In' : forall f0 (y0 : bsys), fut_waits i (rev (snd (poll_inner i f0 y0)) ++ l) = true -> y_fs (fst (poll_inner i f0 y0)) i = Some (f, false) ->
          k_fut (wake_step (BPollF i c) y (fst (poll_inner i f0 y0)) (snd (poll_inner i f0 y0)) k) i = false ->
          match f with BRx => k_os (wake_step (BPollF i c) y (fst (poll_inner i f0 y0)) (snd (poll_inner i f0 y0)) k) i = true /\ o_tx (y_os (fst (poll_inner i f0 y0)) i) = true
            | BPoll _ => k_in (wake_step (BPollF i c) y (fst (poll_inner i f0 y0)) (snd (poll_inner i f0 y0)) k) i = true | BFailed _ => False end).
        { intros f0 y0 Wt Ef _. specialize (In f0 y0 (fst (poll_inner i f0 y0)) Wt Ef). destruct f; [exact In|destruct In|exact In]. }
        destruct (y_fs y i) as [[g [|]]|] eqn:Eg.
        * intros Wt. destruct (P _ Wt) as [f' X]. congruence.
        * unfold fut_poll. destruct g as [[e|]| |g]; [cbn; rewrite Nat.eqb_refl; discriminate..| |apply In'].
          destruct c.
          { intros _ _ K. exfalso. revert K. cbn [fst snd wake_step k_fut coop_of os_pending]. rewrite Nat.eqb_refl, orb_true_r. discriminate. }
          destruct (o_val (y_os y i)) as [[g|e]|]; [apply In'|cbn; rewrite Nat.eqb_refl; discriminate|].
          destruct (o_tx (y_os y i)) eqn:Et; [|cbn; rewrite Nat.eqb_refl; discriminate]. cbn [fst snd]. intros _ Ef _. rewrite Eg in Ef. injection Ef as <-.
          split; [|exact Et]. cbn [wake_step k_os coop_of os_pending negb]. rewrite Nat.eqb_refl, orb_true_r. reflexivity.
        * intros Wt. destruct (P _ Wt) as [f' X]. congruence.
      + destruct (y_fs y i) as [[g b]|] eqn:Eg; [cbn; rewrite Nat.eqb_refl; discriminate|]. intros Wt. destruct (P _ Wt) as [f' X]. congruence.
    - destruct (others_fkeep o y Eo) as [E A]. rewrite waits_other in Wt by (rewrite forallb_rev'; exact A).
      destruct (P _ Wt) as [g X]. assert (Ne : id <> y_fnext y) by (apply (f_lt (bi_f B)) in X; lia). rewrite (E _ Ne) in Ef.
      intros K. eapply fj_still; [exact J|exact Wt|exact Ef|destruct o; try reflexivity; discriminate Eo| |exact K]. intros b. apply in_other. exact A.
  Qed.

  (** ** Everything together *)
  Definition ws (y : bsys) (l : list bobs) : Prop :=
    (exists rest, wlog l = WPend :: rest) -> exists kk, y_wk y = Some kk /\ w_pc kk = WRest /\ w_finish kk = false.
  Lemma ws_step bound o (y : bsys) l : binv bound y l -> ws y l -> ws (fst (bstep o y)) (rev (snd (bstep o y)) ++ l).
  Proof.
    intros B J.
    assert (Dq : quiet_op o -> ws (fst (bstep o y)) (rev (snd (bstep o y)) ++ l)).
    { intros Q. destruct (quiet_step o y Q) as [Ew Ev]. destruct (not_worker_facts Ev) as (_ & _ & _ & F4). unfold ws. rewrite F4, Ew. exact J. }
    destruct o as [h|h r|h c|h|h|id c|id|c| |g]; try exact (Dq I); clear Dq; cbn [bstep].
    - destruct (y_wk y) as [k0|] eqn:K0; [|exact J].
      assert (Nn : forall pc, w_pc k0 = pc -> pc <> WRest -> ~ exists rest, wlog l = WPend :: rest).
      { intros pc P N X. destruct (J X) as (kk & A1 & A2 & _). rewrite K0 in A1. injection A1 as <-. congruence. }
      assert (Fn : w_pc k0 <> WRest -> w_finish k0 = false).
      { intros N. destruct (w_finish k0) eqn:F0; [|reflexivity]. exfalso. apply N. destruct (d_done (bi_d B) (d_fin (bi_d B) K0 F0)) as (_ & _ & D & _). apply (D _ K0). }
      unfold worker_step. destruct (w_pc k0) eqn:P0.
      + destruct (w_finish k0) eqn:F0; intros [rest X]; discriminate X.
      + destruct (w_cur k0) as [m|]; [destruct (os_is_closed (m_id m) y); intros [rest X]; discriminate X|]. intros X. exfalso. eapply Nn; [reflexivity| |exact X]. discriminate.
      + unfold poll_recv. destruct c.
        * intros _. cbn [fst go set_wk y_wk]. eexists. split; [reflexivity|]. split; [reflexivity|]. cbn. apply Fn. discriminate.
        * destruct (y_queue y) as [|m q]; [|intros [rest X]; discriminate X]. destruct (no_senders y || _); [intros [rest X]; discriminate X|].
          intros _. cbn [fst go set_wk y_wk]. eexists. split; [reflexivity|]. split; [reflexivity|]. cbn. apply Fn. discriminate.
      + destruct (os_is_closed (m_id m) y); intros [rest X]; discriminate X.
      + destruct (w_failed k0); [intros [rest X]; discriminate X|].
        destruct (poll_ready svc (w_svc k0) (y_w y)) as [w1 [[s1 [|[[]|e]]]| |]]; try (intros [rest X]; discriminate X).
        intros _. cbn [fst set_wk y_wk]. eexists. split; [reflexivity|]. split; [reflexivity|]. cbn. apply Fn. discriminate.
      + destruct (call svc (w_svc k0) (m_req m) (y_w y)) as [w1 [[s1 f]| |]]; intros [rest X]; discriminate X.
      + intros [rest X]; discriminate X.
      + intros X. exfalso. destruct (y_cell y); (eapply Nn; [reflexivity| |exact X]; discriminate).
      + intros X. exfalso. eapply Nn; [reflexivity| |exact X]. discriminate.
      + destruct (w_failed k0); intros [rest X]; discriminate X.
      + exact J.
    - destruct (y_wk y) as [k0|] eqn:K0; [|exact J]. destruct (worker_rests k0); [|exact J]. intros [rest X]. discriminate X.
  Qed.

  Record stall (bound : nat) (x : asys) : Prop := {
    s_b : binv bound (a_y x) (a_l x); s_g : guarded false bound (a_y x) (a_l x);
    s_w : wjust (a_y x) (a_l x) (a_k x); s_s : ws (a_y x) (a_l x); s_c : line_closed (a_y x);
    s_hp : hp (a_y x) (a_l x); s_h : hj (a_y x) (a_l x) (a_k x);
    s_fp : fp (a_y x) (a_l x); s_f : fj (a_y x) (a_l x) (a_k x) }.
  Lemma stall_step bound o (x : asys) : stall bound x -> stall bound (astep o x).
  Proof.
    intros [Sb Sg Sw Ss Sc Shp Sh Sfp Sf]. destruct o as [o| |id| |h|id]; cbn [astep].
    - assert (X1 := binv_step Sb (bstep_move o (a_y x))). assert (X2 := @room_step _ _ _ _ svc false bound _ _ o Sb Sg ltac:(discriminate)).
      assert (X3 := wjust_step o Sb Sw). assert (X4 := ws_step o Sb Ss). assert (X5 := line_step o Sc).
      assert (X6 := hp_step o Sb Shp). assert (X7 := hj_step o Sb Sg Shp Sh). assert (X8 := fp_step o Sb Sfp). assert (X9 := fj_step o Sb Sfp Sf).
      destruct (bstep o (a_y x)) as [y1 l]. cbn [fst snd] in *. split; assumption.
    - split; try assumption; cbn [a_y a_l a_k].
      + intros kk K P F E. cbn [k_worker] in E. apply orb_false_elim in E as [E1 E2]. destruct (Sw kk K P F E1) as [(A1 & A2 & _)|A]; [congruence|]. right. exact A.
    - split; try assumption; cbn [a_y a_l a_k].
      + intros i f Wt Ef K. cbn [k_fut k_os k_in] in *. destruct (Nat.eq_dec i id) as [->|N].
        * rewrite upd_eq in K. apply orb_false_elim in K as [K1 K2]. specialize (Sf _ _ Wt Ef K1). destruct f; auto. congruence.
        * rewrite upd_ne in K by exact N. specialize (Sf _ _ Wt Ef K). destruct f; auto. rewrite upd_ne by exact N. exact Sf.
    - split; try assumption; cbn [a_y a_l a_k].
      + intros kk K P F E. discriminate E.
    - split; try assumption; cbn [a_y a_l a_k].
      + intros F j ps E S K. cbn [k_handle] in K. destruct (Nat.eq_dec j h) as [->|N]; [rewrite upd_eq in K; discriminate|]. rewrite upd_ne in K by exact N.
        exact (Sh F j ps E S K).
    - split; try assumption; cbn [a_y a_l a_k].
      + intros j f Wt Ef K. cbn [k_fut k_os k_in] in *. destruct (Nat.eq_dec j id) as [->|N]; [rewrite upd_eq in K; discriminate|]. rewrite upd_ne in K by exact N.
        exact (Sf _ _ Wt Ef K).
  Qed.
  Lemma stall_init bound s w : stall bound (ASys (bsys0 svc bound s w) [] wakers0).
  Proof.
    split; cbn [a_y a_l a_k].
    - apply binv_init.
    - apply room_init.
    - intros kk _ _ _ X. discriminate X.
    - intros [rest X]. discriminate X.
    - intros X. discriminate X.
    - intros h X. destruct X. reflexivity.
    - intros _ h ps _ X. destruct X. reflexivity.
    - intros id X. discriminate X.
    - intros id f X. discriminate X.
  Qed.
  Lemma stall_always bound s w ops : stall bound (arun svc bound s w ops).
  Proof.
    unfold arun. assert (X := stall_init bound s w). revert X. generalize (ASys (bsys0 svc bound s w) [] wakers0).
    induction ops as [|o ops IH]; intros x X; [exact X|]. cbn [fold_left]. apply IH, stall_step, X.
  Qed.
  Lemma arun_moves bound s w ops : buffer_run svc bound s w (moves ops) = (a_y (arun svc bound s w ops), a_l (arun svc bound s w ops)).
  Proof.
    unfold arun, buffer_run. change (@nil bobs) with (a_l (ASys (bsys0 svc bound s w) [] wakers0)) at 1.
    change (bsys0 svc bound s w) with (a_y (ASys (bsys0 svc bound s w) [] wakers0)) at 1. generalize (ASys (bsys0 svc bound s w) [] wakers0).
    induction ops as [|o ops IH]; intros x; [reflexivity|]. cbn [moves flat_map fold_left]. rewrite <- IH. destruct o as [o| |id| |h|id]; try reflexivity.
    cbn [app brun astep]. destruct (bstep o (a_y x)) as [y1 l]. reflexivity.
  Qed.

  (** ** The theorems *)
  Lemma at_rest_pc (d : handle (Req := Req)) : at_rest d = true -> h_pc d = HRest.
  Proof. unfold at_rest. destruct (h_pc d); congruence. Qed.
  Lemma handle_waits bound s w ops x h d : arun svc bound s w ops = x -> fair (a_l x) ->
    y_hs (a_y x) h = Some d -> at_rest d = true -> since h (a_l x) <> None -> k_handle (a_k x) h = false ->
    exists t, h_ps d = PsAcquiring (Some t) /\ In t (sem_queue (y_sem (a_y x))) /\ y_closed (a_y x) = false /\ room false bound (a_y x) (a_l x).
  Proof.
    intros <- F E A S K. assert (X := stall_always bound s w ops). destruct d as [ps pc]. apply at_rest_pc in A. cbn in A. subst pc.
    destruct (s_h X F _ E S K) as (t & -> & I). exists t. split; [reflexivity|]. split; [exact I|].
    assert (C : y_closed (a_y (arun svc bound s w ops)) = false).
    { destruct (y_closed _) eqn:C; [|reflexivity]. rewrite (s_c X C) in I. destruct I. }
    split; [exact C|]. exact (s_g X F C).
  Qed.
  Lemma handle_sleeps bound s w ops x h d : arun svc bound s w ops = x -> fair (a_l x) ->
    y_hs (a_y x) h = Some d -> at_rest d = true -> since h (a_l x) <> None -> k_handle (a_k x) h = false ->
    snd (brun (a_y x) (a_l x) [BReady h; BStep h false]) = OReady h Pending :: a_l x.
  Proof.
    intros E F Eh A S K. destruct (@handle_waits bound s w ops x _ _ E F Eh A S K) as (t & Ep & I & C & R). destruct d as [ps pc]. cbn in Ep. subst ps.
    cbn [brun bstep]. rewrite Eh, A. cbn [handle_ready put_handle set_hs y_hs h_ps]. rewrite upd_eq. unfold tx_is_closed. rewrite C.
    cbn [handle_step h_pc h_ps poll_reserve put_handle set_hs y_closed y_sem]. rewrite C. unfold sem_poll.
    assert (N : mem_nat t (sem_granted (y_sem (a_y x))) = false).
    { destruct (mem_nat t (sem_granted (y_sem (a_y x)))) eqn:M; [|reflexivity]. exfalso. apply mem_in in M. exact (@not_both _ _ _ (rm_swf R) M I). }
    rewrite N. reflexivity.
  Qed.
  Lemma future_sleeps bound s w ops x id : arun svc bound s w ops = x -> fut_waits id (a_l x) = true -> k_fut (a_k x) id = false ->
    k_in (a_k x) id = true \/ snd (bstep (BPollF id false) (a_y x)) = [OPolled id Pending].
  Proof.
    intros <- Wt K. assert (X := stall_always bound s w ops). destruct (s_fp X _ Wt) as [f Ef]. assert (J := s_f X _ Wt Ef K).
    destruct f as [e| |f]; [destruct J| |left; exact J]. destruct J as [J1 J2]. right. cbn [bstep]. rewrite Ef. cbn [fut_poll].
    destruct (o_val (y_os _ id)) as [v|] eqn:V; [apply (q_val (bi_q (s_b X))) in V; congruence|]. rewrite J2. reflexivity.
  Qed.
  Lemma worker_waits bound s w ops x : arun svc bound s w ops = x -> worker_sleeps (a_l x) -> k_worker (a_k x) = false ->
    (k_svc (a_k x) = true /\ exists rest, List.filter (@by_worker _ _ _ _ svc) (a_l x) = WPend :: WAsk Pending :: rest) \/
    (holds (y_wk (a_y x)) = [] /\ y_queue (a_y x) = [] /\ no_senders (a_y x) = false /\ ~ In WGone (a_l x)).
  Proof.
    intros <- Sl K. assert (X := stall_always bound s w ops). destruct (s_s X Sl) as (kk & A1 & A2 & A3).
    destruct (s_w X A1 A2 A3 K) as [(B1 & B2 & B3)|(B1 & B2 & B3 & B4)]; [left; split; assumption|]. right.
    split; [rewrite A1; cbn; unfold hand; rewrite B1, A2; reflexivity|]. split; [exact B3|]. split; [exact B4|].
    intros G. apply (e_gone (bi_e (s_b X))) in G. congruence.
  Qed.
  Lemma forallb_exists_false A (f : A -> bool) l : forallb f l = false -> exists a, In a l /\ f a = false.
  Proof.
    induction l as [|a l IH]; cbn; [discriminate|]. destruct (f a) eqn:E; [|intros _; exists a; auto]. intros H. destruct (IH H) as (b & I & F). eauto.
  Qed.
  Lemma some_sender (y : bsys) : no_senders y = false -> exists h, y_hs y h <> None.
  Proof.
    unfold no_senders. intros H. destruct (forallb_exists_false _ _ H) as (h & _ & E). exists h. destruct (y_hs y h); discriminate.
  Qed.
  Lemma worker_sleeping bound s w ops x : arun svc bound s w ops = x -> worker_sleeps (a_l x) -> k_worker (a_k x) = false ->
    (k_svc (a_k x) = true /\ exists rest, List.filter (@by_worker _ _ _ _ svc) (a_l x) = WPend :: WAsk Pending :: rest) \/
    ((forall id r, In (id, r) (sent (a_l x)) -> served id r (a_l x)) /\ exists h, alive h (a_l x) = true).
  Proof.
    intros E Sl K. destruct (@worker_waits bound s w ops x E Sl K) as [A|(A1 & A2 & A3 & A4)]; [left; exact A|]. right. subst x.
    assert (X := stall_always bound s w ops). split.
    - intros id r H. destruct (t_fate (bi_t (s_b X)) _ _ H) as [T|[T|T]]; [|exact T|contradiction]. rewrite A1, A2 in T. destruct T.
    - destruct (some_sender _ A3) as [h Hh]. exists h. apply (ih_alive (bi_h (s_b X))). exact Hh.
  Qed.
  (** Nobody is woken, nobody is running, and the worker does not wait for the service. *)
  Lemma nobody_stalls bound s w ops x : arun svc bound s w ops = x -> worker_sleeps (a_l x) ->
    (forall rest, List.filter (@by_worker _ _ _ _ svc) (a_l x) <> WPend :: WAsk Pending :: rest) ->
    k_worker (a_k x) = false -> (forall id, fut_waits id (a_l x) = true -> k_fut (a_k x) id = false) ->
    forall id, fut_waits id (a_l x) = true -> k_in (a_k x) id = true.
  Proof.
    intros E Sl Nw K Kf id Wt. destruct (@worker_waits bound s w ops x E Sl K) as [[_ [rest A]]|(A1 & A2 & A3 & A4)]; [exfalso; eapply Nw; eauto|]. subst x.
    assert (X := stall_always bound s w ops). destruct (s_fp X _ Wt) as [f Ef]. assert (J := s_f X _ Wt Ef (Kf _ Wt)).
    destruct f as [e| |f]; [destruct J| |exact J]. exfalso. destruct J as [_ J]. apply (q_tx (bi_q (s_b X))) in J. rewrite A1, A2 in J. destruct J.
  Qed.
  Lemma slots_taken bound s w ops x h hs : arun svc bound s w ops = x -> intact (a_l x) -> worker_sleeps (a_l x) ->
    (forall rest, List.filter (@by_worker _ _ _ _ svc) (a_l x) <> WPend :: WAsk Pending :: rest) ->
    k_worker (a_k x) = false ->
    (forall j d, y_hs (a_y x) j = Some d -> at_rest d = true) -> (forall j, since j (a_l x) <> None -> k_handle (a_k x) j = false) ->
    (forall j, has_slot j (a_l x) = true -> In j hs) -> since h (a_l x) <> None -> bound <= length hs.
  Proof.
    intros E In_ Sl Nw K Rs Kh Hs Sh. destruct (@worker_waits bound s w ops x E Sl K) as [[_ [rest A]]|(A1 & A2 & A3 & A4)]; [exfalso; eapply Nw; eauto|].
    assert (X := stall_always bound s w ops). rewrite E in X. assert (F : fair (a_l x)) by exact (proj1 In_).
    destruct (s_hp X _ Sh) as (ps & pc & Eh & _).
    destruct (@handle_waits bound s w ops x _ _ E F Eh (Rs _ _ Eh) Sh (Kh _ Sh)) as (t & Ep & It & C & R). assert (Sw := rm_swf R).
    assert (Av : sem_avail (y_sem (a_y x)) = 0).
    { destruct (sem_avail (y_sem (a_y x))) eqn:Ea; [reflexivity|]. exfalso. rewrite (sw_free Sw) in It by lia. destruct It. }
    assert (Gr : sem_granted (y_sem (a_y x)) = []).
    { destruct (sem_granted (y_sem (a_y x))) as [|t' g] eqn:Eg; [reflexivity|]. exfalso.
      destruct (sw_back Sw t') as [j Ej]; [rewrite Eg; left; left; reflexivity|]. assert (Lj := rm_line R j).
      unfold tks in Ej. destruct (y_hs (a_y x) j) as [[[|tj| |] pcj]|] eqn:Hj; try discriminate Ej. cbn in Ej, Lj. subst tj.
      destruct (@handle_waits bound s w ops x _ _ E F Hj (Rs _ _ Hj) Lj (Kh _ Lj)) as (t2 & Ep2 & It2 & _). cbn in Ep2. injection Ep2 as <-.
      apply (@not_both _ _ t' Sw); [rewrite Eg; left; reflexivity|exact It2]. }
    assert (Rc : rcount (y_hnext (a_y x)) (y_hs (a_y x)) <= length hs).
    { rewrite rcount_filter. apply NoDup_incl_length; [apply NoDup_filter, seq_NoDup|]. intros j J. apply filter_In in J as [_ J].
      apply Hs, (ih_slot (bi_h (s_b X))). unfold rd in J. destruct (y_hs (a_y x) j) as [[[] pcj]|]; try discriminate. eauto. }
    assert (Sum := rm_sum R). unfold permits in Sum. rewrite Av, Gr, A2 in Sum. cbn [length] in Sum. lia.
  Qed.
End Stall.
