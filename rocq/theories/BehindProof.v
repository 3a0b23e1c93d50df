(** Proofs for C71. *)
From Verif Require Import Base Limits Buffer BehindSpec Track RateSpec RateProof BufferTop.
Set Implicit Arguments.

Section Proof.
  Context {W Req Resp Err : Type} (svc : Service W Req Resp Err).
  Notation bsys := (bsys svc).
  Notation bobs := (bobs svc).
  Notation sobs := (sobs svc).
  Variable all : list (bop (W := W) (Req := Req)).

  (** [P]: what holds of the wrapped service and the world while the worker has it; [Q]: of the world, always. *)
  Variable P : phase -> st svc -> W -> list sobs -> Prop.
  Variable Q : W -> list sobs -> Prop.
  Hypothesis P_out : forall p s w u g, P p s w u -> outside svc all g -> P p s (g w) u.
  Hypothesis P_ready : forall p s w u w1 s1 a, P p s w u -> p <> Dead -> poll_ready svc s w = (w1, Val (s1, a)) ->
    P (phase_after a) s1 w1 (ObsReady a :: u).
  Hypothesis P_call : forall s w u r w1 s1 f, P Primed s w u -> call svc s r w = (w1, Val (s1, f)) ->
    P Idle s1 w1 (ObsCall r f :: u).
  Hypothesis P_Q : forall p s w u, P p s w u -> Q w u.
  Hypothesis Q_out : forall w u g, Q w u -> outside svc all g -> Q (g w) u.
  Hypothesis Q_ready : forall p s w u, P p s w u -> Q (fst (poll_ready svc s w)) u.
  Hypothesis Q_call : forall p s w u r, P p s w u -> Q (fst (call svc s r w)) u.
  Hypothesis Q_gone : forall s w u, Q w u -> Q (drop_svc svc s w) u.

  (** Where the worker is, against the phase. *)
  Definition pc_phase (k : worker svc) (p : phase) : Prop :=
    match w_pc k with
    | WReady _ => p = Primed
    | WStore _ _ | WClose _ _ | WTell _ => True
    | _ => w_failed k = None -> p <> Dead
    end.
  Definition hung (k : worker svc) : bool := match w_pc k with WHung _ => true | _ => false end.
  Definition binv (y : bsys) (u : list sobs) : Prop :=
    Q (y_w y) u /\
    match y_wk y with
    | Some k => hung k = true \/ exists p, P p (w_svc k) (y_w y) u /\ pc_phase k p
    | None => True
    end.

  (** Moves that leave the worker alone. *)
  Lemma binv_out y y1 u g : outside svc all g -> y_w y1 = g (y_w y) -> y_wk y1 = y_wk y -> binv y u -> binv y1 u.
  Proof.
    intros Hg Ew Ek [H1 H2]. split.
    - rewrite Ew. apply Q_out; assumption.
    - rewrite Ek. destruct (y_wk y) as [k|]; [| exact I]. destruct H2 as [H2|(p & H2 & H3)]; [left; exact H2 | right].
      exists p. split; [| exact H3]. rewrite Ew. apply P_out; assumption.
  Qed.
  Lemma binv_same y y1 u : y_w y1 = y_w y -> y_wk y1 = y_wk y -> binv y u -> binv y1 u.
  Proof. intros. eapply binv_out with (g := fun w => w); try eassumption. constructor. Qed.

  Lemma os_send_w id v (y : bsys) : exists g, outside svc all g /\ y_w (os_send id v y) = g (y_w y) /\ y_wk (os_send id v y) = y_wk y.
  Proof.
    unfold os_send. destruct (o_rx _); [exists (fun w => w); repeat split; constructor|].
    destruct v as [f|e]; [exists (drop_fut svc f) | exists (fun w => w)]; (split; [first [apply out_none | apply out_drop] | auto]).
  Qed.
  Lemma drain_w q : forall y, y_w (drain q y : bsys) = y_w y /\ y_wk (drain q y) = y_wk y.
  Proof. induction q as [|m q IH]; intros y; cbn [drain]; [auto|]. destruct (IH (os_drop_tx (m_id m) (add_permit y))) as [-> ->]. auto. Qed.
  Lemma rx_drop_w (y : bsys) : y_w (rx_drop y) = y_w y /\ y_wk (rx_drop y) = y_wk y.
  Proof. unfold rx_drop. destruct (drain_w (y_queue y) (rx_close y)) as [A B]. cbn. rewrite A, B. auto. Qed.
  Lemma drop_worker_w k (y : bsys) u : Q (y_w y) u -> binv (drop_worker k y) u.
  Proof.
    intros H. split; [|exact I]. unfold drop_worker. cbv zeta.
    set (y1 := match w_cur k with Some m => os_drop_tx (m_id m) y | None => y end).
    change (Q (drop_svc svc (w_svc k) (y_w (rx_drop y1))) u). destruct (rx_drop_w y1) as [-> _]. apply Q_gone. subst y1. destruct (w_cur k); exact H.
  Qed.
  Lemma poll_recv_w c (y : bsys) : y_w (fst (poll_recv c y)) = y_w y /\ y_wk (fst (poll_recv c y)) = y_wk y.
  Proof. unfold poll_recv. destruct c; [auto|]. destruct (y_queue y); [destruct (_ || _)|]; auto. Qed.
  Lemma poll_reserve_w c p (y : bsys) : y_w (fst (fst (poll_reserve c p y))) = y_w y /\ y_wk (fst (fst (poll_reserve c p y))) = y_wk y.
  Proof.
    unfold poll_reserve. destruct p; auto; destruct c; auto; destruct (y_closed y); auto;
      destruct (sem_poll _ _) as [[m t1] got]; destruct got; auto.
  Qed.

  Lemma worker_keeps c k (y : bsys) l : y_wk y = Some k -> binv y (inner_uses l) ->
    binv (fst (worker_step c k y)) (inner_uses (rev (snd (worker_step c k y)) ++ l)).
  Proof.
    intros Ek [HQ HP]. rewrite Ek in HP.
    destruct HP as [HP|(p & HP & Hpc)].
    { unfold hung in HP. unfold worker_step. destruct (w_pc k) eqn:E; try discriminate. cbn. split; [exact HQ|]. rewrite Ek. left. unfold hung. rewrite E. reflexivity. }
    unfold worker_step. unfold pc_phase in Hpc. destruct (w_pc k) eqn:Epc.
    - destruct (w_finish k); cbn.
      + split; [exact HQ|]. rewrite Ek. right. exists p. split; [exact HP|]. unfold pc_phase. rewrite Epc. exact Hpc.
      + split; [exact HQ|]. right. exists p. split; [exact HP | exact Hpc].
    - destruct (w_cur k) as [m|]; [destruct (os_is_closed (m_id m) y)|]; cbn; (split; [exact HQ|]); right; exists p; (split; [exact HP | exact Hpc]).
    - destruct (poll_recv_w c y) as [Ew Ek1]. destruct (poll_recv c y) as [y1 [|[m|]]]; cbn in Ew, Ek1; cbn;
        (split; [cbn; rewrite Ew; exact HQ|]); right; exists p; (split; [cbn; rewrite Ew; exact HP | exact Hpc]).
    - destruct (os_is_closed (m_id m) y); cbn; (split; [exact HQ|]); right; exists p; (split; [exact HP | exact Hpc]).
    - destruct (w_failed k) as [e|] eqn:Ef.
      { destruct (os_send_w (m_id m) (Er e) y) as (g & Hg & Ew & Ek1). cbn [fst snd]. split; [cbn; rewrite Ew; apply Q_out; assumption|].
        right. exists p. split; [cbn; rewrite Ew; apply P_out; assumption | cbn; rewrite Ef; discriminate]. }
      destruct (poll_ready svc (w_svc k) (y_w y)) as [w1 [[s1 a]| |]] eqn:Er.
      + assert (H := P_ready HP (Hpc eq_refl) Er).
        destruct a as [|[[]|e]]; cbn in *; (split; [apply (P_Q H)|]); right; eexists; (split; [exact H|]); cbn; auto; discriminate.
      + cbn. apply drop_worker_w. cbn. pose proof (Q_ready HP) as H. rewrite Er in H. exact H.
      + cbn. pose proof (Q_ready HP) as H. rewrite Er in H. split; [exact H|]. left. reflexivity.
    - subst p. destruct (call svc (w_svc k) (m_req m) (y_w y)) as [w1 [[s1 f]| |]] eqn:Er.
      + assert (H := P_call (m_req m) HP Er). cbn. split; [apply (P_Q H)|]. right. exists Idle. split; [exact H|]. cbn. discriminate.
      + cbn. apply drop_worker_w. cbn. pose proof (Q_call (m_req m) HP) as H. rewrite Er in H. exact H.
      + cbn. pose proof (Q_call (m_req m) HP) as H. rewrite Er in H. split; [exact H|]. left. reflexivity.
    - destruct (os_send_w (m_id m) (Ok f) y) as (g & Hg & Ew & Ek1). cbn [fst snd]. split; [cbn; rewrite Ew; apply Q_out; assumption|].
      right. exists p. split; [cbn; rewrite Ew; apply P_out; assumption | exact Hpc].
    - destruct (y_cell y); cbn; (split; [exact HQ|]); right; exists p; (split; [exact HP | exact I]).
    - cbn. split; [exact HQ|]. right. exists p. split; [exact HP | exact I].
    - destruct (w_failed k) as [e|] eqn:Ef.
      + destruct (os_send_w (m_id m) (Er e) y) as (g & Hg & Ew & Ek1). cbn [fst snd]. split; [cbn; rewrite Ew; apply Q_out; assumption|].
        right. exists p. split; [cbn; rewrite Ew; apply P_out; assumption | cbn; rewrite Ef; discriminate].
      + cbn. apply drop_worker_w. exact HQ.
    - cbn. split; [exact HQ|]. rewrite Ek. left. unfold hung. rewrite Epc. reflexivity.
  Qed.

  Lemma bstep_keeps o (y : bsys) l : (forall g, o = BEnv g -> In o all) -> binv y (inner_uses l) ->
    binv (fst (bstep o y)) (inner_uses (rev (snd (bstep o y)) ++ l)).
  Proof.
    intros Ho HI. destruct o as [h|h r|h c|h|h|id c|id|c| |g]; cbn [bstep].
    - destruct (y_hs y h) as [d|]; [destruct (at_rest d)|]; try exact HI.
    - destruct (y_hs y h) as [d|]; [destruct (at_rest d)|]; try exact HI. unfold handle_call, send_item. destruct (h_ps d); exact HI.
    - destruct (y_hs y h) as [d|]; [|exact HI]. unfold handle_step. destruct (h_pc d); try exact HI.
      destruct (poll_reserve_w c (h_ps d) y) as [Ew Ek]. destruct (poll_reserve c (h_ps d) y) as [[y1 p] [|[u|e]]]; cbn in Ew, Ek; cbn;
        (eapply binv_same; [exact Ew | exact Ek | exact HI]).
    - destruct (y_hs y h) as [d|]; [destruct (at_rest d)|]; try exact HI.
    - destruct (y_hs y h) as [d|]; [destruct (at_rest d)|]; try exact HI. unfold handle_drop. cbv zeta. cbn [fst snd rev app inner_uses].
      set (y1 := drop_sender (h_ps d) y). assert (E1 : y_w y1 = y_w y /\ y_wk y1 = y_wk y) by (subst y1; destruct (h_ps d); auto).
      destruct E1 as [Ew Ek]. change (y_wk (set_hs (upd (y_hs y1) h None) y1)) with (y_wk y1). rewrite Ek. destruct (y_wk y) as [k|] eqn:E.
      + eapply binv_same; [exact Ew | cbn; congruence | exact HI].
      + destruct (no_senders (set_hs (upd (y_hs y1) h None) y1)).
        * match goal with |- binv (set_queue [] (drain ?q ?z)) _ => destruct (drain_w q z) as [A B] end.
          cbn in A, B. eapply binv_same; [cbn; rewrite A; exact Ew | cbn; rewrite B; congruence | exact HI].
        * eapply binv_same; [exact Ew | cbn; congruence | exact HI].
    - destruct (y_fs y id) as [[f [|]]|]; try exact HI.
      assert (Hp : forall f z, y_w z = y_w y -> y_wk z = y_wk y -> binv (fst (poll_inner id f z)) (inner_uses (rev (snd (poll_inner id f z)) ++ l))).
      { intros f0 z Ew Ek. unfold poll_inner.
        assert (Hf : binv (set_w (fst (poll_fut svc f0 (y_w z))) z) (inner_uses l)).
        { eapply binv_out with (g := fun w => fst (poll_fut svc f0 w)); [apply out_poll | cbn; rewrite Ew; reflexivity | exact Ek | exact HI]. }
        destruct (poll_fut svc f0 (y_w z)) as [w1 [[f1 a]| |]]; exact Hf. }
      destruct f as [[e|]| |f]; cbn [fut_poll]; try exact HI.
      + destruct c; [exact HI|]. destruct (o_val (y_os y id)) as [[f|e]|]; [apply Hp; reflexivity | exact HI |].
        destruct (o_tx _); exact HI.
      + apply Hp; reflexivity.
    - destruct (y_fs y id) as [[f b]|]; [|exact HI]. cbn. destruct f as [e| |f]; [exact HI | |].
      + unfold os_drop_rx. destruct (o_val (y_os y id)) as [[f|e]|]; [|exact HI..].
        eapply binv_out with (g := drop_fut svc f); [apply out_drop | reflexivity | reflexivity | exact HI].
      + eapply binv_out with (g := drop_fut svc f); [apply out_drop | reflexivity | reflexivity | exact HI].
    - destruct (y_wk y) as [k|] eqn:Ek; [|exact HI]. apply worker_keeps; assumption.
    - destruct (y_wk y) as [k|] eqn:Ek; [|exact HI]. destruct (worker_rests k); [|exact HI].
      cbn. apply drop_worker_w. apply HI.
    - cbn. eapply binv_out with (g := g); [apply out_env; apply (Ho g eq_refl) | reflexivity | reflexivity | exact HI].
  Qed.

  Lemma brun_keeps ops : incl ops all -> forall y l, binv y (inner_uses l) ->
    binv (fst (brun y l ops)) (inner_uses (snd (brun y l ops))).
  Proof.
    induction ops as [|o ops IH]; intros Hall y l HI; [exact HI|].
    cbn [brun]. destruct (bstep o y) as [y1 l1] eqn:E. apply IH; [intros x Hx; apply Hall; right; exact Hx|].
    pose proof (@bstep_keeps o y l) as H. rewrite E in H. apply H; [|exact HI]. intros g ->. apply Hall. left. reflexivity.
  Qed.
End Proof.

(** ** One owner *)
Section Owner.
  Context {W Req Resp Err : Type} (svc : Service W Req Resp Err).
  Notation obs h := (map (fun e : W * sobs svc * W => snd (fst e)) h).

  (** Where a history that neither panics nor hangs has led. *)
  Inductive leads : phase -> st svc -> W -> list ((W -> W) * @sop Req) -> list (sobs svc) -> phase -> st svc -> W -> Prop :=
  | ld_nil p s w : leads p s w [] [] p s w
  | ld_ready p s w g h u w1 s1 a p2 s2 w2 : p <> Dead -> poll_ready svc s (g w) = (w1, Val (s1, a)) ->
      leads (phase_after a) s1 w1 h u p2 s2 w2 -> leads p s w ((g, SReady) :: h) (ObsReady a :: u) p2 s2 w2
  | ld_call s w g r h u w1 s1 f p2 s2 w2 : call svc s r (g w) = (w1, Val (s1, f)) ->
      leads Idle s1 w1 h u p2 s2 w2 -> leads Primed s w ((g, SCall r) :: h) (ObsCall r f :: u) p2 s2 w2.
  Lemma leads_run p s w h u p2 s2 w2 : leads p s w h u p2 s2 w2 -> obs (run_svc svc p s w h) = u.
  Proof.
    induction 1 as [|p s w g h u w1 s1 a p2 s2 w2 Hp E _ IH|s w g r h u w1 s1 f p2 s2 w2 E _ IH]; cbn; [reflexivity| |].
    - rewrite E. destruct p; [| |congruence]; cbn; rewrite IH; reflexivity.
    - rewrite E. cbn. rewrite IH. reflexivity.
  Qed.
  Lemma leads_ready p s w h u p2 s2 w2 : leads p s w h u p2 s2 w2 -> forall g w3 s3 a, p2 <> Dead ->
    poll_ready svc s2 (g w2) = (w3, Val (s3, a)) -> leads p s w (h ++ [(g, SReady)]) (u ++ [ObsReady a]) (phase_after a) s3 w3.
  Proof.
    induction 1; intros; cbn [app]; econstructor; eauto; constructor.
  Qed.
  Lemma leads_call p s w h u p2 s2 w2 : leads p s w h u p2 s2 w2 -> p2 = Primed -> forall g r w3 s3 f,
    call svc s2 r (g w2) = (w3, Val (s3, f)) -> leads p s w (h ++ [(g, SCall r)]) (u ++ [ObsCall r f]) Idle s3 w3.
  Proof.
    induction 1; intros; subst; cbn [app]; econstructor; eauto; constructor.
  Qed.

  Lemma one_owner bound s w ops y l : buffer_run svc bound s w ops = (y, l) ->
    exists h, Forall (fun o => outside svc ops (fst o)) h /\ obs (run_svc svc Idle s w h) = rev (inner_uses l).
  Proof.
    intros E.
    set (P := fun p s1 w1 u => exists h w0 g, Forall (fun o => outside svc ops (fst o)) h /\ leads Idle s w h (rev u) p s1 w0 /\
                 outside svc ops g /\ w1 = g w0).
    set (Q := fun (w1 : W) u => exists h, Forall (fun o => outside svc ops (fst o)) h /\ obs (run_svc svc Idle s w h) = rev u).
    assert (PQ : forall p s w u, P p s w u -> Q w u).
    { intros p s0 w1 u (h & w0 & g & H1 & H2 & _). exists h. split; [exact H1 | eapply leads_run; eassumption]. }
    assert (B : binv P Q (fst (brun (bsys0 svc bound s w) [] ops)) (inner_uses (snd (brun (bsys0 svc bound s w) [] ops)))).
    { apply brun_keeps with (all := ops).
      - intros p s1 w1 u g (h & w0 & g0 & H1 & H2 & H3 & ->) Hg. exists h, w0, (fun w => g (g0 w)).
        repeat split; auto. apply out_then; assumption.
      - intros p s1 w1 u w2 s2 a (h & w0 & g0 & H1 & H2 & H3 & ->) Hp E1.
        exists (h ++ [(g0, SReady)]), w2, (fun w => w). repeat split; [| |constructor].
        + apply Forall_app. split; [exact H1 | constructor; [exact H3 | constructor]].
        + cbn [rev]. eapply leads_ready; eassumption.
      - intros s1 w1 u r w2 s2 f (h & w0 & g0 & H1 & H2 & H3 & ->) E1.
        exists (h ++ [(g0, SCall r)]), w2, (fun w => w). repeat split; [| |constructor].
        + apply Forall_app. split; [exact H1 | constructor; [exact H3 | constructor]].
        + cbn [rev]. eapply leads_call; eauto.
      - exact PQ.
      - auto.
      - intros p s1 w1 u H. destruct (PQ _ _ _ _ H) as (h & X). exists h. exact X.
      - intros p s1 w1 u r H. destruct (PQ _ _ _ _ H) as (h & X). exists h. exact X.
      - auto.
      - apply incl_refl.
      - split; [exists []; split; [constructor | reflexivity]|].
        right. exists Idle. split; [|cbn; discriminate].
        exists [], w, (fun w => w). repeat split; constructor. }
    unfold buffer_run in E. rewrite E in B. exact (proj1 B).
  Qed.
End Owner.

(** ** RateLimit behind a Buffer *)
Section Rate.
  Context {W Req Resp Err : Type} (rt : Rt W) (svc : Service W Req Resp Err) (r : rate).
  Context (Hnum : (0 < r_num r)%N) (Hper : (0 < r_per r)%Z) (Hgo : time_goes_on rt svc).
  Notation rl := (rate_limit (note_rt rt) r (noting rt svc)).

  (** The first windows, all over by [e]. *)
  Inductive past : Z -> list Z -> Z -> Prop :=
  | past_nil lo e : (lo <= e)%Z -> past lo [] e
  | past_cons lo s ts rest e : (lo <= s)%Z -> (N.of_nat (length ts) <= r_num r)%N ->
      Forall (fun t => s <= t < s + r_per r)%Z ts -> past (s + r_per r) rest e -> past lo (ts ++ rest) e.
  Lemma past_windowed lo ts e c s : past lo ts e -> (e <= s)%Z -> (N.of_nat (length c) <= r_num r)%N ->
    Forall (fun t => s <= t < s + r_per r)%Z c -> windowed (r_num r) (r_per r) lo (ts ++ c).
  Proof.
    induction 1 as [lo e H|lo s1 ts rest e H1 H2 H3 _ IH]; intros Hs Hc Hf.
    - cbn. rewrite <- (app_nil_r c). apply win_cons with (s := s); [lia | exact Hc | exact Hf | constructor].
    - rewrite <- app_assoc. apply win_cons with (s := s1); auto.
  Qed.
  Lemma past_snoc lo ts e c s : past lo ts e -> (e <= s)%Z -> (N.of_nat (length c) <= r_num r)%N ->
    Forall (fun t => s <= t < s + r_per r)%Z c -> past lo (ts ++ c) (s + r_per r).
  Proof.
    induction 1 as [lo e H|lo s1 ts rest e H1 H2 H3 _ IH]; intros Hs Hc Hf.
    - cbn. rewrite <- (app_nil_r c). apply past_cons with (s := s); [lia | exact Hc | exact Hf | constructor; lia].
    - rewrite <- app_assoc. apply past_cons with (s := s1); auto.
  Qed.

  (** [c]: the calls of the current window, which starts at [s0]. *)
  Definition rgood (s : st rl) (x : W * list Z) : Prop :=
    exists lo s0 old c, snd x = c ++ old /\ past lo (rev old) s0 /\
    (s0 <= now rt (fst x))%Z /\ Forall (fun t => s0 <= t < s0 + r_per r)%Z c /\
    match rl_st s with
    | RlReady until rem => until = (s0 + r_per r)%Z /\ (N.of_nat (length c) + rem = r_num r)%N /\ (0 < rem)%N
    | RlLimited => rl_sleep s = (s0 + r_per r)%Z /\ N.of_nat (length c) = r_num r
    end.
  Definition wgood (x : W * list Z) : Prop := exists lo, windowed (r_num r) (r_per r) lo (rev (snd x)).

  Lemma rgood_w s x : rgood s x -> wgood x.
  Proof.
    intros (lo & s0 & old & c & E & Hp & Hn & Hc & Hs). exists lo. rewrite E, rev_app_distr.
    eapply past_windowed; [exact Hp | apply Z.le_refl | rewrite rev_length; destruct (rl_st s); lia | apply Forall_rev; exact Hc].
  Qed.
  Lemma rgood_on s x y : rgood s x -> (now rt (fst x) <= now rt (fst y))%Z -> snd y = snd x -> rgood s y.
  Proof.
    intros (lo & s0 & old & c & E & Hp & Hn & Hc & Hs) Ht En. exists lo, s0, old, c. rewrite En. repeat split; auto. lia.
  Qed.

  Definition ask (s : st rl) (st1 : rl_state) (z : W * list Z) : (W * list Z) * out (st rl * poll (result unit Err)) :=
    match poll_ready svc (rl_inner s) (fst z) with
    | (w1, Val (i1, a)) => ((w1, snd z), Val (RlSt (noting rt svc) i1 st1 (rl_sleep s), a))
    | (w1, Panic) => ((w1, snd z), Panic)
    | (w1, Diverge) => ((w1, snd z), Diverge)
    end.
  Lemma ready_eq (s : st rl) x : poll_ready rl s x =
    match rl_st s with
    | RlReady u m => ask s (RlReady u m) x
    | RlLimited => if fired rt (fst x) (rl_sleep s)
                   then ask s (RlReady (now rt (fst x) + r_per r) (r_num r)) (nap rt (rl_sleep s) (fst x), snd x)
                   else ((nap rt (rl_sleep s) (fst x), snd x), Val (s, Pending))
    end.
  Proof.
    destruct s as [i sst sl]. cbn. unfold ask. destruct sst as [|u m]; cbn.
    - unfold sleep_poll, modify, bind, get, ret, lift_log. cbn. destruct (fired rt (fst x) sl); [|reflexivity].
      cbn. rewrite now_nap. destruct (poll_ready svc i (nap rt sl (fst x))) as [w1 [[i1 a]| |]]; reflexivity.
    - unfold bind, lift_log, ret. destruct (poll_ready svc i (fst x)) as [w1 [[i1 a]| |]]; reflexivity.
  Qed.
  Lemma ask_facts s st1 z : snd (fst (ask s st1 z)) = snd z /\ (now rt (fst z) <= now rt (fst (fst (ask s st1 z))))%Z /\
    forall s1 a, snd (ask s st1 z) = Val (s1, a) -> rl_st s1 = st1 /\ rl_sleep s1 = rl_sleep s.
  Proof.
    unfold ask. pose proof (proj1 Hgo (rl_inner s) (fst z)) as Hg.
    destruct (poll_ready svc (rl_inner s) (fst z)) as [w1 [[i1 a0]| |]]; cbn in *; repeat split; auto; try discriminate;
      injection H as <- _; reflexivity.
  Qed.
  Lemma past_later lo ts e e' : past lo ts e -> (e <= e')%Z -> past lo ts e'.
  Proof. induction 1; intros Hle; [constructor; lia | econstructor; eauto]. Qed.

  Lemma ready_good s x : rgood s x ->
    wgood (fst (poll_ready rl s x)) /\ forall s1 a, snd (poll_ready rl s x) = Val (s1, a) -> rgood s1 (fst (poll_ready rl s x)).
  Proof.
    intros H. pose proof (rgood_w H) as Hw0. rewrite ready_eq.
    destruct H as (lo & s0 & old & c & E & Hp & Hn & Hc & Hs). destruct (rl_st s) as [|until rem] eqn:Est.
    - destruct (fired rt (fst x) (rl_sleep s)) eqn:Ef.
      + destruct (ask_facts s (RlReady (now rt (fst x) + r_per r) (r_num r)) (nap rt (rl_sleep s) (fst x), snd x)) as (G1 & G2 & G3).
        pose proof (fired_sound rt _ _ Ef) as Hfs. destruct Hs as [Hs1 Hs2]. cbn [fst snd] in G1, G2. rewrite now_nap in G2.
        split.
        * unfold wgood. rewrite G1. exact Hw0.
        * intros s1 a Ea. destruct (G3 s1 a Ea) as [G4 G5]. exists lo, (now rt (fst x)), (c ++ old), []. rewrite G1, G4.
          split; [exact E|]. split.
          { rewrite rev_app_distr. apply past_later with (e := (s0 + r_per r)%Z); [|lia].
            eapply past_snoc; [exact Hp | lia | rewrite rev_length; lia | apply Forall_rev; exact Hc]. }
          split; [lia|]. split; [constructor|]. cbn. repeat split; lia.
      + cbn [fst snd]. split; [exact Hw0|]. intros s1 a Ea. injection Ea as <- _.
        exists lo, s0, old, c. cbn [fst snd]. rewrite now_nap, Est. auto.
    - destruct (ask_facts s (RlReady until rem) x) as (G1 & G2 & G3).
      split; [unfold wgood; rewrite G1; exact Hw0|]. intros s1 a Ea. destruct (G3 s1 a Ea) as [G4 G5].
      exists lo, s0, old, c. rewrite G1, G4. repeat split; auto; try lia; apply Hs.
  Qed.

  Lemma rcall_eq (s : st rl) q x until rem : rl_st s = RlReady until rem -> call rl s q x =
    let t := now rt (fst x) in
    let rem' := if (until <=? t)%Z then r_num r else rem in
    let until' := if (until <=? t)%Z then (t + r_per r)%Z else until in
    match call svc (rl_inner s) q (fst x) with
    | (w1, Val (i1, f)) => ((w1, t :: snd x), Val (RlSt (noting rt svc) i1 (if (1 <? rem')%N then RlReady until' (rem' - 1) else RlLimited)
                                                    (if (1 <? rem')%N then rl_sleep s else until'), f))
    | (w1, Panic) => ((w1, t :: snd x), Panic)
    | (w1, Diverge) => ((w1, t :: snd x), Diverge)
    end.
  Proof.
    destruct s as [i sst sl]. cbn [rl_st]. intros ->. cbn. unfold bind, get, ret. cbn.
    destruct (1 <? (if (until <=? now rt (fst x))%Z then r_num r else rem))%N;
      destruct (call svc i q (fst x)) as [w1 [[i1 f]| |]]; reflexivity.
  Qed.

  Lemma call_good s q x : rgood s x ->
    wgood (fst (call rl s q x)) /\ forall s1 f, snd (call rl s q x) = Val (s1, f) -> rgood s1 (fst (call rl s q x)).
  Proof.
    intros H. pose proof (rgood_w H) as Hw0. destruct H as (lo & s0 & old & c & E & Hp & Hn & Hc & Hs).
    destruct (rl_st s) as [|until rem] eqn:Est; [cbn [call rate_limit]; rewrite Est; split; [exact Hw0 | discriminate]|].
    rewrite (@rcall_eq s q x until rem Est). cbv zeta.
    destruct Hs as (Hu & Hlen & Hrem).
    set (t := now rt (fst x)) in *.
    (* the window the call falls into *)
    assert (X : exists s0' old' c', snd x = c' ++ old' /\ past lo (rev old') s0' /\ (s0' <= t < s0' + r_per r)%Z /\
       Forall (fun t => s0' <= t < s0' + r_per r)%Z c' /\
       (if (until <=? t)%Z then (t + r_per r)%Z else until) = (s0' + r_per r)%Z /\
       (N.of_nat (length c') + (if (until <=? t)%Z then r_num r else rem) = r_num r)%N /\
       (0 < (if (until <=? t)%Z then r_num r else rem))%N).
    { destruct (until <=? t)%Z eqn:Er.
      - apply Z.leb_le in Er. exists t, (c ++ old), []. repeat split; try lia; [exact E| |constructor].
        rewrite rev_app_distr. apply past_later with (e := (s0 + r_per r)%Z); [|lia].
        eapply past_snoc; [exact Hp | lia | rewrite rev_length; lia | apply Forall_rev; exact Hc].
      - apply Z.leb_gt in Er. exists s0, old, c. repeat split; auto; lia. }
    destruct X as (s0' & old' & c' & E' & Hp' & Ht' & Hc' & Hu' & Hlen' & Hrem').
    set (rem' := if (until <=? t)%Z then r_num r else rem) in *.
    set (until' := if (until <=? t)%Z then (t + r_per r)%Z else until) in *.
    assert (Hflow : (t <= now rt (fst (call svc (rl_inner s) q (fst x))))%Z) by apply Hgo.
    assert (Hw : forall w1, wgood (w1, t :: snd x)).
    { intros w1. exists lo. cbn [snd]. rewrite E'. change (t :: c' ++ old') with ((t :: c') ++ old'). rewrite rev_app_distr.
      eapply past_windowed; [exact Hp' | apply Z.le_refl | rewrite rev_length; cbn [length]; lia |].
      apply Forall_rev. constructor; assumption. }
    fold t. fold rem'. fold until'. destruct (1 <? rem')%N eqn:E1;
      destruct (call svc (rl_inner s) q (fst x)) as [w1 [[i1 f]| |]]; cbn in Hflow |- *; (split; [apply Hw|]); try discriminate;
      intros s1 f1 Ea; injection Ea as <- _; exists lo, s0', old', (t :: c'); cbn [rl_st rl_sleep fst snd length];
      (split; [rewrite E'; reflexivity|]); (split; [exact Hp'|]); (split; [lia|]); (split; [constructor; assumption|]).
    - apply N.ltb_lt in E1. repeat split; lia.
    - apply N.ltb_ge in E1. split; [exact Hu' | lia].
  Qed.

  Lemma outside_on ops (g : W * list Z -> W * list Z) : env_goes_on rt (Req := Req) ops -> outside rl ops g ->
    forall x, (now rt (fst x) <= now rt (fst (g x)))%Z /\ snd (g x) = snd x.
  Proof.
    intros He. induction 1 as [|g Hg|f|f|g h _ IHg _ IHh]; intros x.
    - split; [lia | reflexivity].
    - apply He, Hg.
    - cbn. unfold lift_log. pose proof (proj1 (proj2 (proj2 Hgo)) f (fst x)) as X. destruct (poll_fut svc f (fst x)) as [w1 o]. auto.
    - cbn. split; [apply Hgo | reflexivity].
    - destruct (IHg x) as [A B], (IHh (g x)) as [C D]. split; [lia | congruence].
  Qed.

  Lemma rate_behind bound x0 w0 w s ops y l : env_goes_on rt ops ->
    rate_limit_new (note_rt rt) r (noting rt svc) x0 (w0, []) = (w, Val s) ->
    buffer_run rl bound s w ops = (y, l) ->
    exists lo, windowed (r_num r) (r_per r) lo (rev (snd (y_w y))).
  Proof.
    intros He Es E.
    assert (G : rgood s w).
    { unfold rate_limit_new, bind, get, ret in Es. injection Es as <- <-.
      exists (now rt w0 - r_per r)%Z, (now rt w0 - r_per r)%Z, [], []. cbn. repeat split; try lia; constructor. lia. }
    assert (B : binv (fun _ s x _ => rgood s x) (fun x _ => wgood x)
      (fst (brun (bsys0 rl bound s w) [] ops)) (inner_uses (snd (brun (bsys0 rl bound s w) [] ops)))).
    { apply brun_keeps with (all := ops).
      - intros _ s1 x _ g H Hg. destruct (outside_on He Hg x). eapply rgood_on; eassumption.
      - intros _ s1 x _ x1 s2 a H _ E1. pose proof (proj2 (ready_good H)) as K. rewrite E1 in K. eapply K. reflexivity.
      - intros s1 x _ q x1 s2 f H E1. pose proof (proj2 (call_good q H)) as K. rewrite E1 in K. eapply K. reflexivity.
      - intros _ s1 x _. apply rgood_w.
      - intros x _ g (lo & H) Hg. exists lo. destruct (outside_on He Hg x) as [_ ->]. exact H.
      - intros _ s1 x _ H. apply (ready_good H).
      - intros _ s1 x _ q H. apply (call_good q H).
      - intros s1 x _ H. exact H.
      - apply incl_refl.
      - split; [exact (rgood_w G)|]. right. exists Idle. split; [exact G | cbn; discriminate]. }
    unfold buffer_run in E. rewrite E in B. exact (proj1 B).
  Qed.
End Rate.

Lemma rate_behind_twice W Req Resp Err (rt : Rt W) (svc : Service W Req Resp Err) (r : rate) :
  (0 < r_num r)%N -> (0 < r_per r)%Z -> time_goes_on rt svc ->
  forall bound x w0 w s (ops : list (bop (W := W * list Z) (Req := Req))) y l, env_goes_on rt ops ->
  rate_limit_new (note_rt rt) r (noting rt svc) x (w0, []) = (w, Val s) ->
  buffer_run (rate_limit (note_rt rt) r (noting rt svc)) bound s w ops = (y, l) ->
  forall t, (N.of_nat (length (within t (r_per r) (rev (snd (y_w y))))) <= 2 * r_num r)%N.
Proof.
  intros Hn Hp Hg bound x w0 w s ops y l He Es E t.
  destruct (@rate_behind W Req Resp Err rt svc r Hn Hp Hg bound x w0 w s ops y l He Es E) as (lo & H).
  eapply windowed_within; eassumption.
Qed.
