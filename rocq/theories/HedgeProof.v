(** Proofs for C20-C22, C24. *)
From Verif Require Import Base Util Middleware Hedge Track HedgeSpec.
Set Implicit Arguments.

(** Equations of the parts, for any services. *)
Section Parts.
  Context {W Req Resp Err EA EB : Type} (rt : Rt W).
  Lemma select_poll (a : Service W Req Resp EA) (b : Service W Req Resp EB) cr fa ob x :
    poll_fut (select a b cr) (SelFut a b fa ob) x =
    match poll_fut a fa x with
    | (z, Val (fa1, Ready v)) => (z, Val (SelFut a b fa1 ob, Ready (map_er inl v)))
    | (z, Val (fa1, Pending)) =>
        match ob with
        | None => (z, Val (SelFut a b fa1 None, Pending))
        | Some fb =>
            match poll_fut b fb z with
            | (y, Val (fb1, pb)) => (y, Val (SelFut a b fa1 (Some fb1), poll_map (map_er inr) pb))
            | (y, Panic) => (y, Panic)
            | (y, Diverge) => (y, Diverge)
            end
        end
    | (z, Panic) => (z, Panic)
    | (z, Diverge) => (z, Diverge)
    end.
  Proof.
    cbn [poll_fut select sel_a sel_b]. unfold bind at 1.
    destruct (poll_fut a fa x) as [z [[fa1 [|v]]| |]]; try reflexivity.
    destruct ob as [fb|]; [|reflexivity]. unfold bind.
    destruct (poll_fut b fb z) as [y [[fb1 pb]| |]]; reflexivity.
  Qed.
  Lemma latency_poll (svc : Service W Req Resp Err) record f t x :
    poll_fut (latency rt svc record) (LatFut svc t f) x =
    match poll_fut svc f x with
    | (y, Val (f1, Pending)) => (y, Val (LatFut svc t f1, Pending))
    | (y, Val (f1, Ready (Er e))) => (y, Val (LatFut svc t f1, Ready (Er e)))
    | (y, Val (f1, Ready (Ok a))) =>
        match record (Z.max 0 (now rt y - t)) y with
        | (y1, Val _) => (y1, Val (LatFut svc t f1, Ready (Ok a)))
        | (y1, Panic) => (y1, Panic)
        | (y1, Diverge) => (y1, Diverge)
        end
    | (y, Panic) => (y, Panic)
    | (y, Diverge) => (y, Diverge)
    end.
  Proof.
    unfold latency. cbn [poll_fut lf_inner lf_start]. unfold bind, get, ret.
    destruct (poll_fut svc f x) as [y [[f1 [|[a|e]]]| |]]; try reflexivity.
  Qed.
End Parts.

Section HedgeProof.
  Context {W Req Resp Err : Type} (rt : Rt W) (svc : Service W Req Resp Err).
  Context (clone_request : Req -> option Req) (can_retry : Req -> bool).
  Context (min_data_points : Z) (quantile : list Z -> Z).
  Notation L := (stamped (tev Req Resp Err)).
  Notation BW := (W * histo)%type.
  Notation TW := (BW * tk L)%type.
  Notation th := (thedge rt svc clone_request can_retry min_data_points quantile).
  Notation hrt := (hrt (Req := Req) (Resp := Resp) (Err := Err) rt).
  Notation bt := (brt rt).
  Notation ts := (timed bt (beside svc)).
  Notation tlat := (latency hrt ts (hedge_record hrt (@hist W Req Resp Err) (@set_hist W Req Resp Err))).
  Notation tfil := (async_filter tlat (policy_task (Req := Req)) (policy_check can_retry) (fun p => ret p)).
  Notation tdel := (delay hrt tfil (hedge_delay hrt quantile (@hist W Req Resp Err) (@set_hist W Req Resp Err))).
  Notation afut := (afilter_fut tlat (option Req + unit)).

  (** Explicit equations. *)
  Lemma lat_poll f t x :
    poll_fut tlat (LatFut ts t f) x =
    match poll_fut ts f x with
    | (y, Val (f1, Pending)) => (y, Val (LatFut ts t f1, Pending))
    | (y, Val (f1, Ready (Er e))) => (y, Val (LatFut ts t f1, Ready (Er e)))
    | (y, Val (f1, Ready (Ok a))) =>
        match histo_record (now hrt y) (millis (Z.max 0 (now hrt y - t))) (hist y) with
        | Val h1 => (set_hist h1 y, Val (LatFut ts t f1, Ready (Ok a)))
        | Panic => (y, Panic)
        | Diverge => (y, Diverge)
        end
    | (y, Panic) => (y, Panic)
    | (y, Diverge) => (y, Diverge)
    end.
  Proof.
    rewrite latency_poll. destruct (poll_fut ts f x) as [y [[f1 [|[a|e]]]| |]]; try reflexivity.
    unfold hedge_record, with_histo. destruct (histo_record _ _ _); reflexivity.
  Qed.

  Lemma ts_poll j f (x : TW) :
    poll_fut ts (j, f) x =
    match poll_fut svc f (fst (fst x)) with
    | (w1, Val (f1, a)) => (((w1, hist x), Tk (tk_next (snd x)) (At (now hrt x) (TPoll j a) (now rt w1) :: tk_log (snd x))), Val ((j, f1), a))
    | (w1, Panic) => (((w1, hist x), snd x), Panic)
    | (w1, Diverge) => (((w1, hist x), snd x), Diverge)
    end.
  Proof.
    cbn. unfold stamping, bind, tk_lift, tk_emit, get, ret. cbn. unfold bside.
    destruct (poll_fut svc f (fst (fst x))) as [w1 [[f1 a]| |]]; reflexivity.
  Qed.
  Lemma ts_ready i s (x : TW) :
    poll_ready ts (i, s) x =
    match poll_ready svc s (fst (fst x)) with
    | (w1, Val (s1, a)) => (((w1, hist x), Tk (tk_next (snd x)) (At (now hrt x) (TReady i a) (now rt w1) :: tk_log (snd x))), Val ((i, s1), a))
    | (w1, Panic) => (((w1, hist x), snd x), Panic)
    | (w1, Diverge) => (((w1, hist x), snd x), Diverge)
    end.
  Proof.
    cbn. unfold stamping, bind, tk_lift, tk_emit, get, ret. cbn. unfold bside.
    destruct (poll_ready svc s (fst (fst x))) as [w1 [[f1 a]| |]]; reflexivity.
  Qed.
  Lemma ts_call i s r (x : TW) :
    call ts (i, s) r x =
    match call svc s r (fst (fst x)) with
    | (w1, Val (s1, f)) =>
        (((w1, hist x), Tk (S (tk_next (snd x))) (At (now hrt x) (TCall i r (tk_next (snd x))) (now rt w1) :: tk_log (snd x))),
         Val ((i, s1), (tk_next (snd x), f)))
    | (w1, Panic) => (((w1, hist x), snd x), Panic)
    | (w1, Diverge) => (((w1, hist x), snd x), Diverge)
    end.
  Proof.
    cbn. unfold stamping, bind, tk_lift, tk_emit, tk_fresh, get, ret. cbn. unfold bside.
    destruct (call svc s r (fst (fst x))) as [w1 [[s1 f]| |]]; reflexivity.
  Qed.
  Lemma ts_clone i s (x : TW) :
    clone ts (i, s) x =
    match clone svc s (fst (fst x)) with
    | (w1, Val s1) =>
        (((w1, hist x), Tk (S (tk_next (snd x))) (At (now hrt x) (TClone i (tk_next (snd x))) (now rt w1) :: tk_log (snd x))),
         Val (tk_next (snd x), s1))
    | (w1, Panic) => (((w1, hist x), snd x), Panic)
    | (w1, Diverge) => (((w1, hist x), snd x), Diverge)
    end.
  Proof.
    cbn. unfold stamping, bind, tk_lift, tk_emit, tk_fresh, get, ret. cbn. unfold bside.
    destruct (clone svc s (fst (fst x))) as [w1 [s1| |]]; reflexivity.
  Qed.

  (** *** [happened] *)
  Lemma happened_refl (x : TW) : happened x x [].
  Proof. exists []. auto. Qed.
  Lemma happened_trans (x y z : TW) l l' : happened x y l -> happened y z l' -> happened x z (l ++ l').
  Proof.
    intros (a & E1 & <-) (b & E2 & <-). exists (b ++ a). split; [rewrite E2, E1, app_assoc; reflexivity|].
    rewrite rev_app_distr, filter_app. reflexivity.
  Qed.
  Lemma happened_one (x y : TW) e : log_of y = e :: log_of x -> is_drop e = false -> happened x y [e].
  Proof. intros E H. exists [e]. split; auto. cbn. rewrite H. reflexivity. Qed.
  Lemma happened_drop (x y : TW) e : log_of y = e :: log_of x -> is_drop e = true -> happened x y [].
  Proof. intros E H. exists [e]. split; auto. cbn. rewrite H. reflexivity. Qed.
  Lemma happened_same (x y : TW) : log_of y = log_of x -> happened x y [].
  Proof. intros E. exists []. auto. Qed.

  Definition hstate (ja : nat) (ta : Z) (q : Req) (ph : hphase) (f : fut th) : Prop :=
    exists fa ob, f = SelFut tlat tdel (LatFut ts ta (ja, fa)) ob /\
    match ph with
    | HSingle => ob = None
    | HDelayed d c => exists sc, ob = Some (DelayFut (svc := tfil) (Some ((c, sc), tt)) (DDelaying tfil d (Some q)))
    | HAsking c => exists sc, ob = Some (DelayFut None (DCalled (OsNotReady tfil ((c, sc), tt) (Some q))))
    | HRefused => exists sv, ob = Some (DelayFut None (DCalled (OsCalled tfil (AfFut (svc := tlat) (AfCheck (inr tt)) sv))))
    | HRacing j t => exists sv fb, ob = Some (DelayFut None (DCalled (OsCalled tfil (AfFut (svc := tlat) (AfWait (svc := tlat) (LatFut ts t (j, fb))) sv))))
    | HOver => False
    end.

  Ltac align_called D :=
    match type of D with match ?t with _ => _ end =>
      match goal with |- context [@oneshot_called ?A1 ?A2 ?A3 ?A4 ?a' ?b' ?x'] =>
        change (@oneshot_called A1 A2 A3 A4 a' b' x') with t; revert D; generalize t; intros [y1 [[o1 a]| |]] D end end.
  Ltac align_poll D :=
    match type of D with match ?t with _ => _ end =>
      match goal with |- context [@oneshot_poll ?A1 ?A2 ?A3 ?A4 ?a' ?b' ?x'] =>
        change (@oneshot_poll A1 A2 A3 A4 a' b' x') with t; revert D; generalize t; intros [y1 [[o1 a]| |]] D end end.
  Lemma dup_wait t j fb sv x :
    match oneshot_called tfil (AfFut (svc := tlat) (AfWait (svc := tlat) (LatFut ts t (j, fb))) sv) x with
    | (y, Val (o1, a)) =>
        exists p t0 te, a = poll_map (map_er inl) p /\ happened x y [At t0 (TPoll j p) te] /\
          measured (hist x) t te p (hist y) /\
          (p = Pending -> exists fb1 sv1, o1 = OsCalled tfil (AfFut (svc := tlat) (AfWait (svc := tlat) (LatFut ts t (j, fb1))) sv1))
    | _ => True
    end.
  Proof.
    unfold oneshot_called. cbn [poll_fut async_filter af_state af_svc]. unfold bind at 1 2.
    rewrite lat_poll, ts_poll.
    destruct (poll_fut svc fb (fst (fst x))) as [w1 [[f1 [|[v|e]]]| |]]; auto; cbn [fst snd poll_map map_er ret].
    - exists Pending, (now hrt x), (now rt w1).
      split; [reflexivity|]. split; [apply happened_one; reflexivity|].
      split; [reflexivity|]. intros _. eauto.
    - destruct (histo_record _ _ _) as [h1| |] eqn:Eh; auto.
      cbn [ret poll_map map_er]. unfold bind, modify. cbn [drop_fut async_filter af_state af_svc latency].
      exists (Ready (Ok v)), (now hrt x), (now rt w1).
      split; [reflexivity|].
      split; [|split; [exact Eh | discriminate]].
      eexists [_; _; At (now hrt x) (TPoll j (Ready (Ok v))) (now rt w1)]. split; reflexivity.
    - exists (Ready (Er e)), (now hrt x), (now rt w1).
      split; [reflexivity|]. split; [apply happened_one; reflexivity|]. split; [reflexivity | discriminate].
  Qed.

  (** What polling the duplicate does. *)
  Lemma dup_run c sc q z :
    match oneshot_poll (OsNotReady tfil ((c, sc), tt) (Some q)) z with
    | (y, Val (o1, a)) =>
        exists ph l, hask can_retry q c (now hrt z) l (hist z) (hist y) (poll_map (map_er inr) a) ph /\ happened z y l /\
          match a with
          | Ready _ => ph = HOver
          | Pending => ph <> HOver /\ forall ja ta fa, hstate ja ta q ph (SelFut tlat tdel (LatFut ts ta (ja, fa)) (Some (DelayFut None (DCalled o1))))
          end
    | _ => True
    end.
  Proof.
    unfold oneshot_poll. cbn [poll_ready async_filter latency]. unfold bind at 1 2.
    cbn [fst snd]. rewrite ts_ready.
    destruct (poll_ready svc sc (fst (fst z))) as [w1 [[s1 [|[[]|e]]]| |]]; cbn [poll_map map_er ret]; auto.
    - exists (HAsking c), [At (now hrt z) (TReady c Pending) (now rt w1)].
      split; [|split; [apply happened_one; reflexivity | split; [discriminate|]; intros; eexists _, _; split; [reflexivity|]; eexists; reflexivity]].
      apply ha_unready.
    - cbn [call async_filter]. unfold bind at 1 2 3. cbn [fst snd]. cbn [clone latency].
      rewrite ts_clone. cbn [fst snd hist].
      destruct (clone svc s1 w1) as [w2 [s2| |]]; auto.
      unfold policy_check at 1. cbn [ret fst snd]. unfold modify, bind at 1.
      set (x1 := drop_svc tfil _ _).
      assert (Hx : happened z x1 [At (now hrt z) (TReady c (Ready (Ok tt))) (now rt w1); At (now rt w1) (TClone c (tk_next (snd z))) (now rt w2)] /\ hist x1 = hist z).
      { split; [|reflexivity]. eexists [_; At (now rt w1) (TClone c (tk_next (snd z))) (now rt w2); At (now hrt z) (TReady c (Ready (Ok tt))) (now rt w1)].
        split; reflexivity. }
      clearbody x1. destruct Hx as [Hx Hh].
      destruct (can_retry q) eqn:Hq.
      + (* allowed *)
        assert (E : oneshot_called tfil (AfFut (svc := tlat) (AfCheck (inl (Some q))) (c, s1)) x1 =
          match call ts (c, s1) q x1 with
          | (y, Val (s3, f)) => oneshot_called tfil (AfFut (svc := tlat) (AfWait (svc := tlat) (LatFut ts (now hrt x1) f)) s3) y
          | (y, Panic) => (y, Panic)
          | (y, Diverge) => (y, Diverge)
          end).
        { unfold oneshot_called. cbn [poll_fut async_filter af_state af_svc]. unfold bind at 1 2 3.
          cbn [tpoll policy_task ret]. cbn [call latency]. unfold bind at 1 2 3, get.
          destruct (call ts (c, s1) q x1) as [y [[s3 f]| |]]; try reflexivity. }
        match goal with |- context [oneshot_called ?a ?b x1] =>
          change (oneshot_called a b x1) with (oneshot_called tfil (AfFut (svc := tlat) (AfCheck (inl (Some q))) (c, s1)) x1) end.
        rewrite E. rewrite ts_call.
        destruct (call svc s1 q (fst (fst x1))) as [w3 [[s3 f]| |]]; auto.
        pose proof (dup_wait (now hrt x1) (tk_next (snd x1)) f (c, s3)
          ((w3, hist x1), Tk (S (tk_next (snd x1))) (At (now hrt x1) (TCall c q (tk_next (snd x1))) (now rt w3) :: tk_log (snd x1)))) as D.
        align_called D; auto.
        destruct D as (p & t0 & te & -> & D1 & D3 & D4).
        exists (after_b (tk_next (snd x1)) (now hrt x1) p). eexists. split; [|split].
        * replace (poll_map (map_er inr) (poll_map (map_er (E' := Err + Empty_set) inl) p)) with (from_b p)
            by (destruct p as [|[?|?]]; reflexivity).
          rewrite <- Hh. eapply ha_started; eauto.
        * refine (happened_trans Hx (happened_trans (l := [_]) _ D1)). apply happened_one; reflexivity.
        * destruct p; cbn; auto. split; [discriminate|]. intros ja ta fa. destruct (D4 eq_refl) as (fb1 & sv1 & ->).
          eexists _, _. split; [reflexivity|]. eexists _, _; reflexivity.
      + (* refused *)
        cbn. unfold bind, ret. cbn. exists HRefused. eexists. split; [|split; [exact Hx|]].
        * rewrite Hh. eapply ha_refused; eauto.
        * split; [discriminate|]. intros ja ta fa. eexists _, _. split; [reflexivity|]. eexists; reflexivity.
    - exists HOver, [At (now hrt z) (TReady c (Ready (Er e))) (now rt w1)]. split; [|split; [apply happened_one; reflexivity | reflexivity]].
      change (Ready (Er (inr (inl e)))) with (from_b (Resp := Resp) (Ready (Er e))).
      apply ha_failed.
  Qed.

  Lemma lat_ts_poll j fa t x :
    poll_fut tlat (LatFut ts t (j, fa)) x =
    match poll_fut svc fa (fst (fst x)) with
    | (w1, Val (f1, p)) =>
        let y := ((w1, hist x), Tk (tk_next (snd x)) (At (now hrt x) (TPoll j p) (now rt w1) :: tk_log (snd x))) in
        match p with
        | Ready (Ok a) =>
            match histo_record (now hrt y) (millis (Z.max 0 (now hrt y - t))) (hist y) with
            | Val h1 => (set_hist h1 y, Val (LatFut ts t (j, f1), p))
            | Panic => (y, Panic)
            | Diverge => (y, Diverge)
            end
        | _ => (y, Val (LatFut ts t (j, f1), p))
        end
    | (w1, Panic) => (((w1, hist x), snd x), Panic)
    | (w1, Diverge) => (((w1, hist x), snd x), Diverge)
    end.
  Proof.
    rewrite lat_poll, ts_poll.
    destruct (poll_fut svc fa (fst (fst x))) as [w1 [[f1 [|[a|e]]]| |]]; reflexivity.
  Qed.
  Lemma sel_poll fa ob x :
    poll_fut th (SelFut tlat tdel fa ob) x =
    match poll_fut tlat fa x with
    | (z, Val (fa1, Ready v)) => (z, Val (SelFut tlat tdel fa1 ob, Ready (map_er inl v)))
    | (z, Val (fa1, Pending)) =>
        match ob with
        | None => (z, Val (SelFut tlat tdel fa1 None, Pending))
        | Some fb =>
            match poll_fut tdel fb z with
            | (y, Val (fb1, pb)) => (y, Val (SelFut tlat tdel fa1 (Some fb1), poll_map (map_er inr) pb))
            | (y, Panic) => (y, Panic)
            | (y, Diverge) => (y, Diverge)
            end
        end
    | (z, Panic) => (z, Panic)
    | (z, Diverge) => (z, Diverge)
    end.
  Proof.
    exact (select_poll tlat tdel _ fa ob x).
  Qed.
  Lemma del_poll f z :
    poll_fut tdel f z =
    match df_state f with
    | DDelaying _ d req =>
        if fired hrt z d then
          match req, df_svc f with
          | Some r, Some s =>
              match oneshot_poll (OsNotReady tfil s (Some r)) (nap hrt d z) with
              | (y, Val (o1, p)) => (y, Val (DelayFut None (DCalled o1), p))
              | (y, Panic) => (y, Panic)
              | (y, Diverge) => (y, Diverge)
              end
          | _, _ => (nap hrt d z, Panic)
          end
        else (nap hrt d z, Val (f, Pending))
    | DCalled o =>
        match oneshot_poll o z with
        | (y, Val (o1, p)) => (y, Val (DelayFut (df_svc f) (DCalled o1), p))
        | (y, Panic) => (y, Panic)
        | (y, Diverge) => (y, Diverge)
        end
    end.
  Proof.
    cbn [poll_fut delay]. destruct f as [sv [d req|o]]; cbn [df_state df_svc].
    - assert (E : forall B (k : bool -> M (W * histo * tk L) B),
        bind (sleep_poll hrt d) k z = k (fired hrt z d) (nap hrt d z)) by reflexivity.
      rewrite E. clear E. destruct (fired hrt z d); [|reflexivity].
      destruct req as [r|]; [|reflexivity]. destruct sv as [s|]; [|reflexivity].
      unfold oneshot_new, bind. destruct (oneshot_poll _ (nap hrt d z)) as [y [[o1 p]| |]]; reflexivity.
    - unfold bind. destruct (oneshot_poll o z) as [y [[o1 p]| |]]; reflexivity.
  Qed.

  (** One poll of the hedged request. *)
  Lemma hedge_poll ja ta q ph f x : hstate ja ta q ph f ->
    match poll_fut th f x with
    | (y, Val (f1, a)) =>
        exists ph', hpoll rt can_retry ja ta q ph x y a ph' /\
          match a with Ready _ => ph' = HOver | Pending => ph' <> HOver /\ hstate ja ta q ph' f1 end
    | _ => True
    end.
  Proof.
    intros (fa & ob & -> & Hob).
    assert (Hph : ph <> HOver) by (intros ->; exact Hob).
    rewrite sel_poll, lat_ts_poll.
    destruct (poll_fut svc fa (fst (fst x))) as [w1 [[f1 [|[v|e]]]| |]]; auto; cbv zeta.
    2:{ destruct (histo_record _ _ _) as [h1| |] eqn:Eh; auto. exists HOver. split; [|reflexivity].
        change (Ready (map_er inl (Ok v))) with (from_a (Err := Err) (Ready (Ok v))).
        eapply hp_original; [auto | apply happened_one; reflexivity | exact Eh]. }
    2:{ exists HOver. split; [|reflexivity].
        change (Ready (map_er inl (Er e))) with (from_a (Resp := Resp) (Ready (Er e))).
        eapply hp_original; [auto | apply happened_one; reflexivity | reflexivity]. }
    set (z := ((w1, hist x), Tk (tk_next (snd x)) (At (now hrt x) (TPoll ja Pending) (now rt w1) :: tk_log (snd x)))).
    assert (Hz : happened x z [At (now hrt x) (TPoll ja Pending) (now rt w1)] /\ hist z = hist x) by (split; [apply happened_one|]; reflexivity).
    clearbody z. destruct Hz as [Hz Hh].
    destruct ph as [|d c|c| |j t|].
    - subst ob. exists HSingle. split; [eapply hp_single; eauto|].
      split; [discriminate|]. eexists _, _. split; reflexivity.
    - destruct Hob as [sc ->]. rewrite del_poll. cbn [df_state df_svc].
      assert (Hz' : happened x (nap hrt d z) [At (now hrt x) (TPoll ja Pending) (now rt w1)] /\ hist (nap hrt d z) = hist x)
        by (split; [exact Hz | exact Hh]). clear Hz Hh. destruct Hz' as [Hz Hh].
      rewrite <- (fired_nap hrt z d d). generalize dependent (nap hrt d z). clear z. intros z Hz Hh.
      destruct (fired hrt z d) eqn:Ef.
      + pose proof (dup_run c sc q z) as D. destruct (oneshot_poll _ z) as [y [[o1 a]| |]]; auto.
        destruct D as (ph & l & D1 & D0 & D2). rewrite Hh in D1. exists ph. split; [eapply hp_late; [exact (fired_sound hrt z d Ef) | exact D1 | exact (happened_trans Hz D0)]|].
        destruct a; cbn; auto. destruct D2 as [D2 D3]. split; auto.
      + exists (HDelayed d c). split; [eapply hp_early; eauto|]. split; [discriminate|].
        eexists _, _. split; [reflexivity|]. eexists; reflexivity.
    - destruct Hob as [sc ->]. rewrite del_poll. cbn [df_state df_svc].
      pose proof (dup_run c sc q z) as D. destruct (oneshot_poll _ z) as [y [[o1 a]| |]]; auto.
      destruct D as (ph & l & D1 & D0 & D2). rewrite Hh in D1. exists ph. split; [eapply hp_ask; [exact D1 | exact (happened_trans Hz D0)]|].
      destruct a; cbn; auto. destruct D2 as [D2 D3]. split; auto.
    - destruct Hob as [sv ->]. rewrite del_poll. cbn. unfold bind, ret. cbn. exists HRefused. split; [eapply hp_single; eauto|].
      split; [discriminate|]. eexists _, _. split; [reflexivity|]. eexists; reflexivity.
    - destruct Hob as (sv & fb & ->). rewrite del_poll. cbn [df_state df_svc oneshot_poll].
      pose proof (dup_wait t j fb sv z) as D.
      destruct (oneshot_called _ _ z) as [y [[o1 a]| |]]; auto.
      destruct D as (p & t0 & te & -> & D1 & D3 & D4). exists (after_b j t p). split.
      + replace (poll_map (map_er inr) (poll_map (map_er (E' := Err + Empty_set) inl) p)) with (from_b p)
          by (destruct p as [|[?|?]]; reflexivity).
        eapply hp_racing; [exact (happened_trans Hz D1) | rewrite <- Hh; exact D3].
      + destruct p; cbn; auto. split; [discriminate|]. destruct (D4 eq_refl) as (fb1 & sv1 & ->).
        eexists _, _. split; [reflexivity|]. eexists _, _; reflexivity.
    - contradiction.
  Qed.

  Lemma hedge_life ja ta q gs : forall ph f x, hstate ja ta q ph f ->
    hlife rt can_retry ja ta q ph x gs (run_fut th f x (map tk_env gs)).
  Proof.
    induction gs as [|g gs IH]; intros ph f x Hs; cbn [map run_fut]; [constructor|].
    pose proof (hedge_poll (tk_env g x) Hs) as H.
    destruct (poll_fut th f (tk_env g x)) as [y [[f1 [|v]]| |]]; try (constructor; fail).
    - destruct H as (ph' & H1 & H2 & H3). econstructor; eauto.
    - destruct H as (ph' & H1 & ->). constructor. exact H1.
  Qed.

  (** The call. *)
  Lemma lat_call i s r x :
    call tlat (i, s) r x =
    match call svc s r (fst (fst x)) with
    | (w1, Val (s1, f)) =>
        (((w1, hist x), Tk (S (tk_next (snd x))) (At (now hrt x) (TCall i r (tk_next (snd x))) (now rt w1) :: tk_log (snd x))),
         Val ((i, s1), LatFut ts (now hrt x) (tk_next (snd x), f)))
    | (w1, Panic) => (((w1, hist x), snd x), Panic)
    | (w1, Diverge) => (((w1, hist x), snd x), Diverge)
    end.
  Proof.
    cbn [call latency]. unfold bind at 1 2, get. rewrite ts_call.
    destruct (call svc s r (fst (fst x))) as [w1 [[s1 f]| |]]; reflexivity.
  Qed.

  Lemma hedge_called ia sa ib sb u r x :
    match call th ((ia, sa), ((ib, sb), u)) r x with
    | (y, Val (s1, f)) =>
        exists sa' sb' ja ta q ph, s1 = ((ia, sa'), ((ib, sb'), u)) /\
          hcall rt clone_request min_data_points quantile ia ib r x y ja ta q ph /\ hstate ja ta q ph f
    | _ => True
    end.
  Proof.
    destruct u. unfold thedge, hedge. cbn [call select fst snd]. unfold bind at 1, hedge_clone.
    assert (Hsingle : forall x1 q, 
      (forall y ja t1, happened x1 y [At (now hrt x1) (TCall ia r ja) t1] -> hist y = hist x1 ->
         hcall rt clone_request min_data_points quantile ia ib r x y ja (now hrt x1) q HSingle) ->
      match ('(a1, fa) <- call tlat (ia, sa) r ;; ret ((a1, ((ib, sb), tt)), SelFut tlat tdel fa None)) x1 with
      | (y, Val (s1, f)) =>
          exists sa' sb' ja ta q ph, s1 = ((ia, sa'), ((ib, sb'), tt)) /\
            hcall rt clone_request min_data_points quantile ia ib r x y ja ta q ph /\ hstate ja ta q ph f
      | _ => True
      end).
    { intros x1 q H. unfold bind at 1. rewrite lat_call.
      destruct (call svc sa r (fst (fst x1))) as [w1 [[s1 f]| |]]; auto. cbn [ret].
      eexists _, _, _, _, q, HSingle. split; [reflexivity|]. split.
      - eapply H; [apply happened_one|]; reflexivity.
      - eexists _, _. split; reflexivity. }
    destruct (clone_request r) as [q|] eqn:Hq.
    2:{ apply (Hsingle x r). intros y ja t1 H1 H2. eapply hc_unique; eauto. }
    unfold with_histo at 1. destruct (histo_read (now hrt x) (hist x)) as [[h1 l]| |] eqn:Eh; auto.
    destruct (Z.leb_spec min_data_points (Z.of_nat (length l))) as [Hm|Hm].
    2:{ apply (Hsingle (set_hist h1 x) q). intros y ja t1 H1 H2.
        change (now hrt (set_hist h1 x)) with (now hrt x). eapply hc_nodata; eauto. }
    unfold bind at 1. cbn [call hedge_b delay fst snd]. unfold bind at 1, hedge_delay, with_histo.
    change (now hrt (set_hist h1 x)) with (now hrt x). change (hist (set_hist h1 x)) with h1.
    destruct (histo_read (now hrt x) h1) as [[h2 l2]| |] eqn:Eh2; auto.
    unfold bind at 1. cbn [clone hedge_filtered async_filter fst snd]. unfold bind at 1.
    change (clone (hedge_a _ _ _ _)) with (clone tlat). cbn [clone latency]. rewrite ts_clone.
    destruct (clone svc sb _) as [w2 [s2| |]]; auto. unfold bind at 1 2, get, ret at 1 2.
    unfold ret at 1. cbv beta iota. unfold bind at 1. change (call (hedge_a _ _ _ _)) with (call tlat). rewrite lat_call. cbn [fst snd].
    destruct (call svc sa r w2) as [w3 [[s3 f]| |]]; auto. cbn [ret].
    eexists _, _, _, _, q, _. split; [reflexivity|]. split.
    - eapply hc_hedged with (tc := now rt w2) (ta := now rt w2); eauto.
      eexists [At (now rt w2) (TCall ia r (S (tk_next (snd x)))) (now rt w3); At (now hrt x) (TClone ib (tk_next (snd x))) (now rt w2)].
      split; reflexivity.
    - eexists _, _. split; [reflexivity|]. eexists; reflexivity.
  Qed.

  Notation calls := (@calls W Req Resp Err).
  Notation hask := (@hask Req Resp Err can_retry).
  Notation hpoll := (@hpoll W Req Resp Err rt can_retry).
  Notation hlife := (@hlife W Req Resp Err rt can_retry).
  Lemma hedge_request ia sa ib sb u r x gs :
    match call th ((ia, sa), ((ib, sb), u)) r x with
    | (y, Val (s1, f)) =>
        exists ja ta q ph,
          hcall rt clone_request min_data_points quantile ia ib r x y ja ta q ph /\
          hlife ja ta q ph y gs (run_fut th f y (map tk_env gs))
    | _ => True
    end.
  Proof.
    pose proof (hedge_called ia sa ib sb u r x) as H.
    destruct (call th ((ia, sa), ((ib, sb), u)) r x) as [y [[s1 f]| |]]; auto.
    destruct H as (sa' & sb' & ja & ta & q & ph & _ & H1 & H2).
    exists ja, ta, q, ph. split; auto. apply hedge_life. exact H2.
  Qed.

  (** Counting. *)
  Definition is_call (e : L) : bool := match s_ev e with TCall _ _ _ => true | _ => false end.
  Lemma happened_calls (x y : TW) l : happened x y l -> calls y = calls x + length (List.filter is_call l).
  Proof.
    intros (l' & E & <-). unfold calls. rewrite E, filter_app, app_length.
    fold is_call. change (fun e : L => match s_ev e with TCall _ _ _ => true | _ => false end) with is_call.
    assert (H : forall a : list L, length (List.filter is_call (rev a)) = length (List.filter is_call a)).
    { induction a as [|b a IH]; cbn; auto. rewrite filter_app, app_length, IH. cbn. destruct (is_call b); cbn; lia. }
    assert (K : forall a : list L, length (List.filter is_call (List.filter (fun e => negb (is_drop e)) a)) = length (List.filter is_call a)).
    { induction a as [|b a IH]; cbn; auto. unfold is_drop, is_call in *. destruct b as [? [] ?]; cbn; auto. }
    rewrite K, H. lia.
  Qed.
  Definition spare (ph : hphase) : nat := match ph with HDelayed _ _ | HAsking _ => 1 | _ => 0 end.

  Lemma hask_calls q c t l h h' a ph : hask q c t l h h' a ph -> length (List.filter is_call l) + spare ph <= 1.
  Proof. destruct 1; cbn; try lia. destruct p; cbn; lia. Qed.
  Lemma hpoll_calls ja ta q ph x y a ph' :
    hpoll ja ta q ph x y a ph' -> calls y + spare ph' <= calls x + spare ph.
  Proof.
    destruct 1 as [ph x y v ? ? _ H _|ph x y ? ? _ H _|d c x y ? ? H _ _|d c x y a ph ? ? ? ? _ K H|c x y a ph ? ? ? ? K H|j t x y p ? ? ? ? H _];
      apply happened_calls in H; rewrite H; try (apply hask_calls in K); cbn in *; try lia.
    destruct p; cbn; lia.
  Qed.
  Lemma hlife_calls ja ta q ph x gs h : hlife ja ta q ph x gs h ->
    Forall (fun e => match snd e with Val _ => calls (fst e) <= calls x + spare ph | _ => True end) h.
  Proof.
    induction 1 as [|ph ph' x y g gs h H1 H2 H3 IH|ph x y g gs v H| |]; repeat constructor; cbn; auto.
    - apply hpoll_calls in H1. change (calls (tk_env g x)) with (calls x) in H1. lia.
    - apply hpoll_calls in H1. change (calls (tk_env g x)) with (calls x) in H1.
      eapply Forall_impl; [|exact IH]. intros [z [a| |]]; cbn; auto. lia.
    - apply hpoll_calls in H. change (calls (tk_env g x)) with (calls x) in H. lia.
  Qed.

  Lemma hedge_at_most_two ia sa ib sb u r x gs :
    match call th ((ia, sa), ((ib, sb), u)) r x with
    | (y, Val (s1, f)) =>
        Forall (fun e => match snd e with Val _ => attempts x (fst e) <= 2 | _ => True end)
          (run_fut th f y (map tk_env gs))
    | _ => True
    end.
  Proof.
    pose proof (hedge_request ia sa ib sb u r x gs) as H.
    destruct (call th ((ia, sa), ((ib, sb), u)) r x) as [y [[s1 f]| |]]; auto.
    destruct H as (ja & ta & q & ph & H1 & H2). apply hlife_calls in H2.
    eapply Forall_impl; [|exact H2]. intros [z [a| |]]; cbn; auto. intros K. unfold attempts.
    destruct H1 as [x y ja ? ? _ H _|x y ja q h1 l ? ? _ _ _ H _|x y ja q c h1 h2 l l2 ? ? ? ? _ _ _ _ H _];
      apply happened_calls in H; cbn in *; lia.
  Qed.

  (** The first completion decides. *)
  Definition decided (ja : nat) (x y : TW) (a : poll (result Resp (Err + (Err + Empty_set)))) : Prop :=
    match a with
    | Pending => exists l, happened x y l /\ Forall undecided l
    | Ready v => exists l e, happened x y (l ++ [e]) /\ Forall undecided l /\ decides ja e v
    end.

  Definition decides_l (ja : nat) (l : list L) (a : poll (result Resp (Err + (Err + Empty_set)))) : Prop :=
    match a with
    | Pending => Forall undecided l
    | Ready v => exists l' e, l = l' ++ [e] /\ Forall undecided l' /\ decides ja e v
    end.
  Lemma hask_decided q c t l h h' ja a ph : hask q c t l h h' a ph -> decides_l ja l a.
  Proof.
    destruct 1 as [h t1|h e t1|h c' t1 t2 t3|h h' c' j p t1 t2 t3 tb t4 t5 te _ _]; cbn.
    - repeat constructor.
    - eexists [], _. split; [reflexivity|]. split; [constructor|reflexivity].
    - repeat constructor.
    - destruct p as [|v]; cbn.
      + repeat constructor.
      + eexists [_; _; _], _. split; [reflexivity|]. split; [repeat constructor|]. right. reflexivity.
  Qed.
  Lemma decided_l ja x y l a : happened x y l -> decides_l ja l a -> decided ja x y a.
  Proof.
    intros H. destruct a as [|v]; cbn; [eauto|]. intros (l' & e & -> & H1 & H2). eauto.
  Qed.
  Lemma decides_cons ja e l a : undecided e -> decides_l ja l a -> decides_l ja (e :: l) a.
  Proof.
    intros H. destruct a as [|v]; cbn; [intros; constructor; auto|].
    intros (l' & e' & -> & H1 & H2). exists (e :: l'), e'. split; [reflexivity|]. split; [constructor; auto | auto].
  Qed.
  Lemma decided_after ja x z y a l : happened x z l -> Forall undecided l -> decided ja z y a -> decided ja x y a.
  Proof.
    intros H1 H2. destruct a as [|v]; cbn.
    - intros (l' & H3 & H4). exists (l ++ l'). split; [eapply happened_trans; eauto | apply Forall_app; auto].
    - intros (l' & e & H3 & H4 & H5). exists (l ++ l'), e. rewrite <- app_assoc.
      split; [eapply happened_trans; eauto | split; [apply Forall_app; auto | auto]].
  Qed.
  Lemma hpoll_decided ja ta q ph x y a ph' :
    hpoll ja ta q ph x y a ph' -> decided ja x y a.
  Proof.
    destruct 1 as [ph x y v ? ? _ H _|ph x y ? ? _ H _|d c x y ? ? H _ _|d c x y a ph ? ? ? ? _ K H|c x y a ph ? ? ? ? K H|j t x y p ? ? ? ? H _];
      eapply decided_l; eauto.
    - cbn. eexists [], _. split; [reflexivity|]. split; [constructor | left; auto].
    - repeat constructor.
    - repeat constructor.
    - apply decides_cons; [exact I | eapply hask_decided; eauto].
    - apply decides_cons; [exact I | eapply hask_decided; eauto].
    - apply decides_cons; [exact I|]. destruct p as [|v]; cbn; [repeat constructor|].
      eexists [], _. split; [reflexivity|]. split; [constructor | right; reflexivity].
  Qed.
  Lemma hlife_decided ja ta q ph x gs h : hlife ja ta q ph x gs h ->
    Forall (fun e => match snd e with Val a => decided ja x (fst e) a | _ => True end) h.
  Proof.
    induction 1 as [|ph ph' x y g gs h H1 H2 H3 IH|ph x y g gs v H| |]; repeat constructor; cbn [fst snd]; auto.
    - exact (hpoll_decided H1).
    - pose proof (hpoll_decided H1) as (l & K1 & K2).
      eapply Forall_impl; [|exact IH]. intros [z [a| |]]; cbn [fst snd]; auto. intros K.
      eapply decided_after; [|exact K2|exact K]. exact K1.
    - exact (hpoll_decided H).
  Qed.
  Lemma hedge_first_wins ia sa ib sb u r x gs :
    match call th ((ia, sa), ((ib, sb), u)) r x with
    | (y, Val (s1, f)) =>
        exists ja, Forall (fun e =>
          match snd e with
          | Val Pending => exists l, happened x (fst e) l /\ Forall undecided l
          | Val (Ready v) => exists l d, happened x (fst e) (l ++ [d]) /\ Forall undecided l /\ decides ja d v
          | _ => True
          end) (run_fut th f y (map tk_env gs))
    | _ => True
    end.
  Proof.
    pose proof (hedge_request ia sa ib sb u r x gs) as H.
    destruct (call th ((ia, sa), ((ib, sb), u)) r x) as [y [[s1 f]| |]]; auto.
    destruct H as (ja & ta & q & ph & H1 & H2). exists ja. apply hlife_decided in H2.
    assert (K : exists l, happened x y l /\ Forall undecided l).
    { destruct H1 as [x y ja ? ? _ H _|x y ja q h1 l ? ? _ _ _ H _|x y ja q c h1 h2 l l2 ? ? ? ? _ _ _ _ H _];
        (eexists; split; [exact H|]; repeat constructor). }
    destruct K as (l & K1 & K2).
    eapply Forall_impl; [|exact H2]. intros [z [[|v]| |]]; cbn [fst snd]; auto; intros K.
    - exact (@decided_after ja _ _ _ Pending _ K1 K2 K).
    - exact (@decided_after ja _ _ _ (Ready v) _ K1 K2 K).
  Qed.

  (** The latency recorded. *)
  Definition started (x : TW) (j : nat) (t : Z) (y : TW) : Prop :=
    exists l i q t', happened x y l /\ In (At t (TCall i q j) t') l.
  Lemma started_more x y z j t l : started x j t y -> happened y z l -> started x j t z.
  Proof.
    intros (l0 & i & q & t' & H1 & H2) H. exists (l0 ++ l), i, q, t'. split; [eapply happened_trans; eauto|].
    apply in_or_app; auto.
  Qed.
  Definition racing (x : TW) (ph : hphase) (y : TW) : Prop :=
    match ph with HRacing j t => started x j t y | _ => True end.
  Definition metered (x0 x y : TW) (a : poll (result Resp (Err + (Err + Empty_set)))) : Prop :=
    match a with
    | Ready (Ok v) => exists t te, answered x0 y v t te /\ histo_record te (millis (Z.max 0 (te - t))) (hist x) = Val (hist y)
    | _ => hist y = hist x
    end.

  Lemma hask_metered q c t l h h' a ph : hask q c t l h h' a ph ->
    match a with
    | Ready (Ok v) => exists l' j tb te i q' t4 t5, l = l' ++ [At t5 (TPoll j (Ready (Ok v))) te] /\
        In (At tb (TCall i q' j) t4) l' /\ histo_record te (millis (Z.max 0 (te - tb))) h = Val h'
    | _ => h' = h
    end.
  Proof.
    destruct 1 as [h t1|h e t1|h c' t1 t2 t3|h h' c' j p t1 t2 t3 tb t4 t5 te _ Hm]; cbn; auto.
    destruct p as [|[v|e]]; cbn in *; auto.
    eexists [_; _; At tb (TCall c q j) t4], _, _, _, _, _, _, _. split; [reflexivity|]. split; [|exact Hm]. cbn; auto.
  Qed.
  Lemma hask_racing q c t l h h' a ph : hask q c t l h h' a ph ->
    match ph with HRacing j tb => exists i q' t', In (At tb (TCall i q' j) t') l | _ => True end.
  Proof.
    destruct 1 as [h t1|h e t1|h c' t1 t2 t3|h h' c' j p t1 t2 t3 tb t4 t5 te _ Hm]; cbn; auto.
    destruct p; cbn; auto. eexists _, _, _. right; right; left. reflexivity.
  Qed.
  Lemma metered_ask x0 x y ja ta q c t l t0 te a ph :
    started x0 ja ta x -> hask q c t l (hist x) (hist y) a ph -> happened x y (At t0 (TPoll ja Pending) te :: l) ->
    metered x0 x y a /\ racing x0 ph y.
  Proof.
    intros (l0 & i & q0 & t' & Hl0 & _) H Hh. pose proof (happened_trans Hl0 Hh) as Hx. split.
    - apply hask_metered in H. destruct a as [|[v|e]]; cbn; auto.
      destruct H as (l' & j & tb & te' & i' & q' & t4 & t5 & -> & Hin & Hm). exists tb, te'. split; auto.
      eexists (l0 ++ _ :: l'), _, _, _, _, _. split; [|apply in_or_app; right; right; exact Hin].
      rewrite <- app_assoc. exact Hx.
    - apply hask_racing in H. destruct ph; cbn; auto. destruct H as (i' & q' & t'' & H).
      eexists _, _, _, _. split; [exact Hx|]. apply in_or_app; right; right; exact H.
  Qed.
  Lemma metered_own x0 x y j tb l t0 te (p : poll (result Resp Err)) (k : Err -> Err + (Err + Empty_set)) :
    started x0 j tb x -> measured (hist x) tb te p (hist y) -> happened x y (l ++ [At t0 (TPoll j p) te]) ->
    metered x0 x y (poll_map (map_er k) p).
  Proof.
    intros (l0 & i & q0 & t' & Hl0 & Hin) Hm Hh. destruct p as [|[v|e]]; cbn in *; auto.
    exists tb, te. split; auto. eexists (l0 ++ l), _, _, _, _, _. split; [|apply in_or_app; left; exact Hin].
    rewrite <- app_assoc. exact (happened_trans Hl0 Hh).
  Qed.
  Lemma hpoll_metered x0 ja ta q ph x y a ph' :
    started x0 ja ta x -> racing x0 ph x -> hpoll ja ta q ph x y a ph' ->
    metered x0 x y a /\ started x0 ja ta y /\ racing x0 ph' y.
  Proof.
    intros Ha Hr H.
    assert (Hy : started x0 ja ta y).
    { destruct H; eapply started_more; eauto. }
    cut (metered x0 x y a /\ racing x0 ph' y); [tauto|].
    destruct H as [ph x y v ? ? _ H Hm|ph x y ? ? Hp H Hh|d c x y ? ? H Hh _|d c x y a ph ? ? ? ? _ K H|c x y a ph ? ? ? ? K H|j t x y p ? ? ? ? H Hm].
    - split; [|exact I]. exact (@metered_own _ _ _ _ _ [] _ _ (Ready v) inl Ha Hm H).
    - split; [exact Hh|]. destruct Hp as [-> | ->]; exact I.
    - split; [exact Hh | exact I].
    - eapply metered_ask; eauto.
    - eapply metered_ask; eauto.
    - split; [exact (@metered_own _ _ _ _ _ [_] _ _ p _ Hr Hm H)|].
      destruct p; cbn; auto. eapply started_more; [exact Hr | exact H].
  Qed.

  Definition metered_entry (x0 : TW) (e : TW * TW * out (poll (result Resp (Err + (Err + Empty_set))))) : Prop :=
    match snd e with Val a => metered x0 (fst (fst e)) (snd (fst e)) a | _ => True end.
  Lemma started_env x0 j t g x : started x0 j t x -> started x0 j t (tk_env g x).
  Proof. intros H. eapply started_more; [exact H | apply happened_same; reflexivity]. Qed.
  Lemma racing_env x0 ph g x : racing x0 ph x -> racing x0 ph (tk_env g x).
  Proof. destruct ph; cbn; auto. Qed.
  Lemma hlife_metered x0 ja ta q ph x gs h : hlife ja ta q ph x gs h -> started x0 ja ta x -> racing x0 ph x ->
    Forall (metered_entry x0) (polls_of x gs h).
  Proof.
    induction 1 as [|ph ph' x y g gs h H1 H2 H3 IH|ph x y g gs v H| |]; intros Ha Hr; cbn [polls_of]; try (constructor; [exact I | destruct gs; constructor]).
    - constructor.
    - constructor; [exact (proj1 (hpoll_metered (started_env g Ha) (racing_env _ _ g _ Hr) H1))|].
      destruct (hpoll_metered (started_env g Ha) (racing_env _ _ g _ Hr) H1) as (_ & K1 & K2). apply IH; auto.
    - constructor; [exact (proj1 (hpoll_metered (started_env g Ha) (racing_env _ _ g _ Hr) H)) | destruct gs; constructor].
  Qed.

  Lemma hedge_metered ia sa ib sb u r x gs :
    match call th ((ia, sa), ((ib, sb), u)) r x with
    | (y, Val (s1, f)) =>
        Forall (fun '(before, after, o) =>
          match o with
          | Val (Ready (Ok v)) => exists t te, answered x after v t te /\
              histo_record te (millis (Z.max 0 (te - t))) (hist before) = Val (hist after)
          | Val _ => hist after = hist before
          | _ => True
          end) (polls_of y gs (run_fut th f y (map tk_env gs)))
    | _ => True
    end.
  Proof.
    pose proof (hedge_request ia sa ib sb u r x gs) as H.
    destruct (call th ((ia, sa), ((ib, sb), u)) r x) as [y [[s1 f]| |]]; auto.
    destruct H as (ja & ta & q & ph & H1 & H2).
    assert (K : started x ja ta y /\ racing x ph y).
    { destruct H1 as [x y ja ? ? _ H _|x y ja q h1 l ? ? _ _ _ H _|x y ja q c h1 h2 l l2 ? ? ? ? _ _ _ _ H _];
        (split; [|exact I]); (eexists _, _, _, _; split; [exact H|]); cbn; auto. }
    destruct K as [K1 K2]. pose proof (hlife_metered H2 K1 K2) as K.
    eapply Forall_impl; [|exact K]. intros [[b z] [[|[v|e]]| |]]; cbn; auto.
  Qed.

  (** Readiness: that of the instance for originals. *)
  Lemma hedge_ready ia sa ib sb u x :
    match poll_ready th ((ia, sa), ((ib, sb), u)) x with
    | (y, Val (s1, a)) =>
        exists a0 sa', a = poll_map (map_er inl) a0 /\ s1 = ((ia, sa'), ((ib, sb), u)) /\
          (exists t t', log_of y = At t (TReady ia a0) t' :: log_of x) /\ hist y = hist x
    | (y, o) => exists w1, poll_ready svc sa (fst (fst x)) = (w1, match o with Diverge => Diverge | _ => Panic end)
    end.
  Proof.
    unfold thedge, hedge. cbn [poll_ready select fst snd]. unfold bind at 1.
    change (poll_ready (hedge_a _ _ _ _)) with (poll_ready tlat). cbn [poll_ready latency]. rewrite ts_ready.
    destruct (poll_ready svc sa (fst (fst x))) as [w1 [[s1 a]| |]]; [|exists w1; reflexivity..].
    cbn [poll_ready hedge_b delay]. unfold bind, ret. exists a, s1.
    split; [destruct a as [|[[]|e]]; reflexivity|]. split; [reflexivity|]. split; [eexists _, _|]; reflexivity.
  Qed.
End HedgeProof.
