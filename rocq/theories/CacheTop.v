(** The ReadyCache theorems. *)
From Verif Require Import Base Track ContractSpec Middleware ReadyCache CacheSpec CacheProof CacheHist CacheCons.
Set Implicit Arguments.

Section Top.
  Context {W K Req Resp Err : Type} (keq : forall a b : K, {a = b} + {a <> b}).
  Context (svc : Service W Req Resp Err) (sched : nat -> W -> W * list nat).
  Notation ev := (tev Req Resp Err).
  Notation TW := (W * tk ev)%type.
  Notation idj := (fun e : ev => e).
  Notation start n w := ((w, Tk n []) : TW) (only parsing).

  Lemma cache_runs_to_spec ops x :
    cache_history keq (fun _ _ => True) True slots0 x (cache_run keq sched (cache_new (tsvc svc)) x ops).
  Proof.
    assert (H := @cache_run_ok W K Req Resp Err keq svc sched (fun _ => True) (fun _ => True) True True).
    assert (X : cache_history keq (may_panic (K := K) True) True slots0 x (cache_run keq sched (cache_new (tsvc svc)) x ops)).
    { apply H.
      - intros s w _. destruct (poll_ready svc s w) as [w1 [[s1 [|[|]]]| |]]; exact I.
      - intros s r w _. destruct (call svc s r w) as [w1 [[s1 f]| |]]; exact I.
      - apply CInv_new.
      - apply Forall_forall. intros [g o] _. destruct o; exact I. }
    revert X. generalize (@slots0 K) x (cache_run keq sched (cache_new (tsvc svc)) x ops). clear. intros a x h. revert a x.
    induction h as [|[[[x0 b] x1] c1] h IH]; intros a x; [trivial|]. cbn [cache_history].
    intros [A B]. split; [exact A|]. destruct b, c1; auto;
      destruct B as (l & a1 & C1 & C2 & C3 & C4 & C5 & C6); exists l, a1; repeat (split; [assumption|]); auto.
  Qed.

  Fixpoint pushes (bs : list (cache_obs (K := K) (Req := Req) (Err := Err))) : list (K * nat) :=
    match bs with
    | [] => []
    | BPushed k i :: bs' => pushes bs' ++ [(k, i)]
    | _ :: bs' => pushes bs'
    end.
  Lemma pushes_in k i bs : In (k, i) (pushes bs) <-> In (BPushed k i) bs.
  Proof.
    induction bs as [|b bs IH]; [reflexivity|]. destruct b; cbn; rewrite <- ?IH;
      try (split; [tauto|intros [E|E]; [discriminate|exact E]]).
    rewrite in_app_iff. cbn. split.
    - intros [H|[H|[]]]; [tauto|]. left. congruence.
    - intros [H|H]; [|tauto]. right. left. congruence.
  Qed.

  Lemma op_mvs (b : cache_obs (K := K) (Req := Req) (Err := Err)) a (l : list ev) a1 n n1 :
    cache_op_ok keq b a l a1 -> n <= n1 ->
    match b with BPushed _ i => i = n /\ i < n1 | _ => True end ->
    mvs keq a n l (match b with BPushed k i => [(k, i)] | _ => [] end) a1 n1.
  Proof.
    intros H L Hb. destruct b as [k i|k hit|p|[k|] v|[k|] r j|q|]; cbn in H.
    - destruct H as [-> ->]. destruct Hb as [-> Hl]. apply mvs_one with (p := Some (k, n)). constructor. exact Hl.
    - destruct H as (-> & -> & _). apply mvs_one with (p := None). constructor. exact L.
    - inversion H as [? ? ? S N|? ? ? S N|? l0 b ? i e S N]; subst.
      + change (@nil (K * nat)) with (@nil (K * nat) ++ []). rewrite <- (app_nil_r l).
        eapply mvs_app; [apply pp_mvs; exact S|constructor; exact L].
      + change (@nil (K * nat)) with (@nil (K * nat) ++ []). rewrite <- (app_nil_r l).
        eapply mvs_app; [apply pp_mvs; exact S|constructor; exact L].
      + change (@nil (K * nat)) with (@opt_list (K * nat) None ++ []).
        eapply mvs_app; [apply pp_mvs; exact S|]. apply mvs_one. apply mv_fail; [exact L|exact N].
    - apply mvs_one with (p := None). eapply mv_check; eauto.
    - destruct H as (-> & _ & ->). constructor. exact L.
    - apply mvs_one with (p := None). eapply mv_call; eauto.
    - contradiction.
    - contradiction.
    - contradiction.
  Qed.

  Notation hist := (list (TW * cache_obs (K := K) (Req := Req) (Err := Err) * TW * option (cache (K := K) (tsvc svc)))).

  Lemma history_app pan dv (h1 h2 : hist) : forall a x,
    cache_history keq pan dv a x (h1 ++ h2) -> completed h1 ->
    exists l a1, log_of (end_of x h1) = rev l ++ log_of x /\
      mvs keq a (tk_next (snd x)) l (pushes (obs_of h1)) a1 (tk_next (snd (end_of x h1))) /\
      cache_history keq pan dv a1 (end_of x h1) h2.
  Proof.
    induction h1 as [|[[[x0 b] x1] c1] h1 IH]; intros a x H Hc; cbn [app end_of obs_of map] in *.
    - exists [], a. split; [reflexivity|]. split; [constructor; lia|exact H].
    - cbn [cache_history] in H. destruct H as [E H].
      assert (Hb := Hc b (or_introl eq_refl)).
      assert (Hc1 : completed h1) by (intros b' Hb'; apply Hc; right; exact Hb').
      assert (X : exists c l a1, c1 = Some c /\ log_of x1 = rev l ++ log_of x0 /\ cache_op_ok keq b a l a1 /\
              tk_next (snd x0) <= tk_next (snd x1) /\
              match b with BPushed _ i => i = tk_next (snd x0) /\ i < tk_next (snd x1) | _ => True end /\
              cache_history keq pan dv a1 x1 (h1 ++ h2)).
      { destruct b, c1; try contradiction; destruct H as (l & a1 & C1 & C2 & C3 & C4 & C5 & C6);
          exists c, l, a1; auto 10. }
      destruct X as (c & l & a1 & -> & C1 & C2 & C3 & C4 & C6).
      destruct (IH _ _ C6 Hc1) as (l2 & a2 & D1 & D2 & D3).
      exists (l ++ l2), a2. rewrite E in C3, C4.
      assert (El : log_of x0 = log_of x) by (unfold log_of; rewrite E; reflexivity).
      split; [|split; [|exact D3]].
      + rewrite D1, C1, El, rev_app_distr, app_assoc. reflexivity.
      + assert (M := mvs_app (@op_mvs _ _ _ _ _ _ C2 C3 C4) D2).
        replace (pushes (b :: map _ h1)) with (pushes (obs_of h1) ++ match b with BPushed k i => [(k, i)] | _ => [] end); [exact M|].
        destruct b; cbn; rewrite ?app_nil_r; reflexivity.
  Qed.

  Lemma history_mvs pan dv (h : hist) a x :
    cache_history keq pan dv a x h -> completed h ->
    exists l a1, log_of (end_of x h) = rev l ++ log_of x /\
      mvs keq a (tk_next (snd x)) l (pushes (obs_of h)) a1 (tk_next (snd (end_of x h))).
  Proof.
    intros H Hc. rewrite <- (app_nil_r h) in H. destruct (@history_app _ _ _ _ _ _ H Hc) as (l & a1 & A & B & _). eauto.
  Qed.

  Lemma completed_app (h1 h2 : hist) : completed (h1 ++ h2) -> completed h1 /\ completed h2.
  Proof.
    unfold completed, obs_of. rewrite map_app. intros H.
    split; intros b Hb; apply H; apply in_or_app; auto.
  Qed.

  Notation run n w ops := (cache_run keq sched (cache_new (tsvc svc)) (start n w) ops).

  (** Evicted: never used again. *)
  Lemma evicted_never_used ops n w h1 x k hit x1 c1 h2 i l :
    run n w ops = h1 ++ (x, BEvicted k hit, x1, c1) :: h2 ->
    completed (h1 ++ (x, BEvicted k hit, x1, c1) :: h2) ->
    In (BPushed k i) (obs_of h1) ->
    log_of (end_of x1 h2) = l ++ log_of x1 ->
    forall e, In e l -> uses i e = false.
  Proof.
    intros E Hc Hp El.
    assert (H := cache_runs_to_spec ops (start n w)). rewrite E in H.
    destruct (@completed_app _ _ Hc) as [Hc1 Hc2].
    destruct (@history_app _ _ _ _ _ _ H Hc1) as (l1 & a1 & A1 & M1 & H1).
    assert (HW1 := WF_mvs M1 (WF_new _)). rewrite app_nil_r in HW1.
    cbn [cache_history] in H1. destruct H1 as [Ex H1]. destruct c1 as [c1|]; [|contradiction].
    destruct H1 as (l2 & a2 & A2 & B2 & N2 & _ & _ & H2). rewrite Ex in N2.
    assert (M2 := @op_mvs (BEvicted k hit) _ _ _ _ _ B2 N2 I). cbn in B2. destruct B2 as (-> & -> & _).
    assert (HW2 := WF_mvs M2 HW1). cbn in HW2.
    assert (Hc3 : completed h2) by (intros b Hb; apply Hc2; right; exact Hb).
    destruct (@history_mvs _ _ _ _ _ H2 Hc3) as (l3 & a3 & A3 & M3).
    rewrite A3 in El. apply app_inv_tail in El. subst l.
    intros e He. apply in_rev in He.
    eapply (above_for_ever M3 HW2 (le_n _)).
    - apply evict_above.
    - apply pushes_in. exact Hp.
    - apply (w_lt HW2) with k. apply pushes_in. exact Hp.
    - exact He.
  Qed.

  Lemma whole_run ops n w :
    completed (run n w ops) ->
    exists l a, log_of (end_of (start n w) (run n w ops)) = rev l /\
      mvs keq slots0 n l (pushes (obs_of (run n w ops))) a (tk_next (snd (end_of (start n w) (run n w ops)))).
  Proof.
    intros Hc. destruct (@history_mvs _ _ _ _ _ (cache_runs_to_spec ops (start n w)) Hc) as (l & a & A & M).
    exists l, a. rewrite A. cbn. rewrite app_nil_r. auto.
  Qed.

  (** Called only when ready. *)
  Lemma called_when_ready ops n w l2 i r j l1 :
    completed (run n w ops) ->
    log_of (end_of (start n w) (run n w ops)) = l2 ++ TCall i r j :: l1 ->
    ready_now i l1 = true.
  Proof.
    intros Hc El. destruct (whole_run _ _ _ Hc) as (l & a & A & M).
    assert (E : l = rev l1 ++ TCall i r j :: rev l2).
    { apply (f_equal (@rev ev)) in A. rewrite rev_involutive in A. rewrite <- A, El, rev_app_distr. cbn.
      rewrite <- app_assoc. reflexivity. }
    destruct (mvs_split M _ _ _ E) as (lx & psx & a' & n' & ly & lz & p & b' & m' & lw & psw & B1 & B2 & B3 & B4 & B5 & _).
    assert (X' : nows a' (rev lx ++ [])) by (eapply nows_mvs; [exact B1|apply WF_new|intros k q Hk; discriminate]).
    assert (Y : ready_now i (rev ly ++ (rev lx ++ [])) = true) by (eapply call_was_ready; eassumption). rewrite app_nil_r in Y.
    rewrite <- rev_app_distr, <- B4, rev_involutive in Y. exact Y.
  Qed.

  (** Replaced by a newer service that became ready: never used again. *)
  Lemma replaced_never_used ops n w l2 k i i' l1 :
    completed (run n w ops) ->
    In (BPushed k i) (obs_of (run n w ops)) -> In (BPushed k i') (obs_of (run n w ops)) -> i < i' ->
    log_of (end_of (start n w) (run n w ops)) = l2 ++ TReady i' (Ready (Ok tt)) :: l1 ->
    forall e, In e l2 -> uses i e = false.
  Proof.
    intros Hc Hi Hi' Hlt El e He. destruct (whole_run _ _ _ Hc) as (l & a & A & M).
    assert (E : l = rev l1 ++ TReady i' (Ready (Ok tt)) :: rev l2).
    { apply (f_equal (@rev ev)) in A. rewrite rev_involutive in A. rewrite <- A, El, rev_app_distr. cbn.
      rewrite <- app_assoc. reflexivity. }
    assert (HWend := WF_mvs M (WF_new n)). rewrite app_nil_r in HWend.
    apply pushes_in in Hi, Hi'.
    destruct (mvs_split M _ _ _ E) as (lx & psx & a' & n' & ly & lz & p & b' & m' & lw & psw & B1 & B2 & B3 & B4 & B5 & B6).
    assert (HW1 := WF_mvs B1 (WF_new n)). rewrite app_nil_r in HW1.
    assert (HW2 := WF_mv B2 HW1).
    assert (UF : ly = [] /\ forall f j, In f lz -> uses j f = false) by (eapply use_first; [exact B2|cbn; apply Nat.eqb_refl]).
    destruct UF as [-> Hz].
    (* the newer service was already in a slot, hence pushed, before *)
    assert (Ho : In (k, i') psx).
    { destruct (use_slot B2 (TReady i' (Ready (Ok tt))) i') as (k' & Hk); [left; reflexivity|cbn; apply Nat.eqb_refl|].
      assert (Hk2 : In (k', i') psx) by (destruct Hk as [Hk|Hk]; [apply (w_ready HW1), Hk|apply (w_pend HW1), Hk]).
      assert (k' = k) as ->; [|exact Hk2].
      apply (w_fun HWend) with i'; [|exact Hi']. rewrite B6. rewrite !in_app_iff. auto. }
    assert (Hab : above k i' b') by (eapply ready_above; eassumption).
    assert (Hn : i' < n') by apply (w_lt HW1 _ _ Ho).
    apply in_rev in He. rewrite B5 in He. apply in_app_or in He as [He|He]; [apply Hz; exact He|].
    (* the older service was pushed before, too *)
    assert (Hoi : In (k, i) (opt_cons p psx)).
    { rewrite B6 in Hi. apply in_app_or in Hi as [Hi|Hi]; [|rewrite opt_cons_list; exact Hi]. exfalso.
      assert (L := mv_le B2). assert (G : m' <= i) by (eapply pushed_late; eassumption). lia. }
    assert (L := mv_le B2).
    refine (above_for_ever (k := k) (th := i') B3 HW2 _ Hab Hoi Hlt _ He). lia.
  Qed.

  (** A service replaced while it was pending: never used again. *)
  Lemma replaced_pending_never_used ops n w h1 x k i' x1 c1 h2 i l :
    run n w ops = h1 ++ (x, BPushed k i', x1, Some c1) :: h2 ->
    completed (h1 ++ (x, BPushed k i', x1, Some c1) :: h2) ->
    In (BPushed k i) (obs_of h1) ->
    (forall m s, get_ready keq c1 k <> Some (m, (i, s))) ->
    log_of (end_of x1 h2) = l ++ log_of x1 ->
    forall e, In e l -> uses i e = false.
  Proof.
    intros E Hc Hp Hnr El.
    assert (H := cache_runs_to_spec ops (start n w)). rewrite E in H.
    destruct (@completed_app _ _ Hc) as [Hc1 Hc2].
    destruct (@history_app _ _ _ _ _ _ H Hc1) as (l1 & a1 & A1 & M1 & H1).
    assert (HW1 := WF_mvs M1 (WF_new _)). rewrite app_nil_r in HW1.
    cbn [cache_history] in H1. destruct H1 as [Ex H1].
    destruct H1 as (l2 & a2 & A2 & B2 & N2 & P2 & S2 & H2). rewrite Ex in N2, P2.
    assert (M2 := @op_mvs (BPushed k i') _ _ _ _ _ B2 N2 P2). cbn in B2. destruct B2 as (-> & ->).
    assert (HW2 := WF_mvs M2 HW1).
    assert (Hc3 : completed h2) by (intros b Hb; apply Hc2; right; exact Hb).
    destruct (@history_mvs _ _ _ _ _ H2 Hc3) as (l3 & a3 & A3 & M3).
    rewrite A3 in El. apply app_inv_tail in El. subst l.
    intros e He. apply in_rev in He.
    apply pushes_in in Hp. assert (Hlt := w_lt HW1 _ _ Hp).
    assert (Hr : in_ready (pushed keq k i' a1) k <> Some i).
    { intros C. apply (sh_ready S2) in C as (m & s & C). exact (Hnr _ _ C). }
    assert (Hpn : in_pend (pushed keq k i' a1) k = Some i') by (cbn; apply put_same).
    destruct P2 as [-> P2].
    (* [i] is in neither slot of [k], so it is doomed or gone *)
    destruct (uses i e) eqn:Eu; [|reflexivity]. exfalso.
    assert (NS : forall k', in_ready (pushed keq k (tk_next (snd (end_of (start n w) h1))) a1) k' <> Some i /\
                            in_pend (pushed keq k (tk_next (snd (end_of (start n w) h1))) a1) k' <> Some i).
    { intros k'. split; intros C.
      - assert (k' = k) as ->; [|exact (Hr C)].
        eapply (w_fun HW2); [apply (w_ready HW2); exact C|]. right. exact Hp.
      - assert (k' = k) as ->.
        { eapply (w_fun HW2); [apply (w_pend HW2); exact C|]. right. exact Hp. }
        rewrite Hpn in C. injection C as C. lia. }
    assert (Li : i < tk_next (snd x1)) by (apply (w_lt HW2) with k; right; exact Hp).
    rewrite (never_slot M3 HW2 Li NS _ He) in Eu. discriminate.
  Qed.

  (** A newer service waits: the old one is called at most once more - unless a
      newer one fails. *)
  Lemma superseded_called_once ops n w h1 h2 k i i' l2 r j l1 :
    run n w ops = h1 ++ h2 -> completed (h1 ++ h2) ->
    In (BPushed k i) (obs_of h1) -> In (BPushed k i') (obs_of h1) -> i < i' ->
    log_of (end_of (start n w) (h1 ++ h2)) = l2 ++ TCall i r j :: l1 ++ log_of (end_of (start n w) h1) ->
    (forall e, In e l2 -> uses i e = false) \/
    exists q e, i < q /\ In (BPushed k q) (obs_of (h1 ++ h2)) /\
      In (TReady q (Ready (Er e))) (l1 ++ log_of (end_of (start n w) h1)).
  Proof.
    intros E Hc Hi Hi' Hlt El.
    assert (H := cache_runs_to_spec ops (start n w)). rewrite E in H.
    destruct (@completed_app _ _ Hc) as [Hc1 Hc2].
    destruct (@history_app _ _ _ _ _ _ H Hc1) as (m1 & a1 & A1 & M1 & H1).
    assert (HW1 := WF_mvs M1 (WF_new _)). rewrite app_nil_r in HW1.
    destruct (@history_mvs _ _ _ _ _ H1 Hc2) as (m2 & a2 & A2 & M2).
    assert (En : end_of (start n w) (h1 ++ h2) = end_of (end_of (start n w) h1) h2).
    { clear. generalize (start n w). induction h1 as [|[[[x0 b] x1] c1] h1 IH]; intros x; [reflexivity|]. cbn. apply IH. }
    rewrite En, A2 in El. rewrite app_comm_cons, app_assoc in El. apply app_inv_tail in El.
    assert (Em : m2 = rev l1 ++ TCall i r j :: rev l2).
    { apply (f_equal (@rev ev)) in El. rewrite rev_involutive in El. rewrite El, rev_app_distr. cbn.
      rewrite <- app_assoc. reflexivity. }
    apply pushes_in in Hi, Hi'.
    assert (PA : forall q, In (k, q) (pushes (obs_of h2) ++ pushes (obs_of h1)) -> In (BPushed k q) (obs_of (h1 ++ h2))).
    { intros q Hq. unfold obs_of. rewrite map_app. apply in_or_app. apply in_app_or in Hq as [Hq|Hq]; apply pushes_in in Hq; auto. }
    assert (LG : forall e, In e m1 -> In e (log_of (end_of (start n w) h1))).
    { intros e He. rewrite A1. apply in_or_app. left. apply in_rev in He. exact He. }
    destruct (pushed_superseded k i' M1 (WF_new _) Hi') as [S1|(q & e & Q1 & Q2 & Q3)].
    2:{ right. exists q, e. rewrite app_nil_r in Q2. split; [lia|]. split; [apply PA, in_or_app; auto|apply in_or_app; auto]. }
    destruct (mvs_split M2 _ _ _ Em) as (lx & psx & a' & n' & ly & lz & p & b' & m' & lw & psw & B1 & B2 & B3 & B4 & B5 & B6).
    assert (Ln : i' <= tk_next (snd (end_of (start n w) h1))) by (apply Nat.lt_le_incl, (w_lt HW1 _ _ Hi')).
    destruct (superseded_mvs B1 HW1 Ln S1) as [S2|(q & e & Q1 & Q2 & Q3)].
    2:{ right. exists q, e. split; [lia|]. split.
        - apply PA. rewrite B6. apply in_app_or in Q2. rewrite !in_app_iff. tauto.
        - apply in_or_app. left. apply in_rev. rewrite B4. apply in_or_app. auto. }
    left. intros e He. apply in_rev in He. rewrite B5 in He.
    assert (HW2 := WF_mvs B1 HW1). assert (HW3 := WF_mv B2 HW2).
    assert (UF : ly = [] /\ forall f j, In f lz -> uses j f = false) by (eapply use_first; [exact B2|cbn; apply Nat.eqb_refl]).
    destruct UF as [-> Hz]. apply in_app_or in He as [He|He]; [apply Hz; exact He|].
    assert (Hi2 : In (k, i) (psx ++ pushes (obs_of h1))) by (apply in_or_app; auto).
    assert (AB : above k i' b') by (eapply call_above; eassumption).
    assert (L1 := mvs_le B1). assert (L2 := mv_le B2).
    assert (Hi3 : In (k, i) (opt_cons p (psx ++ pushes (obs_of h1)))) by (rewrite opt_cons_list; apply in_or_app; auto).
    refine (above_for_ever (k := k) (th := i') B3 HW3 _ AB Hi3 Hlt _ He). lia.
  Qed.

  (** Every service pushed is dropped at most once, and not touched afterwards. *)
  Lemma dropped_once ops n w k i :
    completed (run n w ops) -> In (BPushed k i) (obs_of (run n w ops)) ->
    times_dropped i (log_of (end_of (start n w) (run n w ops))) <= 1 /\
    forall l2 l1, log_of (end_of (start n w) (run n w ops)) = l2 ++ TDropSvc i :: l1 ->
      forall e, In e l2 -> dropped_or_used i e = false.
  Proof.
    intros Hc Hi. destruct (whole_run _ _ _ Hc) as (l & a & A & M). apply pushes_in in Hi.
    assert (HW := WF_mvs M (WF_new n)). rewrite app_nil_r in HW.
    split.
    - assert (X : ledger a (pushes (obs_of (run n w ops)) ++ []) (rev l ++ [])).
      { eapply ledger_mvs; [exact M|apply WF_new|reflexivity|]. intros q. split; [|intros k0 []].
        intros [(k0 & C)|[(k0 & C)|[]]]; discriminate. }
      rewrite !app_nil_r in X. rewrite A. destruct (X i) as [X1 X2].
      change (times_dropped i (rev l)) with (drops i (rev l)).
      destruct (at_slot_dec i HW) as [Ha|Ha]; [rewrite (X1 Ha)|rewrite (X2 _ Hi Ha)]; lia.
    - intros l2 l1 El e He.
      assert (E : l = rev l1 ++ TDropSvc i :: rev l2).
      { apply (f_equal (@rev ev)) in A. rewrite rev_involutive in A. rewrite <- A, El, rev_app_distr. cbn.
        rewrite <- app_assoc. reflexivity. }
      destruct (mvs_split M _ _ _ E) as (lx & psx & a' & n' & ly & lz & p & b' & m' & lw & psw & B1 & B2 & B3 & B4 & B5 & B6).
      assert (HW1 := WF_mvs B1 (WF_new n)). rewrite app_nil_r in HW1.
      assert (D : ~ at_slot b' i /\ i < n' /\ lz = []) by (eapply dropped_out; eassumption).
      destruct D as (D1 & D2 & ->). assert (L := mv_le B2).
      assert (Lt : i < m') by lia.
      apply in_rev in He. rewrite B5 in He. cbn in He.
      exact (proj2 (gone_for_ever B3 (WF_mv B2 HW1) Lt D1) _ He).
  Qed.

  (** Nothing is lost: a pushed service is still shown by the accessors, waits to
      be dropped, or has been dropped. *)
  Lemma nothing_lost ops n w h x b x1 c :
    run n w ops = h ++ [(x, b, x1, Some c)] -> completed (run n w ops) ->
    exists a, shows keq c a /\
      forall k i, In (BPushed k i) (obs_of (run n w ops)) ->
        in_ready a k = Some i \/ in_pend a k = Some i \/ In i (doomed a) \/ times_dropped i (log_of x1) = 1.
  Proof.
    intros E Hc. assert (H := cache_runs_to_spec ops (start n w)). rewrite E in H.
    assert (Hc' := Hc). rewrite E in Hc'. destruct (@completed_app _ _ Hc') as [Hc1 _].
    destruct (@history_app _ _ _ _ _ _ H Hc1) as (l1 & a1 & A1 & M1 & H1).
    assert (Hb := Hc' b).
    assert (Hb' : match b with BPanic _ | BDiverge => False | _ => True end).
    { apply Hb. unfold obs_of. rewrite map_app. apply in_or_app. right. left. reflexivity. }
    cbn [cache_history] in H1. destruct H1 as [Ex H1].
    assert (X : exists l a2, log_of x1 = rev l ++ log_of x /\ cache_op_ok keq b a1 l a2 /\
              tk_next (snd x) <= tk_next (snd x1) /\
              match b with BPushed _ i => i = tk_next (snd x) /\ i < tk_next (snd x1) | _ => True end /\ shows keq c a2).
    { destruct b; try contradiction; destruct H1 as (l & a2 & C1 & C2 & C3 & C4 & C5 & C6); exists l, a2; auto 10. }
    destruct X as (l2 & a2 & C1 & C2 & C3 & C4 & C5). rewrite Ex in C3, C4.
    assert (M2 := @op_mvs b _ _ _ _ _ C2 C3 C4). assert (M := mvs_app M1 M2).
    exists a2. split; [exact C5|]. intros k i Hi.
    assert (Hi' : In (k, i) (match b with BPushed k i => [(k, i)] | _ => [] end ++ pushes (obs_of h))).
    { rewrite E in Hi. unfold obs_of in Hi. rewrite map_app in Hi. apply in_app_or in Hi as [Hi|Hi].
      - apply in_or_app. right. apply pushes_in. exact Hi.
      - apply in_or_app. left. cbn in Hi. destruct Hi as [->|[]]. left. reflexivity. }
    assert (HW := WF_mvs M (WF_new n)). rewrite app_nil_r in HW.
    assert (X : ledger a2 ((match b with BPushed k i => [(k, i)] | _ => [] end ++ pushes (obs_of h)) ++ []) (rev (l1 ++ l2) ++ [])).
    { eapply ledger_mvs; [exact M|apply WF_new|reflexivity|]. intros q. split; [|intros k0 []].
      intros [(k0 & C)|[(k0 & C)|[]]]; discriminate. }
    rewrite !app_nil_r in X.
    assert (El : log_of x1 = rev (l1 ++ l2)).
    { rewrite C1, rev_app_distr. f_equal. transitivity (log_of (end_of (start n w) h)); [unfold log_of; rewrite Ex; reflexivity|].
      rewrite A1. cbn. apply app_nil_r. }
    rewrite El. change (times_dropped i (rev (l1 ++ l2))) with (drops i (rev (l1 ++ l2))).
    destruct (at_slot_dec i HW) as [Ha|Ha]; [|right; right; right; exact (proj2 (X i) _ Hi' Ha)].
    destruct Ha as [(k' & Ha)|[(k' & Ha)|Ha]]; [left|right; left|auto].
    - assert (k' = k) as <-; [|exact Ha]. eapply (w_fun HW); [apply (w_ready HW); exact Ha|exact Hi'].
    - assert (k' = k) as <-; [|exact Ha]. eapply (w_fun HW); [apply (w_pend HW); exact Ha|exact Hi'].
  Qed.
End Top.

(** No panic but the documented one, no hang: over supervised services. *)
Section NoPanic.
  Context {W K Req Resp Err : Type} (keq : forall a b : K, {a = b} + {a <> b}).
  Context (svc : Service W Req Resp Err) (sched : nat -> W -> W * list nat).

  Lemma cache_panics (ops : list ((W -> W) * cache_op (K := K) (guard svc))) x :
    never_panics svc -> never_diverges svc ->
    (forall g k s, In (g, OPush k s) ops -> fst s = Idle) ->
    cache_history keq
      (fun a q => match q with
                  | Some (Some k) => in_ready a k = None
                  | Some None => True
                  | None => False
                  end) False slots0 x (cache_run keq sched (cache_new (tsvc (guard svc))) x ops).
  Proof.
    intros NP ND Hpush.
    assert (X : cache_history keq (may_panic (K := K) False) False slots0 x (cache_run keq sched (cache_new (tsvc (guard svc))) x ops)).
    { apply (@cache_run_ok W K Req Resp Err keq (guard svc) sched (fun s => fst s = Idle) (fun s => fst s = Primed) False False).
      - intros [p s] w Hp. cbn in *.
        assert (Hd : p <> Dead) by (destruct Hp; congruence).
        destruct p; try congruence; unfold bind, ret;
          (assert (Y := np_ready NP s w); assert (Z := nd_ready ND s w);
           destruct (poll_ready svc s w) as [w1 [[s1 [|[|]]]| |]]; cbn in *; auto; congruence).
      - intros [p s] r w Hp. cbn in *. subst p. unfold bind, ret.
        assert (Y := np_call NP s r w). assert (Z := nd_call ND s r w).
        destruct (call svc s r w) as [w1 [[s1 f]| |]]; cbn in *; auto; congruence.
      - apply CInv_new.
      - apply Forall_forall. intros [g o] Ho. destruct o; try exact I. cbn. eapply Hpush. exact Ho. }
    revert X. generalize (@slots0 K) x (cache_run keq sched (cache_new (tsvc (guard svc))) x ops). clear. intros a x h. revert a x.
    induction h as [|[[[x0 b] x1] c1] h IH]; intros a x; [trivial|]. cbn [cache_history].
    intros [A B]. split; [exact A|].
    destruct b as [k i|k hit|p|k v|k r j|q|]; try (destruct c1; auto;
      destruct B as (l & a1 & C1 & C2 & C3 & C4 & C5 & C6); exists l, a1; repeat (split; [assumption|]); auto; fail).
    destruct B as [B|B]; [contradiction|]. destruct q as [[k|]|]; auto.
  Qed.
End NoPanic.
