(** The Balance theorems. *)
From Verif Require Import Base Track ContractSpec Demo Middleware ReadyCache CacheSpec CacheProof CacheHist CacheCons
  BalanceSpec BalanceProof BalanceTop.
Set Implicit Arguments.

Section Top.
  Context {W K Req Resp Err DErr Metric R : Type} (keq : forall a b : K, {a = b} + {a <> b}).
  Context (svc : Service W Req Resp Err) (D : Discover W K (st svc) DErr).
  Context (sched : nat -> W -> W * list nat) (next_u64 : R -> M W (R * Z)) (debug : bool).
  Context (load : st svc -> M W Metric) (le : Metric -> Metric -> bool) (fuel : nat).
  Notation bev := (@bev K Req Resp Err DErr Metric).
  Notation TW := (W * tk bev)%type.
  Notation bal := (tbalance keq svc D sched next_u64 debug load le fuel).
  Notation newb := (tbalance_new keq svc D sched next_u64 debug load le fuel).

  Lemma balance_runs_to_spec (ops : list ((W -> W) * @sop Req)) (d : dst D) (g : R) (x : TW) :
    bal_history True True slots0 None x (run_svc bal Idle (newb d g) x (tk_ops ops)).
  Proof.
    apply (@balance_run_ok W K Req Resp Err DErr Metric R keq svc D sched next_u64 debug load le
             (fun _ => True) (fun _ => True) (fun _ => True) True True).
    - intros s w _. destruct (poll_ready svc s w) as [w1 [[s1 [|[|]]]| |]]; exact I.
    - intros s r w _. destruct (call svc s r w) as [w1 [[s1 f]| |]]; exact I.
    - intros d0 w _. destruct (poll_discover D d0 w) as [w1 [[d1 [|[[[k s|k]|e]|]]]| |]]; auto.
    - intros s w. destruct (load s w) as [w1 [m| |]]; exact I.
    - intros g0 w. destruct (next_u64 g0 w) as [w1 [m| |]]; exact I.
    - apply BInv_new. exact I.
  Qed.

  Notation hist := (list (TW * sobs bal * TW)).

  Lemma history_bmvs (h : hist) : forall a held x,
    bal_history (le := le) True True a held x h -> bal_completed h ->
    call_follows (log_of x) ->
    match held with Some i => exists l, log_of x = BIn (TReady i (Ready (Ok tt))) :: l | None => True end ->
    call_follows (log_of (bal_end x h)) /\
    exists L ps b, log_of (bal_end x h) = rev L ++ log_of x /\
      bmvs keq a (tk_next (snd x)) L ps b (tk_next (snd (bal_end x h))).
  Proof.
    induction h as [|[[x0 ob] x1] h IH]; intros a held x H Hc CF Hh.
    - cbn [bal_end]. split; [exact CF|]. exists [], [], a. split; [reflexivity|constructor; apply le_n].
    - cbn [bal_history bal_end] in *. destruct H as [E H].
      apply Forall_cons_iff in Hc as [Hc1 Hc]. cbn [fst snd] in Hc1. destruct Hc1 as [HF Hb]. specialize (H HF).
      assert (El : log_of x0 = log_of x) by (unfold log_of; rewrite E; reflexivity).
      destruct ob as [p|r f| | |]; try contradiction.
      + destruct H as (l & held1 & a1 & A & P & H1).
        destruct (polls_follow P) as [N1 N2].
        assert (CF1 : call_follows (log_of x1)).
        { rewrite A, El. apply follows_app; [apply no_call_rev; exact N1|exact CF]. }
        assert (Hh1 : match held1 with Some i => exists l, log_of x1 = BIn (TReady i (Ready (Ok tt))) :: l | None => True end).
        { destruct held1; [|exact I]. destruct N2 as (l' & ->). rewrite A, rev_app_distr. cbn. eauto. }
        destruct (IH _ _ _ H1 Hc CF1 Hh1) as [R1 (L & ps & b & R2 & R3)]. split; [exact R1|].
        destruct (polls_bmvs P) as (ps0 & M0). rewrite E in M0.
        exists (l ++ L), (ps ++ ps0), b. split; [rewrite R2, A, El, rev_app_distr, <- app_assoc; reflexivity|].
        eapply bmvs_app; eassumption.
      + destruct H as (k & i & l & j & f0 & a1 & Eh & Hk & Ef & A & C & Ln & H1). subst held.
        destruct Hh as (l0 & Hh).
        assert (CF1 : call_follows (log_of x1)).
        { rewrite A, El. inversion C as [? ? ? i1 ? Hr]; subst. assert (i1 = i) by congruence. subst i1.
          cbn [rev]. rewrite <- app_assoc. cbn [app]. apply follows_app; [apply no_call_rev, no_call_aside|].
          intros l2 i2 r2 j2 l1 E2. destruct l2 as [|y l2]; cbn in E2.
          - injection E2 as E3 E4 E5 E6. subst. rewrite Hh. eauto.
          - injection E2 as E3 E4. eapply CF. exact E4. }
        destruct (IH _ _ _ H1 Hc CF1 I) as [R1 (L & ps & b & R2 & R3)]. split; [exact R1|].
        rewrite E in Ln. assert (M0 := call_bmvs Ln C).
        exists (l ++ L), (ps ++ []), b. split; [rewrite R2, A, El, rev_app_distr, <- app_assoc; reflexivity|].
        eapply bmvs_app; eassumption.
      + destruct H as [E1 H1].
        assert (El1 : log_of x1 = log_of x) by (unfold log_of; rewrite E1, E; reflexivity).
        rewrite <- El1 in CF, Hh.
        destruct (IH _ _ _ H1 Hc CF Hh) as [R1 (L & ps & b & R2 & R3)]. split; [exact R1|].
        exists L, ps, b. split; [rewrite R2, El1; reflexivity|]. rewrite <- E, <- E1. exact R3.
  Qed.

  Lemma whole_run ops d g n w :
    bal_completed (run_svc bal Idle (newb d g) ((w, Tk n []) : TW) (tk_ops ops)) ->
    let l := log_of (bal_end (w, Tk n []) (run_svc bal Idle (newb d g) ((w, Tk n []) : TW) (tk_ops ops))) in
    call_follows l /\ exists ps b m, bmvs keq slots0 n (rev l) ps b m.
  Proof.
    intros Hc. assert (H := balance_runs_to_spec ops d g ((w, Tk n []) : TW)).
    destruct (@history_bmvs _ _ _ _ H Hc) as [R1 (L & ps & b & R2 & R3)]; [|exact I|].
    - intros l2 i r j l1 E. destruct l2; discriminate.
    - split; [exact R1|]. rewrite R2. cbn [log_of snd tk_log]. rewrite app_nil_r, rev_involutive. eauto.
  Qed.

  Lemma rev_at A (l l2 l1 : list A) e : l = l2 ++ e :: l1 -> rev l = rev l1 ++ e :: rev l2.
  Proof. intros ->. rewrite rev_app_distr. cbn. rewrite <- app_assoc. reflexivity. Qed.

  Lemma balance_uses_members ops d g n w l2 e l1 i :
    bal_completed (run_svc bal Idle (newb d g) ((w, Tk n []) : TW) (tk_ops ops)) ->
    log_of (bal_end (w, Tk n []) (run_svc bal Idle (newb d g) ((w, Tk n []) : TW) (tk_ops ops))) = l2 ++ BIn e :: l1 ->
    uses i e = true ->
    exists k u v, l1 = v ++ inserted k i :: u /\ ~ In (removed k) v /\
      forall i', In (inserted k i') v -> ~ In (BIn (TReady i' (Ready (Ok tt)))) v.
  Proof.
    intros Hc E Hu. destruct (@whole_run _ _ _ _ _ Hc) as [_ (ps & b & m & M)].
    destruct (@used_ok _ _ _ _ _ _ _ le _ _ _ _ _ _ _ _ _ M (rev_at _ _ _ E) Hu) as (k & u & v & A & B & C).
    exists k, (rev u), (rev v). apply (f_equal (@rev bev)) in A. rewrite rev_involutive, rev_app_distr in A. cbn in A.
    rewrite <- app_assoc in A. split; [exact A|]. split; [intros X; apply in_rev in X; auto|].
    intros i' X Y. apply in_rev in X, Y. exact (C _ X Y).
  Qed.

  Lemma balance_superseded ops d g n w l2 i r j l1 k i' :
    bal_completed (run_svc bal Idle (newb d g) ((w, Tk n []) : TW) (tk_ops ops)) ->
    log_of (bal_end (w, Tk n []) (run_svc bal Idle (newb d g) ((w, Tk n []) : TW) (tk_ops ops)))
      = l2 ++ BIn (TCall i r j) :: l1 ->
    In (inserted k i) l1 -> In (inserted k i') l1 -> i < i' ->
    (forall e, In (BIn e) l2 -> uses i e = false) \/
    exists q x, i < q /\ In (inserted k q) l1 /\ In (BIn (TReady q (Ready (Er x)))) l1.
  Proof.
    intros Hc E Hi Hi' Hlt. destruct (@whole_run _ _ _ _ _ Hc) as [_ (ps & b & m & M)].
    apply in_rev in Hi, Hi'.
    destruct (@superseded_once _ _ _ _ _ _ _ le _ _ _ _ _ _ _ _ _ _ _ _ M (rev_at _ _ _ E) Hi Hi' Hlt) as [A|(q & x & A & B & C)].
    - left. intros e He. apply in_rev in He. exact (A _ He).
    - right. exists q, x. apply in_rev in B, C. auto.
  Qed.

  Lemma balance_call_checked ops d g n w l2 i r j l1 :
    bal_completed (run_svc bal Idle (newb d g) ((w, Tk n []) : TW) (tk_ops ops)) ->
    log_of (bal_end (w, Tk n []) (run_svc bal Idle (newb d g) ((w, Tk n []) : TW) (tk_ops ops)))
      = l2 ++ BIn (TCall i r j) :: l1 ->
    exists l0, l1 = BIn (TReady i (Ready (Ok tt))) :: l0.
  Proof.
    intros Hc E. destruct (@whole_run _ _ _ _ _ Hc) as [F _]. eapply F. exact E.
  Qed.
End Top.

Section Safe.
  Context {W K Req Resp Err DErr Metric R : Type} (keq : forall a b : K, {a = b} + {a <> b}).
  Context (svc : Service W Req Resp Err) (D : Discover W K (st (guard svc)) DErr).
  Context (sched : nat -> W -> W * list nat) (next_u64 : R -> M W (R * Z)) (debug : bool).
  Context (load : st (guard svc) -> M W Metric) (le : Metric -> Metric -> bool) (fuel : nat).
  Notation TW := (W * tk (@bev K Req Resp Err DErr Metric))%type.
  Notation bal := (tbalance keq (guard svc) D sched next_u64 debug load le fuel).
  Notation newb := (tbalance_new keq (guard svc) D sched next_u64 debug load le fuel).

  Lemma balance_safe (ops : list ((W -> W) * @sop Req)) (d : dst D) (g : R) (x : TW) :
    never_panics svc -> never_diverges svc ->
    (forall d, gives (poll_discover D d) (fun a =>
       match snd a with Ready (Some (Ok (Insert _ s))) => fst s = Idle | _ => True end)) ->
    (forall s, quiet (load s)) -> (forall g, quiet (next_u64 g)) ->
    bal_history False False slots0 None x (run_svc bal Idle (newb d g) x (tk_ops ops)).
  Proof.
    intros NP ND Hd Hl Hn.
    apply (@balance_run_ok W K Req Resp Err DErr Metric R keq (guard svc) D sched next_u64 debug load le
             (fun s => fst s = Idle) (fun s => fst s = Primed) (fun _ => True) False False).
    - intros [p s] w Hp. cbn in *.
      assert (Hq : p <> Dead) by (destruct Hp; congruence).
      destruct p; try congruence; unfold bind, ret;
        (assert (Y := np_ready NP s w); assert (Z := nd_ready ND s w);
         destruct (poll_ready svc s w) as [w1 [[s1 [|[|]]]| |]]; cbn in *; auto; congruence).
    - intros [p s] r w Hp. cbn in *. subst p. unfold bind, ret.
      assert (Y := np_call NP s r w). assert (Z := nd_call ND s r w).
      destruct (call svc s r w) as [w1 [[s1 f]| |]]; cbn in *; auto; congruence.
    - intros d0 w _. specialize (Hd d0 w). destruct (poll_discover D d0 w) as [w1 [[d1 [|[[[k s|k]|e]|]]]| |]]; cbn in *; auto.
    - intros s w. specialize (Hl s w). destruct (load s w) as [w1 [m| |]]; cbn in *; auto.
    - intros g0 w. specialize (Hn g0 w). destruct (next_u64 g0 w) as [w1 [m| |]]; cbn in *; auto.
    - apply BInv_new. exact I.
  Qed.
End Safe.

Lemma only_discovery_fails K Req Resp Err DErr Metric (keq : forall a b : K, {a = b} + {a <> b}) (le : Metric -> Metric -> bool)
    a n held (l : list (@bev K Req Resp Err DErr Metric)) e o b m :
  polls keq le a n held l (Ready (Er e)) o b m -> exists x u, e = inr x /\ l = u ++ [BUpd (Ready (Some (Er x)))].
Proof.
  intros H. remember (Ready (Er e)) as p eqn:Ep. destruct H as [a n held l x b m HN|a n held ln b m lp c lc o d HN HP HC|a n h ln b m lp c k i lc d HN HP Hr HC|a n h ln b m lp c k lr v d lc o e0 HN HP HC Hv HH].
  - injection Ep as <-. exists x.
    assert (X : forall r, news keq a n l r b m -> forall x, r = Some x -> exists u, l = u ++ [BUpd (Ready (Some (Er x)))]).
    { clear. induction 1 as [a n|a n|a n e|a n k l r b m _ IH|a n k l r b m _ IH]; intros x E; try discriminate.
      - injection E as <-. exists []. reflexivity.
      - destruct (IH x E) as (u & ->). exists (BUpd (Ready (Some (Ok (Insert k n)))) :: u). reflexivity.
      - destruct (IH x E) as (u & ->). eexists (_ :: _ ++ u). cbn [app]. rewrite <- app_assoc. reflexivity. }
    destruct (X _ HN x eq_refl) as (u & ->). eauto.
  - destruct o; discriminate.
  - discriminate.
  - destruct o; discriminate.
Qed.

(** A concrete balancer. *)
Definition demo_rng {W} (g : list Z) : M W (list Z * Z) :=
  match g with [] => ret ([], 0%Z) | u :: g1 => ret (g1, u) end.
Definition demo_bal_run :=
  run_svc (tbalance Nat.eq_dec demo (@service_list scr nat nat (fun _ w => w)) (fun n w => (w, seq 0 n)) demo_rng true
             (fun s => ret s) Nat.leb 10) Idle
    (tbalance_new Nat.eq_dec demo (@service_list scr nat nat (fun _ w => w)) (fun n w => (w, seq 0 n)) demo_rng true
             (fun s => ret s) Nat.leb 10 (service_list_new [5; 3]) [1; 2]%Z) (scr0, Tk 0 [])
    (tk_ops [((fun w => w), SReady); ((fun w => w), SCall 77)]).
Definition demo_end_run :=
  run_svc (tbalance Nat.eq_dec demo (@service_list scr nat nat (fun _ w => w)) (fun n w => (w, seq 0 n)) demo_rng true
             (fun s => ret s) Nat.leb 10) Idle
    (tbalance_new Nat.eq_dec demo (@service_list scr nat nat (fun _ w => w)) (fun n w => (w, seq 0 n)) demo_rng true
             (fun s => ret s) Nat.leb 10 (service_list_new []) []) (scr0, Tk 0 [])
    (tk_ops [((fun w => w), SReady); ((fun w => w), SReady)]).

Lemma polled_after_end :
  ~ forall W K Req Resp Err DErr Metric R (keq : forall a b : K, {a = b} + {a <> b})
    (svc : Service W Req Resp Err) (D : Discover W K (st svc) DErr) (sched : nat -> W -> W * list nat)
    (next_u64 : R -> M W (R * Z)) debug (load : st svc -> M W Metric) le fuel ops d g n w l2 u l1,
    bal_completed (run_svc (tbalance keq svc D sched next_u64 debug load le fuel) Idle
      (tbalance_new keq svc D sched next_u64 debug load le fuel d g) (w, Tk n []) (tk_ops ops)) ->
    log_of (bal_end (w, Tk n []) (run_svc (tbalance keq svc D sched next_u64 debug load le fuel) Idle
      (tbalance_new keq svc D sched next_u64 debug load le fuel d g) (w, Tk n []) (tk_ops ops))) = l2 ++ BUpd u :: l1 ->
    ~ In (BUpd (Ready None)) l1.
Proof.
  intros H.
  specialize (H scr nat nat nat nat nat nat (list Z) Nat.eq_dec demo (@service_list scr nat nat (fun _ w => w)) (fun n w => (w, seq 0 n))
    demo_rng true (fun s => ret s) Nat.leb 10 [((fun w => w), SReady); ((fun w => w), SReady)] (service_list_new []) [] 0 scr0
    [] (Ready None) [BUpd (Ready None)]).
  apply H.
  - change (bal_completed demo_end_run). repeat constructor.
  - vm_compute. reflexivity.
  - left. reflexivity.
Qed.

Lemma bal_completed_check W K Req Resp Err DErr Metric R (keq : forall a b : K, {a = b} + {a <> b})
    (svc : Service W Req Resp Err) (D : Discover W K (st svc) DErr) (sched : nat -> W -> W * list nat)
    (next_u64 : R -> M W (R * Z)) debug (load : st svc -> M W Metric) le fuel
    (h : list ((W * tk (@bev K Req Resp Err DErr Metric)) * sobs (tbalance keq svc D sched next_u64 debug load le fuel) *
               (W * tk (@bev K Req Resp Err DErr Metric)))) :
  forallb (fun e => (Z.of_nat (tk_next (snd (snd e))) <? 2 ^ 64)%Z &&
                    match snd (fst e) with ObsPanic | ObsDiverge => false | _ => true end) h = true ->
  bal_completed h.
Proof.
  intros H. apply Forall_forall. intros e He. rewrite forallb_forall in H. specialize (H e He).
  apply andb_prop in H as [H1 H2]. split; [apply Z.ltb_lt, H1|]. destruct (snd (fst e)); try discriminate; exact I.
Qed.
Lemma demo_bal_completed : bal_completed demo_bal_run.
Proof. apply bal_completed_check. vm_compute. reflexivity. Qed.
