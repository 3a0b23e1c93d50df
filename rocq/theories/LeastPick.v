(** Proof of C70: the choice. *)
From Verif Require Import Base Util ReadyCache SpawnReady Load Make Middleware Limits Hedge MeterSpec MeterProof FlightSpec KeepSpec KeepProof KeepMore KeepTop ConcProof BalanceProof Arcs LeastSpec LeastProof LeastTop.
Set Implicit Arguments.

Lemma calm_app W Req Resp Err (svc : Service W Req Resp Err) l1 : forall (y : prog svc) l2, calm y (l1 ++ l2) <-> calm y l1 /\ calm (urun y l1) l2.
Proof.
  induction l1 as [|o l1 IH]; intros y l2; cbn [app calm]; [tauto |].
  change (urun y (o :: l1)) with (urun (ustep y o) l1). rewrite IH. tauto.
Qed.
Lemma swap_remove_at A (l : list A) i x l1 : swap_remove i l = Some (x, l1) -> nth_error l i = Some x.
Proof. unfold swap_remove. destruct (nth_error l i) as [z|]; [| discriminate]. destruct (rev l); [discriminate |]. intros E. injection E as -> _. reflexivity. Qed.

Lemma map_nth_inv A B (f : A -> B) l : forall n b, nth_error (map f l) n = Some b -> exists a, nth_error l n = Some a /\ f a = b.
Proof. induction l as [|x l IH]; intros [|n] b E; try discriminate; cbn in *; [injection E as <-; eauto | auto]. Qed.

Section Pick.
  Context {W K Req Resp Err DErr R : Type} (keq : forall a b : K, {a = b} + {a <> b}).
  Context (svc : Service W Req Resp Err) (keep : Resp -> W -> W * bool).
  Context (D : Discover W K (st svc) DErr).
  Notation HW := (list (cell (C := unit)) * W)%type.
  Context (sched : nat -> HW -> HW * list nat) (next_u64 : R -> M HW (R * Z)) (debug : bool) (fuel : nat).
  Notation ta := (tracked_at svc pr_start pr_finish keep).
  Notation td := (tracked_discover svc pr_start pr_finish keep D (fun w => (arc_new tt, w))).
  Notation la := (load_at svc pr_start pr_finish keep pr_load).
  Notation bl := (balance keq ta td sched next_u64 debug la Nat.leb fuel).
  Hypothesis Hkeep : forall v w, snd (keep v w) = false.
  Hypothesis Hsched : forall n, heap_same (fun x => fst (sched n x)).
  Hypothesis Hnext : forall g, heap_same (fun x => fst (next_u64 g x)).

  Definition refs_at (h : list (cell (C := unit))) (a : nat) : nat := match nth_error h a with Some c => strong (c_arc c) | None => 0 end.
  Definition adr (c : cache (K := K) ta) : list nat := map fst (ready_endpoints c).
  Definition least (h : list (cell (C := unit))) (l : list nat) (i : nat) : Prop :=
    exists a, nth_error l i = Some a /\
      (length l = 1 \/ exists j a', j <> i /\ nth_error l j = Some a' /\ refs_at h a <= refs_at h a').

  Lemma la_is s x x1 n : la s x = (x1, Val n) -> fst x1 = fst x /\ refs_at (fst x) (fst s) = S n.
  Proof.
    unfold load_at, at_arc, pr_load, refs_at. destruct (nth_error (fst x) (fst s)) as [[[[|k] []] g]|] eqn:E; cbn; try discriminate.
    intros H. injection H as <- <-. split; [| reflexivity]. cbn. rewrite set_nth_same; auto.
  Qed.
  Lemma la_val s x c n : nth_error (fst x) (fst s) = Some c -> strong (c_arc c) = S n -> la s x = (x, Val n).
  Proof.
    intros Ec Es. unfold load_at, at_arc, pr_load. rewrite Ec. cbn [fst snd]. rewrite Es.
    rewrite set_nth_same; [| rewrite Ec; destruct c; reflexivity].
    rewrite <- surjective_pairing. reflexivity.
  Qed.
  Lemma ready_heap s x x1 s1 p : poll_ready ta s x = (x1, Val (s1, p)) -> fst x1 = fst x /\ fst s1 = fst s.
  Proof.
    cbn [tracked_at tracked_load poll_ready]. unfold bind, at_arc, lift_w, ret. destruct (nth_error (fst x) (fst s)) as [c|] eqn:E; [| discriminate].
    cbn [fst snd]. destruct (poll_ready svc (snd s) (snd x)) as [w1 [[s2 q]| |]]; try discriminate.
    intros H. injection H as <- <- <-. cbn. split; [| reflexivity]. apply set_nth_same. rewrite E. destruct c; reflexivity.
  Qed.
  Lemma check_heap c i x x1 c1 : check_ready_index keq c i x = (x1, Val (c1, Ok true)) -> fst x1 = fst x /\ adr c1 = adr c.
  Proof.
    unfold check_ready_index. destruct (nth_error (rc_ready c) i) as [[k [s t]]|] eqn:En; [| discriminate].
    unfold bind at 1. destruct (poll_ready ta s x) as [x2 [[s1 p]| |]] eqn:Ep; try discriminate.
    apply ready_heap in Ep. destruct Ep as [E1 E2]. destruct p as [|[u|e]].
    - destruct (swap_remove i _) as [[[k2 [s2 t2]] l2]|]; [| discriminate]. destruct (pending_contains _ _ _); discriminate.
    - intros H. injection H as <- <-. split; [exact E1 |]. unfold adr, ready_endpoints. cbn [rc_ready].
      rewrite !map_map. rewrite map_set. cbn [fst snd]. apply set_nth_same. rewrite E2.
      exact (map_nth_error (fun x => fst (fst (snd x))) _ _ En).
    - destruct (swap_remove i _) as [[[k2 [s2 t2]] l2]|]; discriminate.
  Qed.
  Lemma p2c_least c g x x1 g1 i : (Z.of_nat (ready_len c) < 2 ^ 64)%Z ->
    p2c_ready_index next_u64 debug la Nat.leb c g x = (x1, Val (g1, Some i)) -> fst x1 = fst x /\ least (fst x) (adr c) i.
  Proof.
    intros HL. unfold p2c_ready_index. unfold ready_len in *.
    assert (EL : length (adr c) = length (rc_ready c)) by (unfold adr, ready_endpoints; rewrite !map_length; reflexivity).
    destruct (rc_ready c) as [|e0 [|e1 l]] eqn:Er; cbn [length].
    - discriminate.
    - intros H. injection H as <- _ <-. split; [reflexivity |]. unfold adr, ready_endpoints. rewrite Er. cbn. eexists. split; [reflexivity |]. left. reflexivity.
    - set (n := length l) in *. unfold bind at 1.
      assert (HN : forall g0 (y : HW), match next_u64 g0 y with (y1, Val _) => fst y1 = fst y | (_, Panic) => True | (_, Diverge) => True end).
      { intros g0 y. assert (X := Hnext g0 y). cbv beta in X. destruct (next_u64 g0 y) as [y1 [v| |]]; auto. }
      assert (HT : forall y1 y2 y3 : HW, fst y2 = fst y1 -> fst y3 = fst y2 -> fst y3 = fst y1) by congruence.
      assert (HLen : (2 <= Z.of_nat (S (S n)) < 2 ^ 64)%Z) by (cbn [length] in HL; fold n in HL; lia).
      generalize (@sample_ok HW R next_u64 debug (fun y y1 => fst y1 = fst y) True True HT HN g (Z.of_nat (S (S n))) x HLen).
      destruct (sample_floyd2 next_u64 debug g (Z.of_nat (S (S n))) x) as [x2 [[g2 [za zb]]| |]]; try discriminate.
      intros (Ex & Ha & Hb & Hab). cbv beta iota. cbn [fst snd].
      set (p := Z.to_nat za). set (q := Z.to_nat zb). destruct (debug && (p =? q)); [discriminate |].
      unfold ready_index_load, get_ready_index.
      destruct (nth_error (rc_ready c) p) as [[kp [sp tp]]|] eqn:Np; [| discriminate].
      unfold bind at 1. destruct (la sp x2) as [x3 [lp| |]] eqn:Lp; try discriminate.
      destruct (nth_error (rc_ready c) q) as [[kq [sq tq]]|] eqn:Nq; [| discriminate].
      unfold bind at 1. destruct (la sq x3) as [x4 [lq| |]] eqn:Lq; try discriminate.
      intros H. injection H as <- _ <-. apply la_is in Lp, Lq. destruct Lp as [E3 Rp], Lq as [E4 Rq].
      split; [congruence |]. rewrite E3 in Rq. rewrite Ex in Rp, Rq.
      assert (Hpq : p <> q) by (unfold p, q; lia).
      assert (Ap : nth_error (adr c) p = Some (fst sp)).
      { unfold adr, ready_endpoints. rewrite map_map. exact (map_nth_error (fun x => fst (fst (snd x))) _ _ Np). }
      assert (Aq : nth_error (adr c) q = Some (fst sq)).
      { unfold adr, ready_endpoints. rewrite map_map. exact (map_nth_error (fun x => fst (fst (snd x))) _ _ Nq). }
      destruct (Nat.leb_spec lp lq).
      + exists (fst sp). split; [exact Ap |]. right. exists q, (fst sq). split; [auto |]. split; [exact Aq | lia].
      + exists (fst sq). split; [exact Aq |]. right. exists p, (fst sp). split; [auto |]. split; [exact Ap | lia].
  Qed.
  Lemma loop_least n : forall d c idx g x x' b', 
    balance_loop keq td next_u64 debug la Nat.leb n d c idx g x = (x', Val (b', Ready (Ok tt))) ->
    (Z.of_nat (ready_len (bl_cache b')) < 2 ^ 64)%Z ->
    match idx with None => True | Some i => (Z.of_nat (ready_len c) < 2 ^ 64)%Z -> least (fst x) (adr c) i end ->
    exists i, bl_index b' = Some i /\ least (fst x') (adr (bl_cache b')) i.
  Proof.
    induction n as [|n IH]; intros d c idx g x x' b' E HL Hidx; [discriminate |]. cbn [balance_loop] in E.
    assert (SEL : forall c0 x0,
      ('(g1, o) <- p2c_ready_index next_u64 debug la Nat.leb c0 g ;;
          match o with
          | None =>
              if debug && negb (ready_len c0 =? 0) then panic
              else ret (BalSt d c0 None g1, Pending)
          | Some i => balance_loop keq td next_u64 debug la Nat.leb n d c0 (Some i) g1
          end) x0 = (x', Val (b', Ready (Ok tt))) -> exists i, bl_index b' = Some i /\ least (fst x') (adr (bl_cache b')) i).
    { intros c0 x0 E0. unfold bind in E0.
      destruct (p2c_ready_index next_u64 debug la Nat.leb c0 g x0) as [x1 [[g1 [i|]]| |]] eqn:Ep; try discriminate.
      - eapply IH; [exact E0 | exact HL |]. intros HL0. destruct (p2c_least _ _ _ HL0 Ep) as [E1 HQ]. rewrite E1. exact HQ.
      - destruct (debug && negb (ready_len c0 =? 0)); discriminate. }
    destruct idx as [i|]; [| eapply SEL; exact E].
    unfold bind at 1 in E. destruct (check_ready_index keq c i x) as [x1 [[c1 [[|]|e]]| |]] eqn:Ec; try discriminate.
    - injection E as <- <-. cbn [bl_cache bl_index] in *. exists i. split; [reflexivity |].
      destruct (check_heap _ _ _ Ec) as [E1 E2]. rewrite E1, E2. apply Hidx.
      replace (ready_len c) with (ready_len c1); [exact HL |]. unfold ready_len.
      assert (X := f_equal (@length nat) E2). unfold adr, ready_endpoints in X. rewrite !map_length in X. exact X.
    - eapply SEL; exact E.
    - eapply SEL; exact E.
  Qed.
  Lemma ready_least b x x' b' : poll_ready bl b x = (x', Val (b', Ready (Ok tt))) -> bl_index b = None ->
    (Z.of_nat (ready_len (bl_cache b')) < 2 ^ 64)%Z -> exists i, bl_index b' = Some i /\ least (fst x') (adr (bl_cache b')) i.
  Proof.
    intros E Hi HL. cbn [balance poll_ready] in E. unfold bind at 1 in E.
    destruct (update_from_discover keq td fuel (bl_disc b) (bl_cache b) x) as [x1 [[[d1 c1] [e|]]| |]]; try discriminate.
    unfold bind at 1 in E. destruct (promote_pending keq sched debug c1 x1) as [x2 [c2| |]]; try discriminate.
    rewrite Hi in E. eapply loop_least; [exact E | exact HL | exact I].
  Qed.

  Notation fb := (fresh_balancers keq svc pr_start pr_finish keep D (fun w => (arc_new tt, w)) pr_load Nat.leb sched next_u64 debug fuel).
  Lemma pr_load_still : still refs (pr_load (W := W)).
  Proof. intros x. split; [| auto]. unfold pr_load. destruct (strong (fst x)); reflexivity. Qed.
  Lemma call_address b r x x' b' f i : call bl b r x = (x', Val (b', f)) -> bl_index b = Some i ->
    exists a h, f = Some (a, h) /\ nth_error (adr (bl_cache b)) i = Some a.
  Proof.
    cbn [balance call]. intros E Hi. rewrite Hi in E. unfold bind at 1 in E.
    destruct (call_ready_index keq (bl_cache b) i r x) as [x1 [[c1 f1]| |]] eqn:Ec; try discriminate. injection E as _ _ <-.
    unfold call_ready_index in Ec. destruct (swap_remove i (rc_ready (bl_cache b))) as [[[k [s t]] l1]|] eqn:Es; [| discriminate].
    apply swap_remove_at in Es. unfold bind at 1 in Ec. destruct (call ta s r x) as [x2 [[s1 f2]| |]] eqn:Ef; try discriminate.
    assert (F : f2 = f1) by (destruct (pending_contains keq _ k); [unfold bind, modify, ret in Ec | unfold ret in Ec]; injection Ec; auto).
    subst f2. exists (fst f1), (snd f1). split; [destruct f1; reflexivity |].
    assert (A : fst f1 = fst s).
    { cbn [tracked_at call] in Ef. unfold bind, ret in Ef. destruct (at_arc _ _ _) as [x3 [[s2 f3]| |]]; try discriminate. injection Ef as _ _ <-. reflexivity. }
    rewrite A. unfold adr, ready_endpoints. rewrite map_map. exact (map_nth_error (fun x => fst (fst (snd x))) _ _ Es).
  Qed.

  (** What [load] answers. *)
  Theorem load_is_unfinished l w ops : calm (ustart bl ([], w) (fb l)) ops -> env_off_heap ops ->
    let y := urun (ustart bl ([], w) (fb l)) ops in
    forall i b s, held_at (u_svcs y) i = Some b -> In s (endpoints (bl_cache b)) ->
    la s (u_world y) = (u_world y, Val (unfinished (svc := svc) (fst s) (u_futs y))).
  Proof.
    intros Hc He. cbv zeta. intros i b s Hb Hs.
    destruct (@references W K Req Resp Err DErr unit unit R nat keq svc pr_start pr_finish keep D (fun w => (arc_new tt, w)) pr_load Nat.leb
      sched next_u64 debug fuel Hkeep (fun _ => eq_refl) pr_load_still Hsched Hnext l w ops Hc He i b s Hb Hs) as (c & Ec & Es).
    exact (la_val _ _ Ec Es).
  Qed.

  (** The choice. *)
  Theorem picks_less_loaded l w ops : calm (ustart bl ([], w) (fb l)) ops -> env_off_heap ops ->
    let y := urun (ustart bl ([], w) (fb l)) ops in
    forall i b x1 b1 r x2 b2 f, held_at (u_svcs y) i = Some b -> bl_index b = None ->
    poll_ready bl b (u_world y) = (x1, Val (b1, Ready (Ok tt))) -> call bl b1 r x1 = (x2, Val (b2, f)) ->
    (Z.of_nat (ready_len (bl_cache b1)) < 2 ^ 64)%Z ->
    let candidates := map fst (ready_endpoints (bl_cache b1)) in
    NoDup candidates /\
    exists a h, f = Some (a, h) /\ In a candidates /\
      (candidates = [a] \/ exists a', In a' candidates /\ a' <> a /\
         unfinished (svc := svc) a (u_futs y) <= unfinished (svc := svc) a' (u_futs y)).
  Proof.
    intros Hc He. cbv zeta. intros i b x1 b1 r x2 b2 f Hb Hi Er Ef HL.
    set (y0 := ustart bl ([], w) (fb l)) in *. set (y := urun y0 ops) in *.
    assert (Hc1 : calm y0 (ops ++ [UReady i])).
    { apply calm_app. split; [exact Hc |]. fold y. cbn [calm op_ok]. rewrite Hb, Er. split; exact I. }
    assert (He1 : env_off_heap (ops ++ [UReady i])) by (apply Forall_app; split; [exact He | repeat constructor]).
    assert (Ey : urun y0 (ops ++ [UReady i]) = Prog bl x1 (set_nth i (Some b1) (u_svcs y)) (u_futs y)).
    { unfold urun. rewrite fold_left_app. fold (urun y0 ops). fold y. cbn [fold_left ustep]. rewrite Hb, Er. reflexivity. }
    assert (Hb1 : held_at (u_svcs (urun y0 (ops ++ [UReady i]))) i = Some b1).
    { rewrite Ey. cbn [u_svcs]. unfold held_at in *. rewrite nth_set, Nat.eqb_refl.
      destruct (nth_error (u_svcs y) i); [reflexivity | discriminate]. }
    assert (DI := @distinct W K Req Resp Err DErr unit unit R nat keq svc pr_start pr_finish keep D (fun w => (arc_new tt, w)) pr_load Nat.leb
      sched next_u64 debug fuel Hkeep (fun _ => eq_refl) pr_load_still Hsched Hnext l w _ Hc1 He1). cbv zeta in DI.
    assert (RF := @references W K Req Resp Err DErr unit unit R nat keq svc pr_start pr_finish keep D (fun w => (arc_new tt, w)) pr_load Nat.leb
      sched next_u64 debug fuel Hkeep (fun _ => eq_refl) pr_load_still Hsched Hnext l w _ Hc1 He1). cbv zeta in RF.
    fold y0 in DI, RF. rewrite Ey in RF. cbn [u_world u_futs] in RF.
    assert (Hb1' := Hb1). rewrite Ey in Hb1'.
    assert (RD : forall n s, nth_error (ready_endpoints (bl_cache b1)) n = Some s -> nth_error (endpoints (bl_cache b1)) n = Some s).
    { intros n s E. unfold endpoints. rewrite nth_error_app1; [exact E |]. apply nth_error_Some. congruence. }
    assert (AD : forall n m a, nth_error (adr (bl_cache b1)) n = Some a -> nth_error (adr (bl_cache b1)) m = Some a -> n = m).
    { intros n m a E1 E2. destruct (map_nth_inv _ _ _ E1) as (s & N1 & F1). destruct (map_nth_inv _ _ _ E2) as (z & N2 & F2).
      destruct (Nat.eq_dec n m); [assumption |]. exfalso. apply (DI i b1 n m s z Hb1 n0 (RD _ _ N1) (RD _ _ N2)). congruence. }
    assert (UN : forall n a, nth_error (adr (bl_cache b1)) n = Some a -> refs_at (fst x1) a = S (unfinished (svc := svc) a (u_futs y))).
    { intros n a E. destruct (map_nth_inv _ _ _ E) as (s & N1 & <-).
      destruct (RF i b1 s Hb1' (nth_error_In _ _ (RD _ _ N1))) as (c & Ec & Es). unfold refs_at. rewrite Ec. exact Es. }
    split; [apply NoDup_nth_error; intros n m Hn Em | ].
    - destruct (nth_error (map fst (ready_endpoints (bl_cache b1))) n) as [a|] eqn:N1; [| apply nth_error_None in N1; lia].
      exact (AD n m a N1 (eq_sym Em)).
    - destruct (@ready_least b (u_world y) x1 b1 Er Hi HL) as (n & En & (a & Ea & HQ)).
      destruct (@call_address b1 r x1 x2 b2 f n Ef En) as (a0 & h & -> & Ea0).
      assert (a0 = a) by congruence. subst a0. exists a, h. split; [reflexivity |]. split; [exact (nth_error_In _ _ Ea) |].
      destruct HQ as [H1|(j & a' & Hj & Ej & Hle)].
      + left. change (map fst (ready_endpoints (bl_cache b1))) with (adr (bl_cache b1)).
        clear - H1 Ea; destruct (adr (bl_cache b1)) as [|e [|e2 l2]]; try discriminate. destruct n as [|n]; [cbn in Ea; injection Ea as ->; reflexivity | destruct n; discriminate].
      + right. exists a'. split; [exact (nth_error_In _ _ Ej) |]. split.
        * intros ->. apply Hj. exact (AD _ _ _ Ej Ea).
        * rewrite (UN _ _ Ea), (UN _ _ Ej) in Hle. lia.
  Qed.
End Pick.

Lemma least_of_two (u : nat -> nat) l a : length l = 2 -> NoDup l -> In a l ->
  (l = [a] \/ exists a', In a' l /\ a' <> a /\ u a <= u a') -> forall a', In a' l -> u a <= u a'.
Proof.
  intros HL HN Ha [->|(z & Hz & Hne & Hle)] a' Ha'; [discriminate |]. destruct l as [|p [|q [|]]]; try discriminate.
  cbn in *. destruct Ha as [<-|[<-|[]]], Hz as [<-|[<-|[]]], Ha' as [<-|[<-|[]]]; congruence || lia.
Qed.
Lemma picks_of_two W K Req Resp Err DErr R (keq : forall a b : K, {a = b} + {a <> b}) (svc : Service W Req Resp Err)
    (keep : Resp -> W -> W * bool) (D : Discover W K (st svc) DErr)
    (sched : nat -> list (cell (C := unit)) * W -> list (cell (C := unit)) * W * list nat)
    (next_u64 : R -> M (list (cell (C := unit)) * W) (R * Z)) debug fuel :
  (forall v w, snd (keep v w) = false) -> (forall n, heap_same (fun x => fst (sched n x))) -> (forall g, heap_same (fun x => fst (next_u64 g x))) ->
  let ps := pending_requests svc keep in let pd := pending_discover svc keep D in
  let bl := balance keq ps pd sched next_u64 debug (pending_load svc keep) Nat.leb fuel in
  forall l w ops, let y0 := ustart bl ([], w) (map (fun p => balance_new ps pd (fst p) (snd p)) l) in
  calm y0 ops -> env_off_heap ops -> let y := urun y0 ops in
  forall i b x1 b1 r x2 b2 f, held_at (u_svcs y) i = Some b -> bl_index b = None ->
  poll_ready bl b (u_world y) = (x1, Val (b1, Ready (Ok tt))) -> call bl b1 r x1 = (x2, Val (b2, f)) ->
  let candidates := map fst (ready_endpoints (bl_cache b1)) in
  length candidates = 2 ->
  exists a h, f = Some (a, h) /\ In a candidates /\
    forall a', In a' candidates -> unfinished (svc := svc) a (u_futs y) <= unfinished (svc := svc) a' (u_futs y).
Proof.
  intros Hk Hs Hn. cbv zeta. intros l w ops Hc He i b x1 b1 r x2 b2 f Hb Hi Er Ef H2.
  assert (HL : (Z.of_nat (ready_len (bl_cache b1)) < 2 ^ 64)%Z).
  { unfold ready_endpoints in H2. rewrite !map_length in H2. unfold ready_len.
    match type of H2 with ?x = 2 => replace (Z.of_nat x) with 2%Z by (rewrite H2; reflexivity) end. reflexivity. }
  destruct (@picks_less_loaded W K Req Resp Err DErr R keq svc keep D sched next_u64 debug fuel Hk Hs Hn l w ops Hc He i b x1 b1 r x2 b2 f Hb Hi Er Ef HL)
    as (HN & a & h & Hf & Ha & HQ). exists a, h. split; [exact Hf |]. split; [exact Ha |].
  exact (least_of_two _ H2 HN Ha HQ).
Qed.
Lemma references_all W K Req Resp Err DErr C T R Met (keq : forall a b : K, {a = b} + {a <> b}) (svc : Service W Req Resp Err)
    (start : M W T) (finish : T -> C -> W -> C * W) (keep : Resp -> W -> W * bool) (D : Discover W K (st svc) DErr)
    (fresh : W -> arc (C := C) * W) (load : M (arc (C := C) * W) Met) le
    (sched : nat -> list (cell (C := C)) * W -> list (cell (C := C)) * W * list nat)
    (next_u64 : R -> M (list (cell (C := C)) * W) (R * Z)) debug fuel :
  (forall v w, snd (keep v w) = false) -> (forall w, strong (fst (fresh w)) = 1) -> (forall x, strong (fst (fst (load x))) = strong (fst x)) ->
  (forall n, heap_same (fun x => fst (sched n x))) -> (forall g, heap_same (fun x => fst (next_u64 g x))) ->
  let ps := tracked_at svc start finish keep in let pd := tracked_discover svc start finish keep D fresh in
  let bl := balance keq ps pd sched next_u64 debug (load_at svc start finish keep load) le fuel in
  forall l w ops, let y0 := ustart bl ([], w) (map (fun p => balance_new ps pd (fst p) (snd p)) l) in
  calm y0 ops -> env_off_heap ops -> let y := urun y0 ops in
  forall i b s, held_at (u_svcs y) i = Some b -> In s (endpoints (bl_cache b)) ->
  exists c, nth_error (fst (u_world y)) (fst s) = Some c /\ strong (c_arc c) = S (unfinished (svc := svc) (fst s) (u_futs y)).
Proof.
  intros Hk Hf Hl Hs Hn. apply references; try assumption. intros x. split; [| auto]. unfold refs. rewrite Hl. reflexivity.
Qed.
Lemma peak_ewma_meets W (clk : W -> W * Z) exp64 decay rtt :
  (forall w, strong (fst (peak_ewma_new clk decay rtt w)) = 1) /\ (forall x, strong (fst (fst (pe_load clk exp64 decay x))) = strong (fst x)).
Proof.
  split.
  - intros w. unfold peak_ewma_new. destruct (rtt_new clk _ w). reflexivity.
  - intros [r w]. unfold pe_load. destruct (rtt_decay clk exp64 decay (content r) w). reflexivity.
Qed.
