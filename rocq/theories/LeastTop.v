(** Proof of C70: Balance over load-tracked endpoints. *)
From Verif Require Import Base Util ReadyCache SpawnReady Load Make Middleware Limits Hedge MeterSpec MeterProof FlightSpec KeepSpec KeepProof KeepMore KeepTop ConcProof BalanceProof Arcs LeastSpec LeastProof.
Set Implicit Arguments.
Local Open Scope Z_scope.

Section Refs.
  Context {W K Req Resp Err DErr C T R Met : Type} (keq : forall a b : K, {a = b} + {a <> b}).
  Context (svc : Service W Req Resp Err) (start : M W T) (finish : T -> C -> W -> C * W) (keep : Resp -> W -> W * bool).
  Context (D : Discover W K (st svc) DErr) (fresh : W -> arc (C := C) * W).
  Context (load : M (arc (C := C) * W) Met) (le : Met -> Met -> bool).
  Notation HW := (list (cell (C := C)) * W)%type.
  Context (sched : nat -> HW -> HW * list nat) (next_u64 : R -> M HW (R * Z)) (debug : bool) (fuel : nat).
  Notation ta := (tracked_at svc start finish keep).
  Notation td := (tracked_discover svc start finish keep D fresh).
  Notation bl := (balance keq ta td sched next_u64 debug (load_at svc start finish keep load) le fuel).
  Hypothesis Hkeep : forall v w, snd (keep v w) = false.
  Hypothesis Hfresh : forall w, strong (fst (fresh w)) = 1%nat.
  Hypothesis Hload : still refs load.
  Hypothesis Hsched : forall n, heap_same (fun x => fst (sched n x)).
  Hypothesis Hnext : forall g, heap_same (fun x => fst (next_u64 g x)).

  Definition oa (a : nat) (s : st ta) : Z := ind a (fst s) 1.
  Definition of (a : nat) (f : fut ta) : Z := ind a (fst f) (has_handle (snd f)).
  Lemma oa0 a s : 0 <= oa a s. Proof. unfold oa, ind. destruct (fst s =? a)%nat; lia. Qed.
  Lemma heap_still A (live : list (cell (C := C)) -> Z) (m : M HW A) : heap_same (fun x => fst (m x)) -> still (fun x => live (fst x)) m.
  Proof. intros H x. split; [| auto]. rewrite (H x). reflexivity. Qed.

  Definition ob (a : nat) : st bl -> Z := obalance (svc := ta) (D := td) (oa a) none.
  Definition obf (a : nat) : fut bl -> Z := oopt (of a).
  Definition on : fut bl -> Z := oopt none.
  Lemma bl_strong a : kept (strong_at a) bl (ob a) (obf a) none.
  Proof.
    apply kp_balance.
    - apply kp_base, (ta_strong svc start finish keep Hkeep).
    - apply (td_strong svc start finish keep a D _ Hfresh).
    - intros n x. unfold strong_at. rewrite (Hsched n x). reflexivity.
    - intros g. exact (heap_still (fun h => match nth_error h a with Some c => Z.of_nat (strong (c_arc c)) | None => 0 end) _ (Hnext g)).
    - intros s. apply at_arc_strong_still, Hload.
  Qed.
  Lemma bl_there a : kept (there_at a) bl (ob a) on none.
  Proof.
    apply kp_balance.
    - apply kp_base, (ta_there svc start finish keep).
    - apply (td_there svc start finish keep a D _).
    - intros n x. unfold there_at. rewrite (Hsched n x). reflexivity.
    - intros g. exact (heap_still (fun h => match nth_error h a with Some c => 1 - Z.of_nat (c_gone c) | None => 0 end) _ (Hnext g)).
    - intros s. apply at_arc_there.
  Qed.

  Definition fresh_balancers (l : list (dst td * R)) : list (st bl) := map (fun p => balance_new ta td (fst p) (snd p)) l.
  Lemma fresh_none a l : osum (ob a) (fresh_balancers l) = 0.
  Proof. induction l as [|p l IH]; [reflexivity |]. cbn [fresh_balancers map osum]. unfold fresh_balancers in IH. rewrite IH. reflexivity. Qed.
  Lemma none_sum (l : list (option (fut bl))) : osum (oopt on) l = 0.
  Proof. induction l as [|[[x|]|] l IH]; [reflexivity | | |]; exact IH. Qed.
  Lemma unfinished_sum a (l : list (option (fut bl))) : osum (oopt (obf a)) l = Z.of_nat (unfinished (svc := svc) a l).
  Proof.
    unfold unfinished. induction l as [|x l IH]; [reflexivity |]. cbn [osum]. rewrite IH.
    destruct x as [[[a' f]|]|]; unfold obf; cbn [oopt unfinished_at List.filter]; [| lia | lia].
    unfold of, ind, has_handle. cbn [fst snd]. destruct (a' =? a)%nat, (tc_handle f); cbn [andb length]; lia.
  Qed.

  (** The state of a program, in terms of the counters. *)
  Lemma counters l w ops a : calm (ustart bl ([], w) (fresh_balancers l)) ops -> env_off_heap ops ->
    let y := urun (ustart bl ([], w) (fresh_balancers l)) ops in
    strong_at a (u_world y) = osum (oopt (ob a)) (u_svcs y) + Z.of_nat (unfinished (svc := svc) a (u_futs y)) /\
    osum (oopt (ob a)) (u_svcs y) <= 1.
  Proof.
    intros Hc He. cbv zeta.
    assert (F0 := fresh_none a l).
    assert (N0 : nth_error (@nil (cell (C := C))) a = None) by (destruct a; reflexivity).
    assert (S0 : strong_at (C := C) a ([], w) = 0) by (unfold strong_at; cbn [fst]; rewrite N0; reflexivity).
    assert (T0 : there_at (C := C) a ([], w) = 0) by (unfold there_at; cbn [fst]; rewrite N0; reflexivity).
    assert (E1 : env_same_z (strong_at a) ops).
    { eapply Forall_impl; [| exact He]. intros [| | | | | |g] Hg; auto. intros x. unfold strong_at. rewrite (Hg x). reflexivity. }
    assert (E2 : env_same_z (there_at a) ops).
    { eapply Forall_impl; [| exact He]. intros [| | | | | |g] Hg; auto. intros x. unfold there_at. rewrite (Hg x). reflexivity. }
    assert (L1 : osum (ob a) (fresh_balancers l) <= strong_at (C := C) a ([], w)) by lia.
    assert (L2 : osum (ob a) (fresh_balancers l) <= there_at (C := C) a ([], w)) by lia.
    assert (X := kept_run (bl_strong a) ([], w) (fresh_balancers l) L1 Hc E1).
    assert (Y := kept_run (bl_there a) ([], w) (fresh_balancers l) L2 Hc E2).
    cbv zeta in X, Y. unfold holding_in in X, Y. rewrite unfinished_sum in X. rewrite none_sum in Y.
    generalize (there_le a (u_world (urun (ustart bl ([], w) (fresh_balancers l)) ops))). lia.
  Qed.

  Lemma sum_in A (o : A -> Z) l x : (forall z, 0 <= o z) -> In x l -> o x <= osum o l.
  Proof.
    intros H0 Hx. induction l as [|y l IH]; [contradiction |]. cbn. destruct Hx as [->|Hx].
    - generalize (osum_nonneg o l H0). lia.
    - generalize (IH Hx) (H0 y). lia.
  Qed.
  Lemma sum_map A B (o : B -> Z) (f : A -> B) l : osum o (map f l) = osum (fun x => o (f x)) l.
  Proof. induction l as [|y l IH]; cbn; [reflexivity |]. rewrite IH. reflexivity. Qed.
  Lemma obal_endpoints a (b : st bl) : ob a b = osum (oa a) (endpoints (bl_cache b)).
  Proof. unfold ob, obalance, ocache, endpoints, ready_endpoints. rewrite osum_app, !sum_map. unfold none. lia. Qed.
  Lemma obal0 a (b : st bl) : 0 <= ob a b.
  Proof. rewrite obal_endpoints. apply osum_nonneg, oa0. Qed.
  Lemma held_sum a (l : list (option (st bl))) i b : held_at l i = Some b ->
    ob a b <= osum (oopt (ob a)) l.
  Proof. apply (total_ge (ob a) l (obal0 a)). Qed.

  Theorem references l w ops : calm (ustart bl ([], w) (fresh_balancers l)) ops -> env_off_heap ops ->
    let y := urun (ustart bl ([], w) (fresh_balancers l)) ops in
    forall i b s, held_at (u_svcs y) i = Some b -> In s (endpoints (bl_cache b)) ->
    exists c, nth_error (fst (u_world y)) (fst s) = Some c /\ strong (c_arc c) = S (unfinished (svc := svc) (fst s) (u_futs y)).
  Proof.
    intros Hc He. cbv zeta. intros i b s Hb Hs. destruct (@counters l w ops (fst s) Hc He) as [X Y]. cbv zeta in X, Y.
    assert (A := held_sum (fst s) _ _ Hb). rewrite obal_endpoints in A.
    assert (B := sum_in (oa (fst s)) _ _ (oa0 (fst s)) Hs). unfold oa at 1, ind in B. rewrite Nat.eqb_refl in B.
    unfold strong_at in X. set (y := urun (ustart bl ([], w) (fresh_balancers l)) ops) in *.
    destruct (nth_error (fst (u_world y)) (fst s)) as [c|].
    - exists c. split; [reflexivity |]. lia.
    - lia.
  Qed.

  Lemma sum_two A (o : A -> Z) l : (forall z, 0 <= o z) -> forall n m x z, n <> m -> nth_error l n = Some x -> nth_error l m = Some z -> o x + o z <= osum o l.
  Proof.
    intros H0. induction l as [|y l IH]; intros [|n] [|m] x z Hne E1 E2; try discriminate; cbn in *; try lia.
    - injection E1 as ->. apply nth_error_In in E2. generalize (sum_in o _ _ H0 E2). lia.
    - injection E2 as ->. apply nth_error_In in E1. generalize (sum_in o _ _ H0 E1). lia.
    - generalize (IH n m x z ltac:(lia) E1 E2) (H0 y). lia.
  Qed.
  Theorem distinct l w ops : calm (ustart bl ([], w) (fresh_balancers l)) ops -> env_off_heap ops ->
    let y := urun (ustart bl ([], w) (fresh_balancers l)) ops in
    forall i b n m s z, held_at (u_svcs y) i = Some b -> n <> m ->
    nth_error (endpoints (bl_cache b)) n = Some s -> nth_error (endpoints (bl_cache b)) m = Some z -> fst s <> fst z.
  Proof.
    intros Hc He. cbv zeta. intros i b n m s z Hb Hne E1 E2 Heq. destruct (@counters l w ops (fst s) Hc He) as [X Y]. cbv zeta in X, Y.
    assert (A := held_sum (fst s) _ _ Hb). rewrite obal_endpoints in A.
    assert (B := sum_two (oa (fst s)) _ (oa0 (fst s)) Hne E1 E2). unfold oa at 1 2, ind in B. rewrite <- Heq, Nat.eqb_refl in B. lia.
  Qed.
End Refs.
