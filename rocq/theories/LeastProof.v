(** Proof of C70: the Arcs of the endpoints, by the accounting of C69. *)
From Verif Require Import Base Util ReadyCache SpawnReady Load Make Middleware Limits Hedge MeterSpec MeterProof FlightSpec KeepSpec KeepProof KeepMore KeepTop ConcProof Arcs LeastSpec.
Set Implicit Arguments.
Local Open Scope Z_scope.

Definition ind (a a' : nat) (z : Z) : Z := if (a' =? a)%nat then z else 0.
Section Heap.
  Context {W C : Type}.
  Notation HW := (list (cell (C := C)) * W)%type.
  Definition refs (x : arc (C := C) * W) : Z := Z.of_nat (strong (fst x)).
  Definition strong_at (a : nat) (x : HW) : Z := match nth_error (fst x) a with Some c => Z.of_nat (strong (c_arc c)) | None => 0 end.
  Definition there_at (a : nat) (x : HW) : Z := match nth_error (fst x) a with Some c => 1 - Z.of_nat (c_gone c) | None => 0 end.
  Lemma there_le a x : there_at a x <= 1.
  Proof. unfold there_at. destruct (nth_error (fst x) a); lia. Qed.

  Lemma at_arc_strong A a a' b (m : M (arc * W) A) o : bal refs b m o -> bal (strong_at a) (ind a a' b) (at_arc a' m) (fun v => ind a a' (o v)).
  Proof.
    intros Hm x x1 v Hx E. unfold at_arc in E. destruct (nth_error (fst x) a') as [c|] eqn:En; [| discriminate].
    destruct (m (c_arc c, snd x)) as [[r1 w1] p] eqn:Em. injection E as <- ->. unfold strong_at, ind in *. cbn [fst].
    rewrite nth_set. destruct (Nat.eqb_spec a' a) as [->|Hne]; [| lia].
    rewrite En in *. cbn. assert (X := Hm (c_arc c, snd x) _ _ Hx Em). cbn in X. unfold refs in X. cbn in X. lia.
  Qed.
  Lemma at_arc_strong_still A a a' (m : M (arc * W) A) : still refs m -> still (strong_at a) (at_arc a' m).
  Proof.
    intros Hm x. split; [| auto]. unfold at_arc. destruct (nth_error (fst x) a') as [c|] eqn:En; [| reflexivity].
    destruct (Hm (c_arc c, snd x)) as [E0 _]. destruct (m (c_arc c, snd x)) as [[r1 w1] p]. unfold strong_at. cbn [fst].
    rewrite nth_set. destruct (Nat.eqb_spec a' a) as [->|Hne]; [| reflexivity]. rewrite En. unfold refs in E0. exact E0.
  Qed.
  Lemma at_arc_drop_strong a a' own b g : 0 <= b -> gone refs b g -> gone (strong_at a) (ind a a' b) (at_arc_drop a' own g).
  Proof.
    intros Hb Hg x Hx. unfold at_arc_drop. destruct (nth_error (fst x) a') as [c|] eqn:En.
    - destruct (g (c_arc c, snd x)) as [r1 w1] eqn:Eg. unfold strong_at, ind in *. cbn [fst]. rewrite nth_set.
      destruct (Nat.eqb_spec a' a) as [->|Hne]; [| lia]. rewrite En in *. cbn.
      assert (X := Hg (c_arc c, snd x) Hx). rewrite Eg in X. unfold refs in X. cbn in X. lia.
    - unfold ind, strong_at in *. destruct (Nat.eqb_spec a' a) as [->|Hne]; [| lia]. rewrite En in *. lia.
  Qed.
  Lemma at_arc_there A a a' (m : M (arc * W) A) : still (there_at a) (at_arc a' m).
  Proof.
    intros x. split; [| auto]. unfold at_arc. destruct (nth_error (fst x) a') as [c|] eqn:En; [| reflexivity].
    destruct (m (c_arc c, snd x)) as [[r1 w1] p]. unfold there_at. cbn [fst].
    rewrite nth_set. destruct (Nat.eqb_spec a' a) as [->|Hne]; [| reflexivity]. rewrite En. reflexivity.
  Qed.
  Lemma at_arc_drop_there a a' (own : bool) g : gone (there_at a) (ind a a' (if own then 1 else 0)) (at_arc_drop a' own g).
  Proof.
    intros x Hx. unfold at_arc_drop. destruct (nth_error (fst x) a') as [c|] eqn:En.
    - destruct (g (c_arc c, snd x)) as [r1 w1]. unfold there_at, ind in *. cbn [fst]. rewrite nth_set.
      destruct (Nat.eqb_spec a' a) as [->|Hne]; [| lia]. rewrite En in *. cbn [c_gone]. destruct own; lia.
    - unfold ind, there_at in *. destruct (Nat.eqb_spec a' a) as [->|Hne]; [| lia]. rewrite En in *. destruct own; lia.
  Qed.
  Lemma new_arc_strong a (fresh : W -> arc * W) : (forall w, strong (fst (fresh w)) = 1%nat) ->
    bal (strong_at a) 0 (new_arc fresh) (fun n => ind a n 1).
  Proof.
    intros Hf x x1 n _ E. unfold new_arc in E. assert (X := Hf (snd x)). destruct (fresh (snd x)) as [r w1]. injection E as <- <-.
    unfold strong_at, ind. cbn [fst]. cbn in X.
    destruct (Nat.eqb_spec (length (fst x)) a) as [<-|Hne].
    - rewrite nth_error_app2, Nat.sub_diag by lia. cbn. rewrite X. replace (nth_error (fst x) (length (fst x))) with (@None (cell (C := C))); [lia |].
      symmetry. apply nth_error_None. lia.
    - destruct (Nat.lt_ge_cases a (length (fst x))).
      + rewrite nth_error_app1 by lia. lia.
      + replace (nth_error (fst x) a) with (@None (cell (C := C))) by (symmetry; apply nth_error_None; lia).
        replace (nth_error (fst x ++ [Cell r 0]) a) with (@None (cell (C := C))); [lia |].
        symmetry; apply nth_error_None. rewrite app_length. cbn. lia.
  Qed.
  Lemma new_arc_there a (fresh : W -> arc * W) : bal (there_at a) 0 (new_arc fresh) (fun n => ind a n 1).
  Proof.
    intros x x1 n _ E. unfold new_arc in E. destruct (fresh (snd x)) as [r w1]. injection E as <- <-.
    unfold there_at, ind. cbn [fst].
    destruct (Nat.eqb_spec (length (fst x)) a) as [<-|Hne].
    - rewrite nth_error_app2, Nat.sub_diag by lia. cbn. replace (nth_error (fst x) (length (fst x))) with (@None (cell (C := C))); [reflexivity |].
      symmetry. apply nth_error_None. lia.
    - destruct (Nat.lt_ge_cases a (length (fst x))).
      + rewrite nth_error_app1 by lia. lia.
      + replace (nth_error (fst x) a) with (@None (cell (C := C))) by (symmetry; apply nth_error_None; lia).
        replace (nth_error (fst x ++ [Cell r 0]) a) with (@None (cell (C := C))); [lia |].
        symmetry; apply nth_error_None. rewrite app_length. cbn. lia.
  Qed.
End Heap.

Section Tracked.
  Context {W C Req Resp Err T : Type} (svc : Service W Req Resp Err).
  Context (start : M W T) (finish : T -> C -> W -> C * W) (keep : Resp -> W -> W * bool).
  Context (Hkeep : forall v w, snd (keep v w) = false).
  Notation tl := (tracked_load svc start finish keep).
  Notation ta := (tracked_at svc start finish keep).
  Definition has_handle (f : tc_fut svc (T := T)) : Z := match tc_handle f with Some _ => 1 | None => 0 end.

  Lemma lift_w_refs A b (m : M W A) o : (forall a, o a = b) -> bal (refs (C := C)) b (lift_w m) o.
  Proof. intros Ho x x1 v _ E. unfold lift_w in E. destruct (m (snd x)) as [w1 p]. injection E as <- _. rewrite Ho. unfold refs. cbn. lia. Qed.
  Lemma drop_handle_refs (t : T) : gone (refs (C := C)) 1 (drop_handle finish t).
  Proof. intros [r w] Hx. unfold drop_handle. cbn [fst snd]. destruct (finish t (content r) w) as [c1 w1]. unfold refs in *. cbn in *. lia. Qed.
  Lemma tl_holds : holds (refs (C := C)) tl (fun _ => 1) has_handle none.
  Proof.
    constructor; cbn [tracked_load poll_ready call poll_fut clone drop_svc drop_fut]; unfold none; try lia.
    - intros s. apply lift_w_refs. reflexivity.
    - intros s r x x1 v Hx E. unfold tl_call, new_handle, bind, modify, ret, lift_w in E. destruct x as [rc w]. cbn [fst snd] in E.
      destruct (start w) as [w1 [t| |]]; try discriminate. cbn [fst snd] in E.
      destruct (call svc s r w1) as [w2 [[s1 f]| |]]; try discriminate. injection E as <- <-. unfold refs, has_handle. cbn [fst snd strong tc_handle]. lia.
    - intros f. unfold tc_poll. eapply bal_bind; [apply (lift_w_refs (b := has_handle f)); reflexivity | lia |]. intros [i p].
      replace (has_handle f + (has_handle f - has_handle f)) with (has_handle f) by lia.
      destruct p as [|[v|e]]; try (apply bal_ret; unfold has_handle; cbn; lia).
      destruct (tc_handle f) as [t|] eqn:Eh; [| apply bal_panic]. unfold has_handle. rewrite Eh.
      intros x x1 z Hx E. unfold bind, lift_w, modify, ret in E. assert (Hk := Hkeep v (snd x)).
      destruct (keep v (snd x)) as [w1 k]. cbn in Hk. subst k. cbn [fst snd] in E. injection E as <- <-. cbn.
      assert (X := drop_handle_refs t (fst x, w1) Hx). unfold refs in *. cbn in *. lia.
    - intros s. apply bal_panic.
    - intros s x Hx. unfold refs in *. cbn in *. lia.
    - intros f x Hx. unfold tc_drop, has_handle in *. destruct (tc_handle f) as [t|].
      + rewrite (drop_handle_refs t); [reflexivity | exact Hx].
      + unfold refs. cbn. lia.
    - intros f. unfold has_handle. destruct (tc_handle f); lia.
  Qed.
  Lemma ta_strong a : holds (strong_at (C := C) a) ta (fun s => ind a (fst s) 1) (fun f => ind a (fst f) (has_handle (snd f))) none.
  Proof.
    assert (L0 : forall a' z, 0 <= z -> 0 <= ind a a' z) by (intros a' z; unfold ind; destruct (a' =? a)%nat; lia).
    assert (H := tl_holds).
    constructor; cbn [tracked_at poll_ready call poll_fut clone drop_svc drop_fut]; unfold none; try lia.
    - intros s. eapply bal_bind; [apply at_arc_strong, (ho_ready H) | lia |]. intros [s1 p]. apply bal_ret. cbn. lia.
    - intros s r. eapply bal_bind; [apply at_arc_strong, (ho_call H) | lia |]. intros [s1 f]. apply bal_ret. cbn [fst snd].
      unfold ind. destruct (fst s =? a)%nat; lia.
    - intros f. eapply bal_bind; [apply at_arc_strong, (ho_poll H) | lia |]. intros [f1 p]. apply bal_ret. cbn [fst snd].
      unfold ind. destruct (fst f =? a)%nat; destruct p as [|[v|e]]; cbn; unfold none; lia.
    - intros s. apply bal_panic.
    - intros s. apply at_arc_drop_strong; [lia |]. apply (ho_drop_svc H).
    - intros f. apply at_arc_drop_strong; [apply (ho_fut0 H) |]. apply (ho_drop_fut H).
    - intros s. apply L0. lia.
    - intros f. apply L0, (ho_fut0 H).
  Qed.
  Lemma still_bal A X b (live : X -> Z) (m : M X A) o : still live m -> (forall v, o v = b) -> bal live b m o.
  Proof. intros Hm Ho x x1 v _ E. destruct (Hm x) as [E0 _]. rewrite E in E0. cbn in E0. rewrite Ho. lia. Qed.
  Lemma ta_there a : holds (there_at (C := C) a) ta (fun s => ind a (fst s) 1) none none.
  Proof.
    assert (L0 : forall a' z, 0 <= z -> 0 <= ind a a' z) by (intros a' z; unfold ind; destruct (a' =? a)%nat; lia).
    constructor; cbn [tracked_at poll_ready call poll_fut clone drop_svc drop_fut]; unfold none; try lia.
    - intros s. apply bal_still; [apply at_arc_there |]. intros [s1 p]. apply bal_ret. reflexivity.
    - intros s r. apply bal_still; [apply at_arc_there |]. intros [s1 p]. apply bal_ret. cbn. lia.
    - intros f. apply bal_still; [apply at_arc_there |]. intros [s1 p]. apply bal_ret. cbn. destruct p as [|[v|e]]; reflexivity.
    - intros s. apply bal_panic.
    - intros s. apply (@at_arc_drop_there W C a (fst s) true).
    - intros f. eapply gone_eq; [apply (@at_arc_drop_there W C a (fst f) false) |]. unfold ind. destruct (fst f =? a)%nat; reflexivity.
    - intros s. apply L0. lia.
  Qed.
  Lemma off_heap_still A X (live : list (cell (C := C)) -> X) (m : M W A) : still (fun x => live (fst x)) (off_heap m).
  Proof. intros x. split; [| auto]. unfold off_heap. destruct (m (snd x)). reflexivity. Qed.
  Lemma td_strong a K E (D : Discover W K (st svc) E) (fresh : W -> arc * W) : (forall w, strong (fst (fresh w)) = 1%nat) ->
    disc_holds (strong_at (C := C) a) (tracked_discover svc start finish keep D fresh) (fun s => ind a (fst s) 1) none.
  Proof.
    intros Hf. apply map_discover_holds with (osv := none).
    - constructor; cbn; unfold none; try lia.
      + intros d. apply still_bal; [apply (@off_heap_still _ _ (fun h => match nth_error h a with Some c => Z.of_nat (strong (c_arc c)) | None => 0 end)) |].
        intros [d1 [|[[[k s|k]|e]|]]]; reflexivity.
      + intros d x _. unfold strong_at. cbn. lia.
    - unfold none. lia.
    - intros s. eapply bal_bind; [apply (new_arc_strong a _ Hf) | unfold none; lia |]. intros n. apply bal_ret. unfold none. cbn. lia.
  Qed.
  Lemma td_there a K E (D : Discover W K (st svc) E) (fresh : W -> arc * W) :
    disc_holds (there_at (C := C) a) (tracked_discover svc start finish keep D fresh) (fun s => ind a (fst s) 1) none.
  Proof.
    apply map_discover_holds with (osv := none).
    - constructor; cbn; unfold none; try lia.
      + intros d. apply still_bal; [apply (@off_heap_still _ _ (fun h => match nth_error h a with Some c => 1 - Z.of_nat (c_gone c) | None => 0 end)) |].
        intros [d1 [|[[[k s|k]|e]|]]]; reflexivity.
      + intros d x _. unfold there_at. cbn. lia.
    - unfold none. lia.
    - intros s. eapply bal_bind; [apply (new_arc_there a fresh) | unfold none; lia |]. intros n. apply bal_ret. unfold none. cbn. lia.
  Qed.
End Tracked.
