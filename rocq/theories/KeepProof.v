(** Proof of C69: layer by layer. *)
From Verif Require Import Base Util ReadyCache SpawnReady Load Make Middleware Limits Hedge MeterSpec MeterProof KeepSpec.
Set Implicit Arguments.
Local Open Scope Z_scope.

Section Logic.
  Context {W : Type} (live : W -> Z).

  Lemma bal_ret A b (a : A) o : o a = b -> bal live b (ret a) o.
  Proof. intros H w w1 x _ E. injection E as <- <-. lia. Qed.
  Lemma bal_panic A b (o : A -> Z) : bal live b panic o.
  Proof. intros w w1 x _ E. discriminate. Qed.
  Lemma bal_diverge A b (o : A -> Z) : bal live b diverge o.
  Proof. intros w w1 x _ E. discriminate. Qed.
  (** what is not given to [m] is held elsewhere meanwhile *)
  Lemma bal_bind A B b b' (m : M W A) (k : A -> M W B) o o' :
    bal live b m o -> b <= b' -> (forall a, bal live (o a + (b' - b)) (k a) o') -> bal live b' (bind m k) o'.
  Proof.
    intros Hm L Hk w w2 y Hw E. unfold bind in E. destruct (m w) as [w1 [a| |]] eqn:E1; try discriminate.
    assert (X := Hm w w1 a ltac:(lia) E1). assert (Y := Hk a w1 w2 y ltac:(lia) E). lia.
  Qed.
  Lemma bal_still A B b (m : M W A) (k : A -> M W B) o :
    still live m -> (forall a, bal live b (k a) o) -> bal live b (bind m k) o.
  Proof.
    intros Hm Hk w w2 y Hw E. unfold bind in E. destruct (Hm w) as [E0 _]. destruct (m w) as [w1 [a| |]] eqn:E1; try discriminate.
    cbn in E0. assert (X := Hk a w1 w2 y ltac:(lia) E). lia.
  Qed.
  Lemma bal_modify B b c (g : W -> W) (k : unit -> M W B) o :
    gone live c g -> c <= b -> bal live (b - c) (k tt) o -> bal live b (bind (modify g) k) o.
  Proof. intros Hg L Hk w w2 y Hw E. unfold bind, modify in E. assert (X := Hg w ltac:(lia)). assert (L2 : b - c <= live (g w)) by lia. assert (Y := Hk _ _ _ L2 E). lia. Qed.
  Lemma bal_of_still A (m : M W A) : still live m -> bal live 0 m none.
  Proof. intros Hm w w1 a _ E. destruct (Hm w) as [E0 _]. rewrite E in E0. cbn in E0. unfold none. lia. Qed.
  Lemma bal_eq A b b' (m : M W A) o : bal live b m o -> b = b' -> bal live b' m o.
  Proof. intros H <-. exact H. Qed.
  Lemma bal_post A b (m : M W A) o o' : bal live b m o -> (forall a, o a = o' a) -> bal live b m o'.
  Proof. intros H E w w1 a Hw Em. rewrite <- E. apply (H w w1 a Hw Em). Qed.
  Lemma gone_same g : same live g -> gone live 0 g.
  Proof. intros H w _. rewrite (H w). lia. Qed.
  Lemma gone_id : gone live 0 (fun w => w).
  Proof. intros w _. lia. Qed.
  Lemma gone_two a b f g : gone live a f -> gone live b g -> 0 <= a -> 0 <= b -> gone live (a + b) (fun w => g (f w)).
  Proof. intros Hf Hg Ha Hb w Hw. rewrite (Hg (f w)), (Hf w); [lia | lia |]. rewrite (Hf w); lia. Qed.
  Lemma gone_eq a b g : gone live a g -> a = b -> gone live b g.
  Proof. intros H <-. exact H. Qed.
  Lemma gone_all A (o : A -> Z) (d : A -> W -> W) : (forall x, gone live (o x) (d x)) -> (forall x, 0 <= o x) ->
    forall l, gone live (osum o l) (fun w => fold_left (fun w x => d x w) l w).
  Proof.
    intros Hd H0 l. induction l as [|x l IH]; cbn [osum fold_left]; [apply gone_id |].
    assert (0 <= osum o l) by (clear IH; induction l as [|y l IHl]; cbn; [lia | generalize (H0 y); lia]).
    apply (gone_two (Hd x) IH (H0 x) H).
  Qed.
End Logic.
Lemma osum_nonneg A (o : A -> Z) l : (forall x, 0 <= o x) -> 0 <= osum o l.
Proof. intros H. induction l as [|x l IH]; cbn; [lia | generalize (H x); lia]. Qed.
Lemma oopt_nonneg A (o : A -> Z) x : (forall x, 0 <= o x) -> 0 <= oopt o x.
Proof. intros H. destruct x; cbn; [apply H | lia]. Qed.
Lemma osum_app A (o : A -> Z) l l' : osum o (l ++ l') = osum o l + osum o l'.
Proof. induction l as [|x l IH]; cbn; lia. Qed.
Lemma osum_nth A (o : A -> Z) l : (forall x, 0 <= o x) -> forall i x, nth_error l i = Some x -> o x <= osum o l.
Proof.
  intros H0. induction l as [|y l IH]; intros [|i] x E; try discriminate; cbn in *.
  - injection E as ->. generalize (osum_nonneg o l H0). lia.
  - generalize (IH _ _ E) (H0 y). lia.
Qed.
Lemma osum_set A (o : A -> Z) l : forall i x y, nth_error l i = Some x -> osum o (set_nth i y l) = osum o l - o x + o y.
Proof.
  induction l as [|z l IH]; intros [|i] x y E; try discriminate; cbn in *.
  - injection E as ->. lia.
  - rewrite (IH _ _ y E). lia.
Qed.

(** The nonnegative facts a goal needs. *)
Ltac nn1 L :=
  repeat match goal with
  | |- context [?o ?x] => lazymatch goal with h : 0 <= o x |- _ => fail | _ => assert (0 <= o x) by exact (L x) end
  end.
Ltac nn H := nn1 (ho_svc0 H); nn1 (ho_fut0 H); nn1 (ho_resp0 H).
Ltac klia H := unfold none in *; cbn [in_resp fst snd oopt osums] in *; nn H; lia.
Ltac bst := apply bal_still; [| intros ?].
Ltac kcall H := eapply bal_bind; [apply (ho_call H) | klia H |]; intros [? ?]; cbn [fst snd].
Ltac kpoll H := eapply bal_bind; [apply (ho_poll H) | klia H |]; intros [? ?]; cbn [fst snd].
Ltac kready H := eapply bal_bind; [apply (ho_ready H) | klia H |]; intros [? ?]; cbn [fst snd].
Ltac kclone H := eapply bal_bind; [apply (ho_clone H) | klia H |]; intros ?.
Ltac kdrop_fut H := eapply bal_modify; [apply (ho_drop_fut H) | klia H |].
Ltac kdrop_svc H := eapply bal_modify; [apply (ho_drop_svc H) | klia H |].
Ltac bret := apply bal_ret; unfold none, in_resp; cbn [fst snd oopt osums poll_map map_er]; solve [lia | cbn; lia].

Lemma holds_ext W Req Resp Err (live : W -> Z) (svc : Service W Req Resp Err) osv own orp osv' own' orp' :
  holds live svc osv own orp -> (forall s, osv s = osv' s) -> (forall f, own f = own' f) -> (forall v, orp v = orp' v) ->
  holds live svc osv' own' orp'.
Proof.
  intros H E1 E2 E3.
  assert (E4 : forall p : poll (result Resp Err), in_resp orp p = in_resp orp' p) by (intros [|[v|e]]; cbn; auto).
  constructor.
  - intros s w w1 a. rewrite <- !E1. apply (ho_ready H).
  - intros s r w w1 a. rewrite <- !E1, <- E2. apply (ho_call H).
  - intros f w w1 a. rewrite <- !E2, <- E4. apply (ho_poll H).
  - intros s w w1 a. rewrite <- !E1. apply (ho_clone H).
  - intros s w. rewrite <- E1. apply (ho_drop_svc H).
  - intros f w. rewrite <- E2. apply (ho_drop_fut H).
  - intros s. rewrite <- E1. apply (ho_svc0 H).
  - intros f. rewrite <- E2. apply (ho_fut0 H).
  - intros v. rewrite <- E3. apply (ho_resp0 H).
Qed.

Lemma service_fn_k W Req Resp Err (live : W -> Z) (T : Task W (result Resp Err)) (f : Req -> M W (tst T)) :
  still_task live T -> (forall r, still live (f r)) -> holds live (service_fn T f) none none none.
Proof.
  intros [HT HD] Hf. constructor; cbn; unfold none; try lia.
  - intros s. apply bal_ret. reflexivity.
  - intros s r. bst; [apply Hf |]. apply bal_ret. reflexivity.
  - intros x. eapply bal_post; [apply bal_of_still, HT |]. intros [t [|[v|e]]]; reflexivity.
  - intros s. apply bal_ret. reflexivity.
  - intros s. apply gone_id.
  - intros x. apply gone_same, HD.
Qed.

Section Layers.
  Context {W Req Resp Err : Type} (live : W -> Z) (svc : Service W Req Resp Err).
  Context (osv : st svc -> Z) (own : fut svc -> Z) (orp : Resp -> Z) (H : holds live svc osv own orp).

  Lemma in_resp_into E' (into : Err -> E') (p : poll (result Resp Err)) : in_resp orp (poll_map (map_er into) p) = in_resp orp p.
  Proof. destruct p as [|[v|e]]; reflexivity. Qed.
  Lemma into_ready_k A E' (into : Err -> E') s (g : st svc -> A) (o : A -> Z) : (forall s, o (g s) = osv s) ->
    bal live (osv s) ('(s1, a) <- poll_ready svc s ;; ret (g s1, poll_map (map_er into) a)) (fun x => o (fst x)).
  Proof. intros Ho. kready H. apply bal_ret. cbn. rewrite Ho. lia. Qed.
  Arguments into_ready_k {A E'} into s g o _ _ _ _ _ _.
  Lemma ready_k A s (g : st svc -> A) (o : A -> Z) : (forall s, o (g s) = osv s) ->
    bal live (osv s) ('(s1, a) <- poll_ready svc s ;; ret (g s1, a)) (fun x => o (fst x)).
  Proof. intros Ho. kready H. apply bal_ret. cbn. rewrite Ho. lia. Qed.
  Arguments ready_k {A} s g o _ _ _ _ _ _.
  Lemma some_call_k s r : bal live (osv s) ('(s1, x) <- call svc s r ;; ret (s1, Some x)) (fun x => osv (fst x) + oopt own (snd x)).
  Proof. kcall H. bret. Qed.
  Lemma map_drop_k f : gone live (oopt own f) (map_drop (drop_fut svc) f).
  Proof. destruct f; cbn; [apply (ho_drop_fut H) | apply gone_id]. Qed.
  Lemma opt0 f : 0 <= oopt own f.
  Proof. apply oopt_nonneg, (ho_fut0 H). Qed.

  Lemma boxed_k : holds live (boxed svc) osv own orp.
  Proof. constructor; apply H. Qed.
  Lemma into_service_k : holds live (into_service svc) osv own orp.
  Proof. constructor; apply H. Qed.
  Lemma map_request_k Req' (f : Req' -> M W Req) : (forall r, still live (f r)) -> holds live (map_request f svc) osv own orp.
  Proof. intros Hf. constructor; try apply H. intros s r. cbn. bst; [apply Hf |]. apply (ho_call H). Qed.
  Lemma optional_k : holds live (optional svc) (oopt osv) (oopt own) orp.
  Proof.
    constructor; cbn [optional poll_ready call poll_fut clone drop_svc drop_fut].
    - intros [x|]; [| bret]. apply (into_ready_k inl x (fun s => Some s) (oopt osv)). reflexivity.
    - intros [x|] r; [| bret]. cbn [oopt]. kcall H. bret.
    - intros [x|]; [| bret]. cbn [oopt]. kpoll H. apply bal_ret. cbn. rewrite in_resp_into. lia.
    - intros [x|]; [| bret]. cbn [oopt]. kclone H. bret.
    - intros [x|]; [apply (ho_drop_svc H) | apply gone_id].
    - intros [x|]; [apply (ho_drop_fut H) | apply gone_id].
    - intros x. apply oopt_nonneg, (ho_svc0 H).
    - intros x. apply opt0.
    - apply (ho_resp0 H).
  Qed.
  Lemma future_service_k (T : Task W (result (st svc) Err)) (ot : tst T -> Z) (tclone : tst T -> M W (tst T)) :
    task_holds live T ot (fun r => match r with Ok s => osv s | Er _ => 0 end) ->
    (forall t, bal live (ot t) (tclone t) (fun t1 => ot t + ot t1)) ->
    holds live (future_service svc T tclone) (osums ot osv) own orp.
  Proof.
    intros HT Hc. constructor; cbn [future_service poll_ready call poll_fut clone drop_svc drop_fut]; try apply H.
    - intros [t|s]; [| apply (ready_k s (fun s => inr s) (osums ot osv)); reflexivity]. cbn [osums].
      eapply bal_bind; [apply (to_poll HT) | lia |]. intros [t1 [|[s|e]]]; cbn [fst snd]; [bret | | bret].
      eapply bal_modify; [apply (to_drop HT) | klia H |].
      eapply bal_eq; [apply (ready_k s (fun s => inr s) (osums ot osv)); reflexivity | lia].
    - intros [t|s] r; [apply bal_panic |]. cbn [osums]. kcall H. bret.
    - intros [t|s]; cbn [osums]; [eapply bal_bind; [apply Hc | lia |]; intros t1; bret | kclone H; bret].
    - intros [t|s]; [apply (to_drop HT) | apply (ho_drop_svc H)].
    - intros [t|s]; [apply (to_0 HT) | apply (ho_svc0 H)].
  Qed.
  Lemma timeout_k (rt : Rt W) dur : (forall d, same live (nap rt d)) ->
    holds live (timeout rt dur svc) osv (fun f => own (to_inner f)) orp.
  Proof.
    intros Hn. constructor; cbn [timeout poll_ready call poll_fut clone drop_svc drop_fut]; try apply H.
    - intros s. apply (into_ready_k inl s (fun s => s) osv). reflexivity.
    - intros s r. kcall H. bst; [apply still_get |]. bret.
    - intros f. kpoll H. destruct p as [|v]; [bst; [apply still_sleep, Hn |]; destruct a; bret |].
      apply bal_ret. destruct v; cbn; lia.
    - intros f. apply (ho_drop_fut H).
    - intros f. apply (ho_fut0 H).
  Qed.
  Lemma load_shed_k : holds live (load_shed svc) (fun s => osv (ls_inner s)) (oopt own) orp.
  Proof.
    constructor; cbn [load_shed poll_ready call poll_fut clone drop_svc drop_fut].
    - intros s. kready H. destruct p as [|[u|e]]; bret.
    - intros s r. destruct (ls_ready s); [| bret]. kcall H. bret.
    - intros [x|]; [| bret]. cbn [oopt]. kpoll H. apply bal_ret. cbn. rewrite in_resp_into. lia.
    - intros s. kclone H. bret.
    - intros s. apply (ho_drop_svc H).
    - intros [x|]; [apply (ho_drop_fut H) | apply gone_id].
    - intros s. apply (ho_svc0 H).
    - intros x. apply opt0.
    - apply (ho_resp0 H).
  Qed.
  Lemma async_filter_k Req' P PErr (T : Task W (result Req PErr)) (check : P -> Req' -> M W (P * tst T)) pclone :
    still_task live T -> (forall p r, still live (check p r)) -> (forall p, still live (pclone p)) ->
    holds live (async_filter svc T check pclone) (fun s => osv (fst s)) (oaf osv own (C := tst T)) orp.
  Proof.
    intros [HT HD] Hc Hp.
    assert (Hw : forall x s, bal live (osv s + own x)
      ('(x1, p) <- poll_fut svc x ;; ret (AfFut (AfWait x1) s, poll_map (map_er (E' := Err + PErr) inl) p))
      (fun x => oaf osv own (C := tst T) (fst x) + in_resp orp (snd x))).
    { intros x s. kpoll H. apply bal_ret. cbn. rewrite in_resp_into. unfold oaf. cbn. lia. }
    constructor; cbn [async_filter poll_ready call poll_fut clone drop_svc drop_fut].
    - intros s. apply (into_ready_k inl (fst s) (fun x => (x, snd s)) (fun s => osv (fst s))). reflexivity.
    - intros s r. kclone H. bst; [apply Hc |]. destruct a0 as [p1 c]. apply bal_ret. unfold oaf. cbn. lia.
    - intros f. unfold oaf at 1. destruct (af_state f) as [c|x]; [| apply Hw].
      bst; [apply HT |]. destruct a as [c1 [|[r|e]]]; try (apply bal_ret; unfold oaf; cbn; lia).
      kcall H. eapply bal_modify; [apply gone_same, HD | klia H |]. eapply bal_eq; [apply Hw | lia].
    - intros s. kclone H. bst; [apply Hp |]. bret.
    - intros s. apply (ho_drop_svc H).
    - intros f. unfold oaf. rewrite Z.add_comm.
      destruct (af_state f) as [c|x]; (apply gone_two; [| apply (ho_drop_svc H) | | apply (ho_svc0 H)]).
      + apply gone_same, HD.
      + lia.
      + apply (ho_drop_fut H).
      + apply (ho_fut0 H).
    - intros s. apply (ho_svc0 H).
    - intros f. unfold oaf. destruct (af_state f); klia H.
    - apply (ho_resp0 H).
  Qed.
  Lemma rate_limit_k (rt : Rt W) rate : (forall d, same live (nap rt d)) ->
    holds live (rate_limit rt rate svc) (fun s => osv (rl_inner s)) own orp.
  Proof.
    intros Hn. constructor; cbn [rate_limit poll_ready call poll_fut clone drop_svc drop_fut]; try apply H.
    - intros s. destruct (rl_st s).
      + bst; [apply still_sleep, Hn |]. destruct a; [| bret]. bst; [apply still_get |]. kready H. bret.
      + kready H. bret.
    - intros s r. destruct (rl_st s); [apply bal_panic |]. bst; [apply still_get |]. cbv zeta.
      destruct (if (1 <? _)%N then _ else _) as [st1 sl]. kcall H. bret.
    - intros s. apply bal_panic.
    - intros s. apply (ho_drop_svc H).
    - intros s. apply (ho_svc0 H).
  Qed.
  Lemma constant_k Met : holds live (constant (M' := Met) svc) (fun s => osv (fst s)) own orp.
  Proof.
    constructor; cbn [constant poll_ready call poll_fut clone drop_svc drop_fut]; try apply H.
    - intros s. apply (ready_k (fst s) (fun x => (x, snd s)) (fun s => osv (fst s))). reflexivity.
    - intros s r. kcall H. bret.
    - intros s. apply bal_panic.
    - intros s. apply (ho_drop_svc H).
    - intros s. apply (ho_svc0 H).
  Qed.
  Lemma shared_k Tgt : holds live (shared (Tgt := Tgt) svc) osv (oopt osv) osv.
  Proof.
    constructor; cbn [shared poll_ready call poll_fut clone drop_svc drop_fut]; try apply H.
    - intros s. bret.
    - intros s r. kclone H. bret.
    - intros [x|]; [bret | apply bal_panic].
    - intros [x|]; [apply (ho_drop_svc H) | apply gone_id].
    - intros x. apply oopt_nonneg, (ho_svc0 H).
  Qed.

  Section Steer.
    Context {P : Type} (pick : P -> Req -> list (st svc) -> M W (P * nat)) (pclone : P -> M W P).
    Context (Hpick : forall q r l, still live (pick q r l)) (Hpc : forall q, still live (pclone q)).
    Lemma steer_poll_k nr : forall l, bal live (osum osv l) (steer_poll svc l nr) (fun x => osum osv (fst (fst x))).
    Proof.
      induction nr as [|i nr IH]; intros l; cbn [steer_poll]; [bret |].
      destruct (nth_error l i) as [s|] eqn:Es; [| apply bal_panic].
      eapply bal_bind; [apply (ho_ready H) | apply (osum_nth osv l (ho_svc0 H) _ Es) |]. intros [s1 p]. cbv zeta. cbn [fst].
      assert (E := osum_set osv l i s1 Es). destruct p as [|[u|e]]; [apply bal_ret; cbn; lia | | apply bal_ret; cbn; lia].
      eapply bal_eq; [apply IH | lia].
    Qed.
    Lemma clone_all_k l : forall c, 0 <= c -> bal live (osum osv l + c) (clone_all svc l) (fun l1 => osum osv l + c + osum osv l1).
    Proof.
      induction l as [|s l IH]; intros c Hc; cbn [clone_all osum]; [bret |].
      assert (L := osum_nonneg osv l (ho_svc0 H)).
      kclone H. eapply bal_bind; [apply (IH (c + osv s + osv a)); klia H | lia |]. intros l1. apply bal_ret. cbn [osum]. lia.
    Qed.
    Lemma steer_k : holds live (steer svc pick pclone) (fun s => osum osv (sr_services s)) own orp.
    Proof.
      constructor; cbn [steer poll_ready call poll_fut clone drop_svc drop_fut]; try apply H.
      - intros s. eapply bal_bind; [apply steer_poll_k | lia |]. intros [[l nr] p]. bret.
      - intros s r. destruct (sr_not_ready s); [| apply bal_panic]. bst; [apply Hpick |]. destruct a as [p1 i].
        destruct (nth_error (sr_services s) i) as [x|] eqn:Ex; [| apply bal_panic].
        eapply bal_bind; [apply (ho_call H) | apply (osum_nth osv _ (ho_svc0 H) _ Ex) |]. intros [x1 f]. cbn [fst snd].
        apply bal_ret. cbn [sr_services fst snd]. rewrite (osum_set osv _ i x1 Ex). lia.
      - intros s. bst; [apply Hpc |].
        eapply bal_bind with (b := osum osv (sr_services s) + 0); [apply clone_all_k; lia | lia |]. intros l1. apply bal_ret. cbn. lia.
      - intros s. apply gone_all; [apply (ho_drop_svc H) | apply (ho_svc0 H)].
      - intros s. apply osum_nonneg, (ho_svc0 H).
    Qed.
  End Steer.

  Section Latency.
    Context (rt : Rt W) (Hnap : forall d, same live (nap rt d)).
    Lemma latency_k record : (forall d, still live (record d)) -> holds live (latency rt svc record) osv (fun f => own (lf_inner f)) orp.
    Proof.
      intros Hr. constructor; cbn [latency poll_ready call poll_fut clone drop_svc drop_fut]; try apply H.
      - intros s r. bst; [apply still_get |]. kcall H. bret.
      - intros f. kpoll H. destruct p as [|[v|e]]; try bret. bst; [apply still_get |]. bst; [apply Hr |]. bret.
      - intros f. apply (ho_drop_fut H).
      - intros f. apply (ho_fut0 H).
    Qed.
    Lemma oneshot_k o : bal live (oos osv own o) (oneshot_poll o) (fun x => oos osv own (fst x) + in_resp orp (snd x)).
    Proof.
      assert (Hc : forall f, bal live (own f) (oneshot_called svc f) (fun x => oos osv own (fst x) + in_resp orp (snd x))).
      { intros f. unfold oneshot_called. kpoll H. destruct p as [|[v|e]]; try (apply bal_ret; cbn; lia).
        kdrop_fut H. apply bal_ret; cbn; lia. }
      destruct o as [s q|f|]; cbn [oneshot_poll oos]; [| apply Hc | apply bal_panic].
      kready H. destruct p as [|[u|e]]; try (apply bal_ret; cbn; lia). destruct q as [r|]; [| apply bal_panic].
      kcall H. kdrop_svc H. eapply bal_eq; [apply Hc | lia].
    Qed.
    Lemma oos0 o : 0 <= oos osv own o.
    Proof. destruct o; cbn; klia H. Qed.
    Lemma oneshot_drop_k o : gone live (oos osv own o) (oneshot_drop o).
    Proof. destruct o; cbn; [apply (ho_drop_svc H) | apply (ho_drop_fut H) | apply gone_id]. Qed.
    Lemma delay_k delay_of : (forall r, still live (delay_of r)) -> holds live (delay rt svc delay_of) osv (odelay osv own) orp.
    Proof.
      intros Hd. constructor; cbn [delay poll_ready call poll_fut clone drop_svc drop_fut]; try apply H.
      - intros s. bret.
      - intros s r. bst; [apply Hd |]. kclone H. bst; [apply still_get |]. apply bal_ret. unfold odelay. cbn. lia.
      - intros f. assert (Hc : forall sv o, 0 <= oopt osv sv -> bal live (oopt osv sv + oos osv own o)
           ('(o1, p) <- oneshot_poll o ;; ret (DelayFut sv (DCalled o1), p)) (fun x => odelay osv own (fst x) + in_resp orp (snd x))).
        { intros sv o L. eapply bal_bind; [apply oneshot_k | lia |]. intros [o1 p]. apply bal_ret. unfold odelay. cbn. lia. }
        assert (L := oopt_nonneg osv (df_svc f) (ho_svc0 H)).
        unfold odelay at 1. cbv zeta. destruct (df_state f) as [d q|o] eqn:Es; [| apply Hc, L].
        bst; [apply still_sleep, Hnap |]. destruct a; [| unfold odelay; apply bal_ret; cbn; rewrite Es; lia].
        destruct q as [r|]; [| apply bal_panic]. destruct (df_svc f) as [s|]; [| apply bal_panic].
        eapply bal_eq; [apply (Hc None (oneshot_new svc s r)); cbn; lia | cbn; lia].
      - intros s. apply bal_panic.
      - intros f. unfold odelay. assert (L := oopt_nonneg osv (df_svc f) (ho_svc0 H)).
        assert (X : gone live (oopt osv (df_svc f)) (fun w => match df_svc f with Some s => drop_svc svc s w | None => w end)).
        { destruct (df_svc f); [apply (ho_drop_svc H) | apply gone_id]. }
        destruct (df_state f) as [d q|o].
        + eapply gone_eq; [exact X | lia].
        + apply (gone_two X (oneshot_drop_k o) L (oos0 o)).
      - intros f. unfold odelay. assert (L := oopt_nonneg osv (df_svc f) (ho_svc0 H)). destruct (df_state f) as [d q|o]; [lia |].
        generalize (oos0 o). lia.
    Qed.
  End Latency.
End Layers.

Arguments into_ready_k {W Req Resp Err live svc osv own orp} H {A E'} into s g o _ _ _ _ _ _.
Arguments ready_k {W Req Resp Err live svc osv own orp} H {A} s g o _ _ _ _ _ _.
Lemma in_none Resp Err (p : poll (result Resp Err)) : in_resp none p = 0.
Proof. destruct p as [|[v|e]]; reflexivity. Qed.
Section Plain.
  Context {W Req Resp Err : Type} (live : W -> Z) (svc : Service W Req Resp Err).
  Context (osv : st svc -> Z) (own : fut svc -> Z) (H : holds live svc osv own none).

  Lemma map_poll_k Resp' Err' (h : result Resp Err -> M W (result Resp' Err')) f : (forall r, still live (h r)) ->
    bal live (oopt own f) (map_poll (poll_fut svc) (drop_fut svc) h f) (fun x => oopt own (fst x) + in_resp none (snd x)).
  Proof.
    intros Hh. destruct f as [f|]; [| apply bal_panic]. cbn [map_poll oopt].
    kpoll H. rewrite in_none. destruct p as [|v]; [bret |]. kdrop_fut H. bst; [apply Hh |]. apply bal_ret. cbn [fst snd oopt]. rewrite in_none. lia.
  Qed.
  Lemma map_response_k Resp' (f : Resp -> M W Resp') : (forall r, still live (f r)) -> holds live (map_response f svc) osv (oopt own) none.
  Proof.
    intros Hf. constructor; cbn [map_response poll_ready call poll_fut clone drop_svc drop_fut]; try apply H.
    - intros s r. apply (some_call_k H).
    - intros x. apply map_poll_k. intros [a|e]; [| apply still_ret]. apply still_bind; [apply Hf | intros b; apply still_ret].
    - apply (map_drop_k H).
    - apply (opt0 H).
    - intros v. unfold none. lia.
  Qed.
  Lemma map_err_k Err' (f : Err -> M W Err') : (forall r, still live (f r)) -> holds live (map_err f svc) osv (oopt own) none.
  Proof.
    intros Hf. constructor; cbn [map_err poll_ready call poll_fut clone drop_svc drop_fut]; try apply H.
    - intros s. kready H. destruct p as [|[u|e]]; try bret. bst; [apply Hf |]. bret.
    - intros s r. apply (some_call_k H).
    - intros x. apply map_poll_k. intros [a|e]; [apply still_ret |]. apply still_bind; [apply Hf | intros b; apply still_ret].
    - apply (map_drop_k H).
    - apply (opt0 H).
  Qed.
  Lemma map_result_k Resp' Err' (into : Err -> Err') (f : result Resp Err -> M W (result Resp' Err')) :
    (forall r, still live (f r)) -> holds live (map_result into f svc) osv (oopt own) none.
  Proof.
    intros Hf. constructor; cbn [map_result poll_ready call poll_fut clone drop_svc drop_fut]; try apply H.
    - intros s. apply (into_ready_k H into s (fun s => s) osv). reflexivity.
    - intros s r. apply (some_call_k H).
    - intros x. apply map_poll_k, Hf.
    - apply (map_drop_k H).
    - apply (opt0 H).
    - intros v. unfold none. lia.
  Qed.
  Lemma ochain0 T (c : chain (fut svc) T) : 0 <= ochain own none c.
  Proof. destruct c; cbn; unfold none; [apply (ho_fut0 H) | lia | lia]. Qed.
  Lemma second_k Resp' Err' (T : Task W (result Resp' Err')) t : still_task live T ->
    bal live 0 (x <- tpoll T t ;;
       match x with
       | (t1, Pending) => ret (Second t1, Pending)
       | (t1, Ready v) => modify (tdrop T t1) ;;; ret (Empty, Ready v)
       end) (fun x => ochain own (T := tst T) none (fst x) + in_resp none (snd x)).
  Proof.
    intros [HT HD]. bst; [apply HT |]. destruct a as [t1 [|v]]; [apply bal_ret; reflexivity |].
    eapply bal_modify; [apply gone_same, HD | lia |]. apply bal_ret. destruct v; reflexivity.
  Qed.
  Lemma then_k Resp' Err' (into : Err -> Err') (T : Task W (result Resp' Err')) (f : result Resp Err -> M W (tst T)) :
    still_task live T -> (forall x, still live (f x)) -> holds live (then_ into T f svc) osv (ochain own none) none.
  Proof.
    intros HT Hf. constructor; cbn [then_ poll_ready call poll_fut clone drop_svc drop_fut]; try apply H.
    - intros s. apply (into_ready_k H into s (fun s => s) osv). reflexivity.
    - intros s r. kcall H. apply bal_ret. cbn. lia.
    - intros [x|t|]; [| apply second_k, HT | apply bal_panic]. cbn [ochain]. kpoll H. rewrite in_none. destruct p as [|v]; [apply bal_ret; cbn; lia |].
      kdrop_fut H. bst; [apply Hf |]. eapply bal_eq; [apply second_k, HT |]. destruct v; cbn; unfold none; lia.
    - intros [x|t|]; cbn; [apply (ho_drop_fut H) | apply gone_same, HT | apply gone_id].
    - apply ochain0.
    - intros v. unfold none. lia.
  Qed.
  Lemma and_then_k Resp' Err' (into : Err -> Err') (T : Task W (result Resp' Err')) (f : Resp -> M W (tst T)) :
    still_task live T -> (forall x, still live (f x)) -> holds live (and_then into T f svc) osv (ochain own none) none.
  Proof.
    intros HT Hf. constructor; cbn [and_then poll_ready call poll_fut clone drop_svc drop_fut]; try apply H.
    - intros s. apply (into_ready_k H into s (fun s => s) osv). reflexivity.
    - intros s r. kcall H. apply bal_ret. cbn. lia.
    - intros [x|t|]; [| apply second_k, HT | apply bal_panic]. cbn [ochain]. kpoll H. rewrite in_none. destruct p as [|[v|e]]; [apply bal_ret; cbn; lia | |].
      + kdrop_fut H. bst; [apply Hf |]. eapply bal_eq; [apply second_k, HT |]. unfold none. lia.
      + kdrop_fut H. apply bal_ret. cbn. lia.
    - intros [x|t|]; cbn; [apply (ho_drop_fut H) | apply gone_same, HT | apply gone_id].
    - apply ochain0.
    - intros v. unfold none. lia.
  Qed.
  Lemma filter_k Req' P PErr (check : P -> Req' -> M W (P * result Req PErr)) pclone :
    (forall p r, still live (check p r)) -> (forall p, still live (pclone p)) ->
    holds live (filter svc check pclone) (fun s => osv (fst s)) (osums none (oopt own)) none.
  Proof.
    intros Hc Hp. constructor; cbn [filter poll_ready call poll_fut clone drop_svc drop_fut].
    - intros s. apply (into_ready_k H inl (fst s) (fun x => (x, snd s)) (fun s => osv (fst s))). reflexivity.
    - intros s r. bst; [apply Hc |]. destruct a as [p1 [r1|e]]; [| bret]. kcall H. bret.
    - intros [[e|]|o]; [bret | apply bal_panic |]. cbn [osums].
      eapply bal_bind; [apply map_poll_k; intros r; apply still_ret | lia |]. intros [f1 p]. apply bal_ret. cbn. lia.
    - intros s. kclone H. bst; [apply Hp |]. bret.
    - intros s. apply (ho_drop_svc H).
    - intros [e|o]; [apply gone_id | apply (map_drop_k H)].
    - intros s. apply (ho_svc0 H).
    - intros [e|o]; [unfold osums, none; lia | apply (opt0 H)].
    - intros v. unfold none. lia.
  Qed.

  Section Retry.
    Context (pol : Policy W Req Resp Err) (HT : still_task live (pfut pol)).
    Context (Hcl : forall p r, still live (clone_request pol p r)) (Hde : forall p r v, still live (retry_decide pol p r v)).
    Context (Hpc : forall p, still live (pol_clone pol p)).
    Notation oretry := (oretry osv own (pol := pol)).
    Lemma retry_iter_k f : bal live (oretry f) (retry_iter f)
      (fun x => match x with inl f1 => oretry f1 | inr y => oretry (fst y) end).
    Proof.
      destruct HT as [HT1 HT2]. unfold KeepSpec.oretry at 1, retry_iter. destruct (rf_state f) as [x|t|].
      - kpoll H. rewrite in_none.
        destruct p as [|res]; [apply bal_ret; unfold KeepSpec.oretry; cbn; lia |].
        destruct (rf_req f) as [req|]; [| apply bal_ret; unfold KeepSpec.oretry; cbn; lia].
        bst; [apply Hde |]. destruct a as [[[p1 req1] res1] [t|]]; [| apply bal_ret; unfold KeepSpec.oretry; cbn; lia].
        kdrop_fut H. apply bal_ret; unfold KeepSpec.oretry; cbn; lia.
      - bst; [apply HT1 |]. destruct a as [t1 [|u]]; [apply bal_ret; unfold KeepSpec.oretry; cbn; lia |].
        eapply bal_modify; [apply gone_same, HT2 | klia H |]. apply bal_ret; unfold KeepSpec.oretry; cbn; lia.
      - kready H. destruct p as [|[u|e]]; try (apply bal_ret; unfold KeepSpec.oretry; cbn; lia).
        destruct (rf_req f) as [req|]; [| apply bal_panic]. bst; [apply Hcl |]. destruct a as [p1 saved]. kcall H.
        apply bal_ret; unfold KeepSpec.oretry; cbn; lia.
    Qed.
    Lemma retry_poll_k fuel : forall f, bal live (oretry f) (retry_poll fuel f) (fun x => oretry (fst x)).
    Proof.
      induction fuel as [|fuel IH]; intros f; [apply bal_diverge |]. cbn [retry_poll].
      eapply bal_bind; [apply retry_iter_k | lia |]. intros [f1|r]; [eapply bal_eq; [apply IH | lia] | apply bal_ret; lia].
    Qed.
    Lemma retry_k fuel : holds live (retry pol svc fuel) (fun s => osv (snd s)) oretry none.
    Proof.
      constructor; cbn [retry poll_ready call poll_fut clone drop_svc drop_fut].
      - intros s. apply (ready_k H (snd s) (fun x => (fst s, x)) (fun s => osv (snd s))). reflexivity.
      - intros s r. bst; [apply Hcl |]. destruct a as [p1 saved]. kcall H. bst; [apply Hpc |]. kclone H.
        apply bal_ret; unfold KeepSpec.oretry; cbn; lia.
      - intros f. eapply bal_post; [apply retry_poll_k |]. intros [f1 [|[]]]; cbn; unfold none; lia.
      - intros s. bst; [apply Hpc |]. kclone H. bret.
      - intros s. apply (ho_drop_svc H).
      - intros f. unfold KeepSpec.oretry. cbv zeta. destruct (rf_state f) as [x|t|].
        + apply gone_two; [apply (ho_drop_svc H) | apply (ho_drop_fut H) | apply (ho_svc0 H) | apply (ho_fut0 H)].
        + apply gone_two; [apply (ho_drop_svc H) | apply gone_same, HT | apply (ho_svc0 H) | lia].
        + eapply gone_eq; [apply (ho_drop_svc H) | lia].
      - intros s. apply (ho_svc0 H).
      - intros f. unfold KeepSpec.oretry. destruct (rf_state f); klia H.
      - apply (ho_resp0 H).
    Qed.
  End Retry.

  Section Spawn.
    Context (bg : W -> W * nat) (Hbg : same live (fun w => fst (bg w))) (Hnp : forall s w, snd (poll_ready svc s w) <> Panic).
    Notation ospawn := (ospawn (svc := svc) osv).
    Lemma task_poll_k (t : rtask svc) : bal live (ospawn (SrFut t)) (task_poll t) (fun t1 => ospawn (SrFut t1)).
    Proof.
      intros w w1 t1 Hw E. unfold task_poll in E. destruct t as [s|r| |]; try (injection E as <- <-; lia).
      assert (X := ho_ready H s). assert (N := Hnp s w). specialize (X w). cbn [KeepSpec.ospawn] in Hw.
      destruct (poll_ready svc s w) as [w2 [[s1 [|[u|e]]]| |]]; try (injection E as <- <-); try discriminate.
      - specialize (X _ _ Hw eq_refl). cbn in *. lia.
      - specialize (X _ _ Hw eq_refl). cbn in *. lia.
      - specialize (X _ _ Hw eq_refl). cbn in X. cbn [KeepSpec.ospawn]. rewrite (ho_drop_svc H s1) by klia H. lia.
      - elim N. reflexivity.
    Qed.
    Lemma task_polls_k n : forall t : rtask svc, bal live (ospawn (SrFut t)) (task_polls n t) (fun t1 => ospawn (SrFut t1)).
    Proof.
      induction n as [|n IH]; intros t; cbn [task_polls]; [apply bal_ret; reflexivity |].
      eapply bal_bind; [apply task_poll_k | lia |]. intros t1. eapply bal_eq; [apply IH | lia].
    Qed.
    Lemma sr_ready_k fuel : forall s : sr_st svc, bal live (ospawn s) (sr_ready bg fuel s) (fun x => ospawn (fst x)).
    Proof.
      induction fuel as [|fuel IH]; intros s; [apply bal_diverge |]. cbn [sr_ready]. destruct s as [x|t].
      - cbn [KeepSpec.ospawn]. kready H. destruct p as [|r]; [eapply bal_eq; [apply IH | cbn; lia] | apply bal_ret; cbn; lia].
      - bst. { intros w. generalize (Hbg w). destruct (bg w). cbn. auto. }
        eapply bal_bind; [apply task_polls_k | lia |].
        intros [s|[s|e]| |]; [| | | | apply bal_panic]; cbn [KeepSpec.ospawn]; try (apply bal_ret; cbn; lia).
        eapply bal_eq; [apply IH | cbn; lia].
    Qed.
    Lemma spawn_ready_k fuel : holds live (spawn_ready svc bg fuel) ospawn (oopt own) none.
    Proof.
      constructor; cbn [spawn_ready poll_ready call poll_fut clone drop_svc drop_fut].
      - apply sr_ready_k.
      - intros s r. unfold sr_call. destruct s as [x|t]; [| apply bal_panic]. cbn [KeepSpec.ospawn].
        eapply bal_bind with (o := fun x : sr_st svc * fut svc => ospawn (fst x) + own (snd x)) (b := osv x); [kcall H; apply bal_ret; cbn; lia | lia |].
        intros [s1 f]. apply bal_ret. cbn. lia.
      - intros f. apply map_poll_k. intros r; apply still_ret.
      - intros s. apply bal_panic.
      - intros s. unfold sr_drop. destruct s as [x|[x|[x|e]| |]]; cbn; try apply (ho_drop_svc H); apply gone_id.
      - apply (map_drop_k H).
      - intros s. destruct s as [x|[x|[x|e]| |]]; cbn; try apply (ho_svc0 H); lia.
      - apply (opt0 H).
      - apply (ho_resp0 H).
    Qed.
  End Spawn.
  Lemma tracked_k C T (start : M W T) (finish : T -> C -> W -> C * W) (keep : Resp -> W -> W * bool) :
    still live start -> (forall t c, same live (fun w => snd (finish t c w))) -> (forall v, same live (fun w => fst (keep v w))) ->
    holds (fun x => live (snd x)) (tracked_load svc start finish keep) osv (fun f => own (tc_inner f)) none.
  Proof.
    intros Hs Hf Hk.
    assert (HL : forall A b (m : M W A) o, bal live b m o -> bal (fun x : arc (C := C) * W => live (snd x)) b (lift_w m) o).
    { intros A b m o Hm x x1 a Hx E. unfold lift_w in E. destruct (m (snd x)) as [w1 o1] eqn:E1. injection E as <- ->. exact (Hm _ _ _ Hx E1). }
    assert (HS : forall A (m : M W A), still live m -> still (fun x : arc (C := C) * W => live (snd x)) (lift_w m)).
    { intros A m Hm x. unfold lift_w. destruct (Hm (snd x)) as [E _]. destruct (m (snd x)). cbn in *. auto. }
    assert (HD : forall t, same (fun x : arc (C := C) * W => live (snd x)) (drop_handle finish t)).
    { intros t x. unfold drop_handle. generalize (Hf t (content (fst x)) (snd x)). destruct (finish t (content (fst x)) (snd x)). cbn. auto. }
    constructor; cbn [tracked_load poll_ready call poll_fut clone drop_svc drop_fut].
    - intros s. apply HL, (ho_ready H).
    - intros s r. unfold tl_call. apply bal_still.
      + unfold new_handle. apply still_bind; [apply HS, Hs | intros t]. apply still_bind; [| intros u; apply still_ret].
        apply still_modify. intros x. reflexivity.
      + intros t x x1 [s1 f] Hx E. assert (X := ho_call H s r (snd x)). destruct (call svc s r (snd x)) as [w1 [[s2 f2]| |]]; try discriminate.
        injection E as <- <- <-. specialize (X _ _ Hx eq_refl). cbn in *. lia.
    - intros f. unfold tc_poll. eapply bal_bind; [apply HL, (ho_poll H) | lia |]. intros [i a]. cbn [fst snd].
      destruct a as [|[v|e]]; [bret | | bret]. destruct (tc_handle f) as [t|]; [| apply bal_panic].
      bst. { apply HS. intros w. generalize (Hk v w). destruct (keep v w). cbn. auto. }
      destruct a; [bret |]. eapply bal_modify; [apply gone_same, HD | klia H |]. bret.
    - intros s. apply bal_panic.
    - intros s x Hx. exact (ho_drop_svc H s (snd x) Hx).
    - intros f x Hx. unfold tc_drop. destruct (tc_handle f) as [t|]; cbv zeta.
      + rewrite (HD t _). exact (ho_drop_fut H (tc_inner f) (snd x) Hx).
      + exact (ho_drop_fut H (tc_inner f) (snd x) Hx).
    - apply (ho_svc0 H).
    - intros f. apply (ho_fut0 H).
    - intros v. unfold none. lia.
  Qed.
End Plain.
