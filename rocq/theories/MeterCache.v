(** C64: ReadyCache and Balance. *)
From Verif Require Import Base Util Middleware ReadyCache MeterSpec MeterProof MeterMore.
Set Implicit Arguments.

Lemma forall_removelast A (P : A -> Prop) l : Forall P l -> Forall P (removelast l).
Proof.
  induction l as [|x l IH]; cbn; intros Hl; [constructor |]. inversion Hl as [|? ? H1 H2]; subst.
  destruct l as [|y l]; [constructor |]. constructor; [exact H1 | apply IH, H2].
Qed.
Lemma forall_swap_remove A (P : A -> Prop) i l x l1 : Forall P l -> swap_remove i l = Some (x, l1) -> P x /\ Forall P l1.
Proof.
  intros Hl. unfold swap_remove. destruct (nth_error l i) as [y|] eqn:En; [| discriminate].
  destruct (rev l) as [|z t] eqn:Er; [discriminate |]. intros E. injection E as <- <-. split; [eapply forall_nth; eassumption |].
  assert (Hz : P z). { rewrite Forall_forall in Hl. apply Hl. apply in_rev. rewrite Er. left. reflexivity. }
  match goal with |- context [if ?b then _ else _] => destruct b end; [apply forall_removelast, Hl | apply forall_set_nth; [apply forall_removelast, Hl | exact Hz]].
Qed.
Lemma forall_im_swap_remove K V (keq : forall a b : K, {a = b} + {a <> b}) (P : K * V -> Prop) (Q : V -> Prop) k l v l1 :
  (forall x, P x -> Q (snd x)) -> Forall P l -> im_swap_remove keq k l = Some (v, l1) -> Q v /\ Forall P l1.
Proof.
  intros HPQ Hl. unfold im_swap_remove. destruct (im_find keq k l) as [[i u]|]; [| discriminate].
  destruct (swap_remove i l) as [[x m]|] eqn:E; [| discriminate]. intros E1. injection E1 as <- <-.
  destruct (forall_swap_remove i Hl E). split; auto.
Qed.
Lemma forall_im_insert K V (keq : forall a b : K, {a = b} + {a <> b}) (Q : V -> Prop) k v l l1 o :
  Forall (fun x => Q (snd x)) l -> Q v -> im_insert keq k v l = (l1, o) -> Forall (fun x => Q (snd x)) l1.
Proof.
  revert l1 o. induction l as [|[k1 v1] l IH]; cbn; intros l1 o Hl Hv E.
  - injection E as <- <-. constructor; auto.
  - inversion Hl as [|? ? H1 H2]; subst. destruct (keq k1 k).
    + injection E as <- <-. constructor; auto.
    + destruct (im_insert keq k v l) as [m1 o1] eqn:E1. injection E as <- <-. constructor; auto. eapply IH; eauto.
Qed.
Lemma forall_remove_nth A (P : A -> Prop) i l : Forall P l -> Forall P (remove_nth i l).
Proof. revert i. induction l as [|x l IH]; intros [|i] Hl; cbn; auto; inversion Hl; subst; auto. Qed.

Section Cache.
  Context {W K Req Resp Err : Type} (keq : forall a b : K, {a = b} + {a <> b}) (calls : W -> nat) (k : nat).
  Context (svc : Service W Req Resp Err).
  Context (R : st svc -> Prop) (V : fut svc -> nat -> Prop) (H : Metered calls k svc R V).
  Context (sched : nat -> W -> W * list nat) (Hsch : forall l, same calls (fun w => fst (sched l w))).
  Notation cache := (cache (K := K) svc).
  Notation RP := (Forall (fun p : pend (K := K) svc => R (pd_svc p))).
  Notation RR := (Forall (fun x : K * (st svc * nat) => R (fst (snd x)))).
  Definition CR (c : cache) : Prop := RP (rc_pending c) /\ RR (rc_ready c).

  Lemma push_pending_m c x s t : CR c -> R s -> CR (push_pending keq c x s t).
  Proof.
    intros [H1 H2] HR. unfold push_pending. destruct (im_insert keq x t (rc_txs c)) as [txs old]. split; cbn; [| exact H2].
    apply Forall_app. split; [exact H1 | constructor; [exact HR | constructor]].
  Qed.
  Lemma push_m c x s : CR c -> R s -> CR (push keq c x s).
  Proof. intros Hc HR. exact (push_pending_m x (rc_fresh c) Hc HR). Qed.

  Lemma evict_m c x : CR c -> mok calls 0 (evict keq c x) (fun y n => CR (fst y) /\ n = 0).
  Proof.
    intros [H1 H2]. unfold evict.
    destruct (match im_swap_remove keq x (rc_txs c) with Some _ => _ | None => _ end) as [[txs1 cn1] hit].
    destruct (im_swap_remove keq x (rc_ready c)) as [[[s t] ready1]|] eqn:E.
    - destruct (forall_im_swap_remove keq (fun v => R (fst v)) x (fun y Hy => Hy) H2 E) as [H3 H4].
      mmod; [apply (mt_drop_svc H) |]. apply mok_ret with (n := 0); [split; [split; [exact H1 | exact H4] | reflexivity] | lia].
    - apply mok_ret with (n := 0); [split; [split; [exact H1 | exact H2] | reflexivity] | lia].
  Qed.

  Lemma fu_poll_m cn order : forall l, RP l ->
    mok calls 0 (fu_poll cn order l)
      (fun y n => (RP (fst y) /\ match snd y with Some (PoReady _ s _) => R s | _ => True end) /\ n = 0).
  Proof.
    induction order as [|i order IH]; intros l Hl; cbn [fu_poll]; [apply mok_ret with (n := 0); cbn; auto |].
    destruct (nth_error l i) as [p|] eqn:E; [| apply IH, Hl].
    assert (Hp : R (pd_svc p)) by exact (forall_nth _ Hl E).
    destruct (cn (pd_cancel p)).
    - mmod; [apply (mt_drop_svc H) |]. apply mok_ret with (n := 0); [| lia]. cbn. auto using forall_remove_nth.
    - eapply mok_bind with (c := 0); [apply (mt_ready H Hp) | lia |]. intros [s1 a] z [H1 ->]. cbn in H1.
      destruct a as [|[u|e]].
      + apply IH. apply forall_set_nth; [exact Hl | exact H1].
      + apply mok_ret with (n := 0); [| lia]. cbn. auto using forall_remove_nth.
      + mmod; [apply (mt_drop_svc H) |]. apply mok_ret with (n := 0); [| lia]. cbn. auto using forall_remove_nth.
  Qed.
  Lemma fu_poll_next_m c : CR c ->
    mok calls 0 (fu_poll_next sched c)
      (fun y n => (RP (fst y) /\ match snd y with Ready (Some (PoReady _ s _)) => R s | _ => True end) /\ n = 0).
  Proof.
    intros [H1 H2]. unfold fu_poll_next. destruct (rc_pending c) as [|p l] eqn:Ep; [apply mok_ret with (n := 0); cbn; auto |].
    mst. { intros w. generalize (Hsch (length (p :: l)) w). destruct (sched _ w). cbn. auto. }
    eapply mok_bind with (c := 0); [apply (@fu_poll_m (is_canceled c) a (p :: l) H1) | lia |]. intros [l1 o] z [[H3 H4] ->].
    apply mok_ret with (n := 0); [| lia]. destruct o; cbn in *; auto.
  Qed.
  Lemma poll_pending_loop_m fuel : forall c, CR c ->
    mok calls 0 (poll_pending_loop keq sched fuel c) (fun y n => CR (fst y) /\ n = 0).
  Proof.
    induction fuel as [|fuel IH]; intros c Hc; [apply mok_diverge |]. cbn [poll_pending_loop].
    eapply mok_bind with (c := 0); [apply (fu_poll_next_m Hc) | lia |]. intros [l p] z [[H1 H2] ->]. cbn in H1, H2.
    destruct p as [|[[x s t|x|x e]|]].
    - apply mok_ret with (n := 0); [split; [split; [exact H1 | apply Hc] | reflexivity] | lia].
    - destruct (im_swap_remove keq x (rc_txs c)) as [[tx txs1]|]; [| apply mok_panic].
      destruct (im_insert keq x (s, tx) (rc_ready c)) as [ready1 old] eqn:Ei. mmod.
      + destruct old as [[s0 t0]|]; [apply (mt_drop_svc H) | intros w; reflexivity].
      + apply IH. split; [exact H1 |]. cbn.
        refine (@forall_im_insert _ _ keq (fun v => R (fst v)) x (s, tx) _ _ _ (proj2 Hc) H2 Ei).
    - apply IH. split; [exact H1 | apply Hc].
    - destruct (im_swap_remove keq x (rc_txs c)) as [[tx txs1]|]; [| apply mok_panic].
      apply mok_ret with (n := 0); [split; [split; [exact H1 | apply Hc] | reflexivity] | lia].
    - apply mok_ret with (n := 0); [split; [exact Hc | reflexivity] | lia].
  Qed.

  Lemma check_ready_index_m c i : CR c -> mok calls 0 (check_ready_index keq c i) (fun y n => CR (fst y) /\ n = 0).
  Proof.
    intros Hc. unfold check_ready_index. destruct (nth_error (rc_ready c) i) as [[x [s t]]|] eqn:E;
      [| apply mok_ret with (n := 0); auto].
    assert (Hs : R s) by exact (forall_nth _ (proj2 Hc) E).
    eapply mok_bind with (c := 0); [apply (mt_ready H Hs) | lia |]. intros [s1 a] z [H1 ->]. cbn in H1. cbv zeta.
    assert (Hr1 : RR (set_nth i (x, (s1, t)) (rc_ready c))) by (apply forall_set_nth; [apply Hc | exact H1]).
    destruct a as [|[u|e]].
    - destruct (swap_remove i _) as [[[x2 [s2 t2]] ready2]|] eqn:Es; [| apply mok_panic].
      destruct (forall_swap_remove i Hr1 Es) as [H3 H4]. cbn in H3.
      assert (Hc2 : CR (Cache (rc_pending c) (rc_txs c) ready2 (rc_canceled c) (rc_fresh c))) by (split; [apply Hc | exact H4]).
      destruct (pending_contains keq _ x2).
      + mmod; [apply (mt_drop_svc H) |]. apply mok_ret with (n := 0); auto.
      + apply mok_ret with (n := 0); [split; [apply push_pending_m; assumption | reflexivity] | lia].
    - apply mok_ret with (n := 0); [split; [split; [apply Hc | exact Hr1] | reflexivity] | lia].
    - destruct (swap_remove i _) as [[[x2 [s2 t2]] ready2]|] eqn:Es; [| apply mok_panic].
      destruct (forall_swap_remove i Hr1 Es) as [H3 H4].
      mmod; [apply (mt_drop_svc H) |]. apply mok_ret with (n := 0); [split; [split; [apply Hc | exact H4] | reflexivity] | lia].
  Qed.
  Lemma call_ready_index_m c i r : CR c ->
    mok calls k (call_ready_index keq c i r) (fun y n => CR (fst y) /\ V (snd y) n).
  Proof.
    intros Hc. unfold call_ready_index. destruct (swap_remove i (rc_ready c)) as [[[x [s t]] ready1]|] eqn:Es; [| apply mok_panic].
    destruct (forall_swap_remove i (proj2 Hc) Es) as [H3 H4]. cbn in H3.
    eapply mok_bind with (c := 0); [apply (mt_call H r H3) | lia |]. intros [s1 f] m [H1 H2]. cbn in H1, H2. cbv zeta.
    assert (Hc2 : CR (Cache (rc_pending c) (rc_txs c) ready1 (rc_canceled c) (rc_fresh c))) by (split; [apply Hc | exact H4]).
    destruct (pending_contains keq _ x).
    - mmod; [apply (mt_drop_svc H) |]. apply mok_ret with (n := m); [split; [exact Hc2 | exact H2] | lia].
    - apply mok_ret with (n := m); [split; [apply push_pending_m; assumption | exact H2] | lia].
  Qed.
  Lemma cache_drop_m (c : cache) : same calls (cache_drop c).
  Proof.
    intros w. unfold cache_drop.
    rewrite (@drop_all_m _ calls _ (fun x : K * (st svc * nat) => drop_svc svc (fst (snd x))) (rc_ready c) (fun x => mt_drop_svc H _) _).
    apply (@drop_all_m _ calls _ (fun p : pend (K := K) svc => drop_svc svc (pd_svc p)) (rc_pending c) (fun x => mt_drop_svc H _)).
  Qed.
End Cache.

Section Balance.
  Context {W K Req Resp Err DErr Met G : Type} (keq : forall a b : K, {a = b} + {a <> b}) (calls : W -> nat) (k : nat).
  Context (svc : Service W Req Resp Err) (D : Discover W K (st svc) DErr).
  Context (R : st svc -> Prop) (V : fut svc -> nat -> Prop) (H : Metered calls k svc R V).
  Context (sched : nat -> W -> W * list nat) (Hsch : forall l, same calls (fun w => fst (sched l w))).
  Context (next_u64 : G -> M W (G * Z)) (debug : bool) (load : st svc -> M W Met) (le : Met -> Met -> bool).
  Context (I : st svc -> Prop) (HI : forall s, I s -> R s).
  Context (VD : dst D -> Prop) (HD : forall d, VD d -> leaves calls (poll_discover D d)
       (fun x => VD (fst x) /\ match snd x with Ready (Some (Ok (Insert _ s))) => I s | _ => True end)).
  Context (HDd : forall d, same calls (ddrop D d)).
  Context (Hg : forall g, still calls (next_u64 g)) (Hl : forall s, still calls (load s)).
  Notation CRk := (@CR W K Req Resp Err svc R).

  Lemma update_m fuel : forall d c, VD d -> CRk c ->
    mok calls 0 (update_from_discover keq D fuel d c) (fun y n => (VD (fst (fst y)) /\ CRk (snd (fst y))) /\ n = 0).
  Proof.
    induction fuel as [|fuel IH]; intros d c Hd Hc; [apply mok_diverge |]. cbn [update_from_discover].
    eapply mok_bind with (c := 0); [apply (mok_leaves 0 (HD Hd)) | lia |]. intros [d1 p] z [[Hd1 H1] ->]. cbn in Hd1, H1.
    destruct p as [|[[[x s|x]|e]|]]; try (apply mok_ret with (n := 0); auto; fail).
    - apply IH; [exact Hd1 |]. apply push_m; auto.
    - eapply mok_bind with (c := 0); [apply (evict_m keq H x Hc) | lia |]. intros [c1 b] z [H2 ->]. apply IH; [exact Hd1 | exact H2].
  Qed.
  Lemma promote_m fuel : forall c, CRk c ->
    mok calls 0 (promote_loop keq sched debug fuel c) (fun y n => CRk y /\ n = 0).
  Proof.
    induction fuel as [|fuel IH]; intros c Hc; [apply mok_diverge |]. cbn [promote_loop].
    unfold poll_pending.
    eapply mok_bind with (c := 0); [apply (poll_pending_loop_m keq H sched Hsch _ Hc) | lia |]. intros [c1 p] z [H1 ->].
    destruct p as [|[u|e]]; [| | apply IH, H1].
    - destruct (debug && _); [apply mok_panic | apply mok_ret with (n := 0); auto].
    - destruct (debug && _); [apply mok_panic | apply mok_ret with (n := 0); auto].
  Qed.
  Lemma next_range_still g a b : still calls (next_range next_u64 debug g a b).
  Proof.
    unfold next_range. destruct (debug && _); [apply still_panic |]. cbv zeta. apply still_bind; [apply Hg | intros [g1 n]].
    destruct (_ =? 0)%Z; [apply still_panic | apply still_ret].
  Qed.
  Lemma p2c_still (c : cache (K := K) svc) g : still calls (p2c_ready_index next_u64 debug load le c g).
  Proof.
    assert (Hi : forall i, still calls (ready_index_load load c i)).
    { intros i. unfold ready_index_load. destruct (get_ready_index c i) as [[x s]|]; [apply Hl | apply still_panic]. }
    unfold p2c_ready_index. destruct (ready_len c) as [|[|n]]; try apply still_ret.
    apply still_bind.
    - unfold sample_floyd2. destruct (debug && _); [apply still_panic |]. apply still_bind; [apply next_range_still | intros [g1 a]].
      apply still_bind; [apply next_range_still | intros [g2 b]; apply still_ret].
    - intros [g1 ab]. cbv zeta. destruct (debug && _); [apply still_panic |].
      apply still_bind; [apply Hi | intros la]. apply still_bind; [apply Hi | intros lb; apply still_ret].
  Qed.
  Lemma balance_loop_m fuel : forall d c idx g, VD d -> CRk c ->
    mok calls 0 (balance_loop keq D next_u64 debug load le fuel d c idx g)
      (fun y n => (VD (bl_disc (fst y)) /\ CRk (bl_cache (fst y))) /\ n = 0).
  Proof.
    induction fuel as [|fuel IH]; intros d c idx g Hd Hc; [apply mok_diverge |]. cbn [balance_loop].
    assert (Hsel : forall c, CRk c -> mok calls 0
       ('(g1, o) <- p2c_ready_index next_u64 debug load le c g ;;
          match o with
          | None =>
              if debug && negb (ready_len c =? 0) then panic
              else ret (BalSt d c None g1, Pending)
          | Some i => balance_loop keq D next_u64 debug load le fuel d c (Some i) g1
          end) (fun y n => (VD (bl_disc (fst y)) /\ CRk (bl_cache (fst y))) /\ n = 0)).
    { intros c2 Hc2. mst; [apply p2c_still |]. destruct a as [g1 [i|]]; [apply IH; assumption |].
      destruct (debug && _); [apply mok_panic | apply mok_ret with (n := 0); auto]. }
    cbv zeta. destruct idx as [i|]; [| apply Hsel, Hc].
    eapply mok_bind with (c := 0); [apply (check_ready_index_m keq H i Hc) | lia |]. intros [c1 a] z [H1 ->]. cbn in H1.
    destruct a as [[|]|e]; [apply mok_ret with (n := 0); auto | apply Hsel, H1 | apply Hsel, H1].
  Qed.
  Lemma balance_m fuel : Metered calls k (balance keq svc D sched next_u64 debug load le fuel)
    (fun s => VD (bl_disc s) /\ CRk (bl_cache s)) (@Vopt _ _ _ _ svc V).
  Proof.
    constructor; cbn [balance poll_ready call poll_fut clone drop_svc drop_fut].
    - intros s [Hd Hs]. eapply mok_bind with (c := 0); [apply (update_m fuel Hd Hs) | lia |].
      intros [[d1 c1] e] z [[Hd1 H1] ->]. cbn in Hd1, H1. destruct e as [x|]; [apply mok_ret with (n := 0); auto |].
      eapply mok_bind with (c := 0); [apply (promote_m _ H1) | lia |]. intros c2 z [H2 ->]. apply balance_loop_m; assumption.
    - intros s r [Hd Hs]. destruct (bl_index s) as [i|]; [| apply mok_panic].
      eapply mok_bind with (c := 0); [apply (call_ready_index_m keq H i r Hs) | lia |]. intros [c1 f] m [H1 H2].
      apply mok_ret with (n := m); [split; [split; [exact Hd | exact H1] | exact H2] | lia].
    - intros f n Hf. apply (map_poll_mok H); [intros r; apply still_ret | exact Hf].
    - intros s Hs. apply mok_panic.
    - intros s w. rewrite (cache_drop_m H (bl_cache s) _). apply HDd.
    - intros f. apply (map_drop_mok H).
  Qed.
End Balance.
