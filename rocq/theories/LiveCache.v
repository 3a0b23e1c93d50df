(** C66: ReadyCache and Balance. *)
From Verif Require Import Base Util Middleware ReadyCache MeterSpec MeterMore MeterCache LiveSpec LiveProof.
Set Implicit Arguments.

Lemma remove_nth_len A i : forall (l : list A) x, nth_error l i = Some x -> S (length (remove_nth i l)) = length l.
Proof.
  induction i as [|i IH]; intros [|y l] x E; try discriminate; [reflexivity |]. cbn. rewrite (IH l x E). reflexivity.
Qed.
Lemma set_nth_length A i x : forall l : list A, length (set_nth i x l) = length l.
Proof. induction i as [|i IH]; intros [|y l]; cbn; auto. Qed.
Lemma swap_remove_len A i (l l1 : list A) x : swap_remove i l = Some (x, l1) -> S (length l1) = length l.
Proof.
  unfold swap_remove. destruct (nth_error l i) as [y|] eqn:En; [| discriminate].
  destruct (rev l) as [|z t] eqn:Er; [discriminate |]. intros E. injection E as _ <-.
  assert (Hn : l <> []) by (intros ->; discriminate).
  assert (Hr : S (length (removelast l)) = length l).
  { rewrite (app_removelast_last x Hn) at 2. rewrite app_length. cbn. lia. }
  match goal with |- context [if ?b then _ else _] => destruct b end; [exact Hr | rewrite set_nth_length; exact Hr].
Qed.

Section Cache.
  Context {W K Req Resp Err : Type} (keq : forall a b : K, {a = b} + {a <> b}).
  Context (rdy : bool) (svc : Service W Req Resp Err) (R : st svc -> Prop) (H : Lively rdy svc R).
  Context (sched : nat -> W -> W * list nat).
  Notation cache := (cache (K := K) svc).
  Notation RP := (Forall (fun p : pend (K := K) svc => R (pd_svc p))).
  Notation RR := (Forall (fun x : K * (st svc * nat) => R (fst (snd x)))).
  Notation CRk := (@CR W K Req Resp Err svc R).

  Lemma evict_l (c : cache) x : CRk c -> gives (evict keq c x) (fun y => CRk (fst y)).
  Proof.
    intros [H1 H2]. unfold evict.
    destruct (match im_swap_remove keq x (rc_txs c) with Some _ => _ | None => _ end) as [[txs1 cn1] hit].
    destruct (im_swap_remove keq x (rc_ready c)) as [[[s t] ready1]|] eqn:E.
    - destruct (forall_im_swap_remove keq (fun v => R (fst v)) x (fun y Hy => Hy) H2 E) as [H3 H4].
      gb; [apply gives_mod |]. intros u _. gr. split; assumption.
    - gr. split; assumption.
  Qed.
  Lemma fu_poll_l cn order : forall l : list (pend (K := K) svc), RP l ->
    gives (fu_poll cn order l)
      (fun y => (RP (fst y) /\ match snd y with Some (PoReady _ s _) => R s | _ => True end) /\
                match snd y with Some _ => S (length (fst y)) = length l | None => length (fst y) = length l end).
  Proof.
    induction order as [|i order IH]; intros l Hl; cbn [fu_poll]; [gr; cbn; auto |].
    destruct (nth_error l i) as [p|] eqn:E; [| apply IH, Hl].
    assert (Hp : R (pd_svc p)) by exact (forall_nth _ Hl E).
    destruct (cn (pd_cancel p)).
    - gb; [apply gives_mod |]. intros u _. gr. cbn. eauto using forall_remove_nth, remove_nth_len.
    - gb; [apply (lv_ready H Hp) |]. intros [s1 a] H1. cbn in H1. destruct a as [|[u|e]].
      + eapply gives_mono; [apply IH; apply forall_set_nth; [exact Hl | exact H1] |]. intros y Hy. rewrite set_nth_length in Hy. exact Hy.
      + gr. cbn. eauto using forall_remove_nth, remove_nth_len.
      + gb; [apply gives_mod |]. intros u _. gr. cbn. eauto using forall_remove_nth, remove_nth_len.
  Qed.
  Lemma fu_poll_next_l (c : cache) : CRk c ->
    gives (fu_poll_next sched c)
      (fun y => (RP (fst y) /\ match snd y with Ready (Some (PoReady _ s _)) => R s | _ => True end) /\
                match snd y with Ready (Some _) => S (length (fst y)) = length (rc_pending c) | _ => length (fst y) = length (rc_pending c) end).
  Proof.
    intros [H1 H2]. unfold fu_poll_next. destruct (rc_pending c) as [|p l] eqn:Ep; [gr; cbn; auto |].
    gb; [apply gives_any |]. intros order _. gb; [apply (@fu_poll_l (is_canceled c) order (p :: l) H1) |]. intros [l1 o] Ho.
    gr. destruct o; cbn in *; exact Ho.
  Qed.
  Definition fewer (c : cache) (y : cache * poll (result unit (K * Err))) : Prop :=
    CRk (fst y) /\ match snd y with Ready (Er _) => length (rc_pending (fst y)) < length (rc_pending c) | _ => True end.
  Lemma poll_pending_loop_l fuel : forall c : cache, CRk c -> length (rc_pending c) < fuel ->
    gives (poll_pending_loop keq sched fuel c) (fewer c).
  Proof.
    induction fuel as [|fuel IH]; intros c Hc Hf; [lia |]. cbn [poll_pending_loop].
    gb; [apply (fu_poll_next_l Hc) |]. intros [l p] [[H1 H2] H3]. cbn [fst snd] in *.
    assert (Hgo : forall txs1 ready1, S (length l) = length (rc_pending c) -> RR ready1 ->
      gives (poll_pending_loop keq sched fuel (Cache l txs1 ready1 (rc_canceled c) (rc_fresh c))) (fewer c)).
    { intros txs1 ready1 Hl Hr. eapply gives_mono; [apply IH; [split; assumption | cbn; lia] |].
      intros [c1 [|[u|e]]] [H4 H5]; (split; [exact H4 |]); cbn in *; auto. lia. }
    destruct p as [|[[x s t|x|x e]|]].
    - gr. split; [split; [exact H1 | apply Hc] | exact I].
    - destruct (im_swap_remove keq x (rc_txs c)) as [[tx txs1]|]; [| apply gives_panic].
      destruct (im_insert keq x (s, tx) (rc_ready c)) as [ready1 old] eqn:Ei. gb; [apply gives_mod |]. intros u _. apply Hgo; [exact H3 |].
      refine (@forall_im_insert _ _ keq (fun v => R (fst v)) x (s, tx) _ _ _ (proj2 Hc) H2 Ei).
    - apply Hgo; [exact H3 | apply Hc].
    - destruct (im_swap_remove keq x (rc_txs c)) as [[tx txs1]|]; [| apply gives_panic].
      gr. split; [split; [exact H1 | apply Hc] |]. cbn. lia.
    - gr. split; [exact Hc | exact I].
  Qed.

  Lemma push_pending_ready (c : cache) x s t : rc_ready (push_pending keq c x s t) = rc_ready c.
  Proof. unfold push_pending. destruct (im_insert keq x t (rc_txs c)). reflexivity. Qed.
  Lemma check_ready_index_l (c : cache) i : CRk c ->
    gives (check_ready_index keq c i) (fun y => CRk (fst y) /\
      match snd y with Ok true => True | _ => i < length (rc_ready c) -> length (rc_ready (fst y)) < length (rc_ready c) end /\
      length (rc_ready (fst y)) <= length (rc_ready c)).
  Proof.
    intros Hc. unfold check_ready_index. destruct (nth_error (rc_ready c) i) as [[x [s t]]|] eqn:E.
    2: { gr. split; [exact Hc |]. cbn. split; [| lia]. apply nth_error_None in E. lia. }
    assert (Hs : R s) by exact (forall_nth _ (proj2 Hc) E).
    gb; [apply (lv_ready H Hs) |]. intros [s1 a] H1. cbn in H1. cbv zeta.
    assert (Hr1 : RR (set_nth i (x, (s1, t)) (rc_ready c))) by (apply forall_set_nth; [apply Hc | exact H1]).
    destruct a as [|[u|e]].
    - destruct (swap_remove i _) as [[[x2 [s2 t2]] ready2]|] eqn:Es; [| apply gives_panic].
      destruct (forall_swap_remove i Hr1 Es) as [H3 H4]. cbn in H3. apply swap_remove_len in Es. rewrite set_nth_length in Es.
      assert (Hc2 : CRk (Cache (rc_pending c) (rc_txs c) ready2 (rc_canceled c) (rc_fresh c))) by (split; [apply Hc | exact H4]).
      destruct (pending_contains keq _ x2).
      + gb; [apply gives_mod |]. intros u _. gr. split; [exact Hc2 |]. cbn [fst snd rc_ready]. lia.
      + gr. split; [apply push_pending_m; assumption |]. cbn [fst snd]. rewrite push_pending_ready. cbn [rc_ready]. lia.
    - gr. split; [split; [apply Hc | exact Hr1] |]. cbn. rewrite set_nth_length. lia.
    - destruct (swap_remove i _) as [[[x2 [s2 t2]] ready2]|] eqn:Es; [| apply gives_panic].
      destruct (forall_swap_remove i Hr1 Es) as [H3 H4]. apply swap_remove_len in Es. rewrite set_nth_length in Es.
      gb; [apply gives_mod |]. intros u _. gr. split; [split; [apply Hc | exact H4] |]. cbn [fst snd rc_ready]. lia.
  Qed.
  Lemma call_ready_index_l (c : cache) i r : CRk c ->
    gives (call_ready_index keq c i r) (fun y => CRk (fst y) /\ answers (poll_fut svc) (snd y)).
  Proof.
    intros Hc. unfold call_ready_index. destruct (swap_remove i (rc_ready c)) as [[[x [s t]] ready1]|] eqn:Es; [| apply gives_panic].
    destruct (forall_swap_remove i (proj2 Hc) Es) as [H3 H4]. cbn in H3.
    gb; [apply (lv_call H r H3) |]. intros [s1 f] [H1 H2]. cbn in H1, H2. cbv zeta.
    assert (Hc2 : CRk (Cache (rc_pending c) (rc_txs c) ready1 (rc_canceled c) (rc_fresh c))) by (split; [apply Hc | exact H4]).
    destruct (pending_contains keq _ x).
    - gb; [apply gives_mod |]. intros u _. gr. split; [exact Hc2 | exact H2].
    - gr. split; [apply push_pending_m; assumption | exact H2].
  Qed.
End Cache.

Section Balance.
  Context {W K Req Resp Err DErr Met G : Type} (keq : forall a b : K, {a = b} + {a <> b}).
  Context (rdy : bool) (svc : Service W Req Resp Err) (D : Discover W K (st svc) DErr).
  Context (R : st svc -> Prop) (H : Lively rdy svc R).
  Context (sched : nat -> W -> W * list nat).
  Context (next_u64 : G -> M W (G * Z)) (debug : bool) (load : st svc -> M W Met) (le : Met -> Met -> bool).
  Context (I0 : st svc -> Prop) (HI : forall s, I0 s -> R s).
  Context (VD : dst D -> Prop) (left : dst D -> nat) (fuel : nat) (Hleft : forall d, VD d -> left d < fuel).
  Context (HD : forall d, VD d -> gives (poll_discover D d)
       (fun x => VD (fst x) /\ match snd x with Ready (Some a) => left (fst x) < left d /\ match a with Ok (Insert _ s) => I0 s | _ => True end | _ => True end)).
  Context (Hg : forall g, gives (next_u64 g) (fun _ => True)) (Hl : forall s, gives (load s) (fun _ => True)).
  Notation CRk := (@CR W K Req Resp Err svc R).

  Lemma update_l n : forall d (c : cache (K := K) svc), VD d -> left d < n -> CRk c ->
    gives (update_from_discover keq D n d c) (fun y => VD (fst (fst y)) /\ CRk (snd (fst y))).
  Proof.
    induction n as [|n IH]; intros d c Hd Hn Hc; [lia |]. cbn [update_from_discover].
    gb; [apply (HD Hd) |]. intros [d1 p] [Hd1 H1]. cbn in Hd1, H1.
    destruct p as [|[[[x s|x]|e]|]]; try (gr; auto; fail).
    - apply IH; [exact Hd1 | lia |]. apply push_m; [exact Hc | apply HI, H1].
    - gb; [apply (evict_l keq x Hc) |]. intros [c1 b] H2. apply IH; [exact Hd1 | lia | exact H2].
  Qed.
  Lemma promote_l n : forall c : cache (K := K) svc, CRk c -> length (rc_pending c) < n -> gives (promote_loop keq sched debug n c) CRk.
  Proof.
    induction n as [|n IH]; intros c Hc Hn; [lia |]. cbn [promote_loop]. unfold poll_pending.
    gb; [apply (poll_pending_loop_l keq H sched Hc (le_n _)) |]. intros [c1 p] [H1 H2]. cbn in H1, H2.
    destruct p as [|[u|e]]; [| | apply IH; [exact H1 | lia]]; (destruct (debug && _); [apply gives_panic | gr; exact H1]).
  Qed.
  Lemma next_range_l g len : (0 < len)%Z -> gives (next_range next_u64 debug g 0 (len mod u64_mod)) (fun y => (0 <= snd y < len)%Z).
  Proof.
    intros Hlen. unfold next_range. destruct (debug && _); [apply gives_panic |]. cbv zeta. gb; [apply Hg |]. intros [g1 n] _.
    destruct (_ =? 0)%Z eqn:E0; [apply gives_panic |]. apply Z.eqb_neq in E0. gr. cbn [snd].
    rewrite Z.sub_0_r, Z.mod_mod in * by (unfold u64_mod; lia).
    assert (Hr : (0 < len mod u64_mod)%Z) by (generalize (Z.mod_pos_bound len u64_mod ltac:(unfold u64_mod; lia)); lia).
    generalize (Z.mod_pos_bound n (len mod u64_mod) Hr). intros Hn. rewrite Z.add_0_r.
    assert (Hle : (len mod u64_mod <= len)%Z) by (apply Z.mod_le; unfold u64_mod; lia).
    rewrite Z.mod_small; [lia |]. generalize (Z.mod_pos_bound len u64_mod ltac:(unfold u64_mod; lia)). lia.
  Qed.
  Lemma next_range_l2 g len : (0 < len)%Z -> gives (next_range next_u64 debug g 0 len) (fun y => (0 <= snd y < len)%Z).
  Proof.
    intros Hlen. unfold next_range. destruct (debug && _); [apply gives_panic |]. cbv zeta. gb; [apply Hg |]. intros [g1 n] _.
    destruct (_ =? 0)%Z eqn:E0; [apply gives_panic |]. apply Z.eqb_neq in E0. gr. cbn [snd].
    rewrite Z.sub_0_r in *.
    assert (Hr : (0 < len mod u64_mod)%Z) by (generalize (Z.mod_pos_bound len u64_mod ltac:(unfold u64_mod; lia)); lia).
    generalize (Z.mod_pos_bound n (len mod u64_mod) Hr). intros Hn. rewrite Z.add_0_r.
    assert (Hle : (len mod u64_mod <= len)%Z) by (apply Z.mod_le; unfold u64_mod; lia).
    rewrite Z.mod_small; [lia |]. generalize (Z.mod_pos_bound len u64_mod ltac:(unfold u64_mod; lia)). lia.
  Qed.
  Lemma p2c_l (c : cache (K := K) svc) g :
    gives (p2c_ready_index next_u64 debug load le c g) (fun y => match snd y with Some i => i < ready_len c | None => True end).
  Proof.
    assert (Hi : forall i, gives (ready_index_load load c i) (fun _ => True)).
    { intros i. unfold ready_index_load. destruct (get_ready_index c i) as [[x s]|]; [apply Hl | apply gives_panic]. }
    unfold p2c_ready_index. destruct (ready_len c) as [|[|n]] eqn:En; [gr; exact I | gr; cbn; lia |].
    apply gives_bind with (P := fun y => (0 <= fst (snd y) < Z.of_nat (S (S n)) /\ 0 <= snd (snd y) < Z.of_nat (S (S n)))%Z).
    - unfold sample_floyd2. destruct (debug && _); [apply gives_panic |].
      gb; [apply next_range_l; lia |]. intros [g1 a] Ha. gb; [apply next_range_l2; lia |]. intros [g2 b] Hb. gr. cbn [fst snd] in *.
      split; [| lia]. destruct (a =? b)%Z; [| lia].
      generalize (Z.mod_pos_bound (Z.of_nat (S (S n)) - 1) u64_mod ltac:(unfold u64_mod; lia)).
      generalize (Z.mod_le (Z.of_nat (S (S n)) - 1) u64_mod ltac:(lia) ltac:(unfold u64_mod; lia)). lia.
    - intros [g1 ab] Hab. cbv zeta. cbn [fst snd] in Hab. destruct (debug && _); [apply gives_panic |].
      gb; [apply Hi |]. intros la _. gb; [apply Hi |]. intros lb _. gr. cbn [snd]. destruct (le la lb); lia.
  Qed.
  Definition BalOk (s : balance_st (R := G) svc D) : Prop := VD (bl_disc s) /\ CRk (bl_cache s).
  Lemma balance_loop_l n : forall d (c : cache (K := K) svc) idx g, VD d -> CRk c ->
    length (rc_ready c) + (match idx with Some i => if i <? length (rc_ready c) then 2 else 3 | None => 3 end) <= n ->
    gives (balance_loop keq D next_u64 debug load le n d c idx g) (fun y => BalOk (fst y)).
  Proof.
    induction n as [|n IH]; intros d c idx g Hd Hc Hn; [destruct idx as [i|]; [destruct (i <? _) |]; lia |]. cbn [balance_loop].
    assert (Hsel : forall c, CRk c -> length (rc_ready c) + 2 <= n -> gives
       ('(g1, o) <- p2c_ready_index next_u64 debug load le c g ;;
          match o with
          | None =>
              if debug && negb (ready_len c =? 0) then panic
              else ret (BalSt d c None g1, Pending)
          | Some i => balance_loop keq D next_u64 debug load le n d c (Some i) g1
          end) (fun y => BalOk (fst y))).
    { intros c2 Hc2 Hn2. gb; [apply p2c_l |]. intros [g1 [i|]] Hi.
      - apply IH; [exact Hd | exact Hc2 |]. cbn [snd] in Hi. unfold ready_len in Hi. apply Nat.ltb_lt in Hi. rewrite Hi. exact Hn2.
      - destruct (debug && _); [apply gives_panic | gr; split; assumption]. }
    cbv zeta. destruct idx as [i|]; [| apply Hsel; [exact Hc | lia]].
    gb; [apply (check_ready_index_l keq H i Hc) |]. intros [c1 a] (H1 & H2 & H3). cbn [fst snd] in *.
    destruct a as [[|]|e]; [gr; split; assumption | |]; (apply Hsel; [exact H1 |]);
      (destruct (i <? length (rc_ready c)) eqn:Ei; [apply Nat.ltb_lt in Ei; specialize (H2 Ei); lia | lia]).
  Qed.
  Lemma balance_l : Lively false (balance keq svc D sched next_u64 debug load le fuel) BalOk.
  Proof.
    constructor; cbn [balance poll_ready call poll_fut clone].
    - intros s [Hd Hs]. gb; [apply (update_l Hd (Hleft Hd) Hs) |].
      intros [[d1 c1] e] [Hd1 H1]. cbn in Hd1, H1. destruct e as [x|]; [gr; split; assumption |].
      gb; [apply (promote_l H1); unfold promote_pending; apply le_n |]. intros c2 H2. apply balance_loop_l; [exact Hd1 | exact H2 |].
      destruct (bl_index s) as [i|]; [destruct (i <? _) |]; lia.
    - discriminate.
    - intros s r [Hd Hs]. destruct (bl_index s) as [i|]; [| apply gives_panic].
      gb; [apply (call_ready_index_l keq H i r Hs) |]. intros [c1 f] [H1 H2]. gr. split; [split; [exact Hd | exact H1] |].
      apply map_poll_reaches; [intros x; gr; exact I | exact H2].
    - intros s Hs. apply gives_panic.
  Qed.
End Balance.
