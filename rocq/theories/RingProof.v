(** ReadyCache never loses a wake-up: the invariant. *)
From Coq Require Import Permutation.
From Verif Require Import Base Middleware ReadyCache CacheProof WakeCache RingSpec.
Set Implicit Arguments.

Section Proof.
  Context {W K Req Resp Err : Type} (keq : forall a b : K, {a = b} + {a <> b}).
  Context (svc : Service W Req Resp Err).
  Notation wcache := (wcache (K := K) svc).
  Notation wtask := (wtask (K := K) svc).
  Notation rentry := (K * (nat * st svc * nat))%type.

  Definition rsid (x : rentry) : nat := fst (fst (snd x)).
  Definition rpair (x : rentry) : nat := snd (snd x).
  Definition sids_of (ts : list wtask) (rs : list rentry) : list nat := map (@wt_sid _ _ _ _ _ svc) ts ++ map rsid rs.
  Definition pairs_of (ts : list wtask) (rs : list rentry) : list nat := map (@wt_pair _ _ _ _ _ svc) ts ++ map rpair rs.
  Definition child_polled (log : list wevent) : Prop := exists i t b, In (EPoll i (WkChild t) b) log.

  (** What holds of a child that is not queued. *)
  Definition settled (log : list wevent) (i : windex (K := K) svc) (p : wtask) : Prop :=
    waiting log (wt_sid p) (WkChild (wt_id p)) /\ ~ In (wt_pair p) (ix_canceled i) /\ find_reg (wt_pair p) (ix_regs i) = Some (wt_id p).

  Record Inv (ts : list wtask) (q : list nat) (nx : nat) (par : bool) (i : windex (K := K) svc) (wk : bool) (log : list wevent) : Prop := {
    v_ids : NoDup (map (@wt_id _ _ _ _ _ svc) ts);
    v_lt : forall p, In p ts -> wt_id p < nx;
    v_qd : NoDup q;
    v_ql : forall t, In t q -> t < nx;
    v_sid : NoDup (sids_of ts (ix_ready i));
    v_sidlt : forall x, In x (sids_of ts (ix_ready i)) -> x < ix_sids i;
    v_pair : NoDup (pairs_of ts (ix_ready i));
    v_pairlt : forall x, In x (pairs_of ts (ix_ready i)) -> x < ix_fresh i;
    v_tx : NoDup (map fst (ix_txs i));
    v_act : forall p, In p ts -> ~ In (wt_pair p) (ix_canceled i) -> In (wt_key p, wt_pair p) (ix_txs i);
    v_wait : forall p, In p ts -> In (wt_id p) q \/ settled log i p;
    v_own : forall p t, In p ts -> waiting log (wt_sid p) (WkChild t) -> t = wt_id p /\ ~ In t q;
    v_rdy : forall x t, In x (ix_ready i) -> ~ waiting log (rsid x) (WkChild t);
    v_log : forall j k b, In (EPoll j k b) log -> j < ix_sids i;
    v_par : child_polled log -> par = true \/ wk = true }.
  Definition winv (c : wcache) : Prop :=
    Inv (fu_tasks (wc_fu c)) (fu_queue (wc_fu c)) (fu_next (wc_fu c)) (fu_parent (wc_fu c)) (wc_ix c) (wc_woken c) (wc_log c).

  Lemma memn_in t l : memn t l = true <-> In t l.
  Proof.
    unfold memn. rewrite existsb_exists. split.
    - intros (x & H & E). apply Nat.eqb_eq in E. now subst.
    - intros H. exists t. split; [exact H|apply Nat.eqb_refl].
  Qed.
  Lemma memn_not t l : memn t l = false <-> ~ In t l.
  Proof. rewrite <- memn_in. destruct (memn t l); split; congruence. Qed.
  Lemma live_in t (ts : list wtask) : live t ts = true <-> exists p, In p ts /\ wt_id p = t.
  Proof. unfold live. rewrite memn_in, in_map_iff. split; intros (p & A & B); exists p; tauto. Qed.
  Lemma waiting_polled log i k : waiting log i k -> exists b, In (EPoll i k b) log.
  Proof.
    induction log as [|[j k' b|k'|a] l IH]; cbn; [tauto| | |].
    - destruct (Nat.eqb_spec j i) as [->|N].
      + intros [-> ->]. exists true. now left.
      + intros H. destruct (IH H) as (b' & Hb). exists b'. now right.
    - intros [_ H]. destruct (IH H) as (b' & Hb). exists b'. now right.
    - intros H. destruct (IH H) as (b' & Hb). exists b'. now right.
  Qed.

  Lemma winv_new : winv (wcache_new svc).
  Proof.
    constructor; cbn; try solve [constructor]; try tauto.
    all: try (intros; contradiction).
    intros (i & t & b & []).
  Qed.

  (** *** Firing a waker *)
  Lemma Inv_log_ring ts q nx par i wk log k :
    (forall p, In p ts -> k = WkChild (wt_id p) -> In (wt_id p) q) ->
    Inv ts q nx par i wk log -> Inv ts q nx par i wk (ERing k :: log).
  Proof.
    intros Hk H. constructor; try (apply H).
    - intros p Hp. destruct (v_wait H p Hp) as [A|(A & B & C)]; [now left|].
      destruct k as [|t]; [right; split; [cbn; split; [discriminate|exact A]|auto]|].
      destruct (Nat.eq_dec t (wt_id p)) as [->|N]; [left; now apply Hk|].
      right. split; [cbn; split; [congruence|exact A]|auto].
    - intros p t Hp [_ A]. apply (v_own H); auto.
    - intros x t Hx [_ A]. exact (v_rdy H _ _ Hx A).
    - intros j k' b [A|A]; [discriminate|]. exact (v_log H _ _ _ A).
    - intros (j & t & b & [A|A]); [discriminate|]. apply (v_par H). now exists j, t, b.
  Qed.
  Lemma Inv_woken ts q nx par i wk log : Inv ts q nx par i wk log -> Inv ts q nx par i true log.
  Proof. intros H. constructor; try (apply H). now right. Qed.
  Lemma NoDup_snoc A (l : list A) x : NoDup l -> ~ In x l -> NoDup (l ++ [x]).
  Proof. intros N H. eapply Permutation_NoDup; [apply Permutation_cons_append|]. now constructor. Qed.
  Lemma Inv_enqueue ts q nx par i wk log t : ~ In t q -> t < nx ->
    Inv ts q nx par i wk log -> Inv ts (q ++ [t]) nx false i (wk || par) (ERing (WkChild t) :: log).
  Proof.
    intros Nq Lt H. constructor; try (apply H).
    - apply NoDup_snoc; [apply H|exact Nq].
    - intros t' Ht'. apply in_app_or in Ht' as [Ht'|[<-|[]]]; [now apply (v_ql H)|exact Lt].
    - intros p Hp. destruct (Nat.eq_dec t (wt_id p)) as [->|N]; [left; apply in_or_app; right; now left|].
      destruct (v_wait H p Hp) as [A|(A & B & C)]; [left; apply in_or_app; now left|].
      right. split; [cbn; split; [congruence|exact A]|auto].
    - intros p t' Hp [N A]. destruct (v_own H p t' Hp A) as [-> B]. split; [reflexivity|]. intros X. apply in_app_or in X as [X|[X|[]]]; [tauto|congruence].
    - intros x t' Hx [_ A]. exact (v_rdy H _ _ Hx A).
    - intros j k' b [A|A]; [discriminate|]. exact (v_log H _ _ _ A).
    - intros (j & t' & b & [A|A]); [discriminate|]. right. destruct (v_par H) as [->| ->]; [now exists j, t', b| |reflexivity]. apply orb_true_r.
  Qed.
  Lemma winv_ring k (c : wcache) : winv c -> winv (ring k c).
  Proof.
    intros H. destruct k as [|t]; cbn [ring].
    - apply Inv_log_ring; [intros p _ E; discriminate|]. exact (Inv_woken H).
    - destruct (live t (fu_tasks (wc_fu c)) && negb (memn t (fu_queue (wc_fu c)))) eqn:E.
      + apply andb_true_iff in E as [E1 E2]. apply live_in in E1 as (p & Hp & <-). apply negb_true_iff, memn_not in E2.
        exact (Inv_enqueue E2 (v_lt H _ Hp) H).
      + apply Inv_log_ring; [|exact H]. intros p Hp Et. injection Et as ->. apply andb_false_iff in E as [E|E].
        * assert (X : live (wt_id p) (fu_tasks (wc_fu c)) = true) by (apply live_in; now exists p). congruence.
        * apply negb_false_iff, memn_in in E. exact E.
  Qed.
  Lemma winv_rings l : forall c : wcache, winv c -> winv (ring_all l c).
  Proof. induction l as [|k l IH]; intros c H; [exact H|]. cbn. apply IH, winv_ring, H. Qed.

  (** Firing wakers changes neither the maps nor the children. *)
  Lemma ring_ix k (c : wcache) : wc_ix (ring k c) = wc_ix c.
  Proof. destruct k as [|t]; cbn; [reflexivity|]. destruct (_ && _); reflexivity. Qed.
  Lemma ring_tasks k (c : wcache) : fu_tasks (wc_fu (ring k c)) = fu_tasks (wc_fu c).
  Proof. destruct k as [|t]; cbn; [reflexivity|]. destruct (_ && _); reflexivity. Qed.
  Lemma rings_ix l : forall c : wcache, wc_ix (ring_all l c) = wc_ix c.
  Proof. induction l as [|k l IH]; intros c; [reflexivity|]. change (ring_all (k :: l) c) with (ring_all l (ring k c)). rewrite IH. apply ring_ix. Qed.
  Lemma rings_tasks l : forall c : wcache, fu_tasks (wc_fu (ring_all l c)) = fu_tasks (wc_fu c).
  Proof. induction l as [|k l IH]; intros c; [reflexivity|]. change (ring_all (k :: l) c) with (ring_all l (ring k c)). rewrite IH. apply ring_tasks. Qed.

  (** *** Canceling *)
  Lemma find_reg_del x y l : find_reg y (del_reg x l) = if x =? y then None else find_reg y l.
  Proof.
    induction l as [|[z t] l IH]; cbn; [destruct (x =? y); reflexivity|].
    destruct (Nat.eqb_spec z x) as [->|N]; cbn.
    - destruct (Nat.eqb_spec x y) as [->|N2]; [|exact IH]. exact IH.
    - destruct (Nat.eqb_spec z y) as [->|N2]; [|exact IH]. destruct (Nat.eqb_spec x y); [congruence|reflexivity].
  Qed.
  Lemma winv_cancel x (c : wcache) : winv c -> winv (cancel x c).
  Proof.
    intros H. unfold cancel. set (i := wc_ix c).
    set (i1 := Ix (ix_txs i) (ix_ready i) (x :: ix_canceled i) (del_reg x (ix_regs i)) (ix_fresh i) (ix_sids i)).
    assert (Base : forall q par wk log, (forall p, In p (fu_tasks (wc_fu c)) -> wt_pair p = x -> In (wt_id p) q) ->
      Inv (fu_tasks (wc_fu c)) q (fu_next (wc_fu c)) par i wk log -> Inv (fu_tasks (wc_fu c)) q (fu_next (wc_fu c)) par i1 wk log).
    { intros q par wk log Hx V. constructor; try (apply V).
      - intros p Hp N. apply (v_act V p Hp). intros X. apply N. now right.
      - intros p Hp. destruct (v_wait V p Hp) as [A|(A & B & C)]; [now left|].
        destruct (Nat.eq_dec (wt_pair p) x) as [E|N]; [left; auto|]. right. split; [exact A|]. split.
        + intros [X|X]; [congruence|tauto].
        + cbn. rewrite find_reg_del. destruct (Nat.eqb_spec x (wt_pair p)); [congruence|exact C]. }
    destruct (find_reg x (ix_regs i)) as [t|] eqn:E.
    - cbn [ring]. cbn [with_ix wc_fu wc_ix wc_woken wc_log].
      assert (Hx : forall p, In p (fu_tasks (wc_fu c)) -> wt_pair p = x -> In (wt_id p) (fu_queue (wc_fu c)) \/ wt_id p = t).
      { intros p Hp Ep. destruct (v_wait H p Hp) as [A|(A & B & C)]; [now left|]. right. rewrite Ep in C. fold i in C. congruence. }
      destruct (live t (fu_tasks (wc_fu c)) && negb (memn t (fu_queue (wc_fu c)))) eqn:El.
      + unfold winv. cbn [logged wc_fu fu_tasks fu_queue fu_next fu_parent wc_ix wc_woken wc_log]. assert (El' := El). apply andb_true_iff in El' as [E1 E2].
        apply live_in in E1 as (p0 & Hp0 & E1). apply negb_true_iff, memn_not in E2.
        apply Base; [|apply (Inv_enqueue E2); [rewrite <- E1; exact (v_lt H _ Hp0)|exact H]].
        intros p Hp Ep. apply in_or_app. destruct (Hx p Hp Ep) as [A| ->]; [now left|right; now left].
      + unfold winv. cbn [logged with_ix wc_fu fu_tasks fu_queue fu_next fu_parent wc_ix wc_woken wc_log].
        assert (Ht : forall p, In p (fu_tasks (wc_fu c)) -> wt_id p = t -> In (wt_id p) (fu_queue (wc_fu c))).
        { intros p Hp Et. apply andb_false_iff in El as [El|El].
          - assert (X : live t (fu_tasks (wc_fu c)) = true) by (apply live_in; now exists p). congruence.
          - apply negb_false_iff, memn_in in El. congruence. }
        apply Base.
        * intros p Hp Ep. destruct (Hx p Hp Ep) as [A|A]; auto.
        * apply Inv_log_ring; [|exact H]. intros p Hp Et. injection Et as ->. now apply Ht.
    - apply Base; [|exact H]. intros p Hp Ep. destruct (v_wait H p Hp) as [A|(A & B & C)]; [exact A|]. rewrite Ep in C. fold i in C. congruence.
  Qed.
  Lemma cancel_tasks x (c : wcache) : fu_tasks (wc_fu (cancel x c)) = fu_tasks (wc_fu c).
  Proof. unfold cancel. destruct (find_reg x _); [rewrite ring_tasks|]; reflexivity. Qed.
  Lemma cancel_maps x (c : wcache) : ix_txs (wc_ix (cancel x c)) = ix_txs (wc_ix c) /\ ix_ready (wc_ix (cancel x c)) = ix_ready (wc_ix c) /\
    ix_canceled (wc_ix (cancel x c)) = x :: ix_canceled (wc_ix c) /\ ix_fresh (wc_ix (cancel x c)) = ix_fresh (wc_ix c) /\ ix_sids (wc_ix (cancel x c)) = ix_sids (wc_ix c).
  Proof. unfold cancel. destruct (find_reg x _); [rewrite ring_ix|]; cbn; auto. Qed.

  (** *** The maps *)
  Lemma cancel_set_maps x txs rd (c : wcache) : cancel x (set_maps txs rd c) = set_maps txs rd (cancel x c).
  Proof.
    destruct c as [f [a b cn rg fr sd] wk lg]. unfold cancel. cbn [wc_ix set_maps with_ix ix_regs].
    destruct (find_reg x rg) as [t|]; [|reflexivity]. cbn [ring with_ix wc_fu wc_ix wc_woken wc_log ix_txs ix_ready ix_canceled ix_regs ix_fresh ix_sids set_maps].
    destruct (_ && _); reflexivity.
  Qed.
  Lemma Inv_maps ts q nx par i wk log txs' r' : Inv ts q nx par i wk log ->
    NoDup (map fst txs') -> (forall p, In p ts -> ~ In (wt_pair p) (ix_canceled i) -> In (wt_key p, wt_pair p) txs') ->
    NoDup (sids_of ts r') -> (forall x, In x (map rsid r') -> x < ix_sids i) ->
    NoDup (pairs_of ts r') -> (forall x, In x (map rpair r') -> x < ix_fresh i) ->
    (forall x t, In x r' -> ~ waiting log (rsid x) (WkChild t)) ->
    Inv ts q nx par (Ix txs' r' (ix_canceled i) (ix_regs i) (ix_fresh i) (ix_sids i)) wk log.
  Proof.
    intros H A1 A2 A3 A4 A5 A6 A7. constructor; try (apply H); auto.
    - intros x Hx. apply in_app_or in Hx as [Hx|Hx]; [|auto]. apply (v_sidlt H). apply in_or_app. now left.
    - intros x Hx. apply in_app_or in Hx as [Hx|Hx]; [|auto]. apply (v_pairlt H). apply in_or_app. now left.
  Qed.
  Lemma Inv_txs ts q nx par i wk log txs' : Inv ts q nx par i wk log ->
    NoDup (map fst txs') -> (forall p, In p ts -> ~ In (wt_pair p) (ix_canceled i) -> In (wt_key p, wt_pair p) txs') ->
    Inv ts q nx par (Ix txs' (ix_ready i) (ix_canceled i) (ix_regs i) (ix_fresh i) (ix_sids i)) wk log.
  Proof.
    intros H A1 A2. apply Inv_maps; auto; try (apply H).
    - intros x Hx. apply (v_sidlt H). apply in_or_app. now right.
    - intros x Hx. apply (v_pairlt H). apply in_or_app. now right.
  Qed.
  (** A service that belongs to nobody. *)
  Definition loose (ts : list wtask) (i : windex (K := K) svc) (log : list wevent) (sid x : nat) : Prop :=
    ~ In sid (sids_of ts (ix_ready i)) /\ sid < ix_sids i /\ ~ In x (pairs_of ts (ix_ready i)) /\ x < ix_fresh i /\
    forall t, ~ waiting log sid (WkChild t).
  Lemma Inv_unready ts q nx par i wk log e r' : Inv ts q nx par i wk log -> Permutation (ix_ready i) (e :: r') ->
    Inv ts q nx par (Ix (ix_txs i) r' (ix_canceled i) (ix_regs i) (ix_fresh i) (ix_sids i)) wk log /\
    loose ts (Ix (ix_txs i) r' (ix_canceled i) (ix_regs i) (ix_fresh i) (ix_sids i)) log (rsid e) (rpair e).
  Proof.
    intros H P.
    assert (S1 : Permutation (sids_of ts (ix_ready i)) (rsid e :: sids_of ts r')).
    { unfold sids_of. rewrite (Permutation_map rsid P). cbn. symmetry. apply Permutation_middle. }
    assert (P1 : Permutation (pairs_of ts (ix_ready i)) (rpair e :: pairs_of ts r')).
    { unfold pairs_of. rewrite (Permutation_map rpair P). cbn. symmetry. apply Permutation_middle. }
    assert (N1 := Permutation_NoDup S1 (v_sid H)). assert (N2 := Permutation_NoDup P1 (v_pair H)).
    assert (L1 : forall x, In x (rsid e :: sids_of ts r') -> x < ix_sids i).
    { intros x Hx. apply (v_sidlt H). eapply Permutation_in; [symmetry; exact S1|exact Hx]. }
    assert (L2 : forall x, In x (rpair e :: pairs_of ts r') -> x < ix_fresh i).
    { intros x Hx. apply (v_pairlt H). eapply Permutation_in; [symmetry; exact P1|exact Hx]. }
    inversion N1 as [|? ? M1 M2]; subst. inversion N2 as [|? ? M3 M4]; subst.
    assert (Hin : forall x, In x (e :: r') -> In x (ix_ready i)) by (intros x Hx; eapply Permutation_in; [symmetry; exact P|exact Hx]).
    split.
    - apply Inv_maps; auto; try (apply H).
      + intros x Hx. apply L1. right. apply in_or_app. now right.
      + intros x Hx. apply L2. right. apply in_or_app. now right.
      + intros x t Hx. apply (v_rdy H). apply Hin. now right.
    - repeat split; cbn; auto.
      + apply L1. now left.
      + apply L2. now left.
      + intros t. apply (v_rdy H). apply Hin. now left.
  Qed.
  Lemma in_snoc A (x y : A) l : In x (l ++ [y]) <-> In x l \/ x = y.
  Proof. rewrite in_app_iff. cbn. intuition. Qed.
  Lemma Inv_push ts q nx par i wk log sid k x s : Inv ts q nx par i wk log -> loose ts i log sid x -> In (k, x) (ix_txs i) ->
    Inv (ts ++ [WTask nx sid k x s]) (q ++ [nx]) (S nx) par i wk log.
  Proof.
    intros H (L1 & L2 & L3 & L4 & L5) Hk.
    assert (S1 : Permutation (sids_of (ts ++ [WTask nx sid k x s]) (ix_ready i)) (sid :: sids_of ts (ix_ready i))).
    { unfold sids_of. rewrite map_app, <- app_assoc. cbn. symmetry. apply Permutation_middle. }
    assert (P1 : Permutation (pairs_of (ts ++ [WTask nx sid k x s]) (ix_ready i)) (x :: pairs_of ts (ix_ready i))).
    { unfold pairs_of. rewrite map_app, <- app_assoc. cbn. symmetry. apply Permutation_middle. }
    constructor; try (apply H).
    - rewrite map_app. cbn. eapply Permutation_NoDup; [apply Permutation_cons_append|]. constructor; [|apply H].
      intros X. apply in_map_iff in X as (p & E & Hp). apply (v_lt H) in Hp. lia.
    - intros p Hp. apply in_snoc in Hp as [Hp| ->]; [apply (v_lt H) in Hp; lia|cbn; lia].
    - apply NoDup_snoc; [apply H|]. intros X. apply (v_ql H) in X. lia.
    - intros t Ht. apply in_snoc in Ht as [Ht| ->]; [apply (v_ql H) in Ht; lia|lia].
    - eapply Permutation_NoDup; [symmetry; exact S1|]. constructor; [exact L1|apply H].
    - intros y Hy. assert (Hy' := Permutation_in _ S1 Hy). destruct Hy' as [<-|Hy']; [exact L2|now apply (v_sidlt H)].
    - eapply Permutation_NoDup; [symmetry; exact P1|]. constructor; [exact L3|apply H].
    - intros y Hy. assert (Hy' := Permutation_in _ P1 Hy). destruct Hy' as [<-|Hy']; [exact L4|now apply (v_pairlt H)].
    - intros p Hp N. apply in_snoc in Hp as [Hp| ->]; [now apply (v_act H)|exact Hk].
    - intros p Hp. apply in_snoc in Hp as [Hp| ->].
      + destruct (v_wait H p Hp) as [A|A]; [left; apply in_or_app; now left|now right].
      + left. apply in_or_app. right. now left.
    - intros p t Hp A. apply in_snoc in Hp as [Hp| ->]; [|destruct (L5 _ A)].
      destruct (v_own H p t Hp A) as [-> B]. split; [reflexivity|]. intros X. apply in_snoc in X as [X|X]; [tauto|].
      apply (v_lt H) in Hp. lia.
  Qed.
  Lemma ring_waiting k (c : wcache) i k' : waiting (wc_log (ring k c)) i k' -> waiting (wc_log c) i k'.
  Proof. destruct k as [|t]; cbn; [tauto|]. destruct (_ && _); cbn; tauto. Qed.
  Lemma rings_waiting l : forall (c : wcache) i k', waiting (wc_log (ring_all l c)) i k' -> waiting (wc_log c) i k'.
  Proof. induction l as [|k l IH]; intros c i k' H; [exact H|]. apply (ring_waiting k). now apply IH. Qed.
  Lemma cancel_waiting x (c : wcache) i k : waiting (wc_log (cancel x c)) i k -> waiting (wc_log c) i k.
  Proof. unfold cancel. destruct (find_reg _ _); [intros H; apply ring_waiting in H|]; auto. Qed.

  Definition loose_c (c : wcache) := loose (fu_tasks (wc_fu c)) (wc_ix c) (wc_log c).
  Lemma loose_cancel x (c : wcache) sid y : loose_c c sid y -> loose_c (cancel x c) sid y.
  Proof.
    unfold loose_c, loose. destruct (cancel_maps x c) as (E1 & E2 & E3 & E4 & E5). rewrite E2, E4, E5, cancel_tasks.
    intros (L1 & L2 & L3 & L4 & L5). repeat split; auto. intros t X. apply (L5 t). exact (cancel_waiting _ _ _ _ X).
  Qed.
  Lemma NoDup_keys_mid (a b : list (K * nat)) k x y : NoDup (map fst (a ++ (k, x) :: b)) -> NoDup (map fst (a ++ (k, y) :: b)).
  Proof. rewrite !map_app. auto. Qed.
  Lemma winv_push_pending (c : wcache) k sid s x : winv c -> loose_c c sid x -> winv (wpush_pending keq c k sid s x).
  Proof.
    intros H L. unfold wpush_pending. assert (I := im_insert_spec keq (ix_txs (wc_ix c)) k x).
    destruct (im_insert keq k x (ix_txs (wc_ix c))) as [txs1 [x0|]].
    - destruct I as (a & b & E1 & E2). rewrite cancel_set_maps. set (c1 := cancel x0 c).
      assert (H1 : winv c1) by (apply winv_cancel, H). assert (Lc : loose_c c1 sid x) by (apply loose_cancel, L).
      destruct (cancel_maps x0 c) as (F1 & F2 & F3 & F4 & F5). fold c1 in F1, F2, F3, F4, F5. rewrite <- F2.
      assert (H2 : winv (set_maps txs1 (ix_ready (wc_ix c1)) c1)).
      { apply Inv_txs; [exact H1| |].
        - rewrite E2. apply (NoDup_keys_mid a b k x0). rewrite <- E1. apply H.
        - intros p Hp N. assert (X := v_act H1 p Hp N). rewrite F1, E1 in X. rewrite E2. rewrite F3 in N.
          apply in_app_or in X as [X|[X|X]]; apply in_or_app; [now left| |right; now right].
          injection X as _ X. destruct N. now left. }
      refine (Inv_push k s H2 _ _).
      + exact Lc.
      + cbn. rewrite E2. apply in_or_app. right. now left.
    - destruct I as [Nk E2].
      assert (H2 : winv (set_maps txs1 (ix_ready (wc_ix c)) c)).
      { apply Inv_txs; [exact H| |].
        - rewrite E2, map_app. cbn. eapply Permutation_NoDup; [apply Permutation_cons_append|]. constructor; [exact Nk|apply H].
        - intros p Hp N. rewrite E2. apply in_or_app. left. now apply (v_act H). }
      refine (Inv_push k s H2 _ _).
      + exact L.
      + cbn. rewrite E2. apply in_or_app. right. now left.
  Qed.
  Lemma winv_push (c : wcache) k s : winv c -> winv (wpush keq c k s).
  Proof.
    intros H. unfold wpush. set (i := wc_ix c).
    assert (H1 : winv (with_ix (Ix (ix_txs i) (ix_ready i) (ix_canceled i) (ix_regs i) (S (ix_fresh i)) (S (ix_sids i))) c)).
    { constructor; try (apply H); cbn.
      - intros x Hx. apply (v_sidlt H) in Hx. fold i in Hx. lia.
      - intros x Hx. apply (v_pairlt H) in Hx. fold i in Hx. lia.
      - intros j k' b Hj. apply (v_log H) in Hj. fold i in Hj. lia. }
    apply winv_push_pending; [exact H1|]. repeat split; cbn; try lia.
    - intros X. apply (v_sidlt H) in X. fold i in X. lia.
    - intros X. apply (v_pairlt H) in X. fold i in X. lia.
    - intros t X. destruct (waiting_polled _ _ _ X) as (b & Hb). apply (v_log H) in Hb. fold i in Hb. lia.
  Qed.
End Proof.
Arguments rsid {W K Req Resp Err svc} x.
Arguments rpair {W K Req Resp Err svc} x.
