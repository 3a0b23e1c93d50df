(** ReadyCache never loses a wake-up: the operations. *)
From Coq Require Import Permutation.
From Verif Require Import Base Middleware ReadyCache CacheProof WakeCache RingSpec RingProof.
Set Implicit Arguments.

Section Loop.
  Context {W K Req Resp Err : Type} (keq : forall a b : K, {a = b} + {a <> b}).
  Context (svc : Service W Req Resp Err).
  Context (rings : W -> list waker) (stop : nat -> nat -> nat -> bool).
  Notation wcache := (wcache (K := K) svc).
  Notation wtask := (wtask (K := K) svc).

  Definition armed (c : wcache) : Prop := fu_parent (wc_fu c) = true \/ wc_woken c = true.
  Lemma armed_ring k (c : wcache) : armed c -> armed (ring k c).
  Proof.
    unfold armed. destruct k as [|t]; cbn; [auto|]. destruct (_ && _); cbn; [|auto]. intros [->| ->]; right; [apply orb_true_r|reflexivity].
  Qed.
  Lemma armed_rings l : forall c : wcache, armed c -> armed (ring_all l c).
  Proof. induction l as [|k l IH]; intros c H; [exact H|]. cbn. apply IH, armed_ring, H. Qed.
  Lemma woken_ring k (c : wcache) : wc_woken c = true -> wc_woken (ring k c) = true.
  Proof. destruct k as [|t]; cbn; [auto|]. destruct (_ && _); cbn; [intros ->; reflexivity|auto]. Qed.
  Lemma woken_rings l : forall c : wcache, wc_woken c = true -> wc_woken (ring_all l c) = true.
  Proof. induction l as [|k l IH]; intros c H; [exact H|]. cbn. apply IH, woken_ring, H. Qed.
  Lemma armed_cancel x (c : wcache) : armed c -> armed (cancel x c).
  Proof. unfold cancel. destruct (find_reg _ _); [intros H; apply armed_ring|]; auto. Qed.

  (** What the operations other than asking discovery do to the log. *)
  Definition is_disc (e : wevent) : Prop := match e with EDisc _ => True | _ => False end.
  Definition ext (c c1 : wcache) : Prop :=
    (wc_woken c = true -> wc_woken c1 = true) /\
    exists l, wc_log c1 = l ++ wc_log c /\ (forall e, In e l -> ~ is_disc e) /\ (In (ERing WkTask) l -> wc_woken c1 = true).
  Lemma ext_refl c : ext c c.
  Proof. split; [auto|]. exists []. repeat split; auto; intros; contradiction. Qed.
  Lemma ext_trans c1 c2 c3 : ext c1 c2 -> ext c2 c3 -> ext c1 c3.
  Proof.
    intros (A1 & l1 & A2 & A3 & A4) (B1 & l2 & B2 & B3 & B4). split; [auto|]. exists (l2 ++ l1). split; [|split].
    - rewrite B2, A2. apply app_assoc.
    - intros e He. apply in_app_or in He as [He|He]; auto.
    - intros He. apply in_app_or in He as [He|He]; auto.
  Qed.
  Lemma ext_ring k (c : wcache) : ext c (ring k c).
  Proof.
    split; [apply woken_ring|]. exists [ERing k]. split; [|split].
    - destruct k as [|t]; cbn; [reflexivity|]. destruct (_ && _); reflexivity.
    - intros e [<-|[]] X. exact X.
    - intros [E|[]]. injection E as ->. reflexivity.
  Qed.
  Lemma ext_rings l : forall c : wcache, ext c (ring_all l c).
  Proof. induction l as [|k l IH]; intros c; [apply ext_refl|]. eapply ext_trans; [apply (ext_ring k)|apply IH]. Qed.
  (** Only the children, the maps and the flags change. *)
  Lemma ext_same (c c1 : wcache) : wc_log c1 = wc_log c -> (wc_woken c = true -> wc_woken c1 = true) -> ext c c1.
  Proof. intros E H. split; [exact H|]. exists []. rewrite E. repeat split; auto; intros; contradiction. Qed.
  Lemma ext_logged (c c1 : wcache) i k b : wc_log c1 = EPoll i k b :: wc_log c -> (wc_woken c = true -> wc_woken c1 = true) -> ext c c1.
  Proof.
    intros E H. split; [exact H|]. exists [EPoll i k b]. rewrite E. split; [reflexivity|]. split.
    - intros e [<-|[]] X. exact X.
    - intros [X|[]]. discriminate.
  Qed.
  Lemma ext_cancel x (c : wcache) : ext c (cancel x c).
  Proof.
    unfold cancel. destruct (find_reg _ _); [eapply ext_trans; [|apply ext_ring]|]; apply ext_same; auto.
  Qed.

  Lemma find_task_some t (l : list wtask) p : find_task t l = Some p -> In p l /\ wt_id p = t.
  Proof.
    induction l as [|x l IH]; cbn; [discriminate|]. destruct (Nat.eqb_spec (wt_id x) t) as [E|N].
    - intros X. injection X as <-. auto.
    - intros X. destruct (IH X). auto.
  Qed.
  Lemma find_task_none t (l : list wtask) : find_task t l = None -> forall p, In p l -> wt_id p <> t.
  Proof.
    induction l as [|x l IH]; cbn; [tauto|]. destruct (Nat.eqb_spec (wt_id x) t) as [E|N]; [discriminate|].
    intros X p [<-|Hp]; auto.
  Qed.
  Lemma del_task_in t (l : list wtask) p : In p (del_task t l) <-> In p l /\ wt_id p <> t.
  Proof. unfold del_task. rewrite filter_In. destruct (Nat.eqb_spec (wt_id p) t); cbn; intuition congruence. Qed.
  Lemma del_task_perm t (l : list wtask) p : NoDup (map (@wt_id _ _ _ _ _ svc) l) -> In p l -> wt_id p = t -> Permutation l (p :: del_task t l).
  Proof.
    induction l as [|x l IH]; cbn; [tauto|]. intros N Hp E. inversion N as [|? ? M1 M2]; subst. destruct Hp as [->|Hp].
    - rewrite Nat.eqb_refl. cbn. constructor. unfold del_task.
      assert (X : List.filter (fun p0 : wtask => negb (wt_id p0 =? wt_id p)) l = l); [|now rewrite X].
      clear - M1. induction l as [|y l IH]; cbn; [reflexivity|]. destruct (Nat.eqb_spec (wt_id y) (wt_id p)) as [E|N].
      + destruct M1. cbn. now left.
      + cbn. f_equal. apply IH. intros X. apply M1. cbn. now right.
    - destruct (Nat.eqb_spec (wt_id x) (wt_id p)) as [E|N2].
      + destruct M1. rewrite E. now apply in_map.
      + cbn. etransitivity; [apply perm_skip, (IH M2 Hp eq_refl)|]. apply perm_swap.
  Qed.

  Notation inv := (Inv (svc := svc) (K := K)).
  Lemma Inv_dead ts t q nx par i wk log : find_task t ts = None -> inv ts (t :: q) nx par i wk log -> inv ts q nx par i wk log.
  Proof.
    intros E H. constructor; try (apply H).
    - assert (N := v_qd H). now inversion N.
    - intros t' Ht'. apply (v_ql H). now right.
    - intros p Hp. destruct (v_wait H p Hp) as [[A|A]|A]; [|now left|now right]. destruct (@find_task_none _ _ E p Hp). auto.
    - intros p t' Hp A. destruct (v_own H p t' Hp A) as [B C]. split; [exact B|]. intros X. apply C. now right.
  Qed.
  (** A child is taken out. *)
  Lemma Inv_gone ts t q nx par i wk log p : In p ts -> wt_id p = t -> inv ts (t :: q) nx par i wk log ->
    inv (del_task t ts) q nx par i wk log /\
    ~ In (wt_sid p) (sids_of (del_task t ts) (ix_ready i)) /\ ~ In (wt_pair p) (pairs_of (del_task t ts) (ix_ready i)).
  Proof.
    intros Hp Et H. assert (P := del_task_perm _ _ (v_ids H) Hp Et).
    assert (S1 : Permutation (sids_of ts (ix_ready i)) (wt_sid p :: sids_of (del_task t ts) (ix_ready i))).
    { unfold sids_of. rewrite (Permutation_map (@wt_sid _ _ _ _ _ svc) P). reflexivity. }
    assert (P1 : Permutation (pairs_of ts (ix_ready i)) (wt_pair p :: pairs_of (del_task t ts) (ix_ready i))).
    { unfold pairs_of. rewrite (Permutation_map (@wt_pair _ _ _ _ _ svc) P). reflexivity. }
    assert (N0 := Permutation_NoDup (Permutation_map _ P) (v_ids H)).
    assert (N1 := Permutation_NoDup S1 (v_sid H)). assert (N2 := Permutation_NoDup P1 (v_pair H)).
    inversion N0 as [|? ? M1 M2]; subst. inversion N1 as [|? ? M3 M4]; subst. inversion N2 as [|? ? M5 M6]; subst.
    split; [|split; assumption].
    assert (Hin : forall p', In p' (del_task (wt_id p) ts) -> In p' ts /\ wt_id p' <> wt_id p) by (intros p'; apply del_task_in).
    constructor; try (apply H); auto.
    - intros p' Hp'. apply (v_lt H). now apply Hin.
    - assert (N := v_qd H). now inversion N.
    - intros t' Ht'. apply (v_ql H). now right.
    - intros x Hx. apply (v_sidlt H). eapply Permutation_in; [symmetry; exact S1|now right].
    - intros x Hx. apply (v_pairlt H). eapply Permutation_in; [symmetry; exact P1|now right].
    - intros p' Hp'. apply (v_act H). now apply Hin.
    - intros p' Hp'. destruct (Hin _ Hp') as [A B]. destruct (v_wait H p' A) as [[C|C]|C]; [congruence|now left|now right].
    - intros p' t' Hp' A. destruct (v_own H p' t' (proj1 (Hin _ Hp')) A) as [B C]. split; [exact B|]. intros X. apply C. now right.
  Qed.
  (** An answer other than [Pending] from a service that is in none of the sets. *)
  Lemma Inv_answered ts q nx par i wk log sid k : ~ In sid (sids_of ts (ix_ready i)) -> sid < ix_sids i ->
    (par = true \/ wk = true) ->
    inv ts q nx par i wk log -> inv ts q nx par i wk (EPoll sid k false :: log).
  Proof.
    intros N L P H.
    assert (Hne : forall p, In p ts -> (sid =? wt_sid p) = false).
    { intros p Hp. apply Nat.eqb_neq. intros ->. apply N, in_or_app. left. now apply in_map. }
    assert (Hnr : forall x, In x (ix_ready i) -> (sid =? rsid x) = false).
    { intros x Hx. apply Nat.eqb_neq. intros ->. apply N, in_or_app. right. now apply in_map. }
    constructor; try (apply H); auto.
    - intros p Hp. destruct (v_wait H p Hp) as [A|(A & B)]; [now left|right]. split; [|exact B]. cbn. now rewrite Hne.
    - intros p t Hp A. cbn in A. rewrite Hne in A by exact Hp. now apply (v_own H).
    - intros x t Hx A. cbn in A. rewrite Hnr in A by exact Hx. exact (v_rdy H _ _ Hx A).
    - intros j k' b [A|A]; [injection A as <- _ _; exact L|exact (v_log H _ _ _ A)].
  Qed.
  Lemma put_svc_in t s (ts : list wtask) p : In p (put_svc t s ts) -> exists p0, In p0 ts /\ wt_id p = wt_id p0 /\ wt_sid p = wt_sid p0 /\ wt_key p = wt_key p0 /\ wt_pair p = wt_pair p0.
  Proof.
    unfold put_svc. intros H. apply in_map_iff in H as (p0 & E & Hp). exists p0. split; [exact Hp|].
    destruct (Nat.eqb_spec (wt_id p0) t) as [Et|N]; subst p; cbn; auto.
  Qed.
  Lemma put_svc_map A (f : wtask -> A) t s (ts : list wtask) :
    (forall p, f (WTask (wt_id p) (wt_sid p) (wt_key p) (wt_pair p) s) = f p) -> map f (put_svc t s ts) = map f ts.
  Proof.
    intros E. unfold put_svc. rewrite map_map. apply map_ext. intros p. destruct (Nat.eqb_spec (wt_id p) t) as [<-|N]; auto.
  Qed.
  (** [Pending] from a child. *)
  Lemma Inv_pending ts t q nx par i wk log p s : In p ts -> wt_id p = t -> ~ In (wt_pair p) (ix_canceled i) -> (par = true \/ wk = true) ->
    inv ts (t :: q) nx par i wk log ->
    inv (put_svc t s ts) q nx par
      (Ix (ix_txs i) (ix_ready i) (ix_canceled i) ((wt_pair p, t) :: del_reg (wt_pair p) (ix_regs i)) (ix_fresh i) (ix_sids i))
      wk (EPoll (wt_sid p) (WkChild t) true :: log).
  Proof.
    intros Hp Et Nc P H.
    assert (U : forall p', In p' ts -> wt_sid p' = wt_sid p -> p' = p).
    { intros p' Hp' E. assert (N := NoDup_app_remove_r _ _ (v_sid H)). exact (NoDup_inv_key _ _ _ _ N Hp' Hp E). }
    assert (U2 : forall p', In p' ts -> wt_pair p' = wt_pair p -> p' = p).
    { intros p' Hp' E. assert (N := NoDup_app_remove_r _ _ (v_pair H)). exact (NoDup_inv_key _ _ _ _ N Hp' Hp E). }
    assert (U3 : forall p', In p' ts -> wt_id p' = t -> p' = p).
    { intros p' Hp' E. refine (NoDup_inv_key _ _ _ _ (v_ids H) Hp' Hp _). congruence. }
    assert (Hnr : forall x, In x (ix_ready i) -> (wt_sid p =? rsid x) = false).
    { intros x Hx. apply Nat.eqb_neq. intros E. assert (N := v_sid H). unfold sids_of in N.
      apply in_split in Hp as (a & b & ->). rewrite map_app in N. cbn in N. rewrite <- app_assoc in N. cbn in N.
      apply NoDup_remove_2 in N. apply N. apply in_or_app. right. apply in_or_app. right. rewrite E. now apply in_map. }
    constructor; cbn [ix_txs ix_ready ix_canceled ix_regs ix_fresh ix_sids].
    - rewrite put_svc_map by reflexivity. apply H.
    - intros p' Hp'. destruct (put_svc_in _ _ _ _ Hp') as (p0 & A & -> & _). now apply (v_lt H).
    - assert (N := v_qd H). now inversion N.
    - intros t' Ht'. apply (v_ql H). now right.
    - unfold sids_of. rewrite put_svc_map by reflexivity. apply H.
    - unfold sids_of. rewrite put_svc_map by reflexivity. apply H.
    - unfold pairs_of. rewrite put_svc_map by reflexivity. apply H.
    - unfold pairs_of. rewrite put_svc_map by reflexivity. apply H.
    - apply H.
    - intros p' Hp'. destruct (put_svc_in _ _ _ _ Hp') as (p0 & A & _ & _ & -> & ->). now apply (v_act H).
    - intros p' Hp'. destruct (put_svc_in _ _ _ _ Hp') as (p0 & A & E1 & E2 & E3 & E4).
      unfold settled. rewrite E1, E2, E4. cbn [waiting find_reg ix_canceled ix_regs].
      destruct (Nat.eqb_spec (wt_sid p) (wt_sid p0)) as [Es|Ns].
      + assert (p0 = p) as -> by (apply U; auto). right. rewrite Et. split; [auto|]. split; [exact Nc|]. now rewrite Nat.eqb_refl.
      + destruct (v_wait H p0 A) as [[B|B]|(B & C & D)].
        * exfalso. apply Ns. f_equal. symmetry. apply U3; auto.
        * now left.
        * right. split; [exact B|]. split; [exact C|]. destruct (Nat.eqb_spec (wt_pair p) (wt_pair p0)) as [Ep|Np].
          -- exfalso. apply Ns. f_equal. symmetry. apply U2; auto.
          -- rewrite find_reg_del. destruct (Nat.eqb_spec (wt_pair p) (wt_pair p0)); [congruence|exact D].
    - intros p' t' Hp' A. destruct (put_svc_in _ _ _ _ Hp') as (p0 & Hp0 & E1 & E2 & _). rewrite E1. rewrite E2 in A. cbn in A.
      destruct (Nat.eqb_spec (wt_sid p) (wt_sid p0)) as [Es|Ns].
      + destruct A as [_ A]. injection A as <-. assert (p0 = p) as -> by (apply U; auto). split; [congruence|].
        assert (N := v_qd H). now inversion N.
      + destruct (v_own H p0 t' Hp0 A) as [B C]. split; [exact B|]. intros X. apply C. now right.
    - intros x t' Hx A. cbn in A. rewrite Hnr in A by exact Hx. exact (v_rdy H _ _ Hx A).
    - intros j k' b [A|A]; [injection A as <- _ _; apply (v_sidlt H), in_or_app; left; now apply in_map|exact (v_log H _ _ _ A)].
    - auto.
  Qed.

  Definition outcome (c : wcache) (a : poll (option (wout (K := K) svc))) : Prop :=
    match a with
    | Pending => wc_woken c = true \/ fu_queue (wc_fu c) = []
    | Ready None => fu_tasks (wc_fu c) = []
    | Ready (Some (WoReady k sid s x)) => In (k, x) (ix_txs (wc_ix c)) /\ loose_c c sid x
    | Ready (Some (WoCanceled _)) => True
    | Ready (Some (WoFailed k e)) => exists x, In (k, x) (ix_txs (wc_ix c)) /\ ~ In x (pairs_of (fu_tasks (wc_fu c)) (ix_ready (wc_ix c)))
    end.
  Lemma loose_rings l (c : wcache) sid x : loose_c c sid x -> loose_c (ring_all l c) sid x.
  Proof.
    unfold loose_c, loose. rewrite rings_ix, rings_tasks. intros (L1 & L2 & L3 & L4 & L5). repeat split; auto.
    intros t X. apply (L5 t). now apply rings_waiting in X.
  Qed.

  Lemma fu_loop_ok fuel : forall y n len (c : wcache) w w1 c1 a, winv c -> armed c ->
    fu_loop rings stop fuel y n len c w = (w1, Val (c1, a)) ->
    winv c1 /\ armed c1 /\ outcome c1 a /\ ext c c1.
  Proof.
    induction fuel as [|fuel IH]; intros y n len c w w1 c1 a H Ha E; [discriminate|]. cbn [fu_loop] in E.
    destruct c as [[ts q nx par] i wk log]. cbn [wc_fu wc_ix wc_woken wc_log fu_tasks fu_queue fu_next fu_parent] in E.
    destruct q as [|t q].
    - injection E as <- <- <-. split; [exact H|]. split; [exact Ha|]. split; [|apply ext_refl]. destruct ts; cbn; auto.
    - destruct (find_task t ts) as [p|] eqn:Ef.
      2:{ destruct (IH _ _ _ _ _ _ _ _ (Inv_dead Ef H : winv (WCache (Fu ts q nx par) i wk log)) Ha E) as (B1 & B2 & B3 & B4). split; [exact B1|]. split; [exact B2|]. split; [exact B3|].
          eapply ext_trans; [|exact B4]. apply ext_same; auto. }
      destruct (find_task_some _ _ Ef) as [Hp Et].
      destruct (Inv_gone p Hp Et H) as (G & Gs & Gp).
      destruct (memn (wt_pair p) (ix_canceled i)) eqn:Ec.
      + unfold bind, modify, fired in E. injection E as <- <- <-. split; [apply winv_rings; exact G|]. split; [apply armed_rings; exact Ha|].
        split; [exact I|]. eapply ext_trans; [|apply ext_rings]. apply ext_same; auto.
      + apply memn_not in Ec. unfold bind in E. destruct (poll_ready svc (wt_svc p) w) as [w2 [[s1 b]| |]]; try discriminate.
        assert (Ls : wt_sid p < ix_sids i) by (apply (v_sidlt H), in_or_app; left; now apply in_map).
        assert (Lp : wt_pair p < ix_fresh i) by (apply (v_pairlt H), in_or_app; left; now apply in_map).
        assert (A := Inv_answered (WkChild t) Gs Ls Ha G).
        assert (Hk := v_act H p Hp Ec). cbn [wc_ix] in Hk.
        destruct b as [|[u|e]].
        * unfold fired, ret in E.
          match type of E with context [ring_all ?r ?c2] => set (c2' := c2) in E; set (c3 := ring_all r c2') in E end.
          assert (V2 : winv c2') by exact (Inv_pending p s1 Hp Et Ec Ha H).
          assert (V3 : winv c3) by (apply winv_rings; exact V2).
          assert (A3 : armed c3) by (apply armed_rings; exact Ha).
          assert (W3 : ext (WCache (Fu ts (t :: q) nx par) i wk log) c3).
          { eapply ext_trans; [|apply ext_rings]. eapply ext_logged; [reflexivity|auto]. }
          destruct (stop _ (S n) len).
          -- injection E as <- <- <-. split; [exact (Inv_woken V3)|]. split; [now right|]. split; [now left|]. eapply ext_trans; [exact W3|]. apply ext_same; auto.
          -- destruct (IH _ _ _ _ _ _ _ _ V3 A3 E) as (B1 & B2 & B3 & B4). split; [exact B1|]. split; [exact B2|]. split; [exact B3|]. eapply ext_trans; eauto.
        * unfold fired, ret in E. injection E as <- <- <-.
          split; [apply winv_rings; exact A|]. split; [apply armed_rings; exact Ha|]. split; [|eapply ext_trans; [|apply ext_rings]; eapply ext_logged; [reflexivity|auto]].
          split; [rewrite rings_ix; exact Hk|]. apply loose_rings. repeat split; cbn; auto.
          intros t0 X. rewrite Nat.eqb_refl in X. destruct X as [X _]. discriminate X.
        * unfold modify, fired, ret in E. injection E as <- <- <-.
          split; [apply winv_rings; exact A|]. split; [apply armed_rings; exact Ha|]. split; [|eapply ext_trans; [|apply ext_rings]; eapply ext_logged; [reflexivity|auto]].
          exists (wt_pair p). rewrite rings_ix, rings_tasks. split; [exact Hk|exact Gp].
  Qed.

  Definition calm (c : wcache) : Prop := wc_woken c = true \/ fu_queue (wc_fu c) = [].
  Lemma in_keys_eq (l : list (K * nat)) k x y : NoDup (map fst l) -> In (k, x) l -> In (k, y) l -> x = y.
  Proof. intros N A B. assert (E := NoDup_inv_key _ _ _ _ N A B eq_refl). congruence. Qed.
  Lemma in_key_in_pairs (ts : list wtask) rd p : In p ts -> In (wt_pair p) (pairs_of ts rd).
  Proof. intros H. apply in_or_app. left. now apply in_map. Qed.
  (** The entry of [k] leaves the map: nobody pending had it. *)
  Lemma winv_untx (c : wcache) k x tx txs1 : winv c -> In (k, x) (ix_txs (wc_ix c)) ->
    ~ In x (pairs_of (fu_tasks (wc_fu c)) (ix_ready (wc_ix c))) -> Permutation (ix_txs (wc_ix c)) ((k, tx) :: txs1) ->
    tx = x /\ winv (set_maps txs1 (ix_ready (wc_ix c)) c).
  Proof.
    intros H Hk Hx P. assert (N := Permutation_NoDup (Permutation_map fst P) (v_tx H)). cbn in N.
    assert (E : tx = x).
    { apply (@in_keys_eq ((k, tx) :: txs1) k tx x N); [now left|]. exact (Permutation_in _ P Hk). }
    split; [exact E|]. subst tx. inversion N as [|? ? N1 N2]; subst. apply Inv_txs; [exact H|exact N2|].
    intros p Hp Nc. assert (X := Permutation_in _ P (v_act H p Hp Nc)). destruct X as [X|X]; [|exact X].
    injection X as _ X. destruct Hx. rewrite X. now apply in_key_in_pairs.
  Qed.
  Lemma winv_insert (c : wcache) k sid s x : winv c -> loose_c c sid x ->
    winv (set_maps (ix_txs (wc_ix c)) (fst (im_insert keq k (sid, s, x) (ix_ready (wc_ix c)))) c).
  Proof.
    intros H (L1 & L2 & L3 & L4 & L5). assert (I := im_insert_spec keq (ix_ready (wc_ix c)) k (sid, s, x)).
    destruct (im_insert keq k (sid, s, x) (ix_ready (wc_ix c))) as [r1 [e0|]]; cbn [fst].
    - destruct I as (a & b & E1 & E2).
      assert (Pm : Permutation (ix_ready (wc_ix c)) ((k, e0) :: a ++ b)) by (rewrite E1; symmetry; apply Permutation_middle).
      destruct (Inv_unready H Pm) as [U _].
      assert (S1 : Permutation (sids_of (fu_tasks (wc_fu c)) r1) (sid :: sids_of (fu_tasks (wc_fu c)) (a ++ b))).
      { unfold sids_of. rewrite E2, !map_app. cbn. rewrite !app_assoc. symmetry. apply Permutation_middle. }
      assert (P1 : Permutation (pairs_of (fu_tasks (wc_fu c)) r1) (x :: pairs_of (fu_tasks (wc_fu c)) (a ++ b))).
      { unfold pairs_of. rewrite E2, !map_app. cbn. rewrite !app_assoc. symmetry. apply Permutation_middle. }
      assert (I1 : forall z, In z (sids_of (fu_tasks (wc_fu c)) (a ++ b)) -> In z (sids_of (fu_tasks (wc_fu c)) (ix_ready (wc_ix c)))).
      { intros z Hz. unfold sids_of in *. rewrite E1. rewrite !map_app in *. cbn. apply in_app_or in Hz as [Hz|Hz]; [apply in_or_app; now left|].
        apply in_or_app. right. apply in_app_or in Hz as [Hz|Hz]; apply in_or_app; [now left|right; now right]. }
      assert (I2 : forall z, In z (pairs_of (fu_tasks (wc_fu c)) (a ++ b)) -> In z (pairs_of (fu_tasks (wc_fu c)) (ix_ready (wc_ix c)))).
      { intros z Hz. unfold pairs_of in *. rewrite E1. rewrite !map_app in *. cbn. apply in_app_or in Hz as [Hz|Hz]; [apply in_or_app; now left|].
        apply in_or_app. right. apply in_app_or in Hz as [Hz|Hz]; apply in_or_app; [now left|right; now right]. }
      refine (@Inv_maps _ _ _ _ _ _ _ _ _ _ _ _ _ (ix_txs (wc_ix c)) r1 U _ _ _ _ _ _ _); try (apply U).
      + eapply Permutation_NoDup; [symmetry; exact S1|]. constructor; [auto|apply U].
      + intros z Hz. assert (Hz' : In z (sid :: sids_of (fu_tasks (wc_fu c)) (a ++ b))).
        { eapply Permutation_in; [exact S1|]. apply in_or_app. now right. }
        destruct Hz' as [<-|Hz']; [exact L2|]. exact (v_sidlt U z Hz').
      + eapply Permutation_NoDup; [symmetry; exact P1|]. constructor; [auto|apply U].
      + intros z Hz. assert (Hz' : In z (x :: pairs_of (fu_tasks (wc_fu c)) (a ++ b))).
        { eapply Permutation_in; [exact P1|]. apply in_or_app. now right. }
        destruct Hz' as [<-|Hz']; [exact L4|]. exact (v_pairlt U z Hz').
      + intros e t He. rewrite E2 in He. apply in_app_or in He as [He|[<-|He]].
        * apply (v_rdy U). apply in_or_app. now left.
        * apply L5.
        * apply (v_rdy U). apply in_or_app. now right.
    - destruct I as [Nk E2].
      assert (S1 : Permutation (sids_of (fu_tasks (wc_fu c)) r1) (sid :: sids_of (fu_tasks (wc_fu c)) (ix_ready (wc_ix c)))).
      { unfold sids_of. rewrite E2, !map_app. cbn. rewrite app_assoc. symmetry. apply Permutation_cons_append. }
      assert (P1 : Permutation (pairs_of (fu_tasks (wc_fu c)) r1) (x :: pairs_of (fu_tasks (wc_fu c)) (ix_ready (wc_ix c)))).
      { unfold pairs_of. rewrite E2, !map_app. cbn. rewrite app_assoc. symmetry. apply Permutation_cons_append. }
      refine (@Inv_maps _ _ _ _ _ _ _ _ _ _ _ _ _ (ix_txs (wc_ix c)) r1 H _ _ _ _ _ _ _); try (apply H).
      + eapply Permutation_NoDup; [symmetry; exact S1|]. constructor; [auto|apply H].
      + intros z Hz. assert (Hz' : In z (sid :: sids_of (fu_tasks (wc_fu c)) (ix_ready (wc_ix c)))).
        { eapply Permutation_in; [exact S1|]. apply in_or_app. now right. }
        destruct Hz' as [<-|Hz']; [exact L2|]. exact (v_sidlt H z Hz').
      + eapply Permutation_NoDup; [symmetry; exact P1|]. constructor; [auto|apply H].
      + intros z Hz. assert (Hz' : In z (x :: pairs_of (fu_tasks (wc_fu c)) (ix_ready (wc_ix c)))).
        { eapply Permutation_in; [exact P1|]. apply in_or_app. now right. }
        destruct Hz' as [<-|Hz']; [exact L4|]. exact (v_pairlt H z Hz').
      + intros e t He. rewrite E2 in He. apply in_app_or in He as [He|[<-|[]]]; [apply (v_rdy H _ _ He)|apply L5].
  Qed.

  Definition ended (c : wcache) (a : poll (result unit (K * Err))) : Prop :=
    match a with
    | Pending => calm c
    | Ready (Ok _) => fu_tasks (wc_fu c) = []
    | Ready (Er _) => True
    end.
  (** The invariant without [v_par]. *)
  Definition pinv (c : wcache) : Prop := winv (with_woken true c).
  Lemma pinv_winv (c : wcache) : winv c -> pinv c.
  Proof. exact (fun H => Inv_woken H). Qed.
  Lemma winv_armed (c : wcache) : pinv c -> armed c -> winv c.
  Proof. intros H A. constructor; try (apply H). intros _. exact A. Qed.
  Lemma poll_pending_loop_ok fuel : forall (c : wcache) w w1 c1 a, pinv c ->
    wpoll_pending_loop keq rings stop fuel c w = (w1, Val (c1, a)) ->
    winv c1 /\ armed c1 /\ ended c1 a /\ ext c c1.
  Proof.
    induction fuel as [|fuel IH]; intros c w w1 c1 a H E; [discriminate|]. cbn [wpoll_pending_loop] in E.
    unfold bind in E at 1. unfold wpoll_next in E.
    match type of E with context [fu_loop _ _ ?n ?y ?p ?l ?c0 w] => set (c0' := c0) in E; destruct (fu_loop rings stop n y p l c0' w) as [w2 [[c2 p2]| |]] eqn:Ef end; try discriminate.
    assert (H0 : winv c0').
    { unfold winv. constructor; try (apply H). cbn. now left. }
    assert (A0 : armed c0') by (left; reflexivity).
    destruct (fu_loop_ok _ _ _ _ _ H0 A0 Ef) as (B1 & B2 & B3 & B4). assert (B5 : ext c c2) by (eapply ext_trans; [|exact B4]; apply ext_same; auto).
    destruct p2 as [|[[k sid s x|k|k e]|]].
    - injection E as <- <- <-. auto.
    - destruct B3 as [Bk Bl]. assert (P := im_swap_remove_spec keq (ix_txs (wc_ix c2)) k).
      destruct (im_swap_remove keq k (ix_txs (wc_ix c2))) as [[tx txs1]|]; [|discriminate].
      destruct Bl as (L1 & L2 & L3 & L4 & L5). destruct (winv_untx _ B1 Bk L3 P) as [-> V].
      assert (V2 := @winv_insert _ k sid s x V (conj L1 (conj L2 (conj L3 (conj L4 L5))))).
      destruct (im_insert keq k (sid, s, x) (ix_ready (wc_ix c2))) as [ready1 old] eqn:Ei.
      change (ix_ready (wc_ix (set_maps txs1 (ix_ready (wc_ix c2)) c2))) with (ix_ready (wc_ix c2)) in V2. rewrite Ei in V2. cbn [fst] in V2.
      unfold bind, modify in E. destruct (IH _ _ _ _ _ (pinv_winv V2) E) as (C1 & C2 & C3 & C4). split; [exact C1|]. split; [exact C2|]. split; [exact C3|].
      eapply ext_trans; [exact B5|]. eapply ext_trans; [|exact C4]. apply ext_same; auto.
    - destruct (IH _ _ _ _ _ (pinv_winv B1) E) as (C1 & C2 & C3 & C4). split; [exact C1|]. split; [exact C2|]. split; [exact C3|]. eapply ext_trans; eauto.
    - destruct B3 as (x & Bk & Bx). assert (P := im_swap_remove_spec keq (ix_txs (wc_ix c2)) k).
      destruct (im_swap_remove keq k (ix_txs (wc_ix c2))) as [[tx txs1]|]; [|discriminate].
      destruct (winv_untx _ B1 Bk Bx P) as [_ V]. injection E as <- <- <-. split; [exact V|]. split; [exact B2|]. split; [exact I|]. eapply ext_trans; [exact B5|]. apply ext_same; auto.
    - injection E as <- <- <-. auto.
  Qed.
End Loop.
