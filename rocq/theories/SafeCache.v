(** Contract safety of ReadyCache and Balance (for StackProof.v): a typestate
    argument, on top of the invariant of CacheProof.v with every service numbered
    by its cancelation token. *)
From Coq Require Import Permutation.
From Verif Require Import Base ContractSpec StackSpec Safe Util Middleware ReadyCache CacheSpec CacheProof BalanceProof SafeUtil SafeMore.
Set Implicit Arguments.

Section CacheSafe.
  Context {W K Req Resp Err : Type} (keq : forall a b : K, {a = b} + {a <> b}).
  Context (c0 : caps) (svc : Service W Req Resp Err) (R Rdy : st svc -> Prop) (V : fut svc -> Prop).
  Hypothesis HS : Safe c0 svc R Rdy V.
  Context (ks : list K).
  Notation cache := (cache (K := K) svc).
  Notation pend := (pend (K := K) svc).

  Definition ksig (p : pend) : K * nat * nat := (pd_key p, pd_cancel p, pd_cancel p).
  Definition rksig (x : K * (st svc * nat)) : K * nat * nat := (fst x, snd (snd x), snd (snd x)).
  Definition pend_ok (p : pend) : Prop := R (pd_svc p) /\ In (pd_key p) ks.
  Definition ready_ok (x : K * (st svc * nat)) : Prop := Rdy (fst (snd x)) /\ In (fst x) ks.
  Definition CS (c : cache) : Prop :=
    (exists a, Inv (map ksig (rc_pending c)) (map rksig (rc_ready c)) (rc_txs c) (rc_canceled c) (rc_fresh c) (rc_fresh c) a) /\
    Forall pend_ok (rc_pending c) /\ Forall ready_ok (rc_ready c).

  Lemma okm_ready s : R s \/ Rdy s ->
    okm true (poll_ready svc s) (fun x => match snd x with
                | Pending => R (fst x) | Ready (Ok _) => Rdy (fst x) | Ready (Er _) => True end).
  Proof.
    intros H w. assert (HR : R s) by (destruct H; [assumption|apply (sf_sub HS); assumption]).
    generalize (sf_ready HS s HR w). destruct (snd (poll_ready svc s w)); auto.
  Qed.
  Lemma okm_call s r : Rdy s -> okm true (call svc s r) (fun x => R (fst x) /\ V (snd x)).
  Proof. intros H w. generalize (sf_call HS s r H w). destruct (snd (call svc s r w)); auto. Qed.

  Lemma rkeys l : map s_key (map rksig l) = map fst l.
  Proof. rewrite map_map. apply map_ext. reflexivity. Qed.

  Lemma CS_new : CS (cache_new svc).
  Proof. split; [|split; constructor]. exists slots0. apply Inv_new. Qed.

  Lemma CS_len c : CS c -> ready_len c <= length ks.
  Proof.
    intros ((a & HI) & _ & HR). unfold ready_len. rewrite <- (map_length fst). apply NoDup_incl_length.
    - rewrite <- rkeys. apply (i_rk HI).
    - intros k Hk. apply in_map_iff in Hk as (x & <- & Hx). rewrite Forall_forall in HR. apply HR, Hx.
  Qed.

  Lemma push_pending_eq (c : cache) k s t :
    match im_insert keq k t (rc_txs c) with
    | (txs1, old) =>
        push_pending keq c k s t =
        Cache (rc_pending c ++ [Pend k t s]) txs1 (rc_ready c)
          (match old with Some t0 => t0 :: rc_canceled c | None => rc_canceled c end) (rc_fresh c)
    end.
  Proof. unfold push_pending, set_canceled. destruct (im_insert keq k t (rc_txs c)); reflexivity. Qed.

  Lemma push_cs c k s : CS c -> R s -> In k ks -> CS (push keq c k s).
  Proof.
    intros ((a & HI) & HP & HR) Hs Hk0. unfold push.
    generalize (push_pending_eq c k s (rc_fresh c)).
    generalize (im_insert_spec keq (rc_txs c) k (rc_fresh c)).
    destruct (im_insert keq k (rc_fresh c) (rc_txs c)) as [txs1 old]. intros Hins ->.
    cbn [rc_pending rc_txs rc_ready rc_canceled rc_fresh].
    split; [|split; [apply Forall_app; split; [exact HP|constructor; [split; assumption|constructor]]|exact HR]].
    cbn [rc_pending rc_txs rc_ready rc_canceled rc_fresh]. rewrite map_app. cbn [map].
    set (fr := rc_fresh c) in *.
    assert (F1 : ~ In fr (map s_tok (map ksig (rc_pending c) ++ map rksig (rc_ready c)))).
    { intros C. assert (X := i_fr HI fr (or_introl C)). lia. }
    assert (F2 : ~ In fr (rc_canceled c)).
    { intros C. assert (X := i_fr HI fr (or_intror C)). lia. }
    assert (F3 : ~ In fr (map snd (map ksig (rc_pending c) ++ map rksig (rc_ready c)))).
    { intros C. assert (X := i_nx HI _ C). lia. }
    assert (HI' : Inv (map ksig (rc_pending c)) (map rksig (rc_ready c)) (rc_txs c) (rc_canceled c) (S fr) (S fr) a).
    { destruct HI as [A1 A2 A3 A4 A5 A6 A7 A8 A9 A10 A11 A12]. constructor; auto;
        [intros t Ht; specialize (A3 t Ht)|intros i Hi; specialize (A4 i Hi)]; lia. }
    destruct old as [t0|].
    - destruct Hins as (l1 & l2 & E1 & E2).
      assert (P : Permutation (rc_txs c) ((k, t0) :: l1 ++ l2)).
      { rewrite E1. apply Permutation_sym, Permutation_middle. }
      destruct (Inv_cancel keq P HI') as (i0 & Hp & Hk & HI2).
      assert (F2' : ~ In fr (t0 :: rc_canceled c)).
      { intros [->|C]; [|tauto]. assert (X := i_txs HI k fr).
        destruct X as [_ (i & X)]; [eapply Permutation_in; [apply Permutation_sym, P|left; reflexivity]|].
        apply F1. rewrite map_app. apply in_or_app. left. apply (in_map s_tok) in X. exact X. }
      assert (X := @Inv_pend _ keq _ _ _ _ _ _ _ k fr fr Hk F2' F1 F3 (Nat.lt_succ_diag_r _) (Nat.lt_succ_diag_r _) HI2).
      eexists. eapply Inv_perm; [apply Permutation_cons_append|apply Permutation_refl| |exact X].
      rewrite E2. apply Permutation_middle.
    - destruct Hins as [Hk ->].
      assert (X := @Inv_pend _ keq _ _ _ _ _ _ _ k fr fr Hk F2 F1 F3 (Nat.lt_succ_diag_r _) (Nat.lt_succ_diag_r _) HI').
      eexists. eapply Inv_perm; [apply Permutation_cons_append|apply Permutation_refl|apply Permutation_cons_append|exact X].
  Qed.

  Lemma evict_cs c k : CS c -> okm true (evict keq c k) (fun x => CS (fst x)).
  Proof.
    intros ((a & HI) & HP & HR). unfold evict.
    set (T := im_swap_remove keq k (rc_txs c)).
    assert (HT : exists txs1 cn1 hit1 a1,
      match T with
      | Some (t, txs1) => (txs1, set_canceled t (rc_canceled c), true)
      | None => (rc_txs c, rc_canceled c, false)
      end = (txs1, cn1, hit1) /\
      Inv (map ksig (rc_pending c)) (map rksig (rc_ready c)) txs1 cn1 (rc_fresh c) (rc_fresh c) a1).
    { generalize (im_swap_remove_spec keq (rc_txs c) k). fold T. destruct T as [[t txs1]|]; intros HT.
      - destruct (Inv_cancel keq HT HI) as (i0 & Hp & Hk & HI2).
        exists txs1, (t :: rc_canceled c), true. eexists. split; [reflexivity|]. exact HI2.
      - exists (rc_txs c), (rc_canceled c), false, a. split; [reflexivity|exact HI]. }
    destruct HT as (txs1 & cn1 & hit1 & a1 & -> & HI2).
    generalize (im_swap_remove_spec keq (rc_ready c) k).
    destruct (im_swap_remove keq k (rc_ready c)) as [[[s t] ready1]|]; intros HSw.
    - assert (HS' := Permutation_map rksig HSw). cbn in HS'.
      destruct (Inv_unready keq HS' HI2) as [_ HI3].
      okm_step idtac. apply okm_ret. split; [|split].
      + eexists. exact HI3.
      + exact HP.
      + assert (X := Permutation_Forall HSw HR). inversion X; assumption.
    - apply okm_ret. split; [|split]; [eexists; exact HI2|exact HP|exact HR].
  Qed.

  Lemma fu_poll_cs cn order : forall (l : list pend),
    Forall pend_ok l ->
    okm true (fu_poll (memb cn) order l)
      (fun x => Forall pend_ok (fst x) /\
         match snd x with
         | None => map ksig (fst x) = map ksig l
         | Some (PoReady k s t) =>
             Permutation (map ksig l) ((k, t, t) :: map ksig (fst x)) /\ ~ In t cn /\ Rdy s /\ In k ks
         | Some (PoCanceled k) => exists t, Permutation (map ksig l) ((k, t, t) :: map ksig (fst x)) /\ In t cn
         | Some (PoFailed k e) => exists t, Permutation (map ksig l) ((k, t, t) :: map ksig (fst x)) /\ ~ In t cn
         end).
  Proof.
    induction order as [|n order IH]; intros l HF; cbn [fu_poll].
    - apply okm_ret. split; [exact HF|reflexivity].
    - destruct (nth_error l n) as [p|] eqn:E; [|apply IH, HF].
      assert (P := remove_nth_perm _ _ E). assert (PF := Permutation_Forall P HF). inversion PF as [|? ? Hp HF1]; subst.
      assert (PM := Permutation_map ksig P). cbn [map] in PM.
      destruct (memb cn (pd_cancel p)) eqn:Ec.
      + apply memb_in in Ec. okm_step idtac. apply okm_ret. split; [exact HF1|].
        exists (pd_cancel p). split; [exact PM|exact Ec].
      + apply memb_not in Ec. eapply okm_bind; [apply okm_ready; left; apply Hp|].
        intros [s1 [|[u|e]]]; cbn [fst snd]; intros Hs.
        * set (p' := Pend (svc := svc) (pd_key p) (pd_cancel p) s1).
          assert (Em : map ksig (set_nth n p' l) = map ksig l) by (apply (@map_set_nth _ _ ksig _ _ _ p' E); reflexivity).
          eapply okm_mono; [apply IH; apply Forall_set_nth; [exact HF|split; [exact Hs|apply Hp]]|].
          intros [l1 o]. cbn [fst snd]. rewrite Em. exact (fun x => x).
        * apply okm_ret. split; [exact HF1|]. split; [exact PM|]. split; [exact Ec|]. split; [exact Hs|apply Hp].
        * okm_step idtac. apply okm_ret. split; [exact HF1|]. exists (pd_cancel p). split; [exact PM|exact Ec].
  Qed.

  Lemma nnil_perm (l l1 : list pend) : map ksig l1 = map ksig l -> l <> [] -> l1 <> [].
  Proof. intros E H ->. destruct l; [congruence|discriminate]. Qed.

  Context (sched : nat -> W -> W * list nat).
  Lemma poll_loop_cs n : forall (c : cache), CS c ->
    okm true (poll_pending_loop keq sched n c)
      (fun x => CS (fst x) /\
         match snd x with
         | Pending => rc_pending (fst x) <> []
         | Ready (Ok _) => rc_pending (fst x) = []
         | Ready (Er _) => True
         end).
  Proof.
    induction n as [|n IH]; intros c HC; cbn [poll_pending_loop]; [apply okm_diverge; reflexivity|].
    assert (HC' := HC). destruct HC' as ((a & HI) & HP & HR).
    unfold fu_poll_next. destruct (rc_pending c) as [|p0 l0] eqn:Ep.
    { eapply okm_bind; [apply okm_ret with (Q := fun x => x = ([], Ready None)); reflexivity|].
      intros ? ->. apply okm_ret. split; [exact HC|exact Ep]. }
    rewrite <- Ep in *. assert (Hne : rc_pending c <> []) by congruence. clear Ep p0 l0.
    change (is_canceled c) with (memb (rc_canceled c)).
    eapply okm_bind with (P := fun x =>
      match snd x with
      | Pending => Forall pend_ok (fst x) /\ map ksig (fst x) = map ksig (rc_pending c)
      | Ready None => False
      | Ready (Some (PoReady k s t)) => Forall pend_ok (fst x) /\
          Permutation (map ksig (rc_pending c)) ((k, t, t) :: map ksig (fst x)) /\ ~ In t (rc_canceled c) /\ Rdy s /\ In k ks
      | Ready (Some (PoCanceled k)) => Forall pend_ok (fst x) /\
          exists t, Permutation (map ksig (rc_pending c)) ((k, t, t) :: map ksig (fst x)) /\ In t (rc_canceled c)
      | Ready (Some (PoFailed k e)) => Forall pend_ok (fst x) /\
          exists t, Permutation (map ksig (rc_pending c)) ((k, t, t) :: map ksig (fst x)) /\ ~ In t (rc_canceled c)
      end).
    { eapply okm_bind with (P := fun _ => True).
      { intros w. cbv beta. destruct (sched (length (rc_pending c)) w). exact I. }
      intros order _. eapply okm_bind; [apply fu_poll_cs; exact HP|].
      intros [l o]. cbn [fst snd]. intros [HF Ho]. apply okm_ret. cbn [fst snd].
      destruct o as [[k s t|k|k e]|]; split; assumption. }
    intros [l p]. cbn [fst snd]. destruct p as [|[[k s t|k|k e]|]].
    - intros [HF Em]. apply okm_ret. cbn [fst snd rc_pending]. split; [|eapply nnil_perm; eauto].
      split; [|split; [exact HF|exact HR]]. exists a. cbn [rc_pending rc_ready rc_txs rc_canceled rc_fresh]. rewrite Em. exact HI.
    - intros (HF & B1 & B2 & B3 & B4).
      assert (Htx : In (k, t) (rc_txs c)).
      { apply (i_act HI k t t); [|exact B2]. eapply Permutation_in; [apply Permutation_sym, B1|left; reflexivity]. }
      generalize (im_swap_remove_spec keq (rc_txs c) k).
      destruct (im_swap_remove keq k (rc_txs c)) as [[tx txs1]|]; intros HSw.
      2:{ exfalso. apply HSw. apply (in_map fst) in Htx. exact Htx. }
      destruct (Inv_unpend keq B1 B2 HSw HI) as (-> & Hp & HI2 & Hk & F1 & F2 & F3 & F4).
      generalize (im_insert_spec keq (rc_ready c) k (s, t)).
      destruct (im_insert keq k (s, t) (rc_ready c)) as [ready1 old]. intros Hins.
      okm_step idtac. apply IH. split; [|split; [exact HF|]]; cbn [rc_pending rc_ready rc_txs rc_canceled rc_fresh].
      + destruct old as [[s0 t0]|].
        * destruct Hins as (u & v & E1 & E2).
          assert (P : Permutation (map rksig (rc_ready c)) ((k, t0, t0) :: map rksig (u ++ v))).
          { rewrite E1. rewrite !map_app. cbn. apply Permutation_sym, Permutation_middle. }
          destruct (Inv_unready keq P HI2) as [Hr HI3].
          assert (G1 := @not_in_sub _ _ s_tok _ _ _ _ _ P F1).
          assert (G2 := @not_in_sub _ _ snd _ _ _ _ _ P F2).
          assert (G3 : ~ In k (map s_key (map rksig (u ++ v)))).
          { apply (ready_none_key k HI3). cbn. apply put_same. }
          assert (Y := @Inv_rdy _ keq _ _ _ _ _ _ _ k t t G3 B2 G1 G2 F3 F4 HI3).
          eexists. eapply Inv_perm; [apply Permutation_refl| |apply Permutation_refl|exact Y].
          rewrite E2, !map_app. cbn. apply Permutation_middle.
        * destruct Hins as [Hk2 E2].
          assert (G3 : ~ In k (map s_key (map rksig (rc_ready c)))) by (rewrite rkeys; exact Hk2).
          assert (Y := @Inv_rdy _ keq _ _ _ _ _ _ _ k t t G3 B2 F1 F2 F3 F4 HI2).
          eexists. eapply Inv_perm; [apply Permutation_refl| |apply Permutation_refl|exact Y].
          rewrite E2, map_app. cbn. apply Permutation_cons_append.
      + destruct old as [[s0 t0]|].
        * destruct Hins as (u & v & E1 & E2). rewrite E2. rewrite E1 in HR. apply Forall_app in HR as [U V']. inversion V'; subst.
          apply Forall_app. split; [exact U|]. constructor; [split; assumption|assumption].
        * destruct Hins as [_ E2]. rewrite E2. apply Forall_app. split; [exact HR|]. constructor; [split; assumption|constructor].
    - intros (HF & t & B1 & B2). destruct (Inv_gone B1 B2 HI) as (d1 & d2 & Ed & HI2).
      apply IH. split; [|split; [exact HF|exact HR]]. eexists. exact HI2.
    - intros (HF & t & B1 & B2).
      assert (Htx : In (k, t) (rc_txs c)).
      { apply (i_act HI k t t); [|exact B2]. eapply Permutation_in; [apply Permutation_sym, B1|left; reflexivity]. }
      generalize (im_swap_remove_spec keq (rc_txs c) k).
      destruct (im_swap_remove keq k (rc_txs c)) as [[tx txs1]|]; intros HSw.
      2:{ exfalso. apply HSw. apply (in_map fst) in Htx. exact Htx. }
      destruct (Inv_unpend keq B1 B2 HSw HI) as (-> & Hp & HI2 & _).
      apply okm_ret. split; [|exact I]. split; [|split; [exact HF|exact HR]]. eexists. exact HI2.
    - tauto.
  Qed.

  Lemma poll_pending_cs (c : cache) : CS c ->
    okm true (poll_pending keq sched c)
      (fun x => CS (fst x) /\
         match snd x with
         | Pending => rc_pending (fst x) <> []
         | Ready (Ok _) => rc_pending (fst x) = []
         | Ready (Er _) => True
         end).
  Proof. apply poll_loop_cs. Qed.

  (** A service leaves the ready set. *)
  Lemma aside_cs (c : cache) k s t ready1 :
    Permutation (map rksig (rc_ready c)) ((k, t, t) :: map rksig ready1) ->
    Forall ready_ok ready1 -> R s -> In k ks -> CS c ->
    let c2 := Cache (rc_pending c) (rc_txs c) ready1 (rc_canceled c) (rc_fresh c) in
    CS c2 /\ (pending_contains keq c2 k = false -> CS (push_pending keq c2 k s t)).
  Proof.
    intros P HR1 Hs Hk0 ((a & HI) & HP & HR). cbn zeta.
    destruct (Inv_unready keq P HI) as [Hr HI2].
    split. { split; [|split; [exact HP|exact HR1]]. eexists. exact HI2. }
    unfold pending_contains. cbn [rc_txs].
    destruct (im_find keq k (rc_txs c)) as [[n0 t0]|] eqn:E; [discriminate|]. intros _.
    apply im_find_none in E.
    generalize (push_pending_eq (Cache (rc_pending c) (rc_txs c) ready1 (rc_canceled c) (rc_fresh c)) k s t).
    generalize (im_insert_spec keq (rc_txs c) k t). cbn [rc_txs].
    destruct (im_insert keq k t (rc_txs c)) as [txs1 old]. intros Hins ->.
    destruct old as [t1|].
    { exfalso. destruct Hins as (u & v & E1 & _). apply E. rewrite E1, map_app. apply in_or_app. right. left. reflexivity. }
    destruct Hins as [_ ->].
    assert (Hin : In (k, t, t) (map rksig (rc_ready c))).
    { eapply Permutation_in; [apply Permutation_sym, P|left; reflexivity]. }
    assert (G0 : ~ In t (rc_canceled c)) by apply (i_rcn HI _ _ _ Hin).
    assert (G1 : ~ In t (map s_tok (map ksig (rc_pending c) ++ map rksig ready1))).
    { assert (X := Permutation_NoDup (Permutation_map s_tok (Permutation_trans (Permutation_app_head _ P)
        (Permutation_sym (Permutation_middle (map ksig (rc_pending c)) _ _)))) (i_tok HI)). cbn in X. inversion X; auto. }
    assert (G2 : ~ In t (map snd (map ksig (rc_pending c) ++ map rksig ready1))).
    { assert (X := Permutation_NoDup (Permutation_map snd (Permutation_trans (Permutation_app_head _ P)
        (Permutation_sym (Permutation_middle (map ksig (rc_pending c)) _ _)))) (i_id HI)). cbn in X. inversion X; auto. }
    assert (G3 : t < rc_fresh c).
    { apply (i_fr HI). left. rewrite map_app. apply in_or_app. right. apply (in_map s_tok) in Hin. exact Hin. }
    assert (Y := @Inv_pend _ keq _ _ _ _ _ _ _ k t t E G0 G1 G2 G3 G3 HI2).
    cbn [rc_pending rc_ready rc_txs rc_canceled rc_fresh].
    split; [|split; [apply Forall_app; split; [exact HP|constructor; [split; assumption|constructor]]|exact HR1]].
    cbn [rc_pending rc_ready rc_txs rc_canceled rc_fresh]. rewrite map_app. cbn [map].
    eexists. eapply Inv_perm; [apply Permutation_cons_append|apply Permutation_refl|apply Permutation_cons_append|exact Y].
  Qed.

  Lemma set_nth_hit A n (y x : A) l : nth_error l n = Some x -> nth_error (set_nth n y l) n = Some y.
  Proof. revert n. induction l as [|z l IH]; intros [|n] E; cbn in *; try discriminate; auto. Qed.

  Lemma check_index_cs (c : cache) i : CS c ->
    okm true (check_ready_index keq c i)
      (fun x => CS (fst x) /\ (snd x = Ok true -> i < ready_len (fst x))).
  Proof.
    intros HC. assert (HC' := HC). destruct HC' as ((a & HI) & HP & HR). unfold check_ready_index.
    destruct (nth_error (rc_ready c) i) as [[k [s t]]|] eqn:E.
    2:{ apply okm_ret. split; [exact HC|discriminate]. }
    assert (Hs := @Forall_nth _ _ _ _ _ HR E). destruct Hs as [Hs Hk]. cbn [fst snd] in Hs, Hk.
    assert (Hlt : i < length (rc_ready c)) by (apply nth_error_Some; congruence).
    eapply okm_bind; [apply okm_ready; right; exact Hs|].
    intros [s1 v]. cbn [fst snd]. intros Hv.
    set (y := (k, (s1, t)) : K * (st svc * nat)).
    assert (Em : map rksig (set_nth i y (rc_ready c)) = map rksig (rc_ready c)).
    { apply (@map_set_nth _ _ rksig _ _ _ y E). reflexivity. }
    assert (En : nth_error (set_nth i y (rc_ready c)) i = Some y) by (eapply set_nth_hit; exact E).
    assert (HF : forall z m, swap_remove i (set_nth i y (rc_ready c)) = Some (z, m) ->
      z = y /\ Permutation (map rksig (rc_ready c)) ((k, t, t) :: map rksig m) /\ Forall ready_ok m).
    { intros z m Ez. generalize (swap_remove_spec (set_nth i y (rc_ready c)) i). rewrite Ez. intros [B1 B2].
      assert (z = y) by congruence. subst z. split; [reflexivity|].
      assert (B3 := Permutation_map rksig B2). rewrite Em in B3. split; [exact B3|].
      destruct (nth_error_split' _ _ E) as (u & u2 & Eu & Hl). rewrite Eu in HR. rewrite Eu, <- Hl, set_nth_split in B2.
      assert (B4 := Permutation_sym (Permutation_trans (Permutation_middle u u2 y) B2)).
      apply Permutation_cons_inv in B4. eapply Permutation_Forall; [apply Permutation_sym, B4|].
      apply Forall_app in HR as [H1 H2]. inversion H2; subst. apply Forall_app; auto. }
    assert (HN : swap_remove i (set_nth i y (rc_ready c)) <> None).
    { intros C. generalize (swap_remove_spec (set_nth i y (rc_ready c)) i). rewrite C. congruence. }
    destruct v as [|[[]|e]].
    - destruct (swap_remove i (set_nth i y (rc_ready c))) as [[z ready2]|] eqn:Ez; [|congruence].
      destruct (HF _ _ eq_refl) as (-> & B1 & B2). unfold y at 1.
      destruct (@aside_cs _ _ _ _ _ B1 B2 Hv Hk HC) as [X1 X2].
      destruct (pending_contains keq (Cache (rc_pending c) (rc_txs c) ready2 (rc_canceled c) (rc_fresh c)) k).
      + okm_step idtac. apply okm_ret. split; [exact X1|discriminate].
      + apply okm_ret. split; [exact (X2 eq_refl)|discriminate].
    - apply okm_ret. split.
      + split; [|split; [exact HP|]]; cbn [rc_pending rc_ready rc_txs rc_canceled rc_fresh fst].
        * exists a. rewrite Em. exact HI.
        * apply Forall_set_nth; [exact HR|split; assumption].
      + intros _. unfold ready_len. cbn [fst rc_ready]. rewrite <- (map_length rksig), Em, map_length. exact Hlt.
    - destruct (swap_remove i (set_nth i y (rc_ready c))) as [[z ready2]|] eqn:Ez; [|congruence].
      destruct (HF _ _ eq_refl) as (-> & B1 & B2). unfold y at 1.
      okm_step idtac. apply okm_ret. split; [|discriminate].
      split; [|split; [exact HP|exact B2]]. eexists. apply (Inv_unready keq B1 HI).
  Qed.

  Lemma call_index_cs (c : cache) i r : CS c -> i < ready_len c ->
    okm true (call_ready_index keq c i r) (fun x => CS (fst x) /\ V (snd x)).
  Proof.
    intros HC Hi. assert (HC' := HC). destruct HC' as ((a & HI) & HP & HR). unfold call_ready_index.
    generalize (swap_remove_spec (rc_ready c) i).
    destruct (swap_remove i (rc_ready c)) as [[[k [s t]] ready1]|]; intros HSw.
    2:{ exfalso. apply nth_error_None in HSw. unfold ready_len in Hi. lia. }
    destruct HSw as [E P].
    assert (PF := Permutation_Forall P HR). inversion PF as [|? ? [Hs Hk] HR1]; subst. cbn [fst snd] in Hs, Hk.
    assert (PM := Permutation_map rksig P). cbn in PM.
    eapply okm_bind; [apply okm_call; exact Hs|]. intros [s1 f]. cbn [fst snd]. intros [H1 H2].
    change (rksig (k, (s, t))) with (k, t, t) in PM.
    destruct (@aside_cs c k s1 t ready1 PM HR1 H1 Hk HC) as [X1 X2].
    destruct (pending_contains keq (Cache (rc_pending c) (rc_txs c) ready1 (rc_canceled c) (rc_fresh c)) k).
    - okm_step idtac. apply okm_ret. split; [exact X1|exact H2].
    - apply okm_ret. split; [exact (X2 eq_refl)|exact H2].
  Qed.
End CacheSafe.

Section BalanceSafe.
  Context {W K Req Resp Err DErr Metric G : Type} (keq : forall a b : K, {a = b} + {a <> b}).
  Context (c0 : caps) (svc : Service W Req Resp Err) (R Rdy : st svc -> Prop) (V : fut svc -> Prop).
  Hypothesis HS : Safe c0 svc R Rdy V.
  Context (D : Discover W K (st svc) DErr) (sched : nat -> W -> W * list nat).
  Context (next_u64 : G -> M W (G * Z)) (debug : bool) (load : st svc -> M W Metric) (le : Metric -> Metric -> bool).
  Context (ks : list K) (VD : dst D -> Prop).
  Hypothesis Hks : (Z.of_nat (length ks) < 2 ^ 64)%Z.
  Hypothesis HD : forall d, VD d -> gives (poll_discover D d)
    (fun x => VD (fst x) /\ match snd x with Ready (Some (Ok (Insert k s))) => In k ks /\ R s | _ => True end).
  Hypothesis HN : forall g, quiet (next_u64 g).
  Hypothesis HL : forall s, quiet (load s).
  Notation CS := (@CS W K Req Resp Err svc R Rdy ks).

  Lemma update_cs n : forall d c, VD d -> CS c ->
    okm true (update_from_discover keq D n d c) (fun x => VD (fst (fst x)) /\ CS (snd (fst x))).
  Proof.
    induction n as [|n IH]; intros d c Hd Hc; cbn [update_from_discover]; [apply okm_diverge; reflexivity|].
    eapply okm_bind; [apply okm_gives, HD, Hd|]. intros [d1 p]. cbn [fst snd]. intros [Hd1 Hp].
    destruct p as [|[[[k s|k]|e]|]]; try (apply okm_ret; split; assumption).
    - apply IH; [exact Hd1|]. destruct Hp. apply push_cs; assumption.
    - eapply okm_bind; [apply evict_cs, Hc|]. intros [c1 b] Hc1. apply IH; assumption.
  Qed.

  Lemma promote_cs n : forall c, CS c -> okm true (promote_loop keq sched debug n c) CS.
  Proof.
    induction n as [|n IH]; intros c Hc; cbn [promote_loop]; [apply okm_diverge; reflexivity|].
    eapply okm_bind; [eapply poll_pending_cs; [exact HS|exact Hc]|].
    intros [c1 [|[u|e]]]; cbn [fst snd]; intros [Hc1 Hp].
    - replace (pending_len c1 =? 0) with false; [rewrite andb_false_r; apply okm_ret; exact Hc1|].
      symmetry. apply Nat.eqb_neq. unfold pending_len. destruct (rc_pending c1); [congruence|discriminate].
    - unfold pending_len. rewrite Hp. cbn. rewrite andb_false_r. apply okm_ret. exact Hc1.
    - apply IH, Hc1.
  Qed.

  Lemma sample_okm g n : (2 <= Z.of_nat n < 2 ^ 64)%Z ->
    okm true (sample_floyd2 next_u64 debug g (Z.of_nat n))
      (fun x => Z.to_nat (fst (snd x)) < n /\ Z.to_nat (snd (snd x)) < n /\ Z.to_nat (fst (snd x)) <> Z.to_nat (snd (snd x))).
  Proof.
    intros Hn w.
    assert (Hnx : forall g w, match next_u64 g w with (_, Val _) => True | (_, Panic) => False | (_, Diverge) => False end).
    { intros g1 w1. generalize (HN g1 w1). destruct (next_u64 g1 w1) as [? [?| |]]; auto. }
    generalize (@sample_ok W G next_u64 debug (fun _ _ => True) False False (fun _ _ _ _ _ => I) Hnx g (Z.of_nat n) w Hn).
    destruct (sample_floyd2 next_u64 debug g (Z.of_nat n) w) as [w1 [[g1 [a b]]| |]]; cbn; [|tauto|tauto].
    intros (_ & Ha & Hb & Hab). lia.
  Qed.

  Lemma p2c_cs c g : CS c -> okm true (p2c_ready_index next_u64 debug load le c g)
    (fun x => match snd x with Some i => True | None => ready_len c = 0 end).
  Proof.
    intros Hc. assert (Hlen := CS_len Hc). unfold p2c_ready_index.
    destruct (ready_len c) as [|[|n]] eqn:El; [apply okm_ret; reflexivity|apply okm_ret; exact I|].
    eapply okm_bind; [apply sample_okm; lia|]. intros [g1 [a b]]. cbn [fst snd]. intros (Ha & Hb & Hab).
    replace (Z.to_nat a =? Z.to_nat b) with false by (symmetry; apply Nat.eqb_neq, Hab).
    rewrite andb_false_r.
    assert (HLi : forall i, i < S (S n) -> okm true (ready_index_load load c i) (fun _ => True)).
    { intros i Hi. unfold ready_index_load, get_ready_index.
      destruct (nth_error (rc_ready c) i) as [[k [s t]]|] eqn:E; [apply okm_quiet, HL|].
      apply nth_error_None in E. unfold ready_len in El. lia. }
    eapply okm_bind; [apply HLi, Ha|]. intros la _.
    eapply okm_bind; [apply HLi, Hb|]. intros lb _. apply okm_ret. exact I.
  Qed.

  Definition Rbal (s : balance_st (R := G) svc D) : Prop := VD (bl_disc s) /\ CS (bl_cache s).
  Definition Rdybal (s : balance_st (R := G) svc D) : Prop :=
    Rbal s /\ match bl_index s with Some i => i < ready_len (bl_cache s) | None => False end.

  Lemma loop_cs n : forall d c idx g, VD d -> CS c ->
    okm true (balance_loop keq D next_u64 debug load le n d c idx g)
      (fun x => match snd x with
                | Pending => Rbal (fst x) | Ready (Ok _) => Rdybal (fst x) | Ready (Er _) => True end).
  Proof.
    induction n as [|n IH]; intros d c idx g Hd Hc; cbn [balance_loop]; [apply okm_diverge; reflexivity|].
    assert (Hsel : forall c, CS c ->
      okm true ('(g1, o) <- p2c_ready_index next_u64 debug load le c g ;;
          match o with
          | None =>
              if debug && negb (ready_len c =? 0) then panic
              else ret (BalSt d c None g1, Pending)
          | Some i => balance_loop keq D next_u64 debug load le n d c (Some i) g1
          end)
      (fun x => match snd x with
                | Pending => Rbal (fst x) | Ready (Ok _) => Rdybal (fst x) | Ready (Er _) => True end)).
    { intros c1 Hc1. eapply okm_bind; [apply p2c_cs, Hc1|]. intros [g1 [i|]]; cbn [fst snd]; intros Ho.
      - apply IH; assumption.
      - rewrite Ho. cbn. rewrite andb_false_r. apply okm_ret. split; assumption. }
    cbv zeta. destruct idx as [i|]; [|apply Hsel, Hc].
    eapply okm_bind; [eapply check_index_cs; [exact HS|exact Hc]|].
    intros [c1 [[|]|e]]; cbn [fst snd]; intros [Hc1 Hi].
    - apply okm_ret. cbn [fst snd]. split; [split; assumption|]. cbn. apply Hi. reflexivity.
    - apply Hsel, Hc1.
    - apply Hsel, Hc1.
  Qed.

  Lemma balance_safe fuel :
    Safe (Caps true false false) (balance keq svc D sched next_u64 debug load le fuel) Rbal Rdybal (Vopt svc V).
  Proof.
    split; cbn [c_div c_stk c_cl].
    - intros s [H _]. exact H.
    - intros s [Hd Hc]. cbn [poll_ready balance].
      eapply okm_bind; [apply update_cs; assumption|]. intros [[d1 c1] e]. cbn [fst snd]. intros [Hd1 Hc1].
      destruct e as [x|]; [apply okm_ret; exact I|].
      eapply okm_bind; [apply promote_cs, Hc1|]. intros c2 Hc2. apply loop_cs; assumption.
    - discriminate.
    - intros s r [[Hd Hc] Hi]. cbn [call balance]. destruct (bl_index s) as [i|]; [|contradiction].
      eapply okm_bind; [eapply call_index_cs; [exact HS|exact Hc|exact Hi]|].
      intros [c1 f]. cbn [fst snd]. intros [Hc1 Hf]. apply okm_ret. split; [split; assumption|exact Hf].
    - intros f Hf.
      assert (Hq : forall r : result Resp Err, quiet (W := W) (ret (map_er (@inl Err DErr) r))) by (intros r w1; exact I).
      eapply okm_weaken; [|apply (map_poll_safe HS _ f Hq Hf)]. auto.
    - discriminate.
  Qed.
End BalanceSafe.
