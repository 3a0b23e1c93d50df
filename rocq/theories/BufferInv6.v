(** Buffer: the shape of the worker's log, shutting down, and all the invariants together. *)
From Verif Require Import Base Limits Buffer BufferSpec BufferBase BufferMoves BufferInv1 BufferInv2 BufferInv3 BufferInv4 BufferInv5.
Set Implicit Arguments.

Section Inv.
  Context {W Req Resp Err : Type} {svc : Service W Req Resp Err}.
  Notation bsys := (bsys svc).
  Notation bobs := (bobs svc).

  (** ** What the worker did last *)
  Definition wlog (l : list bobs) : list bobs := filter (@by_worker _ _ _ _ svc) l.
  Definition pwork (l : list bobs) (e : bobs) : Prop :=
    match e with
    | WCall id _ _ => exists rest, wlog l = WAsk (Ready (Ok tt)) :: WLive id :: rest
    | OCallPanic h _ => has_slot h l = false
    | _ => True
    end.
  Record inv_l (y : bsys) (log : list bobs) : Prop := {
    l_got : forall k m, y_wk y = Some k -> w_pc k = WGot m -> exists rest, wlog log = WLive (m_id m) :: rest;
    l_ready : forall k m, y_wk y = Some k -> w_pc k = WReady m ->
      exists rest, wlog log = WAsk (Ready (Ok tt)) :: WLive (m_id m) :: rest;
    l_hung : forall k m, y_wk y = Some k -> w_pc k = WHung m -> In WHang log;
    l_hist : hist pwork log }.

  Lemma inv_l_step (y : bsys) log l y1 : inv_h y log -> inv_l y log -> move y l y1 -> inv_l y1 (rev l ++ log).
  Proof.
    intros IH [I1 I2 I4 I3] M. destruct M as [|w|l y1 H|l y1 H|l y1 H].
    - split; auto.
    - split; auto.
    - assert (X : wlog (rev l ++ log) = wlog log) by (destruct H; reflexivity).
      assert (Y : y_wk y1 = y_wk y) by (destruct H; reflexivity).
      split; rewrite ?X, ?Y; auto; [intros k m K P; apply in_or_app; eauto|]. destruct H; ysimp; cbn [hist pwork]; auto.
      split; [|exact I3]. destruct (has_slot h log) eqn:E; [|reflexivity]. apply (ih_slot IH) in E as [pc E].
      rewrite H in E. injection E as -> _. contradiction.
    - assert (X : wlog (rev l ++ log) = wlog log).
      { destruct H; try reflexivity; lazymatch goal with H : inner_poll _ _ _ _ _ |- _ => destruct H end; reflexivity. }
      assert (Y := fmove_quiet H). destruct Y as (_ & _ & _ & _ & _ & _ & _ & _ & Y & _).
      split; rewrite ?X, ?Y; auto; [intros k m K P; apply in_or_app; eauto|].
      destruct H; ysimp; cbn [hist pwork]; auto; lazymatch goal with H : inner_poll _ _ _ _ _ |- _ => destruct H end; ysimp; cbn [hist pwork]; auto.
    - split.
      + intros k0 m0 K P. destruct H; ysimp; try (injection K as <-); try discriminate; ysimp; try discriminate; try congruence.
        * injection P as <-. cbn. eauto.
        * injection P as <-. cbn. eauto.
      + intros k0 m0 K P. destruct H; ysimp; try (injection K as <-); try discriminate; ysimp; try discriminate; try congruence.
        injection P as <-. destruct u. destruct (I1 _ _ H H0) as [rest E]. exists rest. cbn. unfold wlog in E. rewrite E. reflexivity.
      + intros k0 m0 K P. destruct H; ysimp; try (injection K as <-); try discriminate; ysimp; try discriminate; try congruence.
        all: cbn [In]; auto.
      + destruct H; ysimp; cbn [hist pwork]; auto. split; [|exact I3]. eauto.
  Qed.

  (** ** Shutting down *)
  Definition pdone (l : list bobs) (e : bobs) : Prop :=
    match e with
    | OSent _ _ _ => ~ In WDone l
    | WDone => (forall id, In id (map fst (sent l)) -> In id (taken l)) /\
               ((forall h, alive h l = false) \/ exists e, In (WAsk (Ready (Er e))) l)
    | _ => True
    end.
  Definition unused (y : bsys) : Prop :=
    (forall h, y_hs y h = None) \/ (y_closed y = true /\ forall h pc, y_hs y h <> Some (Hd PsReady pc)).
  Record inv_d (y : bsys) (log : list bobs) : Prop := {
    d_done : In WDone log -> y_queue y = [] /\ holds (y_wk y) = [] /\
      (forall k, y_wk y = Some k -> w_finish k = true /\ w_pc k = WRest) /\ unused y;
    d_fin : forall k, y_wk y = Some k -> w_finish k = true -> In WDone log;
    d_hist : hist pdone log }.

  Lemma all_taken (y : bsys) log k : inv_q y log -> y_wk y = Some k -> y_queue y = [] ->
    forall id, In id (map fst (sent log)) -> In id (taken log).
  Proof.
    intros Q K E id H. assert (X := q_taken Q K). rewrite E in X. cbn in X. rewrite app_nil_r in X.
    rewrite map_rev in X. apply in_rev. rewrite <- X. apply -> in_rev. exact H.
  Qed.
  Lemma unused_log (y : bsys) log k : inv_h y log -> inv_e y log -> y_wk y = Some k -> unused y ->
    (forall h, alive h log = false) \/ exists e, In (WAsk (Ready (Er e))) log.
  Proof.
    intros Ih E K [U|[C _]].
    - left. intros h. destruct (alive h log) eqn:X; [|reflexivity]. apply (ih_alive Ih) in X. destruct (X (U h)).
    - right. destruct (e_state E); try congruence; eauto.
  Qed.

  Lemma inv_d_step bound (y : bsys) log l y1 : inv_h y log -> inv_p bound y log -> inv_q y log -> inv_e y log ->
    inv_d y log -> move y l y1 -> inv_d y1 (rev l ++ log).
  Proof.
    intros Ih Ip Q E [D1 D2 D3] M. destruct M as [|w|l y1 H|l y1 H|l y1 H].
    - split; auto.
    - split; auto.
    - assert (X : In WDone (rev l ++ log) <-> In WDone log) by (destruct H; cbn; intuition discriminate).
      assert (Y : y_wk y1 = y_wk y) by (destruct H; reflexivity).
      split; rewrite ?X, ?Y; auto.
      + intros D. destruct (D1 D) as (A & B & C & U). 
        assert (Z : y_queue y1 = [] /\ unused y1).
        { assert (NR : forall h pc, y_hs y h <> Some (Hd PsReady pc)) by (destruct U as [U|[_ U]]; [intros h pc; rewrite U; discriminate|exact U]).
          destruct H; ysimp.
          all: try (destruct (NR _ _ H)).
          all: split; [first [exact A|reflexivity]|].
          all: unfold unused; ysimp.
          all: try (destruct U as [U|[U1 U2]]; [rewrite U in H; discriminate H|]; right; split; [exact U1|]).
          all: try (intros h0 pc0 Z; apply upd_cases in Z as [[-> Z]|[_ Z]]; [|destruct (NR _ _ Z)]; try discriminate Z; inversion Z; subst;
               first [congruence|eapply NR; eassumption]). }
        tauto.
      + intros k K F. apply X. eauto.
      + destruct H; ysimp; cbn [hist pdone]; auto.
        split; [|exact D3]. intros D. destruct (D1 D) as (A & B & C & [U|[_ U]]); [rewrite U in H; discriminate|destruct (U _ _ H)].
    - assert (X : In WDone (rev l ++ log) <-> In WDone log).
      { destruct H; try (lazymatch goal with H : inner_poll _ _ _ _ _ |- _ => destruct H end); cbn; intuition discriminate. }
      assert (Z : hist pdone (rev l ++ log)).
      { destruct H; try (lazymatch goal with H : inner_poll _ _ _ _ _ |- _ => destruct H end); cbn; auto. }
      apply fmove_quiet in H as (E1 & _ & _ & _ & E5 & _ & E7 & _ & E9 & _).
      split; rewrite ?X, ?E9, ?E5; auto; [|intros k K F; apply X; eauto]. unfold unused. rewrite E1, E7. exact D1.
    - assert (K : exists k, y_wk y = Some k) by (destruct H; eauto). destruct K as [k0 K0].
      assert (NS : no_senders y = true -> forall h, y_hs y h = None).
      { intros N h. rewrite no_senders_spec in N. destruct (y_hs y h) eqn:X; [|reflexivity]. rewrite <- X. apply N. exact (ih_lt Ih _ X). }
      destruct H; rewrite H in K0; injection K0 as ->; cbn [rev app].
      all: try (assert (ND : ~ In WDone log) by
             (intros D; destruct (D1 D) as (_ & _ & C & _); destruct (C _ H) as [C1 C2]; congruence)).
      all: try (split; ysimp; cbn [hist pdone]; auto;
                [cbn [In]; intros D; exfalso; intuition discriminate
                |intros ? X Y; injection X as <-; ysimp; cbn [In]; apply (D2 _ H) in Y; contradiction]; fail).
      + (* finished again *)
        assert (F := D2 _ H H1). destruct (D1 F) as (A & B & C & U). split; ysimp; cbn [hist pdone In]; auto.
        split; [|split; [exact Logic.I|exact D3]]. split.
        * intros id. cbn [sent taken]. apply (all_taken Q H A).
        * destruct (unused_log Ih E H U) as [X|[e X]]; [left; exact X|right; exists e; right; exact X].
      + (* done *)
        assert (U : unused y).
        { destruct H2 as [N|[C A]]; [left; auto|right; split; [exact C|]].
          intros h pc X. destruct Ip as [B [[_ P]|(P & _)]]; [|congruence].
          assert (Y := @rcount_list _ (y_hnext y) (y_hs y) [h]). cbn [length] in Y. rewrite B in A. unfold permits in P.
          assert (Z : 1 <= rcount (y_hnext y) (y_hs y)); [|lia]. apply Y; [repeat constructor; intros []|].
          intros h' [<-|[]]. rewrite X. split; [exact (ih_lt Ih _ X)|reflexivity]. }
        assert (Ec : w_cur k0 = None).
        { destruct (w_cur k0) eqn:X; [|reflexivity]. destruct (q_cur Q H) as [Y|Y]; congruence. }
        split; ysimp; cbn [hist pdone In]; auto.
        * intros _. split; [assumption|]. cbn [holds]. unfold hand. ysimp. rewrite Ec. split; [reflexivity|]. split; [|exact U].
          intros k X. injection X as <-. auto.
        * split; [|exact D3]. split; [apply (all_taken Q H H1)|]. apply (unused_log Ih E H U).
      + (* died *)
        assert (ND : ~ In WDone log).
        { intros D. destruct (D1 D) as (_ & _ & C & _). destruct (C _ H) as [C1 C2]. intuition congruence. }
        split; ysimp; cbn [hist pdone In]; auto; [intuition discriminate|discriminate].
      + (* killed *)
        split; ysimp; cbn [hist pdone In]; auto; [|discriminate].
        intros [D|D]; [discriminate|]. destruct (D1 D) as (A & B & C & U). cbn [holds]. repeat (split; [reflexivity|]).
        split; [discriminate|]. destruct U as [U|[U1 U2]]; [left; exact U|right; split; [reflexivity|exact U2]].
  Qed.
End Inv.
