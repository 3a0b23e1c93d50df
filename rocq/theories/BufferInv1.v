(** Buffer: invariants of the handles, the channel's capacity and the order of
    the requests. *)
From Verif Require Import Base Limits Buffer BufferSpec BufferBase BufferMoves.
Set Implicit Arguments.

Ltac ysimp := cbn [set_sem set_closed set_queue set_cell set_os set_hs set_hnext set_fs set_fnext set_wk set_w
  put_handle put_fut setw gone_to os_drop_tx at_pc with_svc
  y_sem y_bound y_closed y_queue y_cell y_os y_hs y_hnext y_fs y_fnext y_wk y_w
  w_cur w_svc w_finish w_failed w_pc h_ps h_pc o_tx o_val o_rx m_id m_req rev app fst snd] in *.

Section Inv.
  Context {W Req Resp Err : Type} {svc : Service W Req Resp Err}.
  Notation bsys := (bsys svc).
  Notation bobs := (bobs svc).

  (** ** Handles *)
  Record inv_h (y : bsys) (log : list bobs) : Prop := {
    ih_lt : forall h d, y_hs y h = Some d -> h < y_hnext y;
    ih_alive : forall h, alive h log = true <-> y_hs y h <> None;
    ih_slot : forall h, has_slot h log = true <-> exists pc, y_hs y h = Some (Hd PsReady pc) }.

  Lemma upd_some A (f : nat -> option A) i x j : upd f i x j <> None <-> (j = i /\ x <> None) \/ (j <> i /\ f j <> None).
  Proof. unfold upd. destruct (Nat.eqb_spec j i); intuition. Qed.

  Lemma upd_cases A (f : nat -> A) i x j z : upd f i x j = z -> (j = i /\ x = z) \/ (j <> i /\ f j = z).
  Proof. unfold upd. destruct (Nat.eqb_spec j i); auto. Qed.

  Lemma alive_put (hs : nat -> option (handle (Req := Req))) h d d' j : hs h = Some d ->
    (hs j <> None <-> upd hs h (Some d') j <> None).
  Proof. intros H. rewrite upd_some. destruct (Nat.eq_dec j h) as [->|N]; [|intuition].
    rewrite H. intuition discriminate. Qed.

  Lemma slot_keep (hs : nat -> option (handle (Req := Req))) h ps pc pc' j : hs h = Some (Hd ps pc) ->
    ((exists p, hs j = Some (Hd PsReady p)) <-> (exists p, upd hs h (Some (Hd ps pc')) j = Some (Hd PsReady p))).
  Proof.
    intros H. unfold upd. destruct (Nat.eqb_spec j h) as [->|N]; [|tauto]. rewrite H.
    split; intros [p E]; injection E as -> ->; eauto.
  Qed.
  Lemma slot_none (hs : nat -> option (handle (Req := Req))) h ps ps' pc pc' j : hs h = Some (Hd ps pc) ->
    ps <> PsReady -> ps' <> PsReady ->
    ((exists p, hs j = Some (Hd PsReady p)) <-> (exists p, upd hs h (Some (Hd ps' pc')) j = Some (Hd PsReady p))).
  Proof.
    intros H N1 N2. unfold upd. destruct (Nat.eqb_spec j h) as [->|N]; [|tauto]. rewrite H.
    split; intros [p E]; injection E as -> ->; contradiction.
  Qed.
  Lemma unready_ne p : unready p -> p <> PsReady. Proof. destruct p; cbn; congruence. Qed.

  Definition handle_event (e : bobs) : bool :=
    match e with OReady _ (Ready (Ok _)) | OSent _ _ _ | OCloned _ _ | ODropped _ => true | _ => false end.

  Lemma quiet_alive l log h : forallb (fun e => negb (handle_event e)) l = true -> alive h (rev l ++ log) = alive h log.
  Proof.
    intros H. rewrite <- (rev_involutive l) in H. generalize dependent (rev l). clear l. intros l H.
    assert (G : forallb (fun e => negb (handle_event e)) l = true).
    { apply forallb_forall. intros x Hx. eapply forallb_forall in H; [exact H|]. apply -> in_rev. exact Hx. }
    clear H. induction l as [|e l IH]; [reflexivity|]. cbn in G. apply andb_prop in G as [G1 G2].
    cbn [app]. destruct e as [? [|[[]|]]| | | | | | | | | | | | | | | | | | | | | |]; cbn in G1 |- *; try discriminate; auto.
  Qed.
  Lemma quiet_slot l log h : forallb (fun e => negb (handle_event e)) l = true -> has_slot h (rev l ++ log) = has_slot h log.
  Proof.
    intros H. rewrite <- (rev_involutive l) in H. generalize dependent (rev l). clear l. intros l H.
    assert (G : forallb (fun e => negb (handle_event e)) l = true).
    { apply forallb_forall. intros x Hx. eapply forallb_forall in H; [exact H|]. apply -> in_rev. exact Hx. }
    clear H. induction l as [|e l IH]; [reflexivity|]. cbn in G. apply andb_prop in G as [G1 G2].
    cbn [app]. destruct e as [? [|[[]|]]| | | | | | | | | | | | | | | | | | | | | |]; cbn in G1 |- *; try discriminate; auto.
  Qed.

  (** What moves of the worker and of the futures leave alone. *)
  Lemma inner_quiet id f (y : bsys) l y1 : inner_poll id f y l y1 ->
    y_hs y1 = y_hs y /\ y_hnext y1 = y_hnext y /\ forallb (fun e => negb (handle_event e)) l = true /\
    y_sem y1 = y_sem y /\ y_queue y1 = y_queue y /\ y_bound y1 = y_bound y /\ y_closed y1 = y_closed y /\
    y_cell y1 = y_cell y /\ y_os y1 = y_os y /\ y_wk y1 = y_wk y /\ y_fnext y1 = y_fnext y.
  Proof. destruct 1; ysimp; auto 15. Qed.
  Lemma fmove_quiet (y : bsys) l y1 : fmove y l y1 ->
    y_hs y1 = y_hs y /\ y_hnext y1 = y_hnext y /\ forallb (fun e => negb (handle_event e)) l = true /\
    y_sem y1 = y_sem y /\ y_queue y1 = y_queue y /\ y_bound y1 = y_bound y /\ y_closed y1 = y_closed y /\
    y_cell y1 = y_cell y /\ y_wk y1 = y_wk y /\ y_fnext y1 = y_fnext y.
  Proof.
    destruct 1; ysimp; auto 15; lazymatch goal with H : inner_poll _ _ _ _ _ |- _ => apply inner_quiet in H end; ysimp; intuition.
  Qed.
  Lemma wmove_quiet (y : bsys) l y1 : wmove y l y1 ->
    y_hs y1 = y_hs y /\ y_hnext y1 = y_hnext y /\ forallb (fun e => negb (handle_event e)) l = true /\
    y_fs y1 = y_fs y /\ y_fnext y1 = y_fnext y /\ y_bound y1 = y_bound y.
  Proof. destruct 1; ysimp; auto 15. Qed.

  Lemma inv_h_step (y : bsys) log l y1 : inv_h y log -> move y l y1 -> inv_h y1 (rev l ++ log).
  Proof.
    intros [L A S] M. destruct M as [|w|l y1 H|l y1 H|l y1 H].
    - split; auto.
    - split; auto.
    - split.
      + intros h0 d0. destruct H; ysimp; intros E; apply upd_cases in E as [[-> E]|[N E]]; eauto; try discriminate.
        all: apply L in E; lia.
      + intros h0. destruct H; ysimp; cbn [alive]; try (rewrite A; eapply alive_put; eassumption).
        * unfold upd. destruct (Nat.eqb_spec (y_hnext y) h0) as [<-|N]; cbn.
          -- rewrite Nat.eqb_refl. intuition discriminate.
          -- destruct (Nat.eqb_spec h0 (y_hnext y)); [congruence|]. rewrite <- A. reflexivity.
        * rewrite upd_some. destruct (Nat.eqb_spec h h0) as [->|N]; cbn; [intuition discriminate|]. rewrite A. intuition.
        * rewrite upd_some. destruct (Nat.eqb_spec h h0) as [->|N]; cbn; [intuition discriminate|]. rewrite A. intuition.
      + intros h0. destruct H; ysimp; cbn [has_slot];
          repeat match goal with H : unready _ |- _ => apply unready_ne in H end.
        all: try (rewrite S; first [eapply slot_keep; eassumption|eapply slot_none; eauto; discriminate]).
        all: unfold upd.
        all: try (destruct (Nat.eqb_spec h h0) as [->|N]; cbn;
              [rewrite ?Nat.eqb_refl|destruct (Nat.eqb_spec h0 h); [congruence|]; apply S]; split; eauto; try discriminate;
              intros [p E]; try discriminate E; congruence).
        rewrite S. destruct (Nat.eqb_spec h0 (y_hnext y)) as [->|N]; [|tauto].
        split; intros [p E]; [apply L in E; lia|discriminate].
    - apply fmove_quiet in H as (E1 & E2 & E3 & _). split; rewrite E1, ?E2; auto; intros h.
      + rewrite quiet_alive by exact E3. apply A.
      + rewrite quiet_slot by exact E3. apply S.
    - apply wmove_quiet in H as (E1 & E2 & E3 & _). split; rewrite E1, ?E2; auto; intros h.
      + rewrite quiet_alive by exact E3. apply A.
      + rewrite quiet_slot by exact E3. apply S.
  Qed.
End Inv.
