(** Buffer: failure of the wrapped service and closing of the channel. *)
From Verif Require Import Base Limits Buffer BufferSpec BufferBase BufferMoves BufferInv1 BufferInv3.
Set Implicit Arguments.

Section Inv.
  Context {W Req Resp Err : Type} {svc : Service W Req Resp Err}.
  Notation bsys := (bsys svc).
  Notation bobs := (bobs svc).

  Lemma hist_app P (a b : list bobs) : hist P (a ++ b) -> hist P b.
  Proof. induction a; cbn; intuition. Qed.
  Lemma hist_at P (a b : list bobs) e : hist P (a ++ e :: b) -> P b e.
  Proof. intros H. apply hist_app in H. destruct H. assumption. Qed.
  Lemma hist_impl (P Q : list bobs -> bobs -> Prop) (l : list bobs) : (forall l e, P l e -> Q l e) -> hist P l -> hist Q l.
  Proof. intros H. induction l; cbn; intuition. Qed.

  Definition nofail (l : list bobs) : Prop := forall e, ~ In (WAsk (Ready (Er e))) l.

  Definition calm (p : wpc svc) : Prop := match p with WStore _ _ | WClose _ _ | WTell _ => False | _ => True end.
  Definition past (p : wpc svc) : Prop := match p with WStore _ _ | WClose _ _ | WReady _ | WSend _ _ => False | _ => True end.

  Inductive fstate (y : bsys) (log : list bobs) : Prop :=
  | FsWell k : nofail log -> y_cell y = None -> y_closed y = false -> y_wk y = Some k -> w_failed k = None -> calm (w_pc k) -> fstate y log
  | FsGone : nofail log -> y_cell y = None -> y_closed y = true -> y_wk y = None -> fstate y log
  | FsStore e k m : In (WAsk (Ready (Er e))) log -> (forall e', In (WAsk (Ready (Er e'))) log -> e' = e) ->
      y_cell y = None -> y_closed y = false -> y_wk y = Some k -> w_failed k = None -> w_pc k = WStore m e -> fstate y log
  | FsClose e k m : In (WAsk (Ready (Er e))) log -> (forall e', In (WAsk (Ready (Er e'))) log -> e' = e) ->
      y_cell y = Some e -> y_closed y = false -> y_wk y = Some k -> w_failed k = None -> w_pc k = WClose m e -> fstate y log
  | FsFailed e k : In (WAsk (Ready (Er e))) log -> (forall e', In (WAsk (Ready (Er e'))) log -> e' = e) ->
      y_cell y = Some e -> y_closed y = true -> y_wk y = Some k -> w_failed k = Some e -> past (w_pc k) -> fstate y log
  | FsOver e : In (WAsk (Ready (Er e))) log -> (forall e', In (WAsk (Ready (Er e'))) log -> e' = e) ->
      y_cell y = Some e -> y_closed y = true -> y_wk y = None -> fstate y log.

  Definition is_ask_err (e : bobs) : bool := match e with WAsk (Ready (Er _)) => true | _ => false end.
  Lemma no_ask_err (l : list bobs) log e : forallb (fun e => negb (is_ask_err e)) l = true ->
    In (WAsk (Ready (Er e))) (rev l ++ log) <-> In (WAsk (Ready (Er e))) log.
  Proof.
    intros H. rewrite in_app_iff. split; [|auto]. intros [X|X]; [|exact X]. apply in_rev in X.
    eapply forallb_forall in H; [|exact X]. discriminate H.
  Qed.

  Lemma fstate_keep (y y1 : bsys) l log : fstate y log -> forallb (fun e => negb (is_ask_err e)) l = true ->
    y_cell y1 = y_cell y -> y_closed y1 = y_closed y -> y_wk y1 = y_wk y -> fstate y1 (rev l ++ log).
  Proof.
    intros F L E1 E2 E3. assert (X := fun e => @no_ask_err l log e L).
    assert (Y : forall e, (forall e', In (WAsk (Ready (Er e'))) log -> e' = e) -> forall e', In (WAsk (Ready (Er e'))) (rev l ++ log) -> e' = e).
    { intros e H e' H'. apply X in H'. auto. }
    assert (Z : nofail log -> nofail (rev l ++ log)).
    { intros N e H. apply X in H. exact (N e H). }
    destruct F.
    - eapply FsWell; eauto; congruence.
    - eapply FsGone; eauto; congruence.
    - eapply FsStore; eauto; try congruence. apply X. assumption.
    - eapply FsClose; eauto; try congruence. apply X. assumption.
    - eapply FsFailed; eauto; try congruence. apply X. assumption.
    - eapply FsOver; eauto; try congruence. apply X. assumption.
  Qed.

  (** Where an error given to handle [h] comes from. *)
  Definition origin (h : nat) (l : list bobs) (x : berr) : Prop :=
    match x with
    | BSvc e => In (WAsk (Ready (Er e))) l
    | BClosed => (In WGone l /\ nofail l) \/ exists r, In (OCallPanic h r) l
    | BInner _ => False
    end.
  Definition perr (l : list bobs) (e : bobs) : Prop :=
    match e with
    | WAsk _ | WCall _ _ _ | WAnswer _ (Ok _) => nofail l
    | WAnswer _ (Er e) => In (WAsk (Ready (Er e))) l
    | OReady h (Ready (Er x)) => origin h l x
    | ORefused h _ _ x => origin h l x
    | _ => True
    end.

  Record inv_e (y : bsys) (log : list bobs) : Prop := {
    e_state : fstate y log;
    e_gone : y_wk y = None <-> In WGone log;
    e_handle : forall h ps pc, y_hs y h = Some (Hd ps pc) ->
      ps = PsClosed \/ pc = HErrReady \/ (exists r, pc = HErrCall r) ->
      y_closed y = true \/ exists r, In (OCallPanic h r) log;
    e_quiet : y_closed y = false -> forall id x, ~ In (WAnswer id (Er x)) log;
    e_hist : hist perr log }.

  Lemma inner_noask id f (y : bsys) l y1 : inner_poll id f y l y1 ->
    forallb (fun e => negb (is_ask_err e)) l = true /\ ~ In WGone l /\ hist perr (rev l) /\
    (forall log, hist perr log -> hist perr (rev l ++ log)) /\ (forall log, In WGone (rev l ++ log) <-> In WGone log).
  Proof.
    destruct 1; (split; [reflexivity|]); (split; [cbn; intuition discriminate|]); cbn; (split; [auto|]); (split; [auto|]);
      intuition discriminate.
  Qed.
  Lemma fmove_noask (y : bsys) l y1 : fmove y l y1 ->
    forallb (fun e => negb (is_ask_err e)) l = true /\
    (forall log, hist perr log -> hist perr (rev l ++ log)) /\ (forall log, In WGone (rev l ++ log) <-> In WGone log).
  Proof.
    destruct 1; try (lazymatch goal with H : inner_poll _ _ _ _ _ |- _ => apply inner_noask in H; tauto end);
      (split; [reflexivity|]); cbn; (split; [auto|]); intuition discriminate.
  Qed.

  Lemma error_origin (y : bsys) log h ps pc : inv_e y log -> y_hs y h = Some (Hd ps pc) ->
    ps = PsClosed \/ pc = HErrReady \/ (exists r, pc = HErrCall r) -> origin h log (get_error_on_closed y).
  Proof.
    intros I H P. apply (e_handle I _ H) in P. unfold get_error_on_closed.
    assert (G := e_gone I). destruct (e_state I) as [k N C L|N C L K|e k m A U C L|e k m A U C L|e k A U C L|e A U C L]; rewrite C; cbn; auto.
    - right. destruct P as [P|P]; [congruence|exact P].
    - left. tauto.
    - right. destruct P as [P|P]; [congruence|exact P].
  Qed.

  Ltac nf := lazymatch goal with
    | N : nofail _ |- nofail _ => let X := fresh in intros ? X; cbn [In] in X; repeat (destruct X as [X|X]; [discriminate X|]); exact (N _ X)
    | U : (forall e', In _ _ -> e' = _) |- (forall e', In _ _ -> e' = _) =>
        let X := fresh in intros ? X; cbn [In] in X; repeat (destruct X as [X|X]; [discriminate X|]); exact (U _ X)
    | |- In _ _ => cbn [In]; auto 6
    | |- _ => idtac
    end.
  Ltac fs := first
    [ solve [eapply FsWell; ysimp; nf; eauto; first [exact I|congruence]]
    | solve [eapply FsGone; ysimp; nf; eauto]
    | solve [eapply FsFailed; ysimp; nf; eauto; first [exact I|congruence]]
    | solve [eapply FsOver; ysimp; nf; eauto]
    | solve [eapply FsStore; ysimp; nf; eauto]
    | solve [eapply FsClose; ysimp; nf; eauto] ].

  Lemma inv_e_step (y : bsys) log l y1 : inv_e y log -> move y l y1 -> inv_e y1 (rev l ++ log).
  Proof.
    intros I M. assert (O := fun h ps pc => @error_origin y log h ps pc I). destruct I as [F G Hh Hq Hi].
    destruct M as [|w|l y1 H|l y1 H|l y1 H].
    - split; assumption.
    - split; try assumption. eapply (@fstate_keep y _ []); eauto.
    - assert (Q : forallb (fun e => negb (is_ask_err e)) l = true /\ y_cell y1 = y_cell y /\ y_closed y1 = y_closed y /\ y_wk y1 = y_wk y /\
        (In WGone (rev l ++ log) <-> In WGone log)).
      { destruct H; repeat (split; [reflexivity|]); cbn; intuition discriminate. }
      destruct Q as (Q1 & Q2 & Q3 & Q4 & Q5). split.
      + eapply fstate_keep; eauto.
      + rewrite Q4, Q5. exact G.
      + rewrite Q3. intros h0 ps0 pc0 E P.
        assert (X : y_closed y = true \/ exists r, In (OCallPanic h0 r) log \/ l = [OCallPanic h0 r]).
        { destruct H; ysimp; apply upd_cases in E as [[-> E]|[Ne E]]; try discriminate E;
            try (injection E as <- <-).
          all: try (destruct (Hh _ _ _ E P) as [X|[? X]]; eauto; fail).
          all: try (destruct P as [P|[P|[? P]]]; discriminate P).
          all: try (destruct P as [P|[P|[? P]]]; try discriminate P;
                 lazymatch goal with E0 : y_hs _ _ = Some _ |- _ => destruct (Hh _ _ _ E0) as [X|[? X]]; subst; eauto end; fail).
          - destruct (y_closed y) eqn:Ec; [auto|].
            destruct P as [P|[P|[? P]]]; try discriminate P. destruct (Hh _ _ _ H) as [X|[? X]]; eauto.
          - destruct H1 as [H1|H1]; [auto|]. destruct (Hh _ _ _ H) as [X|[? X]]; eauto.
          - eauto. }
        destruct X as [X|[r [X| ->]]]; [auto| |].
        * right. exists r. apply in_or_app. auto.
        * right. exists r. apply in_or_app. left. left. reflexivity.
      + rewrite Q3. intros Cl id x X. apply in_app_or in X as [X|X]; [|exact (Hq Cl _ _ X)].
        destruct H; cbn in X; intuition discriminate.
      + destruct H; ysimp; cbn [hist perr]; auto; split; auto.
        * eapply O; eauto.
        * eapply O; eauto.
    - assert (Q := fmove_quiet H). destruct Q as (Q1 & _ & _ & _ & _ & _ & Q7 & Q8 & Q9 & _).
      assert (NA : forall id x, ~ In (WAnswer id (Er x)) (rev l)).
      { intros id x X. destruct H; try (lazymatch goal with H : inner_poll _ _ _ _ _ |- _ => destruct H end); cbn in X; intuition discriminate. }
      apply fmove_noask in H as (H1 & H2 & H3). split; auto.
      + eapply fstate_keep; eauto.
      + rewrite Q9, H3. exact G.
      + rewrite Q1, Q7. intros h ps pc E P. destruct (Hh h ps pc E P) as [X|[r X]]; [auto|]. right. exists r. apply in_or_app. auto.
      + rewrite Q7. intros Cl id x X. apply in_app_or in X as [X|X]; [exact (NA _ _ X)|exact (Hq Cl _ _ X)].
    - assert (K : exists k, y_wk y = Some k) by (destruct H; eauto). destruct K as [k0 K0].
      assert (N0 : ~ In WGone log) by (intros X; apply G in X; congruence).
      split.
      + destruct H; rewrite H in K0; injection K0 as ->.
        all: destruct F as [k1 N C L K F1 P1|N C L K|e1 k1 m1 A U C L K F1 P1|e1 k1 m1 A U C L K F1 P1|e1 k1 A U C L K F1 P1|e1 A U C L K]; rewrite H in K; try discriminate K; try (injection K as <-).
        all: try (rewrite H0 in P1; try discriminate P1; try contradiction P1); try congruence.
        all: ysimp.
        all: try fs.
        * eapply FsStore; ysimp; [left; reflexivity| |eauto|eauto|reflexivity|eauto|reflexivity].
          intros e' [X|X]; [congruence|destruct (N _ X)].
        * injection P1 as <- <-. eapply FsClose; ysimp; [eauto|exact U|reflexivity|eauto|reflexivity|eauto|reflexivity].
        * injection P1 as <- <-. eapply FsFailed; ysimp; [eauto|exact U|eauto|reflexivity|reflexivity|reflexivity|exact I].
        * exfalso. destruct H0 as [(X & Y & _)|[(X & _)|(X & Y)]]; try congruence.
      + destruct H; ysimp; rewrite ?H; cbn [In]; try (intuition (discriminate || congruence)).
      + intros h ps pc. assert (Q := wmove_quiet H). destruct Q as (Q1 & _). rewrite Q1. intros E P.
        destruct (Hh _ _ _ E P) as [X|[r X]]; [|right; exists r; apply in_or_app; auto].
        left. destruct H; ysimp; auto.
      + intros Cl id x X.
        assert (Cl' : y_closed y = false) by (destruct H; ysimp; auto; discriminate).
        apply in_app_or in X as [X|X]; [|exact (Hq Cl' _ _ X)].
        destruct H; cbn in X; try (intuition discriminate).
        all: rewrite H in K0; injection K0 as ->.
        all: destruct F as [k1 N C L K F1 P1|N C L K|e1 k1 m1 A U C L K F1 P1|e1 k1 m1 A U C L K F1 P1|e1 k1 A U C L K F1 P1|e1 A U C L K]; rewrite H in K; try discriminate K; try (injection K as <-); congruence.
      + destruct H; rewrite H in K0; injection K0 as ->; ysimp; cbn [hist perr]; auto.
        all: destruct F as [k1 N C L K F1 P1|N C L K|e1 k1 m1 A U C L K F1 P1|e1 k1 m1 A U C L K F1 P1|e1 k1 A U C L K F1 P1|e1 A U C L K]; rewrite H in K; try discriminate K; try (injection K as <-).
        all: try (rewrite H0 in P1; try discriminate P1; try contradiction P1); try congruence.
        all: auto.
        all: split; [congruence|auto].
  Qed.
End Inv.
