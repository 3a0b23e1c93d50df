(** Buffer: all the invariants together. *)
From Verif Require Import Base Limits Buffer BufferSpec BufferBase BufferMoves BufferInv1 BufferInv2 BufferInv3 BufferInv4 BufferInv5 BufferInv6.
Set Implicit Arguments.

Section Inv.
  Context {W Req Resp Err : Type} {svc : Service W Req Resp Err}.
  Notation bsys := (bsys svc).
  Notation bobs := (bobs svc).

  Lemma sbg_nil (l : list bobs) : ~ In WGone l -> sent_before_gone l = [].
  Proof.
    induction l as [|e l IH]; [reflexivity|]. cbn [In]. intros H.
    destruct e; cbn; try (apply IH; tauto). destruct H. left. reflexivity.
  Qed.
  Lemma sbg_sub (l : list bobs) id : In id (sent_before_gone l) -> In id (map fst (sent l)).
  Proof. induction l as [|e l IH]; [auto|]. destruct e; cbn; auto. Qed.

  Definition inv_b (y : bsys) (log : list bobs) : Prop :=
    forall id, In id (sent_before_gone log) -> ~ In id (ids (holds (y_wk y) ++ y_queue y)).
  Lemma inv_b_step (y : bsys) log l y1 : inv_q y log -> inv_e y log -> inv_b y log -> move y l y1 -> inv_b y1 (rev l ++ log).
  Proof.
    intros Q E B M. destruct M as [|w|l y1 H|l y1 H|l y1 H].
    - exact B.
    - exact B.
    - destruct H; try exact B; unfold inv_b; ysimp; cbn [sent_before_gone]; intros id X.
      + assert (Y := X). apply sbg_sub in X. apply (q_lt Q) in X. apply B in Y.
        rewrite app_assoc, ids_app, in_app_iff. cbn. intuition lia.
      + rewrite H0. auto.
    - assert (X : sent_before_gone (rev l ++ log) = sent_before_gone log).
      { destruct H; try (lazymatch goal with H : inner_poll _ _ _ _ _ |- _ => destruct H end); reflexivity. }
      apply fmove_quiet in H as (E1 & _ & _ & _ & E5 & _ & E7 & _ & E9 & _).
      unfold inv_b. rewrite X, E5, E9. exact B.
    - assert (K : y_wk y <> None) by (destruct H; congruence).
      assert (N : ~ In WGone log) by (intros X; apply (e_gone E) in X; contradiction).
      assert (Z := sbg_nil _ N). unfold inv_b. destruct H; cbn [rev app sent_before_gone]; ysimp; intros id; rewrite ?Z; try (intros []; fail); cbn; auto.
  Qed.

  Ltac kill_cur := repeat match goal with
    | C : curp ?k, P : w_pc ?k = ?p |- _ =>
        lazymatch goal with _ : w_cur k = _ |- _ => fail | _ => idtac end;
        let E := fresh "Ec" in
        assert (E : w_cur k = None) by
          (destruct (w_cur k) eqn:?E0; [exfalso; destruct C as [?E1|?E1]; congruence|reflexivity])
    end.

  (** ** What becomes of a request *)
  Definition pserved (l : list bobs) (e : bobs) : Prop :=
    match e with WDone => forall id r, In (id, r) (sent l) -> served id r l | _ => True end.
  Record inv_t (y : bsys) (log : list bobs) : Prop := {
    t_fate : forall id r, In (id, r) (sent log) ->
      In (id, r) (pairs (holds (y_wk y) ++ y_queue y)) \/ served id r log \/ In WGone log;
    t_hist : hist pserved log }.
  Lemma served_more id r (l log : list bobs) : served id r log -> served id r (l ++ log).
  Proof.
    intros [H|[[f H]|[e H]]]; [left|right; left; exists f|right; right; exists e]; apply in_or_app; auto.
  Qed.
  Lemma inv_t_step (y : bsys) log l y1 : inv_q y log -> inv_e y log -> inv_f y log -> inv_d y log -> inv_t y log ->
    move y l y1 -> inv_t y1 (rev l ++ log).
  Proof.
    intros Q E F D [T Th] M.
    assert (S1 : forall id r, served id r log -> served id r (rev l ++ log)) by (intros; apply served_more; assumption).
    assert (S2 : In WGone log -> In WGone (rev l ++ log)) by (intros; apply in_or_app; auto).
    destruct M as [|w|l y1 H|l y1 H|l y1 H].
    - split; auto.
    - split; auto.
    - assert (Y : y_wk y1 = y_wk y) by (destruct H; reflexivity). split; [|destruct H; cbn; auto].
      intros id r X. rewrite Y. assert (Z : sent (rev l ++ log) = sent log -> y_queue y1 = y_queue y ->
        In (id, r) (pairs (holds (y_wk y) ++ y_queue y1)) \/ served id r (rev l ++ log) \/ In WGone (rev l ++ log)).
      { intros Z1 Z2. rewrite Z1 in X. rewrite Z2. destruct (T _ _ X) as [V|[V|V]]; auto. }
      destruct H; try (apply Z; reflexivity).
      + ysimp. cbn [sent] in X. rewrite app_assoc, pairs_app, in_app_iff. cbn [pairs map In]. destruct X as [X|X]; [auto|].
        destruct (T _ _ X) as [V|[V|V]]; auto.
      + right. right. cbn [rev app In]. right. apply (e_gone E). assumption.
    - assert (V := fmove_logs H log). destruct V as (V1 & _).
      assert (Z : hist pserved (rev l ++ log)).
      { destruct H; try (lazymatch goal with H : inner_poll _ _ _ _ _ |- _ => destruct H end); cbn; auto. }
      apply fmove_quiet in H as (_ & _ & _ & _ & E5 & _ & _ & _ & E9 & _). split; [|exact Z].
      intros id r X. rewrite V1 in X. rewrite E5, E9. destruct (T _ _ X) as [V|[V|V]]; auto.
    - assert (S' : sent (rev l ++ log) = sent log) by (destruct H; reflexivity).
      assert (C : forall k, y_wk y = Some k -> curp k) by apply (q_cur Q).
      assert (Sd := f_send F).
      assert (K : exists k, y_wk y = Some k) by (destruct H; eauto). destruct K as [k0 K0].
      assert (N0 : ~ In WGone log) by (intros X; apply (e_gone E) in X; congruence).
      assert (T' : forall id r, In (id, r) (sent log) -> In (id, r) (pairs (holds (y_wk y) ++ y_queue y)) \/ served id r log).
      { intros id r X. destruct (T _ _ X) as [V|[V|V]]; [auto|auto|contradiction]. }
      split.
      + intros id r X. rewrite S' in X. apply T' in X. destruct X as [X|X]; [|right; left; apply S1; exact X].
        destruct H; rewrite H in K0; injection K0 as ->; specialize (C _ H).
        all: try (right; right; cbn; auto; fail).
        all: try (specialize (Sd _ _ _ H H0)).
        all: kill_cur; rewrite H in *; ysimp; cbn [holds] in *; unfold hand in *; ysimp;
          repeat match goal with
          | X : w_pc ?k = _ |- _ => rewrite X in *; clear X
          | X : w_cur ?k = _ |- _ => rewrite X in *; clear X
          | X : y_queue ?k = _ |- _ => rewrite X in *; clear X
          end; cbn [holds hand curl pcl app pairs map In w_cur w_pc] in *; unfold hand in *; ysimp; cbn [curl pcl app pairs map In] in *;
          rewrite ?app_nil_r in *.
        all: try (left; exact X).
        all: try (destruct X as [X|X]; [|left; exact X]; injection X as <- <-; right; left).
        all: try (left; left; reflexivity).
        * right. right. exists e. left. reflexivity.
        * right. left. exists f. right. exact Sd.
        * right. right. exists e. left. reflexivity.
      + destruct H; cbn [rev app hist pserved]; auto.
        * split; [|auto]. assert (Fi := d_fin D H H1). destruct (d_done D Fi) as (A & B & _).
          intros id r X. cbn [sent] in X. apply T' in X. rewrite A, B in X. destruct X as [[]|X].
          apply (served_more [WStart]). exact X.
        * split; [|auto]. intros id r X. apply T' in X. destruct X as [X|X]; [|exact X].
          specialize (C _ H). kill_cur. rewrite H in X. cbn [holds] in X. unfold hand in X. rewrite Ec, H0, H1 in X. destruct X.
  Qed.

  Record binv (bound : nat) (y : bsys) (log : list bobs) : Prop := {
    bi_h : inv_h y log; bi_p : inv_p bound y log; bi_q : inv_q y log; bi_e : inv_e y log;
    bi_f : inv_f y log; bi_l : inv_l y log; bi_d : inv_d y log; bi_b : inv_b y log; bi_t : inv_t y log }.

  Lemma binv_step bound (y : bsys) log l y1 : binv bound y log -> move y l y1 -> binv bound y1 (rev l ++ log).
  Proof.
    intros [A B C D E F G H K] M. split.
    - eapply inv_h_step; eauto.
    - eapply inv_p_step; eauto.
    - eapply inv_q_step; eauto.
    - eapply inv_e_step; eauto.
    - eapply inv_f_step; eauto.
    - eapply inv_l_step; eauto.
    - eapply inv_d_step; eauto.
    - eapply inv_b_step; eauto.
    - eapply inv_t_step; eauto.
  Qed.

  Lemma binv_run bound ops : forall (y : bsys) log, binv bound y log ->
    binv bound (fst (brun y log ops)) (snd (brun y log ops)).
  Proof.
    induction ops as [|o ops IH]; intros y log I; cbn [brun]; [exact I|].
    assert (M := bstep_move o y). destruct (bstep o y) as [y1 l]. cbn [fst snd] in M.
    apply IH. eapply binv_step; eauto.
  Qed.

  Lemma binv_init bound s w : binv bound (bsys0 svc bound s w) [].
  Proof.
    split.
    - split; cbn.
      + intros h d. unfold upd. destruct (Nat.eqb_spec h 0); [lia|discriminate].
      + intros h. unfold upd. destruct (Nat.eqb_spec h 0); intuition discriminate.
      + intros h. unfold upd. destruct (Nat.eqb_spec h 0); (split; [discriminate|]); intros [pc X]; discriminate X.
    - split; [reflexivity|]. left. cbn. unfold permits. cbn. lia.
    - split; cbn; try discriminate; try tauto.
      + intros k X. injection X as <-. unfold curp. cbn. congruence.
      + exists []. cbn. split; [reflexivity|constructor].
      + constructor.
      + intros id. intuition discriminate.
    - split; cbn; auto.
      + eapply FsWell; cbn; auto; [intros e []|exact I].
      + intuition discriminate.
      + intros h ps pc. unfold upd. destruct (Nat.eqb_spec h 0); [|discriminate]. intros X. injection X as <- <-.
        intros [X|[X|[r X]]]; discriminate X.
    - split; cbn; try discriminate; try tauto; auto.
      intros k m f X. injection X as <-. discriminate.
    - split; cbn; auto.
      + intros k m X. injection X as <-. discriminate.
      + intros k m X. injection X as <-. discriminate.
      + intros k m X. injection X as <-. discriminate.
    - split; cbn; auto; try tauto. intros k X. injection X as <-. discriminate.
    - intros id [].
    - split; cbn; auto; tauto.
  Qed.

  Theorem binv_always bound s w ops :
    binv bound (fst (brun (bsys0 svc bound s w) [] ops)) (snd (brun (bsys0 svc bound s w) [] ops)).
  Proof. apply binv_run, binv_init. Qed.
End Inv.
