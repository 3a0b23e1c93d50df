(** Buffer: the theorems, from the invariants. *)
From Verif Require Import Base Limits Buffer BufferSpec BufferBase BufferMoves BufferInv1 BufferInv2 BufferInv3 BufferInv4 BufferInv5 BufferInv6 BufferInv7.
Set Implicit Arguments.

Section Top.
  Context {W Req Resp Err : Type} (svc : Service W Req Resp Err).
  Notation bsys := (bsys svc).
  Notation bobs := (bobs svc).

  Definition buffer_run (bound : nat) (s : st svc) (w : W) (ops : list (bop (W := W) (Req := Req))) : bsys * list bobs :=
    brun (bsys0 svc bound s w) [] ops.

  Variables (bound : nat) (s : st svc) (w : W) (ops : list (bop (W := W) (Req := Req))).
  Let I : binv bound (fst (buffer_run bound s w ops)) (snd (buffer_run bound s w ops)) := binv_always _ _ _ _.

  Lemma buffer_order y l : buffer_run bound s w ops = (y, l) ->
    sublist (rev (called l)) (rev (sent l)) /\ NoDup (map fst (sent l)) /\ NoDup (map fst (called l)).
  Proof.
    intros E. generalize I. rewrite E. cbn [fst snd]. intros J. clear I. assert (Q := bi_q J).
    destruct (q_places Q) as (G & E1 & E2).
    assert (S' : sublist (rev (called l)) (rev (sent l))).
    { rewrite E1. assert (X : sublist (G ++ pairs (sends (y_wk y))) (G ++ pairs (holds (y_wk y)) ++ pairs (y_queue y))).
      { apply sub_app; [apply sub_refl|]. apply sub_more. destruct (y_wk y) as [k|]; [|constructor].
        cbn [sends holds]. unfold hand. destruct (w_pc k); cbn [sendl pcl]; try apply sub_nil_l.
        rewrite pairs_app. change (pairs [m]) with ([] ++ pairs [m]) at 1. apply sub_app; [apply sub_nil_l|apply sub_refl]. }
      clear - E2 X. revert E2 X. generalize (rev (called l)) (G ++ pairs (sends (y_wk y))) (G ++ pairs (holds (y_wk y)) ++ pairs (y_queue y)).
      intros a b c H1 H2. revert a H1. induction H2; intros a H1; auto.
      - constructor. auto.
      - inversion H1; subst; [apply sub_skip|apply sub_keep]; auto. }
    split; [exact S'|]. assert (N := q_nodup Q). split; [exact N|].
    apply (sub_map fst) in S'. apply sub_nodup in S'; [|rewrite map_rev; apply NoDup_rev; exact N].
    rewrite map_rev in S'. apply NoDup_rev in S'. rewrite rev_involutive in S'. exact S'.
  Qed.

  Lemma buffer_done_served y l l2 l1 : buffer_run bound s w ops = (y, l) -> l = l2 ++ WDone :: l1 ->
    forall id r, In (id, r) (sent l1) -> served id r l1.
  Proof.
    intros E E2. generalize I. rewrite E. cbn [fst snd]. intros J. clear I. subst l. assert (H := t_hist (bi_t J)).
    apply hist_at in H. exact H.
  Qed.

  Lemma buffer_answers y l l2 e l1 id : buffer_run bound s w ops = (y, l) -> l = l2 ++ e :: l1 ->
    match e with OInner i _ _ _ | OPolled i _ => i = id | _ => True end -> answer_from id l1 e.
  Proof.
    intros E E2 H. generalize I. rewrite E. cbn [fst snd]. intros J. clear I. subst l. assert (X := f_hist (bi_f J)).
    apply hist_at in X. destruct e as [| | | | | |i f a f1|i a| | | | | | | | | | | | | | |]; try exact Logic.I; subst i; cbn in *; auto.
  Qed.

  Lemma buffer_capacity y l hs : buffer_run bound s w ops = (y, l) -> NoDup hs ->
    (forall h, In h hs -> has_slot h l = true) -> length hs + waiting l <= bound.
  Proof.
    intros E. generalize I. rewrite E. cbn [fst snd]. intros J. clear I.
    eapply inv_p_bound; [exact (bi_h J)|exact (bi_p J)].
  Qed.

  (** C42 *)
  Lemma no_tx_settled (y : bsys) : (forall id, o_tx (y_os y id) = false) ->
    forall id, snd (bstep (BPollF id false) y) <> [OPolled id Pending].
  Proof.
    intros T id. cbn [bstep]. destruct (y_fs y id) as [[f [|]]|]; try discriminate. unfold fut_poll.
    destruct f as [[e|]| |f]; try discriminate.
    - destruct (o_val (y_os y id)) as [[f|e]|]; try discriminate.
      + unfold poll_inner. destruct (poll_fut svc f _) as [w1 [[f1 a]| |]]; discriminate.
      + rewrite T. discriminate.
    - unfold poll_inner. destruct (poll_fut svc f _) as [w1 [[f1 a]| |]]; discriminate.
  Qed.
  Lemma tx_settled id (y : bsys) : o_tx (y_os y id) = false ->
    snd (bstep (BPollF id false) y) <> [OPolled id Pending].
  Proof.
    intros T. cbn [bstep]. destruct (y_fs y id) as [[f [|]]|]; try discriminate. unfold fut_poll.
    destruct f as [[e|]| |f]; try discriminate.
    - destruct (o_val (y_os y id)) as [[f|e]|]; try discriminate.
      + unfold poll_inner. destruct (poll_fut svc f _) as [w1 [[f1 a]| |]]; discriminate.
      + rewrite T. discriminate.
    - unfold poll_inner. destruct (poll_fut svc f _) as [w1 [[f1 a]| |]]; discriminate.
  Qed.

  Lemma buffer_done_settled y l : buffer_run bound s w ops = (y, l) -> In WDone l ->
    forall id, snd (bstep (BPollF id false) y) <> [OPolled id Pending].
  Proof.
    intros E D. generalize I. rewrite E. cbn [fst snd]. intros J. clear I.
    apply no_tx_settled. intros id. destruct (o_tx (y_os y id)) eqn:X; [|reflexivity].
    apply (q_tx (bi_q J)) in X. destruct (d_done (bi_d J) D) as (A & B & _). rewrite A, B in X. destruct X.
  Qed.
  Lemma buffer_gone_settled y l id : buffer_run bound s w ops = (y, l) -> In id (sent_before_gone l) ->
    snd (bstep (BPollF id false) y) <> [OPolled id Pending].
  Proof.
    intros E D. generalize I. rewrite E. cbn [fst snd]. intros J. clear I.
    apply tx_settled. destruct (o_tx (y_os y id)) eqn:X; [|reflexivity].
    apply (q_tx (bi_q J)) in X. destruct (bi_b J _ D X).
  Qed.

  (** C43 *)
  Lemma buffer_failed y l l2 e l1 : buffer_run bound s w ops = (y, l) -> l = l2 ++ e :: l1 ->
    match e with
    | WAsk _ | WCall _ _ _ | WAnswer _ (Ok _) => forall x, ~ failed_with x l1
    | WAnswer _ (Er x) => failed_with x l1
    | OReady h (Ready (Er x)) => error_from h l1 x
    | ORefused h _ _ x => error_from h l1 x
    | _ => True
    end.
  Proof.
    intros E E2. generalize I. rewrite E. cbn [fst snd]. intros J. clear I. subst l. assert (X := e_hist (bi_e J)).
    apply hist_at in X. destruct e; try exact Logic.I; exact X.
  Qed.
  Lemma buffer_told y l id e h d c : buffer_run bound s w ops = (y, l) -> In (WAnswer id (Er e)) l ->
    y_hs y h = Some d -> at_rest d = true ->
    snd (brun y l [BReady h; BStep h c]) = OReady h (Ready (Er (BSvc e))) :: l.
  Proof.
    intros E A Hh R. generalize I. rewrite E. cbn [fst snd]. intros J. clear I.
    assert (F : failed_with e l).
    { assert (X := e_hist (bi_e J)). apply in_split in A as (a & b & ->). apply hist_at in X. cbn in X.
      apply in_or_app. right. right. exact X. }
    assert (P : y_closed y = true /\ y_cell y = Some e).
    { assert (Z := e_hist (bi_e J)).
      assert (Ns : forall k m x, y_wk y = Some k -> w_pc k = WStore m x \/ w_pc k = WClose m x -> False).
      { intros k m x K X. destruct (e_state (bi_e J)) as [k1 N C L|N C L K1|e1 k1 m1 A1 U C L K1 F1 P1|e1 k1 m1 A1 U C L K1 F1 P1|e1 k1 A1 U C L K1 F1 P1|e1 A1 U C L].
        - exact (N _ F).
        - congruence.
        - exact (e_quiet (bi_e J) L _ _ A).
        - exact (e_quiet (bi_e J) L _ _ A).
        - rewrite K in K1. injection K1 as <-. destruct X as [X|X]; rewrite X in P1; exact P1.
        - congruence. }
      destruct (e_state (bi_e J)) as [k N C L|N C L K|e1 k m A1 U C L K F1 P1|e1 k m A1 U C L K F1 P1|e1 k A1 U C L|e1 A1 U C L].
      - destruct (N _ F).
      - destruct (N _ F).
      - exfalso. eauto.
      - exfalso. eauto.
      - rewrite (U _ F). auto.
      - rewrite (U _ F). auto. }
    destruct P as [P1 P2]. destruct d as [ps pc]. destruct pc; try discriminate R.
    cbn [brun bstep]. rewrite Hh. cbn [at_rest h_pc]. unfold handle_ready, tx_is_closed. rewrite P1. cbn [h_ps rev app].
    unfold put_handle at 1. cbn [set_hs y_hs]. rewrite upd_eq. cbn [handle_step h_pc h_ps]. unfold get_error_on_closed. cbn [put_handle set_hs y_cell].
    rewrite P2. reflexivity.
  Qed.

  (** C44 *)
  Lemma filter_split A (f : A -> bool) l x r : filter f l = x :: r ->
    exists a b, l = a ++ x :: b /\ filter f b = r /\ forall y, In y a -> f y = false.
  Proof.
    induction l as [|z l IH]; [discriminate|]. cbn. destruct (f z) eqn:E.
    - intros H. injection H as -> H. exists [], l. split; [reflexivity|]. split; [exact H|]. intros y [].
    - intros H. destruct (IH H) as (a & b & -> & H1 & H2). exists (z :: a), b. split; [reflexivity|]. split; [exact H1|].
      intros y [<-|Hy]; auto.
  Qed.
  Lemma buffer_call_live y l l2 id r f l1 : buffer_run bound s w ops = (y, l) -> l = l2 ++ WCall id r f :: l1 ->
    exists a b c, l1 = a ++ WAsk (Ready (Ok tt)) :: b ++ WLive id :: c /\
      (forall e, In e (a ++ b) -> by_worker e = false) /\ ~ In (ODropFut id) c.
  Proof.
    intros E E2. generalize I. rewrite E. cbn [fst snd]. intros J. clear I. subst l.
    assert (X := l_hist (bi_l J)). apply hist_at in X. destruct X as [rest X].
    apply filter_split in X as (a & b' & -> & X & Ha). apply filter_split in X as (b & c & -> & X & Hb).
    exists a, b, c. split; [reflexivity|]. split.
    - intros e He. apply in_app_or in He as [He|He]; auto.
    - assert (Y := f_hist (bi_f J)). change (WCall id r f :: a ++ WAsk (Ready (Ok tt)) :: b ++ WLive id :: c)
        with ((WCall id r f :: a) ++ WAsk (Ready (Ok tt)) :: b ++ WLive id :: c) in Y.
      apply hist_app in Y. cbn [app hist] in Y. destruct Y as [_ Y]. apply hist_app in Y. cbn [app hist] in Y. destruct Y as [_ Y].
      apply hist_app in Y. cbn [hist] in Y. destruct Y as [Y _]. exact Y.
  Qed.
  Lemma buffer_skip_dropped y l l2 id l1 : buffer_run bound s w ops = (y, l) -> l = l2 ++ WSkip id :: l1 ->
    In (ODropFut id) l1.
  Proof.
    intros E E2. generalize I. rewrite E. cbn [fst snd]. intros J. clear I. subst l.
    assert (X := f_hist (bi_f J)). apply hist_at in X. exact X.
  Qed.

  (** C45 *)
  Lemma buffer_done y l l2 l1 : buffer_run bound s w ops = (y, l) -> l = l2 ++ WDone :: l1 ->
    (forall id r, In (id, r) (sent l1) -> In id (taken l1)) /\
    ((forall h, alive h l1 = false) \/ exists e, failed_with e l1) /\
    sent l2 = [].
  Proof.
    intros E E2. generalize I. rewrite E. cbn [fst snd]. intros J. clear I. subst l.
    assert (X := d_hist (bi_d J)). assert (Y := X). apply hist_at in X. destruct X as [X1 X2]. split; [|split; [exact X2|]].
    - intros id r H. apply X1. apply (in_map fst) in H. exact H.
    - clear - Y. induction l2 as [|e l2 IH]; [reflexivity|]. cbn [app hist] in Y. destruct Y as [Y1 Y2].
      specialize (IH Y2). destruct e; cbn [sent]; auto. destruct Y1. apply in_or_app. right. left. reflexivity.
  Qed.
  Lemma buffer_panic_misuse y l l2 h r l1 : buffer_run bound s w ops = (y, l) -> l = l2 ++ OCallPanic h r :: l1 ->
    has_slot h l1 = false.
  Proof.
    intros E E2. generalize I. rewrite E. cbn [fst snd]. intros J. clear I. subst l.
    assert (X := l_hist (bi_l J)). apply hist_at in X. exact X.
  Qed.

  Lemma move_no_panic (y : bsys) log l y1 : binv bound y log ->
    (forall s w, snd (poll_ready svc s w) <> Panic) -> (forall s r w, snd (call svc s r w) <> Panic) ->
    (forall f w, snd (poll_fut svc f w) <> Panic) -> move y l y1 ->
    ~ In WPanic l /\ forall id, ~ In (OPollPanic id) l.
  Proof.
    intros J P1 P2 P3 M. destruct M as [|w0|l y1 H|l y1 H|l y1 H].
    - cbn. auto.
    - cbn. auto.
    - destruct H; cbn; intuition discriminate.
    - assert (Q : forall id f (y0 : bsys) l y2, inner_poll id f y0 l y2 -> ~ In WPanic l /\ forall id, ~ In (OPollPanic id) l).
      { intros id f y0 l0 y2 X. destruct X; cbn; try (intuition discriminate). destruct (P3 _ _ H0). }
      destruct H; eauto; try (cbn; intuition discriminate).
      destruct (f_failed (bi_f J) _ H) as [_ X]. discriminate X.
    - destruct H; try (cbn; intuition discriminate). exfalso.
      destruct H0 as [(A & B & C)|[(A & C)|(A & B)]].
      + exact (P1 _ _ C).
      + exact (P2 _ _ _ C).
      + destruct (e_state (bi_e J)) as [k1 N C L K F1 Q1|N C L K|e1 k1 m1 A1 U C L K F1 Q1|e1 k1 m1 A1 U C L K F1 Q1|e1 k1 A1 U C L K F1 Q1|e1 A1 U C L K];
          rewrite H in K; try discriminate K; injection K as <-; try congruence. rewrite A in Q1. exact Q1.
  Qed.
  Lemma run_no_panic (ops' : list (bop (W := W) (Req := Req))) : forall (y : bsys) log, binv bound y log ->
    (forall s w, snd (poll_ready svc s w) <> Panic) -> (forall s r w, snd (call svc s r w) <> Panic) ->
    (forall f w, snd (poll_fut svc f w) <> Panic) ->
    ~ In WPanic log -> (forall id, ~ In (OPollPanic id) log) ->
    ~ In WPanic (snd (brun y log ops')) /\ forall id, ~ In (OPollPanic id) (snd (brun y log ops')).
  Proof.
    induction ops' as [|o ops' IH]; intros y log J P1 P2 P3 N1 N2; cbn [brun]; [auto|].
    assert (M := bstep_move o y). destruct (bstep o y) as [y1 l]. cbn [fst snd] in M.
    destruct (move_no_panic J P1 P2 P3 M) as [Q1 Q2].
    apply IH; auto.
    - eapply binv_step; eauto.
    - intros X. apply in_app_or in X as [X|X]; [apply in_rev in X; exact (Q1 X)|exact (N1 X)].
    - intros id X. apply in_app_or in X as [X|X]; [apply in_rev in X; exact (Q2 _ X)|exact (N2 _ X)].
  Qed.

  Lemma buffer_no_panic y l : buffer_run bound s w ops = (y, l) ->
    (forall s w, snd (poll_ready svc s w) <> Panic) -> (forall s r w, snd (call svc s r w) <> Panic) ->
    (forall f w, snd (poll_fut svc f w) <> Panic) ->
    ~ In WPanic l /\ forall id, ~ In (OPollPanic id) l.
  Proof.
    intros E P1 P2 P3. clear I. unfold buffer_run in E.
    assert (X := @run_no_panic ops (bsys0 svc bound s w) [] (@binv_always _ _ _ _ svc bound s w []) P1 P2 P3).
    rewrite E in X. apply X; [intros []|intros ? []].
  Qed.
End Top.

Lemma forallb_exists A (f : A -> bool) l : forallb f l = false -> exists x, In x l /\ f x = false.
Proof.
  induction l as [|a l IH]; [discriminate|]. cbn. destruct (f a) eqn:E; cbn.
  - intros H. destruct (IH H) as (x & Hx & Ex). eauto.
  - intros _. eauto.
Qed.

Section Progress.
  Context {W Req Resp Err : Type} (svc : Service W Req Resp Err).
  Notation bsys := (bsys svc).
  Notation bobs := (bobs svc).

  Definition weight (k : worker svc) : nat :=
    match w_pc k with
    | WRest => 8 | WNext => match w_cur k with None => 2 | Some _ => 7 end
    | WRecv => 1 | WCheck _ => 7 | WGot _ => 6 | WReady _ => 4 | WSend _ _ => 3
    | WStore _ _ => 5 | WClose _ _ => 4 | WTell _ => 3 | WHung _ => 0
    end.
  Definition bad (l : list bobs) : Prop := In (WAsk Pending) l \/ In WPanic l \/ In WHang l.
  Definition rested (l : list bobs) (y : bsys) : Prop :=
    holds (y_wk y) = [] /\ y_queue y = [] /\ (In WDone l \/ In WPend l /\ exists h, y_hs y h <> None).
  Definition hung (y : bsys) : Prop := match y_wk y with Some k => match w_pc k with WHung _ => True | _ => False end | None => False end.

  Lemma worker_progress bound (y : bsys) log k : binv bound y log -> y_wk y = Some k -> ~ hung y ->
    let '(y1, l) := worker_step false k y in
    bad l \/ rested l y1 \/
    exists k1, y_wk y1 = Some k1 /\ ~ hung y1 /\ weight k1 + 8 * length (y_queue y1) < weight k + 8 * length (y_queue y).
  Proof.
    intros J K Hg. unfold worker_step, weight, bad. unfold hung in Hg. rewrite K in Hg.
    assert (Cur := q_cur (bi_q J) K). unfold curp in Cur.
    destruct (w_pc k) as [| | |m|m|m|m f|m e|m e|m|m] eqn:Ep.
    - destruct (w_finish k) eqn:Ef.
      + right. left. assert (D := d_fin (bi_d J) K Ef). destruct (d_done (bi_d J) D) as (A & B & _). split; [exact B|].
        split; [exact A|]. left. cbn. auto.
      + right. right. eexists. split; [reflexivity|]. split; [unfold hung; cbn; tauto|]. cbn. destruct (w_cur k); lia.
    - destruct (w_cur k) as [m|] eqn:Ec.
      + destruct (os_is_closed (m_id m) y); right; right; eexists; (split; [reflexivity|]); (split; [unfold hung; cbn; tauto|]); cbn; lia.
      + right. right. eexists. split; [reflexivity|]. split; [unfold hung; cbn; tauto|]. cbn. lia.
    - assert (Ec : w_cur k = None) by (destruct (w_cur k); [destruct Cur as [?|?]; congruence|reflexivity]).
      unfold poll_recv. destruct (y_queue y) as [|m q] eqn:Eq.
      + destruct (no_senders y) eqn:En; cbn [orb].
        * right. left. unfold rested. cbn. unfold hand. cbn. rewrite Ec, Eq. auto.
        * destruct (y_closed y && (sem_avail (y_sem y) =? y_bound y)) eqn:Ex.
          -- right. left. unfold rested. cbn. unfold hand. cbn. rewrite Ec, Eq. auto.
          -- right. left. unfold rested. cbn. unfold hand. cbn. rewrite Ec, Eq. split; [reflexivity|]. split; [reflexivity|].
             right. split; [auto|]. destruct (forallb_exists (fun i => match y_hs y i with None => true | Some _ => false end) (seq 0 (y_hnext y)) En) as (h & _ & X).
             exists h. destruct (y_hs y h); congruence.
      + right. right. eexists. split; [reflexivity|]. split; [unfold hung; cbn; tauto|]. cbn. lia.
    - destruct (os_is_closed (m_id m) y); right; right; eexists; (split; [reflexivity|]); (split; [unfold hung; cbn; tauto|]); cbn; lia.
    - destruct (w_failed k) as [e|] eqn:Ef.
      + right. right. destruct (send_eq (m_id m) (Er e) y) as (w & ->).
        eexists. split; [reflexivity|]. split; [unfold hung; cbn; tauto|]. cbn. destruct (w_cur k) eqn:Ec; [|lia].
        destruct Cur as [?|?]; congruence.
      + destruct (poll_ready svc (w_svc k) (y_w y)) as [w1 [[s1 [|[u|e]]]| |]]; cbn [In]; auto 10.
        * right. right. eexists. split; [reflexivity|]. split; [unfold hung; cbn; tauto|]. cbn. lia.
        * right. right. eexists. split; [reflexivity|]. split; [unfold hung; cbn; tauto|]. cbn. lia.
    - destruct (call svc (w_svc k) (m_req m) (y_w y)) as [w1 [[s1 f]| |]]; cbn [In]; auto 10.
      right. right. eexists. split; [reflexivity|]. split; [unfold hung; cbn; tauto|]. cbn. lia.
    - right. right. destruct (send_eq (m_id m) (Ok f) y) as (w & ->).
      eexists. split; [reflexivity|]. split; [unfold hung; cbn; tauto|]. cbn. destruct (w_cur k) eqn:Ec; [|lia].
      destruct Cur as [?|?]; congruence.
    - destruct (y_cell y); right; right; eexists; (split; [reflexivity|]); (split; [unfold hung; cbn; tauto|]); cbn; lia.
    - right. right. eexists. split; [reflexivity|]. split; [unfold hung; cbn; tauto|]. cbn. lia.
    - destruct (w_failed k) as [e|] eqn:Ef; [|cbn [In]; auto 10].
      right. right. destruct (send_eq (m_id m) (Er e) y) as (w & ->).
      eexists. split; [reflexivity|]. split; [unfold hung; cbn; tauto|]. cbn. destruct (w_cur k) eqn:Ec; [|lia].
      destruct Cur as [?|?]; congruence.
    - destruct (Hg Logic.I).
  Qed.

  Lemma serve bound n : forall (y : bsys) log k, binv bound y log -> y_wk y = Some k -> ~ hung y ->
    weight k + 8 * length (y_queue y) <= n ->
    exists j, j <= S n /\
      let '(y1, log1) := brun y log (repeat (BWork false) j) in
      exists new, log1 = new ++ log /\ binv bound y1 log1 /\ (bad new \/ rested new y1).
  Proof.
    induction n as [|n IH]; intros y log k J K Hg L.
    - assert (P := worker_progress J K Hg). exists 1. split; [lia|]. cbn [repeat brun bstep]. rewrite K.
      assert (M := bstep_move (BWork false) y). cbn [bstep] in M. rewrite K in M.
      destruct (worker_step false k y) as [y1 l]. cbn [fst snd] in M. exists (rev l). split; [reflexivity|].
      split; [eapply binv_step; eauto|]. destruct P as [P|[P|(k1 & _ & _ & P)]]; [| |lia].
      + left. unfold bad in *. rewrite <- !in_rev. exact P.
      + right. unfold rested in *. rewrite <- !in_rev. exact P.
    - assert (P := worker_progress J K Hg).
      assert (M := bstep_move (BWork false) y). cbn [bstep] in M. rewrite K in M.
      destruct (worker_step false k y) as [y1 l] eqn:E. cbn [fst snd] in M.
      assert (J1 := binv_step J M).
      destruct P as [P|[P|(k1 & K1 & Hg1 & P)]].
      + exists 1. split; [lia|]. cbn [repeat brun bstep]. rewrite K, E. exists (rev l). split; [reflexivity|]. split; [exact J1|].
        left. unfold bad in *. rewrite <- !in_rev. exact P.
      + exists 1. split; [lia|]. cbn [repeat brun bstep]. rewrite K, E. exists (rev l). split; [reflexivity|]. split; [exact J1|].
        right. unfold rested in *. rewrite <- !in_rev. exact P.
      + destruct (IH y1 (rev l ++ log) k1 J1 K1 Hg1 ltac:(lia)) as (j & Lj & X).
        exists (S j). split; [lia|]. cbn [repeat brun bstep]. rewrite K, E.
        destruct (brun y1 (rev l ++ log) (repeat (BWork false) j)) as [y2 log2].
        destruct X as (new & X1 & X2 & X3). exists (new ++ rev l). split; [rewrite X1, app_assoc; reflexivity|].
        split; [exact X2|]. destruct X3 as [X3|X3].
        * left. unfold bad in *. rewrite !in_app_iff. tauto.
        * right. unfold rested in *. rewrite !in_app_iff. tauto.
  Qed.

  Lemma buffer_serves bound s w ops y l : buffer_run svc bound s w ops = (y, l) -> ~ In WGone l -> ~ In WHang l ->
    exists j y1 new, j <= 8 * (waiting l + 2) /\ brun y l (repeat (BWork false) j) = (y1, new ++ l) /\
      ((In (WAsk Pending) new \/ In WPanic new \/ In WHang new) \/
       (forall id, snd (bstep (BPollF id false) y1) <> [OPolled id Pending]) /\
       (In WDone new \/ In WPend new /\ exists h, alive h (new ++ l) = true)).
  Proof.
    intros E NG NH. assert (J : binv bound y l).
    { assert (X := @binv_always _ _ _ _ svc bound s w ops). unfold buffer_run in E. rewrite E in X. exact X. }
    destruct (y_wk y) as [k|] eqn:K; [|apply (e_gone (bi_e J)) in K; contradiction].
    assert (Hg : ~ hung y).
    { unfold hung. rewrite K. destruct (w_pc k) eqn:P; auto. intros _. apply NH. exact (l_hung (bi_l J) K P). }
    assert (Lq : length (y_queue y) = waiting l).
    { destruct (bi_p J) as [_ [[X _]|(X & _)]]; [auto|congruence]. }
    assert (Lw : weight k <= 8) by (unfold weight; destruct (w_pc k); try lia; destruct (w_cur k); lia).
    destruct (@serve bound (weight k + 8 * length (y_queue y)) y l k J K Hg (le_n _)) as (j & Lj & X).
    destruct (brun y l (repeat (BWork false) j)) as [y1 l1] eqn:Er. destruct X as (new & -> & J1 & X).
    exists j, y1, new. split; [lia|]. split; [exact Er|]. destruct X as [X|(X1 & X2 & X3)]; [left; exact X|right]. split.
    - apply no_tx_settled. intros id. destruct (o_tx (y_os y1 id)) eqn:Y; [|reflexivity].
      apply (q_tx (bi_q J1)) in Y. rewrite X1, X2 in Y. destruct Y.
    - destruct X3 as [X3|[X3 [h X4]]]; [auto|]. right. split; [exact X3|]. exists h. apply (ih_alive (bi_h J1)). exact X4.
  Qed.
End Progress.

(** The counterexample to C42. *)
From Verif Require Import ContractSpec Demo.
Lemma brun_app {W Req Resp Err} {svc : Service W Req Resp Err} (a b : list (bop (W := W) (Req := Req))) : forall (y : bsys svc) l,
  brun y l (a ++ b) = brun (fst (brun y l a)) (snd (brun y l a)) b.
Proof.
  induction a as [|o a IH]; intros y l; [reflexivity|]. cbn [app brun]. destruct (bstep o y). apply IH.
Qed.
Lemma buffer_forgets n : exists y l,
  buffer_run demo 1 5 scr0 ([BReady 0; BStep 0 false; BKill; BCall 0 33] ++ repeat (BPollF 0 false) n) = (y, l) /\
  l = repeat (OPolled 0 Pending) n ++ [OSent 0 0 33; WGone; OReady 0 (Ready (Ok tt))] /\ alive 0 l = true.
Proof.
  unfold buffer_run. rewrite brun_app.
  set (p := brun (bsys0 demo 1 5 scr0) [] [BReady 0; BStep 0 false; BKill; BCall 0 33]).
  assert (F : y_fs (fst p) 0 = Some (BRx, false)) by (vm_compute; reflexivity).
  assert (O : y_os (fst p) 0 = Os true None true) by (vm_compute; reflexivity).
  assert (L : snd p = [OSent 0 0 33; WGone; OReady 0 (Ready (Ok tt))]) by (vm_compute; reflexivity).
  rewrite L. clearbody p. destruct p as [y lp]. cbn [fst snd] in *. clear L lp.
  assert (H : bstep (BPollF 0 false) y = (y, [OPolled 0 Pending])).
  { cbn [bstep]. rewrite F. unfold fut_poll. rewrite O. reflexivity. }
  exists y. eexists. split.
  - assert (X : forall l, brun y l (repeat (BPollF 0 false) n) = (y, repeat (OPolled 0 Pending) n ++ l)).
    { clear F O. induction n as [|n IH]; intros l; [reflexivity|]. cbn [repeat brun]. rewrite H. rewrite IH. cbn [rev app].
      f_equal. clear. induction n as [|n IH]; [reflexivity|]. cbn [repeat app]. f_equal. exact IH. }
    apply X.
  - split; [reflexivity|]. clear. induction n as [|n IH]; [reflexivity|exact IH].
Qed.
