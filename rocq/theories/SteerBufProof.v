(** C91: the proofs. *)
From Verif Require Import Base ContractSpec Limits Buffer BufferSpec BufferBase BufferInv1 BufferInv2 BufferInv3 BufferMoves BufferInv7 BufferTop RoomSpec RoomProof
  BufSvcSpec BufSvcBase BufSvc BufSvcProof Middleware ConcProof ShedBufSpec ShedBufProof Apart SteerBufSpec.
Set Implicit Arguments.

(** ** Logs of one buffer *)
Section Logs.
  Context {W Req Resp Err : Type} {svc : Service W Req Resp Err}.
  Notation bsys := (bsys svc).
  Notation bobs := (bobs svc).
  Notation bop := (@bop W Req).

  Lemma intact_tail (a b : list bobs) : intact (a ++ b) -> intact b.
  Proof.
    intros (A & B & C). split; [|split].
    - intros h r X. apply (A h r). apply in_or_app. right. exact X.
    - intros e X. apply (B e). unfold failed_with. apply in_or_app. right. exact X.
    - intros X. apply C. apply in_or_app. right. exact X.
  Qed.

  Lemma last_inner_in id (l : list bobs) x : last_inner id l = Some x -> exists f a f1, In (OInner id f a f1) l.
  Proof.
    induction l as [|e l IH]; [discriminate|]. destruct e; cbn; try (intros E; destruct (IH E) as (g & b & g1 & X); exists g, b, g1; right; exact X).
    destruct (Nat.eqb_spec id0 id) as [->|].
    - intros _. eexists _, _, _. left. reflexivity.
    - intros E; destruct (IH E) as (g & b & g1 & X); exists g, b, g1; right; exact X.
  Qed.

  Lemma inner_called bound s w ops (y : bsys) id : forall l2 l1, buffer_run svc bound s w ops = (y, l2 ++ l1) ->
    (exists f a f1, In (OInner id f a f1) l1) -> exists r f, In (WCall id r f) l1.
  Proof.
    intros l2 l1. remember (length l1) as n eqn:En. revert l2 l1 En. induction n as [n IH] using lt_wf_ind. intros l2 l1 En E (f & a & f1 & X).
    apply in_split in X as (p & q & ->).
    assert (A := @buffer_answers _ _ _ _ svc bound s w ops y (l2 ++ p ++ OInner id f a f1 :: q) (l2 ++ p) (OInner id f a f1) q id E).
    rewrite <- app_assoc in A. specialize (A eq_refl eq_refl). cbn in A.
    destruct (last_inner id q) as [[b g]|] eqn:Eq.
    - apply last_inner_in in Eq.
      destruct (IH (length q)) with (l2 := l2 ++ p ++ [OInner id f a f1]) (l1 := q) as (r & g1 & X).
      + subst n. rewrite app_length. cbn. lia.
      + reflexivity.
      + rewrite <- !app_assoc. exact E.
      + exact Eq.
      + exists r, g1. apply in_or_app. right. right. exact X.
    - destruct A as [r A]. exists r, f. apply in_or_app. right. right. exact A.
  Qed.

  (** In an intact buffer an answered request has been passed to the wrapped service. *)
  Lemma answered_called bound s w ops (y : bsys) l id a : buffer_run svc bound s w ops = (y, l) -> intact l ->
    In (OPolled id (Ready a)) l -> In id (map fst (called l)).
  Proof.
    intros E (I1 & I2 & I3) X. assert (K : exists r f, In (WCall id r f) l).
    { apply in_split in X as (p & q & El).
      assert (A := @buffer_answers _ _ _ _ svc bound s w ops y l p (OPolled id (Ready a)) q id E El eq_refl). cbn in A.
      assert (qin : forall e, In e q -> In e l) by (intros e H; rewrite El; apply in_or_app; right; right; exact H).
      assert (Inner : forall f b f1 q1, q = OInner id f b f1 :: q1 -> exists r g, In (WCall id r g) l).
      { intros f b f1 q1 ->. apply (@inner_called bound s w ops y id [] l E). eexists _, _, _. apply qin. left. reflexivity. }
      destruct a as [x|[e| |e]].
      - destruct A as (f & f1 & q1 & A). eapply Inner, A.
      - exfalso. apply (I2 e). unfold failed_with in *. apply qin, A.
      - exfalso. destruct A as [A|(h & r & A)]; [apply I3, qin, A|]. apply in_split in A as (q1 & q2 & ->).
        assert (B := @buffer_failed _ _ _ _ svc bound s w ops y l (p ++ OPolled id (Ready (Er BClosed)) :: q1) (ORefused h id r BClosed) q2 E).
        rewrite <- app_assoc in B. cbn [app] in B. specialize (B El). cbn in B.
        destruct B as [[B _]|[r1 B]]; [apply I3 | apply (I1 h r1)]; apply qin; apply in_or_app; right; right; exact B.
      - destruct A as (f & f1 & q1 & A). eapply Inner, A. }
    destruct K as (r & f & K). clear - K. induction l as [|e l IH]; [destruct K|].
    destruct K as [->|K]; [left; reflexivity|]. destruct e; cbn; try right; apply IH, K.
  Qed.

  (** The requests in the channel are among those sent and not answered. *)
  Lemma waiting_unanswered bound s w ops (y : bsys) l h d ids : buffer_run svc bound s w ops = (y, l) -> y_hs y h = Some d -> intact l ->
    (forall id r, In (id, r) (sent l) -> (forall a, ~ In (OPolled id (Ready a)) l) -> In id ids) -> waiting l <= length ids.
  Proof.
    intros E Hd Hi H. assert (J := binv_always (svc := svc) bound s w ops). assert (E' := E). unfold buffer_run in E'. rewrite E' in J. cbn [fst snd] in J.
    destruct (bi_p J) as [_ [[Q _]|(_ & N & _)]]; [|rewrite N in Hd; discriminate]. rewrite Q.
    destruct (q_places (bi_q J)) as (G & E1 & E2).
    assert (N : NoDup (map fst (sent l))) by apply (bi_q J).
    assert (Nr : NoDup (map fst (rev (sent l)))) by (rewrite map_rev; apply NoDup_rev; exact N).
    rewrite E1, !map_app in Nr. rewrite (pairs_fst (y_queue y)) in Nr.
    replace (length (y_queue y)) with (length (BufferBase.ids (y_queue y))) by apply map_length.
    assert (Sep : forall A (a b : list A), NoDup (a ++ b) -> NoDup b /\ forall x, In x a -> ~ In x b).
    { clear. induction a as [|z a IH]; intros b N; [split; [exact N | intros x []]|]. cbn in N. apply NoDup_cons_iff in N as [N1 N2].
      destruct (IH b N2) as [N3 N4]. split; [exact N3|]. intros x [<-|X]; [|apply N4, X]. intros Y. apply N1, in_or_app. right. exact Y. }
    rewrite app_assoc in Nr. apply Sep in Nr as [N1 N2].
    apply NoDup_incl_length; [exact N1|]. intros id X.
    assert (Hs : exists r, In (id, r) (sent l)).
    { rewrite <- (pairs_fst (y_queue y)) in X. apply in_map_iff in X as ([i r] & Ei & X). cbn in Ei. subst i. exists r.
      apply in_rev. rewrite E1. apply in_or_app. right. apply in_or_app. right. exact X. }
    destruct Hs as [r Hs]. apply (H id r Hs). intros a Y.
    apply (@answered_called bound s w ops y l id a E Hi) in Y. apply (N2 id); [|exact X].
    assert (Sub : forall A (a b : list A), sublist a b -> forall x, In x a -> In x b).
    { clear. induction 1; intros z Z; [exact Z | right; auto | destruct Z as [<-|Z]; [left; reflexivity | right; auto]]. }
    assert (Y' : In id (map fst (G ++ pairs (sends (y_wk y))))).
    { apply in_map_iff in Y as ([i r1] & Ei & Y). apply in_map_iff. exists (i, r1). split; [exact Ei|]. apply (Sub _ _ _ E2). apply -> in_rev. exact Y. }
    rewrite map_app in Y'. apply in_app_or in Y' as [Y'|Y']; apply in_or_app; [left; exact Y' | right].
    destruct (y_wk y) as [k|]; [|destruct Y']. cbn [sends holds] in *. unfold hand. destruct (w_pc k); cbn [sendl pcl] in *; try destruct Y'.
    - rewrite pairs_app, map_app. apply in_or_app. right. left. exact H0.
    - destruct H0.
  Qed.

  (** Only a call sends, only a clone clones, and if nobody else has a handle it is handle 0 that does. *)
  Definition spreads (e : bobs) : bool := match e with OSent _ _ _ | OCloned _ _ => true | _ => false end.
  Definition keeps (o : bop) : bool := match o with BCall h _ | BClone h => negb (h =? 0) | _ => true end.

  Lemma step_spreads o (y : bsys) : (forall j, y_hs y j <> None -> j = 0) -> keeps o = true ->
    forall e, In e (snd (bstep o y)) -> spreads e = false.
  Proof.
    intros Only K.
    assert (No : forall l : list bobs, forallb (fun e => negb (spreads e)) l = true -> forall e, In e l -> spreads e = false).
    { intros l Hl e Hin. rewrite forallb_forall in Hl. apply Hl in Hin. destruct (spreads e); [discriminate Hin | reflexivity]. }
    destruct o as [i|i r|i c|i|i|id c|id|c| |g]; cbn [bstep keeps] in *; apply No.
    - destruct (y_hs y i) as [d|]; [destruct (at_rest d)|]; reflexivity.
    - destruct (y_hs y i) as [d|] eqn:Ed; [|reflexivity]. rewrite (Only i) in K by congruence. discriminate K.
    - destruct (y_hs y i) as [d|]; [|reflexivity]. unfold handle_step. destruct (h_pc d); try reflexivity.
      destruct (poll_reserve c (h_ps d) y) as [[y1 p] [|[u|u]]]; reflexivity.
    - destruct (y_hs y i) as [d|] eqn:Ed; [|reflexivity]. rewrite (Only i) in K by congruence. discriminate K.
    - destruct (y_hs y i) as [d|]; [destruct (at_rest d)|]; reflexivity.
    - destruct (y_fs y id) as [[f [|]]|]; try reflexivity. 
      assert (PI : forall g (z : bsys), forallb (fun e => negb (spreads e)) (snd (poll_inner id g z)) = true).
      { intros g z. unfold poll_inner. destruct (poll_fut svc g (y_w z)) as [w1 [[f1 a]| |]]; reflexivity. }
      destruct f as [[x|]| |f]; cbn [fut_poll]; try reflexivity.
      + destruct c; [reflexivity|]. destruct (o_val (y_os y id)) as [[f|x]|]; [apply PI | reflexivity | destruct (o_tx _); reflexivity].
      + apply PI.
    - destruct (y_fs y id) as [[f b]|]; reflexivity.
    - destruct (y_wk y) as [k|]; [|reflexivity]. unfold worker_step. destruct (w_pc k) as [| | |m|m|m|m f|m e|m e|m|m]; try reflexivity.
      + destruct (w_finish k); reflexivity.
      + destruct (w_cur k); [cbv zeta; destruct (os_is_closed _ _)|]; reflexivity.
      + unfold poll_recv. destruct c; [reflexivity|]. destruct (y_queue y); [destruct (_ || _)|]; reflexivity.
      + destruct (os_is_closed _ _); reflexivity.
      + destruct (w_failed k); [reflexivity|]. destruct (poll_ready svc (w_svc k) (y_w y)) as [w1 [[s1 [|[u|e]]]| |]]; reflexivity.
      + destruct (call svc (w_svc k) (m_req m) (y_w y)) as [w1 [[s1 f]| |]]; reflexivity.
      + destruct (y_cell y); reflexivity.
      + destruct (w_failed k); reflexivity.
    - destruct (y_wk y) as [k|]; [destruct (worker_rests k)|]; reflexivity.
    - reflexivity.
  Qed.

  Lemma run_spreads bound s w ops1 : forall ops0 (y y1 : bsys) l l1, buffer_run svc bound s w ops0 = (y, l) -> never_cloned l ->
    (forall o, In o ops1 -> keeps o = true) -> brun y l ops1 = (y1, l1) ->
    exists m, l1 = m ++ l /\ forall e, In e m -> spreads e = false.
  Proof.
    induction ops1 as [|o ops1 IH]; intros ops0 y y1 l l1 E N K R.
    - injection R as <- <-. exists []. split; [reflexivity | intros e []].
    - cbn [brun] in R. assert (J := binv_always (svc := svc) bound s w ops0). assert (E' := E). unfold buffer_run in E'. rewrite E' in J. cbn [fst snd] in J.
      assert (Only : forall j, y_hs y j <> None -> j = 0).
      { intros j X. apply (never_cloned_alive j N). apply (ih_alive (bi_h J)). exact X. }
      assert (St := @step_spreads o y Only (K o (or_introl eq_refl))).
      destruct (bstep o y) as [y2 e] eqn:Eb. cbn [snd] in St.
      assert (E2 : buffer_run svc bound s w (ops0 ++ [o]) = (y2, rev e ++ l)).
      { unfold buffer_run in *. rewrite brun_app, E. cbn [fst snd brun]. rewrite Eb. reflexivity. }
      assert (N2 : never_cloned (rev e ++ l)).
      { intros h h' X. apply in_app_or in X as [X|X]; [|apply (N h h' X)]. apply in_rev in X. apply St in X. discriminate X. }
      destruct (IH _ _ _ _ _ E2 N2 (fun o' X => K o' (or_intror X)) R) as (m & -> & Hm).
      exists (m ++ rev e). split; [apply app_assoc|]. intros x X. apply in_app_or in X as [X|X]; [apply Hm, X|]. apply St. apply in_rev. exact X.
  Qed.

  Lemma sent_spreads (m l : list bobs) : (forall e, In e m -> spreads e = false) -> sent (m ++ l) = sent l.
  Proof.
    induction m as [|e m IH]; intros H; [reflexivity|]. specialize (H e (or_introl eq_refl)) as He.
    cbn [app]. destruct e; cbn [sent]; try (apply IH; intros x X; apply H; right; exact X). discriminate He.
  Qed.
  Lemma cloned_spreads (m l : list bobs) : (forall e, In e m -> spreads e = false) -> never_cloned l -> never_cloned (m ++ l).
  Proof. intros H N h h' X. apply in_app_or in X as [X|X]; [apply H in X; discriminate X | apply (N h h' X)]. Qed.
End Logs.

(** ** One buffer and the handle of it *)
Section Component.
  Context {W Req Resp Err : Type} {cl : bool} {svc : Service W Req Resp Err} {s0 : st svc}.
  Context (others : bsys svc -> list (@bop W Req)) (coop : bsys svc -> bool).
  Notation bsys := (bsys svc).
  Notation bobs := (bobs svc).
  Notation bw := (@bw W Req Resp Err cl svc s0).
  Notation bsvc := (@buffer_service W Req Resp Err cl svc s0 others coop).
  Hypothesis on_time : forall y, never_put_off (others y).
  Hypothesis no_coop : forall y, coop y = false.
  Context (bound : nat) (w : W).

  (** Handle 0 is the only one, its sender's state is [p]; what was sent is known ([R]), and what was answered ([T]). *)
  Record good (R T : nat -> Prop) (p : psend) (x : bw) (l : list bobs) : Prop := {
    g_run : exists ops, buffer_run svc bound s0 w ops = (proj1_sig x, l) /\ never_put_off ops;
    g_stand : standing (0, p) (proj1_sig x) = true;
    g_alone : never_cloned l;
    g_sent : forall id r, In (id, r) (sent l) -> R id;
    g_told : forall id, T id -> exists a, In (OPolled id (Ready a)) l }.

  Lemma good_run R T p p1 x x1 l l1 ops1 : good R T p x l -> brun (proj1_sig x) l ops1 = (proj1_sig x1, l1) -> never_put_off ops1 ->
    (forall o, In o ops1 -> keeps o = true) -> standing (0, p1) (proj1_sig x1) = true -> good R T p1 x1 l1.
  Proof.
    intros [[ops [E N]] St Al Se To] R1 N1 K S1.
    destruct (@run_spreads _ _ _ _ svc bound s0 w ops1 ops _ _ _ _ E Al K R1) as (m & -> & Hm).
    split; auto.
    - exists (ops ++ ops1). split; [|apply put_off_app; assumption].
      unfold buffer_run in *. rewrite brun_app, E. exact R1.
    - apply cloned_spreads; assumption.
    - intros id r X. rewrite (sent_spreads m l Hm) in X. eapply Se, X.
    - intros id X. destruct (To id X) as [a Y]. exists a. apply in_or_app. right. exact Y.
  Qed.

  Lemma good_weaken R T (R' T' : nat -> Prop) p x l : good R T p x l -> (forall id, R id -> R' id) -> (forall id, T' id -> T id) -> good R' T' p x l.
  Proof. intros [A B C D E] H1 H2. split; auto. intros id r X. apply H1. eapply D, X. Qed.

  Lemma poll_good R T p x l : good R T p x l ->
    exists x1 p1 a l1, poll_ready bsvc (0, p) x = (x1, Val ((0, p1), a)) /\ good R T p1 x1 (OReady 0 a :: l1) /\
      (a = Ready (Ok tt) -> p1 = PsReady) /\
      (intact l1 -> (a = Pending <-> waiting l1 = bound) /\ (a = Ready (Ok tt) <-> waiting l1 < bound)) /\
      (intact l1 -> forall ids, (forall id, R id -> ~ T id -> In id ids) -> waiting l1 <= length ids).
  Proof.
    intros G. destruct (@bready_spec _ _ _ _ cl svc s0 others coop (0, p) x) as (x1 & p1 & a & E & P & H1 & _).
    destruct (@ready_last _ _ _ _ cl svc s0 others coop on_time no_coop (0, p) x x1 (0, p1) a l (g_stand G) E) as (ops1 & l1 & Ro & No & Ow).
    cbn [fst] in *.
    assert (G1 : good R T p1 x1 (OReady 0 a :: l1)).
    { eapply good_run; [exact G | exact Ro | exact No | | apply standing_put; exact P].
      intros o Ho. destruct (of_handle 0 o) eqn:Eo.
      - destruct (Ow o Ho Eo) as [->|[c ->]]; reflexivity.
      - destruct o; cbn in *; try reflexivity; rewrite Eo; reflexivity. }
    exists x1, p1, a, l1. split; [exact E|]. split; [exact G1|]. split; [exact H1|].
    destruct (g_run G1) as (ops & Er & Ep).
    assert (Nc : never_cloned l1) by (intros h h' X; assert (N1 := g_alone G1); apply (N1 h h'); right; exact X).
    split.
    - intros Hi. apply (@alone_exactly _ _ _ _ svc bound s0 w ops (proj1_sig x1) [] 0 a l1 Er Ep Hi Nc).
    - intros Hi ids Hids. destruct (@moment _ _ _ _ svc bound s0 w ops (proj1_sig x1) [] 0 a l1 Er) as (ops0 & c & ops2 & y0 & d & Eo & E0 & Ed & Es).
      eapply waiting_unanswered; [exact E0 | exact Ed | exact Hi|]. intros id r X Y. apply Hids.
      + assert (N1 := g_sent G1). apply (N1 id r). exact X.
      + intros Z. destruct (g_told G1 id Z) as [b [B|B]]; [discriminate B | apply (Y b B)].
  Qed.

  Lemma call_good R T x l r : good R T PsReady x l ->
    exists x1 p1 id l1, call bsvc (0, PsReady) r x = (x1, Val ((0, p1), (id, false))) /\ good (fun i => i = id \/ R i) T p1 x1 l1.
  Proof.
    intros G. pose proof (g_stand G) as Hs. cbn [call buffer_service]. unfold bcall. cbn [fst].
    rewrite (@settle_standing _ _ _ _ cl svc s0 (0, PsReady) x Hs). apply standing_put in Hs. cbn [fst snd] in Hs.
    assert (E1 : proj1_sig (fst (move (BCall 0 r) x)) = fst (bstep (BCall 0 r) (proj1_sig x))) by reflexivity.
    assert (E2 : snd (move (BCall 0 r) x) = snd (bstep (BCall 0 r) (proj1_sig x))) by reflexivity.
    destruct (move (BCall 0 r) x) as [x1 e1]. cbn [fst snd] in *.
    assert (Eb : bstep (BCall 0 r) (proj1_sig x) = handle_call 0 (Hd PsReady HRest) r (proj1_sig x)) by (cbn [bstep]; destruct Hs as [-> _]; reflexivity).
    assert (P1 : put 0 (Some (Hd PsIdle HRest)) (proj1_sig x1)) by (rewrite E1, Eb; unfold put; cbn; split; [reflexivity | apply Hs]).
    rewrite (@go_on_rest _ _ _ _ cl svc s0 others coop 0 (Hd PsIdle HRest) x1 P1 eq_refl). rewrite app_nil_r.
    assert (El : e1 = [OSent 0 (y_fnext (proj1_sig x)) r]) by (rewrite E2, Eb; reflexivity). rewrite El. cbn.
    exists x1, (sender 0 (proj1_sig x1)), (y_fnext (proj1_sig x)), (OSent 0 (y_fnext (proj1_sig x)) r :: l). split; [reflexivity|].
    destruct G as [[ops [E N]] St Al Se To]. split.
    - exists (ops ++ [BCall 0 r]). split.
      + unfold buffer_run in *. rewrite brun_app, E. cbn [fst snd brun].
        destruct (bstep (BCall 0 r) (proj1_sig x)) as [y2 e2]. cbn [fst snd] in *. rewrite E1, <- E2, El. reflexivity.
      + apply put_off_app; [exact N|]. intros h [X|[]]. discriminate X.
    - unfold sender. destruct P1 as [P1 P2]. rewrite P1. cbn [h_ps]. apply standing_put. split; assumption.
    - intros h h' [X|X]; [discriminate X | apply (Al h h' X)].
    - intros id r1 [X|X]; [injection X as <- _; auto | right; eapply Se, X].
    - intros id X. destruct (To id X) as [a Y]. exists a. right. exact Y.
  Qed.

  Lemma side_good R T p x l ops x1 e : good R T p x l -> moves (List.filter (@aside W Req) ops) x = (x1, e) ->
    exists l1, l1 = rev e ++ l /\ good R (fun id => T id \/ exists a, In (OPolled id (Ready a)) e) p x1 l1.
  Proof.
    intros G E. eexists. split; [reflexivity|].
    assert (Hf : forall o, In o (List.filter (@aside W Req) ops) -> of_handle 0 o = false /\ (forall h, o <> BStep h true)).
    { intros o X. apply filter_In in X as [_ X]. unfold aside in X. apply andb_true_iff in X as [X Y]. split; [apply negb_true_iff, X|].
      intros h ->. discriminate Y. }
    pose proof (g_stand G) as Hs. apply standing_put in Hs. cbn [fst snd] in Hs.
    destruct (@moves_other _ _ _ _ cl svc s0 0 (Some (Hd p HRest)) _ (fun o X => proj1 (Hf o X)) x Hs) as [P _]. rewrite E in P. cbn [fst] in P.
    assert (M := @moves_run _ _ _ _ cl svc s0 (List.filter (@aside W Req) ops) x l). rewrite E in M. cbn [fst snd] in M.
    assert (G1 : good R T p x1 (rev e ++ l)).
    { eapply good_run; [exact G | exact M | | | apply standing_put; exact P].
      - intros h X. apply Hf in X as [_ X]. apply (X h eq_refl).
      - intros o X. apply Hf in X as [X _]. destruct o; cbn in *; try reflexivity; rewrite X; reflexivity. }
    destruct G1 as [A B C D F]. split; auto. intros id [X|[a X]]; [apply F, X|]. exists a. apply in_or_app. left. apply -> in_rev. exact X.
  Qed.

  Lemma fresh_good : good (fun _ => False) (fun _ => False) PsIdle (buffer_world cl svc s0 bound w) [].
  Proof.
    split.
    - exists []. split; [reflexivity | intros h []].
    - exact (@first_stands _ _ _ _ cl svc s0 others coop bound w).
    - intros h h' [].
    - intros id r [].
    - intros id [].
  Qed.
End Component.

(** ** The [Steer] *)
Section Steering.
  Context {W Req Resp Err P : Type} {cl : bool} {svc : Service W Req Resp Err} {s0 : st svc}.
  Context (others : bsys svc -> list (@bop W Req)) (coop : bsys svc -> bool).
  Notation bw := (@bw W Req Resp Err cl svc s0).
  Notation bobs := (bobs svc).
  Notation sobs := (@sobs W Req Resp Err svc).
  Context (choose : P -> Req -> list (nat * bst) -> P * nat) (pclone : P -> M (nat -> bw) P).
  Notation bsvc := (@buffer_service W Req Resp Err cl svc s0 others coop).
  Notation buffers := (apart bsvc).
  Notation steered := (@steered W Req Resp Err P cl svc s0 others coop choose pclone).
  Hypothesis on_time : forall y, never_put_off (others y).
  Hypothesis no_coop : forall y, coop y = false.
  Context (bound : nat -> nat) (w : nat -> W) (n : nat).

  Definition inv (services : list (nat * bst)) (nr : list nat) (ws : nat -> bw) (obs : list sobs) (logs : nat -> list bobs) : Prop :=
    length services = n /\ (forall k, In k nr -> k < n) /\
    forall k, k < n -> exists p, nth_error services k = Some (k, (0, p)) /\
      good (cl := cl) (bound k) (w k) (fun id => In id (passed k obs)) (fun id => answered k id obs = true) p (ws k) (logs k) /\
      (~ In k nr -> p = PsReady).

  (** What the poll of buffer [k] that came to [a] says. *)
  Definition verdict (obs : list sobs) (logs : nat -> list bobs) (k : nat) (a : poll (result unit (berr (Err := Err)))) : Prop :=
    exists l1, logs k = OReady 0 a :: l1 /\
      (intact l1 -> (a = Pending <-> waiting l1 = bound k) /\ (a = Ready (Ok tt) <-> waiting l1 < bound k)) /\
      (intact l1 -> waiting l1 <= outstanding k obs).

  Lemma steer_good obs : forall nr services ws logs, inv services nr ws obs logs ->
    exists ws1 services1 nr1 a logs1, steer_poll buffers services nr ws = (ws1, Val (services1, nr1, a)) /\
      inv services1 nr1 ws1 obs logs1 /\
      ((a = Ready (Ok tt) /\ nr1 = []) \/ (a <> Ready (Ok tt) /\ exists k, k < n /\ verdict obs logs1 k a)).
  Proof.
    induction nr as [|i nr IH]; intros services ws logs I.
    - exists ws, services, [], (Ready (Ok tt)), logs. split; [reflexivity|]. split; [exact I|]. left. auto.
    - pose proof I as (L & Hn & Hk). assert (Li : i < n) by (apply Hn; left; reflexivity).
      destruct (Hk i Li) as (p & Ep & G & _).
      destruct (poll_good others coop on_time no_coop G) as (x1 & p1 & a & l1 & E & G1 & Hr & V1 & V2).
      cbn [steer_poll].
      replace (@nth_error (st buffers) services i) with (Some ((i, (0, p)) : st buffers)) by (symmetry; exact Ep). cbn [poll_ready apart]. unfold bind at 1 2. cbn [fst snd]. unfold inside. rewrite E. cbn [ret].
      assert (J : forall nr1, incl nr1 (i :: nr) -> (forall k, ~ In k nr1 -> k = i -> a = Ready (Ok tt)) -> (forall k, k <> i -> ~ In k nr1 -> ~ In k (i :: nr)) ->
        inv (set_nth i (i, (0, p1)) services) nr1 (upd ws i x1) obs (upd logs i (OReady 0 a :: l1))).
      { intros nr1 Hi Ha Ho. split; [rewrite set_nth_len; exact L|]. split; [intros k X; apply Hn, Hi, X|].
        intros k Lk. unfold upd. rewrite nth_set. destruct (Nat.eqb_spec i k) as [<-|Nk].
        - rewrite Nat.eqb_refl. rewrite Ep. exists p1. split; [reflexivity|]. split; [exact G1|].
          intros X. apply Hr. apply (Ha i X eq_refl).
        - destruct (Nat.eqb_spec k i) as [->|_]; [congruence|]. destruct (Hk k Lk) as (q & Eq & Gq & Rq). exists q. split; [exact Eq|]. split; [exact Gq|].
          intros X. apply Rq. apply Ho; [congruence | exact X]. }
      assert (V : verdict obs (upd logs i (OReady 0 a :: l1)) i a).
      { exists l1. split; [unfold upd; rewrite Nat.eqb_refl; reflexivity|]. split; [exact V1|]. intros Hi. unfold outstanding. apply (V2 Hi).
        intros id X Y. apply filter_In. split; [exact X|]. apply negb_true_iff. destruct (answered i id obs); [destruct (Y eq_refl) | reflexivity]. }
      destruct a as [|[[]|e]].
      + exists (upd ws i x1), (set_nth i (i, (0, p1)) services), (i :: nr), Pending, (upd logs i (OReady 0 Pending :: l1)). split; [reflexivity|]. split.
        * apply J; [apply incl_refl | intros k X ->; destruct X; left; reflexivity | auto].
        * right. split; [discriminate|]. exists i. auto.
      + apply (IH _ _ (upd logs i (OReady 0 (Ready (Ok tt)) :: l1))). apply J; [apply incl_tl, incl_refl | auto|].
        intros k Nk X [Y|Y]; [congruence | auto].
      + exists (upd ws i x1), (set_nth i (i, (0, p1)) services), (i :: nr), (Ready (Er e)), (upd logs i (OReady 0 (Ready (Er e)) :: l1)). split; [reflexivity|]. split.
        * apply J; [apply incl_refl | intros k X ->; destruct X; left; reflexivity | auto].
        * right. split; [discriminate|]. exists i. auto.
  Qed.

  Definition sinv (s : sstate others coop choose pclone) : Prop :=
    let '(c, ws, obs) := s in
    exists logs, inv (sr_services c) (sr_not_ready c) ws obs logs /\ (said_ready obs = true -> sr_not_ready c = []).

  Lemma answered_side k k' e obs id : answered k id (rev (map (RSide (svc := svc) k') e) ++ obs) = true ->
    answered k id obs = true \/ k = k' /\ exists a, In (OPolled id (Ready a)) e.
  Proof.
    intros X. assert (Y : answered k id obs = true \/ k = k' /\ exists a, In (OPolled id (Ready a)) (rev e)).
    { rewrite <- map_rev in X. induction (rev e) as [|z m IH]; [auto|]. cbn [map app answered] in X.
      assert (H : answered k id (map (RSide k') m ++ obs) = true -> answered k id obs = true \/ k = k' /\ exists a, In (OPolled id (Ready a)) (z :: m)).
      { intros Z. destruct (IH Z) as [A|[A [a B]]]; [auto | right; split; [exact A | exists a; right; exact B]]. }
      destruct z; try (apply H; exact X). destruct a as [|a]; [apply H; exact X|].
      apply orb_true_iff in X as [X|X]; [|apply H; exact X]. apply andb_true_iff in X as [X1 X2].
      apply Nat.eqb_eq in X1, X2. subst. right. split; [reflexivity|]. exists a. left. reflexivity. }
    destruct Y as [Y|[Y [a Z]]]; [auto|]. right. split; [exact Y|]. exists a. apply in_rev. exact Z.
  Qed.
  Lemma passed_side k k' e (obs : list sobs) : passed k (rev (map (RSide k') e) ++ obs) = passed k obs.
  Proof. rewrite <- map_rev. induction (rev e) as [|z m IH]; [reflexivity | exact IH]. Qed.
  Lemma said_side k' e (obs : list sobs) : said_ready (rev (map (RSide k') e) ++ obs) = said_ready obs.
  Proof. rewrite <- map_rev. induction (rev e) as [|z m IH]; [reflexivity | exact IH]. Qed.

  Lemma sstep_inv o s : sinv s -> sinv (sstep o s).
  Proof.
    destruct s as [[c ws] obs]. intros (logs & I & Rd). destruct o as [|r|k ops]; cbn [sstep].
    - destruct (@steer_good obs _ _ _ _ I) as (ws1 & services1 & nr1 & a & logs1 & E & I1 & Ha).
      cbn [poll_ready SteerBufSpec.steered steer]. unfold bind. rewrite E. cbn [ret].
      exists logs1. cbn [sr_services sr_not_ready]. split; [exact I1|]. destruct Ha as [[-> ->]|[Na _]]; [auto|].
      cbn. destruct a as [|[[]|e]]; try discriminate. congruence.
    - destruct (said_ready obs) eqn:Er; [|exists logs; split; [exact I | rewrite Er; discriminate]]. specialize (Rd eq_refl).
      cbn [call SteerBufSpec.steered steer]. rewrite Rd. unfold bind at 1, ret at 1.
      destruct (choose (sr_router c) r (sr_services c)) as [p1 idx]. pose proof I as (L & Hn & Hk).
      destruct (nth_error (sr_services c) idx) as [x|] eqn:Ex.
      2:{ exists logs. split; [exact I|]. intros _. exact Rd. }
      assert (Li : idx < n) by (rewrite <- L; apply nth_error_Some; intros X; pose proof (eq_trans (eq_sym Ex) X) as Y; discriminate Y).
      destruct (Hk idx Li) as (p & Ep & G & Hp). rewrite Rd in Hp. specialize (Hp (fun X => X)). subst p.
      assert (Ex' : Some x = Some ((idx, (0, PsReady)) : st buffers)) by (etransitivity; [symmetry; exact Ex | exact Ep]). injection Ex' as ->.
      destruct (@call_good _ _ _ _ cl svc s0 others coop _ _ _ _ (ws idx) (logs idx) r G) as (x1 & q & id & l1 & E & G1).
      cbn [call apart]. unfold bind, inside. cbn [fst snd]. rewrite E. cbn [ret].
      exists (upd logs idx l1). cbn [sr_services sr_not_ready]. split; [|discriminate].
      split; [rewrite set_nth_len; exact L|]. split; [intros k [<-|[]]; exact Li|].
      intros k Lk. unfold upd. rewrite nth_set. cbn [passed answered fst snd]. destruct (Nat.eqb_spec idx k) as [<-|Nk].
      + rewrite Nat.eqb_refl. exists q. split.
        { match goal with |- match ?t with _ => _ end = _ => replace t with (Some (idx, (0, PsReady))) by (symmetry; exact Ep) end. reflexivity. }
        split; [|intros X; destruct X; left; reflexivity].
        eapply good_weaken; [exact G1 | | auto]. intros i [->|X]; [left; reflexivity | right; exact X].
      + destruct (Nat.eqb_spec k idx) as [->|_]; [congruence|]. destruct (Hk k Lk) as (q' & Eq & Gq & Rq). exists q'. split; [exact Eq|]. split; [exact Gq|].
        intros _. apply Rq. rewrite Rd. intros [].
    - destruct (moves (List.filter (@aside W Req) ops) (ws k)) as [x1 e] eqn:E. pose proof I as (L & Hn & Hk).
      exists (upd logs k (rev e ++ logs k)). split; [|rewrite said_side; exact Rd].
      split; [exact L|]. split; [exact Hn|]. intros j Lj. destruct (Hk j Lj) as (p & Ep & G & Hp). exists p. split; [exact Ep|]. split; [|exact Hp].
      unfold upd. rewrite passed_side. destruct (Nat.eqb_spec j k) as [->|Nj].
      + destruct (side_good _ G E) as (l1 & -> & G1). eapply good_weaken; [exact G1 | auto|].
        intros id X. apply answered_side in X as [X|[_ X]]; auto.
      + eapply good_weaken; [exact G | auto|]. intros id X. apply answered_side in X as [X|[-> _]]; [exact X | congruence].
  Qed.

  Lemma srun_inv ops : forall s, sinv s -> sinv (srun s ops).
  Proof. induction ops as [|o ops IH]; intros s I; [exact I|]. cbn [srun]. apply IH, sstep_inv, I. Qed.

  Lemma fresh_inv router : sinv (fresh_steer others coop choose pclone n router, fresh_worlds cl svc s0 bound w, []).
  Proof.
    exists (fun _ => []). cbn [sr_services sr_not_ready fresh_steer steer_new]. split; [|discriminate].
    split; [rewrite map_length, seq_length; reflexivity|]. split.
    - intros k X. apply in_seq in X. rewrite map_length, seq_length in X. lia.
    - intros k Lk. exists PsIdle. split; [|split].
      + rewrite nth_error_map, (nth_error_nth' _ 0) by (rewrite seq_length; exact Lk). rewrite seq_nth by exact Lk. reflexivity.
      + eapply good_weaken; [exact (@fresh_good _ _ _ _ cl svc s0 others coop (bound k) (w k)) | intros id [] | discriminate].
      + intros X. exfalso. apply X. rewrite map_length, seq_length. apply in_seq. lia.
  Qed.

  Lemma steer_buffers router ops c ws obs :
    srun (fresh_steer others coop choose pclone n router, fresh_worlds cl svc s0 bound w, []) ops = (c, ws, obs) ->
    exists ws1 c1 a logs, poll_ready steered c ws = (ws1, Val (c1, a)) /\
      (forall k, k < n -> exists bops, buffer_run svc (bound k) s0 (w k) bops = (proj1_sig (ws1 k), logs k) /\ never_put_off bops) /\
      (a = Pending -> exists k l, k < n /\ logs k = OReady 0 Pending :: l /\ (intact l -> waiting l = bound k)) /\
      ((forall k, k < n -> intact (logs k) /\ outstanding k obs < bound k) -> a = Ready (Ok tt)).
  Proof.
    intros E. assert (I := srun_inv ops _ (fresh_inv router)). rewrite E in I. destruct I as (logs & I & _).
    destruct (@steer_good obs _ _ _ _ I) as (ws1 & services1 & nr1 & a & logs1 & Ep & (_ & _ & I1) & Ha).
    exists ws1. eexists. exists a, logs1. split; [|split; [|split]].
    - cbn [poll_ready SteerBufSpec.steered steer]. unfold bind. rewrite Ep. reflexivity.
    - intros k Lk. destruct (I1 k Lk) as (p & _ & G & _). exact (g_run G).
    - intros ->. destruct Ha as [[X _]|(_ & k & Lk & l & El & V & _)]; [discriminate X|]. exists k, l. split; [exact Lk|]. split; [exact El|].
      intros Hi. apply (proj1 (V Hi)). reflexivity.
    - intros H. destruct Ha as [[X _]|(_ & k & Lk & l & El & V & V2)]; [exact X|]. destruct (H k Lk) as [Hi Ho].
      rewrite El in Hi. apply (intact_tail [_]) in Hi. apply (proj2 (V Hi)). specialize (V2 Hi). lia.
  Qed.

  Lemma steer_unbroken router ops c ws obs : (forall p r l, l <> [] -> snd (choose p r l) < length l) -> 0 < n ->
    srun (fresh_steer others coop choose pclone n router, fresh_worlds cl svc s0 bound w, []) ops = (c, ws, obs) -> ~ In RBroke obs.
  Proof.
    intros Hc Hn E.
    assert (K : forall ops s, sinv s -> ~ In RBroke (snd s) -> ~ In RBroke (snd (srun s ops))).
    { clear E ops. induction ops as [|o ops IH]; intros s I N; [exact N|]. cbn [srun]. apply IH; [apply sstep_inv, I|].
      destruct s as [[c0 ws0] obs0]. destruct I as (logs & I & Rd). cbn [snd] in N. destruct o as [|r|k bops]; cbn [sstep].
      - destruct (@steer_good obs0 _ _ _ _ I) as (ws1 & services1 & nr1 & a & logs1 & Ep & _).
        cbn [poll_ready SteerBufSpec.steered steer]. unfold bind. rewrite Ep. cbn. intros [X|X]; [discriminate X | auto].
      - destruct (said_ready obs0) eqn:Er; [|exact N]. specialize (Rd eq_refl).
        cbn [call SteerBufSpec.steered steer]. rewrite Rd. unfold bind at 1, ret at 1. pose proof I as (L & _ & Hk).
        assert (Lt := Hc (sr_router c0) r (sr_services c0)).
        destruct (choose (sr_router c0) r (sr_services c0)) as [p1 idx]. cbn [snd] in Lt.
        assert (Li : idx < n) by (rewrite <- L; apply Lt; intros X; rewrite X in L; cbn in L; lia).
        destruct (Hk idx Li) as (p & Ep & G & Hp). rewrite Rd in Hp. specialize (Hp (fun X => X)). subst p.
        replace (@nth_error (st buffers) (sr_services c0) idx) with (Some ((idx, (0, PsReady)) : st buffers)) by (symmetry; exact Ep).
        destruct (@call_good _ _ _ _ cl svc s0 others coop _ _ _ _ (ws0 idx) (logs idx) r G) as (x1 & q & id & l1 & E & G1).
        cbn [call apart]. unfold bind, inside. cbn [fst snd]. rewrite E. cbn. intros [X|X]; [discriminate X | auto].
      - destruct (moves _ _) as [x1 e]. cbn [snd]. intros X. apply in_app_or in X as [X|X]; [|auto]. apply in_rev in X. apply in_map_iff in X as (z & X & _). discriminate X. }
    specialize (K ops _ (fresh_inv router)). rewrite E in K. apply K. intros [].
  Qed.
End Steering.
