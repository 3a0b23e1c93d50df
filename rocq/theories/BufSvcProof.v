(** C78: the proofs. *)
From Verif Require Import Base ContractSpec StackSpec Safe Limits Buffer BufSvcSpec BufSvcBase BufSvc.
Set Implicit Arguments.

Section Raw.
  Context {W Req Resp Err : Type} {svc : Service W Req Resp Err}.
  Notation bsys := (bsys svc).
  Notation bobs := (bobs svc).

  Lemma ready_answer_app h (a b : list bobs) :
    ready_answer h (a ++ b) = match ready_answer h a with Some x => Some x | None => ready_answer h b end.
  Proof. induction a as [|e a IH]; [reflexivity|]. cbn. destruct e; try exact IH. destruct (_ =? _); [reflexivity | exact IH]. Qed.
  Lemma call_answer_app h (a b : list bobs) :
    call_answer h (a ++ b) = match call_answer h a with Some x => Some x | None => call_answer h b end.
  Proof. induction a as [|e a IH]; [reflexivity|]. cbn. destruct e; try exact IH; destruct (_ =? _); auto. Qed.

  (** What the others do does not concern handle [h]. *)
  Definition silent (h : nat) (l : list bobs) : Prop := ready_answer h l = None /\ call_answer h l = None.
  Lemma silent_nil h : silent h []. Proof. split; reflexivity. Qed.
  Lemma silent_app h a b : silent h a -> silent h b -> silent h (a ++ b).
  Proof. intros [A B] [C D]. split; [rewrite ready_answer_app, A; exact C | rewrite call_answer_app, B; exact D]. Qed.

  Lemma drain_hs q : forall y : bsys, y_hs (drain q y) = y_hs y /\ y_hnext (drain q y) = y_hnext y.
  Proof. induction q as [|m q IH]; intros y; [auto|]. cbn. destruct (IH (os_drop_tx (m_id m) (add_permit y))) as [A B]. rewrite A, B. auto. Qed.
  Lemma rx_drop_hs (y : bsys) : y_hs (rx_drop y) = y_hs y /\ y_hnext (rx_drop y) = y_hnext y.
  Proof. unfold rx_drop. cbn. destruct (drain_hs (y_queue y) (rx_close y)) as [A B]. rewrite A, B. auto. Qed.
  Lemma drop_worker_hs k (y : bsys) : y_hs (drop_worker k y) = y_hs y /\ y_hnext (drop_worker k y) = y_hnext y.
  Proof.
    unfold drop_worker. cbv zeta. cbn [set_wk set_w y_hs y_hnext]. destruct (w_cur k) as [m|].
    - destruct (rx_drop_hs (os_drop_tx (m_id m) y)) as [A B]. rewrite A, B. auto.
    - apply rx_drop_hs.
  Qed.
  Lemma os_send_hs id v (y : bsys) : y_hs (os_send id v y) = y_hs y /\ y_hnext (os_send id v y) = y_hnext y.
  Proof. unfold os_send. destruct (o_rx _); [|destruct v]; auto. Qed.
  Lemma os_drop_rx_hs id (y : bsys) : y_hs (os_drop_rx id y) = y_hs y /\ y_hnext (os_drop_rx id y) = y_hnext y.
  Proof. unfold os_drop_rx. cbv zeta. destruct (o_val _) as [[|]|]; auto. Qed.
  Lemma poll_inner_hs id f (y : bsys) : y_hs (fst (poll_inner id f y)) = y_hs y /\ y_hnext (fst (poll_inner id f y)) = y_hnext y /\
    forall h, silent h (snd (poll_inner id f y)).
  Proof. unfold poll_inner. destruct (poll_fut svc f (y_w y)) as [w1 [[f1 a]| |]]; repeat split. Qed.
  Lemma poll_reserve_hs c p (y : bsys) : y_hs (fst (fst (poll_reserve c p y))) = y_hs y /\ y_hnext (fst (fst (poll_reserve c p y))) = y_hnext y.
  Proof.
    unfold poll_reserve. destruct p; auto; destruct c; auto; destruct (y_closed y); auto;
      destruct (sem_poll _ _) as [[m t1] got]; destruct got; auto.
  Qed.

  Lemma worker_hs c k (y : bsys) : y_hs (fst (worker_step c k y)) = y_hs y /\ y_hnext (fst (worker_step c k y)) = y_hnext y /\
    forall h, silent h (snd (worker_step c k y)).
  Proof.
    unfold worker_step, die. destruct (w_pc k) as [| | |m|m|m|m f|m e|m e|m|m].
    - destruct (w_finish k); repeat split.
    - destruct (w_cur k); [cbv zeta; destruct (os_is_closed _ _)|]; repeat split.
    - unfold poll_recv. destruct c; [repeat split|]. destruct (y_queue y); [destruct (_ || _)|]; repeat split.
    - destruct (os_is_closed _ _); repeat split.
    - destruct (w_failed k) as [e|].
      + cbn [fst snd go set_wk y_hs y_hnext]. destruct (os_send_hs (m_id m) (Er e) y) as [-> ->]. repeat split.
      + destruct (poll_ready svc (w_svc k) (y_w y)) as [w1 [[s1 [|[u|e]]]| |]]; try (repeat split; fail).
        cbn [fst snd]. match goal with |- context [drop_worker ?k ?z] => destruct (drop_worker_hs k z) as [-> ->] end. repeat split.
    - destruct (call svc (w_svc k) (m_req m) (y_w y)) as [w1 [[s1 f]| |]]; try (repeat split; fail).
      cbn [fst snd]. match goal with |- context [drop_worker ?k ?z] => destruct (drop_worker_hs k z) as [-> ->] end. repeat split.
    - cbn [fst snd go set_wk y_hs y_hnext]. destruct (os_send_hs (m_id m) (Ok f) y) as [-> ->]. repeat split.
    - destruct (y_cell y); repeat split.
    - repeat split.
    - destruct (w_failed k) as [e|].
      + cbn [fst snd go set_wk y_hs y_hnext]. destruct (os_send_hs (m_id m) (Er e) y) as [-> ->]. repeat split.
      + cbn [fst snd]. match goal with |- context [drop_worker ?k ?z] => destruct (drop_worker_hs k z) as [-> ->] end. repeat split.
    - repeat split.
  Qed.

  Definition put (h : nat) (d : option handle) (y : bsys) : Prop := y_hs y h = d /\ h < y_hnext y.

  Lemma upd_other A (f : nat -> A) i x j : (i =? j) = false -> upd f i x j = f j.
  Proof. unfold upd. intros H. rewrite Nat.eqb_sym, H. reflexivity. Qed.
  Lemma upd_here A (f : nat -> A) i x : upd f i x i = x.
  Proof. unfold upd. rewrite Nat.eqb_refl. reflexivity. Qed.

  Lemma step_other h d o (y : bsys) : of_handle h o = false -> put h d y ->
    put h d (fst (bstep o y)) /\ silent h (snd (bstep o y)).
  Proof.
    intros Ho [Hh Hn]. unfold put. destruct o as [i|i r|i c|i|i|id c|id|c| |g]; cbn [of_handle] in Ho; cbn [bstep].
    - destruct (y_hs y i) as [e|]; [destruct (at_rest e)|]; try (repeat split; assumption).
      cbn. rewrite upd_other by assumption. repeat split; assumption.
    - destruct (y_hs y i) as [e|]; [destruct (at_rest e)|]; try (repeat split; assumption). unfold handle_call, send_item. cbv zeta.
      destruct (h_ps e); cbn; rewrite ?Ho, upd_other by assumption; unfold silent; cbn; rewrite ?Ho; repeat split; assumption.
    - destruct (y_hs y i) as [e|]; [|repeat split; assumption]. unfold handle_step. destruct (h_pc e); try (repeat split; assumption).
      + destruct (poll_reserve_hs c (h_ps e) y) as [A B].
        destruct (poll_reserve c (h_ps e) y) as [[y1 p] [|[u|u]]]; cbn in A, B; cbn; rewrite upd_other by assumption; rewrite A, B;
          unfold silent; cbn; rewrite ?Ho; repeat split; assumption.
      + cbn. rewrite upd_other by assumption. unfold silent; cbn; rewrite ?Ho; repeat split; assumption.
      + cbn. rewrite upd_other by assumption. unfold silent; cbn; rewrite ?Ho; repeat split; assumption.
    - destruct (y_hs y i) as [e|]; [destruct (at_rest e)|]; try (repeat split; assumption). cbn.
      rewrite upd_other by (apply Nat.eqb_neq; lia). repeat split; [assumption | lia].
    - destruct (y_hs y i) as [e|]; [destruct (at_rest e)|]; try (repeat split; assumption). unfold handle_drop. cbv zeta. cbn [fst snd].
      assert (H1 : y_hs (drop_sender (h_ps e) y) = y_hs y /\ y_hnext (drop_sender (h_ps e) y) = y_hnext y) by (destruct (h_ps e); auto).
      destruct H1 as [A B]. set (z := set_hs _ _).
      assert (Hz : y_hs z h = d /\ h < y_hnext z) by (subst z; cbn; rewrite upd_other by assumption; rewrite A, B; auto).
      clearbody z. destruct (y_wk z); [|destruct (no_senders z)]; try (split; [exact Hz | repeat split]).
      cbn. destruct (drain_hs (y_queue z) z) as [-> ->]. split; [exact Hz | repeat split].
    - destruct (y_fs y id) as [[f [|]]|]; try (repeat split; assumption). destruct f as [[e|]| |f]; cbn [fut_poll].
      + repeat split; assumption.
      + repeat split; assumption.
      + destruct c; [repeat split; assumption|]. destruct (o_val (y_os y id)) as [[f|e]|].
        * match goal with |- context [poll_inner ?i ?f ?z] => destruct (poll_inner_hs i f z) as (-> & -> & S) end. cbn. split; [auto | apply S].
        * repeat split; assumption.
        * destruct (o_tx _); repeat split; assumption.
      + match goal with |- context [poll_inner ?i ?f ?z] => destruct (poll_inner_hs i f z) as (-> & -> & S) end. cbn. split; [auto | apply S].
    - destruct (y_fs y id) as [[f b]|]; try (repeat split; assumption). cbn. destruct f as [e| |f]; try (repeat split; assumption).
      destruct (os_drop_rx_hs id y) as [-> ->]. repeat split; assumption.
    - destruct (y_wk y) as [k|]; try (repeat split; assumption). destruct (worker_hs c k y) as (-> & -> & S). split; [auto | apply S].
    - destruct (y_wk y) as [k|]; try (repeat split; assumption). destruct (worker_rests k); try (repeat split; assumption).
      cbn [fst snd]. destruct (drop_worker_hs k y) as [-> ->]. repeat split; assumption.
    - repeat split; assumption.
  Qed.
  Lemma standing_put s (y : bsys) : standing s y = true <-> put (fst s) (Some (Hd (snd s) HRest)) y.
  Proof.
    unfold standing, put. destruct (y_hs y (fst s)) as [[p [| | |]]|].
    - destruct (psend_eq p (snd s)) as [->|N].
      + rewrite Nat.ltb_lt. intuition.
      + split; [discriminate | intros [E _]; congruence].
    - split; [discriminate | intros [E _]; congruence].
    - split; [discriminate | intros [E _]; congruence].
    - split; [discriminate | intros [E _]; congruence].
    - split; [discriminate | intros [E _]; congruence].
  Qed.

  Lemma poll_next id c b (y : bsys) : y_fnext (fst (fut_poll c id b y)) = y_fnext y.
  Proof.
    assert (P : forall f z, y_fnext (fst (poll_inner id f z)) = y_fnext (z : bsys)).
    { intros f z. unfold poll_inner. destruct (poll_fut svc f (y_w z)) as [w1 [[f1 a]| |]]; reflexivity. }
    destruct b as [[e|]| |f]; cbn [fut_poll]; try reflexivity; [|apply P].
    destruct c; [reflexivity|]. destruct (o_val (y_os y id)) as [[f|e]|]; [rewrite P; reflexivity | reflexivity | destruct (o_tx _); reflexivity].
  Qed.

End Raw.

Section Proofs.
  Context {W Req Resp Err : Type} {cl : bool} {svc : Service W Req Resp Err} {s0 : st svc}.
  Context (others : bsys svc -> list (@bop W Req)) (coop : bsys svc -> bool).
  Notation bsys := (bsys svc).
  Notation bw := (@bw W Req Resp Err cl svc s0).
  Notation bsvc := (@buffer_service W Req Resp Err cl svc s0 others coop).

  (** [moves] is [brun]. *)
  Lemma moves_run l : forall (x : bw) acc, brun (proj1_sig x) acc l = (proj1_sig (fst (moves l x)), rev (snd (moves l x)) ++ acc).
  Proof.
    induction l as [|o l IH]; intros x acc; [reflexivity|]. cbn [brun moves].
    assert (E : bstep o (proj1_sig x) = (proj1_sig (fst (move o x)), snd (move o x))) by (cbn; apply surjective_pairing).
    rewrite E. destruct (move o x) as [x1 e1]. cbn [fst snd]. rewrite IH. destruct (moves l x1) as [x2 e2].
    cbn [fst snd]. rewrite rev_app_distr, app_assoc. reflexivity.
  Qed.

  Lemma moves_other h d l : (forall o, In o l -> of_handle h o = false) -> forall x : bw, put h d (proj1_sig x) ->
    put h d (proj1_sig (fst (moves l x))) /\ silent h (snd (moves l x)).
  Proof.
    induction l as [|o l IH]; intros Hl x Hx; [split; [exact Hx | apply silent_nil]|]. cbn [moves].
    destruct (@step_other _ _ _ _ svc h d o _ (Hl o (or_introl eq_refl)) Hx) as [A B].
    change (fst (bstep o (proj1_sig x))) with (proj1_sig (fst (move o x))) in A. change (snd (bstep o (proj1_sig x))) with (snd (move o x)) in B.
    destruct (move o x) as [x1 e1]. cbn [fst snd] in A, B.
    specialize (IH (fun o Ho => Hl o (or_intror Ho)) x1 A); destruct (moves l x1) as [x2 e2].
    cbn [fst snd] in *. split; [apply IH | apply silent_app; [exact B | apply IH]].
  Qed.
  Lemma meanwhile_other h (x : bw) o : In o (meanwhile others h x) -> of_handle h o = false.
  Proof. unfold meanwhile. rewrite filter_In. intros [_ H]. apply negb_true_iff, H. Qed.

  Lemma settle_put s (x : bw) : put (fst s) (Some (Hd (snd s) HRest)) (proj1_sig (settle s x)).
  Proof.
    unfold settle. destruct (standing s (proj1_sig x)) eqn:E.
    - unfold standing in E. destruct (y_hs (proj1_sig x) (fst s)) as [[p [| | |]]|] eqn:Eh; try discriminate.
      destruct (psend_eq p (snd s)) as [->|]; [|discriminate]. split; [exact Eh | apply Nat.ltb_lt, E].
    - cbn. split; [apply upd_here | cbn; lia].
  Qed.

  (** One step of the handle's function, the others having moved. *)
  Lemma go_on_busy h d (x : bw) : put h (Some d) (proj1_sig x) -> at_rest d = false ->
    exists (z : bw) e1, put h (Some d) (proj1_sig z) /\ silent h e1 /\
      proj1_sig (fst (go_on others coop h x)) = fst (handle_step (coop (proj1_sig z)) h d (proj1_sig z)) /\
      snd (go_on others coop h x) = e1 ++ snd (handle_step (coop (proj1_sig z)) h d (proj1_sig z)).
  Proof.
    intros Hp Hr. unfold go_on, busy. destruct Hp as [Hh Hn]. rewrite Hh, Hr. cbn [negb].
    destruct (@moves_other h (Some d) (meanwhile others h x) (meanwhile_other h x) x (conj Hh Hn)) as [A B].
    destruct (moves (meanwhile others h x) x) as [z e1]. cbn [fst snd] in *. exists z, e1. split; [exact A|]. split; [exact B|].
    unfold move. cbn [fst snd proj1_sig bstep]. destruct A as [-> _]. auto.
  Qed.
  Lemma go_on_rest h d (x : bw) : put h (Some d) (proj1_sig x) -> at_rest d = true -> go_on others coop h x = (x, []).
  Proof. intros [Hh _] Hr. unfold go_on, busy. rewrite Hh, Hr. reflexivity. Qed.

  (** After one step of [poll_ready]. *)
  Lemma ready_step c h d (y : bsys) : put h (Some d) y -> (h_pc d = HReserve \/ h_pc d = HErrReady) ->
    let '(y1, l) := handle_step c h d y in
    (exists p a, put h (Some (Hd p HRest)) y1 /\ l = [OReady h a] /\
       (a = Ready (Ok tt) -> p = PsReady) /\ (h_ps d = PsReady -> a <> Pending)) \/
    (h_pc d = HReserve /\ h_ps d <> PsReady /\ exists p, put h (Some (Hd p HErrReady)) y1 /\ l = []).
  Proof.
    intros [Hh Hn] Hpc. unfold handle_step. destruct Hpc as [E|E]; rewrite E.
    - destruct (poll_reserve_hs c (h_ps d) y) as [A B].
      assert (P : match poll_reserve c (h_ps d) y with
                  | (_, p, Ready (Ok _)) => p = PsReady
                  | (_, _, _) => h_ps d <> PsReady end).
      { unfold poll_reserve. destruct (h_ps d); [destruct c; [|destruct (y_closed y); [|destruct (sem_poll _ _) as [[m t1] []]]]..| |];
          cbn; try discriminate; reflexivity. }
      destruct (poll_reserve c (h_ps d) y) as [[y1 p] [|[u|u]]]; cbn in A, B.
      + left. exists p, Pending. unfold put. cbn. rewrite A, B. rewrite upd_here. repeat split; auto; discriminate.
      + left. exists p, (Ready (Ok tt)). unfold put. cbn. rewrite A, B. rewrite upd_here. repeat split; auto; discriminate.
      + right. split; [reflexivity|]. split; [exact P|]. exists p. unfold put. cbn. rewrite A, B. rewrite upd_here. repeat split; auto.
    - left. exists (h_ps d), (Ready (Er (get_error_on_closed y))). unfold put. cbn. rewrite upd_here. repeat split; auto; discriminate.
  Qed.

  Lemma ready_answer_silent h e1 (l : list (bobs svc)) : silent h e1 -> ready_answer h (e1 ++ l) = ready_answer h l.
  Proof. intros [A _]. rewrite ready_answer_app, A. reflexivity. Qed.
  Lemma call_answer_silent h e1 (l : list (bobs svc)) : silent h e1 -> call_answer h (e1 ++ l) = call_answer h l.
  Proof. intros [_ A]. rewrite call_answer_app, A. reflexivity. Qed.

  Lemma bready_spec s (x : bw) : exists x1 p a, poll_ready bsvc s x = (x1, Val ((fst s, p), a)) /\
    put (fst s) (Some (Hd p HRest)) (proj1_sig x1) /\ (a = Ready (Ok tt) -> p = PsReady) /\ (snd s = PsReady -> a <> Pending).
  Proof.
    set (h := fst s). pose proof (settle_put s x) as H0. fold h in H0.
    cbn [poll_ready buffer_service]. unfold bready. fold h.
    assert (E1 : proj1_sig (fst (move (BReady h) (settle s x))) = fst (bstep (BReady h) (proj1_sig (settle s x)))) by reflexivity.
    assert (E1' : snd (move (BReady h) (settle s x)) = snd (bstep (BReady h) (proj1_sig (settle s x)))) by reflexivity.
    destruct (move (BReady h) (settle s x)) as [x1 e1]. cbn [fst snd] in E1, E1'.
    assert (Hs : bstep (BReady h) (proj1_sig (settle s x)) = handle_ready h (Hd (snd s) HRest) (proj1_sig (settle s x))).
    { cbn [bstep]. destruct H0 as [-> _]. reflexivity. }
    rewrite Hs in E1'. cbn in E1'. subst e1.
    set (pc := if tx_is_closed (proj1_sig (settle s x)) then HErrReady else HReserve : hpc (Req := Req)).
    assert (H1 : put h (Some (Hd (snd s) pc)) (proj1_sig x1)).
    { rewrite E1, Hs. unfold put. cbn. rewrite upd_here. split; [reflexivity | apply H0]. }
    clear E1 Hs.
    assert (Hpc : pc = HReserve \/ pc = HErrReady) by (subst pc; destruct (tx_is_closed _); auto).
    assert (Hb : at_rest (Hd (snd s) pc) = false) by (destruct Hpc as [->| ->]; reflexivity).
    destruct (@go_on_busy h (Hd (snd s) pc) x1 H1 Hb) as (z & e2 & Hz & S2 & G1 & G2).
    destruct (go_on others coop h x1) as [x2 l2] eqn:E2. cbn [fst snd] in G1, G2. subst l2.
    pose proof (@ready_step (coop (proj1_sig z)) h (Hd (snd s) pc) (proj1_sig z) Hz Hpc) as R.
    destruct (handle_step (coop (proj1_sig z)) h (Hd (snd s) pc) (proj1_sig z)) as [y2 l2]. cbn [fst snd] in *.
    destruct R as [(p & a & P2 & -> & Q1 & Q2)|(_ & Hn & p & P2 & ->)].
    - rewrite <- G1 in P2. rewrite (@go_on_rest h (Hd p HRest) x2 P2 eq_refl).
      exists x2, p, a. cbn [app]. rewrite app_nil_r, (ready_answer_silent _ S2). cbn. rewrite Nat.eqb_refl.
      unfold sender. destruct P2 as [P2 P3]. rewrite P2. cbn. repeat split; auto.
    - rewrite <- G1 in P2. destruct (@go_on_busy h (Hd p HErrReady) x2 P2 eq_refl) as (z3 & e3 & Hz3 & S3 & G3 & G4).
      destruct (go_on others coop h x2) as [x3 l3] eqn:E3. cbn [fst snd] in G3, G4. subst l3.
      exists x3, p, (Ready (Er (get_error_on_closed (proj1_sig z3)))).
      cbn [app]. rewrite app_nil_r, (ready_answer_silent _ S2), (ready_answer_silent _ S3). cbn. rewrite Nat.eqb_refl.
      assert (P3 : put h (Some (Hd p HRest)) (proj1_sig x3)).
      { rewrite G3. unfold put. cbn. rewrite upd_here. split; [reflexivity | apply Hz3]. }
      unfold sender. pose proof P3 as [P4 _]. rewrite P4. cbn. repeat split; auto; try apply P3; discriminate.
  Qed.

  Lemma bcall_spec s r (x : bw) : snd s <> PsIdle -> (forall t, snd s <> PsAcquiring t) ->
    exists x1 p id, call bsvc s r x = (x1, Val ((fst s, p), (id, false))).
  Proof.
    intros N1 N2. set (h := fst s). pose proof (settle_put s x) as H0. fold h in H0.
    cbn [call buffer_service]. unfold bcall. fold h.
    assert (E1 : proj1_sig (fst (move (BCall h r) (settle s x))) = fst (bstep (BCall h r) (proj1_sig (settle s x)))) by reflexivity.
    assert (E1' : snd (move (BCall h r) (settle s x)) = snd (bstep (BCall h r) (proj1_sig (settle s x)))) by reflexivity.
    destruct (move (BCall h r) (settle s x)) as [x1 e1]. cbn [fst snd] in E1, E1'.
    assert (Hs : bstep (BCall h r) (proj1_sig (settle s x)) = handle_call h (Hd (snd s) HRest) r (proj1_sig (settle s x))).
    { cbn [bstep]. destruct H0 as [-> _]. reflexivity. }
    rewrite Hs in E1'. assert (E1'' : proj1_sig x1 = fst (handle_call h (Hd (snd s) HRest) r (proj1_sig (settle s x)))) by (rewrite E1, Hs; reflexivity).
    clear E1 Hs. unfold handle_call, send_item in *. cbn [h_ps] in *. destruct (snd s) as [|t| |] eqn:Es; [congruence | exfalso; apply (N2 t); reflexivity | |].
    - cbn in E1', E1''. subst e1.
      assert (H1 : put h (Some (Hd PsIdle HRest)) (proj1_sig x1)) by (rewrite E1''; unfold put; cbn; rewrite upd_here; split; [reflexivity | apply H0]).
      rewrite (@go_on_rest h (Hd PsIdle HRest) x1 H1 eq_refl). cbn. rewrite Nat.eqb_refl. eauto.
    - cbn in E1', E1''. subst e1.
      assert (H1 : put h (Some (Hd PsClosed (HErrCall r))) (proj1_sig x1)) by (rewrite E1''; unfold put; cbn; rewrite upd_here; split; [reflexivity | apply H0]).
      destruct (@go_on_busy h (Hd PsClosed (HErrCall r)) x1 H1 eq_refl) as (z & e2 & Hz & S2 & G1 & G2).
      destruct (go_on others coop h x1) as [x2 l2] eqn:E2. cbn [fst snd] in G1, G2. subst l2.
      cbn [app]. rewrite (call_answer_silent _ S2). cbn. rewrite Nat.eqb_refl. eauto.
  Qed.

  Lemma bclone_spec s (x : bw) : exists x1 h1, clone bsvc s x = (x1, Val (h1, PsIdle)) /\
    put h1 (Some (Hd PsIdle HRest)) (proj1_sig x1).
  Proof.
    cbn [clone buffer_service]. unfold bclone.
    assert (E1 : bstep (BClone (fst s)) (proj1_sig (settle s x)) = handle_clone (fst s) (proj1_sig (settle s x))).
    { cbn [bstep]. destruct (settle_put s x) as [-> _]. reflexivity. }
    assert (E2 : proj1_sig (fst (move (BClone (fst s)) (settle s x))) = fst (handle_clone (fst s) (proj1_sig (settle s x)))) by (rewrite <- E1; reflexivity).
    assert (E3 : snd (move (BClone (fst s)) (settle s x)) = snd (handle_clone (fst s) (proj1_sig (settle s x)))) by (rewrite <- E1; reflexivity).
    destruct (move (BClone (fst s)) (settle s x)) as [x1 e1]. cbn [fst snd] in E2, E3. subst e1. cbn. rewrite Nat.eqb_refl.
    eexists _, _. split; [reflexivity|]. rewrite E2. unfold put. cbn. rewrite upd_here. split; [reflexivity | lia].
  Qed.

  Lemma poll_answer_calm id (l : list (bobs svc)) : no_panic l -> poll_answer id l <> Some Panic.
  Proof.
    intros [_ H]. induction l as [|e l IH]; [discriminate|]. cbn.
    assert (IH' : poll_answer id l <> Some Panic) by (apply IH; intros i Hi; apply (H i); right; exact Hi).
    destruct e; try exact IH'; destruct (Nat.eqb_spec id0 id); try exact IH'; try discriminate.
    exfalso. apply (H id0). left. reflexivity.
  Qed.
  Lemma poll_answer_back id (l : list (bobs svc)) : no_hang l -> poll_answer id l <> Some Diverge.
  Proof.
    intros [_ H]. induction l as [|e l IH]; [discriminate|]. cbn.
    assert (IH' : poll_answer id l <> Some Diverge) by (apply IH; intros i Hi; apply (H i); right; exact Hi).
    destruct e; try exact IH'; destruct (Nat.eqb_spec id0 id); try exact IH'; try discriminate.
    exfalso. apply (H id0). left. reflexivity.
  Qed.

  (** The buffer, as seen by the layer above. *)
  Lemma buffer_safe dv : contract_safe cl svc s0 -> (dv = false -> always_returns cl svc s0) ->
    Safe (Caps dv true true) bsvc (fun _ => True) (fun s => snd s = PsReady) (fun f => snd f = false).
  Proof.
    intros HC HR. split; cbn [c_div c_stk c_cl].
    - auto.
    - intros s _ x. destruct (bready_spec s x) as (x1 & p & a & E & _ & H1 & _). rewrite E. cbn. destruct a as [|[[]|e]]; auto.
    - intros _ s Hs x. destruct (bready_spec s x) as (x1 & p & a & E & _ & _ & H1). rewrite E. cbn. auto.
    - intros s r Hs x. destruct (@bcall_spec s r x) as (x1 & p & id & E); [rewrite Hs; discriminate | intros t; rewrite Hs; discriminate |].
      rewrite E. cbn. auto.
    - intros [id b] Hb x. cbn in Hb. subst b. cbn [poll_fut buffer_service]. unfold bpoll. cbn [fst snd].
      pose proof (poll_answer_calm id (step_calm (BPollF id (coop (proj1_sig x))) HC (proj2_sig x))) as A.
      assert (B : dv = false -> poll_answer id (snd (bstep (BPollF id (coop (proj1_sig x))) (proj1_sig x))) <> Some Diverge).
      { intros D. apply (poll_answer_back id (step_back (BPollF id (coop (proj1_sig x))) (HR D) (proj2_sig x))). }
      unfold move. destruct (poll_answer id _) as [[a| |]|]; cbn in *.
      + intros ->. reflexivity.
      + congruence.
      + destruct dv; [reflexivity | exfalso; apply B; reflexivity].
      + auto.
    - intros _ s _ x. destruct (bclone_spec s x) as (x1 & h1 & E & _). rewrite E. exact I.
  Qed.

  Lemma handle_contract h : contract_safe cl svc s0 ->
    contract_safe true bsvc (h, PsIdle) /\ ready_persists true bsvc (h, PsIdle) /\
    (always_returns cl svc s0 -> always_returns true bsvc (h, PsIdle)).
  Proof.
    intros HC.
    assert (HF : safe_from (Caps true true true) bsvc (h, PsIdle)).
    { eexists _, _, _. split; [apply buffer_safe; [exact HC | discriminate] | exact I]. }
    split; [exact (safe_contract HF)|]. split; [exact (safe_persists HF eq_refl)|]. intros HR.
    assert (HF' : safe_from (Caps false true true) bsvc (h, PsIdle)).
    { eexists _, _, _. split; [apply buffer_safe; [exact HC | intros _; exact HR] | exact I]. }
    exact (safe_returns HF' eq_refl).
  Qed.

  (** ** A handle of the program *)
  Lemma settle_standing s (x : bw) : standing s (proj1_sig x) = true -> settle s x = x.
  Proof. intros E. unfold settle. rewrite E. reflexivity. Qed.
  Lemma own_meanwhile h (x : bw) : own h (meanwhile others h x) = [].
  Proof.
    unfold own. assert (H : forall l : list (@bop W Req), (forall o, In o l -> of_handle h o = false) -> List.filter (of_handle h) l = []).
    { induction l as [|o l IH]; intros Hl; [reflexivity|]. cbn. rewrite (Hl o (or_introl eq_refl)). apply IH. intros o' Ho. apply Hl. right. exact Ho. }
    apply H. apply meanwhile_other.
  Qed.
  Lemma own_app h (a b : list (@bop W Req)) : own h (a ++ b) = own h a ++ own h b.
  Proof. apply filter_app. Qed.

  Lemma moves_app a b (x : bw) : moves (a ++ b) x =
    (fst (moves b (fst (moves a x))), snd (moves a x) ++ snd (moves b (fst (moves a x)))).
  Proof.
    revert x. induction a as [|o a IH]; intros x; [cbn; apply surjective_pairing|]. cbn [app moves].
    destruct (move o x) as [x1 e1]. rewrite IH. destruct (moves a x1) as [x2 e2]. cbn [fst snd].
    destruct (moves b x2) as [x3 e3]. cbn [fst snd]. rewrite app_assoc. reflexivity.
  Qed.
  Lemma moves_one o (x : bw) : moves [o] x = (fst (move o x), snd (move o x)).
  Proof. cbn [moves]. destruct (move o x) as [x1 e1]. cbn. rewrite app_nil_r. reflexivity. Qed.

  (** [go_on] is: nothing, or the others' moves and a step. *)
  Lemma go_on_moves h (x : bw) : exists ops, go_on others coop h x = moves ops x /\
    (own h ops = [] \/ exists c, own h ops = [BStep h c]).
  Proof.
    unfold go_on. destruct (busy h (proj1_sig x)).
    - destruct (moves (meanwhile others h x) x) as [x1 e1] eqn:E.
      exists (meanwhile others h x ++ [BStep h (coop (proj1_sig x1))]). rewrite moves_app, E. cbn [fst snd]. rewrite moves_one. split.
      + destruct (move _ x1) as [x2 e2]. reflexivity.
      + right. eexists. rewrite own_app, own_meanwhile. cbn. rewrite Nat.eqb_refl. reflexivity.
    - exists []. split; [reflexivity | left; reflexivity].
  Qed.

  Lemma own_steps h (ops : list (@bop W Req)) : own h ops = [] \/ (exists c, own h ops = [BStep h c]) -> steps_only h (own h ops).
  Proof. intros [E|[c E]] o; rewrite E; cbn; [tauto|]. intros [<-|[]]. eauto. Qed.

  Lemma ready_answer_in h (l : list (bobs svc)) a : ready_answer h l = Some a -> In (OReady h a) l.
  Proof.
    induction l as [|e l IH]; [discriminate|]. cbn. destruct e; try (intros E; right; apply IH; exact E).
    destruct (Nat.eqb_spec h0 h) as [->|]; [|intros E; right; apply IH; exact E]. intros [= ->]. left. reflexivity.
  Qed.

  Lemma ready_is s (x x1 : bw) s1 a : standing s (proj1_sig x) = true -> poll_ready bsvc s x = (x1, Val (s1, a)) ->
    standing s1 (proj1_sig x1) = true /\ fst s1 = fst s /\
    exists ops l t, brun (proj1_sig x) [] ops = (proj1_sig x1, l) /\ own (fst s) ops = BReady (fst s) :: t /\ steps_only (fst s) t /\
      In (OReady (fst s) a) l.
  Proof.
    intros Hs E. destruct (bready_spec s x) as (x1' & p & a' & E' & P & _). rewrite E in E'. injection E' as <- -> <-.
    split; [apply standing_put; exact P|]. split; [reflexivity|].
    cbn [poll_ready buffer_service] in E. unfold bready in E. rewrite (settle_standing _ _ Hs) in E.
    destruct (go_on_moves (fst s) (fst (move (BReady (fst s)) x))) as (o1 & G1 & F1).
    destruct (go_on_moves (fst s) (fst (go_on others coop (fst s) (fst (move (BReady (fst s)) x))))) as (o2 & G2 & F2).
    exists (BReady (fst s) :: o1 ++ o2). rewrite moves_run.
    cbn [moves].
    destruct (move (BReady (fst s)) x) as [y1 e1]. cbn [fst snd] in *. rewrite moves_app, <- G1.
    destruct (go_on others coop (fst s) y1) as [y2 e2]. cbn [fst snd] in *. rewrite <- G2.
    destruct (go_on others coop (fst s) y2) as [y3 e3]. cbn [fst snd] in *.
    destruct (ready_answer (fst s) (e1 ++ e2 ++ e3)) as [a0|] eqn:Ea; [|discriminate]. injection E as <- _ ->.
    exists (rev (e1 ++ e2 ++ e3) ++ []), (own (fst s) o1 ++ own (fst s) o2). split; [reflexivity|]. split.
    - unfold own at 1. cbn [List.filter of_handle]. rewrite Nat.eqb_refl. f_equal. apply own_app.
    - split.
      + intros o Ho. apply in_app_or in Ho. destruct Ho; [eapply own_steps; [exact F1|] | eapply own_steps; [exact F2|]]; assumption.
      + rewrite app_nil_r. apply -> in_rev. apply ready_answer_in. exact Ea.
  Qed.



  Lemma call_is s r (x x1 : bw) s1 f : standing s (proj1_sig x) = true -> call bsvc s r x = (x1, Val (s1, f)) ->
    standing s1 (proj1_sig x1) = true /\ fst s1 = fst s /\ snd f = false /\ awaited (fst f) (proj1_sig x1) /\
    exists ops l t, brun (proj1_sig x) [] ops = (proj1_sig x1, l) /\ own (fst s) ops = BCall (fst s) r :: t /\ steps_only (fst s) t /\
      (In (OSent (fst s) (fst f) r) l \/ exists e, In (ORefused (fst s) (fst f) r e) l).
  Proof.
    intros Hs E. set (h := fst s). pose proof Hs as H0. apply standing_put in H0. fold h in H0.
    cbn [call buffer_service] in E. unfold bcall in E. rewrite (settle_standing _ _ Hs) in E. fold h in E.
    destruct (go_on_moves h (fst (move (BCall h r) x))) as (o1 & G1 & F1).
    assert (E1 : proj1_sig (fst (move (BCall h r) x)) = fst (bstep (BCall h r) (proj1_sig x))) by reflexivity.
    assert (E1' : snd (move (BCall h r) x) = snd (bstep (BCall h r) (proj1_sig x))) by reflexivity.
    assert (R : brun (proj1_sig x) [] (BCall h r :: o1) = (proj1_sig (fst (moves o1 (fst (move (BCall h r) x)))),
       rev (snd (move (BCall h r) x) ++ snd (moves o1 (fst (move (BCall h r) x)))) ++ [])).
    { rewrite moves_run. cbn [moves]. destruct (move (BCall h r) x) as [x2 e2]. cbn [fst snd]. destruct (moves o1 x2) as [x3 e3]. reflexivity. }
    destruct (move (BCall h r) x) as [x2 e2]. cbn [fst snd] in *. rewrite <- G1 in R.
    assert (Hb : bstep (BCall h r) (proj1_sig x) = handle_call h (Hd (snd s) HRest) r (proj1_sig x)).
    { cbn [bstep]. destruct H0 as [-> _]. reflexivity. }
    rewrite Hb in E1, E1'. clear Hb.
    assert (T : own h (BCall h r :: o1) = BCall h r :: own h o1) by (unfold own at 1; cbn [List.filter of_handle]; rewrite Nat.eqb_refl; reflexivity).
    assert (F : put h (Some (Hd (sender h (proj1_sig (fst (go_on others coop h x2)))) HRest)) (proj1_sig (fst (go_on others coop h x2))) ->
      forall id, call_answer h (e2 ++ snd (go_on others coop h x2)) = Some (Some id) -> awaited id (proj1_sig (fst (go_on others coop h x2))) ->
      (In (OSent h id r) (e2 ++ snd (go_on others coop h x2)) \/ exists e, In (ORefused h id r e) (e2 ++ snd (go_on others coop h x2))) ->
      standing s1 (proj1_sig x1) = true /\ fst s1 = h /\ snd f = false /\ awaited (fst f) (proj1_sig x1) /\
      exists ops l t, brun (proj1_sig x) [] ops = (proj1_sig x1, l) /\ own h ops = BCall h r :: t /\ steps_only h t /\
      (In (OSent h (fst f) r) l \/ exists e, In (ORefused h (fst f) r e) l)).
    { intros P id Ea Aw Hin. destruct (go_on others coop h x2) as [x3 e3]. cbn [fst snd] in *. rewrite Ea in E.
      injection E as <- <- <-. split; [apply standing_put; exact P|]. split; [reflexivity|]. split; [reflexivity|]. split; [exact Aw|].
      exists (BCall h r :: o1), (rev (e2 ++ e3) ++ []), (own h o1). split; [exact R|]. split; [exact T|]. split; [apply own_steps; exact F1|].
      rewrite app_nil_r. cbn [fst]. destruct Hin as [Hin|[e Hin]]; [left | right; exists e]; apply -> in_rev; exact Hin. }
    unfold handle_call, send_item in E1, E1'. cbn [h_ps] in E1, E1'. destruct (snd s) as [|t| |] eqn:Es.
    - exfalso. cbn in E1'. subst e2. destruct (go_on others coop h x2). cbn in E. rewrite Nat.eqb_refl in E. discriminate.
    - exfalso. cbn in E1'. subst e2. destruct (go_on others coop h x2). cbn in E. rewrite Nat.eqb_refl in E. discriminate.
    - cbn in E1, E1'. subst e2.
      assert (H1 : put h (Some (Hd PsIdle HRest)) (proj1_sig x2)) by (rewrite E1; unfold put; cbn; rewrite upd_here; split; [reflexivity | apply H0]).
      rewrite (@go_on_rest h (Hd PsIdle HRest) x2 H1 eq_refl) in F. apply (F) with (id := y_fnext (proj1_sig x)).
      + cbn [fst]. unfold sender. destruct H1 as [H1 H2]. rewrite H1. cbn. split; assumption.
      + cbn. rewrite Nat.eqb_refl. reflexivity.
      + cbn [fst]. rewrite E1. unfold awaited. cbn. rewrite upd_here. split; [eauto | lia].
      + cbn. auto.
    - cbn in E1, E1'. subst e2.
      assert (H1 : put h (Some (Hd PsClosed (HErrCall r))) (proj1_sig x2)) by (rewrite E1; unfold put; cbn; rewrite upd_here; split; [reflexivity | apply H0]).
      destruct (@go_on_busy h (Hd PsClosed (HErrCall r)) x2 H1 eq_refl) as (z & e3 & Hz & S2 & K1 & K2).
      cbn [app] in F. rewrite K2 in F. rewrite (call_answer_silent _ S2) in F. cbn [handle_step h_pc h_ps snd fst] in K1, F.
      apply (F) with (id := y_fnext (proj1_sig z)).
      + rewrite K1. unfold put, sender. cbn. rewrite upd_here. split; [reflexivity | apply Hz].
      + cbn. rewrite Nat.eqb_refl. reflexivity.
      + rewrite K1. unfold awaited. cbn. rewrite upd_here. split; [eauto | lia].
      + right. eexists. apply in_or_app. right. left. reflexivity.
  Qed.

  Lemma poll_inner_log id f (y : bsys) : match poll_answer id (snd (poll_inner id f y)) with
    | Some (Val a) => In (OPolled id a) (snd (poll_inner id f y)) /\ (a = Pending -> exists b, y_fs (fst (poll_inner id f y)) id = Some (b, false))
    | Some _ => True | None => False end.
  Proof.
    unfold poll_inner. destruct (poll_fut svc f (y_w y)) as [w1 [[f1 a]| |]]; cbn; rewrite Nat.eqb_refl; auto.
    split; [auto|]. intros Ha. rewrite upd_here. destruct a; [eauto | discriminate].
  Qed.
  Lemma poll_log id c b (y : bsys) : y_fs y id = Some (b, false) -> match poll_answer id (snd (fut_poll c id b y)) with
    | Some (Val a) => In (OPolled id a) (snd (fut_poll c id b y)) /\ (a = Pending -> exists b1, y_fs (fst (fut_poll c id b y)) id = Some (b1, false))
    | Some _ => True | None => False end.
  Proof.
    intros Hb. destruct b as [[e|]| |f]; cbn [fut_poll].
    - cbn. rewrite Nat.eqb_refl. split; [auto | discriminate].
    - cbn. rewrite Nat.eqb_refl. exact I.
    - destruct c; [cbn; rewrite Nat.eqb_refl; eauto|]. destruct (o_val (y_os y id)) as [[f|e]|].
      + apply poll_inner_log.
      + cbn. rewrite Nat.eqb_refl. split; [auto | discriminate].
      + destruct (o_tx _); cbn; rewrite Nat.eqb_refl; [eauto | split; [auto | discriminate]].
    - apply poll_inner_log.
  Qed.
  Lemma poll_is id (x x1 : bw) f1 a : awaited id (proj1_sig x) -> poll_fut bsvc (id, false) x = (x1, Val (f1, a)) ->
    fst f1 = id /\ (a = Pending -> snd f1 = false /\ awaited id (proj1_sig x1)) /\
    (a <> Pending -> forall x2, poll_fut bsvc f1 x2 = (x2, Panic)) /\
    exists c l, brun (proj1_sig x) [] [BPollF id c] = (proj1_sig x1, l) /\ In (OPolled id a) l.
  Proof.
    intros [[b Hb] Hn] E. cbn [poll_fut buffer_service] in E. unfold bpoll in E. cbn [fst snd] in E.
    set (c := coop (proj1_sig x)) in E. clearbody c.
    assert (E1 : proj1_sig (fst (move (BPollF id c) x)) = fst (fut_poll c id b (proj1_sig x))) by (cbn [move fst proj1_sig bstep]; rewrite Hb; reflexivity).
    assert (E2 : snd (move (BPollF id c) x) = snd (fut_poll c id b (proj1_sig x))) by (cbn [move snd bstep]; rewrite Hb; reflexivity).
    pose proof (@moves_run [BPollF id c] x []) as R. rewrite moves_one in R. cbn [fst snd] in R.
    destruct (move (BPollF id c) x) as [x2 e2]. cbn [fst snd] in *. pose proof (@poll_log id c b (proj1_sig x) Hb) as L. rewrite <- E2 in L.
    destruct (poll_answer id e2) as [[a0| |]|]; try discriminate; [|contradiction]. injection E as <- <- <-. destruct L as [L1 L2].
    split; [reflexivity|]. split.
    - intros ->. split; [reflexivity|]. rewrite E1. split; [apply L2; reflexivity | rewrite poll_next; exact Hn].
    - split; [intros N x9; destruct a0; [contradiction | reflexivity]|]. exists c, (rev e2 ++ []). split; [exact R|]. rewrite app_nil_r. apply -> in_rev. exact L1.
  Qed.
  Lemma first_stands bound w : standing (buffer_handle cl s0 others coop) (proj1_sig (buffer_world cl svc s0 bound w)) = true.
  Proof. reflexivity. Qed.

  Lemma clone_is s (x x1 : bw) s1 : standing s (proj1_sig x) = true -> clone bsvc s x = (x1, Val s1) ->
    standing s1 (proj1_sig x1) = true /\
    exists l, brun (proj1_sig x) [] [BClone (fst s)] = (proj1_sig x1, l) /\ In (OCloned (fst s) (fst s1)) l.
  Proof.
    intros Hs E. destruct (bclone_spec s x) as (x1' & h1 & E' & P). rewrite E in E'. injection E' as <- ->.
    split; [apply standing_put; exact P|]. cbn [clone buffer_service] in E. unfold bclone in E. rewrite (settle_standing _ _ Hs) in E.
    pose proof (@moves_run [BClone (fst s)] x []) as R. rewrite moves_one in R. cbn [fst snd] in R.
    destruct (move (BClone (fst s)) x) as [x2 e2]. cbn [fst snd] in *.
    destruct (clone_answer (fst s) e2) as [h2|] eqn:Ea; [|discriminate]. injection E as -> ->.
    exists (rev e2 ++ []). split; [exact R|]. rewrite app_nil_r. apply -> in_rev. clear - Ea. induction e2 as [|e l IH]; [discriminate|].
    cbn in Ea. destruct e; try (right; apply IH; exact Ea). destruct (Nat.eqb_spec h (fst s)) as [->|]; [|right; apply IH; exact Ea].
    injection Ea as ->. left. reflexivity.
  Qed.

End Proofs.

(** ** The others leave it alone *)
Section Alone.
  Context {W Req Resp Err : Type} {svc : Service W Req Resp Err}.
  Notation bsys := (bsys svc).

  Lemma standing_other s o (y : bsys) : of_handle (fst s) o = false -> standing s y = true -> standing s (fst (bstep o y)) = true.
  Proof. rewrite !standing_put. intros H1 H2. apply (step_other _ H1 H2). Qed.

  Lemma drain_fs q : forall y : bsys, y_fs (drain q y) = y_fs y /\ y_fnext (drain q y) = y_fnext y.
  Proof. induction q as [|m q IH]; intros y; [auto|]. cbn. destruct (IH (os_drop_tx (m_id m) (add_permit y))) as [A B]. rewrite A, B. auto. Qed.
  Lemma drop_worker_fs k (y : bsys) : y_fs (drop_worker k y) = y_fs y /\ y_fnext (drop_worker k y) = y_fnext y.
  Proof.
    unfold drop_worker, rx_drop. cbv zeta. cbn [set_wk set_w set_queue y_fs y_fnext].
    match goal with |- context [drain ?q ?z] => destruct (drain_fs q z) as [-> ->] end. destruct (w_cur k); auto.
  Qed.
  Lemma os_send_fs id v (y : bsys) : y_fs (os_send id v y) = y_fs y /\ y_fnext (os_send id v y) = y_fnext y.
  Proof. unfold os_send. destruct (o_rx _); [|destruct v]; auto. Qed.
  Lemma worker_fs c k (y : bsys) : y_fs (fst (worker_step c k y)) = y_fs y /\ y_fnext (fst (worker_step c k y)) = y_fnext y.
  Proof.
    unfold worker_step, die. destruct (w_pc k) as [| | |m|m|m|m f|m e|m e|m|m].
    - destruct (w_finish k); auto.
    - destruct (w_cur k); [cbv zeta; destruct (os_is_closed _ _)|]; auto.
    - unfold poll_recv. destruct c; [auto|]. destruct (y_queue y); [destruct (_ || _)|]; auto.
    - destruct (os_is_closed _ _); auto.
    - destruct (w_failed k) as [e|]; [apply os_send_fs|].
      destruct (poll_ready svc (w_svc k) (y_w y)) as [w1 [[s1 [|[u|e]]]| |]]; auto. cbn [fst]. match goal with |- context [drop_worker ?k ?z] => exact (drop_worker_fs k z) end.
    - destruct (call svc (w_svc k) (m_req m) (y_w y)) as [w1 [[s1 f]| |]]; auto. cbn [fst]. match goal with |- context [drop_worker ?k ?z] => exact (drop_worker_fs k z) end.
    - apply os_send_fs.
    - destruct (y_cell y); auto.
    - auto.
    - destruct (w_failed k) as [e|]; [apply os_send_fs | cbn [fst]; match goal with |- context [drop_worker ?k ?z] => exact (drop_worker_fs k z) end].
    - auto.
  Qed.
  Lemma poll_reserve_fs c p (y : bsys) : y_fs (fst (fst (poll_reserve c p y))) = y_fs y /\ y_fnext (fst (fst (poll_reserve c p y))) = y_fnext y.
  Proof.
    unfold poll_reserve. destruct p; auto; destruct c; auto; destruct (y_closed y); auto;
      destruct (sem_poll _ _) as [[m t1] got]; destruct got; auto.
  Qed.
  Lemma poll_fs id j c b (y : bsys) : (id =? j) = false -> y_fs (fst (fut_poll c id b y)) j = y_fs y j.
  Proof.
    intros N.
    assert (P : forall f z, y_fs (fst (poll_inner id f z)) j = y_fs (z : bsys) j).
    { intros f z. unfold poll_inner. destruct (poll_fut svc f (y_w z)) as [w1 [[f1 a]| |]]; cbn; apply upd_other; exact N. }
    destruct b as [[e|]| |f]; cbn [fut_poll]; [cbn; apply upd_other; exact N | cbn; apply upd_other; exact N | | apply P].
    destruct c; [reflexivity|]. destruct (o_val (y_os y id)) as [[f|e]|]; [rewrite P; reflexivity | cbn; apply upd_other; exact N |].
    destruct (o_tx _); [reflexivity | cbn; apply upd_other; exact N].
  Qed.

  Lemma awaited_other id o (y : bsys) : of_future id o = false -> awaited id y -> awaited id (fst (bstep o y)).
  Proof.
    intros Ho [[b Hb] Hn].
    assert (Hi : forall n, n = y_fnext y -> (n =? id) = false) by (intros n ->; apply Nat.eqb_neq; lia).
    assert (Same : forall z : bsys, y_fs z = y_fs y -> y_fnext z = y_fnext y -> awaited id z) by (intros z E1 E2; split; [rewrite E1; eauto | rewrite E2; exact Hn]).
    destruct o as [i|i r|i c|i|i|j c|j|c| |g]; cbn [of_future] in Ho; cbn [bstep].
    - destruct (y_hs y i) as [e|]; [destruct (at_rest e)|]; apply Same; reflexivity.
    - destruct (y_hs y i) as [e|]; [destruct (at_rest e)|]; try (apply Same; reflexivity). unfold handle_call, send_item. cbv zeta.
      destruct (h_ps e); try (apply Same; reflexivity). unfold awaited. cbn. rewrite upd_other by (apply Hi; reflexivity). split; [eauto | lia].
    - destruct (y_hs y i) as [e|]; try (apply Same; reflexivity). unfold handle_step. destruct (h_pc e); try (apply Same; reflexivity).
      + destruct (poll_reserve_fs c (h_ps e) y) as [A B].
        destruct (poll_reserve c (h_ps e) y) as [[y1 p] [|[u|u]]]; cbn in A, B; apply Same; cbn; assumption.
      + unfold awaited. cbn. rewrite upd_other by (apply Hi; reflexivity). split; [eauto | lia].
    - destruct (y_hs y i) as [e|]; [destruct (at_rest e)|]; apply Same; reflexivity.
    - destruct (y_hs y i) as [e|]; [destruct (at_rest e)|]; try (apply Same; reflexivity). unfold handle_drop. cbv zeta. cbn [fst snd].
      assert (H1 : y_fs (drop_sender (h_ps e) y) = y_fs y /\ y_fnext (drop_sender (h_ps e) y) = y_fnext y) by (destruct (h_ps e); auto).
      set (z := set_hs _ _).
      assert (Hz : y_fs z = y_fs y /\ y_fnext z = y_fnext y) by exact H1.
      clearbody z. destruct Hz as [A B]. destruct (y_wk z); [|destruct (no_senders z)]; try (apply Same; assumption).
      destruct (drain_fs (y_queue z) z) as [C D]. apply Same; cbn; congruence.
    - destruct (y_fs y j) as [[f [|]]|]; try (apply Same; reflexivity). split; [rewrite poll_fs by exact Ho; eauto | rewrite poll_next; exact Hn].
    - destruct (y_fs y j) as [[f d]|]; try (apply Same; reflexivity). unfold awaited. cbn [fst fut_drop set_fs y_fs y_fnext].
      rewrite upd_other by exact Ho.
      assert (E : y_fs match f with BFailed _ => y | BRx => os_drop_rx j y | BPoll f0 => set_w (drop_fut svc f0 (y_w y)) y end = y_fs y /\
                  y_fnext match f with BFailed _ => y | BRx => os_drop_rx j y | BPoll f0 => set_w (drop_fut svc f0 (y_w y)) y end = y_fnext y).
      { destruct f; auto. unfold os_drop_rx. cbv zeta. destruct (o_val _) as [[|]|]; auto. }
      destruct E as [-> ->]. split; [eauto | exact Hn].
    - destruct (y_wk y) as [k|]; try (apply Same; reflexivity). destruct (worker_fs c k y) as [A B]. apply Same; assumption.
    - destruct (y_wk y) as [k|]; try (apply Same; reflexivity). destruct (worker_rests k); try (apply Same; reflexivity).
      cbn [fst]. destruct (drop_worker_fs k y) as [A B]. apply Same; assumption.
    - apply Same; reflexivity.
  Qed.
End Alone.

(** ** The wrapped service, in any program *)
Section Down.
  Context {W Req Resp Err : Type} {cl : bool} {svc : Service W Req Resp Err} {s0 : st svc}.
  Lemma no_panic_app (a b : list (bobs svc)) : no_panic a -> no_panic b -> no_panic (a ++ b).
  Proof. intros [A1 A2] [B1 B2]. split; [|intros id]; rewrite in_app_iff; [tauto | specialize (A2 id); specialize (B2 id); tauto]. Qed.
  Lemma no_hang_app (a b : list (bobs svc)) : no_hang a -> no_hang b -> no_hang (a ++ b).
  Proof. intros [A1 A2] [B1 B2]. split; [|intros id]; rewrite in_app_iff; [tauto | specialize (A2 id); specialize (B2 id); tauto]. Qed.
  Lemma no_panic_rev (a : list (bobs svc)) : no_panic a -> no_panic (rev a).
  Proof. intros [A1 A2]. split; [|intros id]; rewrite <- in_rev; auto. Qed.
  Lemma no_hang_rev (a : list (bobs svc)) : no_hang a -> no_hang (rev a).
  Proof. intros [A1 A2]. split; [|intros id]; rewrite <- in_rev; auto. Qed.

  Lemma run_calm : contract_safe cl svc s0 -> forall ops (y : bsys svc) l, sound cl s0 y -> no_panic l -> no_panic (snd (brun y l ops)).
  Proof.
    intros HC. induction ops as [|o ops IH]; intros y l HS Hl; [exact Hl|]. cbn.
    pose proof (step_calm o HC HS) as H1. pose proof (sound_step o HS) as H2. destruct (bstep o y) as [y1 l1]. apply IH; [exact H2|].
    apply no_panic_app; [apply no_panic_rev, H1 | exact Hl].
  Qed.
  Lemma run_back : always_returns cl svc s0 -> forall ops (y : bsys svc) l, sound cl s0 y -> no_hang l -> no_hang (snd (brun y l ops)).
  Proof.
    intros HC. induction ops as [|o ops IH]; intros y l HS Hl; [exact Hl|]. cbn.
    pose proof (step_back o HC HS) as H1. pose proof (sound_step o HS) as H2. destruct (bstep o y) as [y1 l1]. apply IH; [exact H2|].
    apply no_hang_app; [apply no_hang_rev, H1 | exact Hl].
  Qed.

  Lemma behind_calm : contract_safe cl svc s0 -> forall bound w ops, no_panic (snd (brun (bsys0 svc bound s0 w) [] ops)).
  Proof. intros HC bound w ops. eapply run_calm; [exact HC | apply sound_new | split; [|intros id]; intros []]. Qed.
  Lemma behind_back : always_returns cl svc s0 -> forall bound w ops, no_hang (snd (brun (bsys0 svc bound s0 w) [] ops)).
  Proof. intros HC bound w ops. eapply run_back; [exact HC | apply sound_new | split; [|intros id]; intros []]. Qed.
End Down.
