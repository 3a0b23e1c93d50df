(** Every move of a [Buffer] keeps it [sound], and in a sound buffer nothing but
    the wrapped service's own misbehaviour makes the worker or a future panic. *)
From Verif Require Import Base ContractSpec Limits Buffer BufSvcSpec.
Set Implicit Arguments.

Section Keep.
  Context {W Req Resp Err : Type} {cl : bool} {svc : Service W Req Resp Err} {s0 : st svc}.
  Notation bsys := (bsys svc).
  Notation sound := (sound cl s0).
  Notation flies := (in_flight cl svc s0).

  (** Sound up to the worker. *)
  Definition loose (y : bsys) : Prop :=
    (forall id f, o_val (y_os y id) = Some (Ok f) -> flies f) /\
    (forall id b, y_fs y id = Some (b, false) ->
       match b with BPoll f => flies f | BFailed e => e <> None | BRx => True end).
  Lemma sound_loose (y : bsys) : sound y -> loose y. Proof. intros [A B C]. split; assumption. Qed.
  Lemma loose_sound (y : bsys) : loose y -> (forall k, y_wk y = Some k -> worker_sound cl s0 k (y_cell y)) -> sound y.
  Proof. intros [A B] C. split; assumption. Qed.
  Lemma loose_eq (y z : bsys) : y_os z = y_os y -> y_fs z = y_fs y -> loose y -> loose z.
  Proof. intros E1 E2 [A B]. split; [rewrite E1 | rewrite E2]; assumption. Qed.
  Lemma sound_eq (y z : bsys) : y_os z = y_os y -> y_fs z = y_fs y -> y_wk z = y_wk y -> y_cell z = y_cell y -> sound y -> sound z.
  Proof. intros E1 E2 E3 E4 [A B C]. split; [rewrite E1 | rewrite E2 | rewrite E3, E4]; assumption. Qed.

  Lemma loose_os_same id tx rx (y : bsys) : loose y -> loose (set_os (upd (y_os y) id (Os tx (o_val (y_os y id)) rx)) y).
  Proof.
    intros [A B]. split; [|exact B]. cbn. intros j f. unfold upd. destruct (Nat.eqb_spec j id) as [->|]; [apply A | apply A].
  Qed.
  Lemma loose_os_none id tx rx (y : bsys) : loose y -> loose (set_os (upd (y_os y) id (Os tx None rx)) y).
  Proof.
    intros [A B]. split; [|exact B]. cbn. intros j f. unfold upd. destruct (Nat.eqb_spec j id) as [->|]; [discriminate | apply A].
  Qed.
  Lemma loose_drop_tx id (y : bsys) : loose y -> loose (os_drop_tx id y).
  Proof. apply loose_os_same. Qed.
  Lemma loose_send id v (y : bsys) : (forall f, v = Ok f -> flies f) -> loose y -> loose (os_send id v y).
  Proof.
    intros Hv HL. unfold os_send. destruct (o_rx (y_os y id)).
    - destruct HL as [A B]. split; [|exact B]. cbn. intros j f. unfold upd. destruct (Nat.eqb_spec j id) as [->|]; [|apply A].
      cbn. intros E. apply Hv. congruence.
    - cbv zeta. assert (H := loose_os_same id false false HL). destruct v; [eapply loose_eq; [| |exact H]; reflexivity | exact H].
  Qed.
  Lemma loose_drop_rx id (y : bsys) : loose y -> loose (os_drop_rx id y).
  Proof.
    intros HL. unfold os_drop_rx. cbv zeta. assert (H := loose_os_none id (o_tx (y_os y id)) false HL).
    destruct (o_val (y_os y id)) as [[f|e]|]; [eapply loose_eq; [| |exact H]; reflexivity | exact H | exact H].
  Qed.
  Lemma loose_drain q : forall y : bsys, loose y -> loose (drain q y).
  Proof.
    induction q as [|m q IH]; intros y H; [exact H|]. cbn. apply IH. apply loose_drop_tx. eapply loose_eq; [| |exact H]; reflexivity.
  Qed.
  Lemma loose_rx_drop (y : bsys) : loose y -> loose (rx_drop y).
  Proof.
    intros H. unfold rx_drop. eapply loose_eq; [reflexivity | reflexivity |]. apply loose_drain.
    eapply loose_eq; [| |exact H]; reflexivity.
  Qed.
  Lemma sound_drop_worker k (y : bsys) : loose y -> sound (drop_worker k y).
  Proof.
    intros H. unfold drop_worker. cbv zeta. apply loose_sound; [|cbn; discriminate].
    eapply loose_eq; [reflexivity | reflexivity |].
    eapply loose_eq; [reflexivity | reflexivity |]. apply loose_rx_drop. destruct (w_cur k); [apply loose_drop_tx|]; exact H.
  Qed.
  Lemma sound_die k id (y : bsys) : loose y -> sound (die k id y).
  Proof. intros H. apply sound_drop_worker, loose_drop_tx, H. Qed.

  Lemma sends_wk id v (y : bsys) : y_cell (os_send id v y) = y_cell y.
  Proof. unfold os_send. destruct (o_rx _); [|destruct v]; reflexivity. Qed.
  Lemma drain_wk q : forall y : bsys, y_wk (drain q y) = y_wk y /\ y_cell (drain q y) = y_cell y.
  Proof. induction q as [|m q IH]; intros y; [auto|]. cbn. destruct (IH (os_drop_tx (m_id m) (add_permit y))). auto. Qed.

  Ltac go_ := apply loose_sound; [|cbn; let k1 := fresh "k" in intros k1 [= <-]; unfold worker_sound; cbn].

  Lemma sound_go k p (y : bsys) : loose y -> worker_sound cl s0 (at_pc k p) (y_cell y) -> sound (go k p y).
  Proof. intros H1 H2. apply loose_sound; [exact H1|]. cbn. intros k1 [= <-]. exact H2. Qed.
  Lemma sound_set_wk k (y : bsys) : loose y -> worker_sound cl s0 k (y_cell y) -> sound (set_wk (Some k) y).
  Proof. intros H1 H2. apply loose_sound; [exact H1|]. cbn. intros k1 [= <-]. exact H2. Qed.

  Lemma sound_worker c k (y : bsys) : y_wk y = Some k -> sound y -> sound (fst (worker_step c k y)).
  Proof.
    intros Ek HS. pose proof (sound_loose HS) as HL. pose proof (so_wk HS Ek) as Hk. unfold worker_sound in Hk.
    unfold worker_step. destruct (w_pc k) as [| | |m|m|m|m f|m e|m e|m|m] eqn:Epc.
    - destruct (w_finish k); cbn [fst]; [exact HS | apply sound_go; [exact HL | exact Hk]].
    - destruct (w_cur k) as [m|]; cbv zeta; [destruct (os_is_closed (m_id m) y)|]; cbn [fst]; (apply sound_go; [|exact Hk]);
        [apply loose_drop_tx|..]; exact HL.
    - unfold poll_recv. destruct c; [cbn [fst]; apply sound_go; [exact HL | exact Hk]|].
      destruct (y_queue y) as [|m q]; [destruct (_ || _)|]; cbn [fst].
      + apply sound_set_wk; [exact HL | exact Hk].
      + apply sound_go; [exact HL | exact Hk].
      + apply sound_go; [eapply loose_eq; [| |exact HL]; reflexivity | exact Hk].
    - destruct (os_is_closed (m_id m) y); cbn [fst]; (apply sound_go; [|exact Hk]); [apply loose_drop_tx|]; exact HL.
    - destruct (w_failed k) as [e|] eqn:Ef.
      { cbn [fst]. apply sound_go; [apply loose_send; [discriminate | exact HL]|]. unfold worker_sound. cbn. rewrite Ef. discriminate. }
      destruct (Hk eq_refl) as (Ec & p & Hp & Hh).
      destruct (poll_ready svc (w_svc k) (y_w y)) as [w1 [[s1 a]| |]] eqn:E1.
      + assert (Hh1 : held cl svc s0 (phase_after a) s1) by (eapply held_ready; eauto).
        cbv zeta. destruct a as [|[u|e]]; cbn [fst].
        * apply sound_set_wk; [exact HL|]. unfold worker_sound. cbn. intros _. split; [exact Ec|]. exists Idle. split; [discriminate | exact Hh1].
        * apply sound_go; [exact HL|]. unfold worker_sound. cbn. auto.
        * apply sound_go; [exact HL|]. unfold worker_sound. cbn. exact Ec.
      + cbn [fst]. apply sound_die. exact HL.
      + cbn [fst]. apply sound_go; [exact HL | exact I].
    - destruct Hk as (Ef & Ec & Hh). destruct (call svc (w_svc k) (m_req m) (y_w y)) as [w1 [[s1 f]| |]] eqn:E1; cbn [fst].
      + apply sound_go; [exact HL|]. unfold worker_sound. cbn. repeat split; [exact Ef | exact Ec | eapply held_call; eauto | eapply in_flight_call; eauto].
      + apply sound_die. exact HL.
      + apply sound_go; [exact HL | exact I].
    - destruct Hk as (Ef & Ec & Hh & Hf). cbn [fst]. apply sound_go.
      + apply loose_send; [|exact HL]. intros f0 [= <-]. exact Hf.
      + unfold worker_sound. cbn. rewrite sends_wk. intros _. split; [exact Ec|]. exists Idle. split; [discriminate | exact Hh].
    - rewrite Hk. cbn [fst]. apply sound_go; [exact HL | exact I].
    - cbn [fst]. apply sound_set_wk; [exact HL|]. unfold worker_sound. cbn. discriminate.
    - destruct (w_failed k) as [e|] eqn:Ef; cbn [fst].
      + apply sound_go; [apply loose_send; [discriminate | exact HL]|]. unfold worker_sound. cbn. rewrite Ef. discriminate.
      + apply sound_die. exact HL.
    - exact HS.
  Qed.

  Lemma sound_handle h d (y : bsys) : sound y -> sound (put_handle h d y).
  Proof. apply sound_eq; reflexivity. Qed.

  Lemma sound_placed n h d (y : bsys) : sound y -> sound (set_hnext n (put_handle h d y)).
  Proof. apply sound_eq; reflexivity. Qed.

  Lemma sound_fut id b dn (y : bsys) : (dn = false -> match b with BPoll f => flies f | BFailed e => e <> None | BRx => True end) ->
    sound y -> sound (put_fut id b dn y).
  Proof.
    intros Hb [A B C]. split; [exact A | | exact C]. cbn. intros j b1. unfold upd.
    destruct (Nat.eqb_spec j id) as [->|]; [|apply B]. intros E. injection E as <- ->. apply Hb. reflexivity.
  Qed.
  Lemma sound_os_none id tx rx (y : bsys) : sound y -> sound (set_os (upd (y_os y) id (Os tx None rx)) y).
  Proof. intros H. apply loose_sound; [apply loose_os_none, sound_loose, H | apply (so_wk H)]. Qed.

  Lemma sound_poll_inner id f (y : bsys) : flies f -> sound y -> sound (fst (poll_inner id f y)).
  Proof.
    intros Hf HS. unfold poll_inner. destruct (poll_fut svc f (y_w y)) as [w1 [[f1 a]| |]] eqn:E1; cbn [fst].
    - apply sound_fut; [|eapply sound_eq; [| | | |exact HS]; reflexivity].
      destruct a; [|discriminate]. intros _. eapply in_flight_poll; eauto.
    - apply sound_fut; [discriminate | eapply sound_eq; [| | | |exact HS]; reflexivity].
    - apply sound_fut; [discriminate | eapply sound_eq; [| | | |exact HS]; reflexivity].
  Qed.

  Lemma sound_fs_none id (y : bsys) : sound y -> sound (set_fs (upd (y_fs y) id None) y).
  Proof. intros [A B C]. split; [exact A | | exact C]. cbn. intros j b. unfold upd. destruct (Nat.eqb_spec j id); [discriminate | apply B]. Qed.

  Lemma sound_step o (y : bsys) : sound y -> sound (fst (bstep o y)).
  Proof.
    intros HS. destruct o as [h|h r|h c|h|h|id c|id|c| |g]; cbn [bstep].
    - destruct (y_hs y h) as [d|]; [destruct (at_rest d)|]; try exact HS. apply sound_handle, HS.
    - destruct (y_hs y h) as [d|]; [destruct (at_rest d)|]; try exact HS. unfold handle_call, send_item. cbv zeta.
      destruct (h_ps d); cbn [fst]; try (apply sound_handle; exact HS).
      match goal with |- sound (set_fnext _ ?z) => assert (H2 : sound z); [|eapply sound_eq; [| | | |exact H2]; reflexivity] end.
      match goal with |- sound (set_fs _ (set_os ?f (put_handle h ?d ?z))) =>
        assert (H1 : sound (set_os f (put_handle h d z))); [|exact (@sound_fut (y_fnext y) BRx false _ (fun _ => I) H1)] end.
      apply (sound_os_none (y_fnext y) true true). eapply sound_eq; [| | | |exact HS]; reflexivity.
    - destruct (y_hs y h) as [d|]; [|exact HS]. unfold handle_step. destruct (h_pc d); try exact HS.
      + unfold poll_reserve. destruct (h_ps d); [destruct c; [|destruct (y_closed y); [|destruct (sem_poll _ _) as [[m t1] []]]] ..| |];
          cbn [fst]; try exact HS; (eapply sound_eq; [| | | |exact HS]; reflexivity).
      + apply sound_handle, HS.
      + cbv zeta. cbn [fst].
        match goal with |- sound (set_fnext _ (set_fs _ (set_os ?f (put_handle h ?d ?z)))) =>
          assert (H1 : sound (set_os f (put_handle h d z))) end.
        { apply (sound_os_none (y_fnext y) false false). apply sound_handle, HS. }
        match goal with |- sound (set_fnext _ ?z) => assert (H2 : sound z); [|eapply sound_eq; [| | | |exact H2]; reflexivity] end.
        apply (@sound_fut (y_fnext y) (BFailed (Some (get_error_on_closed y))) false); [discriminate | exact H1].
    - destruct (y_hs y h) as [d|]; [destruct (at_rest d)|]; try exact HS. cbn [fst handle_clone].
      eapply sound_eq; [| | | |exact HS]; reflexivity.
    - destruct (y_hs y h) as [d|]; [destruct (at_rest d)|]; try exact HS. unfold handle_drop. cbv zeta. cbn [fst].
      assert (H1 : sound (set_hs (upd (y_hs (drop_sender (h_ps d) y)) h None) (drop_sender (h_ps d) y))).
      { destruct (h_ps d); (eapply sound_eq; [| | | |exact HS]; reflexivity). }
      revert H1. set (z := set_hs _ _). clearbody z. intros H1. destruct (y_wk z) eqn:Ez; [exact H1|]. destruct (no_senders z); [|exact H1].
      apply loose_sound.
      + eapply loose_eq; [reflexivity | reflexivity |]. apply loose_drain, sound_loose, H1.
      + cbn. destruct (drain_wk (y_queue z) z) as [-> _]. rewrite Ez. discriminate.
    - destruct (y_fs y id) as [[f [|]]|] eqn:Ef; try exact HS. pose proof (so_fs HS _ Ef) as Hf.
      destruct f as [[e|]| |f]; cbn [fut_poll].
      + cbn [fst]. apply sound_fut; [discriminate | exact HS].
      + exfalso. apply Hf. reflexivity.
      + destruct c; [exact HS|]. destruct (o_val (y_os y id)) as [[f|e]|] eqn:Eo.
        * apply sound_poll_inner; [exact (so_os HS _ Eo) | apply sound_os_none, HS].
        * cbn [fst]. apply sound_fut; [discriminate | apply sound_os_none, HS].
        * destruct (o_tx _); [exact HS | cbn [fst]; apply sound_fut; [discriminate | exact HS]].
      + apply sound_poll_inner; [exact Hf | exact HS].
    - destruct (y_fs y id) as [[f b]|]; [|exact HS]. cbn [fst fut_drop]. apply sound_fs_none. destruct f as [e| |f].
      + exact HS.
      + apply loose_sound; [apply loose_drop_rx, sound_loose, HS|]. unfold os_drop_rx. cbv zeta.
        destruct (o_val (y_os y id)) as [[f|e]|]; exact (so_wk HS).
      + eapply sound_eq; [| | | |exact HS]; reflexivity.
    - destruct (y_wk y) as [k|] eqn:Ek; [|exact HS]. apply sound_worker; assumption.
    - destruct (y_wk y) as [k|] eqn:Ek; [|exact HS]. destruct (worker_rests k); [|exact HS].
      cbn. apply sound_drop_worker, sound_loose, HS.
    - cbn. eapply sound_eq; [| | | |exact HS]; reflexivity.
  Qed.

  Lemma sound_run ops : forall (y : bsys) l, sound y -> sound (fst (brun y l ops)).
  Proof.
    induction ops as [|o ops IH]; intros y l H; [exact H|]. cbn. pose proof (sound_step o H) as H1.
    destruct (bstep o y) as [y1 l1]. apply IH. exact H1.
  Qed.

  Lemma sound_new bound w : sound (bsys0 svc bound s0 w).
  Proof.
    split.
    - cbn. discriminate.
    - cbn. discriminate.
    - cbn. intros k [= <-]. unfold worker_sound. cbn. intros _. split; [reflexivity|]. exists Idle. split; [discriminate | apply held_fresh].
  Qed.

  (** ** Nothing panics *)
  Ltac nope := (split; [|intros ?]; cbn; intuition discriminate).

  Lemma poll_inner_calm id f (y : bsys) : flies f -> contract_safe cl svc s0 -> no_panic (snd (poll_inner id f y)).
  Proof.
    intros Hf HC. pose proof (cs_poll HC (y_w y) Hf) as H. unfold poll_inner.
    destruct (poll_fut svc f (y_w y)) as [w1 [[f1 a]| |]]; [nope | cbn in H; congruence | nope].
  Qed.
  Lemma poll_inner_back id f (y : bsys) : flies f -> always_returns cl svc s0 -> no_hang (snd (poll_inner id f y)).
  Proof.
    intros Hf HC. pose proof (ar_poll HC (y_w y) Hf) as H. unfold poll_inner.
    destruct (poll_fut svc f (y_w y)) as [w1 [[f1 a]| |]]; [nope | nope | cbn in H; congruence].
  Qed.

  Lemma step_calm o (y : bsys) : contract_safe cl svc s0 -> sound y -> no_panic (snd (bstep o y)).
  Proof.
    intros HC HS. destruct o as [h|h r|h c|h|h|id c|id|c| |g]; cbn [bstep]; try nope.
    - destruct (y_hs y h) as [d|]; [destruct (at_rest d)|]; nope.
    - destruct (y_hs y h) as [d|]; [destruct (at_rest d)|]; try nope. unfold handle_call, send_item. cbv zeta.
      destruct (h_ps d); nope.
    - destruct (y_hs y h) as [d|]; [|nope]. unfold handle_step. destruct (h_pc d); try nope.
      destruct (poll_reserve c (h_ps d) y) as [[y1 p] [|[u|e]]]; nope.
    - destruct (y_hs y h) as [d|]; [destruct (at_rest d)|]; nope.
    - destruct (y_hs y h) as [d|]; [destruct (at_rest d)|]; nope.
    - destruct (y_fs y id) as [[f [|]]|] eqn:Ef; try nope. pose proof (so_fs HS _ Ef) as Hf.
      destruct f as [[e|]| |f]; cbn [fut_poll]; try nope.
      + destruct c; [nope|]. destruct (o_val (y_os y id)) as [[f|e]|] eqn:Eo; [|nope|].
        * apply poll_inner_calm; [exact (so_os HS _ Eo) | exact HC].
        * destruct (o_tx _); nope.
      + apply poll_inner_calm; assumption.
    - destruct (y_fs y id) as [[f b]|]; nope.
    - destruct (y_wk y) as [k|] eqn:Ek; [|nope]. pose proof (so_wk HS Ek) as Hk. unfold worker_sound in Hk. unfold worker_step.
      destruct (w_pc k) as [| | |m|m|m|m f|m e|m e|m|m] eqn:Epc.
      + destruct (w_finish k); nope.
      + destruct (w_cur k) as [m|]; [cbv zeta; destruct (os_is_closed (m_id m) y)|]; nope.
      + destruct (poll_recv c y) as [y1 [|[m|]]]; nope.
      + destruct (os_is_closed (m_id m) y); nope.
      + destruct (w_failed k) as [e|] eqn:Ef; [nope|]. destruct (Hk eq_refl) as (Ec & p & Hp & Hh).
        pose proof (cs_ready HC (y_w y) Hh Hp) as H.
        destruct (poll_ready svc (w_svc k) (y_w y)) as [w1 [[s1 [|[u|e]]]| |]]; cbn in H; try congruence; nope.
      + destruct Hk as (Ef & Ec & Hh). pose proof (cs_call HC (m_req m) (y_w y) Hh) as H.
        destruct (call svc (w_svc k) (m_req m) (y_w y)) as [w1 [[s1 f]| |]]; cbn in H; try congruence; nope.
      + nope.
      + destruct (y_cell y); nope.
      + nope.
      + destruct (w_failed k) as [e|] eqn:Ef; [nope|congruence].
      + nope.
    - destruct (y_wk y) as [k|]; [destruct (worker_rests k)|]; nope.
  Qed.

  Lemma step_back o (y : bsys) : always_returns cl svc s0 -> sound y -> no_hang (snd (bstep o y)).
  Proof.
    intros HC HS. destruct o as [h|h r|h c|h|h|id c|id|c| |g]; cbn [bstep]; try nope.
    - destruct (y_hs y h) as [d|]; [destruct (at_rest d)|]; nope.
    - destruct (y_hs y h) as [d|]; [destruct (at_rest d)|]; try nope. unfold handle_call, send_item. cbv zeta.
      destruct (h_ps d); nope.
    - destruct (y_hs y h) as [d|]; [|nope]. unfold handle_step. destruct (h_pc d); try nope.
      destruct (poll_reserve c (h_ps d) y) as [[y1 p] [|[u|e]]]; nope.
    - destruct (y_hs y h) as [d|]; [destruct (at_rest d)|]; nope.
    - destruct (y_hs y h) as [d|]; [destruct (at_rest d)|]; nope.
    - destruct (y_fs y id) as [[f [|]]|] eqn:Ef; try nope. pose proof (so_fs HS _ Ef) as Hf.
      destruct f as [[e|]| |f]; cbn [fut_poll]; try nope.
      + destruct c; [nope|]. destruct (o_val (y_os y id)) as [[f|e]|] eqn:Eo; [|nope|].
        * apply poll_inner_back; [exact (so_os HS _ Eo) | exact HC].
        * destruct (o_tx _); nope.
      + apply poll_inner_back; assumption.
    - destruct (y_fs y id) as [[f b]|]; nope.
    - destruct (y_wk y) as [k|] eqn:Ek; [|nope]. pose proof (so_wk HS Ek) as Hk. unfold worker_sound in Hk. unfold worker_step.
      destruct (w_pc k) as [| | |m|m|m|m f|m e|m e|m|m] eqn:Epc.
      + destruct (w_finish k); nope.
      + destruct (w_cur k) as [m|]; [cbv zeta; destruct (os_is_closed (m_id m) y)|]; nope.
      + destruct (poll_recv c y) as [y1 [|[m|]]]; nope.
      + destruct (os_is_closed (m_id m) y); nope.
      + destruct (w_failed k) as [e|] eqn:Ef; [nope|]. destruct (Hk eq_refl) as (Ec & p & Hp & Hh).
        pose proof (ar_ready HC (y_w y) Hh Hp) as H.
        destruct (poll_ready svc (w_svc k) (y_w y)) as [w1 [[s1 [|[u|e]]]| |]]; cbn in H; try congruence; nope.
      + destruct Hk as (Ef & Ec & Hh). pose proof (ar_call HC (m_req m) (y_w y) Hh) as H.
        destruct (call svc (w_svc k) (m_req m) (y_w y)) as [w1 [[s1 f]| |]]; cbn in H; try congruence; nope.
      + nope.
      + destruct (y_cell y); nope.
      + nope.
      + destruct (w_failed k) as [e|] eqn:Ef; nope.
      + nope.
    - destruct (y_wk y) as [k|]; [destruct (worker_rests k)|]; nope.
  Qed.
End Keep.
