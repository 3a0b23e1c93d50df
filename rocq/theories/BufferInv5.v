(** Buffer: the response futures. *)
From Verif Require Import Base Limits Buffer BufferSpec BufferBase BufferMoves BufferInv1 BufferInv3 BufferInv4.
Set Implicit Arguments.

Section Inv.
  Context {W Req Resp Err : Type} {svc : Service W Req Resp Err}.
  Notation bsys := (bsys svc).
  Notation bobs := (bobs svc).

  (** What a response future's polls are allowed to be. *)
  Definition pfut (l : list bobs) (e : bobs) : Prop :=
    match e with
    | OInner id f a f1 =>
        match last_inner id l with
        | None => exists r, In (WCall id r f) l
        | Some (a0, f0) => a0 = Pending /\ f = f0
        end
    | OPolled id (Ready (Ok x)) => exists f f1 l', l = OInner id f (Ready (Ok x)) f1 :: l'
    | OPolled id (Ready (Er (BInner e))) => exists f f1 l', l = OInner id f (Ready (Er e)) f1 :: l'
    | OPolled id (Ready (Er (BSvc e))) => In (WAsk (Ready (Er e))) l
    | OPolled id (Ready (Er BClosed)) =>
        In WGone l \/ exists h r, In (ORefused h id r BClosed) l
    | WSkip id => In (ODropFut id) l
    | WLive id => ~ In (ODropFut id) l
    | _ => True
    end.

  Record inv_f (y : bsys) (log : list bobs) : Prop := {
    f_lt : forall id x, y_fs y id = Some x -> id < y_fnext y;
    f_rx : forall id, y_fs y id = Some (BRx, false) ->
      o_rx (y_os y id) = true /\ (o_tx (y_os y id) = true \/ o_val (y_os y id) <> None \/ In WGone log);
    f_inner : forall id d, y_fs y id = Some (BRx, d) -> last_inner id log = None;
    f_fresh : forall id, y_fnext y <= id -> last_inner id log = None;
    f_poll : forall id f, y_fs y id = Some (BPoll f, false) -> last_inner id log = Some (Pending, f);
    f_nrx : forall id f d, y_fs y id = Some (BPoll f, d) -> o_rx (y_os y id) = false;
    f_drop : forall id, In (ODropFut id) log -> id < y_fnext y /\ y_fs y id = None /\ o_rx (y_os y id) = false;
    f_cancel : forall id, o_tx (y_os y id) = true -> o_rx (y_os y id) = false -> In (ODropFut id) log;
    f_valok : forall id f, o_val (y_os y id) = Some (Ok f) -> exists r, In (WCall id r f) log;
    f_valer : forall id e, o_val (y_os y id) = Some (Er e) -> In (WAsk (Ready (Er e))) log;
    f_send : forall k m f, y_wk y = Some k -> w_pc k = WSend m f -> In (WCall (m_id m) (m_req m) f) log;
    f_failed : forall id x d, y_fs y id = Some (BFailed x, d) -> o_rx (y_os y id) = false /\
      match x with None => d = true | Some e => exists h r, In (ORefused h id r e) log end;
    f_hist : hist pfut log }.

  Definition plain (e : bobs) : bool :=
    match e with OInner _ _ _ _ | ODropFut _ => false | _ => true end.

  (** More log, nothing else. *)
  Lemma f_log (y : bsys) log e : inv_f y log -> plain e = true -> pfut log e -> inv_f y (e :: log).
  Proof.
    intros [I1 I2 I3 I4 I5 I6 I7 I8 I9 I10 I11 I12 I13] P F.
    assert (L : forall id, last_inner id (e :: log) = last_inner id log) by (destruct e; try discriminate P; reflexivity).
    assert (D : forall id, In (ODropFut id) (e :: log) -> In (ODropFut id) log).
    { intros id [X|X]; [subst; discriminate P|exact X]. }
    split; eauto; try (intros; rewrite L; eauto; fail); cbn [In].
    - intros id H. destruct (I2 id H) as (X & Y). intuition.
    - auto.
    - intros id f H. destruct (I9 id f H). eauto.
    - intros id e0 H. apply I10 in H. auto.
    - intros k m f H H1. right. eauto.
    - intros id x d H. destruct (I12 id x d H) as [X Y]. split; [exact X|]. destruct x; [|exact Y].
      destruct Y as (h & r & Y). eauto.
    - split; assumption.
  Qed.
  (** More log, nothing else that matters here. *)
  Lemma f_ext (y y1 : bsys) log : inv_f y log -> y_fs y1 = y_fs y -> y_fnext y1 = y_fnext y -> y_os y1 = y_os y ->
    (forall k m f, y_wk y1 = Some k -> w_pc k = WSend m f -> In (WCall (m_id m) (m_req m) f) log) -> inv_f y1 log.
  Proof.
    intros [I1 I2 I3 I4 I5 I6 I7 I8 I9 I10 I11 I12 I13] E1 E2 E3 E4. split; rewrite ?E1, ?E2, ?E3; eauto.
  Qed.
  Lemma f_log' (y y1 : bsys) log e : inv_f y log -> plain e = true -> pfut log e ->
    y_fs y1 = y_fs y -> y_fnext y1 = y_fnext y -> y_os y1 = y_os y ->
    (forall k m f, y_wk y1 = Some k -> w_pc k = WSend m f -> In (WCall (m_id m) (m_req m) f) (e :: log)) -> inv_f y1 (e :: log).
  Proof. intros. eapply f_ext; eauto using f_log. Qed.

  Lemma hm_f (y : bsys) log l y1 : inv_q y log -> inv_e y log -> inv_f y log -> hmove y l y1 -> inv_f y1 (rev l ++ log).
  Proof.
    intros Q E I M.
    assert (Fr : y_fs y (y_fnext y) = None).
    { destruct (y_fs y (y_fnext y)) eqn:X; [|reflexivity]. apply (f_lt I) in X. lia. }
    assert (Ft : o_tx (y_os y (y_fnext y)) = false).
    { destruct (o_tx (y_os y (y_fnext y))) eqn:X; [|reflexivity]. apply (q_tx Q) in X. apply (ids_lt _ Q) in X. apply (q_lt Q) in X. lia. }
    assert (G := e_gone E). assert (Sd := f_send I).
    destruct M; cbn [rev app];
      try (eapply f_ext; [exact I|reflexivity..|exact Sd]);
      try (eapply f_log'; [exact I|reflexivity|exact Logic.I|reflexivity..|]; intros; right; eapply Sd; eassumption).
    - (* sent *)
      apply (f_log (OSent h (y_fnext y) r)) in I; [|reflexivity|exact Logic.I].
      destruct I as [I1 I2 I3 I4 I5 I6 I7 I8 I9 I10 I11 I12 I13]. split; ysimp; auto.
      + intros id x. unfold upd. destruct (Nat.eqb_spec id (y_fnext y)) as [->|Ne]; [lia|]. intros X. apply I1 in X. lia.
      + intros id. unfold upd. destruct (Nat.eqb_spec id (y_fnext y)) as [->|Ne]; cbn; [|apply I2]. auto.
      + intros id d. unfold upd. destruct (Nat.eqb_spec id (y_fnext y)) as [->|Ne]; [|apply I3]. intros _. apply I4. lia.
      + intros id X. apply I4. lia.
      + intros id f. unfold upd. destruct (Nat.eqb_spec id (y_fnext y)) as [->|Ne]; [discriminate|apply I5].
      + intros id f d. unfold upd. destruct (Nat.eqb_spec id (y_fnext y)) as [->|Ne]; [discriminate|apply I6].
      + intros id X. apply I7 in X as (X1 & X2 & X3). unfold upd. destruct (Nat.eqb_spec id (y_fnext y)) as [->|Ne]; [lia|].
        split; [lia|auto].
      + intros id. unfold upd. destruct (Nat.eqb_spec id (y_fnext y)) as [->|Ne]; cbn; [discriminate|apply I8].
      + intros id f. unfold upd. destruct (Nat.eqb_spec id (y_fnext y)) as [->|Ne]; [discriminate|apply I9].
      + intros id f. unfold upd. destruct (Nat.eqb_spec id (y_fnext y)) as [->|Ne]; [discriminate|apply I10].
      + intros id x d. unfold upd. destruct (Nat.eqb_spec id (y_fnext y)) as [->|Ne]; [discriminate|apply I12].
    - (* refused *)
      apply (f_log (ORefused h (y_fnext y) r (get_error_on_closed y))) in I; [|reflexivity|exact Logic.I].
      destruct I as [I1 I2 I3 I4 I5 I6 I7 I8 I9 I10 I11 I12 I13]. split; ysimp; auto.
      + intros id x. unfold upd. destruct (Nat.eqb_spec id (y_fnext y)) as [->|Ne]; [lia|]. intros X. apply I1 in X. lia.
      + intros id. unfold upd. destruct (Nat.eqb_spec id (y_fnext y)) as [->|Ne]; cbn; [discriminate|apply I2].
      + intros id d. unfold upd. destruct (Nat.eqb_spec id (y_fnext y)) as [->|Ne]; [discriminate|apply I3].
      + intros id X. apply I4. lia.
      + intros id f. unfold upd. destruct (Nat.eqb_spec id (y_fnext y)) as [->|Ne]; [discriminate|apply I5].
      + intros id f d. unfold upd. destruct (Nat.eqb_spec id (y_fnext y)) as [->|Ne]; [discriminate|apply I6].
      + intros id X. apply I7 in X as (X1 & X2 & X3). unfold upd. destruct (Nat.eqb_spec id (y_fnext y)) as [->|Ne]; [lia|].
        split; [lia|auto].
      + intros id. unfold upd. destruct (Nat.eqb_spec id (y_fnext y)) as [->|Ne]; cbn; [discriminate|apply I8].
      + intros id f. unfold upd. destruct (Nat.eqb_spec id (y_fnext y)) as [->|Ne]; [discriminate|apply I9].
      + intros id f. unfold upd. destruct (Nat.eqb_spec id (y_fnext y)) as [->|Ne]; [discriminate|apply I10].
      + intros id x d. unfold upd. destruct (Nat.eqb_spec id (y_fnext y)) as [->|Ne]; [|apply I12].
        intros X. injection X as <- <-. split; [reflexivity|]. exists h, r. left. reflexivity.
    - (* last handle *)
      apply (f_log (ODropped h)) in I; [|reflexivity|exact Logic.I].
      assert (Wg : In WGone (ODropped (svc := svc) h :: log)) by (right; apply G; assumption).
      destruct I as [I1 I2 I3 I4 I5 I6 I7 I8 I9 I10 I11 I12 I13]. split; ysimp; auto; intros id; rewrite ?H3, ?untx_rx, ?untx_val; eauto.
      + intros X. apply I2 in X as [X1 X2]. auto.
      + intros X. apply I8. rewrite untx_tx in X. tauto.
  Qed.

  Lemma inner_f id f os (y y1 : bsys) log l : inv_f y log ->
    (forall i, i <> id -> os i = y_os y i) -> o_rx (os id) = false ->
    (o_tx (os id) = true -> os id = y_os y id) -> (forall v, o_val (os id) = Some v -> o_val (y_os y id) = Some v) ->
    inner_poll id f (set_os os y) l y1 ->
    match last_inner id log with None => exists r, In (WCall id r f) log | Some (a0, f0) => a0 = Pending /\ f = f0 end ->
    id < y_fnext y -> y_fs y id <> None ->
    inv_f y1 (rev l ++ log).
  Proof.
    intros I O1 O2 O3 O4 M H L N. destruct M; cbn [rev app]; ysimp.
    - destruct I as [I1 I2 I3 I4 I5 I6 I7 I8 I9 I10 I11 I12 I13]. split; ysimp; auto.
      + intros i x. unfold upd. destruct (Nat.eqb_spec i id) as [->|Ne]; [auto|apply I1].
      + intros i. unfold upd. destruct (Nat.eqb_spec i id) as [->|Ne]; [discriminate|]. rewrite O1 by exact Ne.
        intros X. apply I2 in X as [X1 X2]. cbn [In]. tauto.
      + intros i d. unfold upd. destruct (Nat.eqb_spec i id) as [->|Ne]; [discriminate|]. intros X. cbn [last_inner].
        apply Nat.eqb_neq in Ne. rewrite Nat.eqb_sym in Ne. rewrite Ne. eauto.
      + intros i X. cbn [last_inner]. destruct (Nat.eqb_spec id i); [lia|eauto].
      + intros i f0. unfold upd. cbn [last_inner]. destruct (Nat.eqb_spec i id) as [->|Ne].
        * rewrite Nat.eqb_refl. intros X. injection X as <- X. destruct a; [reflexivity|discriminate].
        * apply Nat.eqb_neq in Ne. rewrite Nat.eqb_sym in Ne. rewrite Ne. eauto.
      + intros i f0 d. unfold upd. destruct (Nat.eqb_spec i id) as [->|Ne]; [auto|rewrite O1 by exact Ne; apply I6].
      + intros i X. destruct X as [X|[X|X]]; [discriminate..|]. apply I7 in X as (X1 & X2 & X3). unfold upd.
        destruct (Nat.eqb_spec i id) as [->|Ne]; [contradiction|rewrite O1 by exact Ne; auto].
      + intros i X Y. right. right. destruct (Nat.eq_dec i id) as [->|Ne].
        * apply I8; rewrite <- O3; auto.
        * rewrite O1 in X, Y by exact Ne. eauto.
      + intros i f0 X. assert (X' : o_val (y_os y i) = Some (Ok f0)).
        { destruct (Nat.eq_dec i id) as [->|Ne]; [auto|rewrite O1 in X by exact Ne; exact X]. }
        apply I9 in X' as [r X']. exists r. right. right. exact X'.
      + intros i e X. right. right. apply I10 with (id := i).
        destruct (Nat.eq_dec i id) as [->|Ne]; [auto|rewrite O1 in X by exact Ne; exact X].
      + intros k m f0 X Y. right. right. eauto.
      + intros i x d. unfold upd. destruct (Nat.eqb_spec i id) as [->|Ne]; [discriminate|]. intros X. apply I12 in X as [X Y].
        rewrite O1 by exact Ne.
        split; [exact X|]. destruct x; [|exact Y]. destruct Y as (h & r & Y). exists h, r. right. right. exact Y.
      + cbn [hist]. split; [|split; [exact H|exact I13]]. destruct a as [|[x|e]]; cbn; eauto.
    - apply (f_log (OPollPanic id)) in I; [|reflexivity|exact Logic.I].
      destruct I as [I1 I2 I3 I4 I5 I6 I7 I8 I9 I10 I11 I12 I13]. split; ysimp; auto.
      all: intros i; unfold upd; destruct (Nat.eqb_spec i id) as [->|Ne]; try discriminate; try (rewrite O1 by exact Ne); eauto.
      + intros X. apply I7 in X as (X1 & X2 & X3). congruence.
      + intros X Y. apply I8; rewrite <- O3; auto.
    - apply (f_log (OPollHang id)) in I; [|reflexivity|exact Logic.I].
      destruct I as [I1 I2 I3 I4 I5 I6 I7 I8 I9 I10 I11 I12 I13]. split; ysimp; auto.
      all: intros i; unfold upd; destruct (Nat.eqb_spec i id) as [->|Ne]; try discriminate; try (rewrite O1 by exact Ne); eauto.
      + intros X. apply I7 in X as (X1 & X2 & X3). congruence.
      + intros X Y. apply I8; rewrite <- O3; auto.
  Qed.

  Lemma set_os_id (y : bsys) : set_os (y_os y) y = y. Proof. destruct y; reflexivity. Qed.

  Lemma refused_origin (l : list bobs) h id r x : hist perr l -> In (ORefused h id r x) l ->
    match x with BSvc e => In (WAsk (Ready (Er e))) l | BClosed => True | BInner _ => False end.
  Proof.
    intros H X. apply in_split in X as (a & b & ->). apply hist_at in H. cbn in H. destruct x; cbn in H; auto.
    apply in_or_app. right. right. exact H.
  Qed.

  (** A future's slot changes, the oneshots too but only there. *)
  Lemma put_f id os v d (y y1 : bsys) log : inv_f y log -> y_fs y id <> None ->
    (forall i, i <> id -> os i = y_os y i) -> o_rx (os id) = o_rx (y_os y id) ->
    o_tx (os id) = o_tx (y_os y id) -> (forall v, o_val (os id) = Some v -> o_val (y_os y id) = Some v) ->
    (v = BRx /\ d = true /\ last_inner id log = None \/ v = BFailed None /\ d = true /\ o_rx (y_os y id) = false) ->
    y_fs y1 = upd (y_fs y) id (Some (v, d)) -> y_os y1 = os -> y_fnext y1 = y_fnext y -> y_wk y1 = y_wk y ->
    inv_f y1 log.
  Proof.
    intros [I1 I2 I3 I4 I5 I6 I7 I8 I9 I10 I11 I12 I13] N O1 O2 O3 O4 V E1 E2 E3 E4.
    assert (P : forall i, o_rx (os i) = o_rx (y_os y i) /\ o_tx (os i) = o_tx (y_os y i) /\ forall v, o_val (os i) = Some v -> o_val (y_os y i) = Some v).
    { intros i. destruct (Nat.eq_dec i id) as [->|Ne]; [auto|rewrite O1 by exact Ne; auto]. }
    assert (L : id < y_fnext y) by (destruct (y_fs y id) eqn:E; [eauto|congruence]).
    split; rewrite ?E1, ?E2, ?E3, ?E4; eauto.
    - intros i x. unfold upd. destruct (Nat.eqb_spec i id) as [->|Ne]; eauto.
    - intros i. unfold upd. destruct (Nat.eqb_spec i id) as [->|Ne]; [intros X; intuition congruence|].
      rewrite O1 by exact Ne. apply I2.
    - intros i d0. unfold upd. destruct (Nat.eqb_spec i id) as [->|Ne]; [intros X; intuition congruence|]. apply I3.
    - intros i f. unfold upd. destruct (Nat.eqb_spec i id) as [->|Ne]; [intros X; intuition congruence|]. apply I5.
    - intros i f d0. unfold upd. destruct (Nat.eqb_spec i id) as [->|Ne]; [intros X; intuition congruence|]. rewrite O1 by exact Ne. apply I6.
    - intros i X. apply I7 in X as (X1 & X2 & X3). unfold upd. destruct (Nat.eqb_spec i id) as [->|Ne]; [contradiction|].
      rewrite O1 by exact Ne. auto.
    - intros i. destruct (P i) as (-> & -> & _). apply I8.
    - intros i f X. apply (P i) in X. eauto.
    - intros i e X. apply (P i) in X. eauto.
    - intros i x d0. unfold upd. destruct (Nat.eqb_spec i id) as [->|Ne].
      + intros X. injection X as X1 X2. destruct V as [(V1 & V2 & V3)|(V1 & V2 & V3)]; [congruence|].
        rewrite V1 in X1. injection X1 as <-. rewrite O2, <- X2. auto.
      + rewrite O1 by exact Ne. apply I12.
  Qed.

  Lemma drop_f id os (y y1 : bsys) log : inv_f y log -> y_fs y id <> None ->
    (forall i, i <> id -> os i = y_os y i) -> o_rx (os id) = false ->
    (forall v, o_val (os id) = Some v -> o_val (y_os y id) = Some v) ->
    y_fs y1 = upd (y_fs y) id None -> y_os y1 = os -> y_fnext y1 = y_fnext y -> y_wk y1 = y_wk y ->
    inv_f y1 (ODropFut id :: log).
  Proof.
    intros [I1 I2 I3 I4 I5 I6 I7 I8 I9 I10 I11 I12 I13] N O1 O2 O4 E1 E2 E3 E4.
    assert (L : id < y_fnext y) by (destruct (y_fs y id) eqn:E; [eauto|congruence]).
    assert (P : forall i v, o_val (os i) = Some v -> o_val (y_os y i) = Some v).
    { intros i. destruct (Nat.eq_dec i id) as [->|Ne]; [auto|rewrite O1 by exact Ne; auto]. }
    split; rewrite ?E1, ?E2, ?E3, ?E4; eauto; cbn [last_inner hist pfut]; auto.
    - intros i x. unfold upd. destruct (Nat.eqb_spec i id) as [->|Ne]; eauto.
    - intros i. unfold upd. destruct (Nat.eqb_spec i id) as [->|Ne]; [discriminate|].
      rewrite O1 by exact Ne. intros X. apply I2 in X. cbn [In]. tauto.
    - intros i d0. unfold upd. destruct (Nat.eqb_spec i id) as [->|Ne]; [discriminate|]. apply I3.
    - intros i f. unfold upd. destruct (Nat.eqb_spec i id) as [->|Ne]; [discriminate|]. apply I5.
    - intros i f d0. unfold upd. destruct (Nat.eqb_spec i id) as [->|Ne]; [discriminate|]. rewrite O1 by exact Ne. apply I6.
    - intros i X. unfold upd. destruct (Nat.eqb_spec i id) as [->|Ne]; [auto|].
      destruct X as [X|X]; [congruence|]. apply I7 in X. rewrite O1 by exact Ne. auto.
    - intros i. destruct (Nat.eq_dec i id) as [->|Ne]; [left; reflexivity|]. rewrite O1 by exact Ne. right. eauto.
    - intros i f X. apply P in X. apply I9 in X as [r X]. exists r. right. exact X.
    - intros i e X. apply P in X. right. eauto.
    - intros k m f X Y. right. eauto.
    - intros i x d0. unfold upd. destruct (Nat.eqb_spec i id) as [->|Ne]; [discriminate|].
      rewrite O1 by exact Ne. intros X. apply I12 in X as [X Y]. split; [exact X|].
      destruct x; [|exact Y]. destruct Y as (h & r & Y). exists h, r. right. exact Y.
  Qed.

  Lemma fm_f (y : bsys) log l y1 : inv_q y log -> inv_e y log -> inv_f y log -> fmove y l y1 -> inv_f y1 (rev l ++ log).
  Proof.
    intros Q E I M. assert (V := q_val Q). destruct M.
    - destruct (f_failed I _ H) as [_ X]. discriminate X.
    - destruct (f_failed I _ H) as [X (h & r & Y)]. assert (Z := @refused_origin _ _ _ _ _ (e_hist E) Y).
      cbn [rev app]. apply (f_log (OPolled id (Ready (Er e)))) in I; [|reflexivity|].
      2:{ cbn. destruct e; [exact Z| |contradiction]. right. eauto. }
      eapply (@put_f id (y_os y) (BFailed None) true y); eauto; congruence.
    - cbn [rev app]. apply f_log; [exact I|reflexivity|exact Logic.I].
    - eapply (@inner_f id f (upd (y_os y) id (Os false None false)) y); eauto; rewrite ?upd_eq; cbn; try congruence.
      + intros i Ne. apply upd_ne. exact Ne.
      + rewrite (f_inner I _ H). exact (f_valok I _ H0).
      + exact (f_lt I _ H).
    - cbn [rev app]. apply (f_log (OPolled id (Ready (Er (BSvc e))))) in I; [|reflexivity|].
      2:{ cbn. exact (f_valer I _ H0). }
      destruct (f_rx I _ H) as [X _].
      eapply (@put_f id (upd (y_os y) id (Os false None true)) BRx true y); eauto; rewrite ?upd_eq; cbn; try congruence.
      + intros i Ne. apply upd_ne. exact Ne.
      + rewrite (V _ _ H0). reflexivity.
      + left. split; [reflexivity|]. split; [reflexivity|]. exact (f_inner I _ H).
    - cbn [rev app]. destruct (f_rx I _ H) as [X Y].
      apply (f_log (OPolled id (Ready (Er BClosed)))) in I; [|reflexivity|].
      2:{ cbn. left. intuition congruence. }
      eapply (@put_f id (y_os y) BRx true y); eauto; try congruence.
      left. split; [reflexivity|]. split; [reflexivity|]. exact (f_inner I _ H).
    - eapply (@inner_f id f (y_os y) y); eauto; rewrite ?set_os_id; eauto.
      + exact (f_nrx I _ H).
      + rewrite (f_poll I _ H). auto.
      + exact (f_lt I _ H).
      + congruence.
    - cbn [rev app]. eapply drop_f; eauto; try congruence.
      destruct (f_failed I _ H) as [X _]. exact X.
    - cbn [rev app]. eapply (@drop_f id (upd (y_os y) id (Os (o_tx (y_os y id)) None false)) y); eauto; try congruence; rewrite ?upd_eq; try reflexivity.
      + intros i Ne. apply upd_ne. exact Ne.
      + cbn. discriminate.
    - cbn [rev app]. eapply drop_f; eauto; try congruence. exact (f_nrx I _ H).
  Qed.

  (** The oneshots change under the worker's hands. *)
  Lemma os_f os (y y1 : bsys) log : inv_f y log ->
    (forall i, o_rx (os i) = o_rx (y_os y i)) -> (forall i, o_tx (os i) = true -> o_tx (y_os y i) = true) ->
    (forall i v, o_val (os i) = Some v -> o_val (y_os y i) = Some v \/
      match v with Ok f => exists r, In (WCall i r f) log | Er e => In (WAsk (Ready (Er e))) log end) ->
    (forall i, o_val (y_os y i) <> None -> o_val (os i) <> None) ->
    (forall i, o_rx (y_os y i) = true -> o_tx (y_os y i) = true ->
      o_tx (os i) = true \/ o_val (os i) <> None \/ In WGone log) ->
    y_fs y1 = y_fs y -> y_os y1 = os -> y_fnext y1 = y_fnext y ->
    (forall k m f, y_wk y1 = Some k -> w_pc k = WSend m f -> In (WCall (m_id m) (m_req m) f) log) ->
    inv_f y1 log.
  Proof.
    intros [I1 I2 I3 I4 I5 I6 I7 I8 I9 I10 I11 I12 I13] O1 O2 O3 O4 O5 E1 E2 E3 E4.
    split; rewrite ?E1, ?E2, ?E3; eauto.
    - intros i X. apply I2 in X as [X Y]. rewrite O1. split; [exact X|]. destruct Y as [Y|[Y|Y]]; auto.
    - intros i X. rewrite O1. auto.
    - intros i f X. apply O3 in X as [X|X]; eauto.
    - intros i f X. apply O3 in X as [X|X]; eauto.
    - intros i x d X. rewrite O1. eauto.
  Qed.

  Lemma skip_f id (y y1 : bsys) log : inv_f y log -> o_rx (y_os y id) = false -> o_tx (y_os y id) = true ->
    y_fs y1 = y_fs y -> y_os y1 = upd (y_os y) id (Os false (o_val (y_os y id)) (o_rx (y_os y id))) -> y_fnext y1 = y_fnext y ->
    (forall k m f, y_wk y1 = Some k -> w_pc k = WSend m f -> In (WCall (m_id m) (m_req m) f) (WSkip id :: log)) ->
    inv_f y1 (WSkip id :: log).
  Proof.
    intros I R T E1 E2 E3 E4. apply (f_log (WSkip id)) in I; [|reflexivity|exact (f_cancel I _ T R)].
    eapply (@os_f _ y); try eassumption; intros i; unfold upd; destruct (Nat.eqb_spec i id) as [->|Ne]; cbn; auto; try congruence.
  Qed.
  Lemma ans_f id v (y y1 : bsys) log : inv_f y log ->
    match v with Ok f => exists r, In (WCall id r f) log | Er e => In (WAsk (Ready (Er e))) log end ->
    y_fs y1 = y_fs y -> y_os y1 = ans_os id v (y_os y) -> y_fnext y1 = y_fnext y ->
    (forall k m f, y_wk y1 = Some k -> w_pc k = WSend m f -> In (WCall (m_id m) (m_req m) f) (WAnswer id v :: log)) ->
    inv_f y1 (WAnswer id v :: log).
  Proof.
    intros I J E1 E2 E3 E4. apply (f_log (WAnswer id v)) in I; [|reflexivity|exact Logic.I].
    eapply (@os_f _ y); try eassumption; intros i; unfold ans_os, upd; destruct (Nat.eqb_spec i id) as [->|Ne]; cbn; auto; try congruence.
    - intros v0 X. destruct (o_rx (y_os y id)); [|auto]. injection X as <-. right. destruct v; [|auto].
      destruct J as [r J]. eauto.
    - destruct (o_rx (y_os y id)); [congruence|auto].
    - intros ->. right. left. discriminate.
  Qed.
  Lemma gone_f q (y y1 : bsys) log : inv_f y log -> (forall i, y_os y1 i = untx q (y_os y) i) ->
    y_fs y1 = y_fs y -> y_fnext y1 = y_fnext y -> y_wk y1 = None -> In WGone log -> inv_f y1 log.
  Proof.
    intros I O E1 E2 E3 G.
    apply (@os_f (y_os y1) y); try assumption; try reflexivity; try congruence; intros i; rewrite O.
    - apply untx_rx.
    - rewrite untx_tx. tauto.
    - rewrite untx_val. auto.
    - rewrite untx_val. auto.
    - auto.
  Qed.
  Lemma failed_ask (y : bsys) log k e : fstate y log -> y_wk y = Some k -> w_failed k = Some e -> In (WAsk (Ready (Er e))) log.
  Proof. intros F H1 H2. destruct F; congruence. Qed.

  (** The worker leaves the futures alone. *)
  Lemma wm_f (y : bsys) log l y1 : inv_q y log -> inv_e y log -> inv_f y log -> wmove y l y1 -> inv_f y1 (rev l ++ log).
  Proof.
    intros Q E I M. assert (G := e_gone E). assert (Fs := e_state E). destruct M; cbn [rev app].
    all: try (eapply f_ext; [exact I|reflexivity..|]; ysimp; intros ? ? ? X; injection X as <-; ysimp; discriminate).
    all: try (eapply f_log'; [exact I|reflexivity|exact Logic.I|reflexivity..|]; ysimp; intros ? ? ? X; injection X as <-; ysimp; discriminate).
    - apply (f_log WDone); [|reflexivity|exact Logic.I]. apply (f_log WStart); [exact I|reflexivity|exact Logic.I].
    - eapply skip_f; eauto; ysimp; [|intros ? ? ? X; injection X as <-; discriminate].
      apply (q_tx Q). rewrite H. cbn [holds]. unfold hand. rewrite H1. left. reflexivity.
    - eapply f_log'; [exact I|reflexivity| |reflexivity..|]; ysimp; [|intros ? ? ? X; injection X as <-; discriminate].
      intros X. apply (f_drop I) in X. destruct X as (_ & _ & X). congruence.
    - eapply skip_f; eauto; ysimp; [|intros ? ? ? X; injection X as <-; discriminate].
      apply (q_tx Q). rewrite H. cbn [holds]. unfold hand. rewrite H0, !ids_app, !in_app_iff. left. right. left. reflexivity.
    - eapply f_log'; [exact I|reflexivity| |reflexivity..|]; ysimp; [|intros ? ? ? X; injection X as <-; ysimp; discriminate].
      intros X. apply (f_drop I) in X. destruct X as (_ & _ & X). congruence.
    - eapply ans_f; [exact I| |reflexivity..|]; ysimp; [|intros ? ? ? X; injection X as <-; ysimp; discriminate].
      eapply failed_ask; eauto.
    - apply (@f_ext y); [|reflexivity..|]; ysimp; [|intros ? ? ? X; injection X as <-; ysimp; discriminate].
      apply (f_log WPend); [|reflexivity|exact Logic.I]. apply (f_log (WAsk Pending)); [exact I|reflexivity|exact Logic.I].
    - eapply f_log'; [exact I|reflexivity|exact Logic.I|reflexivity..|]; ysimp. intros ? ? ? X Y; injection X as <-.
      injection Y as <- <-. left. reflexivity.
    - eapply ans_f; [exact I| |reflexivity..|]; ysimp; [|intros ? ? ? X; injection X as <-; ysimp; discriminate].
      exists (m_req m). eapply (f_send I); eauto.
    - eapply ans_f; [exact I| |reflexivity..|]; ysimp; [|intros ? ? ? X; injection X as <-; ysimp; discriminate].
      eapply failed_ask; eauto.
    - apply (f_log WPanic) in I; [|reflexivity|exact Logic.I]. apply (f_log WGone) in I; [|reflexivity|exact Logic.I].
      eapply gone_f; [exact I| |reflexivity..|]; [intros i; apply H2|left; reflexivity].
    - apply (f_log WGone) in I; [|reflexivity|exact Logic.I].
      eapply gone_f; [exact I| |reflexivity..|]; [intros i; apply H2|left; reflexivity].
  Qed.

  Lemma inv_f_step (y : bsys) log l y1 : inv_q y log -> inv_e y log -> inv_f y log -> move y l y1 -> inv_f y1 (rev l ++ log).
  Proof.
    intros Q E I M. destruct M as [|w|l y1 H|l y1 H|l y1 H].
    - exact I.
    - eapply f_ext; [exact I|reflexivity..|exact (f_send I)].
    - eapply hm_f; eauto.
    - eapply fm_f; eauto.
    - eapply wm_f; eauto.
  Qed.
End Inv.
