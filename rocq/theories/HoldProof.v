(** Proofs for C72. *)
From Verif Require Import BehindProof Base Limits Buffer BufferSpec BufferBase BufferMoves BufferInv1 BufferInv2 BufferInv3 BufferInv4 BufferInv5 BufferInv6 BufferInv7 BufferTop FlightSpec HoldSpec.
Set Implicit Arguments.

Section Logs.
  Context {W Req Resp Err : Type} {svc : Service W Req Resp Err}.
  Notation bsys := (bsys svc).
  Notation bobs := (bobs svc).

  Lemma dropped_in id (l : list bobs) : was_dropped id l = true <-> In (ODropFut id) l.
  Proof.
    unfold was_dropped. rewrite existsb_exists. split.
    - intros (e & H & E). destruct e; try discriminate. apply Nat.eqb_eq in E. subst. exact H.
    - intros H. eexists. split; [exact H|]. cbn. apply Nat.eqb_refl.
  Qed.
  Lemma handed_in id (l : list bobs) : handed id l = true <-> exists f, In (WAnswer id (Ok f)) l.
  Proof.
    unfold handed. rewrite existsb_exists. split.
    - intros (e & H & E). destruct e as [| | | | | | | | | | | | | | | | |i [f|x]| | | | |]; try discriminate. apply Nat.eqb_eq in E. subst. eauto.
    - intros (f & H). eexists. split; [exact H|]. cbn. apply Nat.eqb_refl.
  Qed.
  Lemma called_in id (l : list bobs) : In id (map fst (called l)) <-> exists r f, In (WCall id r f) l.
  Proof.
    induction l as [|e l IH]; cbn [called map In].
    - split; [intros [] | intros (r & f & [])].
    - destruct e; cbn [called map In fst]; rewrite ?IH;
        try (split; [intros (r1 & f1 & H); exists r1, f1; auto | intros (r1 & f1 & [H|H]); [discriminate H | eauto]]).
      split.
      + intros [H|(r1 & f1 & H)]; [subst; eauto | eauto].
      + intros (r1 & f1 & [H|H]); [injection H as -> -> ->; auto | right; eauto].
  Qed.

  Definition inert (e : bobs) : bool :=
    match e with WCall _ _ _ | WAnswer _ (Ok _) | ODropFut _ => false | _ => true end.
  Lemma inert_one e (l : list bobs) : inert e = true ->
    called (e :: l) = called l /\ (forall id, was_dropped id (e :: l) = was_dropped id l) /\ (forall id, handed id (e :: l) = handed id l).
  Proof. destruct e as [| | | | | | | | | | | | | | | | |i [f|x]| | | | |]; intros E; try discriminate; cbn; auto. Qed.
  Lemma inert_all es (l : list bobs) : forallb inert es = true ->
    called (rev es ++ l) = called l /\ (forall id, was_dropped id (rev es ++ l) = was_dropped id l) /\ (forall id, handed id (rev es ++ l) = handed id l).
  Proof.
    revert l. induction es as [|e es IH]; intros l H; [cbn; auto|]. cbn [forallb] in H. apply andb_prop in H as [H1 H2].
    cbn [rev]. rewrite <- app_assoc. cbn [app]. destruct (IH (e :: l) H2) as (A & B & C). destruct (inert_one e l H1) as (A1 & B1 & C1).
    rewrite A, A1. split; [reflexivity|]. split; intros id; [rewrite B | rewrite C]; auto.
  Qed.
  Lemma filter_len_ext A (p q : A -> bool) l : (forall x, In x l -> p x = q x) -> length (filter p l) = length (filter q l).
  Proof. intros H. f_equal. apply filter_ext_in, H. Qed.
  Lemma filter_loses (p q : nat -> bool) l i : NoDup l -> In i l -> p i = true -> q i = false -> (forall x, x <> i -> p x = q x) ->
    length (filter p l) = S (length (filter q l)).
  Proof.
    intros N. induction N as [|a l Ha N IH]; intros Hi Hp Hq Hx; [destruct Hi|]. cbn [filter].
    destruct (Nat.eq_dec a i) as [->|Na].
    - rewrite Hp, Hq. cbn. f_equal. apply filter_len_ext. intros x X. apply Hx. intros ->. contradiction.
    - destruct Hi as [->|Hi]; [contradiction|]. rewrite (Hx a Na). destruct (q a); cbn; rewrite IH; auto.
  Qed.

  Lemma flight_inert es (l : list bobs) : forallb inert es = true -> length (in_flight (rev es ++ l)) = length (in_flight l).
  Proof.
    intros H. destruct (inert_all es l H) as (A & B & C). unfold in_flight. rewrite A. apply filter_len_ext.
    intros x _. rewrite B, C. reflexivity.
  Qed.
  Lemma flight_call id r f (l : list bobs) : handed id l = false -> length (in_flight (WCall id r f :: l)) = S (length (in_flight l)).
  Proof.
    intros H. unfold in_flight. cbn [called map fst]. cbn [filter].
    change (was_dropped id (WCall id r f :: l)) with (was_dropped id l). change (handed id (WCall id r f :: l)) with (handed id l).
    rewrite H, andb_false_r. cbn [negb length]. f_equal.
  Qed.
  Lemma flight_handed_live id f (l : list bobs) : was_dropped id l = false -> length (in_flight (WAnswer id (Ok f) :: l)) = length (in_flight l).
  Proof.
    intros H. unfold in_flight. apply filter_len_ext. intros x _. change (was_dropped x (WAnswer id (Ok f) :: l)) with (was_dropped x l).
    cbn [handed existsb]. fold (handed x l). destruct (Nat.eqb_spec id x) as [->|N]; [rewrite H; reflexivity | reflexivity].
  Qed.
  Lemma flight_handed_dropped id f (l : list bobs) : NoDup (map fst (called l)) -> In id (map fst (called l)) ->
    was_dropped id l = true -> handed id l = false ->
    length (in_flight l) = S (length (in_flight (WAnswer id (Ok f) :: l))).
  Proof.
    intros N Hi Hd Hh. unfold in_flight. apply filter_loses with (i := id); auto.
    - rewrite Hh, andb_false_r. reflexivity.
    - change (was_dropped id (WAnswer id (Ok f) :: l)) with (was_dropped id l). rewrite Hd. cbn. rewrite Nat.eqb_refl. reflexivity.
    - intros x Hx. change (was_dropped x (WAnswer id (Ok f) :: l)) with (was_dropped x l). cbn [handed existsb]. fold (handed x l).
      apply Nat.eqb_neq in Hx. rewrite Nat.eqb_sym in Hx. rewrite Hx. reflexivity.
  Qed.
  Lemma flight_drop_unhanded id (l : list bobs) : handed id l = false -> length (in_flight (ODropFut id :: l)) = length (in_flight l).
  Proof.
    intros H. unfold in_flight. apply filter_len_ext. intros x _. change (handed x (ODropFut id :: l)) with (handed x l).
    cbn [was_dropped existsb]. fold (was_dropped x l). destruct (Nat.eqb_spec id x) as [->|N]; [rewrite H, !andb_false_r; reflexivity | reflexivity].
  Qed.
  Lemma flight_drop_handed id (l : list bobs) : NoDup (map fst (called l)) -> In id (map fst (called l)) ->
    was_dropped id l = false -> handed id l = true ->
    length (in_flight l) = S (length (in_flight (ODropFut id :: l))).
  Proof.
    intros N Hi Hd Hh. unfold in_flight. apply filter_loses with (i := id); auto.
    - rewrite Hd. reflexivity.
    - change (handed id (ODropFut id :: l)) with (handed id l). rewrite Hh. cbn. rewrite Nat.eqb_refl. reflexivity.
    - intros x Hx. change (handed x (ODropFut id :: l)) with (handed x l). cbn [was_dropped existsb]. fold (was_dropped x l).
      apply Nat.eqb_neq in Hx. rewrite Nat.eqb_sym in Hx. rewrite Hx. reflexivity.
  Qed.

  (** ** Where the inner futures are *)
  Record inv_c (y : bsys) (log : list bobs) : Prop := {
    c_handed : forall id, handed id log = true -> In id (map fst (called log)) /\ o_tx (y_os y id) = false;
    c_val : forall id f, o_val (y_os y id) = Some (Ok f) -> handed id log = true /\ o_rx (y_os y id) = true;
    c_live : forall id, o_rx (y_os y id) = true -> exists d, y_fs y id = Some (BRx, d);
    c_poll : forall id f d, y_fs y id = Some (BPoll f, d) -> handed id log = true;
    c_rx : forall id d, y_fs y id = Some (BRx, d) -> handed id log = true -> exists f, o_val (y_os y id) = Some (Ok f);
    c_failed : forall id e d, y_fs y id = Some (BFailed e, d) -> handed id log = false }.

  Lemma c_same (y y1 : bsys) log es : inv_c y log -> forallb inert es = true ->
    (forall i, o_val (y_os y1 i) = o_val (y_os y i) /\ o_rx (y_os y1 i) = o_rx (y_os y i)) -> (forall i, o_tx (y_os y1 i) = true -> o_tx (y_os y i) = true) ->
    y_fs y1 = y_fs y -> inv_c y1 (rev es ++ log).
  Proof.
    intros [A B L C D E] H V T F. destruct (inert_all es log H) as (I1 & I2 & I3). split.
    - intros id X. rewrite I3 in X. apply A in X as [X1 X2]. rewrite I1. split; [exact X1|].
      destruct (o_tx (y_os y1 id)) eqn:Y; [|reflexivity]. apply T in Y. congruence.
    - intros id f X. destruct (V id) as [V1 V2]. rewrite V1 in X. rewrite V2, I3. eauto.
    - intros id X. destruct (V id) as [V1 V2]. rewrite V2 in X. rewrite F. auto.
    - intros id f d X. rewrite F in X. rewrite I3. eauto.
    - intros id d X Y. rewrite F in X. rewrite I3 in Y. destruct (V id) as [-> _]. eauto.
    - intros id e d X. rewrite F in X. rewrite I3. eauto.
  Qed.

  Lemma called_sent (y : bsys) log : inv_q y log -> sublist (rev (called log)) (rev (sent log)).
  Proof.
    intros Q. destruct (q_places Q) as (G & E1 & E2).
    rewrite E1. assert (X : sublist (G ++ pairs (sends (y_wk y))) (G ++ pairs (holds (y_wk y)) ++ pairs (y_queue y))).
    { apply sub_app; [apply sub_refl|]. apply sub_more. destruct (y_wk y) as [k|]; [|constructor].
      cbn [sends holds]. unfold hand. destruct (w_pc k); cbn [sendl pcl]; try apply sub_nil_l.
      rewrite pairs_app. change (pairs [m]) with ([] ++ pairs [m]) at 1. apply sub_app; [apply sub_nil_l|apply sub_refl]. }
    clear - E2 X. revert E2 X. generalize (rev (called log)) (G ++ pairs (sends (y_wk y))) (G ++ pairs (holds (y_wk y)) ++ pairs (y_queue y)).
    intros a b c H1 H2. revert a H1. induction H2; intros a H1; auto.
    - constructor. auto.
    - inversion H1; subst; [apply sub_skip|apply sub_keep]; auto.
  Qed.
  Lemma called_nodup (y : bsys) log : inv_q y log -> NoDup (map fst (called log)).
  Proof.
    intros Q. assert (S' := called_sent Q). assert (N := q_nodup Q). apply (sub_map fst) in S'. apply sub_nodup in S'; [|rewrite map_rev; apply NoDup_rev; exact N].
    rewrite map_rev in S'. apply NoDup_rev in S'. rewrite rev_involutive in S'. exact S'.
  Qed.
  Lemma called_lt (y : bsys) log id : inv_q y log -> In id (map fst (called log)) -> id < y_fnext y.
  Proof.
    intros Q H. apply (q_lt Q). assert (S' := called_sent Q). apply (sub_map fst) in S'. rewrite !map_rev in S'.
    apply in_rev. eapply sub_in; [exact S'|]. apply in_rev. rewrite rev_involutive. exact H.
  Qed.
  Lemma handed_fresh (y : bsys) log : inv_q y log -> inv_c y log -> handed (y_fnext y) log = false.
  Proof.
    intros Q C. destruct (handed (y_fnext y) log) eqn:E; [|reflexivity]. apply (c_handed C) in E as [E _]. apply (called_lt _ Q) in E. lia.
  Qed.
  (** A request in the worker's hands has not been handed over. *)
  Lemma in_hand (y : bsys) log k m : inv_q y log -> y_wk y = Some k -> In m (pcl (w_pc k)) -> o_tx (y_os y (m_id m)) = true.
  Proof.
    intros Q Ek Hm. apply (q_tx Q). rewrite Ek. cbn [holds]. unfold hand, ids. rewrite !map_app, !in_app_iff. left. right.
    apply in_map, Hm.
  Qed.
  Lemma unhanded (y : bsys) log k m : inv_q y log -> inv_c y log -> y_wk y = Some k -> In m (pcl (w_pc k)) -> handed (m_id m) log = false.
  Proof.
    intros Q C Ek Hm. destruct (handed (m_id m) log) eqn:E; [|reflexivity]. apply (c_handed C) in E as [_ E].
    assert (X : o_tx (y_os y (m_id m)) = true) by (eapply in_hand; eauto). congruence.
  Qed.
  Lemma not_dropped (y : bsys) log id x : inv_f y log -> y_fs y id = Some x -> was_dropped id log = false.
  Proof.
    intros F E. destruct (was_dropped id log) eqn:D; [|reflexivity]. apply dropped_in in D. apply (f_drop F) in D as (_ & D & _). congruence.
  Qed.

  (** One future and its oneshot change. *)
  Lemma c_at id (y y1 : bsys) log log1 : inv_c y log ->
    called log1 = called log -> (forall i, handed i log1 = handed i log) ->
    (forall i, i <> id -> y_os y1 i = y_os y i /\ y_fs y1 i = y_fs y i) ->
    (handed id log = true -> o_tx (y_os y1 id) = false) ->
    (forall f, o_val (y_os y1 id) = Some (Ok f) -> handed id log = true /\ o_rx (y_os y1 id) = true) ->
    (o_rx (y_os y1 id) = true -> exists d, y_fs y1 id = Some (BRx, d)) ->
    match y_fs y1 id with
    | Some (BPoll _, _) => handed id log = true
    | Some (BRx, _) => handed id log = true -> exists f, o_val (y_os y1 id) = Some (Ok f)
    | Some (BFailed _, _) => handed id log = false
    | None => True
    end -> inv_c y1 log1.
  Proof.
    intros [A B L C D E] H1 H2 H3 H4 H5 H6 H7. split.
    - intros i X. rewrite H2 in X. rewrite H1. destruct (A i X) as [X1 X2]. split; [exact X1|].
      destruct (Nat.eq_dec i id) as [->|N]; [auto | destruct (H3 i N) as [-> _]; exact X2].
    - intros i f X. rewrite H2. destruct (Nat.eq_dec i id) as [->|N]; [eauto | destruct (H3 i N) as [Y _]; rewrite Y in *; eauto].
    - intros i X. destruct (Nat.eq_dec i id) as [->|N]; [eauto | destruct (H3 i N) as [Y Z]; rewrite Y in X; rewrite Z; eauto].
    - intros i f d X. rewrite H2. destruct (Nat.eq_dec i id) as [->|N]; [rewrite X in H7; exact H7 | destruct (H3 i N) as [Y Z]; rewrite Z in X; eauto].
    - intros i d X. rewrite H2. destruct (Nat.eq_dec i id) as [->|N]; [rewrite X in H7; exact H7 | destruct (H3 i N) as [Y Z]; rewrite Z in X; rewrite Y; eauto].
    - intros i e d X. rewrite H2. destruct (Nat.eq_dec i id) as [->|N]; [rewrite X in H7; exact H7 | destruct (H3 i N) as [Y Z]; rewrite Z in X; eauto].
  Qed.

  Lemma eqb_cases (i j : nat) : (j = i /\ (i =? j) = true) \/ (i <> j /\ (i =? j) = false).
  Proof. destruct (Nat.eqb_spec i j); auto. Qed.
  Lemma inv_c_step bound (y : bsys) log l y1 : binv bound y log -> inv_c y log -> move y l y1 -> inv_c y1 (rev l ++ log).
  Proof.
    intros J C M. assert (Q := bi_q J). assert (F := bi_f J). destruct M as [|w|l y1 M|l y1 M|l y1 M].
    - exact C.
    - apply (@c_same y); auto.
    - assert (N := handed_fresh Q C). destruct M; try (apply (@c_same y); auto; fail).
      + apply c_at with (id := y_fnext y) (y := y) (log := log); ysimp; rewrite ?upd_eq; ysimp; auto; try discriminate; try congruence; eauto.
        intros i Hi. rewrite !upd_ne by exact Hi. auto.
      + apply c_at with (id := y_fnext y) (y := y) (log := log); ysimp; rewrite ?upd_eq; ysimp; auto; try discriminate; try congruence; eauto.
        intros i Hi. rewrite !upd_ne by exact Hi. auto.
      + apply (@c_same y); auto; ysimp; intros i; rewrite H3; [rewrite untx_val, untx_rx; auto | intros X; apply untx_tx in X; apply X].
    - assert (K : forall id, match y_fs y id with Some (BRx, _) => True | _ => o_rx (y_os y id) = false end).
      { intros id. destruct (o_rx (y_os y id)) eqn:X; [apply (c_live C) in X as [d ->]; exact I|]. destruct (y_fs y id) as [[[]]|]; auto. }
      assert (K2 : forall id f, o_rx (y_os y id) = false -> o_val (y_os y id) <> Some (Ok f)).
      { intros id f X Y. apply (c_val C) in Y as [_ Y]. congruence. }
      assert (IP : forall id f y0 l0 y2, inner_poll id f y0 l0 y2 -> forallb inert l0 = true /\ y_os y2 = y_os y0 /\ exists f1 d, y_fs y2 = upd (y_fs y0) id (Some (BPoll f1, d))).
      { intros id f y0 l0 y2 H. destruct H; (split; [reflexivity|split; [reflexivity | do 2 eexists; reflexivity]]). }
      destruct M as [id H|id e H|id H|id f l y1 H H0 H1|id e H H0|id H H0 H1|id f l y1 H H0|id e d H|id d w H|id f d w H];
        assert (K1 := K id); rewrite H in K1.
      + apply c_at with (id := id) (y := y) (log := log); ysimp; rewrite ?upd_eq; ysimp; auto.
        * intros i Hi. rewrite !upd_ne by exact Hi. auto.
        * apply C.
        * intros f X. apply K2 in X; [destruct X | exact K1].
        * congruence.
        * eapply c_failed; eauto.
      + apply c_at with (id := id) (y := y) (log := log); ysimp; rewrite ?upd_eq; ysimp; auto.
        * intros i Hi. rewrite !upd_ne by exact Hi. auto.
        * apply C.
        * intros f X. apply K2 in X; [destruct X | exact K1].
        * congruence.
        * eapply c_failed; eauto.
      + apply (@c_same y); auto.
      + apply IP in H1 as (G1 & G2 & f1 & d1 & G3). destruct (inert_all l log G1) as (I1 & I2 & I3).
        apply c_at with (id := id) (y := y) (log := log); auto; rewrite ?G2, ?G3; ysimp; rewrite ?upd_eq; ysimp; auto; try discriminate.
        * intros i Hi. rewrite !upd_ne by exact Hi. auto.
        * eapply c_val; eauto.
      + assert (Hh : handed id log = false). { destruct (handed id log) eqn:X; [|reflexivity]. destruct (c_rx C id H X) as [f Y]. congruence. }
        apply c_at with (id := id) (y := y) (log := log); ysimp; rewrite ?upd_eq; ysimp; auto; try discriminate; try congruence; eauto.
        intros i Hi. rewrite !upd_ne by exact Hi. auto.
      + assert (Hh : handed id log = false). { destruct (handed id log) eqn:X; [|reflexivity]. destruct (c_rx C id H X) as [f Y]. congruence. }
        apply c_at with (id := id) (y := y) (log := log); ysimp; rewrite ?upd_eq; ysimp; auto; try discriminate; try congruence; eauto.
        intros i Hi. rewrite !upd_ne by exact Hi. auto.
      + apply IP in H0 as (G1 & G2 & f1 & d1 & G3). destruct (inert_all l log G1) as (I1 & I2 & I3).
        apply c_at with (id := id) (y := y) (log := log); auto; rewrite ?G2, ?G3; rewrite ?upd_eq; auto.
        * intros i Hi. rewrite !upd_ne by exact Hi. auto.
        * apply C.
        * intros g X. apply K2 in X; [destruct X | exact K1].
        * congruence.
        * eapply c_poll; eauto.
      + apply c_at with (id := id) (y := y) (log := log); ysimp; rewrite ?upd_eq; ysimp; auto.
        * intros i Hi. rewrite !upd_ne by exact Hi. auto.
        * apply C.
        * intros f X. apply K2 in X; [destruct X | exact K1].
        * congruence.
      + apply c_at with (id := id) (y := y) (log := log); ysimp; rewrite ?upd_eq; ysimp; auto; try discriminate.
        * intros i Hi. rewrite !upd_ne by exact Hi. auto.
        * apply C.
      + apply c_at with (id := id) (y := y) (log := log); ysimp; rewrite ?upd_eq; ysimp; auto.
        * intros i Hi. rewrite !upd_ne by exact Hi. auto.
        * apply C.
        * intros g X. apply K2 in X; [destruct X | exact K1].
        * congruence.
    - assert (HD : forall k m, y_wk y = Some k -> In m (pcl (w_pc k)) -> handed (m_id m) log = false) by (intros; eapply unhanded; eauto).
      assert (UT : forall q (os : nat -> oneshot svc), (forall i, os i = untx q (y_os y) i) ->
        (forall i, o_val (os i) = o_val (y_os y i) /\ o_rx (os i) = o_rx (y_os y i)) /\ (forall i, o_tx (os i) = true -> o_tx (y_os y i) = true)).
      { intros q os X. split; intros i; rewrite X; [rewrite untx_val, untx_rx; auto | intros Z; apply untx_tx in Z; apply Z]. }
      assert (DT : forall j,
        (forall i, o_val (upd (y_os y) j (Os false (o_val (y_os y j)) (o_rx (y_os y j))) i) = o_val (y_os y i) /\
                   o_rx (upd (y_os y) j (Os false (o_val (y_os y j)) (o_rx (y_os y j))) i) = o_rx (y_os y i)) /\
        (forall i, o_tx (upd (y_os y) j (Os false (o_val (y_os y j)) (o_rx (y_os y j))) i) = true -> o_tx (y_os y i) = true)).
      { intros j. split; intros i; destruct (Nat.eq_dec i j) as [->|N]; rewrite ?upd_eq, ?upd_ne by exact N; cbn; auto; discriminate. }
      assert (ER : forall k m e w y2, y_wk y = Some k -> In m (pcl (w_pc k)) ->
        y_os y2 = ans_os (m_id m) (Er e) (y_os y) -> y_fs y2 = y_fs y -> inv_c (set_w w y2) (WAnswer (m_id m) (Er e) :: log)).
      { intros k m e w y2 Ek Hm Ho Hf. specialize (HD k m Ek Hm).
        apply c_at with (id := m_id m) (y := y) (log := log); ysimp; rewrite ?Ho, ?Hf; unfold ans_os; rewrite ?upd_eq; ysimp; auto.
        - intros i Hi. rewrite !upd_ne by exact Hi. auto.
        - intros f X. destruct (o_rx (y_os y (m_id m))) eqn:R; [discriminate X|]. apply (c_val C) in X as [_ X]. congruence.
        - apply C.
        - destruct (y_fs y (m_id m)) as [[[x| |x] d]|] eqn:Y; auto; [congruence|]. eapply c_poll; eauto. }
      destruct M; try (apply (@c_same y); auto; fail).
      all: try solve [apply (@c_same y); auto; ysimp; apply DT].
      all: try solve [apply (@c_same y); auto; ysimp; eapply UT; eassumption].
      + cbn [rev app]. assert (Hm : In m (pcl (w_pc k))) by (rewrite H0; left; reflexivity).
        exact (ER k m e w (setw (at_pc k WNext) (set_os (ans_os (m_id m) (Er e) (y_os y)) y)) H Hm eq_refl eq_refl).
      + cbn [rev app]. assert (Hh : handed (m_id m) log = false) by (apply (HD k m H); rewrite H0; left; reflexivity).
        destruct C as [A B L C D E]. split; ysimp; auto.
        intros id X. destruct (A id X) as [X1 X2]. split; [right; exact X1 | exact X2].
      + cbn [rev app]. assert (Hm : In m (pcl (w_pc k))) by (rewrite H0; left; reflexivity). assert (Hh := HD k m H Hm).
        assert (Hc : In (m_id m) (map fst (called log))) by (apply called_in; do 2 eexists; eapply f_send; eauto).
        destruct C as [A B L C D E]. unfold ans_os. split; ysimp; cbn [handed existsb called map fst].
        * intros i X. change ((m_id m =? i) || handed i log = true) in X. destruct (eqb_cases (m_id m) i) as [[En Eb]|[N Eb]]; rewrite ?Eb in *; cbn [orb] in *; [subst i|].
          -- rewrite upd_eq. auto.
          -- rewrite upd_ne by auto. apply A, X.
        * intros i g X. change ((m_id m =? i) || handed i log = true /\ o_rx (upd (y_os y) (m_id m) (Os false (if o_rx (y_os y (m_id m)) then Some (Ok f) else o_val (y_os y (m_id m))) (o_rx (y_os y (m_id m)))) i) = true).
          destruct (eqb_cases (m_id m) i) as [[En Eb]|[N Eb]]; rewrite ?Eb in *; cbn [orb] in *; [subst i|].
          -- rewrite upd_eq in *. ysimp. destruct (o_rx (y_os y (m_id m))) eqn:R; [auto|]. apply B in X. destruct X as [_ X]. congruence.
          -- rewrite upd_ne in * by auto. apply B in X. exact X.
        * intros i X. apply L. destruct (Nat.eq_dec i (m_id m)) as [->|N]; [rewrite upd_eq in X; exact X | rewrite upd_ne in X by auto; exact X].
        * intros i g d X. change ((m_id m =? i) || handed i log = true). rewrite (C i g d X). apply orb_true_r.
        * intros i d X Y. change ((m_id m =? i) || handed i log = true) in Y. destruct (eqb_cases (m_id m) i) as [[En Eb]|[N Eb]]; rewrite ?Eb in *; cbn [orb] in *; [subst i|].
          -- rewrite upd_eq. ysimp. destruct (o_rx (y_os y (m_id m))) eqn:R; [eauto|]. exfalso.
             assert (Z := in_hand m Q H Hm). assert (Z1 := f_cancel F _ Z R). apply (f_drop F) in Z1 as (_ & Z1 & _). congruence.
          -- rewrite upd_ne by auto. eapply D; eauto.
        * intros i e d X. change ((m_id m =? i) || handed i log = false). destruct (eqb_cases (m_id m) i) as [[En Eb]|[N Eb]]; rewrite Eb in *; cbn [orb] in *; [subst i|]; [|apply (E i e d X)].
          exfalso. assert (Z := in_hand m Q H Hm). destruct (f_failed F _ X) as (X1 & _). assert (Z1 := f_cancel F _ Z X1).
          apply (f_drop F) in Z1 as (_ & Z1 & _). congruence.
      + cbn [rev app]. assert (Hm : In m (pcl (w_pc k))) by (rewrite H0; left; reflexivity).
        exact (ER k m e w (setw (at_pc k WNext) (set_os (ans_os (m_id m) (Er e) (y_os y)) y)) H Hm eq_refl eq_refl).
  Qed.
End Logs.

(** ** An invariant of the wrapped service, given how many of its futures exist *)
Section Keep.
  Context {W Req Resp Err : Type} (svc : Service W Req Resp Err).
  Notation bsys := (bsys svc).
  Notation bobs := (bobs svc).
  Variable all : list (bop (W := W) (Req := Req)).
  Variable P : st svc -> W -> nat -> Prop.
  Variable Q : W -> nat -> Prop.
  Hypothesis P_env : forall s w n g, In (BEnv g) all -> P s w n -> P s (g w) n.
  Hypothesis P_poll : forall s w n f, P s w n -> P s (fst (poll_fut svc f w)) n.
  Hypothesis P_drop : forall s w n f, P s w (S n) -> P s (drop_fut svc f w) n.
  Hypothesis P_ready : forall s w n w1 s1 a, P s w n -> poll_ready svc s w = (w1, Val (s1, a)) -> P s1 w1 n.
  Hypothesis P_call : forall s w n r w1 s1 f, P s w n -> call svc s r w = (w1, Val (s1, f)) -> P s1 w1 (S n).
  Hypothesis P_Q : forall s w n, P s w n -> Q w n.
  Hypothesis Q_env : forall w n g, In (BEnv g) all -> Q w n -> Q (g w) n.
  Hypothesis Q_poll : forall w n f, Q w n -> Q (fst (poll_fut svc f w)) n.
  Hypothesis Q_drop : forall w n f, Q w (S n) -> Q (drop_fut svc f w) n.
  Hypothesis Q_ready : forall s w n, P s w n -> Q (fst (poll_ready svc s w)) n.
  Hypothesis Q_call : forall s w n r w1 o, P s w n -> call svc s r w = (w1, o) -> (forall x, o <> Val x) -> Q w1 n.
  Hypothesis Q_gone : forall s w n, Q w n -> Q (drop_svc svc s w) n.

  Definition stuck (k : worker svc) : bool := match w_pc k with WHung _ => true | _ => false end.
  Definition winv (y : bsys) (n : nat) : Prop :=
    Q (y_w y) n /\ match y_wk y with Some k => stuck k = true \/ P (w_svc k) (y_w y) n | None => True end.

  Lemma winv_map (y y1 : bsys) n n1 (g : W -> W) : (forall s w, P s w n -> P s (g w) n1) -> (forall w, Q w n -> Q (g w) n1) ->
    y_w y1 = g (y_w y) -> y_wk y1 = y_wk y -> winv y n -> winv y1 n1.
  Proof.
    intros HP HQ Ew Ek [H1 H2]. split; [rewrite Ew; auto|]. rewrite Ek. destruct (y_wk y) as [k|]; [|exact I].
    destruct H2 as [H2|H2]; [left; exact H2 | right; rewrite Ew; auto].
  Qed.
  Lemma winv_same (y y1 : bsys) n : y_w y1 = y_w y -> y_wk y1 = y_wk y -> winv y n -> winv y1 n.
  Proof. intros. eapply winv_map with (g := fun w => w); eauto. Qed.
  Lemma winv_gone k (y : bsys) n : Q (y_w y) n -> winv (drop_worker k y) n.
  Proof.
    intros H. split; [|exact I]. unfold drop_worker. cbv zeta.
    set (y1 := match w_cur k with Some m => os_drop_tx (m_id m) y | None => y end).
    change (Q (drop_svc svc (w_svc k) (y_w (rx_drop y1))) n). destruct (rx_drop_w y1) as [-> _]. apply Q_gone. subst y1. destruct (w_cur k); exact H.
  Qed.

  (** Handing an answer over. *)
  Lemma send_keeps (y : bsys) log m v n1 k : BufferInv7.binv (y_bound y) y log -> inv_c y log -> y_wk y = Some k -> In m (pcl (w_pc k)) ->
    match v with Ok f => w_pc k = WSend m f | Er _ => True end ->
    n1 = length (in_flight (WAnswer (m_id m) v :: log)) ->
    exists g, (forall s w, P s w (length (in_flight log)) -> P s (g w) n1) /\ (forall w, Q w (length (in_flight log)) -> Q (g w) n1) /\
      y_w (os_send (m_id m) v y) = g (y_w y).
  Proof.
    intros J C Ek Hm Hv ->. assert (F := bi_f J). assert (Qq := bi_q J). destruct v as [f|e].
    - unfold os_send. destruct (o_rx (y_os y (m_id m))) eqn:R.
      + exists (fun w => w). rewrite flight_handed_live; [repeat split; auto|].
        destruct (was_dropped (m_id m) log) eqn:D; [|reflexivity]. apply dropped_in in D. apply (f_drop F) in D as (_ & _ & D). congruence.
      + exists (drop_fut svc f). assert (D : was_dropped (m_id m) log = true).
        { apply dropped_in. eapply f_cancel; eauto. eapply in_hand; eauto. }
        assert (E : length (in_flight log) = S (length (in_flight (WAnswer (m_id m) (Ok f) :: log)))).
        { apply flight_handed_dropped; auto; [eapply called_nodup; eauto | | eapply unhanded; eauto].
          apply called_in. do 2 eexists. eapply f_send; eauto. }
        rewrite E. repeat split; auto.
    - exists (fun w => w). replace (length (in_flight (WAnswer (m_id m) (Er e) :: log))) with (length (in_flight log)) by reflexivity.
      repeat split; auto. unfold os_send. destruct (o_rx _); reflexivity.
  Qed.

  Lemma os_send_wk id v (y : bsys) : y_wk (os_send id v y) = y_wk y.
  Proof. unfold os_send. destruct (o_rx _); [reflexivity|]. destruct v; reflexivity. Qed.

  Lemma winv_worker c k (y : bsys) log : BufferInv7.binv (y_bound y) y log -> inv_c y log -> y_wk y = Some k ->
    winv y (length (in_flight log)) -> winv (fst (worker_step c k y)) (length (in_flight (rev (snd (worker_step c k y)) ++ log))).
  Proof.
    intros J C Ek [HQ HP]. rewrite Ek in HP.
    destruct HP as [HP|HP].
    { unfold stuck in HP. unfold worker_step. destruct (w_pc k) eqn:E; try discriminate. cbn. split; [exact HQ|]. rewrite Ek. left. unfold stuck. rewrite E. reflexivity. }
    unfold worker_step. destruct (w_pc k) eqn:Epc.
    - destruct (w_finish k); cbn [fst snd]; rewrite flight_inert by reflexivity; (split; [exact HQ|]); [rewrite Ek|]; right; exact HP.
    - destruct (w_cur k) as [m|]; [destruct (os_is_closed (m_id m) y)|]; cbn [fst snd]; rewrite flight_inert by reflexivity; (split; [exact HQ|]); right; exact HP.
    - destruct (poll_recv_w c y) as [Ew Ek1]. destruct (poll_recv c y) as [y1 [|[m|]]]; cbn in Ew, Ek1; cbn [fst snd]; rewrite flight_inert by reflexivity;
        (split; [cbn; rewrite Ew; exact HQ|]); right; cbn; rewrite Ew; exact HP.
    - destruct (os_is_closed (m_id m) y); cbn [fst snd]; rewrite flight_inert by reflexivity; (split; [exact HQ|]); right; exact HP.
    - destruct (w_failed k) as [e|] eqn:Ef.
      { cbn [fst snd rev app]. assert (Hm : In m (pcl (w_pc k))) by (rewrite Epc; left; reflexivity).
        destruct (@send_keeps y log m (Er e) _ k J C Ek Hm Logic.I eq_refl) as (g & G1 & G2 & G3).
        split; [cbn; rewrite G3; auto|]. right. cbn. rewrite G3. auto. }
      destruct (poll_ready svc (w_svc k) (y_w y)) as [w1 [[s1 a]| |]] eqn:Er.
      + assert (H := P_ready HP Er).
        destruct a as [|[u|e]]; cbn [fst snd]; rewrite flight_inert by reflexivity; (split; [apply (P_Q H)|]); right; exact H.
      + cbn [fst snd]. rewrite flight_inert by reflexivity. apply winv_gone. cbn. pose proof (Q_ready HP) as H. rewrite Er in H. exact H.
      + cbn [fst snd]. rewrite flight_inert by reflexivity. pose proof (Q_ready HP) as H. rewrite Er in H. split; [exact H|]. left. reflexivity.
    - destruct (call svc (w_svc k) (m_req m) (y_w y)) as [w1 [[s1 f]| |]] eqn:Er.
      + assert (H := P_call (m_req m) HP Er). cbn [fst snd rev app].
        rewrite flight_call; [|eapply unhanded; eauto; [exact (bi_q J) | rewrite Epc; left; reflexivity]].
        split; [apply (P_Q H)|]. right. exact H.
      + cbn [fst snd]. rewrite flight_inert by reflexivity. apply winv_gone. cbn. eapply Q_call; [exact HP | exact Er | discriminate].
      + cbn [fst snd]. rewrite flight_inert by reflexivity. split; [|left; reflexivity]. eapply Q_call; [exact HP | exact Er | discriminate].
    - cbn [fst snd rev app]. assert (Hm : In m (pcl (w_pc k))) by (rewrite Epc; left; reflexivity).
      destruct (@send_keeps y log m (Ok f) _ k J C Ek Hm Epc eq_refl) as (g & G1 & G2 & G3).
      split; [cbn; rewrite G3; auto|]. right. cbn. rewrite G3. auto.
    - destruct (y_cell y); cbn [fst snd]; rewrite flight_inert by reflexivity; (split; [exact HQ|]); right; exact HP.
    - cbn [fst snd]. rewrite flight_inert by reflexivity. split; [exact HQ|]. right. exact HP.
    - destruct (w_failed k) as [e|] eqn:Ef.
      + cbn [fst snd rev app]. assert (Hm : In m (pcl (w_pc k))) by (rewrite Epc; left; reflexivity).
        destruct (@send_keeps y log m (Er e) _ k J C Ek Hm Logic.I eq_refl) as (g & G1 & G2 & G3).
        split; [cbn; rewrite G3; auto|]. right. cbn. rewrite G3. auto.
      + cbn [fst snd]. rewrite flight_inert by reflexivity. apply winv_gone. exact HQ.
    - cbn [fst snd]. rewrite flight_inert by reflexivity. split; [exact HQ|]. rewrite Ek. left. unfold stuck. rewrite Epc. reflexivity.
  Qed.

  Lemma winv_step o (y : bsys) log : (forall g, o = BEnv g -> In o all) -> BufferInv7.binv (y_bound y) y log -> inv_c y log ->
    winv y (length (in_flight log)) -> winv (fst (bstep o y)) (length (in_flight (rev (snd (bstep o y)) ++ log))).
  Proof.
    intros Ho J C HI. assert (HI' : winv y (length (in_flight (rev [] ++ log)))) by exact HI.
    destruct o as [h|h r|h c|h|h|id c|id|c| |g]; cbn [bstep].
    - destruct (y_hs y h) as [d|]; [destruct (at_rest d)|]; exact HI'.
    - destruct (y_hs y h) as [d|]; [destruct (at_rest d)|]; try exact HI'. unfold handle_call, send_item. destruct (h_ps d); cbn [fst snd]; rewrite flight_inert by reflexivity; exact HI.
    - destruct (y_hs y h) as [d|]; [|exact HI']. unfold handle_step. destruct (h_pc d); try exact HI'.
      + destruct (poll_reserve_w c (h_ps d) y) as [Ew Ek]. destruct (poll_reserve c (h_ps d) y) as [[y1 p] [|[u|e]]]; cbn in Ew, Ek;
          cbn [fst snd]; rewrite flight_inert by reflexivity; (eapply winv_same; [exact Ew | exact Ek | exact HI]).
    - destruct (y_hs y h) as [d|]; [destruct (at_rest d)|]; exact HI'.
    - destruct (y_hs y h) as [d|]; [destruct (at_rest d)|]; try exact HI'. unfold handle_drop. cbv zeta. cbn [fst snd]. rewrite flight_inert by reflexivity.
      set (y1 := drop_sender (h_ps d) y). assert (E1 : y_w y1 = y_w y /\ y_wk y1 = y_wk y) by (subst y1; destruct (h_ps d); auto).
      destruct E1 as [Ew Ek]. change (y_wk (set_hs (upd (y_hs y1) h None) y1)) with (y_wk y1). rewrite Ek. destruct (y_wk y) as [k|] eqn:E.
      + eapply winv_same; [exact Ew | cbn; congruence | exact HI].
      + destruct (no_senders (set_hs (upd (y_hs y1) h None) y1)).
        * match goal with |- winv (set_queue [] (drain ?q ?z)) _ => destruct (drain_w q z) as [A B] end.
          cbn in A, B. eapply winv_same; [cbn; rewrite A; exact Ew | cbn; rewrite B; congruence | exact HI].
        * eapply winv_same; [exact Ew | cbn; congruence | exact HI].
    - destruct (y_fs y id) as [[f [|]]|]; try exact HI'.
      assert (Hp : forall f z, y_w z = y_w y -> y_wk z = y_wk y -> winv (fst (poll_inner id f z)) (length (in_flight (rev (snd (poll_inner id f z)) ++ log)))).
      { intros f0 z Ew Ek. assert (E : forallb inert (snd (poll_inner id f0 z)) = true) by (unfold poll_inner; destruct (poll_fut svc f0 (y_w z)) as [w1 [[f1 a]| |]]; reflexivity).
        rewrite flight_inert by exact E. unfold poll_inner.
        assert (Hf : winv (set_w (fst (poll_fut svc f0 (y_w z))) z) (length (in_flight log))).
        { eapply winv_map with (g := fun w => fst (poll_fut svc f0 w)) (n := length (in_flight log)); [intros s w X; apply (P_poll f0 X) | intros w X; apply (Q_poll f0 X) | cbn; rewrite Ew; reflexivity | exact Ek | exact HI]. }
        destruct (poll_fut svc f0 (y_w z)) as [w1 [[f1 a]| |]]; exact Hf. }
      destruct f as [[e|]| |f]; cbn [fut_poll]; try exact HI'.
      + destruct c; [exact HI'|]. destruct (o_val (y_os y id)) as [[f|e]|]; [apply Hp; reflexivity | exact HI' |].
        destruct (o_tx _); exact HI'.
      + apply Hp; reflexivity.
    - destruct (y_fs y id) as [[f b]|] eqn:Ef; [|exact HI']. cbn [fut_drop fst snd rev app].
      assert (D := not_dropped id (bi_f J) Ef). assert (N := called_nodup (bi_q J)).
      assert (HD : handed id log = true -> length (in_flight log) = S (length (in_flight (ODropFut id :: log)))).
      { intros Hh. apply flight_drop_handed; auto. apply (c_handed C), Hh. }
      destruct f as [e| |f].
      + rewrite flight_drop_unhanded by (eapply c_failed; eauto). exact HI.
      + unfold os_drop_rx. destruct (o_val (y_os y id)) as [[f|e]|] eqn:Ev.
        * apply (c_val C) in Ev as [Ev _]. specialize (HD Ev). rewrite HD in HI.
          eapply winv_map with (g := drop_fut svc f); [| | reflexivity | reflexivity | exact HI]; auto.
        * rewrite flight_drop_unhanded; [exact HI|]. destruct (handed id log) eqn:Hh; [|reflexivity]. destruct (c_rx C id Ef Hh) as [g G]. congruence.
        * rewrite flight_drop_unhanded; [exact HI|]. destruct (handed id log) eqn:Hh; [|reflexivity]. destruct (c_rx C id Ef Hh) as [g G]. congruence.
      + specialize (HD (c_poll C id Ef)). rewrite HD in HI.
        eapply winv_map with (g := drop_fut svc f); [| | reflexivity | reflexivity | exact HI]; auto.
    - destruct (y_wk y) as [k|] eqn:Ek; [|exact HI']. apply winv_worker; assumption.
    - destruct (y_wk y) as [k|] eqn:Ek; [|exact HI']. destruct (worker_rests k); [|exact HI'].
      cbn [fst snd]. rewrite flight_inert by reflexivity. apply winv_gone. apply HI.
    - cbn [fst snd rev app]. assert (Hg := Ho g eq_refl). eapply winv_map with (g := g); [| | reflexivity | reflexivity | exact HI]; auto.
  Qed.

  Lemma bound_step o (y : bsys) : y_bound (fst (bstep o y)) = y_bound y.
  Proof.
    pose proof (bstep_move o y) as M. destruct M as [|w|l y1 M|l y1 M|l y1 M]; try reflexivity; destruct M; try reflexivity;
      match goal with H : inner_poll _ _ _ _ _ |- _ => destruct H; reflexivity end.
  Qed.
  Lemma winv_run ops : incl ops all -> forall (y : bsys) log, BufferInv7.binv (y_bound y) y log -> inv_c y log -> winv y (length (in_flight log)) ->
    inv_c (fst (brun y log ops)) (snd (brun y log ops)) /\ winv (fst (brun y log ops)) (length (in_flight (snd (brun y log ops)))).
  Proof.
    induction ops as [|o ops IH]; intros Hall y log J C HI; [split; [exact C | exact HI]|].
    cbn [brun]. assert (H := @winv_step o y log). assert (M := bstep_move o y). assert (B := bound_step o y).
    destruct (bstep o y) as [y1 l]. cbn [fst snd] in *. apply IH.
    - intros x Hx. apply Hall. right. exact Hx.
    - rewrite B. eapply binv_step; eauto.
    - eapply inv_c_step; eauto.
    - apply H; auto. intros g ->. apply Hall. left. reflexivity.
  Qed.
  Lemma winv_start bound s w ops y l : incl ops all -> P s w 0 -> buffer_run svc bound s w ops = (y, l) -> inv_c y l /\ Q (y_w y) (length (in_flight l)).
  Proof.
    intros Hall H E. assert (X := @winv_run ops Hall (bsys0 svc bound s w) [] (binv_init _ _ _)).
    unfold buffer_run in E. rewrite E in X. cbn [fst snd] in X. destruct X as [X1 [X2 _]]; [| |split; auto].
    - split; cbn; discriminate.
    - split; [eapply P_Q, H|]. right. exact H.
  Qed.
End Keep.
