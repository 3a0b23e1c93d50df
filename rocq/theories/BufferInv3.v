(** Buffer: the places a request goes through. *)
From Verif Require Import Base Limits Buffer BufferSpec BufferBase BufferMoves BufferInv1.
Set Implicit Arguments.

Section Sub.
  Context {A : Type}.
  Lemma sub_refl (l : list A) : sublist l l.
  Proof. induction l; [apply sub_nil|apply sub_keep; auto]. Qed.
  Lemma sub_app (l m x y : list A) : sublist l m -> sublist x y -> sublist (l ++ x) (m ++ y).
  Proof. induction 1; cbn; intros; [assumption|apply sub_skip; auto|apply sub_keep; auto]. Qed.
  Lemma sub_nil_l (l : list A) : sublist [] l.
  Proof. induction l; constructor; auto. Qed.
  Lemma sub_more (l m x : list A) : sublist l m -> sublist l (m ++ x).
  Proof. intros H. rewrite <- (app_nil_r l). apply sub_app; [exact H|apply sub_nil_l]. Qed.
  Lemma sub_in (l m : list A) x : sublist l m -> In x l -> In x m.
  Proof. induction 1; cbn; intuition. Qed.
  Lemma sub_map B (f : A -> B) (l m : list A) : sublist l m -> sublist (map f l) (map f m).
  Proof. induction 1; cbn; [apply sub_nil|apply sub_skip; auto|apply sub_keep; auto]. Qed.
  Lemma sub_nodup (l m : list A) : sublist l m -> NoDup m -> NoDup l.
  Proof.
    induction 1; intros N; [constructor|inversion N; auto|]. inversion N; subst. constructor; [|auto].
    intros Hx. eauto using sub_in.
  Qed.
End Sub.

Section Inv.
  Context {W Req Resp Err : Type} {svc : Service W Req Resp Err}.
  Notation bsys := (bsys svc).
  Notation bobs := (bobs svc).
  Notation msg := (msg (Req := Req)).

  Definition curl (c : option msg) : list msg := match c with Some m => [m] | None => [] end.
  Definition pcl (p : wpc svc) : list msg :=
    match p with
    | WRest | WNext | WRecv => []
    | WCheck m | WGot m | WReady m | WSend m _ | WStore m _ | WClose m _ | WTell m | WHung m => [m]
    end.
  Definition hand (k : worker svc) : list msg := curl (w_cur k) ++ pcl (w_pc k).
  Definition holds (o : option (worker svc)) : list msg := match o with Some k => hand k | None => [] end.
  Definition sendl (p : wpc svc) : list msg := match p with WSend m _ => [m] | _ => [] end.
  Definition sends (o : option (worker svc)) : list msg := match o with Some k => sendl (w_pc k) | None => [] end.
  Definition pairs (q : list msg) : list (nat * Req) := map (fun m => (m_id m, m_req m)) q.
  Lemma pairs_fst q : map fst (pairs q) = ids q.
  Proof. unfold pairs, ids. rewrite map_map. reflexivity. Qed.
  Lemma pairs_app a b : pairs (a ++ b) = pairs a ++ pairs b. Proof. apply map_app. Qed.
  Lemma ids_app (a b : list msg) : ids (a ++ b) = ids a ++ ids b. Proof. apply map_app. Qed.

  Definition curp (k : worker svc) : Prop := w_cur k <> None -> w_pc k = WRest \/ w_pc k = WNext.

  Definition places (y : bsys) (log : list bobs) : Prop := exists G,
    rev (sent log) = G ++ pairs (holds (y_wk y)) ++ pairs (y_queue y) /\
    sublist (rev (called log)) (G ++ pairs (sends (y_wk y))).

  Record inv_q (y : bsys) (log : list bobs) : Prop := {
    q_cur : forall k, y_wk y = Some k -> curp k;
    q_places : places y log;
    q_lt : forall id, In id (map fst (sent log)) -> id < y_fnext y;
    q_nodup : NoDup (map fst (sent log));
    q_tx : forall id, o_tx (y_os y id) = true <-> In id (ids (holds (y_wk y) ++ y_queue y));
    q_val : forall id v, o_val (y_os y id) = Some v -> o_tx (y_os y id) = false;
    q_taken : forall k, y_wk y = Some k -> map fst (rev (sent log)) = rev (taken log) ++ ids (y_queue y) }.

  Lemma inner_logs id f (y : bsys) l y1 : inner_poll id f y l y1 -> forall log,
    sent (rev l ++ log) = sent log /\ called (rev l ++ log) = called log /\ taken (rev l ++ log) = taken log.
  Proof. destruct 1; auto. Qed.
  Lemma fmove_logs (y : bsys) l y1 : fmove y l y1 -> forall log,
    sent (rev l ++ log) = sent log /\ called (rev l ++ log) = called log /\ taken (rev l ++ log) = taken log.
  Proof. destruct 1; auto; eauto using inner_logs. Qed.
  Lemma fmove_tx (y : bsys) l y1 : (forall id v, o_val (y_os y id) = Some v -> o_tx (y_os y id) = false) ->
    fmove y l y1 -> forall id, o_tx (y_os y1 id) = o_tx (y_os y id).
  Proof.
    intros V H id0. destruct H; ysimp; auto.
    - apply inner_quiet in H1 as (_ & _ & _ & _ & _ & _ & _ & _ & E & _). rewrite E. ysimp. unfold upd.
      destruct (Nat.eqb_spec id0 id) as [->|]; [|reflexivity]. symmetry. cbn. eauto.
    - unfold upd. destruct (Nat.eqb_spec id0 id) as [->|]; [|reflexivity]. symmetry. cbn. eauto.
    - apply inner_quiet in H0 as (_ & _ & _ & _ & _ & _ & _ & _ & E & _). rewrite E. reflexivity.
    - unfold upd. destruct (Nat.eqb_spec id0 id) as [->|]; reflexivity.
  Qed.

  Lemma ids_lt (y : bsys) log id : inv_q y log -> In id (ids (holds (y_wk y) ++ y_queue y)) -> In id (map fst (sent log)).
  Proof.
    intros [_ (G & E & _) _ _ _ _ _] H. rewrite <- (rev_involutive (sent log)), E, map_rev. apply -> in_rev.
    rewrite <- pairs_app, map_app, pairs_fst. apply in_or_app. right. exact H.
  Qed.

  Lemma ids_nodup (y : bsys) log : inv_q y log -> NoDup (ids (holds (y_wk y) ++ y_queue y)).
  Proof.
    intros [_ (G & E & _) _ N _ _ _].
    assert (X : NoDup (map fst (rev (sent log)))) by (rewrite map_rev; apply NoDup_rev; exact N).
    rewrite E, map_app, <- pairs_app, pairs_fst in X.
    clear - X. induction (map fst G) as [|a l IH]; [exact X|]. inversion X; auto.
  Qed.

  Ltac kill_cur := repeat match goal with
    | C : curp ?k, P : w_pc ?k = ?p |- _ =>
        lazymatch goal with _ : w_cur k = _ |- _ => fail | _ => idtac end;
        let E := fresh "Ec" in
        assert (E : w_cur k = None) by
          (destruct (w_cur k) eqn:?E0; [exfalso; destruct C as [?E1|?E1]; congruence|reflexivity])
    end.

  Lemma places_step (y : bsys) log l y1 : inv_q y log -> wmove y l y1 -> places y1 (rev l ++ log).
  Proof.
    intros I M. assert (C : forall k, y_wk y = Some k -> curp k) by apply (q_cur I).
    destruct (q_places I) as (G & E1 & E2).
    assert (D : forall k m, y_wk y = Some k -> w_pc k = WGot m \/ w_pc k = WReady m \/ w_pc k = WTell m ->
      holds (y_wk y) = [m] /\ sends (y_wk y) = []).
    { intros k m Hk Hp. specialize (C k Hk). assert (Ec : w_cur k = None).
      { destruct (w_cur k) eqn:E; [|reflexivity]. destruct C as [C|C]; [congruence| |];
        rewrite C in Hp; intuition discriminate. }
      rewrite Hk. cbn [holds sends]. unfold hand. rewrite Ec. destruct Hp as [Hp|[Hp|Hp]]; rewrite Hp; auto. }
    destruct M; specialize (C _ H); unfold places; ysimp; cbn [sent called].
    all: try (kill_cur; rewrite H in *; cbn [holds sends] in *; unfold hand in *; ysimp;
      repeat match goal with
        | X : w_pc ?k = _ |- _ => rewrite X in *; clear X
        | X : w_cur ?k = _ |- _ => rewrite X in *; clear X
        | X : y_queue ?k = _ |- _ => rewrite X in *; clear X
        end; cbn [curl pcl sendl pairs map app rev] in *; rewrite ?app_nil_r in *).
    all: try (exists G; rewrite ?app_nil_r; split; [exact E1|exact E2]).
    all: try (exists (G ++ [(m_id m, m_req m)]); rewrite ?app_nil_r, <- ?app_assoc; cbn [app]; split; [exact E1|apply sub_more; exact E2]).
    all: try (exists (G ++ [(m_id m, m_req m)]); rewrite ?app_nil_r, <- ?app_assoc; cbn [app]; split; [exact E1|exact E2]).
    - exists G. split; [exact E1|]. apply sub_app; [exact E2|apply sub_refl].
    - destruct (D k m eq_refl) as [D1 D2]; [tauto|]. rewrite D1, D2 in *. exists (rev (sent log)). rewrite !app_nil_r.
      split; [reflexivity|]. rewrite E1. cbn [pairs map] in E2. rewrite app_nil_r in E2. apply sub_more. exact E2.
    - exists (rev (sent log)). rewrite !app_nil_r. split; [reflexivity|]. rewrite E1. apply sub_more. exact E2.
  Qed.

  Lemma tx_drop (os : nat -> oneshot svc) m q v r :
    (forall id, o_tx (os id) = true <-> In id (m :: q)) -> NoDup (m :: q) ->
    forall id, o_tx (upd os m (Os false v r) id) = true <-> In id q.
  Proof.
    intros H N id. inversion N; subst. unfold upd. destruct (Nat.eqb_spec id m) as [->|Ne]; cbn.
    - split; [discriminate|contradiction].
    - rewrite H. cbn. intuition congruence.
  Qed.

  Lemma tx_step (y : bsys) log l y1 : inv_q y log -> wmove y l y1 ->
    forall id, o_tx (y_os y1 id) = true <-> In id (ids (holds (y_wk y1) ++ y_queue y1)).
  Proof.
    intros I M. assert (C : forall k, y_wk y = Some k -> curp k) by apply (q_cur I).
    assert (T := q_tx I). assert (N := ids_nodup I).
    assert (D : forall k m, y_wk y = Some k -> w_pc k = WGot m \/ w_pc k = WReady m \/ w_pc k = WTell m ->
      holds (y_wk y) = [m] /\ cur_ids (w_cur k) = []).
    { intros k m Hk Hp. specialize (C k Hk). assert (Ec : w_cur k = None).
      { destruct (w_cur k) eqn:E; [|reflexivity]. destruct C as [C|C]; [congruence| |];
        rewrite C in Hp; intuition discriminate. }
      rewrite Hk. cbn [holds sends]. unfold hand. rewrite Ec. destruct Hp as [Hp|[Hp|Hp]]; rewrite Hp; auto. }
    destruct M; specialize (C _ H); ysimp.
    all: try (kill_cur; rewrite H in *; cbn [holds sends] in *; unfold hand in *; ysimp;
      repeat match goal with
        | X : w_pc ?k = _ |- _ => rewrite X in *; clear X
        | X : w_cur ?k = _ |- _ => rewrite X in *; clear X
        | X : y_queue ?k = _ |- _ => rewrite X in *; clear X
        end; cbn [curl pcl app] in *; rewrite ?app_nil_r in *).
    all: try exact T.
    all: try (apply tx_drop; [exact T|exact N]).
    - intros id. rewrite H2. rewrite untx_tx, T. destruct (D _ m eq_refl) as [D1 D2]; [tauto|]. rewrite D1, D2.
      cbn. tauto.
    - intros id. rewrite H2. rewrite untx_tx, T.
      rewrite ids_app. replace (cur_ids (w_cur k)) with (ids (curl (w_cur k))) by (destruct (w_cur k); reflexivity).
      cbn. tauto.
  Qed.

  Lemma inv_q_step (y : bsys) log l y1 : inv_q y log -> move y l y1 -> inv_q y1 (rev l ++ log).
  Proof.
    intros I M. destruct M as [|w|l y1 H|l y1 H|l y1 H].
    - exact I.
    - destruct I; split; ysimp; auto.
    - destruct H; try (destruct I; split; ysimp; auto; fail).
      + (* sent *)
        assert (F : ~ In (y_fnext y) (map fst (sent log))) by (intros X; apply (q_lt I) in X; lia).
        assert (F' : ~ In (y_fnext y) (ids (holds (y_wk y) ++ y_queue y))) by (intros X; apply (ids_lt _ I) in X; auto).
        assert (A := q_places I).
        destruct I as [I1 I2 I3 I4 I5 I6 I7]. split; ysimp; cbn [sent called taken map fst In].
        * exact I1.
        * destruct A as (G & E1 & E2). exists G. ysimp. cbn [sent called]. split; [|exact E2].
          cbn [rev]. rewrite E1, pairs_app, <- !app_assoc. reflexivity.
        * intros id [<-|X]; [lia|]. apply I3 in X. lia.
        * constructor; assumption.
        * intros id. rewrite app_assoc, ids_app, in_app_iff. cbn. unfold upd. destruct (Nat.eqb_spec id (y_fnext y)) as [->|Ne]; cbn.
          -- tauto.
          -- rewrite I5. intuition congruence.
        * intros id v. unfold upd. destruct (Nat.eqb_spec id (y_fnext y)) as [->|Ne]; cbn; [discriminate|apply I6].
        * intros k Hk. specialize (I7 k Hk). cbn [rev]. rewrite map_app, I7, ids_app, <- app_assoc. reflexivity.
      + (* refused *)
        assert (F : ~ In (y_fnext y) (map fst (sent log))) by (intros X; apply (q_lt I) in X; lia).
        assert (F' : ~ In (y_fnext y) (ids (holds (y_wk y) ++ y_queue y))) by (intros X; apply (ids_lt _ I) in X; auto).
        destruct I as [I1 I2 I3 I4 I5 I6 I7]. split; ysimp; cbn [sent called taken]; auto.
        * intros id X. apply I3 in X. lia.
        * intros id. unfold upd. destruct (Nat.eqb_spec id (y_fnext y)) as [->|Ne]; cbn; [|apply I5]. intuition discriminate.
        * intros id v. unfold upd. destruct (Nat.eqb_spec id (y_fnext y)) as [->|Ne]; cbn; [discriminate|apply I6].
      + (* last handle *)
        assert (A := q_places I).
        destruct I as [I1 I2 I3 I4 I5 I6 I7]. split; ysimp; cbn [sent called taken]; auto.
        * destruct A as (G & E1 & E2). rewrite H0 in *. cbn [holds sends pairs map app] in *.
          exists (G ++ pairs (y_queue y)). cbn [sent called y_wk y_queue set_queue set_sem set_os set_hs]. rewrite H0. cbn. rewrite !app_nil_r.
          rewrite app_nil_r in E2. split; [exact E1|apply sub_more; exact E2].
        * intros id. rewrite H3, untx_tx, I5, H0. cbn. tauto.
        * intros id v. rewrite H3, untx_val. intros X. apply I6 in X.
          destruct (o_tx (untx (ids (y_queue y)) (y_os y) id)) eqn:E; [|reflexivity]. apply untx_tx in E. destruct E. congruence.
        * congruence.
    - assert (X := fmove_tx (q_val I) H). assert (V := fmove_logs H log). destruct V as (V1 & V2 & V3).
      assert (Y := fmove_quiet H). destruct Y as (_ & _ & _ & _ & Y5 & _ & _ & _ & Y9 & Y10).
      destruct I as [I1 I2 I3 I4 I5 I6 I7]. split; rewrite ?V1, ?V2, ?V3, ?Y5, ?Y9, ?Y10; auto.
      + destruct I2 as (G & E1 & E2). exists G. rewrite V1, V2, Y5, Y9. auto.
      + intros id. rewrite X. apply I5.
      + intros id v. rewrite X. intros E. clear - H E I6. destruct H; ysimp; eauto.
        * apply inner_quiet in H1 as (_ & _ & _ & _ & _ & _ & _ & _ & Z & _). rewrite Z in E. ysimp.
          unfold upd in E. destruct (Nat.eqb_spec id id0) as [->|Ne]; eauto.
        * unfold upd in E. destruct (Nat.eqb_spec id id0) as [->|Ne]; eauto.
        * apply inner_quiet in H0 as (_ & _ & _ & _ & _ & _ & _ & _ & Z & _). rewrite Z in E. eauto.
        * unfold upd in E. destruct (Nat.eqb_spec id id0) as [->|Ne]; [discriminate E|eauto].
    - assert (A := places_step I H). assert (T := tx_step I H).
      assert (S' : sent (rev l ++ log) = sent log) by (destruct H; reflexivity).
      destruct I as [I1 I2 I3 I4 I5 I6 I7].
      assert (Fn : y_fnext y1 = y_fnext y) by (apply wmove_quiet in H; tauto).
      split; auto; rewrite ?S', ?Fn; auto.
      + intros k Hk. clear A T. destruct H; ysimp; try (injection Hk as <-); try discriminate; unfold curp; ysimp; eauto.
        all: try (specialize (I1 _ H); unfold curp in I1; rewrite ?H0 in I1; intros X; apply I1 in X; destruct X as [X|X]; discriminate X).
        all: try congruence; try exact (I1 _ Hk).
      + intros id v E. destruct (o_tx (y_os y1 id)) eqn:Et; [|reflexivity]. exfalso.
        clear A T. destruct H; ysimp; try (specialize (I6 _ _ E); congruence).
        all: try (unfold ans_os, upd in *; destruct (Nat.eqb_spec id (m_id m)) as [->|Ne]; [discriminate Et|specialize (I6 _ _ E); congruence]).
        all: rewrite H2 in *; rewrite untx_val in E; apply untx_tx in Et; specialize (I6 _ _ E); destruct Et; congruence.
      + intros k Hk. clear A T. destruct H; ysimp; cbn [taken]; try discriminate Hk; try (exact (I7 _ H)).
        specialize (I7 _ H). rewrite H1 in I7. cbn [rev ids map] in *. rewrite <- app_assoc. exact I7.
  Qed.
End Inv.
