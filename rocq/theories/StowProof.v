(** Proofs for C85. *)
From Verif Require Import KeepSpec KeepProof KeepTop BehindProof Base Limits Buffer BufferSpec BufferBase BufferMoves BufferInv1 BufferInv2 BufferInv3 BufferInv4 BufferInv5 BufferInv6 BufferInv7 BufferTop FlightSpec HoldSpec HoldProof PermitSpec PermitProof StowSpec.
Set Implicit Arguments.
Local Open Scope Z_scope.

Section Stow.
  Context {W Req Resp Err : Type} {svc : Service W Req Resp Err} {live : W -> Z} {osv : st svc -> Z} {own : fut svc -> Z}.
  Hypothesis HH : KeepSpec.holds live svc osv own none.
  Notation bsys := (bsys svc).
  Notation bobs := (bobs svc).
  Notation wf := (with_future own).
  Notation ww := (with_worker osv own).
  Notation stowed := (stowed osv own).

  (** ** Sums *)
  Lemma sum_ext (g g' : nat -> Z) l : (forall i, In i l -> g' i = g i) -> osum g' l = osum g l.
  Proof. induction l as [|a l IH]; cbn; intros H; [reflexivity|]. rewrite IH, (H a) by auto. reflexivity. Qed.
  Lemma sum_at (g g' : nat -> Z) n : forall k id, (k <= id < k + n)%nat -> (forall i, i <> id -> g' i = g i) ->
    osum g' (seq k n) = osum g (seq k n) - g id + g' id.
  Proof.
    induction n as [|n IH]; intros k id Hi H; [lia|]. cbn [seq osum]. destruct (Nat.eq_dec k id) as [->|N].
    - rewrite (@sum_ext g g'); [lia|]. intros i X. apply in_seq in X. apply H. lia.
    - rewrite (IH (S k) id), (H k) by (auto; lia). lia.
  Qed.
  Lemma sum_ge (g : nat -> Z) n : (forall i, 0 <= g i) -> forall k id, (k <= id < k + n)%nat -> g id <= osum g (seq k n).
  Proof.
    intros H. induction n as [|n IH]; intros k id Hi; [lia|]. cbn [seq osum]. assert (X := osum_nonneg g (seq (S k) n) H).
    destruct (Nat.eq_dec k id) as [->|N]; [lia|]. assert (Y := IH (S k) id ltac:(lia)). assert (Z := H k). lia.
  Qed.
  Lemma wf_nonneg y i : 0 <= wf y i.
  Proof.
    unfold with_future. assert (A := ho_fut0 HH). assert (B : forall x : option (bfut svc * bool), 0 <= match x with Some (BPoll f, _) => own f | _ => 0 end).
    { intros [[[e| |f] d]|]; try lia. apply A. }
    assert (C : forall x : option (result (fut svc) Err), 0 <= match x with Some (Ok f) => own f | _ => 0 end).
    { intros [[f|e]|]; try lia. apply A. }
    assert (X := B (y_fs y i)). assert (Y := C (o_val (y_os y i))). lia.
  Qed.
  Lemma ww_nonneg k : 0 <= ww k /\ osv (w_svc k) <= ww k.
  Proof.
    unfold with_worker. assert (A := ho_svc0 HH (w_svc k)). assert (B := ho_fut0 HH). destruct (w_pc k); try lia. assert (X := B f). lia.
  Qed.
  Lemma stowed_worker y k : y_wk y = Some k -> ww k <= stowed y.
  Proof. intros E. unfold StowSpec.stowed. rewrite E. cbn [oopt]. assert (X := osum_nonneg (wf y) (seq 0 (y_fnext y)) (wf_nonneg y)). lia. Qed.
  Lemma stowed_future y id : (id < y_fnext y)%nat -> wf y id <= stowed y.
  Proof.
    intros L. unfold StowSpec.stowed. assert (X := @sum_ge (wf y) (y_fnext y) (wf_nonneg y) 0%nat id ltac:(lia)).
    destruct (y_wk y) as [k|]; cbn [oopt]; [destruct (ww_nonneg k)|]; lia.
  Qed.

  (** What matters of a state. *)
  Definition alike (y y1 : bsys) : Prop :=
    y_w y1 = y_w y /\ y_wk y1 = y_wk y /\ y_fnext y1 = y_fnext y /\ (forall i, y_fs y1 i = y_fs y i) /\ (forall i, o_val (y_os y1 i) = o_val (y_os y i)).
  Lemma alike_refl y : alike y y. Proof. repeat split. Qed.
  Lemma alike_trans y y1 y2 : alike y y1 -> alike y1 y2 -> alike y y2.
  Proof.
    intros (A1 & A2 & A3 & A4 & A5) (B1 & B2 & B3 & B4 & B5). split; [congruence|]. split; [congruence|]. split; [congruence|].
    split; intros i; [rewrite B4 | rewrite B5]; auto.
  Qed.
  Lemma alike_wf y y1 i : alike y y1 -> wf y1 i = wf y i.
  Proof. intros (_ & _ & _ & A & B). unfold with_future. rewrite A, B. reflexivity. Qed.
  Lemma alike_tx id y : alike y (os_drop_tx id y).
  Proof.
    repeat split. intros i. cbn. unfold upd. destruct (Nat.eqb_spec i id) as [->|]; reflexivity.
  Qed.
  Lemma alike_drain q : forall y, alike y (drain q y).
  Proof.
    induction q as [|m q IH]; intros y; cbn [drain]; [apply alike_refl|]. eapply alike_trans; [|apply IH].
    eapply alike_trans; [|apply alike_tx]. repeat split.
  Qed.
  Lemma alike_rx_drop y : alike y (rx_drop y).
  Proof.
    unfold rx_drop. cbv zeta. set (z := rx_close y). assert (A : alike y z) by (subst z; unfold rx_close; destruct (y_closed y); repeat split). assert (B := alike_drain (y_queue y) z).
    assert (C := alike_trans A B). eapply alike_trans; [exact C|]. repeat split.
  Qed.
  Lemma alike_recv c y : alike y (fst (poll_recv c y)).
  Proof. unfold poll_recv. destruct c; [apply alike_refl|]. destruct (y_queue y); [destruct (_ || _); apply alike_refl|]. repeat split. Qed.
  Lemma alike_reserve c p y : alike y (fst (fst (poll_reserve c p y))).
  Proof.
    unfold poll_reserve. destruct p; try apply alike_refl; (destruct c; [apply alike_refl|]); (destruct (y_closed y); [repeat split|]);
      lazymatch goal with |- context [sem_poll ?a ?b] => destruct (sem_poll a b) as [[? ?] []] end; repeat split.
  Qed.

  Definition ok (c : Z) (y : bsys) : Prop := live (y_w y) = c + stowed y.
  Lemma ok_alike c y y1 : alike y y1 -> ok c y -> ok c y1.
  Proof.
    intros A. unfold ok, StowSpec.stowed. assert (E : osum (wf y1) (seq 0 (y_fnext y1)) = osum (wf y) (seq 0 (y_fnext y))).
    { destruct A as (A1 & A2 & A3 & A4 & A5). rewrite A3. apply sum_ext. intros i _. apply alike_wf. repeat split; auto. }
    rewrite E. destruct A as (-> & -> & _). auto.
  Qed.
  (** The worker moves, the futures do not. *)
  Lemma ok_worker c y y1 : y_fnext y1 = y_fnext y -> (forall i, wf y1 i = wf y i) ->
    live (y_w y1) - live (y_w y) = oopt ww (y_wk y1) - oopt ww (y_wk y) -> ok c y -> ok c y1.
  Proof.
    intros E1 E2 E3. unfold ok, StowSpec.stowed. rewrite E1, (@sum_ext (wf y) (wf y1)) by auto. lia.
  Qed.
  (** A future moves. *)
  Lemma ok_future c y y1 id : (id < y_fnext y)%nat -> y_fnext y1 = y_fnext y -> (forall i, i <> id -> wf y1 i = wf y i) ->
    live (y_w y1) - live (y_w y) = oopt ww (y_wk y1) - oopt ww (y_wk y) + wf y1 id - wf y id -> ok c y -> ok c y1.
  Proof.
    intros L E1 E2 E3. unfold ok, StowSpec.stowed. rewrite E1, (@sum_at (wf y) (wf y1) (y_fnext y) 0%nat id) by (auto; lia). lia.
  Qed.
  (** There is a new one. *)
  Lemma ok_new c y y1 : y_fnext y1 = S (y_fnext y) -> (forall i, i <> y_fnext y -> wf y1 i = wf y i) -> wf y1 (y_fnext y) = 0 ->
    y_w y1 = y_w y -> y_wk y1 = y_wk y -> ok c y -> ok c y1.
  Proof.
    intros E1 E2 E3 E4 E5. unfold ok, StowSpec.stowed. rewrite E1, E4, E5, seq_S, osum_app. cbn [osum Nat.add]. rewrite E3.
    rewrite (@sum_ext (wf y) (wf y1)); [lia|]. intros i X. apply in_seq in X. apply E2. lia.
  Qed.

  Lemma wf_upd y y1 id i : (forall j, j <> id -> y_fs y1 j = y_fs y j /\ y_os y1 j = y_os y j) -> i <> id -> wf y1 i = wf y i.
  Proof. intros H N. destruct (H i N) as [A B]. unfold with_future. rewrite A, B. reflexivity. Qed.

  Ltac upds := intros; cbn; rewrite ?upd_ne by assumption; auto.

  (** Handing an answer over. *)
  Lemma ok_send c y log k m v (y1 := os_send (m_id m) v y) k1 : BufferInv7.binv (y_bound y) y log -> inv_c y log -> y_wk y = Some k -> In m (pcl (w_pc k)) ->
    0 <= c -> ok c y -> ww k1 = ww k - (match v with Ok f => own f | Er _ => 0 end) -> match v with Ok f => w_pc k = WSend m f | Er _ => True end ->
    ok c (set_wk (Some k1) y1).
  Proof.
    intros J C Ek Hm Hc HO Hk Hv. assert (Q := bi_q J). assert (F := bi_f J). assert (T := in_hand m Q Ek Hm).
    assert (N : o_val (y_os y (m_id m)) = None).
    { destruct (o_val (y_os y (m_id m))) as [x|] eqn:E; [|reflexivity]. apply (q_val Q) in E. congruence. }
    subst y1. unfold os_send. destruct (o_rx (y_os y (m_id m))) eqn:R.
    - destruct (c_live C _ R) as [d Ed]. assert (L := f_lt F _ Ed). eapply (@ok_future c y _ (m_id m) L); [reflexivity | | | exact HO].
      + intros i Hi. eapply wf_upd; [|exact Hi]. intros j Hj. cbn. rewrite upd_ne by exact Hj. auto.
      + cbn [y_w set_wk set_os y_wk]. rewrite Ek. cbn [oopt]. unfold with_future. cbn. rewrite upd_eq, Ed, N. cbn. destruct v; lia.
    - eapply (@ok_worker c y); [| | | exact HO].
      + destruct v; reflexivity.
      + intros i. unfold with_future. destruct v; cbn; unfold upd; destruct (Nat.eqb_spec i (m_id m)) as [->|]; cbn; rewrite ?N; reflexivity.
      + destruct v as [f|e]; cbn [y_w set_wk set_w set_os y_wk]; rewrite Ek; cbn [oopt]; [|lia].
        assert (X := stowed_worker _ Ek). unfold ok in HO. unfold with_worker in X at 1. rewrite Hv in X. assert (S0 := ho_svc0 HH (w_svc k)).
        rewrite (ho_drop_fut HH f (y_w y)) by lia. lia.
  Qed.

  Lemma ok_gone c k y : y_wk y = Some k -> w_pc k = WRest -> 0 <= c -> ok c y -> ok c (drop_worker k y).
  Proof.
    intros Ek Ep Hc HO. unfold drop_worker. cbv zeta. set (y1 := match w_cur k with Some m => os_drop_tx (m_id m) y | None => y end).
    assert (A : alike y (rx_drop y1)).
    { eapply alike_trans; [|apply alike_rx_drop]. subst y1. destruct (w_cur k); [apply alike_tx | apply alike_refl]. }
    assert (HO1 := ok_alike A HO). set (y2 := rx_drop y1) in *. clearbody y2. destruct A as (A1 & A2 & A3 & A4 & A5).
    eapply (@ok_worker c y2); [reflexivity | reflexivity | | exact HO1]. cbn [y_w set_wk set_w y_wk oopt]. rewrite A2, Ek. cbn [oopt].
    assert (X := @stowed_worker y2 k ltac:(congruence)). destruct (ww_nonneg k) as [Y1 Y2]. unfold ok in HO1.
    rewrite (ho_drop_svc HH (w_svc k) (y_w y2)) by lia. unfold with_worker. rewrite Ep. lia.
  Qed.

  Lemma ok_work c b k (y : bsys) log : BufferInv7.binv (y_bound y) y log -> inv_c y log -> y_wk y = Some k -> 0 <= c ->
    smooth (snd (worker_step b k y)) -> ok c y -> ok c (fst (worker_step b k y)).
  Proof.
    intros J C Ek Hc HS HO. assert (SW := stowed_worker _ Ek). assert (HO' := HO). unfold ok in HO'. destruct (ww_nonneg k) as [W1 W2].
    assert (Hm : forall m, match w_pc k with WGot m' | WSend m' _ | WTell m' => m' = m | _ => False end -> In m (pcl (w_pc k))).
    { intros m. destruct (w_pc k); cbn; tauto. }
    (* the worker goes on, nothing else *)
    assert (G : forall (y1 : bsys) k1, alike y y1 -> osv (w_svc k1) = osv (w_svc k) -> match w_pc k1 with WSend _ _ => False | _ => True end ->
      match w_pc k with WSend _ _ => False | _ => True end -> ok c (set_wk (Some k1) y1)).
    { intros y1 k1 A E1 E2 E3. eapply (@ok_worker c y); [apply A | intros i; apply (@alike_wf y y1 i A) | | exact HO].
      cbn [y_w set_wk y_wk]. destruct A as (-> & _). rewrite Ek. cbn [oopt]. unfold with_worker. rewrite E1. destruct (w_pc k1), (w_pc k); tauto || lia. }
    unfold worker_step in *. destruct (w_pc k) eqn:Epc.
    - destruct (w_finish k); cbn [fst snd] in *; [exact HO | apply G; try exact I; try reflexivity; apply alike_refl].
    - destruct (w_cur k) as [m|]; [destruct (os_is_closed (m_id m) y)|]; cbn [fst snd] in *; apply G; try exact I; try reflexivity; try apply alike_refl; apply alike_tx.
    - assert (A := alike_recv b y). destruct (poll_recv b y) as [y1 [|[m|]]]; cbn [fst snd] in *; apply G; try exact I; try reflexivity; exact A.
    - destruct (os_is_closed (m_id m) y); cbn [fst snd] in *; apply G; try exact I; try reflexivity; try apply alike_refl; apply alike_tx.
    - destruct (w_failed k) as [e|] eqn:Ef.
      { cbn [fst snd] in *. eapply (@ok_send c y log k m (Er e)); try eassumption; [rewrite Epc; apply Hm; reflexivity | | exact I].
        unfold with_worker. cbn. rewrite Epc. lia. }
      destruct (poll_ready svc (w_svc k) (y_w y)) as [w1 [[s1 a]| |]] eqn:Ew.
      + assert (B := ho_ready HH (w_svc k) (y_w y) ltac:(lia) Ew). cbn [fst] in B.
        assert (Z : forall k1 : worker svc, w_svc k1 = s1 -> match w_pc k1 with WSend _ _ => False | _ => True end -> ok c (set_wk (Some k1) (set_w w1 y))).
        { intros k1 E1 E2. eapply (@ok_worker c y); [reflexivity | reflexivity | | exact HO]. cbn [y_w set_wk set_w y_wk oopt]. rewrite Ek. cbn [oopt].
          unfold with_worker. rewrite E1, Epc. destruct (w_pc k1); tauto || lia. }
        destruct a as [|[u|e]]; cbn [fst snd] in *; apply Z; exact I || reflexivity.
      + cbn [snd] in HS. destruct (HS WPanic). left. reflexivity.
      + cbn [snd] in HS. destruct (HS WHang). left. reflexivity.
    - destruct (call svc (w_svc k) (m_req m) (y_w y)) as [w1 [[s1 f]| |]] eqn:Ew.
      + assert (B := ho_call HH (w_svc k) (m_req m) (y_w y) ltac:(lia) Ew). cbn [fst snd] in *.
        eapply (@ok_worker c y); [reflexivity | reflexivity | | exact HO]. cbn [y_w set_wk set_w y_wk oopt go at_pc with_svc]. rewrite Ek. cbn [oopt].
        unfold with_worker. cbn. rewrite Epc. lia.
      + cbn [snd] in HS. destruct (HS WPanic). left. reflexivity.
      + cbn [snd] in HS. destruct (HS WHang). left. reflexivity.
    - cbn [fst snd] in *. eapply (@ok_send c y log k m (Ok f)); try eassumption; [rewrite Epc; apply Hm; reflexivity |].
      unfold with_worker. cbn. rewrite Epc. lia.
    - destruct (y_cell y); cbn [fst snd] in *; apply G; try exact I; try reflexivity; try apply alike_refl; repeat split.
    - cbn [fst snd] in *. apply G; try exact I; try reflexivity. repeat split.
    - destruct (w_failed k) as [e|] eqn:Ef.
      + cbn [fst snd] in *. eapply (@ok_send c y log k m (Er e)); try eassumption; [rewrite Epc; apply Hm; reflexivity | | exact I].
        unfold with_worker. cbn. rewrite Epc. lia.
      + cbn [snd] in HS. destruct (HS WPanic). left. reflexivity.
    - exact HO.
  Qed.

  Lemma ok_step c o (y : bsys) log : BufferInv7.binv (y_bound y) y log -> inv_c y log -> 0 <= c ->
    smooth (snd (bstep o y)) -> (forall g, o = BEnv g -> forall w, live (g w) = live w) -> ok c y -> ok c (fst (bstep o y)).
  Proof.
    intros J C Hc HS He HO. assert (F := bi_f J). assert (HO' := HO). unfold ok in HO'.
    assert (FN : wf y (y_fnext y) = 0).
    { unfold with_future. destruct (y_fs y (y_fnext y)) as [x|] eqn:E; [apply (f_lt F) in E; lia|].
      destruct (o_val (y_os y (y_fnext y))) as [[f|e]|] eqn:E1; try reflexivity. apply (c_val C) in E1 as [_ E1]. apply (c_live C) in E1 as [d E1]. congruence. }
    assert (NF : forall id e d, y_fs y id = Some (BFailed e, d) -> forall f, o_val (y_os y id) <> Some (Ok f)).
    { intros id e d E f E1. apply (c_val C) in E1 as [_ E1]. apply (c_live C) in E1 as [d1 E1]. congruence. }
    assert (NP : forall id f d, y_fs y id = Some (BPoll f, d) -> forall g, o_val (y_os y id) <> Some (Ok g)).
    { intros id f d E g E1. apply (c_val C) in E1 as [_ E1]. apply (c_live C) in E1 as [d1 E1]. congruence. }
    destruct o as [h|h r|h b|h|h|id b|id|b| |g]; cbn [bstep] in *.
    - destruct (y_hs y h) as [d|]; [destruct (at_rest d)|]; exact HO.
    - destruct (y_hs y h) as [d|]; [destruct (at_rest d)|]; try exact HO. unfold handle_call, send_item in *. destruct (h_ps d); cbn [fst snd] in *; try exact HO.
      eapply (@ok_new c y); [reflexivity | | | reflexivity | reflexivity | exact HO].
      + intros i Hi. eapply wf_upd; [|exact Hi]. intros j Hj. cbn. rewrite !upd_ne by exact Hj. auto.
      + unfold with_future. cbn. rewrite !upd_eq. reflexivity.
    - destruct (y_hs y h) as [d|]; [|exact HO]. unfold handle_step in *. destruct (h_pc d); try exact HO.
      + assert (A := alike_reserve b (h_ps d) y). destruct (poll_reserve b (h_ps d) y) as [[y1 p] [|[u|e]]]; cbn [fst snd] in *; exact (ok_alike A HO).
      + cbn [fst snd]. eapply (@ok_new c y); [reflexivity | | | reflexivity | reflexivity | exact HO].
        * intros i Hi. eapply wf_upd; [|exact Hi]. intros j Hj. cbn. rewrite !upd_ne by exact Hj. auto.
        * unfold with_future. cbn. rewrite !upd_eq. reflexivity.
    - destruct (y_hs y h) as [d|]; [destruct (at_rest d)|]; exact HO.
    - destruct (y_hs y h) as [d|]; [destruct (at_rest d)|]; try exact HO. unfold handle_drop in *. cbv zeta in *. cbn [fst snd] in *.
      set (y1 := drop_sender (h_ps d) y). assert (A1 : alike y y1) by (subst y1; destruct (h_ps d); repeat split).
      set (y2 := set_hs (upd (y_hs y1) h None) y1). assert (A2 : alike y y2) by (eapply alike_trans; [exact A1 | repeat split]).
      destruct (y_wk y2); [exact (ok_alike A2 HO)|]. destruct (no_senders y2); [|exact (ok_alike A2 HO)].
      assert (A3 := alike_drain (y_queue y2) y2). assert (A4 : alike y2 (set_queue [] (drain (y_queue y2) y2))) by (eapply alike_trans; [exact A3 | repeat split]).
      exact (ok_alike (alike_trans A2 A4) HO).
    - destruct (y_fs y id) as [[f [|]]|] eqn:Ef; try exact HO. assert (L := f_lt F _ Ef).
      assert (SF := stowed_future y L).
      assert (PI : forall f0 z, y_w z = y_w y -> y_wk z = y_wk y -> y_fnext z = y_fnext y -> (forall j, j <> id -> y_fs z j = y_fs y j /\ y_os z j = y_os y j) ->
        (forall g, o_val (y_os z id) <> Some (Ok g)) -> wf y id = own f0 -> smooth (snd (poll_inner id f0 z)) -> ok c (fst (poll_inner id f0 z))).
      { intros f0 z Z1 Z2 Z3 Z4 Z5 Z6 Z7. unfold poll_inner in *. destruct (poll_fut svc f0 (y_w z)) as [w1 [[f1 a]| |]] eqn:Ew.
        - cbn [fst snd]. rewrite Z1 in Ew. assert (B := ho_poll HH f0 (y_w y) ltac:(lia) Ew). cbn [fst snd] in B.
          eapply (@ok_future c y _ id L); [exact Z3 | | | exact HO].
          + intros i Hi. eapply wf_upd; [|exact Hi]. intros j Hj. cbn. rewrite upd_ne by exact Hj. apply Z4, Hj.
          + cbn [y_w y_wk put_fut set_fs set_w]. rewrite Z2, Z6. unfold with_future. cbn. rewrite upd_eq.
            assert (Z8 : in_resp none a = 0) by (destruct a as [|[v|e]]; reflexivity). rewrite Z8 in B.
            destruct (o_val (y_os z id)) as [[g|e]|] eqn:Eo; [destruct (Z5 g eq_refl) | |]; lia.
        - cbn [snd] in Z7. destruct (Z7 (OPollPanic id)). left. reflexivity.
        - cbn [snd] in Z7. destruct (Z7 (OPollHang id)). left. reflexivity. }
      destruct f as [[e|]| |f]; cbn [fut_poll] in *.
      + cbn [fst snd]. eapply (@ok_future c y _ id L); [reflexivity | | | exact HO].
        * intros i Hi. eapply wf_upd; [|exact Hi]. intros j Hj. cbn. rewrite upd_ne by exact Hj. auto.
        * cbn [y_w y_wk put_fut set_fs]. unfold with_future. cbn. rewrite upd_eq, Ef. lia.
      + cbn [snd] in HS. destruct (HS (OPollPanic id)). left. reflexivity.
      + destruct b; [exact HO|]. destruct (o_val (y_os y id)) as [[f|e]|] eqn:Eo.
        * apply PI; try reflexivity; [ | | | exact HS].
          -- intros j Hj. cbn. rewrite upd_ne by exact Hj. auto.
          -- intros g. cbn. rewrite upd_eq. discriminate.
          -- unfold with_future. rewrite Ef, Eo. lia.
        * cbn [fst snd]. eapply (@ok_future c y _ id L); [reflexivity | | | exact HO].
          -- intros i Hi. eapply wf_upd; [|exact Hi]. intros j Hj. cbn. rewrite !upd_ne by exact Hj. auto.
          -- cbn [y_w y_wk put_fut set_fs set_os]. unfold with_future. cbn. rewrite !upd_eq, Ef, Eo. cbn. lia.
        * destruct (o_tx (y_os y id)); [exact HO|]. cbn [fst snd]. eapply (@ok_future c y _ id L); [reflexivity | | | exact HO].
          -- intros i Hi. eapply wf_upd; [|exact Hi]. intros j Hj. cbn. rewrite !upd_ne by exact Hj. auto.
          -- cbn [y_w y_wk put_fut set_fs]. unfold with_future. cbn. rewrite !upd_eq, Ef, Eo. lia.
      + apply PI; auto; [exact (NP _ _ _ Ef)|]. unfold with_future. rewrite Ef. assert (N := NP _ _ _ Ef).
        destruct (o_val (y_os y id)) as [[g|e]|]; [destruct (N g eq_refl) | |]; lia.
    - destruct (y_fs y id) as [[f b]|] eqn:Ef; [|exact HO]. assert (L := f_lt F _ Ef). assert (SF := stowed_future y L).
      cbn [fut_drop fst snd]. destruct f as [e| |f].
      + eapply (@ok_future c y _ id L); [reflexivity | | | exact HO].
        * intros i Hi. eapply wf_upd; [|exact Hi]. intros j Hj. cbn. rewrite upd_ne by exact Hj. auto.
        * cbn [y_w y_wk set_fs]. unfold with_future. cbn. rewrite upd_eq, Ef. lia.
      + unfold os_drop_rx. cbv zeta. eapply (@ok_future c y _ id L); [| | | exact HO].
        * destruct (o_val (y_os y id)) as [[f|e]|]; reflexivity.
        * intros i Hi. eapply wf_upd; [|exact Hi]. intros j Hj. destruct (o_val (y_os y id)) as [[f|e]|]; cbn; rewrite !upd_ne by exact Hj; auto.
        * destruct (o_val (y_os y id)) as [[f|e]|] eqn:Eo; cbn [y_w y_wk set_fs set_w set_os]; unfold with_future; cbn; rewrite !upd_eq, Ef, Eo; cbn; [|lia|lia].
          unfold with_future in SF. rewrite Ef, Eo in SF. rewrite (ho_drop_fut HH f (y_w y)) by lia. lia.
      + assert (N := NP _ _ _ Ef). unfold with_future in SF. rewrite Ef in SF. assert (X : own f <= live (y_w y)).
        { destruct (o_val (y_os y id)) as [[g|e]|]; [destruct (N g eq_refl) | |]; lia. }
        eapply (@ok_future c y _ id L); [reflexivity | | | exact HO].
        * intros i Hi. eapply wf_upd; [|exact Hi]. intros j Hj. cbn. rewrite upd_ne by exact Hj. auto.
        * cbn [y_w y_wk set_fs set_w]. unfold with_future. cbn. rewrite upd_eq, Ef. rewrite (ho_drop_fut HH f (y_w y) X). lia.
    - destruct (y_wk y) as [k|] eqn:Ek; [|exact HO]. eapply ok_work; eassumption.
    - destruct (y_wk y) as [k|] eqn:Ek; [|exact HO]. destruct (worker_rests k) eqn:Er; [|exact HO].
      cbn [fst snd]. apply ok_gone; auto. unfold worker_rests in Er. destruct (w_pc k); congruence.
    - cbn [fst snd]. unfold ok. cbn [y_w set_w]. rewrite (He g eq_refl). exact HO.
  Qed.

  Lemma run_incl (e : bobs) ops : forall (y : bsys) log, In e log -> In e (snd (brun y log ops)).
  Proof.
    induction ops as [|o ops IH]; intros y log H; cbn [brun]; [exact H|]. destruct (bstep o y) as [y1 l]. apply IH. apply in_app_iff. right. exact H.
  Qed.

  Lemma ok_run c ops : 0 <= c -> env_leaves live ops -> forall (y : bsys) log, BufferInv7.binv (y_bound y) y log -> inv_c y log -> ok c y ->
    smooth (snd (brun y log ops)) -> ok c (fst (brun y log ops)) /\ inv_c (fst (brun y log ops)) (snd (brun y log ops)) .
  Proof.
    intros Hc. induction ops as [|o ops IH]; intros He y log J C HO HS; [auto|].
    cbn [brun] in *. assert (H := @ok_step c o y log J C Hc). assert (M := bstep_move o y). assert (B := bound_step o y).
    destruct (bstep o y) as [y1 l]. cbn [fst snd] in *. apply IH.
    - intros g Hg. apply He. right. exact Hg.
    - rewrite B. eapply binv_step; eauto.
    - eapply inv_c_step; eauto.
    - apply H; [| |exact HO].
      + intros e X. apply HS. apply run_incl. apply in_app_iff. left. apply in_rev in X. exact X.
      + intros g ->. apply He. left. reflexivity.
    - exact HS.
  Qed.

  Lemma stow_run bound s w ops y l : osv s <= live w -> env_leaves live ops -> buffer_run svc bound s w ops = (y, l) -> smooth l ->
    live (y_w y) = live w - osv s + stowed y /\ inv_c y l /\ (0 <= stowed y).
  Proof.
    intros L He E HS. unfold buffer_run in E. assert (P := f_equal fst E). assert (Q := f_equal snd E). cbn [fst snd] in P, Q. subst y l.
    assert (X := @ok_run (live w - osv s) ops ltac:(lia) He (bsys0 svc bound s w) [] (binv_init bound s w)).
    destruct X as [X Y]; [split; cbn; discriminate | unfold ok, StowSpec.stowed, with_worker; cbn; lia | exact HS |].
    split; [exact X|]. split; [exact Y|]. unfold StowSpec.stowed.
    set (y := fst (brun (bsys0 svc bound s w) [] ops)). assert (Z := osum_nonneg (wf y) (seq 0 (y_fnext y)) (wf_nonneg y)).
    destruct (y_wk y) as [k|]; cbn [oopt]; [destruct (ww_nonneg k)|]; lia.
  Qed.
End Stow.

Section Top.
  Context {W Req Resp Err : Type} {svc : Service W Req Resp Err} {live : W -> Z} {osv : st svc -> Z} {own : fut svc -> Z}.

  Theorem stow_accounted : kept live svc osv own none ->
    forall bound s w ops y l, osv s <= live w -> env_leaves live ops -> buffer_run svc bound s w ops = (y, l) -> smooth l ->
    live (y_w y) = live w - osv s + stowed osv own y.
  Proof. intros K bound s w ops y l L He E HS. exact (proj1 (stow_run (kept_holds K) _ _ _ L He E HS)). Qed.

  Theorem stow_nothing_left : kept live svc osv own none ->
    forall bound s w ops y l, osv s <= live w -> env_leaves live ops -> buffer_run svc bound s w ops = (y, l) -> smooth l ->
    y_wk y = None -> (forall id, y_fs y id = None) -> live (y_w y) = live w - osv s.
  Proof.
    intros K bound s w ops y l L He E HS Hk Hf. destruct (stow_run (kept_holds K) _ _ _ L He E HS) as (X & C & _). rewrite X.
    unfold stowed. rewrite Hk. cbn [oopt]. rewrite (@sum_ext (fun _ => 0) (with_future own y)).
    - assert (Z0 : forall n k, osum (fun _ : nat => 0) (seq k n) = 0) by (induction n as [|n IH]; intros k; cbn [seq osum]; rewrite ?IH; reflexivity).
      rewrite Z0. lia.
    - intros i _. unfold with_future. rewrite Hf. destruct (o_val (y_os y i)) as [[f|e]|] eqn:Eo; try reflexivity.
      apply (c_val C) in Eo as [_ Eo]. apply (c_live C) in Eo as [d Eo]. rewrite Hf in Eo. discriminate.
  Qed.
End Top.

(** Over a limit. *)
Section Limit.
  Context {W Req Resp Err : Type} {svc : Service (sem * W) Req Resp Err}.
  Theorem stow_permits max osv own osvt ownt : kept (in_use max) svc osv own none -> (forall t, kept (enrolled t) svc (osvt t) (ownt t) none) ->
    forall bound s w ops y l, osv s = 0 -> (forall t, osvt t s = 0) -> (forall g, In (BEnv g) ops -> forall x, fst (g x) = fst x) ->
    buffer_run svc bound s (sem_new max, w) ops = (y, l) -> smooth l ->
    (in_use max (y_w y) = stowed osv own y /\ 0 <= in_use max (y_w y) <= Z.of_nat max) /\
    (y_wk y = None -> (forall id, y_fs y id = None) ->
     sem_avail (fst (y_w y)) = max /\ sem_queue (fst (y_w y)) = [] /\ sem_granted (fst (y_w y)) = []).
  Proof.
    intros K1 K2 bound s w ops y l Z1 Z2 He E HS.
    assert (U0 : in_use max (sem_new max, w) = 0) by (unfold in_use; cbn; lia). assert (T0 : forall t, enrolled t (sem_new max, w) = 0) by reflexivity.
    assert (E1 : env_leaves (in_use max) ops) by (intros g Hg x; unfold in_use; rewrite (He g Hg); reflexivity).
    assert (E2 : forall t, env_leaves (enrolled t) ops) by (intros t g Hg x; unfold enrolled; rewrite (He g Hg); reflexivity).
    split.
    - destruct (stow_run (kept_holds K1) bound s (sem_new max, w) ltac:(lia) E1 E HS) as (X & _ & N). rewrite U0, Z1 in X. split; [lia|]. split; [lia|]. unfold in_use. lia.
    - intros Hk Hf. assert (X := stow_nothing_left K1 bound s (sem_new max, w) ltac:(lia) E1 E HS Hk Hf). rewrite U0, Z1 in X.
      assert (Y : forall t, enrolled t (y_w y) = 0).
      { intros t. rewrite (stow_nothing_left (K2 t) bound s (sem_new max, w) ltac:(rewrite (Z2 t), (T0 t); lia) (E2 t) E HS Hk Hf), (T0 t), (Z2 t). reflexivity. }
      assert (Q : sem_queue (fst (y_w y)) ++ sem_granted (fst (y_w y)) = []).
      { destruct (sem_queue (fst (y_w y)) ++ sem_granted (fst (y_w y))) as [|t q] eqn:Eq; [reflexivity|]. assert (V := Y t). unfold enrolled in V. rewrite Eq in V.
        cbn in V. destruct (Nat.eq_dec t t); [lia|congruence]. }
      apply app_eq_nil in Q as [Q1 Q2]. unfold in_use in X. rewrite Q2 in X. cbn [length] in X. split; [lia|auto].
  Qed.
End Limit.
