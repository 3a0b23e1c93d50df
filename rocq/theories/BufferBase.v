(** Buffer: the primitives, and a flat list of the possible moves. *)
From Verif Require Import Base Limits Buffer BufferSpec.
Set Implicit Arguments.

Lemma upd_eq A (f : nat -> A) i x : upd f i x i = x.
Proof. unfold upd. rewrite Nat.eqb_refl. reflexivity. Qed.
Lemma upd_ne A (f : nat -> A) i x j : j <> i -> upd f i x j = f j.
Proof. intros H. unfold upd. apply Nat.eqb_neq in H. rewrite H. reflexivity. Qed.

Definition permits (m : sem) : nat := sem_avail m + length (sem_granted m).
Lemma release_permits m : permits (sem_release m) = S (permits m).
Proof. unfold permits, sem_release. destruct (sem_queue m); cbn; lia. Qed.
Lemma remove_le i l : length (remove_nat i l) <= length l.
Proof. induction l as [|j l IH]; cbn; [lia|]. destruct (i =? j); cbn; lia. Qed.
Lemma remove_lt i l : mem_nat i l = true -> S (length (remove_nat i l)) <= length l.
Proof.
  induction l as [|j l IH]; cbn; [discriminate|]. destruct (i =? j) eqn:E; cbn; intros H.
  - assert (X := remove_le i l). lia.
  - specialize (IH H). lia.
Qed.
Lemma forget_permits t m : permits (sem_forget t m) <= permits m.
Proof.
  destruct t as [i|]; cbn; [|lia]. destruct (mem_nat i (sem_granted m)) eqn:E.
  - rewrite release_permits. unfold permits. cbn. assert (X := remove_lt _ _ E). lia.
  - unfold permits. cbn. lia.
Qed.
Lemma poll_permits t m m1 t1 got : sem_poll t m = (m1, t1, got) ->
  permits m1 + (if got then 1 else 0) <= permits m.
Proof.
  unfold sem_poll, permits. destruct t as [i|].
  - destruct (mem_nat i (sem_granted m)) eqn:E; intros H; injection H as <- <- <-; cbn; [|lia].
    assert (X := remove_lt _ _ E). lia.
  - destruct (sem_avail m) eqn:E; intros H; injection H as <- <- <-; cbn; lia.
Qed.

Section Moves.
  Context {W Req Resp Err : Type} {svc : Service W Req Resp Err}.
  Notation bsys := (bsys svc).
  Notation bobs := (bobs svc).

  Definition ids (q : list (msg (Req := Req))) : list nat := map (@m_id Req) q.

  (** The oneshots [l] lose their sender. *)
  Definition untx (l : list nat) (os : nat -> oneshot svc) : nat -> oneshot svc :=
    fun i => if existsb (Nat.eqb i) l then Os false (o_val (os i)) (o_rx (os i)) else os i.
  Lemma untx_val l os i : o_val (untx l os i) = o_val (os i).
  Proof. unfold untx. destruct existsb; reflexivity. Qed.
  Lemma untx_rx l os i : o_rx (untx l os i) = o_rx (os i).
  Proof. unfold untx. destruct existsb; reflexivity. Qed.
  Lemma untx_tx l os i : o_tx (untx l os i) = true <-> o_tx (os i) = true /\ ~ In i l.
  Proof.
    unfold untx. destruct (existsb (Nat.eqb i) l) eqn:E; cbn.
    - split; [discriminate|]. intros [_ H]. exfalso. apply H. apply existsb_exists in E as (j & Hj & E).
      apply Nat.eqb_eq in E. subst. exact Hj.
    - split; [|tauto]. intros H. split; [exact H|]. intros Hi.
      assert (X : existsb (Nat.eqb i) l = true); [|congruence]. apply existsb_exists. exists i. split; [exact Hi|apply Nat.eqb_refl].
  Qed.

  Lemma drain_eq q : forall y : bsys, exists m os,
    drain q y = set_sem m (set_os os y) /\ permits m = length q + permits (y_sem y) /\
    forall i, os i = untx (ids q) (y_os y) i.
  Proof.
    induction q as [|a q IH]; intros y.
    - exists (y_sem y), (y_os y). split; [destruct y; reflexivity|]. split; [reflexivity|]. intros i. reflexivity.
    - cbn [drain]. destruct (IH (os_drop_tx (m_id a) (add_permit y))) as (m & os & E & P & O).
      exists m, os. rewrite E. split; [reflexivity|]. cbn [y_sem os_drop_tx set_os add_permit set_sem] in P.
      rewrite release_permits in P. split; [cbn; lia|]. intros i. rewrite O. cbn [y_os os_drop_tx set_os add_permit set_sem].
      unfold untx. cbn [ids map existsb]. unfold upd.
      destruct (i =? m_id a) eqn:E1; cbn; [|reflexivity]. apply Nat.eqb_eq in E1. subst i.
      lazymatch goal with |- context [existsb ?f ?l] => destruct (existsb f l) end; reflexivity.
  Qed.

  (** The worker is destroyed while the messages [lost] are in its hands. *)
  Definition cur_ids (c : option (msg (Req := Req))) : list nat := match c with Some m => [m_id m] | None => [] end.
  Lemma drop_worker_eq k (y : bsys) : exists m os w,
    drop_worker k y =
      BSys m (y_bound y) true [] (y_cell y) os (y_hs y) (y_hnext y) (y_fs y) (y_fnext y) None w /\
    permits m = length (y_queue y) + permits (y_sem y) /\
    forall i, os i = untx (cur_ids (w_cur k) ++ ids (y_queue y)) (y_os y) i.
  Proof.
    unfold drop_worker, rx_drop.
    set (y1 := match w_cur k with Some m => os_drop_tx (m_id m) y | None => y end).
    assert (Y1 : y1 = set_os (y_os y1) y /\ forall i, y_os y1 i = untx (cur_ids (w_cur k)) (y_os y) i).
    { unfold y1. destruct (w_cur k) as [m|]; cbn.
      - split; [reflexivity|]. intros i. unfold untx, upd. cbn. destruct (i =? m_id m) eqn:E; [|reflexivity].
        apply Nat.eqb_eq in E. subst. reflexivity.
      - split; [destruct y; reflexivity|]. intros i. reflexivity. }
    destruct Y1 as [E1 O1]. clearbody y1.
    destruct (drain_eq (y_queue (rx_close y1)) (rx_close y1)) as (m & os & E & P & O).
    assert (Eq : y_queue (rx_close y1) = y_queue y) by (rewrite E1; reflexivity). rewrite Eq in *.
    assert (Eq' : y_queue y1 = y_queue y) by (rewrite E1; reflexivity). rewrite Eq'.
    rewrite E. exists m, os, (drop_svc svc (w_svc k) (y_w y)). split; [|split].
    - rewrite E1. cbn. reflexivity.
    - rewrite P. rewrite E1. cbn. unfold permits. cbn. lia.
    - intros i. rewrite O. cbn [rx_close set_closed set_sem y_os]. unfold untx at 1 2.
      rewrite !O1. unfold untx. rewrite existsb_app.
      destruct (existsb (Nat.eqb i) (cur_ids (w_cur k))), (existsb (Nat.eqb i) (ids (y_queue y))); reflexivity.
  Qed.
  Lemma die_eq k id (y : bsys) : exists m os w,
    die k id y =
      BSys m (y_bound y) true [] (y_cell y) os (y_hs y) (y_hnext y) (y_fs y) (y_fnext y) None w /\
    permits m = length (y_queue y) + permits (y_sem y) /\
    forall i, os i = untx (id :: cur_ids (w_cur k) ++ ids (y_queue y)) (y_os y) i.
  Proof.
    unfold die. destruct (drop_worker_eq k (os_drop_tx id y)) as (m & os & w & E & P & O).
    exists m, os, w. split; [exact E|]. split; [exact P|]. intros i. rewrite O. cbn [os_drop_tx set_os y_os y_queue].
    unfold untx, upd. cbn [existsb]. destruct (i =? id) eqn:E1; cbn.
    - apply Nat.eqb_eq in E1. subst. destruct existsb; reflexivity.
    - reflexivity.
  Qed.
  Lemma send_eq id v (y : bsys) : exists w,
    os_send id v y = set_w w (set_os (upd (y_os y) id
      (Os false (if o_rx (y_os y id) then Some v else o_val (y_os y id)) (o_rx (y_os y id)))) y).
  Proof.
    unfold os_send. destruct (o_rx (y_os y id)).
    - exists (y_w y). reflexivity.
    - destruct v as [f|e]; [exists (drop_fut svc f (y_w y))|exists (y_w y)]; reflexivity.
  Qed.
  Lemma drop_rx_eq id (y : bsys) : exists w,
    os_drop_rx id y = set_w w (set_os (upd (y_os y) id (Os (o_tx (y_os y id)) None false)) y).
  Proof.
    unfold os_drop_rx. destruct (o_val (y_os y id)) as [[f|e]|];
      [exists (drop_fut svc f (y_w y))|exists (y_w y)|exists (y_w y)]; reflexivity.
  Qed.

  Lemma no_senders_spec (y : bsys) : no_senders y = true <-> forall h, h < y_hnext y -> y_hs y h = None.
  Proof.
    unfold no_senders. rewrite forallb_forall. split; intros H h Hh.
    - specialize (H h). destruct (y_hs y h); [|reflexivity]. discriminate H. apply in_seq. lia.
    - apply in_seq in Hh. rewrite H; [reflexivity|lia].
  Qed.
End Moves.
