(** C79: the proofs. *)
From Verif Require Import Base ContractSpec Limits Buffer BufferSpec BufferBase BufferInv1 BufferInv2 BufferMoves BufferInv7 BufferTop RoomSpec RoomProof
  BufSvcSpec BufSvcBase BufSvc BufSvcProof Middleware Demo ShedBufSpec.
Set Implicit Arguments.

Section Program.
  Context {W Req Resp Err : Type} {svc : Service W Req Resp Err}.
  Notation bsys := (bsys svc).
  Notation bobs := (bobs svc).
  Notation bop := (@bop W Req).

  Definition answers (e : bobs) : bool := match e with OReady _ _ => true | _ => false end.

  Lemma worker_answers c k (y : bsys) : forallb (fun e => negb (answers e)) (snd (worker_step c k y)) = true.
  Proof.
    unfold worker_step. destruct (w_pc k) as [| | |m|m|m|m f|m e|m e|m|m]; try reflexivity.
    - destruct (w_finish k); reflexivity.
    - destruct (w_cur k); [cbv zeta; destruct (os_is_closed _ _)|]; reflexivity.
    - unfold poll_recv. destruct c; [reflexivity|]. destruct (y_queue y); [destruct (_ || _)|]; reflexivity.
    - destruct (os_is_closed _ _); reflexivity.
    - destruct (w_failed k); [reflexivity|]. destruct (poll_ready svc (w_svc k) (y_w y)) as [w1 [[s1 [|[u|e]]]| |]]; reflexivity.
    - destruct (call svc (w_svc k) (m_req m) (y_w y)) as [w1 [[s1 f]| |]]; reflexivity.
    - destruct (y_cell y); reflexivity.
    - destruct (w_failed k); reflexivity.
  Qed.
  Lemma inner_answers id f (y : bsys) : forallb (fun e => negb (answers e)) (snd (poll_inner id f y)) = true.
  Proof. unfold poll_inner. destruct (poll_fut svc f (y_w y)) as [w1 [[f1 a]| |]]; reflexivity. Qed.

  (** Only a step of a handle answers, and says nothing else. *)
  Lemma step_answers o (y : bsys) e : In e (snd (bstep o y)) -> answers e = true ->
    snd (bstep o y) = [e] /\ exists h c d, o = BStep h c /\ y_hs y h = Some d /\ handle_step c h d y = bstep o y.
  Proof.
    intros Hin He.
    assert (No : forall l : list bobs, forallb (fun e => negb (answers e)) l = true -> ~ In e l).
    { intros l Hl Hi. rewrite forallb_forall in Hl. apply Hl in Hi. rewrite He in Hi. discriminate. }
    destruct o as [i|i r|i c|i|i|id c|id|c| |g]; cbn [bstep] in *.
    - exfalso. destruct (y_hs y i) as [d|]; [destruct (at_rest d)|]; exact Hin.
    - exfalso. destruct (y_hs y i) as [d|]; [destruct (at_rest d)|]; try exact Hin. unfold handle_call, send_item in Hin.
      destruct (h_ps d); cbn in Hin; try (destruct Hin as [<-|[]]; discriminate); exact Hin.
    - destruct (y_hs y i) as [d|] eqn:Ed; [|destruct Hin]. split; [|exists i, c, d; auto].
      unfold handle_step in *. destruct (h_pc d); try (destruct Hin; fail).
      + destruct (poll_reserve c (h_ps d) y) as [[y1 p] [|[u|u]]]; cbn in *; try (destruct Hin as [<-|[]]; reflexivity). destruct Hin.
      + cbn in *. destruct Hin as [<-|[]]. reflexivity.
      + cbn in *. destruct Hin as [<-|[]]. discriminate.
    - exfalso. destruct (y_hs y i) as [d|]; [destruct (at_rest d)|]; try exact Hin. cbn in Hin. destruct Hin as [<-|[]]; discriminate.
    - exfalso. destruct (y_hs y i) as [d|]; [destruct (at_rest d)|]; try exact Hin. cbn in Hin. destruct Hin as [<-|[]]; discriminate.
    - exfalso. destruct (y_fs y id) as [[f [|]]|]; try exact Hin. destruct f as [[x|]| |f]; cbn [fut_poll] in Hin.
      + cbn in Hin. destruct Hin as [<-|[]]; discriminate.
      + cbn in Hin. destruct Hin as [<-|[]]; discriminate.
      + destruct c; [cbn in Hin; destruct Hin as [<-|[]]; discriminate|]. destruct (o_val (y_os y id)) as [[f|x]|].
        * eapply No; [|exact Hin]. apply inner_answers.
        * cbn in Hin. destruct Hin as [<-|[]]; discriminate.
        * destruct (o_tx _); cbn in Hin; destruct Hin as [<-|[]]; discriminate.
      + eapply No; [|exact Hin]. apply inner_answers.
    - exfalso. destruct (y_fs y id) as [[f b]|]; try exact Hin. cbn in Hin. destruct Hin as [<-|[]]; discriminate.
    - exfalso. destruct (y_wk y) as [k|]; [|exact Hin]. eapply No; [|exact Hin]. apply worker_answers.
    - exfalso. destruct (y_wk y) as [k|]; [destruct (worker_rests k)|]; try exact Hin. cbn in Hin. destruct Hin as [<-|[]]; discriminate.
    - destruct Hin.
  Qed.

  (** The moment of an answer. *)
  Lemma moment bound s w ops : forall (y : bsys) l2 h a l1, buffer_run svc bound s w ops = (y, l2 ++ OReady h a :: l1) ->
    exists ops0 c ops1 (y0 : bsys) d, ops = ops0 ++ BStep h c :: ops1 /\ buffer_run svc bound s w ops0 = (y0, l1) /\
      y_hs y0 h = Some d /\ snd (handle_step c h d y0) = [OReady h a].
  Proof.
    induction ops as [|o ops IH] using rev_ind; intros y l2 h a l1 E.
    - cbn in E. injection E as _ E. destruct l2; discriminate.
    - unfold buffer_run in *. rewrite brun_app in E.
      destruct (brun (bsys0 svc bound s w) [] ops) as [y0 l0] eqn:E0. cbn [fst snd brun] in E.
      assert (St := @step_answers o y0 (OReady h a)). destruct (bstep o y0) as [y1 e] eqn:Eb. cbn [fst snd] in *.
      injection E as -> E.
      assert (Hc : In (OReady h a) e \/ exists m, l2 = rev e ++ m /\ l0 = m ++ OReady h a :: l1).
      { revert E. generalize (rev e) as p, (fun x => @in_rev _ e x). intros p Hp. revert l2.
        assert (Q : (In (OReady h a) p -> In (OReady h a) e)) by (intros H; apply Hp; exact H). clear Hp. revert Q.
        induction p as [|z p IHp]; intros Q l2 E.
        - right. exists l2. auto.
        - destruct l2 as [|z2 l2]; cbn in E; injection E as -> E.
          + left. apply Q. left. reflexivity.
          + destruct (IHp (fun H => Q (or_intror H)) l2 E) as [X|(m & -> & ->)]; [auto|]. right. exists m. auto. }
      destruct Hc as [Hin|(m & -> & ->)].
      + destruct (St Hin eq_refl) as (-> & i & c & d & -> & Ed & Es).
        cbn [rev app] in E.
        assert (Ei : i = h).
        { assert (Es' : snd (handle_step c i d y0) = [OReady h a]) by (rewrite Es; reflexivity).
          unfold handle_step in Es'. destruct (h_pc d); try discriminate Es'.
          - destruct (poll_reserve c (h_ps d) y0) as [[y2 p] [|[u|u]]]; cbn in Es'; congruence.
          - cbn in Es'. congruence. }
        subst i. destruct l2 as [|z l2].
        * cbn in E. injection E as ->. exists ops, c, [], y0, d. split; [reflexivity|]. split; [exact E0|]. split; [exact Ed|]. rewrite Es. reflexivity.
        * cbn in E. injection E as _ ->. destruct (IH y0 l2 h a l1 eq_refl) as (o0 & c' & o1 & y2 & d' & -> & H1 & H2 & H3).
          exists o0, c', (o1 ++ [BStep h c]), y2, d'. rewrite <- app_assoc. auto.
      + destruct (IH y0 m h a l1 eq_refl) as (o0 & c' & o1 & y2 & d' & -> & H1 & H2 & H3).
        exists o0, c', (o1 ++ [o]), y2, d'. rewrite <- app_assoc. auto.
  Qed.

  Arguments moment {bound s w ops y l2 h a l1} _.

  (** ** When a handle is told [Pending] *)
  Lemma slots_counted bound s w ops (y : bsys) l hs : buffer_run svc bound s w ops = (y, l) ->
    (forall j, has_slot j l = true -> In j hs) -> rcount (y_hnext y) (y_hs y) <= length hs.
  Proof.
    intros E Hh. assert (J := binv_always (svc := svc) bound s w ops). unfold buffer_run in E. rewrite E in J. cbn [fst snd] in J.
    rewrite rcount_filter. apply NoDup_incl_length; [apply NoDup_filter, seq_NoDup|]. intros j Hj. apply filter_In in Hj as [_ Hj].
    apply Hh, (ih_slot (bi_h J)). unfold rd in Hj. destruct (y_hs y j) as [[[] pcj]|]; try discriminate. eauto.
  Qed.

  Arguments slots_counted {bound s w ops y l} hs _ _.

  Lemma told_pending bound s w ops (y : bsys) l2 h l1 :
    buffer_run svc bound s w ops = (y, l2 ++ OReady h Pending :: l1) -> never_put_off ops -> intact l1 -> full bound h l1.
  Proof.
    intros E N Hi hs ws Hh Hw.
    destruct (moment E) as (ops0 & c & ops1 & y0 & d & -> & E0 & Ed & Es).
    assert (Ec : c = false). { destruct c; [|reflexivity]. exfalso. apply (N h). apply in_or_app. right. left. reflexivity. }
    subst c.
    assert (N0 : never_put_off ops0) by (intros i Hin; apply (N i); apply in_or_app; left; exact Hin).
    destruct (@always_room _ _ _ _ svc true bound s w ops0 y0 l1 (fun _ => N0) E0 Hi) as (R & IH & C & Q).
    assert (Sum := rm_sum R). unfold permits in Sum. assert (Sw := rm_swf R). assert (Rc := slots_counted hs E0 Hh). rewrite Q.
    assert (U := rm_usual R h). rewrite Ed in U. destruct d as [ps pc]. cbn in U. destruct U as [U1 U2].
    unfold handle_step in Es. cbn [h_pc h_ps] in Es. destruct U2 as [-> | ->]; [discriminate Es|].
    assert (Gr : (forall t, tks (y_hs y0) h = Some t -> ~ In t (sem_granted (y_sem y0))) -> length (sem_granted (y_sem y0)) <= length ws).
    { intros Ng. destruct (@owners _ _ (sem_granted (y_sem y0)) Sw) as (os & L & D & O); [auto|exact (sw_gd Sw)|].
      rewrite <- L. apply NoDup_incl_length; [exact D|]. intros j J. destruct (O _ J) as (t & Ht & Et). apply Hw.
      - intros ->. exact (Ng _ Et Ht).
      - assert (Lj := rm_line R j). unfold tks in Et. destruct (y_hs y0 j) as [[[|tj| |] pcj]|]; try discriminate Et. exact Lj. }
    assert (Qh := rm_queued R eq_refl h). rewrite Ed in Qh.
    destruct ps as [|t| |]; cbn [poll_reserve] in Es; rewrite ?C in Es; try discriminate Es.
    - assert (Ng : length (sem_granted (y_sem y0)) <= length ws) by (apply Gr; intros t X; unfold tks in X; rewrite Ed in X; discriminate).
      unfold sem_poll in Es. destruct (sem_avail (y_sem y0)); [lia | discriminate Es].
    - destruct t as [i|]; [|destruct Qh].
      unfold sem_poll in Es. destruct (mem_nat i (sem_granted (y_sem y0))) eqn:Em; [discriminate Es|].
      assert (Ei : tks (y_hs y0) h = Some i) by (unfold tks; rewrite Ed; reflexivity).
      assert (Ni : ~ In i (sem_granted (y_sem y0))) by (rewrite <- mem_in; congruence).
      assert (Ng : length (sem_granted (y_sem y0)) <= length ws) by (apply Gr; intros t X; congruence).
      destruct (sem_avail (y_sem y0)) eqn:Ea; [lia|].
      destruct (sw_forth Sw _ Ei) as [X|X]; [contradiction|]. rewrite (sw_free Sw) in X by lia. destruct X.
  Qed.

  Arguments told_pending {bound s w ops y l2 h l1} _ _ _.

  Lemma never_cloned_alive h (l : list bobs) : never_cloned l -> alive h l = true -> h = 0.
  Proof.
    induction l as [|e l IH]; intros N A; [cbn in A; apply Nat.eqb_eq in A; exact A|].
    assert (N' : never_cloned l) by (intros a b H; apply (N a b); right; exact H).
    destruct e; cbn in A; try (apply IH; assumption).
    - exfalso. apply (N h0 h'). left. reflexivity.
    - apply andb_true_iff in A as [_ A]. apply IH; assumption.
  Qed.

  Lemma alone_exactly bound s w ops (y : bsys) l2 h a l1 :
    buffer_run svc bound s w ops = (y, l2 ++ OReady h a :: l1) -> never_put_off ops -> intact l1 -> never_cloned l1 ->
    (a = Pending <-> waiting l1 = bound) /\ (a = Ready (Ok tt) <-> waiting l1 < bound).
  Proof.
    intros E N Hi Nc.
    assert (Hp : a = Pending -> bound <= waiting l1 /\ has_slot h l1 = false).
    { intros ->. 
      destruct (moment E) as (ops0 & c & ops1 & y0 & d & Eo & E0 & Ed & Es).
      assert (J := binv_always (svc := svc) bound s w ops0). unfold buffer_run in E0. rewrite E0 in J. cbn [fst snd] in J.
      assert (Hs : has_slot h l1 = false).
      { destruct (has_slot h l1) eqn:X; [|reflexivity]. exfalso. apply (ih_slot (bi_h J)) in X as [pc X]. rewrite Ed in X. injection X as ->.
        unfold handle_step in Es. cbn [h_pc h_ps] in Es. destruct pc; discriminate Es. }
      split; [|exact Hs].
      assert (Only : forall j dj, y_hs y0 j = Some dj -> j = 0).
      { intros j dj X. apply (never_cloned_alive j Nc). apply (ih_alive (bi_h J)). congruence. }
      assert (Eh : h = 0) by (eapply Only; exact Ed).
      assert (F := told_pending E N Hi). specialize (F [] []). cbn in F. rewrite Nat.add_0_r in F. apply F.
      - intros j X. assert (j = 0) by (apply (ih_slot (bi_h J)) in X as [pc X]; eapply Only; exact X). congruence.
      - intros j Nj X. exfalso.
        assert (N0 : never_put_off ops0) by (intros i Hin; apply (N i); rewrite Eo; apply in_or_app; left; exact Hin).
        destruct (@always_room _ _ _ _ svc true bound s w ops0 y0 l1 (fun _ => N0) E0 Hi) as (R & _).
        assert (Lj := rm_line R j). destruct (y_hs y0 j) as [dj|] eqn:Ej.
        + apply Nj. rewrite Eh. eapply Only. exact Ej.
        + cbn in Lj. congruence. }
    assert (Hr : a = Ready (Ok tt) -> waiting l1 < bound).
    { intros ->. 
      destruct (moment E) as (ops0 & c & ops1 & y0 & d & Eo & E0 & Ed & Es).
      assert (J := binv_always (svc := svc) bound s w (ops0 ++ [BStep h c])). unfold buffer_run in *. rewrite brun_app in J. rewrite E0 in J. cbn [fst snd brun bstep] in J.
      rewrite Ed in J. destruct (handle_step c h d y0) as [y1 e]. cbn in Es. subst e. cbn [fst snd rev app] in J.
      assert (B := @inv_p_bound _ _ _ _ svc bound y1 (OReady h (Ready (Ok tt)) :: l1) [h] (bi_h J) (bi_p J)).
      cbn [length waiting] in B. apply B; [repeat constructor; intros [] |]. intros j [<-|[]]. cbn. rewrite Nat.eqb_refl. reflexivity. }
    assert (He : forall e, a <> Ready (Er e)).
    { intros e ->.
      destruct (moment E) as (ops0 & c & ops1 & y0 & d & Eo & E0 & Ed & Es).
      assert (N0 : never_put_off ops0) by (intros i Hin; apply (N i); rewrite Eo; apply in_or_app; left; exact Hin).
      destruct (@always_room _ _ _ _ svc true bound s w ops0 y0 l1 (fun _ => N0) E0 Hi) as (R & IH & C & Q).
      assert (U := rm_usual R h). rewrite Ed in U. destruct d as [ps pc]. cbn in U. destruct U as [U1 U2].
      unfold handle_step in Es. cbn [h_pc h_ps] in Es. destruct U2 as [-> | ->]; [discriminate Es|].
      destruct (poll_reserve c ps y0) as [[y1 p] [|[u|u]]]; discriminate Es. }
    destruct a as [|[[]|e]].
    - destruct (Hp eq_refl) as [Hb _].
      assert (Hw : waiting l1 = bound).
      { destruct (moment E) as (ops0 & c & ops1 & y0 & d & Eo & E0 & Ed & Es).
        assert (J := binv_always (svc := svc) bound s w ops0). unfold buffer_run in E0. rewrite E0 in J. cbn [fst snd] in J.
        assert (B := @inv_p_bound _ _ _ _ svc bound y0 l1 [] (bi_h J) (bi_p J)). cbn [length] in B.
        assert (0 + waiting l1 <= bound) by (apply B; [constructor | intros j []]). lia. }
      split; split; auto; try discriminate. lia.
    - specialize (Hr eq_refl). split; split; auto; try discriminate. lia.
    - exfalso. apply (He e). reflexivity.
  Qed.
End Program.

Section Handle.
  Context {W Req Resp Err : Type} {cl : bool} {svc : Service W Req Resp Err} {s0 : st svc}.
  Context (others : bsys svc -> list (@bop W Req)) (coop : bsys svc -> bool).
  Notation bsys := (bsys svc).
  Notation bw := (@bw W Req Resp Err cl svc s0).
  Notation bsvc := (@buffer_service W Req Resp Err cl svc s0 others coop).
  Notation ls := (load_shed bsvc).
  Hypothesis on_time : forall y, never_put_off (others y).
  Hypothesis no_coop : forall y, coop y = false.

  Lemma put_off_app (a b : list (@bop W Req)) : never_put_off a -> never_put_off b -> never_put_off (a ++ b).
  Proof. intros A B h H. apply in_app_or in H as [H|H]; [apply (A h H) | apply (B h H)]. Qed.
  Lemma meanwhile_on_time h (x : bw) : never_put_off (meanwhile others h x).
  Proof. intros i H. unfold meanwhile in H. apply filter_In in H as [H _]. apply (on_time (proj1_sig x) i H). Qed.

  (** [poll_ready] as a run of the program, the log ending with its answer. *)
  Lemma ready_last s (x x1 : bw) s1 a acc : standing s (proj1_sig x) = true -> poll_ready bsvc s x = (x1, Val (s1, a)) ->
    exists ops l, brun (proj1_sig x) acc ops = (proj1_sig x1, OReady (fst s) a :: l) /\ never_put_off ops /\
      (forall o, In o ops -> of_handle (fst s) o = true -> o = BReady (fst s) \/ exists c, o = BStep (fst s) c).
  Proof.
    intros Hs E. set (h := fst s). pose proof Hs as H0. apply standing_put in H0. fold h in H0.
    cbn [poll_ready buffer_service] in E. unfold bready in E. fold h in E. rewrite (settle_standing _ _ Hs) in E.
    assert (M0 := @moves_run _ _ _ _ cl svc s0 [BReady h] x acc). rewrite moves_one in M0. cbn [fst snd] in M0.
    assert (E1 : proj1_sig (fst (move (BReady h) x)) = fst (bstep (BReady h) (proj1_sig x))) by reflexivity.
    assert (E1' : snd (move (BReady h) x) = snd (bstep (BReady h) (proj1_sig x))) by reflexivity.
    destruct (move (BReady h) x) as [x2 e1]. cbn [fst snd] in *.
    assert (Hb : bstep (BReady h) (proj1_sig x) = handle_ready h (Hd (snd s) HRest) (proj1_sig x)) by (cbn [bstep]; destruct H0 as [-> _]; reflexivity).
    rewrite Hb in E1, E1'. cbn in E1'. subst e1. cbn [rev app] in M0.
    set (pc := if tx_is_closed (proj1_sig x) then HErrReady else HReserve : hpc (Req := Req)).
    assert (H1 : put h (Some (Hd (snd s) pc)) (proj1_sig x2)).
    { rewrite E1. unfold put. cbn. rewrite upd_here. split; [reflexivity | apply H0]. }
    clear E1 Hb.
    assert (Hpc : pc = HReserve \/ pc = HErrReady) by (subst pc; destruct (tx_is_closed _); auto). clearbody pc.
    (* one step of the handle, the others having moved *)
    assert (Step : forall (z : bw) d, put h (Some d) (proj1_sig z) -> at_rest d = false ->
      exists ops e, brun (proj1_sig z) [] ops = (proj1_sig (fst (go_on others coop h z)), rev (snd (go_on others coop h z))) /\
        (never_put_off ops /\ forall o, In o ops -> of_handle h o = true -> o = BReady h \/ exists c, o = BStep h c) /\ silent h e /\ exists (z1 : bw), put h (Some d) (proj1_sig z1) /\
        proj1_sig (fst (go_on others coop h z)) = fst (handle_step false h d (proj1_sig z1)) /\
        snd (go_on others coop h z) = e ++ snd (handle_step false h d (proj1_sig z1))).
    { intros z d Hz Hr. unfold go_on, busy. destruct Hz as [Hz Hn]. rewrite Hz, Hr. cbn [negb].
      destruct (@moves_other _ _ _ _ cl svc s0 h (Some d) (meanwhile others h z) (@meanwhile_other _ _ _ _ cl svc s0 others h z) z (conj Hz Hn)) as [A B].
      exists (meanwhile others h z ++ [BStep h false]), (snd (moves (meanwhile others h z) z)).
      rewrite moves_run, moves_app. cbn [fst snd]. rewrite moves_one, app_nil_r.
      destruct (moves (meanwhile others h z) z) as [z1 e1]. cbn [fst snd] in *. rewrite no_coop.
      split; [destruct (move (BStep h false) z1); reflexivity|]. split.
      { split; [apply put_off_app; [apply meanwhile_on_time|]; intros i [X|[]]; discriminate X|].
        intros o X Y. apply in_app_or in X as [X|[<-|[]]]; [|eauto].
        apply (@meanwhile_other _ _ _ _ cl svc s0 others h z) in X. congruence. }
      split; [exact B|]. exists z1. split; [exact A|]. unfold move. cbn [fst snd proj1_sig bstep]. destruct A as [-> _]. auto. }
    assert (Acc : forall (y : bsys) l ops, brun y l ops = (fst (brun y [] ops), snd (brun y [] ops) ++ l)).
    { assert (G : forall ops (y : bsys) l m, brun y (l ++ m) ops = (fst (brun y l ops), snd (brun y l ops) ++ m)).
      { induction ops as [|o ops IHo]; intros y l m; [reflexivity|]. cbn [brun]. destruct (bstep o y) as [y1 e]. rewrite app_assoc. apply IHo. }
      intros y l ops. apply (G ops y [] l). }
    assert (Hbz : at_rest (Hd (snd s) pc) = false) by (destruct Hpc as [->| ->]; reflexivity).
    destruct (Step x2 _ H1 Hbz) as (o1 & e2 & R1 & [N1 N1'] & S2 & z & Hz & G1 & G2).
    destruct (go_on others coop h x2) as [x3 l3] eqn:E2. cbn [fst snd] in *. subst l3.
    pose proof (@ready_step _ _ _ _ svc false h (Hd (snd s) pc) (proj1_sig z) Hz Hpc) as R.
    destruct (handle_step false h (Hd (snd s) pc) (proj1_sig z)) as [y2 l2]. cbn [fst snd] in *.
    destruct R as [(p & b & P2 & -> & Q1 & Q2)|(_ & Hn & p & P2 & ->)].
    - rewrite <- G1 in P2. rewrite (@go_on_rest _ _ _ _ cl svc s0 others coop h (Hd p HRest) x3 P2 eq_refl) in E.
      cbn [app] in E. rewrite app_nil_r in E. rewrite (@ready_answer_silent _ _ _ _ svc h e2 _ S2) in E. cbn in E. rewrite Nat.eqb_refl in E.
      injection E as <- _ <-.
      exists (BReady h :: o1), (rev e2 ++ acc). rewrite rev_app_distr in R1. cbn [rev app] in R1. split.
      + change (BReady h :: o1) with ([BReady h] ++ o1). rewrite brun_app, M0. cbn [fst snd]. rewrite Acc, R1. reflexivity.
      + split; [intros i [X|X]; [discriminate X | apply (N1 i X)]|].
        intros o [<-|X] Y; [auto | apply N1'; assumption].
    - rewrite <- G1 in P2. destruct (Step x3 _ P2 eq_refl) as (o2 & e3 & R3 & [N3 N3'] & S3 & z3 & Hz3 & G3 & G4).
      destruct (go_on others coop h x3) as [x4 l4] eqn:E3. cbn [fst snd] in *. subst l4.
      cbn [app] in E. rewrite app_nil_r in E. rewrite (@ready_answer_silent _ _ _ _ svc h e2 _ S2), (@ready_answer_silent _ _ _ _ svc h e3 _ S3) in E.
      cbn in E. rewrite Nat.eqb_refl in E. injection E as <- _ <-.
      exists (BReady h :: o1 ++ o2), (rev e3 ++ rev e2 ++ acc).
      rewrite app_nil_r in R1. rewrite rev_app_distr in R3. cbn [rev app handle_step h_pc snd] in R3. split.
      + change (BReady h :: o1 ++ o2) with ([BReady h] ++ o1 ++ o2). rewrite brun_app, M0. cbn [fst snd]. rewrite brun_app. rewrite (Acc _ acc), R1. cbn [fst snd].
        rewrite Acc, R3. reflexivity.
      + split; [intros i [X|X]; [discriminate X|]; revert X; apply (put_off_app N1 N3)|].
        intros o [<-|X] Y; [auto|]. apply in_app_or in X as [X|X]; [apply N1' | apply N3']; assumption.
  Qed.

  (** ** [LoadShed] over it *)
  Lemma never_waits (c : st ls) (x : bw) : exists x1 c1 a, poll_ready ls c x = (x1, Val (c1, Ready a)).
  Proof.
    cbn [poll_ready load_shed]. unfold bind. destruct (@bready_spec _ _ _ _ cl svc s0 others coop (ls_inner c) x) as (x1 & p & a & E & _). rewrite E.
    destruct a as [|[u|e]]; cbn; eexists _, _, _; reflexivity.
  Qed.

  Lemma shed_moment bound w ops (y : bsys) l (c : st ls) (x x1 : bw) c1 :
    buffer_run svc bound s0 w ops = (y, l) -> never_put_off ops -> proj1_sig x = y -> standing (ls_inner c) y = true ->
    poll_ready ls c x = (x1, Val (c1, Ready (Ok tt))) ->
    exists ops1 a l1, buffer_run svc bound s0 w (ops ++ ops1) = (proj1_sig x1, OReady (fst (ls_inner c)) a :: l1) /\ never_put_off (ops ++ ops1) /\
      (forall r, exists x2 c2 f, call ls c1 r x1 = (x2, Val (c2, f)) /\ (f = None <-> a = Pending)) /\
      (a = Pending \/ a = Ready (Ok tt)).
  Proof.
    intros E N Ex Hs Er.
    assert (Ed : exists s1 a, poll_ready bsvc (ls_inner c) x = (x1, Val (s1, a)) /\ ls_inner c1 = s1 /\
      (a = Pending /\ ls_ready c1 = false \/ a = Ready (Ok tt) /\ ls_ready c1 = true)).
    { cbn [poll_ready load_shed] in Er. unfold bind in Er. destruct (poll_ready bsvc (ls_inner c) x) as [x2 [[s1 a]| |]]; try discriminate Er.
      destruct a as [|[[]|e]]; cbn in Er; try discriminate Er; injection Er as <- <-; eexists _, _; (split; [reflexivity|]; split; [reflexivity|]); cbn; auto. }
    destruct Ed as (s1 & a & Ed & Ei & Ha). rewrite <- Ex in Hs.
    destruct (@ready_last (ls_inner c) x x1 s1 a l Hs Ed) as (ops1 & l1 & Ro & No & _).
    exists ops1, a, l1. split; [unfold buffer_run in *; rewrite brun_app, E; cbn [fst snd]; rewrite <- Ex; exact Ro|].
    split; [apply put_off_app; assumption|]. split; [|intuition].
    intros r. cbn [call load_shed]. destruct Ha as [[-> ->]|[-> ->]].
    - exists x1, c1, None. split; [reflexivity | tauto].
    - destruct (@bready_spec _ _ _ _ cl svc s0 others coop (ls_inner c) x) as (x1' & p & a' & E' & P & H1 & _).
      rewrite Ed in E'. injection E' as <- -> <-. specialize (H1 eq_refl). subst p.
      destruct (@bcall_spec _ _ _ _ cl svc s0 others coop (ls_inner c1) r x1) as (x2 & p & id & Ec).
      { rewrite Ei. discriminate. } { rewrite Ei. discriminate. }
      unfold bind. rewrite Ec. cbn. exists x2. eexists _, _. split; [reflexivity | split; discriminate].
  Qed.

  (** A request is shed only if the buffer is full; alone, if and only if it is. *)
  Lemma shed_full bound w ops (y : bsys) l (c : st ls) (x x1 x2 : bw) c1 c2 r :
    buffer_run svc bound s0 w ops = (y, l) -> never_put_off ops -> proj1_sig x = y -> standing (ls_inner c) y = true ->
    poll_ready ls c x = (x1, Val (c1, Ready (Ok tt))) -> call ls c1 r x1 = (x2, Val (c2, None)) ->
    exists ops1 l1, buffer_run svc bound s0 w (ops ++ ops1) = (proj1_sig x1, OReady (fst (ls_inner c)) Pending :: l1) /\
      (intact l1 -> full bound (fst (ls_inner c)) l1).
  Proof.
    intros E N Ex Hs Er Ec. destruct (@shed_moment bound w ops y l c x x1 c1 E N Ex Hs Er) as (ops1 & a & l1 & Ro & No & Hc & _).
    destruct (Hc r) as (x2' & c2' & f & Ec' & Hf). rewrite Ec in Ec'. injection Ec' as <- <- <-. destruct Hf as [Hf _]. specialize (Hf eq_refl). subst a.
    exists ops1, l1. split; [exact Ro|]. intros Hi. eapply told_pending with (l2 := []); [exact Ro | exact No | exact Hi].
  Qed.

  Lemma shed_alone bound w ops (y : bsys) l (c : st ls) (x x1 : bw) c1 :
    buffer_run svc bound s0 w ops = (y, l) -> never_put_off ops -> proj1_sig x = y -> standing (ls_inner c) y = true ->
    poll_ready ls c x = (x1, Val (c1, Ready (Ok tt))) ->
    exists ops1 a l1, buffer_run svc bound s0 w (ops ++ ops1) = (proj1_sig x1, OReady (fst (ls_inner c)) a :: l1) /\
      (intact l1 -> never_cloned l1 ->
       forall r, exists x2 c2 f, call ls c1 r x1 = (x2, Val (c2, f)) /\ (f = None <-> waiting l1 = bound)).
  Proof.
    intros E N Ex Hs Er. destruct (@shed_moment bound w ops y l c x x1 c1 E N Ex Hs Er) as (ops1 & a & l1 & Ro & No & Hc & _).
    exists ops1, a, l1. split; [exact Ro|]. intros Hi Nc r. destruct (Hc r) as (x2 & c2 & f & Ec & Hf). exists x2, c2, f. split; [exact Ec|].
    rewrite Hf. apply (@alone_exactly _ _ _ _ svc bound s0 w (ops ++ ops1) (proj1_sig x1) [] (fst (ls_inner c)) a l1 Ro No Hi Nc).
  Qed.
End Handle.

(** ** With clones *)
Section Starve.
  Context {W Req Resp Err : Type} {cl : bool} {svc : Service W Req Resp Err} {s0 : st svc}.
  Notation bsys := (bsys svc).
  Notation bw := (@bw W Req Resp Err cl svc s0).
  Notation bsvc := (@buffer_service W Req Resp Err cl svc s0 (fun _ => []) (fun _ => false)).
  Notation ls := (load_shed bsvc).

  (** Ask and call, again and again: was the request let in? *)
  Fixpoint rounds (n : nat) (r : Req) (c : st ls) (x : bw) : list bool :=
    match n with
    | 0 => []
    | S n' =>
        match poll_ready ls c x with
        | (x1, Val (c1, Ready (Ok _))) =>
            match call ls c1 r x1 with
            | (x2, Val (c2, Some _)) => true :: rounds n' r c2 x2
            | (x2, Val (c2, None)) => false :: rounds n' r c2 x2
            | _ => []
            end
        | _ => []
        end
    end.

  (** In line behind a handle that has been given the last permit. *)
  Definition behind (y : bsys) : Prop := y_closed y = false /\ y_sem y = Sem 0 [1] [0] 2.

  (** Asking when [m] has nothing to give leads to [m1], ticket 1. *)
  Lemma refused (x : bw) p m : y_closed (proj1_sig x) = false -> y_sem (proj1_sig x) = m -> standing (0, p) (proj1_sig x) = true ->
    (p = PsIdle /\ m = Sem 0 [] [0] 1 \/ p = PsAcquiring (Some 1) /\ m = Sem 0 [1] [0] 2) ->
    exists x1, poll_ready bsvc (0, p) x = (x1, Val ((0, PsAcquiring (Some 1)), Pending)) /\ behind (proj1_sig x1) /\
      standing (0, PsAcquiring (Some 1)) (proj1_sig x1) = true.
  Proof.
    intros Hc Hm Hs Hp.
    cbn [poll_ready buffer_service]. unfold bready. cbn [fst snd]. rewrite (settle_standing _ _ Hs).
    pose proof Hs as H0. apply standing_put in H0. cbn [fst snd] in H0. destruct H0 as [H0 H0'].
    assert (E1 : proj1_sig (fst (move (BReady 0) x)) = put_handle 0 (Hd p HReserve) (proj1_sig x) /\ snd (move (BReady 0) x) = []).
    { unfold move. cbn [fst snd proj1_sig bstep]. rewrite H0. cbn. unfold tx_is_closed. rewrite Hc. auto. }
    destruct (move (BReady 0) x) as [x2 e2]. cbn [fst snd] in *. destruct E1 as [E1 ->].
    assert (E2 : proj1_sig (fst (go_on (fun _ => []) (fun _ => false) 0 x2)) = put_handle 0 (Hd (PsAcquiring (Some 1)) HRest) (set_sem (Sem 0 [1] [0] 2) (proj1_sig x2))
      /\ snd (go_on (fun _ => []) (fun _ => false) 0 x2) = [OReady 0 Pending]).
    { assert (B : busy 0 (proj1_sig x2) = true) by (unfold busy; rewrite E1; reflexivity). unfold go_on. rewrite B.
      cbn [meanwhile List.filter moves]. unfold move. cbn [fst snd proj1_sig bstep app]. rewrite E1. cbn [put_handle set_hs y_hs]. rewrite upd_here.
      unfold handle_step. destruct Hp as [[-> ->]|[-> ->]]; cbn [h_pc h_ps poll_reserve y_closed put_handle set_hs y_sem]; rewrite Hc, Hm; cbn; auto. }
    destruct (go_on (fun _ => []) (fun _ => false) 0 x2) as [x3 e3]. cbn [fst snd] in *. destruct E2 as [E2 ->].
    assert (P3 : put 0 (Some (Hd (PsAcquiring (Some 1)) HRest)) (proj1_sig x3)).
    { unfold put. rewrite E2, E1. cbn. auto. }
    rewrite (@go_on_rest _ _ _ _ cl svc s0 (fun _ => []) (fun _ => false) 0 _ x3 P3 eq_refl).
    exists x3. cbn. unfold sender. destruct P3 as [P3 P3']. rewrite P3. cbn. split; [reflexivity|]. split.
    - unfold behind. rewrite E2, E1. cbn. auto.
    - apply standing_put. split; [exact P3 | exact P3'].
  Qed.

  Lemma behind_starves r n : forall b (x : bw), behind (proj1_sig x) -> standing (0, PsAcquiring (Some 1)) (proj1_sig x) = true ->
    rounds n r (LoadShedSt bsvc (0, PsAcquiring (Some 1)) b) x = repeat false n.
  Proof.
    induction n as [|n IH]; intros b x Hb Hs; [reflexivity|]. cbn [rounds repeat].
    destruct (@refused x (PsAcquiring (Some 1)) (Sem 0 [1] [0] 2) (proj1 Hb) (proj2 Hb) Hs) as (x1 & E & Hb1 & Hs1); [auto|].
    assert (Er : poll_ready ls (LoadShedSt bsvc (0, PsAcquiring (Some 1)) b) x = (x1, Val (LoadShedSt bsvc (0, PsAcquiring (Some 1)) false, Ready (Ok tt)))).
    { cbn [poll_ready load_shed]. unfold bind. cbn [ls_inner]. rewrite E. reflexivity. }
    rewrite Er. cbn [call load_shed ls_ready]. unfold ret. f_equal. apply IH; assumption.
  Qed.

  Lemma starves_from r n b (x : bw) : y_closed (proj1_sig x) = false -> y_sem (proj1_sig x) = Sem 0 [] [0] 1 ->
    standing (0, PsIdle) (proj1_sig x) = true -> rounds n r (LoadShedSt bsvc (0, PsIdle) b) x = repeat false n.
  Proof.
    intros Hc Hm Hs. destruct n as [|n]; [reflexivity|]. cbn [rounds repeat].
    destruct (@refused x PsIdle (Sem 0 [] [0] 1) Hc Hm Hs) as (x1 & E & Hb1 & Hs1); [auto|].
    assert (Er : poll_ready ls (LoadShedSt bsvc (0, PsIdle) b) x = (x1, Val (LoadShedSt bsvc (0, PsAcquiring (Some 1)) false, Ready (Ok tt)))).
    { cbn [poll_ready load_shed]. unfold bind. cbn [ls_inner]. rewrite E. reflexivity. }
    rewrite Er. cbn [call load_shed ls_ready]. unfold ret. f_equal. apply behind_starves; assumption.
  Qed.

  Lemma world_is bound w ops : proj1_sig (fst (moves ops (buffer_world cl svc s0 bound w))) = fst (buffer_run svc bound s0 w ops).
  Proof. unfold buffer_run. assert (E := @moves_run _ _ _ _ cl svc s0 ops (buffer_world cl svc s0 bound w) []). cbn [proj1_sig buffer_world] in E. rewrite E. reflexivity. Qed.
End Starve.

(** The case in point. *)
Notation quiet := (@buffer_service scr nat nat nat true demo 5 (fun _ => []) (fun _ => false)).
Lemma starves_demo n ops r :
  y_closed (fst (buffer_run demo 1 5 scr0 ops)) = false -> y_sem (fst (buffer_run demo 1 5 scr0 ops)) = Sem 0 [] [0] 1 ->
  standing (0, PsIdle) (fst (buffer_run demo 1 5 scr0 ops)) = true ->
  rounds n r (load_shed_new quiet (0, PsIdle)) (fst (moves ops (buffer_world true demo 5 1 scr0))) = repeat false n.
Proof. intros A B C. apply starves_from; rewrite world_is; assumption. Qed.
