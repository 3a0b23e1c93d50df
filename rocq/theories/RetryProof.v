(** Proofs for C09-C11. *)
From Verif Require Import Base DriveSpec Middleware Track RetrySpec TranspProof.
Set Implicit Arguments.

Section RetryProof.
  Context {W Req Resp Err : Type} (pol : Policy W Req Resp Err) (svc : Service W Req Resp Err).
  Notation ts := (tracked (L := rev_ pol) (RIn (pol := pol)) svc).
  Notation rp := (rpol pol).
  Notation RP := (pst pol * rphase (Req := Req) (Resp := Resp) (Err := Err))%type.
  Notation TW := (W * tk (rev_ pol))%type.

  Lemma rsteps_app i a l b l' c : rsteps (pol := pol) i a l b -> rsteps i b l' c -> rsteps i a (l ++ l') c.
  Proof. induction 1; cbn; eauto using rsteps_cons. Qed.

  Definition abs (f : retry_fut rp ts) (a : RP) : Prop :=
    match rf_state f with
    | RCalled x => a = (rf_pol f, PRunning (fst x) (rf_req f))
    | RWaiting _ => exists q, rf_req f = Some q /\ a = (rf_pol f, PWaiting q)
    | RRetrying => exists q, rf_req f = Some q /\ a = (rf_pol f, PReadying q)
    end.
  Definition inst (f : retry_fut rp ts) : nat := fst (rf_svc f).

  Definition ended (i : nat) a (w : TW) (w1 : TW) (b : RP -> list (rev_ pol) -> Prop) : Prop :=
    exists l c, log_of w1 = rev l ++ log_of w /\ rsteps i a l c /\ b c l.

  Lemma ended_cons i a e b w w1 w2 (P Q : RP -> list (rev_ pol) -> Prop) :
    rsteps (pol := pol) i a e b -> log_of w1 = rev e ++ log_of w ->
    ended i b w1 w2 P -> (forall c l, P c l -> Q c (e ++ l)) -> ended i a w w2 Q.
  Proof.
    intros H1 H2 (l & c & H3 & H4 & H5) H6. exists (e ++ l), c. split; [|split].
    - rewrite rev_app_distr, <- app_assoc, <- H2. exact H3.
    - eapply rsteps_app; eauto.
    - auto.
  Qed.

  Ltac fin_ l c := exists l, c; split; [reflexivity | split; [repeat (econstructor; try solve [constructor])|]].

  Lemma iter_ok f a w :
    abs f a ->
    match retry_iter f w with
    | (w1, Val (inl f1)) => inst f1 = inst f /\
        ended (inst f) a w w1 (fun c _ => abs f1 c)
    | (w1, Val (inr (f1, Pending))) => inst f1 = inst f /\
        ended (inst f) a w w1 (fun c l => abs f1 c /\ exists l' e, l = l' ++ [e] /\ is_pending e)
    | (w1, Val (inr (f1, Ready res))) => ended (inst f) a w w1 (fun c _ => snd c = PDone res)
    | (w1, _) => ended (inst f) a w w1 (fun _ _ => True)
    end.
  Proof.
    destruct f as [rq p [i s] st]. change (pst rp) with (pst pol) in p. unfold abs, retry_iter, inst. cbn [rf_state rf_req rf_pol rf_svc fst].
    destruct st as [[j x]|t|].
    - intros ->. cbn. unfold bind at 1 2. unfold tk_lift. cbn.
      destruct (poll_fut svc x (fst w)) as [w1 [[x1 [|res]]| |]]; cbn.
      + split; [reflexivity|]. fin_ ([RIn (pol := pol) (TPoll j Pending)]) (p, PRunning (Resp := Resp) (Err := Err) j rq).
        split; [reflexivity|]. exists [], (RIn (pol := pol) (TPoll j Pending)). split; [reflexivity | exact I].
      + destruct rq as [q|].
        * unfold bind, tk_lift. cbn.
          destruct (retry_decide pol p q res w1) as [w2 [[[[p1 q1] res1] [t|]]| |]]; cbn.
          -- split; [reflexivity|].
             fin_ ([RIn (pol := pol) (TPoll j (Ready res)); RAsk p p1 q q1 res res1 true; RIn (pol := pol) (TDropFut j)])
                (p1, PWaiting (Resp := Resp) (Err := Err) q1).
             eauto.
          -- fin_ ([RIn (pol := pol) (TPoll j (Ready res)); RAsk p p1 q q1 res res1 false])
                (p1, PDone (Req := Req) res1). reflexivity.
          -- fin_ ([RIn (pol := pol) (TPoll j (Ready res))]) (p, PAnswered j q res). exact I.
          -- fin_ ([RIn (pol := pol) (TPoll j (Ready res))]) (p, PAnswered j q res). exact I.
        * cbn. fin_ ([RIn (pol := pol) (TPoll j (Ready res))]) (p, PDone (Req := Req) res). reflexivity.
      + fin_ (@nil (rev_ pol)) (p, PRunning (Resp := Resp) (Err := Err) j rq). exact I.
      + fin_ (@nil (rev_ pol)) (p, PRunning (Resp := Resp) (Err := Err) j rq). exact I.
    - intros (q & -> & ->). cbn. unfold bind, tk_lift. cbn.
      destruct (tpoll (pfut pol) t (fst w)) as [w1 [[t1 [|[]]]| |]]; cbn.
      + split; [reflexivity|]. fin_ ([RWait (pol := pol) Pending]) (p, PWaiting (Resp := Resp) (Err := Err) q).
        split; [eauto|]. exists [], (RWait (pol := pol) Pending). split; [reflexivity | exact I].
      + split; [reflexivity|]. fin_ ([RWait (pol := pol) (Ready tt); RWaitDrop]) (p, PReadying (Resp := Resp) (Err := Err) q).
        eauto.
      + fin_ (@nil (rev_ pol)) (p, PWaiting (Resp := Resp) (Err := Err) q). exact I.
      + fin_ (@nil (rev_ pol)) (p, PWaiting (Resp := Resp) (Err := Err) q). exact I.
    - intros (q & -> & ->). cbn. unfold bind, tk_lift. cbn.
      destruct (poll_ready svc s (fst w)) as [w1 [[s1 [|[[]|e]]]| |]]; cbn.
      + split; [reflexivity|]. fin_ ([RIn (pol := pol) (TReady i Pending)]) (p, PReadying (Resp := Resp) (Err := Err) q).
        split; [eauto|]. exists [], (RIn (pol := pol) (TReady i Pending)). split; [reflexivity | exact I].
      + unfold bind, tk_lift. cbn.
        destruct (clone_request pol p q w1) as [w2 [[p1 saved]| |]]; cbn.
        * unfold bind, tk_lift. cbn.
          destruct (call svc s1 q w2) as [w3 [[s2 x]| |]]; cbn.
          -- split; [reflexivity|].
             fin_ ([RIn (pol := pol) (TReady i (Ready (Ok tt))); RSave p p1 q saved; RIn (pol := pol) (TCall i q (tk_next (snd w)))])
               (p1, PRunning (Resp := Resp) (Err := Err) (tk_next (snd w)) saved). reflexivity.
          -- fin_ ([RIn (pol := pol) (TReady i (Ready (Ok tt))); RSave p p1 q saved])
               (p1, PCalling (Resp := Resp) (Err := Err) q saved). exact I.
          -- fin_ ([RIn (pol := pol) (TReady i (Ready (Ok tt))); RSave p p1 q saved])
               (p1, PCalling (Resp := Resp) (Err := Err) q saved). exact I.
        * fin_ ([RIn (pol := pol) (TReady i (Ready (Ok tt)))]) (p, PSaving (Resp := Resp) (Err := Err) q). exact I.
        * fin_ ([RIn (pol := pol) (TReady i (Ready (Ok tt)))]) (p, PSaving (Resp := Resp) (Err := Err) q). exact I.
      + fin_ ([RIn (pol := pol) (TReady i (Ready (Er e)))]) (p, PDone (Req := Req) (Resp := Resp) (Er e)). reflexivity.
      + fin_ (@nil (rev_ pol)) (p, PReadying (Resp := Resp) (Err := Err) q). exact I.
      + fin_ (@nil (rev_ pol)) (p, PReadying (Resp := Resp) (Err := Err) q). exact I.
  Qed.

  Lemma poll_ok fuel f a w :
    abs f a ->
    match retry_poll fuel f w with
    | (w1, Val (f1, Pending)) => inst f1 = inst f /\
        ended (inst f) a w w1 (fun c l => abs f1 c /\ exists l' e, l = l' ++ [e] /\ is_pending e)
    | (w1, Val (f1, Ready res)) => ended (inst f) a w w1 (fun c _ => snd c = PDone res)
    | (w1, _) => ended (inst f) a w w1 (fun _ _ => True)
    end.
  Proof.
    revert f a w. induction fuel as [|n IH]; intros f a w Ha.
    { cbn. exists [], a. split; [reflexivity | split; [constructor | exact I]]. }
    cbn [retry_poll]. unfold bind at 1. generalize (@iter_ok f a w Ha).
    destruct (retry_iter f w) as [w1 [[f1|[f1 [|res]]]| |]]; cbn; auto.
    intros [Hi (l & c & H1 & H2 & H3)].
    generalize (@IH f1 c w1 H3). rewrite Hi.
    destruct (retry_poll n f1 w1) as [w2 [[f2 [|res]]| |]].
    - intros [Hj H]. split; [congruence|]. eapply ended_cons; eauto.
      intros c' l0 [H4 (l' & e & -> & H5)]. split; auto. exists (l ++ l'), e. rewrite app_assoc. auto.
    - intros H. eapply ended_cons; eauto.
    - intros H. eapply ended_cons; eauto.
    - intros H. eapply ended_cons; eauto.
  Qed.

  Lemma ended_env i a w w1 g P : ended i a (tk_env g w) w1 P -> ended i a w w1 P.
  Proof. intros H. exact H. Qed.

  (** The worlds right after each [Pending] answer have a pending event newest. *)
  Lemma retry_drive fuel f a w gs :
    abs f a ->
    let d := drive (poll_fut (tretry pol svc fuel)) f w (map tk_env gs) in
    Forall (fun x => exists e l, log_of x = e :: l /\ is_pending e) (fst d) /\
    match snd d with
    | Finished _ w1 res => ended (inst f) a w w1 (fun c _ => snd c = PDone res)
    | Unfinished _ w1 => ended (inst f) a w w1 (fun c _ => forall res, snd c <> PDone res)
    | Panicked w1 | Spun w1 => ended (inst f) a w w1 (fun _ _ => True)
    end.
  Proof.
    cbv zeta. revert f a w. induction gs as [|g gs IH]; intros f a w Ha; cbn [map drive].
    { split; [constructor|]. cbn. exists [], a. split; [reflexivity | split; [constructor|]].
      destruct f as [rq p s st]. unfold abs in Ha. cbn in Ha.
      destruct st; [subst a; discriminate | |]; destruct Ha as (q & _ & ->); discriminate. }
    change (poll_fut (tretry pol svc fuel) f) with (retry_poll fuel f).
    generalize (@poll_ok fuel f a (tk_env g w) Ha).
    destruct (retry_poll fuel f (tk_env g w)) as [w1 [[f1 [|res]]| |]].
    - intros [Hi (l & c & H1 & H2 & H3 & l' & e & -> & H4)].
      specialize (@IH f1 c w1 H3). rewrite Hi in IH.
      destruct (drive (poll_fut (tretry pol svc fuel)) f1 w1 (map tk_env gs)) as [ws en].
      destruct IH as [IH1 IH2]. split.
      + constructor; auto. exists e. rewrite rev_app_distr in H1. cbn in H1. eauto.
      + cbn [snd] in *. destruct en; (eapply ended_cons; [eassumption | exact H1 | exact IH2 |]); auto.
    - intros H. split; [constructor|]. exact H.
    - intros H. split; [constructor|]. exact H.
    - intros H. split; [constructor|]. exact H.
  Qed.

  (** The call. *)
  Lemma retry_call fuel p i s r w w1 ps f :
    call (tretry pol svc fuel) (p, (i, s)) r w = (w1, Val (ps, f)) ->
    exists p1 p2 saved j i',
      log_of w1 = [RIn (pol := pol) (TClone i i'); RPolClone (pol := pol) p1 p2;
                   RIn (pol := pol) (TCall i r j); RSave (pol := pol) p p1 r saved] ++ log_of w /\
      fst ps = p1 /\ fst (snd ps) = i /\ inst f = i' /\ abs f (p2, PRunning j saved).
  Proof.
    cbn. unfold bind, tk_lift. cbn.
    destruct (clone_request pol p r (fst w)) as [w2 [[p1 saved]| |]]; try discriminate. cbn.
    unfold bind, tk_lift. cbn.
    destruct (call svc s r w2) as [w3 [[s1 x]| |]]; try discriminate. cbn.
    unfold bind, tk_lift. cbn.
    destruct (pol_clone pol p1 w3) as [w4 [p2| |]]; try discriminate. cbn.
    destruct (clone svc s1 w4) as [w5 [s2| |]]; try discriminate. cbn.
    intros E. injection E as <- <- <-.
    exists p1, p2, saved, (tk_next (snd w)), (S (tk_next (snd w))). cbn. auto.
  Qed.

  (** Consequences of the protocol. *)
  Definition pend_call (x : RP) : nat :=
    match snd x with
    | PGranted _ _ | PWaiting _ | PWaited _ | PReadying _ | PSaving _ | PCalling _ _ => 1
    | _ => 0
    end.
  Lemma count_cons f (e : rev_ pol) l : count f (e :: l) = (if f e then 1 else 0) + count f l.
  Proof. unfold count. cbn. destruct (f e); reflexivity. Qed.

  Lemma done_stuck i p res l c : rsteps (pol := pol) i (p, PDone res) l c -> l = [] /\ c = (p, PDone res).
  Proof. inversion 1; subst; auto. inversion H0. Qed.

  (** Ending by a readiness error. *)
  Definition by_error (i : nat) (l : list (rev_ pol)) (res : result Resp Err) : Prop :=
    exists l' e, l = l' ++ [RIn (pol := pol) (TReady i (Ready (Er e)))] /\ res = Er e.

  Lemma retry_count i a l c :
    rsteps (pol := pol) i a l c -> forall res, snd c = PDone res -> (forall r, snd a <> PDone r) ->
    count (is_call (pol := pol)) l = pend_call a + count (is_grant (pol := pol)) l \/
    (S (count (is_call (pol := pol)) l) = pend_call a + count (is_grant (pol := pol)) l /\ by_error i l res).
  Proof.
    intros H. induction H as [a|a e b l c H1 H2 IH]; intros res Hc Ha.
    { exfalso. exact (Ha _ Hc). }
    assert (K : (forall r, snd b <> PDone r) \/ exists r, snd b = PDone r).
    { destruct b as [pb [| | | | | | | |r]]; cbn; try (left; discriminate). right; eauto. }
    destruct K as [K|[r K]].
    - specialize (IH res Hc K). rewrite !count_cons.
      destruct IH as [IH|[IH (l' & x & -> & ->)]].
      + left. inversion H1; subst; cbn in *; try lia; exfalso; eapply K; reflexivity.
      + right. split; [|exists (e :: l'), x; auto].
        inversion H1; subst; cbn in *; try lia; exfalso; eapply K; reflexivity.
    - destruct b as [pb fb]. cbn in K. subst fb. apply done_stuck in H2. destruct H2 as [-> ->].
      cbn in Hc. injection Hc as ->. rewrite !count_cons. cbn.
      inversion H1; subst; cbn; auto.
      right. split; auto. exists [], e0. auto.
  Qed.

  Lemma rsteps_snoc i a l e c :
    rsteps (pol := pol) i a (l ++ [e]) c -> exists b, rsteps i a l b /\ rstep i b e c.
  Proof.
    revert a. induction l as [|x l IH]; intros a H; cbn in H; inversion H; subst.
    - inversion H5; subst. exists a. split; [constructor | auto].
    - destruct (IH _ H5) as (b0 & H6 & H7). exists b0. split; [econstructor; eauto | auto].
  Qed.
  Lemma rsteps_split i a l l' c :
    rsteps (pol := pol) i a (l ++ l') c -> exists b, rsteps i a l b /\ rsteps i b l' c.
  Proof.
    revert a. induction l as [|x l IH]; intros a H; cbn in H.
    - exists a. split; [constructor | auto].
    - inversion H; subst. destruct (IH _ H5) as (b0 & H6 & H7). exists b0. split; [econstructor; eauto | auto].
  Qed.

  (** Every further attempt: the policy's future completed, then the service
      was polled until ready, then a copy saved, then the call. *)
  Lemma readying_before i p j saved l p' q :
    rsteps (pol := pol) i (p, PRunning j saved) l (p', PReadying q) ->
    exists l0 n, l = l0 ++ [RWait (Ready tt); RWaitDrop] ++ repeat (RIn (TReady i Pending)) n.
  Proof.
    induction l as [|e l IH] using rev_ind; intros H; [inversion H|].
    apply rsteps_snoc in H. destruct H as ([pb fb] & H1 & H2). inversion H2; subst.
    - destruct l as [|e l _] using rev_ind; [inversion H1|].
      apply rsteps_snoc in H1. destruct H1 as ([pc fc] & H1 & H3). inversion H3; subst.
      exists l, 0. cbn. rewrite <- app_assoc. reflexivity.
    - destruct (IH H1) as (l0 & n & ->). exists l0, (S n).
      replace (S n) with (n + 1) by lia. rewrite repeat_app. cbn. rewrite <- app_assoc. reflexivity.
  Qed.

  Lemma retry_attempt i p j saved l1 k q j' l2 c :
    rsteps (pol := pol) i (p, PRunning j saved) (l1 ++ RIn (TCall k q j') :: l2) c ->
    k = i /\ exists l0 n p1 p2 saved',
      l1 = l0 ++ [RWait (Ready tt); RWaitDrop] ++ repeat (RIn (TReady i Pending)) n
              ++ [RIn (TReady i (Ready (Ok tt))); RSave p1 p2 q saved'].
  Proof.
    intros H. apply rsteps_split in H. destruct H as (b & H1 & H2). inversion H2; subst. inversion H4; subst.
    split; auto.
    destruct l1 as [|e l1 _] using rev_ind; [inversion H1|].
    apply rsteps_snoc in H1. destruct H1 as (b & H1 & H3). inversion H3; subst.
    destruct l1 as [|e l1 _] using rev_ind; [inversion H1|].
    apply rsteps_snoc in H1. destruct H1 as (b & H1 & H7). inversion H7; subst.
    apply readying_before in H1. destruct H1 as (l0 & n & ->).
    exists l0, n, p1, p0, saved0. rewrite <- !app_assoc. reflexivity.
  Qed.

  Lemma retry_ask i p j saved l1 (pa p1 : pst pol) q q1 res res1 granted l2 c :
    rsteps (pol := pol) i (p, PRunning j saved) (l1 ++ RAsk pa p1 q q1 res res1 granted :: l2) c ->
    exists j' l0, l1 = l0 ++ [RIn (TPoll j' (Ready res))] /\
      (granted = false -> l2 = [] /\ c = (p1, PDone res1)) /\
      (granted = true -> forall e l', l2 = e :: l' -> e = RIn (TDropFut j')).
  Proof.
    intros H. apply rsteps_split in H. destruct H as (b & H1 & H2). inversion H2; subst.
    assert (K : exists pb j', b = (pb, PAnswered j' q res)) by (inversion H4; subst; eauto).
    destruct K as (pb & j' & ->).
    destruct l1 as [|e l1 _] using rev_ind; [inversion H1|].
    apply rsteps_snoc in H1. destruct H1 as (b & H1 & H3). inversion H3; subst.
    exists j', l1. split; [reflexivity|]. split; intros ->; inversion H4; subst.
    - apply done_stuck in H6. exact H6.
    - intros e l' ->. inversion H6; subst. inversion H7; subst. reflexivity.
  Qed.

  (** Nothing saved: the policy is not asked, nothing is retried, and the
      attempt's response is the answer. *)
  Lemma retry_unsaved i p j l c :
    rsteps (pol := pol) i (p, PRunning j None) l c ->
    exists n, l = repeat (RIn (TPoll j Pending)) n /\ c = (p, PRunning j None) \/
      exists res, l = repeat (RIn (TPoll j Pending)) n ++ [RIn (TPoll j (Ready res))] /\ c = (p, PDone res).
  Proof.
    revert c. induction l as [|e l IH]; intros c H.
    - inversion H; subst. exists 0. left. auto.
    - inversion H; subst. inversion H3; subst.
      + destruct (IH _ H5) as [n [[-> ->]|[res [-> ->]]]]; exists (S n); [left | right; exists res]; auto.
      + apply done_stuck in H5. destruct H5 as [-> ->]. exists 0. right. exists res. auto.
  Qed.

  Lemma retry_request fuel p i s r w w1 ps f gs :
    call (tretry pol svc fuel) (p, (i, s)) r w = (w1, Val (ps, f)) ->
    exists p1 p2 saved j i',
      log_of w1 = [RIn (TClone i i'); RPolClone (pol := pol) p1 p2; RIn (TCall i r j);
                   RSave (pol := pol) p p1 r saved] ++ log_of w /\
      let d := drive (poll_fut (tretry pol svc fuel)) f w1 (map tk_env gs) in
      Forall (fun x => exists e l, log_of x = e :: l /\ is_pending e) (fst d) /\
      match snd d with
      | Finished _ w2 res =>
          exists l p', log_of w2 = rev l ++ log_of w1 /\ rsteps i' (p2, PRunning j saved) l (p', PDone res) /\
            (count is_call l = count is_grant l \/
             S (count is_call l) = count is_grant l /\
             exists l' e, l = l' ++ [RIn (TReady i' (Ready (Er e)))] /\ res = Er e)
      | Unfinished _ w2 =>
          exists l p' ph, log_of w2 = rev l ++ log_of w1 /\ rsteps i' (p2, PRunning j saved) l (p', ph) /\
            forall res, ph <> PDone res
      | Panicked w2 | Spun w2 =>
          exists l x, log_of w2 = rev l ++ log_of w1 /\ rsteps i' (p2, PRunning j saved) l x
      end.
  Proof.
    intros Hc. destruct (retry_call _ _ _ _ _ Hc) as (p1 & p2 & saved & j & i' & H1 & _ & _ & H2 & H3).
    exists p1, p2, saved, j, i'. split; [exact H1|].
    destruct (@retry_drive fuel f _ w1 gs H3) as [H4 H5]. split; [exact H4|].
    rewrite H2 in H5. destruct (snd (drive (poll_fut (tretry pol svc fuel)) f w1 (map tk_env gs))) as [x w2|x w2 res|w2|w2];
      destruct H5 as (l & [p' ph] & H5 & H6 & H7).
    - exists l, p', ph. auto.
    - cbn in H7. subst ph. exists l, p'. split; [auto | split; [auto |]].
      destruct (retry_count H6 eq_refl) as [H7|[H7 H8]]; [discriminate| left; exact H7 | right].
      split; [exact H7 | exact H8].
    - exists l, (p', ph). auto.
    - exists l, (p', ph). auto.
  Qed.

  Lemma retry_ready fuel (p : pst pol) s w gs :
    drive (poll_ready (retry pol svc fuel)) (p, s) w gs =
    fin_then (fun s1 => (p, s1)) (fun s1 v => ret ((p, s1), v)) (drive (poll_ready svc) s w gs).
  Proof.
    apply drive_map with (wrap := fun s1 => (p, s1)). cbn; unfold bind, ret. intros x w0.
    destruct (poll_ready svc x w0) as [w1 [[f1 [|v]]| |]]; reflexivity.
  Qed.
End RetryProof.
