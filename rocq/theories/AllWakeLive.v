(** Proofs for C89: a call that is done is answered; the collections return. *)
From Verif Require Import Base Middleware ReadyCache CallAll WakeCache WakeAll AllWakeSpec AllWakeProof.
Set Implicit Arguments.

Section Fu.
  Context {W F O T : Type} (rings : W -> list waker) (fpoll : F -> M W (F * poll O)) (fdrop : F -> W -> W) (stop : nat -> nat -> nat -> bool).
  Context (up : W -> Prop).
  Notation X := (W * ringer)%type.
  Notation fu := (wfu F T).

  Lemma find_other t k (l : list (nat * (T * F))) : t <> k -> wf_find k (wf_del t l) = wf_find k l.
  Proof.
    intros N. induction l as [|[i y] l IH]; [reflexivity|]. cbn. destruct (Nat.eqb_spec i t) as [->|Ni]; cbn.
    - fold (wf_del t l). rewrite (proj2 (Nat.eqb_neq t k) N). exact IH.
    - fold (wf_del t l). rewrite IH. reflexivity.
  Qed.
  Lemma del_shorter t (l : list (nat * (T * F))) : wf_find t l <> None -> length (wf_del t l) < length l.
  Proof.
    intros H. unfold wf_del. induction l as [|[i y] l IH]; [contradiction|]. cbn in *. destruct (i =? t); cbn.
    - assert (D := filter_length_le (fun y : nat * (T * F) => negb (fst y =? t)) l). lia.
    - specialize (IH H). lia.
  Qed.
  Lemma in_find k x : forall l : list (nat * (T * F)), NoDup (map fst l) -> In (k, x) l -> wf_find k l = Some x.
  Proof.
    induction l as [|[i y] l IH]; intros N I; [destruct I|]. cbn [map fst] in N. apply NoDup_cons_iff in N. destruct N as [N1 N2]. cbn [wf_find].
    destruct I as [I|I]; [injection I as -> ->; rewrite Nat.eqb_refl; reflexivity|]. destruct (Nat.eqb_spec i k) as [->|Ni]; [|exact (IH N2 I)].
    destruct N1. apply in_map_iff. exists (k, x). split; [reflexivity | exact I].
  Qed.

  Lemma loop_ready k g f : (forall f w, up w -> exists w1 f1 o, fpoll f w = (w1, Val (f1, Ready o)) /\ up w1) -> (forall f w, up w -> up (fdrop f w)) ->
    forall fuel y n len (q : fu) (w : W) (r : ringer), up w -> wf_find k (wf_tasks q) = Some (g, f) -> In k (rg_queue r) -> length (rg_queue r) < fuel ->
    exists w1 r1 q1 i o, wf_loop rings fpoll fdrop stop fuel y n len q (w, r) = ((w1, r1), Val (q1, Ready (Some (i, o)))) /\ up w1 /\ wf_fresh q1 = wf_fresh q /\
      (i = g \/ wf_find k (wf_tasks q1) = Some (g, f) /\ In k (rg_queue r1) /\ length (wf_tasks q1) < length (wf_tasks q)).
  Proof.
    intros HP HD. induction fuel as [|fuel IH]; intros y n len q w r U Hk Ik Hl; [lia|]. cbn [wf_loop]. unfold bind at 1, get at 1. cbn [snd].
    destruct (rg_queue r) as [|t rest] eqn:Eq; [destruct Ik|]. unfold bind at 1, on_ringer, modify. cbn [fst snd].
    destruct (wf_find t (wf_tasks q)) as [[k' f']|] eqn:Ef.
    - unfold bind at 1, rung. cbn [fst snd]. destruct (HP f' w U) as (w1 & f1 & o & E & U1). rewrite E. cbn [fold_left].
      unfold bind, on_ringer, modify, ret. cbn [fst snd is_pending rungw]. eexists _, _, _, _, _. split; [reflexivity|]. split; [apply HD, U1|]. split; [reflexivity|].
      destruct (Nat.eq_dec t k) as [->|N]; [left; rewrite Hk in Ef; injection Ef as -> ->; reflexivity|]. right. cbn [wf_tasks]. rewrite find_other by exact N. split; [exact Hk|].
      split; [|apply del_shorter; rewrite Ef; discriminate]. apply queue_rings. cbn [forget_child rg_queue]. apply queue_rings. cbn [anote set_queue rg_queue]. destruct Ik as [Ik|Ik]; [contradiction | exact Ik].
    - apply IH; [exact U | exact Hk | | cbn [set_queue rg_queue]; cbn in Hl; lia]. cbn [set_queue rg_queue]. destruct Ik as [->|Ik]; [congruence | exact Ik].
  Qed.
  Lemma next_ready k g f (q : fu) (w : W) (r : ringer) : (forall f w, up w -> exists w1 f1 o, fpoll f w = (w1, Val (f1, Ready o)) /\ up w1) -> (forall f w, up w -> up (fdrop f w)) ->
    up w -> wf_find k (wf_tasks q) = Some (g, f) -> In k (rg_queue r ++ wf_fresh q) ->
    exists w1 r1 q1 i o, wf_next rings fpoll fdrop stop q (w, r) = ((w1, r1), Val (q1, Ready (Some (i, o)))) /\ up w1 /\
      (i = g \/ wf_find k (wf_tasks q1) = Some (g, f) /\ In k (rg_queue r1 ++ wf_fresh q1) /\ length (wf_tasks q1) < length (wf_tasks q)).
  Proof.
    intros HP HD U Hk Ik. unfold wf_next, bind, on_ringer, modify, get. cbn [fst snd].
    destruct (@loop_ready k g f HP HD (S (length (rg_queue r ++ wf_fresh q) + length (wf_tasks q))) 0 0 (length (wf_tasks q)) (WFu (wf_tasks q) [] (wf_num q)) w
      (Ringer (rg_queue r ++ wf_fresh q) (rg_live r ++ wf_fresh q) true (rg_woken r) (rg_log r))) as (w1 & r1 & q1 & i & o & E & U1 & Ef & D); [exact U | exact Hk | exact Ik | cbn [rg_queue]; lia|].
    exists w1, r1, q1, i, o. split; [exact E|]. split; [exact U1|]. destruct D as [D|(D1 & D2 & D3)]; [left; exact D|right]. split; [exact D1|]. split; [apply in_or_app; left; exact D2 | exact D3].
  Qed.
  (** After its waker fired a child is in the queue. *)
  Lemma rung_queued k (q : fu) r : winv q r -> In k (ids q) -> In k (rg_queue (aring (WkChild k) r) ++ wf_fresh q).
  Proof.
    intros H I. apply in_or_app. destruct (wi_sound H k I) as [D|[D1 D2]]; [right; exact D | left]. unfold aring, anote. cbn [rg_queue].
    rewrite (proj2 (memn_in _ _) D1). destruct (memn k (rg_queue r)) eqn:E; cbn [negb andb rg_queue]; [apply memn_in, E | apply in_or_app; right; left; reflexivity].
  Qed.
  Lemma some_shorter fuel : forall y n len (q : fu) (x x1 : X) q1 i, wf_loop rings fpoll fdrop stop fuel y n len q x = (x1, Val (q1, Ready (Some i))) -> length (wf_tasks q1) < length (wf_tasks q).
  Proof.
    induction fuel as [|fuel IH]; intros y n len q [w r] x1 q1 i E; [discriminate E|]. cbn [wf_loop] in E. unfold bind at 1, get at 1 in E. cbn [snd] in E.
    destruct (rg_queue r) as [|t rest]; [destruct (wf_tasks q); discriminate E|]. unfold bind at 1, on_ringer, modify in E. cbn [fst snd] in E.
    destruct (wf_find t (wf_tasks q)) as [[k' f']|] eqn:Ef; [|exact (IH _ _ _ _ _ _ _ _ E)].
    unfold bind at 1, rung in E. cbn [fst snd] in E. destruct (fpoll f' w) as [w2 [[f1 [|o]]| |]]; try discriminate E.
    - unfold bind at 1, get in E. destruct (stop _ _ _); [discriminate E|]. apply IH in E. cbn [wf_tasks] in E. unfold wf_put in E. rewrite map_length in E. exact E.
    - unfold bind, on_ringer, modify, ret in E. injection E as _ <- _. cbn [wf_tasks]. apply del_shorter. rewrite Ef. discriminate.
  Qed.
  Lemma next_shorter (q : fu) (x x1 : X) q1 i : wf_next rings fpoll fdrop stop q x = (x1, Val (q1, Ready (Some i))) -> length (wf_tasks q1) < length (wf_tasks q).
  Proof. intros E. unfold wf_next, bind, on_ringer, modify, get in E. apply some_shorter in E. exact E. Qed.
End Fu.

Section All.
  Context {W Req Resp Err : Type} (svc : Service W Req Resp Err) (S : Stream W Req) (rings : W -> list waker) (fuel : nat) (stop : nat -> nat -> nat -> bool).
  Context (up : W -> Prop).
  Notation X := (W * ringer)%type.
  Notation UQ := (wunordered rings (poll_fut svc) (drop_fut svc) stop).
  Notation OQ := (wordered rings (poll_fut svc) (drop_fut svc) stop).
  Notation rsvc := (rung_svc rings svc).
  Notation rstr := (rung_stream rings S).

  Lemma poll_through (Q : Drive X (fut svc) (result Resp Err)) (c : call_all rsvc rstr Q) (x x1 : X) q o : 0 < fuel ->
    q_poll Q (ca_queue c) (fst x, Ringer (rg_queue (snd x)) (rg_live (snd x)) (rg_parent (snd x)) false (rg_log (snd x))) = (x1, Val (q, Ready (Some o))) ->
    exists c1, lstep svc S rings fuel Q LPoll (c, x) = Some (LPolled (Ready (Some o)), c1, x1).
  Proof.
    intros Hf E. set (r0 := Ringer (rg_queue (snd x)) (rg_live (snd x)) (rg_parent (snd x)) false (rg_log (snd x))) in *.
    assert (N : ca_next fuel c (fst x, r0) = (x1, Val (CA (ca_svc c) (ca_stream c) q (ca_eof c) (ca_req c), Ready (Some o)))).
    { destruct (Nat.lt_exists_pred 0 fuel Hf) as (m & Hm & _). rewrite Hm. cbn [ca_next]. unfold bind at 1.
      match goal with |- (let (_, _) := ?m in _) = _ => replace m with (x1, Val (q, Ready (Some o))) by (symmetry; exact E) end. reflexivity. }
    eexists. unfold lstep. fold r0. rewrite N. reflexivity.
  Qed.

  Hypothesis HP : forall f w, up w -> exists w1 f1 o, poll_fut svc f w = (w1, Val (f1, Ready o)) /\ up w1.
  Hypothesis HD : forall f w, up w -> up (drop_fut svc f w).

  Theorem unordered_comes s t w l n b c x k :
    nth_error (lhistory svc S rings fuel UQ s t w l) n = Some (b, c, x) -> 0 < fuel -> up (fst x) -> In k (unordered_ids (ca_queue c)) ->
    exists o c1 x1, lstep svc S rings fuel UQ LPoll (c, (fst x, aring (WkChild k) (snd x))) = Some (LPolled (Ready (Some o)), c1, x1).
  Proof.
    intros E Hf U I. assert (HQ := unordered_proper rings (poll_fut svc) (drop_fut svc) stop).
    assert (V : winv (ca_queue c) (snd x)) by exact (proj1 (@run_all _ _ _ _ svc S rings fuel UQ _ _ _ _ HQ l (ca_new rsvc rstr UQ s t) (w, ringer0) (pr_new HQ) n b c x E)).
    assert (D := find_in k (wf_tasks (ca_queue c))). destruct (wf_find k (wf_tasks (ca_queue c))) as [[g f]|] eqn:Ek; [|contradiction].
    destruct (@next_ready _ _ _ _ rings (poll_fut svc) (drop_fut svc) stop up k g f (ca_queue c) (fst x)
      (Ringer (rg_queue (aring (WkChild k) (snd x))) (rg_live (aring (WkChild k) (snd x))) (rg_parent (aring (WkChild k) (snd x))) false (rg_log (aring (WkChild k) (snd x))))
      HP HD U Ek (rung_queued k V I)) as (w1 & r1 & q1 & i & o & En & _).
    destruct (@poll_through UQ c (fst x, aring (WkChild k) (snd x)) (w1, r1) q1 o Hf) as [c1 Ec].
    { cbn [fst snd q_poll wunordered]. unfold bind. rewrite En. reflexivity. }
    exists o, c1, (w1, r1). exact Ec.
  Qed.

  Lemma word_ready k f : forall n (q : wordq (F := fut svc) (O := result Resp Err)) (w : W) (r : ringer), up w -> wf_find k (wf_tasks (wo_fu q)) = Some (wo_out q, f) -> In k (rg_queue r ++ wf_fresh (wo_fu q)) ->
    length (wf_tasks (wo_fu q)) < n ->
    exists x1 q1 o, word_loop rings (poll_fut svc) (drop_fut svc) stop n q (w, r) = (x1, Val (q1, Ready (Some o))).
  Proof.
    induction n as [|n IH]; intros q w r U Hk Ik Hl; [lia|]. cbn [word_loop]. unfold bind.
    destruct (@next_ready _ _ _ _ rings (poll_fut svc) (drop_fut svc) stop up k (wo_out q) f (wo_fu q) w r HP HD U Hk Ik) as (w1 & r1 & q1 & i & o & -> & U1 & D).
    destruct (Nat.eqb_spec i (wo_out q)) as [Ei|Ni]; [eexists _, _, _; reflexivity|]. destruct D as [D|(D1 & D2 & D3)]; [contradiction|].
    apply IH; cbn [wo_fu wo_out]; [exact U1 | exact D1 | exact D2 | lia].
  Qed.
  Theorem ordered_comes s t w l n b c x k f :
    nth_error (lhistory svc S rings fuel OQ s t w l) n = Some (b, c, x) -> 0 < fuel -> up (fst x) -> In (k, (wo_out (ca_queue c), f)) (wf_tasks (wo_fu (ca_queue c))) ->
    exists o c1 x1, lstep svc S rings fuel OQ LPoll (c, (fst x, aring (WkChild k) (snd x))) = Some (LPolled (Ready (Some o)), c1, x1).
  Proof.
    intros E Hf U I. assert (HQ := ordered_proper rings (poll_fut svc) (drop_fut svc) stop).
    assert (V : winv (wo_fu (ca_queue c)) (snd x)) by exact (proj1 (@run_all _ _ _ _ svc S rings fuel OQ _ _ _ _ HQ l (ca_new rsvc rstr OQ s t) (w, ringer0) (pr_new HQ) n b c x E)).
    assert (D := in_find _ _ _ (wi_nodup V) I).
    assert (Ik : In k (ids (wo_fu (ca_queue c)))) by (apply in_map_iff; eexists; split; [|exact I]; reflexivity).
    set (r0 := Ringer (rg_queue (aring (WkChild k) (snd x))) (rg_live (aring (WkChild k) (snd x))) (rg_parent (aring (WkChild k) (snd x))) false (rg_log (aring (WkChild k) (snd x)))).
    assert (P : exists x1 q1 o, word_next rings (poll_fut svc) (drop_fut svc) stop (ca_queue c) (fst x, r0) = (x1, Val (q1, Ready (Some o)))).
    { unfold word_next. assert (Y := fun n => @word_ready k f n (ca_queue c) (fst x) r0 U D (rung_queued k V Ik)).
      destruct (wo_done (ca_queue c)) as [|[i o] h]; [apply Y; lia|]. destruct (i =? wo_out (ca_queue c)); [eexists _, _, _; reflexivity | apply Y; lia]. }
    destruct P as (x1 & q1 & o & P). destruct (@poll_through OQ c (fst x, aring (WkChild k) (snd x)) x1 q1 o Hf P) as [c1 Ec]. exists o, c1, x1. exact Ec.
  Qed.
End All.

(** ** The collections return. *)
Section Returns.
  Context {W Req Resp Err : Type} (svc : Service W Req Resp Err) (S : Stream W Req) (rings : W -> list waker) (fuel : nat) (stop : nat -> nat -> nat -> bool).
  Hypothesis HF : forall f w, exists w1 f1 a, poll_fut svc f w = (w1, Val (f1, a)).
  Hypothesis HS : forall y n, stop y n n = true.
  Notation X := (W * ringer)%type.
  Notation UQ := (wunordered rings (poll_fut svc) (drop_fut svc) stop).
  Notation OQ := (wordered rings (poll_fut svc) (drop_fut svc) stop).
  Notation rsvc := (rung_svc rings svc).
  Notation rstr := (rung_stream rings S).
  Lemma eof_through (Q : Drive X (fut svc) (result Resp Err)) (c : call_all rsvc rstr Q) (x : X) : 0 < fuel -> ca_eof c = true ->
    (exists x1 q a, q_poll Q (ca_queue c) (fst x, Ringer (rg_queue (snd x)) (rg_live (snd x)) (rg_parent (snd x)) false (rg_log (snd x))) = (x1, Val (q, a))) ->
    exists a c1 x1, lstep svc S rings fuel Q LPoll (c, x) = Some (LPolled a, c1, x1).
  Proof.
    intros Hf He (x1 & q & a & E). set (r0 := Ringer (rg_queue (snd x)) (rg_live (snd x)) (rg_parent (snd x)) false (rg_log (snd x))) in *.
    assert (N : exists c1 b, ca_next fuel c (fst x, r0) = (x1, Val (c1, b))).
    { destruct (Nat.lt_exists_pred 0 fuel Hf) as (m & Hm & _). rewrite Hm. cbn [ca_next]. unfold bind at 1.
      match goal with |- exists c1 b, (let (_, _) := ?m in _) = _ => replace m with (x1, Val (q, a)) by (symmetry; exact E) end. rewrite He. destruct a as [|[o|]]; eexists _, _; reflexivity. }
    destruct N as (c1 & b & N). exists b, c1, x1. unfold lstep. fold r0. rewrite N. reflexivity.
  Qed.
  Theorem unordered_returns s t w l n b c x :
    nth_error (lhistory svc S rings fuel UQ s t w l) n = Some (b, c, x) -> 0 < fuel -> ca_eof c = true ->
    exists a c1 x1, lstep svc S rings fuel UQ LPoll (c, x) = Some (LPolled a, c1, x1).
  Proof.
    intros E Hf He. assert (HQ := unordered_proper rings (poll_fut svc) (drop_fut svc) stop).
    assert (V : winv (ca_queue c) (snd x)) by exact (proj1 (@run_all _ _ _ _ svc S rings fuel UQ _ _ _ _ HQ l (ca_new rsvc rstr UQ s t) (w, ringer0) (pr_new HQ) n b c x E)).
    apply eof_through; [exact Hf | exact He|].
    destruct (@next_returns _ _ _ _ rings (poll_fut svc) (drop_fut svc) stop (ca_queue c) (fst x, Ringer (rg_queue (snd x)) (rg_live (snd x)) (rg_parent (snd x)) false (rg_log (snd x))) HF HS (reset_inv V false)) as (x1 & q1 & a & En).
    cbn [q_poll wunordered]. unfold bind. rewrite En. eexists _, _, _. reflexivity.
  Qed.
  Theorem ordered_returns s t w l n b c x :
    nth_error (lhistory svc S rings fuel OQ s t w l) n = Some (b, c, x) -> 0 < fuel -> ca_eof c = true ->
    exists a c1 x1, lstep svc S rings fuel OQ LPoll (c, x) = Some (LPolled a, c1, x1).
  Proof.
    intros E Hf He. assert (HQ := ordered_proper rings (poll_fut svc) (drop_fut svc) stop).
    assert (V : winv (wo_fu (ca_queue c)) (snd x)) by exact (proj1 (@run_all _ _ _ _ svc S rings fuel OQ _ _ _ _ HQ l (ca_new rsvc rstr OQ s t) (w, ringer0) (pr_new HQ) n b c x E)).
    apply eof_through; [exact Hf | exact He|]. cbn [q_poll wordered].
    assert (Y : forall m (q : wordq (F := fut svc) (O := result Resp Err)) (x : X), winv (wo_fu q) (snd x) -> length (wf_tasks (wo_fu q)) < m ->
      exists x1 q1 a, word_loop rings (poll_fut svc) (drop_fut svc) stop m q x = (x1, Val (q1, a))).
    { clear - HF HS. induction m as [|m IH]; intros q x V Hl; [lia|]. cbn [word_loop]. unfold bind.
      destruct (@next_returns _ _ _ _ rings (poll_fut svc) (drop_fut svc) stop (wo_fu q) x HF HS V) as (x1 & q1 & a & En). rewrite En.
      destruct a as [|[[i o]|]]; [eexists _, _, _; reflexivity | | eexists _, _, _; reflexivity].
      destruct (i =? wo_out q); [eexists _, _, _; reflexivity|]. apply IH; cbn [wo_fu]; [exact (proj1 (next_ok _ _ _ _ _ V En))|]. apply next_shorter in En. lia. }
    unfold word_next. destruct (wo_done (ca_queue c)) as [|[i o] h]; [apply Y; [apply reset_inv, V | lia]|].
    destruct (i =? wo_out (ca_queue c)); [eexists _, _, _; reflexivity|]. apply Y; [apply reset_inv, V | lia].
  Qed.
End Returns.
