(** Proofs for C89: forgetting the wakers. *)
From Verif Require Import Base Middleware ReadyCache CallAll WakeCache WakeAll RefineSpec AllWakeSpec AllWakeProof.
Set Implicit Arguments.

Section Fu.
  Context {W F O T : Type} (rings : W -> list waker) (fpoll : F -> M W (F * poll O)) (fdrop : F -> W -> W) (stop : nat -> nat -> nat -> bool).
  Notation X := (W * ringer)%type.
  Notation fu := (wfu F T).
  Notation tpoll := (fus_poll (W := W * tape) (fun f => off (fpoll f)) (fun f => offw (fdrop f))).
  Notation tnextf := (fus_next (W := W * tape) (fun f => off (fpoll f)) (fun f => offw (fdrop f)) tsched).

  Lemma find_pos t k f : forall l : list (nat * (T * F)), NoDup (map fst l) -> wf_find t l = Some (k, f) ->
    exists i, nth_error (map snd l) i = Some (k, f) /\ (forall x, map snd (wf_put t x l) = set_nth i x (map snd l)) /\ map snd (wf_del t l) = remove_nth i (map snd l).
  Proof.
    assert (P : forall (l : list (nat * (T * F))) x, ~ In t (map fst l) -> wf_put t x l = l).
    { intros l x. induction l as [|[j y] l IH]; intros H; [reflexivity|]. cbn in *. destruct (Nat.eqb_spec j t) as [->|N]; [destruct H; left; reflexivity|]. f_equal. apply IH. intros C. apply H. right. exact C. }
    assert (D : forall l : list (nat * (T * F)), ~ In t (map fst l) -> wf_del t l = l).
    { intros l. induction l as [|[j y] l IH]; intros H; [reflexivity|]. cbn in *. destruct (Nat.eqb_spec j t) as [->|N]; [destruct H; left; reflexivity|]. cbn. f_equal. apply IH. intros C. apply H. right. exact C. }
    intros l. induction l as [|[j y] l IH]; intros N E; [discriminate E|]. cbn [wf_find] in E. cbn [map fst] in N. apply NoDup_cons_iff in N. destruct N as [N1 N2].
    destruct (Nat.eqb_spec j t) as [->|Nj].
    - injection E as ->. exists 0. split; [reflexivity|]. split.
      + intros x. cbn. rewrite Nat.eqb_refl. cbn [snd]. fold (wf_put t x l). rewrite P by exact N1. reflexivity.
      + cbn. rewrite Nat.eqb_refl. cbn. fold (wf_del t l). rewrite D by exact N1. reflexivity.
    - destruct (IH N2 E) as (i & A & B & C). exists (S i). split; [exact A|]. split.
      + intros x. cbn. rewrite (proj2 (Nat.eqb_neq j t) Nj). cbn [snd]. fold (wf_put t x l). rewrite B. reflexivity.
      + cbn. rewrite (proj2 (Nat.eqb_neq j t) Nj). cbn. fold (wf_del t l). rewrite C. reflexivity.
  Qed.

  Lemma loop_refines fuel : forall y n len (q : fu) (w w1 : W) (r r1 : ringer) q1 a, NoDup (ids q) ->
    wf_loop rings fpoll fdrop stop fuel y n len q (w, r) = ((w1, r1), Val (q1, a)) ->
    (wf_tasks q = [] -> w1 = w /\ wf_tasks q1 = [] /\ a = Ready None) /\
    (wf_tasks q <> [] -> exists order z, a = match z with None => Pending | Some x => Ready (Some x) end /\
      forall tp, tpoll order (map snd (wf_tasks q)) (w, tp) = ((w1, tp), Val (map snd (wf_tasks q1), z))).
  Proof.
    induction fuel as [|fuel IH]; intros y n len q w w1 r r1 q1 a H E; [discriminate E|]. cbn [wf_loop] in E. unfold bind at 1, get at 1 in E. cbn [snd] in *.
    destruct (rg_queue r) as [|t rest] eqn:Eq.
    - unfold ret in E. injection E as <- <- <- <-. split.
      + intros ->. auto.
      + intros N. exists [], None. split; [destruct (wf_tasks q); [contradiction | reflexivity] | intros tp; reflexivity].
    - unfold bind at 1, on_ringer, modify in E. cbn [fst snd] in E.
      assert (FI := find_pos t). destruct (wf_find t (wf_tasks q)) as [[k f]|] eqn:Ef; [|apply IH in E; [exact E | exact H]].
      destruct (FI k f _ H Ef) as (i & A & B & C). clear FI.
      unfold bind at 1, rung in E. cbn [fst snd] in E. destruct (fpoll f w) as [w2 [[f1 b]| |]] eqn:Ep; try discriminate E.
      cbn [fold_left] in E. split; [intros Et; rewrite Et in Ef; discriminate Ef|]. intros _.
      assert (ST : forall order tp, tpoll (i :: order) (map snd (wf_tasks q)) (w, tp) =
        (match b with Pending => tpoll order (set_nth i (k, f1) (map snd (wf_tasks q))) | Ready o => modify (offw (fdrop f1)) ;;; ret (remove_nth i (map snd (wf_tasks q)), Some (k, o)) end) (w2, tp)).
      { intros order tp. cbn [fus_poll]. rewrite A. unfold bind at 1, off. cbn [fst snd]. rewrite Ep. destruct b; reflexivity. }
      destruct b as [|o].
      + unfold bind at 1, get in E. cbn [fst snd is_pending] in E.
        set (r2 := aring_all (rings w2) (anote (AFut t true) (set_queue rest r))) in E.
        set (q2 := WFu (wf_put t (k, f1) (wf_tasks q)) (wf_fresh q) (wf_num q)) in E.
        assert (Et : map snd (wf_tasks q2) = set_nth i (k, f1) (map snd (wf_tasks q))) by apply B.
        destruct (stop _ _ _).
        * unfold bind, on_ringer, modify, ret in E. injection E as <- <- <- <-. exists [i], None. split; [reflexivity|]. intros tp. rewrite ST. cbn [fus_poll]. rewrite Et. reflexivity.
        * apply IH in E; [|unfold ids, q2; cbn [wf_tasks]; rewrite put_ids; exact H]. destruct E as [_ E]. destruct E as (order & z & Ea & E).
          { intros En. assert (Ei : map snd (wf_tasks q2) = []) by (rewrite En; reflexivity). rewrite Et in Ei. destruct (map snd (wf_tasks q)) as [|y1 l]; [destruct i; discriminate A|]. destruct i; discriminate Ei. }
          exists (i :: order), z. split; [exact Ea|]. intros tp. rewrite ST, <- Et. apply E.
      + unfold bind, on_ringer, modify, ret in E. cbn [fst snd is_pending] in E. injection E as <- <- <- <-. exists [i], (Some (k, o)). split; [reflexivity|]. intros tp. rewrite ST.
        unfold bind, modify, ret, offw. cbn [fst snd wf_tasks]. rewrite C. reflexivity.
  Qed.
  Lemma next_refines (q : fu) (w w1 : W) (r r1 : ringer) q1 a : NoDup (ids q) -> wf_next rings fpoll fdrop stop q (w, r) = ((w1, r1), Val (q1, a)) ->
    exists u, forall rest, tnextf (map snd (wf_tasks q)) (w, u ++ rest) = ((w1, rest), Val (map snd (wf_tasks q1), a)).
  Proof.
    intros H E. unfold wf_next, bind, on_ringer, modify, get in E. cbn [fst snd] in E. apply loop_refines in E; [|exact H]. cbn [wf_tasks] in E. destruct E as [A B].
    unfold fus_next. destruct (wf_tasks q) as [|y l] eqn:Et.
    - destruct (A eq_refl) as (-> & -> & ->). exists []. intros rest. reflexivity.
    - destruct B as (order & z & -> & B); [discriminate|]. exists [order]. intros rest. cbn [map]. unfold bind, tsched. cbn [snd app fst]. cbn [map] in B. rewrite B. destruct z; reflexivity.
  Qed.
End Fu.

(** ** Collections *)
Record forgets {W F O} (Q : Drive (W * ringer) F O) (Q0 : Drive (W * tape) F O) (inv : qst Q -> ringer -> Prop) (fq : qst Q -> qst Q0) : Prop := {
  fo_new : fq (q_new Q) = q_new Q0;
  fo_empty : forall q, q_empty Q0 (fq q) = q_empty Q q;
  fo_push : forall q f, fq (q_push Q q f) = q_push Q0 (fq q) f;
  fo_poll : forall q w r w1 r1 q1 a, inv q r -> q_poll Q q (w, r) = ((w1, r1), Val (q1, a)) ->
    exists u, forall rest, q_poll Q0 (fq q) (w, u ++ rest) = ((w1, rest), Val (fq q1, a)) }.

Lemma unordered_forgets W F O (rings : W -> list waker) (fpoll : F -> M W (F * poll O)) fdrop stop :
  forgets (wunordered rings fpoll fdrop stop) (tunordered fpoll fdrop) (fun q r => winv q r) (@forget_unordered F).
Proof.
  split.
  - reflexivity.
  - intros q. cbn. unfold forget_unordered. destruct (wf_tasks q); reflexivity.
  - intros q f. cbn. unfold forget_unordered, wfu_push. cbn [wf_tasks]. rewrite map_app. reflexivity.
  - intros q w r w1 r1 q1 a H E. cbn [q_poll wunordered] in E. unfold bind in E.
    destruct (wf_next rings fpoll fdrop stop q (w, r)) as [[w2 r2] [[q2 b]| |]] eqn:En; try discriminate E. unfold ret in E. injection E as <- <- <- <-.
    apply next_refines in En; [|apply (wi_nodup H)]. destruct En as [u En]. exists u. intros rest. cbn [q_poll tunordered unordered_drive]. unfold bind, forget_unordered. rewrite En. reflexivity.
Qed.
Lemma ordered_forgets W F O (rings : W -> list waker) (fpoll : F -> M W (F * poll O)) fdrop stop :
  forgets (wordered rings fpoll fdrop stop) (tordered fpoll fdrop) (fun q r => winv (wo_fu q) r) (@forget_ordered F O).
Proof.
  assert (LL : forall fuel q w r w1 r1 q1 a, winv (wo_fu q) r -> word_loop rings fpoll fdrop stop fuel q (w, r) = ((w1, r1), Val (q1, a)) ->
    exists u, forall rest, ord_loop (fun f => off (fpoll f)) (fun f => offw (fdrop f)) tsched fuel (forget_ordered q) (w, u ++ rest) = ((w1, rest), Val (forget_ordered q1, a))).
  { induction fuel as [|fuel IH]; intros q w r w1 r1 q1 a H E; [discriminate E|]. cbn [word_loop] in E. unfold bind in E.
    destruct (wf_next rings fpoll fdrop stop (wo_fu q) (w, r)) as [[w2 r2] [[q2 b]| |]] eqn:En; try discriminate E.
    destruct (next_ok _ _ _ _ (w, r) H En) as [A _]. apply next_refines in En; [|apply (wi_nodup H)]. destruct En as [u En].
    destruct b as [|[[i o]|]].
    - unfold ret in E. injection E as <- <- <- <-. exists u. intros rest. cbn [ord_loop]. unfold bind. cbn [forget_ordered oq_prog]. rewrite En. reflexivity.
    - destruct (i =? wo_out q) eqn:Ei.
      + unfold ret in E. injection E as <- <- <- <-. exists u. intros rest. cbn [ord_loop]. unfold bind. cbn [forget_ordered oq_prog oq_out]. rewrite En, Ei. reflexivity.
      + cbn [snd] in A. apply IH in E; [|exact A]. destruct E as [u1 E]. exists (u ++ u1). intros rest. cbn [ord_loop]. unfold bind. cbn [forget_ordered oq_prog oq_out]. rewrite <- app_assoc, En, Ei. apply E.
    - unfold ret in E. injection E as <- <- <- <-. exists u. intros rest. cbn [ord_loop]. unfold bind. cbn [forget_ordered oq_prog]. rewrite En. reflexivity. }
  split.
  - reflexivity.
  - intros q. cbn. destruct (wf_tasks (wo_fu q)); reflexivity.
  - intros q f. cbn. unfold forget_ordered, wfu_push. cbn [wo_fu wf_tasks wo_done wo_in wo_out]. rewrite map_app. reflexivity.
  - intros q w r w1 r1 q1 a H E. cbn [q_poll wordered] in E. unfold word_next in E. cbn [q_poll tordered ordered_drive]. unfold ord_next. cbn [forget_ordered oq_done oq_out oq_prog]. rewrite map_length.
    destruct (wo_done q) as [|[i o] h] eqn:Ed.
    + destruct (LL _ _ _ _ _ _ _ _ H E) as [u X]. exists u. intros rest. exact (X rest).
    + destruct (i =? wo_out q).
      * unfold ret in E. injection E as <- <- <- <-. exists []. intros rest. reflexivity.
      * destruct (LL _ _ _ _ _ _ _ _ H E) as [u X]. exists u. intros rest. exact (X rest).
Qed.

Section All.
  Context {W Req Resp Err : Type} (svc : Service W Req Resp Err) (S : Stream W Req) (rings : W -> list waker) (fuel : nat).
  Context (Q : Drive (W * ringer) (fut svc) (result Resp Err)) (Q0 : Drive (W * tape) (fut svc) (result Resp Err)).
  Context (idq freshq : qst Q -> list nat) (restq : qst Q -> Prop) (inv : qst Q -> ringer -> Prop) (fq : qst Q -> qst Q0).
  Hypothesis HQ : proper Q idq freshq restq inv.
  Hypothesis HF : forgets Q Q0 inv fq.
  Notation X := (W * ringer)%type.
  Notation rsvc := (rung_svc rings svc).
  Notation rstr := (rung_stream rings S).
  Notation ca := (call_all rsvc rstr Q).
  Notation fa := (forget_all svc S rings fq).

  Lemma rinv q l : forall r, inv q r -> inv q (aring_all l r).
  Proof. induction l as [|k l IH]; intros r H; [exact H|]. apply IH, (pr_ring HQ), H. Qed.
  Notation CT := (CA (svc := taped svc) (S := tstream S) (Q := Q0)).
  Notation CR := (CA (svc := rsvc) (S := rstr) (Q := Q)).
  Lemma all_next_refines n : forall (c : ca) w r w1 r1 c1 a, inv (ca_queue c) r -> ca_next n c (w, r) = ((w1, r1), Val (c1, a)) ->
    exists u, forall rest, ca_next n (fa c) (w, u ++ rest) = ((w1, rest), Val (fa c1, a)).
  Proof.
    induction n as [|n IH]; intros c w r w1 r1 c1 a H E; [discriminate E|]. cbn [ca_next] in E. unfold bind at 1 in E.
    match type of E with (let (_, _) := ?m in _) = _ => destruct m as [[w2 r2] [[q b]| |]] eqn:Eq; try discriminate E end.
    destruct (pr_poll HQ _ (w, r) H Eq) as [V _]. cbn [snd] in V. destruct (fo_poll HF _ _ _ H Eq) as [u0 P].
    destruct c as [cs ct cq ceof creq]. cbn [ca_svc ca_stream ca_queue ca_eof ca_req] in *.
    assert (FIN : forall u1, (forall rest,
       (match b with
        | Ready (Some r) => ret (CT cs ct (fq q) ceof creq, Ready (Some r))
        | _ => if ceof then ret (CT cs ct (fq q) true creq, if q_empty Q0 (fq q) then Ready None else Pending)
          else
         let dispatch (t : sst (tstream S)) (r : Req) :=
           match cs with
           | None => panic
           | Some s =>
               '(s1, b) <- poll_ready (taped svc) s ;;
               match b with
               | Pending => ret (CT (Some s1) t (fq q) false (Some r), Pending)
               | Ready (Er e) => ret (CT (Some s1) t (fq q) true (Some r), Ready (Some (Er e)))
               | Ready (Ok _) => '(s2, f) <- call (taped svc) s1 r ;; ca_next n (CT (Some s2) t (q_push Q0 (fq q) f) false None)
               end
           end in
         match creq with
         | Some r => dispatch ct r
         | None =>
             '(t1, b) <- snext (tstream S) ct ;;
             match b with
             | Pending => ret (CT cs t1 (fq q) false None, Pending)
             | Ready None => ca_next n (CT cs t1 (fq q) true None)
             | Ready (Some r) => dispatch t1 r
             end
         end
        end) (w2, u1 ++ rest) = ((w1, rest), Val (fa c1, a))) ->
       exists u, forall rest, ca_next (Datatypes.S n) (fa (CR cs ct cq ceof creq)) (w, u ++ rest) = ((w1, rest), Val (fa c1, a))).
    { intros u1 HU. exists (u0 ++ u1). intros rest. cbn [ca_next]. unfold bind at 1. cbn [forget_all ca_svc ca_stream ca_queue ca_eof ca_req]. rewrite <- app_assoc.
      match goal with |- (let (_, _) := ?m in _) = _ => replace m with ((w2, u1 ++ rest), Val (fq q, b)) by (symmetry; apply P) end. apply HU. }
    assert (DI : forall t r (w3 : W) (r3 : ringer), inv q r3 ->
          match cs with
          | None => panic
          | Some s =>
              '(s1, b) <- poll_ready rsvc s ;;
              match b with
              | Pending => ret (CR (Some s1) t q false (Some r), Pending)
              | Ready (Er e) => ret (CR (Some s1) t q true (Some r), Ready (Some (Er e)))
              | Ready (Ok _) => '(s2, f) <- call rsvc s1 r ;; ca_next n (CR (Some s2) t (q_push Q q f) false None)
              end
          end (w3, r3) = ((w1, r1), Val (c1, a)) ->
      exists u1, forall rest,
           match cs with
           | None => panic
           | Some s =>
               '(s1, b) <- poll_ready (taped svc) s ;;
               match b with
               | Pending => ret (CT (Some s1) t (fq q) false (Some r), Pending)
               | Ready (Er e) => ret (CT (Some s1) t (fq q) true (Some r), Ready (Some (Er e)))
               | Ready (Ok _) => '(s2, f) <- call (taped svc) s1 r ;; ca_next n (CT (Some s2) t (q_push Q0 (fq q) f) false None)
               end
           end (w3, u1 ++ rest) = ((w1, rest), Val (fa c1, a))).
    { clear E FIN. intros t rq w3 r3 V3 E. destruct cs as [s|]; [|discriminate E]. unfold bind at 1 in E. cbn [poll_ready rung_svc] in E. unfold rung in E. cbn [fst snd] in E.
      destruct (poll_ready svc s w3) as [w4 [[s1 p]| |]] eqn:Ep; try discriminate E. cbn [fold_left] in E.
      assert (V4 : inv q (aring_all (rings w4) (anote (AReady (is_pending p)) r3))) by (apply rinv, (pr_note HQ); [exact V3 | exact I]).
      destruct p as [|[u|e]].
      - unfold ret in E. injection E as <- <- <- <-. exists []. intros rest. unfold bind. cbn [poll_ready taped]. unfold off. cbn [fst snd app]. rewrite Ep. reflexivity.
      - unfold bind in E. cbn [call rung_svc] in E. unfold rung in E. cbn [fst snd] in E. destruct (call svc s1 rq w4) as [w5 [[s2 f]| |]] eqn:Ec; try discriminate E. cbn [silent fold_left] in E.
        apply IH in E; [|cbn [ca_queue]; apply (pr_push HQ), rinv, V4]. destruct E as [u1 E]. exists u1. intros rest. specialize (E rest).
        unfold bind. cbn [poll_ready call taped]. unfold off. cbn [fst snd]. rewrite Ep. cbn [fst snd]. rewrite Ec. unfold forget_all at 1 in E. cbn [ca_svc ca_stream ca_queue ca_eof ca_req] in E. rewrite (fo_push HF) in E. exact E.
      - unfold ret in E. injection E as <- <- <- <-. exists []. intros rest. unfold bind. cbn [poll_ready taped]. unfold off. cbn [fst snd app]. rewrite Ep. reflexivity. }
    assert (KK : forall (E : (if ceof then ret (CR cs ct q true creq, if q_empty Q q then Ready None else Pending)
          else
         let dispatch (t : sst rstr) (r : Req) :=
           match cs with
           | None => panic
           | Some s =>
               '(s1, b) <- poll_ready rsvc s ;;
               match b with
               | Pending => ret (CR (Some s1) t q false (Some r), Pending)
               | Ready (Er e) => ret (CR (Some s1) t q true (Some r), Ready (Some (Er e)))
               | Ready (Ok _) => '(s2, f) <- call rsvc s1 r ;; ca_next n (CR (Some s2) t (q_push Q q f) false None)
               end
           end in
         match creq with
         | Some r => dispatch ct r
         | None =>
             '(t1, b) <- snext rstr ct ;;
             match b with
             | Pending => ret (CR cs t1 q false None, Pending)
             | Ready None => ca_next n (CR cs t1 q true None)
             | Ready (Some r) => dispatch t1 r
             end
         end) (w2, r2) = ((w1, r1), Val (c1, a))),
      exists u1, forall rest, (if ceof then ret (CT cs ct (fq q) true creq, if q_empty Q0 (fq q) then Ready None else Pending)
          else
         let dispatch (t : sst (tstream S)) (r : Req) :=
           match cs with
           | None => panic
           | Some s =>
               '(s1, b) <- poll_ready (taped svc) s ;;
               match b with
               | Pending => ret (CT (Some s1) t (fq q) false (Some r), Pending)
               | Ready (Er e) => ret (CT (Some s1) t (fq q) true (Some r), Ready (Some (Er e)))
               | Ready (Ok _) => '(s2, f) <- call (taped svc) s1 r ;; ca_next n (CT (Some s2) t (q_push Q0 (fq q) f) false None)
               end
           end in
         match creq with
         | Some r => dispatch ct r
         | None =>
             '(t1, b) <- snext (tstream S) ct ;;
             match b with
             | Pending => ret (CT cs t1 (fq q) false None, Pending)
             | Ready None => ca_next n (CT cs t1 (fq q) true None)
             | Ready (Some r) => dispatch t1 r
             end
         end) (w2, u1 ++ rest) = ((w1, rest), Val (fa c1, a))).
    { clear E FIN. intros E. destruct ceof.
      - unfold ret in E. injection E as <- <- <- <-. exists []. intros rest. rewrite (fo_empty HF). reflexivity.
      - cbv zeta in E |- *. destruct creq as [rq|]; [exact (DI _ _ _ _ V E)|].
        unfold bind at 1 in E. cbn [snext rung_stream] in E. unfold rung in E. cbn [fst snd] in E.
        destruct (snext S ct w2) as [w3 [[t1 p]| |]] eqn:Es; try discriminate E. cbn [fold_left] in E.
        assert (V3 : inv q (aring_all (rings w3) (anote (AStream (is_pending p)) r2))) by (apply rinv, (pr_note HQ); [exact V | exact I]).
        destruct p as [|[rq|]].
        + unfold ret in E. injection E as <- <- <- <-. exists []. intros rest. unfold bind at 1. cbn [snext tstream]. unfold off. cbn [fst snd app]. rewrite Es. reflexivity.
        + destruct (DI _ _ _ _ V3 E) as [u1 D]. exists u1. intros rest. unfold bind at 1. cbn [snext tstream]. unfold off at 1. cbn [fst snd]. rewrite Es. apply D.
        + apply IH in E; [|exact V3]. destruct E as [u1 E]. exists u1. intros rest. unfold bind at 1. cbn [snext tstream]. unfold off at 1. cbn [fst snd]. rewrite Es. exact (E rest). }
    destruct b as [|[res|]].
    - destruct (KK E) as [u1 K]. exact (FIN u1 K).
    - unfold ret in E. injection E as <- <- <- <-. apply (FIN []). intros rest. reflexivity.
    - destruct (KK E) as [u1 K]. exact (FIN u1 K).
  Qed.

  Lemma all_step_refines o (c : ca) w r b c1 w1 r1 : inv (ca_queue c) r -> lstep svc S rings fuel Q o (c, (w, r)) = Some (b, c1, (w1, r1)) ->
    exists u, forall rest, tlstep fuel o (fa c, (w, u ++ rest)) = Some (b, fa c1, (w1, rest)).
  Proof.
    intros H E. destruct o as [|k|g]; cbn [lstep] in E.
    - match type of E with context [ca_next fuel c ?x0] => destruct (ca_next fuel c x0) as [[w2 r2] [[c2 a]| |]] eqn:En; try discriminate E end.
      injection E as <- <- <- <-. cbn [fst snd] in En. apply all_next_refines in En; [|exact (pr_reset HQ (ca_queue c) r false H)].
      destruct En as [u En]. exists u. intros rest. cbn [tlstep]. rewrite En. reflexivity.
    - injection E as <- <- <- <-. exists []. intros rest. reflexivity.
    - injection E as <- <- <- <-. exists []. intros rest. reflexivity.
  Qed.
  Lemma all_run_refines l : forall (c : ca) w r, inv (ca_queue c) r -> exists tp, forall n b c1 w1 r1, nth_error (lrun (Q := Q) fuel (c, (w, r)) l) n = Some (b, c1, (w1, r1)) ->
    exists rest, nth_error (tlrun fuel (fa c, (w, tp)) l) n = Some (b, fa c1, (w1, rest)).
  Proof.
    induction l as [|o l IH]; intros c w r H; [exists []; intros n b c1 w1 r1 E; destruct n; discriminate E|].
    cbn [lrun tlrun]. destruct (lstep svc S rings fuel Q o (c, (w, r))) as [[[b2 c2] [w2 r2]]|] eqn:Es.
    - destruct (all_step_refines _ _ _ H Es) as [tp1 H1]. destruct (@step_all _ _ _ _ svc S rings fuel Q idq freshq restq inv HQ o c (w, r) b2 c2 (w2, r2) Es H) as (A & _). destruct (IH c2 w2 r2 A) as [tp2 H2]. exists (tp1 ++ tp2). intros n b c1 w1 r1 E. rewrite H1.
      destruct n as [|n]; [injection E as <- <- <- <-; exists tp2; reflexivity|]. apply (H2 _ _ _ _ _ E).
    - exists []. intros n b c1 w1 r1 E. destruct n; discriminate E.
  Qed.
  Theorem all_refines s t w l : exists tp, forall n b c w1 r, nth_error (lhistory svc S rings fuel Q s t w l) n = Some (b, c, (w1, r)) ->
    exists rest, nth_error (tlhistory svc S fuel Q0 s t w tp l) n = Some (b, fa c, (w1, rest)).
  Proof.
    destruct (@all_run_refines l (ca_new rsvc rstr Q s t) w ringer0 (pr_new HQ)) as [tp H]. exists tp. intros n b c w1 r E. destruct (H n b c w1 r E) as [rest R]. exists rest.
    unfold tlhistory. replace (ca_new (taped svc) (tstream S) Q0 s t) with (fa (ca_new rsvc rstr Q s t)); [exact R|].
    unfold forget_all, ca_new. cbn [ca_svc ca_stream ca_queue ca_eof ca_req]. exact (f_equal (fun z => CT (Some s) t z false None) (fo_new HF)).
  Qed.
End All.
