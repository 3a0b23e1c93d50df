(** Proofs for C89. *)
From Verif Require Import Base Middleware ReadyCache CallAll WakeCache WakeAll AllWakeSpec.
Set Implicit Arguments.

Lemma memn_in t l : memn t l = true <-> In t l.
Proof. unfold memn. rewrite existsb_exists. split; [intros (x & H & E); apply Nat.eqb_eq in E; subst; exact H | intros H; exists t; split; [exact H | apply Nat.eqb_refl]]. Qed.
Lemma memn_out t l : memn t l = false <-> ~ In t l.
Proof. rewrite <- memn_in. destruct (memn t l); intuition congruence. Qed.

Definition armed (r : ringer) : Prop := rg_woken r = true \/ rg_parent r = true.
(** What is known of children [ids], of which [fresh] have not been queued yet. *)
Definition sound (ids fresh : list nat) (r : ringer) : Prop :=
  forall t, In t ids -> In t fresh \/ (In t (rg_live r) /\ (In t (rg_queue r) \/ fut_waits (rg_log r) t)).
Definition calm (ids fresh : list nat) (r : ringer) : Prop :=
  rg_woken r = true \/ rg_parent r = true /\ forall t, In t ids -> ~ In t fresh /\ ~ In t (rg_queue r).

Lemma sound_ring k ids fresh r : sound ids fresh r -> sound ids fresh (aring k r).
Proof.
  intros H t Ht. destruct (H t Ht) as [A|(A & B)]; [left; exact A|right]. unfold aring, anote. destruct k as [|t0]; cbn [rg_queue rg_live rg_log fut_waits].
  - split; [exact A|]. destruct B as [B|B]; [left; exact B | right; split; [discriminate | exact B]].
  - destruct (memn t0 (rg_live r) && negb (memn t0 (rg_queue r))) eqn:E; cbn [rg_queue rg_live rg_log].
    + split; [exact A|]. destruct (Nat.eq_dec t0 t) as [->|N]; [left; apply in_or_app; right; left; reflexivity|].
      destruct B as [B|B]; [left; apply in_or_app; left; exact B | right; split; [congruence | exact B]].
    + split; [exact A|]. destruct B as [B|B]; [left; exact B|]. destruct (Nat.eq_dec t0 t) as [->|N]; [|right; split; [congruence | exact B]].
      apply andb_false_iff in E. destruct E as [E|E]; [apply memn_out in E; contradiction|]. apply negb_false_iff, memn_in in E. left. exact E.
Qed.
Lemma sound_rings l ids fresh : forall r, sound ids fresh r -> sound ids fresh (aring_all l r).
Proof. induction l as [|k l IH]; intros r H; [exact H|]. apply IH, sound_ring, H. Qed.
Lemma calm_ring k ids fresh r : calm ids fresh r -> calm ids fresh (aring k r).
Proof.
  intros [H|[P H]]; unfold calm, aring, anote; destruct k as [|t0]; cbn [rg_woken rg_parent rg_queue]; auto.
  - left. destruct (memn t0 (rg_live r) && negb (memn t0 (rg_queue r))); cbn [rg_woken]; rewrite H; reflexivity.
  - destruct (memn t0 (rg_live r) && negb (memn t0 (rg_queue r))); cbn [rg_woken rg_parent rg_queue]; [left; rewrite P; apply orb_true_r|].
    right. split; assumption.
Qed.
Lemma calm_rings l ids fresh : forall r, calm ids fresh r -> calm ids fresh (aring_all l r).
Proof. induction l as [|k l IH]; intros r H; [exact H|]. apply IH, calm_ring, H. Qed.
Lemma armed_ring k r : armed r -> armed (aring k r).
Proof.
  intros H. unfold armed, aring, anote. destruct k as [|t0]; cbn [rg_woken rg_parent]; auto.
  destruct (memn t0 (rg_live r) && negb (memn t0 (rg_queue r))); cbn [rg_woken rg_parent]; [|exact H].
  left. destruct H as [H|H]; rewrite H; [reflexivity | apply orb_true_r].
Qed.
Lemma armed_rings l : forall r, armed r -> armed (aring_all l r).
Proof. induction l as [|k l IH]; intros r H; [exact H|]. apply IH, armed_ring, H. Qed.
Lemma queue_rings l : forall r t, In t (rg_queue r) -> In t (rg_queue (aring_all l r)).
Proof.
  induction l as [|k l IH]; intros r t H; [exact H|]. apply IH. unfold aring, anote. destruct k as [|t0]; cbn [rg_queue]; [exact H|].
  destruct (memn t0 (rg_live r) && negb (memn t0 (rg_queue r))); cbn [rg_queue]; [apply in_or_app; left|]; exact H.
Qed.

Lemma live_ring k r : rg_live (aring k r) = rg_live r.
Proof. unfold aring, anote. destruct k as [|t]; [reflexivity|]. destruct (memn t (rg_live r) && negb (memn t (rg_queue r))); reflexivity. Qed.
Lemma live_rings l : forall r, rg_live (aring_all l r) = rg_live r.
Proof. induction l as [|k l IH]; intros r; [reflexivity|]. cbn [aring_all fold_left]. fold (aring_all l (aring k r)). rewrite IH. apply live_ring. Qed.

Section Fu.
  Context {W F O T : Type} (rings : W -> list waker) (fpoll : F -> M W (F * poll O)) (fdrop : F -> W -> W) (stop : nat -> nat -> nat -> bool).
  Notation X := (W * ringer)%type.
  Notation fu := (wfu F T).
  Definition ids (q : fu) : list nat := map fst (wf_tasks q).
  Record winv (q : fu) (r : ringer) : Prop := {
    wi_nodup : NoDup (ids q);
    wi_num : forall t, In t (ids q) -> t < wf_num q;
    wi_sound : sound (ids q) (wf_fresh q) r;
    wi_live : incl (rg_live r) (ids q);
    wi_fresh : incl (wf_fresh q) (ids q);
    wi_new : forall t, In t (wf_fresh q) -> ~ In t (rg_live r);
    wi_once : NoDup (rg_queue r ++ wf_fresh q);
    wi_keen : forall t, In t (rg_queue r ++ wf_fresh q) -> t < wf_num q /\ ~ fut_waits (rg_log r) t;
    wi_log : forall t, fut_waits (rg_log r) t -> t < wf_num q;
    wi_call : when_called (rg_log r) }.
  Definition wcalm (q : fu) (r : ringer) : Prop := calm (ids q) (wf_fresh q) r.

  Lemma find_in t (l : list (nat * (T * F))) : match wf_find t l with Some _ => In t (map fst l) | None => ~ In t (map fst l) end.
  Proof.
    induction l as [|[i x] l IH]; [intros []|]. cbn [wf_find map fst]. destruct (Nat.eqb_spec i t) as [->|N]; [left; reflexivity|].
    destruct (wf_find t l); [right; exact IH | intros [H|H]; [congruence | contradiction]].
  Qed.
  Lemma put_ids t x (l : list (nat * (T * F))) : map fst (wf_put t x l) = map fst l.
  Proof. unfold wf_put. rewrite map_map. apply map_ext. intros [i y]. cbn. destruct (Nat.eqb_spec i t); [subst; reflexivity | reflexivity]. Qed.
  Lemma del_ids t (l : list (nat * (T * F))) : map fst (wf_del t l) = List.filter (fun i => negb (i =? t)) (map fst l).
  Proof. unfold wf_del. induction l as [|[i y] l IH]; [reflexivity|]. cbn. destruct (i =? t); cbn; rewrite IH; reflexivity. Qed.
  Lemma in_del t i l : In i (List.filter (fun i => negb (i =? t)) l) <-> In i l /\ i <> t.
  Proof. rewrite filter_In. destruct (Nat.eqb_spec i t); cbn; intuition congruence. Qed.

  Lemma new_inv : winv wfu_new ringer0.
  Proof. split; [constructor | intros t [] | intros t [] | intros t [] | intros t [] | intros t [] | constructor | intros t [] | intros t [] | exact I]. Qed.
  Lemma nodup_snoc (t : nat) l : NoDup l -> ~ In t l -> NoDup (l ++ [t]).
  Proof. intros A B. rewrite <- (rev_involutive (l ++ [t])). apply NoDup_rev. rewrite rev_app_distr. constructor; [rewrite <- in_rev; exact B | apply NoDup_rev, A]. Qed.
  Lemma push_inv q x r : winv q r -> winv (wfu_push q x) r.
  Proof.
    intros [A B C L N E OO K G U]. unfold wfu_push. split; unfold ids; cbn [wf_tasks wf_fresh wf_num]; rewrite ?map_app, ?app_assoc; cbn [map fst]; fold (ids q).
    - apply nodup_snoc; [exact A|]. intros H. apply B in H. lia.
    - intros t H. apply in_app_or in H. destruct H as [H|[<-|[]]]; [apply B in H; lia | lia].
    - intros t H. apply in_app_or in H. destruct H as [H|[<-|[]]]; [|left; apply in_or_app; right; left; reflexivity].
      destruct (C t H) as [D|D]; [left; apply in_or_app; left; exact D | right; exact D].
    - intros t H. apply in_or_app. left. apply L, H.
    - intros t H. apply in_or_app. apply in_app_or in H. destruct H as [H|H]; [left; apply N, H | right; exact H].
    - intros t H. apply in_app_or in H. destruct H as [H|[<-|[]]]; [apply E, H|]. intros H. apply L, B in H. lia.
    - apply nodup_snoc; [exact OO|]. intros H. apply K in H. lia.
    - intros t H. apply in_app_or in H. destruct H as [H|[<-|[]]]; [destruct (K t H); split; [lia | assumption]|]. split; [lia|]. intros H. apply G in H. lia.
    - intros t H. apply G in H. lia.
    - exact U.
  Qed.

  Lemma ring_log k r : rg_log (aring k r) = ARang k :: rg_log r.
  Proof. unfold aring, anote. destruct k as [|t]; [reflexivity|]. destruct (memn t (rg_live r) && negb (memn t (rg_queue r))); reflexivity. Qed.
  Lemma nodup_insert (t : nat) l1 l2 : NoDup (l1 ++ l2) -> ~ In t (l1 ++ l2) -> NoDup ((l1 ++ [t]) ++ l2).
  Proof. intros A B. rewrite <- app_assoc. cbn [app]. apply NoDup_Add with (a := t) (l := l1 ++ l2); [apply Add_app | split; assumption]. Qed.
  Lemma ring_inv k q r : winv q r -> winv q (aring k r).
  Proof.
    intros [A B C L N E OO K G U].
    assert (G' : forall t, fut_waits (rg_log (aring k r)) t -> fut_waits (rg_log r) t) by (intros t; rewrite ring_log; intros [_ H]; exact H).
    split; rewrite ?live_ring; auto.
    - apply sound_ring, C.
    - unfold aring, anote. destruct k as [|t0]; cbn [rg_queue]; [exact OO|]. destruct (memn t0 (rg_live r)) eqn:E1; cbn [andb]; [|exact OO].
      destruct (memn t0 (rg_queue r)) eqn:E2; cbn [negb rg_queue]; [exact OO|]. apply memn_in in E1. apply memn_out in E2. apply nodup_insert; [exact OO|].
      intros H. apply in_app_or in H. destruct H as [H|H]; [contradiction | exact (E _ H E1)].
    - assert (K' : forall t, In t (rg_queue r ++ wf_fresh q) -> t < wf_num q /\ ~ fut_waits (rg_log (aring k r)) t).
      { intros t H. destruct (K t H) as [K1 K2]. split; [exact K1|]. intros H1. apply K2, G', H1. }
      intros t H. destruct k as [|t0]; [exact (K' t H)|]. revert H K'. rewrite ring_log. unfold aring, anote. cbn [rg_queue]. intros H K'.
      destruct (memn t0 (rg_live r)) eqn:E1; cbn [andb] in H; [|exact (K' t H)].
      destruct (memn t0 (rg_queue r)) eqn:E2; cbn [negb rg_queue] in H; [exact (K' t H)|]. rewrite <- app_assoc in H. apply in_app_or in H.
      destruct H as [H|[<-|H]]; [apply K', in_or_app; left; exact H| |apply K', in_or_app; right; exact H].
      apply memn_in in E1. split; [apply B, L, E1|]. cbn [fut_waits]. intros [H _]. apply H. reflexivity.
    - rewrite ring_log. exact U.
  Qed.
  Lemma rings_inv l q : forall r, winv q r -> winv q (aring_all l r).
  Proof. induction l as [|k l IH]; intros r H; [exact H|]. apply IH, ring_inv, H. Qed.
  Lemma note_inv q r e : winv q r -> match e with AReady _ | AStream _ => True | _ => False end -> winv q (anote e r).
  Proof. intros [A B C L N E OO K G U] He. destruct e; try destruct He; split; auto. Qed.
  Lemma reset_inv q r : winv q r -> forall b, winv q (Ringer (rg_queue r) (rg_live r) (rg_parent r) b (rg_log r)).
  Proof. intros [A B C L N E OO K G U] b. split; auto. Qed.

  (** The first child in the queue is taken out and, if it is there, polled. *)
  Lemma skip_inv q r t rest : winv q r -> wf_fresh q = [] -> rg_queue r = t :: rest -> ~ In t (ids q) -> winv q (set_queue rest r).
  Proof.
    intros [A B C L N E OO K G U] Hf Eq Nt. rewrite Hf, app_nil_r, Eq in *. split; auto; rewrite ?Hf, ?app_nil_r; cbn [set_queue rg_queue rg_live rg_log].
    - intros t' I. destruct (C t' I) as [[]|(D1 & D2)]. right. split; [exact D1|]. rewrite Eq in D2. destruct D2 as [[D2|D2]|D2]; [congruence | left; exact D2 | right; exact D2].
    - intros _ [].
    - intros _ [].
    - inversion OO; assumption.
    - intros t' H. apply K. right. exact H.
  Qed.
  Lemma pend_inv q r t rest k f1 : winv q r -> wf_fresh q = [] -> rg_queue r = t :: rest -> In t (ids q) ->
    winv (WFu (wf_put t (k, f1) (wf_tasks q)) (wf_fresh q) (wf_num q)) (anote (AFut t true) (set_queue rest r)).
  Proof.
    intros [A B C L N E OO K G U] Hf Eq It. rewrite Hf in *. rewrite app_nil_r in *. rewrite Eq in *.
    split; unfold ids; cbn [wf_tasks wf_fresh wf_num]; rewrite ?put_ids, ?app_nil_r; fold (ids q); cbn [anote set_queue rg_queue rg_live rg_log fut_waits when_called]; auto.
    - intros t' I. right. destruct (C t' I) as [[]|(D1 & D2)]. split; [exact D1|]. cbn [rg_queue rg_log anote set_queue fut_waits].
      destruct (Nat.eqb_spec t t') as [<-|Nn]; [right; reflexivity|]. rewrite Eq in D2. destruct D2 as [[D2|D2]|D2]; [contradiction | left; exact D2 | right; exact D2].
    - inversion OO; assumption.
    - intros t' H. destruct (K t' (or_intror H)) as [K1 K2]. split; [exact K1|]. destruct (Nat.eqb_spec t t') as [<-|_]; [|exact K2].
      inversion OO; contradiction.
    - intros t' H. destruct (Nat.eqb_spec t t') as [Ett|_]; [rewrite <- Ett; apply B, It | apply G, H].
    - split; [apply K; left; reflexivity | exact U].
  Qed.
  Lemma done_inv q r t rest l w : winv q r -> wf_fresh q = [] -> rg_queue r = t :: rest -> In t (ids q) ->
    winv (WFu (wf_del t (wf_tasks q)) (wf_fresh q) (wf_num q)) (forget_child t (aring_all l (anote (AFut t w) (set_queue rest r)))).
  Proof.
    intros H Hf Eq It.
    assert (P : exists k f1, wf_put t (k, f1) (wf_tasks q) = wf_put t (k, f1) (wf_tasks q)).
    { destruct (wf_tasks q) as [|[i [k f1]] tl] eqn:Et; [unfold ids in It; rewrite Et in It; destruct It|]. exists k, f1. reflexivity. }
    destruct P as (k & f1 & _). set (q2 := WFu (wf_put t (k, f1) (wf_tasks q)) (wf_fresh q) (wf_num q)).
    assert (V : winv q2 (aring_all l (anote (AFut t true) (set_queue rest r)))) by (apply rings_inv, pend_inv; assumption).
    assert (QQ : forall l r1 r2, rg_queue r1 = rg_queue r2 -> rg_live r1 = rg_live r2 ->
      rg_queue (aring_all l r1) = rg_queue (aring_all l r2)).
    { clear. induction l as [|k l IH]; intros r1 r2 E1 E2; [exact E1|]. apply IH; [|rewrite !live_ring; exact E2].
      unfold aring, anote. destruct k as [|t]; cbn [rg_queue]; [exact E1|]. rewrite E1, E2. destruct (memn t (rg_live r2) && negb (memn t (rg_queue r2))); cbn [rg_queue]; congruence. }
    assert (G1 : forall l r, rg_log (aring_all l r) = map ARang (rev l) ++ rg_log r).
    { clear. induction l as [|k l IH]; intros r; [reflexivity|]. cbn [aring_all fold_left]. fold (aring_all l (aring k r)). rewrite IH, ring_log. cbn [rev]. rewrite map_app, <- app_assoc. reflexivity. }
    assert (FA : forall l t' b lg, t' <> t \/ b = false -> fut_waits (map ARang l ++ AFut t b :: lg) t' -> fut_waits (map ARang l ++ AFut t true :: lg) t').
    { clear. induction l as [|k l IH]; intros t' b lg D; cbn [map app fut_waits]; [|intros [X Y]; split; [exact X | exact (IH _ _ _ D Y)]].
      destruct (Nat.eqb_spec t t') as [<-|_]; [reflexivity | auto]. }
    assert (FB : forall l t' b lg, t' <> t -> fut_waits (map ARang l ++ AFut t true :: lg) t' -> fut_waits (map ARang l ++ AFut t b :: lg) t').
    { clear. induction l as [|k l IH]; intros t' b lg D; cbn [map app fut_waits]; [|intros [X Y]; split; [exact X | exact (IH _ _ _ D Y)]].
      destruct (Nat.eqb_spec t t') as [<-|_]; [congruence | auto]. }
    assert (CC : forall l b lg, when_called (map ARang l ++ AFut t b :: lg) <-> when_called (map ARang l ++ AFut t true :: lg)).
    { clear. induction l as [|k l IH]; intros b lg; cbn [map app when_called]; [tauto | apply IH]. }
    destruct V as [A B C LL N E OO K G U]. rewrite G1 in *. cbn [anote set_queue rg_log] in *.
    rewrite <- (QQ l (anote (AFut t w) (set_queue rest r)) (anote (AFut t true) (set_queue rest r)) eq_refl eq_refl) in OO, K.
    cbn [q2 wf_fresh wf_num] in *. rewrite Hf in *.
    assert (Ei : ids q2 = ids q) by apply put_ids. rewrite Ei in *. rewrite live_rings in *. cbn [anote set_queue rg_live] in *.
    split; cbn [wf_fresh wf_num]; unfold ids; cbn [wf_tasks]; rewrite ?del_ids; fold (ids q); cbn [forget_child rg_queue rg_live rg_log]; rewrite ?live_rings, ?G1; cbn [anote set_queue rg_live rg_log].
    - apply NoDup_filter, A.
    - intros t' I. apply in_del in I. apply B, I.
    - intros t' I. apply in_del in I. destruct I as [I Nt]. right. destruct (C t' I) as [[]|[D1 D2]]. rewrite live_rings in D1. cbn [anote set_queue rg_live] in D1.
      cbn [forget_child rg_queue rg_live rg_log]. rewrite live_rings. cbn [anote set_queue rg_live]. split; [apply in_del; split; assumption|].
      rewrite G1 in *. cbn [anote set_queue rg_log] in *. destruct D2 as [D2|D2]; [left | right; apply FB; assumption].
      rewrite (QQ l (anote (AFut t w) (set_queue rest r)) (anote (AFut t true) (set_queue rest r)) eq_refl eq_refl). exact D2.
    - intros t' I. apply in_del in I. apply in_del. split; [apply LL, I | apply I].
    - intros t' [].
    - intros t' [].
    - exact OO.
    - intros t' I. destruct (K t' I) as [K1 K2]. split; [exact K1|]. intros Wt. apply K2. apply (FA _ _ w); [|exact Wt].
      destruct (Nat.eq_dec t' t) as [->|Nt]; [|left; exact Nt]. right. destruct w; [contradiction | reflexivity].
    - intros t' I. destruct (Nat.eq_dec t' t) as [->|Nt]; [apply B, It|]. apply G. apply (FA _ _ w); [left; exact Nt | exact I].
    - apply CC, U.
  Qed.

  Lemma loop_ok fuel : forall y n len (q : fu) (x x1 : X) q1 a, winv q (snd x) -> wf_fresh q = [] -> armed (snd x) ->
    wf_loop rings fpoll fdrop stop fuel y n len q x = (x1, Val (q1, a)) ->
    winv q1 (snd x1) /\ (match a with Ready (Some _) => True | _ => wcalm q1 (snd x1) end).
  Proof.
    induction fuel as [|fuel IH]; intros y n len q [w r] x1 q1 a H Hf Ha E; [discriminate E|]. cbn [wf_loop] in E. unfold bind at 1, get at 1 in E. cbn [snd] in *.
    destruct (rg_queue r) as [|t rest] eqn:Eq.
    - unfold ret in E. injection E as <- <- <-. cbn [snd]. split; [exact H|].
      assert (wcalm q r) by (unfold wcalm, calm; destruct Ha as [Ha|Ha]; [left; exact Ha | right; split; [exact Ha|]; intros t _; rewrite Hf, Eq; split; intros []]).
      destruct (wf_tasks q); assumption.
    - unfold bind at 1, on_ringer, modify in E. cbn [fst snd] in E.
      assert (FI := find_in t (wf_tasks q)). destruct (wf_find t (wf_tasks q)) as [[k f]|] eqn:Ef.
      + unfold bind at 1, rung in E. cbn [fst snd] in E. destruct (fpoll f w) as [w2 [[f1 b]| |]] eqn:Ep; try discriminate E.
        cbn [fold_left] in E. destruct b as [|o].
        * unfold bind at 1, get in E. cbn [fst snd is_pending] in E.
          set (r2 := aring_all (rings w2) (anote (AFut t true) (set_queue rest r))) in E.
          set (q2 := WFu (wf_put t (k, f1) (wf_tasks q)) (wf_fresh q) (wf_num q)) in E.
          assert (V : winv q2 r2) by (apply rings_inv, pend_inv; assumption).
          assert (A2 : armed r2) by (apply armed_rings; exact Ha).
          destruct (stop _ _ _).
          -- unfold bind, on_ringer, modify, ret in E. injection E as <- <- <-. cbn [snd]. split; [exact (reset_inv V true)|]. left. reflexivity.
          -- apply (IH _ _ _ q2 (w2, r2) _ _ _ V Hf A2 E).
        * unfold bind, on_ringer, modify, ret in E. cbn [fst snd is_pending] in E. injection E as <- <- <-. cbn [snd rungw]. split; [|exact I].
          apply rings_inv. cbn [fst snd]. apply done_inv; assumption.
      + apply (IH _ _ _ q (w, set_queue rest r) _ _ _) with (4 := E); [|exact Hf|exact Ha]. cbn [snd]. apply (skip_inv H Hf Eq FI).
  Qed.

  Lemma start_inv q r b : winv q r -> winv (WFu (wf_tasks q) [] (wf_num q)) (Ringer (rg_queue r ++ wf_fresh q) (rg_live r ++ wf_fresh q) b (rg_woken r) (rg_log r)).
  Proof.
    intros [A B C L N E OO K G U]. split; cbn [wf_fresh wf_num rg_queue rg_live rg_log]; unfold ids; cbn [wf_tasks]; fold (ids q); rewrite ?app_nil_r; auto; try (intros t' []; fail).
    - intros t I. right. cbn [rg_live rg_queue rg_log]. destruct (C t I) as [D|[D1 D2]].
      + split; [apply in_or_app; right; exact D | left; apply in_or_app; right; exact D].
      + split; [apply in_or_app; left; exact D1|]. destruct D2 as [D2|D2]; [left; apply in_or_app; left; exact D2 | right; exact D2].
    - intros t I. apply in_app_or in I. destruct I as [I|I]; [apply L, I | apply N, I].
  Qed.
  Lemma next_ok (q : fu) (x x1 : X) q1 a : winv q (snd x) -> wf_next rings fpoll fdrop stop q x = (x1, Val (q1, a)) ->
    winv q1 (snd x1) /\ (match a with Ready (Some _) => True | _ => wcalm q1 (snd x1) end).
  Proof.
    intros H E. destruct x as [w r]. unfold wf_next, bind, on_ringer, modify, get in E. cbn [fst snd] in E, H.
    eapply loop_ok with (4 := E); [|reflexivity|right; reflexivity]. cbn [snd]. apply start_inv, H.
  Qed.

  (** ** It returns. *)
  Definition dead (q : fu) (r : ringer) : nat := length (List.filter (fun t => negb (memn t (ids q))) (rg_queue r)).
  Lemma dead_ring k (q : fu) r : incl (rg_live r) (ids q) -> dead q (aring k r) = dead q r.
  Proof.
    intros L. unfold dead, aring, anote. destruct k as [|t]; cbn [rg_queue]; [reflexivity|]. destruct (memn t (rg_live r)) eqn:E; cbn [andb]; [|reflexivity].
    destruct (memn t (rg_queue r)); cbn [negb rg_queue]; [reflexivity|]. rewrite filter_app, app_length. cbn [List.filter].
    rewrite (proj2 (memn_in t (ids q)) (L _ (proj1 (memn_in _ _) E))). cbn. lia.
  Qed.
  Lemma dead_rings l (q : fu) : forall r, incl (rg_live r) (ids q) -> dead q (aring_all l r) = dead q r.
  Proof. induction l as [|k l IH]; intros r L; [reflexivity|]. cbn [aring_all fold_left]. fold (aring_all l (aring k r)). rewrite IH by (rewrite live_ring; exact L). apply dead_ring, L. Qed.

  Lemma loop_returns fuel : (forall f w, exists w1 f1 a, fpoll f w = (w1, Val (f1, a))) -> (forall y n, stop y n n = true) ->
    forall y n len (q : fu) (x : X), incl (rg_live (snd x)) (ids q) -> n < len \/ wf_tasks q = [] -> dead q (snd x) + (len - n) < fuel ->
    exists x1 q1 a, wf_loop rings fpoll fdrop stop fuel y n len q x = (x1, Val (q1, a)).
  Proof.
    intros HF HS. induction fuel as [|fuel IH]; intros y n len q [w r] L Hn Hd; [lia|]. cbn [wf_loop]. unfold bind at 1, get at 1. cbn [snd] in *.
    destruct (rg_queue r) as [|t rest] eqn:Eq; [eexists _, _, _; reflexivity|]. unfold bind at 1, on_ringer, modify. cbn [fst snd].
    unfold dead in Hd. rewrite Eq in Hd. cbn [List.filter] in Hd.
    assert (FI := find_in t (wf_tasks q)). destruct (wf_find t (wf_tasks q)) as [[k f]|] eqn:Ef.
    - fold (ids q) in FI. rewrite (proj2 (memn_in _ _) FI) in Hd. cbn [negb] in Hd. destruct Hn as [Hn|Hn]; [|unfold ids in FI; rewrite Hn in FI; destruct FI].
      unfold bind at 1, rung. cbn [fst snd]. destruct (HF f w) as (w2 & f1 & b & ->). cbn [fold_left]. destruct b as [|o].
      + unfold bind at 1, get. cbn [fst snd is_pending].
        set (r2 := aring_all (rings w2) (anote (AFut t true) (set_queue rest r))).
        destruct (stop _ (Datatypes.S n) len) eqn:Es; [eexists _, _, _; reflexivity|].
        assert (Hi : ids (WFu (wf_put t (k, f1) (wf_tasks q)) (wf_fresh q) (wf_num q)) = ids q) by apply put_ids.
        apply IH; cbn [snd].
        * rewrite Hi. unfold r2. rewrite live_rings. exact L.
        * left. destruct (Nat.eq_dec (Datatypes.S n) len) as [<-|]; [rewrite HS in Es; discriminate Es | lia].
        * unfold r2. rewrite dead_rings by (rewrite Hi; exact L). unfold dead. rewrite Hi. cbn [anote set_queue rg_queue]. lia.
      + eexists _, _, _. reflexivity.
    - fold (ids q) in FI. rewrite (proj2 (memn_out _ _) FI) in Hd. cbn [negb length] in Hd. apply IH; cbn [snd]; [exact L | exact Hn | unfold dead; cbn [set_queue rg_queue]; lia].
  Qed.
  Lemma filter_length_le {A} (p : A -> bool) l : length (List.filter p l) <= length l.
  Proof. induction l as [|a l IH]; cbn; [lia|]. destruct (p a); cbn; lia. Qed.
  Lemma next_returns (q : fu) (x : X) : (forall f w, exists w1 f1 a, fpoll f w = (w1, Val (f1, a))) -> (forall y n, stop y n n = true) ->
    winv q (snd x) -> exists x1 q1 a, wf_next rings fpoll fdrop stop q x = (x1, Val (q1, a)).
  Proof.
    intros HF HS H. destruct x as [w r]. cbn [snd] in H. unfold wf_next, bind, on_ringer, modify, get. cbn [fst snd]. apply loop_returns; [exact HF|exact HS| | |]; cbn [snd rg_live wf_tasks].
    - apply (start_inv true H).
    - destruct (wf_tasks q); [right; reflexivity | left; cbn; lia].
    - unfold dead. cbn [rg_queue]. match goal with |- length (List.filter ?p ?l) + _ < _ => assert (D := filter_length_le p l) end. lia.
  Qed.

  (** ** Nothing to do, nothing done. *)
  Lemma loop_idle fuel : forall y n len (q : fu) (x : X), (forall t, In t (rg_queue (snd x)) -> ~ In t (ids q)) -> wf_fresh q = [] ->
    length (rg_queue (snd x)) < fuel ->
    wf_loop rings fpoll fdrop stop fuel y n len q x = ((fst x, set_queue [] (snd x)), Val (q, match wf_tasks q with [] => Ready None | _ => Pending end)).
  Proof.
    induction fuel as [|fuel IH]; intros y n len q [w r] H Hf Hl; [lia|]. cbn [wf_loop]. unfold bind at 1, get at 1. cbn [fst snd] in *.
    destruct (rg_queue r) as [|t rest] eqn:Eq.
    - unfold ret. replace (set_queue [] r) with r by (unfold set_queue; rewrite <- Eq; destruct r; reflexivity). reflexivity.
    - unfold bind at 1, on_ringer, modify. cbn [fst snd]. assert (FI := find_in t (wf_tasks q)). destruct (wf_find t (wf_tasks q)) as [[k f]|]; [destruct (H t (or_introl eq_refl) FI)|].
      rewrite IH; cbn [fst snd set_queue rg_queue rg_live rg_parent rg_woken rg_log]; [reflexivity | intros t' I; apply H; right; exact I | exact Hf | cbn in Hl; lia].
  Qed.
  Lemma next_idle (q : fu) (x : X) : calm (ids q) (wf_fresh q) (snd x) -> rg_woken (snd x) = false -> winv q (snd x) ->
    wf_next rings fpoll fdrop stop q x = ((fst x, Ringer [] (rg_live (snd x)) (rg_parent (snd x)) (rg_woken (snd x)) (rg_log (snd x))), Val (q, match wf_tasks q with [] => Ready None | _ => Pending end)).
  Proof.
    intros [C|[P C]] Hw H; [congruence|].
    assert (Ef : wf_fresh q = []). { destruct (wf_fresh q) as [|t l] eqn:Ef; [reflexivity|]. destruct (C t) as [D _]; [apply (wi_fresh H); rewrite Ef; left; reflexivity|]. destruct D. left. reflexivity. }
    destruct x as [w r]. cbn [fst snd] in *. unfold wf_next, bind, on_ringer, modify, get. cbn [fst snd]. rewrite Ef, !app_nil_r. rewrite loop_idle; cbn [fst snd rg_queue].
    - unfold set_queue. cbn [rg_live rg_parent rg_woken rg_log wf_tasks]. rewrite P. destruct q as [qt qf qn]. cbn [wf_fresh] in Ef. subst qf. reflexivity.
    - intros t I J. apply (C t J), I.
    - reflexivity.
    - lia.
  Qed.
End Fu.

(** ** A collection of futures that registers wakers properly. *)
Record proper {W F O} (Q : Drive (W * ringer) F O) (idq freshq : qst Q -> list nat) (restq : qst Q -> Prop) (inv : qst Q -> ringer -> Prop) : Prop := {
  pr_new : inv (q_new Q) ringer0;
  pr_sound : forall q r, inv q r -> sound (idq q) (freshq q) r;
  pr_call : forall q r, inv q r -> when_called (rg_log r);
  pr_ring : forall q r k, inv q r -> inv q (aring k r);
  pr_note : forall q r e, inv q r -> match e with AReady _ | AStream _ => True | _ => False end -> inv q (anote e r);
  pr_reset : forall q r b, inv q r -> inv q (Ringer (rg_queue r) (rg_live r) (rg_parent r) b (rg_log r));
  pr_push : forall q r f, inv q r -> inv (q_push Q q f) r;
  pr_poll : forall q (x x1 : W * ringer) q1 a, inv q (snd x) -> q_poll Q q x = (x1, Val (q1, a)) ->
    inv q1 (snd x1) /\ match a with Ready (Some _) => True | _ => calm (idq q1) (freshq q1) (snd x1) /\ restq q1 end;
  pr_idle : forall q (x : W * ringer), inv q (snd x) -> calm (idq q) (freshq q) (snd x) -> rg_woken (snd x) = false -> restq q ->
    exists a, match a with Ready (Some _) => False | _ => True end /\ q_poll Q q x = ((fst x, Ringer [] (rg_live (snd x)) (rg_parent (snd x)) (rg_woken (snd x)) (rg_log (snd x))), Val (q, a)) }.

Lemma unordered_proper W F O (rings : W -> list waker) (fpoll : F -> M W (F * poll O)) fdrop stop :
  proper (wunordered rings fpoll fdrop stop) (@unordered_ids F) (fun q => wf_fresh q) (fun _ => True) (fun q r => winv q r).
Proof.
  split.
  - apply new_inv.
  - intros q r H. apply H.
  - intros q r H. apply (wi_call H).
  - intros q r k H. apply ring_inv, H.
  - intros q r e H. apply note_inv, H.
  - intros q r b H. apply reset_inv, H.
  - intros q r f H. apply push_inv, H.
  - intros q x x1 q1 a H E. cbn [q_poll wunordered] in E. unfold bind in E.
    destruct (wf_next rings fpoll fdrop stop q x) as [x2 [[q2 b]| |]] eqn:En; try discriminate E. unfold ret in E. injection E as <- <- <-.
    destruct (next_ok _ _ _ _ _ H En) as [A B]. split; [exact A|]. destruct b as [|[[u o]|]]; [split; [exact B | exact I] | exact I | split; [exact B | exact I]].
  - intros q x H C Hw _. exists (match wf_tasks q with [] => Ready None | _ => Pending end). split; [destruct (wf_tasks q); exact I|].
    cbn [q_poll wunordered]. unfold bind. rewrite (next_idle rings fpoll fdrop stop x C Hw H). unfold ret. destruct (wf_tasks q); reflexivity.
Qed.
Definition head_early {F O} (q : wordq (F := F) (O := O)) : Prop := match wo_done q with (i, _) :: _ => i <> wo_out q | [] => True end.
Lemma insert_early {O} (i : nat) (o : O) out h : i <> out -> match h with (j, _) :: _ => j <> out | [] => True end -> match heap_insert (i, o) h with (j, _) :: _ => j <> out | [] => True end.
Proof. intros A B. destruct h as [|[j o'] h]; [exact A|]. cbn [heap_insert fst]. destruct (i <=? j); assumption. Qed.
Lemma ordered_proper W F O (rings : W -> list waker) (fpoll : F -> M W (F * poll O)) fdrop stop :
  proper (wordered rings fpoll fdrop stop) (@ordered_ids F O) (fun q => wf_fresh (wo_fu q)) (@head_early F O) (fun q r => winv (wo_fu q) r).
Proof.
  assert (LL : forall fuel q (x x1 : W * ringer) q1 a, winv (wo_fu q) (snd x) -> head_early q -> word_loop rings fpoll fdrop stop fuel q x = (x1, Val (q1, a)) ->
    winv (wo_fu q1) (snd x1) /\ match a with Ready (Some _) => True | _ => calm (ordered_ids q1) (wf_fresh (wo_fu q1)) (snd x1) /\ head_early q1 end).
  { induction fuel as [|fuel IH]; intros q x x1 q1 a H He E; [discriminate E|]. cbn [word_loop] in E. unfold bind in E.
    destruct (wf_next rings fpoll fdrop stop (wo_fu q) x) as [x2 [[q2 b]| |]] eqn:En; try discriminate E. destruct (next_ok _ _ _ _ _ H En) as [A B].
    destruct b as [|[[i o]|]].
    - unfold ret in E. injection E as <- <- <-. split; [exact A | split; [exact B | exact He]].
    - destruct (i =? wo_out q) eqn:Ei.
      + unfold ret in E. injection E as <- <- <-. split; [exact A|exact I].
      + apply (IH _ _ _ _ _) with (3 := E); [exact A|]. apply Nat.eqb_neq in Ei. apply insert_early; assumption.
    - unfold ret in E. injection E as <- <- <-. split; [exact A | split; [exact B | exact He]]. }
  split.
  - apply new_inv.
  - intros q r H. apply H.
  - intros q r H. apply (wi_call H).
  - intros q r k H. apply ring_inv, H.
  - intros q r e H. apply note_inv, H.
  - intros q r b H. apply reset_inv, H.
  - intros q r f H. apply push_inv, H.
  - intros q x x1 q1 a H E. cbn [q_poll wordered] in E. unfold word_next in E. destruct (wo_done q) as [|[i o] h] eqn:Ed.
    + apply (LL _ _ _ _ _ _ H) with (2 := E). unfold head_early. rewrite Ed. exact I.
    + destruct (i =? wo_out q) eqn:Ei.
      * unfold ret in E. injection E as <- <- <-. split; [exact H|exact I].
      * apply (LL _ _ _ _ _ _ H) with (2 := E). unfold head_early. rewrite Ed. apply Nat.eqb_neq, Ei.
  - intros q x H C Hw He. exists (match wf_tasks (wo_fu q) with [] => Ready None | _ => Pending end). split; [destruct (wf_tasks (wo_fu q)); exact I|].
    assert (N : forall m, word_loop rings fpoll fdrop stop (S m) q x = ((fst x, Ringer [] (rg_live (snd x)) (rg_parent (snd x)) (rg_woken (snd x)) (rg_log (snd x))), Val (q, match wf_tasks (wo_fu q) with [] => Ready None | _ => Pending end))).
    { intros m. cbn [word_loop]. unfold bind. rewrite (next_idle rings fpoll fdrop stop x C Hw H). destruct q as [u d i o]. cbn [wo_fu wo_done wo_in wo_out]. destruct (wf_tasks u); reflexivity. }
    cbn [q_poll wordered]. unfold word_next. unfold head_early in He. destruct (wo_done q) as [|[i o] h]; [apply N|]. rewrite (proj2 (Nat.eqb_neq _ _) He). apply N.
Qed.

Section All.
  Context {W Req Resp Err : Type} (svc : Service W Req Resp Err) (S : Stream W Req) (rings : W -> list waker) (fuel : nat).
  Context (Q : Drive (W * ringer) (fut svc) (result Resp Err)) (idq freshq : qst Q -> list nat) (restq : qst Q -> Prop) (inv : qst Q -> ringer -> Prop).
  Hypothesis HQ : proper Q idq freshq restq inv.
  Notation X := (W * ringer)%type.
  Notation rsvc := (rung_svc rings svc).
  Notation rstr := (rung_stream rings S).
  Notation ca := (call_all rsvc rstr Q).

  Definition source_waits (c : ca) (r : ringer) : Prop :=
    ca_eof c = true \/ rg_woken r = true \/ match ca_req c with None => stream_waits (rg_log r) | Some _ => svc_waits (rg_log r) end.
  Definition dozing (c : ca) (r : ringer) : Prop :=
    calm (idq (ca_queue c)) (freshq (ca_queue c)) r /\ source_waits c r /\ restq (ca_queue c) /\ (ca_eof c = true -> q_empty Q (ca_queue c) = false).

  Lemma ring_woken k r : rg_woken r = true -> rg_woken (aring k r) = true.
  Proof. intros H. unfold aring, anote. destruct k as [|t]; [reflexivity|]. destruct (memn t (rg_live r) && negb (memn t (rg_queue r))); cbn [rg_woken]; rewrite H; reflexivity. Qed.
  Lemma source_ring k c r : source_waits c r -> source_waits c (aring k r).
  Proof.
    intros [H|[H|H]]; [left; exact H | right; left; apply ring_woken, H|]. destruct k as [|t]; [right; left; reflexivity|].
    right. right. rewrite ring_log. destruct (ca_req c); cbn [stream_waits svc_waits]; (split; [discriminate | exact H]).
  Qed.
  Lemma source_rings l c : forall r, source_waits c r -> source_waits c (aring_all l r).
  Proof. induction l as [|k l IH]; intros r H; [exact H|]. apply IH, source_ring, H. Qed.

  Lemma inv_note q r e : inv q r -> match e with AReady _ | AStream _ => True | _ => False end -> inv q (anote e r).
  Proof. apply (pr_note HQ). Qed.
  Lemma inv_rings q l : forall r, inv q r -> inv q (aring_all l r).
  Proof. induction l as [|k l IH]; intros r H; [exact H|]. apply IH, (pr_ring HQ), H. Qed.

  Lemma next_all n : forall (c : ca) (x x1 : X) c1 a, inv (ca_queue c) (snd x) -> ca_next n c x = (x1, Val (c1, a)) ->
    inv (ca_queue c1) (snd x1) /\ (a = Pending -> dozing c1 (snd x1)).
  Proof.
    induction n as [|n IH]; intros c x x1 c1 a H E; [discriminate E|]. cbn [ca_next] in E. unfold bind at 1 in E.
    match type of E with (let (_, _) := ?m in _) = _ => destruct m as [x2 [[q b]| |]] eqn:Eq; try discriminate E end. destruct (pr_poll HQ _ _ H Eq) as [V C].
    assert (K : forall (D : calm (idq q) (freshq q) (snd x2) /\ restq q),
      (if ca_eof c then ret (CA (svc := rsvc) (S := rstr) (Q := Q) (ca_svc c) (ca_stream c) q true (ca_req c), if q_empty Q q then Ready None else Pending)
       else
         let dispatch (t : sst rstr) (r : Req) :=
           match ca_svc c with
           | None => panic
           | Some s =>
               '(s1, b) <- poll_ready rsvc s ;;
               match b with
               | Pending => ret (CA (svc := rsvc) (S := rstr) (Q := Q) (Some s1) t q false (Some r), Pending)
               | Ready (Er e) => ret (CA (Some s1) t q true (Some r), Ready (Some (Er e)))
               | Ready (Ok _) => '(s2, f) <- call rsvc s1 r ;; ca_next n (CA (Some s2) t (q_push Q q f) false None)
               end
           end in
         match ca_req c with
         | Some r => dispatch (ca_stream c) r
         | None =>
             '(t1, b) <- snext rstr (ca_stream c) ;;
             match b with
             | Pending => ret (CA (ca_svc c) t1 q false None, Pending)
             | Ready None => ca_next n (CA (ca_svc c) t1 q true None)
             | Ready (Some r) => dispatch t1 r
             end
         end) x2 = (x1, Val (c1, a)) -> inv (ca_queue c1) (snd x1) /\ (a = Pending -> dozing c1 (snd x1))).
    { clear E. intros D E. destruct (ca_eof c) eqn:Eeof.
      - unfold ret in E. injection E as <- <- <-. split; [exact V|]. intros Ep. destruct D as [D R]. split; [exact D|]. split; [left; reflexivity|]. split; [exact R|]. intros _. cbn [ca_queue]. destruct (q_empty Q q); [discriminate Ep | reflexivity].
      - cbv zeta in E. destruct D as [D R].
        assert (DI : forall t r (x3 : X), inv q (snd x3) -> calm (idq q) (freshq q) (snd x3) ->
          match ca_svc c with
          | None => panic
          | Some s =>
              '(s1, b) <- poll_ready rsvc s ;;
              match b with
              | Pending => ret (CA (svc := rsvc) (S := rstr) (Q := Q) (Some s1) t q false (Some r), Pending)
              | Ready (Er e) => ret (CA (Some s1) t q true (Some r), Ready (Some (Er e)))
              | Ready (Ok _) => '(s2, f) <- call rsvc s1 r ;; ca_next n (CA (Some s2) t (q_push Q q f) false None)
              end
          end x3 = (x1, Val (c1, a)) -> inv (ca_queue c1) (snd x1) /\ (a = Pending -> dozing c1 (snd x1))).
        { intros t r [w3 r3] V3 D3 E3. cbn [snd] in *. destruct (ca_svc c) as [s|]; [|discriminate E3]. unfold bind at 1 in E3. cbn [poll_ready rung_svc] in E3. unfold rung in E3. cbn [fst snd] in E3.
          destruct (poll_ready svc s w3) as [w4 [[s1 p]| |]]; try discriminate E3. cbn [fold_left] in E3.
          set (r4 := aring_all (rings w4) (anote (AReady (is_pending p)) r3)) in E3.
          assert (V4 : inv q r4) by (apply inv_rings, inv_note; [exact V3 | exact I]).
          assert (D4 : calm (idq q) (freshq q) r4) by (apply calm_rings; exact D3).
          destruct p as [|[u|e]].
          - unfold ret in E3. injection E3 as <- <- <-. split; [exact V4|]. intros _. split; [exact D4|]. split; [apply source_rings; right; right; reflexivity|]. split; [exact R | discriminate].
          - unfold bind in E3. cbn [call rung_svc] in E3. unfold rung in E3. cbn [fst snd] in E3. destruct (call svc s1 r w4) as [w5 [[s2 f]| |]]; try discriminate E3. cbn [silent fold_left] in E3.
            eapply IH with (2 := E3). cbn [ca_queue snd]. apply (pr_push HQ). apply inv_rings, V4.
          - unfold ret in E3. injection E3 as <- <- <-. split; [exact V4|discriminate]. }
        destruct (ca_req c) as [r|]; [exact (DI _ _ _ V D E)|].
        unfold bind at 1 in E. cbn [snext rung_stream] in E. unfold rung in E. destruct x2 as [w2 r2]. cbn [fst snd] in *.
        destruct (snext S (ca_stream c) w2) as [w3 [[t1 p]| |]]; try discriminate E. cbn [fold_left] in E.
        set (r3 := aring_all (rings w3) (anote (AStream (is_pending p)) r2)) in E.
        assert (V3 : inv q r3) by (apply inv_rings, inv_note; [exact V | exact I]).
        assert (D3 : calm (idq q) (freshq q) r3) by (apply calm_rings; exact D).
        destruct p as [|[r|]].
        + unfold ret in E. injection E as <- <- <-. split; [exact V3|]. intros _. split; [exact D3|]. split; [apply source_rings; right; right; reflexivity|]. split; [exact R | discriminate].
        + exact (DI _ _ (w3, r3) V3 D3 E).
        + eapply IH with (2 := E). exact V3. }
    destruct b as [|[res|]].
    - exact (K C E).
    - unfold ret in E. injection E as <- <- <-. split; [exact V|discriminate].
    - exact (K C E).
  Qed.

  Notation step := (lstep svc S rings fuel Q).
  Notation run := (@lrun _ _ _ _ svc S rings fuel Q).
  Lemma step_all o c x b c1 x1 : step o (c, x) = Some (b, c1, x1) -> inv (ca_queue c) (snd x) ->
    inv (ca_queue c1) (snd x1) /\ (b = LPolled Pending -> dozing c1 (snd x1)) /\ (o <> LPoll -> dozing c (snd x) -> dozing c1 (snd x1)).
  Proof.
    intros E H. destruct o as [|k|g]; cbn [lstep] in E.
    - match type of E with context [ca_next fuel c ?x0] => set (x0' := x0) in E; destruct (ca_next fuel c x0') as [x2 [[c2 a]| |]] eqn:En; try discriminate E end.
      injection E as <- <- <-. assert (V0 : inv (ca_queue c) (snd x0')) by (exact (pr_reset HQ (ca_queue c) (snd x) false H)).
      destruct (next_all _ _ _ V0 En) as [A B]. split; [exact A|]. split; [intros Eb; injection Eb as ->; apply B; reflexivity|]. intros N; contradiction.
    - injection E as <- <- <-. cbn [snd]. split; [exact (inv_rings [k] H)|]. split; [discriminate|].
      intros _ (A & B & C). split; [apply calm_ring, A|]. split; [apply source_ring, B | exact C].
    - injection E as <- <- <-. split; [exact H|]. split; [discriminate|auto].
  Qed.
  Lemma run_all l : forall (c : ca) (x : X), inv (ca_queue c) (snd x) -> forall n b c1 x1, nth_error (run (c, x) l) n = Some (b, c1, x1) ->
    inv (ca_queue c1) (snd x1) /\ (b = LPolled Pending -> dozing c1 (snd x1)).
  Proof.
    induction l as [|o l IH]; intros c x H n b c1 x1 E; [destruct n; discriminate E|]. cbn [lrun] in E.
    destruct (step o (c, x)) as [[[b2 c2] x2]|] eqn:Es; [|destruct n; discriminate E].
    destruct (step_all _ _ _ Es H) as (A & B & _). destruct n as [|n]; [injection E as <- <- <-; auto|]. exact (IH c2 x2 A n _ _ _ E).
  Qed.
  Lemma run_doze l : forall (c : ca) (x : X), inv (ca_queue c) (snd x) -> dozing c (snd x) -> forall n b c1 x1, nth_error (run (c, x) l) n = Some (b, c1, x1) ->
    (forall j o, j <= n -> nth_error l j = Some o -> o <> LPoll) -> dozing c1 (snd x1).
  Proof.
    induction l as [|o l IH]; intros c x H D n b c1 x1 E HO; [destruct n; discriminate E|]. cbn [lrun] in E.
    destruct (step o (c, x)) as [[[b2 c2] x2]|] eqn:Es; [|destruct n; discriminate E].
    destruct (step_all _ _ _ Es H) as (A & _ & B). specialize (B (HO 0 o (Nat.le_0_l _) eq_refl) D).
    destruct n as [|n]; [injection E as <- <- <-; auto|]. apply (IH c2 x2 A B n _ _ _ E). intros j o' Hj Ho. apply (HO (Datatypes.S j) o'); [lia|exact Ho].
  Qed.
  Lemma run_since l : forall (c : ca) (x : X), inv (ca_queue c) (snd x) -> forall i ci xi n b c1 x1,
    nth_error (run (c, x) l) i = Some (LPolled Pending, ci, xi) -> i <= n -> (forall j o, i < j <= n -> nth_error l j = Some o -> o <> LPoll) ->
    nth_error (run (c, x) l) n = Some (b, c1, x1) -> inv (ca_queue c1) (snd x1) /\ dozing c1 (snd x1).
  Proof.
    induction l as [|o l IH]; intros c x H i ci xi n b c1 x1 Ei Hin HO En; [destruct i; discriminate Ei|].
    split; [exact (proj1 (@run_all (o :: l) c x H n b c1 x1 En))|]. cbn [lrun] in Ei, En.
    destruct (step o (c, x)) as [[[b2 c2] x2]|] eqn:Es; [|destruct i; discriminate Ei].
    destruct (step_all _ _ _ Es H) as (A & B & _). destruct i as [|i].
    - injection Ei as -> <- <-. specialize (B eq_refl). destruct n as [|n]; [injection En as <- <- <-; exact B|].
      refine (@run_doze l c2 x2 A B n b c1 x1 En _). intros j o' Hj Ho. apply (HO (Datatypes.S j) o'); [lia|exact Ho].
    - destruct n as [|n]; [lia|]. refine (proj2 (@IH c2 x2 A i ci xi n _ _ _ Ei _ _ En)); [lia|].
      intros j o' Hj Ho. apply (HO (Datatypes.S j) o'); [lia|exact Ho].
  Qed.

  Theorem all_pending s t w l i ci xi n b c x :
    nth_error (lhistory svc S rings fuel Q s t w l) i = Some (LPolled Pending, ci, xi) -> i <= n ->
    (forall j o, i < j <= n -> nth_error l j = Some o -> o <> LPoll) ->
    nth_error (lhistory svc S rings fuel Q s t w l) n = Some (b, c, x) ->
    rg_woken (snd x) = true \/
    ((forall k, In k (idq (ca_queue c)) -> fut_waits (rg_log (snd x)) k /\ rg_woken (aring (WkChild k) (snd x)) = true) /\
     (ca_eof c = true \/ match ca_req c with None => stream_waits (rg_log (snd x)) | Some _ => svc_waits (rg_log (snd x)) end)).
  Proof.
    intros Ei Hin HO En. destruct (@run_since l (ca_new rsvc rstr Q s t) (w, ringer0) (pr_new HQ) i ci xi n b c x Ei Hin HO En) as [V (C & D & _)].
    destruct (rg_woken (snd x)) eqn:Ew; [left; reflexivity|right]. destruct C as [C|[P C]]; [congruence|].
    split.
    - intros k Hk. destruct (C k Hk) as [F1 F2]. destruct (pr_sound HQ _ _ V k Hk) as [B|[B1 [B2|B2]]]; try contradiction. split; [exact B2|].
      unfold aring, anote. cbn [rg_woken]. rewrite (proj2 (memn_in _ _) B1), (proj2 (memn_out _ _) F2). cbn [negb andb rg_woken]. rewrite P. apply orb_true_r.
    - destruct D as [D|[D|D]]; [left; exact D | congruence | right; exact D].
  Qed.

  Theorem all_called s t w l n b c x : nth_error (lhistory svc S rings fuel Q s t w l) n = Some (b, c, x) -> when_called (rg_log (snd x)).
  Proof.
    intros E. exact (pr_call HQ _ _ (proj1 (@run_all l (ca_new rsvc rstr Q s t) (w, ringer0) (pr_new HQ) n b c x E))).
  Qed.
  Theorem all_idle s t w l i ci xi n b c x :
    nth_error (lhistory svc S rings fuel Q s t w l) i = Some (LPolled Pending, ci, xi) -> i <= n ->
    (forall j o, i < j <= n -> nth_error l j = Some o -> o <> LPoll) ->
    nth_error (lhistory svc S rings fuel Q s t w l) n = Some (b, c, x) ->
    0 < fuel -> rg_woken (snd x) = false -> ca_eof c = true ->
    exists r, lstep svc S rings fuel Q LPoll (c, x) = Some (LPolled Pending, c, (fst x, r)) /\ rg_log r = rg_log (snd x) /\ rg_woken r = false.
  Proof.
    intros Ei Hin HO En Hf Hw He. destruct (@run_since l (ca_new rsvc rstr Q s t) (w, ringer0) (pr_new HQ) i ci xi n b c x Ei Hin HO En) as [V (C & _ & R & NE)].
    set (r0 := Ringer (rg_queue (snd x)) (rg_live (snd x)) (rg_parent (snd x)) false (rg_log (snd x))).
    assert (V0 : inv (ca_queue c) r0) by exact (pr_reset HQ (ca_queue c) (snd x) false V).
    assert (C0 : calm (idq (ca_queue c)) (freshq (ca_queue c)) r0) by (destruct C as [C|C]; [congruence | right; exact C]).
    destruct (pr_idle HQ (ca_queue c) (fst x, r0) V0 C0 eq_refl R) as (a & Ha & Ep). cbn [fst snd r0 rg_live rg_parent rg_woken rg_log] in Ep.
    set (r1 := Ringer [] (rg_live (snd x)) (rg_parent (snd x)) false (rg_log (snd x))) in *. exists r1. split; [|split; reflexivity].
    assert (N : ca_next fuel c (fst x, r0) = ((fst x, r1), Val (c, Pending))).
    { destruct (Nat.lt_exists_pred 0 fuel Hf) as (m & Hm & _). rewrite Hm. cbn [ca_next]. unfold bind at 1.
      match goal with |- (let (_, _) := ?m in _) = _ => replace m with ((fst x, r1), Val (ca_queue c, a)) by (symmetry; exact Ep) end.
      specialize (NE He). destruct c as [cs ct cq ceof creq]. cbn [ca_svc ca_stream ca_queue ca_eof ca_req] in *. subst ceof.
      assert (Z : (if q_empty Q cq then Ready None else @Pending (option (result Resp Err))) = Pending) by (rewrite NE; reflexivity).
      destruct a as [|[res|]]; [|destruct Ha|]; unfold ret; exact (f_equal (fun z => ((fst x, r1), Val (CA cs ct cq true creq, z))) Z). }
    unfold lstep. fold r0. rewrite N. reflexivity.
  Qed.
End All.
