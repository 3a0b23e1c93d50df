(** Histories of a ReadyCache. *)
From Coq Require Import Permutation.
From Verif Require Import Base Track Middleware ReadyCache CacheSpec CacheProof.
Set Implicit Arguments.

Section Hist.
  Context {W K Req Resp Err : Type} (keq : forall a b : K, {a = b} + {a <> b}).
  Context (svc : Service W Req Resp Err) (sched : nat -> W -> W * list nat).
  Notation ev := (tev Req Resp Err).
  Notation ts := (tracked (L := ev) (fun e => e) svc).
  Context (R Rdy : st svc -> Prop) (pan dv : Prop).
  Hypothesis Hready : forall s w, R s \/ Rdy s ->
    match poll_ready svc s w with
    | (_, Val (s1, Pending)) => R s1
    | (_, Val (s1, Ready (Ok _))) => Rdy s1
    | (_, Val (_, Ready (Er _))) => True
    | (_, Panic) => pan
    | (_, Diverge) => dv
    end.
  Hypothesis Hcall : forall s r w, Rdy s ->
    match call svc s r w with
    | (_, Val (s1, _)) => R s1
    | (_, Panic) => pan
    | (_, Diverge) => dv
    end.

  Lemma CInv_shows (c : cache (K := K) ts) nx a : CInv R Rdy c nx a -> shows keq c a.
  Proof.
    intros [HI _ _].
    assert (ND : NoDup (map fst (rc_ready c))) by (rewrite <- keys_rsig; apply (i_rk HI)).
    assert (HR : forall k i, in_ready a k = Some i <-> exists n s, get_ready_index c n = Some (k, (i, s))).
    { intros k i. rewrite (i_ready HI). unfold get_ready_index. split.
      - intros (t & H). apply in_map_iff in H as ([k1 [[i1 s1] t1]] & E & H). injection E as -> -> ->.
        apply In_nth_error in H as [n H]. exists n, s1. rewrite H. reflexivity.
      - intros (n & s & H). destruct (nth_error (rc_ready c) n) as [[k1 [s1 t]]|] eqn:E; [|discriminate].
        injection H as -> ->. apply nth_error_In in E. exists t. apply (in_map (rsig (inj := fun e => e) (svc := svc))) in E. exact E. }
    constructor; change (tsvc svc) with ts.
    - intros k i. rewrite HR. unfold get_ready, get_ready_index. split.
      + intros (n & s & H). lazymatch type of H with match ?u with _ => _ end = _ => destruct u as [[m [s1 t]]|] eqn:E; [|discriminate] end.
        injection H as -> ->. apply im_find_some in E. exists n, s. rewrite E. reflexivity.
      + intros (n & s & H). destruct (nth_error (rc_ready c) n) as [[k1 [s1 t]]|] eqn:E; [|discriminate].
        injection H as -> ->. apply nth_error_In in E.
        destruct (im_find_in keq _ _ _ ND E) as (m & Em). rewrite Em. eauto.
    - intros k i. symmetry. apply HR.
    - intros n m k i j. unfold get_ready_index.
      destruct (nth_error (rc_ready c) n) as [[k1 [s1 t1]]|] eqn:E1; [|discriminate].
      destruct (nth_error (rc_ready c) m) as [[k2 [s2 t2]]|] eqn:E2; [|discriminate].
      intros A B. injection A as -> ->. injection B as -> ->.
      apply (map_nth_error fst) in E1, E2. cbn in E1, E2.
      rewrite NoDup_nth_error in ND. apply ND; [|etransitivity; [exact E1|symmetry; exact E2]].
      apply nth_error_Some. intros C. assert (X := eq_trans (eq_sym E1) C). discriminate.
    - intros n. unfold get_ready_index, ready_len. rewrite <- nth_error_Some.
      destruct (nth_error (rc_ready c) n) as [[k1 [s1 t1]]|]; split; intros H; try discriminate; eauto.
      + destruct H as [? H]. discriminate.
      + congruence.
    - intros k. unfold pending_contains. destruct (im_find keq k (rc_txs c)) as [[n t]|] eqn:E.
      + split; [|reflexivity]. intros _ C. apply (pend_none_tx _ HI) in C. apply im_find_some in E.
        apply nth_error_In in E. apply (in_map fst) in E. auto.
      + split; [discriminate|]. intros C. exfalso. apply C. apply (pend_none_tx _ HI). apply (im_find_none keq _ _ E).
    - exists (map snd (map (psig (inj := fun e : ev => e) (svc := svc)) (rc_pending c))).
      assert (NI := i_id HI). rewrite map_app in NI. split; [apply (NoDup_app_remove_r _ _ NI)|].
      split; [rewrite !map_length; reflexivity|]. intros i. split.
      + intros H. apply in_map_iff in H as ([[k t] j] & <- & H). cbn.
        destruct (memb (rc_canceled c) t) eqn:E.
        * right. eapply Permutation_in; [apply Permutation_sym, (i_doom HI)|].
          apply in_map_iff. exists (k, t, j). split; [reflexivity|]. apply filter_In. split; [exact H|exact E].
        * left. exists k. apply (i_pend HI). exists t. split; [exact H|]. apply memb_not. exact E.
      + intros [(k & H)|H].
        * apply (i_pend HI) in H as (t & H & _). apply (in_map snd) in H. exact H.
        * apply (Permutation_in _ (i_doom HI)) in H. apply in_map_iff in H as (y & <- & H).
          apply filter_In in H as [H _]. apply in_map. exact H.
    - reflexivity.
    - unfold cache_is_empty. rewrite (nothing_pending_iff HI). split.
      + intros H. destruct (rc_ready c) eqn:E1; [|discriminate]. destruct (rc_pending c); [|discriminate].
        split; [reflexivity|]. intros k. apply (ready_none_key k HI). tauto.
      + intros [H1 H2]. apply map_eq_nil in H1. rewrite H1.
        destruct (rc_ready c) as [|[k [s t]] l] eqn:E1; [reflexivity|]. exfalso.
        specialize (H2 k). apply (ready_none_key k HI) in H2. apply H2. left. reflexivity.
  Qed.

  (** When may an operation panic? *)
  Definition may_panic (a : slots K) (q : option (option K)) : Prop :=
    pan \/ match q with
           | None => False
           | Some (Some k) => in_ready a k = None
           | Some None => True
           end.

  Definition op_pre (o : cache_op (K := K) svc) : Prop := match o with OPush _ s => R s | _ => True end.

  Lemma get_index_key (c : cache (K := K) ts) nx a n k :
    CInv R Rdy c nx a -> option_map fst (get_ready_index c n) = Some k -> in_ready a k <> None.
  Proof.
    intros H E C. unfold get_ready_index in E.
    destruct (nth_error (rc_ready c) n) as [[k1 [s1 t]]|] eqn:En; [|discriminate]. injection E as ->.
    apply (ready_none_key k (ci_inv H)) in C. apply C.
    apply nth_error_In in En. rewrite keys_rsig. apply (in_map fst) in En. exact En.
  Qed.

  Lemma find_key (c : cache (K := K) ts) k n v :
    im_find keq k (rc_ready c) = Some (n, v) -> option_map fst (get_ready_index c n) = Some k.
  Proof. intros E. apply im_find_some in E. unfold get_ready_index. rewrite E. destruct v. reflexivity. Qed.

  Lemma find_none_ready (c : cache (K := K) ts) nx a k :
    CInv R Rdy c nx a -> im_find keq k (rc_ready c) = None -> in_ready a k = None.
  Proof.
    intros H E. apply (ready_none_key k (ci_inv H)). rewrite keys_rsig. apply (im_find_none keq _ _ E).
  Qed.

  Lemma cache_do_ok (c : cache (K := K) ts) a o x :
    CInv R Rdy c (tk_next (snd x)) a -> op_pre o ->
    match cache_do keq sched c o x with
    | (x1, c1, b) =>
        match b, c1 with
        | BPanic q, _ => may_panic a q /\ c1 = None
        | BDiverge, _ => dv /\ c1 = None
        | _, Some c1 =>
          exists l a1, log_of x1 = rev l ++ log_of x /\ cache_op_ok keq b a l a1 /\
          tk_next (snd x) <= tk_next (snd x1) /\
          match b with BPushed _ i => i = tk_next (snd x) /\ i < tk_next (snd x1) | _ => True end /\
          CInv R Rdy c1 (tk_next (snd x1)) a1
        | _, None => False
        end
    end.
  Proof.
    intros HC Ho. unfold cache_do, key_at. change (tsvc svc) with ts. destruct o as [k s|k| |k|n|k r|n r].
    - cbn. exists [], (pushed keq k (tk_next (snd x)) a). split; [reflexivity|]. split; [split; reflexivity|]. split; [cbn; lia|]. split; [cbn; lia|]. apply push_ok; auto.
    - destruct (evict_ok keq k x HC) as (x1 & c1 & hit & -> & A & En & HC1 & Hh).
      exists (map TDropSvc (opt_list (in_ready a k))), (evicted keq k a). split; [exact A|]. split; [cbn; auto|]. split; [lia|].
      split; [exact I|]. rewrite En. exact HC1.
    - generalize (@poll_pending_ok _ K _ _ _ _ keq _ (fun e => e) R Rdy pan dv Hready sched c a x HC).
      destruct (poll_pending keq (tsched sched) c x) as [x1 [[c1 p]| |]].
      + intros (En & l & b & A & PA & HC1 & _). exists l, b. split; [exact A|]. split; [assumption|]. split; [lia|]. split; [exact I|exact HC1].
      + intros H. split; [left; exact H|reflexivity].
      + intros H. split; [exact H|reflexivity].
    - unfold check_ready. destruct (im_find keq k (rc_ready c)) as [[n v]|] eqn:E.
      + generalize (@check_index_ok _ K _ _ _ _ keq _ (fun e => e) R Rdy pan dv Hready c n a x HC).
        rewrite (find_key _ _ E).
        destruct (check_ready_index keq c n x) as [x1 [[c1 p]| |]].
        * intros (En & l & b & A & HC1 & B & _). exists l, b. split; [exact A|]. split; [assumption|]. split; [lia|]. split; [exact I|exact HC1].
        * intros H. split; [left; exact H|reflexivity].
        * intros H. split; [exact H|reflexivity].
      + cbn. exists [], a. split; [reflexivity|]. split; [constructor; apply (find_none_ready _ HC E)|]. split; [lia|]. split; [exact I|exact HC].
    - generalize (@check_index_ok _ K _ _ _ _ keq _ (fun e => e) R Rdy pan dv Hready c n a x HC).

      destruct (check_ready_index keq c n x) as [x1 [[c1 p]| |]].
      + intros (En & l & b & A & HC1 & B). exists l, b. split; [exact A|].
        split; [|split; [lia|split; [exact I|exact HC1]]]. cbv beta iota delta [cache_op_ok].
        revert B. destruct (option_map fst (get_ready_index c n)); [intros [B _]; exact B|intros (-> & -> & -> & _); auto].
      + intros H. split; [left; exact H|reflexivity].
      + intros H. split; [exact H|reflexivity].
    - unfold call_ready. destruct (im_find keq k (rc_ready c)) as [[n v]|] eqn:E.
      + generalize (@call_index_ok _ K _ _ _ _ keq _ (fun e => e) R Rdy pan dv Hcall c n r a x HC).
        assert (Ek := find_key _ _ E).
        destruct (call_ready_index keq c n r x) as [x1 [[c1 f]| |]].
        * intros (Ef & En & k1 & l & b & Ek1 & A & HC1 & B). rewrite Ek in Ek1. injection Ek1 as <-.
          exists l, b. split; [exact A|]. split; [assumption|]. split; [lia|]. split; [exact I|exact HC1].
        * intros [H|H]; [|rewrite H in Ek; discriminate]. split; [left; exact H|reflexivity].
        * intros H. split; [exact H|reflexivity].
      + cbn. split; [right; apply (find_none_ready _ HC E)|reflexivity].
    - generalize (@call_index_ok _ K _ _ _ _ keq _ (fun e => e) R Rdy pan dv Hcall c n r a x HC).

      destruct (call_ready_index keq c n r x) as [x1 [[c1 f]| |]].
      + intros (Ef & En & k1 & l & b & Ek1 & A & HC1 & B). rewrite Ek1. exists l, b. split; [exact A|]. split; [exact B|]. split; [lia|]. split; [exact I|exact HC1].
      + intros [H|H]; split; try reflexivity; [left; exact H|]. rewrite H. right. exact I.
      + intros H. split; [exact H|reflexivity].
  Qed.

  Lemma cache_run_ok ops : forall (c : cache (K := K) ts) a x,
    CInv R Rdy c (tk_next (snd x)) a -> Forall (fun o => op_pre (snd o)) ops ->
    cache_history keq may_panic dv a x (cache_run keq sched c x ops).
  Proof.
    induction ops as [|[g o] ops IH]; intros c a x HC HF; [exact I|]. cbn [cache_run].
    inversion HF as [|? ? Ho HF1]; subst. cbn in Ho.
    assert (HC0 : CInv R Rdy c (tk_next (snd (tk_env g x))) a) by exact HC.
    generalize (@cache_do_ok c a o (tk_env g x) HC0 Ho).
    destruct (cache_do keq sched c o (tk_env g x)) as [[x1 [c1|]] b].
    - cbn [cache_history]. intros H. split; [reflexivity|]. revert H. destruct b; try (intros [? ?]; discriminate);
        intros (l & a1 & A & B & N & C & D); exists l, a1;
        (split; [exact A|]; split; [exact B|]; split; [exact N|]; split; [exact C|]);
        (split; [eapply CInv_shows; exact D|apply IH; assumption]).
    - cbn [cache_history]. intros H. split; [reflexivity|]. revert H. destruct b; try contradiction; intros [? ?]; assumption.
  Qed.
End Hist.
