(** Proofs for C76. *)
From Coq Require Import Permutation.
From Verif Require Import Base Middleware Limits ConcSpec ConcProof QueueSpec.
Set Implicit Arguments.

Section QueueProof.
  Context {W Req Resp Err : Type} (svc : Service W Req Resp Err) (max : nat).
  Notation sys := (sys svc).
  Notation spec := (spec svc).
  Notation cst := (conc_st svc).
  Notation qsys := (qsys svc).
  Notation rel := (rel (svc := svc) max).
  Notation cl := (conc_limit svc (fun _ => false) true).

  Lemma wait_add (l : list (option cst)) c j : cl_wait c = None -> wait_of (l ++ [Some c]) j = wait_of l j.
  Proof.
    intros Hw. unfold wait_of. destruct (Nat.lt_ge_cases j (length l)) as [Hl|Hl].
    - rewrite nth_error_app1 by auto. reflexivity.
    - rewrite nth_error_app2 by auto. replace (nth_error l j) with (@None (option cst)) by (symmetry; apply nth_error_None; lia).
      destruct (j - length l) as [|[|]]; cbn; auto.
  Qed.

  Ltac wset H := match type of H with wait_of ?l ?k = ?r => change (@wait_of W Req Resp Err svc l k = r) in H end;
    rewrite (@wait_set W Req Resp Err svc) in H.

  Definition sm (y : sys) : sem := fst (y_w y).

  (** A waiting instance with its ticket granted had it before, and did not ask in this step. *)
  Lemma granted_before o (y : sys) sp : rel y sp ->
    let '(y1, b) := sys_step o y in stops b = false ->
    forall i t, wait_of (y_insts y1) i = Some t -> In t (sem_granted (sm y1)) ->
      wait_of (y_insts y) i = Some t /\ asks i o = false /\ (In t (sem_granted (sm y)) \/ In t (sem_queue (sm y))).
  Proof.
    intros (E1 & E2 & E3 & gl & Hw & Hmax).
    destruct y as [insts futs [m w]]. cbn [y_insts y_futs y_w fst snd] in *. unfold sm.
    assert (Grel : forall m0 t, In t (sem_granted (sem_release m0)) -> In t (sem_granted m0) \/ In t (sem_queue m0)).
    { intros m0 t. unfold sem_release. destruct (sem_queue m0) as [|q0 q]; cbn; auto. intros [<-|H]; auto. }
    destruct o as [i|i r|i|s0|i|j|j|g]; cbn [sys_step y_insts y_futs y_w asks].
    - destruct (nth_error insts i) as [[c|]|] eqn:Hi.
      2,3: intros _ k t Hk Hg; cbn [y_insts y_w fst] in *; unfold wait_of in Hk |- *;
           (split; [exact Hk|]); split; [|auto]; destruct (Nat.eqb_spec i k) as [<-|]; auto;
           change (st cl) with cst in *; rewrite Hi in Hk; discriminate.
      change (@nth_error (option cst) insts i = Some (Some c)) in Hi.
      cbn [poll_ready conc_limit]. destruct (cl_permit c) eqn:Hp.
      + unfold bind, lift_snd, ret. cbn [fst snd].
        destruct (poll_ready svc (cl_inner c) w) as [w1 [[s1 a]| |]]; cbn [y_insts y_w fst]; try (intros H; discriminate H).
        intros _ k t Hk Hg. wset Hk. cbn [cl_wait] in Hk. destruct (Nat.eqb_spec i k) as [<-|Hne]; auto.
        exfalso. rewrite Hi in Hk. destruct Hw as (_ & _ & H3 & _). specialize (H3 _ _ _ Hi Hk). congruence.
      + unfold bind, get, ret. cbn [fst snd].
        destruct (cl_wait c) as [t|] eqn:Ht; cbn [sem_poll].
        * destruct (mem_nat t (sem_granted m)) eqn:Hm; cbn [fst snd].
          -- unfold modify, lift_snd. cbn [fst snd].
             destruct (poll_ready svc (cl_inner c) w) as [w1 [[s1 a]| |]]; cbn [y_insts y_w fst sem_granted sem_queue]; try (intros H; discriminate H).
             intros _ k u Hk Hg. wset Hk. cbn [cl_wait] in Hk.
             destruct (Nat.eqb_spec i k) as [<-|Hne]; [rewrite Hi in Hk; discriminate|].
             split; [exact Hk|]. split; [auto|]. left. eapply remove_in, Hg.
          -- unfold modify. cbn [fst snd y_insts y_w]. intros _ k u Hk Hg. wset Hk. cbn [cl_wait] in Hk.
             destruct (Nat.eqb_spec i k) as [<-|Hne].
             ++ rewrite Hi in Hk. injection Hk as <-. apply mem_in in Hg. congruence.
             ++ auto.
        * destruct (sem_avail m) as [|a'] eqn:Ha; cbn [fst snd].
          -- unfold modify. cbn [fst snd y_insts y_w sem_granted sem_queue]. intros _ k u Hk Hg. wset Hk. cbn [cl_wait] in Hk.
             destruct (Nat.eqb_spec i k) as [<-|Hne]; auto.
             exfalso. rewrite Hi in Hk. injection Hk as <-.
             destruct Hw as (_ & _ & _ & _ & _ & H6 & H7 & _). rewrite Forall_forall in H6.
             specialize (H6 (sem_next m)). assert (sem_next m < sem_next m); [|lia]. apply H6. apply in_or_app. left.
             eapply Permutation_in; [exact H7|exact Hg].
          -- unfold modify, lift_snd. cbn [fst snd].
             destruct (poll_ready svc (cl_inner c) w) as [w1 [[s1 a]| |]]; cbn [y_insts y_w fst sem_granted sem_queue]; try (intros H; discriminate H).
             intros _ k u Hk Hg. wset Hk. cbn [cl_wait] in Hk.
             destruct (Nat.eqb_spec i k) as [<-|Hne]; [rewrite Hi in Hk; discriminate|]. auto.
    - destruct (nth_error insts i) as [[c|]|] eqn:Hi; [|cbn [y_insts y_w fst]; auto..].
      change (@nth_error (option cst) insts i = Some (Some c)) in Hi.
      cbn [call conc_limit]. destruct (cl_permit c) eqn:Hp; [|intros H; discriminate H].
      unfold bind, lift_snd, ret. cbn [fst snd].
      destruct (call svc (cl_inner c) r w) as [w1 [[s1 f]| |]]; cbn [y_insts y_w fst]; try (intros H; discriminate H).
      intros _ k t Hk Hg. wset Hk. cbn [cl_wait] in Hk. destruct (Nat.eqb_spec i k) as [<-|Hne]; auto.
      exfalso. rewrite Hi in Hk. destruct Hw as (_ & _ & H3 & _). specialize (H3 _ _ _ Hi Hk). congruence.
    - destruct (nth_error insts i) as [[c|]|] eqn:Hi; [|cbn [y_insts y_w fst]; auto..].
      cbn [clone conc_limit]. unfold bind, lift_snd, ret. cbn [fst snd].
      destruct (clone svc (cl_inner c) w) as [w1 [s1| |]]; cbn [y_insts y_w fst]; try (intros H; discriminate H).
      intros _ k t Hk Hg. rewrite wait_add in Hk by reflexivity. auto.
    - intros _ k t Hk Hg. cbn [y_insts y_w fst] in *. rewrite wait_add in Hk by reflexivity. auto.
    - destruct (nth_error insts i) as [[c|]|] eqn:Hi; [|cbn [y_insts y_w fst]; auto..].
      change (@nth_error (option cst) insts i = Some (Some c)) in Hi.
      cbn [drop_svc conc_limit fst snd y_insts y_w]. intros _ k t Hk Hg. wset Hk.
      destruct (Nat.eqb_spec i k) as [<-|Hne]; [rewrite Hi in Hk; discriminate|].
      split; [exact Hk|]. split; [auto|].
      assert (Gf : forall t, In t (sem_granted (sem_forget (cl_wait c) m)) \/ In t (sem_queue (sem_forget (cl_wait c) m)) ->
                In t (sem_granted m) \/ In t (sem_queue m)).
      { intros u. destruct (cl_wait c) as [u0|]; cbn [sem_forget]; auto.
        destruct (mem_nat u0 (sem_granted m)).
        - unfold sem_release. cbn [sem_queue sem_granted sem_avail sem_next].
          assert (Hr : forall l, In u (remove_nat u0 l) -> In u l).
          { intros l. apply remove_in. }
          destruct (sem_queue m) as [|q0 q]; cbn; intuition auto.
        - cbn. intros [X|X]; [auto | right; eapply remove_in, X]. }
      apply Gf. destruct (cl_permit c); auto.
    - destruct (nth_error futs j) as [[f|]|] eqn:Hj; [|cbn [y_insts y_w fst]; auto..].
      cbn [poll_fut conc_limit]. unfold lift_snd. cbn [fst snd].
      destruct (poll_fut svc f w) as [w1 [[f1 a]| |]]; cbn [y_insts y_w fst]; auto.
    - destruct (nth_error futs j) as [[f|]|] eqn:Hj; [|cbn [y_insts y_w fst]; auto..].
      cbn [drop_fut conc_limit fst snd y_insts y_w]. intros _ k t Hk Hg. auto.
    - cbn [y_insts y_w fst]. auto.
  Qed.

  Definition touches (i : nat) (o : cop svc) : bool :=
    match o with CReady k | CCall k _ | CDropSvc k => k =? i | _ => false end.

  Lemma untouched o (y : sys) i : touches i o = false ->
    let '(y1, b) := sys_step o y in
    wait_of (y_insts y1) i = wait_of (y_insts y) i /\
    (forall c, nth_error (y_insts y) i = Some (Some c) -> nth_error (y_insts y1) i = Some (Some c)).
  Proof.
    destruct y as [insts futs [m w]].
    destruct o as [k|k r|k|s0|k|j|j|g]; cbn [sys_step touches y_insts y_futs y_w]; intros Ht; try apply Nat.eqb_neq in Ht.
    - destruct (nth_error insts k) as [[c|]|]; [|cbn; auto..].
      destruct (poll_ready _ c (m, w)) as [w1 [[c1 a]| |]]; cbn [y_insts]; auto.
      split.
      + etransitivity; [exact (wait_set (svc := svc) insts k (Some c1) i)|].
        destruct (Nat.eqb_spec k i); [contradiction|reflexivity].
      + intros c0 H. rewrite nth_set. destruct (Nat.eqb_spec k i); [contradiction|exact H].
    - destruct (nth_error insts k) as [[c|]|]; [|cbn; auto..].
      destruct (call _ c r (m, w)) as [w1 [[c1 a]| |]]; cbn [y_insts]; auto.
      split.
      + etransitivity; [exact (wait_set (svc := svc) insts k (Some c1) i)|].
        destruct (Nat.eqb_spec k i); [contradiction|reflexivity].
      + intros c0 H. rewrite nth_set. destruct (Nat.eqb_spec k i); [contradiction|exact H].
    - destruct (nth_error insts k) as [[c|]|]; [|cbn; auto..].
      cbn [clone conc_limit]. unfold bind, lift_snd, ret. cbn [fst snd].
      destruct (clone svc (cl_inner c) w) as [w1 [s1| |]]; cbn [y_insts]; auto.
      split; [apply wait_add; reflexivity|].
      intros c0 H. rewrite nth_error_app1; auto. apply nth_error_Some. congruence.
    - cbn [y_insts]. split; [apply wait_add; reflexivity|].
      intros c0 H. rewrite nth_error_app1; auto. apply nth_error_Some. congruence.
    - destruct (nth_error insts k) as [[c|]|]; [|cbn; auto..]. cbn [y_insts]. split.
      + etransitivity; [exact (wait_set (svc := svc) insts k None i)|].
        destruct (Nat.eqb_spec k i); [contradiction|reflexivity].
      + intros c0 H. rewrite nth_set. destruct (Nat.eqb_spec k i); [contradiction|exact H].
    - destruct (nth_error futs j) as [[f|]|]; [|cbn; auto..].
      destruct (poll_fut _ f (m, w)) as [w1 [[f1 a]| |]]; cbn [y_insts]; auto.
    - destruct (nth_error futs j) as [[f|]|]; cbn; auto.
    - cbn. auto.
  Qed.

  Lemma ready_inst i (y : sys) sp : rel y sp ->
    let '(y1, b) := sys_step (CReady i) y in
    match b with
    | CoReady a => exists c0 c1, nth_error (y_insts y) i = Some (Some c0) /\ nth_error (y_insts y1) i = Some (Some c1) /\
        match a with
        | Pending => cl_permit c1 = true \/ exists t, cl_wait c1 = Some t
        | Ready _ => cl_wait c1 = None
        end
    | CoNone => y1 = y /\ forall c, nth_error (y_insts y) i <> Some (Some c)
    | CoPanic | CoDiverge => True
    | _ => False
    end.
  Proof.
    intros (E1 & E2 & E3 & gl & Hw & Hmax).
    destruct y as [insts futs [m w]]. cbn [sys_step y_insts y_futs y_w fst snd] in *.
    destruct (nth_error insts i) as [[c|]|] eqn:Hi; [|(split; [reflexivity|intros c H; congruence])..].
    change (@nth_error (option cst) insts i = Some (Some c)) in Hi.
    assert (Hset : forall x : cst, nth_error (set_nth i (Some x) insts) i = Some (Some x)).
    { intros x. rewrite nth_set, Nat.eqb_refl, Hi. reflexivity. }
    cbn [poll_ready conc_limit]. destruct (cl_permit c) eqn:Hp.
    - unfold bind, lift_snd, ret. cbn [fst snd].
      destruct (poll_ready svc (cl_inner c) w) as [w1 [[s1 a]| |]]; cbn [y_insts]; auto.
      exists c. eexists. split; [reflexivity|]. split; [apply Hset|]. cbn [cl_permit cl_wait]. destruct a; auto.
      destruct (cl_wait c) as [t|] eqn:Ht; auto. destruct Hw as (_ & _ & H3 & _). specialize (H3 _ _ _ Hi Ht). congruence.
    - unfold bind, get, ret. cbn [fst snd].
      destruct (cl_wait c) as [t|] eqn:Ht; cbn [sem_poll].
      + destruct (mem_nat t (sem_granted m)) eqn:Hm; cbn [fst snd].
        * unfold modify, lift_snd. cbn [fst snd].
          destruct (poll_ready svc (cl_inner c) w) as [w1 [[s1 a]| |]]; cbn [y_insts]; auto.
          exists c. eexists. split; [reflexivity|]. split; [apply Hset|]. cbn [cl_permit cl_wait]. destruct a; auto.
        * unfold modify. cbn [fst snd y_insts]. exists c. eexists. split; [reflexivity|]. split; [apply Hset|]. cbn [cl_permit cl_wait]. eauto.
      + destruct (sem_avail m) as [|a'] eqn:Ha; cbn [fst snd].
        * unfold modify. cbn [fst snd y_insts]. exists c. eexists. split; [reflexivity|]. split; [apply Hset|]. cbn [cl_permit cl_wait]. eauto.
        * unfold modify, lift_snd. cbn [fst snd].
          destruct (poll_ready svc (cl_inner c) w) as [w1 [[s1 a]| |]]; cbn [y_insts]; auto.
          exists c. eexists. split; [reflexivity|]. split; [apply Hset|]. cbn [cl_permit cl_wait]. destruct a; auto.
  Qed.

  (** After a call or a drop the instance does not wait. *)
  Lemma no_wait_call i r (y : sys) sp : rel y sp ->
    let '(y1, b) := sys_step (CCall i r) y in
    match b with
    | CoCalled _ => wait_of (y_insts y1) i = None
    | CoNone => y1 = y /\ forall c, nth_error (y_insts y) i <> Some (Some c)
    | CoPanic | CoDiverge => True
    | _ => False
    end.
  Proof.
    intros (E1 & E2 & E3 & gl & Hw & Hmax).
    destruct y as [insts futs [m w]]. cbn [sys_step y_insts y_futs y_w fst snd] in *.
    destruct (nth_error insts i) as [[c|]|] eqn:Hi; [|(split; [reflexivity|intros c H; congruence])..].
    change (@nth_error (option cst) insts i = Some (Some c)) in Hi.
    cbn [call conc_limit]. destruct (cl_permit c) eqn:Hp; [|cbn; auto].
    unfold bind, lift_snd, ret. cbn [fst snd].
    destruct (call svc (cl_inner c) r w) as [w1 [[s1 f]| |]]; cbn [y_insts]; auto.
    etransitivity; [exact (wait_set (svc := svc) insts i _ i)|]. rewrite Nat.eqb_refl, Hi. cbn [cl_wait].
    destruct (cl_wait c) as [t|] eqn:Ht; auto. destruct Hw as (_ & _ & H3 & _). specialize (H3 _ _ _ Hi Ht). congruence.
  Qed.
  Lemma no_wait_drop i (y : sys) :
    let '(y1, b) := sys_step (CDropSvc i) y in wait_of (y_insts y1) i = None.
  Proof.
    destruct y as [insts futs [m w]]. cbn [sys_step y_insts y_futs y_w fst snd] in *.
    destruct (nth_error insts i) as [[c|]|] eqn:Hi; cbn [y_insts]; [|unfold wait_of; change (st cl) with cst in Hi; rewrite Hi; reflexivity..].
    etransitivity; [exact (wait_set (svc := svc) insts i None i)|]. rewrite Nat.eqb_refl. change (@nth_error (option cst) insts i = Some (Some c)) in Hi. rewrite Hi. reflexivity.
  Qed.

  (** ** The invariant *)
  Definition qinv (x : qsys) (sp : spec) : Prop :=
    rel (q_y x) sp /\
    (forall i t, wait_of (y_insts (q_y x)) i = Some t -> In t (sem_granted (sm (q_y x))) -> q_woken x i = true) /\
    (forall i, q_told x i = true -> exists c, nth_error (y_insts (q_y x)) i = Some (Some c) /\
       (cl_permit c = true \/ (exists t, cl_wait c = Some t) \/ q_woken x i = true)) /\
    (forall i t, wait_of (y_insts (q_y x)) i = Some t -> q_told x i = true).

  Lemma qinv0 s w : qinv (qsys0 svc max s w) (spec0 svc s w).
  Proof.
    assert (E : forall i, wait_of [Some (conc_new svc s)] i = None) by (intros [|[|i]]; reflexivity).
    split; [apply rel0|]. cbn. split; [|split].
    - intros i t. change (wait_of [Some (conc_new svc s)] i = Some t -> False -> false = true). tauto.
    - intros i. discriminate.
    - intros i t H. change (wait_of [Some (conc_new svc s)] i = Some t) in H. rewrite E in H. discriminate.
  Qed.

  Lemma mark_eq f i b : mark f i b i = b.
  Proof. unfold mark. rewrite Nat.eqb_refl. reflexivity. Qed.
  Lemma mark_ne f i b k : k <> i -> mark f i b k = f k.
  Proof. intros H. unfold mark. destruct (Nat.eqb_spec k i); [contradiction|reflexivity]. Qed.

  Lemma told_other o b told i : touches i o = false -> told_step (svc := svc) o b told i = told i.
  Proof.
    destruct o as [k|k r|k|s0|k|j|j|g]; cbn [told_step touches]; intros H; auto; try apply Nat.eqb_neq in H.
    - destruct b as [[|a]| | | | | | |]; auto; apply mark_ne; auto.
    - destruct b; auto; apply mark_ne; auto.
    - apply mark_ne; auto.
  Qed.

  Lemma qinv_do o x sp : qinv x sp -> stops (snd (sys_step o (q_y x))) = false ->
    qinv (qdo o x) (fst (spec_step max o sp)) /\ snd (spec_step max o sp) = snd (sys_step o (q_y x)).
  Proof.
    intros (HR & Hg & Ht & Hq) Hs.
    pose proof (step_sim o HR) as Hsim. pose proof (granted_before o HR) as Hb.
    pose proof (fun i => @untouched o (q_y x) i) as Hu.
    unfold qdo. pose proof (fun i => ready_inst i HR) as Hri. pose proof (fun i r => no_wait_call i r HR) as Hci.
    pose proof (fun i => no_wait_drop i (q_y x)) as Hdi.
    destruct (sys_step o (q_y x)) as [y1 b] eqn:Es. cbn [snd] in Hs.
    destruct (spec_step max o sp) as [sp1 b']. cbn [fst snd].
    destruct Hsim as (<- & _ & [K|HR1]); [congruence|]. split; [|reflexivity].
    split; [exact HR1|]. cbn [q_y q_told q_woken]. split; [|split].
    - intros i t Hw1 Hg1. destruct (Hb Hs i t Hw1 Hg1) as (Hw & Ha & [H|H]).
      + rewrite (Hg i t Hw H), Ha. reflexivity.
      + apply orb_true_iff. right. unfold fires. destruct (wait_nth Hw) as (c & Hc & Hcw).
        change (st cl) with cst. rewrite Hc, Hcw. apply andb_true_iff. split; apply mem_in; assumption.
    - intros i Hi. destruct (touches i o) eqn:Htch.
      + destruct o as [k|k r|k|s0|k|j|j|g]; cbn [touches] in Htch; try discriminate; apply Nat.eqb_eq in Htch; subst k.
        * specialize (Hri i). rewrite Es in Hri. destruct b as [[|a]| | | | | | |]; try discriminate Hs; try contradiction.
          -- destruct Hri as (c0 & c1 & _ & H1 & H2). exists c1. split; [exact H1|]. tauto.
          -- cbn [told_step] in Hi. rewrite mark_eq in Hi. discriminate.
          -- destruct Hri as (_ & Hn). exfalso. destruct (Ht i Hi) as (c & Hc & _). exact (Hn c Hc).
        * specialize (Hci i r). rewrite Es in Hci. destruct b; try discriminate Hs; try contradiction.
          -- cbn [told_step] in Hi. rewrite mark_eq in Hi. discriminate.
          -- destruct Hci as (_ & Hn). exfalso. destruct (Ht i Hi) as (c & Hc & _). exact (Hn c Hc).
        * cbn [told_step] in Hi. rewrite mark_eq in Hi. discriminate.
      + rewrite told_other in Hi by auto. destruct (Ht i Hi) as (c & Hc & Hcs). specialize (Hu i Htch).
        exists c. split; [apply Hu; exact Hc|]. destruct Hcs as [H|[H|H]]; auto. right. right.
        rewrite H. assert (Ha : asks i o = false) by (destruct o; auto). rewrite Ha. reflexivity.
    - intros i t Hw1. destruct (touches i o) eqn:Htch.
      + destruct o as [k|k r|k|s0|k|j|j|g]; cbn [touches] in Htch; try discriminate; apply Nat.eqb_eq in Htch; subst k.
        * specialize (Hri i). rewrite Es in Hri. destruct b as [[|a]| | | | | | |]; try discriminate Hs; try contradiction.
          -- cbn [told_step]. apply mark_eq.
          -- destruct Hri as (c0 & c1 & _ & H1 & H2). unfold wait_of in Hw1. change (st cl) with cst in *. rewrite H1, H2 in Hw1. discriminate.
          -- destruct Hri as (-> & Hn). destruct (wait_nth Hw1) as (c & Hc & _). exfalso. exact (Hn c Hc).
        * specialize (Hci i r). rewrite Es in Hci. destruct b; try discriminate Hs; try contradiction.
          -- exfalso. change (st cl) with cst in *. congruence.
          -- destruct Hci as (-> & Hn). destruct (wait_nth Hw1) as (c & Hc & _). exfalso. exact (Hn c Hc).
        * specialize (Hdi i). rewrite Es in Hdi. exfalso. change (st cl) with cst in *. congruence.
      + rewrite told_other by auto. specialize (Hu i Htch). destruct Hu as (Hu & _).
        eapply Hq. etransitivity; [symmetry; exact Hu|exact Hw1].
  Qed.

  Lemma calm_do o (x : qsys) : calm (qdo o x) -> stops (snd (sys_step o (q_y x))) = false /\ calm x.
  Proof.
    unfold qdo, calm. destruct (sys_step o (q_y x)) as [y1 b]. cbn [q_obs snd]. intros H. inversion H; subst.
    split; [destruct b; auto; contradiction | auto].
  Qed.

  (** What the specification is told about one operation. *)
  Definition seen1 (x : qsys) (o : qop svc) : list (cop svc) :=
    match o with
    | QDo o => [o]
    | QBusy i => if cut_short i (q_y x) then [] else [CReady i]
    | QWake _ => []
    end.
  Definition follow (x : qsys) (o : qop svc) (sp : spec) : spec := snd (spec_run max sp (seen1 x o)).

  Lemma follow_do o (sp : spec) : stops (snd (spec_step max o sp)) = false ->
    forall l, snd (spec_run max sp (o :: l)) = snd (spec_run max (fst (spec_step max o sp)) l).
  Proof.
    intros H l. cbn [spec_run]. destruct (spec_step max o sp) as [sp1 b]. cbn [fst snd] in *.
    destruct b; try discriminate H; destruct (spec_run max sp1 l); reflexivity.
  Qed.

  Lemma busy_rel (x : qsys) i sp : qinv x sp -> cut_short i (q_y x) = true ->
    exists c, nth_error (y_insts (q_y x)) i = Some (Some c) /\ cl_permit c = false.
  Proof.
    intros _. unfold cut_short. destruct (nth_error _ _) as [[c|]|]; try discriminate.
    intros H. apply andb_true_iff in H. destruct H as [H _]. apply negb_true_iff in H. eauto.
  Qed.

  Lemma qinv_step o x sp : qinv x sp -> calm (qstep o x) ->
    qinv (qstep o x) (follow x o sp) /\ forall l, snd (spec_run max sp (seen1 x o ++ l)) = snd (spec_run max (follow x o sp) l).
  Proof.
    intros HI Hc.
    assert (Hdo : forall o, calm (qdo o x) -> qinv (qdo o x) (snd (spec_run max sp [o])) /\
       forall l, snd (spec_run max sp ([o] ++ l)) = snd (spec_run max (snd (spec_run max sp [o])) l)).
    { intros o0 Hc0. destruct (@calm_do _ _ Hc0) as (Hs & _). destruct (qinv_do o0 HI Hs) as (H1 & H2).
      rewrite <- H2 in Hs. split.
      - rewrite (follow_do _ _ Hs). exact H1.
      - intros l. cbn [app]. rewrite !(follow_do _ _ Hs). reflexivity. }
    destruct o as [o|i|i]; unfold follow; cbn [qstep seen1] in *.
    - apply Hdo, Hc.
    - destruct (cut_short i (q_y x)) eqn:Hcut; [|apply Hdo, Hc].
      split; [|reflexivity]. cbn [spec_run snd]. pose proof (busy_rel i HI Hcut) as (c & Hcc & Hcp).
      destruct HI as (HR & Hg & Ht & Hq). split; [exact HR|]. cbn [q_y q_told q_woken]. split; [|split].
      + intros k t Hw Hk. unfold mark. destruct (k =? i); eauto.
      + intros k Hk. destruct (Nat.eq_dec k i) as [->|Hne].
        * exists c. rewrite mark_eq. auto.
        * rewrite mark_ne in Hk by auto. rewrite mark_ne by auto. eauto.
      + intros k t Hw. unfold mark. destruct (k =? i); eauto.
    - split; [|reflexivity]. cbn [spec_run snd].
      destruct HI as (HR & Hg & Ht & Hq). split; [exact HR|]. cbn [q_y q_told q_woken]. split; [|split].
      + intros k t Hw Hk. unfold mark. destruct (k =? i); eauto.
      + intros k Hk. destruct (Ht k Hk) as (c & H1 & H2). exists c. split; auto. unfold mark. destruct (k =? i); tauto.
      + exact Hq.
  Qed.

  Lemma calm_step o (x : qsys) : calm (qstep o x) -> calm x.
  Proof.
    destruct o as [o|i|i]; cbn [qstep].
    - intros H. apply (@calm_do _ _ H).
    - destruct (cut_short i (q_y x)); [|intros H; apply (@calm_do _ _ H)]. unfold calm. cbn. intros H. inversion H; auto.
    - auto.
  Qed.
  Lemma calm_run ops : forall x : qsys, calm (qrun x ops) -> calm x.
  Proof. unfold qrun. induction ops as [|o ops IH]; intros x H; cbn in *; auto. eapply calm_step, IH, H. Qed.

  Lemma qinv_run ops : forall x sp, qinv x sp -> calm (qrun x ops) ->
    qinv (qrun x ops) (snd (spec_run max sp (seen x ops))).
  Proof.
    induction ops as [|o ops IH]; intros x sp HI Hc; [exact HI|].
    change (qrun x (o :: ops)) with (qrun (qstep o x) ops) in *.
    destruct (qinv_step o HI (calm_run _ _ Hc)) as (H1 & H2).
    change (seen x (o :: ops)) with (seen1 x o ++ seen (qstep o x) ops). rewrite H2. apply IH; auto.
  Qed.

  (** ** Whose turn it is *)
  Lemma unused_rel (y : sys) (sp : spec) gl : waits (y_insts y) (p_line sp) (sm y) gl ->
    sem_avail (sm y) + length gl + (holding sp + in_flight sp) = max ->
    unused max sp = sem_avail (sm y) + length gl.
  Proof. intros _ H. unfold unused. lia. Qed.

  Lemma rel_granted (y : sys) (sp : spec) i t : rel y sp -> wait_of (y_insts y) i = Some t ->
    mem_nat t (sem_granted (sm y)) = (ahead i (p_line sp) <? unused max sp) /\ In i (p_line sp) /\
    mem_nat t (sem_queue (sm y)) = negb (mem_nat t (sem_granted (sm y))).
  Proof.
    intros (E1 & E2 & E3 & gl & Hw & Hmax) Ht. rewrite (@unused_rel y sp gl Hw Hmax).
    split; [exact (granted_iff Hw Ht)|]. pose proof Hw as (H1 & H2 & H3 & H4 & H5 & H6 & H7 & H8).
    split; [eapply H2; exact Ht|].
    destruct (waits_split Hw Ht) as (l1 & l2 & _ & [(g1 & g2 & Eg & _)|(q1 & q2 & Eq & _)]).
    - assert (Hg : mem_nat t (sem_granted (sm y)) = true).
      { apply mem_in. apply Permutation_in with (l := gl); [symmetry; exact H7 | rewrite Eg; apply in_or_app; cbn; auto]. }
      rewrite Hg. cbn. destruct (mem_nat t (sem_queue (sm y))) eqn:E; auto. apply mem_in in E. exfalso.
      eapply (@nodup_app_in_l _ gl (sem_queue (sm y))); eauto. rewrite Eg. apply in_or_app. cbn. auto.
    - assert (Hq : In t (sem_queue (sm y))) by (unfold sm; rewrite Eq; apply in_or_app; cbn; auto).
      transitivity true; [apply mem_in; exact Hq|]. symmetry. apply negb_true_iff.
      destruct (mem_nat t (sem_granted (sm y))) eqn:E; auto. apply mem_in in E. exfalso.
      eapply (@nodup_app_in_l _ gl (sem_queue (sm y))); eauto. eapply Permutation_in; [exact H7|exact E].
  Qed.
  Lemma line_wait (y : sys) (sp : spec) i : rel y sp -> In i (p_line sp) -> exists t, wait_of (y_insts y) i = Some t.
  Proof.
    intros (E1 & E2 & E3 & gl & (H1 & _) & _) Hin. apply in_split in Hin. destruct Hin as (l1 & l2 & El). rewrite El in H1.
    apply Forall2_app_inv_l in H1. destruct H1 as (t1 & t2 & _ & F2 & _).
    inversion F2 as [|? t ? ? K1 K2]; subst. eauto.
  Qed.

  Definition turn (i : nat) (sp : spec) : bool := existsb (Nat.eqb i) (p_line sp) && (ahead i (p_line sp) <? unused max sp).
  Lemma turn_granted (y : sys) (sp : spec) i : rel y sp ->
    turn i sp = match wait_of (y_insts y) i with Some t => mem_nat t (sem_granted (sm y)) | None => false end.
  Proof.
    intros HR. unfold turn. destruct (wait_of (y_insts y) i) as [t|] eqn:Ht.
    - destruct (rel_granted i HR Ht) as (-> & Hin & _).
      replace (existsb (Nat.eqb i) (p_line sp)) with true by (symmetry; apply exb_in; exact Hin). reflexivity.
    - destruct (existsb (Nat.eqb i) (p_line sp)) eqn:E; auto. apply exb_in in E. destruct (line_wait i HR E) as (t & K).
      change (st cl) with cst in *. congruence.
  Qed.

  Lemma granted_owner (y : sys) (sp : spec) t : rel y sp -> In t (sem_granted (sm y)) -> exists k, wait_of (y_insts y) k = Some t.
  Proof.
    intros (E1 & E2 & E3 & gl & (H1 & _ & _ & _ & _ & _ & H7 & _) & _) Hin.
    apply (Permutation_in t H7) in Hin. apply in_split in Hin. destruct Hin as (g1 & g2 & Eg). rewrite Eg, <- app_assoc in H1.
    apply Forall2_app_inv_r in H1. destruct H1 as (l1 & l2 & _ & F2 & _). cbn in F2.
    inversion F2 as [|k ? ? ? K1 K2]; subst. eauto.
  Qed.
  Lemma wait_inj (y : sys) (sp : spec) i k t : rel y sp -> wait_of (y_insts y) i = Some t -> wait_of (y_insts y) k = Some t -> i = k.
  Proof.
    intros (E1 & E2 & E3 & gl & (H1 & H2 & _ & H4 & _) & _) Hi Hk.
    pose proof (H2 _ _ Hi) as Ii. pose proof (H2 _ _ Hk) as Ik.
    clear - H1 H4 Ii Ik Hi Hk. revert H1 H4 Ii Ik. generalize (gl ++ sem_queue (fst (y_w y))). intros tl F.
    induction F as [|a b la lb Hab F IH]; intros Hnd Ii Ik; [contradiction|].
    inversion Hnd as [|? ? Hn Hnd']; subst.
    assert (Hlb : forall c u, In c la -> wait_of (y_insts y) c = Some u -> In u lb).
    { clear - F. induction F as [|c u lc lu Hcu F IH]; intros c' u' Hin Hw; [contradiction|].
      destruct Hin as [<-|Hin]; [left; congruence|right; eauto]. }
    destruct Ii as [<-|Ii], Ik as [<-|Ik]; auto.
    - exfalso. apply Hn. replace b with t by congruence. eapply Hlb; eauto.
    - exfalso. apply Hn. replace b with t by congruence. eapply Hlb; eauto.
  Qed.

  Lemma fires_turn o (x : qsys) sp i : qinv x sp -> stops (snd (sys_step o (q_y x))) = false ->
    fires i (q_y x) (fst (sys_step o (q_y x))) = negb (turn i sp) && turn i (fst (spec_step max o sp)).
  Proof.
    intros HI Hs. destruct (qinv_do o HI Hs) as ((HR1 & _) & _). destruct HI as (HR & _).
    pose proof (granted_before o HR) as Hb. unfold qdo in HR1.
    destruct (sys_step o (q_y x)) as [y1 b] eqn:Es. cbn [fst snd q_y] in *. specialize (Hb Hs).
    rewrite (turn_granted i HR), (turn_granted i HR1).
    assert (Ef : fires i (q_y x) y1 = match wait_of (y_insts (q_y x)) i with
       Some t => negb (mem_nat t (sem_granted (sm (q_y x)))) && mem_nat t (sem_granted (sm y1)) | None => false end).
    { unfold fires. destruct (wait_of (y_insts (q_y x)) i) as [t|] eqn:Ht.
      - destruct (rel_granted i HR Ht) as (_ & _ & Hq). destruct (wait_nth Ht) as (c & Hc & Hcw).
        change (st cl) with cst in *. rewrite Hc, Hcw. unfold sm in *. rewrite Hq. reflexivity.
      - change (st cl) with cst in *. destruct (@nth_error (option cst) (y_insts (q_y x)) i) as [[c|]|] eqn:Hn; auto. unfold wait_of in Ht. rewrite Hn in Ht. rewrite Ht. reflexivity. }
    rewrite Ef. clear Ef.
    destruct (wait_of (y_insts y1) i) as [t1|] eqn:H1.
    - destruct (mem_nat t1 (sem_granted (sm y1))) eqn:G1.
      + apply mem_in in G1. destruct (Hb _ _ H1 G1) as (Hw & _ & _). apply mem_in in G1.
        change (st cl) with cst in *. rewrite Hw, G1. reflexivity.
      + rewrite andb_false_r. destruct (wait_of (y_insts (q_y x)) i) as [t|] eqn:Ht; auto.
        destruct (mem_nat t (sem_granted (sm y1))) eqn:G; [|apply andb_false_r]. exfalso. apply mem_in in G.
        destruct (granted_owner t HR1 G) as (k & Hk). destruct (Hb _ _ Hk G) as (Hw & _ & _).
        rewrite <- (wait_inj _ _ HR Ht Hw) in Hk. apply mem_in in G. change (st cl) with cst in *. congruence.
    - rewrite andb_false_r. destruct (wait_of (y_insts (q_y x)) i) as [t|] eqn:Ht; auto.
      destruct (mem_nat t (sem_granted (sm y1))) eqn:G; [|apply andb_false_r]. exfalso. apply mem_in in G.
      destruct (granted_owner t HR1 G) as (k & Hk). destruct (Hb _ _ Hk G) as (Hw & _ & _).
      rewrite <- (wait_inj _ _ HR Ht Hw) in Hk. change (st cl) with cst in *. congruence.
  Qed.

  (** ** Nobody is overtaken *)
  Lemma ahead_leave i k l : k <> i -> In i l -> NoDup l ->
    ahead i (leave k l) + (if existsb (Nat.eqb k) l && (ahead k l <? ahead i l) then 1 else 0) = ahead i l.
  Proof.
    intros Hne. induction l as [|a l IH]; intros Hin Hnd; [contradiction|].
    inversion Hnd as [|? ? Hn Hnd']; subst. cbn [leave List.filter ahead existsb].
    destruct (Nat.eqb_spec a k) as [->|Hak]; cbn [negb].
    - destruct (Nat.eqb_spec k i) as [|_]; [contradiction|]. rewrite Nat.eqb_refl. cbn [orb andb].
      change (List.filter (fun k0 => negb (k0 =? k)) l) with (leave k l). rewrite leave_notin by auto.
      replace (0 <? S (ahead i l)) with true by reflexivity. lia.
    - cbn [ahead]. destruct (Nat.eqb_spec k a) as [->|_]; [congruence|]. cbn [orb].
      destruct (Nat.eqb_spec a i) as [->|Hai].
      + replace (S (ahead k l) <? 0) with false by reflexivity. rewrite andb_false_r. lia.
      + destruct Hin as [->|Hin]; [congruence|]. specialize (IH Hin Hnd').
        change (List.filter (fun k0 => negb (k0 =? k)) l) with (leave k l).
        replace (S (ahead k l) <? S (ahead i l)) with (ahead k l <? ahead i l) by reflexivity. lia.
  Qed.
  Lemma leave_in i k l : k <> i -> In i l -> In i (leave k l).
  Proof. intros H Hin. unfold leave. apply filter_In. split; auto. apply negb_true_iff, Nat.eqb_neq. auto. Qed.
  Lemma ahead_len i l : In i l -> ahead i l < length l.
  Proof. induction l as [|a l IH]; cbn; [tauto|]. intros [->|H]; [rewrite Nat.eqb_refl; lia|]. destruct (a =? i); [lia|]. specialize (IH H). lia. Qed.
  Lemma ahead_join i k l : In i l -> ahead i (join k l) = ahead i l /\ In i (join k l).
  Proof.
    intros Hin. unfold join. destruct (existsb (Nat.eqb k) l); auto. split; [|apply in_or_app; auto].
    induction l as [|a l IH]; [contradiction|]. cbn [app ahead]. destruct (Nat.eqb_spec a i); auto.
    destruct Hin as [|Hin]; [contradiction|]. rewrite IH; auto.
  Qed.

  Lemma rel_nodup (y : sys) (sp : spec) : rel y sp -> NoDup (p_line sp) /\ holding sp + in_flight sp <= max /\
    (forall k s, nth_error (p_insts sp) k = Some (Some (s, true)) -> ~ In k (p_line sp)).
  Proof.
    intros HR. pose proof HR as (E1 & E2 & E3 & gl & Hw & Hmax). split; [apply Hw|]. split; [lia|].
    intros k s Hk Hin. destruct (line_wait k HR Hin) as (t & Ht). destruct (wait_nth Ht) as (c & Hc & Hcw).
    pose proof Hw as (_ & _ & H3 & _). specialize (H3 _ _ _ Hc Hcw).
    rewrite (nth_view k HR) in Hk. change (st cl) with cst in *. rewrite Hc in Hk. cbn in Hk. congruence.
  Qed.

  Lemma deficit o (y : sys) (sp : spec) i : rel y sp -> leaves_alone i (QDo o) -> stops (snd (spec_step max o sp)) = false ->
    In i (p_line sp) -> let sp1 := fst (spec_step max o sp) in
    In i (p_line sp1) /\
    S (ahead i (p_line sp1)) - unused max sp1 <= S (ahead i (p_line sp)) - unused max sp - (if gives_back (QDo o) y then 1 else 0).
  Proof.
    intros HR Ha Hs Hin. destruct (rel_nodup HR) as (Hnd & Hmax & Hperm).
    pose proof HR as (E1 & E2 & _).
    assert (Hv : forall k, nth_error (p_insts sp) k = match nth_error (y_insts y) k with Some x => Some (view x) | None => None end)
      by (intros k; exact (nth_view k HR)).
    destruct sp as [pin line futs w]. cbn [p_insts p_line p_futs p_w] in *.
    destruct o as [k|k r|k|s0|k|j|j|g]; cbn [spec_step leaves_alone gives_back p_insts p_line p_futs p_w] in *.
    - destruct (nth_error pin k) as [[[s b]|]|] eqn:Hk; cbn [fst p_line]; try (split; [assumption|lia]).
      destruct b.
      + cbn [orb] in *. destruct (poll_ready svc s w) as [w1 [[s1 a]| |]]; try discriminate Hs. cbn [fst p_line].
        pose proof (@holding_set _ _ _ _ _ (Spec pin line futs w) k s true s1 true line futs w1 Hk) as Hh.
        cbn [p_insts] in *. split; [exact Hin|]. unfold unused, in_flight in *. cbn [p_futs] in *. lia.
      + cbn [orb] in *. destruct (ahead k line <? unused max (Spec pin line futs w)) eqn:Eu.
        * apply Nat.ltb_lt in Eu.
          destruct (poll_ready svc s w) as [w1 [[s1 a]| |]]; try discriminate Hs. cbn [fst p_line].
          pose proof (@holding_set _ _ _ _ _ (Spec pin line futs w) k s false s1 true (leave k line) futs w1 Hk) as Hh.
          cbn [p_insts] in *. split; [apply leave_in; auto|].
          pose proof (@ahead_leave i k line Ha Hin Hnd) as Hl.
          assert (Hd : ahead i line < ahead k line \/ (existsb (Nat.eqb k) line && (ahead k line <? ahead i line)) = true).
          { destruct (existsb (Nat.eqb k) line) eqn:Ex; cbn [andb].
            - destruct (Nat.lt_trichotomy (ahead k line) (ahead i line)) as [H|[H|H]]; auto.
              + right. apply Nat.ltb_lt. exact H.
              + exfalso. apply exb_in in Ex. clear - H Ex Hin Ha. revert H. induction line as [|a l IH]; [contradiction|].
                cbn [ahead]. destruct (Nat.eqb_spec a k), (Nat.eqb_spec a i); try congruence; try lia.
                intros H. apply IH; [|destruct Ex; [congruence|auto]|lia]. destruct Hin; [congruence|auto].
            - left. rewrite (@ahead_notin k line); [apply ahead_len, Hin|]. intros K. apply exb_in in K. congruence. }
          unfold unused, in_flight in *. cbn [p_futs] in *. destruct Hd as [Hd|Hd]; [|rewrite Hd in Hl]; lia.
        * cbn [fst p_line]. destruct (@ahead_join i k line Hin) as (-> & H2). split; [exact H2|].
          unfold unused, ConcSpec.holding, in_flight in *. cbn [p_futs p_insts] in *. lia.
    - destruct (nth_error pin k) as [[[s b]|]|] eqn:Hk; cbn [fst p_line]; try (split; [assumption|lia]).
      destruct b; [|discriminate Hs].
      destruct (call svc s r w) as [w1 [[s1 f]| |]]; try discriminate Hs. cbn [fst p_line].
      pose proof (@holding_set _ _ _ _ _ (Spec pin line futs w) k s true s1 false line (futs ++ [Some f]) w1 Hk) as Hh.
      pose proof (flight_add (Spec (svc := svc) pin line futs w) (set_nth k (Some (s1, false)) pin) line f w1) as Hf.
      cbn [p_insts p_futs] in *. split; [exact Hin|]. unfold unused. lia.
    - destruct (nth_error pin k) as [[[s b]|]|] eqn:Hk; cbn [fst p_line]; try (split; [assumption|lia]).
      destruct (clone svc s w) as [w1 [s1| |]]; try discriminate Hs. cbn [fst p_line].
      pose proof (holding_add (Spec (svc := svc) pin line futs w) s1 line futs w1) as Hh.
      cbn [p_insts p_futs] in *. split; [exact Hin|]. unfold unused, in_flight in *. cbn [p_futs] in *. lia.
    - cbn [fst p_line].
      pose proof (holding_add (Spec (svc := svc) pin line futs w) s0 line futs w) as Hh.
      cbn [p_insts p_futs] in *. split; [exact Hin|]. unfold unused, in_flight in *. cbn [p_futs] in *. lia.
    - specialize (Hv k). destruct (nth_error (y_insts y) k) as [[c|]|] eqn:Hk; cbn [view option_map] in Hv;
        rewrite Hv in *; cbn [fst p_line]; try (split; [assumption|lia]).
      assert (Hpk : nth_error pin k = Some (Some (cl_inner c, cl_permit c))) by exact Hv.
      pose proof (@holding_drop _ _ _ _ _ (Spec pin line futs w) k _ _ (leave k line) futs (drop_svc svc (cl_inner c) w) Hpk) as Hh.
      cbn [p_insts] in *. split; [apply leave_in; auto|].
      pose proof (@ahead_leave i k line Ha Hin Hnd) as Hl.
      unfold unused, in_flight in *. cbn [p_futs] in *. destruct (cl_permit c); lia.
    - destruct (nth_error futs j) as [[f|]|] eqn:Hj; cbn [fst p_line]; try (split; [assumption|lia]).
      destruct (poll_fut svc f w) as [w1 [[f1 a]| |]]; try discriminate Hs. cbn [fst p_line].
      pose proof (@flight_set _ _ _ _ _ (Spec pin line futs w) j f f1 pin line w1 Hj) as Hf.
      split; [exact Hin|]. unfold unused, ConcSpec.holding in *. cbn [p_futs p_insts] in *. lia.
    - assert (Eg : (match nth_error (y_futs y) j with Some (Some _) => true | _ => false end)
                   = match nth_error futs j with Some (Some _) => true | _ => false end) by (rewrite E2; reflexivity).
      change (st cl) with cst in *. rewrite Eg. clear Eg.
      destruct (nth_error futs j) as [[f|]|] eqn:Hj; cbn [fst p_line]; try (split; [assumption|lia]).
      pose proof (@flight_drop _ _ _ _ _ (Spec pin line futs w) j f pin line (drop_fut svc f w) Hj) as Hf.
      split; [exact Hin|]. unfold unused, ConcSpec.holding in *. cbn [p_futs p_insts] in *. lia.
    - cbn [fst p_line]. split; [exact Hin|]. unfold unused, ConcSpec.holding, in_flight. cbn [p_futs p_insts]. lia.
  Qed.

  (** ** The theorems *)
  Lemma line_inv s w ops : calm (qrun (qsys0 svc max s w) ops) ->
    qinv (qrun (qsys0 svc max s w) ops) (line_of max s w ops).
  Proof. intros H. apply qinv_run; [apply qinv0|exact H]. Qed.

  Lemma queue_turn s w ops i : let x := qrun (qsys0 svc max s w) ops in let sp := line_of max s w ops in
    calm x -> In i (p_line sp) -> ahead i (p_line sp) < unused max sp -> q_woken x i = true.
  Proof.
    cbv zeta. intros Hc Hin Hu. destruct (line_inv _ _ _ Hc) as (HR & Hg & _).
    destruct (line_wait i HR Hin) as (t & Ht). apply (Hg i t Ht). apply mem_in.
    destruct (rel_granted i HR Ht) as (-> & _). apply Nat.ltb_lt. exact Hu.
  Qed.

  Lemma queue_again s w ops i : let x := qrun (qsys0 svc max s w) ops in
    calm x -> q_told x i = true -> q_woken x i = false ->
    exists c, nth_error (y_insts (q_y x)) i = Some (Some c) /\
      (cl_permit c = true \/ sys_step (CReady i) (q_y x) = (q_y x, CoReady Pending)).
  Proof.
    cbv zeta. intros Hc Ht Hw. destruct (line_inv _ _ _ Hc) as (HR & Hg & Htold & _).
    destruct (Htold i Ht) as (c & Hi & Hs). exists c. split; [exact Hi|].
    destruct Hs as [H|[(t & H)|H]]; [auto| |congruence]. right.
    assert (Hwt : wait_of (y_insts (q_y (qrun (qsys0 svc max s w) ops))) i = Some t).
    { unfold wait_of. change (st cl) with cst in *. rewrite Hi. exact H. }
    assert (Hm : mem_nat t (sem_granted (sm (q_y (qrun (qsys0 svc max s w) ops)))) = false).
    { destruct (mem_nat _ _) eqn:E; auto. apply mem_in in E. rewrite (Hg i t Hwt E) in Hw. discriminate. }
    assert (Hp : cl_permit c = false).
    { destruct HR as (_ & _ & _ & gl & (_ & _ & H3 & _) & _). eapply H3; eauto. }
    revert Hi Hm. generalize (q_y (qrun (qsys0 svc max s w) ops)). intros [insts futs [m w0]]. unfold sm. cbn [y_insts y_w fst]. intros Hi Hm.
    cbn [sys_step y_insts y_futs y_w]. rewrite Hi. cbn [poll_ready conc_limit]. rewrite Hp, H.
    unfold bind, get, ret, modify. cbn [sem_poll fst snd]. rewrite Hm. cbn [fst snd].
    f_equal. f_equal. apply set_nth_same. etransitivity; [exact Hi|]. destruct c; cbn in *. congruence.
  Qed.

  Lemma holding_use (y : sys) (sp : spec) : rel y sp -> holding sp + in_flight sp = in_use y.
  Proof.
    intros (E1 & E2 & _). unfold in_use.
    assert (F0 : in_flight sp = live (y_futs y)) by (unfold in_flight; rewrite E2; reflexivity).
    assert (H0 : holding sp = length (List.filter (fun c => match c with Some c => cl_permit c | None => false end) (y_insts y))).
    { unfold ConcSpec.holding. rewrite E1. clear. induction (y_insts y) as [|[x|] l0 IH]; cbn; auto.
      destruct (cl_permit x); cbn; auto. }
    change (st (conc_limit svc (fun _ : W => false) true)) with cst in *. lia.
  Qed.

  Lemma queue_no_stall s w ops i c : let x := qrun (qsys0 svc max s w) ops in
    calm x -> q_told x i = true -> nth_error (y_insts (q_y x)) i = Some (Some c) -> cl_permit c = false ->
    (forall k, q_told x k = true -> q_woken x k = false) ->
    in_use (q_y x) = max.
  Proof.
    cbv zeta. intros Hc Ht Hi Hp Hn. destruct (line_inv _ _ _ Hc) as (HR & Hg & Htold & Hq).
    destruct (Htold i Ht) as (c0 & Hi0 & Hs). assert (c0 = c) by congruence. subst c0.
    assert (Hline : exists h rest, p_line (line_of max s w ops) = h :: rest).
    { destruct Hs as [H|[(t & H)|H]]; [congruence| |rewrite (Hn _ Ht) in H; discriminate].
      assert (Hwt : wait_of (y_insts (q_y (qrun (qsys0 svc max s w) ops))) i = Some t).
      { unfold wait_of. change (st cl) with cst in *. rewrite Hi. exact H. }
      destruct (rel_granted i HR Hwt) as (_ & Hin & _). destruct (p_line _); [contradiction|eauto]. }
    destruct Hline as (h & rest & El).
    assert (Hu : unused max (line_of max s w ops) = 0).
    { destruct (unused max (line_of max s w ops)) eqn:E; auto. exfalso.
      assert (Hin : In h (p_line (line_of max s w ops))) by (rewrite El; cbn; auto).
      assert (Hwk : q_woken (qrun (qsys0 svc max s w) ops) h = true).
      { apply queue_turn; auto. rewrite El, E. cbn. rewrite Nat.eqb_refl. lia. }
      destruct (line_wait h HR Hin) as (t & Hwt). rewrite (Hn h (Hq _ _ Hwt)) in Hwk. discriminate. }
    rewrite <- (holding_use HR). destruct (rel_nodup HR) as (_ & Hle & _). unfold unused in Hu. lia.
  Qed.

  Lemma seen_app ops : forall (x : qsys) ops', seen x (ops ++ ops') = seen x ops ++ seen (qrun x ops) ops'.
  Proof.
    induction ops as [|o ops IH]; intros x ops'; [reflexivity|]. cbn [app seen].
    rewrite IH, <- app_assoc. reflexivity.
  Qed.

  Lemma line_step s w ops o : calm (qrun (qsys0 svc max s w) (ops ++ [o])) ->
    line_of max s w (ops ++ [o]) = follow (qrun (qsys0 svc max s w) ops) o (line_of max s w ops).
  Proof.
    intros Hc. unfold qrun in Hc. rewrite fold_left_app in Hc. cbn in Hc.
    change (fold_left (fun x o0 => qstep o0 x) ops (qsys0 svc max s w)) with (qrun (qsys0 svc max s w) ops) in Hc.
    assert (K : forall ops x sp, qinv x sp -> calm (qrun x ops) -> forall l, snd (spec_run max sp (seen x ops ++ l)) =
              snd (spec_run max (snd (spec_run max sp (seen x ops))) l)).
    { clear. induction ops as [|o ops IH]; intros x sp HI Hc l; [reflexivity|].
      change (qrun x (o :: ops)) with (qrun (qstep o x) ops) in *.
      destruct (qinv_step o HI (calm_run _ _ Hc)) as (H1 & H2).
      change (seen x (o :: ops)) with (seen1 x o ++ seen (qstep o x) ops). rewrite <- app_assoc, !H2. apply IH; auto. }
    unfold line_of. rewrite seen_app. rewrite K; [|apply qinv0|eapply calm_step; exact Hc].
    unfold follow. f_equal. f_equal. cbn [seen]. rewrite app_nil_r. reflexivity.
  Qed.

  Lemma follow_eq o x sp : qinv x sp -> calm (qdo o x) -> snd (spec_run max sp [o]) = fst (spec_step max o sp).
  Proof.
    intros HI Hc. destruct (@calm_do _ _ Hc) as (Hs & _). destruct (qinv_do o HI Hs) as (_ & H2).
    rewrite <- H2 in Hs. rewrite (follow_do _ _ Hs). reflexivity.
  Qed.

  Definition its_turn (i : nat) (sp : spec) : Prop := In i (p_line sp) /\ ahead i (p_line sp) < unused max sp.
  Lemma turn_iff i sp : turn i sp = true <-> its_turn i sp.
  Proof. unfold turn, its_turn. rewrite andb_true_iff, exb_in, Nat.ltb_lt. tauto. Qed.

  Lemma queue_exact s w ops o i : let x := qrun (qsys0 svc max s w) ops in
    let x1 := qrun (qsys0 svc max s w) (ops ++ [QDo o]) in
    let sp := line_of max s w ops in let sp1 := line_of max s w (ops ++ [QDo o]) in
    calm x1 ->
    (q_woken x1 i = true <->
       (q_woken x i = true /\ asks i o = false) \/
       (~ (In i (p_line sp) /\ ahead i (p_line sp) < unused max sp) /\
        (In i (p_line sp1) /\ ahead i (p_line sp1) < unused max sp1))).
  Proof.
    cbv zeta. intros Hc. rewrite (line_step _ _ _ _ Hc).
    unfold qrun in *. rewrite fold_left_app in *. cbn [fold_left] in *.
    change (fold_left (fun x o0 => qstep o0 x) ops (qsys0 svc max s w)) with (qrun (qsys0 svc max s w) ops) in *.
    assert (HI : qinv (qrun (qsys0 svc max s w) ops) (line_of max s w ops)) by (apply line_inv; eapply calm_step; exact Hc).
    cbn [qstep] in *. unfold follow. cbn [seen1]. rewrite (follow_eq o HI Hc).
    destruct (@calm_do _ _ Hc) as (Hs & _). pose proof (fires_turn o i HI Hs) as Hf.
    set (sp1 := fst (spec_step max o (line_of max s w ops))) in *. clearbody sp1.
    fold (its_turn i (line_of max s w ops)). fold (its_turn i sp1). rewrite <- !turn_iff.
    unfold qdo. destruct (sys_step o (q_y (qrun (qsys0 svc max s w) ops))) as [y1 b]. cbn [fst q_woken] in *.
    rewrite Hf. destruct (turn i (line_of max s w ops)), (turn i sp1), (asks i o), (q_woken (qrun (qsys0 svc max s w) ops) i); cbn; intuition congruence.
  Qed.

  Lemma step_deficit o (x : qsys) sp i : qinv x sp -> calm (qstep o x) -> leaves_alone i o -> In i (p_line sp) ->
    In i (p_line (follow x o sp)) /\
    S (ahead i (p_line (follow x o sp))) - unused max (follow x o sp)
      <= S (ahead i (p_line sp)) - unused max sp - (if gives_back o (q_y x) then 1 else 0).
  Proof.
    intros HI Hc Ha Hin.
    assert (Hdo : forall o0, calm (qdo o0 x) -> leaves_alone i (QDo o0) ->
      In i (p_line (snd (spec_run max sp [o0]))) /\
      S (ahead i (p_line (snd (spec_run max sp [o0])))) - unused max (snd (spec_run max sp [o0]))
      <= S (ahead i (p_line sp)) - unused max sp - (if gives_back (QDo o0) (q_y x) then 1 else 0)).
    { intros o0 Hc0 Ha0. rewrite (follow_eq o0 HI Hc0). destruct (@calm_do _ _ Hc0) as (Hs & _).
      destruct (qinv_do o0 HI Hs) as (_ & H2). rewrite <- H2 in Hs. apply deficit; auto. apply HI. }
    destruct o as [o|k|k]; unfold follow; cbn [qstep seen1] in *.
    - apply Hdo; auto.
    - destruct (cut_short k (q_y x)).
      + cbn [spec_run snd gives_back]. split; [exact Hin|lia].
      + apply (Hdo (CReady k)); auto.
    - cbn [spec_run snd gives_back]. split; [exact Hin|lia].
  Qed.

  Lemma queue_served s w ops ops' i : let x := qrun (qsys0 svc max s w) ops in let sp := line_of max s w ops in
    calm (qrun (qsys0 svc max s w) (ops ++ ops')) -> In i (p_line sp) -> Forall (leaves_alone i) ops' ->
    S (ahead i (p_line sp)) <= unused max sp + given_back x ops' ->
    q_woken (qrun (qsys0 svc max s w) (ops ++ ops')) i = true.
  Proof.
    cbv zeta. unfold qrun. rewrite fold_left_app.
    change (fold_left (fun x o0 => qstep o0 x) ops (qsys0 svc max s w)) with (qrun (qsys0 svc max s w) ops).
    change (fold_left (fun x o0 => qstep o0 x) ops' (qrun (qsys0 svc max s w) ops)) with (qrun (qrun (qsys0 svc max s w) ops) ops').
    intros Hc. assert (HI : qinv (qrun (qsys0 svc max s w) ops) (line_of max s w ops)) by (apply line_inv; eapply calm_run; exact Hc).
    revert Hc HI. generalize (qrun (qsys0 svc max s w) ops) as x, (line_of max s w ops) as sp.
    induction ops' as [|o ops' IH]; intros x sp Hc HI Hin Hal Hle.
    - cbn [given_back] in Hle. destruct HI as (HR & Hg & _). destruct (line_wait i HR Hin) as (t & Ht).
      apply (Hg i t Ht). apply mem_in. destruct (rel_granted i HR Ht) as (-> & _). apply Nat.ltb_lt. cbn in *. lia.
    - change (qrun x (o :: ops')) with (qrun (qstep o x) ops') in *. inversion Hal as [|? ? Ha Hal']; subst.
      pose proof (calm_run _ _ Hc) as Hc1. destruct (qinv_step o HI Hc1) as (HI1 & _).
      destruct (step_deficit o i HI Hc1 Ha Hin) as (Hin1 & Hd).
      eapply (IH _ _ Hc HI1 Hin1 Hal'). cbn [given_back] in Hle. lia.
  Qed.
End QueueProof.
