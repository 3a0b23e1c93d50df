(** Proofs for C34-C36: the system of ConcurrencyLimits refines the specification. *)
From Coq Require Import Permutation.
From Verif Require Import Base Middleware Limits ConcSpec.
Set Implicit Arguments. Unset Strict Implicit.

(** ** Lists *)
Lemma set_nth_len {A} i (x : A) l : length (set_nth i x l) = length l.
Proof. revert i. induction l; intros [|i]; cbn; auto. Qed.
Lemma nth_set {A} i j (x : A) l : nth_error (set_nth i x l) j =
  if i =? j then match nth_error l j with Some _ => Some x | None => None end else nth_error l j.
Proof.
  revert i j. induction l as [|y l IH]; intros [|i] [|j]; cbn; auto.
  destruct (i =? j); auto.
Qed.
Lemma map_set {A B} (f : A -> B) i x l : map f (set_nth i x l) = set_nth i (f x) (map f l).
Proof. revert i. induction l; intros [|i]; cbn; f_equal; auto. Qed.
Lemma set_nth_same {A} i (x : A) l : nth_error l i = Some x -> set_nth i x l = l.
Proof. revert i. induction l; intros [|i]; cbn; intros H; try discriminate; f_equal; auto. congruence. Qed.

Lemma Forall2_length {A B} (P : A -> B -> Prop) la lb : Forall2 P la lb -> length la = length lb.
Proof. induction 1; cbn; auto. Qed.

Section Count.
  Context {A : Type} (f : A -> bool).
  Definition cnt (l : list A) : nat := length (List.filter f l).
  Lemma cnt_app l l' : cnt (l ++ l') = cnt l + cnt l'.
  Proof. unfold cnt. rewrite filter_app, app_length. reflexivity. Qed.
  Lemma cnt_set i x y l : nth_error l i = Some y ->
    cnt (set_nth i x l) + (if f y then 1 else 0) = cnt l + (if f x then 1 else 0).
  Proof.
    revert i. induction l as [|z l IH]; intros [|i]; cbn; intros H; try discriminate.
    - injection H as ->. unfold cnt. cbn. destruct (f x), (f y); cbn; lia.
    - specialize (IH i H). unfold cnt in *. cbn. destruct (f z); cbn; lia.
  Qed.
End Count.

Lemma leave_notin i l : ~ In i l -> leave i l = l.
Proof.
  induction l as [|j l IH]; intros H; cbn; auto. cbn in H.
  destruct (Nat.eqb_spec j i) as [->|]; [exfalso; apply H; auto|]. cbn. f_equal. apply IH. auto.
Qed.
Lemma remove_in i l x : In x (remove_nat i l) -> In x l.
Proof. induction l as [|j l IH]; cbn; auto. destruct (i =? j); cbn; tauto. Qed.
Lemma remove_nat_filter i l : NoDup l -> remove_nat i l = leave i l.
Proof.
  induction 1 as [|j l N H IH]; cbn; auto. rewrite (Nat.eqb_sym j i).
  destruct (Nat.eqb_spec i j) as [->|]; cbn.
  - symmetry. apply leave_notin, N.
  - rewrite IH. reflexivity.
Qed.
Lemma leave_app i a b : leave i (a ++ b) = leave i a ++ leave i b.
Proof. apply filter_app. Qed.
Lemma leave_mid i a b : NoDup (a ++ i :: b) -> leave i (a ++ i :: b) = a ++ b.
Proof.
  intros H. apply NoDup_remove in H. destruct H as [_ H].
  rewrite leave_app. rewrite (@leave_notin i a) by (intros K; apply H; apply in_or_app; auto).
  f_equal. change (leave i (i :: b)) with (if negb (i =? i) then i :: leave i b else leave i b).
  rewrite Nat.eqb_refl. apply leave_notin. intros K; apply H; apply in_or_app; auto.
Qed.
Lemma ahead_notin i l : ~ In i l -> ahead i l = length l.
Proof.
  induction l as [|j l IH]; intros H; cbn; auto. cbn in H.
  destruct (Nat.eqb_spec j i) as [->|]; [exfalso; apply H; auto|]. f_equal. apply IH. auto.
Qed.
Lemma ahead_mid i a b : ~ In i a -> ahead i (a ++ i :: b) = length a.
Proof.
  induction a as [|j a IH]; cbn; intros H.
  - rewrite Nat.eqb_refl. reflexivity.
  - destruct (Nat.eqb_spec j i) as [->|]; [exfalso; apply H; auto|]. f_equal. apply IH. auto.
Qed.
Lemma mem_in i l : mem_nat i l = true <-> In i l.
Proof.
  unfold mem_nat. rewrite existsb_exists. split.
  - intros (x & H & E). apply Nat.eqb_eq in E. subst. exact H.
  - intros H. exists i. split; auto. apply Nat.eqb_refl.
Qed.
Lemma exb_in i l : existsb (Nat.eqb i) l = true <-> In i l.
Proof. apply mem_in. Qed.
Lemma nodup_app_in_l {A} (a b : list A) x : NoDup (a ++ b) -> In x a -> In x b -> False.
Proof.
  induction a as [|y a IH]; cbn; intros H Ha Hb; [contradiction|].
  inversion H; subst. destruct Ha as [->|Ha]; auto. apply H2. apply in_or_app. auto.
Qed.
Lemma nodup_app_l {A} (a b : list A) : NoDup (a ++ b) -> NoDup a.
Proof.
  induction a as [|y a IH]; cbn; intros H; [constructor|]. inversion H; subst.
  constructor; auto. intros K. apply H2. apply in_or_app. auto.
Qed.
(** A position in a concatenation: on the left or on the right. *)
Lemma app_split {A} (a b c d : list A) (x : A) : a ++ b = c ++ x :: d ->
  (exists e, a = c ++ x :: e /\ d = e ++ b) \/ (exists e, b = e ++ x :: d /\ c = a ++ e).
Proof.
  revert c. induction a as [|y a IH]; intros c H; cbn in *.
  - right. exists c. auto.
  - destruct c as [|z c]; cbn in *.
    + injection H as -> <-. left. exists a. auto.
    + injection H as <- H. destruct (IH c H) as [(e & -> & ->)|(e & -> & ->)]; [left|right]; exists e; auto.
Qed.

Section ConcProof.
  Context {W Req Resp Err : Type} (svc : Service W Req Resp Err) (max : nat).
  Notation sys := (sys svc).
  Notation spec := (spec svc).
  Notation cst := (conc_st svc).
  Notation holding := (holding (svc := svc)).

  Definition view (c : option cst) : option (st svc * bool) :=
    option_map (fun c => (cl_inner c, cl_permit c)) c.
  Definition wait_of (l : list (option cst)) (i : nat) : option nat :=
    match nth_error l i with Some (Some c) => cl_wait c | _ => None end.

  Definition waits (insts : list (option cst)) (line : list nat) (m : sem) (gl : list nat) : Prop :=
    Forall2 (fun i t => wait_of insts i = Some t) line (gl ++ sem_queue m) /\
    (forall i t, wait_of insts i = Some t -> In i line) /\
    (forall i c t, nth_error insts i = Some (Some c) -> cl_wait c = Some t -> cl_permit c = false) /\
    NoDup (gl ++ sem_queue m) /\ NoDup line /\
    Forall (fun t => t < sem_next m) (gl ++ sem_queue m) /\
    Permutation (sem_granted m) gl /\
    (sem_avail m = 0 \/ sem_queue m = []).

  Definition rel (y : sys) (sp : spec) : Prop :=
    p_insts sp = map view (y_insts y) /\ p_futs sp = y_futs y /\ p_w sp = snd (y_w y) /\
    exists gl, waits (y_insts y) (p_line sp) (fst (y_w y)) gl /\
      sem_avail (fst (y_w y)) + length gl + (holding sp + in_flight sp) = max.

  (** *** The line under changes of one instance *)
  Lemma wait_set l i c j : wait_of (set_nth i c l) j =
    if i =? j then match nth_error l j with Some _ => match c with Some c => cl_wait c | None => None end | None => None end
    else wait_of l j.
  Proof. unfold wait_of. rewrite nth_set. destruct (i =? j); auto. destruct (nth_error l j); auto. Qed.


  Lemma forall2_ext {A B} (P Q : A -> B -> Prop) la lb :
    Forall2 P la lb -> (forall a b, In a la -> P a b -> Q a b) -> Forall2 Q la lb.
  Proof. induction 1; intros H1; constructor; auto; [apply H1; cbn; auto | apply IHForall2; intros; apply H1; cbn; auto]. Qed.

  (** Nothing about waiting changes for the instance. *)
  Lemma waits_same insts line m gl i c0 c :
    waits insts line m gl -> nth_error insts i = Some (Some c0) -> cl_wait c = cl_wait c0 ->
    (forall t, cl_wait c = Some t -> cl_permit c = false) ->
    waits (set_nth i (Some c) insts) line m gl.
  Proof.
    intros (H1 & H2 & H3 & H4) Hi Hw Hp.
    assert (E : forall j, wait_of (set_nth i (Some c) insts) j = wait_of insts j).
    { intros j. rewrite wait_set. destruct (Nat.eqb_spec i j) as [<-|]; auto.
      unfold wait_of. rewrite Hi. exact Hw. }
    split; [|split; [|split]]; auto.
    - eapply forall2_ext; [exact H1|]. cbn. intros a b _ H. rewrite E. exact H.
    - intros j t. rewrite E. apply H2.
    - intros j c' t. rewrite nth_set. destruct (Nat.eqb_spec i j) as [<-|]; [|apply H3].
      rewrite Hi. intros E1. injection E1 as <-. apply Hp.
  Qed.

  (** A new instance. *)
  Lemma waits_add insts line m gl c :
    waits insts line m gl -> cl_wait c = None -> waits (insts ++ [Some c]) line m gl.
  Proof.
    intros (H1 & H2 & H3 & H4) Hw.
    assert (E : forall j, wait_of (insts ++ [Some c]) j = wait_of insts j).
    { intros j. unfold wait_of. destruct (Nat.lt_ge_cases j (length insts)) as [Hl|Hl].
      - rewrite nth_error_app1 by auto. reflexivity.
      - rewrite nth_error_app2 by auto. replace (nth_error insts j) with (@None (option cst)) by (symmetry; apply nth_error_None; lia).
        destruct (j - length insts) as [|[|]]; cbn; auto. }
    split; [|split; [|split]]; auto.
    - eapply forall2_ext; [exact H1|]. cbn. intros a b _ H. rewrite E. exact H.
    - intros j t. rewrite E. apply H2.
    - intros j c' t. destruct (Nat.lt_ge_cases j (length insts)) as [Hl|Hl].
      + rewrite nth_error_app1 by auto. apply H3.
      + rewrite nth_error_app2 by auto. destruct (j - length insts) as [|[|]]; cbn; intros E1; try discriminate.
        injection E1 as <-. rewrite Hw. discriminate.
  Qed.

  (** A release: the head of the queue is granted, or a permit becomes free. *)
  Lemma waits_release insts line m gl :
    waits insts line m gl -> exists gl', waits insts line (sem_release m) gl' /\
      sem_avail (sem_release m) + length gl' = S (sem_avail m + length gl).
  Proof.
    intros (H1 & H2 & H3 & H4 & H5 & H6 & H7 & H8). unfold sem_release.
    destruct (sem_queue m) as [|t q] eqn:Eq.
    - exists gl. split; [|cbn; lia]. repeat split; cbn; auto.
    - exists (gl ++ [t]). destruct H8 as [H8|H8]; [|discriminate].
      split; [|cbn; rewrite app_length; cbn; lia].
      split; [|split; [|split; [|split; [|split; [|split; [|split]]]]]]; cbn; auto.
      + rewrite <- app_assoc. exact H1.
      + rewrite <- app_assoc. exact H4.
      + rewrite <- app_assoc. exact H6.
      + rewrite <- Permutation_cons_append. constructor. exact H7.
  Qed.

  (** Instance [i] with ticket [t] goes out of the line. *)
  Lemma waits_split insts line m gl i t :
    waits insts line m gl -> wait_of insts i = Some t ->
    exists l1 l2, line = l1 ++ i :: l2 /\
      ((exists g1 g2, gl = g1 ++ t :: g2 /\ length l1 = length g1 /\
          Forall2 (fun i t => wait_of insts i = Some t) l1 g1 /\
          Forall2 (fun i t => wait_of insts i = Some t) l2 (g2 ++ sem_queue m)) \/
       (exists q1 q2, sem_queue m = q1 ++ t :: q2 /\ length l1 = length gl + length q1 /\ sem_avail m = 0 /\
          Forall2 (fun i t => wait_of insts i = Some t) l1 (gl ++ q1) /\
          Forall2 (fun i t => wait_of insts i = Some t) l2 q2)).
  Proof.
    intros (H1 & H2 & H3 & H4 & H5 & H6 & H7 & H8) Hw.
    destruct (in_split _ _ (H2 _ _ Hw)) as (l1 & l2 & ->). exists l1, l2. split; [reflexivity|].
    apply Forall2_app_inv_l in H1. destruct H1 as (t1 & t2' & F1 & F2 & E).
    inversion F2 as [|? t' ? t2 G1 G2]; subst. assert (t' = t) by congruence. subst t'.
    apply app_split in E. destruct E as [(e & -> & ->)|(e & Eq & ->)].
    - left. exists t1, e. split; [reflexivity|]. split; [eapply Forall2_length; eauto|]. split; auto.
    - right. exists e, t2. split; [exact Eq|]. split; [|split; [|split]]; auto.
      + rewrite (Forall2_length F1), app_length. reflexivity.
      + destruct H8 as [H8|H8]; auto. rewrite Eq in H8. destruct e; discriminate.
  Qed.

  Lemma granted_iff insts line m gl i t :
    waits insts line m gl -> wait_of insts i = Some t ->
    mem_nat t (sem_granted m) = (ahead i line <? sem_avail m + length gl).
  Proof.
    intros H Hw. destruct (waits_split H Hw) as (l1 & l2 & -> & K).
    destruct H as (H1 & H2 & H3 & H4 & H5 & H6 & H7 & H8).
    rewrite ahead_mid.
    2:{ intros Hin. apply NoDup_remove in H5. apply (proj2 H5). apply in_or_app. auto. }
    destruct K as [(g1 & g2 & -> & El & _)|(q1 & q2 & Eq & El & Ea & _)].
    - transitivity true; [apply mem_in | symmetry; apply Nat.ltb_lt; rewrite El, app_length; cbn; lia].
      apply Permutation_in with (l := g1 ++ t :: g2); [symmetry; exact H7 | apply in_or_app; cbn; auto].
    - transitivity false; [|symmetry; apply Nat.ltb_ge; lia].
      destruct (mem_nat t (sem_granted m)) eqn:E; auto. apply mem_in in E.
      apply (Permutation_in t H7) in E. exfalso. eapply (@nodup_app_in_l _ gl (sem_queue m)); eauto.
      rewrite Eq. apply in_or_app. cbn. auto.
  Qed.

  (** Removing the ticket from wherever it is. *)
  Lemma forall2_other insts i c l tl :
    Forall2 (fun i t => wait_of insts i = Some t) l tl -> ~ In i l ->
    Forall2 (fun j t => wait_of (set_nth i c insts) j = Some t) l tl.
  Proof.
    intros H Hn. eapply forall2_ext; [exact H|]. cbn. intros a b Ha Hw. rewrite wait_set.
    destruct (Nat.eqb_spec i a) as [<-|]; [contradiction | exact Hw].
  Qed.

  Lemma wait_nth insts i t : wait_of insts i = Some t ->
    exists c, nth_error insts i = Some (Some c) /\ cl_wait c = Some t.
  Proof. unfold wait_of. destruct (nth_error insts i) as [[c|]|]; try discriminate. eauto. Qed.

  Lemma waits_leave insts line m gl i t c' :
    waits insts line m gl -> wait_of insts i = Some t ->
    match c' with Some c => cl_wait c = None | None => True end ->
    (mem_nat t (sem_granted m) = true ->
       exists gl', waits (set_nth i c' insts) (leave i line)
         (Sem (sem_avail m) (sem_queue m) (remove_nat t (sem_granted m)) (sem_next m)) gl' /\ S (length gl') = length gl) /\
    (mem_nat t (sem_granted m) = false ->
       waits (set_nth i c' insts) (leave i line)
         (Sem (sem_avail m) (remove_nat t (sem_queue m)) (sem_granted m) (sem_next m)) gl).
  Proof.
    intros H Hw Hc. destruct (waits_split H Hw) as (l1 & l2 & -> & K).
    destruct H as (H1 & H2 & H3 & H4 & H5 & H6 & H7 & H8).
    assert (Hn : ~ In i (l1 ++ l2)) by (apply NoDup_remove in H5; apply H5).
    assert (Hn1 : ~ In i l1) by (intros ?; apply Hn; apply in_or_app; auto).
    assert (Hn2 : ~ In i l2) by (intros ?; apply Hn; apply in_or_app; auto).
    assert (Hmine : wait_of (set_nth i c' insts) i = None).
    { rewrite wait_set, Nat.eqb_refl. destruct (wait_nth Hw) as (c & -> & _). destruct c'; auto. }
    rewrite leave_mid by auto.
    assert (A2 : forall j t', wait_of (set_nth i c' insts) j = Some t' -> In j (l1 ++ l2)).
    { intros j t' Hj. rewrite wait_set in Hj. destruct (Nat.eqb_spec i j) as [<-|Hne].
      - rewrite wait_set, Nat.eqb_refl in Hmine. congruence.
      - apply H2 in Hj. apply in_app_or in Hj. apply in_or_app. destruct Hj as [|[|]]; auto. congruence. }
    assert (A3 : forall j c t', nth_error (set_nth i c' insts) j = Some (Some c) -> cl_wait c = Some t' -> cl_permit c = false).
    { intros j c t'. rewrite nth_set. destruct (Nat.eqb_spec i j) as [<-|Hne]; [|apply H3].
      destruct (nth_error insts i); [|discriminate]. intros E. injection E as ->. rewrite Hc. discriminate. }
    assert (A5 : NoDup (l1 ++ l2)) by (apply NoDup_remove in H5; apply H5).
    split; intros Hm.
    - destruct K as [(g1 & g2 & -> & El & F1 & F2)|(q1 & q2 & Eq & El & Ea & _)].
      + exists (g1 ++ g2). split; [|rewrite !app_length; cbn; lia].
        assert (Ht : ~ In t (g1 ++ g2 ++ sem_queue m)).
        { rewrite <- app_assoc in H4. cbn in H4. apply NoDup_remove in H4. apply H4. }
        split; [|split; [|split; [|split; [|split; [|split; [|split]]]]]]; cbn; auto.
        * rewrite <- app_assoc. apply Forall2_app; apply forall2_other; auto.
        * rewrite <- !app_assoc in *. cbn in H4. apply NoDup_remove in H4. apply H4.
        * rewrite <- !app_assoc in *. apply Forall_app in H6. destruct H6 as [H6 H6']. inversion H6'; subst. apply Forall_app. auto.
        * rewrite remove_nat_filter
            by (eapply Permutation_NoDup; [symmetry; exact H7 | eapply nodup_app_l; exact H4]).
          assert (P : Permutation (leave t (sem_granted m)) (leave t (g1 ++ t :: g2))).
          { clear -H7. unfold leave. induction H7; cbn; auto.
            - destruct (negb (x =? t)); auto.
            - destruct (negb (y =? t)), (negb (x =? t)); auto. constructor.
            - eapply perm_trans; eauto. }
          rewrite leave_mid in P; auto. eapply nodup_app_l. exact H4.
      + exfalso. apply mem_in in Hm. apply (Permutation_in t H7) in Hm.
        eapply (@nodup_app_in_l _ gl (sem_queue m)); eauto. rewrite Eq. apply in_or_app. cbn. auto.
    - destruct K as [(g1 & g2 & -> & El & F1 & F2)|(q1 & q2 & Eq & El & Ea & F1 & F2)].
      + exfalso. assert (mem_nat t (sem_granted m) = true); [|congruence]. apply mem_in.
        apply Permutation_in with (l := g1 ++ t :: g2); [symmetry; exact H7 | apply in_or_app; cbn; auto].
      + assert (Er : remove_nat t (sem_queue m) = q1 ++ q2).
        { assert (Nq : NoDup (sem_queue m)) by (clear -H4; induction gl; auto; inversion H4; auto).
          rewrite remove_nat_filter by exact Nq. rewrite Eq in *. apply leave_mid, Nq. }
        split; [|split; [|split; [|split; [|split; [|split; [|split]]]]]]; cbn; rewrite ?Er; auto.
        * rewrite app_assoc. apply Forall2_app; apply forall2_other; auto.
        * rewrite Eq, app_assoc in H4. apply NoDup_remove in H4. rewrite app_assoc. apply H4.
        * rewrite Eq, app_assoc in H6. apply Forall_app in H6. destruct H6 as [H6 H6']. inversion H6'; subst.
          rewrite app_assoc. apply Forall_app. auto.
  Qed.

  Lemma waits_line insts line m gl i c :
    waits insts line m gl -> nth_error insts i = Some (Some c) -> cl_wait c = None -> ~ In i line.
  Proof.
    intros (H1 & _) Hi Hw Hin. apply in_split in Hin. destruct Hin as (l1 & l2 & ->).
    apply Forall2_app_inv_l in H1. destruct H1 as (t1 & t2 & _ & F2 & _).
    inversion F2 as [|? ? ? ? K1 K2]; subst. unfold wait_of in K1. rewrite Hi in K1. congruence.
  Qed.

  (** A newcomer queues up. *)
  Lemma waits_join insts line m gl i c :
    waits insts line m gl -> nth_error insts i = Some (Some c) -> cl_wait c = None -> sem_avail m = 0 ->
    waits (set_nth i (Some (ConcSt svc (cl_inner c) (Some (sem_next m)) false)) insts) (line ++ [i])
      (Sem 0 (sem_queue m ++ [sem_next m]) (sem_granted m) (S (sem_next m))) gl.
  Proof.
    intros HW Hi Hw Ha. assert (Hn : ~ In i line) by (eapply waits_line; eauto).
    destruct HW as (H1 & H2 & H3 & H4 & H5 & H6 & H7 & H8).
    assert (Hwi : wait_of (set_nth i (Some (ConcSt svc (cl_inner c) (Some (sem_next m)) false)) insts) i = Some (sem_next m)).
    { rewrite wait_set, Nat.eqb_refl, Hi. reflexivity. }
    assert (Hfresh : ~ In (sem_next m) (gl ++ sem_queue m)).
    { intros Hin. rewrite Forall_forall in H6. apply H6 in Hin. lia. }
    split; [|split; [|split; [|split; [|split; [|split; [|split]]]]]]; cbn; auto.
    - rewrite app_assoc. apply Forall2_app; [apply forall2_other; auto|]. constructor; auto.
    - intros j t Hj. rewrite wait_set in Hj. apply in_or_app. destruct (Nat.eqb_spec i j) as [<-|]; [right; left; auto|].
      left. eauto.
    - intros j c' t. rewrite nth_set. destruct (Nat.eqb_spec i j) as [<-|]; [|apply H3].
      rewrite Hi. intros E. injection E as <-. auto.
    - rewrite app_assoc. apply NoDup_Add with (a := sem_next m) (l := gl ++ sem_queue m); auto.
      pose proof (Add_app (sem_next m) (gl ++ sem_queue m) []) as K. rewrite app_nil_r in K. exact K.
    - apply NoDup_Add with (a := i) (l := line); auto.
      pose proof (Add_app i line []) as K. rewrite app_nil_r in K. exact K.
    - rewrite app_assoc. apply Forall_app. split; [eapply Forall_impl; [|exact H6]; cbn; intros; lia|].
      constructor; auto.
  Qed.

  (** *** Bookkeeping of the specification *)
  Lemma holding_set (sp : spec) i s b s1 b1 line futs w :
    nth_error (p_insts sp) i = Some (Some (s, b)) ->
    holding (Spec (set_nth i (Some (s1, b1)) (p_insts sp)) line futs w) + (if b then 1 else 0)
    = holding sp + (if b1 then 1 else 0).
  Proof.
    intros H. unfold ConcSpec.holding. cbn.
    pose proof (@cnt_set _ (fun x => match x with Some (_, true) => true | _ => false end) i (Some (s1, b1)) _ (p_insts sp) H) as K.
    unfold cnt in K. cbn in K. destruct b, b1; cbn in *; lia.
  Qed.
  Lemma holding_drop (sp : spec) i s b line futs w :
    nth_error (p_insts sp) i = Some (Some (s, b)) ->
    holding (Spec (set_nth i None (p_insts sp)) line futs w) + (if b then 1 else 0) = holding sp.
  Proof.
    intros H. unfold ConcSpec.holding. cbn.
    pose proof (@cnt_set _ (fun x => match x with Some (_, true) => true | _ => false end) i None _ (p_insts sp) H) as K.
    unfold cnt in K. cbn in K. destruct b; cbn in *; lia.
  Qed.
  Lemma holding_add (sp : spec) s line futs w :
    holding (Spec (p_insts sp ++ [Some (s, false)]) line futs w) = holding sp.
  Proof. unfold ConcSpec.holding. cbn. rewrite filter_app, app_length. cbn. lia. Qed.
  Lemma flight_add (sp : spec) insts line f w :
    in_flight (Spec (svc := svc) insts line (p_futs sp ++ [Some f]) w) = S (in_flight sp).
  Proof. unfold in_flight. cbn. rewrite filter_app, app_length. cbn. lia. Qed.
  Lemma flight_set (sp : spec) j f f1 insts line w :
    nth_error (p_futs sp) j = Some (Some f) ->
    in_flight (Spec (svc := svc) insts line (set_nth j (Some f1) (p_futs sp)) w) = in_flight sp.
  Proof.
    intros H. unfold in_flight. cbn.
    pose proof (@cnt_set _ (fun x => match x with Some _ => true | None => false end) j (Some f1) _ (p_futs sp) H) as K.
    unfold cnt in K. cbn in K. lia.
  Qed.
  Lemma flight_drop (sp : spec) j f insts line w :
    nth_error (p_futs sp) j = Some (Some f) ->
    S (in_flight (Spec (svc := svc) insts line (set_nth j None (p_futs sp)) w)) = in_flight sp.
  Proof.
    intros H. unfold in_flight. cbn.
    pose proof (@cnt_set _ (fun x => match x with Some _ => true | None => false end) j None _ (p_futs sp) H) as K.
    unfold cnt in K. cbn in K. lia.
  Qed.

  Definition stops (b : cobs (Resp := Resp) (Err := Err)) : bool := match b with CoPanic | CoDiverge => true | _ => false end.

  Lemma nth_view y sp i : rel y sp -> nth_error (p_insts sp) i =
    match nth_error (y_insts y) i with Some x => Some (view x) | None => None end.
  Proof.
    intros (-> & _). change (st (conc_limit svc (fun _ : W => false) true)) with cst.
    rewrite nth_error_map. change (option (st (conc_limit svc (fun _ : W => false) true))) with (option cst).
    destruct (@nth_error (option cst) (y_insts y) i); reflexivity.
  Qed.

  Lemma step_sim o y sp : rel y sp ->
    let '(y1, b) := sys_step o y in let '(sp1, b') := spec_step max o sp in
    b = b' /\ snd (y_w y1) = p_w sp1 /\ (stops b = true \/ rel y1 sp1).
  Proof.
    intros HR. pose proof HR as (E1 & E2 & E3 & gl & Hw & Hmax).
    destruct y as [insts futs [m w]], sp as [pin line pfuts pw]. cbn [p_insts p_futs p_w p_line y_insts y_futs y_w fst snd] in E1, E2, E3, Hw, Hmax. subst pfuts pw.
    destruct o as [i|i r|i|s0|i|j|j|g]; cbn [sys_step spec_step y_insts y_futs y_w p_insts p_line p_futs p_w].
    - (* poll_ready *)
      assert (Hv : nth_error pin i = match @nth_error (option (st (conc_limit svc (fun _ => false) true))) insts i with Some x => Some (view x) | None => None end) by exact (nth_view i HR).
      rewrite Hv. clear Hv. destruct (nth_error insts i) as [[c|]|] eqn:Hi; cbn [view option_map]; try (cbn; auto; fail).
      assert (Hpi : nth_error pin i = Some (Some (cl_inner c, cl_permit c))).
      { subst pin. exact (eq_trans (nth_error_map _ _ _) (f_equal (option_map view) Hi)). }
      change (@nth_error (option cst) insts i = Some (Some c)) in Hi.
      cbn [poll_ready conc_limit]. destruct (cl_permit c) eqn:Hp.
      + cbn [orb]. unfold bind, lift_snd, ret. cbn [fst snd].
        destruct (poll_ready svc (cl_inner c) w) as [w1 [[s1 a]| |]]; cbn; auto.
        split; [auto|]. split; [auto|]. right. split; [|split; [|split]]; cbn; auto.
        * subst pin. rewrite map_set. reflexivity.
        * exists gl. split.
          -- eapply waits_same; eauto. cbn. intros t Ht. exfalso.
             destruct Hw as (_ & _ & H3 & _). specialize (H3 _ _ _ Hi Ht). congruence.
          -- pose proof (holding_set (sp := Spec (svc := svc) pin line futs w) s1 true line futs w1 Hpi). cbn in *. unfold in_flight in *; cbn in *. lia.
      + unfold bind, get, ret. cbn [fst snd]. cbn [orb].
        assert (Eu : unused max (Spec (svc := svc) pin line futs w) = sem_avail m + length gl) by (unfold unused; lia).
        rewrite Eu.
        destruct (cl_wait c) as [t|] eqn:Ht.
        * (* in the line *)
          assert (Hwt : wait_of insts i = Some t) by (unfold wait_of; rewrite Hi; exact Ht).
          cbn [sem_poll]. rewrite <- (granted_iff Hw Hwt).
          destruct (mem_nat t (sem_granted m)) eqn:Hm; cbn [fst snd].
          -- unfold modify, lift_snd. cbn [fst snd].
             destruct (poll_ready svc (cl_inner c) w) as [w1 [[s1 a]| |]]; cbn; auto.
             split; [auto|]. split; [auto|]. right. split; [|split; [|split]]; cbn; auto.
             ++ subst pin. rewrite map_set. reflexivity.
             ++ destruct (waits_leave (c' := Some (ConcSt svc s1 None true)) Hw Hwt eq_refl) as [K _].
                destruct (K Hm) as (gl' & K1 & K2). exists gl'. split; [exact K1|]. cbn.
                pose proof (holding_set (sp := Spec (svc := svc) pin line futs w) s1 true (leave i line) futs w1 Hpi). cbn in *. unfold in_flight in *; cbn in *. lia.
          -- unfold modify. cbn. split; [auto|]. split; [auto|]. right.
             replace (set_nth i (Some (ConcSt svc (cl_inner c) (Some t) false)) insts) with insts.
             2:{ symmetry. apply set_nth_same. etransitivity; [exact Hi|]. destruct c; cbn in *. congruence. }
             assert (Hin : existsb (Nat.eqb i) line = true) by (apply exb_in; destruct Hw as (_ & H2 & _); eapply H2; eauto).
             unfold join. rewrite Hin. split; [|split; [|split]]; cbn; auto. exists gl. auto.
        * (* a newcomer *)
          assert (Hnl : ~ In i line) by (eapply waits_line; eauto).
          assert (El : length line = length gl + length (sem_queue m)).
          { destruct Hw as (H1 & _). apply Forall2_length in H1. rewrite app_length in H1. exact H1. }
          rewrite ahead_notin by auto. cbn [sem_poll].
          destruct (sem_avail m) as [|a'] eqn:Ha; cbn [fst snd].
          -- replace (length line <? 0 + length gl) with false by (symmetry; apply Nat.ltb_ge; lia).
             unfold modify. cbn. split; [auto|]. split; [auto|]. right.
             unfold join. replace (existsb (Nat.eqb i) line) with false.
             2:{ destruct (existsb (Nat.eqb i) line) eqn:E; auto. apply exb_in in E. contradiction. }
             split; [|split; [|split]]; cbn; auto.
             ++ rewrite map_set. cbn. symmetry. rewrite <- E1. apply set_nth_same. exact Hpi.
             ++ exists gl. split; [apply waits_join; auto | cbn; exact Hmax].
          -- assert (Eq : sem_queue m = []) by (destruct Hw as (_ & _ & _ & _ & _ & _ & _ & [H8|H8]); auto; congruence).
             replace (length line <? S a' + length gl) with true by (symmetry; apply Nat.ltb_lt; rewrite Eq in El; cbn in El; lia).
             unfold modify, lift_snd. cbn [fst snd].
             destruct (poll_ready svc (cl_inner c) w) as [w1 [[s1 a]| |]]; cbn; auto.
             split; [auto|]. split; [auto|]. right. split; [|split; [|split]]; cbn; auto.
             ++ subst pin. rewrite map_set. reflexivity.
             ++ exists gl. split.
                ** rewrite leave_notin by auto.
                   assert (K : waits (set_nth i (Some (ConcSt svc s1 None true)) insts) line m gl).
                   { eapply waits_same; eauto. discriminate. }
                   destruct K as (K1 & K2 & K3 & K4 & K5 & K6 & K7 & K8).
                   split; [|split; [|split; [|split; [|split; [|split; [|split]]]]]]; cbn; auto.
                ** pose proof (holding_set (sp := Spec (svc := svc) pin line futs w) s1 true (leave i line) futs w1 Hpi). cbn in *. unfold in_flight in *; cbn in *. lia.
    - (* call *)
      assert (Hv : nth_error pin i = match @nth_error (option (st (conc_limit svc (fun _ => false) true))) insts i with Some x => Some (view x) | None => None end) by exact (nth_view i HR).
      rewrite Hv. clear Hv. destruct (nth_error insts i) as [[c|]|] eqn:Hi; cbn [view option_map]; try (cbn; auto; fail).
      assert (Hpi : nth_error pin i = Some (Some (cl_inner c, cl_permit c))).
      { subst pin. exact (eq_trans (nth_error_map _ _ _) (f_equal (option_map view) Hi)). }
      change (@nth_error (option cst) insts i = Some (Some c)) in Hi.
      cbn [call conc_limit]. destruct (cl_permit c) eqn:Hp; [|cbn; auto].
      unfold bind, lift_snd, ret. cbn [fst snd].
      destruct (call svc (cl_inner c) r w) as [w1 [[s1 f]| |]]; cbn; auto.
      split; [auto|]. split; [auto|]. right. split; [|split; [|split]]; cbn; auto.
      + subst pin. rewrite map_set. reflexivity.
      + exists gl. split.
        * eapply waits_same; eauto.
        * pose proof (holding_set (sp := Spec (svc := svc) pin line futs w) s1 false line (futs ++ [Some f]) w1 Hpi) as K1.
          pose proof (flight_add (Spec (svc := svc) pin line futs w) (set_nth i (Some (s1, false)) pin) line f w1) as K2.
          cbn in *. lia.
    - (* clone *)
      assert (Hv : nth_error pin i = match @nth_error (option (st (conc_limit svc (fun _ => false) true))) insts i with Some x => Some (view x) | None => None end) by exact (nth_view i HR).
      rewrite Hv. clear Hv. destruct (nth_error insts i) as [[c|]|] eqn:Hi; cbn [view option_map]; try (cbn; auto; fail).
      cbn [clone conc_limit]. unfold bind, lift_snd, ret. cbn [fst snd].
      destruct (clone svc (cl_inner c) w) as [w1 [s1| |]]; cbn; auto.
      split; [subst pin; rewrite map_length; auto|]. split; [auto|]. right. split; [|split; [|split]]; cbn; auto.
      + subst pin. rewrite map_app. reflexivity.
      + exists gl. split; [apply waits_add; auto|].
        pose proof (holding_add (Spec (svc := svc) pin line futs w) s1 line futs w1). cbn in *. unfold in_flight in *; cbn in *. lia.
    - (* a new service under the same limit *)
      split; [subst pin; rewrite map_length; auto|]. split; [auto|]. right. split; [|split; [|split]]; cbn; auto.
      + subst pin. rewrite map_app. reflexivity.
      + exists gl. split; [apply waits_add; auto|].
        pose proof (holding_add (Spec (svc := svc) pin line futs w) s0 line futs w). cbn in *. unfold in_flight in *; cbn in *. lia.
    - (* drop of an instance *)
      assert (Hv : nth_error pin i = match @nth_error (option (st (conc_limit svc (fun _ => false) true))) insts i with Some x => Some (view x) | None => None end) by exact (nth_view i HR).
      rewrite Hv. clear Hv. destruct (nth_error insts i) as [[c|]|] eqn:Hi; cbn [view option_map]; try (cbn; auto; fail).
      assert (Hpi : nth_error pin i = Some (Some (cl_inner c, cl_permit c))).
      { subst pin. exact (eq_trans (nth_error_map _ _ _) (f_equal (option_map view) Hi)). }
      change (@nth_error (option cst) insts i = Some (Some c)) in Hi.
      cbn [drop_svc conc_limit fst snd]. split; [auto|]. split; [auto|]. right.
      split; [|split; [|split]]; cbn [p_insts p_futs p_w p_line y_insts y_futs y_w fst snd]; auto.
      { subst pin. rewrite map_set. reflexivity. }
      pose proof (holding_drop (sp := Spec (svc := svc) pin line futs w) (leave i line) futs (drop_svc svc (cl_inner c) w) Hpi) as Hh.
      cbn [p_insts] in Hh. unfold in_flight in *. cbn [p_futs] in *.
      destruct (cl_wait c) as [t|] eqn:Ht.
      + assert (Hwt : wait_of insts i = Some t) by (unfold wait_of; rewrite Hi; exact Ht).
        assert (Hpf : cl_permit c = false) by (destruct Hw as (_ & _ & H3 & _); eauto).
        rewrite Hpf in *. destruct (waits_leave (c' := None) Hw Hwt I) as [K1 K2]. cbn [sem_forget].
        destruct (mem_nat t (sem_granted m)).
        * destruct (K1 eq_refl) as (gl' & K3 & K4).
          destruct (waits_release K3) as (gl'' & K5 & K6). exists gl''. split; [exact K5|]. cbn in K6. lia.
        * exists gl. split; [exact (K2 eq_refl)|]. cbn [sem_avail]. lia.
      + cbn [sem_forget].
        assert (K : waits (set_nth i None insts) (leave i line) m gl).
        { assert (Hnl : ~ In i line) by (eapply waits_line; eauto).
          rewrite leave_notin by auto. destruct Hw as (K1 & K2 & K3 & K4).
          split; [|split; [|split]]; auto.
          - apply forall2_other; auto.
          - intros j t. rewrite wait_set. destruct (Nat.eqb_spec i j); [|apply K2]. destruct (@nth_error (option cst) insts j); discriminate.
          - intros j c' t. rewrite nth_set. destruct (Nat.eqb_spec i j); [|apply K3]. destruct (@nth_error (option cst) insts j); discriminate. }
        destruct (cl_permit c).
        * destruct (waits_release K) as (gl' & K5 & K6). exists gl'. split; [exact K5|]. lia.
        * exists gl. split; [exact K|]. lia.
    - (* poll of a future *)
      change (fut (conc_limit svc (fun _ => false) true)) with (fut svc) in *.
      destruct (nth_error futs j) as [[f|]|] eqn:Hj; try (cbn; auto; fail).
      cbn [poll_fut conc_limit]. unfold lift_snd. cbn [fst snd].
      destruct (poll_fut svc f w) as [w1 [[f1 a]| |]]; cbn; auto.
      split; [auto|]. split; [auto|]. right. split; [|split; [|split]]; cbn; auto.
      exists gl. split; auto.
      pose proof (flight_set (sp := Spec (svc := svc) pin line futs w) f1 pin line w1 Hj). unfold ConcSpec.holding in *. cbn in *. lia.
    - (* drop of a future *)
      change (fut (conc_limit svc (fun _ => false) true)) with (fut svc) in *.
      destruct (nth_error futs j) as [[f|]|] eqn:Hj; try (cbn; auto; fail).
      cbn [drop_fut conc_limit fst snd]. split; [auto|]. split; [auto|]. right.
      split; [|split; [|split]]; cbn [p_insts p_futs p_w p_line y_insts y_futs y_w fst snd]; auto.
      destruct (waits_release Hw) as (gl' & K5 & K6). exists gl'. split; [exact K5|].
      pose proof (flight_drop (sp := Spec (svc := svc) pin line futs w) pin line (drop_fut svc f w) Hj). unfold ConcSpec.holding in *. cbn in *. lia.
    - cbn. split; [auto|]. split; [auto|]. right. split; [|split; [|split]]; cbn; auto. exists gl. auto.
  Qed.

  Lemma run_sim l : forall y sp, rel y sp ->
    fst (sys_run y l) = fst (spec_run max sp l).
  Proof.
    induction l as [|o l IH]; intros y sp HR; [reflexivity|].
    cbn [sys_run spec_run]. pose proof (step_sim o HR) as H.
    destruct (sys_step o y) as [y1 b]. destruct (spec_step max o sp) as [sp1 b'].
    destruct H as (<- & Hw & H). rewrite <- Hw.
    destruct b; try (destruct H as [H|H]; [discriminate H|]; specialize (IH y1 sp1 H);
      destruct (sys_run y1 l), (spec_run max sp1 l); cbn in *; rewrite IH; reflexivity); reflexivity.
  Qed.

  Lemma rel0 s w : rel (sys0 svc max s w) (spec0 svc s w).
  Proof.
    split; [|split; [|split]]; cbn; auto. exists []. split; [|cbn; lia].
    assert (E : forall i, wait_of [Some (conc_new svc s)] i = None).
    { intros [|[|i]]; reflexivity. }
    split; [|split; [|split; [|split; [|split; [|split; [|split]]]]]]; cbn; auto; try (constructor; fail).
    - intros i t. rewrite E. discriminate.
    - intros [|[|i]]; cbn; intros c t H; try discriminate. injection H as <-. discriminate.
  Qed.

  Lemma conc_refines s w l : fst (sys_run (sys0 svc max s w) l) = fst (spec_run max (spec0 svc s w) l).
  Proof. apply run_sim, rel0. Qed.

  Lemma rel_live y sp : rel y sp -> live (y_futs y) <= max.
  Proof.
    intros (_ & E & _ & gl & _ & H).
    assert (live (y_futs y) = in_flight sp) by (unfold in_flight; rewrite E; reflexivity). lia.
  Qed.
  (** The bound, directly on the system. *)
  Lemma conc_bound_gen l : forall y sp, rel y sp ->
    live (y_futs (snd (sys_run y l))) <= max.
  Proof.
    induction l as [|o l IH]; intros y sp HR.
    - exact (rel_live HR).
    - cbn [sys_run]. pose proof (step_sim o HR) as H.
      assert (Hstop : forall y1 b, sys_step o y = (y1, b) -> stops b = true -> y_futs y1 = y_futs y).
      { clear. intros y1 b. destruct o as [i|i r|i|s0|i|j|j|g]; cbn [sys_step].
        - destruct (nth_error _ _) as [[c|]|]; [|intros E; injection E as <- <-; discriminate..].
          destruct (poll_ready _ c (y_w y)) as [w1 [[? ?]| |]]; intros E; injection E as <- <-; auto; discriminate.
        - destruct (nth_error _ _) as [[c|]|]; [|intros E; injection E as <- <-; discriminate..].
          destruct (call _ c r (y_w y)) as [w1 [[? ?]| |]]; intros E; injection E as <- <-; auto; discriminate.
        - destruct (nth_error _ _) as [[c|]|]; [|intros E; injection E as <- <-; discriminate..].
          destruct (clone _ c (y_w y)) as [w1 [?| |]]; intros E; injection E as <- <-; auto; discriminate.
        - intros E; injection E as <- <-; discriminate.
        - destruct (nth_error _ _) as [[c|]|]; intros E; injection E as <- <-; discriminate.
        - destruct (nth_error _ _) as [[c|]|]; [|intros E; injection E as <- <-; discriminate..].
          destruct (poll_fut _ c (y_w y)) as [w1 [[? ?]| |]]; intros E; injection E as <- <-; auto; discriminate.
        - destruct (nth_error _ _) as [[c|]|]; intros E; injection E as <- <-; discriminate.
        - intros E; injection E as <- <-; discriminate. }
      destruct (sys_step o y) as [y1 b]. destruct (spec_step max o sp) as [sp1 b'].
      destruct H as (_ & _ & H). specialize (Hstop y1 b eq_refl).
      assert (K : stops b = true -> live (y_futs y1) <= max).
      { intros Hs. rewrite (Hstop Hs). exact (rel_live HR). }
      destruct b; try (apply K; reflexivity);
        (destruct H as [H|H]; [discriminate H|]; specialize (IH y1 sp1 H); destruct (sys_run y1 l); exact IH).
  Qed.
  Lemma conc_bound s w l : live (y_futs (snd (sys_run (sys0 svc max s w) l))) <= max.
  Proof. eapply conc_bound_gen, rel0. Qed.

  (** Nothing is lost: when all instances and futures are gone all permits are free. *)
  Definition ended_well (h : list (cobs (Resp := Resp) (Err := Err) * W)) : Prop := Forall (fun x => stops (fst x) = false) h.
  Lemma conc_all_back_gen l : forall y sp, rel y sp -> ended_well (fst (sys_run y l)) ->
    exists sp1, rel (snd (sys_run y l)) sp1.
  Proof.
    induction l as [|o l IH]; intros y sp HR He; [cbn; eauto|].
    cbn [sys_run] in *. pose proof (step_sim o HR) as H.
    destruct (sys_step o y) as [y1 b]. destruct (spec_step max o sp) as [sp1 b'].
    destruct H as (_ & _ & H).
    assert (Hb : stops b = false).
    { destruct b; try reflexivity; cbn in He; inversion He; auto. }
    destruct H as [H|H]; [congruence|].
    destruct b; try discriminate Hb; specialize (IH y1 sp1 H); destruct (sys_run y1 l) as [h y2]; cbn in *;
      apply IH; inversion He; auto.
  Qed.
  Lemma conc_all_back s w l :
    let h := sys_run (sys0 svc max s w) l in
    Forall (fun x => match fst x with CoPanic | CoDiverge => False | _ => True end) (fst h) ->
    live (y_insts (snd h)) = 0 -> live (y_futs (snd h)) = 0 ->
    sem_avail (fst (y_w (snd h))) = max.
  Proof.
    cbv zeta. intros He Hi Hf.
    destruct (@conc_all_back_gen l _ _ (rel0 s w)) as [sp (E1 & E2 & E3 & gl & Hw & Hm)].
    { eapply Forall_impl; [|exact He]. intros [b x]. cbn. destruct b; auto; contradiction. }
    set (y := snd (sys_run (sys0 svc max s w) l)) in *.
    assert (F0 : in_flight sp = 0) by (unfold in_flight; rewrite E2; exact Hf).
    assert (Hn : forall i c, nth_error (y_insts y) i <> Some (Some c)).
    { clearbody y. clear -Hi. unfold live in Hi. intros i c H. revert i H. induction (y_insts y) as [|x l0 IH]; intros [|i] H; cbn in *; try discriminate.
      - injection H as ->. discriminate.
      - destruct x; [discriminate|]. eapply IH; eauto. }
    assert (H0 : holding sp = 0).
    { unfold ConcSpec.holding. rewrite E1. clearbody y. clear -Hi. revert Hi. unfold live. induction (y_insts y) as [|[x|] l0 IH]; cbn; auto; discriminate. }
    assert (G0 : gl = []).
    { destruct Hw as (H1 & _). destruct gl as [|t gl]; auto. exfalso.
      inversion H1 as [|x ? ? ? K1 K2]. destruct (wait_nth K1) as (c & Hc & _). eapply Hn; eauto. }
    subst gl. cbn in Hm. lia.
  Qed.

  Lemma conc_conserved s w l :
    let h := sys_run (sys0 svc max s w) l in
    Forall (fun x => match fst x with CoPanic | CoDiverge => False | _ => True end) (fst h) ->
    sem_avail (fst (y_w (snd h))) + length (sem_granted (fst (y_w (snd h))))
    + length (List.filter (fun c => match c with Some c => cl_permit c | None => false end) (y_insts (snd h)))
    + live (y_futs (snd h)) = max.
  Proof.
    cbv zeta. intros He.
    destruct (@conc_all_back_gen l _ _ (rel0 s w)) as [sp (E1 & E2 & E3 & gl & Hw & Hm)].
    { eapply Forall_impl; [|exact He]. intros [b x]. cbn. destruct b; auto; contradiction. }
    set (y := snd (sys_run (sys0 svc max s w) l)) in *.
    assert (F0 : in_flight sp = live (y_futs y)) by (unfold in_flight; rewrite E2; reflexivity).
    assert (H0 : holding sp = length (List.filter (fun c => match c with Some c => cl_permit c | None => false end) (y_insts y))).
    { unfold ConcSpec.holding. rewrite E1. clearbody y. clear. induction (y_insts y) as [|[x|] l0 IH]; cbn; auto.
      destruct (cl_permit x); cbn; auto. }
    destruct Hw as (_ & _ & _ & _ & _ & _ & P & _). apply Permutation_length in P.
    change (st (conc_limit svc (fun _ : W => false) true)) with cst. lia.
  Qed.
End ConcProof.
