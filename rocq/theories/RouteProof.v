(** Proofs for C25-C27. *)
From Verif Require Import Base DriveSpec Middleware Track RunInv RouteSpec.
Set Implicit Arguments.

Section SteerProof.
  Context {W Req Resp Err P : Type} (svc : Service W Req Resp Err).
  Context (pick : P -> Req -> list (st svc) -> M W (P * nat)) (pclone : P -> M W P).
  Notation L := (stev (Req := Req) (Resp := Resp) (Err := Err) (P := P)).
  Notation ts := (tracked (L := L) SIn svc).

  Lemma numbered_nth k l i : nth_error (numbered svc k l) i =
    match nth_error l i with Some s => Some (k + i, s) | None => None end.
  Proof.
    revert k i. induction l as [|s l IH]; intros k [|i]; cbn; auto.
    - rewrite Nat.add_0_r. reflexivity.
    - rewrite IH. replace (S k + i) with (k + S i) by lia. reflexivity.
  Qed.
  Lemma numbered_length k l : length (numbered svc k l) = length l.
  Proof. revert k. induction l; cbn; auto. Qed.

  Lemma set_nth_length {A} i (x : A) l : length (set_nth i x l) = length l.
  Proof. revert i. induction l; intros [|i]; cbn; auto. Qed.
  Lemma nth_set_nth {A} i j (x : A) l : nth_error (set_nth i x l) j =
    if i =? j then match nth_error l j with Some _ => Some x | None => None end else nth_error l j.
  Proof.
    revert i j. induction l as [|y l IH]; intros [|i] [|j]; cbn; auto.
    - destruct (i =? j); auto.
  Qed.

  (** [ids n l]: the list has length [n] and position [k] carries number [k]. *)
  Definition ids (n : nat) (l : list (nat * st svc)) : Prop :=
    length l = n /\ forall i x, nth_error l i = Some x -> fst x = i.
  Lemma ids_numbered l : ids (length l) (numbered svc 0 l).
  Proof.
    split; [apply numbered_length|]. intros i x. rewrite numbered_nth.
    destruct (nth_error l i); [|discriminate]. intros E. injection E as <-. reflexivity.
  Qed.
  Lemma ids_set n l i s : ids n l -> ids n (set_nth i (i, s) l).
  Proof.
    intros [H1 H2]. split; [rewrite set_nth_length; auto|]. intros j x. rewrite nth_set_nth.
    destruct (Nat.eqb_spec i j) as [->|Hn]; [|apply H2].
    destruct (nth_error l j); [|discriminate]. intros E. injection E as <-. reflexivity.
  Qed.
  Lemma ids_lt n l i x : ids n l -> nth_error l i = Some x -> i < n.
  Proof. intros [<- _] H. apply nth_error_Some. congruence. Qed.

  Definition sinv (n : nat) (services : list (nat * st svc)) (nr : list nat) (l : list L) : Prop :=
    ids n services /\ no_needless_poll l /\ NoDup nr /\
    forall k, k < n -> ready_now k l = negb (if in_dec Nat.eq_dec k nr then true else false).

  Lemma steer_poll_ok n services nr w :
    sinv n services nr (log_of w) ->
    match steer_poll ts services nr w with
    | (w1, Val (services1, nr1, a)) =>
        no_needless_poll (log_of w1) /\
        (match a with
        | Ready (Ok _) => nr1 = []
        | Pending => exists k l, k < n /\ log_of w1 = SIn (TReady k Pending) :: l
        | Ready (Er e) => exists k l, k < n /\ log_of w1 = SIn (TReady k (Ready (Er e))) :: l
        end) /\ sinv n services1 nr1 (log_of w1)
    | (w1, _) => no_needless_poll (log_of w1)
    end.
  Proof.
    revert services w. induction nr as [|i nr IH]; intros services w H.
    { cbn. destruct H as (H1 & H2 & H3 & H4). repeat split; auto; apply H1. }
    cbn [steer_poll]. destruct H as (Hid & Hnn & Hnd & Hr).
    change (@nth_error (st ts) services i) with (@nth_error (nat * st svc) services i).
    destruct (@nth_error (nat * st svc) services i) as [[i' s]|] eqn:En; [|cbn; auto].
    assert (i' = i) as -> by (apply (proj2 Hid) in En; exact En).
    assert (Hi : i < n) by (eapply ids_lt; eauto).
    inversion Hnd; subst. rename H1 into Hni, H2 into Hnd'.
    assert (Hri : ready_now i (log_of w) = false).
    { rewrite Hr by auto. destruct (in_dec Nat.eq_dec i (i :: nr)) as [_|Hn]; auto. exfalso; apply Hn; left; auto. }
    cbn. unfold bind at 1 2. unfold tk_lift. cbn.
    destruct (poll_ready svc s (fst w)) as [w1 [[s1 [|[[]|e]]]| |]]; cbn; auto.
    - split; [auto|]. split; [exists i, (log_of w); auto|].
      split; [apply ids_set; auto|]. split; [cbn; auto|]. split; [constructor; auto|].
      intros k Hk. cbn [log_of tk_log snd ready_now]. destruct (Nat.eqb_spec i k) as [->|Hne].
      + destruct (in_dec Nat.eq_dec k (k :: nr)) as [_|Hn]; auto. exfalso; apply Hn; left; auto.
      + apply Hr; auto.
    - apply IH. split; [apply ids_set; auto|]. split; [cbn; auto|]. split; [auto|].
      intros k Hk. cbn [log_of tk_log snd ready_now]. destruct (Nat.eqb_spec i k) as [->|Hne].
      + destruct (in_dec Nat.eq_dec k nr); [contradiction | reflexivity].
      + rewrite (Hr k : k < n -> ready_now k (tk_log (snd w)) = _) by auto.
        destruct (in_dec Nat.eq_dec k (i :: nr)) as [[|]|Hn1], (in_dec Nat.eq_dec k nr) as [|Hn2]; auto; try contradiction.
        exfalso. apply Hn1. right; auto.
    - split; [auto|]. split; [exists i, (log_of w); auto|].
      split; [apply ids_set; auto|]. split; [cbn; auto|]. split; [constructor; auto|].
      intros k Hk. cbn [log_of tk_log snd ready_now]. destruct (Nat.eqb_spec i k) as [->|Hne].
      + destruct (in_dec Nat.eq_dec k (k :: nr)) as [_|Hn]; auto. exfalso; apply Hn; left; auto.
      + apply Hr; auto.
  Qed.

  Lemma steer_entries (services : list (st svc)) (p0 : P) w ops :
    log_of w = [] ->
    Forall (fun x => steer_entry (svc := svc) (pick := pick) (pclone := pclone) (length services) x /\
                     no_needless_poll (log_of (snd x)))
      (run_svc (tsteer svc pick pclone) Idle (steer_new ts (numbered svc 0 services) p0) w (tk_ops ops)).
  Proof.
    intros Hw. set (n := length services).
    apply (@run_svc_inv _ _ _ _ (tsteer svc pick pclone)
      (fun p s w => sinv n (sr_services s) (sr_not_ready s) (log_of w) /\ (p = Primed -> sr_not_ready s = []))
      (fun x => steer_entry n x /\ no_needless_poll (log_of (snd x)))
      (fun g => exists g0, g = tk_env g0)).
    - intros p s w' g H [g0 ->]. exact H.
    - intros p s w' [(_ & H & _) _] _. split; [reflexivity | exact H].
    - intros p [rt sv nr] w' [H _] _. cbn [sr_services sr_not_ready] in H.
      cbn. unfold bind at 1. generalize (@steer_poll_ok n sv nr w' H).
      destruct (steer_poll ts sv nr w') as [w1 [[[sv1 nr1] a]| |]]; cbn; auto.
      intros (H1 & H2 & H3). split.
      + split; [|exact H1]. destruct a as [|[[]|e]]; auto. subst nr1.
        intros k Hk. destruct H3 as (_ & _ & _ & H3). rewrite H3 by auto. reflexivity.
      + split; [exact H3|]. destruct a as [|[[]|e]]; cbn; auto; discriminate.
    - intros [rt sv nr] r w' [H Hp]. cbn in Hp, H. specialize (Hp eq_refl). subst nr.
      destruct H as (Hid & Hnn & Hnd & Hr).
      cbn. unfold bind, tk_lift. cbn.
      destruct (pick rt r (map snd sv) (fst w')) as [w1 [[p1 idx]| |]]; cbn; auto.
      change (@nth_error (nat * st svc) sv idx) with (@nth_error (nat * st svc) sv idx).
      destruct (@nth_error (nat * st svc) sv idx) as [[i s]|] eqn:En; cbn; auto.
      assert (i = idx) as -> by (apply (proj2 Hid) in En; exact En).
      assert (Hi : idx < n) by (eapply ids_lt; eauto).
      unfold bind, tk_lift. cbn.
      destruct (call svc s r w1) as [w2 [[s1 f]| |]]; cbn; auto.
      split.
      + split; [|exact Hnn]. exists rt, p1, idx. split; [auto|]. split; [reflexivity|].
        rewrite Hr by auto. reflexivity.
      + split; [|discriminate]. split; [apply ids_set; auto|]. split; [exact Hnn|].
        split; [constructor; [intros []|constructor]|].
        intros k Hk. cbn [log_of tk_log snd ready_now]. destruct (Nat.eqb_spec idx k) as [->|Hne].
        * destruct (in_dec Nat.eq_dec k [k]) as [|Hn]; auto. exfalso; apply Hn; left; auto.
        * rewrite (Hr k : k < n -> ready_now k (tk_log (snd w')) = _) by auto.
          destruct (in_dec Nat.eq_dec k []) as [[]|]. destruct (in_dec Nat.eq_dec k [idx]) as [[|[]]|]; auto. contradiction.
    - apply Forall_forall. intros o Ho. unfold tk_ops in Ho. apply in_map_iff in Ho.
      destruct Ho as (o0 & <- & _). cbn. eauto.
    - split; [|discriminate]. cbn. rewrite Hw. split; [apply ids_numbered|]. split; [exact I|].
      rewrite numbered_length. split; [apply seq_NoDup|].
      intros k Hk. cbn. destruct (in_dec Nat.eq_dec k (seq 0 (length services))) as [|Hn]; auto.
      exfalso; apply Hn. apply in_seq. fold n. lia.
  Qed.
End SteerProof.

Section ReconnectProof.
  Context {W Tgt Req Resp Err MErr : Type}.
  Context (svc : Service W Req Resp Err) (mk : Service W Tgt (st svc) MErr) (target : Tgt).
  Notation L := (cev (Tgt := Tgt) (Req := Req) (Resp := Resp) (Err := Err) (MErr := MErr)).
  Notation ts := (tracked (L := L) CIn svc).
  Notation tm := (tmk svc mk).
  Notation CP := (cphase (MErr := MErr) * option MErr)%type.
  Notation cst := (csteps (MErr := MErr) (Req := Req) (Resp := Resp) (Err := Err) target).

  Lemma csteps_app a l b l' c : cst a l b -> cst b l' c -> cst a (l ++ l') c.
  Proof. induction 1; cbn; eauto using csteps_cons. Qed.

  Definition rabs (s : reconnect_st ts tm) : CP :=
    (match rc_st s with
     | RcIdle => CIdle
     | RcConnecting f => CConnecting (fst f)
     | RcConnected c => CUp (fst c)
     end, rc_err s).

  Definition good_end (a : poll (result unit (Err + MErr))) (b : CP) (l : list L) : Prop :=
    match a with
    | Pending => exists l0 e, l = l0 ++ [e] /\ c_pending e
    | Ready (Ok _) =>
         (exists c l0, fst b = CUp c /\ l = l0 ++ [CIn (TReady c (Ready (Ok tt)))]) \/
         (exists j x l0, b = (CIdle, Some x) /\ l = l0 ++ [CMk (TPoll j (Ready (Er x))); CMk (TDropFut j)])
    | Ready (Er (inr x)) => exists l0, l = l0 ++ [CMk (TReady 0 (Ready (Er x)))]
    | Ready (Er (inl _)) => False
    end.
  Lemma good_end_app a b l0 l : good_end a b l -> good_end a b (l0 ++ l).
  Proof.
    destruct a as [|[u|[e|e]]]; cbn; auto.
    - intros (l1 & e & -> & H). exists (l0 ++ l1), e. rewrite app_assoc. auto.
    - intros [(c & l1 & H & ->)|(j & x & l1 & H & ->)]; [left; exists c, (l0 ++ l1) | right; exists j, x, (l0 ++ l1)];
        rewrite app_assoc; auto.
    - intros (l1 & ->). exists (l0 ++ l1). rewrite app_assoc. auto.
  Qed.

  Lemma rc_iter_ok (s : reconnect_st ts tm) w :
    exists l, log_of (fst (reconnect_iter target s w)) = rev l ++ log_of w /\
    match snd (reconnect_iter target s w) with
    | Val (inl s1) => cst (rabs s) l (rabs s1)
    | Val (inr (s1, a)) => cst (rabs s) l (rabs s1) /\ good_end a (rabs s1) l
    | _ => exists b, cst (rabs s) l b
    end.
  Proof.
    destruct s as [m cs er]. unfold reconnect_iter, rabs. cbn [rc_st rc_mk rc_err].
    destruct cs as [|[j f]|[c x]].
    - cbn. unfold bind, tk_lift. cbn.
      destruct (poll_ready mk m (fst w)) as [w1 [[m1 [|[[]|e]]]| |]]; cbn.
      + exists [CMk (TReady 0 Pending)]. split; [reflexivity|]. split; [repeat econstructor|].
        exists [], (CMk (TReady 0 Pending)). split; [reflexivity | exact I].
      + unfold bind, tk_lift. cbn. destruct (call mk m1 target w1) as [w2 [[m2 f]| |]]; cbn.
        * exists [CMk (TReady 0 (Ready (Ok tt))); CMk (TCall 0 target (tk_next (snd w)))].
          split; [reflexivity|]. repeat econstructor.
        * exists [CMk (TReady 0 (Ready (Ok tt)))]. split; [reflexivity|]. repeat econstructor.
        * exists [CMk (TReady 0 (Ready (Ok tt)))]. split; [reflexivity|]. repeat econstructor.
      + exists [CMk (TReady 0 (Ready (Er e)))]. split; [reflexivity|]. split; [repeat econstructor|].
        exists []. reflexivity.
      + exists []. split; [reflexivity|]. repeat econstructor.
      + exists []. split; [reflexivity|]. repeat econstructor.
    - cbn. unfold bind, tk_lift. cbn.
      destruct (poll_fut mk f (fst w)) as [w1 [[f1 [|[c|e]]]| |]]; cbn.
      + exists [CMk (TPoll j Pending)]. split; [reflexivity|]. split; [repeat econstructor|].
        exists [], (CMk (TPoll j Pending)). split; [reflexivity | exact I].
      + exists [CMk (TPoll j (Ready (Ok (tk_next (snd w))))); CMk (TDropFut j)].
        split; [reflexivity|]. repeat econstructor.
      + exists [CMk (TPoll j (Ready (Er e))); CMk (TDropFut j)].
        split; [reflexivity|]. split; [repeat econstructor|]. right. exists j, e, []. auto.
      + exists []. split; [reflexivity|]. repeat econstructor.
      + exists []. split; [reflexivity|]. repeat econstructor.
    - cbn. unfold bind, tk_lift. cbn.
      destruct (poll_ready svc x (fst w)) as [w1 [[x1 [|[[]|e]]]| |]]; cbn.
      + exists [CIn (TReady c Pending)]. split; [reflexivity|]. split; [repeat econstructor|].
        exists [], (CIn (TReady c Pending)). split; [reflexivity | exact I].
      + exists [CIn (TReady c (Ready (Ok tt)))]. split; [reflexivity|]. split; [repeat econstructor|].
        left. exists c, []. auto.
      + exists [CIn (TReady c (Ready (Er e))); CIn (TDropSvc c)]. split; [reflexivity|]. repeat econstructor.
      + exists []. split; [reflexivity|]. repeat econstructor.
      + exists []. split; [reflexivity|]. repeat econstructor.
  Qed.

  Lemma rc_poll_ok fuel (s : reconnect_st ts tm) w :
    exists l, log_of (fst (reconnect_poll target fuel s w)) = rev l ++ log_of w /\
    match snd (reconnect_poll target fuel s w) with
    | Val (s1, a) => cst (rabs s) l (rabs s1) /\ good_end a (rabs s1) l
    | _ => exists b, cst (rabs s) l b
    end.
  Proof.
    revert s w. induction fuel as [|n IH]; intros s w.
    { exists []. cbn. split; [reflexivity|]. eexists; constructor. }
    cbn [reconnect_poll]. unfold bind. destruct (rc_iter_ok s w) as (l & H1 & H2).
    destruct (reconnect_iter target s w) as [w1 [[s1|[s1 a]]| |]]; cbn [fst snd] in *.
    - destruct (IH s1 w1) as (l' & H3 & H4). exists (l ++ l'). split.
      { rewrite rev_app_distr, <- app_assoc, <- H1. exact H3. }
      destruct (snd (reconnect_poll target n s1 w1)) as [[s2 a]| |].
      + destruct H4. split; [eapply csteps_app; eauto | apply good_end_app; auto].
      + destruct H4 as [b H4]. exists b. eapply csteps_app; eauto.
      + destruct H4 as [b H4]. exists b. eapply csteps_app; eauto.
    - exists l. auto.
    - exists l. auto.
    - exists l. auto.
  Qed.

  Lemma reconnect_history_gen fuel ops : forall p (s : reconnect_st ts tm) w,
    (p = Primed -> rc_err s <> None \/ exists c, rc_st s = RcConnected c) ->
    rc_history (svc := svc) (mk := mk) (target := target) (fuel := fuel) (rabs s)
      (run_svc (treconnect svc mk target fuel) p s w (tk_ops ops)).
  Proof.
    induction ops as [|[g o] ops IH]; intros p s w Hp; [exact I|].
    change (tk_ops (L := L) ((g, o) :: ops)) with ((tk_env (L := L) g, o) :: tk_ops ops).
    assert (Hready : rc_history (svc := svc) (mk := mk) (target := target) (fuel := fuel) (rabs s)
      match poll_ready (treconnect svc mk target fuel) s (tk_env g w) with
      | (w1, Val (s1, a)) => (tk_env g w, ObsReady a, w1) :: run_svc (treconnect svc mk target fuel) (phase_after a) s1 w1 (tk_ops ops)
      | (w1, Panic) => [(tk_env g w, ObsPanic, w1)]
      | (w1, Diverge) => [(tk_env g w, ObsDiverge, w1)]
      end).
    { change (poll_ready (treconnect svc mk target fuel) s (tk_env g w))
        with (reconnect_poll (svc := ts) (mk := tm) target fuel s (tk_env g w)).
      destruct (rc_poll_ok fuel s (tk_env g w)) as (l & H1 & H2).
      destruct (reconnect_poll (svc := ts) (mk := tm) target fuel s (tk_env g w)) as [w1 [[s1 a]| |]]; cbn [fst snd] in *.
      - destruct H2 as [H2 H3]. exists l, (rabs s1). split; [exact H1|]. split.
        + destruct a as [|[u|[e|e]]]; cbn; auto.
        + apply IH. destruct a as [|[u|e]]; cbn; try discriminate. intros _.
          destruct H3 as [(c & l0 & H3 & _)|(j & x & l0 & H3 & _)].
          * right. unfold rabs in H3. cbn in H3. destruct (rc_st s1); try discriminate. eauto.
          * left. unfold rabs in H3. injection H3 as _ ->. discriminate.
      - destruct H2 as [b H2]. exists l, b. split; [exact H1|]. split; [exact H2 | exact I].
      - destruct H2 as [b H2]. exists l, b. split; [exact H1|]. split; [exact H2 | exact I]. }
    destruct o as [|r], p; cbn [run_svc]; try exact Hready.
    - exists [], (rabs s). split; [reflexivity|]. split; [cbn; auto|]. apply IH. discriminate.
    - exists [], (rabs s). split; [reflexivity|]. split; [cbn; auto|]. apply IH. discriminate.
    - destruct s as [m cs er]. cbn in Hp. specialize (Hp eq_refl). cbn.
      destruct er as [e|]; cbn.
      + exists [], (rabs (RcSt (svc := ts) (mk := tm) m cs None)). split; [reflexivity|].
        split; [cbn; auto|]. apply IH. discriminate.
      + destruct Hp as [Hp|[[c x] ->]]; [congruence|]. cbn. unfold bind, tk_lift. cbn.
        destruct (call svc x r (g (fst w))) as [w1 [[x1 f]| |]]; cbn.
        * exists [CIn (TCall c r (tk_next (snd w)))], (CUp c, None). split; [reflexivity|].
          split; [exists c; auto|]. apply (IH Idle (RcSt (svc := ts) (mk := tm) m (RcConnected (svc := ts) (mk := tm) (c, x1)) None)). discriminate.
        * exists [], (CUp c, None). split; [reflexivity|]. split; [constructor | exact I].
        * exists [], (CUp c, None). split; [reflexivity|]. split; [constructor | exact I].
    - exists [], (rabs s). split; [reflexivity|]. split; [cbn; auto|]. apply IH. discriminate.
  Qed.

  Lemma reconnect_history fuel m w ops :
    rc_history (svc := svc) (mk := mk) (target := target) (fuel := fuel) (CIdle, None)
      (run_svc (treconnect svc mk target fuel) Idle (reconnect_new ts tm m) w (tk_ops ops)).
  Proof. apply (@reconnect_history_gen fuel ops Idle (reconnect_new ts tm m)). discriminate. Qed.

  Lemma reconnect_history_with fuel c m w ops :
    rc_history (svc := svc) (mk := mk) (target := target) (fuel := fuel) (CUp 0, None)
      (run_svc (treconnect svc mk target fuel) Idle (reconnect_with_connection ts tm (0, c) m) w (tk_ops ops)).
  Proof. apply (@reconnect_history_gen fuel ops Idle (reconnect_with_connection ts tm (0, c) m)). discriminate. Qed.

  Lemma failures_app l l' : failures (l ++ l' : list L) = failures l ++ failures l'.
  Proof.
    induction l as [|[[| |? [|[]]| | | ]|] l IH]; cbn; auto. f_equal. exact IH.
  Qed.
  Lemma sublist_nil_l {A} (l : list A) : sublist [] l.
  Proof. induction l; constructor; auto. Qed.
  Lemma sublist_app {A} (a b c : list A) : sublist a b -> sublist a (c ++ b).
  Proof. intros H. induction c; cbn; auto. constructor; auto. Qed.
  Definition opt {A} (o : option A) : list A := match o with Some x => [x] | None => [] end.
  Lemma sublist_tail {A} (x : A) a b : sublist (x :: a) b -> sublist a b.
  Proof. remember (x :: a) as l eqn:E. intros H. revert x a E. induction H; intros; try discriminate; constructor; eauto. injection E as -> ->. exact H. Qed.

  (** What may still come out is among what is held and what newly fails. *)
  Definition hold (a : CP) : list MErr :=
    opt (snd a) ++ match fst a with CFailed _ x => [x] | _ => [] end.
  Lemma csteps_held a l b : cst a l b -> forall f f', sublist f (hold b ++ f') -> sublist f (hold a ++ failures l ++ f').
  Proof.
    induction 1 as [a|a e b l c H1 H2 IH]; intros f f' Hs; [exact Hs|].
    specialize (IH f f' Hs). clear H2 Hs. inversion H1; subst; unfold hold in *; cbn [fst snd failures opt] in *; auto.
    - rewrite app_nil_r, <- app_assoc in *. exact IH.
    - rewrite <- app_assoc. apply sublist_app. exact IH.
  Qed.

  Fixpoint linked fuel (w : W * tk L) (h : list ((W * tk L) * sobs (treconnect svc mk target fuel) * (W * tk L))) : Prop :=
    match h with
    | [] => True
    | (w0, _, w1) :: h' => log_of w0 = log_of w /\ linked w1 h'
    end.
  Lemma run_linked fuel ops : forall p s w,
    linked w (run_svc (treconnect svc mk target fuel) p s w (tk_ops ops)).
  Proof.
    induction ops as [|[g o] ops IH]; intros p s w; [exact I|].
    change (tk_ops (L := L) ((g, o) :: ops)) with ((tk_env (L := L) g, o) :: tk_ops ops).
    destruct o as [|r], p; cbn [run_svc].
    - destruct (poll_ready (treconnect svc mk target fuel) s (tk_env g w)) as [w1 [[s1 a]| |]]; split; auto; exact I.
    - destruct (poll_ready (treconnect svc mk target fuel) s (tk_env g w)) as [w1 [[s1 a]| |]]; split; auto; exact I.
    - split; auto.
    - split; auto.
    - destruct (call (treconnect svc mk target fuel) s r (tk_env g w)) as [w1 [[s1 a]| |]]; split; auto; exact I.
    - split; auto.
  Qed.

  Lemma rc_errors_gen fuel h : forall a (w : W * tk L),
    linked w h -> rc_history (svc := svc) (mk := mk) (target := target) (fuel := fuel) a h ->
    exists l, final_log w h = rev l ++ log_of w /\ sublist (delivered h) (hold a ++ failures l).
  Proof.
    induction h as [|[[w0 o] w1] h IH]; intros a w Hl Hh.
    { exists []. split; [reflexivity | apply sublist_nil_l]. }
    destruct Hl as [Hl0 Hl]. destruct Hh as (l & b & H1 & H2 & Hh).
    destruct (IH b w1 Hl Hh) as (l' & H3 & H4).
    exists (l ++ l'). split.
    { cbn. rewrite H3, H1, Hl0, rev_app_distr, app_assoc. reflexivity. }
    rewrite failures_app.
    assert (K : cst a l b -> sublist (delivered h) (hold a ++ failures l ++ failures l'))
      by (intros K; eapply csteps_held; eauto).
    destruct o as [[|[u|[e|e]]]|r [f|[x|]]| | |]; cbn [delivered]; cbn in H2; try (apply K; apply H2).
    - contradiction.
    - destruct H2 as (c & -> & -> & ->). exact H4.
    - destruct H2 as (H2 & -> & ->). unfold hold in *. rewrite H2. cbn in *. apply sub_keep. exact H4.
    - contradiction.
    - destruct H2 as [-> ->]. exact H4.
  Qed.

  Lemma rc_errors fuel (m : st mk) (w : W * tk L) ops :
    log_of w = [] ->
    let h := run_svc (treconnect svc mk target fuel) Idle (reconnect_new (tracked CIn svc) (tmk svc mk) m) w (tk_ops ops) in
    sublist (delivered h) (failures (rev (final_log w h))).
  Proof.
    intros Hw h. destruct (@rc_errors_gen fuel h (CIdle, None) w (run_linked _ _ _ _) (@reconnect_history fuel m w ops)) as (l & H1 & H2).
    rewrite H1, Hw, app_nil_r, rev_involutive. exact H2.
  Qed.

  (** The error future fails at its first poll, with that error. *)
  Lemma reconnect_error_drive fuel e w g gs :
    drive (poll_fut (reconnect svc mk target fuel)) (inr (Some e)) w (g :: gs) =
    ([], Finished (inr None) (g w) (Er (inr e))).
  Proof. reflexivity. Qed.
End ReconnectProof.
