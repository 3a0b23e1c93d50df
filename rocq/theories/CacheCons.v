(** Consequences of the ReadyCache specification. *)
From Verif Require Import Base Track ReadyCache CacheSpec.
Set Implicit Arguments.

Section Cons.
  Context {K Req Resp Err : Type} (keq : forall a b : K, {a = b} + {a <> b}).
  Notation ev := (tev Req Resp Err).
  Notation idj := (fun e : ev => e).

  (** Everything that can happen, in small steps; the last index is what was pushed. *)
  Inductive mv : slots K -> nat -> list ev -> option (K * nat) -> slots K -> nat -> Prop :=
  | mv_push a n k n1 : n < n1 -> mv a n [] (Some (k, n)) (pushed keq k n a) n1
  | mv_evict a n k n1 : n <= n1 -> mv a n (map TDropSvc (opt_list (in_ready a k))) None (evicted keq k a) n1
  | mv_pp a n l b n1 : n <= n1 -> pp_step keq idj a l b -> mv a n l None b n1
  | mv_fail a n k i e n1 : n <= n1 ->
      in_pend a k = Some i ->
      mv a n [TReady i (Ready (Er e)); TDropSvc i] None
        (Slots (in_ready a) (put keq k None (in_pend a)) (doomed a)) n1
  | mv_check a n k l v b n1 : n <= n1 -> check_answer keq idj a k l v b -> mv a n l None b n1
  | mv_call a n k r l j b n1 : n <= n1 -> call_answer keq idj a k r l j b -> mv a n l None b n1
  | mv_idle a n n1 : n <= n1 -> mv a n [] None a n1.

  Definition at_slot (a : slots K) (i : nat) : Prop :=
    (exists k, in_ready a k = Some i) \/ (exists k, in_pend a k = Some i) \/ In i (doomed a).
  Definition about (i : nat) (e : ev) : bool := uses i e || match e with TDropSvc j => j =? i | _ => false end.
  Definition drops (i : nat) (l : list ev) : nat :=
    length (filter (fun e => match e with TDropSvc j => j =? i | _ => false end) l).

  Record WF (a : slots K) (n : nat) (own : list (K * nat)) : Prop := {
    w_ready : forall k i, in_ready a k = Some i -> In (k, i) own;
    w_pend : forall k i, in_pend a k = Some i -> In (k, i) own;
    w_doom : forall i, In i (doomed a) -> exists k, In (k, i) own;
    w_lt : forall k i, In (k, i) own -> i < n;
    w_fun : forall k k' i, In (k, i) own -> In (k', i) own -> k = k';
    w_ord : forall k i j, in_ready a k = Some i -> in_pend a k = Some j -> i < j;
    w_dnd : NoDup (doomed a);
    w_dr : forall k i, In i (doomed a) -> in_ready a k = Some i -> False;
    w_dp : forall k i, In i (doomed a) -> in_pend a k = Some i -> False
  }.

  Lemma WF_new n : WF slots0 n [].
  Proof. constructor; cbn; try discriminate; try tauto; try constructor. Qed.

  Definition opt_cons {A} (o : option A) (l : list A) := match o with Some x => x :: l | None => l end.

  Lemma put_same (m : K -> option nat) k v : put keq k v m k = v.
  Proof. unfold put. destruct (keq k k); congruence. Qed.
  Lemma put_other (m : K -> option nat) k v x : x <> k -> put keq k v m x = m x.
  Proof. unfold put. destruct (keq x k); congruence. Qed.
  Lemma put_inv (m : K -> option nat) k v x i : put keq k v m x = Some i -> (x = k /\ v = Some i) \/ (x <> k /\ m x = Some i).
  Proof. unfold put. destruct (keq x k); auto. Qed.

  Ltac puts := repeat match goal with
    | H : put keq _ _ _ _ = Some _ |- _ => apply put_inv in H as [[? H]|[? H]]; try subst
    | H : Some _ = Some _ |- _ => injection H as <- || injection H as ->
    | H : None = Some _ |- _ => discriminate
    | H : In _ (opt_list ?o ++ _) |- _ => apply in_app_or in H as [H|H]
    | H : In _ (opt_list ?o) |- _ => destruct o eqn:?; cbn in H; [destruct H as [<-|[]]|contradiction]
    end.

  (** No two slots hold the same service. *)
  Lemma WF_rr a n own k k' i : WF a n own -> in_ready a k = Some i -> in_ready a k' = Some i -> k = k'.
  Proof. intros H A B. exact (w_fun H _ _ _ (w_ready H _ A) (w_ready H _ B)). Qed.
  Lemma WF_pp a n own k k' i : WF a n own -> in_pend a k = Some i -> in_pend a k' = Some i -> k = k'.
  Proof. intros H A B. exact (w_fun H _ _ _ (w_pend H _ A) (w_pend H _ B)). Qed.
  Lemma WF_rp a n own k k' i : WF a n own -> in_ready a k = Some i -> in_pend a k' = Some i -> False.
  Proof.
    intros H A B. assert (E := w_fun H _ _ _ (w_ready H _ A) (w_pend H _ B)). subst k'.
    assert (X := w_ord H _ A B). lia.
  Qed.

  Lemma WF_le a n own n1 : n <= n1 -> WF a n own -> WF a n1 own.
  Proof. intros L H. destruct H. constructor; auto. intros k i Hi. specialize (w_lt0 k i Hi). lia. Qed.

  Lemma WF_mv a n l p b m own : mv a n l p b m -> WF a n own -> WF b m (opt_cons p own).
  Proof.
    intros M H.
    assert (X := fun k k' i => @WF_rp a n own k k' i H).
    assert (Xr := fun k k' i => @WF_rr a n own k k' i H).
    assert (Xp := fun k k' i => @WF_pp a n own k k' i H).
    assert (LE : n <= m) by (inversion M; lia).
    assert (LT : forall k i, In (k, i) (opt_cons p own) -> i < m).
    { intros k i. inversion M; subst; cbn; try (intros Hi; apply (w_lt H) in Hi; lia).
      intros [E|Hi]; [injection E as <- <-; lia|]. apply (w_lt H) in Hi. lia. }
    assert (HFN : forall k k' i, In (k, i) (opt_cons p own) -> In (k', i) (opt_cons p own) -> k = k').
    { intros k k' i. inversion M; subst; cbn; try (intros; eapply (w_fun H); eassumption).
      intros [E|Hi] [E1|Hj]; try congruence.
      - injection E as <- <-. apply (w_lt H) in Hj. lia.
      - injection E1 as <- <-. apply (w_lt H) in Hi. lia.
      - eapply (w_fun H); eassumption. }
    assert (HP : forall k i, in_pend a k = Some i -> i < n).
    { intros k i Hi. apply (w_lt H) with k. apply (w_pend H), Hi. }
    assert (HD : forall i, In i (doomed a) -> i < n).
    { intros i Hi. destruct (w_doom H _ Hi) as (k & Hk). apply (w_lt H _ _ Hk). }
    assert (HR : forall k i, in_ready a k = Some i -> i < n).
    { intros k i Hi. apply (w_lt H) with k. apply (w_ready H), Hi. }
    inversion M as [? ? k ? L|? ? k ? L|? ? ? ? ? L S|? ? k i e ? L Hp|? ? k ? v ? ? L C|? ? k r ? j ? ? L C|? ? ? L]; subst.
    - constructor; auto; cbn.
      + intros k' i Hi. right. apply (w_ready H), Hi.
      + intros k' i Hi. puts; [left; reflexivity|right; apply (w_pend H), Hi].
      + intros i Hi. puts; [eexists; right; apply (w_pend H); eassumption|].
        destruct (w_doom H _ Hi) as (k' & Hk). eauto.
      + intros k' i j Hi Hj. puts; [eauto|eapply (w_ord H); eauto].
      + destruct (in_pend a k) as [o|] eqn:E; cbn; [|apply (w_dnd H)].
        constructor; [|apply (w_dnd H)]. intros C. eapply (w_dp H); eassumption.
      + intros k' i Hi Hj. puts; [eauto|eapply (w_dr H); eauto].
      + intros k' i Hi Hj. puts.
        * assert (A := HP _ _ Heqo). lia.
        * apply HD in Hi. lia.
        * assert (E := Xp _ _ _ Heqo Hj). congruence.
        * eapply (w_dp H); eauto.
    - constructor; auto; cbn.
      + intros k' i Hi. puts. apply (w_ready H), Hi.
      + intros k' i Hi. puts. apply (w_pend H), Hi.
      + intros i Hi. puts; [eexists; apply (w_pend H); eassumption|]. apply (w_doom H _ Hi).
      + intros k' i j Hi Hj. puts. eapply (w_ord H); eauto.
      + destruct (in_pend a k) as [o|] eqn:E; cbn; [|apply (w_dnd H)].
        constructor; [|apply (w_dnd H)]. intros C. eapply (w_dp H); eassumption.
      + intros k' i Hi Hj. puts; [eauto|eapply (w_dr H); eauto].
      + intros k' i Hi Hj. puts.
        * assert (E := Xp _ _ _ Heqo Hj). congruence.
        * eapply (w_dp H); eauto.
    - inversion S as [? k i Hp|? k i Hp|? i l1 l2 E]; subst.
      + apply (WF_le L H).
      + constructor; auto; cbn.
        * intros k' j Hj. puts; [apply (w_pend H), Hp|apply (w_ready H), Hj].
        * intros k' j Hj. puts. apply (w_pend H), Hj.
        * apply (w_doom H).
        * intros k' j j' Hj Hj'. puts; try congruence; eapply (w_ord H); eauto.
        * apply (w_dnd H).
        * intros k' j Hj Hk. puts; [eapply (w_dp H); eauto|eapply (w_dr H); eauto].
        * intros k' j Hj Hk. puts. eapply (w_dp H); eauto.
      + assert (U : forall j, In j (l1 ++ l2) -> In j (doomed a)).
        { intros j. rewrite E, !in_app_iff. cbn. tauto. }
        constructor; auto; cbn; try apply H.
        * intros j Hj. apply (w_doom H). auto.
        * assert (D := w_dnd H). rewrite E in D. apply NoDup_remove_1 in D. exact D.
        * intros k' j Hj. apply (w_dr H). auto.
        * intros k' j Hj. apply (w_dp H). auto.
    - constructor; auto; cbn; try apply H.
      + intros k' j Hj. puts. apply (w_pend H), Hj.
      + intros k' j j' Hj Hj'. puts. eapply (w_ord H); eauto.
      + intros k' j Hj Hk. puts. eapply (w_dp H); eauto.
    - assert (REM : forall i, in_ready a k = Some i ->
        WF (Slots (put keq k None (in_ready a)) (in_pend a) (doomed a)) m own).
      { intros i Hi. constructor; auto; cbn; try apply H.
        + intros k' j Hj. puts. apply (w_ready H), Hj.
        + intros k' j j' Hj Hj'. puts. eapply (w_ord H); eauto.
        + intros k' j Hj Hk. puts. eapply (w_dr H); eauto. }
      assert (ASIDE : forall i, in_ready a k = Some i -> WF (set_aside keq k i a) m own).
      { intros i Hi. unfold set_aside. destruct (in_pend a k) eqn:Ep; [apply (REM _ Hi)|].
        constructor; auto; cbn; try apply H.
        + intros k' j Hj. puts. apply (w_ready H), Hj.
        + intros k' j Hj. puts; [apply (w_ready H), Hi|apply (w_pend H), Hj].
        + intros k' j j' Hj Hj'. puts; try congruence; eapply (w_ord H); eauto.
        + intros k' j Hj Hk. puts. eapply (w_dr H); eauto.
        + intros k' j Hj Hk. puts; [eapply (w_dr H); eauto|eapply (w_dp H); eauto]. }
      inversion C; subst; eauto using WF_le.
    - inversion C; subst.
      unfold set_aside. destruct (in_pend a k) eqn:Ep.
      + constructor; auto; cbn; try apply H.
        * intros k' q Hj. puts. apply (w_ready H), Hj.
        * intros k' q j' Hj Hj'. puts. eapply (w_ord H); eauto.
        * intros k' q Hj Hk. puts. eapply (w_dr H); eauto.
      + constructor; auto; cbn; try apply H.
        * intros k' q Hj. puts. apply (w_ready H), Hj.
        * intros k' q Hj. puts; [apply (w_ready H); eassumption|apply (w_pend H), Hj].
        * intros k' q j' Hj Hj'. puts; try congruence; eapply (w_ord H); eauto.
        * intros k' q Hj Hk. puts. eapply (w_dr H); eauto.
        * intros k' q Hj Hk. puts; [eapply (w_dr H); eauto|eapply (w_dp H); eauto].
    - apply (WF_le L H).
  Qed.

  Inductive mvs : slots K -> nat -> list ev -> list (K * nat) -> slots K -> nat -> Prop :=
  | mvs_nil a n n1 : n <= n1 -> mvs a n [] [] a n1
  | mvs_cons a n l p b m l' ps c q :
      mv a n l p b m -> mvs b m l' ps c q -> mvs a n (l ++ l') (ps ++ opt_list p) c q.

  Lemma mv_le a n l p b m : mv a n l p b m -> n <= m.
  Proof. inversion 1; lia. Qed.
  Lemma mvs_le a n l p b m : mvs a n l p b m -> n <= m.
  Proof. induction 1 as [|? ? ? ? ? ? ? ? ? ? H _ IH]; [assumption|]. apply mv_le in H. lia. Qed.
  Lemma mvs_pre a n n1 l p b m : n <= n1 -> mvs a n1 l p b m -> mvs a n l p b m.
  Proof.
    intros L H. change l with ([] ++ l). replace p with (p ++ opt_list (@None (K * nat))) by apply app_nil_r.
    econstructor; [apply mv_idle; exact L|exact H].
  Qed.
  Lemma mvs_app a n l p b m l' p' c q : mvs a n l p b m -> mvs b m l' p' c q -> mvs a n (l ++ l') (p' ++ p) c q.
  Proof.
    induction 1 as [? ? ? L|? ? ? ? ? ? ? ? ? ? H _ IH]; intros H2.
    - cbn. rewrite app_nil_r. eapply mvs_pre; eauto.
    - rewrite <- (app_assoc l), (app_assoc p'). econstructor; eauto.
  Qed.
  Lemma mvs_one a n l p b m : mv a n l p b m -> mvs a n l (opt_list p) b m.
  Proof.
    intros H. rewrite <- (app_nil_r l). change (opt_list p) with ([] ++ opt_list p).
    econstructor; [exact H|]. constructor. lia.
  Qed.

  Lemma opt_cons_list A (o : option A) l : opt_cons o l = opt_list o ++ l.
  Proof. destruct o; reflexivity. Qed.

  Lemma WF_mvs a n l ps b m own : mvs a n l ps b m -> WF a n own -> WF b m (ps ++ own).
  Proof.
    intros H. revert own. induction H as [? ? ? L|? ? ? ? ? ? ? ? ? ? H _ IH]; intros own HW.
    - apply (WF_le L HW).
    - rewrite <- app_assoc, <- opt_cons_list. apply IH. eapply WF_mv; eauto.
  Qed.

  (** Splitting a run of steps at an event. *)
  Lemma mvs_split a n l ps c q : mvs a n l ps c q -> forall l1 e l2, l = l1 ++ e :: l2 ->
    exists lx psx a' n' ly lz p b' m' lw psw,
      mvs a n lx psx a' n' /\ mv a' n' (ly ++ e :: lz) p b' m' /\ mvs b' m' lw psw c q /\
      l1 = lx ++ ly /\ l2 = lz ++ lw /\ ps = psw ++ opt_list p ++ psx.
  Proof.
    induction 1 as [? ? ? L|a n l p b m l' ps c q H H2 IH]; intros l1 e l2 E.
    { destruct l1; discriminate. }
    assert (X : (exists lz, l = l1 ++ e :: lz /\ l2 = lz ++ l') \/ (exists u, l1 = l ++ u /\ l' = u ++ e :: l2)).
    { clear - E. revert l1 E. induction l as [|x l IHl]; intros l1 E; cbn in E.
      - right. exists l1. auto.
      - destruct l1 as [|y l1]; cbn in E.
        + injection E as -> <-. left. exists l. auto.
        + injection E as -> E. destruct (IHl _ E) as [(lz & -> & ->)|(u & -> & ->)]; [left; exists lz; auto|right; exists u; auto]. }
    destruct X as [(lz & -> & ->)|(u & -> & ->)].
    - exists [], [], a, n, l1, lz, p, b, m, l', ps.
      split; [constructor; lia|]. rewrite app_nil_r. auto.
    - destruct (IH _ _ _ eq_refl) as (lx & psx & a' & n' & ly & lz & p' & b' & m' & lw & psw & A & B & C & -> & -> & ->).
      exists (l ++ lx), (psx ++ opt_list p), a', n', ly, lz, p', b', m', lw, psw.
      split; [econstructor; eauto|]. rewrite !app_assoc. auto.
  Qed.

  (** Events are about services in some slot, and services only enter by being pushed. *)
  Lemma about_slot a n l p b m : mv a n l p b m -> forall e i, In e l -> about i e = true -> at_slot a i.
  Proof.
    assert (U : forall j i x, about i (TReady j x) = true -> j = i).
    { intros j i x. unfold about. cbn. rewrite orb_false_r. apply Nat.eqb_eq. }
    assert (U2 : forall j i r q, about i (TCall j r q) = true -> j = i).
    { intros j i r q. unfold about. cbn. rewrite orb_false_r. apply Nat.eqb_eq. }
    assert (U3 : forall j i, about i (TDropSvc j) = true -> j = i).
    { intros j i. unfold about. cbn. apply Nat.eqb_eq. }
    intros M e i Hin Ha.
    inversion M as [? ? k ? L|? ? k ? L|? ? ? ? ? L S|? ? k i0 x ? L Hp|? ? k ? v ? ? L C|? ? k r ? j ? ? L C|? ? ? L]; subst;
      cbn in Hin; try contradiction.
    - destruct (in_ready a k) as [j|] eqn:E; cbn in Hin; [|contradiction]. destruct Hin as [<-|[]].
      apply U3 in Ha. subst. left. eauto.
    - inversion S as [? k j Hp|? k j Hp|? j l1 l2 E]; subst; cbn in Hin.
      + destruct Hin as [<-|[]]. apply U in Ha. subst. right. left. eauto.
      + destruct Hin as [<-|Hin].
        * apply U in Ha. subst. right. left. eauto.
        * destruct (in_ready a k) as [j'|] eqn:E; cbn in Hin; [|contradiction]. destruct Hin as [<-|[]].
          apply U3 in Ha. subst. left. eauto.
      + destruct Hin as [<-|[]]. apply U3 in Ha. subst. right. right. rewrite E. apply in_or_app. right. left. reflexivity.
    - destruct Hin as [<-|[<-|[]]]; [apply U in Ha|apply U3 in Ha]; subst; right; left; eauto.
    - assert (X : exists j, in_ready a k = Some j /\ j = i).
      { inversion C; subst; cbn in Hin; try contradiction.
        - destruct Hin as [<-|[]]. apply U in Ha. eauto.
        - destruct Hin as [<-|Hin]; [apply U in Ha; eauto|].
          unfold dropped_aside in Hin. destruct (in_pend a k); [|contradiction]. destruct Hin as [<-|[]].
          apply U3 in Ha. eauto.
        - destruct Hin as [<-|[<-|[]]]; [apply U in Ha|apply U3 in Ha]; eauto. }
      destruct X as (j & X & ->). left. eauto.
    - inversion C; subst. assert (i0 = i); [|subst; left; eauto].
      destruct Hin as [<-|Hin]; [apply U2 in Ha; exact Ha|].
      unfold dropped_aside in Hin. destruct (in_pend a k); [|contradiction]. destruct Hin as [<-|[]].
      apply U3 in Ha. exact Ha.
  Qed.
  Lemma uses_about i (e : ev) : uses i e = true -> about i e = true.
  Proof. intros H. unfold about. rewrite H. reflexivity. Qed.

  Lemma slot_back a n l p b m i own : mv a n l p b m -> WF a n own -> i < n -> at_slot b i -> at_slot a i.
  Proof.
    intros M H Hi Hs.
    inversion M as [? ? k ? L|? ? k ? L|? ? ? ? ? L S|? ? k i0 x ? L Hp|? ? k ? v ? ? L C|? ? k r ? j ? ? L C|? ? ? L]; subst.
    - unfold at_slot, pushed in *; cbn in *. destruct Hs as [Hs|[(k' & Hs)|Hs]]; [tauto| |].
      + puts; [lia|eauto].
      + puts; eauto.
    - unfold at_slot, evicted in *; cbn in *. destruct Hs as [(k' & Hs)|[(k' & Hs)|Hs]]; puts; eauto.
    - inversion S; subst; auto.
      + unfold at_slot, promoted in *; cbn in *. destruct Hs as [(k' & Hs)|[(k' & Hs)|Hs]]; puts; eauto.
      + unfold at_slot in *; cbn in *. destruct Hs as [Hs|[Hs|Hs]]; auto. right. right.
        rewrite H0. apply in_app_or in Hs. apply in_or_app. cbn. tauto.
    - unfold at_slot in *; cbn in *. destruct Hs as [(k' & Hs)|[(k' & Hs)|Hs]]; puts; eauto.
    - inversion C; subst; auto.
      + unfold at_slot, set_aside in *; cbn in *.
        destruct Hs as [(k' & Hs)|[(k' & Hs)|Hs]]; puts; eauto.
        destruct (in_pend a k); puts; eauto.
      + unfold at_slot in *; cbn in *. destruct Hs as [(k' & Hs)|[(k' & Hs)|Hs]]; puts; eauto.
    - inversion C; subst.
      unfold at_slot, set_aside in *; cbn in *.
      destruct Hs as [(k' & Hs)|[(k' & Hs)|Hs]]; puts; eauto.
      destruct (in_pend a k); puts; eauto.
    - exact Hs.
  Qed.

  (** A service in no slot stays out, for ever. *)
  Lemma gone_for_ever a n l ps b m i own :
    mvs a n l ps b m -> WF a n own -> i < n -> ~ at_slot a i ->
    ~ at_slot b i /\ forall e, In e l -> about i e = false.
  Proof.
    intros H. revert own. induction H as [? ? ? L|? ? ? ? ? ? ? ? ? ? H _ IH]; intros own HW Hi Hs.
    - split; [exact Hs|]. intros e [].
    - assert (HW' := WF_mv H HW). assert (L := mv_le H).
      assert (Hb : ~ at_slot b i) by (intros C; apply Hs; eapply slot_back; eauto).
      destruct (IH _ HW') as [A B]; [lia|exact Hb|]. split; [exact A|].
      intros e He. apply in_app_or in He as [He|He]; [|auto].
      destruct (about i e) eqn:E; [|reflexivity]. exfalso. apply Hs. eapply about_slot; eauto.
  Qed.

  (** ** Only new services at a key *)
  Definition above (k : K) (th : nat) (a : slots K) : Prop :=
    forall i, in_ready a k = Some i \/ in_pend a k = Some i -> th <= i.

  Lemma above_mv a n l p b m own k th :
    mv a n l p b m -> WF a n own -> th <= n -> above k th a -> above k th b.
  Proof.
    intros M H Ht Ha i Hi.
    inversion M as [? ? k0 ? L|? ? k0 ? L|? ? ? ? ? L S|? ? k0 i0 x ? L Hp|? ? k0 ? v ? ? L C|? ? k0 r ? j ? ? L C|? ? ? L]; subst.
    - cbn in Hi. destruct Hi as [Hi|Hi]; puts; auto.
    - cbn in Hi. destruct Hi as [Hi|Hi]; puts; auto.
    - inversion S; subst; auto. cbn in Hi. destruct Hi as [Hi|Hi]; puts; auto.
    - cbn in Hi. destruct Hi as [Hi|Hi]; puts; auto.
    - inversion C; subst; auto; unfold set_aside in Hi; cbn in Hi.
      + destruct Hi as [Hi|Hi]; puts; auto. destruct (in_pend a k0); puts; auto.
      + destruct Hi as [Hi|Hi]; puts; auto.
    - inversion C; subst; auto; unfold set_aside in Hi; cbn in Hi.
      destruct Hi as [Hi|Hi]; puts; auto. destruct (in_pend a k0); puts; auto.
    - auto.
  Qed.

  (** Which slot a used service is in. *)
  Lemma use_slot a n l p b m : mv a n l p b m -> forall e i, In e l -> uses i e = true ->
    exists k, in_ready a k = Some i \/ in_pend a k = Some i.
  Proof.
    intros M e i Hin Ha.
    assert (U : forall j x, @uses Req Resp Err i (TReady j x) = true -> j = i).
    { intros j x. apply Nat.eqb_eq. }
    assert (U2 : forall j r q, @uses Req Resp Err i (TCall j r q) = true -> j = i).
    { intros j r q. apply Nat.eqb_eq. }
    assert (D : forall o : option nat, In e (map TDropSvc (opt_list o)) -> False).
    { intros [o|]; cbn; [intros [<-|[]]; discriminate|tauto]. }
    assert (D2 : forall k j, In e (dropped_aside idj k j a) -> False).
    { intros k j. unfold dropped_aside. destruct (in_pend a k); cbn; [intros [<-|[]]; discriminate|tauto]. }
    inversion M as [? ? k ? L|? ? k ? L|? ? ? ? ? L S|? ? k i0 x ? L Hp|? ? k ? v ? ? L C|? ? k r ? j ? ? L C|? ? ? L]; subst;
      cbn in Hin; try contradiction.
    - exfalso; eauto.
    - inversion S as [? k j Hp|? k j Hp|? j l1 l2 E]; subst; cbn in Hin.
      + destruct Hin as [<-|[]]. apply U in Ha. subst. eauto.
      + destruct Hin as [<-|Hin]; [|exfalso; eauto]. apply U in Ha. subst. eauto.
      + destruct Hin as [<-|[]]. discriminate.
    - destruct Hin as [<-|[<-|[]]]; [apply U in Ha|discriminate]; subst; eauto.
    - inversion C; subst; cbn in Hin; try contradiction.
      + destruct Hin as [<-|[]]. apply U in Ha. subst. eauto.
      + destruct Hin as [<-|Hin]; [apply U in Ha; subst; eauto|exfalso; eauto].
      + destruct Hin as [<-|[<-|[]]]; [apply U in Ha; subst; eauto|discriminate].
    - inversion C; subst. destruct Hin as [<-|Hin]; [apply U2 in Ha; subst; eauto|exfalso; eauto].
  Qed.

  Lemma above_for_ever a n l ps b m own k th i :
    mvs a n l ps b m -> WF a n own -> th <= n -> above k th a -> In (k, i) own -> i < th ->
    forall e, In e l -> uses i e = false.
  Proof.
    intros H. revert own. induction H as [? ? ? L|? ? ? ? ? ? ? ? ? ? H _ IH]; intros own HW Ht Ha Ho Hi e He; [destruct He|].
    apply in_app_or in He as [He|He].
    - destruct (uses i e) eqn:E; [|reflexivity]. exfalso.
      destruct (use_slot H e i He E) as (k' & Hk).
      assert (k' = k) as ->.
      { destruct Hk as [Hk|Hk]; [apply (w_ready HW) in Hk|apply (w_pend HW) in Hk]; eapply (w_fun HW); eauto. }
      apply Ha in Hk. lia.
    - assert (L := mv_le H).
      eapply (IH _ (WF_mv H HW)); eauto; [lia|eapply above_mv; eauto|].
      destruct p; cbn; auto.
  Qed.

  (** A service in neither the ready nor the pending set is never used again. *)
  Lemma never_slot a n l ps b m own i :
    mvs a n l ps b m -> WF a n own -> i < n ->
    (forall k, in_ready a k <> Some i /\ in_pend a k <> Some i) ->
    forall e, In e l -> uses i e = false.
  Proof.
    intros H. revert own. induction H as [? ? ? L|? ? ? ? ? ? ? ? ? ? H _ IH]; intros own HW Hi Hs e He; [destruct He|].
    apply in_app_or in He as [He|He].
    - destruct (uses i e) eqn:E; [|reflexivity]. exfalso.
      destruct (use_slot H e i He E) as (k & [Hk|Hk]); destruct (Hs k); auto.
    - assert (L := mv_le H). eapply (IH _ (WF_mv H HW)); eauto; [lia|].
      clear - H HW Hi Hs. intros k.
      assert (Hr := fun k => proj1 (Hs k)). assert (Hp := fun k => proj2 (Hs k)). clear Hs.
      inversion H as [? ? k0 ? L|? ? k0 ? L|? ? ? ? ? L S|? ? k0 i0 x ? L Hp0|? ? k0 ? v ? ? L C|? ? k0 r0 ? j0 ? ? L C|? ? ? L]; subst.
      + split; intros C; cbn in C; puts; try lia; solve [eapply Hr; eauto|eapply Hp; eauto].
      + split; intros C; cbn in C; puts; solve [eapply Hr; eauto|eapply Hp; eauto].
      + inversion S; subst; auto; split; intros C; cbn in C; puts; solve [eapply Hr; eauto|eapply Hp; eauto].
      + split; intros C; cbn in C; puts; solve [eapply Hr; eauto|eapply Hp; eauto].
      + inversion C; subst; auto; (split; intros D; unfold set_aside in D; cbn in D; puts; try solve [eapply Hr; eauto|eapply Hp; eauto]).
        destruct (in_pend a k0); puts; solve [eapply Hr; eauto|eapply Hp; eauto].
      + inversion C; subst; auto; (split; intros D; unfold set_aside in D; cbn in D; puts; try solve [eapply Hr; eauto|eapply Hp; eauto]).
        destruct (in_pend a k0); puts; solve [eapply Hr; eauto|eapply Hp; eauto].
      + auto.
  Qed.

  Lemma evict_above a n k : above k n (evicted keq k a).
  Proof. intros i [Hi|Hi]; cbn in Hi; puts; congruence. Qed.

  (** A step with a use in it. *)
  Lemma use_first a n ly e lz p b m i : mv a n (ly ++ e :: lz) p b m -> uses i e = true ->
    ly = [] /\ forall f j, In f lz -> uses j f = false.
  Proof.
    intros M Hu.
    assert (D : forall (o : option nat) f j, In f (map TDropSvc (opt_list o)) -> @uses Req Resp Err j f = false).
    { intros [o|] f j; cbn; [intros [<-|[]]; reflexivity|tauto]. }
    assert (D2 : forall k j f q, In f (dropped_aside idj k j a) -> @uses Req Resp Err q f = false).
    { intros k j f q. unfold dropped_aside. destruct (in_pend a k); cbn; [intros [<-|[]]; reflexivity|tauto]. }
    assert (G : forall x t, ly ++ e :: lz = x :: t -> (forall f j, In f t -> uses j f = false) ->
              ly = [] /\ forall f j, In f lz -> uses j f = false).
    { intros x t E Hf. destruct ly as [|y ly]; cbn in E; injection E as <- <-.
      - split; [reflexivity|exact Hf].
      - exfalso. rewrite (Hf e i) in Hu; [discriminate|]. apply in_or_app. right. left. reflexivity. }
    inversion M as [? ? k ? L|? ? k ? L|? ? ? ? ? L S|? ? k i0 x ? L Hp|? ? k ? v ? ? L C|? ? k r ? j ? ? L C|? ? ? L]; subst;
      try (destruct ly; discriminate).
    - exfalso. assert (X : In e (map TDropSvc (opt_list (in_ready a k)))).
      { match goal with E : map TDropSvc _ = _ |- _ => rewrite E end. apply in_or_app. right. left. reflexivity. }
      rewrite (D _ _ i X) in Hu. discriminate.
    - inversion S; subst.
      + eapply G; [symmetry; eassumption|]. intros f j [].
      + eapply G; [symmetry; eassumption|]. apply D.
      + eapply G; [symmetry; eassumption|]. intros f j [].
    - eapply G; [symmetry; eassumption|]. intros f j [<-|[]]. reflexivity.
    - inversion C; subst; try (destruct ly; discriminate); (eapply G; [symmetry; eassumption|]).
      + intros f j [].
      + intros f j Hf. eapply D2; eauto.
      + intros f j [<-|[]]. reflexivity.
    - inversion C; subst. eapply G; [symmetry; eassumption|]. intros f q Hf. eapply D2; eauto.
  Qed.

  (** Once a service has become ready, there are only newer ones besides it. *)
  Lemma ready_above a n ly lz p b m own k i :
    mv a n (ly ++ TReady i (Ready (Ok tt)) :: lz) p b m -> WF a n own -> In (k, i) own -> above k i b.
  Proof.
    intros M HW Ho.
    assert (Hl : ly = []).
    { eapply use_first; [exact M|]. cbn. apply Nat.eqb_refl. } subst ly. cbn in M.
    inversion M as [? ? k0 ? L|? ? k0 ? L|? ? ? ? ? L S|? ? k0 i0 x ? L Hp|? ? k0 ? v ? ? L C|? ? k0 r ? j ? ? L C|? ? ? L]; subst;
      try discriminate.
    - destruct (in_ready a k0); discriminate.
    - inversion S; subst; try discriminate.
      assert (k0 = k) as -> by (eapply (w_fun HW); [apply (w_pend HW); eassumption|exact Ho]).
      intros j [Hj|Hj]; cbn in Hj; puts; try congruence; auto.
    - inversion C; subst; try discriminate.
      assert (k0 = k) as -> by (eapply (w_fun HW); [apply (w_ready HW); eassumption|exact Ho]).
      intros j [Hj|Hj].
      + replace j with i by congruence. auto.
      + apply Nat.lt_le_incl. eapply (w_ord HW); eauto.
    - inversion C; discriminate.
  Qed.

  (** A newer service is waiting, or only such are left. *)
  Definition superseded (k : K) (th : nat) (a : slots K) : Prop :=
    above k th a \/ exists j, th <= j /\ in_pend a k = Some j.

  Lemma superseded_mv a n l p b m own k th :
    mv a n l p b m -> WF a n own -> th <= n -> superseded k th a ->
    superseded k th b \/ exists j e, th <= j /\ In (k, j) own /\ In (TReady j (Ready (Er e))) l.
  Proof.
    intros M HW Ht [Ha|(j & Hj & Hp)].
    { left. left. eapply above_mv; eauto. }
    inversion M as [? ? k0 ? L|? ? k0 ? L|? ? ? ? ? L S|? ? k0 i0 x ? L Hp0|? ? k0 ? v ? ? L C|? ? k0 r ? j0 ? ? L C|? ? ? L]; subst.
    - left. destruct (keq k k0) as [->|Hk].
      + right. exists n. cbn. rewrite put_same. auto.
      + right. exists j. cbn. rewrite put_other by exact Hk. auto.
    - left. destruct (keq k k0) as [->|Hk].
      + left. intros i Hi. apply (@evict_above a n k0) in Hi. lia.
      + right. exists j. cbn. rewrite put_other by exact Hk. auto.
    - inversion S; subst; left; try (right; eauto; fail).
      destruct (keq k k0) as [->|Hk].
      + left. intros j' [Hi|Hi]; cbn in Hi; puts; try congruence.
      + right. exists j. cbn. rewrite put_other by exact Hk. auto.
    - destruct (keq k k0) as [->|Hk].
      + right. exists j, x. split; [exact Hj|]. split; [apply (w_pend HW), Hp|]. left. congruence.
      + left. right. exists j. cbn. rewrite put_other by exact Hk. auto.
    - left. right. exists j. split; [exact Hj|]. inversion C; subst; auto. unfold set_aside. cbn.
      destruct (in_pend a k0) eqn:E; [exact Hp|]. rewrite put_other; [exact Hp|congruence].
    - left. right. exists j. split; [exact Hj|]. inversion C; subst; auto. unfold set_aside. cbn.
      destruct (in_pend a k0) eqn:E; [exact Hp|]. rewrite put_other; [exact Hp|congruence].
    - left. right. eauto.
  Qed.

  Lemma superseded_mvs a n l ps b m own k th :
    mvs a n l ps b m -> WF a n own -> th <= n -> superseded k th a ->
    superseded k th b \/ exists j e, th <= j /\ In (k, j) (ps ++ own) /\ In (TReady j (Ready (Er e))) l.
  Proof.
    intros H. revert own. induction H as [? ? ? L|? ? ? ? ? ? ? ? ? ? H _ IH]; intros own HW Ht Hs; [auto|].
    assert (L := mv_le H). destruct (superseded_mv H HW Ht Hs) as [Hs'|(j & e & A & B & C)].
    - destruct (IH _ (WF_mv H HW)) as [X|(j & e & A & B & C)]; [lia|exact Hs'|auto|].
      right. exists j, e. split; [exact A|]. split; [|apply in_or_app; auto].
      rewrite opt_cons_list, app_assoc in B. exact B.
    - right. exists j, e. split; [exact A|]. split; [apply in_or_app; auto|apply in_or_app; auto].
  Qed.

  Lemma pushed_superseded a n l ps b m own k i :
    mvs a n l ps b m -> WF a n own -> In (k, i) ps ->
    superseded k i b \/ exists j e, i <= j /\ In (k, j) (ps ++ own) /\ In (TReady j (Ready (Er e))) l.
  Proof.
    intros H. revert own. induction H as [? ? ? L|a n l p b m l' ps c q H H2 IH]; intros own HW Hi; [destruct Hi|].
    assert (HW' := WF_mv H HW). rewrite opt_cons_list in HW'. apply in_app_or in Hi as [Hi|Hi].
    - destruct (IH _ HW' Hi) as [X|(j & e & A & B & C)]; [auto|].
      right. exists j, e. rewrite <- app_assoc. split; [exact A|]. split; [exact B|apply in_or_app; auto].
    - destruct p as [[k1 j1]|]; [|contradiction]. destruct Hi as [E|[]]. injection E as -> ->.
      assert (S : superseded k i b /\ i <= m).
      { inversion H; subst. split; [|lia]. right. exists i. cbn. rewrite put_same. auto. }
      destruct (superseded_mvs H2 HW' (proj2 S) (proj1 S)) as [X|(j & e & A & B & C)]; [auto|].
      right. exists j, e. rewrite <- app_assoc. split; [exact A|]. split; [exact B|apply in_or_app; auto].
  Qed.

  Lemma call_above a n ly lz p b m own k i r j th :
    mv a n (ly ++ TCall i r j :: lz) p b m -> WF a n own -> In (k, i) own -> i < th -> superseded k th a ->
    above k th b.
  Proof.
    intros M HW Ho Hi Hs.
    assert (Hl : ly = []).
    { eapply use_first; [exact M|]. cbn. apply Nat.eqb_refl. } subst ly. cbn in M.
    inversion M as [? ? k0 ? L|? ? k0 ? L|? ? ? ? ? L S|? ? k0 i0 x ? L Hp|? ? k0 ? v ? ? L C|? ? k0 r0 ? j0 ? ? L C|? ? ? L]; subst;
      try discriminate.
    - destruct (in_ready a k0); discriminate.
    - inversion S; discriminate.
    - inversion C; discriminate.
    - inversion C; subst.
      assert (k0 = k) as -> by (eapply (w_fun HW); [apply (w_ready HW); eassumption|exact Ho]).
      destruct Hs as [Hs|(q & Hq & Hp)].
      + exfalso. match goal with HR : in_ready a k = Some i |- _ => assert (X := Hs _ (or_introl HR)) end. lia.
      + intros q' [Hj|Hj]; unfold set_aside in Hj; cbn in Hj; rewrite ?Hp in Hj; puts; congruence || auto.
  Qed.

  (** ** Readiness *)
  Definition nows (a : slots K) (l : list ev) : Prop := forall k i, in_ready a k = Some i -> ready_now i l = true.

  Lemma ready_now_skip i (l : list ev) l' : (forall e, In e l -> uses i e = false) -> ready_now i (l ++ l') = ready_now i l'.
  Proof.
    induction l as [|e l IH]; intros H; [reflexivity|]. cbn.
    assert (He := H e (or_introl eq_refl)). assert (IH' := IH (fun e' He' => H e' (or_intror He'))).
    destruct e; cbn in He; rewrite ?He; auto.
  Qed.

  Lemma nows_mv a n l p b m own lg : mv a n l p b m -> WF a n own -> nows a lg -> nows b (rev l ++ lg).
  Proof.
    intros M HW H k i Hk.
    assert (SK : in_ready a k = Some i -> (forall e, In e l -> uses i e = false) -> ready_now i (rev l ++ lg) = true).
    { intros A B. rewrite ready_now_skip; [eapply H; eauto|]. intros e He. apply B, in_rev, He. }
    assert (D : forall (o : option nat) e, In e (map TDropSvc (opt_list o)) -> @uses Req Resp Err i e = false).
    { intros [o|] e; cbn; [intros [<-|[]]; reflexivity|tauto]. }
    assert (D2 : forall k j e, In e (dropped_aside idj k j a) -> @uses Req Resp Err i e = false).
    { intros k0 j e. unfold dropped_aside. destruct (in_pend a k0); cbn; [intros [<-|[]]; reflexivity|tauto]. }
    assert (NP : forall k' j, in_ready a k = Some i -> in_pend a k' = Some j -> (j =? i) = false).
    { intros k' j A B. apply Nat.eqb_neq. intros ->. eapply WF_rp; eauto. }
    assert (NR : forall k' j, k <> k' -> in_ready a k = Some i -> in_ready a k' = Some j -> (j =? i) = false).
    { intros k' j A B C. apply Nat.eqb_neq. intros ->. apply A. eapply WF_rr; eauto. }
    inversion M as [? ? k0 ? L|? ? k0 ? L|? ? ? ? ? L S|? ? k0 i0 x ? L Hp|? ? k0 ? v ? ? L C|? ? k0 r0 ? j0 ? ? L C|? ? ? L]; subst.
    - apply SK; [exact Hk|]. intros e [].
    - cbn in Hk. puts. apply SK; [exact Hk|]. apply D.
    - inversion S as [? k1 j Hp|? k1 j Hp|? j l1 l2 E]; subst.
      + apply SK; [exact Hk|]. intros e [<-|[]]. cbn. eauto.
      + cbn in Hk. puts.
        * cbn [rev]. rewrite <- app_assoc, ready_now_skip.
          -- cbn. rewrite Nat.eqb_refl. reflexivity.
          -- intros e He. apply in_rev in He. eapply D; eauto.
        * apply SK; [exact Hk|]. intros e [<-|He]; [cbn; eauto|eapply D; eauto].
      + apply SK; [exact Hk|]. intros e [<-|[]]. reflexivity.
    - cbn in Hk. apply SK; [exact Hk|]. intros e [<-|[<-|[]]]; cbn; eauto.
    - inversion C; subst.
      + apply SK; [exact Hk|]. intros e [].
      + destruct (keq k k0) as [->|Hn].
        * replace i0 with i by congruence. cbn. rewrite Nat.eqb_refl. reflexivity.
        * apply SK; [exact Hk|]. intros e [<-|[]]. cbn. eauto.
      + unfold set_aside in Hk. cbn in Hk. puts. apply SK; [exact Hk|].
        intros e [<-|He]; [cbn; eauto|eapply D2; eauto].
      + cbn in Hk. puts. apply SK; [exact Hk|]. intros e0 [<-|[<-|[]]]; cbn; eauto.
    - inversion C; subst. unfold set_aside in Hk. cbn in Hk. puts. apply SK; [exact Hk|].
      intros e [<-|He]; [cbn; eauto|eapply D2; eauto].
    - apply SK; [exact Hk|]. intros e [].
  Qed.

  Lemma nows_mvs a n l ps b m own lg : mvs a n l ps b m -> WF a n own -> nows a lg -> nows b (rev l ++ lg).
  Proof.
    intros H. revert own lg. induction H as [? ? ? L|? ? ? ? ? ? ? ? ? ? H _ IH]; intros own lg HW Hn; [exact Hn|].
    rewrite rev_app_distr, <- app_assoc. eapply IH; [eapply WF_mv; eauto|]. eapply nows_mv; eauto.
  Qed.

  Lemma call_was_ready a n ly lz p b m i r j lg :
    mv a n (ly ++ TCall i r j :: lz) p b m -> nows a lg -> ready_now i (rev ly ++ lg) = true.
  Proof.
    intros M Hn.
    assert (Hl : ly = []).
    { eapply use_first; [exact M|]. cbn. apply Nat.eqb_refl. } subst ly. cbn in *.
    inversion M as [? ? k0 ? L|? ? k0 ? L|? ? ? ? ? L S|? ? k0 i0 x ? L Hp|? ? k0 ? v ? ? L C|? ? k0 r0 ? j0 ? ? L C|? ? ? L]; subst;
      try discriminate.
    - destruct (in_ready a k0); discriminate.
    - inversion S; discriminate.
    - inversion C; discriminate.
    - inversion C; subst. eapply Hn; eauto.
  Qed.

  Ltac clash := solve [eauto | exfalso; eauto | match goal with
    | HW : WF _ _ _ |- _ => solve [eapply (w_dr HW); eauto]
    | HW : WF _ _ _ |- _ => solve [eapply (w_dp HW); eauto]
    | N : ?x <> ?y |- _ => exfalso; apply N; eauto end].

  (** ** Dropping: never twice, never used afterwards *)
  Lemma dropped_out a n ly lz p b m own i :
    mv a n (ly ++ TDropSvc i :: lz) p b m -> WF a n own ->
    ~ at_slot b i /\ i < n /\ lz = [].
  Proof.
    intros M HW.
    assert (LT : at_slot a i -> i < n).
    { intros [(k & H)|[(k & H)|H]].
      - apply (w_lt HW) with k, (w_ready HW), H.
      - apply (w_lt HW) with k, (w_pend HW), H.
      - destruct (w_doom HW _ H) as (k & Hk). apply (w_lt HW _ _ Hk). }
    assert (HA : at_slot a i).
    { eapply about_slot; [exact M|apply in_or_app; right; left; reflexivity|].
      unfold about. cbn. apply Nat.eqb_refl. }
    assert (Xr := fun k k' i => @WF_rr a n own k k' i HW).
    assert (Xp := fun k k' i => @WF_pp a n own k k' i HW).
    assert (X := fun k k' i => @WF_rp a n own k k' i HW).
    assert (G1 : forall (o : option nat) x, ly ++ TDropSvc i :: lz = x ++ map TDropSvc (opt_list o) ->
              (forall j, ~ In (TDropSvc j) x) -> o = Some i /\ lz = []).
    { intros o x. revert ly M. clear. intros ly _. revert ly.
      induction x as [|y x IH]; intros ly E Hx; cbn in E.
      - destruct o as [o|]; cbn in E; [|destruct ly; discriminate].
        destruct ly as [|y ly]; cbn in E; [injection E as -> ->; auto|].
        injection E as _ E. destruct ly; discriminate.
      - destruct ly as [|z ly]; cbn in E.
        + injection E as <- _. exfalso. apply (Hx i). left. reflexivity.
        + injection E as -> E. apply (IH _ E). intros j Hj. apply (Hx j). right. exact Hj. }
    assert (AS : forall k j x, ly ++ TDropSvc i :: lz = x :: dropped_aside idj k j a -> (forall q, x <> TDropSvc q) ->
      in_ready a k = Some j -> ~ at_slot (set_aside keq k j a) i /\ lz = []).
    { intros k j x E Hx Hr. unfold dropped_aside, set_aside in *. destruct (in_pend a k) as [q|] eqn:Ep.
      - destruct (@G1 (Some j) [x]) as [Ej ->]; [rewrite E; reflexivity|intros w [Hw|[]]; apply (Hx w Hw)|].
        injection Ej as ->. split; [|reflexivity].
        intros [(k' & Hs)|[(k' & Hs)|Hs]]; cbn in Hs; puts; clash.
      - exfalso. destruct ly as [|y [|y2 ly]]; cbn in E; try discriminate.
        injection E as E. apply (Hx i). symmetry. exact E. }
    cut (~ at_slot b i /\ lz = []). { intros [A B]. auto. }
    inversion M as [? ? k0 ? L|? ? k0 ? L|? ? ? ? ? L S|? ? k0 i0 x ? L Hp|? ? k0 ? v ? ? L C|? ? k0 r0 ? j0 ? ? L C|? ? ? L]; subst;
      try (destruct ly; discriminate).
    - destruct (@G1 (in_ready a k0) []) as [Er ->]; [symmetry; assumption|intros j []|]. split; [|reflexivity].
      intros [(k' & Hs)|[(k' & Hs)|Hs]]; cbn in Hs; puts; clash.
    - inversion S as [? k1 j Hp|? k1 j Hp|? j l1 l2 E]; subst.
      + destruct ly as [|y [|y2 ly]]; discriminate.
      + destruct (@G1 (in_ready a k1) [TReady j (Ready (Ok tt))]) as [Er ->]; [symmetry; assumption|intros q [Hq|[]]; discriminate|].
        split; [|reflexivity].
        intros [(k' & Hs)|[(k' & Hs)|Hs]]; cbn in Hs; puts; clash.
      + destruct (@G1 (Some j) []) as [Er ->]; [symmetry; assumption|intros q []|]. injection Er as ->.
        split; [|reflexivity].
        assert (Hd : In i (doomed a)) by (rewrite E; apply in_or_app; right; left; reflexivity).
        intros [(k' & Hs)|[(k' & Hs)|Hs]]; cbn in Hs.
        * eapply (w_dr HW); eauto.
        * eapply (w_dp HW); eauto.
        * assert (N := w_dnd HW). rewrite E in N. apply NoDup_remove_2 in N. auto.
    - destruct (@G1 (Some i0) [TReady i0 (Ready (Er x))]) as [Er ->]; [symmetry; assumption|intros q [Hq|[]]; discriminate|].
      injection Er as ->. split; [|reflexivity].
      intros [(k' & Hs)|[(k' & Hs)|Hs]]; cbn in Hs; puts; clash.
    - inversion C; subst.
      + destruct ly; discriminate.
      + destruct ly as [|y [|y2 ly]]; discriminate.
      + eapply AS; [symmetry; eassumption|discriminate|assumption].
      + destruct (@G1 (Some i0) [TReady i0 (Ready (Er e))]) as [Er ->]; [symmetry; assumption|intros q [Hq|[]]; discriminate|].
        injection Er as ->. split; [|reflexivity].
        intros [(k' & Hs)|[(k' & Hs)|Hs]]; cbn in Hs; puts; clash.
    - inversion C; subst. eapply AS; [symmetry; eassumption|discriminate|assumption].
  Qed.

  (** A service that leaves its slots is dropped in that very step. *)
  Lemma leaves_dropped a n l p b m own i :
    mv a n l p b m -> WF a n own -> at_slot a i -> at_slot b i \/ In (TDropSvc i) l.
  Proof.
    intros M HW HA.
    assert (AS : forall k j x, in_ready a k = Some j -> at_slot (set_aside keq k j a) i \/ In (TDropSvc i) (x :: dropped_aside idj k j a)).
    { intros k j x Hr. unfold set_aside, dropped_aside, at_slot in *; cbn. destruct (in_pend a k) as [q|] eqn:Ep.
      - destruct HA as [(k' & H)|[H|H]]; auto.
        destruct (keq k' k) as [->|Hk].
        + right. right. left. congruence.
        + left. left. exists k'. rewrite put_other by exact Hk. exact H.
      - left. destruct HA as [(k' & H)|[(k' & H)|H]]; auto.
        + destruct (keq k' k) as [->|Hk].
          * right. left. exists k. rewrite put_same. congruence.
          * left. exists k'. rewrite put_other by exact Hk. exact H.
        + destruct (keq k' k) as [->|Hk]; [congruence|].
          right. left. exists k'. rewrite put_other by exact Hk. exact H. }
    inversion M as [? ? k0 ? L|? ? k0 ? L|? ? ? ? ? L S|? ? k0 i0 x ? L Hp|? ? k0 ? v ? ? L C|? ? k0 r0 ? j0 ? ? L C|? ? ? L]; subst.
    - left. destruct HA as [H|[(k' & H)|H]]; [left; exact H| |right; right; cbn; apply in_or_app; auto].
      destruct (keq k' k0) as [->|Hk].
      + right. right. cbn. rewrite H. left. reflexivity.
      + right. left. exists k'. cbn. rewrite put_other by exact Hk. exact H.
    - destruct HA as [(k' & H)|[(k' & H)|H]].
      + destruct (keq k' k0) as [->|Hk].
        * right. rewrite H. left. reflexivity.
        * left. left. exists k'. cbn. rewrite put_other by exact Hk. exact H.
      + destruct (keq k' k0) as [->|Hk].
        * left. right. right. cbn. rewrite H. left. reflexivity.
        * left. right. left. exists k'. cbn. rewrite put_other by exact Hk. exact H.
      + left. right. right. cbn. apply in_or_app. auto.
    - inversion S as [? k1 j Hp|? k1 j Hp|? j l1 l2 E]; subst; [auto| |].
      + destruct HA as [(k' & H)|[(k' & H)|H]].
        * destruct (keq k' k1) as [->|Hk].
          -- right. rewrite H. right. left. reflexivity.
          -- left. left. exists k'. cbn. rewrite put_other by exact Hk. exact H.
        * destruct (keq k' k1) as [->|Hk].
          -- left. left. exists k1. cbn. rewrite put_same. congruence.
          -- left. right. left. exists k'. cbn. rewrite put_other by exact Hk. exact H.
        * left. right. right. exact H.
      + destruct HA as [H|[H|H]]; [left; left; exact H|left; right; left; exact H|].
        rewrite E in H. apply in_app_or in H as [H|[->|H]].
        * left. right. right. cbn. apply in_or_app. auto.
        * right. left. reflexivity.
        * left. right. right. cbn. apply in_or_app. auto.
    - destruct HA as [H|[(k' & H)|H]]; [left; left; exact H| |left; right; right; exact H].
      destruct (keq k' k0) as [->|Hk].
      + right. right. left. congruence.
      + left. right. left. exists k'. cbn. rewrite put_other by exact Hk. exact H.
    - inversion C; subst; auto.
      destruct HA as [(k' & H1)|[H1|H1]]; [|left; right; left; exact H1|left; right; right; exact H1].
      destruct (keq k' k0) as [->|Hk].
      + right. right. left. congruence.
      + left. left. exists k'. cbn. rewrite put_other by exact Hk. exact H1.
    - inversion C; subst. auto.
    - auto.
  Qed.

  Lemma drops_app i (l l' : list ev) : drops i (l ++ l') = drops i l + drops i l'.
  Proof. unfold drops. rewrite filter_app, app_length. reflexivity. Qed.
  Lemma drops_rev i (l : list ev) : drops i (rev l) = drops i l.
  Proof. induction l as [|e l IH]; [reflexivity|]. cbn [rev]. rewrite drops_app, IH. unfold drops. cbn. destruct e; cbn; try lia. destruct (i0 =? i); cbn; lia. Qed.
  Lemma drops_0 i (l : list ev) : ~ In (TDropSvc i) l -> drops i l = 0.
  Proof.
    induction l as [|e l IH]; intros H; [reflexivity|]. unfold drops in *. cbn.
    assert (IH' := IH (fun c => H (or_intror c))). destruct e; auto.
    destruct (i0 =? i) eqn:E; [|auto]. apply Nat.eqb_eq in E. subst. exfalso. apply H. left. reflexivity.
  Qed.

  Lemma drops_mv a n l p b m own i : mv a n l p b m -> WF a n own ->
    (at_slot b i -> drops i l = 0) /\ (at_slot a i -> ~ at_slot b i -> drops i l = 1) /\ (~ at_slot a i -> drops i l = 0).
  Proof.
    intros M HW. split; [|split].
    - intros Hb. apply drops_0. intros C. apply in_split in C as (u & v & ->).
      apply (dropped_out _ _ _ M HW). exact Hb.
    - intros Ha Hb. destruct (leaves_dropped M HW Ha) as [C|C]; [contradiction|].
      apply in_split in C as (u & v & ->).
      destruct (dropped_out _ _ _ M HW) as (_ & _ & ->). rewrite drops_app.
      assert (X : drops i [TDropSvc i] = 1) by (unfold drops; cbn; rewrite Nat.eqb_refl; reflexivity). rewrite X.
      rewrite drops_0; [reflexivity|]. intros C. apply in_split in C as (u2 & v2 & ->).
      rewrite <- app_assoc in M. cbn in M. destruct (dropped_out _ _ _ M HW) as (_ & _ & C). destruct v2; discriminate.
    - intros Ha. apply drops_0. intros C. apply Ha. eapply about_slot; [exact M|exact C|].
      unfold about. cbn. apply Nat.eqb_refl.
  Qed.

  Definition ledger (a : slots K) (own : list (K * nat)) (lg : list ev) : Prop :=
    forall i, (at_slot a i -> drops i lg = 0) /\ (forall k, In (k, i) own -> ~ at_slot a i -> drops i lg = 1).

  Lemma at_slot_own a n own i : WF a n own -> at_slot a i -> exists k, In (k, i) own.
  Proof.
    intros HW [(k & H)|[(k & H)|H]].
    - exists k. apply (w_ready HW), H.
    - exists k. apply (w_pend HW), H.
    - apply (w_doom HW), H.
  Qed.

  Lemma at_slot_dec a n own i : WF a n own -> at_slot a i \/ ~ at_slot a i.
  Proof.
    intros HW.
    assert (D : (exists k, In (k, i) own) \/ ~ exists k, In (k, i) own).
    { clear. induction own as [|[k j] own IH]; [right; intros (k & [])|].
      destruct (Nat.eq_dec j i) as [->|E]; [left; exists k; left; reflexivity|].
      destruct IH as [(k' & H)|H]; [left; exists k'; right; exact H|].
      right. intros (k' & [C|C]); [congruence|eauto]. }
    destruct D as [(k & D)|D].
    2:{ right. intros C. apply D. eapply at_slot_own; eauto. }
    destruct (in_dec Nat.eq_dec i (doomed a)) as [H|H]; [left; right; right; exact H|].
    destruct (in_ready a k) as [j|] eqn:E1; [destruct (Nat.eq_dec j i) as [->|N1]; [left; left; eauto|]|];
    (destruct (in_pend a k) as [j'|] eqn:E2; [destruct (Nat.eq_dec j' i) as [->|N2]; [left; right; left; eauto|]|]);
    right; (intros [(k' & C)|[(k' & C)|C]]; [| |contradiction]);
      (assert (k' = k) as -> by (eapply (w_fun HW); [first [apply (w_ready HW); exact C|apply (w_pend HW); exact C]|exact D]));
      congruence.
  Qed.

  Lemma ledger_mv a n l p b m own lg : mv a n l p b m -> WF a n own -> (forall j, n <= j -> drops j lg = 0) ->
    ledger a own lg -> ledger b (opt_cons p own) (rev l ++ lg).
  Proof.
    intros M HW HF H i. destruct (H i) as [A B]. destruct (drops_mv i M HW) as (D1 & D2 & D3).
    rewrite drops_app, drops_rev.
    assert (NEW : forall k, p = Some (k, i) -> at_slot b i /\ n <= i).
    { intros k ->. inversion M; subst. split; [|lia]. right. left. exists k. cbn. apply put_same. }
    split.
    - intros Hb. rewrite (D1 Hb). destruct (at_slot_dec i HW) as [Ha|Ha]; [apply A, Ha|].
      assert (X := WF_mv M HW). destruct (at_slot_own X Hb) as (k & Hk).
      destruct p as [[k1 j]|]; cbn in Hk.
      + destruct Hk as [E|Hk]; [injection E as -> ->; apply HF; inversion M; lia|].
        exfalso. apply Ha. eapply slot_back; eauto. apply (w_lt HW _ _ Hk).
      + exfalso. apply Ha. eapply slot_back; eauto. apply (w_lt HW _ _ Hk).
    - intros k Hk Hb.
      assert (Hk' : In (k, i) own).
      { destruct p as [[k1 j]|]; cbn in Hk; [|exact Hk]. destruct Hk as [E|Hk]; [|exact Hk]. exfalso.
        injection E as -> ->. apply Hb. eapply NEW. reflexivity. }
      destruct (at_slot_dec i HW) as [Ha|Ha].
      + rewrite (D2 Ha Hb), (A Ha). reflexivity.
      + rewrite (D3 Ha), (B _ Hk' Ha). reflexivity.
  Qed.

  Lemma ledger_mvs a n l ps b m own lg : mvs a n l ps b m -> WF a n own -> (forall j, n <= j -> drops j lg = 0) ->
    ledger a own lg -> ledger b (ps ++ own) (rev l ++ lg).
  Proof.
    intros H. revert own lg. induction H as [? ? ? L|? ? ? ? ? ? ? ? ? ? H _ IH]; intros own lg HW HF HL; [exact HL|].
    rewrite rev_app_distr, <- !app_assoc, <- opt_cons_list. assert (L := mv_le H). eapply IH.
    - eapply WF_mv; eauto.
    - intros j Hj. rewrite drops_app, drops_rev, HF by lia. rewrite Nat.add_0_r.
      apply (drops_mv j H HW). intros C. destruct (at_slot_own HW C) as (k & Hk). apply (w_lt HW) in Hk. lia.
    - eapply ledger_mv; eauto.
  Qed.

  (** Numbers pushed in a run are not smaller than the first free number. *)
  Lemma pushed_late a n l ps b m : mvs a n l ps b m -> forall k i, In (k, i) ps -> n <= i.
  Proof.
    induction 1 as [? ? ? L|? ? ? ? ? ? ? ? ? ? H _ IH]; intros k i Hi; [destruct Hi|].
    apply in_app_or in Hi as [Hi|Hi]; [apply IH in Hi; apply mv_le in H; lia|].
    destruct p as [[k1 j]|]; [|contradiction]. destruct Hi as [E|[]]. injection E as -> ->.
    inversion H; lia.
  Qed.

  Lemma pp_mvs a l b n : pp_steps keq idj a l b -> mvs a n l [] b n.
  Proof.
    induction 1 as [|a l b l' c H _ IH]; [constructor; lia|].
    change (@nil (K * nat)) with (@nil (K * nat) ++ opt_list None). apply mvs_cons with (b := b) (m := n); [apply mv_pp; [lia|exact H]|exact IH].
  Qed.
End Cons.
