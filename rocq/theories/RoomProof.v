(** Proofs for C73. *)
From Coq Require Import Sorting.Sorted.
From Verif Require Import Base Limits Buffer BufferSpec RoomSpec BufferBase BufferMoves BufferInv1 BufferInv2 BufferInv3 BufferInv4 BufferInv5 BufferInv6 BufferInv7 BufferTop.
Set Implicit Arguments.

(** ** The semaphore and its tickets *)
Lemma mem_in i l : mem_nat i l = true <-> In i l.
Proof.
  unfold mem_nat. rewrite existsb_exists. split.
  - intros (x & H & E). apply Nat.eqb_eq in E. subst. exact H.
  - intros H. exists i. split; [exact H | apply Nat.eqb_refl].
Qed.
Lemma remove_in i l x : In x (remove_nat i l) -> In x l.
Proof. induction l as [|j l IH]; cbn; auto. destruct (i =? j); cbn; tauto. Qed.
Lemma in_remove i l x : NoDup l -> In x (remove_nat i l) <-> In x l /\ x <> i.
Proof.
  induction 1 as [|j l N H IH]; cbn; [tauto|]. destruct (Nat.eqb_spec i j) as [->|M]; cbn.
  - intuition congruence.
  - rewrite IH. intuition congruence.
Qed.
Lemma remove_none i l : ~ In i l -> remove_nat i l = l.
Proof.
  induction l as [|j l IH]; cbn; [reflexivity|]. intros H. destruct (Nat.eqb_spec i j) as [->|N]; [tauto|]. rewrite IH; tauto.
Qed.
Lemma nodup_remove i l : NoDup l -> NoDup (remove_nat i l).
Proof.
  induction 1 as [|j l N H IH]; cbn; [constructor|]. destruct (i =? j); [exact H|]. constructor; [|exact IH].
  intros X. apply N, (remove_in _ _ _ X).
Qed.
Lemma remove_length i l : NoDup l -> In i l -> length l = S (length (remove_nat i l)).
Proof.
  induction 1 as [|j l N H IH]; cbn; [intros []|]. destruct (Nat.eqb_spec i j) as [->|E].
  - intros _. reflexivity.
  - intros [X|X]; [congruence|]. cbn. rewrite IH by exact X. reflexivity.
Qed.
Lemma sorted_remove i l : StronglySorted lt l -> StronglySorted lt (remove_nat i l).
Proof.
  induction 1 as [|j l H IH N]; cbn; [constructor|]. destruct (i =? j); [exact H|]. constructor; [exact IH|].
  rewrite Forall_forall in *. intros x X. apply remove_in in X. auto.
Qed.
Lemma sorted_snoc l n : StronglySorted lt l -> (forall x, In x l -> x < n) -> StronglySorted lt (l ++ [n]).
Proof.
  induction 1 as [|j l H IH N]; cbn; intros X.
  - constructor; constructor.
  - constructor; [apply IH; auto|]. rewrite Forall_forall in *. intros x Y. apply in_app_iff in Y as [Y|[<-|[]]]; auto.
Qed.
Lemma sorted_nodup l : StronglySorted lt l -> NoDup l.
Proof.
  induction 1 as [|j l H IH N]; constructor; [|exact IH]. intros X. rewrite Forall_forall in N. specialize (N _ X). lia.
Qed.

(** [ts h]: the ticket of handle [h]. *)
Record swf (m : sem) (ts : nat -> option nat) : Prop := {
  sw_back : forall t, In t (sem_granted m) \/ In t (sem_queue m) -> exists h, ts h = Some t;
  sw_forth : forall h t, ts h = Some t -> In t (sem_granted m) \/ In t (sem_queue m);
  sw_inj : forall h h' t, ts h = Some t -> ts h' = Some t -> h = h';
  sw_lt : forall h t, ts h = Some t -> t < sem_next m;
  sw_free : 0 < sem_avail m -> sem_queue m = [];
  sw_gd : NoDup (sem_granted m);
  sw_sorted : StronglySorted lt (sem_queue m);
  sw_below : forall a b, In a (sem_granted m) -> In b (sem_queue m) -> a < b }.

Lemma swf_ext m ts ts' : (forall h, ts' h = ts h) -> swf m ts -> swf m ts'.
Proof.
  intros E [A B C D F G H K]. split; auto.
  - intros t X. destruct (A t X) as [h Y]. exists h. rewrite E. exact Y.
  - intros h t. rewrite E. apply B.
  - intros h h' t. rewrite !E. apply C.
  - intros h t. rewrite E. apply D.
Qed.
Lemma swf_release m ts : swf m ts -> swf (sem_release m) ts.
Proof.
  intros [A B C D F G H K]. unfold sem_release. destruct (sem_queue m) as [|i q] eqn:E; split; cbn in *; auto.
  - intros t X. apply A. tauto.
  - intros h t X. destruct (B _ _ X) as [Y|[Y|Y]]; auto.
  - intros X. specialize (F X). discriminate F.
  - constructor; [|exact G]. intros X. specialize (K i i X ltac:(auto)). lia.
  - inversion H; assumption.
  - intros a b [<-|X] Y; [|apply K; auto]. inversion H as [|? ? ? N]. rewrite Forall_forall in N. auto.
Qed.
Lemma swf_none m ts h : swf m ts -> ts h = None -> swf m (upd ts h None).
Proof. intros S E. eapply swf_ext; [|exact S]. intros j. unfold upd. destruct (Nat.eqb_spec j h) as [->|]; congruence. Qed.
Lemma swf_take m ts a : swf m ts -> sem_avail m = S a -> swf (Sem a (sem_queue m) (sem_granted m) (sem_next m)) ts.
Proof. intros [A B C D F G H K] E. split; cbn; auto. intros _. apply F. lia. Qed.
Lemma swf_join m ts h : swf m ts -> ts h = None -> sem_avail m = 0 ->
  swf (Sem 0 (sem_queue m ++ [sem_next m]) (sem_granted m) (S (sem_next m))) (upd ts h (Some (sem_next m))).
Proof.
  intros [A B C D F G H K] E Z. split; cbn; auto.
  - intros t X. assert (Y : (In t (sem_granted m) \/ In t (sem_queue m)) \/ t = sem_next m).
    { destruct X as [X|X]; [auto|]. apply in_app_iff in X as [X|[X|[]]]; auto. }
    destruct Y as [Y| ->].
    + destruct (A t Y) as [j J]. exists j. rewrite upd_ne; [exact J|]. intros ->. congruence.
    + exists h. apply upd_eq.
  - intros j t X. apply upd_cases in X as [[-> X]|[N X]].
    + injection X as <-. right. apply in_app_iff. right. left. reflexivity.
    + destruct (B _ _ X); [left|right; apply in_app_iff; left]; assumption.
  - intros j j' t X Y. apply upd_cases in X as [[-> X]|[N X]]; apply upd_cases in Y as [[-> Y]|[N' Y]]; auto.
    + injection X as <-. apply D in Y. lia.
    + injection Y as <-. apply D in X. lia.
    + eapply C; eauto.
  - intros j t X. apply upd_cases in X as [[-> X]|[N X]]; [injection X as <-; lia|]. apply D in X. lia.
  - lia.
  - apply sorted_snoc; [exact H|]. intros x X. destruct (A x) as [j J]; [auto|]. eapply D; eauto.
  - intros a b X Y. apply in_app_iff in Y as [Y|[<-|[]]]; [auto|]. destruct (A a) as [j J]; [auto|]. eapply D; eauto.
Qed.
(** Ticket [i] of [h] is given up. *)
Lemma swf_leave m ts h i : swf m ts -> ts h = Some i ->
  swf (Sem (sem_avail m) (remove_nat i (sem_queue m)) (remove_nat i (sem_granted m)) (sem_next m)) (upd ts h None).
Proof.
  intros [A B C D F G H K] E. split; cbn; auto.
  - intros t X. assert (Y : (In t (sem_granted m) \/ In t (sem_queue m)) /\ t <> i) by (rewrite !in_remove in X by auto using sorted_nodup; tauto).
    destruct Y as [Y N]. destruct (A t Y) as [j J]. exists j. rewrite upd_ne; [exact J|]. intros ->. congruence.
  - intros j t X. apply upd_cases in X as [[-> X]|[N X]]; [discriminate|].
    assert (t <> i) by (intros ->; apply N; eapply C; eauto). rewrite !in_remove by auto using sorted_nodup. destruct (B _ _ X); auto.
  - intros j j' t X Y. apply upd_cases in X as [[-> X]|[N X]]; [discriminate|].
    apply upd_cases in Y as [[-> Y]|[N' Y]]; [discriminate|]. eapply C; eauto.
  - intros j t X. apply upd_cases in X as [[-> X]|[N X]]; [discriminate|]. eauto.
  - intros X. rewrite F by exact X. reflexivity.
  - apply nodup_remove. exact G.
  - apply sorted_remove. exact H.
  - intros a b X Y. apply remove_in in X. apply remove_in in Y. auto.
Qed.
Lemma not_both m ts i : swf m ts -> In i (sem_granted m) -> ~ In i (sem_queue m).
Proof. intros S X Y. assert (Z := sw_below S _ _ X Y). lia. Qed.

(** What polling for a permit does. *)
Lemma swf_poll m ts h m1 t1 got : swf m ts -> sem_poll (ts h) m = (m1, t1, got) ->
  swf m1 (upd ts h t1) /\ permits m1 + (if got then 1 else 0) = permits m /\
  (if got then t1 = None else exists i, t1 = Some i) /\
  (forall t, In t (sem_granted m) -> ts h <> Some t -> In t (sem_granted m1)) /\
  (got = true -> forall j t, j <> h -> ts j = Some t -> (forall i, ts h = Some i -> t < i) -> In t (sem_granted m1)) /\
  (forall i, t1 = Some i -> ts h = Some i /\ m1 = m \/ ts h = None /\ forall j t, ts j = Some t -> t < i).
Proof.
  intros S. unfold sem_poll, permits. destruct (ts h) as [i|] eqn:E.
  - destruct (mem_nat i (sem_granted m)) eqn:Ei; intros X; injection X as <- <- <-; cbn.
    + apply mem_in in Ei. assert (Nq := @not_both _ _ _ S Ei). assert (L := @swf_leave _ _ _ _ S E). rewrite (@remove_none _ _ Nq) in L.
      split; [exact L|]. split; [rewrite (@remove_length _ _ (sw_gd S) Ei); lia|]. split; [reflexivity|].
      split; [|split].
      * intros t X Y. apply in_remove; [exact (sw_gd S)|]. split; [exact X|congruence].
      * intros _ j t N J B. specialize (B _ eq_refl). apply in_remove; [exact (sw_gd S)|]. split; [|lia].
        destruct (sw_forth S _ J) as [Y|Y]; [exact Y|]. assert (Z := sw_below S _ _ Ei Y). lia.
      * discriminate.
    + split; [eapply swf_ext; [|exact S]; intros j; unfold upd; destruct (Nat.eqb_spec j h) as [->|]; congruence|].
      split; [lia|]. split; [eauto|]. split; [auto|]. split; [discriminate|]. intros k X. injection X as <-. auto.
  - destruct (sem_avail m) as [|a] eqn:Ea; intros X; injection X as <- <- <-; cbn.
    + split; [apply swf_join; assumption|]. split; [lia|]. split; [eauto|]. split; [auto|]. split; [discriminate|].
      intros k X. injection X as <-. right. split; [reflexivity|]. apply (sw_lt S).
    + split; [apply swf_none; [apply swf_take; assumption|exact E]|]. split; [lia|]. split; [reflexivity|]. split; [auto|].
      split; [|discriminate]. intros _ j t N J _. destruct (sw_forth S _ J) as [Y|Y]; [exact Y|].
      rewrite (sw_free S) in Y by lia. destruct Y.
Qed.
Lemma release_granted m t : In t (sem_granted m) -> In t (sem_granted (sem_release m)).
Proof. unfold sem_release. destruct (sem_queue m); cbn; auto. Qed.
Lemma swf_forget m ts h : swf m ts ->
  swf (sem_forget (ts h) m) (upd ts h None) /\ permits (sem_forget (ts h) m) = permits m /\
  (forall t, In t (sem_granted m) -> ts h <> Some t -> In t (sem_granted (sem_forget (ts h) m))).
Proof.
  intros S. unfold sem_forget. destruct (ts h) as [i|] eqn:E.
  - destruct (mem_nat i (sem_granted m)) eqn:Ei.
    + apply mem_in in Ei. assert (Nq := @not_both _ _ _ S Ei). assert (L := @swf_leave _ _ _ _ S E). rewrite (@remove_none _ _ Nq) in L.
      split; [apply swf_release; exact L|]. split.
      * rewrite release_permits. unfold permits. cbn. rewrite (@remove_length _ _ (sw_gd S) Ei). lia.
      * intros t X Y. apply release_granted. cbn. apply in_remove; [exact (sw_gd S)|]. split; [exact X|congruence].
    + assert (Ng : ~ In i (sem_granted m)) by (rewrite <- mem_in; congruence). assert (L := @swf_leave _ _ _ _ S E).
      rewrite (@remove_none _ _ Ng) in L. split; [exact L|]. split; [reflexivity|]. cbn. auto.
  - split; [apply swf_none; assumption|]. auto.
Qed.

Section Room.
  Context {W Req Resp Err : Type} {svc : Service W Req Resp Err}.
  Notation bsys := (bsys svc).
  Notation bobs := (bobs svc).
  Notation handle := (handle (Req := Req)).

  Lemma since_lt h (l : list bobs) n : since h l = Some n -> n < length l.
  Proof.
    revert n. induction l as [|e l IH]; cbn [since length]; [discriminate|]. intros n.
    assert (X : since h l = Some n -> n < S (length l)) by (intros X; apply IH in X; lia).
    destruct e as [h' [|a]|h' id r|h' id r e|h' r|h' h''|h'|id f a f'|id a|id|id|id| |id|id|id|a|id r f|id a| | | | |]; auto; destruct (h' =? h); auto; try discriminate.
    destruct (since h l) as [k|] eqn:E; intros Y; injection Y as <-; [|lia]. apply X. reflexivity.
  Qed.
  Lemma since_back h e (l : list bobs) n : since h (e :: l) = Some n -> n < length l -> since h l = Some n.
  Proof.
    cbn [since]. destruct e as [h' [|a]|h' id r|h' id r e|h' r|h' h''|h'|id f a f'|id a|id|id|id| |id|id|id|a|id r f|id a| | | | |]; auto; destruct (h' =? h); auto; try discriminate.
    destruct (since h l) as [k|] eqn:E; [auto|]. intros Y L; injection Y as <-. lia.
  Qed.
  Lemma passed_cons j e (l : list bobs) : passed_by j (e :: l) ->
    (passed_by j l \/ exists h n, e = OReady h (Ready (Ok tt)) /\ h <> j /\ has_slot h l = false /\ since j l = Some n /\
       since j (e :: l) = Some n /\ forall n', since h l = Some n' -> n < n').
  Proof.
    intros (h & l2 & l1 & n & E & N & S & A & B & C). destruct l2 as [|e2 l2]; cbn in E; injection E as -> ->.
    - right. exists h, n. auto 7.
    - left. exists h, l2, l1, n. split; [reflexivity|]. split; [exact N|]. split; [exact S|]. split; [exact A|]. split; [|exact C].
      apply since_back in B; [exact B|]. apply since_lt in A. rewrite app_length. cbn. lia.
  Qed.
  Lemma passed_since j (l : list bobs) : passed_by j l -> exists n, since j l = Some n /\ S n < length l.
  Proof.
    intros (h & l2 & l1 & n & E & N & S & A & B & C). exists n. split; [exact B|]. subst l. apply since_lt in A.
    rewrite app_length. cbn. lia.
  Qed.

  (** Events that have nothing to do with the line. *)
  Definition other (e : bobs) : bool :=
    match e with OReady _ _ | OCallPanic _ _ | ODropped _ => false | _ => true end.
  Lemma since_other h (e l : list bobs) : forallb other e = true -> since h (e ++ l) = since h l.
  Proof.
    induction e as [|a e IH]; cbn [forallb app]; [reflexivity|]. intros H. apply andb_prop in H as [H1 H2]. cbn [since].
    destruct a; try discriminate; auto.
  Qed.
  Lemma passed_other h (e l : list bobs) : forallb other e = true -> passed_by h (e ++ l) -> passed_by h l.
  Proof.
    induction e as [|a e IH]; cbn [forallb app]; [auto|]. intros H. apply andb_prop in H as [H1 H2]. intros X.
    apply passed_cons in X as [X|(j & n & -> & _)]; [auto|discriminate].
  Qed.

  Definition tk (o : option handle) : option nat := match o with Some (Hd (PsAcquiring t) _) => t | _ => None end.
  Definition lined (o : option handle) (s : option nat) : Prop :=
    match o with Some (Hd (PsAcquiring _) _) => s <> None | _ => s = None end.
  Definition usual (o : option handle) : Prop :=
    match o with Some (Hd ps pc) => ps <> PsClosed /\ (pc = HRest \/ pc = HReserve) | None => True end.
  Definition queued (o : option handle) : Prop := match o with Some (Hd (PsAcquiring None) _) => False | _ => True end.
  Definition tks (hs : nat -> option handle) (h : nat) : option nat := tk (hs h).

  Record room (nc : bool) (bound : nat) (y : bsys) (l : list bobs) : Prop := {
    rm_swf : swf (y_sem y) (tks (y_hs y));
    rm_sum : permits (y_sem y) + rcount (y_hnext y) (y_hs y) + length (y_queue y) = bound;
    rm_line : forall h, lined (y_hs y h) (since h l);
    rm_usual : forall h, usual (y_hs y h);
    rm_queued : nc = true -> forall h, queued (y_hs y h);
    rm_order : nc = true -> forall h h' t t' n n', tks (y_hs y) h = Some t -> tks (y_hs y) h' = Some t' ->
      since h l = Some n -> since h' l = Some n' -> t < t' -> n < n';
    rm_over : nc = true -> forall h t, passed_by h l -> tks (y_hs y) h = Some t -> In t (sem_granted (y_sem y)) }.

  Lemma tks_upd hs h x j : tks (upd hs h x) j = upd (tks hs) h (tk x) j.
  Proof. unfold tks, upd. destruct (j =? h); reflexivity. Qed.

  (** The line and the handles stay as they are; a permit may come back. *)
  Lemma room_other nc bound y l (y1 : bsys) e : room nc bound y l -> forallb other e = true ->
    y_hs y1 = y_hs y -> y_hnext y1 = y_hnext y ->
    (y_sem y1 = y_sem y /\ length (y_queue y1) = length (y_queue y) \/
     y_sem y1 = sem_release (y_sem y) /\ length (y_queue y) = S (length (y_queue y1))) ->
    room nc bound y1 (e ++ l).
  Proof.
    intros [A B C D F G H] O E1 E2 E3. split; rewrite ?E1, ?E2.
    - destruct E3 as [[-> _]|[-> _]]; [|apply swf_release]; exact A.
    - destruct E3 as [[-> X]|[-> X]]; rewrite ?release_permits; lia.
    - intros h. rewrite since_other by exact O. apply C.
    - exact D.
    - exact F.
    - intros N h h' t t' n n'. rewrite !since_other by exact O. apply G; exact N.
    - intros N h t P T. apply passed_other in P; [|exact O]. specialize (H N h t P T).
      destruct E3 as [[-> _]|[-> _]]; [|apply release_granted]; exact H.
  Qed.

  (** Handle [h] does something, with one event. *)
  Lemma room_event nc bound y l (y1 : bsys) h d x e : room nc bound y l -> y_hs y h = Some d -> h < y_hnext y ->
    y_hs y1 = upd (y_hs y) h x -> y_hnext y1 = y_hnext y ->
    swf (y_sem y1) (upd (tks (y_hs y)) h (tk x)) ->
    permits (y_sem y1) + rd x + length (y_queue y1) = permits (y_sem y) + rd (Some d) + length (y_queue y) ->
    (forall j, j <> h -> since j (e :: l) = since j l) ->
    lined x (since h (e :: l)) -> usual x -> (nc = true -> queued x) ->
    (forall t, In t (sem_granted (y_sem y)) -> tk (Some d) <> Some t -> In t (sem_granted (y_sem y1))) ->
    (nc = true -> forall i, tk x = Some i ->
       (tk (Some d) = Some i /\ since h (e :: l) = since h l /\ (In i (sem_granted (y_sem y)) -> In i (sem_granted (y_sem y1)))) \/
       ((forall j t, tks (y_hs y) j = Some t -> t < i) /\ since h (e :: l) = Some (length l))) ->
    ((forall h', e <> OReady h' (Ready (Ok tt))) \/
     e = OReady h (Ready (Ok tt)) /\ tk x = None /\ (has_slot h l = false -> forall j t, j <> h -> tks (y_hs y) j = Some t ->
        (forall i, tk (Some d) = Some i -> t < i) -> In t (sem_granted (y_sem y1)))) ->
    room nc bound y1 (e :: l).
  Proof.
    intros [A B C D F G H] Ed L E1 E2 S1 P1 Q1 Q2 Q3 Q4 R1 R2 R3. split; rewrite ?E1, ?E2.
    - eapply swf_ext; [intros j; apply tks_upd|exact S1].
    - assert (X := rcount_upd (y_hs y) x L). rewrite Ed in X. lia.
    - intros j. unfold upd. destruct (Nat.eqb_spec j h) as [->|N]; [exact Q2|]. rewrite Q1 by exact N. apply C.
    - intros j. unfold upd. destruct (Nat.eqb_spec j h) as [->|N]; [exact Q3|]. apply D.
    - intros N j. unfold upd. destruct (Nat.eqb_spec j h) as [->|Nj]; [exact (Q4 N)|]. apply F. exact N.
    - intros N j j' t t' n n'. rewrite !tks_upd. intros X Y. apply upd_cases in X as [[-> X]|[Nj X]]; apply upd_cases in Y as [[-> Y]|[Nj' Y]].
      + intros Z1 Z2. rewrite X in Y. injection Y as <-. lia.
      + rewrite (Q1 j') by exact Nj'. intros Z1 Z2 Lt. destruct (R2 N _ X) as [(T & Sm & _)|[T Sm]].
        * rewrite Sm in Z1. eapply (G N h j'); eauto. unfold tks. rewrite Ed. exact T.
        * apply T in Y. lia.
      + rewrite (Q1 j) by exact Nj. intros Z1 Z2 Lt. destruct (R2 N _ Y) as [(T & Sm & _)|[T Sm]].
        * rewrite Sm in Z2. eapply (G N j h); eauto. unfold tks. rewrite Ed. exact T.
        * rewrite Sm in Z2. injection Z2 as <-. apply since_lt in Z1. exact Z1.
      + rewrite !Q1 by assumption. apply G; assumption.
    - intros N j t P. rewrite tks_upd. intros X. apply upd_cases in X as [[-> X]|[Nj X]].
      + destruct (R2 N _ X) as [(T & Sm & K)|[T Sm]].
        * apply K. apply passed_cons in P as [P|(h' & n & -> & Nh & _)].
          -- apply (H N _ _ P). unfold tks. rewrite Ed. exact T.
          -- exfalso. destruct R3 as [R3|[R3 _]]; [eapply R3; reflexivity|]. injection R3 as ->. contradiction.
        * exfalso. apply passed_since in P as (n & P1' & P2). rewrite Sm in P1'. injection P1' as <-. cbn in P2. lia.
      + assert (Nd : tk (Some d) <> Some t).
        { intros T. apply Nj. eapply (sw_inj A); [exact X|]. unfold tks. rewrite Ed. exact T. }
        apply passed_cons in P as [P|(h' & n & -> & Nh & Hs & Sj & _ & Sh)].
        * apply R1; [|exact Nd]. eapply H; eauto.
        * destruct R3 as [R3|[R3 [T R3']]]; [exfalso; eapply R3; reflexivity|]. injection R3 as ->.
          apply (R3' Hs _ _ Nj X). intros i Ti.
          destruct (Nat.lt_trichotomy t i) as [Lt|[-> |Lt]]; [exact Lt|exfalso; exact (Nd Ti)|]. exfalso.
          assert (Ti' : tks (y_hs y) h = Some i) by (unfold tks; rewrite Ed; exact Ti).
          assert (Z := C h). rewrite Ed in Z. destruct d as [[|ti| |] pc]; try discriminate. cbn in Z.
          destruct (since h l) as [nh|] eqn:Eh; [|congruence]. specialize (Sh _ eq_refl).
          assert (Y := G N h j i t nh n Ti' X Eh Sj Lt). lia.
  Qed.

  Lemma room_pc nc bound y l (y1 : bsys) h d pc : room nc bound y l -> y_hs y h = Some d -> h < y_hnext y ->
    y_hs y1 = upd (y_hs y) h (Some (Hd (h_ps d) pc)) -> y_hnext y1 = y_hnext y -> y_sem y1 = y_sem y -> y_queue y1 = y_queue y ->
    pc = HRest \/ pc = HReserve -> room nc bound y1 l.
  Proof.
    intros [A B C D F G H] Ed L E1 E2 E3 E4 P.
    assert (T : forall j, tks (y_hs y1) j = tks (y_hs y) j).
    { intros j. rewrite E1, tks_upd. unfold upd. destruct (Nat.eqb_spec j h) as [->|N]; [|reflexivity].
      unfold tks. rewrite Ed. destruct d; reflexivity. }
    split; rewrite ?E2, ?E3, ?E4.
    - eapply swf_ext; [exact T|exact A].
    - rewrite E1. assert (X := rcount_upd (y_hs y) (Some (Hd (h_ps d) pc)) L). rewrite Ed in X. destruct d as [[] pc0]; cbn in X; cbn [h_ps]; lia.
    - intros j. rewrite E1. unfold upd. destruct (Nat.eqb_spec j h) as [->|N]; [|apply C]. specialize (C h). rewrite Ed in C.
      destruct d as [[] pc0]; exact C.
    - intros j. rewrite E1. unfold upd. destruct (Nat.eqb_spec j h) as [->|N]; [|apply D]. specialize (D h). rewrite Ed in D.
      destruct d as [ps pc0]; cbn in *. tauto.
    - intros N j. rewrite E1. unfold upd. destruct (Nat.eqb_spec j h) as [->|N']; [|apply F; exact N]. specialize (F N h). rewrite Ed in F.
      destruct d as [[] pc0]; exact F.
    - intros N j j' t t' n n'. rewrite !T. apply G. exact N.
    - intros N j t X. rewrite T. apply H; assumption.
  Qed.

  Lemma room_clone nc bound (y : bsys) l h : room nc bound y l -> (forall j, y_hs y j <> None -> j < y_hnext y) ->
    room nc bound (fst (handle_clone h y)) (OCloned h (y_hnext y) :: l).
  Proof.
    intros [A B C D F G H] L. cbn [handle_clone fst]. ysimp.
    assert (E : y_hs y (y_hnext y) = None).
    { destruct (y_hs y (y_hnext y)) eqn:E; [|reflexivity]. specialize (L (y_hnext y)). rewrite E in L. assert (y_hnext y < y_hnext y) by (apply L; discriminate). lia. }
    assert (T : forall j, tks (upd (y_hs y) (y_hnext y) (Some (Hd PsIdle HRest))) j = tks (y_hs y) j).
    { intros j. rewrite tks_upd. unfold upd. destruct (Nat.eqb_spec j (y_hnext y)) as [->|N]; [|reflexivity]. unfold tks. rewrite E. reflexivity. }
    split; ysimp.
    - eapply swf_ext; [exact T|exact A].
    - cbn [rcount]. rewrite upd_eq, rcount_out by lia. exact B.
    - intros j. cbn [since]. unfold upd. destruct (Nat.eqb_spec j (y_hnext y)) as [->|N]; [|apply C]. specialize (C (y_hnext y)). rewrite E in C. exact C.
    - intros j. unfold upd. destruct (Nat.eqb_spec j (y_hnext y)) as [->|N]; [|apply D]. cbn. split; [discriminate|auto].
    - intros N j. unfold upd. destruct (Nat.eqb_spec j (y_hnext y)) as [->|N']; [exact I|]. apply F. exact N.
    - intros N j j' t t' n n'. rewrite !T. cbn [since]. apply G. exact N.
    - intros N j t X. rewrite T. apply (@passed_other j [OCloned h (y_hnext y)] l eq_refl) in X. apply H; assumption.
  Qed.

  Lemma since_same h (l : list bobs) : since h (OReady h (Ready (Ok tt)) :: l) = None.
  Proof. cbn. rewrite Nat.eqb_refl. reflexivity. Qed.
  Lemma since_pend h (l : list bobs) :
    since h (OReady h Pending :: l) = match since h l with Some n => Some n | None => Some (length l) end.
  Proof. cbn. rewrite Nat.eqb_refl. reflexivity. Qed.
  Lemma since_ne h j a (l : list bobs) : j <> h -> since j (OReady h a :: l) = since j l.
  Proof. intros N. cbn. destruct (Nat.eqb_spec h j); [congruence|]. destruct a; reflexivity. Qed.

  (** One step of a handle. *)
  Lemma room_step_handle nc bound (y : bsys) l h d c : room nc bound y l -> y_hs y h = Some d -> h < y_hnext y -> y_closed y = false ->
    (forall j, has_slot j l = true <-> exists pc, y_hs y j = Some (Hd PsReady pc)) -> (nc = true -> c = false) ->
    room nc bound (fst (handle_step c h d y)) (rev (snd (handle_step c h d y)) ++ l).
  Proof.
    intros R Ed L Cl Sl Nc. assert (U := rm_usual R h). rewrite Ed in U. assert (Ln := rm_line R h). rewrite Ed in Ln.
    destruct d as [ps pc]. cbn in U. destruct U as [U1 [-> | ->]]; [exact R|].
    unfold handle_step. cbn [h_pc h_ps].
    destruct ps as [|t| |]; try congruence.
    - (* idle *)
      cbn [poll_reserve]. destruct c; cbn [rev app].
      + assert (nc = false) as -> by (destruct nc; [discriminate Nc; reflexivity|reflexivity]). clear Nc.
        eapply room_event with (1 := R) (2 := Ed) (x := Some (Hd (PsAcquiring None) HRest)); ysimp; auto using since_ne; try reflexivity.
        * eapply swf_none; [exact (rm_swf R)|]. unfold tks. rewrite Ed. reflexivity.
        * cbn [lined]. rewrite since_pend. destruct (since h l); discriminate.
        * cbn. split; [discriminate|auto].
        * discriminate.
        * cbn. discriminate.
        * left; intros; discriminate.
      + rewrite Cl. assert (S := @swf_poll _ _ h (fst (fst (sem_poll None (y_sem y)))) (snd (fst (sem_poll None (y_sem y)))) (snd (sem_poll None (y_sem y))) (rm_swf R)).
        unfold tks at 1 in S. rewrite Ed in S. cbn [tk] in S. destruct (sem_poll None (y_sem y)) as [[m1 t1] got]. cbn [fst snd] in S.
        specialize (S eq_refl). destruct S as (S1 & S2 & S3 & S4 & S5 & S6).
        assert (E0 : tks (y_hs y) h = None) by (unfold tks; rewrite Ed; reflexivity). rewrite E0 in *.
        destruct got; cbn [fst snd rev app].
        * subst t1. eapply room_event with (1 := R) (2 := Ed) (x := Some (Hd PsReady HRest)); ysimp; auto using since_ne; try reflexivity.
          -- cbn [rd]. lia.
          -- cbn [lined]. apply since_same.
          -- cbn. split; [discriminate|auto].
          -- cbn. discriminate.
          -- right. split; [reflexivity|]. split; [reflexivity|]. intros _. cbn [tk]. apply S5. reflexivity.
        * destruct S3 as [i ->]. cbn in Ln.
          eapply room_event with (1 := R) (2 := Ed) (x := Some (Hd (PsAcquiring (Some i)) HRest)); ysimp; auto using since_ne; try reflexivity.
          -- cbn [rd]. lia.
          -- cbn [lined]. rewrite since_pend, Ln. discriminate.
          -- cbn. split; [discriminate|auto].
          -- cbn [tk]. intros _ k X. right. destruct (S6 _ X) as [[Y _]|[_ Y]]; [discriminate Y|]. split; [exact Y|]. rewrite since_pend, Ln. reflexivity.
          -- left; intros; discriminate.
    - (* in line *)
      cbn [poll_reserve]. cbn in Ln. destruct (since h l) as [n|] eqn:Es; [|congruence].
      assert (E0 : tks (y_hs y) h = t) by (unfold tks; rewrite Ed; reflexivity).
      destruct c; cbn [rev app fst snd].
      + assert (nc = false) as -> by (destruct nc; [discriminate Nc; reflexivity|reflexivity]). clear Nc.
        eapply room_event with (1 := R) (2 := Ed) (x := Some (Hd (PsAcquiring t) HRest)); ysimp; auto using since_ne; try reflexivity.
        * eapply swf_ext; [|exact (rm_swf R)]. intros j. cbn [tk]. unfold upd. destruct (Nat.eqb_spec j h) as [->|N]; congruence.
        * cbn [lined]. rewrite since_pend, Es. discriminate.
        * cbn. split; [discriminate|auto].
        * discriminate.
        * discriminate.
        * left; intros; discriminate.
      + rewrite Cl. assert (S := @swf_poll _ _ h (fst (fst (sem_poll t (y_sem y)))) (snd (fst (sem_poll t (y_sem y)))) (snd (sem_poll t (y_sem y))) (rm_swf R)).
        rewrite E0 in S. destruct (sem_poll t (y_sem y)) as [[m1 t1] got]. cbn [fst snd] in S.
        specialize (S eq_refl). destruct S as (S1 & S2 & S3 & S4 & S5 & S6).
        destruct got; cbn [fst snd rev app].
        * subst t1. eapply room_event with (1 := R) (2 := Ed) (x := Some (Hd PsReady HRest)); ysimp; auto using since_ne; try reflexivity.
          -- cbn [rd]. lia.
          -- cbn [lined]. apply since_same.
          -- cbn. split; [discriminate|auto].
          -- cbn. discriminate.
          -- right. split; [reflexivity|]. split; [reflexivity|]. intros _. cbn [tk]. apply S5. reflexivity.
        * destruct S3 as [i ->].
          eapply room_event with (1 := R) (2 := Ed) (x := Some (Hd (PsAcquiring (Some i)) HRest)); ysimp; auto using since_ne; try reflexivity.
          -- cbn [rd]. lia.
          -- cbn [lined]. rewrite since_pend, Es. discriminate.
          -- cbn. split; [discriminate|auto].
          -- cbn [tk]. intros N k X. destruct (S6 _ X) as [[Y ->]|[Y _]].
             ++ left. split; [exact Y|]. rewrite since_pend, Es. auto.
             ++ exfalso. assert (Z := rm_queued R N h). rewrite Ed, Y in Z. exact Z.
          -- left; intros; discriminate.
    - (* has a slot *)
      cbn [poll_reserve fst snd rev app]. cbn in Ln.
      eapply room_event with (1 := R) (2 := Ed) (x := Some (Hd PsReady HRest)); ysimp; auto using since_ne; try reflexivity.
      + eapply swf_none; [exact (rm_swf R)|]. unfold tks. rewrite Ed. reflexivity.
      + cbn [lined]. apply since_same.
      + cbn. split; [discriminate|auto].
      + cbn; intros; discriminate.
      + right. split; [reflexivity|]. split; [reflexivity|]. intros X. exfalso.
        assert (Y : has_slot h l = true) by (apply Sl; eauto). congruence.
  Qed.

  Lemma room_step_call nc bound (y : bsys) l h d r : room nc bound y l -> y_hs y h = Some d -> h < y_hnext y ->
    (forall h0 r0, ~ In (OCallPanic h0 r0) (rev (snd (handle_call h d r y)) ++ l)) ->
    room nc bound (fst (handle_call h d r y)) (rev (snd (handle_call h d r y)) ++ l).
  Proof.
    intros R Ed L Np. assert (U := rm_usual R h). rewrite Ed in U. assert (Ln := rm_line R h). rewrite Ed in Ln.
    destruct d as [ps pc]. cbn in U. destruct U as [U1 _]. unfold handle_call in *. cbn [h_ps] in *.
    destruct ps as [|t| |]; try congruence; cbn [send_item fst snd rev app] in *.
    - exfalso. apply (Np h r). left. reflexivity.
    - exfalso. apply (Np h r). left. reflexivity.
    - eapply room_event with (1 := R) (2 := Ed) (x := Some (Hd PsIdle HRest)); ysimp; auto; try reflexivity.
      + eapply swf_none; [exact (rm_swf R)|]. unfold tks. rewrite Ed. reflexivity.
      + rewrite app_length. cbn [rd length]. lia.
      + split; [discriminate|auto].
      + left. intros h' X. discriminate X.
  Qed.

  Lemma room_step_drop nc bound (y : bsys) l h d k : room nc bound y l -> y_hs y h = Some d -> h < y_hnext y ->
    y_wk y = Some k ->
    room nc bound (fst (handle_drop h d y)) (rev (snd (handle_drop h d y)) ++ l).
  Proof.
    intros R Ed L Ek. assert (U := rm_usual R h). rewrite Ed in U.
    destruct d as [ps pc]. cbn in U. destruct U as [U1 _]. unfold handle_drop. cbn [h_ps].
    assert (Ek' : y_wk (drop_sender ps y) = Some k) by (destruct ps; exact Ek).
    cbn [set_hs y_wk]. rewrite Ek'. cbn [fst snd rev app].
    assert (Sn : forall j, j <> h -> since j (ODropped h :: l) = since j l).
    { intros j N. cbn [since]. destruct (Nat.eqb_spec h j); [congruence|reflexivity]. }
    assert (Sh : since h (ODropped h :: l) = None) by (cbn; rewrite Nat.eqb_refl; reflexivity).
    assert (F := @swf_forget _ _ h (rm_swf R)).
    assert (Et : tks (y_hs y) h = tk (Some (Hd ps pc))) by (unfold tks; rewrite Ed; reflexivity).
    rewrite Et in F. destruct F as (F1 & F2 & F3).
    destruct ps as [|t| |]; try congruence; cbn [drop_sender].
    - eapply room_event with (1 := R) (2 := Ed) (x := None); ysimp; auto; try reflexivity.
      + intros; discriminate.
      + left; intros; discriminate.
    - eapply room_event with (1 := R) (2 := Ed) (x := None); ysimp; auto; try reflexivity.
      + intros; discriminate.
      + left; intros; discriminate.
    - eapply room_event with (1 := R) (2 := Ed) (x := None); unfold add_permit; ysimp; auto; try reflexivity.
      + apply swf_release. exact F1.
      + rewrite release_permits. cbn [rd]. lia.
      + intros u X _. apply release_granted. exact X.
      + intros; discriminate.
      + left; intros; discriminate.
  Qed.

  Definition alike (y y1 : bsys) (l : list bobs) : Prop :=
    forallb other (rev l) = true /\ y_hs y1 = y_hs y /\ y_hnext y1 = y_hnext y /\ y_closed y1 = y_closed y /\
    (y_sem y1 = y_sem y /\ length (y_queue y1) = length (y_queue y) \/
     y_sem y1 = sem_release (y_sem y) /\ length (y_queue y) = S (length (y_queue y1))).

  Lemma drop_worker_closed k (y : bsys) : y_closed (drop_worker k y) = true.
  Proof. destruct (drop_worker_eq k y) as (m & os & w & -> & _). reflexivity. Qed.
  Lemma die_closed k id (y : bsys) : y_closed (die k id y) = true.
  Proof. unfold die. apply drop_worker_closed. Qed.
  Lemma send_alike id v (y : bsys) : y_hs (os_send id v y) = y_hs y /\ y_hnext (os_send id v y) = y_hnext y /\
    y_closed (os_send id v y) = y_closed y /\ y_sem (os_send id v y) = y_sem y /\ y_queue (os_send id v y) = y_queue y.
  Proof. destruct (send_eq id v y) as [w ->]. ysimp. auto. Qed.

  Lemma alike_same (y y1 : bsys) e : y_hs y1 = y_hs y -> y_hnext y1 = y_hnext y -> y_closed y1 = y_closed y ->
    y_sem y1 = y_sem y -> y_queue y1 = y_queue y -> forallb other (rev e) = true -> alike y y1 e.
  Proof.
    intros A B C D E F. split; [exact F|]. split; [exact A|]. split; [exact B|]. split; [exact C|]. left.
    rewrite E. split; [exact D|reflexivity].
  Qed.
  Ltac same := right; apply alike_same; reflexivity.
  Lemma worker_alike c k (y : bsys) :
    y_closed (fst (worker_step c k y)) = true \/ alike y (fst (worker_step c k y)) (snd (worker_step c k y)).
  Proof.
    assert (Sd : forall id v pc e, forallb other (rev e) = true ->
      alike y (fst (go k pc (os_send id v y), e)) (snd (go k pc (os_send id v y), e))).
    { intros id v pc e F. destruct (send_alike id v y) as (A & B & C & D & E). apply alike_same; cbn; assumption. }
    assert (Di : forall id (y0 : bsys) e, y_closed (fst (die k id y0, e : list bobs)) = true) by (intros; apply die_closed).
    unfold worker_step. destruct (w_pc k) as [| | |m|m|m|m f|m e|m e|m|m].
    - destruct (w_finish k); same.
    - destruct (w_cur k) as [m|]; [|same]. destruct (os_is_closed (m_id m) y); same.
    - unfold poll_recv. destruct c; [same|]. destruct (y_queue y) as [|m q] eqn:Eq.
      + destruct (no_senders y || (y_closed y && (sem_avail (y_sem y) =? y_bound y))); same.
      + right. unfold go, add_permit, alike. cbn [fst snd]. ysimp.
        split; [reflexivity|]. split; [reflexivity|]. split; [reflexivity|]. split; [reflexivity|]. right. rewrite Eq. split; reflexivity.
    - destruct (os_is_closed (m_id m) y); same.
    - destruct (w_failed k); [right; apply Sd; reflexivity|]. destruct (poll_ready svc (w_svc k) (y_w y)) as [w1 [[s1 a]| |]].
      + destruct a as [|[[]|e]]; same.
      + left. apply Di.
      + same.
    - destruct (call svc (w_svc k) (m_req m) (y_w y)) as [w1 [[s1 f]| |]]; [same|left; apply Di|same].
    - right. apply Sd. reflexivity.
    - destruct (y_cell y); same.
    - left. reflexivity.
    - destruct (w_failed k); [right; apply Sd; reflexivity|left; apply Di].
    - same.
  Qed.

  Lemma inner_alike id f (y : bsys) : alike y (fst (poll_inner id f y)) (snd (poll_inner id f y)).
  Proof. unfold poll_inner. destruct (poll_fut svc f (y_w y)) as [w1 [[f1 a]| |]]; apply alike_same; reflexivity. Qed.
  Lemma futs_alike c id f (y : bsys) : alike y (fst (fut_poll c id f y)) (snd (fut_poll c id f y)).
  Proof.
    unfold fut_poll. destruct f as [[e|]| |f]; try (apply alike_same; reflexivity).
    - destruct c; [apply alike_same; reflexivity|].
      destruct (o_val (y_os y id)) as [[f|e]|]; [|apply alike_same; reflexivity|].
      + unfold poll_inner. destruct (poll_fut svc f _) as [w1 [[f1 a]| |]]; apply alike_same; reflexivity.
      + destruct (o_tx (y_os y id)); apply alike_same; reflexivity.
    - apply inner_alike.
  Qed.
  Lemma futd_alike id f (y : bsys) : alike y (fst (fut_drop id f y)) (snd (fut_drop id f y)).
  Proof.
    unfold fut_drop. destruct f as [e| |f]; try (apply alike_same; reflexivity).
    destruct (drop_rx_eq id y) as [w E]. apply alike_same; try reflexivity; cbn [fst set_fs y_hs y_hnext y_closed y_sem y_queue]; rewrite E; reflexivity.
  Qed.

  Lemma closed_stays (y : bsys) e y1 : move y e y1 -> y_closed y = true -> y_closed y1 = true.
  Proof.
    intros M C. destruct M as [| |l y1 H|l y1 H|l y1 H]; auto.
    - destruct H; ysimp; auto.
    - apply fmove_quiet in H. destruct H as (_ & _ & _ & _ & _ & _ & -> & _). exact C.
    - destruct H; ysimp; auto.
  Qed.

  Definition guarded nc bound (y : bsys) (l : list bobs) : Prop :=
    (forall h r, ~ In (OCallPanic h r) l) -> y_closed y = false -> room nc bound y l.

  Lemma room_step nc bound (y : bsys) l o : binv bound y l -> guarded nc bound y l -> (nc = true -> forall h, o <> BStep h true) ->
    guarded nc bound (fst (bstep o y)) (rev (snd (bstep o y)) ++ l).
  Proof.
    intros J G Nc Np Cl.
    assert (Cl0 : y_closed y = false).
    { destruct (y_closed y) eqn:E; [|reflexivity]. exfalso. assert (X := closed_stays (bstep_move o y) E). congruence. }
    assert (R : room nc bound y l).
    { apply G; [|exact Cl0]. intros h r X. apply (Np h r). apply in_or_app. right. exact X. }
    assert (IH := bi_h J). assert (Lt : forall h d, y_hs y h = Some d -> h < y_hnext y) by (intros h d X; exact (ih_lt IH _ X)).
    assert (Al : forall y1 e, alike y y1 e -> room nc bound y1 (rev e ++ l)).
    { intros y1 e (A1 & A2 & A3 & _ & A4). eapply room_other; eauto. }
    destruct o as [h|h r|h c|h|h|id c|id|c| |g]; cbn [bstep] in *.
    - destruct (y_hs y h) as [d|] eqn:Ed; [|exact R]. destruct (at_rest d); [|exact R]. cbn [handle_ready fst snd rev app] in *.
      unfold tx_is_closed. rewrite Cl0. eapply room_pc; eauto; ysimp; auto.
    - destruct (y_hs y h) as [d|] eqn:Ed; [|exact R]. destruct (at_rest d); [|exact R]. apply room_step_call; eauto.
    - destruct (y_hs y h) as [d|] eqn:Ed; [|exact R]. apply room_step_handle; eauto.
      + apply (ih_slot IH).
      + intros N. destruct c; [|reflexivity]. exfalso. eapply Nc; eauto.
    - destruct (y_hs y h) as [d|] eqn:Ed; [|exact R]. destruct (at_rest d); [|exact R].
      apply room_clone; [exact R|]. intros j X. destruct (y_hs y j) eqn:Ej; [eauto|contradiction].
    - destruct (y_hs y h) as [d|] eqn:Ed; [|exact R]. destruct (at_rest d); [|exact R].
      destruct (y_wk y) as [k|] eqn:Ek; [eapply room_step_drop; eauto|]. exfalso.
      destruct (e_state (bi_e J)); congruence.
    - destruct (y_fs y id) as [[f [|]]|]; try exact R. apply Al, futs_alike.
    - destruct (y_fs y id) as [[f b]|]; try exact R. apply Al, futd_alike.
    - destruct (y_wk y) as [k|]; [|exact R]. destruct (worker_alike c k y) as [X|X]; [congruence|]. apply Al, X.
    - destruct (y_wk y) as [k|]; [|exact R]. destruct (worker_rests k); [|exact R]. cbn [fst] in Cl. rewrite drop_worker_closed in Cl. discriminate.
    - apply (Al _ []). apply alike_same; reflexivity.
  Qed.

  Lemma room_run nc bound ops : (nc = true -> never_put_off ops) -> forall (y : bsys) l, binv bound y l -> guarded nc bound y l ->
    guarded nc bound (fst (brun y l ops)) (snd (brun y l ops)).
  Proof.
    induction ops as [|o ops IH]; intros N y l J G; [exact G|]. cbn [brun].
    assert (X := @room_step nc bound y l o J G). assert (Y := binv_step J (bstep_move o y)). destruct (bstep o y) as [y1 e]. cbn [fst snd] in *.
    apply IH.
    - intros E h H. apply (N E h). right. exact H.
    - exact Y.
    - apply X. intros E h ->. apply (N E h). left. reflexivity.
  Qed.
  Lemma room_init nc bound s w : guarded nc bound (bsys0 svc bound s w) [].
  Proof.
    intros _ _.
    assert (T : forall h, tks (y_hs (bsys0 svc bound s w)) h = None).
    { intros h. unfold tks. cbn. unfold upd. destruct (h =? 0); reflexivity. }
    split.
    - split; cbn.
      + intros t [[]|[]].
      + intros h t X. exfalso. specialize (T h). cbn in T. congruence.
      + intros h h' t X. exfalso. specialize (T h). cbn in T. congruence.
      + intros h t X. exfalso. specialize (T h). cbn in T. congruence.
      + reflexivity.
      + constructor.
      + constructor.
      + intros a b [].
    - cbn. unfold permits. cbn. lia.
    - intros h. cbn. unfold upd. destruct (h =? 0); reflexivity.
    - intros h. cbn. unfold upd. destruct (h =? 0); cbn; [|exact I]. split; [discriminate|auto].
    - intros _ h. cbn. unfold upd. destruct (h =? 0); exact I.
    - intros _ h h' t t' n n' X. rewrite T in X. discriminate.
    - intros _ h t _ X. rewrite T in X. discriminate.
  Qed.

  Lemma always_room nc bound s w ops (y : bsys) l : (nc = true -> never_put_off ops) -> buffer_run svc bound s w ops = (y, l) ->
    intact l -> room nc bound y l /\ inv_h y l /\ y_closed y = false /\ waiting l = length (y_queue y).
  Proof.
    intros N E (P & F & G).
    assert (J := binv_always (svc := svc) bound s w ops). unfold buffer_run in E. rewrite E in J. cbn [fst snd] in J.
    assert (R := @room_run nc bound ops N _ _ (@binv_init _ _ _ _ svc bound s w) (@room_init nc bound s w)). rewrite E in R. cbn [fst snd] in R.
    assert (K : y_wk y <> None) by (intros X; apply (e_gone (bi_e J)) in X; contradiction).
    assert (C : y_closed y = false).
    { destruct (e_state (bi_e J)) as [k N0 C W0|N0 C W0 W1|e k m I1|e k m I1|e k I1|e I1]; try congruence; exfalso; eapply F; exact I1. }
    split; [apply R; assumption|]. split; [exact (bi_h J)|]. split; [exact C|].
    destruct (bi_p J) as [_ [[X _]|(X & _)]]; [exact X|contradiction].
  Qed.

  (** What [poll_ready] of a handle at rest says. *)
  Lemma asks (y : bsys) l h d : y_hs y h = Some d -> at_rest d = true -> y_closed y = false ->
    (h_ps d = PsReady \/ (h_ps d = PsIdle \/ exists t, h_ps d = PsAcquiring t) /\ snd (sem_poll (tk (Some d)) (y_sem y)) = true) ->
    snd (brun y l [BReady h; BStep h false]) = OReady h (Ready (Ok tt)) :: l.
  Proof.
    intros E A C H. destruct d as [ps pc]. cbn [brun bstep]. rewrite E, A. cbn [handle_ready put_handle set_hs y_hs tx_is_closed].
    rewrite upd_eq. unfold tx_is_closed. rewrite C. cbn [handle_step h_pc h_ps] in *.
    destruct H as [-> |[[-> |[t ->]] H]].
    - reflexivity.
    - cbn [poll_reserve put_handle set_hs y_closed y_sem]. rewrite C. cbn [tk] in H. destruct (sem_poll None (y_sem y)) as [[m t] got].
      cbn in H. subst got. reflexivity.
    - cbn [poll_reserve put_handle set_hs y_closed y_sem]. rewrite C. cbn [tk] in H. destruct (sem_poll t (y_sem y)) as [[m t1] got].
      cbn in H. subst got. reflexivity.
  Qed.

  (** Tickets and their owners. *)
  Lemma owners m ts l : swf m ts -> (forall t, In t l -> In t (sem_granted m) \/ In t (sem_queue m)) -> NoDup l ->
    exists hs, length hs = length l /\ NoDup hs /\ forall h, In h hs -> exists t, In t l /\ ts h = Some t.
  Proof.
    intros S H N. induction N as [|t l X N IH].
    - exists []. split; [reflexivity|]. split; [constructor|]. intros h [].
    - destruct IH as (hs & L & D & A). { intros u U. apply H. right. exact U. }
      destruct (sw_back S t) as [h Eh]. { apply H. left. reflexivity. }
      exists (h :: hs). split; [cbn; rewrite L; reflexivity|]. split.
      + constructor; [|exact D]. intros Y. destruct (A _ Y) as (u & U & Eu). rewrite Eh in Eu. injection Eu as <-. contradiction.
      + intros j [<-|Y]; [exists t; split; [left; reflexivity|exact Eh]|]. destruct (A _ Y) as (u & U & Eu). exists u. split; [right; exact U|exact Eu].
  Qed.

  Lemma room_left bound s w ops (y : bsys) l h d hs ws :
    buffer_run svc bound s w ops = (y, l) -> intact l ->
    y_hs y h = Some d -> at_rest d = true ->
    (forall j, has_slot j l = true -> In j hs) ->
    (forall j, j <> h -> since j l <> None -> In j ws) ->
    length hs + waiting l + length ws < bound ->
    snd (brun y l [BReady h; BStep h false]) = OReady h (Ready (Ok tt)) :: l.
  Proof.
    intros E Hi Ed A Hh Hw B.
    destruct (@always_room false bound s w ops y l ltac:(discriminate) E Hi) as (R & IH & C & Q).
    apply (@asks y l h d Ed A C). assert (U := rm_usual R h). rewrite Ed in U. destruct d as [ps pc]. cbn in U. destruct U as [U _].
    assert (Sw := rm_swf R).
    (* slots held *)
    assert (Rc : rcount (y_hnext y) (y_hs y) <= length hs).
    { rewrite rcount_filter. apply NoDup_incl_length; [apply NoDup_filter, seq_NoDup|]. intros j J. apply filter_In in J as [_ J].
      apply Hh, (ih_slot IH). unfold rd in J. destruct (y_hs y j) as [[[] pcj]|]; try discriminate. eauto. }
    (* permits on their way to others *)
    assert (Gr : (forall t, tks (y_hs y) h = Some t -> ~ In t (sem_granted (y_sem y))) -> length (sem_granted (y_sem y)) <= length ws).
    { intros Ng. destruct (@owners _ _ (sem_granted (y_sem y)) Sw) as (os & L & D & O); [auto|exact (sw_gd Sw)|].
      rewrite <- L. apply NoDup_incl_length; [exact D|]. intros j J. destruct (O _ J) as (t & Ht & Et). apply Hw.
      - intros ->. exact (Ng _ Et Ht).
      - assert (Lj := rm_line R j). unfold tks in Et. destruct (y_hs y j) as [[[|tj| |] pcj]|]; try discriminate Et. exact Lj. }
    assert (Sum := rm_sum R). unfold permits in Sum. rewrite Q in B.
    destruct ps as [|t| |]; try congruence.
    - right. split; [left; reflexivity|]. cbn [tk]. unfold sem_poll.
      assert (Ng : length (sem_granted (y_sem y)) <= length ws) by (apply Gr; intros t X; unfold tks in X; rewrite Ed in X; discriminate).
      destruct (sem_avail (y_sem y)) eqn:Ea; [lia|reflexivity].
    - right. split; [right; exists t; reflexivity|]. cbn [tk]. destruct t as [i|].
      + unfold sem_poll. destruct (mem_nat i (sem_granted (y_sem y))) eqn:Em; [reflexivity|]. exfalso.
        assert (Ei : tks (y_hs y) h = Some i) by (unfold tks; rewrite Ed; reflexivity).
        assert (Ni : ~ In i (sem_granted (y_sem y))) by (rewrite <- mem_in; congruence).
        assert (Ng : length (sem_granted (y_sem y)) <= length ws) by (apply Gr; intros t X; congruence).
        destruct (sw_forth Sw _ Ei) as [X|X]; [contradiction|]. rewrite (sw_free Sw) in X by lia. destruct X.
      + unfold sem_poll. assert (Ng : length (sem_granted (y_sem y)) <= length ws) by (apply Gr; intros t X; unfold tks in X; rewrite Ed in X; discriminate).
        destruct (sem_avail (y_sem y)) eqn:Ea; [lia|reflexivity].
    - left. reflexivity.
  Qed.

  Lemma not_passed bound s w ops (y : bsys) l h d :
    buffer_run svc bound s w ops = (y, l) -> never_put_off ops -> intact l ->
    y_hs y h = Some d -> at_rest d = true -> passed_by h l ->
    snd (brun y l [BReady h; BStep h false]) = OReady h (Ready (Ok tt)) :: l.
  Proof.
    intros E N Hi Ed A P.
    destruct (@always_room true bound s w ops y l ltac:(intros _; exact N) E Hi) as (R & IH & C & Q).
    apply (@asks y l h d Ed A C). assert (Ln := rm_line R h). rewrite Ed in Ln. assert (Qh := rm_queued R eq_refl h). rewrite Ed in Qh.
    destruct (passed_since P) as (n & Sn & _). destruct d as [[|t| |] pc]; cbn in Ln; try congruence.
    destruct t as [i|]; [|destruct Qh]. right. split; [right; exists (Some i); reflexivity|]. cbn [tk]. unfold sem_poll.
    assert (G := rm_over R eq_refl (h := h) (t := i) P). unfold tks in G. rewrite Ed in G. specialize (G eq_refl).
    apply mem_in in G. rewrite G. reflexivity.
  Qed.
End Room.
