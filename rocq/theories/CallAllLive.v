(** CallAll: when it panics and when a poll returns. *)
From Coq Require Import Permutation.
From Verif Require Import Base Middleware ReadyCache Track ContractSpec CallAll CallAllSpec CallAllQueue CallAllProof CallAllTop.
Set Implicit Arguments.

Section Fus.
  Context {W F O : Type} (fpoll : F -> M W (F * poll O)) (fdrop : F -> W -> W) (sched : nat -> W -> W * list nat).
  Context (ok : F -> Prop).
  Hypothesis Hok : forall f w, ok f ->
    match fpoll f w with (_, Val (f1, a)) => a = Pending -> ok f1 | _ => False end.
  Definition oks {X} (l : list (X * F)) : Prop := Forall (fun p => ok (snd p)) l.

  Lemma Forall_set A (P : A -> Prop) l : forall n y, Forall P l -> P y -> Forall P (set_nth n y l).
  Proof. induction l; intros [|n] y H Hy; cbn; inversion H; subst; constructor; auto. Qed.
  Lemma Forall_remove A (P : A -> Prop) l : forall n, Forall P l -> Forall P (remove_nth n l).
  Proof. induction l; intros [|n] H; cbn; inversion H; subst; auto. Qed.
  Lemma set_nth_len' A l : forall n (y : A), length (set_nth n y l) = length l.
  Proof. induction l; intros [|n] y; cbn; auto. Qed.

  Lemma fus_poll_live X order : forall (l : list (X * F)) w, oks l ->
    match fus_poll fpoll fdrop order l w with
    | (_, Val (l1, o)) => oks l1 /\ length l = match o with Some _ => S (length l1) | None => length l1 end
    | _ => False
    end.
  Proof.
    induction order as [|i order IH]; intros l w H; cbn [fus_poll]; [split; auto|].
    destruct (nth_error l i) as [[k f]|] eqn:N; [|now apply IH]. unfold bind at 1.
    assert (Hf : ok f) by (apply nth_error_In in N; unfold oks in H; rewrite Forall_forall in H; exact (H _ N)).
    generalize (Hok w Hf). destruct (fpoll f w) as [w1 [[f1 a]| |]]; try tauto. intros Ha. destruct a as [|o].
    - assert (H1 : oks (set_nth i (k, f1) l)) by (apply Forall_set; auto).
      generalize (IH _ w1 H1). destruct (fus_poll _ _ _ _ w1) as [w2 [[l1 o]| |]]; auto.
      intros [? E]. split; auto. rewrite <- E. symmetry. apply set_nth_len'.
    - unfold bind, modify, ret. split; [now apply Forall_remove|]. now apply remove_nth_length with (x := (k, f)).
  Qed.
  Lemma fus_next_live X (l : list (X * F)) w : oks l ->
    match fus_next fpoll fdrop sched l w with
    | (_, Val (l1, o)) => oks l1 /\ match o with Ready (Some _) => length l = S (length l1) | _ => True end
    | _ => False
    end.
  Proof.
    intros H. unfold fus_next. destruct l as [|p l]; [split; auto|]. remember (p :: l) as l0. unfold bind at 1.
    destruct (sched (length l0) w) as [w1 o]. unfold bind. generalize (fus_poll_live o w1 H).
    destruct (fus_poll _ _ o l0 w1) as [w2 [[l1 o']| |]]; auto. unfold ret. intros [? ?]. split; auto.
    destruct o'; auto.
  Qed.
  Lemma ord_loop_live fuel : forall q w, oks (oq_prog q) -> length (oq_prog q) < fuel ->
    match ord_loop fpoll fdrop sched fuel q w with (_, Val (q1, _)) => oks (oq_prog q1) | _ => False end.
  Proof.
    induction fuel as [|n IH]; intros q w H Hl; [lia|]. cbn [ord_loop]. unfold bind.
    generalize (fus_next_live w H). destruct (fus_next _ _ _ (oq_prog q) w) as [w1 [[l1 a]| |]]; auto.
    intros [H1 H2]. destruct a as [|[[i o]|]]; [exact H1| |exact H1].
    destruct (i =? oq_out q); [exact H1|]. apply IH; auto. cbn. lia.
  Qed.
End Fus.

Section Live.
  Context {W Req Resp Err : Type} (svc0 : Service W Req Resp Err) (T : Stream W Req).
  Context (sched : nat -> W -> W * list nat).
  Let svc := guard svc0.
  Notation ev := (cev Req Resp Err).
  Notation TW := (W * tk ev)%type.
  Notation fu := (fut (csvc svc)).
  Hypothesis NP : never_panics svc0.
  Hypothesis ND : never_diverges svc0.
  Hypothesis NT : forall t w, exists v, snd (snext T t w) = Val v.

  Definition unfinished (f : fu) : Prop := fst (snd f) = false.
  Lemma fut_live (f : fu) x : unfinished f ->
    match poll_fut (csvc svc) f x with (_, Val (f1, a)) => a = Pending -> unfinished f1 | _ => False end.
  Proof.
    destruct f as [j [b f]], x as [w k]. unfold unfinished. cbn. intros ->. cbn. unfold bind, tk_lift, bind. cbn.
    assert (H1 := np_poll NP f w). assert (H2 := nd_poll ND f w).
    destruct (poll_fut svc0 f w) as [w1 [[f1 a]| |]]; cbn in *; try tauto. intros ->. reflexivity.
  Qed.

  Definition qok (b : bool) : qst (queue svc sched b) -> Prop :=
    match b with
    | true => fun q => oks unfinished (oq_prog q)
    | false => fun q => oks unfinished q
    end.
  Lemma queue_live b q x : qok b q ->
    match q_poll (queue svc sched b) q x with (_, Val (q1, _)) => qok b q1 | _ => False end.
  Proof.
    destruct b; cbn [queue qok].
    - intros H. cbn [ordered ordered_drive q_poll]. unfold ord_next.
      assert (L : match ord_loop (poll_fut (csvc svc)) (drop_fut (csvc svc)) (lsched sched) (S (length (oq_prog q))) q x with
                  | (_, Val (q1, _)) => oks unfinished (oq_prog q1) | _ => False end).
      { apply (@ord_loop_live _ _ _ (poll_fut (csvc svc)) (drop_fut (csvc svc)) (lsched sched) unfinished fut_live); auto. }
      destruct (oq_done q) as [|[i o] h]; [exact L|]. destruct (i =? oq_out q); [exact H|exact L].
    - intros H. cbn [unordered unordered_drive q_poll]. unfold bind.
      generalize (@fus_next_live _ _ _ (poll_fut (csvc svc)) (drop_fut (csvc svc)) (lsched sched) unfinished fut_live _ _ x H).
      destruct (fus_next _ _ _ q x) as [x1 [[l1 a]| |]]; auto. intros [H1 _]. exact H1.
  Qed.
  Lemma queue_push b q (j : nat) f : qok b q -> unfinished (j, f) -> qok b (q_push (queue svc sched b) q (j, f)).
  Proof. destruct b; intros H Hf; apply Forall_app; split; auto; repeat constructor; exact Hf. Qed.

  (** Polling a queue adds only events of response futures. *)
  Lemma ord_loop_ext fuel : forall (q : ordq (F := fu) (O := result Resp Err)) (x : TW),
    exists E, ext x (fst (ord_loop (poll_fut (csvc svc)) (drop_fut (csvc svc)) (lsched sched) fuel q x)) E /\ Forall fut_event E.
  Proof.
    induction fuel as [|n IH]; intros q x; cbn [ord_loop]; [exists []; split; [apply ext_nil|constructor]|].
    unfold bind. generalize (fus_next_ok sched (oq_prog q) x).
    destruct (fus_next _ _ _ (oq_prog q) x) as [x1 [[l a]| |]]; intros (E & H1 & H2 & _); try (exists E; split; [exact H1|exact H2]).
    destruct a as [|[[i o]|]]; try (exists E; split; [exact H1|exact H2]).
    destruct (i =? oq_out q); [exists E; split; [exact H1|exact H2]|].
    match goal with |- context [ord_loop _ _ _ n ?q1 x1] => destruct (IH q1 x1) as (E' & G1 & G2) end.
    exists (E ++ E'). split; [exact (ext_trans H1 G1)|apply Forall_app; auto].
  Qed.
  Lemma queue_ext b q x : exists E, ext x (fst (q_poll (queue svc sched b) q x)) E /\ Forall fut_event E.
  Proof.
    destruct b; cbn [queue].
    - cbn [ordered ordered_drive q_poll]. unfold ord_next.
      destruct (oq_done q) as [|[i o] h]; [apply ord_loop_ext|].
      destruct (i =? oq_out q); [exists []; split; [apply ext_nil|constructor]|apply ord_loop_ext].
    - cbn [unordered unordered_drive q_poll]. unfold bind. generalize (fus_next_ok sched q x).
      destruct (fus_next _ _ _ q x) as [x1 [[l a]| |]]; intros (E & H1 & H2 & _); exists E; split; try exact H1; exact H2.
  Qed.

  Notation ca b := (call_all (csvc svc) (cstream T) (queue svc sched b)).
  (** The service has not failed while there are requests to come; all futures are unfinished. *)
  Definition GI {b} (c : ca b) : Prop :=
    qok b (ca_queue c) /\
    (ca_eof c = false -> match ca_svc c with Some s => fst (snd s) <> Dead | None => True end).

  Definition inner (e : ev) : Prop := match e with CNext _ | CSvc _ => True | _ => False end.
  Definition held {b} (c : ca b) : nat := match ca_req c with Some _ => 1 | None => 0 end.

  Lemma guard_ready (s : st (csvc svc)) x : fst (snd s) <> Dead ->
    match poll_ready (csvc svc) s x with
    | (_, Val (s1, a)) => fst (snd s1) = phase_after a
    | _ => False
    end.
  Proof.
    destruct s as [i [p s]], x as [w k]. cbn. intros Hp. destruct p; [| |congruence];
    unfold bind, tk_lift, bind; cbn;
    assert (H1 := np_ready NP s w); assert (H2 := nd_ready ND s w);
    destruct (poll_ready svc0 s w) as [w1 [[s1 a]| |]]; cbn in *; tauto.
  Qed.
  Lemma guard_call (s : st (csvc svc)) r x : fst (snd s) = Primed ->
    match call (csvc svc) s r x with
    | (_, Val (s1, f)) => fst (snd s1) = Idle /\ unfinished f
    | _ => False
    end.
  Proof.
    destruct s as [i [p s]], x as [w k]. cbn. intros ->. unfold bind, tk_lift, bind; cbn.
    assert (H1 := np_call NP s r w); assert (H2 := nd_call ND s r w).
    destruct (call svc0 s r w) as [w1 [[s1 f]| |]]; cbn in *; try tauto. split; reflexivity.
  Qed.

  Definition live {b} (fuel : nat) (c : ca b) (x : TW) (r : TW * out (ca b * poll (option (result Resp Err)))) : Prop :=
    exists E, chron (fst r) = chron x ++ E /\ Forall inner E /\
    match snd r with
    | Val (c1, _) => GI c1 /\ (ca_svc c = None <-> ca_svc c1 = None)
    | Panic => ca_svc c = None
    | Diverge => fuel <= length (pulled E) + held c + (if ca_eof c then 0 else 1)
    end.

  Lemma ca_next_live b fuel : forall (c : ca b) x, GI c -> live fuel c x (ca_next fuel c x).
  Proof.
    induction fuel as [|n IH]; intros c x [H1 H2].
    { exists []. cbn. rewrite app_nil_r. split; auto. split; [constructor|lia]. }
    cbn [ca_next]. unfold bind at 1.
    assert (Hq := queue_live _ _ x H1). destruct (queue_ext b (ca_queue c) x) as (E & [HE _] & HF).
    destruct (q_poll (queue svc sched b) (ca_queue c) x) as [x1 [[q a]| |]]; try contradiction. cbn [fst] in HE.
    assert (HFy : Forall inner E) by (eapply Forall_impl; [|exact HF]; intros [|[]| | | |]; cbn; tauto).
    assert (Hdisp : ca_eof c = false -> forall t r x2 E2, chron x2 = chron x ++ E2 -> Forall inner E2 ->
      1 <= length (pulled E2) + held c ->
      live (S n) c x ((match ca_svc c with
             | None => panic
             | Some s =>
                 '(s1, a0) <- poll_ready (csvc svc) s ;;
                 match a0 with
                 | Pending => ret (CA (Some s1) t q false (Some r), Pending)
                 | Ready (Er e) => ret (CA (Some s1) t q true (Some r), Ready (Some (Er e)))
                 | Ready (Ok _) =>
                     '(s2, f) <- call (csvc svc) s1 r ;;
                     ca_next n (CA (Some s2) t (q_push (queue svc sched b) q f) false None)
                 end
             end) x2)).
    { intros Heof t r x2 E2 HE2 HY2 Hn. specialize (H2 Heof).
      destruct (ca_svc c) as [s|] eqn:Es; [|exists E2; auto].
      unfold bind at 1. assert (Hr := guard_ready s x2 H2). assert (Hl := ready_csvc s x2).
      destruct (poll_ready (csvc svc) s x2) as [x3 [[s1 a0]| |]]; try contradiction.
      destruct Hl as (i & HE3 & _). destruct a0 as [|[u|e]]; cbn [phase_after] in Hr.
      - exists (E2 ++ [CSvc (TReady i Pending)]). unfold ret. cbn [fst snd]. rewrite Es. split; [now rewrite app_assoc, <- HE2|].
        split; [apply Forall_app; split; [assumption|repeat constructor]|].
        split; [|cbn; split; discriminate]. split; cbn [ca_queue ca_eof ca_svc]; [exact Hq|]. intros _. rewrite Hr. discriminate.
      - unfold bind. assert (Hc := guard_call s1 r x3 Hr). assert (Hl := call_csvc s1 r x3).
        destruct (call (csvc svc) s1 r x3) as [x4 [[s2 f]| |]]; try contradiction.
        destruct Hc as [Hc1 Hc2], Hl as (i' & _ & HE4 & _).
        assert (G : GI (b := b) (CA (Some s2) t (q_push (queue svc sched b) q f) false None)).
        { split; cbn [ca_queue ca_eof ca_svc]; [destruct f as [j f]; apply queue_push; auto|]. intros _. rewrite Hc1. discriminate. }
        destruct (IH _ x4 G) as (E5 & HE5 & HY5 & Hn5). cbn [ca_svc ca_eof] in Hn5.
        exists (E2 ++ [CSvc (TReady i (Ready (Ok u)))] ++ [CSvc (TCall i' r (fst f))] ++ E5).
        rewrite Es, Heof, HE5, HE4, HE3, HE2, <- !app_assoc. split; [reflexivity|].
        split; [rewrite !Forall_app; split; [assumption|]; split; [repeat constructor|]; split; [repeat constructor|assumption]|].
        destruct (snd (ca_next n _ x4)) as [[c5 a5]| |].
        + destruct Hn5 as [G1 G2]. split; [assumption|]. rewrite <- G2. split; discriminate.
        + discriminate.
        + rd. rewrite !app_length. unfold held in Hn5; cbn in Hn5 |- *. lia.
      - exists (E2 ++ [CSvc (TReady i (Ready (Er e)))]). unfold ret. cbn [fst snd]. rewrite Es. split; [now rewrite app_assoc, <- HE2|].
        split; [apply Forall_app; split; [assumption|repeat constructor]|].
        split; [|cbn; split; discriminate]. split; cbn; [exact Hq|discriminate]. }
    assert (Hpull : ca_eof c = false -> forall D,
      (forall t r x2 E2, chron x2 = chron x ++ E2 -> Forall inner E2 ->
      1 <= length (pulled E2) + held c -> live (S n) c x (D t r x2)) ->
      live (S n) c x (('(t1, a0) <- snext (cstream T) (ca_stream c) ;;
             match a0 with
             | Pending => ret (CA (ca_svc c) t1 q false None, Pending)
             | Ready None => ca_next n (CA (ca_svc c) t1 q true None)
             | Ready (Some r) => D t1 r
             end) x1)).
    { intros Heof D HD. unfold bind at 1. assert (Hl := @next_cstream _ _ Resp Err T (ca_stream c) x1).
      assert (Hv : exists v, snd (snext (cstream T) (ca_stream c) x1) = Val v).
      { destruct x1 as [w1 k1]. cbn. unfold bind, tk_lift. cbn. destruct (NT (ca_stream c) w1) as [[t1 v] Hv].
        destruct (snext T (ca_stream c) w1) as [w2 o]. cbn in Hv. subst o. cbn. eauto. }
      destruct (snext (cstream T) (ca_stream c) x1) as [x2 [[t1 a0]| |]]; try (destruct Hv; discriminate).
      destruct Hl as [HE2 _]. destruct a0 as [|[r|]].
      - exists (E ++ [CNext Pending]). unfold ret. cbn [fst snd]. split; [now rewrite app_assoc, <- HE|].
        split; [apply Forall_app; split; [assumption|repeat constructor]|].
        split; [|cbn; tauto]. split; cbn [ca_queue ca_eof ca_svc]; [exact Hq|]. intros _. exact (H2 Heof).
      - apply (HD t1 r x2 (E ++ [CNext (Ready (Some r))])).
        + now rewrite HE2, HE, app_assoc.
        + rewrite Forall_app. split; auto. repeat constructor.
        + rd. rewrite app_length. cbn. lia.
      - assert (G : GI (b := b) (CA (ca_svc c) t1 q true None)) by (split; cbn; [exact Hq|discriminate]).
        destruct (IH _ x2 G) as (E3 & HE3 & HY3 & Hn3). cbn [ca_svc ca_eof] in Hn3.
        exists (E ++ [CNext (Ready None)] ++ E3).
        rewrite HE3, HE2, HE, <- !app_assoc. split; [reflexivity|].
        split; [rewrite !Forall_app; split; [assumption|]; split; [repeat constructor|assumption]|].
        destruct (snd (ca_next n _ x2)) as [[c5 a5]| |]; auto.
        rewrite Heof. rd. rewrite !app_length. unfold held in Hn3; cbn in Hn3 |- *. lia. }
    assert (Hstop : forall e req p, (e = false -> ca_eof c = false) ->
      live (S n) c x (x1, Val (CA (ca_svc c) (ca_stream c) q e req, p))).
    { intros e req p He. exists E. split; [exact HE|]. split; [assumption|]. split; [|cbn; tauto].
      split; cbn [ca_queue ca_eof ca_svc]; [exact Hq|]. intros Hee. exact (H2 (He Hee)). }
    destruct a as [|[o|]].
    - destruct (ca_eof c) eqn:Eeof.
      + apply Hstop. discriminate.
      + destruct (ca_req c) as [r|] eqn:Er; [|apply Hpull; [reflexivity|apply Hdisp; reflexivity]].
        apply (Hdisp eq_refl _ _ x1 E HE HFy). unfold held. rewrite Er. lia.
    - apply Hstop. auto.
    - destruct (ca_eof c) eqn:Eeof.
      + apply Hstop. discriminate.
      + destruct (ca_req c) as [r|] eqn:Er; [|apply Hpull; [reflexivity|apply Hdisp; reflexivity]].
        apply (Hdisp eq_refl _ _ x1 E HE HFy). unfold held. rewrite Er. lia.
  Qed.

  Lemma psy_app (l m : list ev) : Forall inner m -> pulls_since_yield (l ++ m) = pulls_since_yield l + length (pulled m).
  Proof.
    unfold pulls_since_yield. rewrite fold_left_app. generalize (fold_left
      (fun n (e : ev) => match e with CYield _ => 0 | CNext (Ready (Some _)) => S n | _ => n end) l 0).
    intros k H. revert k. induction H as [|e m He _ IH]; intros k; [cbn; lia|].
    cbn [fold_left]. rewrite IH. change (e :: m) with ([e] ++ m). rewrite pulled_app, app_length.
    destruct e as [[|[r|]]| | | | |]; cbn in *; try lia; try contradiction.
  Qed.

  Definition bad (e : ev) : Prop := match e with CPanic | CDiverge => True | _ => False end.
  Lemma ca_run_live b fuel ops : forall (c : ca b) x, GI c ->
    (ca_svc c = None -> In CTook (chron x)) -> Forall (fun e => ~ bad e) (chron x) ->
    let l := chron (fst (ca_run svc T (queue svc sched b) fuel c x ops)) in
    (In CPanic l -> In CTook l) /\
    (In CDiverge l -> fuel <= pulls_since_yield l + 2).
  Proof.
    assert (Em : forall (e : ev) (y : TW), chron (fst (tk_emit e y)) = chron y ++ [e]) by (intros; apply (ext_emit y e)).
    assert (Nb : forall l : list ev, Forall (fun e => ~ bad e) l -> ~ In CPanic l /\ ~ In CDiverge l).
    { intros l H. rewrite Forall_forall in H. split; intros Hi; exact (H _ Hi I). }
    assert (In_inner : forall E : list ev, Forall inner E -> Forall (fun e => ~ bad e) E)
      by (intros E; apply Forall_impl; intros []; cbn; tauto).
    induction ops as [|[g o] ops IH]; intros c x HG HT HB.
    { cbn. destruct (Nb _ HB). tauto. }
    cbn [ca_run]. destruct o.
    - unfold bind. destruct (ca_next_live fuel (tk_env g x) HG) as (E & HE & HI & HR).
      change (chron (tk_env g x)) with (chron x) in HE.
      destruct (ca_next fuel c (tk_env g x)) as [x1 [[c1 a]| |]]; cbn [fst snd] in *.
      + destruct HR as [G1 G2]. unfold ret. apply IH; auto.
        * rewrite Em, HE. intros Hn. apply in_or_app. left. apply in_or_app. left. tauto.
        * rewrite Em, HE, !Forall_app. split; [split; auto|repeat constructor; cbn; tauto].
      + rewrite Em, HE. split; [intros _|].
        * apply in_or_app. left. apply in_or_app. left. auto.
        * intros Hi. exfalso. apply in_app_or in Hi. destruct Hi as [Hi|[Hi|[]]]; [|discriminate].
          apply in_app_or in Hi. destruct (Nb _ HB), (Nb _ (In_inner _ HI)). tauto.
      + rewrite Em, HE. split.
        * intros Hi. exfalso. apply in_app_or in Hi. destruct Hi as [Hi|[Hi|[]]]; [|discriminate].
          apply in_app_or in Hi. destruct (Nb _ HB), (Nb _ (In_inner _ HI)). tauto.
        * intros _. assert (P1 : pulls_since_yield ((chron x ++ E) ++ [CDiverge]) = pulls_since_yield (chron x ++ E))
            by (unfold pulls_since_yield; rewrite fold_left_app; reflexivity).
          rewrite P1, psy_app by assumption. unfold held in HR. destruct (ca_req c), (ca_eof c); lia.
    - unfold ca_take. destruct (ca_svc c) as [s|] eqn:Es.
      + unfold bind, ret. apply IH.
        * destruct HG as [G1 G2]. split; cbn; auto.
        * rewrite Em. intros _. apply in_or_app. right. now left.
        * rewrite Em, Forall_app. split; [assumption|repeat constructor; cbn; tauto].
      + unfold bind, panic. cbn [fst]. rewrite Em. change (chron (tk_env g x)) with (chron x). split.
        * intros _. apply in_or_app. auto.
        * intros Hi. exfalso. apply in_app_or in Hi. destruct (Nb _ HB). destruct Hi as [Hi|[Hi|[]]]; [tauto|discriminate].
  Qed.

  Lemma ca_log_live b fuel s t w ops : fst s <> Dead ->
    let l := ca_log svc T (queue svc sched b) fuel s t w ops in
    (In CPanic l -> In CTook l) /\
    (In CDiverge l -> fuel <= pulls_since_yield l + 2).
  Proof.
    intros Hs. apply ca_run_live.
    - split; cbn; [destruct b; constructor|]. intros _. exact Hs.
    - discriminate.
    - constructor.
  Qed.
End Live.
