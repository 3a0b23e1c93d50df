(** CallAll: the theorems for the two kinds of queue. *)
From Coq Require Import Permutation.
From Verif Require Import Base Middleware ReadyCache Track CallAll CallAllSpec CallAllQueue CallAllProof.
Set Implicit Arguments.

Section Top.
  Context {W Req Resp Err : Type} (svc : Service W Req Resp Err) (T : Stream W Req).
  Context (sched : nat -> W -> W * list nat).
  Notation ev := (cev Req Resp Err).
  Notation res := (result Resp Err).

  Lemma OI_new : @OI W Req Resp Err svc (q_new (ordered svc sched)) [] [] [].
  Proof. unfold OI. cbn. repeat split; auto; try constructor; intros; contradiction. Qed.
  Lemma UI_new : @UI _ _ _ _ svc (q_new (unordered svc sched)) [] [] [].
  Proof. split; [constructor|reflexivity]. Qed.
  Lemma OI_done q P Y C : @OI W Req Resp Err svc q P Y C -> length Y = length P -> OP P Y C.
  Proof. intros _ E j Hj. exfalso. assert (length Y < length P) by (apply nth_error_Some; congruence). lia. Qed.
  Lemma UI_UL q P Y C : @UI _ _ _ _ svc q P Y C -> UL P Y C.
  Proof. intros [H1 H2]. split; eauto. Qed.
  Definition UP (P : list nat) (Y : list res) (C : list (nat * res)) : Prop := Y = map snd C.
  Lemma unordered_ok' q P Y C x : @UI _ _ _ _ svc q P Y C -> NoDup P ->
    match q_poll (unordered svc sched) q x with
    | (x1, Val (q1, a)) => exists E, ext x x1 E /\ Forall fut_event E /\
        match a with
        | Ready (Some o) => @UI _ _ _ _ svc q1 P (Y ++ [o]) (C ++ completions E)
        | Ready None => @UI _ _ _ _ svc q1 P Y (C ++ completions E) /\ q_empty (unordered svc sched) q1 = true
        | Pending => @UI _ _ _ _ svc q1 P Y (C ++ completions E) /\ q_empty (unordered svc sched) q1 = false /\
                     UP P Y (C ++ completions E)
        end
    | (x1, _) => exists E, ext x x1 E /\ Forall fut_event E /\ UL P Y (C ++ completions E)
    end.
  Proof.
    intros H _. generalize (unordered_ok sched x H).
    destruct (q_poll (unordered svc sched) q x) as [x1 [[q1 [|[o|]]]| |]]; auto.
    intros (E & H1 & H2 & H3 & H4). exists E. split; [assumption|split; [assumption|]]. split; [assumption|].
    split; [assumption|]. exact (proj2 H3).
  Qed.
  Lemma UI_done q P Y C : @UI _ _ _ _ svc q P Y C -> length Y = length P -> UP P Y C.
  Proof. intros [_ H] _. exact H. Qed.

  Lemma distinct (l : list ev) R : NoDup (map snd (calls l)) ->
    Permutation (map snd (calls l)) (R ++ map fst (completions l)) -> calls_distinct l.
  Proof.
    intros N Pm. assert (N' := Permutation_NoDup Pm N). split; [assumption|]. split.
    - clear - N'. induction R; [exact N'|]. inversion N'; auto.
    - intros j o Hin. eapply Permutation_in; [symmetry; exact Pm|]. apply in_or_app. right.
      apply (in_map fst) in Hin. exact Hin.
  Qed.
  Lemma in_order (l : list ev) Y : Forall2 (fun j o => In (j, o) (completions l)) (firstn (length Y) (map snd (calls l))) Y ->
    answers_in_order l Y.
  Proof.
    unfold answers_in_order. rewrite firstn_map. generalize (firstn (length Y) (calls l)). intros m H.
    remember (map snd m) as k eqn:E. revert m E. induction H; intros [|p m] E; try discriminate; [constructor|].
    cbn in E. injection E as -> ->. constructor; auto.
  Qed.


  Notation inst lem := (lem OI_new (OI_push sched) (@ordered_ok _ _ _ _ svc sched)
     (OI_empty sched) (OI_full sched) (@OI_OL _ _ _ _ svc) OI_done).
  Notation uinst lem := (lem UI_new (UI_push sched) unordered_ok'
     (UI_empty sched) (UI_full sched) UI_UL UI_done).

  (** ** Ordered *)
  Lemma ordered_answers fuel s t w ops :
    let l := ca_log svc T (ordered svc sched) fuel s t w ops in
    calls_distinct l /\ exists Y, yields_are l Y /\ answers_in_order l Y.
  Proof.
    cbn zeta.
    destruct (inst (@ca_log_CL _ _ _ _ svc T (ordered svc sched) (@OI _ _ _ _ svc) (@OL Resp Err) (@OP Resp Err)) fuel s t w ops)
      as [_ (Y & [(R & H1) H2] & H3) H4 _].
    split; [eapply distinct; eauto|]. exists Y. split; [assumption|]. now apply in_order.
  Qed.
  Lemma ordered_end fuel s t w ops :
    let l := ca_log svc T (ordered svc sched) fuel s t w ops in
    last_is l (CYield (Ready None)) ->
    (exists Y, yields_are l Y /\ answers_in_order l Y /\ length Y = length (calls l)) /\
    ((stream_ended l /\ failures l = [] /\ pulled l = map fst (calls l)) \/
     (exists e r, failures l = [e] /\ pulled l = map fst (calls l) ++ [r])).
  Proof.
    cbn zeta. intros (l1 & E).
    destruct (inst (@ca_log_end _ _ _ _ svc T (ordered svc sched) (@OI _ _ _ _ svc) (@OL Resp Err) (@OP Resp Err)) fuel s t w ops l1 E)
      as [(Y & [_ H2] & H3 & H4) H5].
    split; [|exact H5]. exists Y. split; [assumption|]. split; [now apply in_order|assumption].
  Qed.
  Lemma ordered_prompt fuel s t w ops :
    let l := ca_log svc T (ordered svc sched) fuel s t w ops in
    last_is l (CYield Pending) ->
    exists Y, yields_are l Y /\
      forall r j, nth_error (calls l) (length Y) = Some (r, j) -> forall o, ~ In (j, o) (completions l).
  Proof.
    cbn zeta. intros (l1 & E).
    destruct (inst (@ca_log_pending _ _ _ _ svc T (ordered svc sched) (@OI _ _ _ _ svc) (@OL Resp Err) (@OP Resp Err)) fuel s t w ops l1 E)
      as (Y & H1 & H2 & _).
    exists Y. rewrite E. split.
    - eapply yields_are_same; [| |exact H1]; rd; cbn; now rewrite app_nil_r.
    - rd. cbn. rewrite !app_nil_r. intros r j Hn o Hin. apply (H2 j).
      + now rewrite (map_nth_error snd _ _ Hn).
      + apply (in_map fst) in Hin. exact Hin.
  Qed.

  (** ** Unordered *)
  Lemma unordered_answers fuel s t w ops :
    let l := ca_log svc T (unordered svc sched) fuel s t w ops in
    calls_distinct l /\ yields_are l (map snd (completions l)).
  Proof.
    cbn zeta.
    destruct (uinst (@ca_log_CL _ _ _ _ svc T (unordered svc sched) (@UI _ _ _ _ svc) (@UL Resp Err) UP) fuel s t w ops)
      as [_ (Y & [(R & H1) H2] & H3) H4 _].
    split; [eapply distinct; eauto|]. subst Y. exact H3.
  Qed.
  Lemma unordered_end fuel s t w ops :
    let l := ca_log svc T (unordered svc sched) fuel s t w ops in
    last_is l (CYield (Ready None)) ->
    length (completions l) = length (calls l) /\
    ((stream_ended l /\ failures l = [] /\ pulled l = map fst (calls l)) \/
     (exists e r, failures l = [e] /\ pulled l = map fst (calls l) ++ [r])).
  Proof.
    cbn zeta. intros (l1 & E).
    destruct (uinst (@ca_log_end _ _ _ _ svc T (unordered svc sched) (@UI _ _ _ _ svc) (@UL Resp Err) UP) fuel s t w ops l1 E)
      as [(Y & [_ H2] & H3 & H4) H5].
    split; [|exact H5]. subst Y. rewrite map_length in H4. exact H4.
  Qed.

  (** ** Both *)
  Definition queue (b : bool) := if b then ordered svc sched else unordered svc sched.
  Lemma both_dispatched b fuel s t w ops :
    let l := ca_log svc T (queue b) fuel s t w ops in
    (exists rest, pulled l = map fst (calls l) ++ rest /\ length rest <= 1) /\ quiet_after_end l.
  Proof.
    cbn zeta. destruct b; cbn [queue].
    - destruct (inst (@ca_log_CL _ _ _ _ svc T (ordered svc sched) (@OI _ _ _ _ svc) (@OL Resp Err) (@OP Resp Err)) fuel s t w ops)
        as [(o & H) _ _ H4]. split; [|assumption]. exists (opt o). split; [assumption|]. destruct o; cbn; lia.
    - destruct (uinst (@ca_log_CL _ _ _ _ svc T (unordered svc sched) (@UI _ _ _ _ svc) (@UL Resp Err) UP) fuel s t w ops)
        as [(o & H) _ _ H4]. split; [|assumption]. exists (opt o). split; [assumption|]. destruct o; cbn; lia.
  Qed.
  Lemma both_pending b fuel s t w ops l :
    ca_log svc T (queue b) fuel s t w ops = l ++ [CYield Pending] ->
    (over l /\ exists Y, yields_are l Y /\ length Y < length (calls l)) \/
    (last_is l (CNext Pending) /\ pulled l = map fst (calls l)) \/
    ((exists i, last_is l (CSvc (TReady i Pending))) /\ exists r, pulled l = map fst (calls l) ++ [r]).
  Proof.
    intros E. destruct b; cbn [queue] in E.
    - destruct (inst (@ca_log_pending _ _ _ _ svc T (ordered svc sched) (@OI _ _ _ _ svc) (@OL Resp Err) (@OP Resp Err)) fuel s t w ops l E)
        as (Y & H1 & _ & [[? ?]|H3]); eauto.
    - destruct (uinst (@ca_log_pending _ _ _ _ svc T (unordered svc sched) (@UI _ _ _ _ svc) (@UL Resp Err) UP) fuel s t w ops l E)
        as (Y & H1 & _ & [[? ?]|H3]); eauto.
  Qed.
  (** ** Converting with [unordered()] *)
  Lemma yields_are_len (l : list ev) Y Y' : yields_are l Y -> yields_are l Y' -> length Y = length Y'.
  Proof.
    unfold yields_are. destruct (failures l) as [|e [|]]; [congruence| |tauto].
    intros (A & B & -> & E) (A' & B' & -> & E'). rewrite E in E'. apply (f_equal (@length _)) in E'. revert E'.
    rewrite !app_length. cbn. lia.
  Qed.
  Lemma ca_next_svc (Q : Drive (W * tk ev) (fut (csvc svc)) res) fuel : forall (c : call_all (csvc svc) (cstream T) Q) x x1 c1 a,
    ca_next fuel c x = (x1, Val (c1, a)) -> ca_svc c <> None -> ca_svc c1 <> None.
  Proof.
    induction fuel as [|fuel IH]; intros c x x1 c1 a; [discriminate|]. cbn [ca_next]. unfold bind at 1.
    destruct (q_poll Q (ca_queue c) x) as [x2 [[q b]| |]]; [|discriminate|discriminate].
    assert (K : forall (t : sst (cstream T)) (r : Req) (y : W * tk ev),
      match ca_svc c with
      | None => panic
      | Some s => '(s1, b) <- poll_ready (csvc svc) s ;;
          match b with
          | Pending => ret (CA (Some s1) t q false (Some r), Pending)
          | Ready (Er e) => ret (CA (Some s1) t q true (Some r), Ready (Some (Er e)))
          | Ready (Ok _) => '(s2, f) <- call (csvc svc) s1 r ;; ca_next fuel (CA (Some s2) t (q_push Q q f) false None)
          end
      end y = (x1, Val (c1, a)) -> ca_svc c <> None -> ca_svc c1 <> None).
    { intros t r y. destruct (ca_svc c) as [s|]; [|discriminate]. unfold bind.
      destruct (poll_ready (csvc svc) s y) as [y1 [[s1 [|[u|e]]]| |]]; try discriminate; unfold ret.
      - intros [= _ <- _] _. discriminate.
      - destruct (call (csvc svc) s1 r y1) as [y2 [[s2 f]| |]]; try discriminate. intros H _. eapply IH; [exact H|discriminate].
      - intros [= _ <- _] _. discriminate. }
    assert (K2 : (if ca_eof c
        then ret (CA (ca_svc c) (ca_stream c) q true (ca_req c), if q_empty Q q then Ready None else Pending)
        else match ca_req c with
             | Some r => match ca_svc c with
                 | None => panic
                 | Some s => '(s1, b) <- poll_ready (csvc svc) s ;;
                     match b with
                     | Pending => ret (CA (Some s1) (ca_stream c) q false (Some r), Pending)
                     | Ready (Er e) => ret (CA (Some s1) (ca_stream c) q true (Some r), Ready (Some (Er e)))
                     | Ready (Ok _) => '(s2, f) <- call (csvc svc) s1 r ;; ca_next fuel (CA (Some s2) (ca_stream c) (q_push Q q f) false None)
                     end
                 end
             | None => '(t1, b) <- snext (cstream T) (ca_stream c) ;;
                 match b with
                 | Pending => ret (CA (ca_svc c) t1 q false None, Pending)
                 | Ready None => ca_next fuel (CA (ca_svc c) t1 q true None)
                 | Ready (Some r) => match ca_svc c with
                     | None => panic
                     | Some s => '(s1, b) <- poll_ready (csvc svc) s ;;
                         match b with
                         | Pending => ret (CA (Some s1) t1 q false (Some r), Pending)
                         | Ready (Er e) => ret (CA (Some s1) t1 q true (Some r), Ready (Some (Er e)))
                         | Ready (Ok _) => '(s2, f) <- call (csvc svc) s1 r ;; ca_next fuel (CA (Some s2) t1 (q_push Q q f) false None)
                         end
                     end
                 end
             end) x2 = (x1, Val (c1, a)) -> ca_svc c <> None -> ca_svc c1 <> None).
    { destruct (ca_eof c); [intros [= _ <- _]; auto|]. destruct (ca_req c) as [r|]; [apply K|].
      unfold bind at 1. destruct (snext (cstream T) (ca_stream c) x2) as [x3 [[t1 [|[r|]]]| |]]; try discriminate.
      - intros [= _ <- _]; auto.
      - apply K.
      - intros H N. eapply IH; [exact H|exact N]. }
    destruct b as [|[r|]]; [exact K2|intros [= _ <- _]; auto|exact K2].
  Qed.
  Lemma ca_next_none (Q : Drive (W * tk ev) (fut (csvc svc)) res) fuel : forall (c : call_all (csvc svc) (cstream T) Q) x x1 c1 a,
    ca_next fuel c x = (x1, Val (c1, a)) -> ca_svc c = None -> ca_svc c1 = None.
  Proof.
    induction fuel as [|fuel IH]; intros c x x1 c1 a; [discriminate|]. cbn [ca_next]. unfold bind at 1.
    destruct (q_poll Q (ca_queue c) x) as [x2 [[q b]| |]]; [|discriminate|discriminate].
    assert (K : forall (t : sst (cstream T)) (r : Req) (y : W * tk ev),
      match ca_svc c with
      | None => panic
      | Some s => '(s1, b) <- poll_ready (csvc svc) s ;;
          match b with
          | Pending => ret (CA (Some s1) t q false (Some r), Pending)
          | Ready (Er e) => ret (CA (Some s1) t q true (Some r), Ready (Some (Er e)))
          | Ready (Ok _) => '(s2, f) <- call (csvc svc) s1 r ;; ca_next fuel (CA (Some s2) t (q_push Q q f) false None)
          end
      end y = (x1, Val (c1, a)) -> ca_svc c = None -> ca_svc c1 = None).
    { intros t r y. destruct (ca_svc c) as [s|]; [intros _ N; discriminate N|discriminate]. }
    assert (K2 : (if ca_eof c
        then ret (CA (ca_svc c) (ca_stream c) q true (ca_req c), if q_empty Q q then Ready None else Pending)
        else match ca_req c with
             | Some r => match ca_svc c with
                 | None => panic
                 | Some s => '(s1, b) <- poll_ready (csvc svc) s ;;
                     match b with
                     | Pending => ret (CA (Some s1) (ca_stream c) q false (Some r), Pending)
                     | Ready (Er e) => ret (CA (Some s1) (ca_stream c) q true (Some r), Ready (Some (Er e)))
                     | Ready (Ok _) => '(s2, f) <- call (csvc svc) s1 r ;; ca_next fuel (CA (Some s2) (ca_stream c) (q_push Q q f) false None)
                     end
                 end
             | None => '(t1, b) <- snext (cstream T) (ca_stream c) ;;
                 match b with
                 | Pending => ret (CA (ca_svc c) t1 q false None, Pending)
                 | Ready None => ca_next fuel (CA (ca_svc c) t1 q true None)
                 | Ready (Some r) => match ca_svc c with
                     | None => panic
                     | Some s => '(s1, b) <- poll_ready (csvc svc) s ;;
                         match b with
                         | Pending => ret (CA (Some s1) t1 q false (Some r), Pending)
                         | Ready (Er e) => ret (CA (Some s1) t1 q true (Some r), Ready (Some (Er e)))
                         | Ready (Ok _) => '(s2, f) <- call (csvc svc) s1 r ;; ca_next fuel (CA (Some s2) t1 (q_push Q q f) false None)
                         end
                     end
                 end
             end) x2 = (x1, Val (c1, a)) -> ca_svc c = None -> ca_svc c1 = None).
    { destruct (ca_eof c); [intros [= _ <- _]; auto|]. destruct (ca_req c) as [r|]; [apply K|].
      unfold bind at 1. destruct (snext (cstream T) (ca_stream c) x2) as [x3 [[t1 [|[r|]]]| |]]; try discriminate.
      - intros [= _ <- _]; auto.
      - apply K.
      - intros H N. eapply IH; [exact H|exact N]. }
    destruct b as [|[r|]]; [exact K2|intros [= _ <- _]; auto|exact K2].
  Qed.
  Lemma ca_run_none (Q : Drive (W * tk ev) (fut (csvc svc)) res) fuel ops : forall (c : call_all (csvc svc) (cstream T) Q) x x1 c1,
    ca_run svc T Q fuel c x ops = (x1, Some c1) -> ca_svc c = None \/ In CTake (map snd ops) -> ca_svc c1 = None.
  Proof.
    induction ops as [|[g o] ops IH]; intros c x x1 c1.
    - intros [= _ <-] [N|[]]; exact N.
    - cbn [ca_run map snd In]. destruct o; unfold bind.
      + destruct (ca_next fuel c (tk_env g x)) as [x2 [[c2 a]| |]] eqn:E; cbn; try discriminate.
        intros H [N|[N|N]]; [|discriminate N|]; (eapply IH; [exact H|]); [left; eapply ca_next_none; [exact E|exact N]|right; exact N].
      + unfold ca_take. destruct (ca_svc c) as [s|]; cbn; try discriminate.
        intros H _. eapply IH; [exact H|]. now left.
  Qed.
  Lemma ca_run_svc (Q : Drive (W * tk ev) (fut (csvc svc)) res) fuel ops : Forall (fun o => snd o = CPoll) ops ->
    forall (c : call_all (csvc svc) (cstream T) Q) x x1 c1,
    ca_run svc T Q fuel c x ops = (x1, Some c1) -> ca_svc c <> None -> ca_svc c1 <> None.
  Proof.
    induction 1 as [|[g o] ops Ho _ IH]; intros c x x1 c1; [intros [= _ <-]; auto|]. cbn [snd] in Ho. subst o. cbn [ca_run]. unfold bind.
    destruct (ca_next fuel c (tk_env g x)) as [x2 [[c2 a]| |]] eqn:E; cbn; try discriminate.
    intros H N. eapply IH; [exact H|]. eapply ca_next_svc; [exact E|exact N].
  Qed.

  Lemma convert_guard fuel s t w ops1 :
    let l := ca_log svc T (ordered svc sched) fuel s t w ops1 in
    ~ In CPanic l -> ~ In CDiverge l ->
    ((over l \/ (exists Y, yields_are l Y /\ length Y < length (calls l)) \/ In CTake (map snd ops1)) ->
      forall ops2, convert_log svc T sched fuel s t w ops1 ops2 = l ++ [CPanic]) /\
    (~ over l -> yields_are l (yields l) -> length (yields l) = length (calls l) -> Forall (fun o => snd o = CPoll) ops1 ->
      convert_log svc T sched fuel s t w ops1 [] = l).
  Proof.
    cbn zeta. unfold ca_log, convert_log.
    assert (G := inst (@ca_log_good _ _ _ _ svc T (ordered svc sched) (@OI _ _ _ _ svc) (@OL Resp Err) (@OP Resp Err)) fuel s t w ops1).
    destruct (ca_run _ _ _ _ _ _ _) as [x [c|]] eqn:Er; unfold good in G; cbn [fst snd] in *.
    2: { intros H1 H2. destruct G as [_ [(l1 & E)|(l1 & E)]]; unfold chron in E; rewrite E in *; exfalso;
         [apply H1|apply H2]; apply in_or_app; right; now left. }
    destruct G as [[G1 (Y & G2 & G2') G3 G4 G5 G6] _]. unfold chron in *. intros _ _. split.
    - intros Hu ops2. unfold ca_unordered.
      assert (Hn : In CTake (map snd ops1) -> ca_svc c = None) by (intros Ht; eapply ca_run_none; [exact Er|right; exact Ht]).
      assert (Hu' : (over (rev (log_of x)) \/ (exists Y, yields_are (rev (log_of x)) Y /\ length Y < length (calls (rev (log_of x))))) \/
        In CTake (map snd ops1)) by tauto.
      clear Hu. destruct Hu' as [Hu|Ht].
      2: { rewrite (Hn Ht). destruct (q_empty _ _ && _); unfold panic, log_of, tk_emit; destruct x as [w1 [n1 l1]]; reflexivity. }
      assert (B : q_empty (ordered svc sched) (ca_queue c) && negb (ca_eof c) = false).
      { destruct Hu as [Ho|(Y' & HY & HL)].
        - destruct (ca_eof c); [apply andb_false_r|]. exfalso. destruct Ho as [Ho|Ho].
          + rewrite Forall_forall in G5. apply (G5 _ Ho). exact I.
          + apply Ho. apply no_end_failures. exact G5.
        - destruct (q_empty (ordered svc sched) (ca_queue c)) eqn:Eq; [|reflexivity]. exfalso.
          assert (L := OI_empty sched G2 Eq). rewrite map_length in L. rewrite (yields_are_len _ _ _ G2' HY) in L. lia. }
      rewrite B. unfold panic. unfold log_of, tk_emit. destruct x as [w1 [n1 l1]]. reflexivity.
    - intros No HY HL Hp. unfold ca_unordered.
      assert (S0 : ca_svc c <> None) by (eapply ca_run_svc; [exact Hp|exact Er|discriminate]).
      assert (Eof : ca_eof c = false).
      { destruct (ca_eof c); [|reflexivity]. exfalso. apply No. destruct G5 as [(? & _)|((e & E) & _)]; [left; auto|right; congruence]. }
      assert (Q0 : q_empty (ordered svc sched) (ca_queue c) = true).
      { destruct (q_empty (ordered svc sched) (ca_queue c)) eqn:Eq; [reflexivity|]. exfalso.
        assert (L := OI_full sched G2 Eq). rewrite map_length in L. rewrite (yields_are_len _ _ _ G2' HY) in L. lia. }
      rewrite Eof, Q0. cbn [negb andb]. destruct (ca_svc c); [|tauto]. reflexivity.
  Qed.
End Top.

Lemma convert_fresh {W Req Resp Err} (svc : Service W Req Resp Err) (T : Stream W Req) sched fuel s t w ops :
  convert_log svc T sched fuel s t w [] ops = ca_log svc T (unordered svc sched) fuel s t w ops.
Proof. reflexivity. Qed.
