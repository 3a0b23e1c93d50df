(** CallAll: the invariant over its histories. *)
From Coq Require Import Permutation.
From Verif Require Import Base Middleware ReadyCache Track CallAll CallAllSpec CallAllQueue.
Set Implicit Arguments.

Section Readers.
  Context {Req Resp Err : Type}.
  Notation ev := (cev Req Resp Err).
  Implicit Types l m E : list ev.
  Lemma pulled_app l m : pulled (l ++ m) = pulled l ++ pulled m. Proof. apply flat_map_app. Qed.
  Lemma calls_app l m : calls (l ++ m) = calls l ++ calls m. Proof. apply flat_map_app. Qed.
  Lemma completions_app l m : completions (l ++ m) = completions l ++ completions m. Proof. apply flat_map_app. Qed.
  Lemma failures_app l m : failures (l ++ m) = failures l ++ failures m. Proof. apply flat_map_app. Qed.
  Lemma yields_app l m : yields (l ++ m) = yields l ++ yields m. Proof. apply flat_map_app. Qed.

  Lemma fe_pulled E : Forall fut_event E -> pulled E = [].
  Proof. induction 1 as [|e E He _ IH]; [reflexivity|]. destruct e as [| [] | | | |]; try destruct He; exact IH. Qed.
  Lemma fe_calls E : Forall fut_event E -> calls E = [].
  Proof. induction 1 as [|e E He _ IH]; [reflexivity|]. destruct e as [| [] | | | |]; try destruct He; exact IH. Qed.
  Lemma fe_failures E : Forall fut_event E -> failures E = [].
  Proof. induction 1 as [|e E He _ IH]; [reflexivity|]. destruct e as [| [] | | | |]; try destruct He; exact IH. Qed.
  Lemma fe_yields E : Forall fut_event E -> yields E = [].
  Proof. induction 1 as [|e E He _ IH]; [reflexivity|]. destruct e as [| [] | | | |]; try destruct He; exact IH. Qed.
  Lemma fe_alone E : Forall fut_event E -> Forall left_alone E.
  Proof. apply Forall_impl. intros [| [] | | | |]; cbn; tauto. Qed.
  Lemma fe_no_end E : Forall fut_event E -> Forall (fun e => ~ ends_it e) E.
  Proof. apply Forall_impl. intros [| [] | | | |]; cbn; tauto. Qed.
  Lemma fe_stream l E : Forall fut_event E -> stream_ended (l ++ E) -> stream_ended l.
  Proof.
    unfold stream_ended. intros H Hi. apply in_app_or in Hi. destruct Hi as [Hi|Hi]; [assumption|].
    rewrite Forall_forall in H. destruct (H _ Hi).
  Qed.
  Lemma quiet_app l m : quiet_after_end l -> quiet_after_end m -> Forall left_alone m -> quiet_after_end (l ++ m).
  Proof.
    intros H Hm Hn. induction l as [|e l IH]; [exact Hm|]. destruct H as [H1 H2]. split; [|auto].
    intros He. apply Forall_app. auto.
  Qed.
  Lemma quiet_alone m : Forall (fun e => ~ ends_it e) m -> quiet_after_end m.
  Proof. induction 1; cbn; auto. split; [tauto|auto]. Qed.
  Lemma quiet_new l e : Forall (fun e => ~ ends_it e) l -> quiet_after_end (l ++ [e]).
  Proof. induction 1; cbn; auto. split; [tauto|auto]. Qed.
End Readers.

Ltac rd := rewrite ?pulled_app, ?calls_app, ?completions_app, ?failures_app, ?yields_app.

Section Main.
  Context {W Req Resp Err : Type} (svc : Service W Req Resp Err) (T : Stream W Req).
  Notation ev := (cev Req Resp Err).
  Notation TW := (W * tk ev)%type.
  Notation res := (result Resp Err).
  Notation fu := (fut (csvc svc)).
  Context (Q : Drive TW fu res).
  Context (QI : qst Q -> list nat -> list res -> list (nat * res) -> Prop)
          (QL QP : list nat -> list res -> list (nat * res) -> Prop).
  Hypothesis Hnew : QI (q_new Q) [] [] [].
  Hypothesis Hpush : forall q P Y C j (f : fut svc), QI q P Y C -> QI (q_push Q q (j, f)) (P ++ [j]) Y C.
  Hypothesis Hpoll : forall q P Y C x, QI q P Y C -> NoDup P ->
    match q_poll Q q x with
    | (x1, Val (q1, a)) => exists E, ext x x1 E /\ Forall fut_event E /\
        match a with
        | Ready (Some o) => QI q1 P (Y ++ [o]) (C ++ completions E)
        | Ready None => QI q1 P Y (C ++ completions E) /\ q_empty Q q1 = true
        | Pending => QI q1 P Y (C ++ completions E) /\ q_empty Q q1 = false /\ QP P Y (C ++ completions E)
        end
    | (x1, _) => exists E, ext x x1 E /\ Forall fut_event E /\ QL P Y (C ++ completions E)
    end.
  Hypothesis Hempty : forall q P Y C, QI q P Y C -> q_empty Q q = true -> length Y = length P.
  Hypothesis Hfull : forall q P Y C, QI q P Y C -> q_empty Q q = false -> length Y < length P.
  Hypothesis Hweak : forall q P Y C, QI q P Y C -> QL P Y C.
  Hypothesis Hdone : forall q P Y C, QI q P Y C -> length Y = length P -> QP P Y C.

  Definition opt {A} (o : option A) : list A := match o with Some a => [a] | None => [] end.

  Record CI (c : call_all (csvc svc) (cstream T) Q) (l : list ev) (n : nat) : Prop := {
    ci_rest : pulled l = map fst (calls l) ++ opt (ca_req c);
    ci_q : exists Y, QI (ca_queue c) (map snd (calls l)) Y (completions l) /\ yields_are l Y;
    ci_nd : NoDup (map snd (calls l));
    ci_lt : Forall (fun j => j < n) (map snd (calls l));
    ci_eof : if ca_eof c
             then (stream_ended l /\ failures l = [] /\ ca_req c = None) \/
                  ((exists e, failures l = [e]) /\ exists r, ca_req c = Some r)
             else Forall (fun e => ~ ends_it e) l;
    ci_quiet : quiet_after_end l }.

  (** What remains true if a poll panics or hangs in the middle. *)
  Record CL (l : list ev) : Prop := {
    cl_rest : exists o, pulled l = map fst (calls l) ++ opt (A := Req) o;
    cl_q : exists Y, QL (map snd (calls l)) Y (completions l) /\ yields_are l Y;
    cl_nd : NoDup (map snd (calls l));
    cl_quiet : quiet_after_end l }.

  Definition Ans (a : poll (option res)) (l : list ev) : Prop :=
    match a with
    | Ready (Some _) => True
    | Ready None => over l /\ exists Y, yields_are l Y /\ length Y = length (calls l)
    | Pending => exists Y, yields_are l Y /\ QP (map snd (calls l)) Y (completions l) /\
        ((over l /\ length Y < length (calls l)) \/
         (last_is l (CNext Pending) /\ pulled l = map fst (calls l)) \/
         ((exists i, last_is l (CSvc (TReady i Pending))) /\ exists r, pulled l = map fst (calls l) ++ [r]))
    end.

  Lemma no_end_failures l : Forall (fun e : ev => ~ ends_it e) l -> failures l = [].
  Proof.
    induction 1 as [|e l He _ IH]; [reflexivity|]. change (e :: l) with ([e] ++ l). rewrite failures_app, IH.
    destruct e as [| [? [|[]]| | | | |] | | | |]; try reflexivity. now destruct He.
  Qed.
  Lemma CI_CL c l n : CI c l n -> CL l.
  Proof.
    intros [H1 (Y & H2 & H2') H3 H4 H5 H6]. constructor; auto; [eauto|]. exists Y. split; [eapply Hweak; eauto|auto].
  Qed.

  (** Readiness of the service and calls, as seen in the log. *)
  Lemma ready_csvc (s : st (csvc svc)) (x : TW) :
    match poll_ready (csvc svc) s x with
    | (x1, Val (s1, a)) => exists i, ext x x1 [CSvc (TReady i a)]
    | (x1, _) => ext (Req := Req) (Resp := Resp) (Err := Err) x x1 []
    end.
  Proof.
    destruct x as [w [n l]], s as [i s]. cbn. unfold bind, tk_lift. cbn.
    destruct (poll_ready svc s w) as [w1 [[s1 a]| |]]; cbn; try (split; cbn; [symmetry; apply app_nil_r|reflexivity]).
    exists i. split; reflexivity.
  Qed.
  Lemma call_csvc (s : st (csvc svc)) r (x : TW) :
    match call (csvc svc) s r x with
    | (x1, Val (s1, f)) => exists i, fst f = tk_next (snd x) /\ chron x1 = chron x ++ [CSvc (TCall i r (fst f))] /\
        tk_next (snd x1) = S (tk_next (snd x))
    | (x1, _) => ext (Req := Req) (Resp := Resp) (Err := Err) x x1 []
    end.
  Proof.
    destruct x as [w [n l]], s as [i s]. cbn. unfold bind, tk_lift. cbn.
    destruct (call svc s r w) as [w1 [[s1 f]| |]]; cbn; try (split; cbn; [symmetry; apply app_nil_r|reflexivity]).
    exists i. auto.
  Qed.
  Lemma next_cstream (t : sst (cstream T)) (x : TW) :
    match snext (cstream T) t x with
    | (x1, Val (t1, a)) => ext x x1 [CNext a]
    | (x1, _) => ext (Req := Req) (Resp := Resp) (Err := Err) x x1 []
    end.
  Proof.
    destruct x as [w [n l]]. cbn. unfold bind, tk_lift. cbn.
    destruct (snext T t w) as [w1 [[t1 a]| |]]; cbn; try (split; cbn; [symmetry; apply app_nil_r|reflexivity]).
    split; reflexivity.
  Qed.

  Lemma yields_are_same (l m : list ev) (Y : list res) : failures m = failures l -> yields m = yields l -> yields_are l Y -> yields_are m Y.
  Proof. unfold yields_are. now intros -> ->. Qed.
  Lemma yields_are_snoc (l m : list ev) (Y : list res) o : failures m = failures l -> yields m = yields l ++ [o] -> yields_are l Y -> yields_are m (Y ++ [o]).
  Proof.
    unfold yields_are. intros -> ->. destruct (failures l) as [|e [|]]; [now intros ->| |auto].
    intros (Y1 & Y2 & -> & ->). exists Y1, (Y2 ++ [o]). rewrite !app_assoc. split; auto. rewrite <- !app_assoc. reflexivity.
  Qed.

  (** Passive events: only response futures were used, or the owner got an answer that is no item. *)
  Definition passive (e : ev) : Prop :=
    match e with
    | CSvc (TPoll _ Pending) | CSvc (TDropFut _) | CYield Pending | CYield (Ready None) | CTook | CPanic | CDiverge => True
    | _ => False
    end.
  Lemma passive_facts e : passive e ->
    pulled [e] = [] /\ calls [e] = [] /\ failures [e] = [] /\ yields [e] = [] /\ completions [e] = [] /\
    left_alone e /\ ~ ends_it e /\ e <> CNext (Ready None).
  Proof.
    destruct e as [a|[? a|? ? ?|? [|a]| | |]|[|[o|]]| | |]; cbn; try tauto; intros _;
      repeat split; try discriminate; tauto.
  Qed.
  Lemma CL_passive l e : passive e -> CL l -> CL (l ++ [e]).
  Proof.
    intros (H1 & H2 & H3 & H4 & H5 & H6 & H7 & H8)%passive_facts [G1 (Y & G2 & G2') G3 G4].
    constructor; rd; rewrite ?H1, ?H2, ?H3, ?H4, ?H5, ?app_nil_r; auto.
    - exists Y. split; auto. eapply yields_are_same; [| |exact G2']; rd; rewrite ?H3, ?H4, ?app_nil_r; auto.
    - apply quiet_app; auto. cbn. tauto.
  Qed.
  Lemma CI_passive c l n e : passive e -> CI c l n -> CI c (l ++ [e]) n.
  Proof.
    intros (H1 & H2 & H3 & H4 & H5 & H6 & H7 & H8)%passive_facts [G1 (Y & G2 & G2') G3 G4 G5 G6].
    constructor; rd; rewrite ?H1, ?H2, ?H3, ?H4, ?H5, ?app_nil_r; auto.
    - exists Y. split; auto. eapply yields_are_same; [| |exact G2']; rd; rewrite ?H3, ?H4, ?app_nil_r; auto.
    - destruct (ca_eof c).
      + destruct G5 as [(? & ?)|?]; [left|right; auto]. split; auto. apply in_or_app. auto.
      + apply Forall_app. auto.
    - apply quiet_app; auto. cbn. tauto.
  Qed.

  Ltac fin_ext H := destruct H as [?H ?H].

  (** The state after polling the queue. *)
  Lemma CI_polled c l n q E P Y C :
    CI c l n -> P = map snd (calls l) -> C = completions l -> Forall fut_event E ->
    yields_are l Y -> QI q P Y (C ++ completions E) ->
    CI (CA (ca_svc c) (ca_stream c) q (ca_eof c) (ca_req c)) (l ++ E) n.
  Proof.
    intros [G1 _ G3 G4 G5 G6] -> -> HE HY HQ.
    assert (F1 := fe_pulled HE). assert (F2 := fe_calls HE). assert (F3 := fe_failures HE). assert (F4 := fe_yields HE).
    constructor; cbn [ca_req ca_queue ca_eof]; rd; rewrite ?F1, ?F2, ?F3, ?F4, ?app_nil_r; auto.
    - exists Y. split; auto. eapply yields_are_same; [| |exact HY]; rd; rewrite ?F3, ?F4, ?app_nil_r; auto.
    - destruct (ca_eof c).
      + destruct G5 as [(? & ?)|?]; [left|right; auto]. split; auto. apply in_or_app. auto.
      + apply Forall_app. split; auto. now apply fe_no_end.
    - apply quiet_app; auto; [apply quiet_alone, fe_no_end|apply fe_alone]; auto.
  Qed.

  (** The dispatch of the request [r], in the order of common.rs:119-137.
      [R] is what is known after a further iteration of the loop. *)
  Lemma ca_next_ok fuel : forall c x, CI c (chron x) (tk_next (snd x)) ->
    match ca_next fuel c x with
    | (x1, Val (c1, a)) => CI c1 (chron x1 ++ [CYield a]) (tk_next (snd x1)) /\ Ans a (chron x1)
    | (x1, _) => CL (chron x1)
    end.
  Proof.
    induction fuel as [|n IH]; intros c x HI; [exact (CI_CL HI)|]. cbn [ca_next]. unfold bind at 1.
    destruct (ci_q HI) as (Y & HQ & HY).
    generalize (Hpoll x HQ (ci_nd HI)).
    destruct (q_poll Q (ca_queue c) x) as [x1 [[q a]| |]]; intros (E & [HE HE'] & Hf & Ha);
      [|rewrite HE; constructor|rewrite HE; constructor].
    2,6: rd; rewrite (fe_pulled Hf), (fe_calls Hf), !app_nil_r; exists (ca_req c); apply HI.
    2,5: exists Y; rd; rewrite (fe_calls Hf), !app_nil_r; split; auto;
         eapply yields_are_same; [| |exact HY]; rd; rewrite ?(fe_failures Hf), ?(fe_yields Hf), ?app_nil_r; auto.
    2,4: rd; rewrite (fe_calls Hf), !app_nil_r; apply HI.
    2,3: apply quiet_app; [apply HI|apply quiet_alone, fe_no_end|apply fe_alone]; auto.
    assert (Hret : forall o, a = Ready (Some o) ->
      CI (CA (ca_svc c) (ca_stream c) q (ca_eof c) (ca_req c)) (chron x1 ++ [CYield (Ready (Some o))]) (tk_next (snd x1))).
    { intros o ->. rewrite HE, HE'. destruct HI as [G1 _ G3 G4 G5 G6].
      assert (F1 := fe_pulled Hf). assert (F2 := fe_calls Hf). assert (F3 := fe_failures Hf). assert (F4 := fe_yields Hf).
      constructor; cbn [ca_req ca_queue ca_eof]; rd; rewrite ?F1, ?F2, ?F3, ?F4;
        cbn [pulled calls failures completions flat_map app]; rewrite ?app_nil_r; auto.
      - exists (Y ++ [o]). split; auto. eapply yields_are_snoc; [| |exact HY]; rd; rewrite ?F3, ?F4;
        cbn [failures yields flat_map app]; rewrite ?app_nil_r; auto.
      - destruct (ca_eof c).
        + destruct G5 as [(? & ?)|?]; [left|right; auto]. split; auto. unfold stream_ended in *. rewrite !in_app_iff. auto.
        + rewrite !Forall_app. repeat split; auto; [now apply fe_no_end]. 
      - apply quiet_app; [apply quiet_app; [assumption|apply quiet_alone, fe_no_end; assumption|apply fe_alone; assumption]|cbn; tauto|repeat constructor]. }
    assert (Hcase : (exists o, a = Ready (Some o)) \/
      ((forall o, a <> Ready (Some o)) /\ QI q (map snd (calls (chron x))) Y (completions (chron x) ++ completions E) /\
       QP (map snd (calls (chron x))) Y (completions (chron x) ++ completions E))).
    { destruct a as [|[o|]]; [right; split; [congruence|tauto]|left; eauto|right; split; [congruence|]].
      destruct Ha as [Ha1 Ha2]. split; auto. eapply Hdone; eauto. }
    destruct Hcase as [(o & ->)|(Hna & HQ1 & HP1)].
    { split; [apply Hret; reflexivity|exact I]. }
    clear Hret.
    assert (HI1 : CI (CA (ca_svc c) (ca_stream c) q (ca_eof c) (ca_req c)) (chron x1) (tk_next (snd x1))).
    { rewrite HE, HE'. eapply CI_polled; eauto. }
    assert (HY1 : yields_are (chron x1) Y).
    { eapply yields_are_same; [| |exact HY]; rewrite HE; rd; rewrite ?(fe_failures Hf), ?(fe_yields Hf), ?app_nil_r; auto. }
    assert (HQ1' : QI q (map snd (calls (chron x1))) Y (completions (chron x1)))
      by (rewrite HE; rd; rewrite (fe_calls Hf), app_nil_r; exact HQ1).
    assert (HP1' : QP (map snd (calls (chron x1))) Y (completions (chron x1)))
      by (rewrite HE; rd; rewrite (fe_calls Hf), app_nil_r; exact HP1).
    assert (Hq : (a = Pending -> q_empty Q q = false)) by (destruct a; [tauto|discriminate]).
    clear HI HQ HY HE HE' Hf HQ1 HP1 Ha E.
    (* the part that goes on *)
    assert (Hdisp : ca_eof c = false -> forall t r x2, CI (CA (ca_svc c) t q false (Some r)) (chron x2) (tk_next (snd x2)) ->
      QI q (map snd (calls (chron x2))) Y (completions (chron x2)) -> yields_are (chron x2) Y ->
      QP (map snd (calls (chron x2))) Y (completions (chron x2)) ->
      match (match ca_svc c with
             | None => panic
             | Some s =>
                 '(s1, b) <- poll_ready (csvc svc) s ;;
                 match b with
                 | Pending => ret (CA (Some s1) t q false (Some r), Pending)
                 | Ready (Er e) => ret (CA (Some s1) t q true (Some r), Ready (Some (Er e)))
                 | Ready (Ok _) =>
                     '(s2, f) <- call (csvc svc) s1 r ;;
                     ca_next n (CA (Some s2) t (q_push Q q f) false None)
                 end
             end) x2 with
      | (x1, Val (c1, a)) => CI c1 (chron x1 ++ [CYield a]) (tk_next (snd x1)) /\ Ans a (chron x1)
      | (x1, _) => CL (chron x1)
      end).
    { intros Heof t r x2 HI2 HQ2 HY2 HP2. destruct (ca_svc c) as [s|]; [|exact (CI_CL HI2)].
      unfold bind at 1. generalize (ready_csvc s x2).
      destruct (poll_ready (csvc svc) s x2) as [x3 [[s1 b]| |]];
        [|intros [H _]; rewrite app_nil_r in H; rewrite H; exact (CI_CL HI2)
         |intros [H _]; rewrite app_nil_r in H; rewrite H; exact (CI_CL HI2)].
      intros (i & H3 & H3'). destruct HI2 as [G1 _ G3 G4 G5 G6]. cbn [ca_req ca_queue ca_eof opt] in *.
      assert (Fn := no_end_failures G5).
      destruct b as [|[u|e]].
      - unfold ret. split.
        + rewrite H3, H3'. constructor; cbn [ca_req ca_queue ca_eof opt]; rd;
            cbn [pulled calls failures completions flat_map app]; rewrite ?app_nil_r; auto.
          * exists Y. split; auto. eapply yields_are_same; [| |exact HY2]; rd; cbn; rewrite ?app_nil_r; auto.
          * rewrite !Forall_app. repeat split; auto; repeat constructor; cbn; tauto.
          * rewrite <- app_assoc. cbn. apply quiet_alone. rewrite Forall_app. split; [assumption|repeat constructor; cbn; tauto].
        + cbn. exists Y. rewrite H3. rd. cbn [pulled calls failures completions flat_map app]. rewrite !app_nil_r.
          split; [eapply yields_are_same; [| |exact HY2]; rd; cbn; rewrite ?app_nil_r; auto|].
          split; [assumption|]. right; right. split; [exists i, (chron x2); reflexivity|]. exists r. exact G1.
      - unfold bind. generalize (call_csvc s1 r x3).
        assert (HI3 : CI (CA (Some s1) t q false (Some r)) (chron x3) (tk_next (snd x3))).
        { rewrite H3, H3'. constructor; cbn [ca_req ca_queue ca_eof opt]; rd;
            cbn [pulled calls failures completions flat_map app]; rewrite ?app_nil_r; auto.
          * exists Y. split; auto. eapply yields_are_same; [| |exact HY2]; rd; cbn; rewrite ?app_nil_r; auto.
          * rewrite !Forall_app. repeat split; auto; repeat constructor; cbn; tauto.
          * now apply quiet_new. }
        destruct (call (csvc svc) s1 r x3) as [x4 [[s2 f]| |]];
          [|intros [H _]; rewrite app_nil_r in H; rewrite H; exact (CI_CL HI3)
           |intros [H _]; rewrite app_nil_r in H; rewrite H; exact (CI_CL HI3)].
        intros (i' & Hf & H4 & H4'). apply IH. rewrite H4, H4'. destruct f as [j f]. cbn [fst] in *. subst j.
        assert (C3 : calls (chron x3) = calls (chron x2)) by (rewrite H3; rd; cbn; now rewrite app_nil_r).
        assert (C4 : completions (chron x3) = completions (chron x2)) by (rewrite H3; rd; cbn; now rewrite app_nil_r).
        destruct HI3 as [K1 _ K3 K4 K5 K6]. cbn [ca_req ca_queue ca_eof opt] in *.
        constructor; cbn [ca_req ca_queue ca_eof opt]; rd; cbn [pulled calls failures completions flat_map app];
          rewrite ?map_app; cbn [map fst snd]; rewrite ?app_nil_r; auto.
        + exists Y. split; [rewrite C3, C4; apply Hpush; assumption|].
          eapply yields_are_same; [| |exact HY2]; rewrite H3; rd; cbn; rewrite ?app_nil_r; auto.
        + apply (Permutation_NoDup (l := tk_next (snd x3) :: map snd (calls (chron x3)))); [apply Permutation_cons_append|].
          constructor; auto. intros Hin. rewrite Forall_forall in K4. apply K4 in Hin. lia.
        + apply Forall_app. split; [eapply Forall_impl; [|exact K4]; cbn; intros; lia|repeat constructor].
        + rewrite !Forall_app. repeat split; auto; repeat constructor; cbn; tauto.
        + apply quiet_new. auto.
      - unfold ret. split; [|exact I].
        rewrite H3, H3'. constructor; cbn [ca_req ca_queue ca_eof opt]; rd;
          cbn [pulled calls failures completions flat_map app]; rewrite ?app_nil_r; auto.
        + exists Y. split; auto. unfold yields_are in *. rd. rewrite Fn in *. cbn. exists Y, [].
          rewrite !app_nil_r. split; auto. now rewrite HY2.
        + right. split; [exists e; now rewrite Fn|eauto].
        + apply quiet_app; [now apply quiet_new|cbn; auto|repeat constructor]. }
    assert (Hpull : ca_eof c = false -> ca_req c = None -> forall D,
      (forall t r x2, CI (CA (ca_svc c) t q false (Some r)) (chron x2) (tk_next (snd x2)) ->
      QI q (map snd (calls (chron x2))) Y (completions (chron x2)) -> yields_are (chron x2) Y ->
      QP (map snd (calls (chron x2))) Y (completions (chron x2)) ->
      match D t r x2 with
      | (x1, Val (c1, a)) => CI c1 (chron x1 ++ [CYield a]) (tk_next (snd x1)) /\ Ans a (chron x1)
      | (x1, _) => CL (chron x1)
      end) ->
      match ('(t1, b) <- snext (cstream T) (ca_stream c) ;;
             match b with
             | Pending => ret (CA (ca_svc c) t1 q false None, Pending)
             | Ready None => ca_next n (CA (ca_svc c) t1 q true None)
             | Ready (Some r) => D t1 r
             end) x1 with
      | (x1, Val (c1, a)) => CI c1 (chron x1 ++ [CYield a]) (tk_next (snd x1)) /\ Ans a (chron x1)
      | (x1, _) => CL (chron x1)
      end).
    { intros Heof Hreq D HD. unfold bind at 1. generalize (next_cstream (ca_stream c) x1).
      destruct (snext (cstream T) (ca_stream c) x1) as [x2 [[t1 b]| |]];
        [|intros [H _]; rewrite app_nil_r in H; rewrite H; exact (CI_CL HI1)
         |intros [H _]; rewrite app_nil_r in H; rewrite H; exact (CI_CL HI1)].
      intros [H2 H2']. destruct HI1 as [G1 _ G3 G4 G5 G6]. cbn [ca_req ca_queue ca_eof opt] in *.
      rewrite Heof, Hreq in *. cbn [opt] in G1. rewrite app_nil_r in G1.
      assert (Fn := no_end_failures G5).
      destruct b as [|[r|]].
      - unfold ret. split.
        + rewrite H2, H2'. constructor; cbn [ca_req ca_queue ca_eof opt]; rd;
            cbn [pulled calls failures completions flat_map app]; rewrite ?app_nil_r; auto.
          * exists Y. split; auto. eapply yields_are_same; [| |exact HY1]; rd; cbn; rewrite ?app_nil_r; auto.
          * rewrite !Forall_app. repeat split; auto; repeat constructor; cbn; tauto.
          * rewrite <- app_assoc. cbn. apply quiet_alone. rewrite Forall_app. split; [assumption|repeat constructor; cbn; tauto].
        + cbn. exists Y. rewrite H2. rd. cbn [pulled calls failures completions flat_map app]. rewrite !app_nil_r.
          split; [eapply yields_are_same; [| |exact HY1]; rd; cbn; rewrite ?app_nil_r; auto|].
          split; [assumption|]. right; left. split; [exists (chron x1); reflexivity|exact G1].
      - apply HD.
        + rewrite H2, H2'. constructor; cbn [ca_req ca_queue ca_eof opt]; rd;
            cbn [pulled calls failures completions flat_map app]; rewrite ?app_nil_r; auto.
          * now rewrite G1.
          * exists Y. split; auto. eapply yields_are_same; [| |exact HY1]; rd; cbn; rewrite ?app_nil_r; auto.
          * rewrite !Forall_app. repeat split; auto; repeat constructor; cbn; tauto.
          * now apply quiet_new.
        + rewrite H2. rd. cbn. rewrite !app_nil_r. assumption.
        + eapply yields_are_same; [| |exact HY1]; rewrite H2; rd; cbn; rewrite ?app_nil_r; auto.
        + rewrite H2. rd. cbn. rewrite !app_nil_r. assumption.
      - apply IH. rewrite H2, H2'. constructor; cbn [ca_req ca_queue ca_eof opt]; rd;
          cbn [pulled calls failures completions flat_map app]; rewrite ?app_nil_r; auto.
        + exists Y. split; auto. eapply yields_are_same; [| |exact HY1]; rd; cbn; rewrite ?app_nil_r; auto.
        + left. split; [apply in_or_app; right; now left|]. auto.
        + now apply quiet_new. }
    destruct a as [|[o|]]; [|now destruct (Hna o)|];
    (destruct (ca_eof c) eqn:Eeof;
     [unfold ret; destruct (q_empty Q q) eqn:Eq;
      [ split; [apply CI_passive; [exact I|assumption]|]; cbn; split;
        [destruct (ci_eof HI1) as [(? & ?)|((e & He) & _)]; cbn in *; [left; auto|right; congruence]
        |exists Y; split; auto; rewrite <- (map_length snd); eapply Hempty; eauto]
      | split; [apply CI_passive; [exact I|assumption]|]; cbn; exists Y; split; [assumption|split; [assumption|]];
        left; split;
        [destruct (ci_eof HI1) as [(? & ?)|((e & He) & _)]; cbn in *; [left; auto|right; congruence]
        |rewrite <- (map_length snd); eapply Hfull; eauto] ]
     |specialize (Hdisp eq_refl); destruct (ca_req c) as [r|] eqn:Er;
      [apply Hdisp; assumption
      |exact (Hpull eq_refl eq_refl _ Hdisp)]]).
  Qed.

  Notation ca := (call_all (csvc svc) (cstream T) Q).
  Definition good (r : TW * option ca) : Prop :=
    match snd r with
    | Some c => CI c (chron (fst r)) (tk_next (snd (fst r))) /\
                forall l1 a, chron (fst r) = l1 ++ [CYield a] -> Ans a l1
    | None => CL (chron (fst r)) /\ (last_is (chron (fst r)) CPanic \/ last_is (chron (fst r)) CDiverge)
    end.
  Lemma snoc_inj A (l m : list A) a b : l ++ [a] = m ++ [b] -> l = m /\ a = b.
  Proof. apply app_inj_tail. Qed.

  Lemma ca_run_good fuel ops : forall c x, good (x, Some c) -> good (ca_run svc T Q fuel c x ops).
  Proof.
    induction ops as [|[g o] ops IH]; intros c x Hg; [exact Hg|]. cbn [ca_run].
    destruct Hg as [HI _]. cbn [fst snd] in HI.
    assert (HI' : CI c (chron (tk_env g x)) (tk_next (snd (tk_env g x)))) by exact HI.
    assert (Em : forall (e : ev) (y : TW), chron (fst (tk_emit e y)) = chron y ++ [e]) by (intros; apply (ext_emit y e)).
    assert (Bad : forall (e : ev) (y : TW), (e = CPanic \/ e = CDiverge) -> CL (chron y) -> good (fst (tk_emit e y), None)).
    { intros e y He HC. unfold good. cbn [fst snd]. rewrite Em. split.
      - apply CL_passive; auto. destruct He; subst; exact I.
      - destruct He; subst; [left|right]; eexists; reflexivity. }
    destruct o.
    - unfold bind. generalize (ca_next_ok fuel (tk_env g x) HI').
      destruct (ca_next fuel c (tk_env g x)) as [x1 [[c1 a]| |]]; [|intros; apply Bad; auto|intros; apply Bad; auto].
      intros [H1 H2]. unfold ret. apply IH. split; cbn [fst snd].
      + rewrite Em. exact H1.
      + intros l1 a0 E. rewrite Em in E. apply snoc_inj in E. destruct E as [<- E]. injection E as <-. exact H2.
    - unfold ca_take. destruct (ca_svc c) as [s|]; [|apply Bad; auto; exact (CI_CL HI')].
      unfold bind, ret. apply IH. split; cbn [fst snd].
      + rewrite Em. apply CI_passive; [exact I|]. destruct HI' as [G1 G2 G3 G4 G5 G6]. constructor; auto.
      + intros l1 a0 E. rewrite Em in E. apply snoc_inj in E. destruct E as [_ E]. discriminate.
  Qed.

  Lemma ca_log_good fuel s t w ops :
    good (ca_run svc T Q fuel (ca_new (csvc svc) (cstream T) Q (0, s) t) (w, Tk 1 []) ops).
  Proof.
    apply ca_run_good. split; cbn [fst snd].
    - constructor; cbn; auto; try constructor. exists []. split; [exact Hnew|reflexivity].
    - intros l1 a E. destruct l1; discriminate.
  Qed.

  Lemma ca_log_CL fuel s t w ops : CL (ca_log svc T Q fuel s t w ops).
  Proof.
    unfold ca_log. generalize (ca_log_good fuel s t w ops). unfold good.
    destruct (ca_run _ _ _ _ _ _ ops) as [x [c|]]; cbn [fst snd]; [intros [H _]; exact (CI_CL H)|tauto].
  Qed.

  Lemma ca_log_end fuel s t w ops l1 : ca_log svc T Q fuel s t w ops = l1 ++ [CYield (Ready None)] ->
    let l := ca_log svc T Q fuel s t w ops in
    (exists Y, QL (map snd (calls l)) Y (completions l) /\ yields_are l Y /\ length Y = length (calls l)) /\
    ((stream_ended l /\ failures l = [] /\ pulled l = map fst (calls l)) \/
     (exists e r, failures l = [e] /\ pulled l = map fst (calls l) ++ [r])).
  Proof.
    unfold ca_log. generalize (ca_log_good fuel s t w ops). unfold good.
    destruct (ca_run _ _ _ _ _ _ ops) as [x [c|]]; cbn [fst snd]; intros H E.
    2: { destruct H as [_ [[m H]|[m H]]]; change (rev (log_of x)) with (chron x) in E; rewrite H in E;
         apply snoc_inj in E; destruct E; discriminate. }
    destruct H as [HI HA]. assert (HA' := HA l1 (Ready None) E). cbn in HA'. destruct HA' as (Ho & Y & HY & HL).
    change (rev (log_of x)) with (chron x) in *.
    assert (Hq : calls (chron x) = calls l1 /\ failures (chron x) = failures l1 /\ yields (chron x) = yields l1).
    { rewrite E. rd. cbn. rewrite !app_nil_r. auto. }
    destruct Hq as (Q1 & Q2 & Q3). destruct (ci_q HI) as (Y' & HQ & HY').
    split.
    - exists Y'. split; [eapply Hweak; eauto|]. split; [auto|].
      rewrite Q1, <- HL. clear - HY HY' Q2 Q3. unfold yields_are in *. rewrite Q2, Q3 in HY'.
      destruct (failures l1) as [|e [|]]; [congruence| |tauto].
      destruct HY as (a & b & -> & H1), HY' as (a' & b' & -> & H2). apply (f_equal (@length _)) in H1, H2.
      rewrite !app_length in *. cbn in *. lia.
    - assert (G := ci_eof HI). assert (R := ci_rest HI). destruct (ca_eof c).
      + destruct G as [(G1 & G2 & G3)|[(e & G1) (r & G2)]]; rewrite ?G3, ?G2 in R; cbn in R.
        * left. rewrite app_nil_r in R. auto.
        * right. eauto.
      + exfalso. destruct Ho as [Ho|Ho].
        * rewrite Forall_forall in G. apply (G (CNext (Ready None))); [rewrite E; apply in_or_app; left; exact Ho|exact I].
        * apply Ho. rewrite <- Q2. now apply no_end_failures.
  Qed.

  Lemma ca_log_pending fuel s t w ops l1 : ca_log svc T Q fuel s t w ops = l1 ++ [CYield Pending] ->
    exists Y, yields_are l1 Y /\ QP (map snd (calls l1)) Y (completions l1) /\
        ((over l1 /\ length Y < length (calls l1)) \/
         (last_is l1 (CNext Pending) /\ pulled l1 = map fst (calls l1)) \/
         ((exists i, last_is l1 (CSvc (TReady i Pending))) /\ exists r, pulled l1 = map fst (calls l1) ++ [r])).
  Proof.
    unfold ca_log. generalize (ca_log_good fuel s t w ops). unfold good.
    destruct (ca_run _ _ _ _ _ _ ops) as [x [c|]]; cbn [fst snd]; intros H E.
    2: { destruct H as [_ [[m H]|[m H]]]; change (rev (log_of x)) with (chron x) in E; rewrite H in E;
         apply snoc_inj in E; destruct E; discriminate. }
    destruct H as [HI HA]. exact (HA l1 Pending E).
  Qed.
End Main.
