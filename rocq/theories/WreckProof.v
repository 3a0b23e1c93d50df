(** Load tracking is not confused by panics. *)
From Verif Require Import Base Middleware Load LoadSpec LoadProof WreckSpec.
Set Implicit Arguments.

Section P.
  Context {W Req Resp Err C T Met : Type} (svc : Service W Req Resp Err).
  Context (start : M W T) (finish : T -> C -> W -> C * W) (keep : Resp -> W -> W * bool).
  Context (ruin : st svc -> st svc) (ruin_fut : fut svc -> fut svc).
  Context (load : M (arc (C := C) * W) Met) (rload : nat -> C -> W -> C * W * Met).
  Hypothesis load_ok : forall n c w, load (Arc (S n) c, w) =
    let '(c1, w1, m) := rload n c w in ((Arc (S n) c1, w1), Val m).
  Notation tl := (tracked_load svc start finish keep).
  Notation lsys := (lsys svc start finish keep).
  Notation rsys := (rsys (C := C) (T := T) svc).
  Notation rel := (rel (svc := svc) (start := start) (finish := finish) (keep := keep)).
  Notation entry := (lop W Req * lobs Resp Err Met * W)%type.

  (** A panic leaves the counting intact. *)
  Lemma panic_rel o (y : lsys) (z : rsys) : rel y z ->
    snd (lsys_step load o y) = LoPanic ->
    rel (fst (lsys_step load o y)) (fst (rsys_step start finish keep rload o z)).
  Proof.
    intros [H1 H2 H3 H4 (L1 & L2 & L3) H6]. destruct y as [s lf lk [[n c] w]], z as [s' rf rq c' w']. cbn in *. subst s' c' w'.
    destruct o as [|r|j|j|j| | |g]; cbn [lsys_step rsys_step fut tracked_load l_svc r_svc l_futs l_kept l_w r_futs r_reqs r_est r_w].
    - destruct s as [s|]; [|discriminate]. cbn [poll_ready tracked_load]. unfold lift_w. cbn [fst snd].
      destruct (poll_ready svc s w) as [w1 [[s1 a]| |]]; try discriminate. intros _. cbn. constructor; cbn; auto.
    - destruct s as [s|]; [|discriminate].
      cbn [call tracked_load]. unfold tl_call, new_handle, bind, lift_w, modify, ret. cbn [fst snd strong content].
      destruct (start w) as [w1 [t| |]]; cbn [fst snd strong content]; try discriminate; [|intros _; constructor; cbn; auto].
      destruct (call svc s r w1) as [w2 [[s1 f]| |]]; try discriminate. intros _.
      unfold drop_handle. cbn [fst snd strong content]. destruct (finish t c w2) as [c3 w3]. constructor; cbn; auto.
    - assert (Hj := H6 j). destruct (nth_error lf j) as [[f|]|] eqn:E1; try discriminate.
      cbn [poll_fut tracked_load]. unfold tc_poll, bind, lift_w, modify, ret. cbn [fst snd].
      assert (Hf : nth_error rf j = Some (Some (tc_inner f)) /\
        (tc_handle f = None -> nth_error rq j <> None /\ (forall t, nth_error rq j <> Some (Waiting t)))).
      { unfold rel1 in Hj. destruct (nth_error rq j) as [[t|t|]|].
        - destruct Hj as (g & Eg & Ek & Er). injection Eg as ->. cbn. repeat split; try discriminate; auto; congruence.
        - destruct Hj as (_ & [[E _]|(g & Eg & Er)]); [discriminate|]. injection Eg as ->. cbn. repeat split; congruence.
        - destruct Hj as (_ & [[E _]|(g & Eg & Er)]); [discriminate|]. injection Eg as ->. cbn. repeat split; congruence.
        - destruct Hj as (E & _). discriminate. }
      destruct Hf as (Er & Hn). rewrite Er.
      destruct (poll_fut svc (tc_inner f) w) as [w1 [[f1 a]| |]]; cbn [fst snd]; try discriminate.
      2:{ intros _. constructor; cbn; auto. }
      destruct a as [|[v|e]]; try discriminate.
      destruct (tc_handle f) as [t|] eqn:Eh.
      + cbn [fst snd]. destruct (keep v w1) as [w2 k]. cbn [fst snd]. destruct k; discriminate.
      + intros _. destruct (Hn eq_refl) as [N1 N2]. cbn. destruct (nth_error rq j) as [[t|t|]|] eqn:Eq; try congruence;
        cbn; constructor; cbn; auto.
    - destruct (nth_error lf j) as [[f|]|]; discriminate.
    - destruct (nth_error lk j) as [[t|]|]; discriminate.
    - destruct s as [s|]; [|discriminate]. cbn in H4. rewrite H4, load_ok.
      destruct (rload _ c w) as [[c1 w1] m]. discriminate.
    - destruct s; discriminate.
    - discriminate.
  Qed.

  Lemma wreck_rel o (y : lsys) (z : rsys) : rel y z ->
    match wreck_step ruin ruin_fut load o y, rwreck_step start finish keep ruin ruin_fut rload o z with
    | (y1, b1), (z1, b2) => b1 = b2 /\ snd (l_w y1) = r_w z1 /\ (b1 = LoDiverge \/ rel y1 z1)
    end.
  Proof.
    intros H. assert (Hs := step_rel load rload load_ok o H). assert (Hp := @panic_rel o y z H).
    unfold wreck_step, rwreck_step.
    destruct (lsys_step load o y) as [y1 b1], (rsys_step start finish keep rload o z) as [z1 b2]. cbn [fst snd] in Hp.
    destruct Hs as (<- & Hw & Hr).
    assert (Hr' : b1 = LoDiverge \/ rel y1 z1) by (destruct Hr as [E|[E|E]]; auto). clear Hr.
    destruct b1; try (split; [reflexivity|split; assumption]).
    specialize (Hp eq_refl). destruct o as [|r|j|j|j| | |g]; try (split; [reflexivity|split; [assumption|right; assumption]]).
    - split; [reflexivity|]. cbn. split; [assumption|]. right. destruct Hp as [H1 H2 H3 H4 H5 H6]. constructor; cbn; auto.
      + now rewrite H1.
      + rewrite H4. now destruct (l_svc y1).
    - split; [reflexivity|]. cbn. split; [assumption|]. right. destruct Hp as [H1 H2 H3 H4 H5 H6]. constructor; cbn; auto.
      + now rewrite H1.
      + rewrite H4. now destruct (l_svc y1).
    - assert (Hj := rl_each Hp j). destruct Hp as [H1 H2 H3 H4 H5 H6].
      destruct (nth_error (l_futs y1) j) as [[f|]|] eqn:E1.
      + assert (Er : nth_error (r_futs z1) j = Some (Some (tc_inner f))).
        { unfold rel1 in Hj. destruct (nth_error (r_reqs z1) j) as [[t|t|]|].
          - destruct Hj as (g & Eg & Ek & Er). injection Eg as ->. exact Er.
          - destruct Hj as (_ & [[E _]|(g & Eg & Er)]); [discriminate|]. injection Eg as ->. exact Er.
          - destruct Hj as (_ & [[E _]|(g & Eg & Er)]); [discriminate|]. injection Eg as ->. exact Er.
          - destruct Hj as (E & _). discriminate. }
        rewrite Er. split; [reflexivity|]. cbn. split; [assumption|]. right. constructor; cbn; rewrite ?sn_len; auto.
        intros i. rewrite !sn_nth. destruct (Nat.eqb_spec j i) as [<-|N]; [|apply H6].
        assert (E1' : @nth_error (option (tc_fut (T := T) svc)) (l_futs y1) j = Some (Some f)) by exact E1.
        rewrite E1', Er. unfold rel1 in *. destruct (nth_error (r_reqs z1) j) as [[t|t|]|].
        * destruct Hj as (g & Eg & Ek & _). injection Eg as ->. cbn. eauto.
        * destruct Hj as (Ek & [[E _]|(g & Eg & _)]); [discriminate|]. injection Eg as ->. cbn. split; [assumption|]. right. eauto.
        * destruct Hj as (Ek & [[E _]|(g & Eg & _)]); [discriminate|]. injection Eg as ->. cbn. split; [assumption|]. right. eauto.
        * destruct Hj as (E & _). discriminate.
      + assert (Er : forall x, nth_error (r_futs z1) j <> Some (Some x)).
        { intros x Ex. unfold rel1 in Hj. destruct (nth_error (r_reqs z1) j) as [[t|t|]|].
          - destruct Hj as (? & ? & _). discriminate.
          - destruct Hj as (_ & [[_ E]|(? & ? & _)]); [congruence|discriminate].
          - destruct Hj as (_ & [[_ E]|(? & ? & _)]); [congruence|discriminate].
          - destruct Hj as (_ & _ & E). congruence. }
        destruct (nth_error (r_futs z1) j) as [[x|]|]; [destruct (Er x eq_refl)| |];
          (split; [reflexivity|split; [assumption|right; constructor; auto]]).
      + assert (Er : nth_error (r_futs z1) j = None) by (apply nth_error_None; apply nth_error_None in E1; lia). rewrite Er.
        split; [reflexivity|split; [assumption|right; constructor; auto]].
  Qed.

  Lemma wreck_run_rel l : forall (y : lsys) (z : rsys), rel y z ->
    wreck_run ruin ruin_fut load y l = rwreck_run start finish keep ruin ruin_fut rload z l.
  Proof.
    induction l as [|o l IH]; intros y z H; [reflexivity|]. cbn [wreck_run rwreck_run].
    generalize (wreck_rel o H). destruct (wreck_step ruin ruin_fut load o y) as [y1 b1], (rwreck_step start finish keep ruin ruin_fut rload o z) as [z1 b2].
    intros (-> & -> & Hr). f_equal. destruct Hr as [->|Hr]; [reflexivity|]. destruct b2; auto.
  Qed.
  Lemma wreck_refines (s : st svc) c w l :
    wreck_run ruin ruin_fut load (lsys0 svc start finish keep s (arc_new c, w)) l =
    rwreck_run start finish keep ruin ruin_fut rload (rsys0 (T := T) svc s c w) l.
  Proof. apply wreck_run_rel. constructor; cbn; auto. intros j. destruct j; cbn; auto. Qed.

  (** What a step of the reference does to the list of requests. *)
  Lemma panic_reqs o (z : rsys) : snd (rsys_step start finish keep rload o z) = LoPanic ->
    r_reqs (fst (rsys_step start finish keep rload o z)) = r_reqs z.
  Proof.
    destruct z as [s rf rq c w]. destruct o as [|r|j|j|j| | |g]; cbn [rsys_step r_svc r_futs r_reqs r_est r_w].
    - destruct s as [s|]; [|reflexivity]. destruct (poll_ready svc s w) as [w1 [[s1 a]| |]]; reflexivity.
    - destruct s as [s|]; [|reflexivity]. destruct (start w) as [w1 [t| |]]; try reflexivity.
      destruct (call svc s r w1) as [w2 [[s1 f]| |]]; try reflexivity; [discriminate|]. destruct (finish t c w2). reflexivity.
    - destruct (nth_error rf j) as [[f|]|]; try reflexivity.
      destruct (poll_fut svc f w) as [w1 [[f1 a]| |]]; try reflexivity. destruct a as [|[v|e]]; try reflexivity.
      destruct (nth_error rq j) as [[t|t|]|]; try reflexivity. destruct (keep v w1) as [w2 [|]]; [discriminate|].
      destruct (finish t c w2). discriminate.
    - destruct (nth_error rf j) as [[f|]|]; try reflexivity.
      destruct (nth_error rq j) as [[t|t|]|]; try discriminate. destruct (finish t c (drop_fut svc f w)). discriminate.
    - destruct (nth_error rq j) as [[t|t|]|]; try discriminate. destruct (finish t c w). discriminate.
    - destruct s as [s|]; [|reflexivity]. destruct (rload _ c w) as [[c1 w1] m]. discriminate.
    - destruct s; discriminate.
    - discriminate.
  Qed.
  Lemma rwreck_life o (z : rsys) z1 b : rwreck_step start finish keep ruin ruin_fut rload o z = (z1, b) ->
    b <> LoDiverge -> map (@life_of T) (r_reqs z1) = life_step (map (@life_of T) (r_reqs z)) (o, b).
  Proof.
    unfold rwreck_step. intros E N. assert (Hl := @life_rstep _ _ _ _ _ _ _ svc start finish keep rload o z).
    assert (Hp := @panic_reqs o z).
    destruct (rsys_step start finish keep rload o z) as [z2 b2]. cbn [fst snd] in Hp.
    destruct b2; try (injection E as <- <-; apply Hl; congruence).
    specialize (Hp eq_refl).
    assert (Hz : r_reqs z1 = r_reqs z /\ b = LoPanic).
    { destruct o as [|r|j|j|j| | |g]; try (injection E as <- <-; auto).
      destruct (nth_error (r_futs z2) j) as [[f|]|]; injection E as <- <-; auto. }
    destruct Hz as [-> ->]. destruct o; reflexivity.
  Qed.
  Lemma rwreck_load l : forall (z : rsys) (h1 : list entry) m w1 h2,
    rwreck_run start finish keep ruin ruin_fut rload z l = h1 ++ (LLoad, LoLoad m, w1) :: h2 ->
    exists c w c1, rload (length (List.filter alive (lives_from (map (@life_of T) (r_reqs z)) h1))) c w = (c1, w1, m).
  Proof.
    induction l as [|o l IH]; intros z h1 m w1 h2 E; cbn [rwreck_run] in E; [destruct h1; discriminate|].
    destruct (rwreck_step start finish keep ruin ruin_fut rload o z) as [z1 b] eqn:Es.
    destruct h1 as [|e h1].
    - cbn in E. injection E as -> -> Ew E. cbn [lives_from fold_left]. rewrite <- open_lives.
      unfold rwreck_step in Es. cbn in Es.
      destruct (r_svc z); [|discriminate]. destruct (rload (open z) (r_est z) (r_w z)) as [[c2 w2] m2] eqn:El. injection Es as Ez Em. subst z1 m2. cbn in Ew. subst w2. eauto.
    - cbn in E. injection E as <- E.
      assert (Hb : b <> LoDiverge) by (destruct b; try discriminate; destruct h1; discriminate).
      assert (E' : rwreck_run start finish keep ruin ruin_fut rload z1 l = h1 ++ (LLoad, LoLoad m, w1) :: h2)
        by (destruct b; try exact E; destruct h1; discriminate).
      destruct (IH _ _ _ _ _ E') as (c & w & c1 & H). exists c, w, c1. rewrite <- H. do 3 f_equal.
      change (lives_from (map (@life_of T) (r_reqs z)) ((o, b, r_w z1) :: h1)) with (lives_from (life_step (map (@life_of T) (r_reqs z)) (o, b)) h1).
      now rewrite <- (rwreck_life _ _ Es Hb).
  Qed.

  (** ** When everything handed out has been dropped, nothing is open. *)
  Record kept_up (h : list entry) (z : rsys) : Prop := KeptUp {
    ku_len : length (r_reqs z) = made_calls h;
    ku_futs : length (r_futs z) = made_calls h;
    ku_gone : forall j w, In (LDropFut j, LoDone, w) h -> j < made_calls h /\ nth_error (r_futs z) j = Some None /\ forall t, nth_error (r_reqs z) j <> Some (Waiting t);
    ku_handle : forall j w, In (LDropHandle j, LoDone, w) h -> j < made_calls h /\ nth_error (r_reqs z) j = Some Finished;
    ku_kept : forall j t, nth_error (r_reqs z) j = Some (Kept t) -> exists v w, In (LPoll j, LoPolled (Ready (Ok (v, true))), w) h }.
  Lemma made_snoc (h : list entry) e : made_calls (h ++ [e]) = made_calls h + match fst e with (LCall _, LoCalled) => 1 | _ => 0 end.
  Proof. unfold made_calls. rewrite filter_app, app_length. cbn. destruct (fst e) as [[] []]; reflexivity. Qed.
  Lemma kept_skip h e (z z1 : rsys) : kept_up h z ->
    made_calls (h ++ [e]) = made_calls h ->
    length (r_reqs z1) = length (r_reqs z) -> length (r_futs z1) = length (r_futs z) ->
    (forall j, nth_error (r_futs z) j = Some None -> nth_error (r_futs z1) j = Some None) ->
    (forall j t, nth_error (r_reqs z1) j = Some (Waiting t) -> nth_error (r_reqs z) j = Some (Waiting t)) ->
    (forall j, nth_error (r_reqs z) j = Some Finished -> nth_error (r_reqs z1) j = Some Finished) ->
    (forall j t, nth_error (r_reqs z1) j = Some (Kept t) -> nth_error (r_reqs z) j = Some (Kept t) \/ exists v w, e = (LPoll j, LoPolled (Ready (Ok (v, true))), w)) ->
    (forall j w, e = (LDropFut j, LoDone, w) -> j < made_calls h /\ nth_error (r_futs z1) j = Some None /\ forall t, nth_error (r_reqs z1) j <> Some (Waiting t)) ->
    (forall j w, e = (LDropHandle j, LoDone, w) -> j < made_calls h /\ nth_error (r_reqs z1) j = Some Finished) ->
    kept_up (h ++ [e]) z1.
  Proof.
    intros [K1 K2 K3 K4 K5] Hm L1 L2 F1 F2 F3 F4 F5 F6. constructor; rewrite ?Hm; try congruence.
    - intros j w I. apply in_app_or in I. destruct I as [I|[I|[]]]; [|apply (F5 j w I)].
      destruct (K3 j w I) as (A1 & A2 & A3). split; [assumption|split; [auto|]]. intros t Ht. apply (A3 t). auto.
    - intros j w I. apply in_app_or in I. destruct I as [I|[I|[]]]; [|apply (F6 j w I)].
      destruct (K4 j w I) as (A1 & A2). split; auto.
    - intros j t Ht. destruct (F4 j t Ht) as [H|(v & w & ->)].
      + destruct (K5 j t H) as (v & w & I). exists v, w. apply in_or_app. auto.
      + exists v, w. apply in_or_app. right. left. reflexivity.
  Qed.

  Lemma kept_step h o (z z1 : rsys) b : kept_up h z ->
    rsys_step start finish keep rload o z = (z1, b) -> b <> LoPanic -> b <> LoDiverge ->
    kept_up (h ++ [(o, b, r_w z1)]) z1.
  Proof.
    intros K E Np Nd. destruct z as [s rf rq c w]. cbn [r_futs r_reqs] in *.
    assert (Idle : forall s' c' w', z1 = RSys svc s' rf rq c' w' ->
      (forall r, (o, b) <> (LCall r, LoCalled)) -> (forall j, (o, b) <> (LDropFut j, LoDone)) -> (forall j, (o, b) <> (LDropHandle j, LoDone)) ->
      kept_up (h ++ [(o, b, r_w z1)]) z1).
    { intros s' c' w' -> M1 M2 M3. eapply kept_skip; [exact K| | | | | | | | |]; cbn [r_reqs r_futs r_w]; auto.
      - rewrite made_snoc. cbn [fst]. destruct o as [|r|j|j|j| | |g]; try lia. destruct b; try lia. destruct (M1 r eq_refl).
      - intros j w0 H. injection H as -> -> _. destruct (M2 j eq_refl).
      - intros j w0 H. injection H as -> -> _. destruct (M3 j eq_refl). }
    destruct o as [|r|j|j|j| | |g]; cbn [rsys_step r_svc r_futs r_reqs r_est r_w] in E.
    - destruct s as [s|]; [|injection E as <- <-; eapply Idle; [reflexivity|discriminate..]].
      destruct (poll_ready svc s w) as [w1 [[s1 a]| |]]; injection E as <- <-; try congruence. eapply Idle; [reflexivity|discriminate..].
    - destruct s as [s|]; [|injection E as <- <-; eapply Idle; [reflexivity|discriminate..]].
      destruct (start w) as [w1 [t| |]]; try (injection E as <- <-; congruence).
      destruct (call svc s r w1) as [w2 [[s1 f]| |]]; try (injection E as <- <-; congruence).
      2:{ destruct (finish t c w2). injection E as <- <-. congruence. }
      injection E as <- <-. destruct K as [K1 K2 K3 K4 K5]. cbn [r_reqs r_futs] in *.
      assert (M1 : forall w, made_calls (h ++ [(LCall r, LoCalled, w)]) = S (made_calls h)) by (intros w'; rewrite made_snoc; cbn; lia).
      constructor; rewrite ?M1; cbn [r_reqs r_futs]; rewrite ?app_length; cbn [length]; try lia.
      + intros j w' I. apply in_app_or in I. destruct I as [I|[I|[]]]; [|discriminate]. destruct (K3 j w' I) as (A1 & A2 & A3).
        split; [lia|]. rewrite !nth_snoc. rewrite K1, K2. destruct (Nat.eqb_spec j (made_calls h)); [lia|]. auto.
      + intros j w' I. apply in_app_or in I. destruct I as [I|[I|[]]]; [|discriminate]. destruct (K4 j w' I) as (A1 & A2).
        split; [lia|]. rewrite !nth_snoc. rewrite K1. destruct (Nat.eqb_spec j (made_calls h)); [lia|]. auto.
      + intros j t'. rewrite nth_snoc. destruct (j =? length rq); [discriminate|]. intros H. destruct (K5 j t' H) as (v & w' & I).
        exists v, w'. apply in_or_app. auto.
    - destruct (nth_error rf j) as [[f|]|] eqn:Ef; try (injection E as <- <-; eapply Idle; [reflexivity|discriminate..]).
      assert (Fn : forall f1 i, nth_error rf i = Some None -> nth_error (set_nth j (Some f1) rf) i = Some None)
        by (intros f1 i Hi; rewrite sn_nth; destruct (Nat.eqb_spec j i) as [<-|]; [congruence|assumption]).
      destruct (poll_fut svc f w) as [w1 [[f1 a]| |]]; try (injection E as <- <-; congruence).
      assert (Still : forall b', z1 = RSys svc s (set_nth j (Some f1) rf) rq c w1 -> b = LoPolled b' -> kept_up (h ++ [(LPoll j, b, r_w z1)]) z1).
      { intros b' -> ->. eapply kept_skip; [exact K| | | | | | | | |]; cbn [r_reqs r_futs r_w]; auto; rewrite ?sn_len; auto; try discriminate. rewrite made_snoc. cbn. lia. }
      destruct a as [|[v|e]].
      + injection E as <- <-. eapply Still; reflexivity.
      + destruct (nth_error rq j) as [[t|t|]|] eqn:Eq; try (injection E as <- <-; congruence).
        destruct (keep v w1) as [w2 [|]].
        * injection E as <- <-. eapply kept_skip; [exact K| | | | | | | | |]; cbn [r_reqs r_futs r_w]; auto; rewrite ?sn_len; auto; try discriminate.
          -- rewrite made_snoc. cbn. lia.
          -- intros i u. rewrite sn_nth. destruct (Nat.eqb_spec j i) as [<-|]; [|auto]. rewrite Eq. discriminate.
          -- intros i Hi. rewrite sn_nth. destruct (Nat.eqb_spec j i) as [<-|]; [|auto]. congruence.
          -- intros i u. rewrite sn_nth. destruct (Nat.eqb_spec j i) as [<-|]; [|auto]. intros _. right. eauto.
        * destruct (finish t c w2) as [c3 w3]. injection E as <- <-.
          eapply kept_skip; [exact K| | | | | | | | |]; cbn [r_reqs r_futs r_w]; auto; rewrite ?sn_len; auto; try discriminate.
          -- rewrite made_snoc. cbn. lia.
          -- intros i u. rewrite sn_nth. destruct (Nat.eqb_spec j i) as [<-|]; [|auto]. rewrite Eq. discriminate.
          -- intros i Hi. rewrite sn_nth. destruct (Nat.eqb_spec j i) as [<-|]; [|auto]. rewrite Eq. reflexivity.
          -- intros i u. rewrite sn_nth. destruct (Nat.eqb_spec j i) as [<-|]; [|auto]. rewrite Eq. discriminate.
      + injection E as <- <-. eapply Still; reflexivity.
    - destruct (nth_error rf j) as [[f|]|] eqn:Ef; try (injection E as <- <-; eapply Idle; [reflexivity|discriminate..]).
      assert (Lj : j < made_calls h) by (rewrite <- (ku_futs K); cbn; apply nth_error_Some; congruence).
      assert (Fn : forall i, nth_error rf i = Some None -> nth_error (set_nth j None rf) i = Some None)
        by (intros i Hi; rewrite sn_nth; destruct (Nat.eqb_spec j i) as [<-|]; [congruence|assumption]).
      assert (Fj : nth_error (set_nth j None rf) j = Some None) by (rewrite sn_nth, Nat.eqb_refl, Ef; reflexivity).
      destruct (nth_error rq j) as [[t|t|]|] eqn:Eq.
      + destruct (finish t c (drop_fut svc f w)) as [c2 w2]. injection E as <- <-.
        eapply kept_skip; [exact K| | | | | | | | |]; cbn [r_reqs r_futs r_w]; auto; rewrite ?sn_len; auto; try discriminate.
        * rewrite made_snoc. cbn. lia.
        * intros i u. rewrite sn_nth. destruct (Nat.eqb_spec j i) as [<-|]; [|auto]. rewrite Eq. discriminate.
        * intros i Hi. rewrite sn_nth. destruct (Nat.eqb_spec j i) as [<-|]; [|auto]. rewrite Eq. reflexivity.
        * intros i u. rewrite sn_nth. destruct (Nat.eqb_spec j i) as [<-|]; [|auto]. rewrite Eq. discriminate.
        * intros i w' H. injection H as <- _. split; [assumption|split; [assumption|]]. intros u. rewrite sn_nth, Nat.eqb_refl, Eq. discriminate.
      + injection E as <- <-.
        eapply kept_skip; [exact K| | | | | | | | |]; cbn [r_reqs r_futs r_w]; auto; rewrite ?sn_len; auto; try discriminate.
        * rewrite made_snoc. cbn. lia.
        * intros i w' H. injection H as <- _. split; [assumption|split; [assumption|]]. intros u. congruence.
      + injection E as <- <-.
        eapply kept_skip; [exact K| | | | | | | | |]; cbn [r_reqs r_futs r_w]; auto; rewrite ?sn_len; auto; try discriminate.
        * rewrite made_snoc. cbn. lia.
        * intros i w' H. injection H as <- _. split; [assumption|split; [assumption|]]. intros u. congruence.
      + injection E as <- <-.
        eapply kept_skip; [exact K| | | | | | | | |]; cbn [r_reqs r_futs r_w]; auto; rewrite ?sn_len; auto; try discriminate.
        * rewrite made_snoc. cbn. lia.
        * intros i w' H. injection H as <- _. split; [assumption|split; [assumption|]]. intros u. congruence.
    - destruct (nth_error rq j) as [[t|t|]|] eqn:Eq; try (injection E as <- <-; eapply Idle; [reflexivity|discriminate..]).
      assert (Lj : j < made_calls h) by (rewrite <- (ku_len K); cbn; apply nth_error_Some; congruence).
      destruct (finish t c w) as [c1 w1]. injection E as <- <-.
      eapply kept_skip; [exact K| | | | | | | | |]; cbn [r_reqs r_futs r_w]; auto; rewrite ?sn_len; auto; try discriminate.
      + rewrite made_snoc. cbn. lia.
      + intros i u. rewrite sn_nth. destruct (Nat.eqb_spec j i) as [<-|]; [|auto]. rewrite Eq. discriminate.
      + intros i Hi. rewrite sn_nth. destruct (Nat.eqb_spec j i) as [<-|]; [|auto]. rewrite Eq. reflexivity.
      + intros i u. rewrite sn_nth. destruct (Nat.eqb_spec j i) as [<-|]; [|auto]. rewrite Eq. discriminate.
      + intros i w' H. injection H as <- _. split; [assumption|]. rewrite sn_nth, Nat.eqb_refl, Eq. reflexivity.
    - destruct s as [s|]; [|injection E as <- <-; eapply Idle; [reflexivity|discriminate..]].
      destruct (rload _ c w) as [[c1 w1] m]. injection E as <- <-. eapply Idle; [reflexivity|discriminate..].
    - destruct s as [s|]; injection E as <- <-; eapply Idle; try reflexivity; discriminate.
    - injection E as <- <-. eapply Idle; [reflexivity|discriminate..].
  Qed.
  Lemma panic_futs o (z : rsys) : snd (rsys_step start finish keep rload o z) = LoPanic ->
    r_futs (fst (rsys_step start finish keep rload o z)) = r_futs z.
  Proof.
    destruct z as [s rf rq c w]. destruct o as [|r|j|j|j| | |g]; cbn [rsys_step r_svc r_futs r_reqs r_est r_w].
    - destruct s as [s|]; [|reflexivity]. destruct (poll_ready svc s w) as [w1 [[s1 a]| |]]; reflexivity.
    - destruct s as [s|]; [|reflexivity]. destruct (start w) as [w1 [t| |]]; try reflexivity.
      destruct (call svc s r w1) as [w2 [[s1 f]| |]]; try reflexivity; [discriminate|]. destruct (finish t c w2). reflexivity.
    - destruct (nth_error rf j) as [[f|]|]; try reflexivity.
      destruct (poll_fut svc f w) as [w1 [[f1 a]| |]]; try reflexivity. destruct a as [|[v|e]]; try discriminate.
      destruct (nth_error rq j) as [[t|t|]|]; try reflexivity. destruct (keep v w1) as [w2 [|]]; [discriminate|].
      destruct (finish t c w2). discriminate.
    - destruct (nth_error rf j) as [[f|]|]; try reflexivity.
      destruct (nth_error rq j) as [[t|t|]|]; try discriminate. destruct (finish t c (drop_fut svc f w)). discriminate.
    - destruct (nth_error rq j) as [[t|t|]|]; try discriminate. destruct (finish t c w). discriminate.
    - destruct s as [s|]; [|reflexivity]. destruct (rload _ c w) as [[c1 w1] m]. discriminate.
    - destruct s; discriminate.
    - discriminate.
  Qed.
  Lemma kept_wreck h o (z z1 : rsys) b : kept_up h z ->
    rwreck_step start finish keep ruin ruin_fut rload o z = (z1, b) -> b <> LoDiverge ->
    kept_up (h ++ [(o, b, r_w z1)]) z1.
  Proof.
    intros K E Nd. unfold rwreck_step in E. assert (Hs := @kept_step h o z).
    assert (Hp := @panic_reqs o z). assert (Hf := @panic_futs o z).
    destruct (rsys_step start finish keep rload o z) as [z2 b2]. cbn [fst snd] in *.
    destruct b2; try (injection E as <- <-; apply Hs; try assumption; try reflexivity; congruence).
    specialize (Hp eq_refl). specialize (Hf eq_refl). clear Hs.
    assert (Hz : r_reqs z1 = r_reqs z /\ b = LoPanic /\ length (r_futs z1) = length (r_futs z) /\
      forall j, nth_error (r_futs z) j = Some None -> nth_error (r_futs z1) j = Some None).
    { destruct o as [|r|j|j|j| | |g]; try (injection E as <- <-; cbn [r_reqs r_futs]; rewrite ?Hf; now auto).
      rewrite Hf in E. destruct (nth_error (r_futs z) j) as [[f|]|] eqn:Ef; injection E as <- <-; cbn [r_reqs r_futs]; rewrite ?sn_len, ?Hf; auto.
      repeat split; auto. intros i Hi. rewrite sn_nth. destruct (Nat.eqb_spec j i) as [<-|]; congruence. }
    destruct Hz as (Hr & -> & Lf & Hn).
    eapply kept_skip; [exact K| | | | | | | | |]; rewrite ?Hr; auto; try discriminate.
    rewrite made_snoc. cbn. destruct o; lia.
  Qed.
  (** [z'] is the state in which the history [h1] ends. *)
  Lemma kept_end l : forall (z : rsys) h h1 e h2, kept_up h z ->
    rwreck_run start finish keep ruin ruin_fut rload z l = h1 ++ e :: h2 ->
    exists z', kept_up (h ++ h1) z' /\ map (@life_of T) (r_reqs z') = lives_from (map (@life_of T) (r_reqs z)) h1.
  Proof.
    induction l as [|o l IH]; intros z h h1 e h2 K E; cbn [rwreck_run] in E; [destruct h1; discriminate|].
    destruct (rwreck_step start finish keep ruin ruin_fut rload o z) as [z1 b] eqn:Es.
    destruct h1 as [|e1 h1].
    - exists z. rewrite app_nil_r. auto.
    - cbn in E. injection E as <- E.
      assert (Hb : b <> LoDiverge) by (destruct b; try discriminate; destruct h1; discriminate).
      assert (E' : rwreck_run start finish keep ruin ruin_fut rload z1 l = h1 ++ e :: h2)
        by (destruct b; try exact E; destruct h1; discriminate).
      destruct (IH z1 _ _ _ _ (kept_wreck _ K Es Hb) E') as (z' & K' & L'). exists z'. rewrite <- app_assoc in K'. split; [exact K'|].
      rewrite L', (rwreck_life _ _ Es Hb). reflexivity.
  Qed.
  Lemma nothing_open h (z : rsys) : kept_up h z -> all_dropped h -> open z = 0.
  Proof.
    intros [K1 K2 K3 K4 K5] D. unfold open. destruct (List.filter is_open (r_reqs z)) as [|q l] eqn:E; [reflexivity|].
    assert (I : In q (List.filter is_open (r_reqs z))) by (rewrite E; left; reflexivity).
    apply filter_In in I. destruct I as [I O]. apply In_nth_error in I. destruct I as [j Ej].
    assert (Lj : j < made_calls h) by (rewrite <- K1; apply nth_error_Some; congruence).
    destruct (D j Lj) as [[w1 D1] D2]. destruct (K3 _ _ D1) as (_ & _ & N). destruct q as [t|t|]; [destruct (N t Ej)| |discriminate].
    destruct (D2 (K5 _ _ Ej)) as [w2 D3]. destruct (K4 _ _ D3) as [_ F]. congruence.
  Qed.
End P.

Section PR.
  Context {W Req Resp Err : Type} (svc : Service W Req Resp Err) (keep : Resp -> W -> W * bool).
  Context (ruin : st svc -> st svc) (ruin_fut : fut svc -> fut svc).
  Notation history s w l := (wreck_run ruin ruin_fut pr_load (lsys0 svc pr_start pr_finish keep s (arc_new tt, w)) l).
  Lemma wreck_counts (s : st svc) w l h1 m w1 h2 :
    history s w l = h1 ++ (LLoad, LoLoad m, w1) :: h2 -> m = unfinished h1.
  Proof.
    rewrite (@wreck_refines _ _ _ _ _ _ _ svc pr_start pr_finish keep ruin ruin_fut pr_load (fun n c w => (c, w, n)) (fun _ _ _ => eq_refl)).
    intros H. apply rwreck_load in H. destruct H as (c & w0 & c1 & H). injection H as _ _ H. now rewrite <- H.
  Qed.
  Lemma wreck_zero (s : st svc) w l h1 m w1 h2 :
    history s w l = h1 ++ (LLoad, LoLoad m, w1) :: h2 -> all_dropped h1 -> m = 0.
  Proof.
    intros H D. assert (Hm := @wreck_counts _ _ _ _ _ _ _ H). subst m.
    rewrite (@wreck_refines _ _ _ _ _ _ _ svc pr_start pr_finish keep ruin ruin_fut pr_load (fun n c w => (c, w, n)) (fun _ _ _ => eq_refl)) in H.
    destruct (@kept_end _ _ _ _ _ _ _ svc pr_start pr_finish keep ruin ruin_fut (fun n c w => (c, w, n)) l (rsys0 svc s tt w) [] h1 (LLoad, LoLoad (unfinished h1), w1) h2) as (z' & K & L); [|exact H|].
    - constructor; cbn; try reflexivity; try contradiction. intros [|j]; discriminate.
    - cbn [app] in K. apply nothing_open in K; [|exact D]. rewrite open_lives, L in K. exact K.
  Qed.
End PR.
