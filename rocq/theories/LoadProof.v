(** Load tracking: the reference count is the number of unfinished requests. *)
From Verif Require Import Base Middleware Load LoadSpec.
Set Implicit Arguments.

Lemma sn_len {A} (l : list A) : forall i x, length (set_nth i x l) = length l.
Proof. induction l; intros [|i] x; cbn; auto. Qed.
Lemma sn_nth {A} (l : list A) : forall i j x, nth_error (set_nth i x l) j =
  if i =? j then match nth_error l j with Some _ => Some x | None => None end else nth_error l j.
Proof. induction l; intros [|i] [|j] x; cbn; auto. destruct (i =? j); reflexivity. Qed.
Lemma sn_count {A} (p : A -> bool) l : forall j x y, nth_error l j = Some x ->
  length (List.filter p (set_nth j y l)) + (if p x then 1 else 0) = length (List.filter p l) + (if p y then 1 else 0).
Proof.
  induction l as [|a l IH]; intros [|j] x y E; cbn in *; try discriminate.
  - injection E as ->. destruct (p x), (p y); cbn; lia.
  - specialize (IH j x y E). destruct (p a); cbn; lia.
Qed.
Lemma nth_snoc {A} (l : list A) x j : nth_error (l ++ [x]) j =
  if j =? length l then Some x else nth_error l j.
Proof.
  destruct (Nat.eqb_spec j (length l)) as [->|N].
  - rewrite nth_error_app2, Nat.sub_diag; auto.
  - destruct (Nat.lt_ge_cases j (length l)) as [H|H]; [now rewrite nth_error_app1|].
    rewrite nth_error_app2 by lia. replace (nth_error l j) with (@None A) by (symmetry; apply nth_error_None; lia).
    destruct (j - length l) as [|k] eqn:E; [lia|]. cbn. destruct k; reflexivity.
Qed.

Section P.
  Context {W Req Resp Err C T Met : Type} (svc : Service W Req Resp Err).
  Context (start : M W T) (finish : T -> C -> W -> C * W) (keep : Resp -> W -> W * bool).
  Context (load : M (arc (C := C) * W) Met) (rload : nat -> C -> W -> C * W * Met).
  Hypothesis load_ok : forall n c w, load (Arc (S n) c, w) =
    let '(c1, w1, m) := rload n c w in ((Arc (S n) c1, w1), Val m).
  Notation tl := (tracked_load svc start finish keep).
  Notation lsys := (lsys svc start finish keep).
  Notation rsys := (rsys (C := C) (T := T) svc).

  (** One request: its future and its kept handle, in both systems. *)
  Definition rel1 (lf : option (option (fut tl))) (lk : option (option T)) (rf : option (option (fut svc))) (q : option (rq (T := T))) : Prop :=
    match q with
    | None => lf = None /\ lk = None /\ rf = None
    | Some (Waiting t) => exists f, lf = Some (Some (TcFut f (Some t))) /\ lk = Some None /\ rf = Some (Some f)
    | Some (Kept t) => lk = Some (Some t) /\ ((lf = Some None /\ rf = Some None) \/ exists f, lf = Some (Some (TcFut f None)) /\ rf = Some (Some f))
    | Some Finished => lk = Some None /\ ((lf = Some None /\ rf = Some None) \/ exists f, lf = Some (Some (TcFut f None)) /\ rf = Some (Some f))
    end.
  Record rel (y : lsys) (z : rsys) : Prop := MkRel {
    rl_svc : l_svc y = r_svc z;
    rl_est : content (fst (l_w y)) = r_est z;
    rl_w : snd (l_w y) = r_w z;
    rl_strong : strong (fst (l_w y)) = (match l_svc y with Some _ => 1 | None => 0 end) + open z;
    rl_len : length (l_futs y) = length (r_reqs z) /\ length (l_kept y) = length (r_reqs z) /\ length (r_futs z) = length (r_reqs z);
    rl_each : forall j, rel1 (nth_error (l_futs y) j) (nth_error (l_kept y) j) (nth_error (r_futs z) j) (nth_error (r_reqs z) j) }.

  Lemma step_rel o y z : rel y z ->
    match lsys_step load o y, rsys_step start finish keep rload o z with
    | (y1, b1), (z1, b2) => b1 = b2 /\ snd (l_w y1) = r_w z1 /\ (b1 = LoPanic \/ b1 = LoDiverge \/ rel y1 z1)
    end.
  Proof.
    intros [H1 H2 H3 H4 (L1 & L2 & L3) H6]. destruct y as [s lf lk [[n c] w]], z as [s' rf rq c' w']. cbn in *. subst s' c' w'.
    destruct o as [|r|j|j|j| | |g]; cbn [lsys_step rsys_step fut tracked_load l_svc r_svc l_futs l_kept l_w r_futs r_reqs r_est r_w].
    - (* ready *) destruct s as [s|]; [|cbn; split; [reflexivity|]; split; [reflexivity|]; right; right; constructor; cbn; auto].
      cbn [poll_ready tracked_load]. unfold lift_w. cbn [fst snd].
      destruct (poll_ready svc s w) as [w1 [[s1 a]| |]]; cbn; [|tauto|tauto].
      split; [reflexivity|]; split; [reflexivity|]; right; right; constructor; cbn; auto.
    - (* call *) destruct s as [s|]; [|cbn; split; [reflexivity|]; split; [reflexivity|]; right; right; constructor; cbn; auto].
      cbn [call tracked_load]. unfold tl_call, new_handle, bind, lift_w, modify, ret. cbn [fst snd strong content].
      destruct (start w) as [w1 [t| |]]; cbn [fst snd strong content]; [|cbn; tauto|cbn; tauto].
      destruct (call svc s r w1) as [w2 [[s1 f]| |]]; [| |cbn; tauto].
      2:{ unfold drop_handle. cbn [fst snd strong content]. destruct (finish t c w2) as [c3 w3]. cbn. tauto. }
      cbn. split; [reflexivity|]; split; [reflexivity|]; right; right. constructor; cbn; auto.
      + unfold open in *. cbn in *. rewrite filter_app, app_length. cbn. lia.
      + rewrite !app_length. cbn. lia.
      + intros j. rewrite !nth_snoc, L1, L2, L3. destruct (Nat.eqb_spec j (length rq)); [|apply H6]. cbn. eauto.
    - (* poll *) assert (Hj := H6 j).
      destruct (nth_error lf j) as [[f|]|] eqn:E1.
      2:{ assert (Ef : forall x, nth_error rf j <> Some (Some x)).
          { intros x Ex. unfold rel1 in Hj. destruct (nth_error rq j) as [[t|t|]|].
            - destruct Hj as (? & ? & _). discriminate.
            - destruct Hj as (_ & [[_ E]|(? & ? & _)]); [congruence|discriminate].
            - destruct Hj as (_ & [[_ E]|(? & ? & _)]); [congruence|discriminate].
            - destruct Hj as (_ & _ & E). congruence. }
          destruct (nth_error rf j) as [[x|]|]; [destruct (Ef x eq_refl)| |];
          (cbn; split; [reflexivity|]; split; [reflexivity|]; right; right; constructor; cbn; auto). }
      2:{ assert (Er : nth_error rf j = None) by (apply nth_error_None; apply nth_error_None in E1; lia). rewrite Er.
          cbn; split; [reflexivity|]; split; [reflexivity|]; right; right; constructor; cbn; auto. }
      cbn [poll_fut tracked_load]. unfold tc_poll, bind, lift_w, modify, ret. cbn [fst snd].
      assert (Hf : nth_error rf j = Some (Some (tc_inner f)) /\
        (tc_handle f = None -> nth_error rq j <> None /\ (forall t, nth_error rq j <> Some (Waiting t))) /\
        (forall t, tc_handle f = Some t -> nth_error rq j = Some (Waiting t) /\ nth_error lk j = Some None)).
      { unfold rel1 in Hj. destruct (nth_error rq j) as [[t|t|]|].
        - destruct Hj as (g & Eg & Ek & Er). injection Eg as ->. cbn. repeat split; try discriminate; auto; congruence.
        - destruct Hj as (_ & [[E _]|(g & Eg & Er)]); [discriminate|]. injection Eg as ->. cbn. repeat split; congruence.
        - destruct Hj as (_ & [[E _]|(g & Eg & Er)]); [discriminate|]. injection Eg as ->. cbn. repeat split; congruence.
        - destruct Hj as (E & _). discriminate. }
      destruct Hf as (Er & Hn & Hs). rewrite Er.
      assert (Each : forall (f1 : fut svc), forall i,
        rel1 (nth_error (set_nth j (Some (TcFut f1 (tc_handle f))) lf) i) (nth_error lk i)
             (nth_error (set_nth j (Some f1) rf) i) (nth_error rq i)).
      { intros f1 i. rewrite !sn_nth. destruct (Nat.eqb_spec j i) as [<-|N]; [|apply H6].
        rewrite E1, Er. unfold rel1 in *. destruct (nth_error rq j) as [[t|t|]|].
        - destruct Hj as (g & Eg & Ek & _). injection Eg as ->. cbn. eauto.
        - destruct Hj as (Ek & [[E _]|(g & Eg & _)]); [discriminate|]. injection Eg as ->. cbn. split; [assumption|]. right. eauto.
        - destruct Hj as (Ek & [[E _]|(g & Eg & _)]); [discriminate|]. injection Eg as ->. cbn. split; [assumption|]. right. eauto.
        - destruct Hj as (E & _). discriminate. }
      destruct (poll_fut svc (tc_inner f) w) as [w1 [[f1 a]| |]]; [|cbn; tauto|cbn; tauto]. cbn [fst snd].
      destruct a as [|[v|e]].
      + cbn. split; [reflexivity|]; split; [reflexivity|]; right; right. constructor; cbn; auto; rewrite ?sn_len; auto.
      + destruct (tc_handle f) as [t|] eqn:Eh.
        * destruct (Hs t eq_refl) as [Eq Ek]. rewrite Eq.
          assert (Rj := fun y => @sn_count _ is_open rq j (Waiting t) y Eq).
          cbn [fst snd]. destruct (keep v w1) as [w2 k]. cbn [fst snd]. destruct k.
          { cbn. split; [reflexivity|]; split; [reflexivity|]; right; right. constructor; cbn; rewrite ?sn_len; auto.
            - specialize (Rj (Kept t)). unfold open in *. cbn in *. lia.
            - intros i. rewrite !sn_nth. destruct (Nat.eqb_spec j i) as [<-|N]; [|apply H6].
              rewrite E1, Ek, Er, Eq. cbn. split; [reflexivity|]. right. eauto. }
          { unfold drop_handle. cbn [fst snd strong content]. destruct (finish t c w2) as [c3 w3].
            cbn. split; [reflexivity|]; split; [reflexivity|]; right; right. constructor; cbn; rewrite ?sn_len; auto.
            - specialize (Rj Finished). unfold open in *. cbn in *. lia.
            - intros i. rewrite !sn_nth. destruct (Nat.eqb_spec j i) as [<-|N]; [|apply H6].
              rewrite E1, Er, Eq. cbn. split; [assumption|]. right. eauto. }
        * destruct (Hn eq_refl) as [N1 N2]. cbn. destruct (nth_error rq j) as [[t|t|]|]; try congruence; tauto.
      + cbn. split; [reflexivity|]; split; [reflexivity|]; right; right. constructor; cbn; auto; rewrite ?sn_len; auto.
    - (* drop future *) assert (Hj := H6 j).
      destruct (nth_error lf j) as [[f|]|] eqn:E1.
      2:{ assert (Ef : forall x, nth_error rf j <> Some (Some x)).
          { intros x Ex. unfold rel1 in Hj. destruct (nth_error rq j) as [[t|t|]|].
            - destruct Hj as (? & ? & _). discriminate.
            - destruct Hj as (_ & [[_ E]|(? & ? & _)]); [congruence|discriminate].
            - destruct Hj as (_ & [[_ E]|(? & ? & _)]); [congruence|discriminate].
            - destruct Hj as (_ & _ & E). congruence. }
          destruct (nth_error rf j) as [[x|]|]; [destruct (Ef x eq_refl)| |];
          (cbn; split; [reflexivity|]; split; [reflexivity|]; right; right; constructor; cbn; auto). }
      2:{ assert (Er : nth_error rf j = None) by (apply nth_error_None; apply nth_error_None in E1; lia). rewrite Er.
          cbn; split; [reflexivity|]; split; [reflexivity|]; right; right; constructor; cbn; auto. }
      cbn [drop_fut tracked_load]. unfold tc_drop. cbn [fst snd].
      destruct (nth_error rq j) as [[t|t|]|] eqn:Eq; unfold rel1 in Hj.
      + destruct Hj as (g & Eg & Ek & Er). injection Eg as ->. rewrite Er. cbn [tc_inner tc_handle]. unfold drop_handle. cbn [fst snd strong content].
        destruct (finish t c (drop_fut svc g w)) as [c2 w2]. cbn. split; [reflexivity|]; split; [reflexivity|]; right; right.
        constructor; cbn; rewrite ?sn_len; auto.
        * assert (Rj := @sn_count _ is_open rq j _ Finished Eq). unfold open in *. cbn in *. lia.
        * intros i. rewrite !sn_nth. destruct (Nat.eqb_spec j i) as [<-|N]; [|apply H6].
          rewrite E1, Er, Eq. cbn. auto.
      + destruct Hj as (Ek & [[E _]|(g & Eg & Er)]); [discriminate|]. injection Eg as ->. rewrite Er. cbn.
        split; [reflexivity|]; split; [reflexivity|]; right; right. constructor; cbn; rewrite ?sn_len; auto.
        intros i. rewrite !sn_nth. destruct (Nat.eqb_spec j i) as [<-|N]; [|apply H6]. rewrite E1, Er, Eq. cbn. auto.
      + destruct Hj as (Ek & [[E _]|(g & Eg & Er)]); [discriminate|]. injection Eg as ->. rewrite Er. cbn.
        split; [reflexivity|]; split; [reflexivity|]; right; right. constructor; cbn; rewrite ?sn_len; auto.
        intros i. rewrite !sn_nth. destruct (Nat.eqb_spec j i) as [<-|N]; [|apply H6]. rewrite E1, Er, Eq. cbn. auto.
      + destruct Hj as (E & _). discriminate.
    - (* drop handle *) assert (Hj := H6 j). unfold rel1 in Hj.
      assert (Same : rel (@LSys _ _ _ _ _ _ svc start finish keep s lf lk (Arc n c, w)) (@RSys _ _ _ _ _ _ svc s rf rq c w)) by (constructor; cbn; auto).
      destruct (nth_error rq j) as [[t|t|]|] eqn:Eq.
      + destruct Hj as (g & Eg & -> & _). cbn. auto.
      + destruct Hj as (Ek & Hf). rewrite Ek. unfold drop_handle. cbn [fst snd strong content].
        destruct (finish t c w) as [c1 w1]. cbn. split; [reflexivity|]; split; [reflexivity|]; right; right.
        constructor; cbn; rewrite ?sn_len; auto.
        * assert (Rj := @sn_count _ is_open rq j _ Finished Eq). unfold open in *. cbn in *. lia.
        * intros i. rewrite !sn_nth. destruct (Nat.eqb_spec j i) as [<-|N]; [|apply H6]. rewrite Ek, Eq. cbn. auto.
      + destruct Hj as (-> & _). cbn. auto.
      + destruct Hj as (_ & -> & _). cbn. auto.
    - (* load *) destruct s as [s|]; [|cbn; split; [reflexivity|]; split; [reflexivity|]; right; right; constructor; cbn; auto].
      cbn in H4. rewrite H4. rewrite load_ok. unfold open. cbn [r_reqs].
      destruct (rload (length (List.filter is_open rq)) c w) as [[c1 w1] m]. cbn.
      split; [reflexivity|]; split; [reflexivity|]; right; right; constructor; cbn; auto.
    - (* drop svc *) destruct s as [s|]; [|cbn; split; [reflexivity|]; split; [reflexivity|]; right; right; constructor; cbn; auto].
      cbn. split; [reflexivity|]; split; [reflexivity|]; right; right; constructor; cbn; auto. rewrite H4. reflexivity.
    - cbn. split; [reflexivity|]; split; [reflexivity|]; right; right; constructor; cbn; auto.
  Qed.

  Lemma run_rel l : forall y z, rel y z -> lsys_run load y l = rsys_run start finish keep rload z l.
  Proof.
    induction l as [|o l IH]; intros y z H; [reflexivity|]. cbn [lsys_run rsys_run].
    generalize (step_rel o H). destruct (lsys_step load o y) as [y1 b1], (rsys_step start finish keep rload o z) as [z1 b2].
    intros (-> & -> & Hr). f_equal. destruct Hr as [->|[->|Hr]]; [reflexivity|reflexivity|]. destruct b2; auto.
  Qed.
  Lemma load_refines s c w l :
    lsys_run load (lsys0 svc start finish keep s (arc_new c, w)) l = rsys_run start finish keep rload (rsys0 (T := T) svc s c w) l.
  Proof.
    apply run_rel. constructor; cbn; auto. intros j. rewrite !nth_error_nil || (destruct j; cbn; auto).
  Qed.

  (** The state of the requests is determined by the history. *)
  Definition life_of (q : rq (T := T)) : life := match q with Waiting _ => InFuture | Kept _ => WithHandle | Finished => Over end.
  Lemma map_sn {A B} (f : A -> B) l : forall i x, map f (set_nth i x l) = set_nth i (f x) (map f l).
  Proof. induction l; intros [|i] x; cbn; auto. now rewrite IHl. Qed.
  Lemma sn_same {A} (l : list A) : forall i x, nth_error l i = Some x -> set_nth i x l = l.
  Proof. induction l; intros [|i] x; cbn; intros H; try discriminate; [congruence|]. now rewrite IHl. Qed.
  Lemma life_rstep (o : lop W Req) (z : rsys) : let '(z1, b) := rsys_step start finish keep rload o z in
    b <> LoPanic -> b <> LoDiverge -> map life_of (r_reqs z1) = life_step (map life_of (r_reqs z)) (o, b).
  Proof.
    destruct z as [s rf rq c w]. destruct o as [|r|j|j|j| | |g]; cbn [rsys_step r_svc r_futs r_reqs r_est r_w].
    - destruct s as [s|]; [|reflexivity]. destruct (poll_ready svc s w) as [w1 [[s1 a]| |]]; try reflexivity; congruence.
    - destruct s as [s|]; [|reflexivity]. destruct (start w) as [w1 [t| |]]; try congruence; try reflexivity.
      destruct (call svc s r w1) as [w2 [[s1 f]| |]]; try congruence; try reflexivity.
      + intros _ _. cbn. now rewrite map_app.
      + destruct (finish t c w2). congruence.
    - destruct (nth_error rf j) as [[f|]|]; try reflexivity.
      destruct (poll_fut svc f w) as [w1 [[f1 a]| |]]; try congruence; try reflexivity. destruct a as [|[v|e]]; try reflexivity.
      destruct (nth_error rq j) as [[t|t|]|]; try congruence. destruct (keep v w1) as [w2 [|]].
      + cbn. now rewrite map_sn.
      + destruct (finish t c w2). cbn. now rewrite map_sn.
    - destruct (nth_error rf j) as [[f|]|]; try reflexivity.
      destruct (nth_error rq j) as [[t|t|]|] eqn:E; cbn; rewrite nth_error_map, E; cbn; try reflexivity.
      destruct (finish t c (drop_fut svc f w)). cbn. now rewrite map_sn.
    - destruct (nth_error rq j) as [[t|t|]|] eqn:E; try reflexivity. destruct (finish t c w). cbn. now rewrite map_sn.
    - destruct s as [s|]; [|reflexivity]. destruct (rload _ c w) as [[c1 w1] m]. reflexivity.
    - destruct s; reflexivity.
    - reflexivity.
  Qed.
  Definition lives_from (L : list life) (h : list (lop W Req * lobs Resp Err Met * W)) : list life :=
    fold_left (fun l e => life_step l (fst e)) h L.
  Definition alive (x : life) : bool := match x with Over => false | _ => true end.
  Lemma open_lives (z : rsys) : open z = length (List.filter alive (map life_of (r_reqs z))).
  Proof. unfold open. induction (r_reqs z) as [|q l IH]; cbn; auto. destruct q; cbn; lia. Qed.

  (** [Q]: what is known of a load answer given the number of open requests. *)
  Lemma rrun_load l : forall (z : rsys) h1 m w1 h2,
    rsys_run start finish keep rload z l = h1 ++ (LLoad, LoLoad m, w1) :: h2 ->
    exists c w c1, rload (length (List.filter alive (lives_from (map life_of (r_reqs z)) h1))) c w = (c1, w1, m).
  Proof.
    induction l as [|o l IH]; intros z h1 m w1 h2 E; cbn [rsys_run] in E; [destruct h1; discriminate|].
    assert (Hl := life_rstep o z). destruct (rsys_step start finish keep rload o z) as [z1 b] eqn:Es.
    destruct h1 as [|e h1].
    - cbn in E. injection E as -> -> Ew E. cbn [lives_from fold_left]. rewrite <- open_lives. cbn in Es.
      destruct (r_svc z); [|discriminate]. destruct (rload (open z) (r_est z) (r_w z)) as [[c2 w2] m2] eqn:El. injection Es as Ez Em. subst z1 m2. cbn in Ew. subst w2. eauto.
    - cbn in E. injection E as <- E.
      assert (Hb : b <> LoPanic /\ b <> LoDiverge) by (destruct b; split; try discriminate; destruct h1; discriminate).
      assert (E' : rsys_run start finish keep rload z1 l = h1 ++ (LLoad, LoLoad m, w1) :: h2)
        by (destruct b; try exact E; destruct h1; discriminate).
      destruct (IH _ _ _ _ _ E') as (c & w & c1 & H). exists c, w, c1. rewrite <- H. do 3 f_equal.
      change (lives_from (map life_of (r_reqs z)) ((o, b, r_w z1) :: h1)) with (lives_from (life_step (map life_of (r_reqs z)) (o, b)) h1).
      now rewrite <- Hl.
  Qed.
End P.

Section PR.
  Context {W Req Resp Err : Type} (svc : Service W Req Resp Err) (keep : Resp -> W -> W * bool).
  Lemma pr_load_counts s w l h1 m w1 h2 :
    lsys_run pr_load (lsys0 svc pr_start pr_finish keep s (arc_new tt, w)) l = h1 ++ (LLoad, LoLoad m, w1) :: h2 ->
    m = unfinished h1.
  Proof.
    rewrite (@load_refines _ _ _ _ _ _ _ svc pr_start pr_finish keep pr_load (fun n c w => (c, w, n)) (fun _ _ _ => eq_refl)).
    intros H. apply rrun_load in H. destruct H as (c & w0 & c1 & H). injection H as _ _ H. now rewrite <- H.
  Qed.
End PR.
