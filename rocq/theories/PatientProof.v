(** Proofs for C94. *)
From Coq Require Import Reals.
From Flocq Require Import Core BinarySingleNaN.
From Verif Require Import Base DriveSpec Middleware Float Backoff BackoffSpec BackoffProof BackoffTop Patient PatientSpec.
Set Implicit Arguments.
Local Open Scope Z_scope.

Section Gap.
  Context {W R : Type} (next_u64 : R -> M W (R * Z)) (debug : bool).

  Lemma delay_step b w w1 b1 d : good (b_cfg b) -> 0 <= b_iter b < 2 ^ 32 -> proper next_u64 ->
    next_backoff next_u64 debug b w = (w1, Val (b1, d)) ->
    b_cfg b1 = b_cfg b /\ b_iter b1 = (b_iter b + 1) mod 2 ^ 32 /\ base_of (b_cfg b) (b_iter b) <= d.
  Proof.
    intros G Hi Pr E. unfold next_backoff in E. rewrite base_value in E by (auto; lia).
    set (base := base_of (b_cfg b) (b_iter b)) in *. assert (Bd := @base_range (b_cfg b) (b_iter b) G ltac:(lia)). fold base in Bd.
    assert (Db : duration base) by (destruct G as (D1 & D2 & _); unfold duration in *; lia).
    unfold bind in E. destruct (bo_jitter_part next_u64 debug b base w) as [w2 [[g j]| |]] eqn:J; try discriminate E.
    assert (J0 : 0 <= j).
    { unfold bo_jitter_part in J. destruct (Beqb (bo_jitter (b_cfg b)) (f64_of 0 0)).
      - unfold ret in J. injection J as _ _ <-. lia.
      - unfold bind in J. destruct (Pr (b_rng b) w) as (g' & v & P1 & P2). destruct (next_u64 (b_rng b) w) as [w3 r]. cbn [snd] in P1. subst r.
        destruct (jitter_of debug _ _ base v) as [dj| |] eqn:Jo; try discriminate J. injection J as _ _ <-.
        destruct (@jitter_bound debug (b_cfg b) base v dj G Db P2 Jo) as [X Y]. lia. }
    destruct (dur_max <? base + j); [discriminate E|]. destruct (Z.ltb_spec (b_iter b + 1) (2 ^ 32)).
    - unfold ret in E. injection E as <- <- <-. cbn. rewrite Z.mod_small by lia. split; [reflexivity|]. split; [reflexivity|lia].
    - destruct debug; [discriminate E|]. unfold ret in E. injection E as <- <- <-. cbn.
      replace (b_iter b + 1) with (2 ^ 32) by lia. rewrite Z.mod_same by lia. split; [reflexivity|]. split; [reflexivity|lia].
  Qed.
End Gap.

Section Main.
  Context {W Req Resp Err A R : Type} (rt : Rt W) (horizon : Z) (next_u64 : R -> M W (R * Z)) (debug : bool)
    (ask : A -> Req -> result Resp Err -> M W (A * Req * result Resp Err * bool))
    (copy : A -> Req -> M W (A * option Req)) (aclone : A -> M W A) (svc : Service W Req Resp Err).
  Context (Fs : on_svc rt svc) (Fn : forall g, on rt (next_u64 g)) (Fa : forall a q v, on rt (ask a q v))
    (Fc : forall a r, on rt (copy a r)) (Fl : forall a, on rt (aclone a)) (Pr : proper next_u64).
  Notation ts := (timed rt svc).
  Notation tp := (at_times (patient rt horizon next_u64 debug ask copy aclone)).
  Notation TW := (W * times)%type.

  Lemma spaced_nil gap : spaced gap (Times [] []).
  Proof. split; [|split]; cbn; [intros [|k] ? ? H; discriminate H | intros [|k] ? ? H; discriminate H | lia]. Qed.
  Lemma spaced_answer gap s d t : spaced gap (Times s d) -> length s = S (length d) -> Forall (fun u => u <= t) s ->
    spaced gap (Times s (d ++ [t])).
  Proof.
    intros (H1 & H2 & H3) L F. cbn [sent done_at] in *. split; [|split]; cbn [sent done_at].
    - intros k a u Ha Hu. destruct (Nat.lt_ge_cases k (length d)) as [K|K].
      + rewrite nth_error_app1 in Ha by exact K. eauto.
      + assert (S k < length s)%nat by (apply nth_error_Some; rewrite Hu; discriminate). lia.
    - intros k u a Hu Ha. destruct (Nat.lt_ge_cases k (length d)) as [K|K].
      + rewrite nth_error_app1 in Ha by exact K. eauto.
      + rewrite nth_error_app2 in Ha by exact K. destruct (k - length d)%nat as [|[|]]; try discriminate Ha. cbn in Ha. injection Ha as <-.
        rewrite Forall_forall in F. apply F. eapply nth_error_In. exact Hu.
    - rewrite app_length. cbn. lia.
  Qed.
  Lemma spaced_send gap s d t : spaced gap (Times s d) -> length s = length d ->
    (forall k a, length d = S k -> nth_error d k = Some a -> a + gap k <= t) ->
    spaced gap (Times (s ++ [t]) d).
  Proof.
    intros (H1 & H2 & H3) L F. cbn [sent done_at] in *. split; [|split]; cbn [sent done_at].
    - intros k a u Ha Hu. destruct (Nat.lt_ge_cases (S k) (length s)) as [K|K].
      + rewrite nth_error_app1 in Hu by exact K. eauto.
      + rewrite nth_error_app2 in Hu by exact K. destruct (S k - length s)%nat as [|[|]] eqn:E; try discriminate Hu. cbn in Hu. injection Hu as <-.
        apply F; [lia | exact Ha].
    - intros k u a Hu Ha. assert (k < length d)%nat by (apply nth_error_Some; rewrite Ha; discriminate).
      rewrite nth_error_app1 in Hu by lia. eauto.
    - rewrite app_length. cbn. lia.
  Qed.

  Definition older (x : TW) : Prop := Forall (fun u => u <= now rt (fst x)) (sent (snd x)) /\ Forall (fun u => u <= now rt (fst x)) (done_at (snd x)).
  Lemma older_on x w : older x -> now rt (fst x) <= now rt w -> older (w, snd x).
  Proof. intros [H1 H2] L. split; cbn; (eapply Forall_impl; [|eassumption]); cbn; intros; lia. Qed.
  Definition at_pause (c : bo_cfg) (d : list Z) (t : Z) : Prop := forall k a, length d = S k -> nth_error d k = Some a -> a + pause c k <= t.

  (** What holds of a response future between polls. *)
  Definition pinv (c : bo_cfg) (f : retry_fut tp ts) (x : TW) : Prop :=
    b_cfg (snd (rf_pol f)) = c /\
    b_iter (snd (rf_pol f)) = Z.of_nat (length (done_at (snd x))) mod 2 ^ 32 /\
    spaced (pause c) (snd x) /\ older x /\
    match rf_state f with
    | RCalled _ => length (sent (snd x)) = S (length (done_at (snd x)))
    | RWaiting dl => length (sent (snd x)) = length (done_at (snd x)) /\ at_pause c (done_at (snd x)) dl
    | RRetrying => length (sent (snd x)) = length (done_at (snd x)) /\ at_pause c (done_at (snd x)) (now rt (fst x))
    end.

  Lemma next_on b : on rt (next_backoff next_u64 debug (R := R) b).
  Proof.
    intros w. unfold next_backoff, bo_jitter_part, bind, ret, panic, diverge. destruct (bo_base debug b) as [base| |]; cbn [fst]; try lia.
    destruct (Beqb (bo_jitter (b_cfg b)) (f64_of 0 0)).
    - repeat match goal with |- context [if ?c then _ else _] => destruct c end; cbn [fst]; lia.
    - generalize (Fn (b_rng b) w). destruct (next_u64 (b_rng b) w) as [w1 [[g v]| |]]; cbn [fst]; try lia.
      destruct (jitter_of debug _ _ base v) as [d| |]; cbn [fst]; try lia.
      repeat match goal with |- context [if ?c then _ else _] => destruct c end; cbn [fst]; lia.
  Qed.

  Lemma piter_ok c f x : good c -> pinv c f x ->
    match retry_iter f x with
    | (x1, Val (inl f1)) => pinv c f1 x1
    | (x1, Val (inr (f1, Pending))) => pinv c f1 x1
    | (x1, _) => spaced (pause c) (snd x1)
    end.
  Proof.
    intros G (Ec & Ei & Hs & Ho & Hst). destruct f as [rq [a b] s st0]. destruct x as [w [ss dd]].
    unfold retry_iter. cbn [rf_state rf_req rf_pol rf_svc snd fst sent done_at] in *.
    destruct st0 as [y|dl|].
    - cbn. unfold bind, in_t. cbn. assert (F1 := on_poll Fs y w).
      destruct (poll_fut svc y w) as [w1 [[y1 [|res]]| |]]; cbn in *; try exact Hs.
      + repeat (split; [assumption|]). split; [apply (@older_on (w, Times ss dd)); assumption | exact Hst].
      + assert (Ho1 := @older_on (w, Times ss dd) w1 Ho F1). cbn in Ho1.
        assert (Hs1 : spaced (pause c) (Times ss (dd ++ [now rt w1]))) by (apply spaced_answer; [assumption|assumption|exact (proj1 Ho1)]).
        destruct rq as [q|]; [|exact Hs1]. cbn. unfold bind, in_t. cbn. assert (F2 := Fa a q res w1).
        unfold bind. destruct (ask a q res w1) as [w2 [[[[a1 q1] res1] [|]]| |]]; cbn in *; try exact Hs1.
        unfold next_sleep, sleep_for, bind, get. cbn. assert (F3 := next_on b w2). assert (D := @delay_step W R next_u64 debug b w2).
        destruct (next_backoff next_u64 debug b w2) as [w3 [[b1 d]| |]]; cbn in *; try exact Hs1.
        specialize (D w3 b1 d). rewrite Ec, Ei in D.
        destruct D as (D1 & D2 & D3); [exact G | apply Z.mod_pos_bound; lia | exact Pr | reflexivity|].
        assert (F4 := on_drop Fs y1 w3).
        assert (L : length (dd ++ [now rt w1]) = S (length dd)) by (rewrite app_length; cbn; lia).
        split; [exact D1|]. cbn [snd fst sent done_at rf_pol rf_state]. split; [|split; [exact Hs1|split]].
        * rewrite D2, L, Zplus_mod_idemp_l. f_equal. lia.
        * apply (@older_on (w1, Times ss (dd ++ [now rt w1]))); cbn; [|lia].
          destruct Ho1 as [O1 O2]. split; cbn; [exact O1|]. apply Forall_app. split; [exact O2|]. constructor; [lia|constructor].
        * rewrite L. split; [exact Hst|]. intros k u Hk Hu. rewrite L in Hk. injection Hk as <-.
          rewrite nth_error_app2, Nat.sub_diag in Hu by lia. injection Hu as <-. unfold pause.
          change (2 ^ 32) with 4294967296. unfold thirty_years, second in *. destruct (now rt w3 + d <=? horizon); lia.
    - cbn. unfold bind, in_t, sleep_poll, get, modify, ret. cbn. unfold bind. destruct Hst as [L P].
      assert (E : fired rt w dl = true -> at_pause c dd (now rt (nap rt dl w))).
      { intros E k u H1 H2. rewrite now_nap. apply fired_sound in E. specialize (P k u H1 H2). lia. }
      assert (O1 : older (nap rt dl w, Times ss dd)) by (apply (@older_on (w, Times ss dd)); [exact Ho|cbn; rewrite now_nap; lia]).
      destruct (fired rt w dl); cbn; (split; [exact Ec|]); (split; [exact Ei|]); (split; [exact Hs|]); (split; [exact O1|]); cbn; auto.
    - cbn. unfold bind, in_t. cbn. assert (F1 := on_ready Fs s w). destruct Hst as [L P].
      destruct (poll_ready svc s w) as [w1 [[s1 [|[[]|e]]]| |]]; cbn in *; try exact Hs.
      + repeat (split; [assumption|]). split; [apply (@older_on (w, Times ss dd)); assumption |]. split; [exact L|].
        intros k u H1 H2. specialize (P k u H1 H2). cbn [fst snd] in *. lia.
      + destruct rq as [q|]; [|exact Hs]. cbn. unfold bind, in_t. cbn. unfold bind. assert (F2 := Fc a q w1).
        destruct (copy a q w1) as [w2 [[a1 saved]| |]]; cbn in *; try exact Hs.
        assert (Hs1 : spaced (pause c) (Times (ss ++ [now rt w2]) dd)).
        { apply spaced_send; auto. intros k u H1 H2. specialize (P k u H1 H2). cbn [fst snd] in *. lia. }
        unfold in_t, bind, modify. cbn. assert (F3 := on_call Fs s1 q w2).
        destruct (call svc s1 q w2) as [w3 [[s2 y]| |]]; cbn in *; try exact Hs1.
        split; [exact Ec|]. split; [exact Ei|]. split; [exact Hs1|]. cbn [snd fst sent done_at rf_pol rf_state]. split.
        * apply (@older_on (w2, Times (ss ++ [now rt w2]) dd)); cbn; [|lia].
          assert (O2 := @older_on (w, Times ss dd) w2 Ho ltac:(cbn; lia)). destruct O2 as [O2 O3].
          split; cbn; [|exact O3]. apply Forall_app. split; [exact O2|]. constructor; [lia|constructor].
        * rewrite app_length. cbn. lia.
  Qed.

  Lemma pinv_spaced c f x : pinv c f x -> spaced (pause c) (snd x).
  Proof. intros (_ & _ & H & _). exact H. Qed.

  Lemma ppoll_ok fuel c f x : good c -> pinv c f x ->
    match retry_poll fuel f x with
    | (x1, Val (f1, Pending)) => pinv c f1 x1
    | (x1, _) => spaced (pause c) (snd x1)
    end.
  Proof.
    intros G. revert f x. induction fuel as [|n IH]; intros f x H; [exact (pinv_spaced H)|].
    cbn [retry_poll]. unfold bind. generalize (@piter_ok c f x G H).
    destruct (retry_iter f x) as [x1 [[f1|[f1 [|res]]]| |]]; cbn; auto. apply IH.
  Qed.

  Lemma pdrive fuel c f x gs : good c -> pinv c f x -> Forall (on_env rt) gs ->
    spaced (pause c) (snd (last_world (snd (drive (poll_fut (retry tp ts fuel)) f x (map (fun g y => (g (fst y), snd y)) gs))))).
  Proof.
    intros G H Hg. revert f x H. induction Hg as [|g gs Hg _ IH]; intros f x H; cbn [map drive]; [exact (pinv_spaced H)|].
    change (poll_fut (retry tp ts fuel) f) with (retry_poll fuel f).
    assert (H1 : pinv c f (g (fst x), snd x)).
    { destruct H as (H1 & H2 & H3 & H4 & H5). split; [exact H1|]. split; [exact H2|]. split; [exact H3|]. split; [exact (@older_on x _ H4 (Hg _))|].
      destruct (rf_state f); auto. destruct H5 as [H5 H6]. split; [exact H5|]. intros k u K1 K2. specialize (H6 k u K1 K2).
      cbn [fst snd] in *. specialize (Hg (fst x)). lia. }
    generalize (@ppoll_ok fuel c f _ G H1).
    destruct (retry_poll fuel f (g (fst x), snd x)) as [x1 [[f1 [|res]]| |]]; cbn; auto.
    intros H2. specialize (IH f1 x1 H2). cbn in IH.
    match goal with |- context [drive ?p ?f0 ?w0 ?g0] => change (drive p f0 w0 g0) with (drive (retry_poll fuel) f1 x1 (map (fun g y => (g (fst y), snd y)) gs)) end.
    destruct (drive (retry_poll fuel) f1 x1 _) as [ws en]. exact IH.
  Qed.

  Lemma patient_request fuel min max j (rng : R) m a s r w x1 ps f gs :
    maker_new min max j rng = Ok m -> duration min -> duration max ->
    call (retry tp ts fuel) ((a, make_backoff m), s) r (w, Times [] []) = (x1, Val (ps, f)) ->
    Forall (on_env rt) gs ->
    spaced (pause (BoCfg min max j))
      (snd (last_world (snd (drive (poll_fut (retry tp ts fuel)) f x1 (map (fun g y => (g (fst y), snd y)) gs))))).
  Proof.
    intros Hm D1 D2 Hc Hg.
    assert (V : valid_backoff min max j) by (apply (new_exact min max j rng); eauto).
    assert (G : good (BoCfg min max j)) by (split; [exact D1 | split; [exact D2 | exact V]]).
    apply new_contents in Hm. subst m.
    refine (@pdrive fuel _ f x1 gs G _ Hg).
    revert Hc. cbn. unfold bind, in_t. cbn. unfold bind. assert (F1 := Fc a r w).
    destruct (copy a r w) as [w1 [[a1 saved]| |]]; try discriminate. cbn in *. unfold bind, modify. cbn. assert (F2 := on_call Fs s r w1).
    destruct (call svc s r w1) as [w2 [[s1 y]| |]]; try discriminate. cbn in *. unfold in_t, bind. cbn. assert (F3 := Fl a1 w2).
    destruct (aclone a1 w2) as [w3 [a2| |]]; try discriminate. cbn in *. assert (F4 := on_clone Fs s1 w3).
    destruct (clone svc s1 w3) as [w4 [s2| |]]; try discriminate. cbn in *. intros E. injection E as <- <- <-.
    split; [reflexivity|]. split; [reflexivity|]. cbn. split; [|split].
    - change [now rt w1] with ([] ++ [now rt w1]). apply spaced_send; [apply spaced_nil | reflexivity|]. intros k u H. discriminate H.
    - split; cbn; [|constructor]. constructor; [lia|constructor].
    - reflexivity.
  Qed.
End Main.

Lemma spaced_total gap x k s0 s : spaced gap x ->
  nth_error (sent x) 0 = Some s0 -> nth_error (sent x) k = Some s -> s0 + total gap k <= s.
Proof.
  intros (H1 & H2 & H3) E0. revert s. induction k as [|k IH]; intros s E; cbn [total].
  - assert (X : Some s0 = Some s) by (rewrite <- E0; exact E). injection X as ->. lia.
  - assert (K : (S k < length (sent x))%nat) by (apply nth_error_Some; rewrite E; discriminate).
    destruct (nth_error (sent x) k) as [u|] eqn:Eu; [|apply nth_error_None in Eu; lia].
    destruct (nth_error (done_at x) k) as [a|] eqn:Ea; [|apply nth_error_None in Ea; lia].
    specialize (IH u eq_refl). specialize (H1 k a s Ea E). specialize (H2 k u a Eu Ea). lia.
Qed.

Lemma pause_doubles min max j k : (k < 32)%nat -> 0 <= min -> min * 2 ^ Z.of_nat k <= max -> max <= thirty_years ->
  pause (BoCfg min max j) k = min * 2 ^ Z.of_nat k.
Proof.
  intros H0 H1 H2 H3. unfold pause, base_of. cbn [bo_min bo_max].
  assert (P : 2 ^ Z.of_nat k <= 2 ^ 31) by (apply Z.pow_le_mono_r; lia).
  change (2 ^ 31) with 2147483648 in P. change (2 ^ 32) with 4294967296.
  rewrite Z.mod_small by lia. rewrite (Z.min_l (2 ^ Z.of_nat k)) by lia. lia.
Qed.
Lemma pause_least min max j k : duration min -> duration max -> valid_backoff min max j ->
  Z.min min thirty_years <= pause (BoCfg min max j) k.
Proof.
  intros D1 D2 V. unfold pause. assert (G : good (BoCfg min max j)) by (split; [exact D1 | split; [exact D2 | exact V]]).
  assert (M : 0 <= Z.of_nat k mod 2 ^ 32) by (apply Z.mod_pos_bound; lia).
  destruct (@base_range _ _ G M) as [X _]. cbn [bo_min] in X. lia.
Qed.
