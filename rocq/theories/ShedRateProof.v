(** Proofs for C87. *)
From Verif Require Import Base Middleware Limits ShedRateSpec.
Set Implicit Arguments.
Local Open Scope Z_scope.

Section P.
  Context {W Req Resp Err : Type} (rt : Rt W) (r : rate) (svc : Service W Req Resp Err).
  Hypothesis HW : willing rt svc.
  Hypothesis HP : prompt rt.
  Hypothesis Hn : (0 < r_num r)%N.
  Notation ls := (shedding rt r svc).

  Definition rep (s : rl_state) (sleep : Z) (e : Z) (left : N) : Prop :=
    match s with RlReady u m => u = e /\ m = left /\ (0 < m)%N | RlLimited => left = 0%N /\ sleep = e end.

  Notation RQ := (@requests _ _ _ _ rt r svc).
  Notation inn s := (ls_inner (s : load_shed_st (rate_limit rt r svc)) : rate_limit_st svc).

  Lemma requests_step (l : list ((W -> W) * (W -> W) * Req)) : forall (s : load_shed_st (rate_limit rt r svc)) (w : W) (e : Z) (left : N),
    rep (rl_st (inn s)) (rl_sleep (inn s)) e left ->
    map snd (RQ s w l) = admitted (r_num r) (r_per r) e left (map fst (RQ s w l)) /\ length (RQ s w l) = length l.
  Proof.
    induction l as [|[[g1 g2] q] l IH]; intros s w e left HR; [split; reflexivity|].
    destruct HW as [HR1 HC1].
    assert (K : forall (s1 : load_shed_st (rate_limit rt r svc)) (w2 : W) (a : Z) (e1 : Z) (left1 : N), a = now rt (g1 w) -> poll_ready ls s (g1 w) = (w2, Val (s1, Ready (Ok tt))) ->
      (e1 = if (left =? 0)%N && (e <=? a) then a + r_per r else e) -> (left1 = if (left =? 0)%N && (e <=? a) then r_num r else left) ->
      (if (left1 =? 0)%N then ls_ready s1 = false /\ rl_st (inn s1) = RlLimited /\ rl_sleep (inn s1) = e1
       else ls_ready s1 = true /\ rl_st (inn s1) = RlReady e1 left1) ->
      map snd (RQ s w ((g1, g2, q) :: l)) = admitted (r_num r) (r_per r) e left (map fst (RQ s w ((g1, g2, q) :: l))) /\
      length (RQ s w ((g1, g2, q) :: l)) = length ((g1, g2, q) :: l)).
    { intros s1 w2 a e1 left1 Ea Er Ee El HS. cbn [requests]. rewrite Er. destruct ((left1 =? 0)%N) eqn:E0.
      - destruct HS as (S1 & S2 & S3). assert (C : call ls s1 q (g2 w2) = (g2 w2, Val (s1, None))) by (unfold shedding; cbn [call load_shed]; rewrite S1; reflexivity). rewrite C.
        assert (X := IH s1 (g2 w2) e1 0%N ltac:(rewrite S2; split; [reflexivity | exact S3])). destruct X as [X1 X2].
        cbn [map fst snd length admitted]. cbv zeta. rewrite <- Ea, <- Ee, <- El, E0. rewrite X1, X2. split; reflexivity.
      - destruct HS as (S1 & S2). destruct (HC1 (rl_inner (inn s1)) q (g2 w2)) as (w4 & x1 & f & Ec & Nc).
        set (c := now rt (g2 w2)). set (e2 := if e1 <=? c then c + r_per r else e1). set (left2 := if e1 <=? c then r_num r else left1).
        assert (P2 : (0 < left2)%N) by (subst left2; destruct (e1 <=? c); [exact Hn | apply N.eqb_neq in E0; lia]).
        assert (C : exists s2, call ls s1 q (g2 w2) = (w4, Val (s2, Some f)) /\ rep (rl_st (inn s2)) (rl_sleep (inn s2)) e2 (left2 - 1)).
        { unfold shedding. cbn [call load_shed]. rewrite S1. unfold bind. cbn [call rate_limit]. rewrite S2. unfold bind, get. fold c. fold left2. fold e2.
          destruct (1 <? left2)%N eqn:E1; rewrite Ec; eexists; (split; [reflexivity|]); cbn.
          - apply N.ltb_lt in E1. repeat split; lia.
          - apply N.ltb_ge in E1. split; [lia|reflexivity]. }
        destruct C as (s2 & Ecc & R2). rewrite Ecc. destruct (IH s2 w4 e2 (left2 - 1)%N R2) as [X1 X2].
        cbn [map fst snd length admitted]. cbv zeta. rewrite <- Ea, <- Ee, <- El, E0. fold c. fold e2. fold left2. rewrite X1, X2. split; reflexivity. }
    unfold rep in HR. destruct (rl_st (inn s)) as [|u m] eqn:Es.
    - destruct HR as [-> HR].
      destruct (e <=? now rt (g1 w)) eqn:Ee.
      + destruct (HR1 (rl_inner (inn s)) (nap rt (rl_sleep (inn s)) (g1 w))) as (w2 & x1 & Er & _).
        eapply (K _ w2 (now rt (g1 w)) (now rt (g1 w) + r_per r) (r_num r) eq_refl).
        * unfold shedding. cbn [poll_ready load_shed]. unfold bind at 1. cbn [poll_ready rate_limit]. rewrite Es. unfold bind, sleep_poll, get, modify, ret, bind.
          rewrite HR, (HP (g1 w) (d := e)) by (apply Z.leb_le, Ee). rewrite HR in Er. rewrite Er, now_nap. reflexivity.
        * cbn. rewrite Ee. reflexivity.
        * cbn. rewrite Ee. reflexivity.
        * destruct (N.eqb_spec (r_num r) 0); [lia|]. split; reflexivity.
      + eapply (K _ (nap rt e (g1 w)) (now rt (g1 w)) e 0%N eq_refl).
        * unfold shedding. cbn [poll_ready load_shed]. unfold bind at 1. cbn [poll_ready rate_limit]. rewrite Es. unfold bind, sleep_poll, get, modify, ret, bind.
          rewrite HR. destruct (fired rt (g1 w) e) eqn:Ef; [apply fired_sound in Ef; apply Z.leb_gt in Ee; lia|]. reflexivity.
        * cbn. rewrite Ee. reflexivity.
        * cbn. rewrite Ee. reflexivity.
        * cbn. repeat split; first [exact Es | exact HR].
    - destruct HR as (-> & -> & Hp). destruct (HR1 (rl_inner (inn s)) (g1 w)) as (w2 & x1 & Er & _).
      assert (NZ : (left =? 0)%N = false) by (apply N.eqb_neq; lia).
      eapply (K _ w2 (now rt (g1 w)) e left eq_refl).
      * unfold shedding. cbn [poll_ready load_shed]. unfold bind at 1. cbn [poll_ready rate_limit]. rewrite Es. unfold bind, ret. rewrite Er. reflexivity.
      * rewrite NZ. reflexivity.
      * rewrite NZ. reflexivity.
      * rewrite NZ. split; reflexivity.
  Qed.

  (** The times of a run do not go back. *)
  Fixpoint chain (t : Z) (l : list (Z * Z)) : Prop :=
    match l with [] => True | (a, c) :: l' => t <= a /\ a <= c /\ chain c l' end.

  Lemma requests_chain (l : list ((W -> W) * (W -> W) * Req)) : onward rt l ->
    forall (s : load_shed_st (rate_limit rt r svc)) (w : W) (t : Z), t <= now rt w -> chain t (map fst (RQ s w l)).
  Proof.
    destruct HW as [HR1 HC1].
    induction l as [|[[g1 g2] q] l IH]; intros HO s w t Ht; [exact I|].
    inversion HO as [|? ? [O1 O2] HO']; subst. cbn [fst snd] in O1, O2. cbn [requests].
    destruct (poll_ready ls s (g1 w)) as [w2 [[s1 [|[[]|e]]]| |]] eqn:Er; try exact I.
    assert (T1 : now rt w2 = now rt (g1 w)).
    { revert Er. unfold shedding. cbn [poll_ready load_shed]. unfold bind at 1. cbn [poll_ready rate_limit].
      destruct (rl_st (inn s)).
      - unfold bind, sleep_poll, get, modify, ret, bind. destruct (fired rt (g1 w) (rl_sleep (inn s))).
        + destruct (HR1 (rl_inner (inn s)) (nap rt (rl_sleep (inn s)) (g1 w))) as (w3 & x1 & E3 & N3). rewrite E3. intros E. injection E as <- _. rewrite N3. apply now_nap.
        + intros E. injection E as <- _. apply now_nap.
      - destruct (HR1 (rl_inner (inn s)) (g1 w)) as (w3 & x1 & E3 & N3). unfold bind, ret. rewrite E3. intros E. injection E as <- _. exact N3. }
    destruct (call ls s1 q (g2 w2)) as [w4 [[s2 f]| |]] eqn:Ec; try exact I.
    assert (T2 : now rt w4 = now rt (g2 w2)).
    { revert Ec. unfold shedding. cbn [call load_shed]. destruct (ls_ready s1).
      - unfold bind at 1. cbn [call rate_limit]. destruct (rl_st (inn s1)) as [|u m]; [intros E; discriminate E|].
        unfold bind, get. destruct (HC1 (rl_inner (inn s1)) q (g2 w2)) as (w3 & x1 & f1 & E3 & N3).
        destruct (1 <? _)%N; rewrite E3; intros E; injection E as <- _ _; exact N3.
      - intros E. injection E as <- _ _. reflexivity. }
    cbn [map fst chain]. specialize (O1 w). specialize (O2 w2). repeat split; [lia|lia|]. apply IH; [exact HO'|lia].
  Qed.
End P.

Lemma filter_len_app A (f : A -> bool) l1 l2 : length (List.filter f (l1 ++ l2)) = (length (List.filter f l1) + length (List.filter f l2))%nat.
Proof. rewrite filter_app, app_length. reflexivity. Qed.

Lemma filter_le A (f g : A -> bool) l : (forall x, f x = true -> g x = true) -> (length (List.filter f l) <= length (List.filter g l))%nat.
Proof.
  intros H. induction l as [|x l IH]; [reflexivity|]. cbn. specialize (H x). destruct (f x); [rewrite H by reflexivity; cbn; lia|].
  destruct (g x); cbn; lia.
Qed.

Definition passed_from (t : Z) (l : list (Z * Z * bool)) : list (Z * Z * bool) :=
  List.filter (fun x => snd x && (t <=? snd (fst x))) l.

Lemma admitted_full num per : 0 <= per -> forall h e left past t,
  e - per <= t -> (num <= left + N.of_nat (length (passed_from (e - per) past)))%N ->
  chain t (map fst h) -> map snd h = admitted num per e left (map fst h) ->
  forall pre a c post, h = pre ++ (a, c, false) :: post -> (num <= N.of_nat (length (passed_after (a - per) (past ++ pre))))%N.
Proof.
  intros Hp. induction h as [|[[a c] b] h IH]; intros e left past t Ht Hl Hc Ha pre a' c' post E; [destruct pre; discriminate E|].
  cbn [map fst snd chain admitted] in Hc, Ha. destruct Hc as (C1 & C2 & C3). cbv zeta in Ha.
  set (e1 := if (left =? 0)%N && (e <=? a) then a + per else e) in *.
  set (left1 := if (left =? 0)%N && (e <=? a) then num else left) in *.
  assert (I1 : e1 - per <= a) by (subst e1; destruct ((left =? 0)%N && (e <=? a)); lia).
  assert (I2 : (num <= left1 + N.of_nat (length (passed_from (e1 - per) past)))%N)
    by (subst e1 left1; destruct ((left =? 0)%N && (e <=? a)); [lia|exact Hl]).
  destruct (N.eqb_spec left1 0) as [Z1|Z1].
  - injection Ha as -> Ha. destruct pre as [|p pre].
    + injection E as -> -> ->. rewrite app_nil_r. destruct (N.eq_dec num 0) as [->|NZ]; [lia|].
      assert (e1 > a').
      { subst e1 left1. destruct (N.eqb_spec left 0) as [->|]; [|cbn in Z1; lia]. cbn [andb] in *.
        destruct (Z.leb_spec e a'); [lia|lia]. }
      eapply N.le_trans; [exact I2|]. rewrite Z1, N.add_0_l.
      assert (length (passed_from (e1 - per) past) <= length (passed_after (a' - per) past))%nat; [|lia].
      apply filter_le. intros [[x y] z] Q. cbn [fst snd] in *. apply andb_true_iff in Q. destruct Q as [-> Q]. apply Z.leb_le in Q.
      apply Z.ltb_lt. lia.
    + injection E as <- E.
      assert (X := IH e1 0%N (past ++ [(a, c, false)]) c ltac:(lia)).
      replace (past ++ (a, c, false) :: pre) with ((past ++ [(a, c, false)]) ++ pre) by (rewrite <- app_assoc; reflexivity).
      refine (X _ C3 Ha pre a' c' post E).
      unfold passed_from. rewrite filter_len_app. unfold passed_from in I2. rewrite Z1 in I2. lia.
  - injection Ha as -> Ha. set (e2 := if e1 <=? c then c + per else e1) in *. set (left2 := if e1 <=? c then num else left1) in *.
    destruct pre as [|p pre]; [discriminate E|]. injection E as <- E.
    assert (I3 : e2 - per <= c) by (subst e2; destruct (e1 <=? c); lia).
    assert (X := IH e2 (left2 - 1)%N (past ++ [(a, c, true)]) c I3).
    replace (past ++ (a, c, true) :: pre) with ((past ++ [(a, c, true)]) ++ pre) by (rewrite <- app_assoc; reflexivity).
    refine (X _ C3 Ha pre a' c' post E).
    unfold passed_from. rewrite filter_len_app. cbn [List.filter fst snd andb]. destruct (Z.leb_spec (e2 - per) c); [|lia]. cbn [length].
    unfold passed_from in I2. subst e2 left2. destruct (e1 <=? c); lia.
Qed.

Theorem shed_rate_exact W Req Resp Err (rt : Rt W) (r : rate) (svc : Service W Req Resp Err) :
  (0 < r_num r)%N -> willing rt svc -> prompt rt ->
  forall x w0 w (s : rate_limit_st svc) (l : list ((W -> W) * (W -> W) * Req)), rate_limit_new rt r svc x w0 = (w, Val s) ->
  let h := requests (rt := rt) (r := r) (svc := svc) (load_shed_new (rate_limit rt r svc) s) w l in
  length h = length l /\ map snd h = admitted (r_num r) (r_per r) (now rt w0) (r_num r) (map fst h).
Proof.
  intros Hn HW HP x w0 w s l E. cbv zeta. unfold rate_limit_new, bind, get, ret in E. injection E as <- <-.
  destruct (@requests_step _ _ _ _ rt r svc HW HP Hn l (load_shed_new (rate_limit rt r svc) (RlSt svc x (RlReady (now rt w0) (r_num r)) (now rt w0))) w0 (now rt w0) (r_num r)) as [A B].
  - cbn. repeat split. exact Hn.
  - split; [exact B | exact A].
Qed.

Theorem shed_rate_only_full W Req Resp Err (rt : Rt W) (r : rate) (svc : Service W Req Resp Err) :
  (0 < r_num r)%N -> 0 <= r_per r -> willing rt svc -> prompt rt ->
  forall x w0 w (s : rate_limit_st svc) (l : list ((W -> W) * (W -> W) * Req)), rate_limit_new rt r svc x w0 = (w, Val s) -> onward rt l ->
  forall before a c after,
  requests (rt := rt) (r := r) (svc := svc) (load_shed_new (rate_limit rt r svc) s) w l = before ++ (a, c, false) :: after ->
  (r_num r <= N.of_nat (length (passed_after (a - r_per r) before)))%N.
Proof.
  intros Hn Hp HW HP x w0 w s l E HO before a c after Eh.
  destruct (shed_rate_exact Hn HW HP l E) as [_ A].
  assert (w = w0) by (unfold rate_limit_new, bind, get, ret in E; injection E as <- _; reflexivity). subst w.
  eapply (@admitted_full (r_num r) (r_per r) Hp) with (past := []) (t := now rt w0); [ | | | exact A | exact Eh].
  - lia.
  - lia.
  - apply requests_chain; try assumption; lia.
Qed.
