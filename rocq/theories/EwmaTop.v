(** PeakEwma over whole histories. *)
From Coq Require Import Reals Lra.
From Flocq Require Import Core BinarySingleNaN Relative.
From Verif Require Import Base Middleware Float FloatProof BackoffProof EwmaReal Load LoadSpec LoadProof EwmaSpec EwmaProof.
Set Implicit Arguments.
Local Open Scope R_scope.

Lemma mul_load (x : f64) k : is_finite x = true -> 0 <= B2R x <= bpow radix2 65 -> (0 <= k < u32_mod)%Z ->
  B2R (mul64 x (f64_of k 0)) = rnd (B2R x * IZR k) /\ is_finite (mul64 x (f64_of k 0)) = true.
Proof.
  intros Fx Hx Hk. unfold u32_mod in Hk. destruct (@f64_int k ltac:(lia)) as [E F].
  assert (E' : rnd (IZR k) = IZR k).
  { apply rnd_id. replace (IZR k) with (F2R (Float radix2 k 0)) by (unfold F2R; cbn; ring). apply fmt_int; lia. }
  rewrite E' in E. assert (C := Bmult_correct 53 1024 prec64 emax64 mode_NE x (f64_of k 0)). cbn [round_mode] in C.
  fold (mul64 x (f64_of k 0)) in C. rewrite E, Fx, F in C.
  assert (K0 : 0 <= IZR k <= bpow radix2 32).
  { split; [apply IZR_le; lia|]. change (bpow radix2 32) with (IZR (2 ^ 32)). apply IZR_le. lia. }
  assert (P0 : 0 <= B2R x * IZR k) by (apply Rmult_le_pos; lra).
  assert (P1 : rnd (B2R x * IZR k) <= bpow radix2 97).
  { apply rnd_pow; [lia|lia|]. change 97%Z with (65 + 32)%Z. rewrite bpow_plus. apply Rmult_le_compat; lra. }
  assert (bpow radix2 97 < bpow radix2 1024) by (apply bpow_lt; lia).
  rewrite Rlt_bool_true in C by (rewrite Rabs_pos_eq by (apply rnd_nonneg; exact P0); lra).
  destruct C as (C1 & C2 & _). split; [exact C1|exact C2].
Qed.

Section Top.
  Context {W Req Resp Err : Type} (svc : Service W Req Resp Err) (keep : Resp -> W -> W * bool).
  Context (clk : W -> W * Z) (exp64 : f64 -> f64) (decay : f64) (default : Z).
  Notation start := (pe_start clk).
  Notation finish := (pe_finish clk exp64 decay).
  Notation rsys := (rsys (C := rtt_est) (T := Z) svc).
  Notation rload := (pe_rload clk exp64 decay).
  Notation rstep := (rsys_step (svc := svc) start finish keep rload).
  Notation rrun := (rsys_run (svc := svc) start finish keep rload).
  Notation agesof := (ages (svc := svc) keep clk exp64 decay).

  Lemma count_wrap k : (((k mod u32_mod - 1) mod u32_mod + 1) mod u32_mod = k mod u32_mod)%Z.
  Proof.
    rewrite Zplus_mod_idemp_l. replace (k mod u32_mod - 1 + 1)%Z with (k mod u32_mod)%Z by ring.
    apply Z.mod_mod. discriminate.
  Qed.
  Lemma pe_load_ok n e w : pe_load2 clk exp64 decay (Arc (S n) e, w) =
    let '(c1, w1, m) := rload n e w in ((Arc (S n) c1, w1), Val m).
  Proof.
    unfold pe_load2, pe_load, pe_rload. cbn [strong content]. destruct (rtt_decay clk exp64 decay e w) as [e1 w1].
    rewrite count_wrap. reflexivity.
  Qed.
  (** The code's behaviour is the reference's. *)
  Lemma pe_refines s w l : pe_history svc keep clk exp64 decay default s w l = rrun (pe_rstart svc clk decay default s w) l.
  Proof.
    unfold pe_history, pe_rstart. unfold peak_ewma_new. destruct (rtt_new clk (nanos default) w) as [e w1]. cbn [fst snd content].
    apply (@load_refines _ _ _ _ _ _ _ svc start finish keep (pe_load2 clk exp64 decay) rload pe_load_ok).
  Qed.

  (** How a step changes the estimate. *)
  Inductive est_change (o : lop W Req) (z z1 : rsys) : Prop :=
  | EstSame : r_est z1 = r_est z -> est_change o z z1
  | EstLoad : o = LLoad -> (exists now, rtt_ns (r_est z1) = rtt_next exp64 decay (rtt_ns (r_est z)) (update_at (r_est z)) now 0) -> est_change o z z1
  | EstSample s : In s (ages1 (svc := svc) keep clk o z) -> (0 <= s)%Z ->
      (exists now, rtt_ns (r_est z1) = rtt_next exp64 decay (rtt_ns (r_est z)) (update_at (r_est z)) now s) -> est_change o z z1.

  Lemma since_self a : since a a = 0%Z.
  Proof. unfold since. lia. Qed.
  Lemma finish_age t c w c1 w1 : finish t c w = (c1, w1) ->
    exists now, rtt_ns c1 = rtt_next exp64 decay (rtt_ns c) (update_at c) now (since (snd (clk w)) t).
  Proof.
    unfold pe_finish, rtt_update. destruct (clk w) as [w2 a]. cbn [snd]. destruct (clk w2) as [w3 b]. intros E. injection E as <- <-.
    exists b. reflexivity.
  Qed.

  Lemma est_step (o : lop W Req) (z : rsys) : let '(z1, b) := rstep o z in
    b <> LoPanic -> b <> LoDiverge -> est_change o z z1.
  Proof.
    destruct z as [s rf rq c w]. destruct o as [|r|j|j|j| | |g]; cbn [rsys_step r_svc r_futs r_reqs r_est r_w].
    - destruct s as [s|]; [|constructor; reflexivity]. destruct (poll_ready svc s w) as [w1 [[s1 a]| |]]; intros; constructor; reflexivity.
    - destruct s as [s|]; [|constructor; reflexivity]. destruct (start w) as [w1 [t| |]]; try (intros; constructor; reflexivity).
      destruct (call svc s r w1) as [w2 [[s1 f]| |]]; try (intros; constructor; reflexivity).
      destruct (finish t c w2). congruence.
    - destruct (nth_error rf j) as [[f|]|] eqn:Ef; try (intros; constructor; reflexivity).
      destruct (poll_fut svc f w) as [w1 [[f1 a]| |]] eqn:Ep; try (intros; constructor; reflexivity).
      destruct a as [|[v|e]]; try (intros; constructor; reflexivity).
      destruct (nth_error rq j) as [[t|t|]|] eqn:Eq; try congruence. destruct (keep v w1) as [w2 [|]] eqn:Ek; [intros; constructor; reflexivity|].
      destruct (finish t c w2) as [c3 w3] eqn:Efi. intros _ _. apply EstSample with (s := since (snd (clk w2)) t).
      + cbn. rewrite Ef, Eq, Ep, Ek. left. reflexivity.
      + apply since_nonneg.
      + cbn. eapply finish_age. exact Efi.
    - destruct (nth_error rf j) as [[f|]|] eqn:Ef; try (intros; constructor; reflexivity).
      destruct (nth_error rq j) as [[t|t|]|] eqn:Eq; try (intros; constructor; reflexivity).
      destruct (finish t c (drop_fut svc f w)) as [c3 w3] eqn:Efi. intros _ _. apply EstSample with (s := since (snd (clk (drop_fut svc f w))) t).
      + cbn. rewrite Ef, Eq. left. reflexivity.
      + apply since_nonneg.
      + cbn. eapply finish_age. exact Efi.
    - destruct (nth_error rq j) as [[t|t|]|] eqn:Eq; try (intros; constructor; reflexivity).
      destruct (finish t c w) as [c3 w3] eqn:Efi. intros _ _. apply EstSample with (s := since (snd (clk w)) t).
      + cbn. rewrite Eq. left. reflexivity.
      + apply since_nonneg.
      + cbn. eapply finish_age. exact Efi.
    - destruct s as [s|]; [|constructor; reflexivity]. unfold pe_rload, rtt_decay. destruct (clk w) as [w1 a]. unfold rtt_update.
      destruct (clk w1) as [w2 b]. intros _ _. apply EstLoad; [reflexivity|]. exists b. cbn. now rewrite since_self.
    - destruct s; intros; constructor; reflexivity.
    - intros; constructor; reflexivity.
  Qed.

  (** An invariant of the estimate holds at every load. *)
  Lemma load_at l (I : f64 -> Prop) (P : Z -> Prop) :
    (forall x last now s, I x -> (0 <= s)%Z -> P s \/ s = 0%Z -> I (rtt_next exp64 decay x last now s)) ->
    forall (z : rsys) h1 m ok w1 h2, I (rtt_ns (r_est z)) -> Forall P (agesof z l) ->
    rrun z l = h1 ++ (LLoad, LoLoad (m, ok), w1) :: h2 ->
    exists x, I x /\ m = mul64 x (f64_of (Z.of_nat (S (length (List.filter alive (lives_from (map (life_of (T := Z)) (r_reqs z)) h1)))) mod u32_mod) 0).
  Proof.
    intros Hstep. induction l as [|o l IH]; intros z h1 m ok w1 h2 HI HP E; cbn [rsys_run] in E; [destruct h1; discriminate|].
    cbn [ages] in HP. assert (Hl := life_rstep start finish keep rload o z). assert (Hes := est_step o z).
    destruct (rstep o z) as [z1 b] eqn:Es. apply Forall_app in HP. destruct HP as [HP1 HP2].
    assert (HI1 : b <> LoPanic -> b <> LoDiverge -> I (rtt_ns (r_est z1))).
    { intros B1 B2. destruct (Hes B1 B2) as [X|X (now & Y)|s X X0 (now & Y)].
      - now rewrite X.
      - rewrite Y. apply Hstep; [exact HI|lia|right; reflexivity].
      - rewrite Y. apply Hstep; [exact HI|exact X0|left]. rewrite Forall_forall in HP1. auto. }
    destruct h1 as [|e h1].
    - cbn in E. injection E as -> -> Ew E. cbn [lives_from fold_left]. rewrite <- open_lives. cbn in Es.
      destruct (r_svc z); [|discriminate]. unfold pe_rload in Es. destruct (rtt_decay clk exp64 decay (r_est z) (r_w z)) as [e1 w2].
      injection Es as Ez Em Eo. subst z1 m. cbn in HI1. exists (rtt_ns e1). split; [apply HI1; congruence|reflexivity].
    - cbn in E. injection E as <- E.
      assert (Hb : b <> LoPanic /\ b <> LoDiverge) by (destruct b; split; try discriminate; destruct h1; discriminate).
      assert (E' : rrun z1 l = h1 ++ (LLoad, LoLoad (m, ok), w1) :: h2)
        by (destruct b; try exact E; destruct h1; discriminate).
      destruct Hb as [B1 B2]. destruct (IH z1 h1 m ok w1 h2 (HI1 B1 B2)) as (x & X1 & X2); [destruct b; auto; congruence|exact E'|].
      exists x. split; [exact X1|]. rewrite X2. do 7 f_equal.
      change (lives_from (map (life_of (T := Z)) (r_reqs z)) ((o, b, r_w z1) :: h1)) with (lives_from (life_step (map (life_of (T := Z)) (r_reqs z)) (o, b)) h1).
      now rewrite <- Hl.
  Qed.

  Hypothesis Hexp : exp_ok exp64.
  Hypothesis Fdecay : is_finite decay = true.
  Hypothesis Pdecay : 0 < B2R decay.

  Lemma pe_start_est s w : rtt_ns (r_est (pe_rstart svc clk decay default s w)) = nanos default.
  Proof. unfold pe_rstart, peak_ewma_new, rtt_new. destruct (clk w) as [w1 a]. reflexivity. Qed.

  (** Every load is a finite number that is not negative. *)
  Lemma pe_load_finite s w l h1 m ok w1 h2 : (0 <= default)%Z ->
    pe_history svc keep clk exp64 decay default s w l = h1 ++ (LLoad, LoLoad (m, ok), w1) :: h2 ->
    is_finite m = true /\ 0 <= B2R m.
  Proof.
    intros Hd. rewrite pe_refines. intros E.
    pose (M := bpow radix2 64 + bpow radix2 33).
    assert (M1 : 1 <= M) by (unfold M; cbn; lra).
    destruct (@load_at l (bounded M) (fun _ => True)) with (z := pe_rstart svc clk decay default s w) (h1 := h1) (m := m) (ok := ok) (w1 := w1) (h2 := h2) as (x & X1 & X2); auto.
    - intros x last now a HI Ha _. apply rtt_next_bounded; auto; [unfold M in *; lra|]. apply nanos_ok; exact Ha.
    - rewrite pe_start_est. destruct (nanos_ok Hd) as (F & R & _). split; [exact F|]. fold M in R. assert (U := u_pos).
      split; [lra|]. apply Rle_trans with (M * 1); [lra|apply Rmult_le_compat_l; lra].
    - apply Forall_forall. auto.
    - subst m. assert (Rx := M_range (Rle_refl _) X1). destruct X1 as (Fx & _).
      match goal with |- context [f64_of ?k 0] => set (q := k); assert (Hk : (0 <= q < u32_mod)%Z) by (apply Z.mod_pos_bound; reflexivity) end.
      destruct (mul_load x Fx Rx Hk) as [Em Fm]. split; [exact Fm|]. rewrite Em. apply rnd_nonneg. apply Rmult_le_pos; [lra|]. apply IZR_le. lia.
  Qed.

  (** If neither the default nor any round trip exceeds [D] nanoseconds: *)
  Lemma pe_load_bound D s w l h1 m ok w1 h2 : (0 <= default <= D)%Z -> (1 <= D)%Z ->
    Forall (fun a => (a <= D)%Z) (agesof (pe_rstart svc clk decay default s w) l) ->
    pe_history svc keep clk exp64 decay default s w l = h1 ++ (LLoad, LoLoad (m, ok), w1) :: h2 ->
    (Z.of_nat (unfinished h1) + 1 < u32_mod)%Z ->
    B2R m <= IZR D * (INR (unfinished h1) + 1) * (1 + bpow radix2 (-48)).
  Proof.
    intros Hd HD Hages. rewrite pe_refines. intros E Hn.
    pose (M := Rmin (bpow radix2 64 + bpow radix2 33) (IZR D * ((1 + u53) * (1 + u53)))).
    assert (U := u_pos). assert (U1 : u53 <= / 1000) by (unfold u53; lra).
    assert (D1 : 1 <= IZR D) by (apply IZR_le; exact HD).
    assert (Uq : 0 <= u53 * u53) by (apply Rmult_le_pos; lra).
    assert (M1 : 1 <= M <= bpow radix2 64 + bpow radix2 33).
    { split; [|apply Rmin_l]. apply Rmin_glb; [cbn; lra|]. apply Rle_trans with (IZR D * 1); [lra|].
      apply Rmult_le_compat_l; [lra|]. replace ((1 + u53) * (1 + u53)) with (1 + 2 * u53 + u53 * u53) by ring. lra. }
    assert (Nle : forall a, (0 <= a <= D)%Z -> B2R (nanos a) <= M).
    { intros a Ha. destruct (nanos_ok (proj1 Ha)) as (_ & Ra & _ & _ & Rb & _). apply Rmin_glb; [lra|].
      apply (Rle_trans _ _ _ Rb). apply Rmult_le_compat_r; [apply Rmult_le_pos; lra|]. apply IZR_le. lia. }
    destruct (@load_at l (bounded M) (fun a => (a <= D)%Z)) with (z := pe_rstart svc clk decay default s w) (h1 := h1) (m := m) (ok := ok) (w1 := w1) (h2 := h2) as (x & X1 & X2); auto.
    - intros x last now a HI Ha Ha2. apply rtt_next_bounded; auto. apply Nle. lia.
    - rewrite pe_start_est. destruct (nanos_ok (proj1 Hd)) as (F & R & _). split; [exact F|]. assert (X := Nle default Hd).
      split; [lra|]. apply Rle_trans with (M * 1); [lra|apply Rmult_le_compat_l; lra].
    - assert (Rx := M_range (proj2 M1) X1). destruct X1 as (Fx & Rx1).
      change (map (life_of (T := Z)) (r_reqs (pe_rstart svc clk decay default s w))) with (@nil life) in X2.
      change (length (List.filter alive (lives_from [] h1))) with (unfinished h1) in X2.
      set (n := unfinished h1) in *. clearbody n. rewrite Z.mod_small in X2 by lia. subst m.
      destruct (@mul_load x (Z.of_nat (S n)) Fx Rx ltac:(lia)) as [Em Fm]. rewrite Em.
      assert (EN : IZR (Z.of_nat (S n)) = INR n + 1) by (rewrite <- INR_IZR_INZ; apply S_INR).
      rewrite EN. assert (N0 : 0 <= INR n) by apply pos_INR. set (N := INR n + 1) in *. assert (N1 : 1 <= N) by (unfold N; lra). clearbody N.
      assert (P0 : 0 <= B2R x * N) by (apply Rmult_le_pos; lra).
      assert (Er := proj2 (rnd_err P0)). apply (Rle_trans _ _ _ Er).
      assert (Hs := h_small). assert (Hp := h_pos).
      assert (Mx : M <= IZR D * ((1 + u53) * (1 + u53))) by apply Rmin_r.
      assert (Uu : u53 * u53 <= u53 * / 1000) by (apply Rmult_le_compat_l; lra).
      assert (A1 : B2R x <= IZR D * (1 + 11 * u53)).
      { apply Rle_trans with (M * (1 + 8 * u53)); [lra|]. apply Rle_trans with (IZR D * ((1 + u53) * (1 + u53)) * (1 + 8 * u53)).
        - apply Rmult_le_compat_r; lra.
        - rewrite Rmult_assoc. apply Rmult_le_compat_l; [lra|].
          assert (Uc : u53 * u53 * u53 <= u53 * u53 * 1) by (apply Rmult_le_compat_l; lra).
          replace ((1 + u53) * (1 + u53) * (1 + 8 * u53)) with (1 + 10 * u53 + 17 * (u53 * u53) + 8 * (u53 * u53 * u53)) by ring. lra. }
      assert (A2 : B2R x * N <= IZR D * (1 + 11 * u53) * N) by (apply Rmult_le_compat_r; lra).
      assert (A3 : B2R x * N * (1 + u53) <= IZR D * (1 + 11 * u53) * N * (1 + u53)) by (apply Rmult_le_compat_r; lra).
      assert (DN : 1 <= IZR D * N) by (replace 1 with (1 * 1) by ring; apply Rmult_le_compat; lra).
      replace (bpow radix2 (-48)) with (32 * u53) by (unfold u53; cbn; lra).
      assert (B1 : IZR D * N * (u53 * u53) <= IZR D * N * (u53 * / 1000)) by (apply Rmult_le_compat_l; lra).
      assert (B2 : 0 <= IZR D * N * u53) by (apply Rmult_le_pos; lra).
      assert (B3 : 1 * (u53 * u53) <= IZR D * N * (u53 * u53)) by (apply Rmult_le_compat_r; lra).
      replace (IZR D * (1 + 11 * u53) * N * (1 + u53)) with (IZR D * N + 12 * (IZR D * N * u53) + 11 * (IZR D * N * (u53 * u53))) in A3 by ring.
      lra.
  Qed.

  (** While nothing starts or finishes the load does not grow. *)
  Lemma quiet_step (o : lop W Req) (z : rsys) : let '(z1, b) := rstep o z in
    b <> LoPanic -> b <> LoDiverge -> quiet (o, b, r_w z1) ->
    r_reqs z1 = r_reqs z /\ (r_est z1 = r_est z \/ exists now, rtt_ns (r_est z1) = rtt_next exp64 decay (rtt_ns (r_est z)) (update_at (r_est z)) now 0).
  Proof.
    destruct z as [s rf rq c w]. destruct o as [|r|j|j|j| | |g]; cbn [rsys_step r_svc r_futs r_reqs r_est r_w].
    - destruct s as [s|]; [|auto]. destruct (poll_ready svc s w) as [w1 [[s1 a]| |]]; auto.
    - destruct s as [s|]; [|auto]. destruct (start w) as [w1 [t| |]]; auto.
      destruct (call svc s r w1) as [w2 [[s1 f]| |]]; auto; [intros _ _ []|]. destruct (finish t c w2). congruence.
    - destruct (nth_error rf j) as [[f|]|] eqn:Ef; auto.
      destruct (poll_fut svc f w) as [w1 [[f1 a]| |]] eqn:Ep; auto. destruct a as [|[v|e]]; auto.
      destruct (nth_error rq j) as [[t|t|]|] eqn:Eq; try congruence. destruct (keep v w1) as [w2 [|]]; [intros _ _ []|].
      destruct (finish t c w2) as [c3 w3]. intros _ _ [].
    - destruct (nth_error rf j) as [[f|]|] eqn:Ef; auto.
      destruct (nth_error rq j) as [[t|t|]|] eqn:Eq; try (intros _ _ []; fail).
      destruct (finish t c (drop_fut svc f w)) as [c3 w3]. intros _ _ [].
    - destruct (nth_error rq j) as [[t|t|]|] eqn:Eq; auto. destruct (finish t c w) as [c3 w3]. intros _ _ [].
    - destruct s as [s|]; [|auto]. unfold pe_rload, rtt_decay. destruct (clk w) as [w1 a]. unfold rtt_update.
      destruct (clk w1) as [w2 b]. intros _ _ _. cbn. rewrite since_self. split; [reflexivity|]. right. exists b. reflexivity.
    - destruct s; auto.
    - auto.
  Qed.

  Definition bigM : R := bpow radix2 64 + bpow radix2 33.
  Lemma quiet_run l : forall (z : rsys) h1 m ok w1 h2, bounded bigM (rtt_ns (r_est z)) -> Forall (@quiet W Req Resp Err) h1 ->
    rrun z l = h1 ++ (LLoad, LoLoad (m, ok), w1) :: h2 ->
    exists x, bounded bigM x /\ B2R x <= B2R (rtt_ns (r_est z)) /\ m = mul64 x (f64_of (Z.of_nat (S (open z)) mod u32_mod) 0).
  Proof.
    assert (HM : 1 <= bigM <= bpow radix2 64 + bpow radix2 33) by (unfold bigM; cbn; lra).
    induction l as [|o l IH]; intros z h1 m ok w1 h2 HI HQ E; cbn [rsys_run] in E; [destruct h1; discriminate|].
    assert (Hq := quiet_step o z). destruct (rstep o z) as [z1 b] eqn:Es.
    assert (Hb : b <> LoPanic /\ b <> LoDiverge).
    { destruct h1 as [|e h1]; [injection E as _ -> _ _; split; discriminate|]. injection E as _ E.
      destruct b; split; try discriminate; destruct h1; discriminate. }
    destruct Hb as [B1 B2].
    assert (Hq1 : quiet (o, b, r_w z1)).
    { destruct h1 as [|e h1]; [injection E as -> -> _ _; exact I|]. injection E as <- E. inversion HQ; assumption. }
    destruct (Hq B1 B2 Hq1) as [Hr He].
    assert (HI1 : bounded bigM (rtt_ns (r_est z1)) /\ B2R (rtt_ns (r_est z1)) <= B2R (rtt_ns (r_est z))).
    { destruct He as [->|(now & ->)]; [split; [exact HI|lra]|]. split.
      - apply rtt_next_bounded; auto; [lia|]. assert (Z : B2R (nanos 0) = 0) by (vm_compute; reflexivity). rewrite Z. lra.
      - apply rtt_next_zero; auto; [apply HI|]. apply (M_range (proj2 HM) HI). }
    destruct HI1 as [HI1 HL1]. destruct h1 as [|e h1].
    - cbn in E. injection E as -> -> Ew E. cbn in Es.
      destruct (r_svc z); [|discriminate]. unfold pe_rload in Es. destruct (rtt_decay clk exp64 decay (r_est z) (r_w z)) as [e1 w2].
      injection Es as Ez Em Eo. subst z1 m. cbn in HI1, HL1. exists (rtt_ns e1). auto.
    - cbn in E. injection E as <- E.
      assert (E' : rrun z1 l = h1 ++ (LLoad, LoLoad (m, ok), w1) :: h2)
        by (destruct b; try exact E; destruct h1; discriminate).
      inversion HQ as [|? ? _ HQ']; subst.
      destruct (IH z1 h1 m ok w1 h2 HI1 HQ' E') as (x & X1 & X2 & X3). exists x. split; [exact X1|]. split; [lra|].
      unfold open in *. rewrite Hr in X3. exact X3.
  Qed.
  Lemma quiet_after l : forall (z : rsys) h0 m1 ok1 w1 h1 m2 ok2 w2 h2, bounded bigM (rtt_ns (r_est z)) -> Forall (@quiet W Req Resp Err) h1 ->
    rrun z l = h0 ++ (LLoad, LoLoad (m1, ok1), w1) :: h1 ++ (LLoad, LoLoad (m2, ok2), w2) :: h2 -> B2R m2 <= B2R m1.
  Proof.
    assert (HM : 1 <= bigM <= bpow radix2 64 + bpow radix2 33) by (unfold bigM; cbn; lra).
    induction l as [|o l IH]; intros z h0 m1 ok1 w1 h1 m2 ok2 w2 h2 HI HQ E; cbn [rsys_run] in E; [destruct h0; discriminate|].
    assert (Hes := est_step o z). destruct (rstep o z) as [z1 b] eqn:Es.
    assert (HI1 : b <> LoPanic -> b <> LoDiverge -> bounded bigM (rtt_ns (r_est z1))).
    { intros B1 B2. destruct (Hes B1 B2) as [X|X (now & Y)|a X X0 (now & Y)].
      - now rewrite X.
      - rewrite Y. apply rtt_next_bounded; auto; [lia|]. apply nanos_ok. lia.
      - rewrite Y. apply rtt_next_bounded; auto. apply nanos_ok. exact X0. }
    destruct h0 as [|e h0].
    - cbn in E. injection E as -> -> Ew E. cbn [rsys_step] in Es. specialize (HI1 ltac:(discriminate) ltac:(discriminate)).
      destruct (r_svc z); [|discriminate]. unfold pe_rload in Es. destruct (rtt_decay clk exp64 decay (r_est z) (r_w z)) as [e1 w3].
      injection Es as Ez Em Eo. subst z1 m1. cbn [r_est rtt_ns] in HI1.
      assert (X : exists x, bounded bigM x /\ B2R x <= B2R (rtt_ns e1) /\ m2 = mul64 x (f64_of (Z.of_nat (S (open z)) mod u32_mod) 0)).
      { match type of E with rsys_run _ _ _ _ ?y _ = _ => exact (@quiet_run l y h1 m2 ok2 w2 h2 HI1 HQ E) end. }
      destruct X as (x & X1 & X2 & X3). cbn [r_est rtt_ns] in X2. subst m2.
      assert (Rx := M_range (proj2 HM) X1). assert (Re := M_range (proj2 HM) HI1). destruct X1 as (Fx & _). destruct HI1 as (Fe & _).
      pose (q := (Z.of_nat (S (open z)) mod u32_mod)%Z). assert (Hk : (0 <= q < u32_mod)%Z) by (apply Z.mod_pos_bound; reflexivity).
      destruct (mul_load x Fx Rx Hk) as [E1 _]. destruct (mul_load (rtt_ns e1) Fe Re Hk) as [E2 _].
      match goal with |- B2R (mul64 x (f64_of ?a 0)) <= B2R (mul64 _ (f64_of ?b 0)) => change a with q; change b with q end.
      rewrite E1, E2. apply rnd_le. apply Rmult_le_compat_r; [apply IZR_le; lia|exact X2].
    - cbn in E. injection E as <- E.
      assert (Hb : b <> LoPanic /\ b <> LoDiverge) by (destruct b; split; try discriminate; destruct h0; discriminate).
      assert (E' : rrun z1 l = h0 ++ (LLoad, LoLoad (m1, ok1), w1) :: h1 ++ (LLoad, LoLoad (m2, ok2), w2) :: h2)
        by (destruct b; try exact E; destruct h0; discriminate).
      destruct Hb as [B1 B2]. eapply IH; [apply HI1; assumption|exact HQ|exact E'].
  Qed.
  Lemma pe_load_decays s w l h0 m1 ok1 w1 h1 m2 ok2 w2 h2 : (0 <= default)%Z ->
    pe_history svc keep clk exp64 decay default s w l = h0 ++ (LLoad, LoLoad (m1, ok1), w1) :: h1 ++ (LLoad, LoLoad (m2, ok2), w2) :: h2 ->
    Forall (@quiet W Req Resp Err) h1 -> B2R m2 <= B2R m1.
  Proof.
    intros Hd. rewrite pe_refines. intros E HQ. eapply quiet_after; [|exact HQ|exact E].
    rewrite pe_start_est. destruct (nanos_ok Hd) as (F & R & _). split; [exact F|]. fold bigM in R. assert (U := u_pos).
    assert (1 <= bigM) by (unfold bigM; cbn; lra).
    split; [lra|]. apply Rle_trans with (bigM * 1); [lra|apply Rmult_le_compat_l; lra].
  Qed.
End Top.
