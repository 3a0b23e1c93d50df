(** PeakEwma: the debug assertions, and what happens without the one on the decay time. *)
From Coq Require Import Reals Lra.
From Flocq Require Import Core BinarySingleNaN Relative.
From Verif Require Import Base Middleware Float FloatProof BackoffProof EwmaReal Load LoadSpec LoadProof EwmaSpec EwmaProof EwmaTop.
Set Implicit Arguments.

Section Clock.
  Context {W Req Resp Err : Type} (svc : Service W Req Resp Err) (keep : Resp -> W -> W * bool).
  Context (clk : W -> W * Z) (exp64 : f64 -> f64) (decay : f64) (default : Z) (time : W -> Z).
  Notation start := (pe_start clk).
  Notation finish := (pe_finish clk exp64 decay).
  Notation rsys := (rsys (C := rtt_est) (T := Z) svc).
  Notation rload := (pe_rload clk exp64 decay).
  Notation rstep := (rsys_step (svc := svc) start finish keep rload).
  Notation rrun := (rsys_run (svc := svc) start finish keep rload).
  Hypothesis Fw : forward svc keep clk time.
  Local Open Scope Z_scope.

  Definition est_ok (c : rtt_est) (w : W) : Prop := update_at c <= time w /\ asserts c = true.
  Definition handles_ok (q : list (rq (T := Z))) (w : W) : Prop :=
    forall j t, nth_error q j = Some (Waiting t) \/ nth_error q j = Some (Kept t) -> t <= time w.
  Definition inv (z : rsys) : Prop := est_ok (r_est z) (r_w z) /\ handles_ok (r_reqs z) (r_w z).

  Lemma est_mono c w w' : est_ok c w -> time w <= time w' -> est_ok c w'.
  Proof. intros [A B] H. split; [lia|exact B]. Qed.
  Lemma handles_mono q w w' : handles_ok q w -> time w <= time w' -> handles_ok q w'.
  Proof. intros A H j t X. specialize (A j t X). lia. Qed.
  Lemma update_ok sent recv c w c1 w1 : est_ok c w -> sent <= recv -> rtt_update clk exp64 decay sent recv c w = (c1, w1) ->
    est_ok c1 w1 /\ time w <= time w1.
  Proof.
    intros [A B] Hs. unfold rtt_update. assert (F := fw_clk Fw w). destruct (clk w) as [w2 a]. cbn in F. intros E. injection E as <- <-.
    split; [|lia]. split; cbn; [lia|]. rewrite B. cbn. apply andb_true_intro. split; apply Z.leb_le; lia.
  Qed.
  Lemma finish_ok t c w c1 w1 : est_ok c w -> t <= time w -> finish t c w = (c1, w1) -> est_ok c1 w1 /\ time w <= time w1.
  Proof.
    intros A Ht. unfold pe_finish. assert (F := fw_clk Fw w). destruct (clk w) as [w2 a]. cbn in F. intros E.
    destruct (@update_ok t a c w2 c1 w1) as [X Y]; auto; [eapply est_mono; eauto; lia|lia|]. split; [exact X|lia].
  Qed.
  Lemma handles_set q w j x : handles_ok q w -> (forall t, x = Waiting t \/ x = Kept t -> t <= time w) -> handles_ok (set_nth j x q) w.
  Proof.
    intros H Hx i t X. rewrite sn_nth in X. destruct (j =? i)%nat; [|eapply H; eauto].
    destruct (nth_error q i); [|destruct X; discriminate]. apply Hx. destruct X as [X|X]; injection X as ->; auto.
  Qed.
  Lemma inv_step (o : lop W Req) (z : rsys) : inv z -> forward_op time o -> let '(z1, b) := rstep o z in
    b <> LoPanic -> b <> LoDiverge -> (o = LLoad -> Z.of_nat (S (open z)) < u32_mod) ->
    inv z1 /\ (forall m ok, b = LoLoad (m, ok) -> ok = true).
  Proof.
    intros [A B] Ho. destruct z as [s rf rq c w]. cbn in A, B.
    assert (Nl : forall (b : lobs Resp Err (f64 * bool)) (P : Prop), P -> (forall x, b <> LoLoad x) -> P /\ (forall m ok, b = LoLoad (m, ok) -> ok = true)).
    { intros b P HP H. split; [exact HP|]. intros m ok X. destruct (H (m, ok) X). }
    assert (Same : forall s1 rf1 w1 (b : lobs Resp Err (f64 * bool)), time w <= time w1 -> (forall x, b <> LoLoad x) -> inv (@RSys _ _ _ _ _ _ svc s1 rf1 rq c w1) /\ (forall m ok, b = LoLoad (m, ok) -> ok = true)).
    { intros. apply Nl; [|assumption]. split; cbn; [eapply est_mono; eauto|eapply handles_mono; eauto]. }
    destruct o as [|r|j|j|j| | |g]; cbn [rsys_step r_svc r_futs r_reqs r_est r_w].
    - destruct s as [s|]; [|intros; apply Same; [lia|discriminate]]. assert (F := fw_ready Fw s w).
      destruct (poll_ready svc s w) as [w1 [[s1 a]| |]]; cbn in F; intros; (apply Same; [exact F|discriminate]).
    - destruct s as [s|]; [|intros; apply Same; [lia|discriminate]].
      unfold pe_start. assert (F := fw_clk Fw w). destruct (clk w) as [w1 t]. cbn [fst snd] in F. cbn iota beta.
      assert (F2 := fw_call Fw s r w1). destruct (call svc s r w1) as [w2 [[s1 f]| |]]; cbn [fst] in F2.
      + intros _ _ _. apply Nl; [|discriminate]. split; cbn; [eapply est_mono; eauto; lia|].
        intros j t' X. rewrite nth_snoc in X. destruct (j =? length rq)%nat.
        * destruct X as [X|X]; [injection X as <-; lia|discriminate].
        * specialize (B _ _ X). lia.
      + destruct (finish t c w2). congruence.
      + congruence.
    - destruct (nth_error rf j) as [[f|]|] eqn:Ef; try (intros; apply Same; [lia|discriminate]).
      assert (F := fw_poll Fw f w). destruct (poll_fut svc f w) as [w1 [[f1 a]| |]]; cbn [fst] in F; try (intros; apply Same; [exact F|discriminate]).
      destruct a as [|[v|e]]; try (intros; apply Same; [exact F|discriminate]).
      destruct (nth_error rq j) as [[t|t|]|] eqn:Eq; try congruence. assert (F2 := fw_keep Fw v w1). destruct (keep v w1) as [w2 [|]]; cbn [fst] in F2.
      + intros _ _ _. apply Nl; [|discriminate]. split; cbn; [eapply est_mono; eauto; lia|]. apply handles_set; [eapply handles_mono; eauto; lia|].
        intros t' [X|X]; [discriminate|]. injection X as <-. assert (X := B j t (or_introl Eq)). lia.
      + destruct (finish t c w2) as [c3 w3] eqn:Efi. intros _ _ _. assert (X := B j t (or_introl Eq)).
        destruct (@finish_ok t c w2 c3 w3) as [Y1 Y2]; [eapply est_mono; eauto; lia|lia|exact Efi|].
        apply Nl; [|discriminate]. split; cbn; [exact Y1|]. apply handles_set; [eapply handles_mono; eauto; lia|]. intros t' [Z|Z]; discriminate.
    - destruct (nth_error rf j) as [[f|]|] eqn:Ef; try (intros; apply Same; [lia|discriminate]). assert (F := fw_dropf Fw f w).
      destruct (nth_error rq j) as [[t|t|]|] eqn:Eq; try (intros; apply Same; [exact F|discriminate]).
      destruct (finish t c (drop_fut svc f w)) as [c3 w3] eqn:Efi. intros _ _ _. assert (X := B j t (or_introl Eq)).
      destruct (@finish_ok t c (drop_fut svc f w) c3 w3) as [Y1 Y2]; [eapply est_mono; eauto; lia|lia|exact Efi|].
      apply Nl; [|discriminate]. split; cbn; [exact Y1|]. apply handles_set; [eapply handles_mono; eauto; lia|]. intros t' [Z|Z]; discriminate.
    - destruct (nth_error rq j) as [[t|t|]|] eqn:Eq; try (intros; apply Same; [lia|discriminate]).
      destruct (finish t c w) as [c3 w3] eqn:Efi. intros _ _ _. assert (X := B j t (or_intror Eq)).
      destruct (@finish_ok t c w c3 w3) as [Y1 Y2]; [eapply est_mono; eauto; lia|lia|exact Efi|].
      apply Nl; [|discriminate]. split; cbn; [exact Y1|]. apply handles_set; [eapply handles_mono; eauto; lia|]. intros t' [Z|Z]; discriminate.
    - destruct s as [s|]; [|intros; apply Same; [lia|discriminate]]. unfold pe_rload.
      destruct (rtt_decay clk exp64 decay c w) as [e1 w1] eqn:Ed. intros _ _ Hn. specialize (Hn eq_refl).
      set (k := Z.of_nat (S (open (@RSys _ _ _ _ _ _ svc (Some s) rf rq c w)))) in *. assert (Hk1 : 1 <= k) by lia. clearbody k.
      unfold rtt_decay in Ed. assert (F := fw_clk Fw w). destruct (clk w) as [w2 a]. cbn [fst snd] in F.
      destruct (@update_ok a a c w2 e1 w1) as [[Y1 Y3] Y2]; [eapply est_mono; eauto; lia|lia|exact Ed|].
      assert (Ok : (asserts e1 && ((1 <=? k mod u32_mod) && ((k mod u32_mod - 1) mod u32_mod + 1 <? u32_mod))) = true).
      { rewrite Y3, (Z.mod_small k) by lia. rewrite (Z.mod_small (k - 1)) by lia. cbn [andb]. apply andb_true_intro. split; [apply Z.leb_le|apply Z.ltb_lt]; lia. }
      rewrite Ok. split.
      + split; cbn; [split; [exact Y1|reflexivity]|]. eapply handles_mono; eauto. lia.
      + intros m ok X. now injection X as _ <-.
    - destruct s as [s|]; [|intros; apply Same; [lia|discriminate]]. intros. apply Same; [apply (fw_drop Fw)|discriminate].
    - intros. apply Same; [apply Ho|discriminate].
  Qed.

  Lemma inv_run l : forall (z : rsys), inv z -> Forall (forward_op time) l -> forall h1 m ok w1 h2,
    (forall g1 e g2, rrun z l = g1 ++ e :: g2 -> Z.of_nat (length (List.filter alive (lives_from (map (life_of (T := Z)) (r_reqs z)) g1))) + 1 < u32_mod) ->
    rrun z l = h1 ++ (LLoad, LoLoad (m, ok), w1) :: h2 -> ok = true.
  Proof.
    induction l as [|o l IH]; intros z HI HF h1 m ok w1 h2 HN E; cbn [rsys_run] in E; [destruct h1; discriminate|].
    inversion HF as [|? ? Fo Fl]; subst. cbn [rsys_run] in HN.
    assert (Hl := life_rstep start finish keep rload o z). assert (Hs := @inv_step o z HI Fo). destruct (rstep o z) as [z1 b] eqn:Es.
    assert (Hb : b <> LoPanic /\ b <> LoDiverge).
    { destruct h1 as [|e h1]; [injection E as _ -> _ _; split; discriminate|]. injection E as _ E.
      destruct b; split; try discriminate; destruct h1; discriminate. }
    destruct Hb as [B1 B2].
    destruct (Hs B1 B2) as [HI1 Hok].
    { intros _. rewrite open_lives. assert (X := HN [] _ _ eq_refl). cbn [lives_from fold_left] in X. rewrite Nat2Z.inj_succ. lia. }
    destruct h1 as [|e h1].
    - injection E as _ -> _ _. eapply Hok. reflexivity.
    - injection E as <- E.
      assert (E' : rrun z1 l = h1 ++ (LLoad, LoLoad (m, ok), w1) :: h2)
        by (destruct b; try exact E; destruct h1; discriminate).
      eapply (IH z1 HI1 Fl h1 m ok w1 h2); [|exact E']. intros g1 e g2 G.
      assert (X := HN ((o, b, r_w z1) :: g1) e g2).
      change (lives_from (map (life_of (T := Z)) (r_reqs z)) ((o, b, r_w z1) :: g1)) with (lives_from (life_step (map (life_of (T := Z)) (r_reqs z)) (o, b)) g1) in X.
      rewrite <- (Hl B1 B2) in X. apply X. cbn [app]. f_equal. destruct b; try exact G; congruence.
  Qed.

  Lemma pe_asserts s w l h1 m ok w1 h2 : (1 <= default) -> is_finite decay = true -> (0 < B2R decay)%R ->
    Forall (forward_op time) l ->
    (forall g1 e g2, pe_history svc keep clk exp64 decay default s w l = g1 ++ e :: g2 -> Z.of_nat (unfinished g1) + 1 < u32_mod) ->
    pe_history svc keep clk exp64 decay default s w l = h1 ++ (LLoad, LoLoad (m, ok), w1) :: h2 ->
    ok = true.
  Proof.
    intros Hd Fd Pd HF HN E. rewrite pe_refines in E.
    assert (HN' : forall g1 e g2, rrun (pe_rstart svc clk decay default s w) l = g1 ++ e :: g2 -> Z.of_nat (unfinished g1) + 1 < u32_mod).
    { intros g1 e g2 G. apply (HN g1 e g2). rewrite pe_refines. exact G. }
    clear HN. refine (@inv_run l _ _ HF h1 m ok w1 h2 HN' E).
    unfold pe_rstart, peak_ewma_new, rtt_new. assert (F := fw_clk Fw w). destruct (clk w) as [w2 a]. cbn [fst snd] in F.
    split; cbn [fst snd content rsys0 r_est r_w r_reqs update_at rtt_ns asserts].
    - split; cbn [update_at asserts]; [lia|]. unfold lt64.
      assert (Z0 : is_finite f_zero = true /\ B2R f_zero = 0%R) by (split; vm_compute; reflexivity). destruct Z0 as [Z1 Z2].
      destruct (@nanos_ok default ltac:(lia)) as (Fn & _ & Rn & Rz & _).
      rewrite !Bltb_correct by assumption. rewrite Z2. apply andb_true_intro. split; apply Rlt_bool_true; [|exact Pd].
      destruct Rn as [Rn|Rn]; [|lra]. apply Rz in Rn. lia.
    - intros j t X. destruct j; destruct X; discriminate.
  Qed.
End Clock.
