(** PeakEwma: the load, exactly. *)
From Flocq Require Import Core BinarySingleNaN.
From Verif Require Import Base Middleware Float Load LoadSpec LoadProof EwmaSpec EwmaTop.
Set Implicit Arguments.

Section Exact.
  Context {W Req Resp Err : Type} (svc : Service W Req Resp Err) (keep : Resp -> W -> W * bool).
  Context (clk : W -> W * Z) (exp64 : f64 -> f64) (decay : f64) (default : Z).
  Notation start := (pe_start clk).
  Notation finish := (pe_finish clk exp64 decay).
  Notation rsys := (rsys (C := rtt_est) (T := Z) svc).
  Notation rload := (pe_rload clk exp64 decay).
  Notation rstep := (rsys_step (svc := svc) start finish keep rload).
  Notation rrun := (rsys_run (svc := svc) start finish keep rload).
  Notation read1 := (readings1 (svc := svc) keep clk).
  Notation read := (readings (svc := svc) keep clk exp64 decay).
  Notation ew := (average exp64 decay).

  (** The estimate after some readings, and the time of the last one. *)
  Definition told (e : rtt_est) (r : list (Z * Z)) (e1 : rtt_est) : Prop :=
    rtt_ns e1 = ew (rtt_ns e) (update_at e) r /\ update_at e1 = last (map fst r) (update_at e).
  Lemma told_nil e : told e [] e.
  Proof. split; reflexivity. Qed.
  Lemma finish_told t c w c1 w1 : finish t c w = (c1, w1) -> told c (reading clk (since (snd (clk w)) t) w) c1.
  Proof.
    unfold pe_finish, rtt_update, reading. destruct (clk w) as [w2 a]. cbn [fst snd]. destruct (clk w2) as [w3 b].
    intros E. injection E as <- <-. split; reflexivity.
  Qed.
  Lemma average_app r1 : forall x l r2, ew x l (r1 ++ r2) = ew (ew x l r1) (last (map fst r1) l) r2.
  Proof.
    induction r1 as [|[n d] r1 IH]; intros x l r2; [reflexivity|]. cbn [app average map fst]. rewrite IH. f_equal.
    destruct r1 as [|[n' d'] r1]; [reflexivity|]. cbn [map fst]. generalize (map fst r1) as q. intros q.
    change (last (n' :: q) n = last (n' :: q) l). clear IH. revert n'. induction q as [|y q IHq]; intros n'; [reflexivity|]. exact (IHq y).
  Qed.

  Lemma told_step (o : lop W Req) (z : rsys) : let '(z1, b) := rstep o z in
    b <> LoPanic -> b <> LoDiverge -> told (r_est z) (read1 o z) (r_est z1).
  Proof.
    destruct z as [s rf rq c w]. destruct o as [|r|j|j|j| | |g]; cbn [rsys_step readings1 r_svc r_futs r_reqs r_est r_w].
    - destruct s as [s|]; [|intros; apply told_nil]. destruct (poll_ready svc s w) as [w1 [[s1 a]| |]]; intros; apply told_nil.
    - destruct s as [s|]; [|intros; apply told_nil]. destruct (start w) as [w1 [t| |]]; try (intros; apply told_nil).
      destruct (call svc s r w1) as [w2 [[s1 f]| |]]; try (intros; apply told_nil).
      destruct (finish t c w2). congruence.
    - destruct (nth_error rf j) as [[f|]|] eqn:Ef; try (intros; apply told_nil).
      destruct (poll_fut svc f w) as [w1 [[f1 a]| |]] eqn:Ep; [|intros; congruence|intros; congruence].
      destruct (nth_error rq j) as [[t|t|]|] eqn:Eq; destruct a as [|[v|e]]; try (intros; first [apply told_nil|congruence]).
      destruct (keep v w1) as [w2 [|]] eqn:Ek; [intros; apply told_nil|].
      destruct (finish t c w2) as [c3 w3] eqn:Efi. intros _ _. exact (finish_told _ _ _ Efi).
    - destruct (nth_error rf j) as [[f|]|] eqn:Ef; try (intros; apply told_nil).
      destruct (nth_error rq j) as [[t|t|]|] eqn:Eq; try (intros; apply told_nil).
      cbv zeta. destruct (finish t c (drop_fut svc f w)) as [c3 w3] eqn:Efi. intros _ _. exact (finish_told _ _ _ Efi).
    - destruct (nth_error rq j) as [[t|t|]|] eqn:Eq; try (intros; apply told_nil).
      destruct (finish t c w) as [c3 w3] eqn:Efi. intros _ _. exact (finish_told _ _ _ Efi).
    - destruct s as [s|]; [|intros; apply told_nil]. unfold pe_rload, rtt_decay, reading. destruct (clk w) as [w1 a]. cbn [fst snd]. unfold rtt_update.
      destruct (clk w1) as [w2 b]. intros _ _. cbn [r_est rtt_ns update_at snd]. unfold told. cbn [rtt_ns update_at]. rewrite since_self. split; reflexivity.
    - destruct s; intros; apply told_nil.
    - intros; apply told_nil.
  Qed.

  Lemma load_exact l : forall (z : rsys) h1 m ok w1 h2, rrun z l = h1 ++ (LLoad, LoLoad (m, ok), w1) :: h2 ->
    m = mul64 (ew (rtt_ns (r_est z)) (update_at (r_est z)) (read z (firstn (S (length h1)) l)))
          (f64_of (Z.of_nat (S (length (List.filter alive (lives_from (map (life_of (T := Z)) (r_reqs z)) h1)))) mod u32_mod) 0).
  Proof.
    induction l as [|o l IH]; intros z h1 m ok w1 h2 E; cbn [rsys_run] in E; [destruct h1; discriminate|].
    assert (Hl := life_rstep start finish keep rload o z). assert (Ht := told_step o z). cbn [firstn readings].
    destruct (rstep o z) as [z1 b] eqn:Es. destruct h1 as [|e h1].
    - cbn in E. injection E as -> -> Ew E. cbn [lives_from fold_left length firstn readings]. rewrite <- open_lives.
      destruct (Ht ltac:(discriminate) ltac:(discriminate)) as [T1 T2]. rewrite app_nil_r, <- T1. cbn in Es.
      destruct (r_svc z); [|discriminate]. unfold pe_rload in Es. destruct (rtt_decay clk exp64 decay (r_est z) (r_w z)) as [e1 w2].
      injection Es as Ez Em Eo. subst z1 m. reflexivity.
    - cbn in E. injection E as <- E.
      assert (Hb : b <> LoPanic /\ b <> LoDiverge) by (destruct b; split; try discriminate; destruct h1; discriminate).
      assert (E' : rrun z1 l = h1 ++ (LLoad, LoLoad (m, ok), w1) :: h2)
        by (destruct b; try exact E; destruct h1; discriminate).
      destruct Hb as [B1 B2]. destruct (Ht B1 B2) as [T1 T2]. rewrite (IH z1 h1 m ok w1 h2 E'). cbn [length].
      f_equal.
      + rewrite average_app, <- T1, <- T2. destruct b; try reflexivity; congruence.
      + do 6 f_equal.
        change (lives_from (map (life_of (T := Z)) (r_reqs z)) ((o, b, r_w z1) :: h1)) with (lives_from (life_step (map (life_of (T := Z)) (r_reqs z)) (o, b)) h1).
        now rewrite <- Hl.
  Qed.
  Lemma pe_load_exact s w l h1 m ok w1 h2 :
    pe_history svc keep clk exp64 decay default s w l = h1 ++ (LLoad, LoLoad (m, ok), w1) :: h2 ->
    m = mul64 (ew (nanos default) (snd (clk w)) (read (pe_rstart svc clk decay default s w) (firstn (S (length h1)) l)))
          (f64_of (Z.of_nat (S (unfinished h1)) mod u32_mod) 0).
  Proof.
    rewrite pe_refines. intros E. rewrite (@load_exact _ _ _ _ _ _ _ E). rewrite pe_start_est. f_equal. f_equal.
    unfold pe_rstart, peak_ewma_new, rtt_new. destruct (clk w) as [w2 a]. reflexivity.
  Qed.
End Exact.
