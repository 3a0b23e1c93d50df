(** Refinement: Balance. *)
From Coq Require Import Permutation.
From Verif Require Import Base Middleware ReadyCache CacheProof WakeCache RingSpec RingProof RingLoop RingTop RingBal RingBal2 RefineSpec RefineProof.
Set Implicit Arguments.

Section Ref.
  Context {W K Req Resp Err : Type} (keq : forall a b : K, {a = b} + {a <> b}).
  Context (svc : Service W Req Resp Err).
  Context (rings : W -> list waker) (stop : nat -> nat -> nat -> bool).
  Context {DErr Metric R : Type} (D : Discover W K (st svc) DErr).
  Context (next_u64 : R -> M W (R * Z)) (debug : bool).
  Context (load : st svc -> M W Metric) (le : Metric -> Metric -> bool).
  Notation wcache := (wcache (K := K) svc).
  Notation ocache := (cache (K := K) (taped svc)).
  Notation forget := (forget (K := K) (svc := svc)).
  Notation D' := (tdisc D : Discover (W * tape) K (st (taped svc)) DErr).
  Notation nx' := (fun g => off (next_u64 g)).
  Notation ld' := (fun s => off (load s)).
  Notation wbal := (wbalance_st (R := R) D).

  Definition fdisc (x : dst D * wcache * option DErr) : dst D' * ocache * option DErr := let '(d, c, e) := x in (d, forget c, e).
  Lemma discover_sim fuel : forall d (c : wcache) w, sim w (wupdate_from_discover keq rings D fuel d c) (update_from_discover (svc := taped svc) keq D' fuel d (forget c)) fdisc.
  Proof.
    induction fuel as [|fuel IH]; intros d c w; [exact I|]. cbn [wupdate_from_discover update_from_discover].
    eapply sim_bind; [apply (sim_off w (poll_discover D d))|]. intros [d1 p] w1 _. cbn beta iota zeta.
    destruct p as [|[[[k s|k]|x]|]].
    - apply sim_fired. apply sim_ret. cbn [fdisc]. now rewrite forget_rings.
    - apply sim_fired. match goal with |- context [wpush keq ?c1 k s] => assert (X := push_sim keq c1 k s); rewrite forget_rings in X end.
      change (forget (logged (EDisc DChange) c)) with (forget c) in X. rewrite <- X. apply IH.
    - apply sim_fired. match goal with |- context [wevict keq rings ?c1 k] => assert (X := evict_sim keq rings c1 k w1); rewrite forget_rings in X end.
      change (forget (logged (EDisc DChange) c)) with (forget c) in X. eapply sim_bind; [exact X|]. intros [c2 b] w2 _. apply IH.
    - apply sim_fired. apply sim_ret. cbn [fdisc]. now rewrite forget_rings.
    - apply sim_fired. apply sim_ret. cbn [fdisc]. now rewrite forget_rings.
  Qed.
  Lemma forget_len (c : wcache) : length (rc_pending (forget c)) = wpending_len c.
  Proof. apply map_length. Qed.
  Lemma forget_rlen (c : wcache) : length (rc_ready (forget c)) = wready_len c.
  Proof. apply map_length. Qed.
  Lemma promote_sim fuel : forall (c : wcache) w, pinv c -> sim w (wpromote_loop keq rings stop debug fuel c) (promote_loop keq tsched debug fuel (forget c)) forget.
  Proof.
    induction fuel as [|fuel IH]; intros c w H; [exact I|]. cbn [wpromote_loop promote_loop].
    eapply sim_bind; [apply (poll_pending_sim keq rings stop w H)|]. intros [c1 p] w1 E. cbn [fpair fst snd].
    destruct (poll_pending_loop_ok _ _ _ _ _ H E) as (A1 & _). unfold pending_len. rewrite forget_len.
    destruct p as [|[u|x]].
    - destruct (debug && (wpending_len c1 =? 0)); [apply sim_panic|apply sim_ret; reflexivity].
    - destruct (debug && negb (wpending_len c1 =? 0)); [apply sim_panic|apply sim_ret; reflexivity].
    - apply IH, pinv_winv, A1.
  Qed.
  Lemma load_sim (c : wcache) i w : sim w (wready_index_load load c i) (ready_index_load (svc := taped svc) ld' (forget c) i) (fun a => a).
  Proof.
    unfold wready_index_load, ready_index_load, get_ready_index. cbn [rc_ready RefineSpec.forget]. rewrite nth_error_map.
    destruct (nth_error (ix_ready (wc_ix c)) i) as [[k [[sid s] x]]|]; cbn [option_map forget_ready]; [apply sim_off|apply sim_panic].
  Qed.
  Lemma sample_sim g len w : sim w (sample_floyd2 next_u64 debug g len) (sample_floyd2 nx' debug g len) (fun a => a).
  Proof.
    assert (Nr : forall g a b w, sim w (next_range next_u64 debug g a b) (next_range nx' debug g a b) (fun a => a)).
    { intros g0 a b w0. unfold next_range. destruct (debug && negb (a <? b)%Z); [apply sim_panic|]. eapply sim_bind; [apply sim_off|].
      intros [g1 n] w1 _. destruct (_ =? 0)%Z; [apply sim_panic|apply sim_ret; reflexivity]. }
    unfold sample_floyd2. destruct (debug && negb (2 <=? len)%Z); [apply sim_panic|]. eapply sim_bind; [apply Nr|]. intros [g1 a] w1 _.
    eapply sim_bind; [apply Nr|]. intros [g2 b] w2 _. apply sim_ret. reflexivity.
  Qed.
  Lemma p2c_sim (c : wcache) g w : sim w (wp2c_ready_index next_u64 debug load le c g) (p2c_ready_index (svc := taped svc) nx' debug ld' le (forget c) g) (fun a => a).
  Proof.
    unfold wp2c_ready_index, p2c_ready_index, ready_len. rewrite forget_rlen. destruct (wready_len c) as [|[|n]]; [apply sim_ret; reflexivity..|].
    eapply sim_bind; [apply sample_sim|]. intros [g1 [a b]] w1 _. cbn [fst snd]. cbv zeta.
    destruct (debug && (Z.to_nat a =? Z.to_nat b)); [apply sim_panic|].
    eapply sim_bind; [apply load_sim|]. intros la w2 _. eapply sim_bind; [apply load_sim|]. intros lb w3 _. apply sim_ret. reflexivity.
  Qed.
  Definition fbal (s : wbal) : balance_st (R := R) (taped svc) D' := BalSt (svc := taped svc) (D := D') (wb_disc s) (forget (wb_cache s)) (wb_index s) (wb_rng s).
  Definition fbp {A} (x : wbal * A) : balance_st (R := R) (taped svc) D' * A := (fbal (fst x), snd x).
  Lemma loop_sim fuel : forall d (c : wcache) idx g w, sim w (wbalance_loop keq rings D next_u64 debug load le fuel d c idx g)
    (balance_loop (svc := taped svc) (DErr := DErr) keq D' nx' debug ld' le fuel d (forget c) idx g) fbp.
  Proof.
    induction fuel as [|fuel IH]; intros d c idx g w; [exact I|]. cbn [wbalance_loop balance_loop]. cbv zeta.
    assert (Sel : forall c w, sim w
      ('(g1, o) <- wp2c_ready_index next_u64 debug load le c g ;;
        match o with
        | None => if debug && negb (wready_len c =? 0) then panic else ret (WBalSt d c None g1, Pending)
        | Some i => wbalance_loop keq rings D next_u64 debug load le fuel d c (Some i) g1
        end)
      ('(g1, o) <- p2c_ready_index (svc := taped svc) nx' debug ld' le (forget c) g ;;
        match o with
        | None => if debug && negb (ready_len (forget c) =? 0) then panic else ret (BalSt (svc := taped svc) (D := D') d (forget c) None g1, Pending)
        | Some i => balance_loop (svc := taped svc) (DErr := DErr) keq D' nx' debug ld' le fuel d (forget c) (Some i) g1
        end) fbp).
    { intros c' w'. eapply sim_bind; [apply p2c_sim|]. intros [g1 [i|]] w1 _; [apply IH|]. unfold ready_len. rewrite forget_rlen.
      destruct (debug && negb (wready_len c' =? 0)); [apply sim_panic|apply sim_ret; reflexivity]. }
    destruct idx as [i|]; [|apply Sel].
    eapply sim_bind; [apply check_sim|]. intros [c1 a] w1 _. cbn [fpair fst snd]. destruct a as [[|]|x]; [apply sim_ret; reflexivity|apply Sel|apply Sel].
  Qed.
  Notation obal := (obalance keq svc D next_u64 debug load le).
  Lemma poll_sim fuel (s : wbal) w : pinv (wb_cache s) ->
    sim w (wbalance_poll_ready keq rings stop next_u64 debug load le fuel s) (poll_ready (obal fuel) (fbal s)) fbp.
  Proof.
    intros H. unfold wbalance_poll_ready. cbn [obalance balance poll_ready].
    eapply sim_bind; [apply (discover_sim fuel (wb_disc s) (with_woken false (wb_cache s)))|]. intros [[d1 c1] e] w1 E. cbn [fdisc].
    destruct e as [x|]; [apply sim_ret; reflexivity|].
    destruct (discover_ok _ _ _ _ _ _ (pinv_woken false H) E) as [A1 _].
    unfold wpromote_pending, promote_pending. rewrite forget_len.
    eapply sim_bind; [apply promote_sim; exact A1|]. intros c2 w2 _. rewrite forget_rlen. apply loop_sim.
  Qed.
  Definition fcall (x : wbal * fut svc) : balance_st (R := R) (taped svc) D' * option (fut svc) := (fbal (fst x), Some (snd x)).
  Lemma bcall_sim fuel (s : wbal) r w : sim w (wbalance_call keq rings s r) (call (obal fuel) (fbal s) r) fcall.
  Proof.
    unfold wbalance_call. cbn [obalance balance call fbal bl_index bl_cache bl_disc bl_rng]. destruct (wb_index s) as [i|]; [|apply sim_panic].
    eapply sim_bind; [apply call_sim|]. intros [c1 f] w1 _. apply sim_ret. reflexivity.
  Qed.
  Context (fuel : nat).
  Lemma bstep_sim o (s : wbal) w b s1 w1 : pinv (wb_cache s) -> bwstep keq rings stop next_u64 debug load le fuel o (s, w) = Some (b, s1, w1) ->
    exists used, forall rest, bostep keq D next_u64 debug load le fuel o (forget_bal keq D next_u64 debug load le fuel s, (w, used ++ rest)) =
      Some (b, forget_bal keq D next_u64 debug load le fuel s1, (w1, rest)).
  Proof.
    intros H E. destruct o as [|r|k|g]; cbn [bwstep bostep] in *.
    - destruct (wdo (wbalance_poll_ready keq rings stop next_u64 debug load le fuel s) w) as [[[s2 a] w2]|] eqn:Ed; [|discriminate]. injection E as <- <- <-.
      destruct (@sim_do _ _ _ _ _ _ _ _ _ (poll_sim fuel s w H) Ed) as (u & Hu). exists u. intros rest. change (forget_bal keq D next_u64 debug load le fuel s) with (fbal s). now rewrite Hu.
    - destruct (wdo (wbalance_call keq rings s r) w) as [[[s2 a] w2]|] eqn:Ed; [|discriminate]. injection E as <- <- <-.
      destruct (@sim_do _ _ _ _ _ _ _ _ _ (bcall_sim fuel s r w) Ed) as (u & Hu). exists u. intros rest. change (forget_bal keq D next_u64 debug load le fuel s) with (fbal s). now rewrite Hu.
    - injection E as <- <- <-. exists []. intros rest. cbn [app]. unfold forget_bal. cbn [wb_disc wb_cache wb_index wb_rng].
      change (ring k (wb_cache s)) with (ring_all [k] (wb_cache s)). now rewrite forget_rings.
    - injection E as <- <- <-. exists []. reflexivity.
  Qed.
  Lemma brun_sim l : forall (s : wbal) w, pinv (wb_cache s) -> exists tp : tape, forall n b s1 w1,
    nth_error (bwrun keq rings stop next_u64 debug load le fuel (s, w) l) n = Some (b, s1, w1) ->
    exists rest, nth_error (borun keq D next_u64 debug load le fuel (forget_bal keq D next_u64 debug load le fuel s, (w, tp)) l) n =
      Some (b, forget_bal keq D next_u64 debug load le fuel s1, (w1, rest)).
  Proof.
    induction l as [|o l IH]; intros s w H; [exists []; intros [|n]; discriminate|]. cbn [bwrun borun].
    destruct (bwstep keq rings stop next_u64 debug load le fuel o (s, w)) as [[[b s1] w1]|] eqn:E; [|exists []; intros [|n]; discriminate].
    destruct (bstep_sim _ _ _ H E) as (u & Hu). destruct (bstep_ok _ _ _ _ _ _ _ _ _ _ _ H E) as (H1 & _). destruct (IH s1 w1 H1) as (tp & Ht).
    exists (u ++ tp). intros n b' s' w' En. rewrite Hu. destruct n as [|n]; cbn in En |- *; [|exact (Ht _ _ _ _ En)].
    injection En as <- <- <-. now exists tp.
  Qed.
  Theorem balance_refines d g w l : exists tp : tape, forall n b s w1,
    nth_error (bwhistory keq svc rings stop D next_u64 debug load le fuel d g w l) n = Some (b, s, w1) ->
    exists rest, nth_error (borun keq D next_u64 debug load le fuel (balance_new (taped svc) D' d g, (w, tp)) l) n =
      Some (b, forget_bal keq D next_u64 debug load le fuel s, (w1, rest)).
  Proof. exact (@brun_sim l (wbalance_new D d g) w (new_pinv svc)). Qed.
End Ref.
