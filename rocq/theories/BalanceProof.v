(** Balance: from the model to the specification. *)
From Coq Require Import Permutation.
From Verif Require Import Base Track ContractSpec Middleware ReadyCache CacheSpec CacheProof CacheHist BalanceSpec.
Set Implicit Arguments.

(** Random numbers, over any generator. *)
Section RngOk.
  Context {W R : Type} (next_u64 : R -> M W (R * Z)) (debug : bool) (keep : W -> W -> Prop) (pan dv : Prop).
  Hypothesis keep_trans : forall x y z, keep x y -> keep y z -> keep x z.
  Hypothesis Hnext : forall g w,
    match next_u64 g w with
    | (w1, Val _) => keep w w1
    | (w1, Panic) => pan
    | (w1, Diverge) => dv
    end.

  Lemma next_range_ok g lo hi w :
    (0 <= lo < hi)%Z -> (hi < 2 ^ 64)%Z ->
    match next_range next_u64 debug g lo hi w with
    | (w1, Val (_, n)) => keep w w1 /\ (lo <= n < hi)%Z
    | (w1, Panic) => pan
    | (w1, Diverge) => dv
    end.
  Proof.
    intros H H2. unfold next_range.
    replace (lo <? hi)%Z with true by (symmetry; apply Z.ltb_lt; lia).
    rewrite andb_false_r. cbn zeta. unfold bind. specialize (Hnext g w).
    destruct (next_u64 g w) as [w1 [[g1 n]| |]]; auto.
    unfold u64_mod. rewrite (Z.mod_small (hi - lo)) by lia.
    replace (hi - lo =? 0)%Z with false by (symmetry; apply Z.eqb_neq; lia).
    unfold ret. split; [exact Hnext|].
    assert (B := Z.mod_pos_bound n (hi - lo)). rewrite Z.mod_small; lia.
  Qed.

  Lemma sample_ok g len w :
    (2 <= len < 2 ^ 64)%Z ->
    match sample_floyd2 next_u64 debug g len w with
    | (w1, Val (_, (a, b))) => keep w w1 /\ (0 <= a < len /\ 0 <= b < len /\ a <> b)%Z
    | (w1, Panic) => pan
    | (w1, Diverge) => dv
    end.
  Proof.
    intros H. unfold sample_floyd2.
    replace (2 <=? len)%Z with true by (symmetry; apply Z.leb_le; lia).
    rewrite andb_false_r. unfold bind.
    unfold u64_mod. rewrite (Z.mod_small (len - 1)) by lia.
    generalize (@next_range_ok g 0%Z (len - 1)%Z w ltac:(lia) ltac:(lia)).
    destruct (next_range next_u64 debug g 0 (len - 1) w) as [w1 [[g1 a]| |]]; auto. intros [K1 A].
    generalize (@next_range_ok g1 0%Z len w1 ltac:(lia) ltac:(lia)).
    destruct (next_range next_u64 debug g1 0 len w1) as [w2 [[g2 b]| |]]; auto. intros [K2 B].
    unfold ret. split; [eauto|].
    destruct (a =? b)%Z eqn:E; [apply Z.eqb_eq in E|apply Z.eqb_neq in E]; lia.
  Qed.
End RngOk.

Section BalOk.
  Context {W K Req Resp Err DErr Metric R : Type} (keq : forall a b : K, {a = b} + {a <> b}).
  Context (svc : Service W Req Resp Err) (D : Discover W K (st svc) DErr).
  Context (sched : nat -> W -> W * list nat) (next_u64 : R -> M W (R * Z)) (debug : bool).
  Context (load : st svc -> M W Metric) (le : Metric -> Metric -> bool).
  Notation bev := (@bev K Req Resp Err DErr Metric).
  Notation inj := (@BIn K Req Resp Err DErr Metric).
  Notation TW := (W * tk bev)%type.
  Notation ts := (tracked (L := bev) inj svc).
  Notation bd := (bdisc (Metric := Metric) svc D).
  Notation bn := (bnext (K := K) (Req := Req) (Resp := Resp) (Err := Err) (DErr := DErr) (Metric := Metric) next_u64).
  Notation bl := (bload (K := K) (DErr := DErr) (svc := svc) load).

  Context (VS VR : st svc -> Prop) (VD : dst D -> Prop) (pan dv : Prop).
  Hypothesis Hready : forall s w, VS s \/ VR s ->
    match poll_ready svc s w with
    | (_, Val (s1, Pending)) => VS s1
    | (_, Val (s1, Ready (Ok _))) => VR s1
    | (_, Val (_, Ready (Er _))) => True
    | (_, Panic) => pan
    | (_, Diverge) => dv
    end.
  Hypothesis Hcall : forall s r w, VR s ->
    match call svc s r w with
    | (_, Val (s1, _)) => VS s1
    | (_, Panic) => pan
    | (_, Diverge) => dv
    end.
  Hypothesis Hdisc : forall d w, VD d ->
    match poll_discover D d w with
    | (_, Val (d1, p)) => VD d1 /\ match p with Ready (Some (Ok (Insert _ s))) => VS s | _ => True end
    | (_, Panic) => pan
    | (_, Diverge) => dv
    end.
  Hypothesis Hload : forall s w,
    match load s w with
    | (_, Val _) => True
    | (_, Panic) => pan
    | (_, Diverge) => dv
    end.
  Hypothesis Hnext : forall g w,
    match next_u64 g w with
    | (_, Val _) => True
    | (_, Panic) => pan
    | (_, Diverge) => dv
    end.

  Notation CI := (@CInv W K Req Resp Err bev svc inj VS VR).
  Notation adds := (@adds W bev).

  Lemma update_ok n d c a x :
    VD d -> CI c (tk_next (snd x)) a ->
    match update_from_discover keq (svc := ts) bd n d c x with
    | (x1, Val (d1, c1, e)) =>
        VD d1 /\ exists l b, adds x l x1 /\ news keq a (tk_next (snd x)) l e b (tk_next (snd x1)) /\
          CI c1 (tk_next (snd x1)) b
    | (x1, Panic) => pan
    | (x1, Diverge) => dv \/ exists l, adds x l x1 /\ only_changes l = Some n
    end.
  Proof.
    revert d c a x. induction n as [|n IH]; intros d c a x Hd HC.
    { cbn. right. exists []. split; reflexivity. }
    cbn [update_from_discover]. unfold bind at 1. cbn [bdisc poll_discover]. unfold bind at 1.
    unfold tk_lift at 1. specialize (Hdisc (fst x) Hd).
    destruct (poll_discover D d (fst x)) as [w1 [[d1 p]| |]]; auto. destruct Hdisc as [Hd1 Hp]. clear Hdisc.
    destruct p as [|[[[k s|k]|e]|]].
    - cbn. split; [exact Hd1|]. exists [BUpd Pending], a. split; [reflexivity|]. split; [constructor|exact HC].
    - unfold tk_fresh, tk_emit, bind at 1 2. unfold ret at 1. cbn [fst snd tk_next tk_log].
      set (x1 := (w1, Tk (S (tk_next (snd x))) (BUpd (Ready (Some (Ok (Insert k (tk_next (snd x)))))) :: tk_log (snd x))) : TW).
      assert (HC1 : CI (push keq c k (tk_next (snd x), s)) (tk_next (snd x1)) (pushed keq k (tk_next (snd x)) a)).
      { apply push_ok; auto. }
      assert (A1 : adds x [BUpd (Ready (Some (Ok (Insert k (tk_next (snd x))))))] x1) by reflexivity.
      generalize (@IH d1 _ _ x1 Hd1 HC1).
      destruct (update_from_discover keq (svc := ts) bd n d1 (push keq c k (tk_next (snd x), s)) x1) as [x2 [[[d2 c2] e]| |]]; auto.
      + intros (Hd2 & l & b & A2 & N & HC2). split; [exact Hd2|].
        exists (BUpd (Ready (Some (Ok (Insert k (tk_next (snd x)))))) :: l), b.
        split; [exact (adds_app A1 A2)|]. split; [apply nw_insert; exact N|exact HC2].
      + intros [H|(l & A2 & O)]; [auto|]. right. eexists. split; [exact (adds_app A1 A2)|]. cbn. rewrite O. reflexivity.
    - unfold tk_emit, bind at 1. unfold ret at 1. cbn [fst snd tk_next tk_log].
      set (x1 := (w1, Tk (tk_next (snd x)) (BUpd (Ready (Some (Ok (Remove k)))) :: tk_log (snd x))) : TW).
      assert (A1 : adds x [BUpd (Ready (Some (Ok (Remove k))))] x1) by reflexivity.
      unfold bind at 1.
      destruct (@evict_ok W K Req Resp Err bev keq svc inj VS VR c _ a k x1 HC) as (x2 & c1 & hit & -> & A2 & En & HC1 & _).
      cbn [x1 snd tk_next] in En.
      assert (HC1' : CI c1 (tk_next (snd x2)) (evicted keq k a)) by (rewrite En; exact HC1).
      generalize (@IH d1 _ _ x2 Hd1 HC1').
      destruct (update_from_discover keq (svc := ts) bd n d1 c1 x2) as [x3 [[[d2 c2] e]| |]]; auto.
      + intros (Hd2 & l & b & A3 & N & HC2). split; [exact Hd2|]. rewrite En in N.
        exists (BUpd (Ready (Some (Ok (Remove k)))) :: map (fun i => BIn (TDropSvc i)) (opt_list (in_ready a k)) ++ l), b.
        split; [exact (adds_app A1 (adds_app A2 A3))|]. split; [apply nw_remove; exact N|exact HC2].
      + intros [H|(l & A3 & O)]; [auto|]. right. eexists. split; [exact (adds_app A1 (adds_app A2 A3))|]. cbn.
        replace (only_changes (map (fun j => inj (TDropSvc j)) (opt_list (in_ready a k)) ++ l)) with (only_changes l).
        * rewrite O. reflexivity.
        * destruct (in_ready a k); reflexivity.
    - cbn. split; [exact Hd1|]. exists [BUpd (Ready (Some (Er e)))], a. split; [reflexivity|]. split; [constructor|exact HC].
    - cbn. split; [exact Hd1|]. exists [BUpd (Ready None)], a. split; [reflexivity|]. split; [constructor|exact HC].
  Qed.

  Lemma promote_ok n c a x :
    length (rc_pending c) < n -> CI c (tk_next (snd x)) a ->
    match promote_loop keq (svc := ts) (tsched sched) debug n c x with
    | (x1, Val c1) =>
        tk_next (snd x1) = tk_next (snd x) /\
        exists l b, adds x l x1 /\ promotes keq a l b /\ CI c1 (tk_next (snd x1)) b
    | (x1, Panic) => pan
    | (x1, Diverge) => dv
    end.
  Proof.
    revert c a x. induction n as [|n IH]; intros c a x Hn HC; [lia|]. cbn [promote_loop]. unfold bind at 1.
    generalize (@poll_pending_ok _ K _ _ _ _ keq _ inj VS VR pan dv Hready sched c a x HC).
    destruct (poll_pending keq (tsched sched) c x) as [x1 [[c1 p]| |]]; auto.
    intros (En & l & b & A & PA & HC1 & P1 & P2). destruct p as [|[[]|e]].
    - replace (pending_len c1 =? 0) with false.
      2:{ unfold pending_len. destruct (rc_pending c1); [congruence|reflexivity]. }
      rewrite andb_false_r. unfold ret. split; [exact En|]. exists l, b. split; [exact A|]. split; [|exact HC1].
      eapply pm_done; [exact PA|auto].
    - replace (pending_len c1 =? 0) with true.
      2:{ unfold pending_len. rewrite P2. reflexivity. }
      rewrite andb_false_r. unfold ret. split; [exact En|]. exists l, b. split; [exact A|]. split; [|exact HC1].
      eapply pm_done; [exact PA|auto].
    - generalize (@IH c1 b x1 ltac:(lia) HC1).
      destruct (promote_loop keq (svc := ts) (tsched sched) debug n c1 x1) as [x2 [c2| |]]; auto.
      intros (En2 & l2 & b2 & A2 & PR & HC2). split; [lia|]. exists (l ++ l2), b2.
      split; [exact (adds_app A A2)|]. split; [eapply pm_failed; eauto|exact HC2].
  Qed.

  (** What an index shows. *)
  Lemma index_ready c nx a n k i s : CI c nx a -> get_ready_index c n = Some (k, (i, s)) -> in_ready a k = Some i.
  Proof.
    intros HC E. unfold get_ready_index in E.
    destruct (nth_error (rc_ready c) n) as [[k1 [s1 t]]|] eqn:En; [|discriminate]. injection E as -> ->.
    apply (i_ready (ci_inv HC)). exists t. apply nth_error_In in En. apply (in_map (rsig (inj := inj) (svc := svc))) in En. exact En.
  Qed.
  Lemma index_some (c : cache (K := K) ts) n : n < ready_len c -> exists k i s, get_ready_index c n = Some (k, (i, s)).
  Proof.
    intros H. unfold get_ready_index. apply nth_error_Some in H.
    destruct (nth_error (rc_ready c) n) as [[k [[i s] t]]|]; [eauto|congruence].
  Qed.
  Lemma index_inj c nx a n m k s s' : CI c nx a -> get_ready_index c n = Some (k, s) -> get_ready_index c m = Some (k, s') -> n = m.
  Proof.
    intros HC E1 E2. unfold get_ready_index in *.
    destruct (nth_error (rc_ready c) n) as [[k1 [s1 t1]]|] eqn:N1; [|discriminate].
    destruct (nth_error (rc_ready c) m) as [[k2 [s2 t2]]|] eqn:N2; [|discriminate].
    injection E1 as -> ->. injection E2 as -> ->.
    assert (ND := i_rk (ci_inv HC)). rewrite keys_rsig in ND.
    apply (map_nth_error fst) in N1, N2. cbn in N1, N2.
    rewrite NoDup_nth_error in ND. apply ND; [|etransitivity; [exact N1|symmetry; exact N2]].
    apply nth_error_Some. intros C. assert (X := eq_trans (eq_sym N1) C). discriminate.
  Qed.
  Lemma ready_nil c nx a : CI c nx a -> ready_len c = 0 -> forall k, in_ready a k = None.
  Proof.
    intros HC E k. unfold ready_len in E. destruct (rc_ready c) eqn:Er; [|discriminate].
    apply (ready_none_key k (ci_inv HC)). rewrite Er. tauto.
  Qed.
  Lemma ready_sole c nx a k i s : CI c nx a -> ready_len c = 1 -> get_ready_index c 0 = Some (k, (i, s)) ->
    forall k', k' <> k -> in_ready a k' = None.
  Proof.
    intros HC E G k' Hk. unfold ready_len in E. destruct (rc_ready c) as [|[k1 [s1 t1]] [|]] eqn:Er; try discriminate.
    unfold get_ready_index in G. rewrite Er in G. cbn in G. injection G as -> ->.
    apply (ready_none_key k' (ci_inv HC)). rewrite Er. cbn. intros [C|[]]. congruence.
  Qed.
  Lemma ready_le c nx a : CI c nx a -> ready_len c <= nx.
  Proof.
    intros HC. assert (ND := i_id (ci_inv HC)). rewrite map_app in ND.
    assert (X : NoDup (map snd (map (rsig (inj := inj) (svc := svc)) (rc_ready c)))).
    { clear - ND. revert ND. generalize (map snd (map (rsig (inj := inj) (svc := svc)) (rc_ready c))). intros l.
      induction (map snd _) as [|y m IH]; cbn; [auto|]. intros H. inversion H; auto. }
    assert (Y : incl (map snd (map (rsig (inj := inj) (svc := svc)) (rc_ready c))) (seq 0 nx)).
    { intros y Hy. apply in_seq. split; [lia|]. cbn. apply (i_nx (ci_inv HC)).
      rewrite map_app. apply in_or_app. right. exact Hy. }
    apply NoDup_incl_length in Y; [|exact X]. rewrite !map_length, seq_length in Y. exact Y.
  Qed.

  Lemma p2c_ok c a g x :
    CI c (tk_next (snd x)) a -> (Z.of_nat (tk_next (snd x)) < 2 ^ 64)%Z ->
    match p2c_ready_index (svc := ts) bn debug bl le c g x with
    | (x1, Val (g1, o)) =>
        tk_next (snd x1) = tk_next (snd x) /\
        match o with
        | None => log_of x1 = log_of x /\ ready_len c = 0
        | Some n => exists l k i s, adds x l x1 /\ get_ready_index c n = Some (k, (i, s)) /\ picks le a l k i
        end
    | (_, Panic) => pan
    | (_, Diverge) => dv
    end.
  Proof.
    intros HC HF. assert (HL := ready_le HC). unfold p2c_ready_index.
    destruct (ready_len c) as [|[|n]] eqn:EL.
    - cbn. auto.
    - cbn. split; [reflexivity|]. destruct (@index_some c 0) as (k & i & s & G); [lia|].
      exists [], k, i, s. split; [reflexivity|]. split; [exact G|]. constructor.
      + exact (index_ready _ HC G).
      + exact (ready_sole HC EL G).
    - unfold bind at 1.
      assert (HB : forall g0 (y : TW),
        match bn g0 y with
        | (y1, Val _) => snd y1 = snd y
        | (y1, Panic) => pan
        | (y1, Diverge) => dv
        end).
      { intros g0 y. unfold bnext, tk_lift. specialize (Hnext g0 (fst y)).
        destruct (next_u64 g0 (fst y)) as [w1 [v| |]]; auto. }
      assert (HT : forall y1 y2 y3 : TW, snd y2 = snd y1 -> snd y3 = snd y2 -> snd y3 = snd y1) by congruence.
      assert (HLen : (2 <= Z.of_nat (S (S n)) < 2 ^ 64)%Z) by lia.
      generalize (@sample_ok TW R bn debug (fun y y1 => snd y1 = snd y) pan dv HT HB g (Z.of_nat (S (S n))) x HLen).
      destruct (sample_floyd2 bn debug g (Z.of_nat (S (S n))) x) as [x1 [[g1 [za zb]]| |]]; auto.
      intros (Ex & Ha & Hb & Hab). cbv beta iota. cbn [fst snd].
      set (p := Z.to_nat za). set (q := Z.to_nat zb).
      assert (Hpq : p <> q) by (unfold p, q; lia).
      replace (p =? q) with false by (symmetry; apply Nat.eqb_neq; exact Hpq). rewrite andb_false_r.
      destruct (@index_some c p) as (k & i & s & G); [unfold p; lia|].
      destruct (@index_some c q) as (k' & i' & s' & G'); [unfold q; lia|].
      assert (Hk : k <> k') by (intros ->; apply Hpq; exact (index_inj _ _ HC G G')).
      unfold ready_index_load. rewrite G, G'. unfold bind at 1. unfold bload at 1. unfold bind at 1. unfold tk_lift at 1. cbn [fst snd].
      assert (HLo1 := Hload s (fst x1)). destruct (load s (fst x1)) as [w1 [m1| |]]; auto.
      unfold bind at 1. unfold tk_emit at 1. unfold ret at 1. cbv beta iota. cbn [fst snd].
      unfold bind at 1. unfold bload at 1. unfold bind at 1. unfold tk_lift at 1. cbn [fst snd].
      assert (HLo2 := Hload s' w1). destruct (load s' w1) as [w2 [m2| |]]; auto.
      unfold bind, tk_emit, ret. cbn [fst snd tk_next tk_log]. rewrite Ex. split; [reflexivity|].
      assert (R1 := index_ready _ HC G). assert (R2 := index_ready _ HC G').
      exists [BLoad i m1; BLoad i' m2]. destruct (le m1 m2) eqn:El.
      + exists k, i, s. split; [reflexivity|]. split; [exact G|]. eapply pk_first; eauto.
      + exists k', i', s'. split; [reflexivity|]. split; [exact G'|]. eapply pk_second; eauto.
  Qed.

  (** The chosen index points at the chosen endpoint. *)
  Definition at_index (c : cache (K := K) ts) (idx : option nat) (held : option nat) : Prop :=
    match held with
    | Some i => exists n k s, idx = Some n /\ get_ready_index c n = Some (k, (i, s))
    | None => idx = None
    end.

  Lemma same_index (c c1 : cache (K := K) ts) n k i s :
    map (rsig (inj := inj) (svc := svc)) (rc_ready c1) = map (rsig (inj := inj) (svc := svc)) (rc_ready c) ->
    get_ready_index c n = Some (k, (i, s)) -> exists s1, get_ready_index c1 n = Some (k, (i, s1)).
  Proof.
    intros E G. unfold get_ready_index in *.
    destruct (nth_error (rc_ready c) n) as [[k1 [s1 t1]]|] eqn:En; [|discriminate]. injection G as -> ->.
    apply (map_nth_error (rsig (inj := inj) (svc := svc))) in En. rewrite <- E in En. cbn in En.
    destruct (nth_error (rc_ready c1) n) as [[k2 [[i2 s2] t2]]|] eqn:E2.
    - apply (map_nth_error (rsig (inj := inj) (svc := svc))) in E2. cbn in E2.
      assert (X := eq_trans (eq_sym E2) En). injection X as -> -> ->. eauto.
    - exfalso. apply nth_error_None in E2. assert (X : nth_error (map (rsig (inj := inj) (svc := svc)) (rc_ready c1)) n <> None) by (intros X; assert (Y := eq_trans (eq_sym En) X); discriminate).
      apply nth_error_Some in X. rewrite map_length in X. lia.
  Qed.

  (** The selection loop. *)
  Lemma loop_ok n : forall d c a idx g x,
    CI c (tk_next (snd x)) a -> (Z.of_nat (tk_next (snd x)) < 2 ^ 64)%Z ->
    match balance_loop keq (svc := ts) bd bn debug bl le n d c idx g x with
    | (x1, Val (s1, p)) =>
        tk_next (snd x1) = tk_next (snd x) /\ bl_disc s1 = d /\
        exists l o b, adds x l x1 /\ CI (bl_cache s1) (tk_next (snd x1)) b /\
          at_index (bl_cache s1) (bl_index s1) o /\ p = answer_of o /\
          match idx with
          | None => chooses keq le a l o b
          | Some q =>
              match get_ready_index c q with
              | None => chooses keq le a l o b
              | Some (k, (i, _)) =>
                  (o = Some i /\ check_answer keq inj a k l (Ok true) b) \/
                  exists l1 v a1 l2, check_answer keq inj a k l1 v a1 /\ v <> Ok true /\ chooses keq le a1 l2 o b /\ l = l1 ++ l2
              end
          end
    | (_, Panic) => pan
    | (_, Diverge) =>
        dv \/ n < ready_len c + match idx with
                               | Some q => match get_ready_index c q with Some _ => 0 | None => 1 end
                               | None => 1
                               end
    end.
  Proof.
    induction n as [|n IH]; intros d c a idx g x HC HF.
    { cbn [balance_loop]. right. destruct idx as [q|]; [|lia].
      destruct (get_ready_index c q) eqn:G; [|lia]. unfold get_ready_index in G. unfold ready_len.
      destruct (rc_ready c); [destruct q; discriminate|cbn; lia]. }
    (* picking, then checking what was picked *)
    assert (SEL : forall c a x, CI c (tk_next (snd x)) a -> (Z.of_nat (tk_next (snd x)) < 2 ^ 64)%Z ->
      match ('(g1, o) <- p2c_ready_index (svc := ts) bn debug bl le c g ;;
          match o with
          | None =>
              if debug && negb (ready_len c =? 0) then panic
              else ret (BalSt d c None g1, Pending)
          | Some i => balance_loop keq (svc := ts) bd bn debug bl le n d c (Some i) g1
          end) x with
      | (x1, Val (s1, p)) =>
          tk_next (snd x1) = tk_next (snd x) /\ bl_disc s1 = d /\
          exists l o b, adds x l x1 /\ CI (bl_cache s1) (tk_next (snd x1)) b /\
            at_index (bl_cache s1) (bl_index s1) o /\ p = answer_of o /\ chooses keq le a l o b
      | (_, Panic) => pan
      | (_, Diverge) => dv \/ n < ready_len c
      end).
    { clear c a x HC HF idx. intros c a x HC HF. unfold bind at 1.
      generalize (@p2c_ok c a g x HC HF).
      destruct (p2c_ready_index (svc := ts) bn debug bl le c g x) as [x1 [[g1 [q|]]| |]]; auto.
      - intros (En & l & k & i & s & A & G & PK).
        assert (HC1 : CI c (tk_next (snd x1)) a) by (rewrite En; exact HC).
        generalize (@IH d c a (Some q) g1 x1 HC1 ltac:(lia)).
        destruct (balance_loop keq (svc := ts) bd bn debug bl le n d c (Some q) g1 x1) as [x2 [[s1 p]| |]]; auto.
        2:{ rewrite G, Nat.add_0_r. auto. }
        rewrite G. intros (En2 & Ed & l2 & o & b & A2 & HC2 & AI & -> & [[-> CK]|(l3 & v & a1 & l4 & CK & Hv & CH & ->)]).
        + split; [lia|]. split; [exact Ed|]. exists (l ++ l2), (Some i), b. split; [exact (adds_app A A2)|].
          split; [exact HC2|]. split; [exact AI|]. split; [reflexivity|]. eapply ch_ok; eauto.
        + split; [lia|]. split; [exact Ed|]. exists (l ++ l3 ++ l4), o, b. split; [exact (adds_app A A2)|].
          split; [exact HC2|]. split; [exact AI|]. split; [reflexivity|]. eapply ch_again; eauto.
      - intros (En & El & E0). rewrite E0. cbn [Nat.eqb negb]. rewrite andb_false_r. unfold ret.
        split; [exact En|]. split; [reflexivity|]. exists [], None, a. split; [exact El|]. cbn [bl_cache bl_index at_index].
        split; [rewrite En; exact HC|]. split; [reflexivity|]. split; [reflexivity|]. constructor. exact (ready_nil HC E0). }
    cbn [balance_loop]. destruct idx as [q|].
    2:{ generalize (SEL c a x HC HF). lazymatch goal with |- context [match ?t with _ => _ end] => destruct t as [x1 [[s1 p]| |]] end; auto.
        intros [H|H]; [auto|right; lia]. }
    unfold bind at 1.
    generalize (@check_index_ok _ K _ _ _ _ keq _ inj VS VR pan dv Hready c q a x HC).
    destruct (check_ready_index keq c q x) as [x1 [[c1 v]| |]]; auto.
    intros (En & l & b & A & HC1 & CK).
    destruct (get_ready_index c q) as [[k [i s]]|] eqn:G; cbn [option_map fst] in CK.
    - destruct CK as [CK LEN].
      destruct v as [[|]|e].
      + unfold ret. split; [exact En|]. split; [reflexivity|]. exists l, (Some i), b. split; [exact A|].
        cbn [bl_cache bl_index at_index]. split; [exact HC1|]. split; [|auto].
        destruct (@same_index c c1 q k i s LEN G) as (s1 & G1). exists q, k, s1. auto.
      + generalize (SEL c1 b x1 HC1 ltac:(lia)).
        lazymatch goal with |- context [match ?t with _ => _ end] => destruct t as [x2 [[s1 p]| |]] end; auto.
        * intros (En2 & Ed & l2 & o & b2 & A2 & HC2 & AI & -> & CH). split; [lia|]. split; [exact Ed|].
          exists (l ++ l2), o, b2. split; [exact (adds_app A A2)|]. split; [exact HC2|]. split; [exact AI|]. split; [reflexivity|].
          right. exists l, (Ok false), b, l2. split; [exact CK|]. split; [discriminate|]. auto.
        * intros [H|H]; [auto|]. right. unfold ready_len in *. lia.
      + generalize (SEL c1 b x1 HC1 ltac:(lia)).
        lazymatch goal with |- context [match ?t with _ => _ end] => destruct t as [x2 [[s1 p]| |]] end; auto.
        * intros (En2 & Ed & l2 & o & b2 & A2 & HC2 & AI & -> & CH). split; [lia|]. split; [exact Ed|].
          exists (l ++ l2), o, b2. split; [exact (adds_app A A2)|]. split; [exact HC2|]. split; [exact AI|]. split; [reflexivity|].
          right. exists l, (Er e), b, l2. split; [exact CK|]. split; [discriminate|]. auto.
        * intros [H|H]; [auto|]. right. unfold ready_len in *. lia.
    - destruct CK as (-> & -> & -> & ->).
      generalize (SEL c a x1 HC1 ltac:(lia)).
      lazymatch goal with |- context [match ?t with _ => _ end] => destruct t as [x2 [[s1 p]| |]] end; auto.
      + intros (En2 & Ed & l2 & o & b2 & A2 & HC2 & AI & -> & CH). split; [lia|]. split; [exact Ed|].
        exists l2, o, b2. split; [exact (adds_app A A2)|]. auto.
      + intros [H|H]; [auto|]. right. lia.
  Qed.

  (** Selecting hands out no numbers, not even when it panics. *)
  Definition keeps {A} (m : M TW A) : Prop := forall x, tk_next (snd (fst (m x))) = tk_next (snd x).
  Lemma keeps_bind A B (m : M TW A) (f : A -> M TW B) : keeps m -> (forall v, keeps (f v)) -> keeps (bind m f).
  Proof.
    intros Hm Hf x. unfold bind. specialize (Hm x). destruct (m x) as [x1 [v| |]]; cbn in *; auto.
    rewrite (Hf v x1). exact Hm.
  Qed.
  Lemma keeps_ret A (v : A) : keeps (ret v). Proof. intros x. reflexivity. Qed.
  Lemma keeps_panic A : keeps (@panic TW A). Proof. intros x. reflexivity. Qed.
  Lemma keeps_diverge A : keeps (@diverge TW A). Proof. intros x. reflexivity. Qed.
  Lemma keeps_emit e : keeps (tk_emit e). Proof. intros x. reflexivity. Qed.
  Lemma keeps_lift A (m : M W A) : keeps (tk_lift m).
  Proof. intros x. unfold tk_lift. destruct (m (fst x)); reflexivity. Qed.
  Lemma keeps_drop s : keeps (modify (drop_svc ts s)). Proof. intros x. reflexivity. Qed.
  Hint Resolve keeps_ret keeps_panic keeps_diverge keeps_emit keeps_lift keeps_drop : keeps.

  Ltac kp := repeat first
    [ solve [auto with keeps]
    | apply keeps_bind; intros
    | match goal with |- keeps (match ?t with _ => _ end) => destruct t end
    | match goal with |- keeps (if ?t then _ else _) => destruct t end ].

  Lemma keeps_ready s : keeps (poll_ready ts s).
  Proof. cbn. kp. Qed.
  Lemma keeps_check (c : cache (K := K) ts) n : keeps (check_ready_index keq (svc := ts) c n).
  Proof. unfold check_ready_index. destruct (nth_error (rc_ready c) n) as [[k [s t]]|]; [|kp]. apply keeps_bind; [apply keeps_ready|]. intros. kp. Qed.
  Lemma keeps_p2c (c : cache (K := K) ts) g : keeps (p2c_ready_index (svc := ts) bn debug bl le c g).
  Proof.
    unfold p2c_ready_index, sample_floyd2, next_range, ready_index_load, bload, bnext. kp.
  Qed.
  Lemma keeps_loop n d : forall c idx g, keeps (balance_loop keq (svc := ts) bd bn debug bl le n d c idx g).
  Proof.
    induction n as [|n IH]; intros c idx g; [apply keeps_diverge|]. cbn [balance_loop].
    assert (SEL : forall c : cache (K := K) ts, keeps ('(g1, o) <- p2c_ready_index (svc := ts) bn debug bl le c g ;;
          match o with
          | None =>
              if debug && negb (ready_len c =? 0) then panic
              else ret (BalSt d c None g1, Pending)
          | Some i => balance_loop keq (svc := ts) bd bn debug bl le n d c (Some i) g1
          end)).
    { intros c'. apply keeps_bind; [apply keeps_p2c|]. intros [g1 [q|]]; [apply IH|]. kp. }
    destruct idx as [q|]; [|apply SEL]. apply keeps_bind; [apply keeps_check|].
    intros [c1 [[|]|e]]; [apply keeps_ret|apply SEL|apply SEL].
  Qed.

  Context (fuel : nat).
  Notation bal := (tbalance keq svc D sched next_u64 debug load le fuel).
  Notation fits := (@fits W K Req Resp Err DErr Metric).

  (** State of the balancer against the specification; [p] is the caller's phase. *)
  Definition BInv (s : st bal) (nx : nat) (a : slots K) (held : option nat) (p : phase) : Prop :=
    match p with
    | Dead => True
    | _ => VD (bl_disc s) /\ CI (bl_cache s) nx a /\ at_index (bl_cache s) (bl_index s) held /\
           (p = Primed -> held <> None)
    end.

  Lemma balance_ready_ok (s : st bal) a held p x :
    BInv s (tk_next (snd x)) a held p -> p <> Dead ->
    match poll_ready bal s x with
    | (x1, Val (s1, v)) => fits x1 ->
        exists l held1 a1, adds x l x1 /\
          polls keq le a (tk_next (snd x)) held l v held1 a1 (tk_next (snd x1)) /\
          BInv s1 (tk_next (snd x1)) a1 held1 (phase_after v)
    | (x1, Panic) => fits x1 -> pan
    | (x1, Diverge) => fits x1 -> dv \/ exists l, adds x l x1 /\ only_changes l = Some fuel
    end.
  Proof.
    intros HB Hp. assert (HB' : VD (bl_disc s) /\ CI (bl_cache s) (tk_next (snd x)) a /\ at_index (bl_cache s) (bl_index s) held).
    { destruct p; [| |congruence]; destruct HB as (A & B & C & _); auto. }
    destruct HB' as (Hd & HC & HI). clear HB.
    destruct s as [d0 c0 i0 g0]. cbn [bl_disc bl_cache bl_index bl_rng] in *.
    assert (E : poll_ready bal (BalSt d0 c0 i0 g0) x =
      ('(d1, c1, e) <- update_from_discover keq (svc := ts) bd fuel d0 c0 ;;
       match e with
       | Some x => ret (BalSt d1 c1 i0 g0, Ready (Er (inr x)))
       | None =>
           c2 <- promote_loop keq (svc := ts) (tsched sched) debug (S (length (rc_pending c1))) c1 ;;
           balance_loop keq (svc := ts) bd bn debug bl le (length (rc_ready c2) + 3) d1 c2 i0 g0
       end) x) by reflexivity.
    rewrite E. clear E. unfold bind at 1.
    generalize (@update_ok fuel d0 c0 a x Hd HC).
    destruct (update_from_discover keq (svc := ts) bd fuel d0 c0 x) as [x1 [[[d1 c1] e]| |]]; auto.
    intros (Hd1 & ln & b & A1 & N1 & HC1). destruct e as [e|].
    { unfold ret. intros _. exists ln, None, b. split; [exact A1|]. split; [apply po_discovery_failed; exact N1|exact I]. }
    unfold bind at 1.
    generalize (@promote_ok (S (length (rc_pending c1))) c1 b x1 ltac:(lia) HC1).
    destruct (promote_loop keq (svc := ts) (tsched sched) debug (S (length (rc_pending c1))) c1 x1) as [x2 [c2| |]]; auto.
    intros (En2 & lp & c & A2 & P2 & HC2).
    generalize (@keeps_loop (length (rc_ready c2) + 3) d1 c2 i0 g0 x2).
    generalize (@loop_ok (length (rc_ready c2) + 3) d1 c2 c i0 g0 x2 HC2).
    destruct (balance_loop keq (svc := ts) bd bn debug bl le (length (rc_ready c2) + 3) d1 c2 i0 g0 x2) as [x3 [[s1 v]| |]];
      cbn [fst]; unfold BalanceSpec.fits; intros HL HK HF; rewrite HK in HF; specialize (HL HF); auto.
    2:{ destruct HL as [H|H]; [auto|]. exfalso. unfold ready_len in H.
        destruct i0 as [q|]; [destruct (get_ready_index c2 q)|]; lia. }
    destruct HL as (_ & Ed & lc & o & dd & A3 & HC3 & AI & -> & HH).
    assert (PH : forall s2, at_index (bl_cache s2) (bl_index s2) o -> CI (bl_cache s2) (tk_next (snd x3)) dd -> bl_disc s2 = d1 ->
              BInv s2 (tk_next (snd x3)) dd o (phase_after (answer_of (Err := Err) (DErr := DErr) o))).
    { intros s2 X1 X2 X3. assert (Hd2 : VD (bl_disc s2)) by exact (eq_ind_r VD Hd1 X3). unfold BInv. destruct o; cbn [answer_of phase_after];
        (split; [exact Hd2|]); (split; [exact X2|]); (split; [exact X1|]); congruence. }
    rewrite En2 in HK. rewrite HK in *.
    assert (CH : chooses keq le c lc o dd -> exists l held1 a1, adds x l x3 /\
          polls keq le a (tk_next (snd x)) held l (answer_of o) held1 a1 (tk_next (snd x1)) /\
          BInv s1 (tk_next (snd x1)) a1 held1 (phase_after (answer_of (Err := Err) (DErr := DErr) o))).
    { intros H. exists (ln ++ lp ++ lc), o, dd. split; [exact (adds_app A1 (adds_app A2 A3))|]. split; [|apply PH; auto].
      eapply po_chosen; eauto. }
    destruct i0 as [q|]; [|apply CH; exact HH].
    destruct (get_ready_index c2 q) as [[k [i si]]|] eqn:G; [|apply CH; exact HH].
    assert (Hh : exists h, held = Some h) by (destruct held; [eauto|discriminate]). destruct Hh as (h & ->).
    destruct HH as [[-> CK]|(l1 & v & a1 & l2 & CK & Hv & CH2 & ->)].
    - exists (ln ++ lp ++ lc), (Some i), dd. split; [exact (adds_app A1 (adds_app A2 A3))|]. split; [|apply PH; auto].
      eapply po_kept; eauto. exact (index_ready _ HC2 G).
    - exists (ln ++ lp ++ l1 ++ l2), o, dd. split; [exact (adds_app A1 (adds_app A2 A3))|]. split; [|apply PH; auto].
      eapply po_lost; eauto.
  Qed.

  Lemma balance_call_ok (s : st bal) a held x r :
    BInv s (tk_next (snd x)) a held Primed ->
    match call bal s r x with
    | (x1, Val (s1, f)) =>
        exists k i l j f0 a1, held = Some i /\ in_ready a k = Some i /\ f = Some (j, f0) /\
          adds x l x1 /\ call_answer keq inj a k r l j a1 /\ tk_next (snd x) <= tk_next (snd x1) /\
          BInv s1 (tk_next (snd x1)) a1 None Idle
    | (x1, Panic) => pan
    | (x1, Diverge) => dv
    end.
  Proof.
    intros (Hd & HC & HI & Hh). destruct held as [i|]; [|specialize (Hh eq_refl); congruence].
    destruct HI as (n & k & si & En & G).
    destruct s as [d0 c0 i0 g0]. cbn [bl_disc bl_cache bl_index bl_rng] in *. subst i0.
    assert (E : call bal (BalSt d0 c0 (Some n) g0) r x =
      ('(c1, f) <- call_ready_index keq (svc := ts) c0 n r ;; ret (BalSt d0 c1 None g0, Some f)) x) by reflexivity.
    rewrite E. clear E. unfold bind at 1.
    generalize (@call_index_ok _ K _ _ _ _ keq _ inj VS VR pan dv Hcall c0 n r a x HC).
    destruct (call_ready_index keq (svc := ts) c0 n r x) as [x1 [[c1 f]| |]]; auto.
    2:{ rewrite G. intros [H|H]; [exact H|discriminate]. }
    rewrite G. cbn [option_map fst]. intros (Ej & Ex & k1 & l & b & Ek & A & HC1 & CA). injection Ek as <-.
    unfold ret. destruct f as [j f0]. exists k, i, l, j, f0, b. split; [reflexivity|]. split; [exact (index_ready _ HC G)|].
    split; [reflexivity|]. split; [exact A|]. split; [exact CA|]. split; [lia|]. unfold BInv. cbn [bl_disc bl_cache bl_index at_index].
    split; [exact Hd|]. split; [exact HC1|]. split; [reflexivity|discriminate].
  Qed.

  Lemma balance_run_ok ops : forall p (s : st bal) a held x,
    BInv s (tk_next (snd x)) a held p ->
    bal_history pan dv a held x (run_svc bal p s x (tk_ops ops)).
  Proof.
    induction ops as [|[g o] ops IH]; intros p s a held x HB; [exact I|]. cbn [tk_ops map fst snd run_svc].
    assert (SK : snd (tk_env g x) = snd x /\ (fits (tk_env g x) -> snd (tk_env g x) = snd (tk_env g x) /\
              bal_history pan dv a held (tk_env g x) (run_svc bal p s (tk_env g x) (tk_ops ops)))).
    { split; [reflexivity|]. intros _. split; [reflexivity|]. apply IH. exact HB. }
    assert (HB0 : BInv s (tk_next (snd (tk_env g x))) a held p) by exact HB.
    destruct o as [|r].
    - destruct p; try exact SK;
        (generalize (@balance_ready_ok s a held _ _ HB0 ltac:(discriminate));
         destruct (poll_ready bal s (tk_env g x)) as [x1 [[s1 v]| |]]; cbn [bal_history]; intros H; (split; [reflexivity|]); auto;
         intros HF; destruct (H HF) as (l & h1 & a1 & A & B & C); exists l, h1, a1; split; [exact A|]; split; [exact B|]; apply IH; exact C).
    - destruct p; try exact SK.
      generalize (@balance_call_ok s a held _ r HB0).
      destruct (call bal s r (tk_env g x)) as [x1 [[s1 f]| |]]; cbn [bal_history]; intros H; (split; [reflexivity|]); auto.
      intros _. destruct H as (k & i & l & j & f0 & a1 & A & B & C & E & F & G & HB1).
      exists k, i, l, j, f0, a1. repeat (split; [assumption|]). apply IH. exact HB1.
  Qed.

  Lemma BInv_new d g nx : VD d -> BInv (tbalance_new keq svc D sched next_u64 debug load le fuel d g) nx slots0 None Idle.
  Proof.
    intros Hd. split; [exact Hd|]. split; [apply CInv_new|]. split; [reflexivity|discriminate].
  Qed.
End BalOk.
