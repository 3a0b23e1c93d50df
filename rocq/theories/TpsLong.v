(** The budget in the long run: a bound on all withdrawals granted, from the bound
    on each. *)
From Verif Require Import Base Tps TpsSpec TpsProof TpsTop.
Set Implicit Arguments.
Local Open Scope Z_scope.

Section Long.
  Variable c : tps_cfg.
  Hypothesis S : sane c.
  Let w := t_window c.

  (** Every withdrawal in the history was covered. *)
  Fixpoint covered (h : list entry) : Prop :=
    match h with
    | [] => True
    | EDep t :: h' => covered h'
    | EWd t :: h' =>
        covered h' /\ exists recent older, h' = recent ++ older /\ (forall e, In e recent -> t - when e < 11 * w) /\ (forall e, In e older -> t - when e > 5 * w) /\
          t_withdraw c <= balance c recent
    end.
  Lemma covered_suffix a : forall b, covered (a ++ b) -> covered b.
  Proof.
    induction a as [|[t|t] a IH]; intros b H; [exact H|exact (IH b H)|]. exact (IH b (proj1 H)).
  Qed.

  (** Times at which withdrawals were granted, far apart. *)
  Fixpoint apart (ch : list Z) : Prop :=
    match ch with [] => True | t :: ch' => (forall u, In u ch' -> u < t - 5 * w) /\ apart ch' end.
  Definition near (t : Z) (e : entry) : bool := (when e <=? t) && (t <? when e + 11 * w).
  Fixpoint spread (ch : list Z) (h : list entry) : Z :=
    match ch with [] => 0 | t :: ch' => deps (filter (near t) h) + spread ch' h end.

  Lemma deps_filter_le f (h : list entry) : 0 <= deps (filter f h) <= deps h.
  Proof. induction h as [|[t|t] h IH]; cbn [filter deps]; [lia| |]; destruct (f _); cbn [deps]; lia. Qed.
  Lemma spread_app ch a b : spread ch (a ++ b) = spread ch a + spread ch b.
  Proof. induction ch as [|t ch IH]; cbn [spread]; [reflexivity|]. rewrite filter_app, deps_app, IH. lia. Qed.
  Lemma spread_pos ch h : 0 <= spread ch h.
  Proof. induction ch as [|t ch IH]; cbn [spread]; [lia|]. pose proof (deps_filter_le (near t) h). lia. Qed.

  (** *** A chain of such times pays for all withdrawals. *)
  Fixpoint newest_first (h : list entry) : Prop :=
    match h with [] => True | e :: h' => (forall x, In x h' -> when x <= when e) /\ newest_first h' end.
  Lemma newest_suffix a : forall b, newest_first (a ++ b) -> newest_first b.
  Proof. induction a as [|e a IH]; intros b H; [exact H|]. exact (IH b (proj2 H)). Qed.


  Lemma deps_all f (h : list entry) : (forall e, In e h -> f e = true) -> deps (filter f h) = deps h.
  Proof.
    induction h as [|e h IH]; intros H; [reflexivity|]. cbn [filter]. rewrite (H e (or_introl eq_refl)).
    specialize (IH (fun x Hx => H x (or_intror Hx))). destruct e; cbn [deps]; lia.
  Qed.
  Lemma spread_cons ch e h : spread ch (e :: h) = spread ch [e] + spread ch h.
  Proof. change (e :: h) with ([e] ++ h). apply spread_app. Qed.
  Lemma spread_wd ch t : spread ch [EWd t] = 0.
  Proof. induction ch as [|u ch IH]; cbn [spread filter]; [reflexivity|]. destruct (near u (EWd t)); cbn [deps]; lia. Qed.

  Lemma covered_chain : forall n h, (length h <= n)%nat -> covered h -> newest_first h ->
    exists ch, apart ch /\ (forall t, In t ch -> In (EWd t) h) /\
      t_withdraw c * wds h <= Z.of_nat (length ch) * t_reserve c + t_deposit c * spread ch h.
  Proof.
    induction n as [|n IH]; intros h L C N.
    { destruct h; [|cbn in L; lia]. exists []. cbn. split; [auto|]. split; [intros ? []|lia]. }
    destruct h as [|[t|t] h].
    - exists []. cbn. split; [auto|]. split; [intros ? []|lia].
    - cbn [length] in L. destruct (IH h ltac:(lia) C (proj2 N)) as (ch & A & I & B).
      exists ch. split; [exact A|]. split; [intros u Hu; right; auto|].
      cbn [wds]. rewrite spread_cons.
      pose proof (spread_pos ch [EDep t]). assert (S3 := sane_deposit S). nia.
    - destruct C as (C & rec & old & E & F & G & D). cbn [length] in L. subst h.
      assert (Lo : (length old <= n)%nat) by (rewrite app_length in L; lia).
      destruct (IH old Lo (covered_suffix _ _ C) (newest_suffix _ _ (proj2 N))) as (ch & A & I & B).
      exists (t :: ch). split; [|split].
      + split; [|exact A]. intros u Hu. specialize (G _ (I u Hu)). cbn [when] in G. lia.
      + intros u [<-|Hu]; [left; reflexivity|right; apply in_or_app; right; auto].
      + cbn [wds]. change (length (t :: ch)) with (Datatypes.S (length ch)). rewrite Nat2Z.inj_succ.
        rewrite spread_cons, spread_wd, spread_app. cbn [spread]. rewrite wds_app.
        pose proof (spread_pos ch rec). pose proof (deps_filter_le (near t) old).
        assert (K : deps (filter (near t) rec) = deps rec).
        { apply deps_all. intros e He. unfold near. apply andb_true_intro. split.
          - apply Z.leb_le. apply (proj1 N). apply in_or_app. auto.
          - apply Z.ltb_lt. specialize (F e He). lia. }
        unfold balance in D. assert (S3 := sane_deposit S). assert (S4 := sane_withdraw S). nia.
  Qed.

  (** *** Each deposit is counted at most three times. *)
  Fixpoint hits (lo hi : Z) (ch : list Z) : Z :=
    match ch with [] => 0 | t :: ch' => (if (lo <=? t) && (t <? hi) then 1 else 0) + hits lo hi ch' end.
  Lemma hits_upto lo hi hi' ch : (forall u, In u ch -> u < hi') -> hits lo hi ch <= hits lo hi' ch.
  Proof.
    induction ch as [|t ch IH]; intros H; cbn [hits]; [lia|].
    specialize (IH (fun u Hu => H u (or_intror Hu))). specialize (H t (or_introl eq_refl)).
    destruct (Z.leb_spec lo t); cbn [andb]; [|lia].
    destruct (Z.ltb_spec t hi), (Z.ltb_spec t hi'); lia.
  Qed.
  Lemma hits_few ch : apart ch -> forall (k : nat) lo hi, hi <= lo + Z.of_nat k * (5 * w) -> hits lo hi ch <= Z.of_nat k.
  Proof.
    assert (Hw : 0 < w) by exact (sane_window S).
    induction ch as [|t ch IH]; intros A k lo hi H; cbn [hits]; [lia|]. destruct A as [A1 A2].
    destruct (Z.leb_spec lo t); cbn [andb]; [|specialize (IH A2 k lo hi H); lia].
    destruct (Z.ltb_spec t hi); [|specialize (IH A2 k lo hi H); lia].
    destruct k as [|k]; [cbn in H; lia|].
    pose proof (@hits_upto lo hi (t - 5 * w) ch A1).
    specialize (IH A2 k lo (t - 5 * w) ltac:(lia)). lia.
  Qed.
  Lemma spread_hits ch t : spread ch [EDep t] = hits t (t + 11 * w) ch.
  Proof.
    induction ch as [|u ch IH]; cbn [spread hits filter]; [reflexivity|]. rewrite IH. unfold near. cbn [when].
    destruct (_ && _); reflexivity.
  Qed.
  Lemma spread_bound ch h : apart ch -> spread ch h <= 3 * deps h.
  Proof.
    intros A. assert (Hw : 0 < w) by exact (sane_window S).
    induction h as [|[t|t] h IH].
    - assert (E : forall ch, spread ch [] = 0) by (clear; intros ch; induction ch as [|u ch E]; [reflexivity|exact E]). rewrite E. cbn. lia.
    - rewrite spread_cons, spread_hits. cbn [deps].
      pose proof (@hits_few ch A 3 t (t + 11 * w) ltac:(lia)). lia.
    - rewrite spread_cons, spread_wd. cbn [deps]. lia.
  Qed.
  Lemma apart_short ch t0 t1 : apart ch -> (forall u, In u ch -> t0 <= u <= t1) -> t0 <= t1 ->
    Z.of_nat (length ch) <= (t1 - t0) / (5 * w) + 1.
  Proof.
    assert (Hw : 0 < w) by exact (sane_window S).
    intros A H Ht.
    assert (K : forall ch t1, apart ch -> (forall u, In u ch -> t0 <= u <= t1) -> ch <> [] -> (Z.of_nat (length ch) - 1) * (5 * w) <= t1 - t0).
    { clear - Hw. induction ch as [|t ch IH]; intros t1 A H N; [contradiction|]. destruct A as [A1 A2].
      change (length (t :: ch)) with (Datatypes.S (length ch)). rewrite Nat2Z.inj_succ.
      pose proof (H t (or_introl eq_refl)). destruct ch as [|u ch]; [cbn; lia|].
      specialize (IH (t - 5 * w) A2). assert (K : forall v, In v (u :: ch) -> t0 <= v <= t - 5 * w).
      { intros v Hv. specialize (H v (or_intror Hv)). specialize (A1 v Hv). lia. }
      specialize (IH K ltac:(discriminate)). nia. }
    destruct ch as [|t ch]; [assert (0 <= (t1 - t0) / (5 * w)) by (apply Z.div_pos; lia); change (Z.of_nat (length (@nil Z))) with 0; lia|].
    specialize (K (t :: ch) t1 A H ltac:(discriminate)).
    assert (Z.of_nat (length (t :: ch)) - 1 <= (t1 - t0) / (5 * w)); [|lia].
    apply Z.div_le_lower_bound; lia.
  Qed.

  (** *** From the run. *)
  Lemma decided_covered ops : forall h ans t0, covered h -> newest_first h -> (forall e, In e h -> when e <= t0) -> in_order t0 ops ->
    all_decided c h ops ans -> covered (history ops ans ++ h) /\ newest_first (history ops ans ++ h).
  Proof.
    induction ops as [|[t o] ops IH]; intros h ans t0 C N H O D.
    - destruct ans; [|contradiction]. auto.
    - destruct O as [O1 O2]. cbn [all_decided] in D. destruct o.
      + destruct ans as [|[[a|]| |] ans]; try contradiction. cbn [history entry_of]. rewrite <- app_assoc. cbn [app].
        apply (IH _ _ t); auto.
        * split; [|exact N]. cbn [when]. intros x Hx. specialize (H x Hx). lia.
        * intros e [<-|He]; [cbn; lia|]. specialize (H e He). lia.
      + destruct ans as [|[[a|]| |] ans]; try contradiction. destruct D as [D1 D2]. cbn [history]. rewrite <- app_assoc.
        destruct a; cbn [entry_of app] in *.
        * apply (IH _ _ t); auto.
          -- split; [exact C|]. destruct D1 as (rec & old & E & F & G & K). exists rec, old.
             split; [exact E|]. split; [exact F|]. split; [exact G|]. apply K. reflexivity.
          -- split; [|exact N]. cbn [when]. intros x Hx. specialize (H x Hx). lia.
          -- intros e [<-|He]; [cbn; lia|]. specialize (H e He). lia.
        * apply (IH _ _ t); auto. intros e He. specialize (H e He). lia.
  Qed.
  Lemma order_in t0 ops : in_order t0 ops -> forall t o, In (t, o) ops -> t0 <= t.
  Proof.
    revert t0. induction ops as [|[t1 o1] ops IH]; intros t0 H t o Hin; [contradiction|]. destruct H as [H1 H2].
    destruct Hin as [E|Hin]; [injection E as <- <-; exact H1|]. specialize (IH _ H2 _ _ Hin). lia.
  Qed.
  Lemma history_in ops : forall ans e, In e (history ops ans) -> exists o, In (when e, o) ops.
  Proof.
    induction ops as [|[t o] ops IH]; intros ans e H; [contradiction|]. destruct ans as [|a ans]; [contradiction|].
    cbn [history] in H. apply in_app_or in H as [H|H].
    - destruct (IH _ _ H) as (o' & K). exists o'. right. exact K.
    - exists o. left. destruct o, a as [[[|]|]| |]; cbn in H; try contradiction; destruct H as [<-|[]]; reflexivity.
  Qed.

  Lemma budget_long_run t0 t1 ops : in_order t0 ops -> (forall t o, In (t, o) ops -> t <= t1) -> t0 <= t1 -> fits c ops ->
    let h := history ops (tps_run c (tps_start t0) ops) in
    t_withdraw c * wds h <= ((t1 - t0) / (5 * t_window c) + 1) * t_reserve c + 3 * t_deposit c * deps h.
  Proof.
    intros O L Ht F h.
    assert (A := @run_decided c S ops 0 [] (tps_start t0) t0 (start_inv S t0)).
    specialize (A ltac:(intros x []) (Z.le_refl _) O F).
    apply (@decided_covered ops [] _ t0) in A; [|exact I|exact I|intros ? []|exact O].
    rewrite app_nil_r in A. fold h in A. destruct A as [A1 A2].
    destruct (@covered_chain (length h) h (Nat.le_refl _) A1 A2) as (ch & Ap & Hi & B).
    assert (Hb : forall u, In u ch -> t0 <= u <= t1).
    { intros u Hu. specialize (Hi u Hu). apply history_in in Hi as (o & Ho). cbn [when] in Ho.
      split; [exact (@order_in _ _ O _ _ Ho)|exact (L _ _ Ho)]. }
    pose proof (@apart_short _ _ _ Ap Hb Ht). pose proof (@spread_bound _ h Ap).
    assert (S3 := sane_deposit S). assert (S2 := sane_reserve S). fold w. pose proof (deps_pos h). nia.
  Qed.
End Long.
