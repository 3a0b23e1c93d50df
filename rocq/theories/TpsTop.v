(** The theorems on the retry budget used by one thread. *)
From Verif Require Import Base Tps TpsSpec TpsProof.
Set Implicit Arguments.
Local Open Scope Z_scope.

  Lemma deps_within a now recent older : (forall e, In e recent -> now - when e < a) ->
    deps recent <= deps (within a now (recent ++ older)).
  Proof.
    intros H. unfold within. rewrite filter_app, deps_app. assert (E : filter (fun e => now - when e <? a) recent = recent).
    { clear - H. induction recent as [|e r IH]; [reflexivity|]. cbn [filter]. assert (X := H e (or_introl eq_refl)).
      destruct (Z.ltb_spec (now - when e) a); [|lia]. f_equal. apply IH. intros; apply H; right; assumption. }
    rewrite E. pose proof (deps_pos (filter (fun e => now - when e <? a) older)). lia.
  Qed.
  Lemma wds_within a now recent older : (forall e, In e recent -> now - when e < a) ->
    wds recent <= wds (within a now (recent ++ older)).
  Proof.
    intros H. unfold within. rewrite filter_app, wds_app. assert (E : filter (fun e => now - when e <? a) recent = recent).
    { clear - H. induction recent as [|e r IH]; [reflexivity|]. cbn [filter]. assert (X := H e (or_introl eq_refl)).
      destruct (Z.ltb_spec (now - when e) a); [|lia]. f_equal. apply IH. intros; apply H; right; assumption. }
    rewrite E. pose proof (wds_pos (filter (fun e => now - when e <? a) older)). lia.
  Qed.
  Lemma within_recent a now recent older : (forall e, In e older -> now - when e > a) ->
    deps (within a now (recent ++ older)) <= deps recent /\ wds (within a now (recent ++ older)) <= wds recent.
  Proof.
    intros H. unfold within. rewrite filter_app. assert (E : filter (fun e => now - when e <? a) older = []).
    { clear - H. induction older as [|e r IH]; [reflexivity|]. cbn [filter]. assert (X := H e (or_introl eq_refl)).
      destruct (Z.ltb_spec (now - when e) a); [lia|]. apply IH. intros; apply H; right; assumption. }
    rewrite E, app_nil_r. clear. induction recent as [|[t|t] r IH]; cbn [filter deps wds]; [lia| |]; destruct (_ <? _); cbn [deps wds]; lia.
  Qed.

Section Top.
  Variable c : tps_cfg.

  Lemma all_decided_split ops1 : forall hist t ops2 ans, all_decided c hist (ops1 ++ (t, Withdraw) :: ops2) ans ->
    exists ans1 a ans2, ans = ans1 ++ Val (Some a) :: ans2 /\ length ans1 = length ops1 /\
      decided c (history ops1 ans1 ++ hist) t a.
  Proof.
    induction ops1 as [|[t1 [|]] ops1 IH]; intros hist t ops2 ans H; cbn [app all_decided] in H.
    - destruct ans as [|[[a|]| |] ans]; try contradiction. destruct H as [H _]. exists [], a, ans. auto.
    - destruct ans as [|[[a|]| |] ans]; try contradiction. apply IH in H as (a1 & a & a2 & -> & L & D).
      exists (Val None :: a1), a, a2. split; [reflexivity|]. split; [cbn [length]; lia|].
      cbn [history entry_of]. rewrite <- app_assoc. exact D.
    - destruct ans as [|[[a|]| |] ans]; try contradiction. destruct H as [_ H]. apply IH in H as (a1 & a' & a2 & -> & L & D).
      exists (Val (Some a) :: a1), a', a2. split; [reflexivity|]. split; [cbn [length]; lia|].
      cbn [history]. rewrite <- app_assoc. exact D.
  Qed.

  Lemma budget_decides t0 ops1 t ops2 : sane c -> in_order t0 (ops1 ++ (t, Withdraw) :: ops2) ->
    fits c (ops1 ++ (t, Withdraw) :: ops2) ->
    exists answers1 granted answers2,
      tps_run c (tps_start t0) (ops1 ++ (t, Withdraw) :: ops2) = answers1 ++ Val (Some granted) :: answers2 /\
      length answers1 = length ops1 /\
      exists recent older, history ops1 answers1 = recent ++ older /\
        (forall e, In e recent -> t - when e < 11 * t_window c) /\
        (forall e, In e older -> t - when e > 5 * t_window c) /\
        (granted = true <-> t_withdraw c <= balance c recent).
  Proof.
    intros S O F. assert (A := @run_decided c S (ops1 ++ (t, Withdraw) :: ops2) 0 [] (tps_start t0) t0 (start_inv S t0)).
    specialize (A ltac:(intros x []) (Z.le_refl _) O F).
    apply all_decided_split in A as (a1 & a & a2 & E & L & D). exists a1, a, a2. split; [exact E|]. split; [exact L|].
    rewrite app_nil_r in D. exact D.
  Qed.

  Lemma all_decided_total ops : forall hist ans, all_decided c hist ops ans ->
    Forall2 (fun op a => match snd op with Deposit => a = Val None | Withdraw => exists g, a = Val (Some g) end) ops ans.
  Proof.
    induction ops as [|[t [|]] ops IH]; intros hist ans H; cbn [all_decided] in H.
    - destruct ans; [constructor|contradiction].
    - destruct ans as [|[[a|]| |] ans]; try contradiction. constructor; cbn; eauto.
    - destruct ans as [|[[a|]| |] ans]; try contradiction. destruct H as [_ H]. constructor; cbn; eauto.
  Qed.
  Lemma budget_total t0 ops : sane c -> in_order t0 ops -> fits c ops ->
    Forall2 (fun op a => match snd op with Deposit => a = Val None | Withdraw => exists g, a = Val (Some g) end)
      ops (tps_run c (tps_start t0) ops).
  Proof.
    intros S O F. assert (A := @run_decided c S ops 0 [] (tps_start t0) t0 (start_inv S t0)).
    eapply all_decided_total. apply A; auto; [intros x []|cbn; lia].
  Qed.

  Lemma budget_bound t0 ops1 t ops2 answers1 granted answers2 : sane c ->
    in_order t0 (ops1 ++ (t, Withdraw) :: ops2) -> fits c (ops1 ++ (t, Withdraw) :: ops2) ->
    tps_run c (tps_start t0) (ops1 ++ (t, Withdraw) :: ops2) = answers1 ++ Val (Some granted) :: answers2 ->
    length answers1 = length ops1 ->
    let h := history ops1 answers1 in
    if granted
    then t_withdraw c * (wds (within (5 * t_window c) t h) + 1) <=
         t_reserve c + t_deposit c * deps (within (11 * t_window c) t h)
    else t_reserve c + t_deposit c * deps (within (5 * t_window c) t h) <
         t_withdraw c * (wds (within (11 * t_window c) t h) + 1).
  Proof.
    intros S O F E L h. destruct (@budget_decides t0 ops1 t ops2 S O F) as (a1 & g & a2 & E' & L' & rec & old & H1 & H2 & H3 & H4).
    rewrite E in E'. assert (Q : answers1 = a1 /\ Val (Some granted) :: answers2 = Val (Some g) :: a2).
    { assert (LL : length answers1 = length a1) by congruence. clear - E' LL. revert a1 E' LL.
      induction answers1 as [|x r IH]; intros [|y q] E' LL; try discriminate LL; cbn in E'; [auto|].
      injection E' as -> E'. destruct (IH _ E') as [-> Q]; auto. }
    destruct Q as [<- Q]. injection Q as <- <-. fold h in H1. clearbody h. subst h.
    destruct S as [S1 S2 S3 S4]. destruct (@within_recent _ _ rec old H3) as [P1 P2].
    assert (P3 := @deps_within _ _ rec old H2). assert (P4 := @wds_within _ _ rec old H2). unfold balance in H4.
    destruct granted.
    - assert (H5 := proj1 H4 eq_refl). nia.
    - assert (H5 : ~ t_withdraw c <= t_reserve c + t_deposit c * deps rec - t_withdraw c * wds rec) by (intros X; apply H4 in X; discriminate X). nia.
  Qed.

  Lemma budget_blank t0 ops1 t ops2 answers1 granted answers2 : sane c ->
    in_order t0 (ops1 ++ (t, Withdraw) :: ops2) -> fits c (ops1 ++ (t, Withdraw) :: ops2) ->
    tps_run c (tps_start t0) (ops1 ++ (t, Withdraw) :: ops2) = answers1 ++ Val (Some granted) :: answers2 ->
    length answers1 = length ops1 ->
    (forall e, In e (history ops1 answers1) -> t - when e >= 11 * t_window c) ->
    granted = (t_withdraw c <=? t_reserve c).
  Proof.
    intros S O F E L H. destruct (@budget_decides t0 ops1 t ops2 S O F) as (a1 & g & a2 & E' & L' & rec & old & H1 & H2 & H3 & H4).
    rewrite E in E'. assert (Q : answers1 = a1 /\ Val (Some granted) :: answers2 = Val (Some g) :: a2).
    { assert (LL : length answers1 = length a1) by congruence. clear - E' LL. revert a1 E' LL.
      induction answers1 as [|x r IH]; intros [|y q] E' LL; try discriminate LL; cbn in E'; [auto|].
      injection E' as -> E'. destruct (IH _ E') as [-> Q]; auto. }
    destruct Q as [<- Q]. injection Q as <- <-.
    assert (N : rec = []).
    { destruct rec as [|e r]; [reflexivity|]. assert (X := H2 e (or_introl eq_refl)).
      assert (Y := H e). rewrite H1 in Y. specialize (Y (or_introl eq_refl)). lia. }
    subst rec. unfold balance in H4. cbn [deps wds] in H4. destruct (Z.leb_spec (t_withdraw c) (t_reserve c)) as [Y|Y].
    - apply H4. lia.
    - destruct granted; [|reflexivity]. assert (X := proj1 H4 eq_refl). lia.
  Qed.
End Top.

(** The counterexample to "a deposit counts for the whole ttl". *)
Definition leak_cfg : tps_cfg := TpsCfg 0 100000000 1 2.      (* ttl 1 s, no reserve, 50 % *)
Definition leak_ops : list (Z * tps_op) :=
  map (fun p => (fst p * 1000000, snd p))
    [(0, Deposit); (101, Withdraw); (202, Withdraw); (303, Withdraw); (404, Withdraw); (505, Withdraw); (606, Deposit); (606, Withdraw)].
Lemma budget_leaks :
  tps_run leak_cfg (tps_start 0) leak_ops =
  [Val None; Val (Some false); Val (Some false); Val (Some false); Val (Some false); Val (Some false); Val None; Val (Some false)].
Proof. vm_compute. reflexivity. Qed.
