(** Proofs for C60. *)
From Verif Require Import Base Middleware Limits Track RateSpec RateProof ReadyCache MisuseSpec.
Set Implicit Arguments.

(** A grant flag [G] that [call] and [Pending] take away, and without which [call] panics at once. *)
Lemma refuse_gen {W Req Resp Err} (svc : Service W Req Resp Err) (G : st svc -> bool) (I : st svc -> Prop)
  (Hready : forall s w w1 s1 a, I s -> poll_ready svc s w = (w1, Val (s1, a)) -> I s1 /\
    match a with Ready (Ok _) => True | Pending => G s1 = false | Ready (Er _) => G s = false -> G s1 = false end)
  (Hcall : forall s r w w1 s1 f, I s -> call svc s r w = (w1, Val (s1, f)) -> I s1 /\ G s1 = false)
  (Hno : forall s r w, I s -> G s = false -> call svc s r w = (w, Panic)) :
  forall s, I s -> G s = false -> refuses_unprimed svc s.
Proof.
  assert (Gen : forall ops s w b h1 r w0 o w1 h2, I s -> (b = false -> G s = false) ->
    run_any svc s w ops = h1 ++ (SCall r, w0, o, w1) :: h2 ->
    fold_left (primed_by (svc := svc)) h1 b = false -> o = ObsPanic /\ w1 = w0).
  { induction ops as [|[g [|q]] ops IH]; intros s w b h1 r w0 o w1 h2 Hi Hb E Hf; cbn in E.
    - destruct h1; discriminate.
    - destruct (poll_ready svc s (g w)) as [w' [[s1 a]| |]] eqn:Ep.
      + destruct (Hready _ _ _ _ _ Hi Ep) as [Hi1 Ha].
        destruct h1 as [|e h1]; [discriminate|]. injection E as <- E. cbn in Hf.
        eapply IH; [exact Hi1| |exact E|exact Hf].
        destruct a as [|[[]|e]]; cbn; auto. discriminate.
      + destruct h1 as [|e [|]]; discriminate.
      + destruct h1 as [|e [|]]; discriminate.
    - destruct h1 as [|e h1].
      + cbn in Hf. specialize (Hb Hf). rewrite (Hno s q (g w) Hi Hb) in E. injection E as <- <- <- <-. auto.
      + destruct (call svc s q (g w)) as [w' [[s1 f]| |]] eqn:Ec.
        * destruct (Hcall _ _ _ _ _ _ Hi Ec) as [Hi1 Hg].
          injection E as <- E. cbn in Hf. eapply IH; [exact Hi1| |exact E|exact Hf]. auto.
        * destruct h1; discriminate.
        * destruct h1; discriminate. }
  intros s Hi Hg w ops h1 r w0 o w1 h2 E Hf. exact (Gen ops s w false h1 r w0 o w1 h2 Hi (fun _ => Hg) E Hf).
Qed.

Section SteerAny.
  Context {W Req Resp Err P : Type} (svc : Service W Req Resp Err).
  Context (pick : P -> Req -> list (st svc) -> M W (P * nat)) (pclone : P -> M W P).

  Lemma steer_poll_any : forall nr l w w1 l1 nr1 a,
    steer_poll svc l nr w = (w1, Val (l1, nr1, a)) ->
    match a with Ready (Ok _) => nr1 = [] | _ => nr1 <> [] end.
  Proof.
    induction nr as [|i nr IH]; intros l w w1 l1 nr1 a E; cbn in E.
    - injection E as <- <- <- <-. reflexivity.
    - destruct (nth_error l i) as [s|]; [|discriminate].
      unfold bind in E. destruct (poll_ready svc s w) as [w' [[s1 p]| |]]; try discriminate.
      destruct p as [|[u|e]].
      + injection E as <- <- <- <-. discriminate.
      + eapply IH. exact E.
      + injection E as <- <- <- <-. discriminate.
  Qed.

  Lemma steer_refuses (services : list (st svc)) (p0 : P) : services <> [] ->
    refuses_unprimed (steer svc pick pclone) (steer_new svc services p0).
  Proof.
    intros Hne.
    apply (refuse_gen (svc := steer svc pick pclone)
             (fun s => match sr_not_ready s with [] => true | _ => false end) (fun _ => True)).
    - intros s w w1 s1 a _ E. split; auto. cbn in E. unfold bind in E.
      destruct (steer_poll svc (sr_services s) (sr_not_ready s) w) as [w' [[[l nr] p]| |]] eqn:Es; try discriminate.
      injection E as <- <- <-. apply steer_poll_any in Es. cbn.
      destruct p as [|[u|e]]; auto; destruct nr; auto; congruence.
    - intros s r w w1 s1 f _ E. split; auto. cbn in E. destruct (sr_not_ready s); [|discriminate].
      unfold bind in E. destruct (pick _ _ _ _) as [w' [[p1 idx]| |]]; try discriminate.
      destruct (nth_error _ idx); [|discriminate]. destruct (call svc _ _ _) as [w2 [[x1 f1]| |]]; try discriminate.
      injection E as <- <- <-. reflexivity.
    - intros s r w _ Hg. cbn. destruct (sr_not_ready s); [discriminate|]. reflexivity.
    - exact I.
    - cbn. destruct services; [congruence|]. reflexivity.
  Qed.
End SteerAny.

Section BalanceAny.
  Context {W K Req Resp Err DErr Metric R : Type} (keq : forall a b : K, {a = b} + {a <> b}).
  Context (svc : Service W Req Resp Err) (D : Discover W K (st svc) DErr).
  Context (sched : nat -> W -> W * list nat) (next_u64 : R -> M W (R * Z)) (debug : bool).
  Context (load : st svc -> M W Metric) (le : Metric -> Metric -> bool) (fuel : nat).
  Notation bal := (balance keq svc D sched next_u64 debug load le fuel).

  Lemma balance_loop_any : forall n d c idx g w w1 (s1 : st bal) a,
    balance_loop keq D next_u64 debug load le n d c idx g w = (w1, Val (s1, a)) ->
    match a with Ready (Ok _) => bl_index s1 <> None | Pending => bl_index s1 = None | Ready (Er _) => False end.
  Proof.
    induction n as [|n IH]; intros d c idx g w w1 s1 a E; [discriminate|].
    cbn in E. unfold bind in E.
    assert (Hsel : forall c, forall w, bind (p2c_ready_index next_u64 debug load le c g) (fun '(g1, o) =>
        match o with
        | None => if debug && negb (ready_len c =? 0) then panic else ret (BalSt d c None g1, Pending)
        | Some i => balance_loop keq D next_u64 debug load le n d c (Some i) g1
        end) w = (w1, Val (s1, a)) ->
      match a with Ready (Ok _) => bl_index s1 <> None | Pending => bl_index s1 = None | Ready (Er _) => False end).
    { clear E. intros c' w' E. unfold bind in E. destruct (p2c_ready_index _ _ _ _ _ _ _) as [w0 [[g1 o]| |]]; try discriminate.
      destruct o as [i|]; [eapply IH; exact E|]. destruct (debug && negb (ready_len c' =? 0)); [discriminate|].
      injection E as <- <- <-. reflexivity. }
    destruct idx as [i|].
    - destruct (check_ready_index keq c i w) as [w0 [[c1 [[|]|e]]| |]]; try discriminate.
      + injection E as <- <- <-. cbn. discriminate.
      + exact (Hsel c1 w0 E).
      + exact (Hsel c1 w0 E).
    - exact (Hsel c w E).
  Qed.

  Lemma balance_refuses (d : dst D) (g : R) : refuses_unprimed bal (balance_new svc D d g).
  Proof.
    apply (refuse_gen (svc := bal) (fun s => match bl_index s with Some _ => true | None => false end) (fun _ => True)).
    - intros s w w1 s1 a _ E. split; auto. cbn [poll_ready balance] in E. unfold bind in E.
      destruct (update_from_discover _ _ _ _ _ _) as [w' [[[d1 c1] e]| |]]; try discriminate.
      destruct e as [x|].
      + injection E as <- <- <-. cbn. auto.
      + destruct (promote_pending _ _ _ _ _) as [w2 [c2| |]]; try discriminate.
        apply balance_loop_any in E. destruct a as [|[u|e]]; auto; [now rewrite E|contradiction].
    - intros s r w w1 s1 f _ E. split; auto. cbn in E. destruct (bl_index s); [|discriminate].
      unfold bind in E. destruct (call_ready_index _ _ _ _ _) as [w' [[c1 f1]| |]]; try discriminate.
      injection E as <- <- <-. reflexivity.
    - intros s r w _ Hg. cbn. destruct (bl_index s); [discriminate|]. reflexivity.
    - exact I.
    - reflexivity.
  Qed.
End BalanceAny.

Section FleetAny.
  Context {W Req Resp Err : Type} (svc : Service W Req Resp Err).
  Notation tsvc := (tracked (fun e : tev Req Resp Err => e) svc).
  Notation TW := (W * tk (tev Req Resp Err))%type.
  Notation LS := (load_shed tsvc).

  (** The flag of every instance agrees with the log; identities are distinct and below the next one. *)
  Definition ids (hs : list (option (st LS))) (k i : nat) : Prop :=
    exists s, nth_error hs k = Some (Some s) /\ fst (ls_inner s) = i.
  Definition finv (hs : list (option (st LS))) (w : TW) : Prop :=
    (forall k s, nth_error hs k = Some (Some s) ->
       ls_ready s = unused_ready (fst (ls_inner s)) (log_of w) /\ fst (ls_inner s) < tk_next (snd w)) /\
    (forall k k' i, ids hs k i -> ids hs k' i -> k = k') /\
    (forall i, tk_next (snd w) <= i -> unused_ready i (log_of w) = false).

  Lemma nth_set {A} (l : list A) : forall k k' x y, nth_error l k = Some y ->
    nth_error (set_nth k x l) k' = if k' =? k then Some x else nth_error l k'.
  Proof.
    induction l as [|a l IH]; intros [|k] [|k'] x y H; cbn in *; try discriminate; auto.
    eapply IH; eauto.
  Qed.

  Lemma finv_set (hs : list (option (st LS))) (w : TW) k (s s1 : load_shed_st tsvc) (w1 : TW) l0 :
    finv hs w -> nth_error hs k = Some (Some s) -> fst (ls_inner s1) = fst (ls_inner s) ->
    tk_next (snd w) <= tk_next (snd w1) -> log_of w1 = l0 ++ log_of w ->
    (forall i, i <> fst (ls_inner s) -> unused_ready i (log_of w1) = unused_ready i (log_of w)) ->
    ls_ready s1 = unused_ready (fst (ls_inner s)) (log_of w1) ->
    finv (set_nth k (Some s1) hs) w1.
  Proof.
    intros (A & B & C) Hk Hi Hn Hl Ho Hr. split; [|split].
    - intros k' s' Hk'. rewrite (nth_set _ _ _ _ Hk) in Hk'. destruct (k' =? k) eqn:E.
      + injection Hk' as <-. rewrite Hi. split; [exact Hr|]. destruct (A _ _ Hk). lia.
      + destruct (A _ _ Hk') as [A1 A2]. split; [|lia]. rewrite Ho; auto.
        intros Q. apply Nat.eqb_neq in E. apply E. apply (B k' k (fst (ls_inner s))); [exists s'|exists s]; auto.
    - assert (D : forall k' i, ids (set_nth k (Some s1) hs) k' i -> ids hs k' i).
      { intros k' i (x & Hx & Ex). rewrite (nth_set _ _ _ _ Hk) in Hx. destruct (k' =? k) eqn:E.
        - apply Nat.eqb_eq in E. subst k'. injection Hx as <-. exists s. split; auto. congruence.
        - exists x; auto. }
      intros k1 k2 i H1 H2. eapply B; eauto.
    - intros i Hle. rewrite Ho.
      + apply C. lia.
      + destruct (A _ _ Hk). lia.
  Qed.

  Lemma fleet_gen ops : forall hs w, finv hs w -> Forall (fleet_entry (svc := svc)) (fleet_run hs w ops).
  Proof.
    induction ops as [|[g o] ops IH]; intros hs w HI; cbn [fleet_run]; [constructor|].
    assert (HI' : finv hs (tk_env g w)) by exact HI. clear HI.
    set (w0 := tk_env g w) in *. clearbody w0. clear w g.
    destruct o as [k|k r|k|k]; destruct (nth_error hs k) as [[s|]|] eqn:Hk; auto; destruct s as [[i x] fl].
    - (* poll_ready *)
      pose proof (proj1 HI' _ _ Hk) as [Hf Hlt]. cbn in Hf, Hlt.
      cbn. unfold bind, tk_lift, ret, tk_emit. cbn.
      destruct (poll_ready svc x (fst w0)) as [w1 [[x1 a]| |]]; cbn.
      + destruct a as [|[[]|e]]; cbn.
        * constructor.
          { exists Pending. split; reflexivity. }
          apply IH. eapply finv_set with (l0 := [_]); eauto; cbn; try reflexivity.
          { intros j Hj. rewrite (proj2 (Nat.eqb_neq i j)); auto. }
          { rewrite Nat.eqb_refl. reflexivity. }
        * constructor.
          { exists (Ready (Ok tt)). split; reflexivity. }
          apply IH. eapply finv_set with (l0 := [_]); eauto; cbn; try reflexivity.
          { intros j Hj. rewrite (proj2 (Nat.eqb_neq i j)); auto. }
          { rewrite Nat.eqb_refl. reflexivity. }
        * constructor.
          { exists (Ready (Er e)). split; reflexivity. }
          apply IH. eapply finv_set with (l0 := [_]); eauto; cbn; try reflexivity.
          { intros j Hj. rewrite (proj2 (Nat.eqb_neq i j)); auto. }
          { rewrite Nat.eqb_refl. exact Hf. }
      + repeat constructor.
      + repeat constructor.
    - (* call *)
      pose proof (proj1 HI' _ _ Hk) as [Hf Hlt]. cbn in Hf, Hlt.
      cbn. destruct fl; cbn.
      + unfold bind, tk_lift, ret, tk_emit, tk_fresh. cbn.
        destruct (call svc x r (fst w0)) as [w1 [[x1 f]| |]]; cbn.
        * constructor.
          { split; [symmetry; exact Hf | reflexivity]. }
          apply IH. eapply finv_set with (l0 := [_]); eauto; cbn; try reflexivity.
          { lia. }
          { intros j Hj. rewrite (proj2 (Nat.eqb_neq i j)); auto. }
          { rewrite Nat.eqb_refl. reflexivity. }
        * repeat constructor.
        * repeat constructor.
      + constructor.
        { split; [symmetry; exact Hf | reflexivity]. }
        apply IH. eapply finv_set with (l0 := []); eauto; cbn; auto.
    - (* clone *)
      cbn. unfold bind, tk_lift, ret, tk_emit, tk_fresh. cbn.
      destruct (clone svc x (fst w0)) as [w1 [x1| |]]; cbn.
      + constructor; [exact I|]. apply IH. destruct HI' as (A & B & C).
        assert (D : forall k' s', nth_error (hs ++ [Some (LoadShedSt tsvc (tk_next (snd w0), x1) false)]) k' = Some (Some s') ->
                  nth_error hs k' = Some (Some s') \/ (k' = length hs /\ s' = LoadShedSt tsvc (tk_next (snd w0), x1) false)).
        { intros k' s' H. destruct (Nat.lt_ge_cases k' (length hs)) as [Hlt|Hge].
          - rewrite nth_error_app1 in H by auto. auto.
          - rewrite nth_error_app2 in H by auto. destruct (k' - length hs) eqn:E; cbn in H.
            + injection H as <-. right. split; auto. lia.
            + destruct n; discriminate. }
        split; [|split].
        * intros k' s' H. destruct (D _ _ H) as [H1|[-> ->]].
          { destruct (A _ _ H1). cbn. split; auto. }
          { cbn. split; [|lia]. symmetry. apply C. lia. }
        * intros k1 k2 j (s1 & H1 & E1) (s2 & H2 & E2).
          destruct (D _ _ H1) as [G1|[-> ->]], (D _ _ H2) as [G2|[-> ->]]; auto.
          { apply (B k1 k2 j); [exists s1|exists s2]; auto. }
          { destruct (A _ _ G1) as [_ Hl]. cbn in E2. lia. }
          { destruct (A _ _ G2) as [_ Hl]. cbn in E1. lia. }
        * cbn. intros j Hj. apply C. lia.
      + repeat constructor.
      + repeat constructor.
    - (* drop *)
      constructor; [exact I|]. apply IH. destruct HI' as (A & B & C). cbn.
      assert (D : forall k' s', nth_error (set_nth k None hs) k' = Some (Some s') -> nth_error hs k' = Some (Some s')).
      { intros k' s' H. rewrite (nth_set _ _ _ _ Hk) in H. destruct (k' =? k); [discriminate|auto]. }
      split; [|split].
      + intros k' s' H. exact (A _ _ (D _ _ H)).
      + intros k1 k2 j (s1 & H1 & E1) (s2 & H2 & E2). apply (B k1 k2 j); [exists s1|exists s2]; auto.
      + exact C.
  Qed.

  Lemma fleet_entries (s : st svc) w n ops :
    Forall (fleet_entry (svc := svc)) (fleet_run [Some (load_shed_new tsvc (0, s))] (w, Tk (S n) []) ops).
  Proof.
    apply fleet_gen. split; [|split].
    - intros [|[|k]] s' H; try discriminate. injection H as <-. cbn. split; auto. lia.
    - intros k k' i (s1 & H1 & E1) (s2 & H2 & E2). destruct k as [|[|k]], k' as [|[|k']]; try discriminate; auto.
    - reflexivity.
  Qed.
End FleetAny.

Section RateAny.
  Context {W Req Resp Err : Type} (rt : Rt W) (svc : Service W Req Resp Err) (r : rate).
  Notation L := (tev Req Resp Err).
  Notation TW := (W * tk L)%type.
  Notation tr := (trate rt svc r).
  Notation ts := (tracked (fun e : L => e) svc).
  Context (Hnum : (0 < r_num r)%N) (Hper : (0 < r_per r)%Z) (Hflow : time_flows rt svc).

  Lemma rate_any_gen ops : Forall (fun o => forward rt (fst o)) ops -> forall s w s0 c,
    rinv (rt := rt) (svc := svc) (r := r) s w s0 c ->
    exists t1 rest, any_call_times (run_any tr s w (tk_ops ops)) = t1 ++ rest /\ (N.of_nat (length c + length t1) <= r_num r)%N /\
      Forall (fun t => s0 <= t < s0 + r_per r)%Z t1 /\ windowed (r_num r) (r_per r) (s0 + r_per r) rest.
  Proof.
    assert (Hnil : forall s w s0 c, rinv (rt := rt) (svc := svc) (r := r) s w s0 c -> exists t1 rest, [] = t1 ++ rest /\ (N.of_nat (length c + length t1) <= r_num r)%N /\
      Forall (fun t => s0 <= t < s0 + r_per r)%Z t1 /\ windowed (r_num r) (r_per r) (s0 + r_per r) rest).
    { intros s w s0 c (_ & _ & _ & H). exists [], []. cbn. rewrite Nat.add_0_r. split; [reflexivity|].
      split; [destruct (rl_st s); lia|]. split; constructor. }
    induction 1 as [|[g o] ops Hg Hops IH]; intros s w s0 c HI.
    { cbn. eauto. }
    change (tk_ops (L := L) ((g, o) :: ops)) with ((tk_env (L := L) g, o) :: tk_ops ops).
    cbn in Hg.
    assert (HI' : rinv (rt := rt) (svc := svc) (r := r) s (tk_env g w) s0 c).
    { destruct HI as (H1 & H2). split; auto. cbn in *. specialize (Hg (fst w)). lia. }
    clear HI. cbn [run_any]. remember (tk_env (L := L) g w) as w' eqn:Ew. clear Ew Hg g w.
    destruct s as [[i x] sst sl]. pose proof HI' as (Ht & Hf & Hi & Hst). cbn in Hi, Ht. subst i.
    destruct o as [|q].
    - cbn. destruct sst as [|until rem]; cbn [rl_st rl_sleep] in Hst |- *.
      + destruct Hst as [Hsl Hlen]. unfold sleep_poll, modify, bind at 1 2 3, get at 1, ret at 1. cbn.
        destruct (fired rt (fst w') sl) eqn:Ef; cbn.
        * assert (Hnow : (s0 + r_per r <= now rt (fst w'))%Z)
            by (rewrite <- Hsl; apply (fired_sound rt); exact Ef).
          unfold bind, tk_lift, get, ret. cbn.
          rewrite now_nap. pose proof (proj1 Hflow x (nap rt sl (fst w'))) as Hfl. rewrite now_nap in Hfl.
          destruct (poll_ready svc x (nap rt sl (fst w'))) as [w1 [[x1 a]| |]]; cbn in Hfl |- *; eauto.
          match goal with |- context [run_any _ ?s1 ?w1 _] =>
            destruct (IH s1 w1 (now rt (fst w')) []) as (t1 & rest & H2 & H3 & H4 & H5) end.
          { repeat split; cbn; auto; try lia. }
          exists [], (t1 ++ rest). rewrite H2. split; [reflexivity|].
          split; [cbn; lia|]. split; [constructor|]. econstructor; eauto; lia.
        * match goal with |- context [run_any _ ?s1 ?w1 _] => apply (IH s1 w1 s0 c) end.
          destruct HI' as (H1 & H2). split; [|exact H2]. cbn in *. rewrite now_nap. exact H1.
      + unfold bind, tk_lift, ret. cbn.
        pose proof (proj1 Hflow x (fst w')) as Hfl.
        destruct (poll_ready svc x (fst w')) as [w1 [[x1 a]| |]]; cbn in Hfl |- *; eauto.
        match goal with |- context [run_any _ ?s1 ?w1 _] => apply (IH s1 w1 s0 c) end.
        split; [cbn; lia|]. auto.
    - destruct sst as [|until rem].
      { cbn. eauto. }
      cbn in Hst. destruct Hst as (-> & Hlen & Hrem).
      rewrite rate_call_eq. cbv zeta.
      set (t := now rt (fst w')) in *.
      set (reset := (s0 + r_per r <=? t)%Z).
      set (s0' := if reset then t else s0).
      set (c' := if reset then [] else c).
      assert (E1 : (if reset then (t + r_per r)%Z else (s0 + r_per r)%Z) = (s0' + r_per r)%Z) by (unfold s0'; destruct reset; auto).
      assert (E2 : (N.of_nat (length c') + (if reset then r_num r else rem) = r_num r)%N) by (unfold c'; destruct reset; cbn; lia).
      assert (E3 : (0 < if reset then r_num r else rem)%N) by (destruct reset; lia).
      assert (E4 : (s0' <= t < s0' + r_per r)%Z).
      { unfold s0'. destruct reset eqn:Er; [lia|]. apply Z.leb_gt in Er. lia. }
      assert (E5 : Forall (fun t => s0' <= t < s0' + r_per r)%Z (t :: c')).
      { constructor; auto. unfold c', s0'. destruct reset; auto. }
      rewrite E1. set (rem' := if reset then r_num r else rem) in *.
      assert (Hjoin : forall l, (exists t1 rest, l = t1 ++ rest /\ (N.of_nat (length (t :: c') + length t1) <= r_num r)%N /\
          Forall (fun t => s0' <= t < s0' + r_per r)%Z t1 /\ windowed (r_num r) (r_per r) (s0' + r_per r) rest) ->
        exists t1 rest, t :: l = t1 ++ rest /\ (N.of_nat (length c + length t1) <= r_num r)%N /\
          Forall (fun t => s0 <= t < s0 + r_per r)%Z t1 /\ windowed (r_num r) (r_per r) (s0 + r_per r) rest).
      { intros l (t1 & rest & -> & H1 & H2 & H3). unfold s0', c' in *. destruct reset eqn:Er.
        - exists [], (t :: t1 ++ rest). split; [reflexivity|]. split; [cbn; lia|]. split; [constructor|].
          apply (@win_cons (r_num r) (r_per r) _ t (t :: t1) rest); auto.
          + apply Z.leb_le in Er. exact Er.
        - exists (t :: t1), rest. split; [reflexivity|]. split; [cbn [length] in *; lia|]. split; auto. }
      pose proof (proj2 Hflow x q (fst w')) as Hfl. fold t in Hfl.
      destruct (call svc x q (fst w')) as [w1 [[x1 f]| |]]; cbn [fst] in Hfl.
      + cbn [any_call_times]. apply Hjoin.
        match goal with |- context [run_any _ ?s1 ?w1 _] => apply (IH s1 w1 s0' (t :: c')) end.
        split; [cbn; lia|]. split; [exact E5|]. split; [reflexivity|]. cbn [rl_st rl_sleep length].
        destruct (1 <? rem')%N eqn:Eone; [apply N.ltb_lt in Eone | apply N.ltb_ge in Eone];
          (split; [auto|]; lia).
      + cbn. eauto.
      + cbn. eauto.
  Qed.

  Lemma rate_any (x : st svc) w0 w s ops :
    Forall (fun o => forward rt (fst o)) ops ->
    rate_limit_new (tk_rt rt) r ts (0, x) w0 = (w, Val s) ->
    exists lo, windowed (r_num r) (r_per r) lo (any_call_times (run_any tr s w (tk_ops ops))).
  Proof.
    intros Hops Hnew. unfold rate_limit_new, bind, get, ret in Hnew. injection Hnew as <- <-.
    destruct (@rate_any_gen ops Hops (RlSt ts (0, x) (RlReady (now (tk_rt rt) w0) (r_num r)) (now (tk_rt rt) w0)) w0 (now (tk_rt rt) w0 - r_per r)%Z []) as (t1 & rest & H2 & H3 & H4 & H5).
    - split; [cbn; lia|]. split; [constructor|]. split; [reflexivity|]. cbn. split; lia.
    - exists (now (tk_rt rt) w0 - r_per r)%Z.
      refine (eq_ind_r (fun l => windowed _ _ _ l) _ H2).
      apply win_cons with (s := (now (tk_rt rt) w0 - r_per r)%Z); auto. lia.
  Qed.
End RateAny.
