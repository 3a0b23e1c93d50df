(** The retry budget shared by threads: the invariant. *)
From Verif Require Import Base Tps TpsSpec TpsProof.
Set Implicit Arguments.
Local Open Scope Z_scope.

Lemma set_pc_length l i p : length (set_pc l i p) = length l.
Proof. revert i. induction l as [|x l IH]; intros [|i]; cbn; auto. Qed.
Lemma set_pc_same l i p d : (i < length l)%nat -> nth i (set_pc l i p) d = p.
Proof. revert i. induction l as [|x l IH]; intros [|i] H; cbn in *; try lia; auto. apply IH. lia. Qed.
Lemma set_pc_other l i p j d : j <> i -> nth j (set_pc l i p) d = nth j l d.
Proof. revert i j. induction l as [|x l IH]; intros [|i] [|j] H; cbn; auto; try congruence. Qed.

Definition count (f : nat -> bool) (n : nat) : Z := Z.of_nat (length (filter f (seq 0 n))).
Definition b2z (b : bool) : Z := if b then 1 else 0.
Lemma count_S f n : count f (S n) = count f n + b2z (f n).
Proof. unfold count. rewrite seq_S, filter_app, app_length. cbn [filter plus]. destruct (f n); cbn [length b2z]; lia. Qed.
Lemma count_change f g i n : (i < n)%nat -> (forall j, (j < n)%nat -> j <> i -> f j = g j) ->
  count g n = count f n - b2z (f i) + b2z (g i).
Proof.
  intros Hi. assert (E : forall m, (m <= i)%nat -> (forall j, (j < m)%nat -> j <> i -> f j = g j) -> count g m = count f m).
  { induction m as [|m IH]; intros Hm H; [reflexivity|]. rewrite !count_S, IH by (auto with arith || lia). rewrite (H m) by lia. reflexivity. }
  induction n as [|n IH]; intros H; [lia|]. rewrite !count_S. destruct (Nat.eq_dec i n) as [->|Ne].
  - rewrite E by (auto with arith). lia.
  - rewrite IH by (auto with arith || lia). rewrite (H n) by lia. lia.
Qed.
Lemma count_ext f g n : (forall j, (j < n)%nat -> f j = g j) -> count f n = count g n.
Proof. induction n as [|n IH]; intros H; [reflexivity|]. rewrite !count_S, IH, (H n) by auto. reflexivity. Qed.
Lemma count_le f n : 0 <= count f n <= Z.of_nat n.
Proof. induction n as [|n IH]; [cbn; lia|]. rewrite count_S. destruct (f n); cbn [b2z]; lia. Qed.

(** Generations, from the log. *)
Definition ent (o : tps_op) (t : Z) : entry := match o with Deposit => EDep t | Withdraw => EWd t end.
Fixpoint gens (l : list tobs) : Z * list gent :=
  match l with
  | [] => (0, [])
  | CAdd _ o t :: l' => (fst (gens l'), Gent (ent o t) (fst (gens l')) 0 :: snd (gens l'))
  | CSwap _ _ k :: l' => (fst (gens l') + k, snd (gens l'))
  | _ :: l' => gens l'
  end.
Notation gN l := (fst (gens l)).
Notation gG l := (snd (gens l)).

Lemma added_total l : added l = total (gG l).
Proof. induction l as [|[i [|] t|i|i|i now k|i] l IH]; cbn [added gens fst snd]; auto; unfold total in *; cbn [map x_e ent]; f_equal; exact IH. Qed.

Definition pos_turns (l : list tobs) : Prop := forall i now k, In (CSwap i now k) l -> 1 <= k.
Lemma tags_le l : pos_turns l -> forall x, In x (gG l) -> x_n x <= gN l.
Proof.
  induction l as [|e l IH]; intros P x; [intros []|]. assert (P' : pos_turns l) by (intros i now k H; eapply P; right; exact H).
  destruct e as [i o t|i|i|i now k|i]; cbn [gens fst snd]; auto.
  - intros [<-|H]; [cbn; lia|auto].
  - intros H. specialize (IH P' x H). specialize (P i now k (or_introl eq_refl)). lia.
Qed.
Lemma recents_counted l : pos_turns l -> forall z, 0 <= z -> recents z l = total (filter (fun x => gN l - z <=? x_n x) (gG l)).
Proof.
  induction l as [|e l IH]; intros P z Hz; [reflexivity|]. assert (P' : pos_turns l) by (intros i now k H; eapply P; right; exact H).
  destruct e as [i o t|i|i|i now k|i]; cbn [recents gens fst snd]; auto.
  - cbn [filter x_n]. destruct (Z.leb_spec (gN l - z) (gN l)); [|lia]. unfold total in *. cbn [map x_e]. rewrite (IH P' z Hz). destruct o; reflexivity.
  - assert (Hk : 1 <= k) by (eapply P; left; reflexivity). destruct (Z.ltb_spec (z - k) 0) as [L|L].
    + assert (F : filter (fun x => gN l + k - z <=? x_n x) (gG l) = []).
      { assert (T := tags_le P'). clear - T L. induction (gG l) as [|x G IH]; [reflexivity|]. cbn [filter].
        assert (x_n x <= gN l) by (apply T; left; reflexivity). destruct (Z.leb_spec (gN l + k - z) (x_n x)); [lia|].
        apply IH. intros; apply T; right; assumption. }
      rewrite F. reflexivity.
    + rewrite (IH P') by lia. replace (gN l - (z - k)) with (gN l + k - z) by lia. reflexivity.
Qed.

Section Race.
  Variable c : tps_cfg.
  Hypothesis S : sane c.
  Variable t0 : Z.

  Definition bal (l : list tobs) : Z := balance c (recents 10 l).
  Definition slot_sum (y : tsys) : Z := fold_right Z.add 0 (t_slots (s_tps y)).
  Definition pc (y : tsys) (i : nat) : tpc := nth i (s_pcs y) PIdle.

  Definition hot (y : tsys) (l : list tobs) (i : nat) : bool :=
    match pc y i with
    | PSum cur _ _ => if undisturbed i l then t_withdraw c <=? t_reserve c + cur + slot_sum y else true
    | PSub => true
    | _ => false
    end.
  (** Somebody has, since the ring was turned, read a balance that suffices. *)
  Fixpoint warm (l : list tobs) : Prop :=
    match l with
    | [] => False
    | CSwap _ _ _ :: _ | CEnd _ :: _ => False
    | CLoad _ :: l' => turning l' = false /\ t_withdraw c <= bal l' \/ warm l'
    | _ :: l' => warm l'
    end.

  Definition holding (p : tpc) : bool := match p with PSwap _ _ _ | PStore _ _ _ _ | PZero _ _ _ _ => true | _ => false end.

  (** The generation and the ring, according to who holds the lock. *)
  Definition ring_at (y : tsys) (l : list tobs) : Prop :=
    turning l = false /\ ring c (gN l) (t_slots (s_tps y)) (gG l) /\ g_index (s_tps y) = Z.to_nat (gN l mod 10) /\
    g_time (s_tps y) = last_turn t0 l.
  Inductive phase (y : tsys) (l : list tobs) : Prop :=
  | ph_rest : s_lock y = false -> (forall i, holding (pc y i) = false) -> ring_at y l -> phase y l
  | ph_swap i o now diff : s_lock y = true -> pc y i = PSwap o now diff -> (forall j, j <> i -> holding (pc y j) = false) ->
      ring_at y l -> diff = now - g_time (s_tps y) -> t_window c <= diff -> phase y l
  | ph_store i o now diff v k : s_lock y = true -> pc y i = PStore o now diff v -> (forall j, j <> i -> holding (pc y j) = false) ->
      turning l = true -> k = ceil_div diff (t_window c) -> t_window c <= diff -> now = last_turn t0 l ->
      ring c (gN l - k) (t_slots (s_tps y)) (gG l) -> g_index (s_tps y) = Z.to_nat ((gN l - k) mod 10) ->
      v = at_ c (gN l - k) (gG l) -> (forall n, gN l - k < n < gN l -> at_ c n (gG l) = 0) -> phase y l
  | ph_zero i o now diff idx M : s_lock y = true -> pc y i = PZero o now diff idx -> (forall j, j <> i -> holding (pc y j) = false) ->
      turning l = true -> 0 < diff -> gN l = M + (ceil_div diff (t_window c) - 1) -> now = last_turn t0 l ->
      ring c M (t_slots (s_tps y)) (gG l) -> idx = Z.to_nat (M mod 10) ->
      (forall n, M <= n < gN l -> at_ c n (gG l) = 0) -> phase y l.

  Definition dtot (l : list tobs) : Z := t_deposit c * deps (added l).
  Definition wtot (l : list tobs) : Z := t_withdraw c * wds (added l).

  Record rinv (n : nat) (y : tsys) (l : list tobs) : Prop := {
    r_n : length (s_pcs y) = n;
    r_pos : pos_turns l;
    r_phase : phase y l;
    r_writer : t_writer (s_tps y) = at_ c (gN l) (gG l);
    r_clock : g_time (s_tps y) <= s_clock y /\ t0 <= last_turn t0 l <= s_clock y;
    r_now : forall i o now diff, pc y i = PSwap o now diff -> now <= s_clock y;
    r_sum : forall i cur j acc, pc y i = PSum cur j acc -> (j <= 9)%nat /\
              (undisturbed i l = true -> acc = fold_left sat_add (firstn j (t_slots (s_tps y))) 0 /\
                 - wtot l <= cur + slot_sum y <= dtot l);
    r_warm : forall i, undisturbed i l = true -> hot y l i = true -> warm l;
    r_hot : warm l -> bal l - t_withdraw c * count (hot y l) n >= - (Z.of_nat n - 1) * t_withdraw c }.

  Lemma undisturbed_rest i l : undisturbed i l = true -> turning l = false.
  Proof.
    induction l as [|[j o t|j|j|j now k|j] l IH]; cbn [undisturbed turning]; try discriminate; auto.
    destruct (j =? i)%nat; auto. intros H. apply negb_true_iff in H. exact H.
  Qed.

  Lemma fits_less l l' : fits_log c (l' ++ l) -> fits_log c l.
  Proof.
    unfold fits_log. destruct S as [S1 S2 S3 S4]. induction l' as [|e l' IH]; [auto|]. intros H. apply IH. clear IH.
    destruct e as [j [|] t|j|j|j now k|j]; cbn [app added deps wds] in H; auto; lia.
  Qed.
  Lemma tot_nonneg l : 0 <= dtot l /\ 0 <= wtot l.
  Proof.
    destruct S. unfold dtot, wtot. pose proof (deps_pos (added l)). pose proof (wds_pos (added l)). split; apply Z.mul_nonneg_nonneg; lia.
  Qed.

  (** Any part of the entries has a value in range. *)
  Lemma part_range f l : - wtot l <= val c f (gG l) <= dtot l.
  Proof.
    assert (Q := @val_range c S f (fun _ => true) (gG l) (fun _ _ => eq_refl)).
    assert (A : dsum c (fun _ => true) (gG l) = dtot l).
    { unfold dsum, dtot. rewrite added_total. f_equal. f_equal. f_equal. clear. induction (gG l); cbn; f_equal; auto. }
    assert (B : wsum c (fun _ => true) (gG l) = wtot l).
    { unfold wsum, wtot. rewrite added_total. f_equal. f_equal. f_equal. clear. induction (gG l); cbn; f_equal; auto. }
    lia.
  Qed.
  Lemma ring_sum slots l : ring c (gN l) slots (gG l) -> fold_right Z.add 0 slots = val c (old (gN l)) (gG l).
  Proof.
    intros R. destruct R as [L R]. rewrite <- (firstn_all slots), L. rewrite (@prefix_sum c (gN l) slots (gG l) 10 (conj L R)) by lia.
    apply val_ext. intros x _. pose proof (mod10 (x_n x)). destruct (Z.ltb_spec (x_n x mod 10) (Z.of_nat 10)); [|lia]. apply andb_true_r.
  Qed.
  Lemma ring_fold slots l k : fits_log c l -> ring c (gN l) slots (gG l) -> (k <= 10)%nat ->
    fold_left sat_add (firstn k slots) 0 = fold_right Z.add 0 (firstn k slots).
  Proof.
    intros F R Hk. rewrite fold_sat; [lia|]. intros j Hj. rewrite firstn_firstn. rewrite firstn_length in Hj.
    rewrite (@prefix_sum c (gN l) slots (gG l) (Nat.min j k) R) by lia.
    pose proof (part_range (fun x => old (gN l) x && (x_n x mod 10 <? Z.of_nat (Nat.min j k))) l) as P.
    unfold fits_log in F. fold (dtot l) in F. fold (wtot l) in F. pose proof (tot_nonneg l). destruct S as [S1 S2 S3 S4].
    unfold isize_min, isize_max in *. lia.
  Qed.
  Lemma bal_at l slots : pos_turns l -> ring c (gN l) slots (gG l) ->
    bal l = t_reserve c + at_ c (gN l) (gG l) + fold_right Z.add 0 slots.
  Proof.
    intros P R. rewrite (ring_sum _ R). unfold bal. rewrite recents_counted by (auto; lia). unfold balance.
    assert (V : at_ c (gN l) (gG l) + val c (old (gN l)) (gG l) = val c (fun x => gN l - 10 <=? x_n x) (gG l)).
    { change (at_ c (gN l) (gG l)) with (val c (fun x => x_n x =? gN l) (gG l)). symmetry. apply val_split. intros x Hx.
      assert (T := tags_le P _ Hx). unfold old.
      destruct (Z.eqb_spec (x_n x) (gN l)), (Z.leb_spec (gN l - 10) (x_n x)), (Z.ltb_spec (x_n x) (gN l)); cbn; auto; lia. }
    unfold val at 2, dsum, wsum in V. lia.
  Qed.

  Lemma warm_rest l : warm l -> turning l = false.
  Proof.
    induction l as [|[j o t|j|j|j now k|j] l IH]; cbn [warm turning]; try tauto.
  Qed.

  Lemma pc_set y y' i p : s_pcs y' = set_pc (s_pcs y) i p -> (i < length (s_pcs y))%nat ->
    pc y' i = p /\ forall j, j <> i -> pc y' j = pc y j.
  Proof.
    intros E H. unfold pc. rewrite E. split; [apply set_pc_same; exact H|]. intros j Hj. apply set_pc_other. exact Hj.
  Qed.

  (** A step that logs nothing and leaves the balance alone. *)
  Lemma rinv_silent n y y' l i p : rinv n y l -> (i < n)%nat -> s_pcs y' = set_pc (s_pcs y) i p ->
    s_clock y' = s_clock y -> t_writer (s_tps y') = t_writer (s_tps y) -> g_time (s_tps y') = g_time (s_tps y) ->
    (turning l = false -> t_slots (s_tps y') = t_slots (s_tps y)) ->
    phase y' l ->
    (hot y' l i = true -> hot y l i = true) ->
    (forall o now diff, p = PSwap o now diff -> now <= s_clock y) ->
    (forall cur j acc, p = PSum cur j acc -> (j <= 9)%nat /\ (undisturbed i l = true -> acc = fold_left sat_add (firstn j (t_slots (s_tps y'))) 0 /\
                 - wtot l <= cur + slot_sum y' <= dtot l)) ->
    rinv n y' l.
  Proof.
    intros I Hi E Ec Ew Eg Es Ph Hh Hs Hsum. rewrite <- (r_n I) in Hi. destruct (@pc_set y y' i _ E Hi) as [P1 P2].
    assert (Eh : forall j, j <> i -> hot y' l j = hot y l j).
    { intros j Hj. unfold hot. rewrite (P2 _ Hj). destruct (pc y j); auto. destruct (undisturbed j l) eqn:U; auto.
      unfold slot_sum. rewrite Es by (eapply undisturbed_rest; eauto). reflexivity. }
    split.
    - rewrite E, set_pc_length. apply I.
    - apply I.
    - exact Ph.
    - rewrite Ew. apply I.
    - rewrite Eg, Ec. apply I.
    - intros j o now diff Hj. rewrite Ec. destruct (Nat.eq_dec j i) as [->|Ne]; [rewrite P1 in Hj; eapply Hs; eauto|].
      rewrite (P2 _ Ne) in Hj. eapply (r_now I); eauto.
    - intros j cur k acc Hj. destruct (Nat.eq_dec j i) as [->|Ne]; [rewrite P1 in Hj; eapply Hsum; eauto|].
      rewrite (P2 _ Ne) in Hj. destruct (r_sum I _ Hj) as [A B]. split; [exact A|]. intros U. specialize (B U).
      unfold slot_sum in *. rewrite Es by (eapply undisturbed_rest; eauto). exact B.
    - intros j U H. destruct (Nat.eq_dec j i) as [->|Ne]; [apply (r_warm I i U); auto|]. rewrite (Eh _ Ne) in H. eapply (r_warm I); eauto.
    - intros W. assert (X := r_hot I W). assert (C : count (hot y' l) n <= count (hot y l) n).
      { rewrite <- (r_n I). rewrite (@count_change (hot y l) (hot y' l) i) by (auto; intros; symmetry; auto).
        destruct (hot y' l i); [rewrite Hh by reflexivity; cbn; lia|]. destruct (hot y l i); cbn [b2z]; lia. }
      assert (S4 := sane_withdraw S). nia.
  Qed.

  Lemma rinv_refused n y l i : rinv n y l -> rinv n y (CRefused i :: l).
  Proof.
    intros [A B C D E F G H I]. split; auto.
    - intros j now k [X|X]; [discriminate X|eauto].
    - destruct C as [C1 C2 C3|j o now diff C1 C2 C3 C4 C5 C6|j o now diff v k C1 C2 C3 C4 C5 C6 C7 C8 C9 C10 C11|j o now diff idx M C1 C2 C3 C4 C5 C6 C7 C8 C9 C10].
      + apply ph_rest; auto.
      + eapply ph_swap; eauto.
      + eapply ph_store; eauto.
      + eapply ph_zero; eauto.
  Qed.

  Lemma bal_load i l : bal (CLoad i :: l) = bal l.
  Proof. reflexivity. Qed.

  Lemma phase_log y l e : match e with CLoad _ | CRefused _ => True | _ => False end -> phase y l -> phase y (e :: l).
  Proof.
    intros He C. destruct e; try contradiction;
    (destruct C as [C1 C2 C3|j o now diff C1 C2 C3 C4 C5 C6|j o now diff v k C1 C2 C3 C4 C5 C6 C7 C8 C9 C10 C11|j o now diff idx M C1 C2 C3 C4 C5 C6 C7 C8 C9 C10];
     [apply ph_rest; auto|eapply ph_swap; eauto|eapply ph_store; eauto|eapply ph_zero; eauto]).
  Qed.

  (** Changing the position of a thread that does not hold the lock. *)
  Lemma phase_pc y y' l i p : phase y l -> (i < length (s_pcs y))%nat -> s_pcs y' = set_pc (s_pcs y) i p ->
    holding (pc y i) = false -> holding p = false -> s_lock y' = s_lock y ->
    g_index (s_tps y') = g_index (s_tps y) -> g_time (s_tps y') = g_time (s_tps y) -> t_slots (s_tps y') = t_slots (s_tps y) -> phase y' l.
  Proof.
    intros C Hi E Hn Hp El Ei Eg Es. destruct (@pc_set y y' i _ E Hi) as [P1 P2].
    assert (Hold : forall j, holding (pc y j) = false -> holding (pc y' j) = false).
    { intros j Hj. destruct (Nat.eq_dec j i) as [->|Ne]; [rewrite P1; exact Hp|rewrite (P2 _ Ne); exact Hj]. }
    destruct C as [C1 C2 C3|j o now diff C1 C2 C3 C4 C5 C6|j o now diff v k C1 C2 C3 C4 C5 C6 C7 C8 C9 C10 C11|j o now diff idx M C1 C2 C3 C4 C5 C6 C7 C8 C9 C10].
    - apply ph_rest; [congruence|auto|]. unfold ring_at in *. rewrite Ei, Eg, Es. exact C3.
    - assert (j <> i) by (intros ->; rewrite C2 in Hn; discriminate Hn).
      eapply ph_swap with (i := j); [congruence|rewrite P2; eauto|auto| |rewrite Eg; exact C5|exact C6]. unfold ring_at in *. rewrite Ei, Eg, Es. exact C4.
    - assert (j <> i) by (intros ->; rewrite C2 in Hn; discriminate Hn).
      apply (@ph_store y' l j o now diff v k); try rewrite Es; try rewrite Ei; auto; [congruence|rewrite P2; auto].
    - assert (j <> i) by (intros ->; rewrite C2 in Hn; discriminate Hn).
      apply (@ph_zero y' l j o now diff idx M); try rewrite Es; try rewrite Ei; auto; [congruence|rewrite P2; auto].
  Qed.

  Lemma phase_rest y l : phase y l -> turning l = false -> ring c (gN l) (t_slots (s_tps y)) (gG l).
  Proof.
    intros C T. destruct C as [C1 C2 C3|j o now diff C1 C2 C3 C4 C5 C6|j o now diff v k C1 C2 C3 C4 C5 C6 C7 C8 C9 C10 C11|j o now diff idx M C1 C2 C3 C4 C5 C6 C7 C8 C9 C10]; try congruence.
    - apply C3.
    - apply C4.
  Qed.

  (** The balance is read. *)
  Lemma rinv_load n y y' l i : rinv n y l -> (i < n)%nat -> pc y i = PLoad -> s_pcs y' = set_pc (s_pcs y) i (PSum (t_writer (s_tps y)) 0 0) ->
    s_clock y' = s_clock y -> s_tps y' = s_tps y -> s_lock y' = s_lock y -> fits_log c l ->
    rinv n y' (CLoad i :: l).
  Proof.
    intros I Hi Hp E Ec Et El F. assert (Hi' := Hi). rewrite <- (r_n I) in Hi. destruct (@pc_set y y' i _ E Hi) as [P1 P2].
    assert (Us : undisturbed i (CLoad i :: l) = negb (turning l)) by (cbn [undisturbed]; rewrite Nat.eqb_refl; reflexivity).
    assert (Uo : forall j, j <> i -> undisturbed j (CLoad i :: l) = undisturbed j l).
    { intros j Hj. cbn [undisturbed]. destruct (Nat.eqb_spec i j); [congruence|reflexivity]. }
    assert (Hs : hot y l i = false) by (unfold hot; rewrite Hp; reflexivity).
    assert (Eh : forall j, j <> i -> hot y' (CLoad i :: l) j = hot y l j).
    { intros j Hj. unfold hot, slot_sum. rewrite (P2 _ Hj), (Uo _ Hj), Et. reflexivity. }
    assert (B : turning l = false -> bal l = t_reserve c + t_writer (s_tps y) + slot_sum y).
    { intros T. rewrite (r_writer I). apply bal_at; [apply I|]. apply phase_rest; [apply I|exact T]. }
    assert (Hh : turning l = false -> hot y' (CLoad i :: l) i = (t_withdraw c <=? bal l)).
    { intros T. unfold hot. rewrite P1, Us, T. cbn [negb]. rewrite (B T). unfold slot_sum. rewrite Et. reflexivity. }
    split.
    - rewrite E, set_pc_length. apply I.
    - intros j now k [X|X]; [discriminate X|eapply (r_pos I); eauto].
    - apply phase_log; [exact Logic.I|]. eapply phase_pc; [apply I|exact Hi|exact E|rewrite Hp; reflexivity|reflexivity|exact El| | |]; rewrite Et; reflexivity.
    - rewrite Et. apply I.
    - rewrite Et, Ec. apply I.
    - intros j o now diff Hj. rewrite Ec. destruct (Nat.eq_dec j i) as [->|Ne]; [rewrite P1 in Hj; discriminate Hj|].
      rewrite (P2 _ Ne) in Hj. eapply (r_now I); eauto.
    - intros j cur k acc Hj. destruct (Nat.eq_dec j i) as [->|Ne].
      + rewrite P1 in Hj. injection Hj as <- <- <-. split; [lia|]. rewrite Us. intros T. apply negb_true_iff in T. split; [reflexivity|].
        unfold slot_sum. rewrite Et. rewrite (r_writer I). rewrite (ring_sum l (phase_rest (r_phase I) T)).
        assert (V : at_ c (gN l) (gG l) + val c (old (gN l)) (gG l) = val c (fun x => gN l - 10 <=? x_n x) (gG l)).
        { change (at_ c (gN l) (gG l)) with (val c (fun x => x_n x =? gN l) (gG l)). symmetry. apply val_split. intros x Hx.
          assert (T' := tags_le (r_pos I) _ Hx). unfold old.
          destruct (Z.eqb_spec (x_n x) (gN l)), (Z.leb_spec (gN l - 10) (x_n x)), (Z.ltb_spec (x_n x) (gN l)); cbn; auto; lia. }
        rewrite V. exact (part_range (fun x => gN l - 10 <=? x_n x) l).
      + rewrite (P2 _ Ne) in Hj. rewrite (Uo _ Ne). unfold slot_sum. rewrite Et. exact (r_sum I _ Hj).
    - intros j U H. destruct (Nat.eq_dec j i) as [->|Ne].
      + rewrite Us in U. apply negb_true_iff in U. rewrite (Hh U) in H. apply Z.leb_le in H. left. auto.
      + rewrite (Uo _ Ne) in U. rewrite (Eh _ Ne) in H. right. eapply (r_warm I); eauto.
    - intros W. rewrite bal_load. assert (T : turning l = false) by (apply warm_rest in W; exact W).
      assert (C := @count_change (hot y l) (hot y' (CLoad i :: l)) i n Hi' (fun j _ Hj => eq_sym (Eh j Hj))).
      rewrite Hs, (Hh T) in C. cbn [b2z] in C. assert (S4 := sane_withdraw S).
      destruct (Z.leb_spec (t_withdraw c) (bal l)) as [L|L]; cbn [b2z] in C.
      + assert (CL := count_le (hot y' (CLoad i :: l)) n). nia.
      + destruct W as [[_ W]|W]; [lia|]. assert (X := r_hot I W). rewrite C. lia.
  Qed.

  (** The balance changes. *)
  Lemma bal_add i o t l : pos_turns l -> bal (CAdd i o t :: l) = bal l + match o with Deposit => t_deposit c | Withdraw => - t_withdraw c end.
  Proof. intros P. unfold bal, balance. destruct o; cbn [recents deps wds]; lia. Qed.
  Lemma at_add i o t l : at_ c (gN l) (gG (CAdd i o t :: l)) = at_ c (gN l) (gG l) + match o with Deposit => t_deposit c | Withdraw => - t_withdraw c end.
  Proof. unfold at_, dat, wat. cbn [gens fst snd filter x_n]. rewrite Z.eqb_refl. cbn [map x_e]. destruct o; cbn [ent deps wds]; lia. Qed.
  Lemma at_add_other i o t l n : n <> gN l -> at_ c n (gG (CAdd i o t :: l)) = at_ c n (gG l).
  Proof. intros H. unfold at_, dat, wat. cbn [gens fst snd filter x_n]. destruct (Z.eqb_spec (gN l) n); [congruence|reflexivity]. Qed.

  Lemma rinv_add n y y' l i o t v : rinv n y l -> (i < n)%nat -> pc y i = match o with Deposit => PAdd | Withdraw => PSub end ->
    v = match o with Deposit => t_deposit c | Withdraw => - t_withdraw c end ->
    s_pcs y' = set_pc (s_pcs y) i PIdle -> s_clock y' = s_clock y -> s_tps y' = add_writer v (s_tps y) -> s_lock y' = s_lock y ->
    fits_log c (CAdd i o t :: l) ->
    rinv n y' (CAdd i o t :: l).
  Proof.
    intros I Hi Hp Ev E Ec Et El F. assert (Hi' := Hi). rewrite <- (r_n I) in Hi. destruct (@pc_set y y' i _ E Hi) as [P1 P2].
    assert (Fl : fits_log c l) by (apply (@fits_less l [CAdd i o t]); exact F).
    assert (S4 := sane_withdraw S). assert (S3 := sane_deposit S). assert (S2 := sane_reserve S).
    assert (Slots : t_slots (s_tps y') = t_slots (s_tps y)) by (rewrite Et; reflexivity).
    assert (Eh : forall j, j <> i -> hot y' (CAdd i o t :: l) j = hot y l j).
    { intros j Hj. unfold hot, slot_sum. rewrite (P2 _ Hj), Slots. reflexivity. }
    assert (Hs : hot y' (CAdd i o t :: l) i = false) by (unfold hot; rewrite P1; reflexivity).
    assert (Hb : hot y l i = match o with Deposit => false | Withdraw => true end) by (unfold hot; rewrite Hp; destruct o; reflexivity).
    assert (Wx : t_writer (s_tps y') = at_ c (gN l) (gG (CAdd i o t :: l))).
    { rewrite Et. cbn [add_writer t_writer]. assert (Q0 := at_add i o t l). rewrite <- Ev, <- (r_writer I) in Q0. rewrite <- Q0. apply wrap_id.
      change (gN l) with (gN (CAdd i o t :: l)).
      change (at_ c (gN (CAdd i o t :: l)) (gG (CAdd i o t :: l))) with (val c (fun x => x_n x =? gN (CAdd i o t :: l)) (gG (CAdd i o t :: l))).
      assert (Q := part_range (fun x => x_n x =? gN (CAdd i o t :: l)) (CAdd i o t :: l)). unfold fits_log in F.
      fold (dtot (CAdd i o t :: l)) in F. fold (wtot (CAdd i o t :: l)) in F. assert (TN := tot_nonneg (CAdd i o t :: l)). unfold isize_min, isize_max in *. lia. }
    assert (Rg : forall m sl, m <= gN l -> ring c m sl (gG l) -> ring c m sl (gG (CAdd i o t :: l))).
    { intros m sl Hm [L Q]. split; [exact L|]. intros k Hk. rewrite at_add_other by lia. apply Q. exact Hk. }
    split.
    - rewrite E, set_pc_length. apply I.
    - intros j now k [X|X]; [discriminate X|eapply (r_pos I); eauto].
    - assert (Hn : holding (pc y i) = false) by (rewrite Hp; destruct o; reflexivity).
      assert (C := r_phase I).
      assert (Hold : forall j, holding (pc y j) = false -> holding (pc y' j) = false).
      { intros j Hj. destruct (Nat.eq_dec j i) as [->|Ne]; [rewrite P1; reflexivity|rewrite (P2 _ Ne); exact Hj]. }
      assert (Ei : g_index (s_tps y') = g_index (s_tps y)) by (rewrite Et; reflexivity).
      assert (Eg : g_time (s_tps y') = g_time (s_tps y)) by (rewrite Et; reflexivity).
      destruct C as [C1 C2 C3|j q now diff C1 C2 C3 C4 C5 C6|j q now diff u k C1 C2 C3 C4 C5 C6 C7 C8 C9 C10 C11|j q now diff idx M C1 C2 C3 C4 C5 C6 C7 C8 C9 C10].
      + apply ph_rest; [congruence|auto|]. unfold ring_at in *. rewrite Ei, Eg, Slots. destruct C3 as (A1 & A2 & A3 & A4).
        split; [exact A1|]. split; [apply Rg; [cbn; lia|exact A2]|]. auto.
      + assert (j <> i) by (intros ->; rewrite C2 in Hn; discriminate Hn).
        eapply ph_swap with (i := j); [congruence|rewrite P2; eauto|auto| |rewrite Eg; exact C5|exact C6].
        unfold ring_at in *. rewrite Ei, Eg, Slots. destruct C4 as (A1 & A2 & A3 & A4).
        split; [exact A1|]. split; [apply Rg; [cbn; lia|exact A2]|]. auto.
      + assert (j <> i) by (intros ->; rewrite C2 in Hn; discriminate Hn).
        assert (Kp : 1 <= k) by (rewrite C5; apply ceil_two; assert (X := sane_window S); lia).
        apply (@ph_store y' (CAdd i o t :: l) j q now diff u k); try rewrite Slots; try rewrite Ei; auto.
        * congruence.
        * rewrite P2; eauto.
        * apply Rg; [cbn [gens fst]; lia|]. exact C8.
        * rewrite at_add_other by (cbn [gens fst]; lia). exact C10.
        * intros m Hm. cbn [gens fst] in Hm. rewrite at_add_other by lia. apply C11. exact Hm.
      + assert (j <> i) by (intros ->; rewrite C2 in Hn; discriminate Hn).
        assert (Kp : 1 <= ceil_div diff (t_window c)) by (pose proof (@ceil_spec diff (t_window c) (sane_window S)); assert (X := sane_window S); nia).
        apply (@ph_zero y' (CAdd i o t :: l) j q now diff idx M); try rewrite Slots; try rewrite Ei; auto.
        * congruence.
        * rewrite P2; eauto.
        * apply Rg; [lia|]. exact C8.
        * intros m Hm. cbn [gens fst] in Hm. rewrite at_add_other by lia. apply C10. exact Hm.
    - exact Wx.
    - rewrite Et, Ec. apply I.
    - intros j q now diff Hj. rewrite Ec. destruct (Nat.eq_dec j i) as [->|Ne]; [rewrite P1 in Hj; discriminate Hj|].
      rewrite (P2 _ Ne) in Hj. eapply (r_now I); eauto.
    - intros j cur k acc Hj. destruct (Nat.eq_dec j i) as [->|Ne]; [rewrite P1 in Hj; discriminate Hj|].
      rewrite (P2 _ Ne) in Hj. unfold slot_sum. rewrite Slots. destruct (r_sum I _ Hj) as [A B]. split; [exact A|].
      intros U. destruct (B U) as [B1 B2]. split; [exact B1|]. unfold dtot, wtot, slot_sum in *. destruct o; cbn [added deps wds]; lia.
    - intros j U H. destruct (Nat.eq_dec j i) as [->|Ne]; [rewrite Hs in H; discriminate H|].
      rewrite (Eh _ Ne) in H. cbn [warm]. eapply (r_warm I); eauto.
    - intros W. cbn [warm] in W. assert (X := r_hot I W). rewrite bal_add by apply I.
      assert (C := @count_change (hot y l) (hot y' (CAdd i o t :: l)) i n Hi' (fun j _ Hj => eq_sym (Eh j Hj))).
      rewrite Hs, Hb in C. rewrite C. destruct o; cbn [b2z]; lia.
  Qed.

  (** The ring starts to turn. *)
  Lemma rinv_swap n y y' l i o now diff : rinv n y l -> (i < n)%nat -> pc y i = PSwap o now diff ->
    s_pcs y' = set_pc (s_pcs y) i (PStore o now diff (t_writer (s_tps y))) -> s_clock y' = s_clock y -> s_lock y' = true ->
    s_tps y' = Tps (g_index (s_tps y)) (g_time (s_tps y)) (t_slots (s_tps y)) 0 ->
    rinv n y' (CSwap i now (ceil_div diff (t_window c)) :: l) /\ turning l = false /\
    diff = now - last_turn t0 l /\ t_window c <= diff.
  Proof.
    intros I Hi Hp E Ec El Et. assert (Hi' := Hi). rewrite <- (r_n I) in Hi. destruct (@pc_set y y' i _ E Hi) as [P1 P2].
    assert (Hw := sane_window S).
    assert (C := r_phase I).
    destruct C as [C1 C2 C3|j q now' diff' C1 C2 C3 C4 C5 C6|j q now' diff' u k C1 C2 C3 C4 C5 C6 C7 C8 C9 C10 C11|j q now' diff' idx M C1 C2 C3 C4 C5 C6 C7 C8 C9 C10];
      [assert (X := C2 i); rewrite Hp in X; discriminate X| | |].
    2: { destruct (Nat.eq_dec i j) as [<-|Ne]; [congruence|]. assert (X := C3 _ Ne). rewrite Hp in X. discriminate X. }
    2: { destruct (Nat.eq_dec i j) as [<-|Ne]; [congruence|]. assert (X := C3 _ Ne). rewrite Hp in X. discriminate X. }
    destruct (Nat.eq_dec i j) as [<-|Ne]; [|assert (X := C3 _ Ne); rewrite Hp in X; discriminate X].
    rewrite Hp in C2. injection C2 as <- <- <-. destruct C4 as (A1 & A2 & A3 & A4).
    assert (Kp := @ceil_two diff (t_window c) ltac:(lia)). set (k := ceil_div diff (t_window c)) in *.
    split; [|split; [exact A1|split; [congruence|exact C6]]].
    assert (TL := tags_le (r_pos I)).
    assert (Z0 : forall m, gN l < m -> at_ c m (gG l) = 0).
    { intros m Hm. unfold at_, dat, wat. assert (Fl : filter (fun x => x_n x =? m) (gG l) = []).
      { clear - TL Hm. induction (gG l) as [|x G IH]; [reflexivity|]. cbn [filter]. assert (x_n x <= gN l) by (apply TL; left; reflexivity).
        destruct (Z.eqb_spec (x_n x) m); [lia|]. apply IH. intros; apply TL; right; assumption. }
      rewrite Fl. cbn [map deps wds]. lia. }
    split.
    - rewrite E, set_pc_length. apply I.
    - intros j now' k' [X|X]; [injection X as <- <- <-; lia|eapply (r_pos I); eauto].
    - apply (@ph_store y' (CSwap i now k :: l) i o now diff (t_writer (s_tps y)) k); cbn [gens fst snd turning last_turn]; try rewrite Et; cbn [t_slots g_index]; auto.
      + intros j Hj. rewrite (P2 _ Hj). apply C3. exact Hj.
      + replace (gN l + k - k) with (gN l) by lia. exact A2.
      + replace (gN l + k - k) with (gN l) by lia. exact A3.
      + replace (gN l + k - k) with (gN l) by lia. apply I.
      + intros m Hm. apply Z0. lia.
    - rewrite Et. cbn [t_writer gens fst snd]. symmetry. apply Z0. lia.
    - rewrite Ec, Et. cbn [last_turn g_time]. destruct (r_clock I) as (B1 & B2 & B3). split; [exact B1|].
      assert (X := r_now I _ Hp). lia.
    - intros j q now' diff' Hj. rewrite Ec. destruct (Nat.eq_dec j i) as [->|Ne]; [rewrite P1 in Hj; discriminate Hj|].
      rewrite (P2 _ Ne) in Hj. eapply (r_now I); eauto.
    - intros j cur m acc Hj. destruct (Nat.eq_dec j i) as [->|Ne]; [rewrite P1 in Hj; discriminate Hj|].
      rewrite (P2 _ Ne) in Hj. split; [apply (r_sum I _ Hj)|]. intros U. discriminate U.
    - intros j U. discriminate U.
    - intros W. destruct W.
  Qed.

  (** The ring has been turned. *)
  Lemma rinv_end n y y' l i o now diff idx p : rinv n y l -> (i < n)%nat -> pc y i = PZero o now diff idx -> diff <= t_window c ->
    holding p = false -> (forall cur j acc, p <> PSum cur j acc) ->
    s_pcs y' = set_pc (s_pcs y) i p -> s_clock y' = s_clock y -> s_lock y' = false ->
    s_tps y' = Tps idx now (t_slots (s_tps y)) (t_writer (s_tps y)) ->
    rinv n y' (CEnd i :: l) /\ turning l = true.
  Proof.
    intros I Hi Hp Hd Hq Hns E Ec El Et. assert (Hi' := Hi). rewrite <- (r_n I) in Hi. destruct (@pc_set y y' i _ E Hi) as [P1 P2].
    assert (Hw := sane_window S). assert (C := r_phase I).
    destruct C as [C1 C2 C3|j q now' diff' C1 C2 C3 C4 C5 C6|j q now' diff' u k C1 C2 C3 C4 C5 C6 C7 C8 C9 C10 C11|j q now' diff' idx' M C1 C2 C3 C4 C5 C6 C7 C8 C9 C10];
      [assert (X := C2 i); rewrite Hp in X; discriminate X| | |].
    1: { destruct (Nat.eq_dec i j) as [<-|Ne]; [congruence|]. assert (X := C3 _ Ne). rewrite Hp in X. discriminate X. }
    1: { destruct (Nat.eq_dec i j) as [<-|Ne]; [congruence|]. assert (X := C3 _ Ne). rewrite Hp in X. discriminate X. }
    destruct (Nat.eq_dec i j) as [<-|Ne]; [|assert (X := C3 _ Ne); rewrite Hp in X; discriminate X].
    rewrite Hp in C2. injection C2 as <- <- <- <-.
    assert (K1 : ceil_div diff (t_window c) = 1) by (pose proof (@ceil_spec diff (t_window c) Hw); nia).
    rewrite K1 in C6. replace (M + (1 - 1)) with M in C6 by lia. subst M.
    split; [|exact C4]. split.
    - rewrite E, set_pc_length. apply I.
    - intros j now' k' [X|X]; [discriminate X|eapply (r_pos I); eauto].
    - apply ph_rest; [exact El| |].
      + intros j. destruct (Nat.eq_dec j i) as [->|Ne]; [rewrite P1; exact Hq|]. rewrite (P2 _ Ne). apply C3. exact Ne.
      + split; [reflexivity|]. rewrite Et. cbn [t_slots g_index g_time gens last_turn]. auto.
    - rewrite Et. cbn [t_writer gens]. apply I.
    - rewrite Ec, Et. cbn [g_time last_turn]. destruct (r_clock I). lia.
    - intros j q now' diff' Hj. rewrite Ec. destruct (Nat.eq_dec j i) as [->|Ne]; [rewrite P1 in Hj; rewrite Hj in Hq; discriminate Hq|].
      rewrite (P2 _ Ne) in Hj. eapply (r_now I); eauto.
    - intros j cur m acc Hj. destruct (Nat.eq_dec j i) as [->|Ne]; [rewrite P1 in Hj; destruct (Hns _ _ _ Hj)|].
      rewrite (P2 _ Ne) in Hj. split; [apply (r_sum I _ Hj)|]. intros U. discriminate U.
    - intros j U. discriminate U.
    - intros W. destruct W.
  Qed.
End Race.
