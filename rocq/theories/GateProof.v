(** Proofs for C82. *)
From Verif Require Import Base Middleware Limits ConcProof MeterSpec FlightSpec SwiftMore GateSpec.
Set Implicit Arguments.

Section Gate.
  Context {W Req Resp Err P : Type} (svc : Service W Req Resp Err) (debug : bool).
  Notation cl := (gated svc debug).

  Definition cpoll_spec (s : conc_st svc) (x : sem * W) x1 (s1 : conc_st svc) (a : poll (result unit Err)) : Prop :=
    (cl_permit s = true /\ fst x1 = fst x /\ cl_wait s1 = cl_wait s /\ cl_permit s1 = true /\
       poll_ready svc (cl_inner s) (snd x) = (snd x1, Val (cl_inner s1, a))) \/
    (cl_permit s = false /\ sem_poll (cl_wait s) (fst x) = (fst x1, cl_wait s1, true) /\ cl_permit s1 = true /\
       poll_ready svc (cl_inner s) (snd x) = (snd x1, Val (cl_inner s1, a))) \/
    (cl_permit s = false /\ sem_poll (cl_wait s) (fst x) = (fst x1, cl_wait s1, false) /\ cl_permit s1 = false /\ a = Pending).

  Lemma cpoll s x x1 s1 a : poll_ready cl s x = (x1, Val (s1, a)) -> cpoll_spec s x x1 s1 a.
  Proof.
    unfold cpoll_spec. destruct s as [si sw sp], x as [m w]. cbn [gated conc_limit poll_ready cl_permit cl_wait cl_inner fst snd].
    destruct sp.
    - unfold bind, lift_snd, ret. cbn [fst snd]. destruct (poll_ready svc si w) as [w1 [[s2 a2]| |]]; try discriminate.
      intros E. injection E as <- <- <-. left. cbn. auto.
    - unfold bind, get, modify, lift_snd, ret. cbn [fst snd].
      destruct (sem_poll sw m) as [[m1 wt] [|]]; cbn [fst snd].
      + destruct (poll_ready svc si w) as [w1 [[s2 a2]| |]]; try discriminate.
        intros E. injection E as <- <- <-. right; left. cbn. auto.
      + intros E. injection E as <- <- <-. right; right. cbn. auto.
  Qed.

  (** How many of the handles hold a permit. *)
  Fixpoint held (l : list (conc_st svc)) : nat :=
    match l with [] => 0 | s :: l' => (if cl_permit s then 1 else 0) + held l' end.
  Lemma held_set l : forall i s s1, nth_error l i = Some s ->
    held (set_nth i s1 l) + (if cl_permit s then 1 else 0) = held l + (if cl_permit s1 then 1 else 0).
  Proof.
    induction l as [|y l IH]; intros [|i] s s1 E; try discriminate; cbn [set_nth held nth_error] in *.
    - injection E as ->. lia.
    - specialize (IH i s s1 E). lia.
  Qed.
  Lemma held_le l : held l <= length l.
  Proof. induction l as [|y l IH]; cbn; [lia|]. destruct (cl_permit y); lia. Qed.
  Lemma held_lt l : forall i s, nth_error l i = Some s -> cl_permit s = false -> held l < length l.
  Proof.
    induction l as [|y l IH]; intros [|i] s E F; try discriminate; cbn [held length nth_error] in *.
    - injection E as ->. rewrite F. pose proof (held_le l). lia.
    - specialize (IH i s E F). destruct (cl_permit y); lia.
  Qed.
  Lemma held_all l : (forall i s, nth_error l i = Some s -> cl_permit s = true) -> held l = length l.
  Proof.
    induction l as [|y l IH]; intros H; cbn; [reflexivity|].
    rewrite (H 0 y eq_refl), IH; [reflexivity|]. intros i s E. exact (H (S i) s E).
  Qed.

  (** The semaphore, as the only handle [wait] in its line sees it. *)
  Definition line (wait : option nat) (m : sem) : Prop :=
    match wait with
    | None => sem_queue m = [] /\ sem_granted m = []
    | Some t => (sem_queue m = [t] /\ sem_granted m = [] /\ sem_avail m = 0) \/ (sem_queue m = [] /\ sem_granted m = [t])
    end.
  Lemma line_poll wait m m1 wait1 got : line wait m -> sem_poll wait m = (m1, wait1, got) ->
    line wait1 m1 /\ sem_avail m1 + length (sem_granted m1) + (if got then 1 else 0) = sem_avail m + length (sem_granted m) /\
    (got = true -> wait1 = None) /\ (got = false -> sem_avail m + length (sem_granted m) = 0).
  Proof.
    destruct m as [a q g nx]. destruct wait as [t|]; cbn [line sem_poll sem_queue sem_granted sem_avail sem_next].
    - intros [(-> & -> & ->) | (-> & ->)].
      + cbn. intros E. injection E as <- <- <-. cbn. repeat split; auto; try discriminate; lia.
      + cbn [mem_nat existsb]. rewrite Nat.eqb_refl. cbn [orb remove_nat]. rewrite Nat.eqb_refl.
        intros E. injection E as <- <- <-. cbn. repeat split; auto; try discriminate; lia.
    - intros (-> & ->). destruct a as [|a]; intros E; injection E as <- <- <-; cbn; repeat split; auto; try discriminate; lia.
  Qed.
  Lemma line_release wait m : line wait m ->
    line wait (sem_release m) /\
    sem_avail (sem_release m) + length (sem_granted (sem_release m)) = S (sem_avail m + length (sem_granted m)).
  Proof.
    destruct m as [a q g nx]. unfold sem_release. cbn [sem_queue sem_granted sem_avail sem_next].
    destruct wait as [t|]; cbn [line sem_queue sem_granted sem_avail sem_next].
    - intros [(-> & -> & ->) | (-> & ->)]; cbn; split; auto; lia.
    - intros (-> & ->). cbn. split; auto; lia.
  Qed.

  Definition waits (l : list (conc_st svc)) (nr : list nat) : option nat :=
    match nr with [] => None | i :: _ => match nth_error l i with Some s => cl_wait s | None => None end end.
  Record ginv (max n k : nat) (m : sem) (l : list (conc_st svc)) (nr : list nat) : Prop := {
    gi_len : length l = n;
    gi_perm : forall i s, nth_error l i = Some s -> ~ In i nr -> cl_permit s = true;
    gi_wait : forall i s, nth_error l i = Some s -> cl_wait s <> None -> exists nr', nr = i :: nr';
    gi_line : line (waits l nr) m;
    gi_nodup : NoDup nr;
    gi_idle : forall i s, nth_error l i = Some s -> cl_permit s = true -> cl_wait s = None;
    gi_sum : sem_avail m + length (sem_granted m) + held l + k = max }.

  Lemma gi_pop max n k m l i nr s : ginv max n k m l (i :: nr) -> nth_error l i = Some s -> cl_permit s = true ->
    ginv max n k m l nr.
  Proof.
    intros [L Pm Wt Ln Nd Id Sm] Ei Ep. inversion Nd as [|? ? Hn Hd]; subst.
    assert (Hno : forall j t, nth_error l j = Some t -> cl_wait t = None).
    { intros j t Ej. destruct (cl_wait t) eqn:E; [|reflexivity].
      destruct (Wt j t Ej) as (nr' & En); [congruence|]. injection En as -> _.
      rewrite Ei in Ej. injection Ej as ->. rewrite (Id j t Ei Ep) in E. discriminate. }
    constructor; auto.
    - intros j t Ej Hj. destruct (Nat.eq_dec i j) as [->|Hij]; [congruence|]. apply (Pm j t Ej). cbn. tauto.
    - intros j t Ej Hw. destruct (Hw (Hno j t Ej)).
    - cbn [waits] in Ln. rewrite Ei, (Hno i s Ei) in Ln. destruct nr as [|j nr]; cbn [waits]; [exact Ln|].
      destruct (nth_error l j) as [t|] eqn:Ej; [rewrite (Hno j t Ej)|]; exact Ln.
  Qed.

  Lemma gi_poll max n k m l i nr (s : conc_st svc) x x1 (s1 : conc_st svc) a : ginv max n k m l (i :: nr) -> nth_error l i = Some s -> fst x = m ->
    poll_ready cl s x = (x1, Val (s1, a)) ->
    ginv max n k (fst x1) (set_nth i s1 l) (i :: nr) /\ (a <> Pending -> cl_permit s1 = true) /\
    (n + k <= max -> (forall s w w1 s1, poll_ready svc s w <> (w1, Val (s1, Pending))) -> a <> Pending).
  Proof.
    intros G Ei <- E. apply cpoll in E. destruct G as [L Pm Wt Ln Nd Id Sm].
    pose proof (held_set l i s1 Ei) as Hs.
    assert (Li : i < length l) by (apply nth_error_Some; congruence).
    assert (Hset : nth_error (set_nth i s1 l) i = Some s1).
    { rewrite nth_set, Nat.eqb_refl, Ei. reflexivity. }
    assert (Hoth : forall j, j <> i -> nth_error (set_nth i s1 l) j = nth_error l j).
    { intros j Hj. rewrite nth_set. destruct (i =? j) eqn:E2; [apply Nat.eqb_eq in E2; congruence | reflexivity]. }
    cbn [waits] in Ln. rewrite Ei in Ln.
    assert (Build : forall w', cl_wait s1 = w' -> line w' (fst x1) -> (cl_permit s1 = true -> w' = None) ->
      sem_avail (fst x1) + length (sem_granted (fst x1)) + held (set_nth i s1 l) + k = max ->
      ginv max n k (fst x1) (set_nth i s1 l) (i :: nr)).
    { intros w' Ew Hl Hp Hsum. constructor.
      - rewrite set_nth_len. exact L.
      - intros j t Ej Hj. rewrite Hoth in Ej by (intros ->; apply Hj; left; reflexivity). apply (Pm j t Ej Hj).
      - intros j t Ej Hj. destruct (Nat.eq_dec j i) as [->|Hne]; [eexists; reflexivity|].
        rewrite Hoth in Ej by exact Hne. exact (Wt j t Ej Hj).
      - cbn [waits]. rewrite Hset, Ew. exact Hl.
      - exact Nd.
      - intros j t Ej Hj. destruct (Nat.eq_dec j i) as [->|Hne].
        + rewrite Hset in Ej. injection Ej as <-. rewrite Ew. auto.
        + rewrite Hoth in Ej by exact Hne. exact (Id j t Ej Hj).
      - exact Hsum. }
    destruct E as [(Ep & Ef & Ew & Ep1 & Ei1) | [(Ep & Es & Ep1 & Ei1) | (Ep & Es & Ep1 & ->)]].
    - rewrite Ep, Ep1 in Hs. split; [|split].
      + apply (Build (cl_wait s)); auto; try congruence. intros _. exact (Id i s Ei Ep). rewrite Ef. lia.
      + auto.
      + intros _ Hno ->. exact (Hno _ _ _ _ Ei1).
    - destruct (@line_poll _ _ _ _ _ Ln Es) as (Hl & Ha & Hg & _). rewrite Ep, Ep1 in Hs. split; [|split].
      + apply (Build (cl_wait s1)); auto. lia.
      + auto.
      + intros _ Hno ->. exact (Hno _ _ _ _ Ei1).
    - destruct (@line_poll _ _ _ _ _ Ln Es) as (Hl & Ha & _ & Hz). rewrite Ep, Ep1 in Hs. split; [|split].
      + apply (Build (cl_wait s1)); auto; [congruence|]. lia.
      + congruence.
      + intros Hk _. pose proof (held_lt _ _ Ei Ep). specialize (Hz eq_refl). lia.
  Qed.

  Lemma gi_steer max n k nr : forall (l : list (conc_st svc)) x x1 (l1 : list (conc_st svc)) nr1 a, ginv max n k (fst x) l nr ->
    steer_poll cl l nr x = (x1, Val (l1, nr1, a)) ->
    ginv max n k (fst x1) l1 nr1 /\ (a = Ready (Ok tt) -> nr1 = []) /\
    (n + k <= max -> (forall s w w1 s1, poll_ready svc s w <> (w1, Val (s1, Pending))) -> a <> Pending).
  Proof.
    induction nr as [|i nr IH]; intros l x x1 l1 nr1 a G; cbn [steer_poll].
    - intros E. injection E as <- <- <- <-. split; [exact G|]. split; [auto|]. intros _ _. discriminate.
    - intros E. change (st (gated svc debug)) with (conc_st svc) in E. destruct (nth_error l i) as [s|] eqn:Ei; [|discriminate E].
      apply ran in E as (x2 & [s1 p] & E1 & E2). cbv zeta in E2.
      destruct (gi_poll _ G Ei eq_refl E1) as (G1 & Hp & Hk).
      destruct p as [|[u|e]].
      + injection E2 as <- <- <- <-. split; [exact G1|]. split; [discriminate|]. exact Hk.
      + apply (IH (set_nth i s1 l)) in E2; [|].
        * exact E2.
        * apply (@gi_pop _ _ _ _ _ i _ s1 G1).
          -- rewrite nth_set, Nat.eqb_refl. rewrite Ei. reflexivity.
          -- apply Hp. discriminate.
      + injection E2 as <- <- <- <-. split; [exact G1|]. split; [discriminate|]. intros _ _. discriminate.
  Qed.

  Context (pick : P -> Req -> list (st (gated svc debug)) -> M (sem * W) (P * nat)) (pclone : P -> M (sem * W) P).
  Notation rs := (routes (svc := svc) (debug := debug) pick pclone).
  Hypothesis Hpick : forall p r l, still (@fst sem W) (pick p r l).

  (** The requests in flight. *)
  Fixpoint flying (l : list (option (fut rs))) : nat :=
    match l with [] => 0 | Some _ :: l' => S (flying l') | None :: l' => flying l' end.
  Lemma flying_holding l : holding rs l = Z.of_nat (flying l).
  Proof. induction l as [|[f|] l IH]; cbn [holding flying]; [reflexivity| |exact IH]. rewrite IH. lia. Qed.
  Lemma flying_app l f : flying (l ++ [Some f]) = S (flying l).
  Proof. induction l as [|[g|] l IH]; cbn [flying app]; lia. Qed.
  Lemma flying_set l : forall j f o, held_at l j = Some f ->
    flying (set_nth j o l) + 1 = flying l + match o with Some _ => 1 | None => 0 end.
  Proof.
    unfold held_at. induction l as [|g l IH]; intros [|j] f o E; try discriminate; cbn [nth_error set_nth flying] in *.
    - subst g. destruct o; cbn [flying]; lia.
    - specialize (IH j f o E). destruct g; lia.
  Qed.

  Definition ginst (max n k : nat) (m : sem) (o : option (st rs)) : Prop :=
    match o with Some s => ginv max n k m (sr_services s) (sr_not_ready s) | None => True end.
  Definition gprog (max n : nat) (y : prog rs) : Prop :=
    exists o, u_svcs y = [o] /\ ginst max n (flying (u_futs y)) (fst (u_world y)) o /\ flying (u_futs y) <= max + 1 - n.

  Lemma held_one (o : option (st rs)) i s : held_at [o] i = Some s -> i = 0 /\ o = Some s.
  Proof. unfold held_at. destruct i as [|i]; cbn; [auto|]. destruct i; discriminate. Qed.

  Lemma gi_full max n k m l : ginv max n k m l [] -> n + k <= max.
  Proof.
    intros G. assert (held l = length l) by (apply held_all; intros i s E; exact (gi_perm G i E (fun H => H))).
    pose proof (gi_sum G). pose proof (gi_len G). lia.
  Qed.

  Lemma gi_call max n k m (s s1 : st rs) r x x1 f : ginv max n k m (sr_services s) (sr_not_ready s) -> fst x = m ->
    call rs s r x = (x1, Val (s1, f)) ->
    ginv max n (S k) (fst x1) (sr_services s1) (sr_not_ready s1) /\ S k <= max + 1 - n.
  Proof.
    intros G <- E. destruct s as [p l nr]. cbn [routes steer call sr_services sr_not_ready sr_router] in *.
    destruct nr as [|i nr]; [|discriminate].
    pose proof (gi_full G) as Hn.
    apply ran in E as (x2 & [p1 idx] & E1 & E). pose proof (Hpick p r l x) as [Hst _]. rewrite E1 in Hst. cbn [fst] in Hst.
    destruct (nth_error l idx) as [c|] eqn:Ei; [|discriminate].
    apply ran in E as (x3 & [c1 f1] & E2 & E). injection E as <- <- <-. cbn [sr_services sr_not_ready].
    destruct c as [ci cw cp]. cbn [gated conc_limit call cl_permit cl_inner cl_wait] in E2.
    destruct cp; [|discriminate]. apply ran in E2 as (x4 & [s2 f2] & E3 & E2). injection E2 as <- <- <-.
    unfold lift_snd in E3. destruct (call svc ci r (snd x2)) as [w4 o4]. injection E3 as <- ->. cbn [fst].
    destruct G as [L Pm Wt Ln Nd Id Sm]. rewrite Hst.
    assert (Hw : cw = None) by exact (Id idx _ Ei eq_refl). subst cw.
    pose proof (held_set l idx (ConcSt svc s2 None false) Ei) as Hs. cbn [cl_permit] in Hs.
    assert (idx < length l) by (apply nth_error_Some; congruence).
    split; [|lia]. change (st (gated svc debug)) with (conc_st svc) in *. constructor.
    - rewrite set_nth_len. exact L.
    - intros j t Ej Hj. rewrite nth_set in Ej. destruct (idx =? j) eqn:E.
      + apply Nat.eqb_eq in E. subst. exfalso. apply Hj. left. reflexivity.
      + exact (Pm j t Ej (fun H => H)).
    - intros j t Ej Hj. rewrite nth_set in Ej. destruct (idx =? j) eqn:E.
      + rewrite (proj1 (Nat.eqb_eq _ _) E) in *. eexists. reflexivity.
      + destruct (Wt j t Ej Hj) as (? & ?). discriminate.
    - cbn [waits]. change (st (gated svc debug)) with (conc_st svc) in *. rewrite nth_set, Nat.eqb_refl, Ei. cbn [cl_wait]. exact Ln.
    - constructor; [auto|constructor].
    - intros j t Ej Hj. rewrite nth_set in Ej. destruct (idx =? j).
      + destruct (nth_error l j) as [t'|]; [injection Ej as <-; reflexivity | discriminate Ej].
      + exact (Id j t Ej Hj).
    - lia.
  Qed.

  Lemma gi_drop max n k m l nr : ginv max n (S k) m l nr -> ginv max n k (sem_release m) l nr.
  Proof.
    intros [L Pm Wt Ln Nd Id Sm]. destruct (@line_release _ _ Ln) as (Hl & Ha). constructor; auto. lia.
  Qed.

  Lemma gstep max n y o : gprog max n y -> op_ok y o ->
    match o with UClone _ => False | UEnv g => same (@fst sem W) g | _ => True end -> gprog max n (ustep y o).
  Proof.
    intros (os & Es & Gi & Hk) Ok1 Al. destruct o as [i|i r|i|i|j|j|g]; cbn [ustep op_ok] in *.
    - destruct (held_at (u_svcs y) i) as [s|] eqn:Eh; [|exists os; auto].
      rewrite Es in Eh. apply held_one in Eh as (-> & ->). cbn [ginst] in Gi.
      destruct (poll_ready rs s (u_world y)) as [w1 [[s1 a]| |]] eqn:E; try contradiction.
      exists (Some s1). cbn [u_svcs u_futs u_world]. rewrite Es. split; [reflexivity|]. split; [|exact Hk].
      cbn [ginst]. destruct s as [p l nr]. cbn [routes steer poll_ready sr_services sr_not_ready sr_router] in *.
      apply ran in E as (x2 & [[l1 nr1] a1] & E1 & E). injection E as <- <- <-. cbn.
      exact (proj1 (gi_steer _ Gi E1)).
    - destruct (held_at (u_svcs y) i) as [s|] eqn:Eh; [|exists os; auto].
      rewrite Es in Eh. apply held_one in Eh as (-> & ->). cbn [ginst] in Gi.
      destruct (call rs s r (u_world y)) as [w1 [[s1 f]| |]] eqn:E; try contradiction.
      exists (Some s1). cbn [u_svcs u_futs u_world]. rewrite Es, flying_app. split; [reflexivity|].
      cbn [ginst]. exact (gi_call _ _ _ Gi eq_refl E).
    - contradiction.
    - destruct (held_at (u_svcs y) i) as [s|] eqn:Eh; [|exists os; auto].
      rewrite Es in Eh. apply held_one in Eh as (-> & ->). exists None. cbn [u_svcs u_futs u_world]. rewrite Es. cbn. auto.
    - destruct (held_at (u_futs y) j) as [f|] eqn:Eh; [|exists os; auto].
      destruct (poll_fut rs f (u_world y)) as [w1 [[f1 a]| |]] eqn:E; try contradiction.
      exists os. cbn [u_svcs u_futs u_world].
      pose proof (flying_set _ _ (Some f1) Eh) as Hf.
      assert (Hf' : flying (set_nth j (Some f1) (u_futs y)) = flying (u_futs y)) by (cbv iota in Hf; lia). rewrite Hf'.
      split; [exact Es|]. split; [|exact Hk].
      cbn [routes steer poll_fut gated conc_limit] in E. unfold lift_snd in E.
      destruct (poll_fut svc f (snd (u_world y))) as [w2 o2]. injection E as <- ->. exact Gi.
    - destruct (held_at (u_futs y) j) as [f|] eqn:Eh; [|exists os; auto].
      exists os. cbn [u_svcs u_futs u_world]. pose proof (flying_set _ _ None Eh) as Hf. cbv iota in Hf.
      split; [exact Es|]. split; [|lia].
      destruct os as [s|]; cbn [ginst] in *; [|exact I].
      cbn [routes steer drop_fut gated conc_limit fst]. apply gi_drop.
      replace (S (flying (set_nth j None (u_futs y)))) with (flying (u_futs y)) by lia. exact Gi.
    - exists os. cbn [u_svcs u_futs u_world]. rewrite (Al (u_world y)). auto.
  Qed.

  Lemma grun max n ops : forall y, gprog max n y -> calm y ops -> alone ops -> gprog max n (urun y ops).
  Proof.
    induction ops as [|o ops IH]; intros y G C A; [exact G|]. destruct C as [C1 C2]. inversion A; subst.
    apply IH; auto. apply gstep; auto.
  Qed.

  Lemma conc_new_nth l i s : nth_error (map (conc_new svc) l) i = Some s -> cl_permit s = false /\ cl_wait s = None.
  Proof. intros E. rewrite nth_error_map in E. destruct (nth_error l i); [|discriminate]. injection E as <-. auto. Qed.
  Lemma held_new l : held (map (conc_new svc) l) = 0.
  Proof. induction l; cbn; auto. Qed.

  Lemma gstart max services p w : gprog max (length services) (gate_start pick pclone max services p w).
  Proof.
    eexists. split; [reflexivity|]. cbn [gate_start ustart u_futs u_world flying ginst steer_new sr_services sr_not_ready fst].
    split; [|lia]. rewrite map_length. constructor.
    - apply map_length.
    - intros i s E H. exfalso. apply H. apply in_seq. split; [lia|]. cbn.
      rewrite <- (map_length (conc_new svc) services). apply nth_error_Some. congruence.
    - intros i s E Hw. destruct (conc_new_nth _ _ E). congruence.
    - unfold waits. destruct (seq 0 (length services)) as [|i nr]; [cbn; auto|].
      destruct (nth_error _ i) as [s|] eqn:E; [|cbn; auto]. destruct (conc_new_nth _ _ E) as [_ ->]. cbn. auto.
    - apply seq_NoDup.
    - intros i s E Hp. destruct (conc_new_nth _ _ E). congruence.
    - cbn. rewrite held_new. lia.
  Qed.

  Section Run.
    Context (max : nat) (services : list (st svc)) (p : P) (w : W) (ops : list (@uop (sem * W) Req)).
    Let y0 := gate_start pick pclone max services p w.
    Let y := urun y0 ops.
    Hypothesis Hc : calm y0 ops.
    Hypothesis Ha : alone ops.
    Lemma gate_capacity : (holding rs (u_futs y) <= Z.of_nat (max + 1 - length services))%Z.
    Proof.
      destruct (grun (gstart max services p w) Hc Ha) as (o & _ & _ & H). fold y0 in H. fold y in H.
      rewrite flying_holding. lia.
    Qed.
    Lemma gate_ready s w1 s1 : held_at (u_svcs y) 0 = Some s ->
      poll_ready rs s (u_world y) = (w1, Val (s1, Ready (Ok tt))) ->
      (Z.of_nat (length services) + holding rs (u_futs y) <= Z.of_nat max)%Z.
    Proof.
      intros Eh E. destruct (grun (gstart max services p w) Hc Ha) as (o & Es & Gi & _). fold y0 in Es, Gi. fold y in Es, Gi.
      rewrite Es in Eh. apply held_one in Eh as (_ & ->). cbn [ginst] in Gi. rewrite flying_holding.
      destruct s as [q l nr]. cbn [routes steer poll_ready sr_services sr_not_ready sr_router] in *.
      apply ran in E as (x2 & [[l1 nr1] a1] & E1 & E). injection E as <- <- ->.
      destruct (gi_steer _ Gi E1) as (G1 & Hr & _). rewrite (Hr eq_refl) in G1. apply gi_full in G1. lia.
    Qed.
    Lemma gate_open s w1 s1 : held_at (u_svcs y) 0 = Some s ->
      (Z.of_nat (length services) + holding rs (u_futs y) <= Z.of_nat max)%Z ->
      (forall s w w1 s1, poll_ready svc s w <> (w1, Val (s1, Pending))) ->
      poll_ready rs s (u_world y) <> (w1, Val (s1, Pending)).
    Proof.
      intros Eh Hk Hno E. destruct (grun (gstart max services p w) Hc Ha) as (o & Es & Gi & _). fold y0 in Es, Gi. fold y in Es, Gi.
      rewrite Es in Eh. apply held_one in Eh as (_ & ->). cbn [ginst] in Gi. rewrite flying_holding in Hk.
      destruct s as [q l nr]. cbn [routes steer poll_ready sr_services sr_not_ready sr_router] in *.
      apply ran in E as (x2 & [[l1 nr1] a1] & E1 & E). injection E as <- <- ->.
      destruct (gi_steer _ Gi E1) as (_ & _ & Hp). apply Hp; auto. lia.
    Qed.
    Lemma gate_starved s w1 s1 : max < length services -> held_at (u_svcs y) 0 = Some s ->
      poll_ready rs s (u_world y) <> (w1, Val (s1, Ready (Ok tt))).
    Proof.
      intros Hm Hh E. pose proof (gate_ready Hh E) as H. rewrite flying_holding in H. lia.
    Qed.
  End Run.
End Gate.
