(** tower-test's Mock: the state after a history. *)
From Verif Require Import Base Middleware LoadProof Mock MockSpec.
Set Implicit Arguments.

Section P.
  Context {T U E : Type}.
  Notation merr := (@merr E).
  Notation mop := (mop T U E).
  Notation mobs := (mobs T U E).
  Notation mworld := (@mworld T U E).
  Notation msys := (@msys T U E).
  Notation mentry := (@mentry T U E).

  (** ** Histories, one entry at a time. *)
  Definition closes (e : mentry) : bool := match fst e with (MDropHandle _, MoDone) => true | _ => false end.
  Lemma closed_snoc (h : list mentry) (e : mentry) : closed (h ++ [e]) = closed h || closes e.
  Proof. unfold closed, closes. rewrite existsb_app. cbn. now rewrite orb_false_r. Qed.
  Definition accepted1 (e : mentry) : list T := match fst e with (MCall _ r, MoCalled) => [r] | _ => [] end.
  Lemma accepted_snoc (h : list mentry) (e : mentry) : accepted (h ++ [e]) = if closed h then accepted h else accepted h ++ accepted1 e.
  Proof.
    induction h as [|[[o b] d] h IH].
    - cbn. destruct e as [[o b] d]. destruct o, b; reflexivity.
    - change (closed ((o, b, d) :: h)) with (closes (o, b, d) || closed h). unfold closes. cbn [fst].
      destruct o; destruct b; cbn [accepted app orb]; try exact IH; try reflexivity. rewrite IH. destruct (closed h); reflexivity.
  Qed.
  Lemma received_snoc (h : list mentry) (e : mentry) : received (h ++ [e]) = received h ++ received [e].
  Proof. unfold received. apply flat_map_app. Qed.
  Lemma wakes_app (h1 h2 : list mentry) : wakes (h1 ++ h2) = wakes h1 ++ wakes h2.
  Proof. apply flat_map_app. Qed.
  Lemma reply_snoc (h : list mentry) (e : mentry) k : reply (h ++ [e]) k = match fst e with (MReply k' x, MoDone) => if k' =? k then Some x else reply h k | _ => reply h k end.
  Proof. unfold reply. now rewrite fold_left_app. Qed.
  Lemma remaining_snoc (h : list mentry) (e : mentry) : remaining (h ++ [e]) = match fst e with (MAllow m, MoDone) => m | (MCall _ _, MoCalled) => N.pred (remaining h) | _ => remaining h end.
  Proof. unfold remaining. now rewrite fold_left_app. Qed.
  Lemma error_snoc (h : list mentry) (e : mentry) : waiting_error (h ++ [e]) =
    match fst e with (MSendError x, MoDone) => Some x | (MReady _ _, MoReady (Ready (Er (MUser _)))) => None | _ => waiting_error h end.
  Proof. unfold waiting_error. now rewrite fold_left_app. Qed.
  Lemma permitted_snoc (h : list mentry) (e : mentry) i : permitted (h ++ [e]) i =
    match fst e with
    | (MReady i' _, MoReady (Ready (Ok _))) => if i' =? i then true else permitted h i
    | (MCall i' _, MoCalled) => if i' =? i then false else permitted h i
    | _ => permitted h i
    end.
  Proof. unfold permitted. now rewrite fold_left_app. Qed.
  Lemma rdrop_snoc (h : list mentry) (e : mentry) k : reply_dropped (h ++ [e]) k = reply_dropped h k || match fst e with (MDropReply k', MoDone) => k' =? k | _ => false end.
  Proof. unfold reply_dropped. rewrite existsb_app. cbn. now rewrite orb_false_r. Qed.
  Lemma rx_snoc (h : list mentry) (e : mentry) : rx_dropped (h ++ [e]) = rx_dropped h || match fst e with (MDropRx, MoDone) => true | _ => false end.
  Proof. unfold rx_dropped. rewrite existsb_app. cbn. now rewrite orb_false_r. Qed.
  Lemma answered_snoc (h : list mentry) (e : mentry) j : answered (h ++ [e]) j = answered h j || match fst e with (MPoll j' _, MoPolled (Ready _)) => j' =? j | _ => false end.
  Proof. unfold answered. rewrite existsb_app. cbn. now rewrite orb_false_r. Qed.

  Lemma misuse_app (h g : list mentry) : misuse h -> misuse (h ++ g).
  Proof. intros (g1 & i & r & d & g2 & -> & H). exists g1, i, r, d, (g2 ++ g). split; [now rewrite <- app_assoc|exact H]. Qed.

  (** ** What the histories tell, in one place. *)
  Record sum := Sum {
    s_closed : bool; s_acc : list T; s_rec : list T; s_rem : N; s_err : option E; s_perm : nat -> bool;
    s_reply : nat -> option (result U merr); s_rdrop : nat -> bool; s_rx : bool; s_ans : nat -> bool; s_mis : Prop }.
  Definition put {A} (i : nat) (x : A) (f : nat -> A) (j : nat) : A := if i =? j then x else f j.
  Definition upd (S : sum) (o : mop) (b : mobs) : sum :=
    let 'Sum c a r n e p rp rd rx an ms := S in
    match o, b with
    | MReady i _, MoReady (Ready (Ok _)) => Sum c a r n e (put i true p) rp rd rx an ms
    | MReady _ _, MoReady (Ready (Er (MUser _))) => Sum c a r n None p rp rd rx an ms
    | MCall i q, MoCalled => Sum c (if c then a else a ++ [q]) r (N.pred n) e (put i false p) rp rd rx an ms
    | MCall i q, MoPanic => Sum c a r n e p rp rd rx an (ms \/ (c = false /\ p i = false))
    | MPoll j _, MoPolled (Ready _) => Sum c a r n e p rp rd rx (put j true an) ms
    | MAllow m, MoDone => Sum c a r m e p rp rd rx an ms
    | MSendError x, MoDone => Sum c a r n (Some x) p rp rd rx an ms
    | MRequest, MoRequest (Ready (Some q)) => Sum c a (r ++ [q]) n e p rp rd rx an ms
    | MReply k x, MoDone => Sum c a r n e p (put k (Some x) rp) rd rx an ms
    | MDropReply k, MoDone => Sum c a r n e p rp (put k true rd) rx an ms
    | MDropHandle _, MoDone => Sum true a r n e p rp rd rx an ms
    | MDropRx, MoDone => Sum c a r n e p rp rd true an ms
    | _, _ => S
    end.
  Definition sum0 : sum := Sum false [] [] u64_max None (fun _ => false) (fun _ => None) (fun _ => false) false (fun _ => false) False.
  Record agree (h : list mentry) (S : sum) : Prop := MkAgree {
    g_closed : closed h = s_closed S; g_acc : accepted h = s_acc S; g_rec : received h = s_rec S; g_rem : remaining h = s_rem S;
    g_err : waiting_error h = s_err S; g_perm : forall i, permitted h i = s_perm S i; g_reply : forall k, reply h k = s_reply S k;
    g_rdrop : forall k, reply_dropped h k = s_rdrop S k; g_rx : rx_dropped h = s_rx S; g_ans : forall j, answered h j = s_ans S j;
    g_mis : s_mis S -> misuse h }.
  Lemma agree0 : agree [] sum0.
  Proof. constructor; try reflexivity. intros []. Qed.
  Lemma agree_upd (h : list mentry) S o b d : agree h S -> agree (h ++ [(o, b, d)]) (upd S o b).
  Proof.
    intros [G1 G2 G3 G4 G5 G6 G7 G8 G9 G10 G11].
    assert (X : forall S1, (s_closed S1 = closed h || closes (o, b, d)) -> s_acc S1 = (if closed h then accepted h else accepted h ++ accepted1 (o, b, d)) ->
      s_rec S1 = received h ++ received [(o, b, d) : mentry] -> s_rem S1 = remaining (h ++ [(o, b, d)]) -> s_err S1 = waiting_error (h ++ [(o, b, d)]) ->
      (forall i, s_perm S1 i = permitted (h ++ [(o, b, d)]) i) -> (forall i, s_reply S1 i = reply (h ++ [(o, b, d)]) i) ->
      (forall i, s_rdrop S1 i = reply_dropped (h ++ [(o, b, d)]) i) -> s_rx S1 = rx_dropped (h ++ [(o, b, d)]) ->
      (forall i, s_ans S1 i = answered (h ++ [(o, b, d)]) i) -> (s_mis S1 -> misuse (h ++ [(o, b, d)])) -> agree (h ++ [(o, b, d)]) S1).
    { intros. constructor; auto. - rewrite closed_snoc; auto. - rewrite accepted_snoc; auto. - rewrite received_snoc; auto. }
    destruct S as [c a r n e p rp rd rx an ms]. cbn in G1, G2, G3, G4, G5, G6, G7, G8, G9, G10, G11.
    apply X; intros; try rewrite remaining_snoc; try rewrite error_snoc; try rewrite permitted_snoc; try rewrite reply_snoc;
    try rewrite rdrop_snoc; try rewrite rx_snoc; try rewrite answered_snoc; cbn [fst];
    destruct o; destruct b as [[|[?|[|?]]]| |[|?]|[|[?|]]| | |]; cbn in *; unfold put; rewrite ?orb_false_r, ?app_nil_r, ?G1, ?G2, ?G3, ?G4, ?G5, ?G6, ?G7, ?G8, ?G9, ?G10;
    auto using misuse_app; try (destruct c; reflexivity);
    try match goal with |- context [if ?a =? ?b then _ else _] => destruct (a =? b); rewrite ?orb_true_r, ?orb_false_r; reflexivity end;
    try (rewrite orb_true_r; reflexivity).
    destruct H as [H|[H1 H2]]; [auto using misuse_app|]. exists h, i, r0, d, []. subst. rewrite G6. auto.
  Qed.

  (** ** The invariant. *)
  Definition fut_ok (S : sum) (j : nat) (f : resp_fut) : Prop :=
    match f with
    | RfClosed => length (s_acc S) <= j
    | RfWait j' => j' = j /\ j < length (s_acc S) /\ s_ans S j = false
    | RfDone => s_ans S j = true
    end.
  Definition over (S : sum) (j : nat) : bool :=
    match s_reply S j with Some _ => true | None => s_rdrop S j || (s_rx S && (length (s_rec S) <=? j)) end.
  Record inv (S : sum) (y : msys) : Prop := MkInv {
    v_closed : is_closed (shared (y_w y)) = s_closed S;
    v_poison : poisoned (y_w y) = true -> s_mis S;
    v_open : y_handle y = HOpen -> s_closed S = false;
    v_shut : y_handle y <> HOpen -> poisoned (y_w y) = false -> s_closed S = true;
    v_rx : rx_live (y_w y) = negb (s_rx S);
    v_gone : s_rx S = true <-> y_handle y = HGone;
    v_rem : s_closed S = false -> rem (shared (y_w y)) = s_rem S;
    v_err : err_with (shared (y_w y)) = s_err S;
    v_ids : forall i m, nth_error (y_mocks y) i = Some (Some m) -> id m = i;
    v_next : length (y_mocks y) = next_clone_id (shared (y_w y));
    v_can : forall i m, s_closed S = false -> nth_error (y_mocks y) i = Some (Some m) -> can_send m = s_perm S i;
    v_tasks : tasks (shared (y_w y)) <> [] -> rem (shared (y_w y)) = 0%N /\ s_closed S = false /\ s_err S = None;
    v_wait : forall i t m, In (i, t) (tasks (shared (y_w y))) -> nth_error (y_mocks y) i = Some (Some m) -> can_send m = false;
    v_keys : forall i t, In (i, t) (tasks (shared (y_w y))) -> i < length (y_mocks y);
    v_none : forall i, length (y_mocks y) <= i -> s_perm S i = false;
    v_queue : s_rx S = false -> s_acc S = s_rec S ++ map fst (queue (y_w y)) /\
       map snd (queue (y_w y)) = seq (length (s_rec S)) (length (queue (y_w y)));
    v_queue0 : s_rx S = true -> queue (y_w y) = [];
    v_prefix : exists q, s_acc S = s_rec S ++ q;
    v_shots : length (oneshots (y_w y)) = length (s_acc S);
    v_shot : forall j o, nth_error (oneshots (y_w y)) j = Some o -> os_val o = s_reply S j /\ os_tx o = negb (over S j);
    v_replies : length (y_replies y) = length (s_rec S);
    v_reply : forall k x, nth_error (y_replies y) k = Some x ->
       match x with Some j => j = k /\ over S k = false | None => over S k = true end;
    v_late : forall k, length (s_rec S) <= k -> s_reply S k = None /\ s_rdrop S k = false;
    v_futs : forall j f, nth_error (y_futs y) j = Some (Some f) -> fut_ok S j f;
    v_nfuts : length (s_acc S) <= length (y_futs y) /\ (s_closed S = false -> length (s_acc S) = length (y_futs y));
    v_unans : forall j, length (y_futs y) <= j -> s_ans S j = false }.

  Lemma inv0 : inv sum0 msys0.
  Proof.
    constructor; cbn; auto; try discriminate; try congruence; try (intros; contradiction).
    - split; discriminate.
    - intros [|[|i]] m; cbn; intros X; try discriminate. injection X as <-. reflexivity.
    - intros [|[|i]] m _; cbn; intros X; try discriminate. injection X as <-. reflexivity.
    - exists []. reflexivity.
    - intros [|j] o; discriminate.
    - intros [|j] o; discriminate.
    - intros [|j] o; discriminate.
  Qed.
  (** Only the bookkeeping of the scheduler changes. *)
  Lemma inv_current S t y : inv S y -> inv S (y_set (set_current t (y_w y)) y).
  Proof. intros V. destruct V. constructor; auto. Qed.
  Lemma inv_poison S y : s_mis S -> inv S y -> inv S (y_set (set_poisoned (y_w y)) y).
  Proof. intros Hm V. destruct V. constructor; auto. cbn. discriminate. Qed.
End P.
