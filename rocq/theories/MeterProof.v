(** Proof device for C64: a logic of computations that are charged for the calls they make. *)
From Verif Require Import Base Util ReadyCache SpawnReady Load Make Middleware Limits Hedge MeterSpec.
Set Implicit Arguments.

(** [m], given credit for [b] calls, leaves a value with unspent credit [n] such that [Q]. *)
Definition mok {W A} (calls : W -> nat) (b : nat) (m : M W A) (Q : A -> nat -> Prop) : Prop :=
  forall w, match m w with
            | (w1, Val a) => calls w <= calls w1 /\ exists n, Q a n /\ calls w1 + n <= calls w + b
            | (w1, _) => calls w <= calls w1 <= calls w + b
            end.

Section Still.
  Context {W X : Type} (calls : W -> X).
  Lemma still_leaves A (m : M W A) P : leaves calls m P -> still calls m.
  Proof. intros H w. destruct (H w) as (E & _). split; auto. Qed.
  Lemma still_get A (f : W -> A) : still calls (get f).
  Proof. intros w. split; auto. Qed.
  Lemma still_ret A (a : A) : still calls (ret a).
  Proof. intros w. split; auto. Qed.
  Lemma still_panic A : still (A := A) calls panic.
  Proof. intros w. split; auto. Qed.
  Lemma still_modify (g : W -> W) : same calls g -> still calls (modify g).
  Proof. intros H w. split; [exact (H w) | auto]. Qed.
  Lemma still_bind A B (m : M W A) (k : A -> M W B) :
    still calls m -> (forall a, still calls (k a)) -> still calls (bind m k).
  Proof.
    intros Hm Hk w. split; [| auto]. unfold bind. destruct (Hm w) as (E & _).
    destruct (m w) as [w1 [a| |]]; cbn in *; auto.
    destruct (Hk a w1) as (E1 & _). congruence.
  Qed.
  Lemma still_sleep (rt : Rt W) d : (forall d, same calls (nap rt d)) -> still calls (sleep_poll rt d).
  Proof. intros H. unfold sleep_poll. apply still_bind; [apply still_get | intros b].
    apply still_bind; [apply still_modify, H | intros _; apply still_ret]. Qed.
End Still.

Section Logic.
  Context {W : Type} (calls : W -> nat).

  Lemma mok_ret A b (a : A) (Q : A -> nat -> Prop) n : Q a n -> n <= b -> mok calls b (ret a) Q.
  Proof. intros H L w. cbn. split; [auto |]. exists n. split; [exact H | lia]. Qed.
  Lemma mok_panic A b (Q : A -> nat -> Prop) : mok calls b panic Q.
  Proof. intros w. cbn. lia. Qed.
  Lemma mok_diverge A b (Q : A -> nat -> Prop) : mok calls b diverge Q.
  Proof. intros w. cbn. lia. Qed.
  Lemma mok_bind A B b c b' (m : M W A) (k : A -> M W B) P Q :
    mok calls b m P -> b + c <= b' -> (forall a n, P a n -> mok calls (n + c) (k a) Q) ->
    mok calls b' (bind m k) Q.
  Proof.
    intros Hm L Hk w. unfold bind. specialize (Hm w).
    destruct (m w) as [w1 [a| |]]; [| lia | lia].
    destruct Hm as (L0 & n & HP & Ln). specialize (Hk a n HP w1).
    destruct (k a w1) as [w2 [v| |]]; [| lia | lia].
    destruct Hk as (L1 & n2 & HQ & L2). split; [lia |]. exists n2. split; [exact HQ | lia].
  Qed.
  Lemma mok_weaken A b b' (m : M W A) (P Q : A -> nat -> Prop) :
    mok calls b m P -> b <= b' -> (forall a n, P a n -> n <= b -> exists n', Q a n' /\ n' <= n + (b' - b)) ->
    mok calls b' m Q.
  Proof.
    intros Hm L HPQ w. specialize (Hm w). destruct (m w) as [w1 [a| |]]; [| lia | lia].
    destruct Hm as (L0 & n & HP & Ln). destruct (HPQ a n HP) as (n' & HQ & L'); [lia |].
    split; [exact L0 |]. exists n'. split; [exact HQ | lia].
  Qed.
  Lemma mok_modify b (g : W -> W) (Q : unit -> nat -> Prop) n :
    same calls g -> Q tt n -> n <= b -> mok calls b (modify g) Q.
  Proof. intros H HQ L w. cbn. specialize (H w). split; [lia |]. exists n. split; [exact HQ |]. lia. Qed.
  Lemma mok_leaves A b (m : M W A) P : leaves calls m P -> mok calls b m (fun a n => P a /\ n = b).
  Proof.
    intros H w. destruct (H w) as (E & HP). destruct (m w) as [w1 [a| |]]; cbn in *; [| lia | lia].
    split; [lia |]. exists b. split; [split; [apply HP; reflexivity | reflexivity] | lia].
  Qed.
  Lemma mok_still A b (m : M W A) : still calls m -> mok calls b m (fun a n => n = b).
  Proof.
    intros H. apply mok_weaken with (b := b) (P := fun a n => True /\ n = b); [apply mok_leaves, H | lia |].
    intros a n [_ ->] _. exists b. split; [reflexivity | lia].
  Qed.
End Logic.

Record Metered {W Req Resp Err} (calls : W -> nat) (k : nat) (svc : Service W Req Resp Err)
  (R : st svc -> Prop) (V : fut svc -> nat -> Prop) : Prop := MkMetered {
  mt_ready : forall s, R s -> mok calls 0 (poll_ready svc s) (fun x n => R (fst x) /\ n = 0);
  mt_call : forall s r, R s -> mok calls k (call svc s r) (fun x n => R (fst x) /\ V (snd x) n);
  mt_poll : forall f n, V f n -> mok calls n (poll_fut svc f) (fun x n => V (fst x) n);
  mt_clone : forall s, R s -> mok calls 0 (clone svc s) (fun s n => R s /\ n = 0);
  mt_drop_svc : forall s, same calls (drop_svc svc s);
  mt_drop_fut : forall f, same calls (drop_fut svc f) }.

Arguments mt_ready {W Req Resp Err calls k svc R V} m {s} _.
Arguments mt_call {W Req Resp Err calls k svc R V} m {s} r _.
Arguments mt_poll {W Req Resp Err calls k svc R V} m {f n} _.
Arguments mt_clone {W Req Resp Err calls k svc R V} m {s} _.

Definition metered_from {W Req Resp Err} (calls : W -> nat) (k : nat) (svc : Service W Req Resp Err)
  (I : st svc -> Prop) : Prop := exists R V, Metered calls k svc R V /\ (forall s, I s -> R s).

(** ** Tactics *)
(** run a computation whose triple is [H], keeping [c] aside *)
Ltac mb H := eapply mok_bind; [apply H | | ]; cbv beta.
Ltac mst := (* a still computation with the whole credit *)
  match goal with
  | |- mok ?cl ?b (bind ?m ?k) ?Q =>
      apply (@mok_bind _ cl _ _ b 0 b m k (fun a n => n = b) Q);
      [apply mok_still | lia | intros ? ? ->]
  end.
Ltac mmod := (* a drop *)
  match goal with
  | |- mok ?cl ?b (bind (modify ?g) ?k) ?Q =>
      apply (@mok_bind _ cl _ _ b 0 b (modify g) k (fun _ n => n = b) Q);
      [apply mok_modify with (n := b); [| reflexivity | lia] | lia | intros ? ? ->]
  end.

Section Base.
  Context {W Req Resp Err : Type} (calls : W -> nat).

  Lemma counts_metered (svc : Service W Req Resp Err) :
    counts calls svc -> metered_from calls 1 svc (fun _ => True).
  Proof.
    intros H. exists (fun _ => True), (fun _ n => n = 0). split; [| auto]. constructor.
    - intros s _. eapply mok_weaken; [apply mok_still, (ct_ready H) | exact (le_n 0) |].
      intros a n -> _. exists 0. auto with arith.
    - intros s r _ w. generalize (ct_call H s r w). destruct (call svc s r w) as [w1 [a| |]]; cbn; intros L; [| lia | lia].
      split; [lia |]. exists 0. split; [auto | lia].
    - intros f n ->. eapply mok_weaken; [apply mok_still, (ct_poll H) | exact (le_n 0) |].
      intros a n -> _. exists 0. auto with arith.
    - intros s _. eapply mok_weaken; [apply mok_still, (ct_clone H) | exact (le_n 0) |].
      intros a n -> _. exists 0. auto with arith.
    - intros s. apply (ct_drop_svc H s).
    - intros f. apply (ct_drop_fut H f).
  Qed.

  Lemma service_fn_metered (T : Task W (result Resp Err)) (f : Req -> M W (tst T)) :
    still_task calls T -> (forall r, still calls (f r)) ->
    metered_from calls 0 (service_fn T f) (fun _ => True).
  Proof.
    intros [HT HD] Hf. exists (fun _ => True), (fun _ n => n = 0). split; [| auto]. constructor; cbn.
    - intros s _. apply mok_ret with (n := 0); auto.
    - intros s r _. mst; [apply Hf |]. apply mok_ret with (n := 0); auto.
    - intros x n ->. eapply mok_weaken; [apply mok_still, HT | exact (le_n 0) |].
      intros a n -> _. exists 0. auto with arith.
    - intros s _. apply mok_ret with (n := 0); auto.
    - intros s w. reflexivity.
    - intros x. apply (HD x).
  Qed.
End Base.

Lemma counted_counts W Req Resp Err (svc : Service W Req Resp Err) : counts fst (counted svc).
Proof.
  assert (HL : forall A (m : M W A), still fst (lift_n m)).
  { intros A m w. unfold lift_n. destruct (m (snd w)) as [w1 o]. cbn. auto. }
  constructor.
  - intros s. apply HL.
  - intros s r w. cbn. unfold bind, modify, lift_n. cbn. destruct (call svc s r (snd w)) as [w1 o]. cbn. lia.
  - intros s. apply HL.
  - intros s. apply HL.
  - intros s w. reflexivity.
  - intros s w. reflexivity.
Qed.

(** ** Layers that keep the state and map the future *)
Section Layers.
  Context {W Req Resp Err : Type} (calls : W -> nat) (k : nat) (svc : Service W Req Resp Err).
  Context (R : st svc -> Prop) (V : fut svc -> nat -> Prop) (H : Metered calls k svc R V).

  Definition Vopt (o : option (fut svc)) (n : nat) : Prop := match o with Some f => V f n | None => True end.

  Lemma map_poll_mok B (h : result Resp Err -> M W B) f n :
    (forall r, still calls (h r)) -> Vopt f n ->
    mok calls n (map_poll (poll_fut svc) (drop_fut svc) h f) (fun x n => Vopt (fst x) n).
  Proof.
    intros Hh Hf. destruct f as [f|]; [| apply mok_panic]. cbn [map_poll].
    eapply mok_bind with (c := 0); [apply (mt_poll H Hf) | lia |]. intros [f1 a] m Hm. cbn in Hm.
    destruct a as [|v].
    - apply mok_ret with (n := m); [exact Hm | lia].
    - mmod; [apply (mt_drop_fut H) |]. mst; [apply Hh |]. apply mok_ret with (n := 0); [exact I | lia].
  Qed.
  Lemma map_drop_mok f : same calls (map_drop (drop_fut svc) f).
  Proof. intros w. destruct f; cbn; [apply (mt_drop_fut H) | auto]. Qed.

  Lemma some_call s r : R s ->
    mok calls k ('(s1, x) <- call svc s r ;; ret (s1, Some x)) (fun x n => R (fst x) /\ Vopt (snd x) n).
  Proof.
    intros HR. eapply mok_bind with (c := 0); [apply (mt_call H r HR) | lia |]. intros [s1 f] m [H1 H2].
    apply mok_ret with (n := m); [split; [exact H1 | exact H2] | lia].
  Qed.
  Lemma into_ready E' (into : Err -> E') s : R s ->
    mok calls 0 ('(s1, a) <- poll_ready svc s ;; ret (s1, poll_map (map_er into) a)) (fun x n => R (fst x) /\ n = 0).
  Proof.
    intros HR. eapply mok_bind with (c := 0); [apply (mt_ready H HR) | lia |]. intros [s1 a] m [H1 ->].
    apply mok_ret with (n := 0); [split; [exact H1 | reflexivity] | lia].
  Qed.

  Lemma boxed_m : Metered calls k (boxed svc) R V.
  Proof. destruct H. constructor; assumption. Qed.

  Lemma map_request_m Req' (f : Req' -> M W Req) : (forall r, still calls (f r)) -> Metered calls k (map_request f svc) R V.
  Proof.
    intros Hf. constructor; cbn; try apply H. intros s r HR. mst; [apply Hf |].
    replace (k + 0) with k by lia. apply (mt_call H _ HR).
  Qed.

  Lemma map_response_m Resp' (f : Resp -> M W Resp') : (forall r, still calls (f r)) -> Metered calls k (map_response f svc) R Vopt.
  Proof.
    intros Hf. constructor; cbn; try apply H.
    - intros s r HR. apply some_call, HR.
    - intros x n Hx. apply map_poll_mok; [| exact Hx]. intros [a|e]; [| apply still_ret].
      apply still_bind; [apply Hf | intros b; apply still_ret].
    - intros x w. apply map_drop_mok.
  Qed.

  Lemma map_err_m Err' (f : Err -> M W Err') : (forall r, still calls (f r)) -> Metered calls k (map_err f svc) R Vopt.
  Proof.
    intros Hf. constructor; cbn; try apply H.
    - intros s HR. eapply mok_bind with (c := 0); [apply (mt_ready H HR) | lia |]. intros [s1 a] m [H1 ->].
      destruct a as [|[u|e]]; try (apply mok_ret with (n := 0); [split; [exact H1 | reflexivity] | lia]).
      mst; [apply Hf |]. apply mok_ret with (n := 0); [split; [exact H1 | reflexivity] | lia].
    - intros s r HR. apply some_call, HR.
    - intros x n Hx. apply map_poll_mok; [| exact Hx]. intros [a|e]; [apply still_ret |].
      apply still_bind; [apply Hf | intros b; apply still_ret].
    - intros x w. apply map_drop_mok.
  Qed.

  Lemma map_result_m Resp' Err' (into : Err -> Err') (f : result Resp Err -> M W (result Resp' Err')) :
    (forall r, still calls (f r)) -> Metered calls k (map_result into f svc) R Vopt.
  Proof.
    intros Hf. constructor; cbn; try apply H.
    - intros s HR. apply into_ready, HR.
    - intros s r HR. apply some_call, HR.
    - intros x n Hx. apply map_poll_mok; [| exact Hx]. apply Hf.
    - intros x w. apply map_drop_mok.
  Qed.

  Definition Vchain (T : Type) (c : chain (fut svc) T) (n : nat) : Prop :=
    match c with First f => V f n | _ => True end.

  Lemma then_m Resp' Err' (into : Err -> Err') (T : Task W (result Resp' Err')) (f : result Resp Err -> M W (tst T)) :
    still_task calls T -> (forall x, still calls (f x)) -> Metered calls k (then_ into T f svc) R (@Vchain (tst T)).
  Proof.
    intros [HT HD] Hf.
    assert (Hsec : forall t n, mok calls n (x <- tpoll T t ;;
       match x with
       | (t1, Pending) => ret (Second t1, Pending)
       | (t1, Ready v) => modify (tdrop T t1) ;;; ret (Empty, Ready v)
       end) (fun x n => @Vchain (tst T) (fst x) n)).
    { intros t n. mst; [apply HT |]. destruct a as [t1 [|v]].
      - apply mok_ret with (n := 0); [exact I | lia].
      - mmod; [apply (HD t1) |]. apply mok_ret with (n := 0); [exact I | lia]. }
    constructor; cbn; try apply H.
    - intros s HR. apply into_ready, HR.
    - intros s r HR. eapply mok_bind with (c := 0); [apply (mt_call H r HR) | lia |]. intros [s1 x] m [H1 H2].
      apply mok_ret with (n := m); [split; [exact H1 | exact H2] | lia].
    - intros c n Hc. destruct c as [x|t|]; [| apply Hsec | apply mok_panic].
      eapply mok_bind with (c := 0); [apply (mt_poll H Hc) | lia |]. intros [x1 a] m Hm. destruct a as [|v].
      + apply mok_ret with (n := m); [exact Hm | lia].
      + mmod; [apply (mt_drop_fut H) |]. mst; [apply Hf |]. apply Hsec.
    - intros c w. destruct c as [x|t|]; cbn; [apply (mt_drop_fut H) | apply (HD t) | auto].
  Qed.

  Lemma and_then_m Resp' Err' (into : Err -> Err') (T : Task W (result Resp' Err')) (f : Resp -> M W (tst T)) :
    still_task calls T -> (forall x, still calls (f x)) -> Metered calls k (and_then into T f svc) R (@Vchain (tst T)).
  Proof.
    intros [HT HD] Hf.
    assert (Hsec : forall t n, mok calls n (x <- tpoll T t ;;
       match x with
       | (t1, Pending) => ret (Second t1, Pending)
       | (t1, Ready v) => modify (tdrop T t1) ;;; ret (Empty, Ready v)
       end) (fun x n => @Vchain (tst T) (fst x) n)).
    { intros t n. mst; [apply HT |]. destruct a as [t1 [|v]].
      - apply mok_ret with (n := 0); [exact I | lia].
      - mmod; [apply (HD t1) |]. apply mok_ret with (n := 0); [exact I | lia]. }
    constructor; cbn; try apply H.
    - intros s HR. apply into_ready, HR.
    - intros s r HR. eapply mok_bind with (c := 0); [apply (mt_call H r HR) | lia |]. intros [s1 x] m [H1 H2].
      apply mok_ret with (n := m); [split; [exact H1 | exact H2] | lia].
    - intros c n Hc. destruct c as [x|t|]; [| apply Hsec | apply mok_panic].
      eapply mok_bind with (c := 0); [apply (mt_poll H Hc) | lia |]. intros [x1 a] m Hm. destruct a as [|[v|e]].
      + apply mok_ret with (n := m); [exact Hm | lia].
      + mmod; [apply (mt_drop_fut H) |]. mst; [apply Hf |]. apply Hsec.
      + mmod; [apply (mt_drop_fut H) |]. apply mok_ret with (n := 0); [exact I | lia].
    - intros c w. destruct c as [x|t|]; cbn; [apply (mt_drop_fut H) | apply (HD t) | auto].
  Qed.

  Lemma optional_m : Metered calls k (optional svc)
    (fun s => match s with Some x => R x | None => True end) Vopt.
  Proof.
    constructor; cbn.
    - intros [x|] HR; [| apply mok_ret with (n := 0); auto].
      eapply mok_bind with (c := 0); [apply (mt_ready H HR) | lia |]. intros [s1 a] m [H1 ->].
      apply mok_ret with (n := 0); [split; [exact H1 | reflexivity] | lia].
    - intros [x|] r HR; [| apply mok_ret with (n := 0); cbn; auto with arith].
      eapply mok_bind with (c := 0); [apply (mt_call H r HR) | lia |]. intros [s1 a] m [H1 H2].
      apply mok_ret with (n := m); [split; [exact H1 | exact H2] | lia].
    - intros [x|] n Hn; [| apply mok_ret with (n := 0); cbn; auto with arith].
      eapply mok_bind with (c := 0); [apply (mt_poll H Hn) | lia |]. intros [s1 a] m H1.
      apply mok_ret with (n := m); [exact H1 | lia].
    - intros [x|] HR; [| apply mok_ret with (n := 0); auto].
      eapply mok_bind with (c := 0); [apply (mt_clone H HR) | lia |]. intros s1 m [H1 ->].
      apply mok_ret with (n := 0); [split; [exact H1 | reflexivity] | lia].
    - intros [x|] w; [apply (mt_drop_svc H) | auto].
    - intros [x|] w; [apply (mt_drop_fut H) | auto].
  Qed.

  Lemma future_service_m (T : Task W (result (st svc) Err)) (tclone : tst T -> M W (tst T)) (I : st svc -> Prop) (VT : tst T -> Prop) :
    still_task calls T -> (forall s, I s -> R s) ->
    (forall t, VT t -> leaves calls (tpoll T t)
       (fun x => VT (fst x) /\ match snd x with Ready (Ok s) => I s | _ => True end)) ->
    (forall t, VT t -> leaves calls (tclone t) VT) ->
    Metered calls k (future_service svc T tclone) (fun s => match s with inl t => VT t | inr s => R s end) V.
  Proof.
    intros [HT HD] HI Hs Hc.
    assert (Hr : forall s, R s -> mok calls 0 ('(s1, p) <- poll_ready svc s ;; ret (inr (A := tst T) s1, p))
       (fun x n => match fst x with inl t => VT t | inr s => R s end /\ n = 0)).
    { intros s HR. eapply mok_bind with (c := 0); [apply (mt_ready H HR) | lia |]. intros [s1 a] m [H1 ->].
      apply mok_ret with (n := 0); [split; [exact H1 | reflexivity] | lia]. }
    constructor; cbn; try apply H.
    - intros [t|s] HR; [| apply Hr, HR].
      eapply mok_bind with (c := 0); [apply (@mok_leaves _ calls _ 0 _ _ (Hs t HR)) | lia |]. intros [t1 a] m [[H0 H1] ->].
      destruct a as [|[s|e]]; try (apply mok_ret with (n := 0); auto; fail).
      mmod; [apply (HD t1) |]. apply Hr, HI, H1.
    - intros [t|s] r HR; [apply mok_panic |].
      eapply mok_bind with (c := 0); [apply (mt_call H r HR) | lia |]. intros [s1 x] m [H1 H2].
      apply mok_ret with (n := m); [split; [exact H1 | exact H2] | lia].
    - intros [t|s] HR.
      + eapply mok_bind with (c := 0); [apply (@mok_leaves _ calls _ 0 _ _ (Hc t HR)) | lia |]. intros t1 m [H1 ->].
        apply mok_ret with (n := 0); auto.
      + eapply mok_bind with (c := 0); [apply (mt_clone H HR) | lia |]. intros s1 m [H1 ->].
        apply mok_ret with (n := 0); auto.
    - intros [t|s] w; [apply (HD t) | apply (mt_drop_svc H)].
  Qed.

  Lemma timeout_m (rt : Rt W) dur : (forall d, same calls (nap rt d)) ->
    Metered calls k (timeout rt dur svc) R (fun f n => V (to_inner f) n).
  Proof.
    intros Hn. constructor; cbn; try apply H.
    - intros s HR. apply into_ready, HR.
    - intros s r HR. eapply mok_bind with (c := 0); [apply (mt_call H r HR) | lia |]. intros [s1 x] m [H1 H2].
      mst; [apply still_get |]. apply mok_ret with (n := m); [split; [exact H1 | exact H2] | lia].
    - intros f n Hf. eapply mok_bind with (c := 0); [apply (mt_poll H Hf) | lia |]. intros [f1 a] m H1.
      destruct a as [|v].
      + mst; [apply still_sleep, Hn |]. destruct a; apply mok_ret with (n := m); try exact H1; lia.
      + apply mok_ret with (n := m); [exact H1 | lia].
    - intros f w. apply (mt_drop_fut H).
  Qed.

  Lemma load_shed_m : Metered calls k (load_shed svc) (fun s => R (ls_inner s)) Vopt.
  Proof.
    constructor; cbn.
    - intros s HR. eapply mok_bind with (c := 0); [apply (mt_ready H HR) | lia |]. intros [s1 a] m [H1 ->].
      destruct a as [|[u|e]]; apply mok_ret with (n := 0); auto.
    - intros s r HR. destruct (ls_ready s); [| apply mok_ret with (n := 0); cbn; auto with arith].
      eapply mok_bind with (c := 0); [apply (mt_call H r HR) | lia |]. intros [s1 a] m [H1 H2].
      apply mok_ret with (n := m); [split; [exact H1 | exact H2] | lia].
    - intros [x|] n Hn; [| apply mok_ret with (n := 0); cbn; auto with arith].
      eapply mok_bind with (c := 0); [apply (mt_poll H Hn) | lia |]. intros [s1 a] m H1.
      apply mok_ret with (n := m); [exact H1 | lia].
    - intros s HR. eapply mok_bind with (c := 0); [apply (mt_clone H HR) | lia |]. intros s1 m [H1 ->].
      apply mok_ret with (n := 0); auto.
    - intros s w. apply (mt_drop_svc H).
    - intros [x|] w; [apply (mt_drop_fut H) | auto].
  Qed.

  Lemma filter_m Req' P PErr (check : P -> Req' -> M W (P * result Req PErr)) pclone :
    (forall p r, still calls (check p r)) -> (forall p, still calls (pclone p)) ->
    Metered calls k (filter svc check pclone) (fun s => R (fst s))
      (fun f n => match f with inl _ => True | inr o => Vopt o n end).
  Proof.
    intros Hc Hp. constructor; cbn.
    - intros s HR. eapply mok_bind with (c := 0); [apply (mt_ready H HR) | lia |]. intros [s1 a] m [H1 ->].
      apply mok_ret with (n := 0); auto.
    - intros s r HR. mst; [apply Hc |]. destruct a as [p1 [r1|e]]; [| apply mok_ret with (n := 0); cbn; auto with arith].
      eapply mok_bind with (c := 0); [apply (mt_call H r1 HR) | lia |]. intros [s1 x] m [H1 H2].
      apply mok_ret with (n := m); [split; [exact H1 | exact H2] | lia].
    - intros [[e|]|o] n Hn; [apply mok_ret with (n := 0); auto with arith | apply mok_panic |].
      eapply mok_bind with (c := 0); [apply map_poll_mok; [intros r; apply still_ret | exact Hn] | lia |].
      intros [f1 p] m H1. apply mok_ret with (n := m); [exact H1 | lia].
    - intros s HR. eapply mok_bind with (c := 0); [apply (mt_clone H HR) | lia |]. intros s1 m [H1 ->].
      mst; [apply Hp |]. apply mok_ret with (n := 0); auto.
    - intros s w. apply (mt_drop_svc H).
    - intros [e|o] w; [auto | apply map_drop_mok].
  Qed.

  Definition Vaf (C : Type) (f : afilter_fut svc C) (n : nat) : Prop :=
    R (af_svc f) /\ match af_state f with AfCheck _ => k <= n | AfWait x => V x n end.

  Lemma async_filter_m Req' P PErr (T : Task W (result Req PErr)) (check : P -> Req' -> M W (P * tst T)) pclone :
    still_task calls T -> (forall p r, still calls (check p r)) -> (forall p, still calls (pclone p)) ->
    Metered calls k (async_filter svc T check pclone) (fun s => R (fst s)) (@Vaf (tst T)).
  Proof.
    intros [HT HD] Hc Hp.
    assert (Hw : forall x s n, R s -> V x n -> mok calls n
      ('(x1, p) <- poll_fut svc x ;; ret (AfFut (AfWait x1) s, poll_map (map_er (E' := Err + PErr) inl) p))
      (fun x n => @Vaf (tst T) (fst x) n)).
    { intros x s n HR Hx. eapply mok_bind with (c := 0); [apply (mt_poll H Hx) | lia |]. intros [x1 p] m H1.
      apply mok_ret with (n := m); [split; [exact HR | exact H1] | lia]. }
    constructor; cbn.
    - intros s HR. eapply mok_bind with (c := 0); [apply (mt_ready H HR) | lia |]. intros [s1 a] m [H1 ->].
      apply mok_ret with (n := 0); auto.
    - intros s r HR. eapply mok_bind with (c := k); [apply (mt_clone H HR) | lia |]. intros s1 m [H1 ->].
      mst; [apply Hc |]. destruct a as [p1 c]. apply mok_ret with (n := k); [| lia].
      split; [exact H1 | split; [exact HR | cbn; lia]].
    - intros f n [HR Hf]. destruct (af_state f) as [c|x]; [| apply Hw; assumption].
      mst; [apply HT |]. destruct a as [c1 [|[r|e]]].
      + apply mok_ret with (n := n); [split; [exact HR | exact Hf] | lia].
      + eapply mok_bind with (c := 0); [apply (mt_call H r HR) | lia |]. intros [s1 x] m [H1 H2].
        mmod; [apply (HD c1) |].
        replace (m + 0 + 0) with m by lia. apply Hw; assumption.
      + apply mok_ret with (n := n); [split; [exact HR | exact Hf] | lia].
    - intros s HR. eapply mok_bind with (c := 0); [apply (mt_clone H HR) | lia |]. intros s1 m [H1 ->].
      mst; [apply Hp |]. apply mok_ret with (n := 0); auto.
    - intros s w. apply (mt_drop_svc H).
    - intros f w. etransitivity; [apply (mt_drop_svc H) |].
      destruct (af_state f); [apply (HD c) | apply (mt_drop_fut H)].
  Qed.

  Lemma rate_limit_m (rt : Rt W) rate : (forall d, same calls (nap rt d)) ->
    Metered calls k (rate_limit rt rate svc) (fun s => R (rl_inner s)) V.
  Proof.
    intros Hn. constructor; cbn; try apply H.
    - intros s HR. destruct (rl_st s).
      + mst; [apply still_sleep, Hn |]. destruct a; [| apply mok_ret with (n := 0); auto].
        mst; [apply still_get |]. eapply mok_bind with (c := 0); [apply (mt_ready H HR) | lia |]. intros [s1 b] m [H1 ->].
        apply mok_ret with (n := 0); auto.
      + eapply mok_bind with (c := 0); [apply (mt_ready H HR) | lia |]. intros [s1 b] m [H1 ->].
        apply mok_ret with (n := 0); auto.
    - intros s r HR. destruct (rl_st s); [apply mok_panic |].
      mst; [apply still_get |].
      destruct (if (1 <? _)%N then _ else _) as [st1 sl].
      eapply mok_bind with (c := 0); [apply (mt_call H r HR) | lia |]. intros [s1 x] m [H1 H2].
      apply mok_ret with (n := m); [split; [exact H1 | exact H2] | lia].
    - intros s HR. apply mok_panic.
    - intros s w. apply (mt_drop_svc H).
  Qed.

  Lemma constant_m Met : Metered calls k (constant (M' := Met) svc) (fun s => R (fst s)) V.
  Proof.
    constructor; cbn; try apply H.
    - intros s HR. eapply mok_bind with (c := 0); [apply (mt_ready H HR) | lia |]. intros [s1 a] m [H1 ->].
      apply mok_ret with (n := 0); auto.
    - intros s r HR. eapply mok_bind with (c := 0); [apply (mt_call H r HR) | lia |]. intros [s1 x] m [H1 H2].
      apply mok_ret with (n := m); [split; [exact H1 | exact H2] | lia].
    - intros s HR. apply mok_panic.
    - intros s w. apply (mt_drop_svc H).
  Qed.

  Lemma shared_m Tgt : Metered calls 0 (shared (Tgt := Tgt) svc) R (fun _ n => n = 0).
  Proof.
    constructor; cbn; try apply H.
    - intros s HR. apply mok_ret with (n := 0); auto.
    - intros s r HR. eapply mok_bind with (c := 0); [apply (mt_clone H HR) | lia |]. intros s1 m [H1 ->].
      apply mok_ret with (n := 0); auto.
    - intros [x|] n ->; [apply mok_ret with (n := 0); auto | apply mok_panic].
    - intros [x|] w; [apply (mt_drop_svc H) | auto].
  Qed.

  Lemma into_service_m : Metered calls k (into_service svc) R V.
  Proof. destruct H. constructor; assumption. Qed.
  Lemma as_service_m : Metered calls k (as_service svc) R V.
  Proof. destruct H. constructor; try assumption. intros s w. reflexivity. Qed.
End Layers.

Section Conc.
  Context {W Req Resp Err : Type} (calls : W -> nat) (k : nat) (svc : Service W Req Resp Err).
  Context (R : st svc -> Prop) (V : fut svc -> nat -> Prop) (H : Metered calls k svc R V).
  Notation calls2 := (fun x : sem * W => calls (snd x)).

  Lemma lift_snd_mok A b (m : M W A) Q : mok calls b m Q -> mok calls2 b (lift_snd m) Q.
  Proof. intros Hm [x w]. unfold lift_snd. cbn. specialize (Hm w). destruct (m w) as [w1 [a| |]]; exact Hm. Qed.

  Lemma conc_m closed debug : Metered calls2 k (conc_limit svc closed debug) (fun s => R (cl_inner s)) V.
  Proof.
    assert (Hpi : forall s wt pm, R (cl_inner s) -> mok calls2 0
      ('(s1, a) <- lift_snd (poll_ready svc (cl_inner s)) ;; ret (ConcSt svc s1 wt pm, a)) (fun x n => R (cl_inner (fst x)) /\ n = 0)).
    { intros s wt pm HR. eapply mok_bind with (c := 0); [apply lift_snd_mok, (mt_ready H HR) | lia |]. intros [s1 a] m [H1 ->].
      apply mok_ret with (n := 0); auto. }
    constructor; cbn.
    - intros s HR. destruct (cl_permit s); [apply Hpi, HR |].
      mst; [apply still_get |]. destruct a; [destruct debug; [apply mok_panic | apply Hpi, HR] |].
      mst; [apply still_get |]. destruct (sem_poll (cl_wait s) a) as [[m1 w1] got].
      mmod; [intros x; reflexivity |]. destruct got; [apply Hpi, HR | apply mok_ret with (n := 0); auto].
    - intros s r HR. destruct (cl_permit s); [| apply mok_panic].
      eapply mok_bind with (c := 0); [apply lift_snd_mok, (mt_call H r HR) | lia |]. intros [s1 x] m [H1 H2].
      apply mok_ret with (n := m); [split; [exact H1 | exact H2] | lia].
    - intros f n Hf. apply lift_snd_mok, (mt_poll H Hf).
    - intros s HR. eapply mok_bind with (c := 0); [apply lift_snd_mok, (mt_clone H HR) | lia |]. intros s1 m [H1 ->].
      apply mok_ret with (n := 0); auto.
    - intros s w. apply (mt_drop_svc H).
    - intros f w. apply (mt_drop_fut H).
  Qed.
End Conc.

Section Tracked.
  Context {W Req Resp Err C T : Type} (calls : W -> nat) (k : nat) (svc : Service W Req Resp Err).
  Context (R : st svc -> Prop) (V : fut svc -> nat -> Prop) (H : Metered calls k svc R V).
  Context (start : M W T) (finish : T -> C -> W -> C * W) (keep : Resp -> W -> W * bool).
  Context (Hs : still calls start) (Hf : forall t c, same calls (fun w => snd (finish t c w))).
  Context (Hk : forall v, same calls (fun w => fst (keep v w))).
  Notation calls2 := (fun x : arc (C := C) * W => calls (snd x)).

  Lemma lift_w_mok A b (m : M W A) Q : mok calls b m Q -> mok calls2 b (lift_w m) Q.
  Proof. intros Hm [x w]. unfold lift_w. cbn. specialize (Hm w). destruct (m w) as [w1 [a| |]]; exact Hm. Qed.
  Lemma lift_w_still A (m : M W A) : still calls m -> still calls2 (lift_w m).
  Proof. intros Hm [x w]. unfold lift_w. cbn. destruct (Hm w) as (E & _). destruct (m w) as [w1 a]. cbn in *. auto. Qed.
  Lemma drop_handle_same t x : calls2 (drop_handle finish t x) = calls2 x.
  Proof. unfold drop_handle. generalize (Hf t (content (fst x)) (snd x)). destruct (finish t _ _) as [c1 w1]. cbn. auto. Qed.

  Lemma tracked_m : Metered calls2 k (tracked_load svc start finish keep) R (fun f n => V (tc_inner f) n).
  Proof.
    constructor; cbn.
    - intros s HR. apply lift_w_mok, (mt_ready H HR).
    - intros s r HR. unfold tl_call. mst.
      { apply still_bind; [apply lift_w_still, Hs | intros t]. apply still_bind; [apply still_modify; intros x; reflexivity | intros _; apply still_ret]. }
      intros x. generalize (mt_call H r HR (snd x)). destruct (call svc s r (snd x)) as [w1 [[s1 f]| |]]; cbn.
      + intros (L0 & n & [H1 H2] & L). split; [exact L0 |]. exists n. split; [split; [exact H1 | exact H2] | lia].
      + intros L. generalize (drop_handle_same a (fst x, w1)). cbn. lia.
      + intros L. lia.
    - intros f n HV. unfold tc_poll. eapply mok_bind with (c := 0); [apply lift_w_mok, (mt_poll H HV) | lia |].
      intros [i a] m H1. destruct a as [|[v|e]]; try (apply mok_ret with (n := m); [exact H1 | lia]).
      destruct (tc_handle f) as [t|]; [| apply mok_panic].
      mst. { apply lift_w_still. intros w. generalize (Hk v w). destruct (keep v w). cbn. auto. }
      destruct a; [apply mok_ret with (n := m); [exact H1 | lia] |].
      mmod; [intros w; exact (drop_handle_same t w) |]. apply mok_ret with (n := m); [exact H1 | lia].
    - intros s HR. apply mok_panic.
    - intros s w. apply (mt_drop_svc H).
    - intros f w. unfold tc_drop. destruct (tc_handle f) as [t|]; [rewrite (drop_handle_same t (fst w, _)) |]; apply (mt_drop_fut H).
  Qed.
End Tracked.

Section Either.
  Context {W Req Resp Err : Type} (calls : W -> nat) (k : nat) (a b : Service W Req Resp Err).
  Context (Ra : st a -> Prop) (Va : fut a -> nat -> Prop) (Ha : Metered calls k a Ra Va).
  Context (Rb : st b -> Prop) (Vb : fut b -> nat -> Prop) (Hb : Metered calls k b Rb Vb).

  Lemma either_m : Metered calls k (either a b) (fun s => match s with inl x => Ra x | inr y => Rb y end)
    (fun f n => match f with inl x => Va x n | inr y => Vb y n end).
  Proof.
    constructor; cbn.
    - intros [x|x] HR; [eapply mok_bind with (c := 0); [apply (mt_ready Ha HR) | lia |] | eapply mok_bind with (c := 0); [apply (mt_ready Hb HR) | lia |]];
      intros [s1 p] m [H1 ->]; apply mok_ret with (n := 0); auto.
    - intros [x|x] r HR; [eapply mok_bind with (c := 0); [apply (mt_call Ha r HR) | lia |] | eapply mok_bind with (c := 0); [apply (mt_call Hb r HR) | lia |]];
      intros [s1 p] m [H1 H2]; (apply mok_ret with (n := m); [split; [exact H1 | exact H2] | lia]).
    - intros [x|x] n HR; [eapply mok_bind with (c := 0); [apply (mt_poll Ha HR) | lia |] | eapply mok_bind with (c := 0); [apply (mt_poll Hb HR) | lia |]];
      intros [s1 p] m H1; (apply mok_ret with (n := m); [exact H1 | lia]).
    - intros [x|x] HR; [eapply mok_bind with (c := 0); [apply (mt_clone Ha HR) | lia |] | eapply mok_bind with (c := 0); [apply (mt_clone Hb HR) | lia |]];
      intros s1 m [H1 ->]; apply mok_ret with (n := 0); auto.
    - intros [x|x] w; [apply (mt_drop_svc Ha) | apply (mt_drop_svc Hb)].
    - intros [x|x] w; [apply (mt_drop_fut Ha) | apply (mt_drop_fut Hb)].
  Qed.
End Either.
