(** The [k]-th delay uses the [k]-th random number (C17). *)
From Flocq Require Import Core BinarySingleNaN.
From Verif Require Import Base Float ReadyCache Backoff BackoffSpec.
Set Implicit Arguments.
Local Open Scope Z_scope.

Section Fresh.
  Context {W R : Type} (next_u64 : R -> M W (R * Z)) (debug : bool) (f : R -> R * Z).
  Hypothesis pure : forall g w, next_u64 g w = (w, Val (f g)).

  Definition unjittered (c : bo_cfg) : bool := Beqb (bo_jitter c) (f64_of 0 0).
  (** What the delay is, without debug assertions. *)
  Definition delay_of (c : bo_cfg) (it v : Z) : Z :=
    let base := Z.min (match dur_mul (bo_min c) (pow2_sat it) with Some d => d | None => bo_max c end) (bo_max c) in
    base + (if unjittered c then 0 else match jitter_of false (bo_jitter c) (bo_max c) base v with Val d => d | _ => 0 end).
  Lemma jitter_debug j max base v d : jitter_of debug j max base v = Val d -> jitter_of false j max base v = Val d.
  Proof. unfold jitter_of. cbn [andb]. destruct (debug && negb _)%bool; [discriminate|]. auto. Qed.
  Lemma one_number (b : backoff (R := R)) w w1 b1 d : next_backoff next_u64 debug b w = (w1, Val (b1, d)) ->
    d = delay_of (b_cfg b) (b_iter b) (snd (f (b_rng b))) /\ b_cfg b1 = b_cfg b /\
    b_iter b1 = (if b_iter b + 1 <? 2 ^ 32 then b_iter b + 1 else 0) /\
    (unjittered (b_cfg b) = false -> b_rng b1 = fst (f (b_rng b))).
  Proof.
    unfold next_backoff, bo_base, delay_of. set (base := Z.min _ _).
    destruct (debug && (bo_max (b_cfg b) <? bo_min (b_cfg b)))%bool; [discriminate|].
    destruct (debug && negb (0 <? bo_max (b_cfg b)))%bool; [discriminate|].
    unfold bind, bo_jitter_part. fold (unjittered (b_cfg b)). destruct (unjittered (b_cfg b)) eqn:U.
    - cbn [ret]. destruct (dur_max <? base + 0) eqn:D; [discriminate|].
      destruct (b_iter b + 1 <? 2 ^ 32) eqn:I; [|destruct debug; [discriminate|]].
      + intros H. injection H as <- <- <-. cbn [b_cfg b_iter b_rng]. repeat split; auto. discriminate.
      + intros H. injection H as <- <- <-. cbn [b_cfg b_iter b_rng]. repeat split; auto. discriminate.
    - unfold bind. rewrite pure. destruct (f (b_rng b)) as [g v] eqn:F. cbn [fst snd].
      destruct (jitter_of debug (bo_jitter (b_cfg b)) (bo_max (b_cfg b)) base v) as [j| |] eqn:J; [|discriminate|discriminate].
      rewrite (jitter_debug _ _ _ _ J). destruct (dur_max <? base + j) eqn:D; [discriminate|].
      destruct (b_iter b + 1 <? 2 ^ 32) eqn:I; [|destruct debug; [discriminate|]].
      + intros H. injection H as <- <- <-. cbn [b_cfg b_iter b_rng]. auto.
      + intros H. injection H as <- <- <-. cbn [b_cfg b_iter b_rng]. auto.
  Qed.
  Fixpoint iters (k : nat) (i : Z) : Z := match k with O => i | S k' => iters k' (if i + 1 <? 2 ^ 32 then i + 1 else 0) end.
  Lemma own_number n : forall (b : backoff (R := R)) w k d, nth_error (delays next_u64 debug n b w) k = Some (Val d) ->
    exists v, (unjittered (b_cfg b) = false -> v = number f (b_rng b) k) /\ d = delay_of (b_cfg b) (iters k (b_iter b)) v.
  Proof.
    induction n as [|n IH]; intros b w k d; [destruct k; discriminate|]. cbn [delays].
    destruct (next_backoff next_u64 debug b w) as [w1 [[b1 d1]| |]] eqn:E.
    - apply one_number in E as (Ed & Ec & Ei & Eg). destruct k as [|k]; cbn [nth_error].
      + intros H. injection H as <-. exists (snd (f (b_rng b))). split; [reflexivity|exact Ed].
      + intros H. apply IH in H as (v & Hv & Hd). rewrite Ec, Ei in *. exists v. split; [|exact Hd].
        intros U. rewrite (Hv U), (Eg U). reflexivity.
    - destruct k as [|k]; [discriminate|]. destruct k; discriminate.
    - destruct k as [|k]; [discriminate|]. destruct k; discriminate.
  Qed.
End Fresh.

Lemma jitter_unused c it v v' : unjittered c = true -> delay_of c it v = delay_of c it v'.
Proof. unfold delay_of. intros ->. reflexivity. Qed.
Lemma fresh_numbers W W' R R' (next : R -> M W (R * Z)) (next' : R' -> M W' (R' * Z)) f f' debug debug' min max j
    (rng : R) (rng' : R') m m' n n' w w' k d d' :
  (forall g w, next g w = (w, Val (f g))) -> (forall g w, next' g w = (w, Val (f' g))) ->
  maker_new min max j rng = Ok m -> maker_new min max j rng' = Ok m' ->
  number f rng k = number f' rng' k ->
  nth_error (delays next debug n (make_backoff m) w) k = Some (Val d) ->
  nth_error (delays next' debug' n' (make_backoff m') w') k = Some (Val d') -> d = d'.
Proof.
  intros P P' M M' N H H'. unfold maker_new in M, M'.
  repeat match type of M with context [if ?c then _ else _] => destruct c; try discriminate end.
  injection M as <-. injection M' as <-.
  destruct (@own_number _ _ _ _ _ P _ _ _ _ _ H) as (v & Hv & ->). destruct (@own_number _ _ _ _ _ P' _ _ _ _ _ H') as (v' & Hv' & ->).
  cbn [make_backoff mk_cfg mk_rng b_cfg b_iter b_rng] in *.
  destruct (unjittered (BoCfg min max j)) eqn:U; [apply jitter_unused; exact U|]. rewrite Hv, Hv', N; reflexivity.
Qed.
