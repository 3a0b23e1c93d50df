(** Proofs for C95. *)
From Verif Require Import Base Util ReadyCache SpawnReady Load Make Middleware Limits Hedge MeterSpec AlgebraSpec.
Set Implicit Arguments.

(** ** Bisimulations *)
Definition agree {W A B} (R : A -> B -> Prop) (m1 : M W A) (m2 : M W B) : Prop :=
  forall w, fst (m1 w) = fst (m2 w) /\
    match snd (m1 w), snd (m2 w) with
    | Val x, Val y => R x y
    | Panic, Panic => True
    | Diverge, Diverge => True
    | _, _ => False
    end.

Definition goes {A B C} (R : A -> B -> Prop) (p : A * C) (q : B * C) : Prop := R (fst p) (fst q) /\ snd p = snd q.
Definition both {A B C D} (R : A -> B -> Prop) (Q : C -> D -> Prop) (p : A * C) (q : B * D) : Prop :=
  R (fst p) (fst q) /\ Q (snd p) (snd q).

Record twins {W Req Resp Err} (a b : Service W Req Resp Err) (Rs : st a -> st b -> Prop) (Rf : fut a -> fut b -> Prop) : Prop := {
  tw_ready : forall s t, Rs s t -> agree (goes Rs) (poll_ready a s) (poll_ready b t);
  tw_call : forall s t r, Rs s t -> agree (both Rs Rf) (call a s r) (call b t r);
  tw_poll : forall f g, Rf f g -> agree (goes Rf) (poll_fut a f) (poll_fut b g);
  tw_clone : forall s t, Rs s t -> agree Rs (clone a s) (clone b t);
  tw_drop_svc : forall s t w, Rs s t -> drop_svc a s w = drop_svc b t w;
  tw_drop_fut : forall f g w, Rf f g -> drop_fut a f w = drop_fut b g w }.

Definition bisim {W Req Resp Err} (a : Service W Req Resp Err) (sa : st a) (b : Service W Req Resp Err) (sb : st b) : Prop :=
  exists Rs Rf, @twins _ _ _ _ a b Rs Rf /\ Rs sa sb.

Lemma agree_bind W A B A' B' (R : A -> B -> Prop) (Q : A' -> B' -> Prop) (m1 : M W A) (m2 : M W B)
  (k1 : A -> M W A') (k2 : B -> M W B') :
  agree R m1 m2 -> (forall x y, R x y -> agree Q (k1 x) (k2 y)) -> agree Q (bind m1 k1) (bind m2 k2).
Proof.
  intros H K w. specialize (H w). unfold bind.
  destruct (m1 w) as [w1 [x| |]], (m2 w) as [w2 [y| |]]; cbn in H; destruct H as [-> H]; try contradiction; cbn;
    try (split; [reflexivity|exact I]).
  apply K. exact H.
Qed.
Lemma agree_ret W A B (R : A -> B -> Prop) x y : R x y -> agree (W := W) R (ret x) (ret y).
Proof. intros H w. cbn. split; [reflexivity|exact H]. Qed.
Lemma agree_self W A (m : M W A) : agree eq m m.
Proof. intros w. split; [reflexivity|]. destruct (snd (m w)); auto. Qed.
Lemma agree_panic W A B (R : A -> B -> Prop) : agree (W := W) R panic panic.
Proof. intros w. split; [reflexivity|exact I]. Qed.
Lemma agree_diverge W A B (R : A -> B -> Prop) : agree (W := W) R diverge diverge.
Proof. intros w. split; [reflexivity|exact I]. Qed.
Lemma agree_modify W (f g : W -> W) : (forall w, f w = g w) -> agree eq (modify f) (modify g).
Proof. intros H w. cbn. rewrite H. split; reflexivity. Qed.

(** ** Bisimilar instances are alike *)
Definition opt {A B} (R : A -> B -> Prop) (x : option A) (y : option B) : Prop :=
  match x, y with Some a, Some b => R a b | None, None => True | _, _ => False end.

Lemma held_rel A B (R : A -> B -> Prop) (l : list (option A)) (l' : list (option B)) i :
  Forall2 (opt R) l l' -> opt R (held_at l i) (held_at l' i).
Proof.
  intros H. unfold held_at. revert i. induction H as [|x y l l' HR _ IH]; intros [|i]; cbn; auto.
Qed.
Lemma set_rel A B (R : A -> B -> Prop) (l : list A) (l' : list B) i x y :
  Forall2 R l l' -> R x y -> Forall2 R (set_nth i x l) (set_nth i y l').
Proof.
  intros H HR. revert i. induction H as [|? ? ? ? ? ? IH]; intros [|i]; cbn; constructor; auto.
Qed.
Lemma app_rel A B (R : A -> B -> Prop) (l : list A) (l' : list B) x y :
  Forall2 R l l' -> R x y -> Forall2 R (l ++ [x]) (l' ++ [y]).
Proof. intros H HR. apply Forall2_app; [exact H|repeat constructor; exact HR]. Qed.

Section Sound.
  Context {W Req Resp Err : Type} {a b : Service W Req Resp Err}.
  Context {Rs : st a -> st b -> Prop} {Rf : fut a -> fut b -> Prop}.

  Definition prel (y : prog a) (z : prog b) : Prop :=
    u_world y = u_world z /\ Forall2 (opt Rs) (u_svcs y) (u_svcs z) /\ Forall2 (opt Rf) (u_futs y) (u_futs z).

  Ltac fin := repeat first [ apply set_rel | apply app_rel ]; try assumption; try exact I.
  Ltac use H := let E := fresh in pose proof H as E;
    match type of E with _ = _ /\ match snd ?x with _ => _ end =>
      destruct x as [?w [?x| |]] end;
    cbn in E; revert E.

  Lemma step_rel (T : twins a b Rs Rf) y z o : prel y z -> prel (ustep y o) (ustep z o) /\ sight y o = sight z o.
  Proof.
    intros (Hw & Hs & Hf). destruct y as [w sy fy], z as [w2 sz fz]. cbn in Hw, Hs, Hf. subst w2.
    destruct o as [i|i r|i|i|j|j|g]; cbn.
    - pose proof (held_rel i Hs) as H. destruct (held_at sy i) as [s|], (held_at sz i) as [t|]; cbn in H; try contradiction;
        [|repeat split; assumption].
      destruct (tw_ready T _ _ H w) as [E1 E2].
      destruct (poll_ready a s w) as [w1 [[s1 p]| |]], (poll_ready b t w) as [w2 [[t1 q]| |]]; cbn in E1, E2; subst; try contradiction; cbn.
      + destruct E2 as [E2 E3]; cbn in E2, E3; subst. repeat split; fin.
      + repeat split; fin.
      + repeat split; fin.
    - pose proof (held_rel i Hs) as H. destruct (held_at sy i) as [s|], (held_at sz i) as [t|]; cbn in H; try contradiction;
        [|repeat split; assumption].
      destruct (tw_call T _ _ r H w) as [E1 E2].
      destruct (call a s r w) as [w1 [[s1 p]| |]], (call b t r w) as [w2 [[t1 q]| |]]; cbn in E1, E2; subst; try contradiction; cbn.
      + destruct E2 as [E2 E3]; cbn in E2, E3. repeat split; fin.
      + repeat split; fin.
      + repeat split; fin.
    - pose proof (held_rel i Hs) as H. destruct (held_at sy i) as [s|], (held_at sz i) as [t|]; cbn in H; try contradiction;
        [|repeat split; assumption].
      destruct (tw_clone T _ _ H w) as [E1 E2].
      destruct (clone a s w) as [w1 [s1| |]], (clone b t w) as [w2 [t1| |]]; cbn in E1, E2; subst; try contradiction; cbn;
        repeat split; fin.
    - pose proof (held_rel i Hs) as H. destruct (held_at sy i) as [s|], (held_at sz i) as [t|]; cbn in H; try contradiction;
        [|repeat split; assumption].
      rewrite (tw_drop_svc T _ _ w H). repeat split; fin.
    - pose proof (held_rel j Hf) as H. destruct (held_at fy j) as [s|], (held_at fz j) as [t|]; cbn in H; try contradiction;
        [|repeat split; assumption].
      destruct (tw_poll T _ _ H w) as [E1 E2].
      destruct (poll_fut a s w) as [w1 [[s1 p]| |]], (poll_fut b t w) as [w2 [[t1 q]| |]]; cbn in E1, E2; subst; try contradiction; cbn.
      + destruct E2 as [E2 E3]; cbn in E2, E3; subst. repeat split; fin.
      + repeat split; fin.
      + repeat split; fin.
    - pose proof (held_rel j Hf) as H. destruct (held_at fy j) as [s|], (held_at fz j) as [t|]; cbn in H; try contradiction;
        [|repeat split; assumption].
      rewrite (tw_drop_fut T _ _ w H). repeat split; fin.
    - repeat split; assumption.
  Qed.

  Lemma talk_rel (T : twins a b Rs Rf) c : forall y z, prel y z -> talk y c = talk z c.
  Proof.
    induction c as [|o k IH]; intros y z H; [reflexivity|]. cbn.
    destruct (step_rel T o H) as [H1 H2]. rewrite H2. pose proof H1 as (H3 & _). rewrite H3. f_equal.
    apply IH. exact H1.
  Qed.
End Sound.

Lemma bisim_alike W Req Resp Err (a : Service W Req Resp Err) sa (b : Service W Req Resp Err) sb :
  bisim a sa b sb -> alike a sa b sb.
Proof.
  intros (Rs & Rf & T & H) w c. refine (talk_rel T c _). split; [reflexivity|]. cbn. split; repeat constructor. exact H.
Qed.

(** ** And the converse *)
Section Complete.
  Context {W Req Resp Err : Type} (a b : Service W Req Resp Err).

  Definition equi (y : prog a) (z : prog b) : Prop :=
    length (u_svcs y) = length (u_svcs z) /\ length (u_futs y) = length (u_futs z) /\ (forall c, talk y c = talk z c).

  Lemma equi_step y z o : equi y z ->
    length (u_svcs (ustep y o)) = length (u_svcs (ustep z o)) -> length (u_futs (ustep y o)) = length (u_futs (ustep z o)) ->
    equi (ustep y o) (ustep z o).
  Proof.
    intros (_ & _ & H) H1 H2. split; [exact H1|]. split; [exact H2|]. intros c.
    specialize (H (Do o (fun _ _ => c))). cbn in H. injection H as _ _ H. exact H.
  Qed.
  Lemma equi_look y z o : equi y z -> sight y o = sight z o /\ u_world (ustep y o) = u_world (ustep z o).
  Proof.
    intros (_ & _ & H). specialize (H (Do o (fun _ _ => Stop))). cbn in H. injection H as H1 H2. split; assumption.
  Qed.
  Lemma equi_env y z g : equi y z -> equi (ustep y (UEnv g)) (ustep z (UEnv g)).
  Proof. intros H. apply equi_step; [exact H| |]; apply H. Qed.

  (** The two occur at the same place in two programs that look alike. *)
  Definition Ts (s : st a) (t : st b) : Prop :=
    W -> exists y z i, equi y z /\ held_at (u_svcs y) i = Some s /\ held_at (u_svcs z) i = Some t.
  Definition Tf (f : fut a) (g : fut b) : Prop :=
    W -> exists y z j, equi y z /\ held_at (u_futs y) j = Some f /\ held_at (u_futs z) j = Some g.

  Lemma len_set A (l : list A) i x : length (set_nth i x l) = length l.
  Proof. revert i. induction l as [|y l IH]; intros [|i]; cbn; auto. Qed.
  Lemma held_lt A (l : list (option A)) i s : held_at l i = Some s -> i < length l.
  Proof.
    unfold held_at. intros H. destruct (nth_error l i) as [o|] eqn:E; [|discriminate].
    apply nth_error_Some. rewrite E. discriminate.
  Qed.
  Lemma held_set A (l : list (option A)) i s : i < length l -> held_at (set_nth i (Some s) l) i = Some s.
  Proof.
    unfold held_at. revert i. induction l as [|y l IH]; intros [|i] H; cbn in *; try lia; [reflexivity|].
    apply IH. lia.
  Qed.
  Lemma held_new A (l : list (option A)) s : held_at (l ++ [Some s]) (length l) = Some s.
  Proof. unfold held_at. rewrite nth_error_app2 by lia. rewrite Nat.sub_diag. reflexivity. Qed.

  Lemma Ts_at s t w : Ts s t -> exists y z i, equi y z /\ u_world y = w /\ u_world z = w /\
    held_at (u_svcs y) i = Some s /\ held_at (u_svcs z) i = Some t.
  Proof.
    intros H. destruct (H w) as (y & z & i & E & H1 & H2). exists (ustep y (UEnv (fun _ => w))), (ustep z (UEnv (fun _ => w))), i.
    split; [apply equi_env; exact E|]. repeat split; assumption.
  Qed.
  Lemma Tf_at s t w : Tf s t -> exists y z i, equi y z /\ u_world y = w /\ u_world z = w /\
    held_at (u_futs y) i = Some s /\ held_at (u_futs z) i = Some t.
  Proof.
    intros H. destruct (H w) as (y & z & i & E & H1 & H2). exists (ustep y (UEnv (fun _ => w))), (ustep z (UEnv (fun _ => w))), i.
    split; [apply equi_env; exact E|]. repeat split; assumption.
  Qed.

  Ltac look E o :=
    let H1 := fresh "L" in let H2 := fresh "L" in
    destruct (equi_look o E) as [H1 H2]; pose proof (equi_step o E) as N;
    cbn in H1, H2, N;
    repeat match goal with
    | H : held_at _ _ = _ |- _ => rewrite H in H1, H2, N
    end;
    repeat match goal with
    | H : u_world _ = _ |- _ => rewrite H in H1, H2, N
    end.
  Ltac lens := cbn; repeat rewrite ?len_set, ?app_length; auto with arith.

  Lemma complete : twins a b Ts Tf.
  Proof.
    constructor.
    - intros s t H w. destruct (Ts_at w H) as (y & z & i & E & Y & Z & H1 & H2).
      pose proof E as (E1 & E2 & _). look E (@UReady W Req i).
      destruct (poll_ready a s w) as [w1 [[s1 p]| |]], (poll_ready b t w) as [w2 [[t1 q]| |]]; cbn in *;
        try discriminate; subst; (split; [reflexivity|]); try exact I.
      split; cbn; [|congruence]. intros _; eexists _, _, i. split; [apply N; lens|]. cbn. split; apply held_set; eapply held_lt; eassumption.
    - intros s t r H w. destruct (Ts_at w H) as (y & z & i & E & Y & Z & H1 & H2).
      pose proof E as (E1 & E2 & _). look E (@UCall W Req i r).
      destruct (call a s r w) as [w1 [[s1 p]| |]], (call b t r w) as [w2 [[t1 q]| |]]; cbn in *;
        try discriminate; subst; (split; [reflexivity|]); try exact I.
      split; cbn.
      + intros _; eexists _, _, i. split; [apply N; lens|]. cbn. split; apply held_set; eapply held_lt; eassumption.
      + intros _; eexists _, _, (length (u_futs y)). split; [apply N; lens|]. cbn. split; [apply held_new|].
        rewrite E2. apply held_new.
    - intros s t H w. destruct (Tf_at w H) as (y & z & i & E & Y & Z & H1 & H2).
      pose proof E as (E1 & E2 & _). look E (@UPoll W Req i).
      destruct (poll_fut a s w) as [w1 [[s1 p]| |]], (poll_fut b t w) as [w2 [[t1 q]| |]]; cbn in *;
        try discriminate; subst; (split; [reflexivity|]); try exact I.
      split; cbn; [|congruence]. intros _; eexists _, _, i. split; [apply N; lens|]. cbn. split; apply held_set; eapply held_lt; eassumption.
    - intros s t H w. destruct (Ts_at w H) as (y & z & i & E & Y & Z & H1 & H2).
      pose proof E as (E1 & E2 & _). look E (@UClone W Req i).
      destruct (clone a s w) as [w1 [s1| |]], (clone b t w) as [w2 [t1| |]]; cbn in *;
        try discriminate; subst; (split; [reflexivity|]); try exact I.
      intros _; eexists _, _, (length (u_svcs y)). split; [apply N; lens|]. cbn. split; [apply held_new|].
      rewrite E1. apply held_new.
    - intros s t w H. destruct (Ts_at w H) as (y & z & i & E & Y & Z & H1 & H2).
      look E (@UDrop W Req i). cbn in *. congruence.
    - intros s t w H. destruct (Tf_at w H) as (y & z & i & E & Y & Z & H1 & H2).
      look E (@UDropFut W Req i). cbn in *. congruence.
  Qed.
End Complete.

Lemma alike_bisim W Req Resp Err (a : Service W Req Resp Err) sa (b : Service W Req Resp Err) sb :
  alike a sa b sb -> bisim a sa b sb.
Proof.
  intros H. exists (@Ts _ _ _ _ a b), (@Tf _ _ _ _ a b). split; [apply complete|].
  intros w. exists (ustart a w [sa]), (ustart b w [sb]), 0. split; [|split; reflexivity].
  split; [reflexivity|]. split; [reflexivity|]. intros c. apply H.
Qed.
