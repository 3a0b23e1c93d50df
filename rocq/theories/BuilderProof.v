(** Proofs for C68. *)
From Verif Require Import Base Util DriveSpec TranspProof Builder BuilderSpec.
Set Implicit Arguments.

Section Trans.
  Context {W Q1 R1 E1 Q2 R2 E2 Q3 R3 E3 : Type}.
  Context {a : Service W Q1 R1 E1} {b : Service W Q2 R2 E2} {c : Service W Q3 R3 E3}.
  Context (g1 : Q2 -> Q1) (e1 : E1 -> E2) (w1 : fut a -> fut b).
  Context (g2 : Q3 -> Q2) (e2 : E2 -> E3) (w2 : fut b -> fut c).
  Lemma obs_trans x y z :
    obs_agree (a := a) (b := b) g1 e1 (fun _ _ => w1) x y -> obs_agree (a := b) (b := c) g2 e2 (fun _ _ => w2) y z ->
    obs_agree (a := a) (b := c) (fun r => g1 (g2 r)) (fun e => e2 (e1 e)) (fun _ _ f => w2 (w1 f)) x z.
  Proof.
    intros H1 H2. destruct H2; inversion H1; subst; try constructor.
    - replace (poll_map (map_er e2) (poll_map (map_er e1) p0)) with (poll_map (map_er (fun e => e2 (e1 e))) p0)
        by (destruct p0 as [|[?|?]]; reflexivity). constructor.
    - exact (oa_call (a := a) (b := c) (fun r => g1 (g2 r)) (fun e => e2 (e1 e)) (fun _ _ f => w2 (w1 f)) w r _ w0).
  Qed.
  Lemma history_trans sa sb sc :
    same_history (a := a) (b := b) g1 e1 (fun _ _ => w1) sa sb -> same_history (a := b) (b := c) g2 e2 (fun _ _ => w2) sb sc ->
    same_history (a := a) (b := c) (fun r => g1 (g2 r)) (fun e => e2 (e1 e)) (fun _ _ f => w2 (w1 f)) sa sc.
  Proof.
    intros H1 H2 p w ops. specialize (H1 p w (map (op_map g2) ops)). specialize (H2 p w ops).
    assert (E : map (op_map (fun r => g1 (g2 r))) ops = map (op_map (W := W) g1) (map (op_map g2) ops)).
    { rewrite map_map. apply map_ext. intros [g [|r]]; reflexivity. }
    rewrite E. revert H1 H2. generalize (run_svc a p sa w (map (op_map g1) (map (op_map g2) ops))).
    generalize (run_svc b p sb w (map (op_map g2) ops)), (run_svc c p sc w ops). intros y z x H1. revert z.
    induction H1 as [|x y lx ly H H1 IH]; intros z H2; inversion H2; subst; constructor; eauto using obs_trans.
  Qed.
End Trans.

Section Steps.
  Context {W : Type}.
  Lemma seen_map_map (X Y Z : Type) (g : X -> Y) (h : Y -> Z) (d : list W * option (option X) * W) :
    seen_map h (seen_map g d) = seen_map (fun x => h (g x)) d.
  Proof. destruct d as [[l [[x|]|]] w]; reflexivity. Qed.
  Lemma seen_map_id (X : Type) (d : list W * option (option X) * W) : seen_map (fun x => x) d = d.
  Proof. destruct d as [[l [[x|]|]] w]; reflexivity. Qed.

  Lemma mapped_id Q R E (a : Service W Q R E) : mapped a a (fun r => r) (fun v => v) (fun e => e) (fun s => s) (fun f => f).
  Proof.
    split; auto.
    - intros s p w ops. replace (map (op_map (fun r : Q => r)) ops) with ops.
      + generalize (run_svc a p s w ops). intros h. induction h as [|[[x o] y] h IH]; constructor; auto.
        destruct o as [p0|r f| | |]; try constructor.
        * replace (ObsReady p0) with (ObsReady (svc := a) (poll_map (map_er (fun e => e)) p0)) at 2
            by (destruct p0 as [|[?|?]]; reflexivity). constructor.
        * exact (oa_call (a := a) (b := a) (fun r => r) (fun e => e) (fun _ _ f => f) x r f y).
      + rewrite <- (map_id ops) at 1. apply map_ext. intros [g [|r]]; reflexivity.
    - intros. rewrite seen_map_id. reflexivity.
    - intros s w. destruct (clone a s w) as [w1 [s1| |]]; reflexivity.
  Qed.
  Lemma mapped_trans Q1 R1 E1 Q2 R2 E2 Q3 R3 E3 (a : Service W Q1 R1 E1) (b : Service W Q2 R2 E2) (c : Service W Q3 R3 E3)
    i1 o1 e1 m1 w1 i2 o2 e2 m2 w2 :
    mapped a b i1 o1 e1 m1 w1 -> mapped b c i2 o2 e2 m2 w2 ->
    mapped a c (fun r => i1 (i2 r)) (fun v => o2 (o1 v)) (fun e => e2 (e1 e)) (fun s => m2 (m1 s)) (fun f => w2 (w1 f)).
  Proof.
    intros [H1 H2 H3 H4 H5] [K1 K2 K3 K4 K5]. split.
    - intros s. exact (history_trans (H1 s) (K1 (m1 s))).
    - intros. rewrite K2, H2. apply seen_map_map.
    - intros. rewrite K3, H3. destruct (clone a s w) as [? [?| |]]; reflexivity.
    - intros. rewrite K4. apply H4.
    - intros. rewrite K5. apply H5.
  Qed.

  Lemma clone_same Q R E (a : Service W Q R E) s w :
    clone a s w = match clone a s w with (w1, Val s1) => (w1, Val s1) | (w1, Panic) => (w1, Panic) | (w1, Diverge) => (w1, Diverge) end.
  Proof. destruct (clone a s w) as [w1 [s1| |]]; reflexivity. Qed.

  Ltac seen_tac L :=
    intros f w gs; unfold seen; rewrite L; unfold fin_then, bind, modify, ret;
    match goal with |- context [drive ?p ?f ?w ?gs] => destruct (drive p f w gs) as [l [? ?|? ? [?|?]| |]] end; reflexivity.
  Lemma map_request_mapped Q R E Q' (a : Service W Q R E) (g : Q' -> Q) :
    mapped a (map_request (fun r => ret (g r)) a) g (fun v => v) (fun e => e) (fun s => s) (fun f => f).
  Proof.
    split; try (intros; reflexivity); [exact (map_request_history a g) | seen_tac (map_request_drive a) | exact (clone_same a)].
  Qed.
  Lemma map_response_mapped Q R E R' (a : Service W Q R E) (g : R -> R') :
    mapped a (map_response (fun v => ret (g v)) a) (fun r => r) (fun v => match v with Ok x => Ok (g x) | Er e => Er e end) (fun e => e) (fun s => s) Some.
  Proof.
    split; try (intros; reflexivity); [exact (map_response_history a _) | seen_tac (map_response_drive a) | exact (clone_same a)].
  Qed.
  Lemma map_err_mapped Q R E E' (a : Service W Q R E) (g : E -> E') :
    mapped a (map_err (fun v => ret (g v)) a) (fun r => r) (fun v => match v with Ok x => Ok x | Er e => Er (g e) end) g (fun s => s) Some.
  Proof.
    split; try (intros; reflexivity); [exact (map_err_history a _) | seen_tac (map_err_drive a) | exact (clone_same a)].
  Qed.
  Lemma map_result_mapped Q R E R' E' (a : Service W Q R E) (into : E -> E') (g : result R E -> result R' E') :
    mapped a (map_result into (fun v => ret (g v)) a) (fun r => r) g into (fun s => s) Some.
  Proof.
    split; try (intros; reflexivity); [exact (map_result_history a _ _) | seen_tac (map_result_drive a) | exact (clone_same a)].
  Qed.
  Lemma boxed_mapped Q R E (a : Service W Q R E) :
    mapped a (boxed a) (fun r => r) (fun v => v) (fun e => e) (fun s => s) (fun f => f).
  Proof.
    split; [exact (boxed_history a) | seen_tac (boxed_drive a) | exact (clone_same a) | reflexivity..].
  Qed.
  Lemma left_mapped Q R E (a b : Service W Q R E) :
    mapped a (either a b) (fun r => r) (fun v => v) (fun e => e) inl inl.
  Proof.
    split; try (intros; reflexivity); [exact (either_history_l a b) | seen_tac (either_drive_l a)].
  Qed.
  Lemma right_mapped Q R E (a b : Service W Q R E) :
    mapped b (either a b) (fun r => r) (fun v => v) (fun e => e) inr inr.
  Proof.
    split; try (intros; reflexivity); [exact (either_history_r b a) | seen_tac (either_drive_r b)].
  Qed.

  Lemma pipeline A B (l : tlayer A B) (v : SVal W A) :
    exists emb wrap, projT2 (tlayer_apply l v) = emb (projT2 v) /\
      mapped (projT1 v) (projT1 (tlayer_apply l v)) (way_in l) (way_out l) (error_out l) emb wrap.
  Proof.
    revert v. induction l as [A|A B C l1 IH1 l2 IH2|Q Q' R E g|Q R R' E g|Q R E E' g|Q R E R' E' into g|A|A l IH there]; intros v; cbn.
    - eexists _, _. split; [|apply mapped_id]. reflexivity.
    - destruct (IH1 v) as (m1 & w1 & E1 & H1). destruct (IH2 (tlayer_apply l1 v)) as (m2 & w2 & E2 & H2).
      eexists _, _. split; [|exact (mapped_trans H1 H2)]. rewrite E2, E1. reflexivity.
    - eexists _, _. split; [|apply map_request_mapped]. reflexivity.
    - eexists _, _. split; [|apply map_response_mapped]. reflexivity.
    - eexists _, _. split; [|apply map_err_mapped]. reflexivity.
    - eexists _, _. split; [|apply map_result_mapped]. reflexivity.
    - eexists _, _. split; [|apply boxed_mapped]. reflexivity.
    - destruct (IH v) as (m & w & E & H). destruct there.
      + eexists _, _. split; [|exact (mapped_trans H (left_mapped _ _))]. cbn. rewrite E. reflexivity.
      + eexists _, _. split; [|apply right_mapped]. reflexivity.
  Qed.
End Steps.

Lemma builder_requests Q R E (fs : list (Q -> Q)) r :
  way_in (fold_left (fun b f => sb_map_request b f) fs (sb_new (Sig Q R E))) r = fold_left (fun r f => f r) fs r.
Proof.
  change r with (way_in (sb_new (Sig Q R E)) r) at 2. generalize (sb_new (Sig Q R E)).
  induction fs as [|f fs IH]; intros b; [reflexivity|]. cbn [fold_left]. rewrite IH. reflexivity.
Qed.
Lemma builder_responses Q R E (fs : list (R -> R)) a :
  way_out (fold_left (fun b f => sb_map_response b f) fs (sb_new (Sig Q R E))) (Ok a) = Ok (fold_right (fun f a => f a) a fs).
Proof.
  transitivity (way_out (sb_new (Sig Q R E)) (Ok (fold_right (fun f a => f a) a fs))); [|reflexivity].
  generalize (sb_new (Sig Q R E)).
  induction fs as [|f fs IH]; intros b; [reflexivity|]. cbn [fold_left]. rewrite IH. reflexivity.
Qed.
Lemma builder_errors Q R E (fs : list (E -> E)) e :
  error_out (fold_left (fun b f => sb_map_err b f) fs (sb_new (Sig Q R E))) e = fold_right (fun f e => f e) e fs /\
  way_out (fold_left (fun b f => sb_map_err b f) fs (sb_new (Sig Q R E))) (Er e) = Er (fold_right (fun f e => f e) e fs).
Proof.
  split.
  - transitivity (error_out (sb_new (Sig Q R E)) (fold_right (fun f a => f a) e fs)); [|reflexivity].
    generalize (sb_new (Sig Q R E)).
    induction fs as [|f fs IH]; intros b; [reflexivity|]. cbn [fold_left]. rewrite IH. reflexivity.
  - transitivity (way_out (sb_new (Sig Q R E)) (Er (fold_right (fun f a => f a) e fs))); [|reflexivity].
    generalize (sb_new (Sig Q R E)).
    induction fs as [|f fs IH]; intros b; [reflexivity|]. cbn [fold_left]. rewrite IH. reflexivity.
Qed.
