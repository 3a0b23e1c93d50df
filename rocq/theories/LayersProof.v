From Verif Require Import Base Layers.
Set Implicit Arguments.

Section P.
  Context {U : Type} (left right : U -> U).
  Notation app := (layer_apply left right).

  Lemma builder_order (ls : list (lay (U:=U))) s :
    builder_service left right (fold_left builder_layer ls builder_new) s = fold_right app s ls.
  Proof.
    assert (H : forall b, app (fold_left builder_layer ls b) s = app b (fold_right app s ls)).
    { induction ls as [|l ls IH]; intros b; [reflexivity|]. cbn. rewrite IH. reflexivity. }
    apply (H builder_new).
  Qed.

  Lemma tuple_order (ls : list (lay (U:=U))) s : app (LTuple ls) s = fold_right app s ls.
  Proof.
    cbn. induction ls as [|l1 [|l2 [|l3 ls]] IH]; try reflexivity.
    cbn [fold_right] in *. rewrite <- IH. reflexivity.
  Qed.

  Lemma stack_assoc (a b c : lay (U:=U)) s : app (LStack (LStack a b) c) s = app (LStack a (LStack b c)) s.
  Proof. reflexivity. Qed.
  Lemma stack_identity (a : lay (U:=U)) s :
    app (LStack a LIdentity) s = app a s /\ app (LStack LIdentity a) s = app a s.
  Proof. split; reflexivity. Qed.

  (** A builder used as a layer of another builder. *)
  Lemma builder_nested (l1 l2 l3 : list (lay (U:=U))) s :
    builder_service left right
      (fold_left builder_layer (l1 ++ [LBuilder (fold_left builder_layer l2 builder_new)] ++ l3) builder_new) s
    = builder_service left right (fold_left builder_layer (l1 ++ l2 ++ l3) builder_new) s.
  Proof.
    rewrite !builder_order. rewrite !fold_right_app. f_equal.
    cbn. apply (builder_order l2).
  Qed.

  Lemma tuple_builder (ls : list (lay (U:=U))) s :
    app (LTuple ls) s = builder_service left right (fold_left builder_layer ls builder_new) s.
  Proof. rewrite tuple_order, builder_order. reflexivity. Qed.

  Lemma option_layer_spec (o : option (lay (U:=U))) s :
    app (option_layer o) s = match o with Some l => left (app l s) | None => right s end.
  Proof. destruct o; reflexivity. Qed.
End P.
