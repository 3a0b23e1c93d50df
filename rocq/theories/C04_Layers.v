(** C04: layers compose in the documented order. *)
From Verif Require Import Base Layers LayersProof Util Demo.
Set Implicit Arguments.

(** ServiceBuilder: the layer added first ends up outermost, whatever the number of layers. *)
Theorem C04_builder_order :
  forall U (left right : U -> U) (ls : list (lay (U:=U))) s,
  builder_service left right (fold_left builder_layer ls builder_new) s = fold_right (layer_apply left right) s ls.
Proof. exact @builder_order. Qed.
Print Assumptions C04_builder_order.

(** A tuple of layers: the first is outermost. *)
Theorem C04_tuple_order :
  forall U (left right : U -> U) (ls : list (lay (U:=U))) s,
  (layer_apply left right) (LTuple ls) s = fold_right (layer_apply left right) s ls.
Proof. exact @tuple_order. Qed.
Print Assumptions C04_tuple_order.

(** Stacking is associative, Identity is neutral. *)
Theorem C04_stack_assoc :
  forall U (left right : U -> U) (a b c : lay (U:=U)) s,
  (layer_apply left right) (LStack (LStack a b) c) s = (layer_apply left right) (LStack a (LStack b c)) s.
Proof. exact @stack_assoc. Qed.
Print Assumptions C04_stack_assoc.

Theorem C04_stack_identity :
  forall U (left right : U -> U) (a : lay (U:=U)) s,
  (layer_apply left right) (LStack a LIdentity) s = (layer_apply left right) a s /\ (layer_apply left right) (LStack LIdentity a) s = (layer_apply left right) a s.
Proof. exact @stack_identity. Qed.
Print Assumptions C04_stack_identity.

(** A builder used as a layer inside another builder is the same as adding its layers in place. *)
Theorem C04_builder_nested :
  forall U (left right : U -> U) (l1 l2 l3 : list (lay (U:=U))) s,
  builder_service left right
    (fold_left builder_layer (l1 ++ [LBuilder (fold_left builder_layer l2 builder_new)] ++ l3) builder_new) s
  = builder_service left right (fold_left builder_layer (l1 ++ l2 ++ l3) builder_new) s.
Proof. exact @builder_nested. Qed.
Print Assumptions C04_builder_nested.

(** Tuples and builders agree. *)
Theorem C04_tuple_builder :
  forall U (left right : U -> U) (ls : list (lay (U:=U))) s,
  (layer_apply left right) (LTuple ls) s = builder_service left right (fold_left builder_layer ls builder_new) s.
Proof. exact @tuple_builder. Qed.
Print Assumptions C04_tuple_builder.

(** option_layer. *)
Theorem C04_option_layer_spec :
  forall U (left right : U -> U) (o : option (lay (U:=U))) s,
  (layer_apply left right) (option_layer o) s = match o with Some l => left ((layer_apply left right) l s) | None => right s end.
Proof. exact @option_layer_spec. Qed.
Print Assumptions C04_option_layer_spec.

(** Non-vacuity: three layers that write their names. *)
Example C04_example :
  builder_service (fun s => s) (fun s => s)
    (fold_left builder_layer [LFn (cons 1); LFn (cons 2); LTuple [LFn (cons 3); LFn (cons 4); LFn (cons 5)]] builder_new) [0]
  = [1; 2; 3; 4; 5; 0].
Proof. reflexivity. Qed.

(** The same with real services: a request passes the first-added layer first. *)
Example C04_example_services :
  obs (run_svc (builder_service (fun s => s) (fun s => s)
      (fold_left builder_layer [LFn (map_request (fun r => ret (r + 1))); LFn (map_request (fun r => ret (r * 10)))]
        builder_new) demo) Primed 0 scr0 [(fun w => w, SCall 7)])
  = [ObsCall (svc := map_request (fun r => ret (r + 1)) (map_request (fun r => ret (r * 10)) demo)) 7 80].
Proof. reflexivity. Qed.
