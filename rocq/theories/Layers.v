(** Model of tower-layer and of tower's ServiceBuilder.

    Layers are functions on service values.  Rust's trait is generic over the
    service type; here all service values live in one type [U].  [left] and
    [right] stand for the constructors [Either::Left]/[Either::Right]. *)
From Verif Require Import Base.
Set Implicit Arguments.

Section Layers.
  Context {U : Type} (left right : U -> U).

  Inductive lay :=
  | LFn (f : U -> U)                 (* any user layer, and layer_fn *)
  | LIdentity
  | LStack (inner outer : lay)
  | LTuple (ls : list lay)
  | LRef (l : lay)                   (* &L *)
  | LLeft (l : lay) | LRight (l : lay)
  | LBuilder (l : lay).              (* ServiceBuilder<L> *)


  (** [Layer::layer]: layer_fn.rs:85-94, identity.rs:24-30, stack.rs:19-31,
      tuple.rs, tower-layer/src/lib.rs:103-112 (&L), util/either.rs:90-103,
      builder/mod.rs:862-871. *)
  Fixpoint layer_apply (l : lay) (s : U) : U :=
    match l with
    | LFn f => f s
    | LIdentity => s
    | LStack inner outer => layer_apply outer (layer_apply inner s)
    | LTuple ls =>
        (fix tup ls s :=
           match ls with
           | [] => s
           | [l1] => layer_apply l1 s
           | [l1; l2] => layer_apply l1 (layer_apply l2 s)
           | l1 :: rest => layer_apply l1 (tup rest s)
           end) ls s
    | LRef l => layer_apply l s
    | LLeft l => left (layer_apply l s)
    | LRight l => right (layer_apply l s)
    | LBuilder l => layer_apply l s
    end.

  (** builder/mod.rs:117-122 *)
  Definition builder_new : lay := LIdentity.
  (** builder/mod.rs:132-136; every helper method ([timeout], [retry], [buffer],
      ...) is a call of this one. *)
  Definition builder_layer (b l : lay) : lay := LStack l b.
  (** util/mod.rs:1067-1073 and builder/mod.rs:155-160 *)
  Definition option_layer (o : option lay) : lay :=
    match o with Some l => LLeft l | None => LRight LIdentity end.
  (** builder/mod.rs:489-494 *)
  Definition builder_service (b : lay) (s : U) : U := layer_apply b s.
End Layers.

Arguments LFn {U} f.
Arguments LIdentity {U}.
Arguments LTuple {U} ls.
Arguments builder_new {U}.
