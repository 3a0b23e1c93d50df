(** Model of ServiceBuilder over concrete services: the layers that map
    requests, responses and errors, with their types. *)
From Verif Require Import Base Util.
Set Implicit Arguments.

(** A service's request, response and error types. *)
Record sig3 := Sig { rq : Type; rs : Type; er : Type }.
Definition SV (W : Type) (A : sig3) := Service W (rq A) (rs A) (er A).
(** A service value: a service and its state. *)
Definition SVal (W : Type) (A : sig3) := { svc : SV W A & st svc }.

(** A layer taking services of signature [A] to services of signature [B]. *)
Inductive tlayer : sig3 -> sig3 -> Type :=
| TIdentity A : tlayer A A                                            (* tower-layer/src/identity.rs *)
| TStack A B C (inner : tlayer A B) (outer : tlayer B C) : tlayer A C  (* tower-layer/src/stack.rs *)
| TMapRequest Q Q' R E (g : Q' -> Q) : tlayer (Sig Q R E) (Sig Q' R E)
| TMapResponse Q R R' E (g : R -> R') : tlayer (Sig Q R E) (Sig Q R' E)
| TMapErr Q R E E' (g : E -> E') : tlayer (Sig Q R E) (Sig Q R E')
| TMapResult Q R E R' E' (into : E -> E') (g : result R E -> result R' E') : tlayer (Sig Q R E) (Sig Q R' E')
| TBoxed A : tlayer A A
| TOption A (l : tlayer A A) (there : bool) : tlayer A A.              (* option_layer(there.then_some(l)) *)

(** [Layer::layer]: identity.rs:24-30, stack.rs:19-31, util/map_request.rs:78-90,
    util/map_response.rs:86-98, util/map_err.rs:86-98, util/map_result.rs:87-99,
    util/boxed/sync.rs:77-84, unsync.rs:41-48, boxed_clone.rs:80-87, boxed_clone_sync.rs:41-48 (with
    builder/mod.rs:706-860), util/either.rs:90-103 with util/mod.rs:1067-1073.
    The closures have no effects here (C03 has them with effects). *)
Fixpoint tlayer_apply (W : Type) A B (l : tlayer A B) : SVal W A -> SVal W B :=
  match l in tlayer A B return SVal W A -> SVal W B with
  | TIdentity A => fun v => v
  | TStack inner outer => fun v => tlayer_apply outer (tlayer_apply inner v)
  | @TMapRequest Q Q' R E g => fun v =>
      let svc : Service W Q R E := projT1 v in
      existT (fun svc : SV W (Sig Q' R E) => st svc) (map_request (fun r => ret (g r)) svc) (projT2 v)
  | @TMapResponse Q R R' E g => fun v =>
      let svc : Service W Q R E := projT1 v in
      existT (fun svc : SV W (Sig Q R' E) => st svc) (map_response (fun a => ret (g a)) svc) (projT2 v)
  | @TMapErr Q R E E' g => fun v =>
      let svc : Service W Q R E := projT1 v in
      existT (fun svc : SV W (Sig Q R E') => st svc) (map_err (fun e => ret (g e)) svc) (projT2 v)
  | @TMapResult Q R E R' E' into g => fun v =>
      let svc : Service W Q R E := projT1 v in
      existT (fun svc : SV W (Sig Q R' E') => st svc) (map_result into (fun r => ret (g r)) svc) (projT2 v)
  | TBoxed A => fun v => existT (fun svc : SV W A => st svc) (boxed (projT1 v)) (projT2 v)
  | @TOption A l there => fun v =>
      let made := tlayer_apply l v in
      existT (fun svc : SV W A => st svc) (either (projT1 made) (projT1 v))
        (if there then inl (projT2 made) else inr (projT2 v))
  end.

(** ServiceBuilder<L> is its layer. *)
(** builder/mod.rs:117-122 *)
Definition sb_new A : tlayer A A := TIdentity A.
(** builder/mod.rs:132-136 *)
Definition sb_layer A B C (b : tlayer B C) (l : tlayer A B) : tlayer A C := TStack l b.
(** builder/mod.rs:155-160 *)
Definition sb_option_layer A C (b : tlayer A C) (l : tlayer A A) (there : bool) : tlayer A C := sb_layer b (TOption l there).
(** builder/mod.rs:365-372 *)
Definition sb_map_request Q Q' R E C (b : tlayer (Sig Q' R E) C) (g : Q' -> Q) : tlayer (Sig Q R E) C := sb_layer b (TMapRequest R E g).
(** builder/mod.rs:385-390 *)
Definition sb_map_response Q R R' E C (b : tlayer (Sig Q R' E) C) (g : R -> R') : tlayer (Sig Q R E) C := sb_layer b (TMapResponse Q E g).
(** builder/mod.rs:402-404 *)
Definition sb_map_err Q R E E' C (b : tlayer (Sig Q R E') C) (g : E -> E') : tlayer (Sig Q R E) C := sb_layer b (TMapErr Q R g).
(** builder/mod.rs:475-477 *)
Definition sb_map_result Q R E R' E' C (b : tlayer (Sig Q R' E') C) (into : E -> E') (g : result R E -> result R' E')
  : tlayer (Sig Q R E) C := sb_layer b (TMapResult Q into g).
(** builder/mod.rs:706-860 *)
Definition sb_boxed A C (b : tlayer A C) : tlayer A C := sb_layer b (TBoxed A).
(** builder/mod.rs:489-494 *)
Definition sb_service (W : Type) A B (b : tlayer A B) (v : SVal W A) : SVal W B := tlayer_apply b v.
