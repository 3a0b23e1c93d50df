(** C68: ServiceBuilder pipelines.  Specification in BuilderSpec.v. *)
From Verif Require Import Base Util DriveSpec Builder BuilderSpec BuilderProof Demo.
Set Implicit Arguments.

(** Whatever mapping layers a ServiceBuilder is given - any number, in any nesting of stacks, builders and optional
    layers - the service it builds is the one it was given with requests, results and readiness errors mapped by the
    composed functions of BuilderSpec.v, and nothing else changed. *)
Theorem C68_pipeline :
  forall W A B (b : tlayer A B) (v : SVal W A),
  exists emb wrap, projT2 (sb_service b v) = emb (projT2 v) /\
    mapped (projT1 v) (projT1 (sb_service b v)) (way_in b) (way_out b) (error_out b) emb wrap.
Proof. exact @pipeline. Qed.
Print Assumptions C68_pipeline.

(** In the order of the builder: what was added first sees requests first ... *)
Theorem C68_requests_in_order :
  forall Q R E (fs : list (Q -> Q)) r,
  way_in (fold_left (fun b f => sb_map_request b f) fs (sb_new (Sig Q R E))) r = fold_left (fun r f => f r) fs r.
Proof. exact builder_requests. Qed.
Print Assumptions C68_requests_in_order.
(** ... and responses and errors last. *)
Theorem C68_responses_in_order :
  forall Q R E (fs : list (R -> R)) a,
  way_out (fold_left (fun b f => sb_map_response b f) fs (sb_new (Sig Q R E))) (Ok a) = Ok (fold_right (fun f a => f a) a fs).
Proof. exact builder_responses. Qed.
Print Assumptions C68_responses_in_order.
Theorem C68_errors_in_order :
  forall Q R E (fs : list (E -> E)) e,
  error_out (fold_left (fun b f => sb_map_err b f) fs (sb_new (Sig Q R E))) e = fold_right (fun f e => f e) e fs /\
  way_out (fold_left (fun b f => sb_map_err b f) fs (sb_new (Sig Q R E))) (Er e) = Er (fold_right (fun f e => f e) e fs).
Proof. exact builder_errors. Qed.
Print Assumptions C68_errors_in_order.

(** A builder with types that change on the way: requests are booleans, then numbers; a response is doubled, then
    printed as a pair with 0. *)
Definition pipe_demo : tlayer (Sig nat nat nat) (Sig bool (nat * nat) nat) :=
  sb_map_response (sb_option_layer (sb_map_request (sb_map_response (sb_new _) (fun n => (n, 0))) (fun c : bool => if c then 10 else 20))
    (TMapRequest _ _ S) true) (fun n => 2 * n).
Example C68_example :
  let v := sb_service (W := scr) pipe_demo (existT (fun svc : SV scr (Sig nat nat nat) => st svc) demo 8) in
  way_in pipe_demo true = 11 /\ way_out pipe_demo (Ok 5) = Ok (10, 0) /\
  match call (projT1 v) (projT2 v) true (Scr 0 [] [Pending; Ready (Ok 5)]) with
  | (w, Val (_, f)) => snd (fst (seen (projT1 v) f w [fun w => w; fun w => w])) = Some (Some (Ok (10, 0)))
  | _ => False
  end.
Proof. split; [reflexivity|]. split; reflexivity. Qed.
