(** C62: LoadShed over ConcurrencyLimit.  Specification in ShedConcSpec.v. *)
From Verif Require Import Base Middleware Limits ConcSpec ShedConcSpec ShedConcProof Demo.
Set Implicit Arguments.

(** Every answer, panic and operation on the wrapped services is as in the specification: [poll_ready] never answers
    Pending; a call is passed on iff the limited service said yes since the last call passed on, and is otherwise answered Overloaded
    without touching anything. *)
Theorem C62_refines :
  forall W Req Resp Err (svc : Service W Req Resp Err) (max : nat) (s : st svc) (w : W) (l : list (zop svc)),
  fst (zsys_run (zsys0 svc max s w) l) = fst (zspec_run max (zspec0 svc s w) l).
Proof. exact @shed_refines. Qed.
Print Assumptions C62_refines.

(** Never more than [max] requests that were not rejected are in flight. *)
Theorem C62_accepted_bounded :
  forall W Req Resp Err (svc : Service W Req Resp Err) (max : nat) (s : st svc) (w : W) (l : list (zop svc)),
  accepted (z_futs (snd (zsys_run (zsys0 svc max s w) l))) <= max.
Proof. exact @shed_bound. Qed.
Print Assumptions C62_accepted_bounded.

(** As long as there is only one instance, a request ([None]: the rejected future) is rejected only if [max]
    requests are in flight or the wrapped service itself was asked just now and was not ready. *)
Theorem C62_alone_rejects_only_when_full :
  forall W Req Resp Err (svc : Service W Req Resp Err) (max : nat) (s : st svc) (w : W) (l : list (zop svc))
    c w1 c1 r w2 c2,
  Forall (alone (svc := svc)) l ->
  let h := zsys_run (zsys0 svc max s w) l in
  let ls := load_shed (conc_limit svc (fun _ => false) true) in
  Forall (fun x => zstops (fst x) = false) (fst h) ->
  nth_error (z_insts (snd h)) 0 = Some (Some c) ->
  poll_ready ls c (z_w (snd h)) = (w1, Val (c1, Ready (Ok tt))) ->
  call ls c1 r w1 = (w2, Val (c2, None)) ->
  accepted (z_futs (snd h)) = max \/
  exists s1, poll_ready svc (cl_inner (ls_inner c)) (snd (z_w (snd h))) = (snd w1, Val (s1, Pending)).
Proof. exact @shed_refused. Qed.
Print Assumptions C62_alone_rejects_only_when_full.

(** With clones this is false.  A clone that was refused stays in the line; when the request in flight ends, the
    permit is kept for that clone, and as long as it does not ask again every request of the other instance is
    rejected, although the service is ready and nothing is in flight. *)
Theorem C62_clones_reject_only_when_full_refuted :
  forall n,
  let start := [ZClone 0; ZReady 0; ZCall 0 5; ZReady 1; ZDropFut 0] in
  let h := zsys_run (zsys0 demo 1 7 scr0) (start ++ concat (repeat [ZReady 0; ZCall 0 6] n)) in
  z_futs (snd h) = None :: repeat (Some None) n /\ accepted (z_futs (snd h)) = 0.
Proof. exact shed_starves. Qed.
Print Assumptions C62_clones_reject_only_when_full_refuted.

(** A limit of one: the second request is rejected, and after the first has ended the third is accepted. *)
Example C62_example :
  map fst (fst (zsys_run (zsys0 demo 1 7 scr0)
    [ZReady 0; ZCall 0 5; ZReady 0; ZCall 0 6; ZPoll 1; ZPoll 0; ZDropFut 0; ZReady 0; ZCall 0 8; ZPoll 2]))
  = [ZoReady (Ready (Ok tt)); ZoCalled 0; ZoReady (Ready (Ok tt)); ZoCalled 1; ZoPolled (Ready (Er (inr tt)));
     ZoPolled (Ready (Ok 5)); ZoDone; ZoReady (Ready (Ok tt)); ZoCalled 2; ZoPolled (Ready (Ok 8))].
Proof. reflexivity. Qed.
Example C62_alone_example :
  let h := zsys_run (zsys0 demo 1 7 scr0) [ZReady 0; ZCall 0 5] in
  let ls := load_shed (conc_limit demo (fun _ => false) true) in
  exists c w1 c1 w2 c2,
  nth_error (z_insts (snd h)) 0 = Some (Some c) /\
  poll_ready ls c (z_w (snd h)) = (w1, Val (c1, Ready (Ok tt))) /\
  call ls c1 6 w1 = (w2, Val (c2, None)) /\ accepted (z_futs (snd h)) = 1.
Proof. cbn. do 5 eexists. repeat split; reflexivity. Qed.
