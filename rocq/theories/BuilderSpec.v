(** Specification for C68: what a pipeline of mapping layers means, without
    looking at services; and how a response future looks from outside. *)
From Verif Require Import Base Util DriveSpec Builder.
Set Implicit Arguments.

(** What becomes of a request on its way in: the outer layers first. *)
Fixpoint way_in A B (l : tlayer A B) : rq B -> rq A :=
  match l in tlayer A B return rq B -> rq A with
  | TStack inner outer => fun r => way_in inner (way_in outer r)
  | TMapRequest _ _ g => fun r => g r
  | TIdentity _ | TBoxed _ => fun r => r
  | TMapResponse _ _ _ | TMapErr _ _ _ | TMapResult _ _ _ => fun r => r
  | TOption l there => fun r => if there then way_in l r else r
  end.
(** And of a result on its way out: the inner layers first. *)
Fixpoint way_out A B (l : tlayer A B) : result (rs A) (er A) -> result (rs B) (er B) :=
  match l in tlayer A B return result (rs A) (er A) -> result (rs B) (er B) with
  | TStack inner outer => fun v => way_out outer (way_out inner v)
  | TMapRequest _ _ _ | TIdentity _ | TBoxed _ => fun v => v
  | TMapResponse _ _ g => fun v => match v with Ok a => Ok (g a) | Er e => Er e end
  | TMapErr _ _ g => fun v => match v with Ok a => Ok a | Er e => Er (g e) end
  | TMapResult _ _ g => fun v => g v
  | TOption l there => fun v => if there then way_out l v else v
  end.
(** And of a readiness error. *)
Fixpoint error_out A B (l : tlayer A B) : er A -> er B :=
  match l in tlayer A B return er A -> er B with
  | TStack inner outer => fun e => error_out outer (error_out inner e)
  | TMapRequest _ _ _ | TIdentity _ | TBoxed _ | TMapResponse _ _ _ => fun e => e
  | TMapErr _ _ g => fun e => g e
  | TMapResult _ into _ => fun e => into e
  | TOption l there => fun e => if there then error_out l e else e
  end.

(** A response future polled until it answers and then dropped: the worlds after each [Pending],
    the answer if there was one, and the world in the end.  [None]: it panicked or spun. *)
Definition seen {W Req Resp Err} (svc : Service W Req Resp Err) (f : fut svc) (w : W) (gs : list (W -> W))
  : list W * option (option (result Resp Err)) * W :=
  match drive (poll_fut svc) f w gs with
  | (l, Unfinished f1 w1) => (l, Some None, drop_fut svc f1 w1)
  | (l, Finished f1 w1 v) => (l, Some (Some v), drop_fut svc f1 w1)
  | (l, Panicked w1) | (l, Spun w1) => (l, None, w1)
  end.
Definition seen_map {W X Y} (g : X -> Y) (d : list W * option (option X) * W) : list W * option (option Y) * W :=
  match d with (l, o, w) => (l, option_map (option_map g) o, w) end.

(** [b] is [a] with requests mapped by [gin], results by [gout] and readiness errors by [ge], and nothing else:
    [emb] and [wrap] turn instances and response futures of [a] into the corresponding ones of [b]; the histories
    agree (DriveSpec.v), every future has the same polls and the mapped result, and cloning and dropping are those of [a]. *)
Record mapped {W Q R E Q' R' E'} (a : Service W Q R E) (b : Service W Q' R' E')
  (gin : Q' -> Q) (gout : result R E -> result R' E') (ge : E -> E') (emb : st a -> st b) (wrap : fut a -> fut b) : Prop := {
  mp_history : forall s, same_history (a := a) (b := b) gin ge (fun _ _ => wrap) s (emb s);
  mp_future : forall f w gs, seen b (wrap f) w gs = seen_map gout (seen a f w gs);
  mp_clone : forall s w, clone b (emb s) w =
    match clone a s w with (w1, Val s1) => (w1, Val (emb s1)) | (w1, Panic) => (w1, Panic) | (w1, Diverge) => (w1, Diverge) end;
  mp_drop : forall s w, drop_svc b (emb s) w = drop_svc a s w;
  mp_drop_fut : forall f w, drop_fut b (wrap f) w = drop_fut a f w
}.
