(** Specification of Shared (C57): histories of a [Shared], its clones and its futures, over a recorded service. *)
From Verif Require Import Base Middleware Track Make.
Set Implicit Arguments.

Section Spec.
  Context {W Tgt Req Resp Err : Type} (svc : Service W Req Resp Err).
  Notation ev := (tev Req Resp Err).
  Notation TW := (W * tk ev)%type.
  Definition msvc : Service TW Req Resp Err := tracked (fun e => e) svc.
  Definition smk : Service TW Tgt (st msvc) Empty_set := shared msvc.

  (** Makers are numbered in the order they came to be (0: the first), futures in the order of the calls. *)
  Inductive shop := ShReady (i : nat) | ShCall (i : nat) (t : Tgt) | ShClone (i : nat) | ShDrop (i : nat)
  | ShPoll (j : nat) | ShDropFut (j : nat).
  (** [k] is the identity of a service. *)
  Inductive shobs :=
  | BoReady (a : poll (result unit Empty_set))
  | BoCalled
  | BoCloned (k : nat)
  | BoPending
  | BoMade (k : nat)
  | BoDone
  | BoNone                     (* no such object (any more) *)
  | BoPanic | BoDiverge.
  Record shsys := ShSys { sh_mks : list (option (st smk)); sh_futs : list (option (fut smk)); sh_w : TW }.

  Definition shstep (g : W -> W) (o : shop) (y : shsys) : shsys * shobs :=
    let w := tk_env g (sh_w y) in
    let same x := ShSys (sh_mks y) (sh_futs y) x in
    match o with
    | ShReady i =>
        match nth_error (sh_mks y) i with
        | Some (Some s) =>
            match poll_ready smk s w with
            | (w1, Val (s1, a)) => (ShSys (set_nth i (Some s1) (sh_mks y)) (sh_futs y) w1, BoReady a)
            | (w1, Panic) => (same w1, BoPanic)
            | (w1, Diverge) => (same w1, BoDiverge)
            end
        | _ => (same w, BoNone)
        end
    | ShCall i t =>
        match nth_error (sh_mks y) i with
        | Some (Some s) =>
            match call smk s t w with
            | (w1, Val (s1, f)) => (ShSys (set_nth i (Some s1) (sh_mks y)) (sh_futs y ++ [Some f]) w1, BoCalled)
            | (w1, Panic) => (same w1, BoPanic)
            | (w1, Diverge) => (same w1, BoDiverge)
            end
        | _ => (same w, BoNone)
        end
    | ShClone i =>
        match nth_error (sh_mks y) i with
        | Some (Some s) =>
            match clone smk s w with
            | (w1, Val s1) => (ShSys (sh_mks y ++ [Some s1]) (sh_futs y) w1, BoCloned (fst s1))
            | (w1, Panic) => (same w1, BoPanic)
            | (w1, Diverge) => (same w1, BoDiverge)
            end
        | _ => (same w, BoNone)
        end
    | ShDrop i =>
        match nth_error (sh_mks y) i with
        | Some (Some s) => (ShSys (set_nth i None (sh_mks y)) (sh_futs y) (drop_svc smk s w), BoDone)
        | _ => (same w, BoNone)
        end
    | ShPoll j =>
        match nth_error (sh_futs y) j with
        | Some (Some f) =>
            match poll_fut smk f w with
            | (w1, Val (f1, Pending)) => (ShSys (sh_mks y) (set_nth j (Some f1) (sh_futs y)) w1, BoPending)
            | (w1, Val (f1, Ready (Ok s1))) => (ShSys (sh_mks y) (set_nth j (Some f1) (sh_futs y)) w1, BoMade (fst s1))
            | (w1, Val (f1, Ready (Er e))) => match e with end
            | (w1, Panic) => (same w1, BoPanic)
            | (w1, Diverge) => (same w1, BoDiverge)
            end
        | _ => (same w, BoNone)
        end
    | ShDropFut j =>
        match nth_error (sh_futs y) j with
        | Some (Some f) => (ShSys (sh_mks y) (set_nth j None (sh_futs y)) (drop_fut smk f w), BoDone)
        | _ => (same w, BoNone)
        end
    end.
  (** A history: what was done, what was observed, and what happened to the services meanwhile (oldest first). *)
  Definition shentry := (shop * shobs * list ev)%type.
  Fixpoint shrun (y : shsys) (l : list ((W -> W) * shop)) : list shentry :=
    match l with
    | [] => []
    | (g, o) :: l' =>
        let '(y1, b) := shstep g o y in
        let L := log_of (sh_w y1) in
        (o, b, rev (firstn (length L - length (log_of (sh_w y))) L)) :: shrun y1 l'
    end.
  Definition shhistory (s : st svc) (w : W) (l : list ((W -> W) * shop)) : list shentry :=
    shrun (ShSys [Some (shared_new msvc (0, s))] [] (w, Tk 1 [])) l.

  (** ** What a history tells. *)
  (** The identities of the services the makers hold. *)
  Definition makers (h : list shentry) : list nat :=
    0 :: flat_map (fun e => match fst e with (ShClone _, BoCloned k) => [k] | _ => [] end) h.
  (** Those of the services made for the calls: the clones that happened during them. *)
  Definition made (h : list shentry) : list nat :=
    flat_map (fun e => match e with
                       | (ShCall _ _, BoCalled, d) =>
                           match d with TClone _ k :: _ => [k] | _ => [] end
                       | _ => []
                       end) h.
  Definition taken (h : list shentry) (j : nat) : bool :=
    existsb (fun e => match fst e with (ShPoll j', BoMade _) => j' =? j | _ => false end) h.
  (** The identities in use so far. *)
  Definition known (h : list shentry) : list nat := makers h ++ made h.

  (** One entry, given what came before. *)
  Definition shared_ok (h : list shentry) (e : shentry) : Prop :=
    match e with
    | (_, BoNone, d) => d = []
    | (ShReady i, b, d) => b = BoReady (Ready (Ok tt)) /\ d = []
    | (ShCall i _, b, d) =>
        match b with
        | BoCalled => exists m k, nth_error (makers h) i = Some m /\ d = [TClone m k] /\ ~ In k (known h)
        | _ => (b = BoPanic \/ b = BoDiverge) /\ d = []          (* the service's own clone failed *)
        end
    | (ShClone i, b, d) =>
        match b with
        | BoCloned k => exists m, nth_error (makers h) i = Some m /\ d = [TClone m k] /\ ~ In k (known h)
        | _ => (b = BoPanic \/ b = BoDiverge) /\ d = []
        end
    | (ShDrop i, b, d) => b = BoDone /\ exists m, nth_error (makers h) i = Some m /\ d = [TDropSvc m]
    | (ShPoll j, b, d) =>
        d = [] /\ exists k, nth_error (made h) j = Some k /\
          b = if taken h j then BoPanic else BoMade k
    | (ShDropFut j, b, d) =>
        b = BoDone /\ exists k, nth_error (made h) j = Some k /\
          d = if taken h j then [] else [TDropSvc k]
    end.
End Spec.
Arguments ShReady {Tgt} i.
Arguments ShCall {Tgt} i t.
Arguments ShClone {Tgt} i.
Arguments ShDrop {Tgt} i.
Arguments ShPoll {Tgt} j.
Arguments ShDropFut {Tgt} j.
