(** C62: LoadShed over ConcurrencyLimit - the usual way to reject what exceeds a
    limit - with any number of clones and of services under the same limit. *)
From Verif Require Import Base Middleware Limits ConcSpec.
Set Implicit Arguments.

Section ShedConc.
  Context {W Req Resp Err : Type} (svc : Service W Req Resp Err) (max : nat).
  Notation cl := (conc_limit svc (fun _ => false) true).
  Notation ls := (load_shed cl).

  (** What the owners can do, in any order. *)
  Inductive zop :=
  | ZReady (i : nat) | ZCall (i : nat) (r : Req) | ZClone (i : nat) | ZNew (s : st svc) | ZDropSvc (i : nat)
  | ZPoll (j : nat) | ZDropFut (j : nat) | ZEnv (g : W -> W).
  Inductive zobs :=
  | ZoReady (a : poll (result unit (Err + unit)))
  | ZoCalled (j : nat)
  | ZoCloned (i : nat)
  | ZoPolled (a : poll (result Resp (Err + unit)))
  | ZoDone | ZoNone | ZoPanic | ZoDiverge.
  Definition zstops (b : zobs) : bool := match b with ZoPanic | ZoDiverge => true | _ => false end.

  (** ** The system, from the model. *)
  Record zsys := ZSys { z_insts : list (option (st ls)); z_futs : list (option (fut ls)); z_w : sem * W }.
  Definition zsys0 (s : st svc) (w : W) : zsys := ZSys [Some (load_shed_new cl (conc_new svc s))] [] (sem_new max, w).

  Definition zsys_step (o : zop) (z : zsys) : zsys * zobs :=
    match o with
    | ZReady i =>
        match nth_error (z_insts z) i with
        | Some (Some c) =>
            match poll_ready ls c (z_w z) with
            | (w1, Val (c1, a)) => (ZSys (set_nth i (Some c1) (z_insts z)) (z_futs z) w1, ZoReady a)
            | (w1, Panic) => (ZSys (z_insts z) (z_futs z) w1, ZoPanic)
            | (w1, Diverge) => (ZSys (z_insts z) (z_futs z) w1, ZoDiverge)
            end
        | _ => (z, ZoNone)
        end
    | ZCall i r =>
        match nth_error (z_insts z) i with
        | Some (Some c) =>
            match call ls c r (z_w z) with
            | (w1, Val (c1, f)) =>
                (ZSys (set_nth i (Some c1) (z_insts z)) (z_futs z ++ [Some f]) w1, ZoCalled (length (z_futs z)))
            | (w1, Panic) => (ZSys (z_insts z) (z_futs z) w1, ZoPanic)
            | (w1, Diverge) => (ZSys (z_insts z) (z_futs z) w1, ZoDiverge)
            end
        | _ => (z, ZoNone)
        end
    | ZClone i =>
        match nth_error (z_insts z) i with
        | Some (Some c) =>
            match clone ls c (z_w z) with
            | (w1, Val c1) => (ZSys (z_insts z ++ [Some c1]) (z_futs z) w1, ZoCloned (length (z_insts z)))
            | (w1, Panic) => (ZSys (z_insts z) (z_futs z) w1, ZoPanic)
            | (w1, Diverge) => (ZSys (z_insts z) (z_futs z) w1, ZoDiverge)
            end
        | _ => (z, ZoNone)
        end
    | ZNew s =>
        (ZSys (z_insts z ++ [Some (load_shed_new cl (conc_new svc s))]) (z_futs z) (z_w z), ZoCloned (length (z_insts z)))
    | ZDropSvc i =>
        match nth_error (z_insts z) i with
        | Some (Some c) => (ZSys (set_nth i None (z_insts z)) (z_futs z) (drop_svc ls c (z_w z)), ZoDone)
        | _ => (z, ZoNone)
        end
    | ZPoll j =>
        match nth_error (z_futs z) j with
        | Some (Some f) =>
            match poll_fut ls f (z_w z) with
            | (w1, Val (f1, a)) => (ZSys (z_insts z) (set_nth j (Some f1) (z_futs z)) w1, ZoPolled a)
            | (w1, Panic) => (ZSys (z_insts z) (z_futs z) w1, ZoPanic)
            | (w1, Diverge) => (ZSys (z_insts z) (z_futs z) w1, ZoDiverge)
            end
        | _ => (z, ZoNone)
        end
    | ZDropFut j =>
        match nth_error (z_futs z) j with
        | Some (Some f) => (ZSys (z_insts z) (set_nth j None (z_futs z)) (drop_fut ls f (z_w z)), ZoDone)
        | _ => (z, ZoNone)
        end
    | ZEnv g => (ZSys (z_insts z) (z_futs z) (fst (z_w z), g (snd (z_w z))), ZoDone)
    end.

  Fixpoint zsys_run (z : zsys) (l : list zop) : list (zobs * W) * zsys :=
    match l with
    | [] => ([], z)
    | o :: l' =>
        let '(z1, b) := zsys_step o z in
        if zstops b then ([(b, snd (z_w z1))], z1)
        else let '(h, z2) := zsys_run z1 l' in ((b, snd (z_w z1)) :: h, z2)
    end.

  (** ** The specification: the line of C36, and for each instance whether its
      last answer (errors aside) was yes and has not been used; each request
      either is one of the limited service's ([Some k]) or is rejected ([None]).
      Dropped objects are [None]. *)
  Section Over.
    Context {S : Type} (step : cop svc -> S -> S * cobs (Resp := Resp) (Err := Err)).
    Record zst := ZSt { z_under : S; z_yes : list (option bool); z_req : list (option (option nat)) }.

    Definition zover_step (o : zop) (z : zst) : zst * zobs :=
      match o with
      | ZReady i =>
          let '(u, b) := step (CReady i) (z_under z) in
          match b with
          (* not now: but the caller is told to go ahead, and will be refused *)
          | CoReady Pending => (ZSt u (set_nth i (Some false) (z_yes z)) (z_req z), ZoReady (Ready (Ok tt)))
          | CoReady (Ready (Ok _)) => (ZSt u (set_nth i (Some true) (z_yes z)) (z_req z), ZoReady (Ready (Ok tt)))
          | CoReady (Ready (Er e)) => (ZSt u (z_yes z) (z_req z), ZoReady (Ready (Er (inl e))))
          | CoPanic => (ZSt u (z_yes z) (z_req z), ZoPanic)
          | CoDiverge => (ZSt u (z_yes z) (z_req z), ZoDiverge)
          | _ => (z, ZoNone)
          end
      | ZCall i r =>
          match nth_error (z_yes z) i with
          | Some (Some true) =>
              let '(u, b) := step (CCall i r) (z_under z) in
              match b with
              | CoCalled k => (ZSt u (set_nth i (Some false) (z_yes z)) (z_req z ++ [Some (Some k)]), ZoCalled (length (z_req z)))
              | CoPanic => (ZSt u (z_yes z) (z_req z), ZoPanic)
              | CoDiverge => (ZSt u (z_yes z) (z_req z), ZoDiverge)
              | _ => (z, ZoNone)
              end
          (* refused; nothing is touched *)
          | Some (Some false) => (ZSt (z_under z) (z_yes z) (z_req z ++ [Some None]), ZoCalled (length (z_req z)))
          | _ => (z, ZoNone)
          end
      | ZClone i =>
          let '(u, b) := step (CClone i) (z_under z) in
          match b with
          | CoCloned k => (ZSt u (z_yes z ++ [Some false]) (z_req z), ZoCloned k)
          | CoPanic => (ZSt u (z_yes z) (z_req z), ZoPanic)
          | CoDiverge => (ZSt u (z_yes z) (z_req z), ZoDiverge)
          | _ => (z, ZoNone)
          end
      | ZNew s =>
          let '(u, b) := step (CNew s) (z_under z) in
          match b with
          | CoCloned k => (ZSt u (z_yes z ++ [Some false]) (z_req z), ZoCloned k)
          | _ => (z, ZoNone)
          end
      | ZDropSvc i =>
          let '(u, b) := step (CDropSvc i) (z_under z) in
          match b with
          | CoDone => (ZSt u (set_nth i None (z_yes z)) (z_req z), ZoDone)
          | _ => (z, ZoNone)
          end
      | ZPoll j =>
          match nth_error (z_req z) j with
          | Some (Some (Some k)) =>
              let '(u, b) := step (CPoll k) (z_under z) in
              match b with
              | CoPolled a => (ZSt u (z_yes z) (z_req z), ZoPolled (poll_map (map_er inl) a))
              | CoPanic => (ZSt u (z_yes z) (z_req z), ZoPanic)
              | CoDiverge => (ZSt u (z_yes z) (z_req z), ZoDiverge)
              | _ => (z, ZoNone)
              end
          (* Overloaded *)
          | Some (Some None) => (z, ZoPolled (Ready (Er (inr tt))))
          | _ => (z, ZoNone)
          end
      | ZDropFut j =>
          match nth_error (z_req z) j with
          | Some (Some (Some k)) =>
              let '(u, b) := step (CDropFut k) (z_under z) in
              match b with
              | CoDone => (ZSt u (z_yes z) (set_nth j None (z_req z)), ZoDone)
              | _ => (z, ZoNone)
              end
          | Some (Some None) => (ZSt (z_under z) (z_yes z) (set_nth j None (z_req z)), ZoDone)
          | _ => (z, ZoNone)
          end
      | ZEnv g => let '(u, _) := step (CEnv g) (z_under z) in (ZSt u (z_yes z) (z_req z), ZoDone)
      end.

    Context (world : S -> W).
    Fixpoint zover_run (z : zst) (l : list zop) : list (zobs * W) * zst :=
      match l with
      | [] => ([], z)
      | o :: l' =>
          let '(z1, b) := zover_step o z in
          if zstops b then ([(b, world (z_under z1))], z1)
          else let '(h, z2) := zover_run z1 l' in ((b, world (z_under z1)) :: h, z2)
      end.
  End Over.

  Definition zspec_run := zover_run (spec_step max) (p_w (svc := svc)).
  Definition zspec0 (s : st svc) (w : W) : zst (S := spec svc) := ZSt (spec0 svc s w) [Some false] [].

  (** Requests under way that were not rejected. *)
  Definition accepted (l : list (option (fut ls))) : nat :=
    length (List.filter (fun f => match f with Some (Some _) => true | _ => false end) l).
  (** No second instance is ever made. *)
  Definition alone (o : zop) : Prop := match o with ZClone _ | ZNew _ => False | _ => True end.
End ShedConc.
Arguments ZReady {W Req Resp Err svc} i.
Arguments ZCall {W Req Resp Err svc} i r.
Arguments ZClone {W Req Resp Err svc} i.
Arguments ZNew {W Req Resp Err svc} s.
Arguments ZDropSvc {W Req Resp Err svc} i.
Arguments ZPoll {W Req Resp Err svc} j.
Arguments ZDropFut {W Req Resp Err svc} j.
Arguments ZEnv {W Req Resp Err svc} g.
Arguments ZSt {S} _ _ _.
Arguments ZSys {W Req Resp Err svc} _ _ _.
