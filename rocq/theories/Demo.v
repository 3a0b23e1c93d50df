(** Concrete worlds and services used only in the [Example]s that show the
    hypotheses of the theorems to be satisfiable.  Nothing is proved from them. *)
From Verif Require Import Base ContractSpec.
Set Implicit Arguments.

(** A world with a clock and two scripts: the answers the wrapped service will
    give to [poll_ready] and to polls of its futures (when a script is used up:
    ready, and echo the request). *)
Record scr := Scr {
  clock : Z; rdy_script : list (poll (result unit nat)); res_script : list (poll (result nat nat)) }.

Definition scr0 : scr := Scr 0 [] [].
Definition scr_rt : Rt scr.
Proof.
  refine (MkRt clock (fun w d => (d <=? clock w)%Z) (fun _ w => w) _ _ _); try reflexivity.
  intros w d H. apply Z.leb_le, H.
Defined.

Definition tick (d : Z) (w : scr) : scr := Scr (clock w + d)%Z (rdy_script w) (res_script w).

(** [st] identifies the instance; clones get the same identity. *)
Definition demo : Service scr nat nat nat :=
  MkService nat nat
    (fun s w => match rdy_script w with
                | [] => (w, Val (s, Ready (Ok tt)))
                | a :: l => (Scr (clock w) l (res_script w), Val (s, a))
                end)
    (fun s r => ret (s, r))
    (fun f w => match res_script w with
                | [] => (w, Val (f, Ready (Ok f)))
                | a :: l => (Scr (clock w) (rdy_script w) l, Val (f, a))
                end)
    (fun s => ret s)
    (fun _ w => w) (fun _ w => w).

Lemma demo_never_panics : never_panics demo.
Proof.
  split; cbn; intros; try discriminate.
  - destruct (rdy_script w); discriminate.
  - destruct (res_script w); discriminate.
Qed.
Lemma demo_never_diverges : never_diverges demo.
Proof.
  split; cbn; intros; try discriminate.
  - destruct (rdy_script w); discriminate.
  - destruct (res_script w); discriminate.
Qed.

(** A service that becomes ready after [n] more polls and then stays ready. *)
Definition warm : Service scr nat nat nat :=
  MkService nat nat
    (fun s => match s with
              | O => ret (O, Ready (Ok tt))
              | S n => ret (n, Pending)
              end)
    (fun s r => ret (2, r))
    (poll_fut demo)
    (fun _ => ret 1)
    (fun _ w => w) (fun _ w => w).
Lemma warm_never_panics : never_panics warm.
Proof.
  split; cbn; intros; try discriminate.
  - destruct s; discriminate.
  - destruct (res_script w); discriminate.
Qed.
Lemma warm_never_diverges : never_diverges warm.
Proof.
  split; cbn; intros; try discriminate.
  - destruct s; discriminate.
  - destruct (res_script w); discriminate.
Qed.
Lemma warm_keeps_ready : keeps_ready warm.
Proof.
  exists (fun s => s = 0). split; cbn; intros s w w1 s1.
  - destruct s; cbn; unfold ret; intros E; inversion E; reflexivity.
  - intros ->. discriminate.
Qed.

(** Answers only. *)
Definition answers {W A} (l : list (W * out A)) : list (out A) := map snd l.
Definition obs {W Req Resp Err} {svc : Service W Req Resp Err} (l : list (W * sobs svc * W)) :=
  map (fun x => snd (fst x)) l.
