(** A service over which a poll of SpawnReady need not return. *)
From Verif Require Import Base Track ContractSpec SpawnReady SpawnSpec.
Set Implicit Arguments.

(** It says pending and ready in turns, whoever asks. *)
Definition flip : Service bool nat nat nat :=
  MkService nat nat
    (fun s w => (negb w, Val (s, if w then Ready (Ok tt) else Pending)))
    (fun s r => ret (s, r)) (fun f => ret (f, Ready (Ok f))) (fun s => ret s) (fun _ w => w) (fun _ w => w).
Definition flip_bg (w : bool) : bool * nat := (w, 1).
Notation fs := (ssvc (guard flip)).

Lemma flip_ready (i : nat) (p : phase) (s : nat) w k : p <> Dead -> exists k2,
  poll_ready fs (i, (p, s)) (w, k) =
  ((negb w, k2), Val ((i, (if w then Primed else Idle, s)), if w then Ready (Ok tt) else Pending)).
Proof. intros H. destruct p, w; try congruence; eexists; reflexivity. Qed.

Lemma flip_hangs fuel : forall k (i : nat) p (s : nat), p <> Dead ->
  exists x1, sr_ready (svc := fs) (sbg flip_bg) fuel (SrSvc (svc := fs) (i, (p, s))) (false, k) = (x1, Diverge).
Proof.
  induction fuel as [fuel IH] using lt_wf_ind. intros k i p s Hp.
  destruct fuel as [|fuel]; [eexists; reflexivity|].
  cbn [sr_ready]. destruct (flip_ready i s false k Hp) as [k2 E2]. unfold bind at 1. rewrite E2. cbn [negb].
  destruct fuel as [|fuel]; [eexists; reflexivity|].
  cbn [sr_ready]. unfold bind at 1. cbn [sbg flip_bg fst snd task_polls]. unfold bind at 1 2. cbn [task_poll].
  destruct (flip_ready i s true k2 (p := Idle) ltac:(discriminate)) as [k3 E3]. rewrite E3. unfold ret. cbn [negb].
  apply IH; [lia|discriminate].
Qed.

Lemma flip_never_panics : never_panics flip.
Proof. split; cbn; intros; discriminate. Qed.
Lemma flip_never_diverges : never_diverges flip.
Proof. split; cbn; intros; discriminate. Qed.

Lemma spawn_may_hang :
  ~ (forall W Req Resp Err (svc : Service W Req Resp Err) (bg : W -> W * nat) (s : st (guard svc)) w ops,
     never_panics svc -> never_diverges svc -> fst s <> Dead ->
     exists fuel, ~ In SDiverge (sr_log (guard svc) bg fuel s w ops)).
Proof.
  intros H. destruct (H _ _ _ _ flip flip_bg (Idle, 0) false [(fun w => w, OReady)] flip_never_panics flip_never_diverges
    ltac:(discriminate)) as [fuel Hf]. apply Hf. unfold sr_log. apply -> in_rev. unfold spawn_ready_new.
  cbn [sr_run]. destruct (@flip_hangs fuel (Tk 1 []) 0 Idle 0 ltac:(discriminate)) as [x1 E].
  match goal with |- In _ (log_of (match ?m with _ => _ end)) => replace m with (x1, Diverge (A := sr_st fs * poll (result unit (sr_err (Err := nat))))) end.
  now left.
Qed.
