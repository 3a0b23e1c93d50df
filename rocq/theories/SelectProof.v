(** C24: [Select] over two arbitrary services. *)
From Verif Require Import Base Hedge Track.
Set Implicit Arguments.

Section SelectProof.
  Context {W Req Resp EA EB : Type} (a : Service W Req Resp EA) (b : Service W Req Resp EB).
  Notation L := (tev Req Resp EA + tev Req Resp EB)%type.
  Notation TW := (W * tk L)%type.
  Context (clone_req : Req -> M TW (option Req)).
  (** Both legs recorded in one log, [inl] for the first. *)
  Definition tselect : Service TW Req Resp (EA + EB) := select (tracked inl a) (tracked inr b) clone_req.

  (** The answer [c] of both legs' answers [pa] and [pb]. *)
  Definition both_ready (pa : poll (result unit EA)) (pb : poll (result unit EB)) (c : poll (result unit (EA + EB))) : Prop :=
    (c = Ready (Ok tt) <-> pa = Ready (Ok tt) /\ pb = Ready (Ok tt)) /\
    (forall e, c = Ready (Er (inl e)) <-> pa = Ready (Er e)) /\
    (forall e, c = Ready (Er (inr e)) <-> pb = Ready (Er e) /\ forall e', pa <> Ready (Er e')).

  Lemma select_ready ia (sa : st a) ib (sb : st b) (x y : TW) s1 c :
    poll_ready tselect ((ia, sa), (ib, sb)) x = (y, Val (s1, c)) ->
    exists pa pb, log_of y = inr (TReady ib pb) :: inl (TReady ia pa) :: log_of x /\ both_ready pa pb c.
  Proof.
    cbn. unfold bind, tk_lift, tk_emit, ret. cbn.
    destruct (poll_ready a sa (fst x)) as [w1 [[sa1 pa]| |]]; cbn; try discriminate.
    destruct (poll_ready b sb w1) as [w2 [[sb1 pb]| |]]; cbn; try discriminate.
    intros E. injection E as <- <- <-. exists pa, pb. split; [reflexivity|].
    destruct pa as [|[[]|ea]], pb as [|[[]|eb]]; split; [|split| |split| |split| |split| |split| |split| |split| |split| |split];
      intros; split; intros H; try discriminate; try (destruct H; discriminate); auto;
      try (split; [congruence|discriminate]); try congruence; try (exfalso; eapply (proj2 H); reflexivity);
      try (destruct H; congruence).
  Qed.
End SelectProof.
