(** Buffer: capacity, and the places a request goes through. *)
From Verif Require Import Base Limits Buffer BufferSpec BufferBase BufferMoves BufferInv1.
Set Implicit Arguments.

Section Inv.
  Context {W Req Resp Err : Type} {svc : Service W Req Resp Err}.
  Notation bsys := (bsys svc).
  Notation bobs := (bobs svc).
  Notation handle := (handle (Req := Req)).

  (** ** Capacity *)
  Definition rd (o : option handle) : nat := match o with Some (Hd PsReady _) => 1 | _ => 0 end.
  Fixpoint rcount (n : nat) (hs : nat -> option handle) : nat :=
    match n with O => 0 | S m => rd (hs m) + rcount m hs end.
  Lemma rcount_out n hs h x : n <= h -> rcount n (upd hs h x) = rcount n hs.
  Proof. induction n as [|n IH]; cbn; intros H; [reflexivity|]. rewrite upd_ne, IH by lia. reflexivity. Qed.
  Lemma rcount_upd n hs h x : h < n -> rcount n (upd hs h x) + rd (hs h) = rcount n hs + rd x.
  Proof.
    induction n as [|n IH]; intros H; [lia|]. cbn. destruct (Nat.eq_dec h n) as [->|N].
    - rewrite upd_eq, rcount_out by lia. lia.
    - rewrite upd_ne by lia. specialize (IH ltac:(lia)). lia.
  Qed.
  Lemma rcount_filter n hs : rcount n hs = length (filter (fun h => rd (hs h) =? 1) (seq 0 n)).
  Proof.
    induction n as [|n IH]; [reflexivity|]. rewrite seq_S, filter_app, app_length. cbn.
    rewrite IH. destruct (hs n) as [[[]]|]; cbn; lia.
  Qed.
  Lemma rcount_list n hs l : NoDup l -> (forall h, In h l -> h < n /\ rd (hs h) = 1) -> length l <= rcount n hs.
  Proof.
    intros N H. rewrite rcount_filter. apply NoDup_incl_length; [exact N|]. intros h Hh. apply H in Hh as [H1 H2].
    apply filter_In. split; [apply in_seq; lia|]. apply Nat.eqb_eq. exact H2.
  Qed.

  Definition inv_p (bound : nat) (y : bsys) (log : list bobs) : Prop :=
    y_bound y = bound /\
    ((waiting log = length (y_queue y) /\
      permits (y_sem y) + rcount (y_hnext y) (y_hs y) + length (y_queue y) <= bound) \/
     (y_wk y = None /\ (forall h, y_hs y h = None) /\ waiting log <= bound)).

  Lemma fmove_waiting (y : bsys) l y1 : fmove y l y1 -> forall log, waiting (rev l ++ log) = waiting log.
  Proof. destruct 1; try reflexivity; lazymatch goal with H : inner_poll _ _ _ _ _ |- _ => destruct H end; reflexivity. Qed.

  Lemma inv_p_step bound (y : bsys) log l y1 : inv_h y log -> inv_p bound y log -> move y l y1 -> inv_p bound y1 (rev l ++ log).
  Proof.
    intros IH [B I] M. split.
    { rewrite <- B. destruct M as [| |l y1 H|l y1 H|l y1 H]; try reflexivity.
      - destruct H; reflexivity.
      - apply fmove_quiet in H. tauto.
      - apply wmove_quiet in H. tauto. }
    destruct I as [[Q P]|(K & N & Q)].
    - destruct M as [| |l y1 H|l y1 H|l y1 H].
      + left. auto.
      + left. auto.
      + assert (X : forall h d, y_hs y h = Some d -> forall x, rcount (y_hnext y) (upd (y_hs y) h x) + rd (Some d) = rcount (y_hnext y) (y_hs y) + rd x).
        { intros h d E x. rewrite <- (rcount_upd (y_hs y) x (ih_lt IH _ E)), E. reflexivity. }
        destruct H; ysimp; cbn [waiting];
          repeat match goal with H : unready _ |- _ => apply unready_ne in H end;
          try (specialize (X _ _ H)).
        all: try (left; split; [exact Q|];
               lazymatch goal with |- context [upd _ _ ?x] => specialize (X x) end; cbn [rd] in X;
               repeat match goal with p : psend |- _ => destruct p end; try congruence; cbn [rd] in X; lia).
        * left. rewrite app_length. cbn [length]. split; [lia|]. specialize (X (Some (Hd PsIdle HRest))). cbn [rd] in X. lia.
        * left. split; [exact Q|]. cbn [rcount]. rewrite upd_eq, rcount_out by lia. cbn [rd]. lia.
        * right. split; [assumption|]. split; [|lia]. intros h'. destruct (upd (y_hs y) h None h') as [d|] eqn:E; [|reflexivity].
          assert (L : h' < y_hnext y) by (apply upd_cases in E as [[? E]|[? E]]; [discriminate|exact (ih_lt IH _ E)]).
          rewrite no_senders_spec in H1. specialize (H1 h' L). cbn in H1. congruence.
      + assert (X := fmove_waiting H log). apply fmove_quiet in H as (E1 & E2 & E3 & E4 & E5 & _).
        left. rewrite E1, E2, E4, E5, X. rewrite <- Q. lia.
      + left. destruct H; ysimp; cbn [waiting]; try (split; [exact Q|exact P]).
        all: try (lazymatch goal with H : y_queue _ = _ |- _ => rewrite H in *; cbn [length] in * end).
        all: try (split; [exact Q|lia]).
        all: cbn [length]; lia.
    - right. destruct M as [| |l y1 H|l y1 H|l y1 H].
      + auto.
      + auto.
      + destruct H; rewrite N in H; discriminate.
      + assert (X := fmove_waiting H log). apply fmove_quiet in H as (E1 & E2 & E3 & E4 & E5 & E6 & E7 & E8 & E9 & _).
        rewrite E1, E9, X. auto.
      + destruct H; congruence.
  Qed.

  Lemma inv_p_bound bound (y : bsys) log l : inv_h y log -> inv_p bound y log -> NoDup l ->
    (forall h, In h l -> has_slot h log = true) -> length l + waiting log <= bound.
  Proof.
    intros IH [B I] N H.
    assert (H' : forall h, In h l -> h < y_hnext y /\ rd (y_hs y h) = 1).
    { intros h Hh. apply H in Hh. apply (ih_slot IH) in Hh as [p E]. split; [exact (ih_lt IH _ E)|]. rewrite E. reflexivity. }
    destruct I as [[Q P]|(K & N' & Q)].
    - apply rcount_list in H'; [|exact N]. lia.
    - destruct l as [|h l]; [cbn; lia|]. destruct (H' h) as [_ X]; [left; reflexivity|]. rewrite N' in X. discriminate.
  Qed.
End Inv.
