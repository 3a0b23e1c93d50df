(** Proofs for C96. *)
From Coq Require Import Permutation.
From Verif Require Import Base Util Middleware Limits MeterSpec FlightSpec InOrderSpec.
Set Implicit Arguments.

(** ** One semaphore, its tickets [T] and the [h] permits that are out *)
Definition SI (max : nat) (m : sem) (T : list nat) (h : nat) : Prop :=
  sem_avail m + length (sem_granted m) + h = max /\ NoDup (sem_queue m ++ sem_granted m) /\
  Permutation T (sem_queue m ++ sem_granted m) /\ Forall (fun t => t < sem_next m) (sem_queue m ++ sem_granted m) /\
  (sem_avail m = 0 \/ sem_queue m = []).
Definition olist {A} (o : option A) : list A := match o with Some x => [x] | None => [] end.

Lemma SI_perm max m T T' h : Permutation T T' -> SI max m T h -> SI max m T' h.
Proof. intros P (H1 & H2 & H3 & H4 & H5). repeat split; auto. rewrite <- P. exact H3. Qed.
Lemma SI_new max : SI max (sem_new max) [] 0.
Proof. repeat split; cbn; auto; try lia; constructor. Qed.

Lemma mem_remove i l : mem_nat i l = true -> Permutation l (i :: remove_nat i l).
Proof.
  induction l as [|j l IH]; cbn; [discriminate|]. destruct (Nat.eqb_spec i j) as [->|E]; cbn; [reflexivity|].
  intros H. rewrite perm_swap. constructor. apply IH. exact H.
Qed.
Lemma in_mem i l : In i l -> mem_nat i l = true.
Proof. intros H. apply existsb_exists. exists i. split; [exact H|apply Nat.eqb_refl]. Qed.
Lemma in_remove i l : In i l -> Permutation l (i :: remove_nat i l).
Proof. intros H. apply mem_remove, in_mem, H. Qed.

Lemma SI_release max m T h : SI max m T (S h) -> SI max (sem_release m) T h.
Proof.
  destruct m as [av q g n]. unfold sem_release. intros (H1 & H2 & H3 & H4 & H5); cbn in *.
  destruct q as [|i q]; cbn in *.
  - repeat split; cbn; auto; lia.
  - assert (P : Permutation (q ++ i :: g) (i :: q ++ g)) by (symmetry; apply Permutation_middle).
    repeat split; cbn; try lia.
    + eapply Permutation_NoDup; [symmetry; exact P|exact H2].
    + rewrite P. exact H3.
    + eapply Permutation_Forall; [symmetry; exact P|exact H4].
    + destruct H5 as [H5|H5]; [left; exact H5|discriminate].
Qed.

Lemma SI_out max m T h i : SI max m (i :: T) h -> mem_nat i (sem_granted m) = true ->
  SI max (Sem (sem_avail m) (sem_queue m) (remove_nat i (sem_granted m)) (sem_next m)) T (S h).
Proof.
  destruct m as [av q g n]. intros (H1 & H2 & H3 & H4 & H5) E; cbn in *. pose proof (mem_remove _ _ E) as P.
  assert (P2 : Permutation (q ++ g) (i :: q ++ remove_nat i g)).
  { rewrite P at 1. symmetry. apply Permutation_middle. }
  repeat split; cbn.
  - pose proof (Permutation_length P) as L. cbn in L. lia.
  - pose proof (Permutation_NoDup P2 H2) as N. inversion N; assumption.
  - apply (Permutation_cons_inv (a := i)). rewrite H3. exact P2.
  - pose proof (Permutation_Forall P2 H4) as N. inversion N; assumption.
  - exact H5.
Qed.

Lemma SI_poll max wait m m1 wait1 got T h : SI max m (olist wait ++ T) h -> sem_poll wait m = (m1, wait1, got) ->
  SI max m1 (olist wait1 ++ T) ((if got then 1 else 0) + h) /\ (got = true -> wait1 = None).
Proof.
  destruct wait as [i|]; cbn [olist app sem_poll].
  - intros H. destruct (mem_nat i (sem_granted m)) eqn:E; intros EQ; injection EQ as <- <- <-; cbn [olist app].
    + split; [|reflexivity]. apply SI_out; assumption.
    + split; [exact H|discriminate].
  - intros H. destruct (sem_avail m) as [|a] eqn:E; intros EQ; injection EQ as <- <- <-; cbn [olist app].
    + split; [|discriminate]. destruct m as [av q g n]; cbn in *; subst. destruct H as (H1 & H2 & H3 & H4 & H5); cbn in *.
      assert (P : Permutation ((q ++ [n]) ++ g) (n :: q ++ g)).
      { rewrite <- app_assoc. cbn. symmetry. apply Permutation_middle. }
      repeat split; cbn; auto.
      * eapply Permutation_NoDup; [symmetry; exact P|]. constructor; [|exact H2]. intros I.
        rewrite Forall_forall in H4. specialize (H4 _ I). lia.
      * rewrite P. constructor. exact H3.
      * eapply Permutation_Forall; [symmetry; exact P|]. constructor; [lia|]. eapply Forall_impl; [|exact H4]. cbn; lia.
    + split; [|reflexivity]. destruct m as [av q g n]; cbn in *; subst. destruct H as (H1 & H2 & H3 & H4 & H5); cbn in *.
      repeat split; cbn; auto; [lia|]. destruct H5 as [H5|H5]; [discriminate|right; exact H5].
Qed.

Lemma SI_forget max wait m T h : SI max m (olist wait ++ T) h -> SI max (sem_forget wait m) T h.
Proof.
  destruct wait as [i|]; cbn [olist app sem_forget]; [|auto]. intros H.
  destruct (mem_nat i (sem_granted m)) eqn:E.
  - apply SI_release. apply SI_out; assumption.
  - destruct m as [av q g n]. destruct H as (H1 & H2 & H3 & H4 & H5); cbn in *.
    assert (I : In i q).
    { assert (I : In i (q ++ g)) by (rewrite <- H3; left; reflexivity). apply in_app_iff in I. destruct I as [I|I]; [exact I|].
      apply in_mem in I. unfold mem_nat in *; cbn in E; congruence. }
    assert (P : Permutation (q ++ g) (i :: remove_nat i q ++ g)) by (rewrite (in_remove _ _ I) at 1; reflexivity).
    repeat split; cbn; auto.
    + pose proof (Permutation_NoDup P H2) as N. inversion N; assumption.
    + apply (Permutation_cons_inv (a := i)). rewrite H3. exact P.
    + pose proof (Permutation_Forall P H4) as N. inversion N; assumption.
    + destruct H5 as [H5|H5]; [left; exact H5|subst; contradiction].
Qed.

(** ** Gathering from the instances that are still there *)
Section All.
  Context {S A : Type} (f : S -> list A).
  Definition per (o : option S) : list A := match o with Some s => f s | None => [] end.
  Definition all (l : list (option S)) : list A := flat_map per l.
  Lemma all_split l : forall i s, held_at l i = Some s ->
    exists R, Permutation (all l) (f s ++ R) /\ forall o, Permutation (all (set_nth i o l)) (per o ++ R).
  Proof.
    unfold held_at. induction l as [|o l IH]; intros [|i] s H; cbn in *; try discriminate.
    - subst o. exists (all l). split; [reflexivity|]. intros o. reflexivity.
    - destruct (IH _ _ H) as (R & H1 & H2). exists (per o ++ R). split.
      + rewrite H1. apply Permutation_app_swap_app.
      + intros o'. rewrite H2. apply Permutation_app_swap_app.
  Qed.
  Lemma all_new l s : Permutation (all (l ++ [Some s])) (f s ++ all l).
  Proof. unfold all. rewrite flat_map_app. cbn. rewrite app_nil_r. apply Permutation_app_comm. Qed.
  Lemma all_in l a : In a (all l) -> exists i s, held_at l i = Some s /\ In a (f s).
  Proof.
    induction l as [|o l IH]; cbn; [contradiction|]. intros H. apply in_app_iff in H. destruct H as [H|H].
    - destruct o as [s|]; cbn in H; [|contradiction]. exists 0, s. split; [reflexivity|exact H].
    - destruct (IH H) as (i & s & H1 & H2). exists (Datatypes.S i), s. split; [exact H1|exact H2].
  Qed.
  Lemma all_at l i s a : held_at l i = Some s -> In a (f s) -> In a (all l).
  Proof.
    intros H I. destruct (all_split _ _ H) as (R & P & _). rewrite P. apply in_app_iff. left. exact I.
  Qed.
End All.

Lemma held_set_same A (l : list (option A)) i j (o : option A) s : held_at (set_nth i o l) j = Some s ->
  (o = Some s) \/ held_at l j = Some s.
Proof.
  unfold held_at. revert i j. induction l as [|x l IH]; intros i j.
  - destruct i, j; cbn; discriminate.
  - destruct i as [|i], j as [|j]; cbn; auto. apply IH.
Qed.
Lemma held_app_new A (l : list (option A)) j x s : held_at (l ++ [Some x]) j = Some s -> x = s \/ held_at l j = Some s.
Proof.
  unfold held_at. intros H. destruct (Nat.lt_ge_cases j (length l)) as [L|L].
  - rewrite nth_error_app1 in H by exact L. right. exact H.
  - rewrite nth_error_app2 in H by exact L. destruct (j - length l) as [|k]; cbn in H; [left; congruence|].
    destruct k; discriminate.
Qed.

(** ** One limit *)
Section One.
  Context {W Req Resp Err : Type} (svc : Service W Req Resp Err) (debug : bool).
  Notation cl := (conc_limit svc (fun _ => false) debug).
  Definition tk (s : conc_st svc) : list nat := olist (cl_wait s).
  Definition hd (s : conc_st svc) : list unit := if cl_permit s then [tt] else [].
  Definition neat (s : conc_st svc) : Prop := cl_permit s = true -> cl_wait s = None.

  Lemma opoll max T h s x x1 s1 a : poll_ready cl s x = (x1, Val (s1, a)) -> neat s ->
    SI max (fst x) (tk s ++ T) (length (hd s) + h) ->
    SI max (fst x1) (tk s1 ++ T) (length (hd s1) + h) /\ neat s1 /\
    if cl_permit s1 then poll_ready svc (cl_inner s) (snd x) = (snd x1, Val (cl_inner s1, a))
    else cl_permit s = false /\ snd x1 = snd x /\ cl_inner s1 = cl_inner s.
  Proof.
    destruct s as [si sw sp], x as [m w]. unfold neat, tk, hd. cbn [conc_limit poll_ready cl_permit cl_wait cl_inner fst snd].
    destruct sp.
    - unfold bind, lift_snd, ret. cbn [fst snd]. destruct (poll_ready svc si w) as [w1 [[s2 a2]| |]]; try discriminate.
      intros E N H. injection E as <- <- <-. cbn. auto.
    - unfold bind, get, modify, lift_snd, ret. cbn [fst snd].
      destruct (sem_poll sw m) as [[m1 wt] got] eqn:EP. intros E N H. destruct (SI_poll _ _ H EP) as [H1 H2].
      destruct got; cbn [fst snd] in E.
      + revert E. destruct (poll_ready svc si w) as [w1 [[s2 a2]| |]]; cbv beta iota zeta; try discriminate. intros E.
        injection E as <- <- <-. cbn. auto.
      + injection E as <- <- <-. cbn. split; [exact H1|]. split; [discriminate|]. auto.
  Qed.

  (** When it is ready *)
  Lemma opens s x : cl_permit s = true \/ snd (sem_poll (cl_wait s) (fst x)) = true ->
    (exists w1 s1, poll_ready svc (cl_inner s) (snd x) = (w1, Val (s1, Ready (Ok tt)))) ->
    exists x1 s1, poll_ready cl s x = (x1, Val (s1, Ready (Ok tt))).
  Proof.
    destruct s as [si sw sp], x as [m w]. cbn [conc_limit poll_ready cl_permit cl_wait cl_inner fst snd].
    unfold bind, get, modify, lift_snd, ret. cbn [fst snd]. intros H (w1 & s1 & E).
    cbn [fst snd cl_inner] in *. destruct sp.
    - cbn [fst snd]. rewrite E. eauto.
    - destruct H as [H|H]; [discriminate|]. cbn [cl_wait fst snd] in *. destruct (sem_poll sw m) as [[m1 wt] got]; cbn in H; subst got.
      cbn [fst snd]. rewrite E. eauto.
  Qed.
  Lemma got_granted m t q : sem_granted m = t :: q -> snd (sem_poll (Some t) m) = true.
  Proof. intros E. cbn. rewrite E. cbn. rewrite Nat.eqb_refl. reflexivity. Qed.
  Lemma got_free m a : sem_avail m = S a -> snd (sem_poll None m) = true.
  Proof. intros E. cbn. rewrite E. reflexivity. Qed.

  Lemma ocall s r x x1 s1 f : call cl s r x = (x1, Val (s1, f)) ->
    cl_permit s = true /\ fst x1 = fst x /\ cl_permit s1 = false /\ cl_wait s1 = cl_wait s /\
    call svc (cl_inner s) r (snd x) = (snd x1, Val (cl_inner s1, f)).
  Proof.
    destruct s as [si sw sp], x as [m w]. cbn [conc_limit call cl_permit cl_wait cl_inner fst snd]. destruct sp; [|discriminate].
    unfold bind, lift_snd, ret. cbn [fst snd]. destruct (call svc si r w) as [w1 [[s2 f2]| |]]; cbv beta iota zeta; try discriminate.
    intros E. injection E as <- <- <-. cbn. auto.
  Qed.
  Lemma oclone s x x1 s1 : clone cl s x = (x1, Val s1) ->
    fst x1 = fst x /\ cl_permit s1 = false /\ cl_wait s1 = None /\
    clone svc (cl_inner s) (snd x) = (snd x1, Val (cl_inner s1)).
  Proof.
    destruct s as [si sw sp], x as [m w]. cbn [conc_limit clone cl_permit cl_wait cl_inner fst snd].
    unfold bind, lift_snd, ret. cbn [fst snd]. destruct (clone svc si w) as [w1 [s2| |]]; cbv beta iota zeta; try discriminate.
    intros E. injection E as <- <-. cbn. auto.
  Qed.
  Lemma opollf f x x1 z : poll_fut cl f x = (x1, Val z) ->
    fst x1 = fst x /\ poll_fut svc f (snd x) = (snd x1, Val z).
  Proof.
    destruct x as [m w]. cbn [conc_limit poll_fut]. unfold lift_snd. cbn [fst snd].
    destruct (poll_fut svc f w) as [w1 o]. intros E. injection E as <- ->. auto.
  Qed.
  Lemma odrop max T h s x : SI max (fst x) (tk s ++ T) (length (hd s) + h) ->
    SI max (fst (drop_svc cl s x)) T h /\ snd (drop_svc cl s x) = drop_svc svc (cl_inner s) (snd x).
  Proof.
    destruct s as [si sw sp], x as [m w]. unfold tk, hd. cbn [conc_limit drop_svc cl_permit cl_wait cl_inner fst snd].
    intros H. split; [|reflexivity]. apply SI_forget in H. destruct sp; [apply SI_release|]; exact H.
  Qed.
  Lemma odropf max T h f x : SI max (fst x) T (Datatypes.S h) ->
    SI max (fst (drop_fut cl f x)) T h /\ snd (drop_fut cl f x) = drop_fut svc f (snd x).
  Proof. destruct x as [m w]. cbn. intros H. split; [apply SI_release; exact H|reflexivity]. Qed.
End One.

Lemma lift1 X (f : X -> list nat) (g : X -> list unit) max m m' l i s o k h :
  held_at l i = Some s ->
  (forall T h', SI max m (f s ++ T) (length (g s) + h') -> SI max m' (per f o ++ T) (length (per g o) + (k + h'))) ->
  SI max m (all f l) (length (all g l) + h) ->
  SI max m' (all f (set_nth i o l)) (length (all g (set_nth i o l)) + (k + h)).
Proof.
  intros H ST HI. destruct (all_split f _ _ H) as (R & P1 & P2). destruct (all_split g _ _ H) as (R' & P3 & P4).
  pose proof (Permutation_length P3) as L3. pose proof (Permutation_length (P4 o)) as L4. rewrite app_length in L3, L4.
  apply (SI_perm (Permutation_sym (P2 o))). rewrite L4, <- Nat.add_assoc.
  replace (length R' + (k + h)) with (k + (length R' + h)) by lia. apply ST.
  replace (length (g s) + (length R' + h)) with (length (all g l) + h) by lia. apply (SI_perm P1). exact HI.
Qed.
Lemma lift_new X (f : X -> list nat) (g : X -> list unit) max m l s h :
  f s = [] -> g s = [] -> SI max m (all f l) (length (all g l) + h) ->
  SI max m (all f (l ++ [Some s])) (length (all g (l ++ [Some s])) + h).
Proof.
  intros E1 E2 H. pose proof (all_new f l s) as P1. pose proof (Permutation_length (all_new g l s)) as P2.
  rewrite E1 in P1. rewrite E2 in P2. cbn in P1, P2. rewrite P2. apply (SI_perm (Permutation_sym P1)). exact H.
Qed.
Lemma held_new A (l : list (option A)) x : length (all (fun _ => [tt]) (l ++ [Some x])) = Datatypes.S (length (all (fun _ => [tt]) l)).
Proof. unfold all. rewrite flat_map_app, app_length. cbn. lia. Qed.

(** ** The program *)
Section Order.
  Context {W Req Resp Err : Type} (svc : Service W Req Resp Err) (debug : bool).
  Notation cl := (conc_limit svc (fun _ => false) debug).
  Notation out := (in_order svc debug).
  Variables max1 max2 : nat.
  Definition tk1 (s : st out) := @tk _ _ _ _ cl s.
  Definition hd1 (s : st out) := @hd _ _ _ _ cl s.
  Definition tk2 (s : st out) := @tk _ _ _ _ svc (cl_inner s).
  Definition hd2 (s : st out) := @hd _ _ _ _ svc (cl_inner s).
  Definition good (s : st out) : Prop :=
    (cl_permit s = true -> cl_wait s = None) /\ @neat _ _ _ _ svc (cl_inner s) /\
    (cl_permit s = false -> cl_wait (cl_inner s) = None /\ cl_permit (cl_inner s) = false).
  Definition flying (l : list (option (fut out))) : nat := length (all (fun _ => [tt]) l).
  Definition inv (y : prog out) : Prop :=
    SI max1 (fst (u_world y)) (all tk1 (u_svcs y)) (length (all hd1 (u_svcs y)) + flying (u_futs y)) /\
    SI max2 (fst (snd (u_world y))) (all tk2 (u_svcs y)) (length (all hd2 (u_svcs y)) + flying (u_futs y)) /\
    forall i s, held_at (u_svcs y) i = Some s -> good s.

  Lemma flying_none l j f : held_at l j = Some f -> flying l = Datatypes.S (flying (set_nth j None l)).
  Proof.
    intros H. unfold flying. destruct (all_split (fun _ => [tt]) _ _ H) as (R & P1 & P2).
    rewrite (Permutation_length P1), (Permutation_length (P2 None)). reflexivity.
  Qed.
  Lemma flying_some l j f f1 : held_at l j = Some f -> flying (set_nth j (Some f1) l) = flying l.
  Proof.
    intros H. unfold flying. destruct (all_split (fun _ => [tt]) _ _ H) as (R & P1 & P2).
    rewrite (Permutation_length P1), (Permutation_length (P2 (Some f1))). reflexivity.
  Qed.
  Lemma good_set l i o : (forall j s, held_at l j = Some s -> good s) -> (forall s, o = Some s -> good s) ->
    forall j s, held_at (set_nth i o l) j = Some s -> good s.
  Proof. intros H1 H2 j s E. destruct (held_set_same _ _ _ _ E) as [E1|E1]; eauto. Qed.

  Lemma inv_step y o : inv y -> op_ok y o -> only_here [o] -> inv (ustep y o).
  Proof.
    destruct y as [x l fs]. intros (I1 & I2 & G). cbn [u_world u_svcs u_futs] in *.
    destruct o as [i|i r|i|i|j|j|g]; cbn [op_ok ustep u_world u_svcs u_futs]; intros K OH.
    - destruct (held_at l i) as [s|] eqn:E; [|exact (conj I1 (conj I2 G))].
      destruct (poll_ready out s x) as [x1 [[s1 a]| |]] eqn:EP; cbn in K; try contradiction.
      destruct (G _ _ E) as (G1 & G2 & G3).
      assert (ST1 : forall T h, SI max1 (fst x) (tk1 s ++ T) (length (hd1 s) + h) ->
        SI max1 (fst x1) (tk1 s1 ++ T) (length (hd1 s1) + h)).
      { intros T h H. exact (proj1 (@opoll _ _ _ _ cl debug _ _ _ _ _ _ _ _ EP G1 H)). }
      assert (N : @neat _ _ _ _ cl s1 /\ if cl_permit s1 then poll_ready cl (cl_inner s) (snd x) = (snd x1, Val (cl_inner s1, a))
        else cl_permit s = false /\ snd x1 = snd x /\ cl_inner s1 = cl_inner s).
      { destruct (all_split tk1 _ _ E) as (R & P1 & P2). destruct (all_split hd1 _ _ E) as (R' & P3 & P4).
        pose proof (Permutation_length P3) as L3. rewrite app_length in L3.
        apply (SI_perm P1) in I1. rewrite L3, <- Nat.add_assoc in I1. exact (proj2 (@opoll _ _ _ _ cl debug _ _ _ _ _ _ _ _ EP G1 I1)). }
      destruct N as [N1 N2].
      assert (N3 : (forall T h, SI max2 (fst (snd x)) (tk2 s ++ T) (length (hd2 s) + h) ->
        SI max2 (fst (snd x1)) (tk2 s1 ++ T) (length (hd2 s1) + h)) /\ good s1).
      { unfold good. destruct (cl_permit s1) eqn:E1.
        - split.
          + intros T h H. exact (proj1 (@opoll _ _ _ _ svc debug _ _ _ _ _ _ _ _ N2 G2 H)).
          + split; [intros _; apply N1; exact E1|]. split; [|discriminate].
            destruct (all_split tk2 _ _ E) as (R & P1 & P2). destruct (all_split hd2 _ _ E) as (R' & P3 & P4).
            pose proof (Permutation_length P3) as L3. rewrite app_length in L3.
            apply (SI_perm P1) in I2. rewrite L3, <- Nat.add_assoc in I2.
            exact (proj1 (proj2 (@opoll _ _ _ _ svc debug _ _ _ _ _ _ _ _ N2 G2 I2))).
        - destruct N2 as (N2 & N3 & N4). unfold tk2, hd2. rewrite N3, N4. split; [auto|].
          split; [discriminate|]. split; [exact G2|]. intros _. apply G3, N2. }
      destruct N3 as [ST2 G']. refine (conj _ (conj _ _)); cbn [u_world u_svcs u_futs].
      + exact (@lift1 _ _ _ _ _ _ _ _ _ (Some s1) 0 _ E ST1 I1).
      + exact (@lift1 _ _ _ _ _ _ _ _ _ (Some s1) 0 _ E ST2 I2).
      + apply good_set; [exact G|]. intros s0 E0. injection E0 as <-. exact G'.
    - destruct (held_at l i) as [s|] eqn:E; [|exact (conj I1 (conj I2 G))].
      destruct (call out s r x) as [x1 [[s1 f]| |]] eqn:EP; cbn in K; try contradiction.
      destruct (@ocall _ _ _ _ cl debug _ _ _ _ _ _ EP) as (A1 & A2 & A3 & A4 & A5).
      destruct (@ocall _ _ _ _ svc debug _ _ _ _ _ _ A5) as (B1 & B2 & B3 & B4 & B5).
      destruct (G _ _ E) as (G1 & G2 & G3).
      refine (conj _ (conj _ _)); cbn [u_world u_svcs u_futs]; unfold flying; rewrite ?held_new.
      + rewrite A2. refine (@lift1 _ tk1 hd1 _ _ _ _ _ _ (Some s1) 1 (flying fs) E _ I1).
        intros T h H. cbn [per]. unfold tk1, tk, hd1, hd in *. rewrite A3, A4. rewrite A1 in H. exact H.
      + rewrite B2. refine (@lift1 _ tk2 hd2 _ _ _ _ _ _ (Some s1) 1 (flying fs) E _ I2).
        intros T h H. cbn [per]. unfold tk2, tk, hd2, hd in *. rewrite B3, B4. rewrite B1 in H. exact H.
      + apply good_set; [exact G|]. intros s0 E0. injection E0 as <-. unfold good, neat. rewrite A3, B3, B4.
        split; [discriminate|]. split; [discriminate|]. intros _. split; [|reflexivity]. apply G2. exact B1.
    - destruct (held_at l i) as [s|] eqn:E; [|exact (conj I1 (conj I2 G))].
      destruct (clone out s x) as [x1 [s1| |]] eqn:EP; cbn in K; try contradiction.
      destruct (@oclone _ _ _ _ cl debug _ _ _ _ EP) as (A1 & A2 & A3 & A4). destruct (@oclone _ _ _ _ svc debug _ _ _ _ A4) as (B1 & B2 & B3 & B4).
      refine (conj _ (conj _ _)); cbn [u_world u_svcs u_futs].
      + rewrite A1. apply lift_new; [unfold tk1, tk; rewrite A3; reflexivity|unfold hd1, hd; rewrite A2; reflexivity|exact I1].
      + rewrite B1. apply lift_new; [unfold tk2, tk; rewrite B3; reflexivity|unfold hd2, hd; rewrite B2; reflexivity|exact I2].
      + intros j s0 E0. destruct (held_app_new _ _ _ E0) as [<-|E1]; [|exact (G _ _ E1)].
        unfold good, neat. rewrite A2, A3, B2, B3. repeat split; auto; discriminate.
    - destruct (held_at l i) as [s|] eqn:E; [|exact (conj I1 (conj I2 G))].
      assert (D : forall T h, SI max1 (fst x) (tk1 s ++ T) (length (hd1 s) + h) -> SI max1 (fst (drop_svc out s x)) T h).
      { intros T h H. exact (proj1 (@odrop _ _ _ _ cl debug _ _ _ s _ H)). }
      assert (D2 : snd (drop_svc out s x) = drop_svc cl (cl_inner s) (snd x)) by reflexivity.
      refine (conj _ (conj _ _)); cbn [u_world u_svcs u_futs].
      + exact (@lift1 _ tk1 hd1 _ _ _ _ _ _ None 0 _ E D I1).
      + rewrite D2. refine (@lift1 _ tk2 hd2 _ _ _ _ _ _ None 0 _ E _ I2).
        intros T h H. exact (proj1 (@odrop _ _ _ _ svc debug _ _ _ (cl_inner s) _ H)).
      + apply good_set; [exact G|]. discriminate.
    - destruct (held_at fs j) as [f|] eqn:E; [|exact (conj I1 (conj I2 G))].
      destruct (poll_fut out f x) as [x1 [[f1 a]| |]] eqn:EP; cbn in K; try contradiction.
      destruct (@opollf _ _ _ _ cl debug _ _ _ _ EP) as (A1 & A2). destruct (@opollf _ _ _ _ svc debug _ _ _ _ A2) as (B1 & B2).
      refine (conj _ (conj _ _)); cbn [u_world u_svcs u_futs]; rewrite ?A1, ?B1, ?(flying_some _ _ _ E); assumption.
    - destruct (held_at fs j) as [f|] eqn:E; [|exact (conj I1 (conj I2 G))].
      rewrite (flying_none _ _ E) in I1, I2.
      refine (conj _ (conj _ _)); cbn [u_world u_svcs u_futs].
      + apply SI_release. rewrite <- plus_n_Sm in I1. exact I1.
      + apply SI_release. rewrite <- plus_n_Sm in I2. exact I2.
      + exact G.
    - apply Forall_inv in OH. specialize (OH x). injection OH as E1 E2.
      refine (conj _ (conj _ _)); cbn [u_world u_svcs u_futs]; rewrite ?E1, ?E2; assumption.
  Qed.

  Lemma inv_run l : forall y, inv y -> calm y l -> only_here l -> inv (urun y l).
  Proof.
    induction l as [|o l IH]; intros y H C OH; [exact H|]. destruct C as [C1 C2]. inversion OH; subst.
    apply (IH (ustep y o)); [|exact C2|assumption]. apply inv_step; [exact H|exact C1|]. constructor; [assumption|constructor].
  Qed.
  Lemma inv_start l w : inv (order_start svc debug max1 max2 l w).
  Proof.
    unfold order_start, ustart, inv. cbn [u_world u_svcs u_futs fst snd].
    assert (E : forall (f : st out -> list nat), (forall s, f (conc_new cl (conc_new svc s)) = []) ->
      all f (map Some (map (fun s => conc_new cl (conc_new svc s)) l)) = []).
    { intros f Hf. clear -Hf. induction l as [|s l0 IH]; cbn; [reflexivity|]. rewrite Hf. exact IH. }
    assert (E' : forall (f : st out -> list unit), (forall s, f (conc_new cl (conc_new svc s)) = []) ->
      all f (map Some (map (fun s => conc_new cl (conc_new svc s)) l)) = []).
    { intros f Hf. clear -Hf. induction l as [|s l0 IH]; cbn; [reflexivity|]. rewrite Hf. exact IH. }
    rewrite !E, !E' by reflexivity. split; [apply SI_new|]. split; [apply SI_new|].
    intros i s H. assert (exists s0, s = conc_new cl (conc_new svc s0)) as [s0 ->].
    { revert i H. unfold held_at. clear. induction l as [|a l IH]; intros [|i]; cbn; try discriminate.
      - intros E. injection E as <-. eauto.
      - apply IH. }
    unfold good, neat. cbn. repeat split; auto; discriminate.
  Qed.

  Lemma someone X (g : X -> list unit) l : length (all g l) = 0 \/ exists i s, held_at l i = Some s /\ g s <> [].
  Proof.
    destruct (all g l) as [|u q] eqn:E; [left; reflexivity|]. right.
    assert (I : In u (all g l)) by (rewrite E; left; reflexivity).
    destruct (all_in _ _ _ I) as (i & s & H1 & H2). exists i, s. split; [exact H1|]. intros Z. rewrite Z in H2. exact H2.
  Qed.
  Lemma owner X (f : X -> list nat) max m l t q h : SI max m (all f l) h -> sem_granted m = t :: q ->
    exists i s, held_at l i = Some s /\ In t (f s).
  Proof.
    intros (_ & _ & P & _) E. apply all_in. apply (Permutation_in t (Permutation_sym P)). rewrite E. apply in_elt.
  Qed.
  Lemma no_one X (f : X -> list nat) max m l a h : SI max m (all f l) h -> sem_granted m = [] -> sem_avail m = Datatypes.S a ->
    forall i s, held_at l i = Some s -> f s = [].
  Proof.
    intros (_ & _ & P & _ & H5) E1 E2 i s H. destruct H5 as [H5|H5]; [congruence|]. rewrite H5, E1 in P. cbn in P.
    destruct (f s) as [|t q] eqn:E; [reflexivity|]. exfalso.
    assert (I : In t (all f l)) by (eapply all_at; [exact H|rewrite E; left; reflexivity]).
    apply (Permutation_in t P) in I. exact I.
  Qed.

  Lemma progress (y : prog out) : (forall i (s : st out), held_at (u_svcs y) i = Some s ->
      exists w1 s1, poll_ready svc (cl_inner (cl_inner s)) (snd (snd (u_world y))) = (w1, Val (s1, Ready (Ok tt)))) ->
    1 <= max1 -> 1 <= max2 -> inv y -> flying (u_futs y) = 0 ->
    (exists i s, held_at (u_svcs y) i = Some s) ->
    exists i s x s1, held_at (u_svcs y) i = Some s /\ poll_ready out s (u_world y) = (x, Val (s1, Ready (Ok tt))).
  Proof.
    intros R M1 M2 (I1 & I2 & G) FL (i0 & s0 & E0). rewrite FL in I1, I2.
    destruct y as [x l fs]. cbn [u_world u_svcs u_futs] in *. rewrite Nat.add_0_r in I1, I2.
    destruct (someone hd2 l) as [Z2|(i & s & E & H)].
    2:{ assert (P2 : cl_permit (cl_inner s) = true).
        { unfold hd2, hd in H. destruct (cl_permit (cl_inner s)); [reflexivity|contradiction H; reflexivity]. }
        destruct (G _ _ E) as (G1 & G2 & G3).
        assert (P1 : cl_permit s = true).
        { destruct (cl_permit s); [reflexivity|]. destruct (G3 eq_refl). congruence. }
        destruct (@opens _ _ _ _ cl debug s x) as (x1 & s1 & O1).
        { left. exact P1. }
        { apply (@opens _ _ _ _ svc debug). { left. exact P2. } exact (R _ _ E). }
        exists i, s, x1, s1. split; [exact E|exact O1]. }
    rewrite Z2 in I2. pose proof (proj1 I2) as A2. rewrite Nat.add_0_r in A2.
    destruct (someone hd1 l) as [Z1|(i & s & E & H)].
    - rewrite Z1 in I1. pose proof (proj1 I1) as A1. rewrite Nat.add_0_r in A1.
      assert (NP : forall i s, held_at l i = Some s -> cl_permit s = false).
      { intros i s E. destruct (cl_permit s) eqn:P; [|reflexivity]. exfalso.
        assert (I : In tt (all hd1 l)).
        { eapply all_at; [exact E|]. unfold hd1, hd. rewrite P. left. reflexivity. }
        destruct (all hd1 l); [exact I|discriminate]. }
      assert (NW : forall i s, held_at l i = Some s -> tk2 s = []).
      { intros i s E. destruct (G _ _ E) as (_ & _ & G3). destruct (G3 (NP _ _ E)) as [G4 _]. unfold tk2, tk. rewrite G4. reflexivity. }
      assert (GR : sem_granted (fst (snd x)) = []).
      { destruct (sem_granted (fst (snd x))) as [|t q] eqn:E; [reflexivity|].
        destruct (owner _ _ I2 E) as (i & s & E1 & E2). rewrite (NW _ _ E1) in E2. contradiction. }
      assert (IN : forall i s, held_at l i = Some s -> exists w1 s1, poll_ready cl (cl_inner s) (snd x) = (w1, Val (s1, Ready (Ok tt)))).
      { intros i s E. apply (@opens _ _ _ _ svc debug); [|exact (R _ _ E)]. right.
        destruct (G _ _ E) as (_ & _ & G3). destruct (G3 (NP _ _ E)) as [G4 _]. rewrite G4.
        rewrite GR in A2. cbn in A2. destruct (sem_avail (fst (snd x))) as [|a] eqn:EA; [lia|]. exact (got_free _ EA). }
      destruct (sem_granted (fst x)) as [|t q] eqn:EG.
      + cbn in A1. destruct (sem_avail (fst x)) as [|a] eqn:EA; [lia|].
        pose proof (no_one _ _ I1 EG EA) as NT.
        destruct (@opens _ _ _ _ cl debug s0 x) as (x1 & s1 & O1).
        { right. specialize (NT _ _ E0). unfold tk1, tk in NT. destruct (cl_wait s0); [discriminate|]. exact (got_free _ EA). }
        { exact (IN _ _ E0). }
        exists i0, s0, x1, s1. split; [exact E0|exact O1].
      + destruct (owner _ _ I1 EG) as (i & s & E1 & E2).
        destruct (@opens _ _ _ _ cl debug s x) as (x1 & s1 & O1).
        { right. unfold tk1, tk in E2. destruct (cl_wait s) as [t'|]; [|contradiction]. destruct E2 as [->|[]].
          exact (got_granted _ EG). }
        { exact (IN _ _ E1). }
        exists i, s, x1, s1. split; [exact E1|exact O1].
    - assert (P1 : cl_permit s = true).
      { unfold hd1, hd in H. destruct (cl_permit s); [reflexivity|contradiction H; reflexivity]. }
      destruct (sem_granted (fst (snd x))) as [|t q] eqn:EG.
      + cbn in A2. destruct (sem_avail (fst (snd x))) as [|a] eqn:EA; [lia|].
        pose proof (no_one _ _ I2 EG EA _ E) as NT.
        destruct (@opens _ _ _ _ cl debug s x) as (x1 & s1 & O1).
        { left. exact P1. }
        { apply (@opens _ _ _ _ svc debug); [|exact (R _ _ E)]. right. unfold tk2, tk in NT.
          destruct (cl_wait (cl_inner s)); [discriminate|]. exact (got_free _ EA). }
        exists i, s, x1, s1. split; [exact E|exact O1].
      + destruct (owner _ _ I2 EG) as (j & s' & E1 & E2). destruct (G _ _ E1) as (G1 & G2 & G3).
        unfold tk2, tk in E2. destruct (cl_wait (cl_inner s')) as [t'|] eqn:EW; [|contradiction]. destruct E2 as [->|[]].
        destruct (@opens _ _ _ _ cl debug s' x) as (x1 & s1 & O1).
        { left. destruct (cl_permit s'); [reflexivity|]. destruct (G3 eq_refl). congruence. }
        { apply (@opens _ _ _ _ svc debug); [|exact (R _ _ E1)]. right. rewrite EW. exact (got_granted _ EG). }
        exists j, s', x1, s1. split; [exact E1|exact O1].
  Qed.
End Order.

Lemma order_progress_now W Req Resp Err (svc : Service W Req Resp Err) debug max1 max2 l w ops i s :
  1 <= max1 -> 1 <= max2 ->
  let y0 := order_start svc debug max1 max2 l w in
  let y := urun y0 ops in
  (forall i (s : st (in_order svc debug)), held_at (u_svcs y) i = Some s ->
    exists w1 s1, poll_ready svc (cl_inner (cl_inner s)) (snd (snd (u_world y))) = (w1, Val (s1, Ready (Ok tt)))) ->
  calm y0 ops -> only_here ops ->
  (forall j, held_at (u_futs y) j = None) -> held_at (u_svcs y) i = Some s ->
  exists i s x s1, held_at (u_svcs y) i = Some s /\
    poll_ready (in_order svc debug) s (u_world y) = (x, Val (s1, Ready (Ok tt))).
Proof.
  intros M1 M2 y0 y R C OH NF H. apply (@progress _ _ _ _ svc debug max1 max2); auto.
  - apply inv_run; [apply inv_start|exact C|exact OH].
  - destruct (someone (fun _ => [tt]) (u_futs y)) as [Z|(j & f & E & _)]; [exact Z|]. rewrite NF in E. discriminate.
  - eauto.
Qed.
Lemma order_progress W Req Resp Err (svc : Service W Req Resp Err) debug max1 max2 l w ops i s :
  1 <= max1 -> 1 <= max2 ->
  (forall s w, exists w1 s1, poll_ready svc s w = (w1, Val (s1, Ready (Ok tt)))) ->
  let y0 := order_start svc debug max1 max2 l w in
  let y := urun y0 ops in
  calm y0 ops -> only_here ops ->
  (forall j, held_at (u_futs y) j = None) -> held_at (u_svcs y) i = Some s ->
  exists i s x s1, held_at (u_svcs y) i = Some s /\
    poll_ready (in_order svc debug) s (u_world y) = (x, Val (s1, Ready (Ok tt))).
Proof.
  intros M1 M2 R y0 y C OH NF H. apply (@order_progress_now _ _ _ _ svc debug max1 max2 l w ops i s); auto.
Qed.

(** ** The opposite orders *)
Definition plain96 : Service unit unit unit unit :=
  MkService unit unit (fun s => ret (s, Ready (Ok tt))) (fun s _ => ret (s, tt)) (fun f => ret (f, Ready (Ok tt)))
    (fun s => ret s) (fun _ w => w) (fun _ w => w).
Definition fresh96 (debug : bool) : st (in_order plain96 debug) := conc_new (conc_limit plain96 (fun _ => false) debug) (conc_new plain96 tt).
Definition l96 (debug : bool) : list (st (either_order plain96 debug)) := [inl (fresh96 debug); inl (fresh96 debug); inr (fresh96 debug)].
Definition start96 (debug : bool) : prog (either_order plain96 debug) :=
  ustart (either_order plain96 debug) (sem_new 1, (sem_new 1, tt)) (l96 debug).
Definition ops96 : list (@uop (sem * (sem * unit)) unit) :=
  [UReady 0; UCall 0 tt; UDrop 0; UReady 1; UReady 2; UPoll 0; UDropFut 0; UReady 1; UReady 2].
Definition end96 (debug : bool) := urun (start96 debug) ops96.

(** One holds a permit of the first semaphore and waits for the second, the other the other way round. *)
Definition cross96 (debug : bool) : st (in_order plain96 debug) :=
  @ConcSt _ _ _ _ (conc_limit plain96 (fun _ => false) debug) (@ConcSt _ _ _ _ plain96 tt (Some 1) false) None true.
Lemma end96_is debug : u_svcs (end96 debug) = [None; Some (inl (cross96 debug)); Some (inr (cross96 debug))].
Proof. vm_compute. reflexivity. Qed.
Lemma end96_world debug : u_world (end96 debug) = (Sem 0 [1] [] 2, (Sem 0 [1] [] 2, tt)).
Proof. vm_compute. reflexivity. Qed.
Lemma end96_futs debug : u_futs (end96 debug) = [None].
Proof. vm_compute. reflexivity. Qed.

Lemma end96_stuck debug i s : held_at (u_svcs (end96 debug)) i = Some s ->
  poll_ready (either_order plain96 debug) s (u_world (end96 debug)) = (u_world (end96 debug), Val (s, Pending)).
Proof.
  rewrite end96_is, end96_world. unfold held_at. destruct i as [|[|[|i]]]; cbn [nth_error].
  - discriminate.
  - intros H. assert (E : s = inl (cross96 debug)) by (symmetry; exact (f_equal (fun o => match o with Some x => x | None => s end) H)). rewrite E. vm_compute. reflexivity.
  - intros H. assert (E : s = inr (cross96 debug)) by (symmetry; exact (f_equal (fun o => match o with Some x => x | None => s end) H)). rewrite E. vm_compute. reflexivity.
  - destruct i; discriminate.
Qed.
Lemma set_nth_same A (l : list (option A)) i s : held_at l i = Some s -> set_nth i (Some s) l = l.
Proof.
  unfold held_at. revert i. induction l as [|x l IH]; intros [|i]; cbn; try discriminate.
  - intros ->. reflexivity.
  - intros H. f_equal. apply IH. exact H.
Qed.
Lemma end96_stays debug l : urun (end96 debug) (map UReady l) = end96 debug.
Proof.
  induction l as [|i l IH]; [reflexivity|].
  assert (E : ustep (end96 debug) (UReady i) = end96 debug).
  { pose proof (@end96_stuck debug i) as K. revert K. generalize (end96 debug). intros [x svcs fs] K.
    cbn [ustep u_world u_svcs u_futs] in *. destruct (held_at svcs i) as [s|] eqn:H; [|reflexivity].
    rewrite (K _ eq_refl). cbn [fst snd]. rewrite (set_nth_same _ _ H). reflexivity. }
  cbn [map urun fold_left]. change (urun (ustep (end96 debug) (UReady i)) (map UReady l) = end96 debug). rewrite E. exact IH.
Qed.

Unset Implicit Arguments.
Lemma calm96 debug y0 : y0 = start96 debug -> calm y0 ops96.
Proof. intros E. rewrite E. vm_compute. tauto. Qed.
Lemma none96 debug y : y = end96 debug -> forall j, held_at (u_futs y) j = None.
Proof. intros E. rewrite E. intros j. rewrite end96_futs. unfold held_at. destruct j as [|[|j]]; reflexivity. Qed.
Lemma one96 debug y : y = end96 debug -> held_at (u_svcs y) 1 <> None.
Proof. intros E. rewrite E, end96_is. clear E. discriminate. Qed.
Lemma two96 debug y : y = end96 debug -> held_at (u_svcs y) 2 <> None.
Proof. intros E. rewrite E, end96_is. clear E. discriminate. Qed.
Lemma more96 debug y more y' : y = end96 debug -> y' = urun y (map UReady more) -> forall i s, held_at (u_svcs y') i = Some s ->
  snd (poll_ready (either_order plain96 debug) s (u_world y')) = Val (s, Pending).
Proof. intros E E'. rewrite E', E, end96_stays. intros i s H. rewrite (end96_stuck _ H). reflexivity. Qed.
Lemma only96 : only_here ops96.
Proof. repeat constructor. Qed.
Lemma started96 debug y0 y : y0 = start96 debug -> y = urun y0 ops96 -> y = end96 debug.
Proof. intros E E1. rewrite E1, E. unfold end96. exact eq_refl. Qed.

Lemma opposite debug : exists (svc : Service unit unit unit unit) l ops,
  (forall s w, exists w1 s1, poll_ready svc s w = (w1, Val (s1, Ready (Ok tt)))) /\
  let y0 := ustart (either_order svc debug) (sem_new 1, (sem_new 1, tt)) l in
  let y := urun y0 ops in
  calm y0 ops /\ only_here ops /\ (forall j, held_at (u_futs y) j = None) /\
  held_at (u_svcs y) 1 <> None /\ held_at (u_svcs y) 2 <> None /\
  forall more, let y' := urun y (map UReady more) in
    forall i s, held_at (u_svcs y') i = Some s ->
      snd (poll_ready (either_order svc debug) s (u_world y')) = Val (s, Pending).
Proof.
  exists plain96, (l96 debug), ops96. split; [intros [] []; eexists _, _; reflexivity|].
  intros y0. assert (E0 : y0 = start96 debug) by reflexivity. clearbody y0.
  intros y. assert (E : y = end96 debug) by (apply (started96 debug _ _ E0); reflexivity). clearbody y.
  split; [exact (calm96 _ _ E0)|]. split; [exact only96|]. split; [exact (none96 _ _ E)|].
  split; [exact (one96 _ _ E)|]. split; [exact (two96 _ _ E)|].
  intros more y'. exact (more96 debug _ more _ E eq_refl).
Qed.
