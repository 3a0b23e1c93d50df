(** The two queues of CallAll: what polling them does to the log. *)
From Coq Require Import Permutation Sorted.
From Verif Require Import Base Middleware ReadyCache Track CallAll CallAllSpec.
Set Implicit Arguments.

Section Q.
  Context {W Req Resp Err : Type} (svc : Service W Req Resp Err).
  Notation ev := (cev Req Resp Err).
  Notation TW := (W * tk ev)%type.
  Notation res := (result Resp Err).
  Notation fu := (fut (csvc svc)).

  Definition chron (x : TW) : list ev := rev (log_of x).
  (** From [x] to [x1] the events [E] happened; no identity was given away. *)
  Definition ext (x x1 : TW) (E : list ev) : Prop := chron x1 = chron x ++ E /\ tk_next (snd x1) = tk_next (snd x).
  Definition fut_event (e : ev) : Prop :=
    match e with CSvc (TPoll _ _) | CSvc (TDropFut _) => True | _ => False end.

  Lemma ext_nil x : ext x x [].
  Proof. split; [symmetry; apply app_nil_r|reflexivity]. Qed.
  Lemma ext_trans x y z E F : ext x y E -> ext y z F -> ext x z (E ++ F).
  Proof. intros [a b] [c d]. split; [rewrite c, a, app_assoc; auto|congruence]. Qed.
  Lemma ext_emit x e : ext x (fst (tk_emit e x)) [e].
  Proof. destruct x as [w [n l]]. split; reflexivity. Qed.

  Lemma poll_fut_csvc (f : fu) x :
    match poll_fut (csvc svc) f x with
    | (x1, Val (f1, a)) => fst f1 = fst f /\ ext x x1 [CSvc (TPoll (fst f) a)]
    | (x1, _) => ext x x1 []
    end.
  Proof.
    destruct x as [w [n l]], f as [j f]. cbn. unfold bind, tk_lift. cbn.
    destruct (poll_fut svc f w) as [w1 [[f1 a]| |]]; cbn; try (split; cbn; [symmetry; apply app_nil_r|reflexivity]).
    split; [reflexivity|]. split; reflexivity.
  Qed.

  Definition key {X} (p : X * fu) : X * nat := (fst p, fst (snd p)).

  Definition jid {X} (p : X * fu) : nat := fst (snd p).

  Lemma map_set_nth A B (f : A -> B) l : forall n x y, nth_error l n = Some x -> f y = f x -> map f (set_nth n y l) = map f l.
  Proof.
    induction l as [|a l IH]; intros [|n] x y; cbn; try discriminate.
    - intros E F. injection E as ->. now rewrite F.
    - intros E F. f_equal. eauto.
  Qed.
  Lemma map_remove_nth A B (f : A -> B) l : forall n, map f (remove_nth n l) = remove_nth n (map f l).
  Proof. induction l as [|a l IH]; intros [|n]; cbn; auto. now rewrite IH. Qed.
  Lemma remove_nth_perm A (l : list A) : forall n x, nth_error l n = Some x -> Permutation l (x :: remove_nth n l).
  Proof.
    induction l as [|a l IH]; intros [|n] x; cbn; try discriminate.
    - intros E. injection E as ->. apply Permutation_refl.
    - intros E. apply perm_trans with (a :: x :: remove_nth n l); [constructor; auto|constructor].
  Qed.
  Lemma remove_nth_length A (l : list A) : forall n x, nth_error l n = Some x -> length l = S (length (remove_nth n l)).
  Proof. intros n x E. apply remove_nth_perm in E. apply Permutation_length in E. exact E. Qed.

  Lemma fus_poll_ok X order : forall (l : list (X * fu)) x,
    match fus_poll (poll_fut (csvc svc)) (drop_fut (csvc svc)) order l x with
    | (x1, Val (l1, o)) => exists E, ext x x1 E /\ Forall fut_event E /\
        match o with
        | None => completions E = [] /\ map key l1 = map key l
        | Some (k, r) => exists i j, nth_error (map key l) i = Some (k, j) /\ completions E = [(j, r)] /\
            map key l1 = remove_nth i (map key l)
        end
    | (x1, _) => exists E, ext x x1 E /\ Forall fut_event E /\ completions E = []
    end.
  Proof.
    induction order as [|i order IH]; intros l x; cbn [fus_poll].
    - exists []. repeat split; auto using ext_nil. apply ext_nil.
    - destruct (nth_error l i) as [[k f]|] eqn:N; [|apply IH].
      unfold bind at 1. generalize (poll_fut_csvc f x).
      destruct (poll_fut (csvc svc) f x) as [x1 [[f1 a]| |]]; cbn [bind ret].
      + intros [Hj He]. destruct a as [|o].
        * assert (M : map key (set_nth i (k, f1) l) = map key l).
          { eapply map_set_nth; [exact N|]. unfold key. cbn. now rewrite Hj. }
          generalize (IH (set_nth i (k, f1) l) x1). rewrite M.
          destruct (fus_poll _ _ order _ x1) as [x2 [[l1 [[k' r']|]]| |]]; intros (E & H1 & H2 & H3);
            exists (CSvc (TPoll (fst f) Pending) :: E);
            (split; [exact (ext_trans He H1)|split; [constructor; [exact I|assumption]|exact H3]]).
        * unfold bind, modify, ret. destruct f1 as [j f1]; cbn in Hj.
          exists [CSvc (TPoll (fst f) (Ready o)); CSvc (TDropFut j)].
          split; [|split].
          -- apply (ext_trans (E := [_]) (F := [_]) He). split; destruct x1 as [w1 [n1 l1]]; reflexivity.
          -- repeat constructor.
          -- exists i, (fst f). split; [|split].
             ++ rewrite (map_nth_error key _ _ N). reflexivity.
             ++ reflexivity.
             ++ apply map_remove_nth.
      + intros He. exists []. auto.
      + intros He. exists []. auto.
  Qed.

  Context (sched : nat -> W -> W * list nat).

  Lemma fus_next_ok X (l : list (X * fu)) x :
    match fus_next (poll_fut (csvc svc)) (drop_fut (csvc svc)) (lsched sched) l x with
    | (x1, Val (l1, o)) => exists E, ext x x1 E /\ Forall fut_event E /\
        match o with
        | Pending => l <> [] /\ completions E = [] /\ map key l1 = map key l
        | Ready None => l = [] /\ E = [] /\ l1 = []
        | Ready (Some (k, r)) => exists i j, nth_error (map key l) i = Some (k, j) /\ completions E = [(j, r)] /\
            map key l1 = remove_nth i (map key l)
        end
    | (x1, _) => exists E, ext x x1 E /\ Forall fut_event E /\ completions E = []
    end.
  Proof.
    unfold fus_next. destruct l as [|p l].
    - exists []. repeat split; auto. apply ext_nil.
    - remember (p :: l) as l0 eqn:El.
      unfold bind at 1. unfold lsched.
      destruct (sched (length l0) (fst x)) as [w1 o] eqn:Es.
      unfold bind. assert (Ex : ext x (w1, snd x) []) by (split; [symmetry; apply app_nil_r|reflexivity]).
      generalize (fus_poll_ok o l0 (w1, snd x)).
      destruct (fus_poll _ _ o l0 (w1, snd x)) as [x1 [[l1 [[k r]|]]| |]]; intros (E & H1 & H2 & H3);
        exists E; (split; [exact (ext_trans Ex H1)|split; [assumption|]]); auto.
      cbn. split; [subst; discriminate|assumption].
  Qed.

  (** ** Unordered *)
  Definition UI (q : list (unit * fu)) (P : list nat) (Y : list res) (C : list (nat * res)) : Prop :=
    Permutation P (map jid q ++ map fst C) /\ Y = map snd C.
  Definition UL (P : list nat) (Y : list res) (C : list (nat * res)) : Prop :=
    (exists R, Permutation P (R ++ map fst C)) /\ Y = map snd C.

  Lemma snd_key X (l : list (X * fu)) : map jid l = map snd (map key l).
  Proof. rewrite map_map. reflexivity. Qed.

  Lemma unordered_ok q P Y C x : UI q P Y C ->
    match q_poll (unordered svc sched) q x with
    | (x1, Val (q1, a)) => exists E, ext x x1 E /\ Forall fut_event E /\
        match a with
        | Ready (Some o) => UI q1 P (Y ++ [o]) (C ++ completions E)
        | Ready None => UI q1 P Y (C ++ completions E) /\ q_empty (unordered svc sched) q1 = true
        | Pending => UI q1 P Y (C ++ completions E) /\ q_empty (unordered svc sched) q1 = false
        end
    | (x1, _) => exists E, ext x x1 E /\ Forall fut_event E /\ UL P Y (C ++ completions E)
    end.
  Proof.
    intros [HP HY]. cbn [unordered unordered_drive q_poll]. unfold bind at 1.
    generalize (fus_next_ok q x).
    destruct (fus_next _ _ _ q x) as [x1 [[l1 a]| |]]; intros (E & H1 & H2 & H3); unfold ret; exists E;
      (split; [assumption|split; [assumption|]]).
    - unfold UI. destruct a as [|[[k r]|]]; cbn [poll_map option_map].
      + destruct H3 as (Hn & Hc & Hm). rewrite Hc, app_nil_r. cbn.
        assert (L : length l1 = length q) by (rewrite <- (map_length key l1), Hm, map_length; reflexivity).
        split; [split|].
        * rewrite !snd_key in *. rewrite Hm. exact HP.
        * assumption.
        * destruct l1; [destruct q; [congruence|discriminate]|reflexivity].
      + destruct H3 as (i & j & Hi & Hc & Hm). cbn [snd]. rewrite Hc, !map_app. cbn [map fst snd].
        split; [|now rewrite HY].
        rewrite snd_key, Hm. rewrite snd_key in HP. rewrite HP.
        assert (Pm := Permutation_map snd (remove_nth_perm _ _ Hi)). cbn in Pm. rewrite Pm. cbn.
        rewrite app_assoc. apply (Permutation_cons_append (_ ++ _)).
      + destruct H3 as (-> & -> & ->). cbn. rewrite app_nil_r. auto.
    - split; [|now rewrite H3, app_nil_r]. rewrite H3, app_nil_r. eauto.
    - split; [|now rewrite H3, app_nil_r]. rewrite H3, app_nil_r. eauto.
  Qed.

  (** ** Ordered *)
  Definition OI (q : ordq (F := fu) (O := res)) (P : list nat) (Y : list res) (C : list (nat * res)) : Prop :=
    oq_in q = length P /\ oq_out q = length Y /\ length Y <= length P /\
    (forall i j, In (i, j) (map key (oq_prog q)) -> nth_error P i = Some j) /\
    (forall i o, In (i, o) (oq_done q) -> exists j, nth_error P i = Some j /\ In (j, o) C) /\
    Permutation (seq (length Y) (length P - length Y)) (map fst (oq_prog q) ++ map fst (oq_done q)) /\
    Permutation P (map jid (oq_prog q) ++ map fst C) /\
    Forall2 (fun j o => In (j, o) C) (firstn (length Y) P) Y /\
    StronglySorted (fun a b => fst a <= fst b) (oq_done q).
  Definition OL (P : list nat) (Y : list res) (C : list (nat * res)) : Prop :=
    (exists R, Permutation P (R ++ map fst C)) /\
    Forall2 (fun j o => In (j, o) C) (firstn (length Y) P) Y.
  Definition OP (P : list nat) (Y : list res) (C : list (nat * res)) : Prop :=
    forall j, nth_error P (length Y) = Some j -> ~ In j (map fst C).

  Lemma heap_insert_perm (x : nat * res) h : Permutation (heap_insert x h) (x :: h).
  Proof.
    induction h as [|y h IH]; cbn; [reflexivity|]. destruct (fst x <=? fst y); [reflexivity|].
    rewrite IH. apply perm_swap.
  Qed.
  Lemma heap_insert_sorted (x : nat * res) h :
    StronglySorted (fun a b => fst a <= fst b) h -> StronglySorted (fun a b => fst a <= fst b) (heap_insert x h).
  Proof.
    induction 1 as [|y h Hs IH Hy]; cbn; [repeat constructor|].
    destruct (fst x <=? fst y) eqn:E.
    - apply Nat.leb_le in E. constructor; [constructor; assumption|]. constructor; [assumption|].
      eapply Forall_impl; [|exact Hy]. cbn. intros; lia.
    - apply Nat.leb_gt in E. constructor; [assumption|].
      rewrite Forall_forall in *. intros z Hz. apply (Permutation_in _ (heap_insert_perm x h)) in Hz.
      destruct Hz as [<-|Hz]; [lia|auto].
  Qed.

  Lemma Forall2_mono A B (R R' : A -> B -> Prop) l m : (forall a b, R a b -> R' a b) -> Forall2 R l m -> Forall2 R' l m.
  Proof. intros H. induction 1; constructor; auto. Qed.
  Lemma Forall2_snoc A B (R : A -> B -> Prop) l m a b : Forall2 R l m -> R a b -> Forall2 R (l ++ [a]) (m ++ [b]).
  Proof. intros H Hr. apply Forall2_app; auto. Qed.
  Lemma firstn_snoc A (l : list A) : forall n a, nth_error l n = Some a -> firstn (S n) l = firstn n l ++ [a].
  Proof. induction l as [|x l IH]; intros [|n] a; cbn; try discriminate; [congruence|]. intros E. now rewrite <- (IH n a E). Qed.
  Lemma seq_split n m : n < m -> seq n (m - n) = n :: seq (S n) (m - S n).
  Proof. intros H. replace (m - n) with (S (m - S n)) by lia. reflexivity. Qed.

  Lemma OI_OL q P Y C : OI q P Y C -> OL P Y C.
  Proof. intros (_ & _ & _ & _ & _ & _ & H & F & _). split; eauto. Qed.
  Lemma OL_more P Y C E : completions (Resp := Resp) (Err := Err) (Req := Req) E = [] -> OL P Y C -> OL P Y (C ++ completions E).
  Proof. intros ->. now rewrite app_nil_r. Qed.

  (** Taking the output of index [length Y] out. *)
  Lemma OI_pop (q : ordq (F := fu) (O := res)) P Y C j o prog done_ :
    nth_error P (length Y) = Some j -> In (j, o) C ->
    (forall i j, In (i, j) (map key prog) -> nth_error P i = Some j) ->
    (forall i o, In (i, o) done_ -> exists j, nth_error P i = Some j /\ In (j, o) C) ->
    Permutation (seq (length Y) (length P - length Y)) (length Y :: map fst prog ++ map fst done_) ->
    Permutation P (map jid prog ++ map fst C) ->
    Forall2 (fun j o => In (j, o) C) (firstn (length Y) P) Y ->
    StronglySorted (fun a b => fst a <= fst b) done_ ->
    OI (OrdQ prog done_ (length P) (S (length Y))) P (Y ++ [o]) C.
  Proof.
    intros Hj Hc H1 H2 H3 H4 H5 H6.
    assert (Hl : length Y < length P) by (apply nth_error_Some; congruence).
    unfold OI. cbn [oq_prog oq_done oq_in oq_out]. rewrite app_length. cbn [length]. replace (length Y + 1) with (S (length Y)) by lia.
    repeat match goal with |- _ /\ _ => split end; auto.
    - rewrite (seq_split Hl) in H3. exact (Permutation_cons_inv H3).
    - rewrite (firstn_snoc _ _ Hj). now apply Forall2_snoc.
  Qed.

  Lemma ord_loop_ok fuel : forall (q : ordq (F := fu) (O := res)) P Y C x, OI q P Y C -> NoDup P ->
    ~ In (oq_out q) (map fst (oq_done q)) ->
    match ord_loop (poll_fut (csvc svc)) (drop_fut (csvc svc)) (lsched sched) fuel q x with
    | (x1, Val (q1, a)) => exists E, ext x x1 E /\ Forall fut_event E /\
        match a with
        | Ready (Some o) => OI q1 P (Y ++ [o]) (C ++ completions E)
        | Ready None => OI q1 P Y (C ++ completions E) /\ q_empty (ordered svc sched) q1 = true
        | Pending => OI q1 P Y (C ++ completions E) /\ q_empty (ordered svc sched) q1 = false /\
                     OP P Y (C ++ completions E)
        end
    | (x1, _) => exists E, ext x x1 E /\ Forall fut_event E /\ OL P Y (C ++ completions E)
    end.
  Proof.
    induction fuel as [|n IH]; intros q P Y C x HI HN Ho; cbn [ord_loop].
    - exists []. cbn. rewrite app_nil_r. split; [apply ext_nil|]. split; [constructor|]. now apply OI_OL in HI.
    - unfold bind at 1. generalize (fus_next_ok (oq_prog q) x).
      assert (HL := OI_OL HI).
      destruct HI as (Iin & Iout & Ilen & Iprog & Idone & Iseq & Iperm & If2 & Isort).
      destruct (fus_next _ _ _ (oq_prog q) x) as [x1 [[l a]| |]]; intros (E & H1 & H2 & H3);
        [|exists E; split; [assumption|split; [assumption|]]; now apply OL_more
         |exists E; split; [assumption|split; [assumption|]]; now apply OL_more].
      destruct a as [|[[k r]|]].
      + destruct H3 as (Hn & Hc & Hm). exists E. split; [assumption|split; [assumption|]].
        rewrite Hc, app_nil_r.
        assert (L : length l = length (oq_prog q)) by (rewrite <- (map_length key l), Hm, map_length; reflexivity).
        assert (Mf : map fst l = map fst (oq_prog q)).
        { transitivity (map fst (map key l)); [rewrite map_map; reflexivity|]. rewrite Hm, map_map. reflexivity. }
        assert (Ms : map jid l = map jid (oq_prog q)).
        { rewrite !snd_key. now rewrite Hm. }
        split; [|split].
        * unfold OI. cbn [oq_prog oq_done oq_in oq_out]. rewrite Hm, Mf, Ms. repeat match goal with |- _ /\ _ => split end; auto.
        * cbn. destruct l; [destruct (oq_prog q); [congruence|discriminate]|reflexivity].
        * intros j Hj HC. assert (Hl : length Y < length P) by (apply nth_error_Some; congruence).
          assert (Hin : In (length Y) (map fst (oq_prog q) ++ map fst (oq_done q))).
          { apply (Permutation_in _ Iseq). rewrite (seq_split Hl). now left. }
          apply in_app_or in Hin. rewrite Iout in Ho. destruct Hin as [Hin|Hin]; [|now apply Ho].
          apply in_map_iff in Hin. destruct Hin as ([i' f'] & Hi' & Hf'). cbn in Hi'. subst i'.
          assert (Hk : In (length Y, fst f') (map key (oq_prog q))) by (apply (in_map key) in Hf'; exact Hf').
          apply Iprog in Hk. rewrite Hj in Hk. injection Hk as Hk.
          assert (ND := Permutation_NoDup Iperm HN).
          apply (in_map jid) in Hf'. unfold jid at 1 in Hf'. cbn [fst snd] in Hf'. rewrite <- Hk in Hf'.
          apply in_split in Hf'. destruct Hf' as (a & b & Hf'). rewrite Hf' in ND.
          rewrite <- app_assoc in ND. cbn in ND. apply NoDup_remove_2 in ND. apply ND.
          rewrite !in_app_iff. auto.
      + destruct H3 as (i & j & Hi & Hc & Hm).
        assert (Pk := remove_nth_perm _ _ Hi). rewrite <- Hm in Pk.
        assert (Hkj : nth_error P k = Some j) by (apply Iprog; eapply Permutation_in; [symmetry; exact Pk|now left]).
        assert (Iprog' : forall i0 j0, In (i0, j0) (map key l) -> nth_error P i0 = Some j0)
          by (intros; apply Iprog; eapply Permutation_in; [symmetry; exact Pk|now right]).
        assert (Idone' : forall i0 o, In (i0, o) (oq_done q) -> exists j0, nth_error P i0 = Some j0 /\ In (j0, o) (C ++ [(j, r)])).
        { intros i0 o Hin. destruct (Idone _ _ Hin) as (j0 & ? & ?). exists j0. split; [assumption|]. apply in_or_app. auto. }
        assert (Iperm' : Permutation P (map jid l ++ map fst (C ++ [(j, r)]))).
        { rewrite Iperm at 1. rewrite !snd_key. apply (Permutation_map snd) in Pk. rewrite Pk, map_app. cbn.
          rewrite app_assoc. apply (Permutation_cons_append (_ ++ _)). }
        assert (Mf : Permutation (map fst (oq_prog q)) (k :: map fst l)).
        { assert (G := Permutation_map fst Pk). cbn in G. rewrite !map_map in G. exact G. }
        assert (If2' : Forall2 (fun j o => In (j, o) (C ++ [(j, r)])) (firstn (length Y) P) Y).
        { revert If2. clear. intros H. induction H; constructor; auto. apply in_or_app. auto. }
        clear If2'.
        assert (If2' : Forall2 (fun j0 o => In (j0, o) (C ++ [(j, r)])) (firstn (length Y) P) Y).
        { eapply Forall2_mono; [|exact If2]. cbn. intros. apply in_or_app. auto. }
        destruct (Nat.eqb_spec k (oq_out q)) as [Ek|Ek].
        * exists E. split; [assumption|split; [assumption|]]. rewrite Hc.
          rewrite Iin, Iout in *. subst k. eapply OI_pop; eauto.
          -- apply in_or_app. right. now left.
          -- rewrite Iseq, Mf. reflexivity.
        * set (q1 := OrdQ l (heap_insert (k, r) (oq_done q)) (oq_in q) (oq_out q)).
          assert (HI1 : OI q1 P Y (C ++ [(j, r)])).
          { unfold q1, OI. cbn [oq_prog oq_done oq_in oq_out]. repeat match goal with |- _ /\ _ => split end; auto.
            - intros i0 o Hin. apply (Permutation_in _ (heap_insert_perm _ _)) in Hin.
              destruct Hin as [Hin|Hin]; [|auto]. injection Hin as <- <-. exists j. split; [assumption|].
              apply in_or_app. right. now left.
            - rewrite Iseq, Mf. rewrite (Permutation_map fst (heap_insert_perm (k, r) (oq_done q))). cbn.
              apply Permutation_middle.
            - now apply heap_insert_sorted. }
          assert (Ho1 : ~ In (oq_out q1) (map fst (oq_done q1))).
          { unfold q1. cbn [oq_out oq_done]. intros Hin. apply (Permutation_in _ (Permutation_map fst (heap_insert_perm (k, r) (oq_done q)))) in Hin.
            cbn [map fst] in Hin. destruct Hin as [Hin|Hin]; [exact (Ek Hin)|exact (Ho Hin)]. }
          generalize (IH q1 P Y (C ++ [(j, r)]) x1 HI1 HN Ho1).
          assert (A : forall E', completions (E ++ E') = [(j, r)] ++ completions E')
            by (intros; unfold completions at 1; rewrite flat_map_app; fold (completions E); rewrite Hc; reflexivity).
          destruct (ord_loop _ _ _ n q1 x1) as [x2 [[q2 [|[o|]]]| |]]; intros (E' & G1 & G2 & G3);
            exists (E ++ E'); (split; [exact (ext_trans H1 G1)|split; [apply Forall_app; auto|]]);
            rewrite A; rewrite <- app_assoc in G3; exact G3.
      + destruct H3 as (Hp & -> & ->). exists []. cbn [completions flat_map]. rewrite app_nil_r.
        split; [assumption|split; [constructor|]].
        assert (Hd : oq_done q = []).
        { destruct (oq_done q) as [|[i o] h] eqn:Ed; [reflexivity|exfalso].
          rewrite Hp in Iseq. cbn [map app] in Iseq.
          destruct (Nat.eq_dec (length P) (length Y)) as [Eq|Ne].
          - rewrite Eq, Nat.sub_diag in Iseq. cbn in Iseq. apply Permutation_nil in Iseq. discriminate.
          - apply Ho. rewrite Iout. apply (Permutation_in _ Iseq). rewrite seq_split by lia. now left. }
        split.
        * unfold OI. cbn [oq_prog oq_done oq_in oq_out]. rewrite Hp in *. repeat match goal with |- _ /\ _ => split end; auto.
        * cbn [ordered ordered_drive q_empty oq_prog oq_done]. destruct (oq_done q); [reflexivity|discriminate].
  Qed.

  Lemma ordered_ok q P Y C x : OI q P Y C -> NoDup P ->
    match q_poll (ordered svc sched) q x with
    | (x1, Val (q1, a)) => exists E, ext x x1 E /\ Forall fut_event E /\
        match a with
        | Ready (Some o) => OI q1 P (Y ++ [o]) (C ++ completions E)
        | Ready None => OI q1 P Y (C ++ completions E) /\ q_empty (ordered svc sched) q1 = true
        | Pending => OI q1 P Y (C ++ completions E) /\ q_empty (ordered svc sched) q1 = false /\
                     OP P Y (C ++ completions E)
        end
    | (x1, _) => exists E, ext x x1 E /\ Forall fut_event E /\ OL P Y (C ++ completions E)
    end.
  Proof.
    intros HI HN. cbn [ordered ordered_drive q_poll ord_next]. unfold ord_next.
    destruct (oq_done q) as [|[i o] h] eqn:Ed.
    - apply ord_loop_ok; auto. rewrite Ed. cbn. auto.
    - assert (HI' := HI). destruct HI' as (Iin & Iout & Ilen & Iprog & Idone & Iseq & Iperm & If2 & Isort).
      rewrite Ed in *. destruct (Nat.eqb_spec i (oq_out q)) as [Ei|Ei].
      + exists []. unfold ret. split; [apply ext_nil|split; [constructor|]]. cbn [completions flat_map]. rewrite app_nil_r.
        destruct (Idone i o) as (j & Hj & Hc); [now left|].
        rewrite Iout in Ei. rewrite Iin, Iout. subst i. eapply OI_pop; eauto.
        * intros. apply Idone. now right.
        * rewrite Iseq. cbn. symmetry. apply Permutation_middle.
        * inversion Isort; auto.
      + apply ord_loop_ok; auto. rewrite Ed. cbn [map In fst]. intros [Hin|Hin]; [exact (Ei Hin)|].
        inversion Isort as [|? ? _ Hf]; subst. apply in_map_iff in Hin. destruct Hin as ([i' o'] & He & Hin).
        cbn [fst] in He. subst i'. rewrite Forall_forall in Hf. apply Hf in Hin. cbn [fst] in Hin.
        assert (G : In i (seq (length Y) (length P - length Y))).
        { eapply Permutation_in; [symmetry; exact Iseq|]. apply in_or_app. right. now left. }
        apply in_seq in G. lia.
  Qed.

  Lemma OI_push q P Y C j (f : fut svc) : OI q P Y C -> OI (q_push (ordered svc sched) q (j, f)) (P ++ [j]) Y C.
  Proof.
    intros (Iin & Iout & Ilen & Iprog & Idone & Iseq & Iperm & If2 & Isort). unfold OI. cbn [ordered ordered_drive q_push oq_prog oq_done oq_in oq_out].
    rewrite app_length, !map_app. cbn [length map].
    assert (Nth : forall i a, nth_error P i = Some a -> nth_error (P ++ [j]) i = Some a).
    { intros i a H. rewrite nth_error_app1; [assumption|]. apply nth_error_Some. congruence. }
    repeat match goal with |- _ /\ _ => split end; auto; try lia.
    - intros i a Hin. apply in_app_or in Hin. destruct Hin as [Hin|[Hin|[]]]; [auto|].
      unfold key in Hin. cbn [fst snd] in Hin. assert (Hi : i = length P) by (rewrite <- Iin; congruence). assert (a = j) by congruence. subst a i.
      rewrite nth_error_app2, Nat.sub_diag by lia. reflexivity.
    - intros i o Hin. destruct (Idone _ _ Hin) as (a & Ha & Hc). eauto.
    - replace (length P + 1 - length Y) with (length P - length Y + 1) by lia. rewrite seq_app. cbn [seq].
      replace (length Y + (length P - length Y)) with (oq_in q) by lia. rewrite Iseq.
      rewrite <- !app_assoc. apply Permutation_app_head. symmetry. apply (Permutation_cons_append (map fst (oq_done q))).
    - rewrite Iperm. rewrite <- !app_assoc. apply Permutation_app_head. symmetry. apply Permutation_cons_append.
    - rewrite firstn_app. replace (length Y - length P) with 0 by lia. cbn. now rewrite app_nil_r.
  Qed.
  Lemma UI_push q P Y C j (f : fut svc) : UI q P Y C -> UI (q_push (unordered svc sched) q (j, f)) (P ++ [j]) Y C.
  Proof.
    intros [H1 H2]. split; [|assumption]. cbn. rewrite map_app. cbn. rewrite H1, <- !app_assoc.
    apply Permutation_app_head. symmetry. apply Permutation_cons_append.
  Qed.
  Lemma OI_empty q P Y C : OI q P Y C -> q_empty (ordered svc sched) q = true -> length Y = length P.
  Proof.
    intros (Iin & Iout & Ilen & Iprog & Idone & Iseq & Iperm & If2 & Isort). cbn [ordered ordered_drive q_empty].
    destruct (oq_prog q), (oq_done q); try discriminate. intros _. cbn in Iseq.
    apply Permutation_length in Iseq. rewrite seq_length in Iseq. cbn in Iseq. lia.
  Qed.
  Lemma UI_empty q P Y C : UI q P Y C -> q_empty (unordered svc sched) q = true -> length Y = length P.
  Proof.
    intros [H1 H2]. cbn. destruct q; [|discriminate]. intros _. cbn in H1. apply Permutation_length in H1.
    rewrite H2, H1, !map_length. reflexivity.
  Qed.
  Lemma OI_full q P Y C : OI q P Y C -> q_empty (ordered svc sched) q = false -> length Y < length P.
  Proof.
    intros (Iin & Iout & Ilen & Iprog & Idone & Iseq & Iperm & If2 & Isort). cbn [ordered ordered_drive q_empty].
    intros He. apply Permutation_length in Iseq. rewrite seq_length, app_length, !map_length in Iseq.
    destruct (oq_prog q), (oq_done q); try discriminate; cbn in Iseq; lia.
  Qed.
  Lemma UI_full q P Y C : UI q P Y C -> q_empty (unordered svc sched) q = false -> length Y < length P.
  Proof.
    intros [H1 H2]. cbn. destruct q; [discriminate|]. intros _. apply Permutation_length in H1.
    rewrite H2, H1, app_length, !map_length. cbn. lia.
  Qed.
End Q.
