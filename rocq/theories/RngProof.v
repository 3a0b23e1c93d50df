From Verif Require Import Base ReadyCache RngSpec.
Set Implicit Arguments.
Local Open Scope Z_scope.

Section P.
  Context {W R : Type} (next : R -> M W (R * Z)) (debug : bool).

  Lemma next_range_value g w u g1 w1 lo hi :
    0 <= lo < hi -> hi < 2 ^ 64 -> generates next g w [u] g1 w1 ->
    next_range next debug g lo hi w = (w1, Val (g1, lo + u mod (hi - lo))) /\
    lo <= lo + u mod (hi - lo) < hi.
  Proof.
    intros H H2 G. inversion G as [|? ? ? ? ? ? ? ? E B G']; subst. inversion G'; subst.
    assert (X := Z.mod_pos_bound u (hi - lo) ltac:(lia)).
    split; [|lia]. unfold next_range.
    replace (lo <? hi) with true by (symmetry; apply Z.ltb_lt; lia).
    rewrite andb_false_r. cbn zeta. unfold bind. rewrite E. unfold u64_mod.
    rewrite (Z.mod_small (hi - lo)) by lia.
    replace (hi - lo =? 0) with false by (symmetry; apply Z.eqb_neq; lia).
    unfold ret. rewrite (Z.mod_small (u mod (hi - lo) + lo)) by lia. rewrite (Z.add_comm lo). reflexivity.
  Qed.

  (** Every value of the range is produced for some output of the generator. *)
  Lemma next_range_covers g w lo hi n :
    0 <= lo < hi -> hi < 2 ^ 64 -> lo <= n < hi ->
    exists u, 0 <= u < 2 ^ 64 /\
      forall g1 w1, generates next g w [u] g1 w1 -> next_range next debug g lo hi w = (w1, Val (g1, n)).
  Proof.
    intros H H2 H3. exists (n - lo). split; [lia|]. intros g1 w1 G.
    destruct (next_range_value H H2 G) as [E _]. rewrite E, Z.mod_small by lia. replace (lo + (n - lo)) with n by lia. reflexivity.
  Qed.

  Lemma sample_value g w u v g2 w2 len :
    2 <= len < 2 ^ 64 -> generates next g w [u; v] g2 w2 ->
    sample_floyd2 next debug g len w =
      (w2, Val (g2, (if u mod (len - 1) =? v mod len then len - 1 else u mod (len - 1), v mod len))).
  Proof.
    intros H G. inversion G as [|? ? ? ? ? ? ? ? E B G']; subst.
    inversion G' as [|? ? ? ? ? ? ? ? E' B' G'']; subst. inversion G''; subst.
    unfold sample_floyd2. replace (2 <=? len) with true by (symmetry; apply Z.leb_le; lia).
    rewrite andb_false_r. unfold u64_mod. rewrite (Z.mod_small (len - 1)) by lia.
    assert (G1 : generates next g w [u] g1 w1) by (econstructor; [exact E|exact B|constructor]).
    destruct (@next_range_value g w u g1 w1 0 (len - 1) ltac:(lia) ltac:(lia) G1) as [E1 _].
    destruct (@next_range_value g1 w1 v g2 w2 0 len ltac:(lia) ltac:(lia) G') as [E2 _].
    unfold bind. rewrite E1. cbv beta iota. rewrite E2. cbv beta iota. rewrite !Z.add_0_l, !Z.sub_0_r. reflexivity.
  Qed.

  Lemma sample_distinct g w u v g2 w2 len :
    2 <= len < 2 ^ 64 -> generates next g w [u; v] g2 w2 ->
    exists a b, sample_floyd2 next debug g len w = (w2, Val (g2, (a, b))) /\
      0 <= a < len /\ 0 <= b < len /\ a <> b.
  Proof.
    intros H G. rewrite (sample_value H G). eexists _, _. split; [reflexivity|].
    assert (A := Z.mod_pos_bound u (len - 1) ltac:(lia)). assert (B := Z.mod_pos_bound v len ltac:(lia)).
    destruct (Z.eqb_spec (u mod (len - 1)) (v mod len)); lia.
  Qed.

  (** Exactly one pair of residues leads to each ordered pair of distinct
      indices: no pair is favoured or missed. *)
  Lemma sample_bijective len a b :
    2 <= len < 2 ^ 64 -> 0 <= a < len -> 0 <= b < len -> a <> b ->
    exists x y, (0 <= x < len - 1 /\ 0 <= y < len) /\
      forall g w u v g2 w2, generates next g w [u; v] g2 w2 ->
        (sample_floyd2 next debug g len w = (w2, Val (g2, (a, b))) <->
         u mod (len - 1) = x /\ v mod len = y).
  Proof.
    intros H Ha Hb Hab. exists (if a =? len - 1 then b else a), b.
    split; [destruct (Z.eqb_spec a (len - 1)); lia|]. intros g w u v g2 w2 G. rewrite (sample_value H G).
    assert (A := Z.mod_pos_bound u (len - 1) ltac:(lia)). assert (B := Z.mod_pos_bound v len ltac:(lia)).
    split.
    - destruct (Z.eqb_spec (u mod (len - 1)) (v mod len)) as [E0|E0]; intros E; injection E as E1 E2;
        destruct (Z.eqb_spec a (len - 1)); lia.
    - intros [E1 E2]. rewrite E1, E2.
      destruct (Z.eqb_spec a (len - 1)); [rewrite Z.eqb_refl; subst; reflexivity|].
      destruct (Z.eqb_spec a b); [congruence|reflexivity].
  Qed.

  (** [next_f64] is this integer times 2^-53, exactly: in [0, 1). *)
  Lemma f64_range u : 0 <= u < 2 ^ 64 -> 0 <= next_f64_num u < 2 ^ 53.
  Proof.
    intros H. unfold next_f64_num. rewrite Z.shiftr_div_pow2 by lia. split; [apply Z.div_pos; lia|].
    apply Z.div_lt_upper_bound; lia.
  Qed.

End P.

Section L.
  Local Open Scope nat_scope.
  Context {W X E : Type} (xdrop : X -> W -> W).
  Lemma service_list_from (l : list X) (w : W) : forall n i,
    disc_answers (@service_list W X E xdrop) n (i, l) w =
    map (fun m => Val (Ready (match nth_error l m with Some s => Some (Ok (Insert (i + m) s)) | None => None end))) (seq 0 n).
  Proof.
    induction l as [|s l IH].
    - induction n as [|n IH]; intros i; [reflexivity|]. cbn [disc_answers]. cbn [service_list poll_discover snd ret].
      rewrite IH. cbn [seq map nth_error]. f_equal. rewrite <- seq_shift, map_map. apply map_ext. intros m. destruct m; reflexivity.
    - intros [|n] i; [reflexivity|]. cbn [disc_answers]. cbn [service_list poll_discover snd fst ret].
      rewrite IH. cbn [seq map nth_error]. rewrite Nat.add_0_r. f_equal. rewrite <- seq_shift, map_map. apply map_ext.
      intros m. cbn [nth_error]. rewrite <- plus_n_Sm. reflexivity.
  Qed.
  Lemma service_list_announces (l : list X) (w : W) n :
    disc_answers (@service_list W X E xdrop) n (service_list_new l) w =
    map (fun m => Val (Ready (match nth_error l m with Some s => Some (Ok (Insert m s)) | None => None end))) (seq 0 n).
  Proof. apply service_list_from. Qed.
End L.
