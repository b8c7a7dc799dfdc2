(** Lemmas about the workbook's lights (StripModel.v, StripSpec.v). *)
From Coq Require Import NArith List Bool Arith Lia.
From Verif Require Import WorkbookModel StripModel StripSpec.
Import ListNotations.

Definition bit_wave (b : bool) : list bool := [false; false; false; true; true] ++ repeat b 5.
Definition bits_of (k : nat) (w : N) : list bool := map (fun j => N.testbit w (N.of_nat (31 - j))) (seq 0 k).

Lemma shl32_bit w j : 1 <= j <= 31 -> N.testbit (shl32 w 1) (N.of_nat j) = N.testbit w (N.of_nat (j - 1)).
Proof.
  intros H. unfold shl32. rewrite N.mod_pow2_bits_low by lia. rewrite N.shiftl_spec_high' by lia. f_equal. lia.
Qed.

Lemma sm_bit f x w c : c < 24 ->
  fst (sm_run (3 + f) (MkSm 0 x w c)) = bit_wave (N.testbit w 31) ++ fst (sm_run f (MkSm 0 (N.testbit w 31) (shl32 w 1) (S c))).
Proof.
  intros H. assert (E : 24 <=? c = false) by (apply Nat.leb_gt; lia).
  cbn [plus]. cbn [sm_run sm_pc sm_count Nat.eqb andb]. rewrite E. cbn [sm_step sm_pc nth_error pio_program i_op i_side i_delay next_pc Nat.eqb].
  cbn [sm_run sm_pc sm_count Nat.eqb andb sm_step nth_error pio_program i_op i_side i_delay next_pc sm_x sm_osr].
  destruct (N.testbit w 31);
    cbn [sm_run sm_pc sm_count Nat.eqb andb sm_step nth_error pio_program i_op i_side i_delay next_pc sm_x sm_osr];
    match goal with |- context [sm_run f ?s] => destruct (sm_run f s) as [l s'] end; reflexivity.
Qed.

Lemma sm_bits k : forall f x w c, c + k = 24 ->
  fst (sm_run (3 * k + f) (MkSm 0 x w c)) = flat_map bit_wave (bits_of k w).
Proof.
  induction k as [|k IH]; intros f x w c H.
  - destruct f as [|f]; [reflexivity|]. replace c with 24 by lia. reflexivity.
  - replace (3 * S k + f) with (3 + (3 * k + f)) by lia. rewrite sm_bit by lia. rewrite IH by lia.
    unfold bits_of. cbn [seq map flat_map]. f_equal. f_equal. rewrite <- seq_shift, map_map.
    apply map_ext_in. intros j Hj. apply in_seq in Hj. rewrite shl32_bit by lia. f_equal. lia.
Qed.
Lemma word_levels_eq w : word_levels w = flat_map bit_wave (bits_of 24 w).
Proof. unfold word_levels. change 100 with (3 * 24 + 28). now apply sm_bits. Qed.

(** ** The bits of a colour *)
Definition byte_bits (b : N) : list bool := map (fun j => N.testbit b (N.of_nat (7 - j))) (seq 0 8).
Definition colour_bits (c : Rgb8) : list bool := byte_bits (green c) ++ byte_bits (red c) ++ byte_bits (blue c).
Definition rgb_ok (c : Rgb8) : Prop := (red c < 256 /\ green c < 256 /\ blue c < 256)%N.

Lemma byte_high b i : (b < 256)%N -> 8 <= i -> N.testbit b (N.of_nat i) = false.
Proof.
  intros H Hi. destruct (N.eq_dec b 0) as [->|Ne]; [apply N.bits_0|]. apply N.bits_above_log2.
  apply N.log2_lt_pow2; [lia|]. apply N.lt_le_trans with (1 := H). change 256%N with (2 ^ 8)%N. apply N.pow_le_mono_r; lia.
Qed.
Lemma shl_bit x k i : i < 32 -> N.testbit (shl32 x (N.of_nat k)) (N.of_nat i) = if k <=? i then N.testbit x (N.of_nat (i - k)) else false.
Proof.
  intros H. unfold shl32. rewrite N.mod_pow2_bits_low by lia. destruct (k <=? i) eqn:E.
  - apply Nat.leb_le in E. rewrite N.shiftl_spec_high' by lia. f_equal. lia.
  - apply Nat.leb_gt in E. apply N.shiftl_spec_low. lia.
Qed.
Lemma word_bits c : rgb_ok c -> bits_of 24 (word_of c) = colour_bits c.
Proof.
  intros (R & G & B). unfold bits_of, colour_bits, byte_bits, word_of.
  assert (E : forall i, i < 32 -> N.testbit (N.lor (N.lor (shl32 (green c) 24) (shl32 (red c) 16)) (shl32 (blue c) 8)) (N.of_nat i) =
    orb (orb (if 24 <=? i then N.testbit (green c) (N.of_nat (i - 24)) else false) (if 16 <=? i then N.testbit (red c) (N.of_nat (i - 16)) else false))
        (if 8 <=? i then N.testbit (blue c) (N.of_nat (i - 8)) else false)).
  { intros i Hi. rewrite !N.lor_spec. change 24%N with (N.of_nat 24). change 16%N with (N.of_nat 16). change 8%N with (N.of_nat 8).
    rewrite !shl_bit by exact Hi. reflexivity. }
  pose proof (fun i => byte_high (green c) i G) as Hg. pose proof (fun i => byte_high (red c) i R) as Hr. pose proof (fun i => byte_high (blue c) i B) as Hb.
  cbn [seq map app]. rewrite !E by lia. cbn [Nat.leb Nat.sub].
  rewrite ?Hg, ?Hr, ?Hb by lia. rewrite ?orb_false_r, ?orb_false_l. reflexivity.
Qed.

Lemma byte_number b : (b < 256)%N -> number (byte_bits b) = b.
Proof.
  intros H. assert (E : forallb (fun b => N.eqb (number (byte_bits b)) b) (map N.of_nat (seq 0 256)) = true) by (vm_compute; reflexivity).
  rewrite forallb_forall in E. apply N.eqb_eq, E. apply in_map_iff. exists (N.to_nat b). split; [apply N2Nat.id|]. apply in_seq. lia.
Qed.
Lemma colour_bits_length c : length (colour_bits c) = 24.
Proof. reflexivity. Qed.

Lemma light_ok cs : Forall rgb_ok cs -> forall i rest c, nth_error cs i = Some c -> light i (flat_map colour_bits cs ++ rest) = c.
Proof.
  induction 1 as [|x cs Hx _ IH]; intros i rest c E; [destruct i; discriminate|].
  destruct i as [|i]; cbn [nth_error] in E.
  - injection E as ->. destruct Hx as (R & G & B). cbn [flat_map]. unfold light.
    change (24 * 0 + 8 * 0) with 0. change (24 * 0 + 8 * 1) with 8. change (24 * 0 + 8 * 2) with 16.
    unfold colour_bits, byte_bits. cbn [seq map app skipn firstn]. destruct c as [r g b]. cbn [red green blue] in *. f_equal.
    + exact (byte_number r R).
    + exact (byte_number g G).
    + exact (byte_number b B).
  - rewrite <- (IH i rest c E). cbn [flat_map]. unfold light.
    assert (Sk : forall k, skipn (24 * S i + 8 * k) ((colour_bits x ++ flat_map colour_bits cs) ++ rest) = skipn (24 * i + 8 * k) (flat_map colour_bits cs ++ rest)).
    { intros k. rewrite <- app_assoc. replace (24 * S i + 8 * k) with (24 + (24 * i + 8 * k)) by lia. reflexivity. }
    rewrite !Sk. reflexivity.
Qed.
Lemma strip_shows_ok cs rest : Forall rgb_ok cs -> strip_shows (length cs) (flat_map colour_bits cs ++ rest) = cs.
Proof.
  intros F. unfold strip_shows. apply nth_ext with (d := light 0 (flat_map colour_bits cs ++ rest)) (d' := black).
  - rewrite map_length, seq_length. reflexivity.
  - intros n Hn. rewrite map_length, seq_length in Hn.
    rewrite (map_nth (fun i => light i (flat_map colour_bits cs ++ rest)) (seq 0 (length cs)) 0 n), seq_nth by exact Hn.
    apply light_ok; [exact F|]. apply nth_error_nth'. exact Hn.
Qed.

(** ** What the lights hear *)
Lemma last_cons {A} (l : list A) : forall x d, last (x :: l) d = last l x.
Proof. induction l as [|y l IH]; intros x d; [reflexivity|]. change (last (x :: y :: l) d) with (last (y :: l) d). rewrite !IH. reflexivity. Qed.

Section Hear.
  Variable reset : nat.
  Hypothesis Hreset : 8 < reset.
  Notation heard := (fold_left (fun e l => hear reset l e)).

  (** After a bit [b]: the pulse of a 1 is not over yet. *)
  Definition after (b : bool) (bits : list bool) (done : list (list bool)) : Ear :=
    if b then MkEar 0 7 bits done else MkEar 5 0 (bits ++ [false]) done.
  Definition so_far (b : bool) : nat := if b then 0 else 5.

  Lemma heard_lows n : forall low bits done, heard (repeat false n) (MkEar low 0 bits done) = MkEar (n + low) 0 bits done.
  Proof.
    induction n as [|n IH]; intros low bits done; [reflexivity|]. cbn [repeat fold_left]. unfold hear at 2. cbn [e_high e_low e_bits e_done Nat.eqb].
    rewrite IH. f_equal. lia.
  Qed.
  Lemma after_lows n b bits done : 0 < n -> heard (repeat false n) (after b bits done) = MkEar (n + so_far b) 0 (bits ++ [b]) done.
  Proof.
    intros H. destruct b; unfold after, so_far.
    - destruct n as [|n]; [lia|]. cbn [repeat fold_left]. unfold hear at 2. cbn [e_high e_low e_bits e_done Nat.eqb].
      rewrite heard_lows. change (4 <=? 7) with true. f_equal. lia.
    - apply heard_lows.
  Qed.
  Lemma heard_highs n : forall high bits done, heard (repeat true n) (MkEar 0 high bits done) = MkEar 0 (n + high) bits done.
  Proof.
    assert (Z : reset <=? 0 = false) by (apply Nat.leb_gt; lia).
    induction n as [|n IH]; intros high bits done; [reflexivity|]. cbn [repeat fold_left]. unfold hear at 2. cbn [e_high e_low e_bits e_done].
    rewrite Z. cbn [andb]. rewrite IH. f_equal. lia.
  Qed.
  Lemma high_part low b bits done : heard ([true; true] ++ repeat b 5) (MkEar low 0 bits done) =
    if (reset <=? low) && negb (length bits =? 0) then after b [] (done ++ [bits]) else after b bits done.
  Proof.
    assert (E : forall bits done, heard ([true] ++ repeat b 5) (MkEar 0 1 bits done) = after b bits done).
    { intros bits0 done0. rewrite fold_left_app. change [true] with (repeat true 1). rewrite heard_highs. destruct b.
      - rewrite heard_highs. reflexivity.
      - cbn [repeat fold_left]. unfold hear at 5. cbn [e_high e_low e_bits e_done Nat.eqb plus Nat.leb].
        exact (heard_lows 4 1 (bits0 ++ [false]) done0). }
    change ([true; true] ++ repeat b 5) with (true :: ([true] ++ repeat b 5)). cbn [fold_left]. unfold hear at 2. cbn [e_high e_low e_bits e_done].
    destruct ((reset <=? low) && negb (length bits =? 0)); apply E.
  Qed.
  (** A bit after a pause. *)
  Lemma heard_bit gap b b' bits done :
    heard (repeat false gap ++ bit_wave b') (after b bits done) =
    if reset <=? gap + 3 + so_far b then after b' [] (done ++ [bits ++ [b]]) else after b' (bits ++ [b]) done.
  Proof.
    unfold bit_wave. change ([false; false; false; true; true] ++ repeat b' 5) with (repeat false 3 ++ ([true; true] ++ repeat b' 5)).
    rewrite app_assoc, <- repeat_app, fold_left_app, after_lows by lia. rewrite high_part.
    replace (length (bits ++ [b]) =? 0) with false by (rewrite app_length; cbn; symmetry; apply Nat.eqb_neq; lia). rewrite andb_true_r. reflexivity.
  Qed.
  Lemma heard_first gap b' : heard (repeat false gap ++ bit_wave b') (MkEar 0 0 [] []) = after b' [] [].
  Proof.
    unfold bit_wave. change ([false; false; false; true; true] ++ repeat b' 5) with (repeat false 3 ++ ([true; true] ++ repeat b' 5)).
    rewrite app_assoc, <- repeat_app, fold_left_app, heard_lows, high_part. cbn [length Nat.eqb negb]. rewrite andb_false_r. reflexivity.
  Qed.
  Lemma heard_bits bs : forall b bits done,
    heard (flat_map bit_wave bs) (after b bits done) = after (last bs b) (bits ++ removelast (b :: bs)) done.
  Proof.
    induction bs as [|x bs IH]; intros b bits done; [cbn; rewrite app_nil_r; reflexivity|].
    cbn [flat_map]. rewrite fold_left_app. pose proof (heard_bit 0 b x bits done) as E. cbn [repeat app] in E.
    replace (reset <=? 0 + 3 + so_far b) with false in E by (symmetry; apply Nat.leb_gt; destruct b; cbn; lia).
    rewrite E, IH, <- app_assoc, last_cons. reflexivity.
  Qed.
  (** What a whole message is. *)
  Lemma finish b bits done : let e := after b bits done in
    e_done e ++ [e_bits e ++ if e_high e =? 0 then [] else [4 <=? e_high e]] = done ++ [bits ++ [b]].
  Proof. destruct b; cbn; rewrite ?app_nil_r; reflexivity. Qed.
End Hear.
