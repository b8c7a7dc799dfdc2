(** Varint lemmas. *)
From Coq Require Import NArith List Bool Arith Lia ZifyBool ZifyNat ZifyN.
From Verif Require Import KeyModel HeaderModel PostcardModel.
Import ListNotations.
Local Open Scope N_scope.

Lemma lor_128 b : b < 256 -> 128 <= N.lor b 128 < 256 /\ N.lor b 128 mod 128 = b mod 128.
Proof.
  intros H.
  assert (A : N.ldiff b 128 < 256 /\ N.lor b 128 = N.ldiff b 128 + 128 /\ N.ldiff b 128 = b mod 128).
  { assert (E : N.ldiff b 128 = b mod 128).
    { apply N.bits_inj. intros i. rewrite N.ldiff_spec.
      destruct (N.eq_dec i 7) as [->|Ni].
      - change 128 with (2^7). rewrite N.pow2_bits_true, andb_false_r. symmetry. apply N.mod_pow2_bits_high. lia.
      - change 128 with (2^7). rewrite N.pow2_bits_false by auto. cbn [negb]. rewrite andb_true_r.
        destruct (N.lt_ge_cases i 7).
        + symmetry. now apply N.mod_pow2_bits_low.
        + rewrite N.mod_pow2_bits_high by lia.
          destruct (N.eq_dec b 0) as [->|Nb]; [apply N.bits_0|].
          apply N.bits_above_log2. assert (N.log2 b < 8); [|lia].
          apply N.log2_lt_pow2; lia. }
    rewrite E. pose proof (N.mod_lt b 128 ltac:(discriminate)). split; [lia|]. split; auto.
    rewrite <- E. symmetry. rewrite N.add_nocarry_lxor.
    - rewrite N.lxor_lor.
      + apply N.bits_inj. intros i. rewrite !N.lor_spec, N.ldiff_spec.
        destruct (N.testbit b i), (N.testbit 128 i); reflexivity.
      + apply N.bits_inj. intros i. rewrite N.land_spec, N.ldiff_spec, N.bits_0.
        destruct (N.testbit b i), (N.testbit 128 i); reflexivity.
    - apply N.bits_inj. intros i. rewrite N.land_spec, N.ldiff_spec, N.bits_0.
      destruct (N.testbit b i), (N.testbit 128 i); reflexivity. }
  destruct A as (A & B & C). rewrite B, C. pose proof (N.mod_lt b 128 ltac:(discriminate)).
  split; [lia|]. rewrite N.add_mod, N.mod_mod by discriminate. change (128 mod 128) with 0.
  rewrite N.add_0_r, N.mod_mod; [reflexivity|discriminate].
Qed.

Lemma varint_dec_enc k : forall i last v r, last < 128 ->
  v < 128 ^ N.of_nat k * (last + 1) ->
  varint_dec (S k) i last (varint_enc (S k) v ++ r) = Some (v * 2 ^ (7 * i), r).
Proof.
  induction k as [|k IH]; intros i last v r HL Hv.
  - cbn [N.of_nat] in Hv. rewrite N.pow_0_r in Hv. cbn [varint_enc].
    destruct (N.ltb_spec v 128); [|lia]. rewrite (N.mod_small v 256) by lia.
    cbn [app varint_dec]. destruct (N.ltb_spec v 128); [|lia].
    destruct (N.ltb_spec last v); [lia|]. now rewrite N.mod_small by lia.
  - change (varint_enc (S (S k)) v) with
      (if v <? 128 then [v mod 256] else N.lor (v mod 256) 128 :: varint_enc (S k) (v / 128)).
    destruct (N.ltb_spec v 128).
    + rewrite (N.mod_small v 256) by lia. cbn [app varint_dec]. destruct (N.ltb_spec v 128); [|lia].
      now rewrite N.mod_small by lia.
    + destruct (lor_128 (v mod 256)) as [Hb Hm]; [apply N.mod_lt; discriminate|].
      set (b := N.lor _ _) in *. clearbody b.
      cbn [app]. change (varint_dec (S (S k)) i last (b :: varint_enc (S k) (v / 128) ++ r)) with
        (let carry := (b mod 128) * 2 ^ (7 * i) in
         if b <? 128 then Some (carry, varint_enc (S k) (v / 128) ++ r)
         else match varint_dec (S k) (i + 1) last (varint_enc (S k) (v / 128) ++ r) with
              | Some (v, r) => Some (carry + v, r) | None => None end).
      cbv zeta. destruct (N.ltb_spec b 128); [lia|].
      rewrite IH; auto.
      * f_equal. f_equal. rewrite Hm.
        replace (v mod 256 mod 128) with (v mod 128).
        2: { rewrite (N.div_mod v 256) at 1 by discriminate.
             replace (256 * (v / 256) + v mod 256) with (v mod 256 + (2 * (v / 256)) * 128) by lia.
             rewrite N.mod_add by discriminate. reflexivity. }
        replace (7 * (i + 1)) with (7 + 7 * i) by lia. rewrite N.pow_add_r. change (2 ^ 7) with 128.
        rewrite (N.div_mod v 128) at 3 by discriminate. lia.
      * apply N.div_lt_upper_bound; [discriminate|].
        replace (N.of_nat (S k)) with (1 + N.of_nat k) in Hv by lia.
        rewrite N.pow_add_r in Hv. change (128 ^ 1) with 128 in Hv. lia.
Qed.

Lemma take_u32_enc v r : v < 4294967296 -> take_u32 (u32_varint v ++ r) = Some (v, r).
Proof. intros H. unfold take_u32, u32_varint. rewrite varint_dec_enc; [f_equal; f_equal; lia|lia|cbn; lia]. Qed.
Lemma take_u64_enc v r : v < 18446744073709551616 -> take_u64 (u64_varint v ++ r) = Some (v, r).
Proof. intros H. unfold take_u64, u64_varint. rewrite varint_dec_enc; [f_equal; f_equal; lia|lia|cbn; lia]. Qed.

Lemma from_bytes_u32_enc v r : v < 4294967296 -> from_bytes_u32 (u32_varint v ++ r) = Some v.
Proof. intros H. unfold from_bytes_u32. now rewrite take_u32_enc. Qed.

Lemma varint_enc_len k v : (0 < k)%nat -> (1 <= length (varint_enc k v) <= k)%nat.
Proof.
  revert v. induction k as [|k IH]; intros v H; [lia|]. cbn [varint_enc].
  destruct (v <? 128); cbn [length]; [lia|]. destruct k; [cbn; lia|]. specialize (IH (v / 128) ltac:(lia)). lia.
Qed.
Lemma varint_enc_bytes k v : Forall byte_ok (varint_enc k v).
Proof.
  revert v. induction k as [|k IH]; intros v; cbn [varint_enc]; [constructor|].
  destruct (v <? 128).
  - constructor; [apply N.mod_lt; discriminate|constructor].
  - constructor; [|apply IH]. apply lor_128. apply N.mod_lt; discriminate.
Qed.
