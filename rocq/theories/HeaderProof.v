(** Lemmas about the header codec. *)
From Coq Require Import NArith ZArith List Bool Arith Lia ZifyBool ZifyNat ZifyN.
From Verif Require Import KeyModel HeaderModel KeySpec HeaderSpec KeyProof.
Import ListNotations.
Ltac Zify.zify_post_hook ::= Z.div_mod_to_equations.

(** A decidable fact about bytes may be checked on all 256 of them. *)
Lemma byte_forall (f : N -> bool) :
  forallb f (map N.of_nat (seq 0 256)) = true -> forall d, (d < 256)%N -> f d = true.
Proof.
  intros H d Hd. rewrite forallb_forall in H. apply H.
  apply in_map_iff. exists (N.to_nat d). split; [lia|]. apply in_seq. lia.
Qed.

Lemma land_ver d : (d < 256)%N -> N.land d VER_MASK_BITS = (d mod 16)%N.
Proof.
  intros H. apply N.eqb_eq.
  apply (byte_forall (fun d => N.land d VER_MASK_BITS =? (d mod 16))%N); auto.
Qed.
Lemma land_key d : (d < 256)%N -> N.land d KEY_MASK_BITS = (64 * (d / 64))%N.
Proof.
  intros H. apply N.eqb_eq.
  apply (byte_forall (fun d => N.land d KEY_MASK_BITS =? (64 * (d / 64)))%N); auto.
Qed.
Lemma land_seq d : (d < 256)%N -> N.land d SEQ_MASK_BITS = (16 * ((d / 16) mod 4))%N.
Proof.
  intros H. apply N.eqb_eq.
  apply (byte_forall (fun d => N.land d SEQ_MASK_BITS =? (16 * ((d / 16) mod 4)))%N); auto.
Qed.

Lemma u16_le_ok v : (v < 65536)%N -> Forall byte_ok (u16_to_le v) /\ le_value (u16_to_le v) = v.
Proof.
  intros H. unfold u16_to_le, byte_ok, le_value. split; [repeat constructor|]; lia.
Qed.
Lemma u32_le_ok v : (v < 4294967296)%N -> Forall byte_ok (u32_to_le v) /\ le_value (u32_to_le v) = v.
Proof.
  intros H. unfold u32_to_le, byte_ok, le_value. split; [repeat constructor|]; lia.
Qed.

Lemma u16_from_to v : (v < 65536)%N -> u16_from_le (v mod 256) ((v / 256) mod 256) = v.
Proof. unfold u16_from_le. intros. lia. Qed.
Lemma u32_from_to v : (v < 4294967296)%N ->
  u32_from_le (v mod 256) ((v / 256) mod 256) ((v / 65536) mod 256) ((v / 16777216) mod 256) = v.
Proof. unfold u32_from_le. intros. lia. Qed.
Lemma u16_to_from a b : byte_ok a -> byte_ok b -> u16_to_le (u16_from_le a b) = [a; b].
Proof. unfold u16_to_le, u16_from_le, byte_ok. intros. repeat f_equal; lia. Qed.
Lemma u32_to_from a b c d : byte_ok a -> byte_ok b -> byte_ok c -> byte_ok d ->
  u32_to_le (u32_from_le a b c d) = [a; b; c; d].
Proof. unfold u32_to_le, u32_from_le, byte_ok. intros. repeat f_equal; lia. Qed.

(** The sequence-number bytes. *)
Definition seq_bytes (s : VarSeq) : list N :=
  match s with Seq1 v => [v] | Seq2 v => u16_to_le v | Seq4 v => u32_to_le v end.

Definition disc_byte (h : VarHeader) : N :=
  (64 * key_code (hdr_key h) + 16 * seq_code (hdr_seq h))%N.

Lemma write_to_vec_eq h :
  write_to_vec h = disc_byte h :: varkey_bytes (hdr_key h) ++ seq_bytes (hdr_seq h).
Proof.
  destruct h as [k s]. destruct k as [[]|[]|[]|[]], s; reflexivity.
Qed.

Lemma seq_bytes_ok s : seq_ok s ->
  length (seq_bytes s) = slen s /\ Forall byte_ok (seq_bytes s) /\ le_value (seq_bytes s) = seq_value s.
Proof.
  destruct s as [v|v|v]; cbn [seq_ok seq_bytes slen seq_value]; intros H.
  - split; [reflexivity|]. split; [repeat constructor; exact H|]. cbn [le_value]. lia.
  - split; [reflexivity|]. apply u16_le_ok; auto.
  - split; [reflexivity|]. apply u32_le_ok; auto.
Qed.

Lemma seq_bytes_len s : length (seq_bytes s) = slen s.
Proof. destruct s; reflexivity. Qed.

Lemma write_to_vec_layout h : header_ok h -> is_encoding h (write_to_vec h).
Proof.
  intros [_ Hs]. exists (seq_bytes (hdr_seq h)).
  destruct (seq_bytes_ok _ Hs) as (?&?&?).
  split; [apply write_to_vec_eq|auto].
Qed.

Lemma write_to_vec_len h : length (write_to_vec h) = header_len h.
Proof.
  rewrite write_to_vec_eq. simpl. rewrite app_length, seq_bytes_len. reflexivity.
Qed.

Lemma disc_byte_lt h : (disc_byte h < 256)%N.
Proof. destruct h as [k s]; destruct k, s; unfold disc_byte; simpl; lia. Qed.

(** Little-endian strings of equal length and value are equal. *)
Lemma le_value_inj l1 : forall l2, length l1 = length l2 ->
  Forall byte_ok l1 -> Forall byte_ok l2 -> le_value l1 = le_value l2 -> l1 = l2.
Proof.
  induction l1; destruct l2; cbn [le_value length]; intros HL H1 H2 HV; try discriminate; auto.
  inversion H1; inversion H2; subst. unfold byte_ok in *.
  assert (a = n) by lia. subst. f_equal. apply IHl1; auto; lia.
Qed.

Lemma is_encoding_unique h l : header_ok h -> is_encoding h l -> l = write_to_vec h.
Proof.
  intros Hok (sb & -> & Hlen & Hb & Hv).
  rewrite write_to_vec_eq. unfold disc_byte. do 2 f_equal.
  destruct Hok as [_ Hs]. destruct (seq_bytes_ok _ Hs) as (?&?&?).
  apply le_value_inj; auto; congruence.
Qed.

Lemma write_to_slice_eq h buf :
  write_to_slice h buf =
  if Nat.leb (header_len h) (length buf)
  then Some (write_to_vec h, skipn (header_len h) buf) else None.
Proof.
  destruct h as [k s].
  destruct k as [[]|[]|[]|[]], s as [v|v|v];
    unfold header_len, vlen; cbn [hdr_key hdr_seq varkey_bytes k1_bytes k2_bytes k4_bytes k8_bytes length slen];
    unfold write_to_slice, split_at_checked;
    do 14 (destruct buf as [|? buf]; [reflexivity|]); reflexivity.
Qed.

(** Powers of two at the four codes. *)
Ltac pow_norm := change (2 ^ N.to_nat 0) with 1 in *; change (2 ^ N.to_nat 1) with 2 in *;
  change (2 ^ N.to_nat 2) with 4 in *; change (2 ^ N.to_nat 3) with 8 in *.

(** Analysis of the acceptance set. *)
Lemma forall_firstn_skipn n (l : list N) :
  Forall byte_ok l -> Forall byte_ok (firstn n l) /\ Forall byte_ok (skipn n l).
Proof.
  intros H. rewrite <- (firstn_skipn n l) in H. apply Forall_app in H. exact H.
Qed.

Definition take_key (code : N) (remain : list N) : option (VarKey * list N) :=
  match code, remain with
  | 0, a :: r => Some (VKey1 (K1 a), r)
  | 1, a :: b :: r => Some (VKey2 (K2 a b), r)
  | 2, a :: b :: c :: d :: r => Some (VKey4 (K4 a b c d), r)
  | 3, a :: b :: c :: d :: e :: f :: g :: h :: r => Some (VKey8 (K8 a b c d e f g h), r)
  | _, _ => None
  end%N.

Definition take_seq (code : N) (remain : list N) : option (VarSeq * list N) :=
  match code, remain with
  | 0, a :: r => Some (Seq1 a, r)
  | 1, a :: b :: r => Some (Seq2 (u16_from_le a b), r)
  | 2, a :: b :: c :: d :: r => Some (Seq4 (u32_from_le a b c d), r)
  | _, _ => None
  end%N.

Lemma take_eq d tl : (d < 256)%N ->
  take_from_slice (d :: tl) =
  Done (if (d mod 16 =? 0)%N then
          match take_key (d / 64) tl with
          | None => None
          | Some (k, r) =>
            match take_seq ((d / 16) mod 4) r with
            | None => None
            | Some (s, r2) => Some (MkHeader k s, r2)
            end
          end
        else None).
Proof.
  intros Hd. unfold take_from_slice. cbn [split_first].
  rewrite (land_ver d Hd), (land_key d Hd), (land_seq d Hd).
  unfold VER_ZERO_BITS. destruct (d mod 16 =? 0)%N; cbn [negb]; [|reflexivity].
  assert (Hq : (d / 64 < 4)%N) by lia.
  assert (Hr : ((d / 16) mod 4 < 4)%N) by lia.
  assert (Eq : (d / 64 = 0 \/ d / 64 = 1 \/ d / 64 = 2 \/ d / 64 = 3)%N) by lia.
  assert (Er : ((d / 16) mod 4 = 0 \/ (d / 16) mod 4 = 1 \/ (d / 16) mod 4 = 2 \/ (d / 16) mod 4 = 3)%N) by lia.
  clear Hq Hr.
  destruct Eq as [E|[E|[E|E]]]; rewrite E; destruct Er as [F|[F|[F|F]]]; rewrite F;
   cbn -[u16_from_le u32_from_le];
   unfold split_at_checked;
   do 12 (try (destruct tl as [|? tl]; [reflexivity|])); reflexivity.
Qed.

(** Decoding an encoding. *)
Lemma take_key_write k r : take_key (key_code k) (varkey_bytes k ++ r) = Some (k, r).
Proof. destruct k as [[]|[]|[]|[]]; reflexivity. Qed.

Lemma take_seq_write s r : seq_ok s -> take_seq (seq_code s) (seq_bytes s ++ r) = Some (s, r).
Proof.
  destruct s as [v|v|v]; cbn [seq_ok seq_code seq_bytes u16_to_le u32_to_le app take_seq]; intros H;
    rewrite ?u16_from_to, ?u32_from_to by assumption; reflexivity.
Qed.

Lemma take_write h body :
  header_ok h -> take_from_slice (write_to_vec h ++ body) = Done (Some (h, body)).
Proof.
  intros [_ Hs]. rewrite write_to_vec_eq. cbn [app].
  rewrite take_eq by apply disc_byte_lt.
  assert (Hk : (key_code (hdr_key h) < 4)%N) by (destruct (hdr_key h); cbn; lia).
  assert (Hc : (seq_code (hdr_seq h) < 3)%N) by (destruct (hdr_seq h); cbn; lia).
  unfold disc_byte.
  set (c := key_code (hdr_key h)) in *. set (e := seq_code (hdr_seq h)) in *.
  replace ((64 * c + 16 * e) mod 16)%N with 0%N by lia.
  replace ((64 * c + 16 * e) / 64)%N with c by lia.
  replace ((64 * c + 16 * e) / 16 mod 4)%N with e by lia.
  unfold c, e. rewrite <- app_assoc, take_key_write, take_seq_write by auto.
  destruct h; reflexivity.
Qed.

Lemma take_total buf : Forall byte_ok buf -> exists r, take_from_slice buf = Done r.
Proof.
  intros H. destruct buf as [|d tl]; [now exists None|].
  inversion H; subst. rewrite take_eq by auto. eauto.
Qed.

Lemma take_key_inv c tl k r : take_key c tl = Some (k, r) ->
  Forall byte_ok tl ->
  tl = varkey_bytes k ++ r /\ key_ok k /\ key_code k = c /\ Forall byte_ok r.
Proof.
  intros H Hb. unfold take_key in H. unfold key_ok.
  destruct c as [|[[|[]|]|[|[]|]|]]; try discriminate;
  repeat (destruct tl as [|? tl]; [discriminate H|]);
  injection H as <- <-; cbn [varkey_bytes k1_bytes k2_bytes k4_bytes k8_bytes app key_code];
  repeat match goal with H : Forall _ (_ :: _) |- _ => inversion H; clear H; subst end;
  repeat split; auto; repeat constructor; auto.
Qed.

Lemma take_seq_inv c tl s r : take_seq c tl = Some (s, r) ->
  Forall byte_ok tl ->
  tl = seq_bytes s ++ r /\ seq_ok s /\ seq_code s = c.
Proof.
  intros H Hb. unfold take_seq in H.
  destruct c as [|[[|[]|]|[|[]|]|]]; try discriminate;
  repeat (destruct tl as [|? tl]; [discriminate H|]);
  injection H as <- <-; cbn [seq_bytes seq_code seq_ok];
  repeat match goal with H : Forall _ (_ :: _) |- _ => inversion H; clear H; subst end;
  rewrite ?u16_to_from, ?u32_to_from by assumption;
  unfold byte_ok, u16_from_le, u32_from_le in *; repeat split; auto; lia.
Qed.

Lemma take_inv buf h rest : Forall byte_ok buf ->
  take_from_slice buf = Done (Some (h, rest)) -> buf = write_to_vec h ++ rest /\ header_ok h.
Proof.
  intros Hb H. destruct buf as [|d tl]; [discriminate|].
  assert (Hd : byte_ok d) by (inversion Hb; auto).
  assert (Ht : Forall byte_ok tl) by (inversion Hb; auto).
  rewrite take_eq in H by auto.
  destruct (d mod 16 =? 0)%N eqn:Ev; [|discriminate].
  destruct (take_key (d / 64) tl) as [[k r]|] eqn:Ek; [|discriminate].
  destruct (take_seq ((d / 16) mod 4) r) as [[s r2]|] eqn:Es; [|discriminate].
  injection H as <- <-.
  apply take_key_inv in Ek; auto. destruct Ek as (-> & Hk & Ek & Hr).
  apply take_seq_inv in Es; auto. destruct Es as (-> & Hs & Es).
  split; [|split; auto].
  rewrite write_to_vec_eq. unfold disc_byte. cbn [hdr_key hdr_seq].
  rewrite Ek, Es. cbn [app]. rewrite <- app_assoc. f_equal.
  unfold byte_ok in Hd. lia.
Qed.

Lemma take_key_some c tl : (c < 4)%N -> 2 ^ N.to_nat c <= length tl ->
  exists k r, take_key c tl = Some (k, r) /\ length r = length tl - 2 ^ N.to_nat c.
Proof.
  intros Hc H. assert (E : (c = 0 \/ c = 1 \/ c = 2 \/ c = 3)%N) by lia.
  destruct E as [->|[->|[->| ->]]]; pow_norm;
  do 8 (try (destruct tl as [|? tl]; [cbn in H; lia|])); eexists; eexists; (split; [reflexivity|]); cbn; lia.
Qed.

Lemma take_key_none c tl : (c < 4)%N -> length tl < 2 ^ N.to_nat c -> take_key c tl = None.
Proof.
  intros Hc H. assert (E : (c = 0 \/ c = 1 \/ c = 2 \/ c = 3)%N) by lia.
  destruct E as [->|[->|[->| ->]]]; pow_norm;
  do 8 (try (destruct tl as [|? tl]; [reflexivity|])); cbn in H; lia.
Qed.

Lemma take_seq_some c tl : (c < 3)%N -> 2 ^ N.to_nat c <= length tl ->
  exists k r, take_seq c tl = Some (k, r).
Proof.
  intros Hc H. assert (E : (c = 0 \/ c = 1 \/ c = 2)%N) by lia.
  destruct E as [->|[->| ->]]; pow_norm;
  do 8 (try (destruct tl as [|? tl]; [cbn in H; lia|])); cbn; eexists; eexists; try reflexivity; lia.
Qed.

Lemma take_seq_none c tl : (c < 4)%N -> c = 3%N \/ length tl < 2 ^ N.to_nat c -> take_seq c tl = None.
Proof.
  intros Hc [->|H]; [reflexivity|]. assert (E : (c = 0 \/ c = 1 \/ c = 2 \/ c = 3)%N) by lia.
  destruct E as [->|[->|[->| ->]]]; pow_norm; try reflexivity;
  do 8 (try (destruct tl as [|? tl]; [reflexivity|])); cbn in H; lia.
Qed.

Lemma pow2_klen c : (c < 4)%N -> 2 ^ N.to_nat c > 0.
Proof. intros. assert (2 ^ N.to_nat c <> 0) by (apply Nat.pow_nonzero; lia). lia. Qed.

Lemma accept_iff buf : Forall byte_ok buf ->
  ((exists h rest, take_from_slice buf = Done (Some (h, rest))) <-> acceptable buf).
Proof.
  intros Hb. destruct buf as [|d tl].
  { split; [intros (?&?&?); discriminate | intros (?&?&?&_); discriminate]. }
  assert (Hd : byte_ok d) by (inversion Hb; auto). unfold byte_ok in Hd.
  rewrite take_eq by auto.
  assert (Hq : (d / 64 < 4)%N) by lia.
  assert (Hr : ((d / 16) mod 4 < 4)%N) by lia.
  unfold acceptable. split.
  - intros (h & rest & H). exists d, tl. split; [reflexivity|].
    destruct (d mod 16 =? 0)%N eqn:Ev; [|discriminate].
    split; [lia|].
    destruct (le_lt_dec (2 ^ N.to_nat (d / 64)) (length tl)) as [L|L].
    2: { rewrite take_key_none in H by auto. discriminate. }
    destruct (take_key_some (d / 64) tl Hq L) as (k & r & Ek & Lr). rewrite Ek in H.
    destruct (N.eq_dec ((d / 16) mod 4) 3) as [E3|E3].
    { rewrite take_seq_none in H by auto. discriminate. }
    split; [auto|].
    destruct (le_lt_dec (2 ^ N.to_nat ((d / 16) mod 4)) (length r)) as [L2|L2].
    2: { rewrite take_seq_none in H by auto. discriminate. }
    lia.
  - intros (d' & tl' & [= <- <-] & Hv & H3 & HL).
    rewrite (proj2 (N.eqb_eq _ _) Hv).
    destruct (take_key_some (d / 64) tl Hq) as (k & r & Ek & Lr); [lia|]. rewrite Ek.
    destruct (take_seq_some ((d / 16) mod 4) r) as (s & r2 & Es); [lia|lia|]. rewrite Es. eauto.
Qed.

(** Prefix-freeness and injectivity. *)
Lemma write_prefix_free h1 h2 t1 t2 :
  header_ok h1 -> header_ok h2 ->
  write_to_vec h1 ++ t1 = write_to_vec h2 ++ t2 -> h1 = h2 /\ t1 = t2.
Proof.
  intros H1 H2 E. pose proof (take_write h1 t1 H1) as T1. pose proof (take_write h2 t2 H2) as T2.
  rewrite E in T1. rewrite T1 in T2. now injection T2.
Qed.

Lemma write_bytes_ok h : header_ok h -> Forall byte_ok (write_to_vec h).
Proof.
  intros [Hk Hs]. rewrite write_to_vec_eq. constructor; [apply disc_byte_lt|].
  apply Forall_app. split; [exact Hk|]. apply seq_bytes_ok; auto.
Qed.

Lemma header_len_bounds h : 3 <= header_len h <= 13.
Proof.
  destruct h as [k s]. unfold header_len. cbn. rewrite vlen_kind. destruct k, s; cbn; lia.
Qed.

(** Sequence numbers *)
Lemma seq_eqb_iff a b : seq_eqb a b = true <-> seq_value a = seq_value b.
Proof. unfold seq_eqb. rewrite N.eqb_eq. destruct a, b; reflexivity. Qed.

Lemma resize_width s k : slen (seq_resize s k) = sklen k.
Proof. destruct s, k; reflexivity. Qed.

Lemma resize_value s k : seq_ok s ->
  seq_value (seq_resize s k) = (seq_value s mod 256 ^ N.of_nat (sklen k))%N.
Proof.
  destruct s as [v|v|v], k; cbn [seq_ok seq_resize seq_value sklen N.of_nat];
  change (256 ^ 1)%N with 256%N; change (256 ^ 2)%N with 65536%N; change (256^4)%N with 4294967296%N;
  change (256 ^ N.of_nat 1)%N with 256%N; change (256 ^ N.of_nat 2)%N with 65536%N; change (256 ^ N.of_nat 4)%N with 4294967296%N;
  intros H; try reflexivity; symmetry; rewrite ?N.mod_small; lia.
Qed.

Lemma resize_ok s k : seq_ok s -> seq_ok (seq_resize s k).
Proof. destruct s, k; cbn [seq_ok seq_resize]; intros; lia. Qed.

Lemma into_values s : seq_ok s ->
  seq_into_u8 s = (seq_value s mod 256)%N /\
  seq_into_u16 s = (seq_value s mod 65536)%N /\
  seq_into_u32 s = seq_value s.
Proof.
  destruct s as [v|v|v]; cbn [seq_ok seq_value seq_into_u8 seq_into_u16 seq_into_u32];
  intros; repeat split; try reflexivity; rewrite ?N.mod_small; lia.
Qed.

Lemma header_eqb_iff a b :
  header_eqb a b = true <->
  varkey_eqb (hdr_key a) (hdr_key b) = true /\ seq_value (hdr_seq a) = seq_value (hdr_seq b).
Proof. unfold header_eqb. rewrite andb_true_iff, seq_eqb_iff. reflexivity. Qed.

(** Shrinking a key keeps its bytes in range. *)
Lemma lxor_byte a b : byte_ok a -> byte_ok b -> byte_ok (N.lxor a b).
Proof.
  unfold byte_ok. intros Ha Hb. destruct (N.eq_dec (N.lxor a b) 0) as [->|Hz]; [reflexivity|].
  change 256%N with (2 ^ 8)%N in *. apply N.log2_lt_pow2; [lia|].
  eapply N.le_lt_trans; [apply N.log2_lxor|]. apply N.max_lub_lt.
  - destruct (N.eq_dec a 0) as [->|Na]; [reflexivity|]. apply N.log2_lt_pow2; auto; lia.
  - destruct (N.eq_dec b 0) as [->|Nb]; [reflexivity|]. apply N.log2_lt_pow2; auto; lia.
Qed.
Lemma shrink_key_ok v kk : key_ok v -> key_ok (shrink_to v kk).
Proof.
  unfold key_ok. intros H. destruct v as [[]|[]|[]|[]]; cbn [varkey_bytes k1_bytes k2_bytes k4_bytes k8_bytes] in H;
    repeat match goal with H : Forall _ (_ :: _) |- _ => apply Forall_cons_iff in H; destruct H end;
    destruct kk; cbn; repeat (apply Forall_cons); try apply Forall_nil; repeat apply lxor_byte; auto.
Qed.

(** Decoding a header panics on no list at all. *)
Lemma land_mask d : N.land d 192 = 0%N \/ N.land d 192 = 64%N \/ N.land d 192 = 128%N \/ N.land d 192 = 192%N.
Proof.
  assert (E : N.land d 192 = N.shiftl (N.land (N.shiftr d 6) 3) 6).
  { change 192%N with (N.shiftl 3 6). apply N.bits_inj. intros n. rewrite N.land_spec.
    destruct (N.lt_ge_cases n 6) as [L|L].
    - rewrite !N.shiftl_spec_low by auto. apply andb_false_r.
    - rewrite !N.shiftl_spec_high' by auto. rewrite N.land_spec, N.shiftr_spec' . f_equal. f_equal. lia. }
  assert (B : (N.land (N.shiftr d 6) 3 < 4)%N).
  { change 3%N with (N.ones 2). rewrite N.land_ones. apply N.mod_lt. discriminate. }
  rewrite E. destruct (N.land (N.shiftr d 6) 3) as [|[[]|[]|]] eqn:X; cbn in B |- *; auto; try lia.
Qed.
Lemma take_defined b : exists r, take_from_slice b = Done r.
Proof.
  unfold take_from_slice. destruct (split_first b) as [[disc remain]|]; [|eauto].
  destruct (negb _); [eauto|].
  assert (G : forall key : outcome (option (VarKey * list N)), (exists r, key = Done r) -> exists r, match key with
    | Panicked => Panicked
    | Done None => Done None
    | Done (Some (key, remain)) =>
      let sb := N.land disc SEQ_MASK_BITS in
      if (sb =? SEQ_ONE_BITS)%N then
        match split_first remain with
        | None => Done None
        | Some (s, remain3) => Done (Some (MkHeader key (Seq1 s), remain3))
        end
      else if (sb =? SEQ_TWO_BITS)%N then
        match split_at_checked 2 remain with
        | Some ([a; b], remain3) =>
            Done (Some (MkHeader key (Seq2 (u16_from_le a b)), remain3))
        | Some _ => Panicked
        | None => Done None
        end
      else if (sb =? SEQ_FOUR_BITS)%N then
        match split_at_checked 4 remain with
        | Some ([a; b; c; d], remain3) =>
            Done (Some (MkHeader key (Seq4 (u32_from_le a b c d)), remain3))
        | Some _ => Panicked
        | None => Done None
        end
      else Done None
    end = Done r).
  { intros key [[[k rm]|] ->]; [|eauto]. cbn zeta. destruct (_ =? _)%N.
    - destruct (split_first rm) as [[? ?]|]; eauto.
    - destruct (_ =? _)%N.
      + unfold split_at_checked. destruct rm as [|? [|? rm]]; cbn; eauto.
      + destruct (_ =? _)%N; eauto. unfold split_at_checked. destruct rm as [|? [|? [|? [|? rm]]]]; cbn; eauto. }
  apply G. cbn zeta. unfold KEY_MASK_BITS, KEY_ONE_BITS, KEY_TWO_BITS, KEY_FOUR_BITS, KEY_EIGHT_BITS.
  destruct (land_mask disc) as [-> |[-> |[-> | ->]]]; cbn [N.eqb Pos.eqb].
  - destruct (split_first remain) as [[? ?]|]; eauto.
  - unfold split_at_checked. destruct remain as [|? [|? remain]]; cbn; eauto.
  - unfold split_at_checked. destruct remain as [|? [|? [|? [|? remain]]]]; cbn; eauto.
  - unfold split_at_checked. destruct remain as [|? [|? [|? [|? [|? [|? [|? [|? remain]]]]]]]]; cbn; eauto.
Qed.
