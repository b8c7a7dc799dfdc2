(** Property theorems C01-C07: keys, sequence numbers and headers. *)
From Coq Require Import NArith List Bool Arith Lia.
From Verif Require Import KeyModel HeaderModel KeySpec HeaderSpec KeyProof HeaderProof.
Import ListNotations.

(** ** C01 Header round trip *)

(** Decoding any framed header and body gives back exactly both. *)
Theorem C01_header_round_trip :
  forall h body, header_ok h ->
    take_from_slice (frame_to_bytes h body) = Done (Some (h, body)).
Proof. exact take_write. Qed.
Print Assumptions C01_header_round_trip.

(** The bytes are the documented layout: code byte, key bytes, little-endian
    sequence number; and that layout determines them. *)
Theorem C01_header_layout :
  forall h l, header_ok h -> (is_encoding h l <-> l = write_to_vec h).
Proof.
  intros h l Hok. split.
  - exact (is_encoding_unique h l Hok).
  - intros ->. exact (write_to_vec_layout h Hok).
Qed.
Print Assumptions C01_header_layout.

Definition ex_hdr : VarHeader := MkHeader (VKey4 (K4 1 2 3 4)) (Seq2 513).
Example C01_nontrivial :
  header_ok ex_hdr /\ frame_to_bytes ex_hdr [9; 0; 255]%N = [144; 1; 2; 3; 4; 1; 2; 9; 0; 255]%N.
Proof.
  split; [|reflexivity]. split; [repeat constructor|]; unfold byte_ok; cbn; lia.
Qed.

(** ** C02 Exactly the documented byte strings decode *)

(** Acceptance is exactly: version 0, sequence code not 3, long enough; the
    decoder never panics; and what it accepts is the canonical encoding of
    what it returns. *)
Theorem C02_accepts_exactly :
  forall buf, Forall byte_ok buf ->
    ((exists h rest, take_from_slice buf = Done (Some (h, rest))) <-> acceptable buf).
Proof. exact accept_iff. Qed.
Print Assumptions C02_accepts_exactly.

Theorem C02_no_panic :
  forall buf, Forall byte_ok buf -> take_from_slice buf <> Panicked.
Proof.
  intros buf H E. destruct (take_total buf H) as [r Hr]. congruence.
Qed.
Print Assumptions C02_no_panic.

Theorem C02_canonical :
  forall buf h rest, Forall byte_ok buf ->
    take_from_slice buf = Done (Some (h, rest)) ->
    buf = frame_to_bytes h rest /\ header_ok h.
Proof. exact take_inv. Qed.
Print Assumptions C02_canonical.

Example C02_nontrivial_accept : acceptable [80; 7; 8; 1; 0; 42]%N.
Proof. exists 80%N, [7; 8; 1; 0; 42]%N. cbn. repeat split; try lia; discriminate. Qed.
Example C02_nontrivial_reject : ~ acceptable [49; 7; 8; 1; 0; 42]%N /\ ~ acceptable [80; 7; 8; 1]%N.
Proof.
  split; intros (d & tl & [= <- <-] & H1 & H2 & H3).
  - discriminate.
  - cbn in H3. lia.
Qed.

(** ** C03 The two encoders agree and respect the buffer *)
Theorem C03_slice_encoder :
  forall h buf,
    write_to_slice h buf =
    if Nat.leb (length (write_to_vec h)) (length buf)
    then Some (write_to_vec h, skipn (length (write_to_vec h)) buf)
    else None.
Proof. intros. rewrite write_to_vec_len. apply write_to_slice_eq. Qed.
Print Assumptions C03_slice_encoder.

Theorem C03_encoded_length :
  forall h, length (write_to_vec h) = 1 + vlen (hdr_key h) + slen (hdr_seq h)
            /\ 3 <= length (write_to_vec h) <= 13.
Proof. intros h. rewrite write_to_vec_len. split; [reflexivity|]. apply header_len_bounds. Qed.
Print Assumptions C03_encoded_length.

Theorem C03_prefix_free :
  forall h1 h2 t1 t2, header_ok h1 -> header_ok h2 ->
    write_to_vec h1 ++ t1 = write_to_vec h2 ++ t2 -> h1 = h2 /\ t1 = t2.
Proof. exact write_prefix_free. Qed.
Print Assumptions C03_prefix_free.

Example C03_nontrivial :
  write_to_slice ex_hdr (repeat 99 8)%N = Some ([144; 1; 2; 3; 4; 1; 2]%N, [99%N])
  /\ write_to_slice ex_hdr (repeat 99 6)%N = None.
Proof. split; reflexivity. Qed.

(** ** C04 Key compaction does not depend on the route *)

(** Each of the six conversions is the XOR of equal consecutive groups. *)
Theorem C04_conversions :
  (forall k, k1_bytes (key1_from_key2 k) = compact 1 (k2_bytes k)) /\
  (forall k, k1_bytes (key1_from_key4 k) = compact 1 (k4_bytes k)) /\
  (forall k, k1_bytes (key1_from_key8 k) = compact 1 (k8_bytes k)) /\
  (forall k, k2_bytes (key2_from_key4 k) = compact 2 (k4_bytes k)) /\
  (forall k, k2_bytes (key2_from_key8 k) = compact 2 (k8_bytes k)) /\
  (forall k, k4_bytes (key4_from_key8 k) = compact 4 (k8_bytes k)).
Proof.
  exact (conj from2_1 (conj from4_1 (conj from8_1 (conj from4_2 (conj from8_2 from8_4))))).
Qed.
Print Assumptions C04_conversions.

(** Conversions from a variable-length key: refused exactly when the key is too
    short, otherwise the compaction of its bytes. *)
Theorem C04_try_from :
  (forall v k, key1_try_from_varkey v = Some k <-> (1 <= vlen v /\ k1_bytes k = compact 1 (varkey_bytes v))) /\
  (forall v k, key2_try_from_varkey v = Some k <-> (2 <= vlen v /\ k2_bytes k = compact 2 (varkey_bytes v))) /\
  (forall v k, key4_try_from_varkey v = Some k <-> (4 <= vlen v /\ k4_bytes k = compact 4 (varkey_bytes v))) /\
  (forall v k, key8_try_from_varkey v = Some k <-> (8 <= vlen v /\ k8_bytes k = compact 8 (varkey_bytes v))).
Proof.
  split; [|split; [exact try2_spec|split; [exact try4_spec|exact try8_spec]]].
  intros v k. rewrite try1_spec. split; [|tauto]. split; auto.
  rewrite vlen_kind. destruct v; cbn; lia.
Qed.
Print Assumptions C04_try_from.

(** Any chain of shrinkings gives the compaction to the smallest length seen. *)
Theorem C04_any_route :
  forall (route : list VarKeyKind) (v : VarKey),
    varkey_bytes (fold_left shrink_to route v)
    = compact (fold_left Nat.min (map klen route) (vlen v)) (varkey_bytes v).
Proof.
  induction route as [|k route IH]; intros v; cbn.
  - symmetry. apply compact_vlen.
  - rewrite IH, shrink_len, shrink_bytes.
    rewrite (Nat.min_comm (vlen v) (klen k)).
    assert (L : exists kf, fold_left Nat.min (map klen route) (Nat.min (klen k) (vlen v)) = klen kf
                           /\ klen kf <= Nat.min (klen k) (vlen v)).
    { assert (S : exists ks, Nat.min (klen k) (vlen v) = klen ks).
      { rewrite vlen_kind. destruct (Nat.min_dec (klen k) (klen (varkey_kind v))) as [->| ->]; eauto. }
      destruct S as [ks ->]. clear IH. generalize ks. clear.
      induction route as [|r route IH]; intros ks; cbn; [eauto|].
      destruct (Nat.min_dec (klen ks) (klen r)) as [E|E]; rewrite E.
      - destruct (IH ks) as (kf & H1 & H2). eauto.
      - destruct (IH r) as (kf & H1 & H2). exists kf. split; [auto|lia]. }
    destruct L as (kf & Ef & Hle). rewrite Ef.
    assert (S : exists ks, Nat.min (klen k) (vlen v) = klen ks).
    { rewrite vlen_kind. destruct (Nat.min_dec (klen k) (klen (varkey_kind v))) as [->| ->]; eauto. }
    destruct S as [ks Es]. rewrite Es in *. apply compact_compact; lia.
Qed.
Print Assumptions C04_any_route.

Definition ex_key : Key8 := K8 1 2 4 8 16 32 64 128.
Example C04_nontrivial :
  varkey_bytes (fold_left shrink_to [KK4; KK8; KK2] (VKey8 ex_key)) = [15; 240]%N
  /\ key4_try_from_varkey (VKey2 (K2 1 2)) = None.
Proof. split; reflexivity. Qed.

(** ** C05 Comparing keys of different lengths *)
Theorem C05_equality :
  forall a b, varkey_eqb a b = true <-> agree_at (Nat.min (vlen a) (vlen b)) a b.
Proof. exact varkey_eqb_spec. Qed.
Print Assumptions C05_equality.

Theorem C05_refl_sym :
  (forall a, varkey_eqb a a = true) /\ (forall a b, varkey_eqb a b = varkey_eqb b a).
Proof. exact (conj varkey_eqb_refl varkey_eqb_sym). Qed.
Print Assumptions C05_refl_sym.

Theorem C05_transitive_through_longer :
  forall a b c, Nat.min (vlen a) (vlen c) <= vlen b ->
    varkey_eqb a b = true -> varkey_eqb b c = true -> varkey_eqb a c = true.
Proof. exact varkey_eqb_trans. Qed.
Print Assumptions C05_transitive_through_longer.

Theorem C05_not_transitive_through_shorter :
  exists a b c, varkey_eqb a b = true /\ varkey_eqb b c = true /\ varkey_eqb a c = false.
Proof.
  exists (VKey2 (K2 1 2)), (VKey1 (K1 3)), (VKey2 (K2 2 1)). repeat split.
Qed.
Print Assumptions C05_not_transitive_through_shorter.

Example C05_nontrivial :
  Nat.min (vlen (VKey1 (K1 255))) (vlen (VKey4 (K4 3 12 48 192))) <= vlen (VKey8 ex_key) /\
  varkey_eqb (VKey1 (K1 255)) (VKey8 ex_key) = true /\
  varkey_eqb (VKey8 ex_key) (VKey4 (K4 3 12 48 192)) = true /\
  varkey_eqb (VKey8 ex_key) (VKey4 (K4 3 12 48 193)) = false.
Proof. repeat split; cbn; lia. Qed.

(** ** C06 Shrinking a key *)
Theorem C06_shrink :
  forall v k,
    vlen (shrink_to v k) = Nat.min (klen k) (vlen v) /\
    (vlen v <= klen k -> shrink_to v k = v) /\
    varkey_eqb (shrink_to v k) v = true /\
    shrink_to (shrink_to v k) k = shrink_to v k.
Proof.
  intros v k. split; [apply shrink_len|]. split; [apply shrink_noop|].
  split; [apply shrink_eqb|]. apply shrink_shrink. lia.
Qed.
Print Assumptions C06_shrink.

Theorem C06_shrink_twice :
  forall v k1 k2, shrink_to (shrink_to v k1) k2
                  = shrink_to v (if Nat.leb (klen k1) (klen k2) then k1 else k2).
Proof.
  intros v k1 k2. destruct (Nat.leb_spec (klen k1) (klen k2)).
  - now apply shrink_shrink_ge.
  - apply shrink_shrink. lia.
Qed.
Print Assumptions C06_shrink_twice.

Example C06_nontrivial : shrink_to (VKey8 ex_key) KK4 = VKey4 (K4 3 12 48 192).
Proof. reflexivity. Qed.

(** ** C07 Sequence numbers *)
Theorem C07_equality : forall a b, seq_eqb a b = true <-> seq_value a = seq_value b.
Proof. exact seq_eqb_iff. Qed.
Print Assumptions C07_equality.

(** The documentation (header.rs:231-234: "we DO NOT treat sequence numbers of different lengths
    as equivalent") says otherwise, and so it does for headers (header.rs:357-360). *)
Theorem C07_lengths_matter_refuted :
  exists a b, slen a <> slen b /\ seq_eqb a b = true /\
    forall k, header_eqb (MkHeader k a) (MkHeader k b) = true.
Proof.
  exists (Seq1 7), (Seq4 7). split; [discriminate|]. split; [reflexivity|].
  intros k. unfold header_eqb. cbn [hdr_key hdr_seq]. rewrite varkey_eqb_refl. reflexivity.
Qed.
Print Assumptions C07_lengths_matter_refuted.

Theorem C07_resize :
  forall s k, seq_ok s ->
    slen (seq_resize s k) = sklen k /\ seq_ok (seq_resize s k) /\
    seq_value (seq_resize s k) = (seq_value s mod 256 ^ N.of_nat (sklen k))%N.
Proof.
  intros s k H. split; [apply resize_width|]. split; [apply resize_ok; auto|apply resize_value; auto].
Qed.
Print Assumptions C07_resize.

(** In particular a value that fits is kept. *)
Theorem C07_resize_keeps :
  forall s k, seq_ok s -> (seq_value s < 256 ^ N.of_nat (sklen k))%N ->
    seq_eqb (seq_resize s k) s = true.
Proof.
  intros s k H L. apply seq_eqb_iff. rewrite resize_value by auto. now apply N.mod_small.
Qed.
Print Assumptions C07_resize_keeps.

Theorem C07_conversions :
  forall s, seq_ok s ->
  seq_into_u8 s = (seq_value s mod 256)%N /\
  seq_into_u16 s = (seq_value s mod 65536)%N /\
  seq_into_u32 s = seq_value s.
Proof. exact into_values. Qed.
Print Assumptions C07_conversions.

Example C07_nontrivial :
  seq_ok (Seq4 2882400018) /\ seq_resize (Seq4 2882400018) SK1 = Seq1 18 /\
  seq_eqb (Seq1 66) (Seq4 66) = true /\ seq_eqb (Seq4 322) (Seq1 66) = false.
Proof. repeat split; cbn; lia. Qed.
