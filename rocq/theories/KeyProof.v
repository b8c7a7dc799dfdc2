(** Lemmas about key compaction. *)
From Coq Require Import NArith List Bool Arith Lia.
From Verif Require Import KeyModel KeySpec.
Import ListNotations.

Lemma key1_eqb_iff x y : key1_eqb x y = true <-> x = y.
Proof.
  destruct x, y; simpl. rewrite N.eqb_eq. split; congruence.
Qed.

Ltac beqs := repeat rewrite andb_true_iff; repeat rewrite N.eqb_eq.

Lemma key2_eqb_iff x y : key2_eqb x y = true <-> x = y.
Proof.
  destruct x, y; simpl. beqs. split; [intros [-> ->]; auto | intros H; inversion H; auto].
Qed.

Lemma key4_eqb_iff x y : key4_eqb x y = true <-> x = y.
Proof.
  destruct x, y; simpl. beqs. split.
  - intros [[[-> ->] ->] ->]; auto.
  - intros H; inversion H; auto.
Qed.

Lemma key8_eqb_iff x y : key8_eqb x y = true <-> x = y.
Proof.
  destruct x, y; simpl. beqs. split.
  - intros [[[[[[[-> ->] ->] ->] ->] ->] ->] ->]; auto.
  - intros H; inversion H; subst; repeat split; auto.
Qed.

Lemma kkind_eqb_iff a b : kkind_eqb a b = true <-> a = b.
Proof. destruct a, b; simpl; split; congruence. Qed.

Lemma k1_bytes_inj x y : k1_bytes x = k1_bytes y -> x = y.
Proof. destruct x, y; simpl; congruence. Qed.
Lemma k2_bytes_inj x y : k2_bytes x = k2_bytes y -> x = y.
Proof. destruct x, y; simpl; congruence. Qed.
Lemma k4_bytes_inj x y : k4_bytes x = k4_bytes y -> x = y.
Proof. destruct x, y; simpl; congruence. Qed.
Lemma k8_bytes_inj x y : k8_bytes x = k8_bytes y -> x = y.
Proof. destruct x, y; simpl; congruence. Qed.

Lemma varkey_bytes_inj x y : varkey_bytes x = varkey_bytes y -> x = y.
Proof.
  destruct x as [[]|[]|[]|[]], y as [[]|[]|[]|[]]; simpl; congruence.
Qed.

(** Normalise compaction of a concrete-shape list. *)
Ltac norm_xor :=
  unfold compact; simpl; rewrite ?N.lxor_0_r, ?N.lxor_assoc.

Lemma from2_1 k : k1_bytes (key1_from_key2 k) = compact 1 (k2_bytes k).
Proof. destruct k; norm_xor; auto. Qed.
Lemma from4_1 k : k1_bytes (key1_from_key4 k) = compact 1 (k4_bytes k).
Proof. destruct k; norm_xor; auto. Qed.
Lemma from8_1 k : k1_bytes (key1_from_key8 k) = compact 1 (k8_bytes k).
Proof. destruct k; norm_xor; auto. Qed.
Lemma from4_2 k : k2_bytes (key2_from_key4 k) = compact 2 (k4_bytes k).
Proof. destruct k; norm_xor; auto. Qed.
Lemma from8_2 k : k2_bytes (key2_from_key8 k) = compact 2 (k8_bytes k).
Proof. destruct k; norm_xor; auto. Qed.
Lemma from8_4 k : k4_bytes (key4_from_key8 k) = compact 4 (k8_bytes k).
Proof. destruct k; norm_xor; auto. Qed.

Lemma compact_same_1 k : compact 1 (k1_bytes k) = k1_bytes k.
Proof. destruct k; norm_xor; auto. Qed.
Lemma compact_same_2 k : compact 2 (k2_bytes k) = k2_bytes k.
Proof. destruct k; norm_xor; auto. Qed.
Lemma compact_same_4 k : compact 4 (k4_bytes k) = k4_bytes k.
Proof. destruct k; norm_xor; auto. Qed.
Lemma compact_same_8 k : compact 8 (k8_bytes k) = k8_bytes k.
Proof. destruct k; norm_xor; auto. Qed.

Lemma vlen_kind v : vlen v = klen (varkey_kind v).
Proof. destruct v as [[]|[]|[]|[]]; reflexivity. Qed.

Lemma compact_vlen v : compact (vlen v) (varkey_bytes v) = varkey_bytes v.
Proof.
  destruct v; unfold vlen; simpl.
  - destruct k; apply (compact_same_1 (K1 a)).
  - destruct k; apply (compact_same_2 (K2 a b)).
  - destruct k; apply (compact_same_4 (K4 a b c d)).
  - destruct k; apply (compact_same_8 (K8 a b c d e f g h)).
Qed.

(** Compacting in two steps is compacting once. *)
Lemma compact_compact v ka kb :
  klen ka <= klen kb -> klen kb <= vlen v ->
  compact (klen ka) (compact (klen kb) (varkey_bytes v)) = compact (klen ka) (varkey_bytes v).
Proof.
  intros Hab Hb.
  destruct v as [[]|[]|[]|[]], ka, kb; unfold vlen in *; simpl in *; try lia;
    norm_xor; reflexivity.
Qed.

Lemma shrink_bytes v kind :
  varkey_bytes (shrink_to v kind) = compact (Nat.min (klen kind) (vlen v)) (varkey_bytes v).
Proof.
  destruct v as [[]|[]|[]|[]], kind; unfold vlen; norm_xor; reflexivity.
Qed.

Lemma shrink_len v kind : vlen (shrink_to v kind) = Nat.min (klen kind) (vlen v).
Proof. destruct v as [[]|[]|[]|[]], kind; reflexivity. Qed.

Lemma routes_agree k :
  key1_from_key4 (key4_from_key8 k) = key1_from_key8 k /\
  key1_from_key2 (key2_from_key8 k) = key1_from_key8 k /\
  key2_from_key4 (key4_from_key8 k) = key2_from_key8 k /\
  key1_from_key2 (key2_from_key4 (key4_from_key8 k)) = key1_from_key8 k.
Proof.
  destruct k; simpl; rewrite ?N.lxor_assoc; auto.
Qed.

Lemma route_4_2_1 k : key1_from_key2 (key2_from_key4 k) = key1_from_key4 k.
Proof. destruct k; simpl; rewrite ?N.lxor_assoc; auto. Qed.

Lemma varkey_eqb_spec a b :
  varkey_eqb a b = true <-> agree_at (Nat.min (vlen a) (vlen b)) a b.
Proof.
  unfold agree_at.
  destruct a as [a|a|a|a], b as [b|b|b|b];
  rewrite !vlen_kind; cbn [varkey_eqb varkey_bytes varkey_kind klen Nat.min];
  rewrite ?key1_eqb_iff, ?key2_eqb_iff, ?key4_eqb_iff, ?key8_eqb_iff;
  rewrite <- ?from2_1, <- ?from4_1, <- ?from8_1, <- ?from4_2, <- ?from8_2, <- ?from8_4,
          ?compact_same_1, ?compact_same_2, ?compact_same_4, ?compact_same_8;
  (split; [intros ->; reflexivity |]);
  first [apply k1_bytes_inj | apply k2_bytes_inj | apply k4_bytes_inj | apply k8_bytes_inj].
Qed.

Lemma varkey_eqb_refl a : varkey_eqb a a = true.
Proof. apply varkey_eqb_spec. reflexivity. Qed.

Lemma varkey_eqb_sym a b : varkey_eqb a b = varkey_eqb b a.
Proof.
  apply eq_true_iff_eq. rewrite !varkey_eqb_spec, Nat.min_comm.
  unfold agree_at; split; congruence.
Qed.

(** Lengths of keys are always one of the four kinds. *)
Lemma vlen_is_klen v : exists k, vlen v = klen k.
Proof. exists (varkey_kind v). apply vlen_kind. Qed.

(** Agreement at a length implies agreement at every shorter one. *)
Lemma agree_mono ka kb a b :
  klen ka <= klen kb -> klen kb <= vlen a -> klen kb <= vlen b ->
  agree_at (klen kb) a b -> agree_at (klen ka) a b.
Proof.
  unfold agree_at. intros H1 H2 H3 H.
  rewrite <- (compact_compact a ka kb), <- (compact_compact b ka kb) by auto.
  now rewrite H.
Qed.

Lemma min_is_klen a b : exists k, Nat.min (vlen a) (vlen b) = klen k.
Proof.
  destruct (Nat.min_dec (vlen a) (vlen b)) as [->| ->]; apply vlen_is_klen.
Qed.

Lemma varkey_eqb_trans a b c :
  Nat.min (vlen a) (vlen c) <= vlen b ->
  varkey_eqb a b = true -> varkey_eqb b c = true -> varkey_eqb a c = true.
Proof.
  rewrite !varkey_eqb_spec. intros Hm Hab Hbc.
  destruct (min_is_klen a b) as [kab Eab], (min_is_klen b c) as [kbc Ebc],
           (min_is_klen a c) as [kac Eac].
  rewrite Eab in Hab. rewrite Ebc in Hbc. rewrite Eac.
  apply (agree_mono kac) in Hab; [|lia..].
  apply (agree_mono kac) in Hbc; [|lia..].
  unfold agree_at in *. congruence.
Qed.

Lemma shrink_eqb v kind : varkey_eqb (shrink_to v kind) v = true.
Proof.
  apply varkey_eqb_spec. unfold agree_at.
  rewrite shrink_bytes, shrink_len.
  destruct (vlen_is_klen v) as [kv Ev]. rewrite Ev.
  assert (E : exists km, Nat.min (klen kind) (klen kv) = klen km).
  { destruct (Nat.min_dec (klen kind) (klen kv)) as [->| ->]; eauto. }
  destruct E as [km Em]. rewrite Em.
  replace (Nat.min (klen km) (klen kv)) with (klen km) by lia.
  apply compact_compact; lia.
Qed.

Lemma shrink_shrink v k1 k2 :
  klen k1 <= klen k2 -> shrink_to (shrink_to v k2) k1 = shrink_to v k1.
Proof.
  intros H. destruct v as [[]|[]|[]|[]], k1, k2; simpl in *; try lia;
    rewrite ?N.lxor_assoc; reflexivity.
Qed.

Lemma shrink_shrink_ge v k1 k2 :
  klen k2 <= klen k1 -> shrink_to (shrink_to v k2) k1 = shrink_to v k2.
Proof.
  intros H. destruct v as [[]|[]|[]|[]], k1, k2; simpl in *; try lia; reflexivity.
Qed.

Lemma shrink_noop v kind : vlen v <= klen kind -> shrink_to v kind = v.
Proof.
  destruct v as [[]|[]|[]|[]], kind; unfold vlen; simpl; intros; try lia; reflexivity.
Qed.

Lemma shrink_kind v kind :
  varkey_kind (shrink_to v kind) = if Nat.leb (klen kind) (vlen v) then kind else varkey_kind v.
Proof. destruct v as [[]|[]|[]|[]], kind; reflexivity. Qed.

(** try_from conversions. *)
Lemma try1_spec v k :
  key1_try_from_varkey v = Some k <-> k1_bytes k = compact 1 (varkey_bytes v).
Proof.
  destruct v as [v|v|v|v]; simpl;
    rewrite <- ?from2_1, <- ?from4_1, <- ?from8_1, ?compact_same_1;
    (split; [now intros [= <-] | intros H; apply k1_bytes_inj in H; now subst]).
Qed.

Lemma try2_spec v k :
  key2_try_from_varkey v = Some k <-> (2 <= vlen v /\ k2_bytes k = compact 2 (varkey_bytes v)).
Proof.
  destruct v as [v|v|v|v]; simpl; rewrite vlen_kind; simpl;
    rewrite <- ?from4_2, <- ?from8_2, ?compact_same_2.
  1: split; [discriminate | intros [? _]; lia].
  all: split; [intros [= <-]; split; auto; lia | intros [_ H]; apply k2_bytes_inj in H; now subst].
Qed.

Lemma try4_spec v k :
  key4_try_from_varkey v = Some k <-> (4 <= vlen v /\ k4_bytes k = compact 4 (varkey_bytes v)).
Proof.
  destruct v as [v|v|v|v]; simpl; rewrite vlen_kind; simpl;
    rewrite <- ?from8_4, ?compact_same_4.
  1,2: split; [discriminate | intros [? _]; lia].
  all: split; [intros [= <-]; split; auto; lia | intros [_ H]; apply k4_bytes_inj in H; now subst].
Qed.

Lemma try8_spec v k :
  key8_try_from_varkey v = Some k <-> (8 <= vlen v /\ k8_bytes k = compact 8 (varkey_bytes v)).
Proof.
  destruct v as [v|v|v|v]; simpl; rewrite vlen_kind; simpl; rewrite ?compact_same_8.
  1,2,3: split; [discriminate | intros [? _]; lia].
  all: split; [intros [= <-]; split; auto; lia | intros [_ H]; apply k8_bytes_inj in H; now subst].
Qed.
