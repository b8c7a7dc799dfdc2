(** Model of the message keys of postcard-rpc and of their compaction.
    Source: /repo/source/postcard-rpc/src/lib.rs and header.rs.
    Bytes are [N]; [byte_ok] states the range that the Rust type [u8] enforces. *)
From Coq Require Import NArith List Bool.
Import ListNotations.
Local Open Scope N_scope.

(** The range of [u8]. *)
Definition byte_ok (b : N) : Prop := b < 256.

(** lib.rs:140 [postcard_schema::key::Key], an 8-byte key ([u8; 8]). *)
Inductive Key8 := K8 (a b c d e f g h : N).

(** lib.rs:149 [Key1(u8)]. *)
Inductive Key1 := K1 (a : N).

(** lib.rs:158 [Key2([u8; 2])]. *)
Inductive Key2 := K2 (a b : N).

(** lib.rs:167 [Key4([u8; 4])]. *)
Inductive Key4 := K4 (a b c d : N).

(** lib.rs:201,240,270 [to_bytes] of each key ([Key1::to_bytes] gives a bare
    [u8]; here a one-element list). *)
Definition k1_bytes (k : Key1) : list N := let 'K1 a := k in [a].
Definition k2_bytes (k : Key2) : list N := let 'K2 a b := k in [a; b].
Definition k4_bytes (k : Key4) : list N := let 'K4 a b c d := k in [a; b; c; d].
Definition k8_bytes (k : Key8) : list N :=
  let 'K8 a b c d e f g h := k in [a; b; c; d; e; f; g; h].

(** lib.rs:174 [Key1::from_key2]. *)
Definition key1_from_key2 (v : Key2) : Key1 :=
  let 'K2 a b := v in K1 (N.lxor a b).

(** lib.rs:183 [Key1::from_key4]. *)
Definition key1_from_key4 (v : Key4) : Key1 :=
  let 'K4 a b c d := v in K1 (N.lxor (N.lxor (N.lxor a b) c) d).

(** lib.rs:192 [Key1::from_key8]. *)
Definition key1_from_key8 (v : Key8) : Key1 :=
  let 'K8 a b c d e f g h := v in
  K1 (N.lxor (N.lxor (N.lxor (N.lxor (N.lxor (N.lxor (N.lxor a b) c) d) e) f) g) h).

(** lib.rs:223 [Key2::from_key4]. *)
Definition key2_from_key4 (v : Key4) : Key2 :=
  let 'K4 a b c d := v in K2 (N.lxor a b) (N.lxor c d).

(** lib.rs:232 [Key2::from_key8]. *)
Definition key2_from_key8 (v : Key8) : Key2 :=
  let 'K8 a b c d e f g h := v in
  K2 (N.lxor (N.lxor (N.lxor a b) c) d) (N.lxor (N.lxor (N.lxor e f) g) h).

(** lib.rs:262 [Key4::from_key8]. *)
Definition key4_from_key8 (v : Key8) : Key4 :=
  let 'K8 a b c d e f g h := v in
  K4 (N.lxor a b) (N.lxor c d) (N.lxor e f) (N.lxor g h).

(** header.rs:77 [VarKey]. *)
Inductive VarKey :=
| VKey1 (k : Key1)
| VKey2 (k : Key2)
| VKey4 (k : Key4)
| VKey8 (k : Key8).

(** header.rs:215 [VarKeyKind]. *)
Inductive VarKeyKind := KK1 | KK2 | KK4 | KK8.

(** Derived [PartialEq] of [VarKeyKind], header.rs:214. *)
Definition kkind_eqb (a b : VarKeyKind) : bool :=
  match a, b with
  | KK1, KK1 | KK2, KK2 | KK4, KK4 | KK8, KK8 => true
  | _, _ => false
  end.

(** lib.rs:208 [Key1::try_from_varkey]. *)
Definition key1_try_from_varkey (v : VarKey) : option Key1 :=
  match v with
  | VKey1 k => Some k
  | VKey2 k => Some (key1_from_key2 k)
  | VKey4 k => Some (key1_from_key4 k)
  | VKey8 k => Some (key1_from_key8 k)
  end.

(** lib.rs:247 [Key2::try_from_varkey]. *)
Definition key2_try_from_varkey (v : VarKey) : option Key2 :=
  match v with
  | VKey1 _ => None
  | VKey2 k => Some k
  | VKey4 k => Some (key2_from_key4 k)
  | VKey8 k => Some (key2_from_key8 k)
  end.

(** lib.rs:277 [Key4::try_from_varkey]. *)
Definition key4_try_from_varkey (v : VarKey) : option Key4 :=
  match v with
  | VKey1 _ => None
  | VKey2 _ => None
  | VKey4 k => Some k
  | VKey8 k => Some (key4_from_key8 k)
  end.

(** lib.rs:318-329 [TryFrom<&VarKey> for Key]; lib.rs:291-316 for the shorter
    keys just wrap [try_from_varkey] ([None] plays the role of [TooSmall]). *)
Definition key8_try_from_varkey (v : VarKey) : option Key8 :=
  match v with
  | VKey8 k => Some k
  | _ => None
  end.

(** Array equality on the raw bytes ([[u8; N]]::eq, [u8]::eq). *)
Definition key1_eqb (x y : Key1) : bool :=
  let 'K1 a := x in let 'K1 a' := y in a =? a'.
Definition key2_eqb (x y : Key2) : bool :=
  let 'K2 a b := x in let 'K2 a' b' := y in (a =? a') && (b =? b').
Definition key4_eqb (x y : Key4) : bool :=
  let 'K4 a b c d := x in let 'K4 a' b' c' d' := y in
  (a =? a') && (b =? b') && (c =? c') && (d =? d').
Definition key8_eqb (x y : Key8) : bool :=
  let 'K8 a b c d e f g h := x in let 'K8 a' b' c' d' e' f' g' h' := y in
  (a =? a') && (b =? b') && (c =? c') && (d =? d') &&
  (e =? e') && (f =? f') && (g =? g') && (h =? h').

(** header.rs:90-154 [impl PartialEq for VarKey]: the sixteen arms in order. *)
Definition varkey_eqb (self other : VarKey) : bool :=
  match self, other with
  | VKey1 a, VKey1 b => key1_eqb a b
  | VKey2 a, VKey2 b => key2_eqb a b
  | VKey4 a, VKey4 b => key4_eqb a b
  | VKey8 a, VKey8 b => key8_eqb a b
  | VKey1 a, VKey2 b => key1_eqb a (key1_from_key2 b)
  | VKey1 a, VKey4 b => key1_eqb a (key1_from_key4 b)
  | VKey1 a, VKey8 b => key1_eqb a (key1_from_key8 b)
  | VKey2 a, VKey1 b => key1_eqb (key1_from_key2 a) b
  | VKey2 a, VKey4 b => key2_eqb a (key2_from_key4 b)
  | VKey2 a, VKey8 b => key2_eqb a (key2_from_key8 b)
  | VKey4 a, VKey1 b => key1_eqb (key1_from_key4 a) b
  | VKey4 a, VKey2 b => key2_eqb (key2_from_key4 a) b
  | VKey4 a, VKey8 b => key4_eqb a (key4_from_key8 b)
  | VKey8 a, VKey1 b => key1_eqb (key1_from_key8 a) b
  | VKey8 a, VKey2 b => key2_eqb (key2_from_key8 a) b
  | VKey8 a, VKey4 b => key4_eqb (key4_from_key8 a) b
  end.

(** header.rs:163-196 [VarKey::shrink_to]; [&mut self] becomes the result. *)
Definition shrink_to (self : VarKey) (kind : VarKeyKind) : VarKey :=
  match self, kind with
  | VKey1 _, _ => self
  | VKey2 k, KK1 => VKey1 (key1_from_key2 k)
  | VKey2 _, _ => self
  | VKey4 k, KK1 => VKey1 (key1_from_key4 k)
  | VKey4 k, KK2 => VKey2 (key2_from_key4 k)
  | VKey4 _, _ => self
  | VKey8 k, KK1 => VKey1 (key1_from_key8 k)
  | VKey8 k, KK2 => VKey2 (key2_from_key8 k)
  | VKey8 k, KK4 => VKey4 (key4_from_key8 k)
  | VKey8 _, KK8 => self
  end.

(** header.rs:199-206 [VarKey::kind]. *)
Definition varkey_kind (v : VarKey) : VarKeyKind :=
  match v with
  | VKey1 _ => KK1
  | VKey2 _ => KK2
  | VKey4 _ => KK4
  | VKey8 _ => KK8
  end.

(** The raw bytes of a variable-length key. *)
Definition varkey_bytes (v : VarKey) : list N :=
  match v with
  | VKey1 k => k1_bytes k
  | VKey2 k => k2_bytes k
  | VKey4 k => k4_bytes k
  | VKey8 k => k8_bytes k
  end.
