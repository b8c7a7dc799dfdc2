(** Independent specification of the header wire format. *)
From Coq Require Import NArith List Arith.
From Verif Require Import KeyModel HeaderModel KeySpec.
Import ListNotations.

(** Value of a little-endian byte string. *)
Fixpoint le_value (l : list N) : N :=
  match l with
  | [] => 0
  | b :: tl => b + 256 * le_value tl
  end%N.

(** log2 of the width in bytes: the two-bit codes of the header byte. *)
Definition key_code (k : VarKey) : N :=
  match k with VKey1 _ => 0 | VKey2 _ => 1 | VKey4 _ => 2 | VKey8 _ => 3 end%N.
Definition seq_code (s : VarSeq) : N :=
  match s with Seq1 _ => 0 | Seq2 _ => 1 | Seq4 _ => 2 end%N.

(** Numeric value and width of a sequence number. *)
Definition seq_value (s : VarSeq) : N := match s with Seq1 v | Seq2 v | Seq4 v => v end.
Definition slen (s : VarSeq) : nat := match s with Seq1 _ => 1 | Seq2 _ => 2 | Seq4 _ => 4 end.
Definition sklen (s : VarSeqKind) : nat := match s with SK1 => 1 | SK2 => 2 | SK4 => 4 end.

(** A byte string is the documented encoding of a header: one byte holding the
    key code, the sequence code and version 0, then the key bytes, then the
    sequence number in little-endian order. *)
Definition is_encoding (h : VarHeader) (l : list N) : Prop :=
  exists sb,
    l = (64 * key_code (hdr_key h) + 16 * seq_code (hdr_seq h))%N
        :: varkey_bytes (hdr_key h) ++ sb
    /\ length sb = slen (hdr_seq h)
    /\ Forall byte_ok sb
    /\ le_value sb = seq_value (hdr_seq h).

(** Ranges that the Rust types enforce. *)
Definition key_ok (k : VarKey) : Prop := Forall byte_ok (varkey_bytes k).
Definition header_ok (h : VarHeader) : Prop := key_ok (hdr_key h) /\ seq_ok (hdr_seq h).

(** Length of an encoded header. *)
Definition header_len (h : VarHeader) : nat := 1 + vlen (hdr_key h) + slen (hdr_seq h).

(** A byte string begins with an acceptable header: version 0, sequence code
    not 3, long enough for the announced key and sequence number. *)
Definition acceptable (buf : list N) : Prop :=
  exists d tl, buf = d :: tl
    /\ (d mod 16 = 0)%N
    /\ ((d / 16) mod 4 <> 3)%N
    /\ 2 ^ N.to_nat (d / 64) + 2 ^ N.to_nat ((d / 16) mod 4) <= length tl.
