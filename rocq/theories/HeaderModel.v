(** Model of the wire header of postcard-rpc.
    Source: /repo/source/postcard-rpc/src/header.rs *)
From Coq Require Import NArith List Bool.
From Verif Require Import KeyModel.
Import ListNotations.
Local Open Scope N_scope.

(** header.rs:238 [VarSeq]; the payloads are [u8], [u16], [u32]. *)
Inductive VarSeq :=
| Seq1 (v : N)
| Seq2 (v : N)
| Seq4 (v : N).

(** header.rs:342 [VarSeqKind]. *)
Inductive VarSeqKind := SK1 | SK2 | SK4.

(** Range of the payload that the Rust types enforce. *)
Definition seq_ok (s : VarSeq) : Prop :=
  match s with
  | Seq1 v => v < 256
  | Seq2 v => v < 65536
  | Seq4 v => v < 4294967296
  end.

(** header.rs:265-273 [Into<u8>]: [as u8] truncates. *)
Definition seq_into_u8 (s : VarSeq) : N :=
  match s with
  | Seq1 v => v
  | Seq2 v => v mod 256
  | Seq4 v => v mod 256
  end.

(** header.rs:275-283 [Into<u16>]. *)
Definition seq_into_u16 (s : VarSeq) : N :=
  match s with
  | Seq1 v => v
  | Seq2 v => v
  | Seq4 v => v mod 65536
  end.

(** header.rs:285-293 [Into<u32>]. *)
Definition seq_into_u32 (s : VarSeq) : N :=
  match s with
  | Seq1 v => v
  | Seq2 v => v
  | Seq4 v => v
  end.

(** header.rs:295-299 [PartialEq for VarSeq]. *)
Definition seq_eqb (a b : VarSeq) : bool := seq_into_u32 a =? seq_into_u32 b.

(** header.rs:309-333 [VarSeq::resize]; [&mut self] becomes the result. *)
Definition seq_resize (self : VarSeq) (kind : VarSeqKind) : VarSeq :=
  match self, kind with
  | Seq1 _, SK1 => self
  | Seq2 _, SK2 => self
  | Seq4 _, SK4 => self
  | Seq1 s, SK2 => Seq2 s
  | Seq1 s, SK4 => Seq4 s
  | Seq2 s, SK1 => Seq1 (s mod 256)
  | Seq2 s, SK4 => Seq4 s
  | Seq4 s, SK1 => Seq1 (s mod 256)
  | Seq4 s, SK2 => Seq2 (s mod 65536)
  end.

(** header.rs:365 [VarHeader]. *)
Record VarHeader := MkHeader { hdr_key : VarKey; hdr_seq : VarSeq }.

(** header.rs:364 derived [PartialEq for VarHeader]: fields in order. *)
Definition header_eqb (a b : VarHeader) : bool :=
  varkey_eqb (hdr_key a) (hdr_key b) && seq_eqb (hdr_seq a) (hdr_seq b).

(** header.rs:375-397: bit constants. *)
Definition KEY_ONE_BITS : N := 0.
Definition KEY_TWO_BITS : N := 64.
Definition KEY_FOUR_BITS : N := 128.
Definition KEY_EIGHT_BITS : N := 192.
Definition KEY_MASK_BITS : N := 192.
Definition SEQ_ONE_BITS : N := 0.
Definition SEQ_TWO_BITS : N := 16.
Definition SEQ_FOUR_BITS : N := 32.
Definition SEQ_MASK_BITS : N := 48.
Definition VER_ZERO_BITS : N := 0.
Definition VER_MASK_BITS : N := 15.

(** [u16::to_le_bytes], [u32::to_le_bytes], [from_le_bytes] (core library). *)
Definition u16_to_le (v : N) : list N := [v mod 256; (v / 256) mod 256].
Definition u32_to_le (v : N) : list N :=
  [v mod 256; (v / 256) mod 256; (v / 65536) mod 256; (v / 16777216) mod 256].
Definition u16_from_le (a b : N) : N := a + 256 * b.
Definition u32_from_le (a b c d : N) : N :=
  a + 256 * b + 65536 * c + 16777216 * d.

(** [Vec::swap_remove(0)]: the last element replaces the first (core library). *)
Definition swap_remove_0 (l : list N) : list N :=
  match l with
  | [] => []            (* panics in Rust; never called on an empty vector here *)
  | [_] => []
  | _ :: tl => last tl 0 :: removelast tl
  end.

(** header.rs:401-442 [write_to_vec]: placeholder, key, sequence number, then
    discriminant pushed and swapped to the front. *)
Definition write_to_vec (self : VarHeader) : list N :=
  let out := [0] in
  let '(disc_out, out) :=
    match hdr_key self with
    | VKey1 (K1 a) => (KEY_ONE_BITS, out ++ [a])
    | VKey2 k => (KEY_TWO_BITS, out ++ k2_bytes k)
    | VKey4 k => (KEY_FOUR_BITS, out ++ k4_bytes k)
    | VKey8 k => (KEY_EIGHT_BITS, out ++ k8_bytes k)
    end in
  let '(disc_out, out) :=
    match hdr_seq self with
    | Seq1 s => (N.lor disc_out SEQ_ONE_BITS, out ++ [s])
    | Seq2 s => (N.lor disc_out SEQ_TWO_BITS, out ++ u16_to_le s)
    | Seq4 s => (N.lor disc_out SEQ_FOUR_BITS, out ++ u32_to_le s)
    end in
  swap_remove_0 (out ++ [disc_out]).

(** [split_at_mut_checked(n)] / [split_at_checked(n)] / [split_first] (core). *)
Definition split_at_checked (n : nat) (l : list N) : option (list N * list N) :=
  if Nat.leb n (length l) then Some (firstn n l, skipn n l) else None.
Definition split_first (l : list N) : option (N * list N) :=
  match l with
  | [] => None
  | x :: tl => Some (x, tl)
  end.

(** header.rs:451-506 [write_to_slice].  The buffer is threaded explicitly: the
    discriminant cell, then the already written bytes [front], then [remain].
    On success the result is [buf.split_at_mut(used)]: (used bytes, rest).
    ([None] may leave the buffer partially modified, header.rs:449; the
    contents in that case are not modelled since the function only returns
    [None].) *)
Definition write_to_slice (self : VarHeader) (buf : list N)
  : option (list N * list N) :=
  match split_first buf with
  | None => None
  | Some (_, remain) =>
    let keyed :=
      match hdr_key self with
      | VKey1 (K1 a) =>
          match split_first remain with
          | None => None
          | Some (_, remain2) => Some (KEY_ONE_BITS, [a], remain2, 2%nat)
          end
      | VKey2 k =>
          match split_at_checked 2 remain with
          | None => None
          | Some (_, remain2) => Some (KEY_TWO_BITS, k2_bytes k, remain2, 3%nat)
          end
      | VKey4 k =>
          match split_at_checked 4 remain with
          | None => None
          | Some (_, remain2) => Some (KEY_FOUR_BITS, k4_bytes k, remain2, 5%nat)
          end
      | VKey8 k =>
          match split_at_checked 8 remain with
          | None => None
          | Some (_, remain2) => Some (KEY_EIGHT_BITS, k8_bytes k, remain2, 9%nat)
          end
      end in
    match keyed with
    | None => None
    | Some (disc, keybs, remain, used) =>
      let seqed :=
        match hdr_seq self with
        | Seq1 s =>
            match split_first remain with
            | None => None
            | Some (_, rest) => Some (N.lor disc SEQ_ONE_BITS, [s], rest, (used + 1)%nat)
            end
        | Seq2 s =>
            match split_at_checked 2 remain with
            | None => None
            | Some (_, rest) => Some (N.lor disc SEQ_TWO_BITS, u16_to_le s, rest, (used + 2)%nat)
            end
        | Seq4 s =>
            match split_at_checked 4 remain with
            | None => None
            | Some (_, rest) => Some (N.lor disc SEQ_FOUR_BITS, u32_to_le s, rest, (used + 4)%nat)
            end
        end in
      match seqed with
      | None => None
      | Some (disc, seqbs, rest, used) =>
          let buf' := disc :: keybs ++ seqbs ++ rest in
          Some (firstn used buf', skipn used buf')
      end
    end
  end.

(** Result of a function that may also panic ([unreachable!()]). *)
Inductive outcome (A : Type) := Done (x : A) | Panicked.
Arguments Done {A} x.
Arguments Panicked {A}.

(** header.rs:514-576 [take_from_slice].  The key match has an
    [unreachable!()] arm (header.rs:552): modelled by [Panicked]. *)
Definition take_from_slice (buf : list N) : outcome (option (VarHeader * list N)) :=
  match split_first buf with
  | None => Done None
  | Some (disc, remain) =>
    if negb (N.land disc VER_MASK_BITS =? VER_ZERO_BITS) then Done None else
    let kb := N.land disc KEY_MASK_BITS in
    let key : outcome (option (VarKey * list N)) :=
      if kb =? KEY_ONE_BITS then
        match split_first remain with
        | None => Done None
        | Some (a, remain2) => Done (Some (VKey1 (K1 a), remain2))
        end
      else if kb =? KEY_TWO_BITS then
        match split_at_checked 2 remain with
        | Some ([a; b], remain2) => Done (Some (VKey2 (K2 a b), remain2))
        | Some _ => Panicked      (* copy_from_slice length mismatch *)
        | None => Done None
        end
      else if kb =? KEY_FOUR_BITS then
        match split_at_checked 4 remain with
        | Some ([a; b; c; d], remain2) => Done (Some (VKey4 (K4 a b c d), remain2))
        | Some _ => Panicked
        | None => Done None
        end
      else if kb =? KEY_EIGHT_BITS then
        match split_at_checked 8 remain with
        | Some ([a; b; c; d; e; f; g; h], remain2) =>
            Done (Some (VKey8 (K8 a b c d e f g h), remain2))
        | Some _ => Panicked
        | None => Done None
        end
      else Panicked                (* unreachable!() *)
    in
    match key with
    | Panicked => Panicked
    | Done None => Done None
    | Done (Some (key, remain)) =>
      let sb := N.land disc SEQ_MASK_BITS in
      if sb =? SEQ_ONE_BITS then
        match split_first remain with
        | None => Done None
        | Some (s, remain3) => Done (Some (MkHeader key (Seq1 s), remain3))
        end
      else if sb =? SEQ_TWO_BITS then
        match split_at_checked 2 remain with
        | Some ([a; b], remain3) =>
            Done (Some (MkHeader key (Seq2 (u16_from_le a b)), remain3))
        | Some _ => Panicked
        | None => Done None
        end
      else if sb =? SEQ_FOUR_BITS then
        match split_at_checked 4 remain with
        | Some ([a; b; c; d], remain3) =>
            Done (Some (MkHeader key (Seq4 (u32_from_le a b c d)), remain3))
        | Some _ => Panicked
        | None => Done None
        end
      else Done None
    end
  end.

(** host_client/mod.rs:913-917 [RpcFrame::to_bytes]: header then body. *)
Definition frame_to_bytes (h : VarHeader) (body : list N) : list N :=
  write_to_vec h ++ body.
