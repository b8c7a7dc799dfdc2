(** The part of the postcard wire format used by postcard-rpc itself: unsigned
    varints.  The postcard crate is a dependency (not in /repo); its encoder is
    also re-implemented in
    /repo/source/postcard-rpc/src/server/impls/embassy_usb_v0_4.rs:533-563
    ([varint_max], [varint_usize]). *)
From Coq Require Import NArith List Bool Arith.
Import ListNotations.
Local Open Scope N_scope.

(** embassy_usb_v0_4.rs:550-563: up to [max] bytes, 7 bits each, least
    significant group first, high bit set on all but the last. *)
Fixpoint varint_enc (max : nat) (value : N) : list N :=
  match max with
  | O => []
  | S max' =>
    if value <? 128 then [value mod 256]
    else (N.lor (value mod 256) 128) :: varint_enc max' (value / 128)
  end.

(** postcard [try_take_varint_*]: at most [max] bytes are read; the last allowed
    byte must not exceed [last_max].  [i] counts bytes read so far. *)
Fixpoint varint_dec (max : nat) (i : N) (last_max : N) (l : list N) : option (N * list N) :=
  match max, l with
  | O, _ => None
  | _, [] => None
  | S max', b :: tl =>
    let carry := (b mod 128) * 2 ^ (7 * i) in
    if b <? 128 then
      match max' with
      | O => if last_max <? b then None else Some (carry, tl)
      | _ => Some (carry, tl)
      end
    else
      match varint_dec max' (i + 1) last_max tl with
      | Some (v, r) => Some (carry + v, r)
      | None => None
      end
  end.

Definition u32_varint (v : N) : list N := varint_enc 5 v.
Definition u64_varint (v : N) : list N := varint_enc 10 v.
Definition take_u32 (l : list N) : option (N * list N) := varint_dec 5 0 15 l.
Definition take_u64 (l : list N) : option (N * list N) := varint_dec 10 0 1 l.

(** postcard [from_bytes::<u32>]: trailing bytes are ignored. *)
Definition from_bytes_u32 (l : list N) : option N :=
  match take_u32 l with Some (v, _) => Some v | None => None end.
