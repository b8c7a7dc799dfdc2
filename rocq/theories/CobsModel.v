(** Model of the COBS codec used by the serial transport.

    The codec itself is the external crate [cobs] 0.2.3 (its source is not in
    /repo); what is modelled is its published algorithm, as used at
    /repo/source/postcard-rpc/src/host_client/serial.rs:149 ([encode_vec]) and
    /repo/source/postcard-rpc/src/accumulator.rs:80 ([decode_in_place]). *)
From Coq Require Import NArith List Bool Arith.
Import ListNotations.
Local Open Scope N_scope.

(** [encode_vec].  [blk]: the non-zero bytes of the block being built, whose code
    byte ([num_bt_sent], [length blk + 1]) is written when the block ends: at a
    zero, after 254 bytes, or at the end.  Encoders differ in whether an empty
    block is emitted at the end when the message is empty ([on_empty]) or ends
    with a full block ([on_full]); both choices are kept as parameters, and the
    theorems hold for each. *)
Fixpoint encode_from (on_full : bool) (blk m : list N) : list N :=
  match m with
  | [] => N.of_nat (S (length blk)) :: blk
  | b :: m' =>
    if b =? 0 then N.of_nat (S (length blk)) :: blk ++ encode_from on_full [] m'
    else if (length blk =? 253)%nat then
      255 :: blk ++ b :: match m' with
                         | [] => if on_full then [1] else []
                         | _ => encode_from on_full [] m'
                         end
    else encode_from on_full (blk ++ [b]) m'
  end.
Definition encode (on_empty on_full : bool) (m : list N) : list N :=
  match m with
  | [] => if on_empty then [1] else []
  | _ => encode_from on_full [] m
  end.

(** Writes one byte of a buffer. *)
Fixpoint set_at (buf : list N) (i : nat) (v : N) : list N :=
  match buf, i with
  | [], _ => []
  | _ :: tl, O => v :: tl
  | x :: tl, S i' => x :: set_at tl i' v
  end.

(** The inner copy loop: [n] bytes from [src] to [dst] in the same buffer. *)
Fixpoint copy_bytes (n : nat) (buf : list N) (src dst : nat) : list N :=
  match n with
  | O => buf
  | S n' => copy_bytes n' (set_at buf dst (nth src buf 0)) (S src) (S dst)
  end.

(** Position of the first zero byte. *)
Fixpoint zero_pos (l : list N) : option nat :=
  match l with
  | [] => None
  | b :: tl => if b =? 0 then Some O else option_map S (zero_pos tl)
  end.

(** The loop of [decode_in_place]: the source and the destination are the same
    buffer.  Each turn advances [src], so [src_end] turns suffice.  The result is
    the buffer as left behind and, on success, the number of decoded bytes. *)
Fixpoint decode_loop (fuel : nat) (buf : list N) (src dst src_end : nat) : list N * option nat :=
  match fuel with
  | O => (buf, Some dst)
  | S fuel' =>
    if (src <? src_end)%nat then
      let code := N.to_nat (nth src buf 0) in
      if ((src_end <? src + code)%nat && negb (code =? 1)%nat)%bool then (buf, None)
      else
        let n := (code - 1)%nat in
        let buf1 := copy_bytes n buf (S src) dst in
        let src1 := (S src + n)%nat in
        let dst1 := (dst + n)%nat in
        if (negb (code =? 255)%nat && (src1 <? src_end)%nat)%bool
        then decode_loop fuel' (set_at buf1 dst1 0) src1 (S dst1) src_end
        else decode_loop fuel' buf1 src1 dst1 src_end
    else (buf, Some dst)
  end.
Definition decode_in_place (buf : list N) : list N * option nat :=
  let src_end := match zero_pos buf with Some n => n | None => length buf end in
  decode_loop (S src_end) buf 0 0 src_end.
