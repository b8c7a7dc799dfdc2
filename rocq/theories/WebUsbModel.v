(** Model of the WebUSB transport.
    Source: /repo/source/postcard-rpc/src/host_client/webusb.rs:150-192.

    What the browser does is taken from the WebUSB standard: [transferOut] sends
    the bytes as one bulk transfer (64 byte packets, a last shorter one if the
    length is not a multiple of 64) and adds no empty packet; [transferIn(n)]
    ends at a short packet, or when [n] bytes have arrived, or with status
    "babble" if a packet does not fit in what is left of the [n] bytes.  Packets
    are not lost between two requests: with none outstanding the device is held
    off.  Pairing, opening and claiming (99-149) are not modelled. *)
From Coq Require Import NArith List Bool Arith.
From Verif Require Import UsbModel.
Import ListNotations.

(** 153-160 [send]: one [transfer_out] of the bytes, nothing else. *)
Definition webusb_send (data : list N) : list packet := transfer_packets data.

(** 166-192: results of [receive]: a frame, or [status.into()] for a status other
    than ok (43-53). *)
Inductive WebRes := WebGot (data : list N) | WebErr.

(** 166-192 [receive], called again and again with [transfer_max_length] = [max]
    until an error (the client stops at the first error, host_client/mod.rs in
    [in_worker]).  [acc]: bytes of the current transfer.  Second component: the
    unfinished transfer. *)
Fixpoint webusb_recv (max : nat) (acc : list N) (ps : list packet) : list WebRes * list N :=
  match ps with
  | [] => ([], acc)
  | p :: tl =>
    let acc' := acc ++ p in
    if max <? length acc' then ([WebErr], [])
    else if (length p <? 64) || (length acc' =? max) then
      let (ts, r) := webusb_recv max [] tl in (WebGot acc' :: ts, r)
    else webusb_recv max acc' tl
  end.
