(** Model of the time that a send of the embassy-usb server may take.
    Source: /repo/source/postcard-rpc/src/server/impls/embassy_usb_v0_4.rs:459-507
    (and embassy_usb_v0_3.rs:412-457, with 2 ms per frame). *)
From Coq Require Import NArith List Bool Arith.
From Verif Require Import UsbModel.
Import ListNotations.

(** embassy_usb_v0_4.rs:477-507: what becomes of the successive writes to the endpoint
    when the timer, started together with the first of them, runs out after [limit] ms,
    [elapsed] of which have passed.  [took]: how long each write takes (writes beyond the
    end of the list take no time), and whether a write given up has put its packet on the
    wire.  [select] polls the send first, so that what is complete when the timer runs out
    counts as complete.  Time is in whole milliseconds; what the CPU does between the
    writes takes no time. *)
Fixpoint writes_in (limit elapsed : N) (took : list (N * bool)) : list WRes :=
  match took with
  | [] => []
  | (t, on_wire) :: tl =>
    if (elapsed + t <=? limit)%N then WDone :: writes_in limit (elapsed + t) tl
    else [WDropped on_wire]
  end.

(** embassy_usb_v0_4.rs:459-507: a send; [per_frame]: [timeout_ms_per_frame].  The
    arithmetic of 473-474 is that of [send_timeout] of UsbModel.v, without overflow
    (C52). *)
Definition timed_send (per_frame : N) (pending : bool) (out : list N) (took : list (N * bool)) : list packet * bool * SendRes :=
  send_all out pending (writes_in ((N.of_nat (length out) + 63) / 64 * per_frame) 0 took).

(** Sends one after the other (304: the mutex). *)
Fixpoint timed_sends (per_frame : N) (pending : bool) (sends : list (list N * list (N * bool))) : bool * list SendRes :=
  match sends with
  | [] => (pending, [])
  | (out, took) :: tl =>
    let '(_, pending', r) := timed_send per_frame pending out took in
    let '(pending'', rs) := timed_sends per_frame pending' tl in (pending'', r :: rs)
  end.
