(** Model of the USB framing on both ends.
    Device: /repo/source/postcard-rpc/src/server/impls/embassy_usb_v0_4.rs:280-287,
    458-507 (transmit) and 580-627 (receive); the same text is in
    embassy_usb_v0_3.rs apart from the fixed 2 ms per frame.
    Host: /repo/source/postcard-rpc/src/host_client/raw_nusb.rs:18-25, 373-402.

    Both ends use bulk endpoints of 64 byte packets (the device code hard-codes
    64); packets arrive in order and unmodified, as USB guarantees. *)
From Coq Require Import NArith List Bool Arith.
Import ListNotations.

Definition packet := list N.

(** Rust [slice::chunks(n)] (fuel: the length of the slice). *)
Fixpoint chunks_fuel (n fuel : nat) (l : list N) : list packet :=
  match fuel, l with
  | O, _ => []
  | _, [] => []
  | S f, _ => firstn n l :: chunks_fuel n f (skipn n l)
  end.
Definition chunks (n : nat) (l : list N) : list packet := chunks_fuel n (length l) l.

(** ** Device transmit *)

(** What can happen to one [ep_in.write(..).await]: it completes; it reports an
    error; or the future is dropped while waiting in it (timeout or
    cancellation).  In the last two cases the packet may or may not have gone
    out. *)
Inductive WRes := WDone | WError (on_wire : bool) | WDropped (on_wire : bool).

(** Result of a send; [SInterrupted] covers the timeout (505) and a caller that
    drops the future. *)
Inductive SendRes := SOk | SClosed | SInterrupted.

(** One write: packets put on the wire, [None] to carry on. *)
Definition write1 (p : packet) (o : WRes) : list packet * option SendRes :=
  match o with
  | WDone => ([p], None)
  | WError b => ((if b then [p] else []), Some SClosed)
  | WDropped b => ((if b then [p] else []), Some SInterrupted)
  end.

(** 485-489: the loop over the chunks.  [os] are the outcomes of the successive
    writes, missing outcomes are [WDone]. *)
Fixpoint write_chunks (chs : list packet) (os : list WRes) : list packet * option SendRes * list WRes :=
  match chs with
  | [] => ([], None, os)
  | ch :: tl =>
    let (w, stop) := write1 ch (hd WDone os) in
    match stop with
    | Some r => (w, Some r, List.tl os)
    | None => let '(w', r, os') := write_chunks tl (List.tl os) in (w ++ w', r, os')
    end
  end.

(** 459-507 [send_all]: packets on the wire, new [pending_frame], result.
    The timer is not modelled: a timeout is a dropped write. *)
Definition send_all (out : list N) (pending : bool) (os : list WRes) : list packet * bool * SendRes :=
  match out with
  | [] => ([], pending, SOk)
  | _ =>
    let '(w0, r0, os0) :=
      if pending then let (w, s) := write1 [] (hd WDone os) in (w, s, List.tl os)
      else ([], None, os) in
    match r0 with
    | Some r => (w0, pending, r)
    | None =>
      let '(w1, r1, os1) := write_chunks (chunks 64 out) os0 in
      match r1 with
      | Some r => (w0 ++ w1, true, r)
      | None =>
        if Nat.eqb (Nat.land (length out) 63) 0 then
          let (w2, r2) := write1 [] (hd WDone os1) in
          match r2 with
          | Some r => (w0 ++ w1 ++ w2, true, r)
          | None => (w0 ++ w1 ++ w2, false, SOk)
          end
        else (w0 ++ w1, false, SOk)
      end
    end
  end.

(** A sequence of sends over the same endpoint (they exclude each other by the
    mutex, 304). *)
Fixpoint send_seq (pending : bool) (sends : list (list N * list WRes)) : list packet * bool * list SendRes :=
  match sends with
  | [] => ([], pending, [])
  | (out, os) :: tl =>
    let '(w, p', r) := send_all out pending os in
    let '(w', p'', rs) := send_seq p' tl in
    (w ++ w', p'', r :: rs)
  end.

(** 280-287, 473-474: the time limit, in [usize] arithmetic of the given width;
    [None] is overflow (a panic in debug builds). *)
Definition clamp_timeout (t : N) : N := N.max (N.min t 60000) 1.
Definition send_timeout (usize_max : N) (len : N) (per_frame : N) : option N :=
  if (usize_max <? len + 63)%N then None else
  let frames := ((len + 63) / 64)%N in
  if (usize_max <? frames * per_frame)%N then None else Some (frames * per_frame)%N.

(** ** Host reassembly of IN transfers *)

(** A bulk IN request of [max] bytes completes at a packet shorter than 64 bytes
    or when it is full (raw_nusb.rs:20-22, 431-434: [max] = 1024; requests are
    queued, so the next packet goes to the next request). *)
Fixpoint host_in (max : nat) (acc : list N) (ps : list packet) : list (list N) * list N :=
  match ps with
  | [] => ([], acc)
  | p :: tl =>
    let acc' := acc ++ p in
    if (length p <? 64) || (max <=? length acc') then
      let (ts, r) := host_in max [] tl in (acc' :: ts, r)
    else host_in max acc' tl
  end.

(** ** Host transmit: raw_nusb.rs:373-402 [send_inner]; a bulk OUT transfer of [n]
    bytes is sent as packets of 64 bytes and a last shorter one if needed; an
    empty transfer is an empty packet. *)
Definition transfer_packets (data : list N) : list packet :=
  match data with [] => [[]] | _ => chunks 64 data end.
Definition nusb_send (mps : option nat) (data : list N) : list packet :=
  let needs_zlp := match mps with Some m => Nat.eqb (length data mod m) 0 | None => true end in
  transfer_packets data ++ (if needs_zlp then transfer_packets [] else []).

(** ** Device receive *)

Inductive OutItem := Pkt (p : packet) | Disabled.
Inductive RecvRes := RGot (frame : list N) | RTooLarge | RClosed | RPending.

(** 613-625: drain loop.  [read(buf)] with a packet larger than the buffer
    reports [BufferOverflow]; whether that packet is consumed depends on the
    driver ([consumes]). *)
Fixpoint drain (consumes : bool) (buflen : nat) (items : list OutItem) : RecvRes * list OutItem :=
  match items with
  | [] => (RPending, [])
  | Disabled :: tl => (RClosed, tl)
  | Pkt p :: tl =>
    if buflen <? length p then (RTooLarge, if consumes then tl else items)
    else if Nat.eqb (length p) 64 then drain consumes buflen tl
    else (RTooLarge, tl)
  end.

(** 591-611: fill the window.  [acc] is what has been received so far; the
    window has [buflen - length acc] bytes. *)
Fixpoint fill (consumes : bool) (buflen : nat) (acc : list N) (items : list OutItem) : RecvRes * list OutItem :=
  let w := buflen - length acc in
  if Nat.eqb w 0 then drain consumes buflen items else
  match items with
  | [] => (RPending, [])
  | Disabled :: tl => (RClosed, tl)
  | Pkt p :: tl =>
    if w <? length p then (RTooLarge, if consumes then tl else items)
    else if Nat.eqb (length p) 64 then fill consumes buflen (acc ++ p) tl
    else (RGot (acc ++ p), tl)
  end.

(** [receive(buf)] *)
Definition receive (consumes : bool) (buflen : nat) (items : list OutItem) : RecvRes * list OutItem :=
  fill consumes buflen [] items.
