(** Model of the COBS accumulator and of the serial transport.
    Source: /repo/source/postcard-rpc/src/accumulator.rs and
    /repo/source/postcard-rpc/src/host_client/serial.rs. *)
From Coq Require Import NArith List Bool Arith.
From Verif Require Import HeaderModel CobsModel.
Import ListNotations.
Local Open Scope N_scope.

(** accumulator.rs:13-16 [CobsAccumulator<N>]: the whole buffer, stale bytes
    included, and the fill index. *)
Record Acc := MkAcc { acc_buf : list N; acc_idx : nat }.

(** accumulator.rs:42-47 [new]. *)
Definition acc_new (size : nat) : Acc := MkAcc (repeat 0 size) 0.

(** accumulator.rs:19-38 [FeedResult], with slices as lists. *)
Inductive FeedResult :=
| Consumed
| OverFull (remaining : list N)
| DeserError (remaining : list N)
| Success (data remaining : list N).

(** accumulator.rs:113-117 [extend_unchecked]: [copy_from_slice] into
    [buf[idx..new_end]], which panics if out of range. *)
Definition extend_unchecked (a : Acc) (input : list N) : outcome Acc :=
  let new_end := (acc_idx a + length input)%nat in
  if (new_end <=? length (acc_buf a))%nat then
    Done (MkAcc (firstn (acc_idx a) (acc_buf a) ++ input ++ skipn new_end (acc_buf a)) new_end)
  else Panicked.

(** accumulator.rs:62-106 [feed_ref]; the constant [N] is the buffer length.
    [N - idx] underflows (a panic in checked builds) if [idx > N]; slicing
    [input[new_start..]] panics if [new_start > input.len()]. *)
Definition feed_ref (a : Acc) (input : list N) : outcome (FeedResult * Acc) :=
  let size := length (acc_buf a) in
  match input with
  | [] => Done (Consumed, a)
  | _ =>
    match zero_pos input with
    | Some n =>
      let take := firstn (n + 1) input in
      let release := skipn (n + 1) input in
      if (acc_idx a + length take <=? size)%nat then
        match extend_unchecked a take with
        | Panicked => Panicked
        | Done a1 =>
          (** decoding works on [buf[..idx]]; the rest of the buffer is kept *)
          let '(dec, r) := decode_in_place (firstn (acc_idx a1) (acc_buf a1)) in
          let buf2 := dec ++ skipn (acc_idx a1) (acc_buf a1) in
          match r with
          | Some used => Done (Success (firstn used buf2) release, MkAcc buf2 0)
          | None => Done (DeserError release, MkAcc buf2 0)
          end
        end
      else Done (OverFull release, MkAcc (acc_buf a) 0)
    | None =>
      if (size <? acc_idx a + length input)%nat then
        if (size <? acc_idx a)%nat then Panicked
        else
          let new_start := (size - acc_idx a)%nat in
          if (length input <? new_start)%nat then Panicked
          else Done (OverFull (skipn new_start input), MkAcc (acc_buf a) 0)
      else
        match extend_unchecked a input with
        | Panicked => Panicked
        | Done a1 => Done (Consumed, a1)
        end
    end
  end.

(** What the caller of [feed] sees, without the remainder. *)
Inductive FeedEvent := FOverFull | FBad | FData (data : list N).

(** serial.rs:199-225, the ['cobs] loop: feeds a window and re-feeds the
    remainder until it is used up.  [None]: panic or out of fuel (excluded by
    theorems). *)
Fixpoint feed_window (fuel : nat) (a : Acc) (window : list N) : option (list FeedEvent * Acc) :=
  match window with
  | [] => Some ([], a)
  | _ =>
    match fuel with
    | O => None
    | S fuel' =>
      match feed_ref a window with
      | Panicked => None
      | Done (Consumed, a') => Some ([], a')
      | Done (OverFull w, a') =>
        option_map (fun '(evs, x) => (FOverFull :: evs, x)) (feed_window fuel' a' w)
      | Done (DeserError w, a') =>
        option_map (fun '(evs, x) => (FBad :: evs, x)) (feed_window fuel' a' w)
      | Done (Success d w, a') =>
        option_map (fun '(evs, x) => (FData d :: evs, x)) (feed_window fuel' a' w)
      end
    end
  end.
(** The window is fed with enough fuel for two turns per byte. *)
Definition feed_all (a : Acc) (window : list N) : option (list FeedEvent * Acc) :=
  feed_window (2 * length window + 2) a window.

(** Chunks fed one after the other. *)
Fixpoint feed_chunks (a : Acc) (chunks : list (list N)) : option (list FeedEvent * Acc) :=
  match chunks with
  | [] => Some ([], a)
  | c :: cs =>
    match feed_all a c with
    | None => None
    | Some (evs, a') => option_map (fun '(evs', x) => (evs ++ evs', x)) (feed_chunks a' cs)
    end
  end.

(** serial.rs:144-155 [send_inner]: the bytes written for a message. *)
Definition serial_send (on_empty on_full : bool) (data : list N) : list N :=
  encode on_empty on_full data ++ [0].

(** serial.rs:159-164 [SerialWireRx]: accumulator and queue of received messages
    (the read buffer [buf] is overwritten by each read). *)
Record SerialRx := MkSerial { srx_acc : Acc; srx_pending : list (list N) }.

(** serial.rs:75-80: a new receiver. *)
Definition serial_new : SerialRx := MkSerial (acc_new 1024) [].

(** Outcomes of a read from the port: some bytes (possibly none, at end of file)
    or an error. *)
Inductive PortRead := ReadBytes (bs : list N) | ReadError.
Inductive SerialRes := SGot (data : list N) | SError | SWaiting | SPanic.

(** serial.rs:213-223: messages below nine bytes are dropped. *)
Definition keep_messages (evs : list FeedEvent) : list (list N) :=
  flat_map (fun e => match e with
                     | FData d => if (9 <=? length d)%nat then [d] else []
                     | _ => []
                     end) evs.

(** serial.rs:182-227 [recv_inner].  [SWaiting]: every read so far has been used
    and the call has not returned. *)
Fixpoint serial_recv (s : SerialRx) (reads : list PortRead) : SerialRes * SerialRx * list PortRead :=
  match srx_pending s with
  | p :: ps => (SGot p, MkSerial (srx_acc s) ps, reads)
  | [] =>
    match reads with
    | [] => (SWaiting, s, [])
    | ReadError :: rs => (SError, s, rs)
    | ReadBytes bs :: rs =>
      match feed_all (srx_acc s) bs with
      | None => (SPanic, s, rs)
      | Some (evs, a') => serial_recv (MkSerial a' (keep_messages evs)) rs
      end
    end
  end.

(** Repeated receive calls, until one does not return a message. *)
Fixpoint serial_recvs (n : nat) (s : SerialRx) (reads : list PortRead) : list (list N) * SerialRes :=
  match n with
  | O => ([], SWaiting)
  | S n' =>
    match serial_recv s reads with
    | (SGot d, s', reads') =>
      let '(ds, r) := serial_recvs n' s' reads' in (d :: ds, r)
    | (r, _, _) => ([], r)
    end
  end.
