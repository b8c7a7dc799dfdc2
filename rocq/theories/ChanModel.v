(** Model of the in-memory channel transport (both ends).
    Source: /repo/source/postcard-rpc/src/server/impls/test_channels.rs and
    /repo/source/postcard-rpc/src/host_client/test_channels.rs.
    External code: [tokio::sync::mpsc] bounded channels, represented as a FIFO
    queue with a capacity; the sender waits while the queue is full, fails once
    the receiver is gone; the receiver waits while the queue is empty and gets
    [None] once it is empty and every sender is gone. *)
From Coq Require Import NArith List Bool Arith.
From Verif Require Import KeyModel HeaderModel PostcardModel DispatchModel LogModel.
Import ListNotations.
Local Open Scope N_scope.

(** One direction of the link. *)
Record Chan := MkChan {
  ch_cap : nat;              (* capacity given to mpsc::channel *)
  ch_queue : list (list N);
  ch_tx : bool;              (* some sender is alive *)
  ch_rx : bool;              (* the receiver is alive *)
  ch_stop : bool             (* the Stopper, if any, was stopped *)
}.
Definition chan_new (cap : nat) : Chan := MkChan cap [] true true false.

Inductive ChanSend := SentOk | SendClosed | SendWaiting.

(** server test_channels.rs:131-149 [inner_send]: [select!] between the stopper
    and [tx.send]; [prefer_stop] is the branch it polls first (tokio picks at
    random).  The host's [ChannelTx::send] (host test_channels.rs:74-78) is the
    same without a stopper. *)
Definition chan_send (prefer_stop : bool) (msg : list N) (c : Chan) : Chan * ChanSend :=
  if (ch_stop c && prefer_stop)%bool then (c, SendClosed)
  else if negb (ch_rx c) then (c, SendClosed)
  else if (length (ch_queue c) <? ch_cap c)%nat then
    (MkChan (ch_cap c) (ch_queue c ++ [msg]) (ch_tx c) (ch_rx c) (ch_stop c), SentOk)
  else if ch_stop c then (c, SendClosed)
  else (c, SendWaiting).

Inductive ChanRecv := CGot (msg : list N) | CTooLarge | CClosed | CWaiting.

(** server test_channels.rs:254-278 [receive] into a buffer of [buflen] bytes. *)
Definition chan_receive (prefer_stop : bool) (buflen : nat) (c : Chan) : Chan * ChanRecv :=
  if (ch_stop c && prefer_stop)%bool then (c, CClosed)
  else
    match ch_queue c with
    | msg :: q =>
      let c' := MkChan (ch_cap c) q (ch_tx c) (ch_rx c) (ch_stop c) in
      if (length msg <=? buflen)%nat then (c', CGot msg) else (c', CTooLarge)
    | [] =>
      if negb (ch_tx c) then (c, CClosed)
      else if ch_stop c then (c, CClosed)
      else (c, CWaiting)
    end.

(** host test_channels.rs:58-69 [ChannelRx::receive]: no buffer, no stopper. *)
Definition host_receive (c : Chan) : Chan * ChanRecv :=
  match ch_queue c with
  | msg :: q => (MkChan (ch_cap c) q (ch_tx c) (ch_rx c) (ch_stop c), CGot msg)
  | [] => if negb (ch_tx c) then (c, CClosed) else (c, CWaiting)
  end.

(** What can happen to one direction of the link. *)
Inductive ChanOp :=
| OpSend (prefer_stop : bool) (msg : list N)
| OpReceive (prefer_stop : bool) (buflen : nat)
| OpHostReceive
| OpDropTx
| OpDropRx
| OpStop.

Inductive ChanOut := OutSend (msg : list N) (r : ChanSend) | OutRecv (limit : option nat) (r : ChanRecv).

Definition chan_step (o : ChanOp) (c : Chan) : Chan * list ChanOut :=
  match o with
  | OpSend p m => let '(c', r) := chan_send p m c in (c', [OutSend m r])
  | OpReceive p n => let '(c', r) := chan_receive p n c in (c', [OutRecv (Some n) r])
  | OpHostReceive => let '(c', r) := host_receive c in (c', [OutRecv None r])
  | OpDropTx => (MkChan (ch_cap c) (ch_queue c) false (ch_rx c) (ch_stop c), [])
  | OpDropRx => (MkChan (ch_cap c) (ch_queue c) (ch_tx c) false (ch_stop c), [])
  | OpStop => (MkChan (ch_cap c) (ch_queue c) (ch_tx c) (ch_rx c) true, [])
  end.

Fixpoint chan_run (ops : list ChanOp) (c : Chan) : Chan * list ChanOut :=
  match ops with
  | [] => (c, [])
  | o :: tl =>
    let '(c1, e1) := chan_step o c in
    let '(c2, e2) := chan_run tl c1 in
    (c2, e1 ++ e2)
  end.

(** server test_channels.rs:155-165 [send]: header then body. *)
Definition chan_msg (hdr : VarHeader) (body : list N) : list N := write_to_vec hdr ++ body.

(** server test_channels.rs:172-188, 190-211 [send_log_str], [send_log_fmt]: the
    bytes handed to [inner_send], and the counter's next value
    ([fetch_add] on an [AtomicU32] wraps).  [usize] is 64 bits on the host. *)
Definition chan_log (logging_key : Key8) (ctr : N) (kk : VarKeyKind) (s : list N) : list N * N :=
  (chan_msg (MkHeader (const_key kk logging_key) (Seq4 ctr)) (str_enc 8 s), (ctr + 1) mod 4294967296).

Fixpoint chan_logs (logging_key : Key8) (kk : VarKeyKind) (ctr : N) (ss : list (list N)) : list (list N) :=
  match ss with
  | [] => []
  | s :: tl => let '(m, ctr') := chan_log logging_key ctr kk s in m :: chan_logs logging_key kk ctr' tl
  end.
