(** Model of the tasks that share the sender of the embassy-usb server: the mutex, the
    timer of each send, and the setting of that timer.
    Source: /repo/source/postcard-rpc/src/server/impls/embassy_usb_v0_4.rs:240-507. *)
From Coq Require Import NArith List Bool Arith.
From Verif Require Import UsbModel.
Import ListNotations.

(** What a task may ask of the sender (all clones of it share one [inner], 291-293): to send
    the bytes of a message (298-455; the header and the body are already in [msg]: making
    them takes no time and is C57, C46), or to set the time per frame (280-287). *)
Inductive Op := OpSend (msg : list N) | OpSet (ms : N).

(** How a send ends: complete; with an error of the endpoint (480, 487, 495); with the time
    up (505); or dropped by its caller. *)
Inductive TRes := TOk | TClosed | TTimeout | TDropped.

(** What happens, with the time in milliseconds: task [i] asks (its future is first polled);
    it leaves without having had the lock; its send gets the lock; it ends; its setting is made. *)
Inductive Happened :=
  | HAsked (i : nat) (op : Op) (t : N)
  | HLeft (i : nat) (t : N)
  | HBegan (i : nat) (msg : list N) (t : N)
  | HEnded (i : nat) (r : TRes) (t : N)
  | HSet (i : nat) (ms : N) (t : N).

(** A send that has the lock: the packets not yet written (the first of them is being
    written), and when the timer runs out. *)
Record Turn := { t_who : nat; t_msg : list N; t_deadline : N; t_todo : list packet }.

(** [EUsbWireTxInner] (240-247): [pending_frame], [timeout_ms_per_frame], and whether it is
    locked; the tasks that wait for it; the clock; the packets on the wire; what has happened. *)
Record TSt := {
  s_clock : N;
  s_waiting : list (nat * Op);
  s_pending : bool;
  s_per : N;
  s_turn : option Turn;
  s_next : nat;
  s_wire : list packet;
  s_log : list Happened;
}.

(** 40, 153-160, 222-229: a new sender. *)
Definition t_new : TSt :=
  {| s_clock := 0; s_waiting := []; s_pending := false; s_per := 2; s_turn := None; s_next := 0;
     s_wire := []; s_log := [] |}.

Inductive TEv :=
  | Ask (op : Op)                (** a task asks *)
  | Leave (k : nat)              (** a waiting task is dropped *)
  | Grant (k : nat)              (** the [k]-th of the waiting tasks gets the lock; the mutex promises no order *)
  | Tick                         (** a millisecond passes *)
  | Written                      (** the endpoint has taken the packet *)
  | WriteFails (on_wire : bool)  (** the endpoint reports an error *)
  | TimeUp (on_wire : bool)      (** the timer has run out, the write is given up *)
  | Drop (on_wire : bool).       (** the sending task is dropped *)

(** 477-500: the packets that [send_fut] writes. *)
Definition to_write (pending : bool) (out : list N) : list packet :=
  (if pending then [[]] else []) ++ chunks 64 out ++ (if Nat.eqb (Nat.land (length out) 63) 0 then [[]] else []).

Definition log1 (s : TSt) (h : Happened) : TSt :=
  {| s_clock := s_clock s; s_waiting := s_waiting s; s_pending := s_pending s; s_per := s_per s; s_turn := s_turn s;
     s_next := s_next s; s_wire := s_wire s; s_log := s_log s ++ [h] |}.
Definition set_waiting (s : TSt) (w : list (nat * Op)) : TSt :=
  {| s_clock := s_clock s; s_waiting := w; s_pending := s_pending s; s_per := s_per s; s_turn := s_turn s;
     s_next := s_next s; s_wire := s_wire s; s_log := s_log s |}.

(** The guard is dropped: 319, 333 etc., at the end of the send or with its future. *)
Definition end_turn (s : TSt) (t : Turn) (r : TRes) (pending : bool) (w : list packet) : TSt :=
  {| s_clock := s_clock s; s_waiting := s_waiting s; s_pending := pending; s_per := s_per s; s_turn := None;
     s_next := s_next s; s_wire := s_wire s ++ w; s_log := s_log s ++ [HEnded (t_who t) r (s_clock s)] |}.

(** The [k]-th of the waiting, and the others. *)
Fixpoint take_nth (k : nat) (l : list (nat * Op)) : option ((nat * Op) * list (nat * Op)) :=
  match l, k with
  | [], _ => None
  | x :: tl, O => Some (x, tl)
  | x :: tl, S k => match take_nth k tl with Some (y, l') => Some (y, x :: l') | None => None end
  end.

(** The lock is given.  280-287: a setting is made at once.  469-471: an empty message is done
    at once.  473-484: otherwise the timer starts with the first write; [pending_frame] is set
    (at 483, after the empty packet that closes the message before, if it was set already).
    The arithmetic of 473-474 does not overflow (C52).  502: the timer is polled after the
    send, so it runs out when the clock has reached the deadline, if the send is then not
    complete. *)
Definition give (s : TSt) (i : nat) (op : Op) (rest : list (nat * Op)) : TSt :=
  match op with
  | OpSet ms =>
    {| s_clock := s_clock s; s_waiting := rest; s_pending := s_pending s; s_per := clamp_timeout ms; s_turn := None;
       s_next := s_next s; s_wire := s_wire s; s_log := s_log s ++ [HSet i ms (s_clock s)] |}
  | OpSend [] =>
    {| s_clock := s_clock s; s_waiting := rest; s_pending := s_pending s; s_per := s_per s; s_turn := None;
       s_next := s_next s; s_wire := s_wire s; s_log := s_log s ++ [HBegan i [] (s_clock s)] ++ [HEnded i TOk (s_clock s)] |}
  | OpSend msg =>
    {| s_clock := s_clock s; s_waiting := rest; s_pending := true; s_per := s_per s;
       s_turn := Some {| t_who := i; t_msg := msg;
                         t_deadline := s_clock s + (N.of_nat (length msg) + 63) / 64 * s_per s;
                         t_todo := to_write (s_pending s) msg |};
       s_next := s_next s; s_wire := s_wire s; s_log := s_log s ++ [HBegan i msg (s_clock s)] |}
  end.

(** A step; [None]: this cannot happen now.  A timer that has run out is seen before more
    time passes; what the CPU does takes no time. *)
Definition t_step (s : TSt) (e : TEv) : option TSt :=
  match e with
  | Ask op =>
    Some {| s_clock := s_clock s; s_waiting := s_waiting s ++ [(s_next s, op)]; s_pending := s_pending s;
            s_per := s_per s; s_turn := s_turn s; s_next := S (s_next s); s_wire := s_wire s;
            s_log := s_log s ++ [HAsked (s_next s) op (s_clock s)] |}
  | Leave k =>
    match take_nth k (s_waiting s) with
    | Some ((i, _), rest) => Some (log1 (set_waiting s rest) (HLeft i (s_clock s)))
    | None => None
    end
  | Grant k =>
    match s_turn s, take_nth k (s_waiting s) with
    | None, Some ((i, op), rest) => Some (give s i op rest)
    | _, _ => None
    end
  | Tick =>
    if match s_turn s with Some t => (s_clock s <? t_deadline t)%N | None => true end
    then Some {| s_clock := s_clock s + 1; s_waiting := s_waiting s; s_pending := s_pending s; s_per := s_per s;
                 s_turn := s_turn s; s_next := s_next s; s_wire := s_wire s; s_log := s_log s |}
    else None
  | Written =>
    match s_turn s with
    | Some t =>
      match t_todo t with
      | [] => None
      | [p] => Some (end_turn s t TOk false [p])
      | p :: rest =>
        Some {| s_clock := s_clock s; s_waiting := s_waiting s; s_pending := s_pending s; s_per := s_per s;
                s_turn := Some {| t_who := t_who t; t_msg := t_msg t; t_deadline := t_deadline t; t_todo := rest |};
                s_next := s_next s; s_wire := s_wire s ++ [p]; s_log := s_log s |}
      end
    | None => None
    end
  | WriteFails b =>
    match s_turn s with
    | Some t => Some (end_turn s t TClosed (s_pending s) (if b then firstn 1 (t_todo t) else []))
    | None => None
    end
  | TimeUp b =>
    match s_turn s with
    | Some t =>
      if (t_deadline t <=? s_clock s)%N
      then Some (end_turn s t TTimeout (s_pending s) (if b then firstn 1 (t_todo t) else [])) else None
    | None => None
    end
  | Drop b =>
    match s_turn s with
    | Some t => Some (end_turn s t TDropped (s_pending s) (if b then firstn 1 (t_todo t) else []))
    | None => None
    end
  end.

Fixpoint t_run (s : TSt) (es : list TEv) : option TSt :=
  match es with
  | [] => Some s
  | e :: tl => match t_step s e with Some s' => t_run s' tl | None => None end
  end.
