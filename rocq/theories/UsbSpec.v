(** Independent specification of USB framing. *)
From Coq Require Import NArith List Arith.
From Verif Require Import UsbModel.
Import ListNotations.

Definition prefix_of (p m : list N) : Prop := exists s, m = p ++ s.

(** Reassembly by an ideal host: a transfer ends at a packet shorter than 64
    bytes.  Second component: the unfinished transfer. *)
Fixpoint transfers (acc : list N) (ps : list packet) : list (list N) * list N :=
  match ps with
  | [] => ([], acc)
  | p :: tl => if length p <? 64 then let (ts, r) := transfers [] tl in ((acc ++ p) :: ts, r)
               else transfers (acc ++ p) tl
  end.

(** Closing what is left of an interrupted message [o]: nothing is seen and [o]
    remains to be closed, or one transfer with a prefix of [o] is seen and
    nothing of it is left. *)
Definition closing (o : option (list N)) (junk : list (list N)) (o' : option (list N)) : Prop :=
  (junk = [] /\ o' = o) \/
  (exists p m, o = Some m /\ prefix_of p m /\ junk = [p] /\ o' = Some []).

(** What a host may see ([ts], and an unfinished transfer [part]) for a sequence
    of sends with these results, when message [o] was interrupted before. *)
Inductive seen : option (list N) -> list (list N * SendRes) -> list (list N) -> list N -> Prop :=
  | seen_end o part :
      (part = [] \/ exists m, o = Some m /\ prefix_of part m) ->
      seen o [] [] part
  | seen_empty o rest ts part :
      seen o rest ts part -> seen o (([], SOk) :: rest) ts part
  | seen_ok m rest ts part :
      (** a completed send is one transfer *)
      m <> [] -> seen None rest ts part ->
      seen None ((m, SOk) :: rest) (m :: ts) part
  | seen_ok_after o p m rest ts part :
      (** after an interruption the remnant is closed first *)
      m <> [] -> prefix_of p o -> seen None rest ts part ->
      seen (Some o) ((m, SOk) :: rest) (p :: m :: ts) part
  | seen_failed_closing o m r rest junk o' ts part :
      (** interrupted while closing the previous message *)
      m <> [] -> r <> SOk -> closing o junk o' -> seen o' rest ts part ->
      seen o ((m, r) :: rest) (junk ++ ts) part
  | seen_failed o m r rest junk o' ts part :
      (** interrupted amid this message *)
      m <> [] -> r <> SOk ->
      match o with None => junk = [] | Some m0 => exists p, prefix_of p m0 /\ junk = [p] end ->
      (o' = Some m /\ seen o' rest ts part \/
       (** interrupted when all of it was already out *)
       o' = Some [] /\ exists ts', ts = m :: ts' /\ seen o' rest ts' part) ->
      seen o ((m, r) :: rest) (junk ++ ts) part.

(** A series of receive calls. *)
Inductive receives (consumes : bool) (buflen : nat) : list OutItem -> list RecvRes -> list OutItem -> Prop :=
  | rcv_nil items : receives consumes buflen items [] items
  | rcv_cons items r items' rs rest :
      receive consumes buflen items = (r, items') -> r <> RPending ->
      receives consumes buflen items' rs rest ->
      receives consumes buflen items (r :: rs) rest.

(** A receive buffer of [buflen] bytes has room for a frame of [len] bytes: the
    end of the frame must be seen before the buffer is full, which takes a short
    packet of its own when the length is a multiple of 64. *)
Definition fits (buflen len : nat) : Prop :=
  len <= buflen /\ ~ (len = buflen /\ len mod 64 = 0).

(** The packets of one frame on the wire. *)
Definition frame_packets (f : list N) : list packet :=
  chunks 64 f ++ (if length f mod 64 =? 0 then [[]] else []).

Inductive subsequence {A} : list A -> list A -> Prop :=
  | sub_nil l : subsequence [] l
  | sub_take x a b : subsequence a b -> subsequence (x :: a) (x :: b)
  | sub_skip x a b : subsequence a b -> subsequence a (x :: b).

(** The messages whose send completed. *)
Definition completed (sends : list (list N * SendRes)) : list (list N) :=
  flat_map (fun '(m, r) => match r, m with SOk, _ :: _ => [m] | _, _ => [] end) sends.
