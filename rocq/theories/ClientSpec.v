(** Specification vocabulary for the client: what a history shows. *)
From Coq Require Import NArith List Bool Arith.
From Verif Require Import KeyModel HeaderModel HeaderSpec SubModel SubSpec ClientModel.
Import ListNotations.

(** Frames received, in order (bytes without a valid header are no frame). *)
Definition frame_of (bytes : list N) : list RpcFrame :=
  match take_from_slice bytes with
  | Done (Some (h, b)) => [MkFrame h b]
  | _ => []
  end.
Definition arrived (ls : list Label) : list RpcFrame :=
  flat_map (fun l => match l with LRecv bytes => frame_of bytes | _ => [] end) ls.

(** Requests made, in order: the frame to be sent and the key of the reply.  Typed
    requests are numbered from [n] on, modulo 2^32. *)
Fixpoint issued (n : N) (ls : list Label) : list (RpcFrame * Key8) :=
  match ls with
  | [] => []
  | LRequest req resp body :: tl => (MkFrame (MkHeader (VKey8 req) (Seq4 (n mod 4294967296))) body, resp) :: issued (n + 1) tl
  | LRequestRaw f resp :: tl => (f, resp) :: issued n tl
  | _ :: tl => issued n tl
  end.
(** Publications made, in order. *)
Definition published (ls : list Label) : list RpcFrame :=
  flat_map (fun l => match l with LPublish f => [f] | _ => [] end) ls.

(** Results returned to callers, in order. *)
Definition results (es : list (list Ev)) : list (nat * ReqResult) :=
  flat_map (fun e => match e with EvResult r res => [(r, res)] | _ => [] end) (concat es).
(** The frames with which requests completed. *)
Definition answers (es : list (list Ev)) : list RpcFrame :=
  flat_map (fun p => match snd p with GotReply f => [f] | GotError f => [f] | _ => [] end) (results es).
(** What was given to the transport, in order. *)
Definition wire (es : list (list Ev)) : list (list N) :=
  flat_map (fun e => match e with EvWire b => [b] | _ => [] end) (concat es).

(** Frame [f] answers a request with key [k] and sequence number [seq], as seen by a
    client that compares at most as many key bytes as the key length [kk] has: same
    sequence number, and the keys agree at the shorter of the two lengths. *)
Definition answers_to (kk : VarKeyKind) (k : Key8) (seq : VarSeq) (f : RpcFrame) : Prop :=
  seq_value (hdr_seq (f_hdr f)) = seq_value seq /\
  varkey_eqb (shrink_to (VKey8 k) kk) (hdr_key (f_hdr f)) = true.

(** Key lengths a client may be using: the full length or one seen in a frame with
    which a request completed. *)
Definition kind_seen (es : list (list Ev)) (kk : VarKeyKind) : Prop :=
  kk = KK8 \/ exists f, In f (answers es) /\ varkey_kind (hdr_key (f_hdr f)) = kk.

(** The request is registered for its reply and has not been handed any. *)
Definition awaiting (c : Client) (r : nat) : Prop :=
  exists q kk, nth_error (c_reqs c) r = Some q /\
    (rq_pc q = POkReg kk \/ rq_pc q = PReg kk \/ rq_pc q = PSent kk) /\ rq_ok q = None.

(** The number of typed requests in a history. *)
Definition is_typed (l : Label) : bool := match l with LRequest _ _ _ => true | _ => false end.
Definition typed (ls : list Label) : nat := length (filter is_typed ls).

(** Request [r] has returned or was dropped. *)
Definition ended (c : Client) (r : nat) : Prop := exists q, nth_error (c_reqs c) r = Some q /\ rq_pc q = PEnded.

(** Calls whose frame was accepted for sending, in order: requests ([inl]) and
    publications ([inr]). *)
Fixpoint accepted (ls : list Label) (es : list (list Ev)) : list (nat + nat) :=
  match ls, es with
  | LSend r :: tl, [] :: es' => inl r :: accepted tl es'
  | LPubSend i :: tl, [EvPublished _ true] :: es' => inr i :: accepted tl es'
  | _ :: tl, _ :: es' => accepted tl es'
  | _, _ => []
  end.
(** [f] is the frame of such a call: what the caller gave, with the key cut to a key
    length in use. *)
Definition frame_for (ls : list Label) (es : list (list Ev)) (x : nat + nat) (f : RpcFrame) : Prop :=
  exists g kk, kind_seen es kk /\ f = shrink_frame kk g /\
    match x with
    | inl r => exists resp, nth_error (issued 0 ls) r = Some (g, resp)
    | inr i => nth_error (published ls) i = Some g
    end.

Definition opt {A} (o : option A) : list A := match o with Some x => [x] | None => [] end.
