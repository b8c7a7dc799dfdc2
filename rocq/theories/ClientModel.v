(** Model of the host client: requests, publications, the two workers and closing.
    Source: /repo/source/postcard-rpc/src/host_client/mod.rs:185-464, 760-790,
    940-975 and /repo/source/postcard-rpc/src/host_client/util.rs:153-341.
    Subscriptions are in SubModel.v.

    The client is a transition system.  A label names one atomic step of one of the
    concurrent activities (a request future, a publish future, a worker, the user);
    [step] says whether it is possible and what it does.  A history is any sequence
    of possible steps, so theorems hold for every interleaving and scheduling.

    External code, from its documentation:
    - [maitake_sync::WaitMap]: [enqueue] fails with [Duplicate] if an equal key is
      waiting; [wake] hands the value to one waiter with an equal key and removes
      it, or reports that there is none; a dropped waiter is removed.  Equality is
      the client's own [VarHeader::eq].  If several waiters match, which one is
      woken is left open (a choice in the label).
    - [tokio::sync::mpsc]: as in SubModel.v; [send] waits for room, and fails once
      the receiver is gone.
    - [tokio::select!] without [biased]: any ready branch may be taken.
    - [AtomicU32::fetch_add] wraps. *)
From Coq Require Import NArith List Bool Arith.
From Verif Require Import KeyModel HeaderModel SubModel.
Import ListNotations.

(** One waiter in the WaitMap: its key, and which future it belongs to. *)
Record Waiter := MkWaiter { w_hdr : VarHeader; w_req : nat; w_err : bool }.

(** Where a request future stands (mod.rs:354-427). *)
Inductive Pc :=
| PStart                     (* header and body are made (mod.rs:335-346) *)
| PKind (kk : VarKeyKind)    (* key length read (360) *)
| POkReg (kk : VarKeyKind)   (* reply registered (382) *)
| PReg (kk : VarKeyKind)     (* error reply registered (383) *)
| PSent (kk : VarKeyKind)    (* request handed to the out worker (407) *)
| PEnded.                    (* returned or dropped *)

Record Req := MkReq {
  rq_frame : RpcFrame;          (* the request; its key is shrunk at [PKind] *)
  rq_resp : Key8;               (* key of the reply *)
  rq_pc : Pc;
  rq_ok : option RpcFrame;      (* value handed to the reply waiter *)
  rq_err : option RpcFrame      (* value handed to the error waiter *)
}.

(** How [send_resp_raw] returns; for [GotError] the body remains to be decoded
    (mod.rs:423-424, see [wire_result]). *)
Inductive ReqResult := GotReply (f : RpcFrame) | GotError (f : RpcFrame) | BadResponse | Closed.

Record Client := MkClient {
  c_kkind : VarKeyKind;         (* ctx.kkind *)
  c_seq : N;                    (* ctx.seq *)
  c_waiters : list Waiter;      (* ctx.map *)
  c_reqs : list Req;            (* all request futures so far *)
  c_pubs : list (option RpcFrame);  (* publish futures still waiting to send *)
  c_out : list RpcFrame;        (* the outgoing channel *)
  c_sending : option RpcFrame;  (* being written by the out worker *)
  c_out_alive : bool;           (* the out worker runs *)
  c_offer : option RpcFrame;    (* in worker: about to call process_did_wake *)
  c_in_alive : bool;            (* the in worker runs *)
  c_stopped : bool;             (* the Stopper *)
  c_subs : Subs
}.

(** mod.rs:193-214 [new_manual_priv]. *)
Definition client_new : Client :=
  MkClient KK8 0 [] [] [] [] None true None true false subs_new.

Inductive Label :=
| LRequest (req_key resp_key : Key8) (body : list N)   (* send_resp *)
| LRequestRaw (f : RpcFrame) (resp_key : Key8)         (* send_resp_raw *)
| LKind (r : nat) | LEnqOk (r : nat) | LEnqErr (r : nat) | LSend (r : nat)
| LTakeOk (r : nat) | LTakeErr (r : nat) | LTakeClosed (r : nat)
| LCancel (r : nat)
| LPublish (f : RpcFrame)                              (* publish, publish_raw *)
| LPubSend (i : nat) | LPubClosed (i : nat) | LPubCancel (i : nat)
| LOutPop | LOutSent | LOutFail (reached : bool) | LOutEnd (reached : bool)
| LRecv (bytes : list N) | LWake (choice : option nat) | LUnblock (w : WaitEnd)
| LInFail | LInEnd | LPurge
| LSub (o : SubOp) | LSubClosed
| LClose.

(** What can be seen from outside. *)
Inductive Ev :=
| EvWire (bytes : list N)               (* a frame was given to the transport *)
| EvResult (r : nat) (res : ReqResult)  (* request [r] returned *)
| EvPublished (i : nat) (ok : bool)     (* publication [i] returned *)
| EvSub (o : SubOut)                    (* a subscription call returned *)
| EvDiscarded (f : RpcFrame).           (* an incoming frame interested nobody *)

(** util.rs:74-88 [HostClientConfig] and its use in mod.rs:193-214: [err_key] is
    [Key::for_path::<WireErr>(err_uri_path)]; [no_wait]: the subscription timeout is
    zero; [seq_kind] is stored by the client and never read.  An [outgoing_depth] of 0
    makes [tokio::sync::mpsc::channel] panic at construction; a model client with
    depth 0 simply never sends. *)
Record Config := MkConfig {
  cfg_err_key : Key8;
  cfg_depth : nat;
  cfg_no_wait : bool;
  cfg_seq_kind : VarSeqKind
}.

Section Client.
  Variable cfg : Config.

  Definition set_req (r : nat) (q : Req) (c : Client) : Client :=
    MkClient (c_kkind c) (c_seq c) (c_waiters c) (set_nth r q (c_reqs c)) (c_pubs c) (c_out c) (c_sending c)
             (c_out_alive c) (c_offer c) (c_in_alive c) (c_stopped c) (c_subs c).
  Definition set_waiters (ws : list Waiter) (c : Client) : Client :=
    MkClient (c_kkind c) (c_seq c) ws (c_reqs c) (c_pubs c) (c_out c) (c_sending c)
             (c_out_alive c) (c_offer c) (c_in_alive c) (c_stopped c) (c_subs c).
  Definition set_kkind (k : VarKeyKind) (c : Client) : Client :=
    MkClient k (c_seq c) (c_waiters c) (c_reqs c) (c_pubs c) (c_out c) (c_sending c)
             (c_out_alive c) (c_offer c) (c_in_alive c) (c_stopped c) (c_subs c).
  Definition set_out (q : list RpcFrame) (c : Client) : Client :=
    MkClient (c_kkind c) (c_seq c) (c_waiters c) (c_reqs c) (c_pubs c) q (c_sending c)
             (c_out_alive c) (c_offer c) (c_in_alive c) (c_stopped c) (c_subs c).
  Definition set_pubs (p : list (option RpcFrame)) (c : Client) : Client :=
    MkClient (c_kkind c) (c_seq c) (c_waiters c) (c_reqs c) p (c_out c) (c_sending c)
             (c_out_alive c) (c_offer c) (c_in_alive c) (c_stopped c) (c_subs c).
  Definition set_in (offer : option RpcFrame) (s : Subs) (c : Client) : Client :=
    MkClient (c_kkind c) (c_seq c) (c_waiters c) (c_reqs c) (c_pubs c) (c_out c) (c_sending c)
             (c_out_alive c) offer (c_in_alive c) (c_stopped c) s.

  (** Dropping the two [Wait] futures of request [r]. *)
  Definition drop_waiters (r : nat) (ws : list Waiter) : list Waiter := filter (fun w => negb (w_req w =? r)) ws.

  (** The future of request [r] returns or is dropped. *)
  Definition end_req (r : nat) (q : Req) (c : Client) : Client :=
    set_waiters (drop_waiters r (c_waiters c)) (set_req r (MkReq (rq_frame q) (rq_resp q) PEnded None None) c).

  Definition with_pc (q : Req) (p : Pc) : Req := MkReq (rq_frame q) (rq_resp q) p (rq_ok q) (rq_err q).

  (** mod.rs:361-378: the headers waited for. *)
  Definition ok_header (q : Req) (kk : VarKeyKind) : VarHeader :=
    MkHeader (shrink_to (VKey8 (rq_resp q)) kk) (hdr_seq (f_hdr (rq_frame q))).
  Definition err_header (q : Req) (kk : VarKeyKind) : VarHeader :=
    MkHeader (shrink_to (VKey8 (cfg_err_key cfg)) kk) (hdr_seq (f_hdr (rq_frame q))).

  (** [key.shrink_to(kkind)] on a frame (mod.rs:361, 452). *)
  Definition shrink_frame (kk : VarKeyKind) (f : RpcFrame) : RpcFrame :=
    MkFrame (MkHeader (shrink_to (hdr_key (f_hdr f)) kk) (hdr_seq (f_hdr f))) (f_body f).

  (** [WaitMap::enqueue]. *)
  Definition is_duplicate (h : VarHeader) (ws : list Waiter) : bool := existsb (fun w => header_eqb (w_hdr w) h) ws.

  (** mod.rs:412-424: [if hdr.key.kind() != kkind { write }]; [kk] is the length
      this request read at its start. *)
  Definition adopt (kk : VarKeyKind) (f : RpcFrame) (c : Client) : Client :=
    let k := varkey_kind (hdr_key (f_hdr f)) in
    if negb (kkind_eqb k kk) then set_kkind k c else c.

  Definition new_request (f : RpcFrame) (resp : Key8) (c : Client) (seq : N) : Client :=
    MkClient (c_kkind c) seq (c_waiters c) (c_reqs c ++ [MkReq f resp PStart None None]) (c_pubs c) (c_out c) (c_sending c)
             (c_out_alive c) (c_offer c) (c_in_alive c) (c_stopped c) (c_subs c).

  (** The out worker is gone: its end of the channel with it. *)
  Definition out_gone (stopped : bool) (c : Client) : Client :=
    MkClient (c_kkind c) (c_seq c) (c_waiters c) (c_reqs c) (c_pubs c) [] None
             false (c_offer c) (c_in_alive c) stopped (c_subs c).

  (** The in worker's loop is over (its locks are released, nothing purged yet). *)
  Definition in_gone (stopped : bool) (c : Client) : Client :=
    let s := c_subs c in
    MkClient (c_kkind c) (c_seq c) (c_waiters c) (c_reqs c) (c_pubs c) (c_out c) (c_sending c)
             (c_out_alive c) None false stopped
             (MkSubs (exclusive_list s) (broadcast_list s) (s_stopped s) (s_chans s) (s_bcasts s) (s_mrxs s) None).

  (** Calls a user can make on subscriptions (not the worker's own steps). *)
  Definition user_op (o : SubOp) : bool :=
    match o with Deliver _ | Unblock _ | StopWorker => false | _ => true end.

  Definition step (l : Label) (c : Client) : option (Client * list Ev) :=
    match l with
    (** mod.rs:335-347 [send_resp] *)
    | LRequest req resp body =>
      Some (new_request (MkFrame (MkHeader (VKey8 req) (Seq4 (c_seq c))) body) resp c ((c_seq c + 1) mod 4294967296)%N, [])
    | LRequestRaw f resp => Some (new_request f resp c (c_seq c), [])
    (** mod.rs:360-365 *)
    | LKind r =>
      match nth_error (c_reqs c) r with
      | Some q =>
        match rq_pc q with
        | PStart => Some (set_req r (MkReq (shrink_frame (c_kkind c) (rq_frame q)) (rq_resp q) (PKind (c_kkind c)) (rq_ok q) (rq_err q)) c, [])
        | _ => None
        end
      | None => None
      end
    (** mod.rs:370-405: registering the two waits *)
    | LEnqOk r =>
      match nth_error (c_reqs c) r with
      | Some q =>
        match rq_pc q with
        | PKind kk =>
          if is_duplicate (ok_header q kk) (c_waiters c) then Some (end_req r q c, [EvResult r BadResponse])
          else Some (set_waiters (c_waiters c ++ [MkWaiter (ok_header q kk) r false]) (set_req r (with_pc q (POkReg kk)) c), [])
        | _ => None
        end
      | None => None
      end
    | LEnqErr r =>
      match nth_error (c_reqs c) r with
      | Some q =>
        match rq_pc q with
        | POkReg kk =>
          if is_duplicate (err_header q kk) (c_waiters c) then Some (end_req r q c, [EvResult r BadResponse])
          else Some (set_waiters (c_waiters c ++ [MkWaiter (err_header q kk) r true]) (set_req r (with_pc q (PReg kk)) c), [])
        | _ => None
        end
      | None => None
      end
    (** mod.rs:407 *)
    | LSend r =>
      match nth_error (c_reqs c) r with
      | Some q =>
        match rq_pc q with
        | PReg kk =>
          if negb (c_out_alive c) then Some (end_req r q c, [EvResult r Closed])
          else if length (c_out c) <? cfg_depth cfg then
            Some (set_out (c_out c ++ [rq_frame q]) (set_req r (with_pc q (PSent kk)) c), [])
          else None
        | _ => None
        end
      | None => None
      end
    (** mod.rs:409-427: the three branches of the select *)
    | LTakeOk r =>
      match nth_error (c_reqs c) r with
      | Some q =>
        match rq_pc q, rq_ok q with
        | PSent kk, Some f => Some (adopt kk f (end_req r q c), [EvResult r (GotReply f)])
        | _, _ => None
        end
      | None => None
      end
    | LTakeErr r =>
      match nth_error (c_reqs c) r with
      | Some q =>
        match rq_pc q, rq_err q with
        | PSent kk, Some f => Some (adopt kk f (end_req r q c), [EvResult r (GotError f)])
        | _, _ => None
        end
      | None => None
      end
    | LTakeClosed r =>
      match nth_error (c_reqs c) r with
      | Some q =>
        match rq_pc q with
        | PSent _ => if c_stopped c then Some (end_req r q c, [EvResult r Closed]) else None
        | _ => None
        end
      | None => None
      end
    (** the user drops the future *)
    | LCancel r =>
      match nth_error (c_reqs c) r with
      | Some q => match rq_pc q with PEnded => None | _ => Some (end_req r q c, []) end
      | None => None
      end
    (** mod.rs:433-464 *)
    | LPublish f => Some (set_pubs (c_pubs c ++ [Some (shrink_frame (c_kkind c) f)]) c, [])
    | LPubSend i =>
      match nth_error (c_pubs c) i with
      | Some (Some f) =>
        if negb (c_out_alive c) then Some (set_pubs (set_nth i None (c_pubs c)) c, [EvPublished i false])
        else if length (c_out c) <? cfg_depth cfg then
          Some (set_out (c_out c ++ [f]) (set_pubs (set_nth i None (c_pubs c)) c), [EvPublished i true])
        else None
      | _ => None
      end
    | LPubClosed i =>
      match nth_error (c_pubs c) i with
      | Some (Some f) => if c_stopped c then Some (set_pubs (set_nth i None (c_pubs c)) c, [EvPublished i false]) else None
      | _ => None
      end
    | LPubCancel i =>
      match nth_error (c_pubs c) i with
      | Some (Some f) => Some (set_pubs (set_nth i None (c_pubs c)) c, [])
      | _ => None
      end
    (** util.rs:153-185 *)
    | LOutPop =>
      match c_sending c, c_out c with
      | None, f :: q =>
        if c_out_alive c then
          Some (MkClient (c_kkind c) (c_seq c) (c_waiters c) (c_reqs c) (c_pubs c) q (Some f)
                         (c_out_alive c) (c_offer c) (c_in_alive c) (c_stopped c) (c_subs c), [])
        else None
      | _, _ => None
      end
    | LOutSent =>
      match c_sending c with
      | Some f =>
        Some (MkClient (c_kkind c) (c_seq c) (c_waiters c) (c_reqs c) (c_pubs c) (c_out c) None
                       (c_out_alive c) (c_offer c) (c_in_alive c) (c_stopped c) (c_subs c), [EvWire (rpc_to_bytes f)])
      | None => None
      end
    (** A send that failed, or was given up, may have reached the other side. *)
    | LOutFail reached =>
      match c_sending c with
      | Some f => Some (out_gone true c, if reached then [EvWire (rpc_to_bytes f)] else [])
      | None => None
      end
    | LOutEnd reached =>
      if (c_stopped c && c_out_alive c)%bool then
        Some (out_gone true c, match c_sending c with Some f => if reached then [EvWire (rpc_to_bytes f)] else [] | None => [] end)
      else None
    (** util.rs:223-341 *)
    | LRecv bytes =>
      match c_offer c with
      | Some _ => None
      | None =>
        if (negb (c_in_alive c) || blocked (c_subs c))%bool then None
        else
          match take_from_slice bytes with
          | Panicked => None
          | Done None => Some (c, [])
          | Done (Some (hdr, body)) =>
            match sub_step (cfg_no_wait cfg) (Deliver (MkFrame hdr body)) (c_subs c) with
            | Some (s, ODelivery NotHandled) => Some (set_in (Some (MkFrame hdr body)) s c, [])
            | Some (s, _) => Some (set_in None s c, [])
            | None => None
            end
          end
      end
    | LUnblock w =>
      match sub_step (cfg_no_wait cfg) (Unblock w) (c_subs c) with
      | Some (s, _) => if c_in_alive c then Some (set_in (c_offer c) s c, []) else None
      | None => None
      end
    (** mod.rs:952-958 [process_did_wake]; the map is never closed *)
    | LWake choice =>
      match c_offer c with
      | None => None
      | Some f =>
        match choice with
        | None =>
          if existsb (fun w => header_eqb (w_hdr w) (f_hdr f)) (c_waiters c) then None
          else Some (set_in None (c_subs c) c, [EvDiscarded f])
        | Some i =>
          match nth_error (c_waiters c) i with
          | Some w =>
            if header_eqb (w_hdr w) (f_hdr f) then
              let ws := firstn i (c_waiters c) ++ skipn (S i) (c_waiters c) in
              match nth_error (c_reqs c) (w_req w) with
              | Some q =>
                let q' := if w_err w then MkReq (rq_frame q) (rq_resp q) (rq_pc q) (rq_ok q) (Some f)
                          else MkReq (rq_frame q) (rq_resp q) (rq_pc q) (Some f) (rq_err q) in
                Some (set_in None (c_subs c) (set_waiters ws (set_req (w_req w) q' c)), [])
              | None => None
              end
            else None
          | None => None
          end
        end
      end
    (** util.rs:188-213 *)
    | LInFail =>
      match c_offer c with
      | Some _ => None
      | None => if (negb (c_in_alive c) || blocked (c_subs c))%bool then None else Some (in_gone true c, [])
      end
    | LInEnd => if (c_stopped c && c_in_alive c)%bool then Some (in_gone true c, []) else None
    | LPurge => if c_in_alive c then None else Some (set_in (c_offer c) (stop_subs (c_subs c)) c, [])
    | LSub o =>
      if user_op o then
        match sub_step (cfg_no_wait cfg) o (c_subs c) with
        | Some (s, out) => Some (set_in (c_offer c) s c, [EvSub out])
        | None => None
        end
      else None
    (** mod.rs:480-483, 526-529, 576-579, 628-631, 677-680, 732-735: a subscribe call, still
        waiting for its turn or not, may be given up once the client is stopped *)
    | LSubClosed => if c_stopped c then Some (c, [EvSub (ORes IoClosed)]) else None
    (** mod.rs:767 [close] *)
    | LClose =>
      Some (MkClient (c_kkind c) (c_seq c) (c_waiters c) (c_reqs c) (c_pubs c) (c_out c) (c_sending c)
                     (c_out_alive c) (c_offer c) (c_in_alive c) true (c_subs c), [])
    end.

  (** A history: every step possible; what was seen, step by step. *)
  Fixpoint run (ls : list Label) (c : Client) : option (Client * list (list Ev)) :=
    match ls with
    | [] => Some (c, [])
    | l :: tl =>
      match step l c with
      | None => None
      | Some (c1, e) =>
        match run tl c1 with
        | None => None
        | Some (c2, es) => Some (c2, e :: es)
        end
      end
    end.

  (** mod.rs:772 [is_closed]. *)
  Definition is_closed (c : Client) : bool := c_stopped c.

  (** What the caller finally sees: mod.rs:423-424 for errors, mod.rs:347-349 for
      the typed reply. *)
  Inductive HostResult (A E : Type) := HOk (v : A) | HWire (e : E) | HPostcard | HBadResponse | HClosed.
  Definition host_result {A E} (dec_resp : list N -> option A) (dec_err : list N -> option E) (r : ReqResult) : HostResult A E :=
    match r with
    | GotReply f => match dec_resp (f_body f) with Some v => HOk _ _ v | None => HPostcard _ _ end
    | GotError f => match dec_err (f_body f) with Some e => HWire _ _ e | None => HPostcard _ _ end
    | BadResponse => HBadResponse _ _
    | Closed => HClosed _ _
    end.
End Client.
