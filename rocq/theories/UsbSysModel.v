(** The whole system over USB: the host client (ClientModel.v) with the nusb transport
    (raw_nusb.rs) and the server, await by await (AsyncModel.v), on the embassy USB
    transport (embassy_usb_v0_4.rs), joined by two streams of USB packets.

    Nothing is new here but the composition: messages are built by [usb_send]
    (LogModel.v), sent by [send_all] (UsbModel.v), collected into transfers as by
    [host_in] (UsbModel.v), and received by [recv] (NusbRxModel.v); the client sends
    by [nusb_send] and the device receives by [receive] (UsbModel.v).

    Simplified: the link is never reset.  Log calls (LogModel.v) are transmissions on the
    logging topic like others: LogSysModel.v.
    That packets arrive in order, once and unchanged is what USB guarantees.  Assumed of
    the host's USB stack: when a transfer fails, the one queued behind it on the same
    endpoint (the empty packet of raw_nusb.rs:384) does not go out. *)
From Coq Require Import NArith List Bool Arith.
From Verif Require Import KeyModel HeaderModel MinKeyModel SchemaModel MacroModel DispatchModel SubModel ClientModel
  UsbModel UsbSpec NusbRxModel LogModel SystemModel AsyncModel.
Import ListNotations.

Section UsbSys.
  Variable Val Ctx SCtx : Type.
  Variable std : StdKeys.
  Variable can_spawn : Trace Val SCtx -> nat -> bool.
  Variable kkind : VarKeyKind.
  Variable spawn_ctxt : Ctx -> Ctx * SCtx.
  Variable d : Dispatcher Val Ctx.
  Variable enc : Payload Val -> list N.
  Variable task : nat -> SCtx -> VarHeader -> Val -> HProg Val unit.
  Variable cfg : Config.

  (** The sizes of the device's transmit and receive buffers, the behaviour of its
      driver with oversized packets, and the packet size the host knows of. *)
  Variable txlen rxlen : nat.
  Variable consumes : bool.
  Variable mps : option nat.
  (** What becomes of the writes of the [n]th message the device sends. *)
  Variable outcome : nat -> list WRes.

  (** raw_nusb.rs:20 [MAX_TRANSFER_SIZE] *)
  Definition MAX_TRANSFER_SIZE : nat := 1024.

  (** ** The device's end *)

  (** embassy_usb_v0_4.rs:297-323 [send] up to [send_all]; a message that does not fit
      is not sent (what the buffer holds before does not matter, C57). *)
  Definition prepared (h : VarHeader) (p : Payload Val) : Prepared := usb_send (repeat 0%N txlen) h (enc p).
  Definition message (h : VarHeader) (p : Payload Val) : list N :=
    match prepared h p with Transmit b => b | RefusedOther => [] end.

  (** The messages given to [send_all] in a stretch of server history, with what
      became of their writes; [n] messages were sent before. *)
  Fixpoint sends (n : nat) (tr : Trace Val SCtx) : list (list N * list WRes) :=
    match tr with
    | [] => []
    | EvSend _ h p _ :: tl => (message h p, outcome n) :: sends (S n) tl
    | _ :: tl => sends n tl
    end.
  Definition n_sent (tr : Trace Val SCtx) : nat := length (sends 0 tr).

  (** [pending_frame] (embassy_usb_v0_4.rs:290) after a history. *)
  Definition tx_pending (tr : Trace Val SCtx) : bool := snd (fst (send_seq false (sends 0 tr))).

  (** embassy_usb_v0_4.rs:297-323, 459-507: the result of sending one more message. *)
  Definition usb_net (tr : Trace Val SCtx) (h : VarHeader) (p : Payload Val) : TxRes :=
    match prepared h p with
    | RefusedOther => TxErr TxOther
    | Transmit b =>
      match snd (send_all b (tx_pending tr) (outcome (n_sent tr))) with
      | SOk => TxOk
      | SClosed => TxErr TxConnectionClosed
      | SInterrupted => TxErr TxTimeout
      end
    end.

  (** The packets put on the wire when history [tr] goes on with [new]. *)
  Definition new_packets (tr new : Trace Val SCtx) : list packet :=
    fst (fst (send_seq (tx_pending tr) (sends (n_sent tr) new))).

  Definition packets_left (items : list OutItem) : list packet :=
    flat_map (fun i => match i with Pkt p => [p] | Disabled => [] end) items.

  (** ** The state *)
  Record USys := MkUSys {
    u_client : Client;
    u_out : list packet;               (* packets on their way to the device *)
    u_in : list packet;                (* packets on their way to the host *)
    u_acc : list N;                    (* what the current IN transfer holds *)
    u_comps : list Completion;         (* completed IN transfers *)
    u_reqs : nat;                      (* IN requests pending (raw_nusb.rs:430) *)
    u_errs : nat;                      (* [consecutive_errs] *)
    u_ctx : Ctx;
    u_trace : Trace Val SCtx;
    u_tasks : list (HProg Val unit);
    u_serving : bool;
    u_cur : option (SProg Val SCtx (Ctx * TxRes))   (* what remains to be done of the frame being dispatched *)
  }.
  Definition usys_new (bg : list (HProg Val unit)) (ctx : Ctx) : USys := MkUSys client_new [] [] [] [] 0 0 ctx [] bg true None.

  Inductive ULabel :=
  | UClient (l : Label)          (* a step of the client that does not involve the transport's failures *)
  | UOutStop (fails : bool) (k : nat)  (* the transmit worker ends, because a send failed or because the client
                                    was closed; [k] packets of the frame it was sending went out *)
  | UServe                       (* the server receives and begins to dispatch *)
  | UResume                      (* the server transmits a message and carries on; transmissions exclude each
                                    other (the mutex of embassy_usb_v0_4.rs:304) *)
  | UTask (i : nat)              (* a spawned task sends *)
  | UIn                          (* a packet arrives at the host *)
  | UError (e : TransferError)   (* an IN transfer that holds nothing fails *)
  | UErrorAmid (e : TransferError)  (* ... or one that holds something *)
  | URecv (halts : list bool).   (* the client receives; results of [clear_halt] *)

  Definition with_client (c : Client) (out : list packet) (u : USys) : USys :=
    MkUSys c out (u_in u) (u_acc u) (u_comps u) (u_reqs u) (u_errs u) (u_ctx u) (u_trace u) (u_tasks u) (u_serving u) (u_cur u).

  (** The number of packets of the frame being sent, up to the one with which it is
      complete. *)
  Definition complete_at (f : RpcFrame) : nat := length (frame_packets (rpc_to_bytes f)).

  Definition fail_transfer (e : TransferError) (u : USys) : USys :=
    MkUSys (u_client u) (u_out u) (u_in u) [] (u_comps u ++ [CErr e]) (u_reqs u) (u_errs u) (u_ctx u) (u_trace u) (u_tasks u) (u_serving u) (u_cur u).

  (** The server carries on with [p], up to its next transmission (cf. [carry_on] of
      AsyncModel.v). *)
  Definition u_carry_on (u : USys) (p : SProg Val SCtx (Ctx * TxRes)) : USys :=
    let (p', tr) := settle Val SCtx can_spawn p (u_trace u) in
    let tasks := u_tasks u ++ tasks_of Val SCtx task (skipn (length (u_trace u)) tr) in
    match p' with
    | SpRet (ctx, res) =>
      MkUSys (u_client u) (u_out u) (u_in u) (u_acc u) (u_comps u) (u_reqs u) (u_errs u) ctx tr tasks
             (match res with TxErr TxConnectionClosed | TxErr TxTimeout => false | _ => true end) None
    | _ => MkUSys (u_client u) (u_out u) (u_in u) (u_acc u) (u_comps u) (u_reqs u) (u_errs u) (u_ctx u) tr tasks (u_serving u) (Some p')
    end.

  (** One step; the second component is the step of the client it contains. *)
  Definition u_step (l : ULabel) (u : USys) : option (USys * option (Label * list Ev)) :=
    match l with
    | UClient (LRecv _ | LInFail | LOutFail _ | LOutEnd _) => None
    | UClient l =>
      match step cfg l (u_client u) with
      | Some (c, e) => Some (with_client c (u_out u ++ flat_map (nusb_send mps) (wire_of e)) u, Some (l, e))
      | None => None
      end
    | UOutStop fails k =>
      let reached := match c_sending (u_client u) with Some f => complete_at f <=? k | None => false end in
      let out := match c_sending (u_client u) with Some f => firstn k (nusb_send mps (rpc_to_bytes f)) | None => [] end in
      let l := if fails then LOutFail reached else LOutEnd reached in
      match step cfg l (u_client u) with
      | Some (c, e) => Some (with_client c (u_out u ++ out) u, Some (l, e))
      | None => None
      end
    (** server/mod.rs:420-454 *)
    | UServe =>
      match u_cur u with
      | Some _ => None
      | None =>
        if u_serving u then
          match receive consumes rxlen (map Pkt (u_out u)) with
          | (RGot f, rest) =>
            match take_from_slice f with
            | Panicked => None
            | Done None => Some (with_client (u_client u) (packets_left rest) u, None)
            | Done (Some (hdr, body)) =>
              Some (u_carry_on (with_client (u_client u) (packets_left rest) u)
                               (sp_handle Val Ctx SCtx std kkind spawn_ctxt d (u_ctx u) hdr body), None)
            end
          | (RTooLarge, rest) => Some (with_client (u_client u) (packets_left rest) u, None)
          | (RClosed, _) | (RPending, _) => None
          end
        else None
      end
    | UResume =>
      match u_cur u with
      | Some (SpSend w h p k) =>
        let r := usb_net (u_trace u) h p in
        let new := [EvSend w h p r] in
        Some (u_carry_on (MkUSys (u_client u) (u_out u) (u_in u ++ new_packets (u_trace u) new) (u_acc u) (u_comps u) (u_reqs u) (u_errs u)
                                 (u_ctx u) (u_trace u ++ new) (u_tasks u) (u_serving u) None) (k r), None)
      | _ => None
      end
    | UTask i =>
      match nth_error (u_tasks u) i with
      | Some (HSend key seq p k) =>
        let (r, tr) := send_keyed Val SCtx usb_net kkind ByHandler seq key p (u_trace u) in
        let new := skipn (length (u_trace u)) tr in
        Some (MkUSys (u_client u) (u_out u) (u_in u ++ new_packets (u_trace u) new) (u_acc u) (u_comps u) (u_reqs u) (u_errs u)
                     (u_ctx u) tr (set_nth i (k r) (u_tasks u)) (u_serving u) (u_cur u), None)
      | _ => None
      end
    (** one step of UsbModel.host_in *)
    | UIn =>
      match u_in u with
      | [] => None
      | p :: tl =>
        let acc := u_acc u ++ p in
        if (length p <? 64) || (MAX_TRANSFER_SIZE <=? length acc) then
          Some (MkUSys (u_client u) (u_out u) tl [] (u_comps u ++ [COk acc]) (u_reqs u) (u_errs u) (u_ctx u) (u_trace u) (u_tasks u) (u_serving u) (u_cur u), None)
        else
          Some (MkUSys (u_client u) (u_out u) tl acc (u_comps u) (u_reqs u) (u_errs u) (u_ctx u) (u_trace u) (u_tasks u) (u_serving u) (u_cur u), None)
      end
    | UError e => match u_acc u with [] => Some (fail_transfer e u, None) | _ => None end
    | UErrorAmid e => match u_acc u with [] => None | _ => Some (fail_transfer e u, None) end
    (** host_client/util.rs:223-240, raw_nusb.rs:423 *)
    | URecv halts =>
      match recv (u_reqs u) (u_errs u) (u_comps u) halts with
      | (NGot b, reqs, errs, comps, _, _) =>
        match step cfg (LRecv b) (u_client u) with
        | Some (c, e) =>
          Some (MkUSys c (u_out u) (u_in u) (u_acc u) comps reqs errs (u_ctx u) (u_trace u) (u_tasks u) (u_serving u) (u_cur u), Some (LRecv b, e))
        | None => None
        end
      | (NErr _, reqs, errs, comps, _, _) =>
        match step cfg LInFail (u_client u) with
        | Some (c, e) =>
          Some (MkUSys c (u_out u) (u_in u) (u_acc u) comps reqs errs (u_ctx u) (u_trace u) (u_tasks u) (u_serving u) (u_cur u), Some (LInFail, e))
        | None => None
        end
      | _ => None
      end
    end.

  (** A history, with what the client did and showed. *)
  Fixpoint u_run (ls : list ULabel) (u : USys) : option (USys * list Label * list (list Ev)) :=
    match ls with
    | [] => Some (u, [], [])
    | l :: tl =>
      match u_step l u with
      | None => None
      | Some (u1, ce) =>
        match u_run tl u1 with
        | None => None
        | Some (u2, cl, es) =>
          match ce with
          | Some (x, e) => Some (u2, x :: cl, e :: es)
          | None => Some (u2, cl, es)
          end
        end
      end
    end.
End UsbSys.
