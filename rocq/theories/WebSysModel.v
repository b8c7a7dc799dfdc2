(** The whole system over WebUSB: as UsbSysModel.v, but the client's transport is
    webusb.rs (WebUsbModel.v) instead of raw_nusb.rs.  The device's end is the same.

    The state is that of UsbSysModel.v (whose [u_comps], [u_reqs] and [u_errs], which
    belong to nusb, are not used) and the outcome of the current IN transfer, of which
    there is at most one: webusb.rs:170-192 asks for the next only when [receive] is
    called again.  Simplified: here the next is asked for as soon as the outcome of the
    last was taken.  Only the client can tell the difference in time, and until it
    receives it does not look. *)
From Coq Require Import NArith List Bool Arith.
From Verif Require Import KeyModel HeaderModel MinKeyModel SchemaModel MacroModel DispatchModel SubModel ClientModel
  UsbModel UsbSpec NusbRxModel LogModel SystemModel AsyncModel UsbSysModel WebUsbModel.
Import ListNotations.

Section WebSys.
  Variable Val Ctx SCtx : Type.
  Variable std : StdKeys.
  Variable can_spawn : Trace Val SCtx -> nat -> bool.
  Variable kkind : VarKeyKind.
  Variable spawn_ctxt : Ctx -> Ctx * SCtx.
  Variable d : Dispatcher Val Ctx.
  Variable enc : Payload Val -> list N.
  Variable task : nat -> SCtx -> VarHeader -> Val -> HProg Val unit.
  Variable cfg : Config.
  Variable txlen rxlen : nat.
  Variable consumes : bool.
  (** webusb.rs:19 [transfer_max_length] *)
  Variable max : nat.
  Variable outcome : nat -> list WRes.

  Record WSys := MkWSys {
    w_sys : USys Val Ctx SCtx;
    w_done : option WebRes       (* the outcome of the IN transfer, until [receive] returns it *)
  }.
  Definition wsys_new (bg : list (HProg Val unit)) (ctx : Ctx) : WSys := MkWSys (usys_new Val Ctx SCtx bg ctx) None.

  Inductive WLabel :=
  | WClient (l : Label)          (* a step of the client that does not involve the transport's failures *)
  | WOutStop (fails : bool) (k : nat)  (* the transmit worker ends, because [transferOut] failed or because the client was
                                    closed; [k] packets of the frame it was sending went out *)
  | WServe | WResume | WTask (i : nat)  (* the device's steps, as in UsbSysModel.v *)
  | WIn                          (* a packet arrives at the host *)
  | WFail                        (* the IN transfer fails: a status other than ok, or an exception (webusb.rs:176, 190);
                                    what it held is lost *)
  | WRecv.                       (* the client receives *)

  (** The IN side of the state replaced. *)
  Definition set_in_side (ins : list packet) (acc : list N) (u : USys Val Ctx SCtx) : USys Val Ctx SCtx :=
    MkUSys _ _ _ (u_client _ _ _ u) (u_out _ _ _ u) ins acc (u_comps _ _ _ u) (u_reqs _ _ _ u) (u_errs _ _ _ u)
           (u_ctx _ _ _ u) (u_trace _ _ _ u) (u_tasks _ _ _ u) (u_serving _ _ _ u) (u_cur _ _ _ u).

  Definition device_step (l : ULabel) (w : WSys) : option (WSys * option (Label * list Ev)) :=
    match u_step Val Ctx SCtx std can_spawn kkind spawn_ctxt d enc task cfg txlen rxlen consumes None outcome l (w_sys w) with
    | Some (u, ce) => Some (MkWSys u (w_done w), ce)
    | None => None
    end.

  Definition w_step (l : WLabel) (w : WSys) : option (WSys * option (Label * list Ev)) :=
    let u := w_sys w in
    match l with
    | WClient (LRecv _ | LInFail | LOutFail _ | LOutEnd _) => None
    (** webusb.rs:157-164 *)
    | WClient l =>
      match step cfg l (u_client _ _ _ u) with
      | Some (c, e) => Some (MkWSys (with_client _ _ _ c (u_out _ _ _ u ++ flat_map webusb_send (wire_of e)) u) (w_done w), Some (l, e))
      | None => None
      end
    | WOutStop fails k =>
      let out := match c_sending (u_client _ _ _ u) with Some f => firstn k (webusb_send (rpc_to_bytes f)) | None => [] end in
      let reached := match c_sending (u_client _ _ _ u) with Some f => complete_at f <=? length out | None => false end in
      let l := if fails then LOutFail reached else LOutEnd reached in
      match step cfg l (u_client _ _ _ u) with
      | Some (c, e) => Some (MkWSys (with_client _ _ _ c (u_out _ _ _ u ++ out) u) (w_done w), Some (l, e))
      | None => None
      end
    | WServe => device_step UServe w
    | WResume => device_step UResume w
    | WTask i => device_step (UTask i) w
    (** one step of WebUsbModel.webusb_recv; without a receive worker nobody asks for
        packets *)
    | WIn =>
      match w_done w, c_in_alive (u_client _ _ _ u), u_in _ _ _ u with
      | None, true, p :: tl =>
        let acc := u_acc _ _ _ u ++ p in
        if max <? length acc then Some (MkWSys (set_in_side tl [] u) (Some WebErr), None)
        else if (length p <? 64) || (length acc =? max) then Some (MkWSys (set_in_side tl [] u) (Some (WebGot acc)), None)
        else Some (MkWSys (set_in_side tl acc u) None, None)
      | _, _, _ => None
      end
    | WFail =>
      match w_done w, c_in_alive (u_client _ _ _ u) with
      | None, true => Some (MkWSys (set_in_side (u_in _ _ _ u) [] u) (Some WebErr), None)
      | _, _ => None
      end
    (** host_client/util.rs:223-240, webusb.rs:170-192 *)
    | WRecv =>
      match w_done w with
      | Some r =>
        let l := match r with WebGot b => LRecv b | WebErr => LInFail end in
        match step cfg l (u_client _ _ _ u) with
        | Some (c, e) => Some (MkWSys (with_client _ _ _ c (u_out _ _ _ u) u) None, Some (l, e))
        | None => None
        end
      | None => None
      end
    end.

  (** A history, with what the client did and showed. *)
  Fixpoint w_run (ls : list WLabel) (w : WSys) : option (WSys * list Label * list (list Ev)) :=
    match ls with
    | [] => Some (w, [], [])
    | l :: tl =>
      match w_step l w with
      | None => None
      | Some (w1, ce) =>
        match w_run tl w1 with
        | None => None
        | Some (w2, cl, es) =>
          match ce with
          | Some (x, e) => Some (w2, x :: cl, e :: es)
          | None => Some (w2, cl, es)
          end
        end
      end
    end.
End WebSys.
