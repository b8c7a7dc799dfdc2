(** Vocabulary for statements about the whole system over USB. *)
From Coq Require Import NArith List Bool Arith.
From Verif Require Import KeyModel HeaderModel SchemaModel MacroModel DispatchModel SubModel ClientModel ClientSpec UsbSpec NusbRxModel SystemModel LiveSpec UsbSysModel.
Import ListNotations.

(** The sizes the crates are used with: packets of 64 bytes, a receive buffer of whole
    packets, and no message of the device longer than an IN transfer. *)
Definition usb_sizes (mps : option nat) (txlen rxlen : nat) : Prop :=
  (mps = None \/ mps = Some 64) /\ 64 <= rxlen /\ rxlen mod 64 = 0 /\ txlen <= 1024.

(** IN transfers failed at message boundaries only; respectively not at all. *)
Definition errors_between_messages (ls : list ULabel) : Prop := forall e, ~ In (UErrorAmid e) ls.
Definition no_transfer_errors (ls : list ULabel) : Prop := forall e, ~ In (UErrorAmid e) ls /\ ~ In (UError e) ls.

Section Spec.
  Context {Val SCtx : Type}.
  (** Every message that the device sent went out completely. *)
  Definition all_sent (tr : Trace Val SCtx) : Prop := forall w h p r, In (EvSend w h p r) tr -> r = TxOk.
  (** No message was interrupted amid its packets (a message too long to be sent is
      refused before the first). *)
  Definition none_interrupted (tr : Trace Val SCtx) : Prop := forall w h p r, In (EvSend w h p r) tr -> r = TxOk \/ r = TxErr TxOther.
  (** [b] is a message that the device did not send completely. *)
  Definition not_sent (enc : Payload Val -> list N) (tr : Trace Val SCtx) (b : list N) : Prop :=
    exists w h p r, In (EvSend w h p r) tr /\ r <> TxOk /\ b = rpc_to_bytes (MkFrame h (enc p)).
End Spec.

(** All frames of the client fit the receive buffer of the device. *)
Definition frames_fit (rxlen : nat) (es : list (list Ev)) : Prop := Forall (fun b => fits rxlen (length b)) (wire es).

(** The steps that the program and the bus take on their own: the futures of requests
    and publications, the workers of the client, the server, the spawned tasks, and
    packets on the bus.  The other steps are taken by the user or are failures. *)
Definition u_own_step (l : ULabel) : bool :=
  match l with
  | UClient l => own_step (SClient l)
  | UServe | UResume | UTask _ | UIn | URecv _ => true
  | UOutStop _ _ | UError _ | UErrorAmid _ => false
  end.
