(** Vocabulary for statements about the whole system over WebUSB. *)
From Coq Require Import NArith List Bool Arith.
From Verif Require Import KeyModel HeaderModel SchemaModel MacroModel DispatchModel SubModel ClientModel ClientSpec UsbSpec NusbRxModel SystemModel LiveSpec UsbSysModel UsbSysSpec WebUsbModel WebSysModel.
Import ListNotations.

(** The device's receive buffer is made of whole packets, and its transmit buffer is not
    longer than the transfers of raw_nusb.rs. *)
Definition web_sizes (txlen rxlen : nat) : Prop := 64 <= rxlen /\ rxlen mod 64 = 0 /\ txlen <= 1024.

(** No frame that the client sent consists of whole packets. *)
Definition no_whole_packets (es : list (list Ev)) : Prop := Forall (fun b => length b mod 64 <> 0) (wire es).

(** What the device sent (that is, what fits its buffer) is shorter than an IN
    transfer. *)
Definition messages_below {Val SCtx} (enc : Payload Val -> list N) (txlen limit : nat) (tr : Trace Val SCtx) : Prop :=
  forall w h p r, In (EvSend w h p r) tr ->
    length (rpc_to_bytes (MkFrame h (enc p))) <= txlen -> length (rpc_to_bytes (MkFrame h (enc p))) < limit.

(** No IN transfer failed. *)
Definition no_failed_transfer (ls : list WLabel) : Prop := ~ In WFail ls.

(** The steps that the program and the bus take on their own. *)
Definition w_own_step (l : WLabel) : bool :=
  match l with
  | WClient l => own_step (SClient l)
  | WServe | WResume | WTask _ | WIn | WRecv => true
  | WOutStop _ _ | WFail => false
  end.
