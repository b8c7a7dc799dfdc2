(** Opening a connection over USB: which device, interface and endpoints the host uses, and
    what the device declares.
    Source: /repo/source/postcard-rpc/src/host_client/raw_nusb.rs:80-318 (constructors),
    /repo/source/postcard-rpc/src/server/impls/embassy_usb_v0_4.rs:103-230 (set-up of the device).

    External code, from its documentation: [nusb::list_devices] lists devices with a
    summary of the interfaces of their active configuration, in any order, each with its
    number ([interface_number]), class, subclass and protocol; [claim_interface(n)] claims the interface
    whose number is [n] and fails if there is none; [Interface::descriptors] gives all
    alternate settings of the interface, of which number 0 is active after claiming, each with
    its endpoints.  The direction of an endpoint is the top bit of its address.

    Simplified: the predicates given by the user are functions (in Rust they are [FnMut],
    but are called once for each candidate, in order, until one is found); a failing [list_devices],
    [open] or [claim_interface] is described by a flag. *)
From Coq Require Import NArith List Bool Arith.
Import ListNotations.

Inductive TransferType := Control | Isochronous | Bulk | Interrupt.
Record UsbEndpoint := MkEp { ep_addr : N; ep_type : TransferType; ep_size : nat }.
(** Bit 7 of the address: set for IN, to the host. *)
Definition ep_is_in (e : UsbEndpoint) : bool := N.testbit (ep_addr e) 7.

Record AltSetting := MkAlt { alt_number : N; alt_class : N; alt_eps : list UsbEndpoint }.
Record Interface := MkIf { if_number : N; if_alts : list AltSetting }.
Record IfInfo := MkInfo { ii_number : N; ii_class : N; ii_subclass : N; ii_protocol : N }.

Record UsbDevice := MkDev {
  dev_id : nat;                 (* whatever tells devices apart: bus, address, serial number *)
  dev_infos : list IfInfo;      (* [DeviceInfo::interfaces] *)
  dev_ifs : list Interface;     (* the interfaces of the active configuration *)
  dev_opens : bool;             (* [open] succeeds *)
  dev_claims : N -> bool        (* [claim_interface] of an interface that exists succeeds *)
}.

Inductive ConnectError := NoDevice | NoInterface | OpenFailed | ClaimFailed | NoOut | NoIn.

(** What the host talks through: [bulk_out_queue(ep_out)], [bulk_in_queue(ep_in)] of an
    interface of a device, and [NusbWireTx::max_packet_size]. *)
Record Link := MkLink { lk_dev : UsbDevice; lk_if : N; lk_out : N; lk_in : N; lk_mps : option nat }.

(** raw_nusb.rs:238-258: the loop over alternate settings and endpoints; the state is
    [mps], [ep_out] and [ep_in]. *)
Definition scan_ep (s : option nat * option N * option N) (e : UsbEndpoint) : option nat * option N * option N :=
  let '(mps, out, inn) := s in
  match ep_type e with
  | Bulk =>
    if ep_is_in e then (mps, out, Some (ep_addr e))
    else (Some (match mps with Some old => Nat.min old (ep_size e) | None => ep_size e end), Some (ep_addr e), inn)
  | _ => s
  end.
Definition scan (alts : list AltSetting) : option nat * option N * option N :=
  fold_left (fun s a => fold_left scan_ep (alt_eps a) s) alts (None, None, None).

(** raw_nusb.rs:223-286 [try_from_nusb_and_interface]; [interface_id as u8] wraps. *)
Definition try_interface (dev : UsbDevice) (id : nat) : Link + ConnectError :=
  if negb (dev_opens dev) then inr OpenFailed
  else
    let n := (N.of_nat id mod 256)%N in
    match find (fun i => N.eqb (if_number i) n) (dev_ifs dev) with
    | None => inr ClaimFailed
    | Some i =>
      if negb (dev_claims dev n) then inr ClaimFailed
      else
        match scan (if_alts i) with
        | (mps, Some o, Some n') => inl (MkLink dev n o n' mps)
        | (_, None, _) => inr NoOut
        | (_, Some _, None) => inr NoIn
        end
    end.

(** [Iterator::position] *)
Fixpoint position {A} (p : A -> bool) (l : list A) : option nat :=
  match l with
  | [] => None
  | x :: tl => if p x then Some 0 else option_map S (position p tl)
  end.

(** raw_nusb.rs:155-180 [try_new_raw_nusb_with_interface] (not available on Windows). *)
Definition try_new_with_interface (devs : list UsbDevice) (dp : UsbDevice -> bool) (ip : IfInfo -> bool) : Link + ConnectError :=
  match find dp devs with
  | None => inr NoDevice
  | Some dev =>
    match position ip (dev_infos dev) with
    | None => inr NoInterface
    | Some id => try_interface dev id
    end
  end.

(** raw_nusb.rs:80-110 [try_new_raw_nusb]; on Windows always interface 0. *)
Definition try_new (windows : bool) (devs : list UsbDevice) (dp : UsbDevice -> bool) : Link + ConnectError :=
  if windows then
    match find dp devs with
    | None => inr NoDevice
    | Some dev => try_interface dev 0
    end
  else try_new_with_interface devs dp (fun i => N.eqb (ii_class i) 255).

(** The part of the device that embassy_usb_v0_4.rs:140-152, 209-217 declares: one
    function with one interface of class 0xFF with one alternate setting, and in it a bulk
    OUT and a bulk IN endpoint with packets of 64 bytes.  The builder numbers interfaces
    from 0 in the order in which they are added; the addresses [out] and [inn] are given out
    by the USB driver.  [rest]: the interfaces that the application adds to the builder
    afterwards (219-228 returns it for that purpose). *)
Definition eusb_interface (out inn : N) : Interface :=
  MkIf 0 [MkAlt 0 255 [MkEp out Bulk 64; MkEp inn Bulk 64]].
Definition eusb_interfaces (out inn : N) (rest : list (list AltSetting)) : list Interface :=
  eusb_interface out inn :: map (fun x => MkIf (N.of_nat (S (fst x))) (snd x)) (combine (seq 0 (length rest)) rest).

(** host_client/webusb.rs:103-139 [WebUsbWire::new]: which device is used.  [paired]:
    [navigator.usb.getDevices()], the devices that the user allowed before, by vendor id and identity; [asked]: what
    [requestDevice], asking the user with a filter for the vendor id, gives, if anything. *)
Definition web_pick (vendor : N) (paired : list (N * nat)) (asked : option (N * nat)) : option (N * nat) :=
  match (if (0 <? length paired)%nat then nth_error (filter (fun d => N.eqb (fst d) vendor) paired) 0 else None) with
  | Some d => Some d
  | None => asked
  end.
