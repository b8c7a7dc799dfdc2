(** Concrete devices for the theorems of ConnectThm.v, and devices with which the host
    connects to the wrong place. *)
From Coq Require Import NArith List Bool Arith Lia.
From Verif Require Import ConnectModel ConnectSpec ConnectThm.
Import ListNotations.
Local Open Scope N_scope.

(** A keyboard, then a device set up by this crate to which the application added a
    serial port (two interfaces), then another such device. *)
Definition cx_keyboard : UsbDevice :=
  MkDev 1 [MkInfo 0 3 1 1] [MkIf 0 [MkAlt 0 3 [MkEp 129 Interrupt 8]]] true (fun _ => true).
Definition cx_rest : list (list AltSetting) := [[MkAlt 0 2 [MkEp 130 Interrupt 8]]; [MkAlt 0 10 [MkEp 3 Bulk 64; MkEp 131 Bulk 64]]].
Definition cx_dev (id : nat) : UsbDevice :=
  MkDev id [MkInfo 0 255 0 0; MkInfo 1 2 2 1; MkInfo 2 10 0 0] (eusb_interfaces 1 129 cx_rest) true (fun _ => true).
Definition cx_devs : list UsbDevice := [cx_keyboard; cx_dev 7; cx_dev 8].
Definition cx_wanted (d : UsbDevice) : bool := (6 <? dev_id d)%nat.

Example C81_ex :
  first_with cx_wanted cx_devs (cx_dev 7) /\ listed_by_number (cx_dev 7) /\ summarized (cx_dev 7) /\
  dev_ifs (cx_dev 7) = eusb_interfaces 1 129 cx_rest /\
  (forall i e, In i (dev_ifs (cx_dev 7)) -> out_endpoint i e -> power_of_two (ep_size e)) /\
  try_new false cx_devs cx_wanted = inl (MkLink (cx_dev 7) 0 1 129 (Some 64%nat)) /\
  try_new true cx_devs cx_wanted = inl (MkLink (cx_dev 7) 0 1 129 (Some 64%nat)) /\
  try_new_with_interface cx_devs cx_wanted (fun i => ii_class i =? 10) = inl (MkLink (cx_dev 7) 2 3 131 (Some 64%nat)) /\
  try_new false cx_devs (fun d => (dev_id d =? 1)%nat) = inr NoInterface.
Proof.
  split. { exists [cx_keyboard], [cx_dev 8]. split; [reflexivity|]. split; [reflexivity|]. intros y [<-|[]]. reflexivity. }
  split. { split; [cbn; lia|]. intros [|[|[|n]]] i; [intros [= <-]; reflexivity..|]. cbn. destruct n; discriminate. }
  split; [reflexivity|]. split; [reflexivity|]. split; [|repeat split; reflexivity].
  intros i e Hi ((a & Ha & He) & B & _). cbn in Hi. destruct Hi as [<-|[<-|[<-|[]]]]; cbn in Ha; destruct Ha as [<-|[]]; cbn in He; destruct He as [<-|He]; try discriminate B; try (destruct He as [<-|[]]); try (exists 6%nat; reflexivity). destruct He.
Qed.
Example C81_finds_ex :
  exists info i eo ei, first_with (fun i => ii_class i =? 255) (dev_infos (cx_dev 7)) info /\
    first_with (fun i => if_number i =? 0) (dev_ifs (cx_dev 7)) i /\ dev_claims (cx_dev 7) 0 = true /\ out_endpoint i eo /\ in_endpoint i ei.
Proof.
  exists (MkInfo 0 255 0 0), (eusb_interface 1 129), (MkEp 1 Bulk 64), (MkEp 129 Bulk 64).
  split. { eexists [], _. split; [reflexivity|]. split; [reflexivity|]. intros y []. }
  split. { eexists [], _. split; [reflexivity|]. split; [reflexivity|]. intros y []. }
  split; [reflexivity|]. split; (split; [eexists; split; [left; reflexivity|cbn; auto]|split; reflexivity]).
Qed.

(** The interface is looked up by its position among those that are listed, but claimed by
    its number.  A device whose interfaces are numbered 0 and 2 (a gap is allowed, and so
    is any order of the list): the vendor interface is number 2 and the second in the list, so that the host
    tries to claim number 1; or, in a device with more interfaces, connects to another one. *)
Definition cx_gap : UsbDevice :=
  MkDev 9 [MkInfo 0 3 1 1; MkInfo 2 255 0 0] [MkIf 0 [MkAlt 0 3 [MkEp 130 Interrupt 8]]; MkIf 2 [MkAlt 0 255 [MkEp 1 Bulk 64; MkEp 129 Bulk 64]]] true (fun _ => true).
Definition cx_swapped : UsbDevice :=
  MkDev 9 [MkInfo 1 255 0 0; MkInfo 0 10 0 0] [MkIf 0 [MkAlt 0 10 [MkEp 2 Bulk 64; MkEp 130 Bulk 64]]; MkIf 1 [MkAlt 0 255 [MkEp 1 Bulk 64; MkEp 129 Bulk 64]]] true (fun _ => true).
Theorem C81_wrong_interface_refuted :
  (exists dev, try_new false [dev] (fun _ => true) = inr ClaimFailed /\ dev_opens dev = true /\ (forall n, dev_claims dev n = true) /\
     exists info i eo ei, In info (dev_infos dev) /\ ii_class info = 255 /\ In i (dev_ifs dev) /\ if_number i = ii_number info /\ out_endpoint i eo /\ in_endpoint i ei) /\
  (exists dev lk, try_new false [dev] (fun _ => true) = inl lk /\
     forall info, In info (dev_infos dev) -> ii_number info = lk_if lk -> ii_class info <> 255).
Proof.
  split.
  - exists cx_gap. split; [reflexivity|]. split; [reflexivity|]. split; [reflexivity|].
    exists (MkInfo 2 255 0 0), (MkIf 2 [MkAlt 0 255 [MkEp 1 Bulk 64; MkEp 129 Bulk 64]]), (MkEp 1 Bulk 64), (MkEp 129 Bulk 64).
    split; [cbn; auto|]. split; [reflexivity|]. split; [cbn; auto|]. split; [reflexivity|].
    split; (split; [eexists; split; [left; reflexivity|cbn; auto]|split; reflexivity]).
  - exists cx_swapped, (MkLink cx_swapped 0 2 130 (Some 64%nat)). split; [reflexivity|]. intros i [<-|[<-|[]]]; discriminate.
Qed.

(** Endpoints of all alternate settings are considered, and the last ones are taken, but
    only alternate setting 0 is active: the host may send to an endpoint that is switched off. *)
Definition cx_alts : UsbDevice :=
  MkDev 9 [MkInfo 0 255 0 0] [MkIf 0 [MkAlt 0 255 [MkEp 1 Bulk 64; MkEp 129 Bulk 64]; MkAlt 1 255 [MkEp 2 Bulk 512; MkEp 130 Bulk 512]]] true (fun _ => true).
Theorem C81_inactive_endpoint_refuted :
  exists dev lk, listed_by_number dev /\ try_new false [dev] (fun _ => true) = inl lk /\
    forall i a e, In i (dev_ifs dev) -> if_number i = lk_if lk -> In a (if_alts i) -> alt_number a = 0 -> In e (alt_eps a) ->
      ep_addr e <> lk_out lk /\ ep_addr e <> lk_in lk.
Proof.
  exists cx_alts, (MkLink cx_alts 0 2 130 (Some 64%nat)). split.
  { split; [cbn; lia|]. intros [|n] i; [intros [= <-]; reflexivity|]. cbn. destruct n; discriminate. }
  split; [reflexivity|]. intros i a e [<-|[]] _ [<-|[<-|[]]] A; [|discriminate]. intros [<-|[<-|[]]]; split; discriminate.
Qed.

Example C81_webusb_ex :
  web_pick 5 [(4, 1%nat); (5, 2%nat); (5, 3%nat)] None = Some (5, 2%nat) /\ web_pick 5 [(4, 1%nat)] (Some (5, 9%nat)) = Some (5, 9%nat) /\ web_pick 5 [] None = None.
Proof. repeat split. Qed.

Print Assumptions C81_wrong_interface_refuted.
Print Assumptions C81_inactive_endpoint_refuted.
