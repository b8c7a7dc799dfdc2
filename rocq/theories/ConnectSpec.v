(** Vocabulary for statements about opening a connection over USB. *)
From Coq Require Import NArith List Bool Arith.
From Verif Require Import ConnectModel.
Import ListNotations.

(** [x] is the first element of [l] with property [p]. *)
Definition first_with {A} (p : A -> bool) (l : list A) (x : A) : Prop :=
  exists before after, l = before ++ x :: after /\ p x = true /\ forall y, In y before -> p y = false.

(** The endpoints of an interface for bulk transfers from, respectively to the host, over
    all its alternate settings. *)
Definition out_endpoint (i : Interface) (e : UsbEndpoint) : Prop :=
  (exists a, In a (if_alts i) /\ In e (alt_eps a)) /\ ep_type e = Bulk /\ N.testbit (ep_addr e) 7 = false.
Definition in_endpoint (i : Interface) (e : UsbEndpoint) : Prop :=
  (exists a, In a (if_alts i) /\ In e (alt_eps a)) /\ ep_type e = Bulk /\ N.testbit (ep_addr e) 7 = true.

(** The operating system lists the interfaces of the device under their numbers, in order, none left
    out. *)
Definition listed_by_number (dev : UsbDevice) : Prop :=
  length (dev_infos dev) <= 256 /\ forall n i, nth_error (dev_infos dev) n = Some i -> ii_number i = N.of_nat n.

(** Bulk packet sizes allowed by the USB standard: 8, 16, 32, 64, 512 and 1024. *)
Definition power_of_two (n : nat) : Prop := exists k, n = 2 ^ k.

(** The summary that an operating system makes of the interfaces of a device: number and
    class (of the active alternate setting), in the order of the descriptors. *)
Definition summarized (dev : UsbDevice) : Prop :=
  map (fun x => (ii_number x, ii_class x)) (dev_infos dev) =
  map (fun i => (if_number i, match if_alts i with a :: _ => alt_class a | [] => 0%N end)) (dev_ifs dev).
