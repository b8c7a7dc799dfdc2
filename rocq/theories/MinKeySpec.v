(** Independent specification for the key-length computation. *)
From Coq Require Import NArith List.
From Verif Require Import KeyModel HeaderModel KeySpec.
Import ListNotations.

(** A full key made of eight bytes. *)
Definition k8_ok (k : Key8) : Prop := Forall byte_ok (k8_bytes k).
Definition keys_ok (l : list Key8) : Prop := Forall k8_ok l.

(** The four key lengths that exist on the wire. *)
Definition permitted (n : nat) : Prop := n = 1 \/ n = 2 \/ n = 4 \/ n = 8.

(** No two positions of the list carry keys that look the same at [n] bytes. *)
Definition distinct_at (n : nat) (keys : list Key8) : Prop :=
  NoDup (map (fun k => compact n (k8_bytes k)) keys).
