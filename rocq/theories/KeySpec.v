(** Independent specification of key compaction: the bytes of a key are cut into
    equal consecutive groups and each group is XORed into one byte. *)
From Coq Require Import NArith List Arith.
From Verif Require Import KeyModel.
Import ListNotations.

(** XOR of a list of bytes. *)
Definition xor_all (l : list N) : N := fold_right N.lxor 0%N l.

(** The first [n] consecutive groups of [g] bytes. *)
Fixpoint groups (g n : nat) (l : list N) : list (list N) :=
  match n with
  | O => []
  | S n' => firstn g l :: groups g n' (skipn g l)
  end.

(** Compact a byte string to [n] bytes. *)
Definition compact (n : nat) (l : list N) : list N :=
  map xor_all (groups (length l / n) n l).

(** Number of bytes of a key kind. *)
Definition klen (k : VarKeyKind) : nat :=
  match k with KK1 => 1 | KK2 => 2 | KK4 => 4 | KK8 => 8 end.

(** Number of bytes of a key. *)
Definition vlen (v : VarKey) : nat := length (varkey_bytes v).

(** Two keys agree at [n] bytes. *)
Definition agree_at (n : nat) (a b : VarKey) : Prop :=
  compact n (varkey_bytes a) = compact n (varkey_bytes b).
