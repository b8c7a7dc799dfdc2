(** Independent specification for type collection. *)
From Coq Require Import NArith List.
From Verif Require Import KeyModel SchemaModel.
Import ListNotations.

(** [c] is directly below [d], other than as the payload of a newtype variant. *)
Inductive child_plain (c : NamedType) : DMT -> Prop :=
  | cp_option : child_plain c (DOption c)
  | cp_newtype : child_plain c (DNewtypeStruct c)
  | cp_seq : child_plain c (DSeq c)
  | cp_tuple l : In c l -> child_plain c (DTuple l)
  | cp_tuple_struct l : In c l -> child_plain c (DTupleStruct l)
  | cp_map_key v : child_plain c (DMap c v)
  | cp_map_val k : child_plain c (DMap k c)
  | cp_struct n l : In (n, c) l -> child_plain c (DStruct l)
  | cp_enum_tuple n vs l : In (n, VTuple l) vs -> In c l -> child_plain c (DEnum vs)
  | cp_enum_struct n vs m l : In (n, VStruct l) vs -> In (m, c) l -> child_plain c (DEnum vs).

(** [c] is the payload of a newtype variant of [d]. *)
Inductive child_variant (c : NamedType) : DMT -> Prop :=
  | cv_enum n vs : In (n, VNewtype c) vs -> child_variant c (DEnum vs).

Definition child (c : NamedType) (d : DMT) : Prop := child_plain c d \/ child_variant c d.

(** [t] occurs in [s], at any depth. *)
Inductive occurs (t : NamedType) : NamedType -> Prop :=
  | occ_here : occurs t t
  | occ_below name d c : child c d -> occurs t c -> occurs t (NT name d).

(** [t] occurs in [s], not below the payload of a newtype variant. *)
Inductive visible (t : NamedType) : NamedType -> Prop :=
  | vis_here : visible t t
  | vis_below name d c : child_plain c d -> visible t c -> visible t (NT name d)
  | vis_variant name d : child_variant t d -> visible t (NT name d).

Definition primitive (t : NamedType) : Prop := exists p, nt_ty t = DPrim p.

(** The payload of every newtype variant occurring in [s] has only primitives
    directly below it. *)
Definition flat_variants (s : NamedType) : Prop :=
  forall e, occurs e s -> forall c, child_variant c (nt_ty e) ->
  forall g, child g (nt_ty c) -> primitive g.

(** [r] keeps the first occurrence of every non-primitive element of [l] that is
    not in [seen], in order. *)
Inductive first_occ : list NamedType -> list NamedType -> list NamedType -> Prop :=
  | fo_nil seen : first_occ seen [] []
  | fo_skip seen x l r : primitive x \/ In x seen -> first_occ seen l r -> first_occ seen (x :: l) r
  | fo_keep seen x l r : ~ primitive x -> ~ In x seen -> first_occ (x :: seen) l r ->
      first_occ seen (x :: l) (x :: r).
