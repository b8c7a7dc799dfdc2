(** The postcard wire format for the types a schema can describe.

    postcard is a dependency and not part of /repo; postcard-rpc calls it to
    serialize every request, reply and message and to deserialize them at the other
    end (host_client/mod.rs:337, 348, 423, 437, 813, 870,
    server/dispatch_macro.rs:153, 167, 188, server/impls/embassy_usb_v0_4.rs:315,
    server/impls/test_channels.rs:162).  The model follows the published format
    (postcard.jamesmunns.com/wire-format): serialization walks the value,
    deserialization is directed by the type.

    Simplifications: [usize] and [isize] have 64 bits; a type named [Schema] (a
    schema as a value) is not covered here.  Maps and sequences keep their order and
    duplicates. *)
From Coq Require Import NArith ZArith List Bool Arith.
From Verif Require Import KeyModel HeaderModel SchemaModel PostcardModel.
Import ListNotations.
Local Open Scope N_scope.

(** Widths of the integers that are sent as varints. *)
Inductive width := W16 | W32 | W64 | W128.
Definition bits (w : width) : N := match w with W16 => 16 | W32 => 32 | W64 => 64 | W128 => 128 end.

(** What a serializer sees (the serde data model).  Newtype structs are transparent;
    tuples, tuple structs and structs differ in their types only.  Floats are their
    bit patterns, strings their UTF-8 bytes. *)
Inductive value :=
  | VBool (b : bool)
  | VU8 (n : N) | VI8 (z : Z)
  | VUInt (w : width) (n : N) | VSInt (w : width) (z : Z)
  | VF32 (n : N) | VF64 (n : N)
  | VChar (c : N)
  | VString (s : list N) | VBytes (s : list N)
  | VUnitVal
  | VNone | VSome (v : value)
  | VSeq (vs : list value)
  | VTup (vs : list value)
  | VMap (kvs : list (value * value))
  | VEnum (i : N) (v : value).

(** *** UTF-8 (RFC 3629; Unicode table 3-7) *)
Definition scalar (c : N) : bool := (c <? 55296) || ((57344 <=? c) && (c <? 1114112)).
Definition utf8_char (c : N) : list N :=
  if c <? 128 then [c]
  else if c <? 2048 then [192 + c / 64; 128 + c mod 64]
  else if c <? 65536 then [224 + c / 4096; 128 + c / 64 mod 64; 128 + c mod 64]
  else [240 + c / 262144; 128 + c / 4096 mod 64; 128 + c / 64 mod 64; 128 + c mod 64].
Definition within (lo hi b : N) : bool := (lo <=? b) && (b <=? hi).
Definition cont (b : N) : bool := within 128 191 b.
(** The first character of a string. *)
Definition utf8_next (l : list N) : option (N * list N) :=
  match l with
  | [] => None
  | a :: l1 =>
    if a <? 128 then Some (a, l1)
    else match l1 with
    | [] => None
    | b :: l2 =>
      if within 194 223 a && cont b then Some ((a - 192) * 64 + (b - 128), l2)
      else match l2 with
      | [] => None
      | c :: l3 =>
        if ((a =? 224) && within 160 191 b || within 225 236 a && cont b || (a =? 237) && within 128 159 b || within 238 239 a && cont b) && cont c
        then Some ((a - 224) * 4096 + (b - 128) * 64 + (c - 128), l3)
        else match l3 with
        | [] => None
        | d :: l4 =>
          if ((a =? 240) && within 144 191 b || within 241 243 a && cont b || (a =? 244) && within 128 143 b) && cont c && cont d
          then Some ((a - 240) * 262144 + (b - 128) * 4096 + (c - 128) * 64 + (d - 128), l4)
          else None
        end
      end
    end
  end.
Fixpoint utf8_valid (fuel : nat) (l : list N) : bool :=
  match l with
  | [] => true
  | _ =>
    match fuel with
    | O => false
    | S fuel' => match utf8_next l with Some (_, r) => utf8_valid fuel' r | None => false end
    end
  end.
Definition utf8_ok (l : list N) : bool := utf8_valid (length l) l.

(** *** Integers *)
(** The number of bytes of a varint and the largest last byte. *)
Definition varint_max (w : width) : nat := match w with W16 => 3 | W32 => 5 | W64 => 10 | W128 => 19 end.
Definition varint_last (w : width) : N := match w with W16 => 3 | W32 => 15 | W64 => 1 | W128 => 3 end.
Definition put_varint (w : width) (n : N) : list N := varint_enc (varint_max w) n.
Definition take_varint (w : width) (l : list N) : option (N * list N) := varint_dec (varint_max w) 0 (varint_last w) l.
(** [zig_zag] and [de_zig_zag] *)
Definition zigzag (z : Z) : N := if (z <? 0)%Z then Z.to_N (-2 * z - 1) else Z.to_N (2 * z).
Definition de_zigzag (n : N) : Z := if N.odd n then (- Z.of_N (n / 2) - 1)%Z else Z.of_N (n / 2).

Fixpoint le_bytes (k : nat) (n : N) : list N :=
  match k with O => [] | S k' => n mod 256 :: le_bytes k' (n / 256) end.
Fixpoint of_le (l : list N) : N := match l with [] => 0 | b :: tl => b + 256 * of_le tl end.

Definition take_n (k : nat) (l : list N) : option (list N * list N) :=
  if (length l <? k)%nat then None else Some (firstn k l, skipn k l).

(** A length, then that many bytes. *)
Definition put_len (n : nat) : list N := put_varint W64 (N.of_nat n).
Definition take_bytes (l : list N) : option (list N * list N) :=
  match take_varint W64 l with
  | Some (n, r) => if N.of_nat (length r) <? n then None else take_n (N.to_nat n) r
  | None => None
  end.

(** *** Serialization: postcard [to_slice], [to_stdvec] *)
Fixpoint ser (v : value) : list N :=
  match v with
  | VBool b => [if b then 1 else 0]
  | VU8 n => [n]
  | VI8 z => [Z.to_N (z mod 256)]
  | VUInt w n => put_varint w n
  | VSInt w z => put_varint w (zigzag z)
  | VF32 n => le_bytes 4 n
  | VF64 n => le_bytes 8 n
  | VChar c => put_len (length (utf8_char c)) ++ utf8_char c
  | VString s | VBytes s => put_len (length s) ++ s
  | VUnitVal => []
  | VNone => [0]
  | VSome v => 1 :: ser v
  | VSeq vs => put_len (length vs) ++ flat_map ser vs
  | VTup vs => flat_map ser vs
  | VMap kvs => put_len (length kvs) ++ flat_map (fun '(k, v) => ser k ++ ser v) kvs
  | VEnum i v => put_varint W32 i ++ ser v
  end.

(** *** Deserialization *)
Definition omap {A B} (f : A -> B) (o : option (A * list N)) : option (B * list N) :=
  match o with Some (a, r) => Some (f a, r) | None => None end.

Definition de_prim (p : PrimKind) (l : list N) : option (value * list N) :=
  match p with
  | PBool => match l with b :: r => if b =? 0 then Some (VBool false, r) else if b =? 1 then Some (VBool true, r) else None | [] => None end
  | PU8 => match l with b :: r => Some (VU8 b, r) | [] => None end
  | PI8 => match l with b :: r => Some (VI8 (if b <? 128 then Z.of_N b else (Z.of_N b - 256)%Z), r) | [] => None end
  | PU16 => omap (VUInt W16) (take_varint W16 l)
  | PU32 => omap (VUInt W32) (take_varint W32 l)
  | PU64 | PUsize => omap (VUInt W64) (take_varint W64 l)
  | PU128 => omap (VUInt W128) (take_varint W128 l)
  | PI16 => omap (fun n => VSInt W16 (de_zigzag n)) (take_varint W16 l)
  | PI32 => omap (fun n => VSInt W32 (de_zigzag n)) (take_varint W32 l)
  | PI64 | PIsize => omap (fun n => VSInt W64 (de_zigzag n)) (take_varint W64 l)
  | PI128 => omap (fun n => VSInt W128 (de_zigzag n)) (take_varint W128 l)
  | PF32 => omap (fun b => VF32 (of_le b)) (take_n 4 l)
  | PF64 => omap (fun b => VF64 (of_le b)) (take_n 8 l)
  | PChar =>
    match take_bytes l with
    | Some (s, r) =>
      if (4 <? length s)%nat then None
      else if utf8_ok s then match utf8_next s with Some (c, _) => Some (VChar c, r) | None => None end
      else None
    | None => None
    end
  | PString => match take_bytes l with Some (s, r) => if utf8_ok s then Some (VString s, r) else None | None => None end
  | PByteArray => omap VBytes (take_bytes l)
  | PUnit => Some (VUnitVal, l)
  | PSchema => None
  end.

(** One item after the other. *)
Section Items.
  Context {A B : Type}.
  Variable f : A -> list N -> option (B * list N).
  Fixpoint de_all (ts : list A) (l : list N) : option (list B * list N) :=
    match ts with
    | [] => Some ([], l)
    | t :: ts' =>
      match f t l with
      | Some (v, r) => match de_all ts' r with Some (vs, r') => Some (v :: vs, r') | None => None end
      | None => None
      end
    end.
  (** The [i]-th alternative. *)
  Fixpoint de_nth (ts : list A) (i : nat) (l : list N) : option (B * list N) :=
    match ts, i with
    | [], _ => None
    | t :: _, O => f t l
    | _ :: ts', S i' => de_nth ts' i' l
    end.
End Items.
Fixpoint de_times {B} (f : list N -> option (B * list N)) (n : nat) (l : list N) : option (list B * list N) :=
  match n with
  | O => Some ([], l)
  | S n' =>
    match f l with
    | Some (v, r) => match de_times f n' r with Some (vs, r') => Some (v :: vs, r') | None => None end
    | None => None
    end
  end.
Definition de_pair {A B} (f : list N -> option (A * list N)) (g : list N -> option (B * list N)) (l : list N) : option (A * B * list N) :=
  match f l with
  | Some (a, r) => match g r with Some (b, r') => Some ((a, b), r') | None => None end
  | None => None
  end.

Fixpoint de (t : NamedType) (l : list N) {struct t} : option (value * list N) :=
  match t with NT _ d => de_dmt d l end
with de_dmt (d : DMT) (l : list N) {struct d} : option (value * list N) :=
  match d with
  | DPrim p => de_prim p l
  | DUnitStruct => Some (VUnitVal, l)
  | DOption nt =>
    match l with
    | b :: r => if b =? 0 then Some (VNone, r) else if b =? 1 then omap VSome (de nt r) else None
    | [] => None
    end
  | DNewtypeStruct nt => de nt l
  | DSeq nt =>
    match take_varint W64 l with
    | Some (n, r) => omap VSeq (de_times (de nt) (N.to_nat n) r)
    | None => None
    end
  | DTuple nts | DTupleStruct nts => omap VTup (de_all de nts l)
  | DMap k v =>
    match take_varint W64 l with
    | Some (n, r) => omap VMap (de_times (de_pair (de k) (de v)) (N.to_nat n) r)
    | None => None
    end
  | DStruct nvals => omap VTup (de_all (fun x : str * NamedType => let (_, nt) := x in de nt) nvals l)
  | DEnum nvars =>
    match take_varint W32 l with
    | Some (i, r) =>
      if N.of_nat (length nvars) <=? i then None
      else omap (VEnum i) (de_nth (fun x : str * DMV => let (_, m) := x in de_dmv m) nvars (N.to_nat i) r)
    | None => None
    end
  end
with de_dmv (m : DMV) (l : list N) {struct m} : option (value * list N) :=
  match m with
  | VUnit => Some (VUnitVal, l)
  | VNewtype nt => de nt l
  | VTuple nts => omap VTup (de_all de nts l)
  | VStruct nvals => omap VTup (de_all (fun x : str * NamedType => let (_, nt) := x in de nt) nvals l)
  end.

(** postcard [from_bytes]: what follows the value is ignored. *)
Definition from_bytes (t : NamedType) (l : list N) : option value :=
  match de t l with Some (v, _) => Some v | None => None end.
