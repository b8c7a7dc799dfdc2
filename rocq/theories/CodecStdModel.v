(** The wire format of postcard-rpc's own messages.
    Source: /repo/source/postcard-rpc/src/standard_icd.rs:22-125 (the derived
    [Serialize] and [Deserialize] of the standard types), lib.rs:419-424
    [TopicDirection], and [Key] of postcard-schema.

    Schemas as values ([NamedType], sent with every [SchemaData::Type]) are types of
    the postcard-schema crate, which is not in /repo: that they derive their
    serialization and the order in which their variants are declared is an assumption.
    No theorem depends on the order. *)
From Coq Require Import NArith ZArith List Bool Arith.
From Verif Require Import KeyModel HeaderModel SchemaModel MacroModel PostcardModel DispatchModel CodecModel.
Import ListNotations.
Local Open Scope N_scope.

Definition t_u8 : NamedType := NT [117; 56] (DPrim PU8).
Definition t_u32 : NamedType := NT [117; 51; 50] (DPrim PU32).
Definition t_string : NamedType := NT [83] (DPrim PString).

(** standard_icd.rs:22-58.  Field and variant names do not travel and are left empty. *)
Definition t_wire_error : NamedType :=
  NT [] (DEnum [([], VNewtype (NT [] (DStruct [([], t_u32); ([], t_u32)])));
                ([], VNewtype (NT [] (DStruct [([], t_u32)])));
                ([], VUnit); ([], VUnit); ([], VUnit); ([], VUnit); ([], VUnit)]).
Definition error_value (e : WireError) : value :=
  match e with
  | FrameTooLong len max => VEnum 0 (VTup [VUInt W32 len; VUInt W32 max])
  | FrameTooShort len => VEnum 1 (VTup [VUInt W32 len])
  | DeserFailed => VEnum 2 VUnitVal
  | SerFailed => VEnum 3 VUnitVal
  | UnknownKey => VEnum 4 VUnitVal
  | FailedToSpawn => VEnum 5 VUnitVal
  | KeyTooSmall => VEnum 6 VUnitVal
  end.
Definition value_error (v : value) : option WireError :=
  match v with
  | VEnum 0 (VTup [VUInt W32 len; VUInt W32 max]) => Some (FrameTooLong len max)
  | VEnum 1 (VTup [VUInt W32 len]) => Some (FrameTooShort len)
  | VEnum 2 VUnitVal => Some DeserFailed
  | VEnum 3 VUnitVal => Some SerFailed
  | VEnum 4 VUnitVal => Some UnknownKey
  | VEnum 5 VUnitVal => Some FailedToSpawn
  | VEnum 6 VUnitVal => Some KeyTooSmall
  | _ => None
  end.
(** host_client/mod.rs:423: [postcard::from_bytes::<WireErr>] with the standard error. *)
Definition from_bytes_error (l : list N) : option WireError :=
  match from_bytes t_wire_error l with Some v => value_error v | None => None end.

(** standard_icd.rs:113-125 *)
Definition t_totals : NamedType := NT [] (DStruct [([], t_u32); ([], t_u32); ([], t_u32); ([], t_u32); ([], t_u32)]).
Definition totals_value (t : SchemaTotals) : value :=
  VTup [VUInt W32 (types_sent t); VUInt W32 (endpoints_sent t); VUInt W32 (topics_in_sent t); VUInt W32 (topics_out_sent t); VUInt W32 (errors t)].
Definition value_totals (v : value) : option SchemaTotals :=
  match v with
  | VTup [VUInt W32 a; VUInt W32 b; VUInt W32 c; VUInt W32 d; VUInt W32 e] => Some (MkTotals a b c d e)
  | _ => None
  end.
Definition from_bytes_totals (l : list N) : option SchemaTotals :=
  match from_bytes t_totals l with Some v => value_totals v | None => None end.

(** *** Schemas as values *)
Definition prims : list PrimKind :=
  [PBool; PI8; PU8; PI16; PI32; PI64; PI128; PU16; PU32; PU64; PU128; PUsize; PIsize; PF32; PF64; PChar; PString; PByteArray].
Definition prim_index (p : PrimKind) : N :=
  match p with
  | PBool => 0 | PI8 => 1 | PU8 => 2 | PI16 => 3 | PI32 => 4 | PI64 => 5 | PI128 => 6 | PU16 => 7 | PU32 => 8 | PU64 => 9 | PU128 => 10
  | PUsize => 11 | PIsize => 12 | PF32 => 13 | PF64 => 14 | PChar => 15 | PString => 16 | PByteArray => 17 | PUnit => 19 | PSchema => 28
  end.

Fixpoint nt_value (t : NamedType) : value :=
  match t with NT name d => VTup [VString name; dmt_value d] end
with dmt_value (d : DMT) : value :=
  match d with
  | DPrim p => VEnum (prim_index p) VUnitVal
  | DOption t => VEnum 18 (nt_value t)
  | DUnitStruct => VEnum 20 VUnitVal
  | DNewtypeStruct t => VEnum 21 (nt_value t)
  | DSeq t => VEnum 22 (nt_value t)
  | DTuple ts => VEnum 23 (VSeq (map nt_value ts))
  | DTupleStruct ts => VEnum 24 (VSeq (map nt_value ts))
  | DMap k v => VEnum 25 (VTup [nt_value k; nt_value v])
  | DStruct fs => VEnum 26 (VSeq (map (fun x : str * NamedType => let (n, t) := x in VTup [VString n; nt_value t]) fs))
  | DEnum vs => VEnum 27 (VSeq (map (fun x : str * DMV => let (n, m) := x in VTup [VString n; dmv_value m]) vs))
  end
with dmv_value (m : DMV) : value :=
  match m with
  | VUnit => VEnum 0 VUnitVal
  | VNewtype t => VEnum 1 (nt_value t)
  | VTuple ts => VEnum 2 (VSeq (map nt_value ts))
  | VStruct fs => VEnum 3 (VSeq (map (fun x : str * NamedType => let (n, t) := x in VTup [VString n; nt_value t]) fs))
  end.

Definition de_string (l : list N) : option (str * list N) :=
  match take_bytes l with Some (s, r) => if utf8_ok s then Some (s, r) else None | None => None end.
Definition de_vec {B} (f : list N -> option (B * list N)) (l : list N) : option (list B * list N) :=
  match take_varint W64 l with Some (n, r) => de_times f (N.to_nat n) r | None => None end.

(** Reading a schema; [f] reads the schemas inside. *)
Section Schema.
  Variable f : list N -> option (NamedType * list N).
  Definition de_dmv_schema (l : list N) : option (DMV * list N) :=
    match take_varint W32 l with
    | Some (0, r) => Some (VUnit, r)
    | Some (1, r) => omap VNewtype (f r)
    | Some (2, r) => omap VTuple (de_vec f r)
    | Some (3, r) => omap VStruct (de_vec (de_pair de_string f) r)
    | _ => None
    end.
  Definition de_dmt_schema (l : list N) : option (DMT * list N) :=
    match take_varint W32 l with
    | Some (i, r) =>
      if i <? 18 then match nth_error prims (N.to_nat i) with Some p => Some (DPrim p, r) | None => None end
      else match i with
      | 18 => omap DOption (f r)
      | 19 => Some (DPrim PUnit, r)
      | 20 => Some (DUnitStruct, r)
      | 21 => omap DNewtypeStruct (f r)
      | 22 => omap DSeq (f r)
      | 23 => omap DTuple (de_vec f r)
      | 24 => omap DTupleStruct (de_vec f r)
      | 25 => omap (fun x => DMap (fst x) (snd x)) (de_pair f f r)
      | 26 => omap DStruct (de_vec (de_pair de_string f) r)
      | 27 => omap DEnum (de_vec (de_pair de_string de_dmv_schema) r)
      | 28 => Some (DPrim PSchema, r)
      | _ => None
      end
    | None => None
    end.
End Schema.
(** Every level of nesting takes at least a byte, so the length of the message bounds
    the recursion. *)
Fixpoint de_nt (fuel : nat) (l : list N) : option (NamedType * list N) :=
  match fuel with
  | O => None
  | S fuel' => omap (fun x => NT (fst x) (snd x)) (de_pair de_string (de_dmt_schema (de_nt fuel')) l)
  end.

(** [Key] is a newtype around [[u8; 8]]: postcard-schema, re-exported by lib.rs:138-139. *)
Definition key_value (k : Key8) : value := VTup (map VU8 (k8_bytes k)).
Definition de_key (l : list N) : option (Key8 * list N) :=
  match l with
  | a :: b :: c :: d :: e :: f :: g :: h :: r => Some (K8 a b c d e f g h, r)
  | _ => None
  end.
Definition direction_value (d : TopicDirection) : value := VEnum (match d with ToServer => 0 | ToClient => 1 end) VUnitVal.
Definition de_direction (l : list N) : option (TopicDirection * list N) :=
  match take_varint W32 l with Some (0, r) => Some (ToServer, r) | Some (1, r) => Some (ToClient, r) | _ => None end.

(** standard_icd.rs:62-110 *)
Definition schema_value (d : SchemaData) : value :=
  match d with
  | SDType t => VEnum 0 (nt_value t)
  | SDEndpoint path rq rp => VEnum 1 (VTup [VString path; key_value rq; key_value rp])
  | SDTopic path k dir => VEnum 2 (VTup [VString path; key_value k; direction_value dir])
  end.
Definition de_schema_data (l : list N) : option (SchemaData * list N) :=
  match take_varint W32 l with
  | Some (0, r) => omap SDType (de_nt (length r) r)
  | Some (1, r) => omap (fun x => SDEndpoint (fst (fst x)) (snd (fst x)) (snd x)) (de_pair (de_pair de_string de_key) de_key r)
  | Some (2, r) => omap (fun x => SDTopic (fst (fst x)) (snd (fst x)) (snd x)) (de_pair (de_pair de_string de_key) de_direction r)
  | _ => None
  end.
Definition from_bytes_schema (l : list N) : option SchemaData :=
  match de_schema_data l with Some (d, _) => Some d | None => None end.

(** Everything the server sends. *)
Definition payload_bytes (p : Payload value) : list N :=
  ser (match p with
       | PVal v => v
       | PPing n => VUInt W32 n
       | PError e => error_value e
       | PSchemaData d => schema_value d
       | PSchemaTotals t => totals_value t
       end).
