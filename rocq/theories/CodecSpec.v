(** Which values belong to which type: the meaning of a schema. *)
From Coq Require Import NArith ZArith List Bool Arith.
From Verif Require Import KeyModel HeaderModel SchemaModel MacroModel PostcardModel DispatchModel CodecModel.
Import ListNotations.

Definition uint_ok (w : width) (n : N) : Prop := (n < 2 ^ bits w)%N.
Definition sint_ok (w : width) (z : Z) : Prop := (- 2 ^ Z.of_N (bits w - 1) <= z < 2 ^ Z.of_N (bits w - 1))%Z.
(** What fits in memory has a length below 2^64. *)
Definition len_ok {A} (l : list A) : Prop := (N.of_nat (length l) < 2 ^ 64)%N.

(** Unicode scalar values, and their UTF-8 forms (RFC 3629, section 3): the shortest
    sequence of the shape that belongs to the length. *)
Definition is_scalar (c : N) : Prop := (c < 55296 \/ 57344 <= c < 1114112)%N.
Inductive utf8_of : N -> list N -> Prop :=
| utf8_1 c : (c < 128)%N -> utf8_of c [c]
| utf8_2 c x y : (128 <= c < 2048)%N -> (y < 64)%N -> c = (x * 64 + y)%N -> utf8_of c [192 + x; 128 + y]%N
| utf8_3 c x y z : (2048 <= c < 65536)%N -> (y < 64)%N -> (z < 64)%N -> c = ((x * 64 + y) * 64 + z)%N ->
    utf8_of c [224 + x; 128 + y; 128 + z]%N
| utf8_4 c x y z w : (65536 <= c)%N -> (y < 64)%N -> (z < 64)%N -> (w < 64)%N -> c = (((x * 64 + y) * 64 + z) * 64 + w)%N ->
    utf8_of c [240 + x; 128 + y; 128 + z; 128 + w]%N.
Inductive is_text : list N -> Prop :=
| text_nil : is_text []
| text_cons c b s : is_scalar c -> utf8_of c b -> is_text s -> is_text (b ++ s).

Definition typed_prim (p : PrimKind) (v : value) : Prop :=
  match p, v with
  | PBool, VBool _ => True
  | PU8, VU8 n => (n < 256)%N
  | PI8, VI8 z => (-128 <= z < 128)%Z
  | PU16, VUInt W16 n => uint_ok W16 n
  | PU32, VUInt W32 n => uint_ok W32 n
  | PU64, VUInt W64 n | PUsize, VUInt W64 n => uint_ok W64 n
  | PU128, VUInt W128 n => uint_ok W128 n
  | PI16, VSInt W16 z => sint_ok W16 z
  | PI32, VSInt W32 z => sint_ok W32 z
  | PI64, VSInt W64 z | PIsize, VSInt W64 z => sint_ok W64 z
  | PI128, VSInt W128 z => sint_ok W128 z
  | PF32, VF32 n => (n < 2 ^ 32)%N
  | PF64, VF64 n => (n < 2 ^ 64)%N
  | PChar, VChar c => is_scalar c
  | PString, VString s => is_text s /\ len_ok s
  | PByteArray, VBytes s => Forall byte_ok s /\ len_ok s
  | PUnit, VUnitVal => True
  | _, _ => False
  end.

Section All.
  Context {A B : Type}.
  Variable f : A -> B -> Prop.
  Fixpoint all2 (ts : list A) (vs : list B) : Prop :=
    match ts, vs with
    | [], [] => True
    | t :: ts', v :: vs' => f t v /\ all2 ts' vs'
    | _, _ => False
    end.
  Fixpoint at_nth (ts : list A) (i : nat) (v : B) : Prop :=
    match ts, i with
    | [], _ => False
    | t :: _, O => f t v
    | _ :: ts', S i' => at_nth ts' i' v
    end.
End All.

Fixpoint typed (t : NamedType) (v : value) {struct t} : Prop :=
  match t with NT _ d => typed_dmt d v end
with typed_dmt (d : DMT) (v : value) {struct d} : Prop :=
  match d with
  | DPrim p => typed_prim p v
  | DUnitStruct => v = VUnitVal
  | DOption nt => match v with VNone => True | VSome w => typed nt w | _ => False end
  | DNewtypeStruct nt => typed nt v
  | DSeq nt => match v with VSeq vs => Forall (typed nt) vs /\ len_ok vs | _ => False end
  | DTuple nts | DTupleStruct nts => match v with VTup vs => all2 typed nts vs | _ => False end
  | DMap tk tv => match v with VMap kvs => Forall (fun x => typed tk (fst x) /\ typed tv (snd x)) kvs /\ len_ok kvs | _ => False end
  | DStruct nvals => match v with VTup vs => all2 (fun x : str * NamedType => let (_, nt) := x in typed nt) nvals vs | _ => False end
  | DEnum nvars =>
    match v with
    | VEnum i w => uint_ok W32 i /\ at_nth (fun x : str * DMV => let (_, m) := x in typed_dmv m) nvars (N.to_nat i) w
    | _ => False
    end
  end
with typed_dmv (m : DMV) (v : value) {struct m} : Prop :=
  match m with
  | VUnit => v = VUnitVal
  | VNewtype nt => typed nt v
  | VTuple nts => match v with VTup vs => all2 typed nts vs | _ => False end
  | VStruct nvals => match v with VTup vs => all2 (fun x : str * NamedType => let (_, nt) := x in typed nt) nvals vs | _ => False end
  end.

(** *** Which schemas can be sent: names are strings, lists have lengths *)
Definition name_ok (s : str) : Prop := is_text s /\ len_ok s.
Section AllP.
  Context {A : Type}.
  Variable f : A -> Prop.
  Fixpoint allp (l : list A) : Prop := match l with [] => True | x :: tl => f x /\ allp tl end.
End AllP.
Fixpoint nt_ok (t : NamedType) : Prop := match t with NT n d => name_ok n /\ dmt_ok d end
with dmt_ok (d : DMT) : Prop :=
  match d with
  | DPrim _ | DUnitStruct => True
  | DOption t | DNewtypeStruct t | DSeq t => nt_ok t
  | DTuple ts | DTupleStruct ts => allp nt_ok ts /\ len_ok ts
  | DMap k v => nt_ok k /\ nt_ok v
  | DStruct fs => allp (fun x : str * NamedType => let (n, t) := x in name_ok n /\ nt_ok t) fs /\ len_ok fs
  | DEnum vs => allp (fun x : str * DMV => let (n, m) := x in name_ok n /\ dmv_ok m) vs /\ len_ok vs
  end
with dmv_ok (m : DMV) : Prop :=
  match m with
  | VUnit => True
  | VNewtype t => nt_ok t
  | VTuple ts => allp nt_ok ts /\ len_ok ts
  | VStruct fs => allp (fun x : str * NamedType => let (n, t) := x in name_ok n /\ nt_ok t) fs /\ len_ok fs
  end.
Definition sd_ok (d : SchemaData) : Prop :=
  match d with SDType t => nt_ok t | SDEndpoint path _ _ => name_ok path | SDTopic path _ _ => name_ok path end.
(** Counters are 32-bit. *)
Definition error_ok (e : WireError) : Prop :=
  match e with FrameTooLong a b => uint_ok W32 a /\ uint_ok W32 b | FrameTooShort a => uint_ok W32 a | _ => True end.
Definition totals_ok (t : SchemaTotals) : Prop :=
  uint_ok W32 (types_sent t) /\ uint_ok W32 (endpoints_sent t) /\ uint_ok W32 (topics_in_sent t) /\ uint_ok W32 (topics_out_sent t) /\ uint_ok W32 (errors t).
