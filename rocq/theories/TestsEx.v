(** The project's own tests, replayed on the model.
    Source: the [#[test]] functions of /repo/source/postcard-rpc/src (server/mod.rs:604-663,
    macros.rs:407-502, header.rs:580-687, uniques.rs:777-990) and
    /repo/source/postcard-rpc-test/tests (basic.rs, subscrobble.rs).

    These are tests, of single runs, and prove nothing about others; they are here because
    the model stands in for code that cannot be run here.  Every assertion of those tests
    that concerns modelled code is an equation below, with the value that the test expects.
    The hash of paths and types is external code; a stand-in is used. *)
From Coq Require Import Ascii String NArith ZArith List Bool Arith.
From Verif Require Import KeyModel HeaderModel MinKeyModel SchemaModel MacroModel PostcardModel CodecModel DispatchModel DispatchSpec
  SubModel ClientModel ClientSpec SystemModel AsyncModel ChanModel ChanSysModel CodecStdModel ReportModel ReportThm2 DiscoverSpec.
Import ListNotations.

(** ** server/mod.rs:608-662 *)
Definition zero_key : Key8 := K8 0 0 0 0 0 0 0 0.
Example min_test_1 :
  min_key_needed [[zero_key; K8 0 0 0 0 0 0 0 1]] = Some 1 /\ min_key_needed [[zero_key]; [K8 0 0 0 0 0 0 0 1]] = Some 1.
Proof. vm_compute. auto. Qed.
Example min_test_2 :
  min_key_needed [[zero_key; K8 0 0 0 1 0 0 0 1]] = Some 2 /\ min_key_needed [[zero_key]; [K8 0 0 0 1 0 0 0 1]] = Some 2.
Proof. vm_compute. auto. Qed.
Example min_test_4 :
  min_key_needed [[zero_key; K8 0 1 0 1 0 1 0 1]] = Some 4 /\ min_key_needed [[zero_key]; [K8 0 1 0 1 0 1 0 1]] = Some 4.
Proof. vm_compute. auto. Qed.
Example min_test_8 :
  min_key_needed [[zero_key; K8 1 1 1 1 1 1 1 1]] = Some 8 /\ min_key_needed [[zero_key]; [K8 1 1 1 1 1 1 1 1]] = Some 8.
Proof. vm_compute. auto. Qed.

(** ** macros.rs:409-418 *)
Example concats : concat_arrays 4294967295%N [[1; 2; 3]; [4; 5; 6]]%N = Done [1; 2; 3; 4; 5; 6]%N.
Proof. reflexivity. Qed.

(** ** header.rs:585-669 *)
Definition checks : list (VarHeader * list N) :=
  [(MkHeader (VKey1 (K1 0)) (Seq1 0), [N.lor KEY_ONE_BITS SEQ_ONE_BITS; 0; 0]);
   (MkHeader (VKey1 (K1 1)) (Seq1 2), [N.lor KEY_ONE_BITS SEQ_ONE_BITS; 1; 2]);
   (MkHeader (VKey2 (K2 66 175)) (Seq1 2), [N.lor KEY_TWO_BITS SEQ_ONE_BITS; 66; 175; 2]);
   (MkHeader (VKey1 (K1 1)) (Seq2 17071), [N.lor KEY_ONE_BITS SEQ_TWO_BITS; 1; 175; 66]);
   (MkHeader (VKey8 (K8 18 35 52 69 86 103 120 137)) (Seq4 1118808763),
    [N.lor KEY_EIGHT_BITS SEQ_FOUR_BITS; 18; 35; 52; 69; 86; 103; 120; 137; 187; 170; 175; 66])]%N.
Example wire_format :
  forallb (fun c : VarHeader * list N =>
    let '(val, exp) := c in
    match write_to_slice val (repeat 0%N 13) with
    | Some (used, _) =>
      (bytes_eq used exp && (length used =? length exp) &&
       match take_from_slice used with Done (Some (deser, remain)) => header_eqb val deser && (length remain =? 0) | _ => false end)%bool
    | None => false
    end && bytes_eq (write_to_vec val) exp && (length (write_to_vec val) =? length exp))%bool checks = true.
Proof. vm_compute. reflexivity. Qed.

(** header.rs:672-686 *)
Example var_seq_equality :
  let val32 := 305419896%N in let val16 := 39612%N in let val8 := 222%N in
  map (fun p => seq_eqb (fst p) (snd p))
    [(Seq1 val8, Seq1 val8); (Seq1 val8, Seq2 val8); (Seq1 val8, Seq4 val8);
     (Seq2 val16, Seq1 (val16 mod 256)); (Seq2 val16, Seq2 val16); (Seq2 val16, Seq4 val16);
     (Seq4 val32, Seq1 (val32 mod 256)); (Seq4 val32, Seq2 (val32 mod 65536)); (Seq4 val32, Seq4 val32)]%N =
    [true; true; true; false; true; true; false; false; true].
Proof. vm_compute. reflexivity. Qed.

(** ** uniques.rs:786-894 *)
Definition text (s : string) : str := map N_of_ascii (list_ascii_of_string s).
Definition prim (s : string) (p : PrimKind) : NamedType := NT (text s) (DPrim p).
Definition u8 := prim "u8" PU8. Definition u16 := prim "u16" PU16. Definition u32 := prim "u32" PU32. Definition u64 := prim "u64" PU64.
Definition i8 := prim "i8" PI8. Definition i16 := prim "i16" PI16. Definition i32 := prim "i32" PI32. Definition i64 := prim "i64" PI64.
Definition string_ty := prim "String" PString. Definition unit_ty := prim "()" PUnit.
Definition option_of (t : NamedType) : NamedType := NT (text "Option<T>") (DOption t).
Definition struct (s : string) (fs : list (string * NamedType)) : NamedType :=
  NT (text s) (DStruct (map (fun f => (text (fst f), snd f)) fs)).
Local Open Scope string_scope.

Definition Example0 := NT (text "Example0") DUnitStruct.
Definition ExampleA := struct "ExampleA" [("a", u32)].
Definition Example1 := struct "Example1" [("a", u32); ("b", option_of u16)].
Definition Example2 := struct "Example2" [("x", i32); ("y", option_of i16); ("c", Example1)].
Definition Example3 := struct "Example3" [("a", u32); ("b", option_of u16); ("c", Example2); ("d", Example2); ("e", Example2)].
Definition Example4 := NT (text "Example4")
  (DEnum [(text "A", VUnit); (text "B", VNewtype string_ty); (text "C", VTuple [u32; u64]);
          (text "D", VStruct [(text "x", i8); (text "y", i16); (text "z", i32); (text "a", i64)])]).
Example subpar_arrs : nty_upper (NT (text "[T; N]") (DTuple (repeat Example0 32))) = 33.
Proof. vm_compute. reflexivity. Qed.
Definition used (t : outcome Table) : option nat := match t with Done (_, n) => Some n | Panicked => None end.
Example uniqlo :
  map nty_upper [Example0; ExampleA; Example1; Example2; Example3; Example4] = [1; 1; 2; 4; 14; 1] /\
  used (chew_nty 1 Example0) = Some 1 /\ used (chew_nty 1 ExampleA) = Some 1 /\
  used (chew_nty (nty_upper (option_of u16)) (option_of u16)) = Some 1 /\
  is_prim (nt_ty Example1) = false /\ used (chew_nty 2 Example1) = Some 2.
Proof. vm_compute. repeat split; reflexivity. Qed.

(** ** macros.rs:433-501 *)

(** In place of [Key::for_path]: FNV-1a over the path and the name of the type, and the
    eight bytes of that. *)
Definition fnv (bs : list N) : N := fold_left (fun h b => (N.lxor h b * 1099511628211) mod 18446744073709551616)%N bs 14695981039346656037%N.
Definition hash (t : NamedType) (path : str) : Key8 :=
  let h := fnv (path ++ nt_name t) in
  let b i := ((h / 2 ^ (8 * i)) mod 256)%N in K8 (b 0%N) (b 1%N) (b 2%N) (b 3%N) (b 4%N) (b 5%N) (b 6%N) (b 7%N).

(** standard_icd.rs:62-154 with [use-std]; lib.rs:417-424 *)
Definition key_ty := NT (text "Key") (DNewtypeStruct (NT (text "[T; N]") (DTuple (repeat u8 8)))).
Definition direction_ty := NT (text "TopicDirection") (DEnum [(text "ToServer", VUnit); (text "ToClient", VUnit)]).
Definition named f (t : NamedType) := (text f, t).
Definition schema_data_ty := NT (text "OwnedSchemaData")
  (DEnum [(text "Type", VNewtype (prim "OwnedNamedType" PSchema));
          (text "Endpoint", VStruct [named "path" string_ty; named "request_key" key_ty; named "response_key" key_ty]);
          (text "Topic", VStruct [named "path" string_ty; named "key" key_ty; named "direction" direction_ty])]).
Definition totals_ty := struct "SchemaTotals"
  [("types_sent", u32); ("endpoints_sent", u32); ("topics_in_sent", u32); ("topics_out_sent", u32); ("errors", u32)].
Definition std_eps := Eval vm_compute in ofail (MkEpMap [] []) (endpoints_macro hash None
  [MkEpDef u32 u32 (text "postcard-rpc/ping"); MkEpDef unit_ty totals_ty (text "postcard-rpc/schemas/get")]).
Definition std_in := Eval vm_compute in ofail (MkTpMap ToServer [] []) (topics_macro hash ToServer None []).
Definition std_out := Eval vm_compute in ofail (MkTpMap ToClient [] []) (topics_macro hash ToClient None
  [MkTpDef schema_data_ty (text "postcard-rpc/schema/data"); MkTpDef string_ty (text "postcard-rpc/logging")]).

Definition newtype (s : string) (t : NamedType) : NamedType := NT (text s) (DNewtypeStruct t).
Example eps :
  match endpoints_macro hash (Some std_eps)
    (map (fun p => MkEpDef (newtype "AReq" u8) (newtype "AResp" u16) (text p)) ["test/alpha1"; "test/alpha2"; "test/alpha3"]) with
  | Done m => length (em_types m) = 3 /\ length (em_endpoints m) = 5
  | Panicked => False
  end.
Proof. vm_compute. auto. Qed.
Example tps :
  let topics dir std paths := topics_macro hash dir (Some std) (map (fun p => MkTpDef (newtype "BTopic" u32) (text p)) paths) in
  match topics ToServer std_in ["test/in/beta1"; "test/in/beta2"; "test/in/beta3"], topics ToClient std_out ["test/out/beta1"] with
  | Done tin, Done tout =>
    length (tm_types tin) = 1 /\ length (tm_topics tin) = 3 /\ length (tm_types tout) = 5 /\ length (tm_topics tout) = 3
  | _, _ => False
  end.
Proof. vm_compute. auto. Qed.

(** ** postcard-rpc-test/tests: the device of both files (basic.rs:27-228, subscrobble.rs
    26-226), with the feature [alpha] *)
Definition AReq := newtype "AReq" u8. Definition AResp := newtype "AResp" u8.
Definition BReq := newtype "BReq" u16. Definition BResp := newtype "BResp" u32.
Definition unit_struct (s : string) := NT (text s) DUnitStruct.
Definition Message := struct "Message" [("data", prim "str" PString)].
Definition DoubleMessage := struct "DoubleMessage" [("data1", prim "str" PString); ("data2", prim "str" PString)].
Definition ZMsg := newtype "ZMsg" i16.
Definition ENDPOINT_LIST := Eval vm_compute in ofail (MkEpMap [] []) (endpoints_macro hash (Some std_eps)
  [MkEpDef AReq AResp (text "alpha"); MkEpDef BReq BResp (text "beta");
   MkEpDef (unit_struct "GReq") (unit_struct "GResp") (text "gamma"); MkEpDef (unit_struct "DReq") (unit_struct "DResp") (text "delta");
   MkEpDef (unit_struct "EReq") (unit_struct "EResp") (text "epsilon"); MkEpDef Message u8 (text "borrow1");
   MkEpDef unit_ty Message (text "borrow2"); MkEpDef Message Message (text "borrow3"); MkEpDef DoubleMessage DoubleMessage (text "borrow4")]).
Definition TOPICS_IN_LIST := Eval vm_compute in ofail (MkTpMap ToServer [] []) (topics_macro hash ToServer (Some std_in)
  [MkTpDef ZMsg (text "zeta1"); MkTpDef ZMsg (text "zeta2"); MkTpDef ZMsg (text "zeta3"); MkTpDef Message (text "msg1");
   MkTpDef u8 (text "empty"); MkTpDef unit_ty (text "empty")]).
Definition TOPICS_OUT_LIST := Eval vm_compute in ofail (MkTpMap ToClient [] []) (topics_macro hash ToClient (Some std_out) [MkTpDef ZMsg (text "zeta10")]).

(** The handlers; the counters that they increment are counted in the trace. *)
Definition arm (req resp : NamedType) (path : string) (fl : Flavor) (n : nat) (f : value -> value) : EpArm value unit :=
  MkEpArm value unit (hash req (text path)) (hash resp (text path)) (from_bytes req) fl n (fun ctx _ v => HRet (ctx, f v)).
Definition tarm (msg : NamedType) (path : string) (fl : Flavor) (n : nat) : TpArm value unit :=
  MkTpArm value unit (hash msg (text path)) (from_bytes msg) fl n (fun ctx _ _ => HRet ctx).
Definition ep_arms : list (EpArm value unit) :=
  [arm AReq AResp "alpha" Async 0 (fun v => v);
   arm BReq BResp "beta" Spawn 1 (fun v => v);
   arm Message u8 "borrow1" DispatchModel.Blocking 2 (fun _ => VU8 0);
   arm unit_ty Message "borrow2" DispatchModel.Blocking 3 (fun _ => VTup [VString (text "hello")])].
Definition tp_arms : list (TpArm value unit) :=
  [tarm ZMsg "zeta1" DispatchModel.Blocking 10; tarm ZMsg "zeta2" Async 11; tarm ZMsg "zeta3" Spawn 12; tarm Message "msg1" DispatchModel.Blocking 13].
(** basic.rs:216-228: [BResp(body.0.into())] *)
Definition the_task (n : nat) (_ : unit) (h : VarHeader) (v : value) : HProg value unit :=
  if Nat.eqb n 1 then HSend (hash BResp (text "beta")) (hdr_seq h) (PVal (match v with VUInt _ x => VUInt W32 x | _ => v end)) (fun _ => HRet tt) else HRet tt.
Definition app_size := Eval vm_compute in needed_sz (em_endpoints ENDPOINT_LIST) (tm_topics TOPICS_IN_LIST) (tm_topics TOPICS_OUT_LIST)
  (map (ea_req _ _) ep_arms) (map (ea_resp _ _) ep_arms) (map (ta_key _ _) tp_arms).
Definition min_key_len : VarKeyKind := Eval vm_compute in match app_size with Some n => match kind_of_size n with Some k => k | None => KK8 end | None => KK8 end.
Definition report : DeviceMap := Eval vm_compute in ofail (MkMap [] [] [] [] KK8) (device_map ENDPOINT_LIST TOPICS_IN_LIST TOPICS_OUT_LIST min_key_len).
Definition app : Dispatcher value unit := MkDispatcher value unit min_key_len ep_arms tp_arms report.
Example app_compiles : define_dispatch value unit ENDPOINT_LIST TOPICS_IN_LIST TOPICS_OUT_LIST ep_arms tp_arms = Done app.
Proof.
  assert (E1 : needed_sz (em_endpoints ENDPOINT_LIST) (tm_topics TOPICS_IN_LIST) (tm_topics TOPICS_OUT_LIST)
    (map (ea_req _ _) ep_arms) (map (ea_resp _ _) ep_arms) (map (ta_key _ _) tp_arms) = app_size) by (vm_compute; reflexivity).
  assert (E2 : device_map ENDPOINT_LIST TOPICS_IN_LIST TOPICS_OUT_LIST min_key_len = Done report) by (vm_compute; reflexivity).
  unfold define_dispatch. rewrite E1. unfold app_size. cbn [kind_of_size N.eqb Pos.eqb]. change KK1 with min_key_len. rewrite E2. reflexivity.
Qed.
Definition std_keys : StdKeys :=
  MkStd (hash u32 (text "postcard-rpc/ping")) (hash u32 (text "postcard-rpc/ping"))
    (hash unit_ty (text "postcard-rpc/schemas/get")) (hash totals_ty (text "postcard-rpc/schemas/get"))
    (hash schema_data_ty (text "postcard-rpc/schema/data")) (hash t_wire_error (text "error")) (hash string_ty (text "postcard-rpc/logging")).

(** host_client/test_channels.rs:15-40: what [new_from_channels] configures; channels of
    16 frames, a buffer of 1024 bytes. *)
Definition config (k : VarSeqKind) : Config := MkConfig (error_key std_keys) 64 false k.
Definition world := CSys value unit unit.
Definition start (bg : list (HProg value unit)) : world := csys_new value unit unit bg tt.
Definition run (kkind : VarKeyKind) (k : VarSeqKind) : list CLabel -> world -> option (world * list Label * list (list Ev)) :=
  c_run value unit unit std_keys (fun _ _ => true) kkind (fun c => (c, tt)) app payload_bytes the_task (config k) 16 16 1024.

(** A call of [send_resp], up to the frame being in the channel; its completion after the
    answer was received. *)
Definition call (r : nat) (req resp : NamedType) (path : string) (v : value) : list CLabel :=
  map CClient [LRequest (hash req (text path)) (hash resp (text path)) (ser v); LKind r; LEnqOk r; LEnqErr r; LSend r; LOutPop] ++ [COut].
Definition return_ (r : nat) : list CLabel := [CRecv; CClient (LWake (Some 0)); CClient (LTakeOk r)].
Definition value_of (t : NamedType) (r : ReqResult) : option value :=
  match r with GotReply f => from_bytes t (f_body f) | _ => None end.

(** basic.rs:230-373 [smoke]: frames written by hand, and the channel to the client read
    directly.  (Here a client that awaits nothing puts them there.) *)
Definition put (i : nat) (key : Key8) (seq : VarSeq) (v : value) : list CLabel :=
  map CClient [LPublish (MkFrame (MkHeader (VKey8 key) seq) (ser v)); LPubSend i; LOutPop] ++ [COut].
Definition smoke_frames : list CLabel :=
  put 0 (hash AReq (text "alpha")) (Seq4 123) (VU8 42) ++ [CServe false; CSend false None] ++
  put 1 (hash BReq (text "beta")) (Seq4 234) (VUInt W16 1000) ++ [CServe false; CSend false (Some 0)].
Definition bump (i0 : nat) (path : string) : list CLabel :=
  concat (map (fun i => put (i0 + i) (hash ZMsg (text path)) (Seq4 (N.of_nat i)) (VSInt W16 456) ++ [CServe false])%list [0; 1; 2]).
Definition smoke_topics : list CLabel := bump 2 "zeta1" ++ bump 5 "zeta2" ++ bump 8 "zeta3".
Definition on_channel (w : world) : list (list N) := y_down _ _ _ (a_sys _ _ _ (cs_a _ _ _ w)).
Definition runs (w : world) : list nat := map (fun x => fst (fst x)) (invocations (y_trace _ _ _ (a_sys _ _ _ (cs_a _ _ _ w)))).
Definition opened (t : NamedType) (bytes : list N) : option (VarHeader * option value) :=
  match take_from_slice bytes with Done (Some (h, body)) => Some (h, from_bytes t body) | _ => None end.
Example smoke :
  exists w1 w2 c1 c2 e1 e2 a b,
    run min_key_len SK1 smoke_frames (start []) = Some (w1, c1, e1) /\ on_channel w1 = [a; b] /\
    match opened AResp a, opened BResp b with
    | Some (ha, va), Some (hb, vb) =>
      va = Some (VU8 42) /\ varkey_eqb (hdr_key ha) (VKey8 (hash AResp (text "alpha"))) = true /\ hdr_seq ha = Seq4 123 /\
      vb = Some (VUInt W32 1000) /\ varkey_eqb (hdr_key hb) (VKey8 (hash BResp (text "beta"))) = true /\ hdr_seq hb = Seq4 234
    | _, _ => False
    end /\
    run min_key_len SK1 smoke_topics w1 = Some (w2, c2, e2) /\
    runs w2 = [0; 1; 10; 10; 10; 11; 11; 11; 12; 12; 12] /\ on_channel w2 = [a; b].
Proof. do 8 eexists. split; [vm_compute; reflexivity|]. split; [vm_compute; reflexivity|]. split; [vm_compute; auto 10|]. split; vm_compute; auto. Qed.

(** basic.rs:375-413 [end_to_end] and 465-503 [end_to_end_force8] *)
Definition both_calls : list CLabel :=
  call 0 AReq AResp "alpha" (VU8 42) ++ [CServe false; CSend false None] ++ return_ 0 ++
  call 1 BReq BResp "beta" (VUInt W16 1234) ++ [CServe false; CSend false (Some 0)] ++ return_ 1.
Definition both_answers (kkind : VarKeyKind) (k : VarSeqKind) : Prop :=
  exists w cl es a b, run kkind k both_calls (start []) = Some (w, cl, es) /\ results es = [(0, a); (1, b)] /\
    value_of AResp a = Some (VU8 42) /\ value_of BResp b = Some (VUInt W32 1234).
Example end_to_end : both_answers min_key_len SK1.
Proof. do 5 eexists. split; [vm_compute; reflexivity|]. vm_compute. auto. Qed.
Example end_to_end_force8 : both_answers KK8 SK4.
Proof. do 5 eexists. split; [vm_compute; reflexivity|]. vm_compute. auto. Qed.

(** basic.rs:557-600 [end_to_end_stoppable] *)
Example end_to_end_stoppable :
  exists w cl es a,
    run min_key_len SK1 (call 0 AReq AResp "alpha" (VU8 42) ++ [CServe false; CSend false None] ++ return_ 0 ++ [CStop; CServe false]) (start []) = Some (w, cl, es) /\
    results es = [(0, a)] /\ value_of AResp a = Some (VU8 42) /\ cs_ended _ _ _ w = true.
Proof. do 4 eexists. split; [vm_compute; reflexivity|]. vm_compute. auto. Qed.

(** basic.rs:415-463 [end_to_end_schema]: the call of [get_schema_report], with the
    collecting task polled after every message. *)
Definition schemas_topic := hash schema_data_ty (text "postcard-rpc/schema/data").
Definition item : list CLabel := [CSend false None; CRecv; CClient (LSub (ReceiveM 0))].
Definition discovery : list CLabel :=
  [CClient (LSub (SubscribeMulti schemas_topic 64))] ++ call 0 unit_ty totals_ty "postcard-rpc/schemas/get" VUnitVal ++ [CServe false] ++
  concat (repeat item (length (dm_types report) + length (dm_endpoints report) + length (dm_topics_in report) + length (dm_topics_out report))) ++
  [CSend false None] ++ return_ 0.
(** The types that every host knows without being told (mod.rs:989-1035), as far as they
    occur here. *)
Definition builtin : list NamedType := [u8; u16; u32; u64; i8; i16; i32; i64; string_ty; prim "str" PString; unit_ty].
Example end_to_end_schema :
  exists w cl es f tot rpt,
    run min_key_len SK1 discovery (start []) = Some (w, cl, es) /\ results es = [(0, GotReply f)] /\ from_bytes_totals (f_body f) = Some tot /\
    @get_schema_report hash builtin (fun l => l) unit true (Some (heard cl es 0 ++ [Elapsed])%list) (inl tot) = Done (inl rpt) /\
    length (rp_endpoints rpt) = length (dm_endpoints report) /\ length (rp_topics_in rpt) = length (dm_topics_in report) /\
    length (rp_topics_out rpt) = length (dm_topics_out report) /\
    length (dm_endpoints report) = 11 /\ length (dm_topics_in report) = 6 /\ length (dm_topics_out report) = 3.
Proof. do 6 eexists. split; [vm_compute; reflexivity|]. split; [vm_compute; reflexivity|]. split; [vm_compute; reflexivity|]. split; [vm_compute; reflexivity|]. vm_compute. auto 10. Qed.

(** ** subscrobble.rs: [server_sender] publishes while the server waits *)
Definition zeta10 := hash ZMsg (text "zeta10").
Fixpoint publish (l : list (N * Z)) : HProg value unit :=
  match l with
  | [] => HRet tt
  | (s, z) :: tl => HSend zeta10 (Seq4 s) (PVal (VSInt W16 z)) (fun _ => publish tl)
  end.
(** [n] messages are published and reach the client. *)
Definition published (n : nat) : list CLabel := concat (repeat [CSend false (Some 0); CRecv] n).
Definition subscribe := CClient (LSub (SubscribeLegacy zeta10 16)).
Definition subscribe_multi := CClient (LSub (SubscribeMulti zeta10 16)).
Definition recv (id : nat) := CClient (LSub (ReceiveX id)).
Definition recv_multi (id : nat) := CClient (LSub (ReceiveM id)).
Definition three (l : CLabel) : list CLabel := [l; l; l].
(** What the calls on subscriptions returned; the messages decoded. *)
Inductive Seen := SSub (id : nat) | SMsg (z : Z) | SEnd | SNothing | SOther.
Definition seen_msg (f : RpcFrame) : Seen := match from_bytes ZMsg (f_body f) with Some (VSInt W16 z) => SMsg z | _ => SOther end.
Definition seen (es : list (list Ev)) : list Seen :=
  flat_map (fun e => match e with
    | EvSub (ORes (Subscribed id)) => [SSub id]
    | EvSub (OX (XGot f)) => [seen_msg f]
    | EvSub (OM (MGot f)) => [seen_msg f]
    | EvSub (OX XEnded) => [SEnd]
    | EvSub (OX XWaiting) | EvSub (OM MWaiting) => [SNothing]
    | EvSub (ODelivery _) | EvSub ONone => []
    | EvSub _ => [SOther]
    | _ => []
    end) (concat es).
Definition seq3 (a b c : Z) : list (N * Z) := [(1%N, a); (2%N, b); (3%N, c)].
(** subscrobble.rs:228-326 [exclusive_subs_work].  A subscription is dropped when the
    future that awaited its messages has ended. *)
Definition exclusive_history : list CLabel :=
  [subscribe] ++ published 3 ++ three (recv 0) ++ [CClient (LSub (DropX 0))] ++
  [subscribe] ++ published 3 ++ [subscribe] ++ three (recv 1) ++ [recv 1; CClient (LSub (DropX 1))] ++
  published 3 ++ three (recv 2) ++ [CClient (LSub (DropX 2))] ++
  [subscribe; subscribe_multi] ++ published 3 ++ three (recv 3) ++ three (recv_multi 0).
Example exclusive_subs_work :
  exists w cl es,
    run min_key_len SK1 exclusive_history (start [publish (seq3 10 20 30 ++ seq3 11 21 31 ++ seq3 12 22 32 ++ seq3 15 25 35)%list]) = Some (w, cl, es) /\
    seen es = [SSub 0; SMsg 10; SMsg 20; SMsg 30; SSub 1; SSub 2; SMsg 11; SMsg 21; SMsg 31; SEnd; SMsg 12; SMsg 22; SMsg 32;
               SSub 3; SSub 0; SMsg 15; SMsg 25; SMsg 35; SMsg 15; SMsg 25; SMsg 35].
Proof. do 3 eexists. split; vm_compute; reflexivity. Qed.
(** subscrobble.rs:328-411 [broadcast_subs_work] *)
Definition broadcast_history : list CLabel :=
  [subscribe_multi; subscribe_multi] ++ published 3 ++ three (recv_multi 0) ++ three (recv_multi 1) ++ map CClient [LSub (DropM 0); LSub (DropM 1)] ++
  [subscribe_multi; subscribe_multi; subscribe] ++ published 3 ++ three (recv_multi 2) ++ three (recv_multi 3) ++ three (recv 0).
Example broadcast_subs_work :
  exists w cl es,
    run min_key_len SK1 broadcast_history (start [publish (seq3 10 20 30 ++ seq3 10 20 30)%list]) = Some (w, cl, es) /\
    seen es = [SSub 0; SSub 1; SMsg 10; SMsg 20; SMsg 30; SMsg 10; SMsg 20; SMsg 30;
               SSub 2; SSub 3; SSub 0; SMsg 10; SMsg 20; SMsg 30; SMsg 10; SMsg 20; SMsg 30; SMsg 10; SMsg 20; SMsg 30].
Proof. do 3 eexists. split; vm_compute; reflexivity. Qed.
