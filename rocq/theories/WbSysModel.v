(** The workbook example as a whole: its interface (example/workbook-icd/src/lib.rs), the
    client of the host programs (example/workbook-host/src/client.rs), and the table of
    handlers of the firmware (example/firmware/src/bin/comms-02.rs; the same text is in
    example/firmware-eusb-v0_3/src/main.rs).  What the handlers of the lights do is
    [set_led] and [set_all_led] of WorkbookModel.v. *)
From Coq Require Import Ascii String NArith ZArith List Bool.
From Verif Require Import KeyModel HeaderModel SchemaModel MacroModel DispatchModel SubModel ClientModel
  CodecModel CodecStdModel WorkbookModel.
Import ListNotations.

Definition text_of (s : string) : str := map N_of_ascii (list_ascii_of_string s).
Local Open Scope string_scope.

(** * The interface *)

(** workbook-icd/src/lib.rs:40-75 (the schemas are those of [#[derive(Schema)]]). *)
Definition ty_unit : NamedType := NT (text_of "()") (DPrim PUnit).
Definition ty_bool : NamedType := NT (text_of "bool") (DPrim PBool).
Definition ty_u8 : NamedType := NT (text_of "u8") (DPrim PU8).
Definition ty_u32 : NamedType := NT (text_of "u32") (DPrim PU32).
Definition ty_u64 : NamedType := NT (text_of "u64") (DPrim PU64).
Definition ty_i16 : NamedType := NT (text_of "i16") (DPrim PI16).
Definition ty_rgb8 : NamedType := NT (text_of "Rgb8") (DStruct [(text_of "r", ty_u8); (text_of "g", ty_u8); (text_of "b", ty_u8)]).
Definition ty_single_led : NamedType := NT (text_of "SingleLed") (DStruct [(text_of "position", ty_u32); (text_of "rgb", ty_rgb8)]).
Definition ty_bad_position : NamedType := NT (text_of "BadPositionError") DUnitStruct.
(** 9 [SingleLedSetResult], 10 [AllLedArray] *)
Definition ty_set_result : NamedType :=
  NT (text_of "Result<T, E>") (DEnum [(text_of "Ok", VNewtype ty_unit); (text_of "Err", VNewtype ty_bad_position)]).
Definition ty_all_led : NamedType := NT (text_of "[T; N]") (DTuple (repeat ty_rgb8 24)).
Definition ty_acceleration : NamedType := NT (text_of "Acceleration") (DStruct [(text_of "x", ty_i16); (text_of "y", ty_i16); (text_of "z", ty_i16)]).
Definition ty_range : NamedType :=
  NT (text_of "AccelRange") (DEnum [(text_of "G2", VUnit); (text_of "G4", VUnit); (text_of "G8", VUnit); (text_of "G16", VUnit)]).
Definition ty_start : NamedType := NT (text_of "StartAccel") (DStruct [(text_of "interval_ms", ty_u32); (text_of "range", ty_range)]).

(** 12-23 [ENDPOINT_LIST], [omit_std = true] *)
Definition row_ping : EpDef := MkEpDef ty_u32 ty_u32 (text_of "ping").
Definition row_id : EpDef := MkEpDef ty_unit ty_u64 (text_of "unique_id/get").
Definition row_one : EpDef := MkEpDef ty_single_led ty_set_result (text_of "led/set_one").
Definition row_all : EpDef := MkEpDef ty_all_led ty_unit (text_of "led/set_all").
Definition row_start : EpDef := MkEpDef ty_start ty_unit (text_of "accel/start").
Definition row_stop : EpDef := MkEpDef ty_unit ty_bool (text_of "accel/stop").
Definition wb_rows : list EpDef := [row_ping; row_id; row_one; row_all; row_start; row_stop].
(** 32-38 [TOPICS_OUT_LIST] *)
Definition row_data : TpDef := MkTpDef ty_acceleration (text_of "accel/data").

(** Values of these types. *)
Definition rgb_value (c : Rgb8) : value := VTup [VU8 (red c); VU8 (green c); VU8 (blue c)].
Definition rgb_of (v : value) : Rgb8 := match v with VTup [VU8 r; VU8 g; VU8 b] => MkRgb r g b | _ => black end.
Definition range_value (r : AccelRange) : value := VEnum (match r with G2 => 0 | G4 => 1 | G8 => 2 | G16 => 3 end) VUnitVal.
Definition acc_value (a : Acceleration) : value := VTup [VSInt W16 (ac_x a); VSInt W16 (ac_y a); VSInt W16 (ac_z a)].

Section Workbook.
  Variable for_path : NamedType -> str -> Key8.
  Variable std : StdKeys.

  Notation req_key := (ed_req_key for_path).
  Notation resp_key := (ed_resp_key for_path).

  Definition done_map (o : outcome EndpointMap) : EndpointMap := match o with Done m => m | Panicked => MkEpMap [] [] end.
  Definition done_topics (o : outcome TopicMap) : TopicMap := match o with Done m => m | Panicked => MkTpMap ToServer [] [] end.
  Definition wb_eps : EndpointMap := done_map (endpoints_macro for_path None wb_rows).
  (** 25-38: these tables include the standard topics, of which there are none to the
      server (standard_icd.rs:138-158).  The types of the standard topics, which matter to
      reports only, are left out. *)
  Definition wb_tin : TopicMap := done_topics (topics_macro for_path ToServer (Some (MkTpMap ToServer [] [])) []).
  Definition wb_tout : TopicMap :=
    done_topics (topics_macro for_path ToClient
      (Some (MkTpMap ToClient [] [(text_of "postcard-rpc/schema/data", schema_topic std); (text_of "postcard-rpc/logging", logging_key std)]))
      [row_data]).

  (** * The firmware *)

  (** comms-02.rs:50-55 [Context]; the accelerometer is not kept here (see [busy]). *)
  Record Wb := MkWb { unique_id : N; lights : Strip }.
  (** comms-02.rs:61-66 [spawn_ctxt]: hands out another reference to the accelerometer. *)
  Definition wb_spawn (c : Wb) : Wb * unit := (c, tt).

  (** Whether the accelerometer is in use when the request with this header is handled,
      and what the accelerometer says after the start with this header until the task
      ends: see WorkbookModel.v for what decides on that. *)
  Variable busy : VarHeader -> bool.
  Variable readings : VarHeader -> list Acceleration.

  (** 196-199 *)
  Definition ping_handler (c : Wb) (h : VarHeader) (v : value) : HProg value (Wb * value) := HRet (c, v).
  (** 201-204 *)
  Definition unique_id_handler (c : Wb) (h : VarHeader) (v : value) : HProg value (Wb * value) := HRet (c, VUInt W64 (unique_id c mod 2 ^ 64)).   (* a [u64] *)
  (** 206-223.  The handler waits for the strip to be written, 221; nothing else changes
      [Context] meanwhile. *)
  Definition set_led_handler (c : Wb) (h : VarHeader) (v : value) : HProg value (Wb * value) :=
    match v with
    | VTup [VUInt W32 position; rgb] =>
      let (s, r) := set_led position (rgb_of rgb) (lights c) in
      HRet (MkWb (unique_id c) s, match r with LedOk => VEnum 0 VUnitVal | _ => VEnum 1 VUnitVal end)
    | _ => HRet (c, VEnum 1 VUnitVal)   (* no other value is of type [SingleLed] *)
    end.
  (** 225-237 *)
  Definition set_all_led_handler (c : Wb) (h : VarHeader) (v : value) : HProg value (Wb * value) :=
    match v with
    | VTup rgbs => HRet (MkWb (unique_id c) (set_all_led (map rgb_of rgbs) (lights c)), VUnitVal)
    | _ => HRet (c, VUnitVal)           (* no other value is of type [[Rgb8; 24]] *)
    end.
  (** 285-292 *)
  Definition accelerometer_stop_handler (c : Wb) (h : VarHeader) (v : value) : HProg value (Wb * value) := HRet (c, VBool (busy h)).

  (** 241-283 [accelerometer_handler], once it got the accelerometer. *)
  Fixpoint samples (n : N) (l : list Acceleration) : HProg value unit :=
    match l with
    | [] => HRet tt
    | a :: tl => HSend (td_key for_path row_data) (Seq1 n) (PVal (acc_value a))
                   (fun r => if is_err r then HRet tt else samples ((n + 1) mod 256)%N tl)
    end.
  Definition accelerometer_handler (h : VarHeader) : HProg value unit :=
    HSend (resp_key row_start) (hdr_seq h) (PVal VUnitVal) (fun r => if is_err r then HRet tt else samples 0 (readings h)).

  (** 94-125 [define_dispatch!] *)
  Definition wb_arm (row : EpDef) (flavor : Flavor) (name : nat) (run : Wb -> VarHeader -> value -> HProg value (Wb * value)) : EpArm value Wb :=
    MkEpArm value Wb (req_key row) (resp_key row) (from_bytes (ed_request row)) flavor name run.
  Definition wb_arms : list (EpArm value Wb) :=
    [wb_arm row_ping DispatchModel.Blocking 0 ping_handler;
     wb_arm row_id DispatchModel.Blocking 1 unique_id_handler;
     wb_arm row_one Async 2 set_led_handler;
     wb_arm row_all Async 3 set_all_led_handler;
     wb_arm row_start Spawn 4 (fun c _ v => HRet (c, v));   (* spawned: [wb_task] *)
     wb_arm row_stop DispatchModel.Blocking 5 accelerometer_stop_handler].
  Definition wb_task (name : nat) (_ : unit) (h : VarHeader) (v : value) : HProg value unit :=
    match name with 4 => accelerometer_handler h | _ => HRet tt end.

  (** 158-163: at first all lights are black. *)
  Definition wb_new (id : N) : Wb := MkWb id strip_new.

  (** * The client, workbook-host/src/client.rs:43-128 *)

  (** The methods of [WorkbookClient] that call the device. *)
  Inductive WbCall :=
  | Ping (id : N)
  | GetId
  | SetRgbSingle (position r g b : N)
  | SetAllRgbSingle (r g b : N)
  | StartAccelerometer (ms : N) (range : AccelRange)
  | StopAccelerometer.

  (** The endpoint each method calls; [ping] calls the standard one (client.rs:4, 60). *)
  Definition wb_req (c : WbCall) : Key8 :=
    match c with
    | Ping _ => ping_req std
    | GetId => req_key row_id
    | SetRgbSingle _ _ _ _ => req_key row_one
    | SetAllRgbSingle _ _ _ => req_key row_all
    | StartAccelerometer _ _ => req_key row_start
    | StopAccelerometer => req_key row_stop
    end.
  Definition wb_resp (c : WbCall) : Key8 :=
    match c with
    | Ping _ => ping_resp std
    | GetId => resp_key row_id
    | SetRgbSingle _ _ _ _ => resp_key row_one
    | SetAllRgbSingle _ _ _ => resp_key row_all
    | StartAccelerometer _ _ => resp_key row_start
    | StopAccelerometer => resp_key row_stop
    end.
  (** The argument it passes. *)
  Definition wb_arg (c : WbCall) : value :=
    match c with
    | Ping id => VUInt W32 id
    | GetId | StopAccelerometer => VUnitVal
    | SetRgbSingle p r g b => VTup [VUInt W32 p; rgb_value (MkRgb r g b)]
    | SetAllRgbSingle r g b => VTup (repeat (rgb_value (MkRgb r g b)) 24)
    | StartAccelerometer ms rg => VTup [VUInt W32 ms; range_value rg]
    end.
  Definition wb_request (c : WbCall) : Label := LRequest (wb_req c) (wb_resp c) (ser (wb_arg c)).

  (** What a method returns to its caller: [Ok], [Err(Endpoint(_))] or [Err(Comms(_))]. *)
  Inductive WbResult := WOk (v : value) | WBadPosition | WComms.
  Definition wb_result (c : WbCall) (res : ReqResult) : WbResult :=
    match host_result (from_bytes (match c with
                                   | Ping _ => ty_u32
                                   | GetId => ty_u64
                                   | SetRgbSingle _ _ _ _ => ty_set_result
                                   | SetAllRgbSingle _ _ _ | StartAccelerometer _ _ => ty_unit
                                   | StopAccelerometer => ty_bool
                                   end)) from_bytes_error res with
    | HOk _ _ v =>
      match c, v with
      | SetRgbSingle _ _ _ _, VEnum 0 w => WOk w      (* [flatten], 32-41 *)
      | SetRgbSingle _ _ _ _, VEnum _ _ => WBadPosition
      | _, _ => WOk v
      end
    | _ => WComms
    end.
End Workbook.
