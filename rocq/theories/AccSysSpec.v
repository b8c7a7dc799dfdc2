(** Vocabulary for what a host sees of the workbook's accelerometer. *)
From Coq Require Import NArith ZArith List Bool Arith.
From Verif Require Import KeyModel HeaderModel HeaderSpec SchemaModel MacroModel PostcardModel SubModel SubSpec ClientModel ClientSpec UsbSpec.
From Verif Require Import DispatchModel DispatchSpec CodecModel WorkbookModel WorkbookSpec WbSysModel StateSpec.
Import ListNotations.

Section Spec.
  Variable for_path : NamedType -> str -> Key8.
  Variable kkind : VarKeyKind.
  Variable busy : VarHeader -> bool.
  Notation start_key := (ed_resp_key for_path row_start).
  Notation data_key := (td_key for_path row_data).

  (** What the device as a whole did (an event of its trace) and what is seen of the
      accelerometer (WorkbookModel.v) are the same thing: *)
  Inductive same : Event value unit -> Obs -> Prop :=
      (** the task was spawned, or refused, for the start with this number, *)
  | same_accepted sc h v : same (EvSpawn 4 sc h v true) (Accepted (seq_value (hdr_seq h)))
  | same_refused sc h v : same (EvSpawn 4 sc h v false) (Refused (seq_value (hdr_seq h)))
      (** a stop was answered, *)
  | same_stop h v : same (EvRun 5 h v) (StopAnswer (busy h))
      (** the start with this number was confirmed, or that failed, *)
  | same_started w q r : is_err r = false -> same (EvSend w (out_header kkind start_key q) (PVal VUnitVal) r) (Started (seq_value q))
  | same_start_lost w q r : is_err r = true -> same (EvSend w (out_header kkind start_key q) (PVal VUnitVal) r) (StartLost (seq_value q))
      (** a sample was published, or that failed. *)
  | same_sample w n a r : is_err r = false -> same (EvSend w (out_header kkind data_key (Seq1 n)) (PVal (acc_value a)) r) (Sample n a)
  | same_sample_lost w n a r : is_err r = true -> same (EvSend w (out_header kkind data_key (Seq1 n)) (PVal (acc_value a)) r) (SampleLost n a).

  (** The events of the device that concern the accelerometer: handlers 4 and 5 of the
      table ([wb_arms]), the confirmations and the samples. *)
  Definition of_accel (e : Event value unit) : bool :=
    match e with
    | EvSpawn name _ _ _ _ => name =? 4
    | EvRun name _ _ => name =? 5
    | EvSend _ h _ _ => varkey_eqb (VKey8 start_key) (hdr_key h) || varkey_eqb (VKey8 data_key) (hdr_key h)
    end.
  (** What of the accelerometer shows outside the device's user code. *)
  Definition visible (o : Obs) : bool := match o with RangeSet _ | Ended => false | _ => true end.

  (** The accelerometer of the device behaved like that of WorkbookModel.v, which took the
      steps [acts]: this is what decides on [busy] and on the readings of [wb_task]. *)
  Definition accel_as_modelled (acts : list AccelLabel) (tr : Trace value unit) : Prop :=
    exists s os, accel_run acts accel_new = Some (s, os) /\ Forall2 same (filter of_accel tr) (filter visible os).

  (** The samples among these frames. *)
  Definition data_frames (fs : list RpcFrame) : list RpcFrame := filter (of_topic data_key) fs.
End Spec.

(** [i16] *)
Definition acc_ok (a : Acceleration) : Prop :=
  (- 32768 <= ac_x a < 32768 /\ - 32768 <= ac_y a < 32768 /\ - 32768 <= ac_z a < 32768)%Z.

(** When call [r] was made, all calls to start the accelerometer had returned a reply. *)
Definition starts_returned (cl : list Label) (es : list (list Ev)) (calls : list WbCall) (r : nat) : Prop :=
  forall r' ms rg, nth_error calls r' = Some (StartAccelerometer ms rg) -> returned_before cl es r' r.

(** What the host sees of the accelerometer, which took the steps [acts]:
    - once a call to stop it, made when all calls to start it had returned, has returned
      [b], at most one more sample arrives, and none if [b] is false;
    - the samples that arrive are the sensor's readings, some of them, in order; they are
      complete if [whole], and then they are taken for what they are;
    - no sample arrives before a call to start was made. *)
Record host_sees (for_path : NamedType -> str -> Key8) (cl : list Label) (es : list (list Ev)) (calls : list WbCall) (acts : list AccelLabel) (whole : Prop) : Prop := {
  hs_stop : forall n r f b, nth_error calls r = Some StopAccelerometer -> In (r, GotReply f) (results (firstn n es)) ->
    wb_result StopAccelerometer (GotReply f) = WOk (VBool b) -> starts_returned cl es calls r ->
    length (data_frames for_path (arrived (skipn n cl))) <= (if b then 1 else 0);
  hs_readings : exists vs, subsequence vs (readings acts) /\
    Forall2 (fun f v => (exists missing, ser (acc_value v) = f_body f ++ missing) /\
                        (whole -> acc_ok v -> from_bytes ty_acceleration (f_body f) = Some (acc_value v)))
            (data_frames for_path (arrived cl)) vs;
  hs_asked : forall n, data_frames for_path (arrived (firstn n cl)) <> [] ->
    exists r ms rg, nth_error calls r = Some (StartAccelerometer ms rg) /\ r < length (issued 0 (firstn n cl)) }.
