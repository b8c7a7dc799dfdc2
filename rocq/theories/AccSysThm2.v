(** Concrete histories for C93. *)
From Coq Require Import NArith ZArith List Bool Arith Lia.
From Verif Require Import KeyModel HeaderModel KeySpec HeaderSpec MinKeyModel MinKeySpec SchemaModel MacroModel PostcardModel
  DispatchModel DispatchSpec DispatchThm SubModel SubSpec ClientModel ClientSpec ClientThm4 UsbModel UsbSpec NusbRxModel LogModel.
From Verif Require Import DispatchModel DispatchSpec DispatchThm SystemModel SystemSpec SystemThm2 AsyncModel AsyncSpec
  UsbSysModel UsbSysSpec UsbSysThm2 CodecModel CodecSpec CodecStdModel TypedSpec StateSpec OmitThm OmitThm2
  WorkbookModel WorkbookSpec WbSysModel WbSysSpec WbSysThm WbSysThm2 AccSysSpec.
Import ListNotations.
Local Open Scope N_scope.

(** The accelerometer in the history of C91_ex: a start, a sample, a stop while the second
    reading waits to be published. *)
Definition ax_start : list AccelLabel := [Start 5 (MkStart 250 G8); Poll WDone; Poll WDone; Poll WDone].
Definition ax_acts : list AccelLabel :=
  ax_start ++ [Poll WDone; Poll (WReading (MkAcc 1 (-2) 3)); Poll WDone; Poll WDone; Poll (WReading (MkAcc 4 5 (-6))); Stop; Poll WDone].

(** The hypotheses of [C93_over_usb_partial] that are not in [C91_ex]: the call to stop was
    made when the one to start had returned; it returned "was running" and one more sample
    arrived. *)
Example C93_ex :
  exists u cl es, wx_run wx_history (usys_new value Wb unit [] (wb_new 99)) = Some (u, cl, es) /\
    accel_as_modelled wx_path KK1 wx_busy ax_acts (u_trace _ _ _ u) /\
    nth_error wx_calls 6 = Some StopAccelerometer /\ starts_returned cl es wx_calls 6 /\
    exists n f, In (6%nat, GotReply f) (results (firstn n es)) /\ wb_result StopAccelerometer (GotReply f) = WOk (VBool true) /\
      length (data_frames wx_path (arrived (skipn n cl))) = 1%nat /\ length (data_frames wx_path (arrived cl)) = 2%nat.
Proof.
  destruct (wx_run wx_history (usys_new value Wb unit [] (wb_new 99))) as [[[u cl] es]|] eqn:R; [|vm_compute in R; discriminate].
  exists u, cl, es. split; [reflexivity|]. vm_compute in R. injection R as <- <- <-.
  split.
  { unfold accel_as_modelled. eexists _, _. split; [vm_compute; reflexivity|].
    match goal with |- Forall2 _ ?a ?b => let x := eval vm_compute in a in let y := eval vm_compute in b in change (Forall2 (same wx_path KK1 wx_busy) x y) end.
    constructor; [apply (same_accepted wx_path KK1 wx_busy)|].
    constructor; [apply (same_started wx_path KK1 wx_busy); reflexivity|].
    constructor; [apply (same_sample wx_path KK1 wx_busy _ 0 (MkAcc 1 (-2) 3)); reflexivity|].
    constructor; [apply (same_stop wx_path KK1 wx_busy)|].
    constructor; [apply (same_sample wx_path KK1 wx_busy _ 1 (MkAcc 4 5 (-6))); reflexivity|constructor]. }
  split; [reflexivity|]. split.
  { intros r ms rg H. do 7 (destruct r as [|r]; [try discriminate H; apply returned_ok; vm_compute; reflexivity|]). destruct r; discriminate H. }
  match goal with |- context [firstn _ ?es] => exists (length es - 2)%nat end.
  eexists. split; [vm_compute; auto 10|]. split; [vm_compute; reflexivity|]. split; vm_compute; reflexivity.
Qed.

(** ** C93, the general claim is false: a stop that overtakes a start *)

(** A start is called, and a stop, before the start has returned.  The stop finds the
    accelerometer not yet in use and returns "was not running"; then the start is confirmed
    and samples keep coming. *)
Definition ay_busy (_ : VarHeader) : bool := false.
Definition ay_disp : Dispatcher value Wb :=
  match define_dispatch value Wb (wb_eps wx_path) (wb_tin wx_path) (wb_tout wx_path x_std) (wb_arms wx_path ay_busy) [] with
  | Done d => d | Panicked => MkDispatcher value Wb KK8 [] [] (MkMap [] [] [] [] KK8) end.
Definition ay_calls : list WbCall := [StartAccelerometer 250 G8; StopAccelerometer].
Definition ay_run := u_run value Wb unit x_std (fun _ _ => true) KK1 wb_spawn ay_disp payload_bytes (wb_task wx_path wx_readings) s_cfg
  1024 1024 true (Some 64)%nat (fun _ => []).
Definition ay_call (r : nat) : list ULabel := map UClient (wb_request wx_path x_std (nth r ay_calls GetId) :: y_out r) ++ [UServe].
Definition ay_stopped : list ULabel := ay_call 0 ++ ay_call 1 ++ [UResume; UIn; URecv []; UClient (LWake (Some 2%nat)); UClient (LTakeOk 1)].
Definition ay_history : list ULabel := ay_stopped ++ UTask 0 :: wx_get 0 ++ wx_sample ++ wx_sample.
Definition ay_acts : list AccelLabel :=
  [Start 0 (MkStart 250 G8); Stop; Poll WDone; Poll WDone; Poll WDone; Poll WDone; Poll (WReading (MkAcc 1 (-2) 3)); Poll WDone;
   Poll WDone; Poll (WReading (MkAcc 4 5 (-6))); Poll WDone].
Theorem C93_stop_before_start_returns_refuted :
  config_ok (wb_eps wx_path) (wb_tin wx_path) (wb_tout wx_path x_std) (wb_arms wx_path ay_busy) [] /\
  define_dispatch value Wb (wb_eps wx_path) (wb_tin wx_path) (wb_tout wx_path x_std) (wb_arms wx_path ay_busy) [] = Done ay_disp /\
  errors_between_messages ay_history /\
  exists u cl es, ay_run ay_history (usys_new value Wb unit [] (wb_new 99)) = Some (u, cl, es) /\
    made wx_path x_std cl ay_calls /\ accel_as_modelled wx_path KK1 ay_busy ay_acts (u_trace _ _ _ u) /\
    exists n f, nth_error ay_calls 1 = Some StopAccelerometer /\ In (1%nat, GotReply f) (results (firstn n es)) /\
      wb_result StopAccelerometer (GotReply f) = WOk (VBool false) /\ length (data_frames wx_path (arrived (skipn n cl))) = 2%nat.
Proof.
  split. { unfold config_ok, keys_ok. repeat split; vm_compute; repeat constructor. }
  split; [reflexivity|].
  split. { intros e Hl. vm_compute in Hl; repeat (destruct Hl as [Hl|Hl]; [discriminate Hl|]); destruct Hl. }
  destruct (ay_run ay_history (usys_new value Wb unit [] (wb_new 99))) as [[[u cl] es]|] eqn:R; [|vm_compute in R; discriminate].
  exists u, cl, es. split; [reflexivity|]. vm_compute in R. injection R as <- <- <-.
  split; [vm_compute; reflexivity|]. split.
  { unfold accel_as_modelled. eexists _, _. split; [vm_compute; reflexivity|].
    match goal with |- Forall2 _ ?a ?b => let x := eval vm_compute in a in let y := eval vm_compute in b in change (Forall2 (same wx_path KK1 ay_busy) x y) end.
    constructor; [apply (same_accepted wx_path KK1 ay_busy)|].
    constructor; [apply (same_stop wx_path KK1 ay_busy)|].
    constructor; [apply (same_started wx_path KK1 ay_busy); reflexivity|].
    constructor; [apply (same_sample wx_path KK1 ay_busy _ 0 (MkAcc 1 (-2) 3)); reflexivity|].
    constructor; [apply (same_sample wx_path KK1 ay_busy _ 1 (MkAcc 4 5 (-6))); reflexivity|constructor]. }
  match goal with |- context [firstn _ ?es] => exists (length es - 7)%nat end.
  eexists. split; [reflexivity|]. split; [vm_compute; auto 10|]. split; vm_compute; reflexivity.
Qed.
Print Assumptions C93_stop_before_start_returns_refuted.
