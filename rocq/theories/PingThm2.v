(** Concrete runs of the first host program of the workbook, and a refuted claim: C99. *)
From Coq Require Import NArith ZArith List Bool Arith Lia.
From Verif Require Import KeyModel HeaderModel KeySpec HeaderSpec MinKeyModel MinKeySpec SchemaModel MacroModel PostcardModel
  DispatchModel DispatchSpec DispatchThm SubModel ClientModel ClientSpec ClientHist ClientThm4 UsbModel UsbSpec NusbRxModel LogModel.
From Verif Require Import DispatchModel DispatchSpec DispatchThm SystemModel SystemSpec SystemThm2 AsyncModel AsyncSpec
  UsbSysModel UsbSysSpec UsbSysThm2
  CodecModel CodecSpec CodecStdModel TypedSpec StateSpec OmitThm OmitThm2
  WorkbookModel WorkbookSpec WbSysModel WbSysSpec WbSysThm WbSysThm2 PingModel PingSpec PingThm.
Import ListNotations.

(** The device of [C91_ex] and the program; what the program is told at each request of the
    client but the first is that the last call has returned. *)
Fixpoint weave_pings (started : bool) (ps : list (Label * list Ev)) : list PLabel :=
  match ps with
  | [] => []
  | (l, e) :: tl =>
    if is_request l then (if started then [PReturn] else []) ++ PTick e :: weave_pings true tl else PClient l e :: weave_pings started tl
  end.
Definition px_send (r : nat) : list ULabel := map UClient (wb_request wx_path x_std (Ping (N.of_nat r)) :: y_out r).
Definition px_ping (r : nat) : list ULabel := px_send r ++ UServe :: UResume :: wx_get r.
Definition px_all : list ULabel := flat_map px_ping (seq 0 10).
(** The third answer does not come: the device is unplugged. *)
Definition px_unplugged : list ULabel := flat_map px_ping (seq 0 2) ++ px_send 2 ++ [UError Disconnected; URecv []; UClient (LTakeClosed 2)].
Definition px_run (h : list ULabel) := wx_run h (usys_new value Wb unit [] (wb_new 99)).
Definition px_joint (j : PJoint) (last : PLabel) : option PJoint :=
  pj_run wx_path x_std (weave_pings false (combine (p_cl j) (p_es j)) ++ [last]) ping_start.

Ltac no_amid := let e := fresh in let H := fresh in intros e H; vm_compute in H; repeat (destruct H as [H|H]; [discriminate H|]); destruct H.
Ltac px h last :=
  let R := fresh in let J := fresh in
  destruct (px_run h) as [[[u cl] es]|] eqn:R; [|vm_compute in R; discriminate R];
  destruct (px_joint (MkPJoint cl es Ended [] []) last) as [j|] eqn:J; [|vm_compute in R; injection R as <- <- <-; vm_compute in J; discriminate J];
  exists u, j;
  vm_compute in R; injection R as <- <- <-; vm_compute in J; injection J as <-; repeat split; vm_compute; reflexivity.

(** All ten: the premises of [C99_prints_as_documented_partial] about the device are in [C91_ex]. *)
Example C99_ex :
  errors_between_messages px_all /\
  exists u j, px_run px_all = Some (u, p_cl j, p_es j) /\ px_joint j PReturn = Some j /\ p_at j = Ended /\
    p_out j = [Pinging 0; GotBack 0; Pinging 1; GotBack 1; Pinging 2; GotBack 2; Pinging 3; GotBack 3; Pinging 4; GotBack 4;
               Pinging 5; GotBack 5; Pinging 6; GotBack 6; Pinging 7; GotBack 7; Pinging 8; GotBack 8; Pinging 9; GotBack 9; AppDone].
Proof. split; [no_amid|]. px px_all PReturn. Qed.

(** "When the connection is lost the program says so and exits": not always.  The pending
    call fails at the same time, and if [select!] polls that branch first the program
    panics at [unwrap] (comms-01.rs:26). *)
Theorem C99_unplugged_refuted :
  errors_between_messages px_unplugged /\
  exists u j, px_run px_unplugged = Some (u, p_cl j, p_es j) /\ px_joint j PReturn = Some j /\
    c_stopped (u_client _ _ _ u) = true /\ p_at j = Panics /\ p_out j = pings 2 ++ [Pinging 2] /\ ~ In ClosedExiting (p_out j).
Proof.
  split; [no_amid|].
  destruct (px_run px_unplugged) as [[[u cl] es]|] eqn:R; [|vm_compute in R; discriminate R].
  destruct (px_joint (MkPJoint cl es Ended [] []) PReturn) as [j|] eqn:J; [|vm_compute in R; injection R as <- <- <-; vm_compute in J; discriminate J].
  exists u, j. vm_compute in R. injection R as <- <- <-. vm_compute in J. injection J as <-. repeat split; try (vm_compute; reflexivity).
  intros H. vm_compute in H. repeat (destruct H as [H|H]; [discriminate H|]). destruct H.
Qed.
(** The same history, and the other branch first. *)
Example C99_unplugged_ex :
  exists u j, px_run px_unplugged = Some (u, p_cl j, p_es j) /\ px_joint j PClosed = Some j /\ p_at j = Ended /\
    p_out j = pings 2 ++ [Pinging 2; ClosedExiting].
Proof. px px_unplugged PClosed. Qed.
Print Assumptions C99_unplugged_refuted.
