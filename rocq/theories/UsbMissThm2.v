(** Concrete histories for the theorems of UsbMissThm.v. *)
From Coq Require Import NArith List Bool Arith Lia Permutation.
From Verif Require Import KeyModel HeaderModel KeySpec HeaderSpec MinKeyModel MinKeySpec
  SchemaModel MacroModel PostcardModel DispatchModel DispatchSpec DispatchProof DispatchThm SubModel SubSpec ClientModel ClientSpec ClientThm4
  UsbModel UsbSpec NusbRxModel LogModel.
From Verif Require Import DispatchModel DispatchSpec SystemModel SystemSpec SystemProof SystemThm SystemThm2 FlowSpec LiveSpec LiveProof LiveThm LiveThm2
  AsyncModel AsyncSpec AsyncProof AsyncThm AsyncThm2 MissSpec MissThm MissThm2 UsbSysModel UsbSysSpec UsbSysProof UsbSysLive UsbSysThm UsbSysThm2 UsbMissThm.
Import ListNotations.

(** The device of SystemThm2.v over USB: a background task publishes 77 and 78, and the
    handler of a publication 9.  77 reaches the host before the client subscribes, with
    room for one message; 78 is transmitted before and arrives after; 9 is transmitted
    while the user is still to take 78, and has to wait for that. *)
Definition um_before : list ULabel :=
  map UClient [LPublish (MkFrame (MkHeader (VKey8 (xk 20)) (Seq1 2)) [9%N]); LPubSend 0; LOutPop; LOutSent] ++
  [UTask 0; UIn; URecv []; UClient (LWake None); UTask 0].
Definition um_after : list ULabel :=
  [UIn; URecv []; UServe; UResume; UServe; UIn; URecv []; UClient (LSub (ReceiveX 0)); UClient (LUnblock RoomFound);
   UClient (LSub (ReceiveX 0)); UClient (LSub (ReceiveX 0))].
Definition um_sub := LSub (SubscribeExclusive (xk 7) 1).

Ltac not_there H := cbn in H; repeat (destruct H as [H|H]; [discriminate H|]); destruct H.
Example C87_ex :
  usb_sizes None 256 128 /\ dispatcher_for x_eps x_tin x_tout x_ea x_ta x_disp /\
  device_ok x_std x_eps x_tout x_ea /\ handlers_ok x_std x_tout x_ea x_ta s_task s_bg /\ klen (d_kind _ _ x_disp) <= klen KK1 /\
  no_transfer_errors um_before /\ no_transfer_errors um_after /\
  exists u1 u2 u cl1 cl2 es1 es2,
    uu_run um_before uu_bg = Some (u1, cl1, es1) /\
    uu_step (UClient um_sub) u1 = Some (u2, Some (um_sub, [EvSub (ORes (Subscribed 0))])) /\
    uu_run um_after u2 = Some (u, cl2, es2) /\ all_sent (u_trace _ _ _ u) /\
    Forall (label_ok x_eps x_tin) cl1 /\ Forall (label_ok x_eps x_tin) cl2 /\ still_receiving (cl1 ++ cl2) /\
    kept cl2 (xk 7) 0 /\ only_topic KK1 (xk 7) (cl1 ++ um_sub :: cl2) /\
    patient cl2 s_cfg /\ found_empty cl2 es2 0 /\ (forall l, u_own_step l = true -> uu_step l u = None) /\
    map f_body (filter (of_topic (xk 7)) (arrived cl1)) = [[77%N]] /\
    map f_body (given cl2 es2 0) = [[78%N]; [9%N]].
Proof.
  destruct x_config as (C & _ & E). destruct s_device as (D1 & _). pose proof s_handlers_bg as D2.
  split. { repeat split; auto; cbn; lia. }
  split; [exact (C09_made_for _ _ _ _ _ _ _ _ C E)|]. split; [exact D1|]. split; [exact D2|]. split; [cbn; lia|].
  split. { intros e. split; intros H; not_there H. }
  split. { intros e. split; intros H; not_there H. }
  destruct (uu_run um_before uu_bg) as [[[u1 cl1] es1]|] eqn:R; [|vm_compute in R; discriminate].
  vm_compute in R. injection R as <- <- <-.
  do 7 eexists. split; [reflexivity|]. split; [vm_compute; reflexivity|]. split; [vm_compute; reflexivity|].
  split. { intros w h p r Hi. cbn in Hi. repeat (destruct Hi as [Hi|Hi]; [try discriminate Hi; injection Hi as _ _ _ <-; reflexivity|]). destruct Hi. }
  split. { repeat (apply Forall_cons; [cbn; auto|]); try apply Forall_nil. exists (xk 20). split; [cbn; auto|]. split; [reflexivity|]. lia. }
  split. { repeat (apply Forall_cons; [cbn; auto|]); apply Forall_nil. }
  split. { split; intros H; not_there H. }
  split. { split; [|intros dd]; intros H; not_there H. }
  split. { intros k' H _. cbn in H. destruct H as [<-|[]]. reflexivity. }
  split. { split; [reflexivity|]. intros H; not_there H. }
  split. { match goal with |- found_empty ?c ?e _ => exists (removelast c), (removelast e); split; reflexivity end. }
  split; [u_rest_tac|]. split; vm_compute; reflexivity.
Qed.

(** The same with a subscription of the other kind, for which the user keeps up. *)
Definition um_after_multi : list ULabel :=
  [UIn; URecv []; UClient (LSub (ReceiveM 0)); UServe; UResume; UServe; UIn; URecv []; UClient (LSub (ReceiveM 0)); UClient (LSub (ReceiveM 0))].
Definition um_sub_multi := LSub (SubscribeMulti (xk 7) 1).
Example C87_multi_ex :
  no_transfer_errors um_after_multi /\
  exists u1 u2 u cl1 cl2 es1 es2,
    uu_run um_before uu_bg = Some (u1, cl1, es1) /\
    uu_step (UClient um_sub_multi) u1 = Some (u2, Some (um_sub_multi, [EvSub (ORes (Subscribed 0))])) /\
    uu_run um_after_multi u2 = Some (u, cl2, es2) /\ all_sent (u_trace _ _ _ u) /\
    Forall (label_ok x_eps x_tin) cl1 /\ Forall (label_ok x_eps x_tin) cl2 /\ still_receiving (cl1 ++ cl2) /\
    kept_multi cl2 0 /\ only_topic KK1 (xk 7) (cl1 ++ um_sub_multi :: cl2) /\
    (forall d', ~ In (LSub (SubscribeMulti (xk 7) d')) cl1) /\ keeps_up_multi cl2 es2 (xk 7) 0 1 /\ found_empty_multi cl2 es2 0 /\
    (forall l, u_own_step l = true -> uu_step l u = None) /\
    map f_body (filter (of_topic (xk 7)) (arrived cl1)) = [[77%N]] /\
    map f_body (given_multi cl2 es2 0) = [[78%N]; [9%N]].
Proof.
  split. { intros e. split; intros H; not_there H. }
  destruct (uu_run um_before uu_bg) as [[[u1 cl1] es1]|] eqn:R; [|vm_compute in R; discriminate].
  vm_compute in R. injection R as <- <- <-.
  do 7 eexists. split; [reflexivity|]. split; [vm_compute; reflexivity|]. split; [vm_compute; reflexivity|].
  split. { intros w h p r Hi. cbn in Hi. repeat (destruct Hi as [Hi|Hi]; [try discriminate Hi; injection Hi as _ _ _ <-; reflexivity|]). destruct Hi. }
  split. { repeat (apply Forall_cons; [cbn; auto|]); try apply Forall_nil. exists (xk 20). split; [cbn; auto|]. split; [reflexivity|]. lia. }
  split. { repeat (apply Forall_cons; [cbn; auto|]); apply Forall_nil. }
  split. { split; intros H; not_there H. }
  split. { intros H; not_there H. }
  split. { intros k' H _. cbn in H. destruct H as [<-|[]]. reflexivity. }
  split. { intros dd H; not_there H. }
  split. { intros n. do 12 (destruct n as [|n]; [vm_compute; lia|]). vm_compute. lia. }
  split. { match goal with |- found_empty_multi ?c ?e _ => exists (removelast c), (removelast e); split; reflexivity end. }
  split; [u_rest_tac|]. split; vm_compute; reflexivity.
Qed.

(** The device of DiscoverThm2.v over USB. *)
From Verif Require Import CodecModel CodecSpec CodecStdModel ReportModel ReportSpec ReportThm ReportThm2 DiscoverSpec DiscoverThm DiscoverThm2.
Definition ud_run := u_run value N N q_std (fun _ _ => true) KK8 (fun c => (c, c)) f_disp payload_bytes f_task f_cfg 1024 128 true (Some 64) (fun _ => []).
Definition ud_step := u_step value N N q_std (fun _ _ => true) KK8 (fun c => (c, c)) f_disp payload_bytes f_task f_cfg 1024 128 true (Some 64) (fun _ => []).
Definition ud_before : list ULabel := map UClient ([LRequest (q_hash q_u32 [112%N]) (q_hash q_u32 [112%N]) [7%N]] ++ y_out 0).
Definition ud_sub := LSub (SubscribeMulti f_topic 64).
Definition ud_recv := UClient (LSub (ReceiveM 0)).
Definition ud_start : list ULabel :=
  map UClient (LRequest (schemas_req q_std) (schemas_resp q_std) [] :: y_out 1) ++ [UServe; UResume; UServe; UIn; URecv []; UClient (LWake (Some 0)); UClient (LTakeOk 0)].
Definition ud_item : list ULabel := [UResume; UIn; URecv []; ud_recv].
Definition ud_log : list ULabel := [UTask 0; UResume; UIn; URecv []; UClient (LWake None); UIn; URecv []; ud_recv].
Definition ud_end : list ULabel := [UResume; UIn; URecv []; UClient (LWake (Some 0)); UClient (LTakeOk 1); ud_recv].
Definition ud_after : list ULabel := ud_start ++ concat (repeat ud_item 5) ++ ud_log ++ concat (repeat ud_item 4) ++ ud_end.

Example C87_discovery_ex :
  usb_sizes (Some 64) 1024 128 /\ dispatcher_for (q_eps q_outer) q_tin q_tout [f_arm] [f_tparm] f_disp /\
  no_transfer_errors ud_before /\ no_transfer_errors ud_after /\
  exists u1 u2 u cl1 cl2 es1 es2 f,
    ud_run ud_before (usys_new value N N f_bg 0%N) = Some (u1, cl1, es1) /\
    ud_step (UClient ud_sub) u1 = Some (u2, Some (ud_sub, [EvSub (ORes (Subscribed 0))])) /\
    ud_run ud_after u2 = Some (u, cl2, es2) /\ all_sent (u_trace _ _ _ u) /\
    Forall (label_ok (q_eps q_outer) q_tin) cl1 /\ Forall (label_ok (q_eps q_outer) q_tin) cl2 /\ still_receiving (cl1 ++ cl2) /\
    only_discovery q_std (cl1 ++ ud_sub :: cl2) 1 /\ length (issued 0 cl1) <= 1 /\
    kept_multi cl2 0 /\ only_topic KK8 f_topic (cl1 ++ ud_sub :: cl2) /\
    (forall d', ~ In (LSub (SubscribeMulti f_topic d')) cl1) /\ keeps_up_multi cl2 es2 f_topic 0 64 /\ found_empty_multi cl2 es2 0 /\
    In (1, GotReply f) (results (es1 ++ [EvSub (ORes (Subscribed 0))] :: es2)) /\
    length (heard cl2 es2 0) = 10.
Proof.
  destruct f_conf as [C E].
  split. { repeat split; auto; cbn; lia. }
  split; [exact (C09_made_for _ _ _ _ _ _ _ _ C E)|].
  split. { intros e. split; intros H; not_there H. }
  split. { intros e. split; intros H; not_there H. }
  destruct (ud_run ud_before (usys_new value N N f_bg 0%N)) as [[[u1 cl1] es1]|] eqn:R; [|vm_compute in R; discriminate].
  vm_compute in R. injection R as <- <- <-.
  do 8 eexists. split; [reflexivity|]. split; [vm_compute; reflexivity|]. split; [vm_compute; reflexivity|].
  split. { intros w h p r Hi. cbn in Hi. repeat (destruct Hi as [Hi|Hi]; [try discriminate Hi; injection Hi as _ _ _ <-; reflexivity|]). destruct Hi. }
  split. { repeat (apply Forall_cons; [cbn; auto|]); try apply Forall_nil. exists [112%N]. vm_compute. auto. }
  split. { repeat (apply Forall_cons; [cbn; auto|]); try apply Forall_nil. exists [103%N]. vm_compute. auto. }
  split. { split; intros H; not_there H. }
  split. { split.
    - eexists. split; vm_compute; reflexivity.
    - intros r' f resp H E'. destruct r' as [|[|[|r']]]; cbn in H; try discriminate H; try reflexivity. injection H as <- <-. discriminate E'. }
  split; [cbn; lia|].
  split. { intros H; not_there H. }
  split. { intros k' H _. cbn in H. destruct H as [<-|[]]. reflexivity. }
  split. { intros dd H; not_there H. }
  split. { intros n. eapply Nat.le_trans; [|apply Nat.le_add_l]. do 60 (destruct n as [|n]; [vm_compute; lia|]). vm_compute. lia. }
  split. { match goal with |- found_empty_multi ?c ?e _ => exists (removelast c), (removelast e); split; reflexivity end. }
  split. { vm_compute. right. left. reflexivity. }
  vm_compute. reflexivity.
Qed.
