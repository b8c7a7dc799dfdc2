(** C95 in the whole system: what it may mean for the first call of the program started next. *)
From Coq Require Import NArith List Bool Arith Lia.
From Verif Require Import KeyModel HeaderModel KeySpec HeaderSpec MinKeyModel MinKeySpec
  SchemaModel MacroModel PostcardModel DispatchModel DispatchSpec DispatchThm SubModel SubSpec ClientModel ClientSpec ClientThm4
  UsbModel UsbSpec NusbRxModel LogModel.
From Verif Require Import DispatchModel DispatchSpec SystemModel SystemSpec SystemProof SystemThm SystemThm2 FlowSpec LiveSpec LiveProof LiveThm LiveThm2 AsyncModel AsyncSpec
  UsbSysModel UsbSysSpec UsbSysProof UsbSysLive UsbSysThm UsbSysThm2.
Import ListNotations.

(** The host program ends and is started again: a new client; the device and what is on
    its way go on (host_client/mod.rs:185-215; raw_nusb.rs:223-286 opens the interface and flushes nothing). *)
Definition restarted {Val Ctx SCtx} (u : USys Val Ctx SCtx) : USys Val Ctx SCtx :=
  MkUSys _ _ _ client_new (u_out _ _ _ u) (u_in _ _ _ u) [] [] 0 0 (u_ctx _ _ _ u) (u_trace _ _ _ u) (u_tasks _ _ _ u) (u_serving _ _ _ u) (u_cur _ _ _ u).

Definition v_run := u_run N N N x_std (fun _ _ => true) KK1 (fun c => (c, c)) x_disp s_enc s_task s_cfg 256 128 true (Some 64) (fun _ => []).
Definition v_step := u_step N N N x_std (fun _ _ => true) KK1 (fun c => (c, c)) x_disp s_enc s_task s_cfg 256 128 true (Some 64) (fun _ => []).

(** The earlier program's second request has two packets; it ends when the first of them
    is out.  The device has answered the first request. *)
Definition v_before : list ULabel :=
  map UClient ([LRequest (xk 10) (xk 11) [5%N]; LRequest (xk 10) (xk 11) (repeat 7%N 90)] ++ y_out 0 ++
               [LKind 1; LEnqOk 1; LEnqErr 1; LSend 1; LOutPop]) ++
  [UServe; UResume; UIn; URecv []; UClient (LWake (Some 0)); UClient (LTakeOk 0); UClient LClose; UOutStop false 1].
(** The new program makes one call, and everything goes on as far as it can. *)
Definition v_after : list ULabel :=
  map UClient ([LRequest (xk 10) (xk 11) [6%N]] ++ y_out 0) ++ [UServe; UResume; UIn; URecv []; UClient (LWake None)].

(** The call never returns, although the device is there and serves, nothing fails and
    nobody closes the client: the device has taken the new program's request for the end of the old one. *)
Theorem C95_first_call_returns_refuted :
  exists u1 cl1 es1 u cl es,
    v_run v_before (usys_new N N N [] 0%N) = Some (u1, cl1, es1) /\
    v_run v_after (restarted u1) = Some (u, cl, es) /\
    no_transfer_errors v_after /\ frames_fit 128 es /\ all_sent (u_trace _ _ _ u) /\ u_serving _ _ _ u = true /\
    (forall l, In l cl -> l <> LClose /\ (forall b, l <> LOutFail b) /\ l <> LInFail) /\
    (forall l, u_own_step l = true -> v_step l u = None) /\
    length (issued 0 cl) = 1 /\ results es = [].
Proof.
  destruct (v_run v_before (usys_new N N N [] 0%N)) as [[[u1 cl1] es1]|] eqn:R; [|vm_compute in R; discriminate].
  destruct (v_run v_after (restarted u1)) as [[[u cl] es]|] eqn:R2; [|vm_compute in R; injection R as <- <- <-; vm_compute in R2; discriminate].
  exists u1, cl1, es1, u, cl, es. split; [reflexivity|]. split; [exact R2|].
  vm_compute in R. injection R as <- <- <-. vm_compute in R2. injection R2 as <- <- <-.
  split. { intros e. split; intros Hl; vm_compute in Hl; repeat (destruct Hl as [Hl|Hl]; [discriminate Hl|]); destruct Hl. }
  split. { unfold frames_fit. cbn. repeat (apply Forall_cons; [split; cbn; lia|]). apply Forall_nil. }
  split. { intros w h p r Hi. cbn in Hi. repeat (destruct Hi as [Hi|Hi]; [try discriminate Hi; injection Hi as _ _ _ <-; reflexivity|]). destruct Hi. }
  split; [reflexivity|].
  split. { intros l Hl. repeat (destruct Hl as [<-|Hl]; [repeat split; discriminate|]). destruct Hl. }
  split; [u_rest_tac|]. split; reflexivity.
Qed.
Print Assumptions C95_first_call_returns_refuted.
