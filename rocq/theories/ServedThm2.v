(** Concrete histories for the theorems of ServedThm.v, and why they ask for an executor
    with room. *)
From Coq Require Import NArith List Bool Arith Lia Permutation.
From Verif Require Import KeyModel HeaderModel KeySpec HeaderSpec MinKeyModel MinKeySpec
  SchemaModel MacroModel PostcardModel DispatchModel DispatchSpec DispatchThm SubModel SubSpec ClientModel ClientSpec ClientThm4
  UsbModel UsbSpec NusbRxModel LogModel.
From Verif Require Import DispatchModel DispatchSpec SystemModel SystemSpec SystemProof SystemThm SystemThm2 FlowSpec LiveSpec LiveProof LiveThm LiveThm2
  AsyncModel AsyncSpec AsyncProof AsyncThm AsyncThm2 UsbSysModel UsbSysSpec UsbSysProof UsbSysLive UsbSysThm UsbSysThm2
  ChanModel ChanSysModel ChanSysSpec ChanSysProof ChanSysLive ChanSysThm ChanSysThm2 ServedSpec ServedProof ServedThm.
Import ListNotations.

(** The two handlers for endpoints of that device, and the one for a topic, are in charge. *)
Lemma x_in_charge : in_charge x_std x_ea x_spawn_arm /\ in_charge x_std x_ea x_arm /\ in_charge_topic x_ta x_tparm.
Proof.
  split; [|split].
  - exists [], [x_arm]. split; [reflexivity|]. vm_compute. intuition discriminate.
  - exists [x_spawn_arm], []. split; [reflexivity|]. vm_compute. intuition discriminate.
  - exists [], []. split; [reflexivity|]. intros [].
Qed.
Ltac handled_tac := destruct x_in_charge as (I1 & I2 & I3);
  first [ exists x_arm; do 4 eexists; split; [exact I2|split; reflexivity]
        | exists x_spawn_arm; do 4 eexists; split; [exact I1|split; reflexivity]
        | exists x_tparm; do 3 eexists; split; [exact I3|split; reflexivity] ].
Ltac spawned_tac := intros n sc h v Hi; cbn in Hi; repeat (destruct Hi as [Hi|Hi]; [discriminate|]); destruct Hi.
Ltac sends_tac := intros h p r Hi; cbn in Hi; repeat (destruct Hi as [Hi|Hi]; [try discriminate; injection Hi as <- <- <-; split; discriminate|]); destruct Hi.

(** The history of AsyncThm2.v, served in another order than sent: three of the four
    calls have a handler (request 2 cannot be decoded), and those three ran. *)
Example C79_ex :
  config_ok x_eps x_tin x_tout x_ea x_ta /\ define_dispatch N N x_eps x_tin x_tout x_ea x_ta = Done x_disp /\
  device_ok x_std x_eps x_tout x_ea /\ handlers_ok x_std x_tout x_ea x_ta s_task s_bg /\
  klen (d_kind _ _ x_disp) <= klen KK1 /\ 0 < cfg_depth s_cfg /\
  exists a cl es, s_arun a_history a_start = Some (a, cl, es) /\ Forall (label_ok x_eps x_tin) cl /\
    is_closed (y_client _ _ _ (a_sys _ _ _ a)) = false /\
    (forall h p r, In (EvSend ByDispatcher h p r) (y_trace _ _ _ (a_sys _ _ _ a)) -> r <> TxErr TxConnectionClosed /\ r <> TxErr TxTimeout) /\
    all_spawned (y_trace _ _ _ (a_sys _ _ _ a)) /\
    (forall l, a_own_step l = true ->
       a_step N N N x_std x_net (fun _ _ => true) KK1 (fun c => (c, c)) x_disp s_enc s_task s_cfg l a = None) /\
    accepted cl es = [inl 0; inl 1; inl 2; inr 0] /\
    has_handler x_std x_ea x_ta cl (inl 0) /\ has_handler x_std x_ea x_ta cl (inl 1) /\ has_handler x_std x_ea x_ta cl (inr 0) /\
    ~ has_handler x_std x_ea x_ta cl (inl 2) /\
    map (fun i => (fst (fst i), snd i)) (invocations (y_trace _ _ _ (a_sys _ _ _ a))) = [(8, 6%N); (9, 9%N); (7, 5%N)].
Proof.
  destruct x_config as (C & _ & E). destruct s_device as (D1 & _). pose proof s_handlers_bg as D2.
  split; [exact C|]. split; [exact E|]. split; [exact D1|]. split; [exact D2|]. split; [cbn; lia|]. split; [cbn; lia|].
  destruct (s_arun a_history a_start) as [[[a cl] es]|] eqn:R; [|vm_compute in R; discriminate].
  exists a, cl, es. split; [reflexivity|]. vm_compute in R. injection R as <- <- <-.
  split; [labels|]. split; [reflexivity|]. split; [sends_tac|]. split; [spawned_tac|].
  split; [apply a_nothing_to_do; [reflexivity|at_rest_tac]|]. split; [reflexivity|].
  split; [handled_tac|]. split; [handled_tac|]. split; [handled_tac|]. split; [|reflexivity].
  intros (a & seq & body & resp & v & (b & af & E1 & _) & E2 & E3). cbn in E2. injection E2 as K _ B _. subst body.
  assert (Ia : In a x_ea) by (rewrite E1, in_app_iff; right; left; auto). destruct Ia as [<-|[<-|[]]]; discriminate E3.
Qed.

(** The publication is lost on its way: it is the one call that is missing, and its frame
    the one that was lost. *)
Definition a_lossy_pub : list ALabel :=
  map ASystem (map SClient ([LRequest (xk 10) (xk 11) [5%N]; LRequest (xk 12) (xk 13) [6%N];
                LPublish (MkFrame (MkHeader (VKey8 (xk 20)) (Seq1 2)) [9%N])] ++
               y_out 0 ++ y_out 1 ++ [LPubSend 0; LOutPop; LOutSent]) ++ [SLoseUp 2; SServe 0]) ++
  [AResume; ASystem (SServe 0)] ++
  map ASystem [STask 0; STask 1; STask 0; SRecv 0; SClient (LWake (Some 0)); SClient (LTakeOk 0); SRecv 0; SClient (LWake None); SRecv 0; SClient (LWake (Some 0)); SClient (LTakeOk 1); SRecv 0; SClient (LWake None)].
Example C79_lossy_ex :
  exists a cl es, s_arun a_lossy_pub a_start = Some (a, cl, es) /\ Forall (label_ok x_eps x_tin) cl /\
    is_closed (y_client _ _ _ (a_sys _ _ _ a)) = false /\
    (forall h p r, In (EvSend ByDispatcher h p r) (y_trace _ _ _ (a_sys _ _ _ a)) -> r <> TxErr TxConnectionClosed /\ r <> TxErr TxTimeout) /\
    all_spawned (y_trace _ _ _ (a_sys _ _ _ a)) /\
    (forall l, a_own_step l = true ->
       a_step N N N x_std x_net (fun _ _ => true) KK1 (fun c => (c, c)) x_disp s_enc s_task s_cfg l a = None) /\
    up_in_order (system_labels a_lossy_pub) /\
    accepted cl es = [inl 0; inl 1; inr 0] /\
    has_handler x_std x_ea x_ta cl (inl 0) /\ has_handler x_std x_ea x_ta cl (inl 1) /\ has_handler x_std x_ea x_ta cl (inr 0) /\
    map (fun i => (fst (fst i), snd i)) (invocations (y_trace _ _ _ (a_sys _ _ _ a))) = [(7, 5%N); (8, 6%N)] /\
    exists b, call_frame cl (inr 0) b /\
      a_lost (a_step N N N x_std x_net (fun _ _ => true) KK1 (fun c => (c, c)) x_disp s_enc s_task s_cfg) loses_up a_lossy_pub a_start = [b].
Proof.
  destruct (s_arun a_lossy_pub a_start) as [[[a cl] es]|] eqn:R; [|vm_compute in R; discriminate].
  exists a, cl, es. split; [reflexivity|]. vm_compute in R. injection R as <- <- <-.
  split; [labels|]. split; [reflexivity|]. split; [sends_tac|]. split; [spawned_tac|].
  split; [apply a_nothing_to_do; [reflexivity|at_rest_tac]|].
  split. { intros i Hi. vm_compute in Hi. repeat (destruct Hi as [Hi|Hi]; [try discriminate; injection Hi as <-; reflexivity|]). destruct Hi. }
  split; [reflexivity|].
  split; [handled_tac|]. split; [handled_tac|]. split; [handled_tac|]. split; [reflexivity|].
  eexists. split; [|vm_compute; reflexivity].
  eexists (MkFrame (MkHeader (VKey8 (xk 20)) (Seq1 2)) [9%N]), KK8. split; reflexivity.
Qed.

(** Over the channels of ChanSysThm2.v, with room for one frame each: request 2 is too
    long for the server's buffer. *)
Example C79_channels_ex :
  exists c cl es, s_crun (c_first ++ c_second) c_new = Some (c, cl, es) /\ Forall (label_ok x_eps x_tin) cl /\
    (forall l, c_own_step l = true -> s_cstep l c = None) /\
    cs_stopped _ _ _ c = false /\ cs_dropped _ _ _ c = false /\ is_closed (cs_client c) = false /\
    all_spawned (cs_trace c) /\
    accepted cl es = [inl 0; inl 1; inl 2; inr 0] /\
    has_handler x_std x_ea x_ta cl (inl 0) /\ has_handler x_std x_ea x_ta cl (inl 1) /\ has_handler x_std x_ea x_ta cl (inr 0) /\
    (exists b, call_frame cl (inl 2) b /\ 20 < length b) /\
    map (fun i => (fst (fst i), snd i)) (invocations (cs_trace c)) = [(7, 5%N); (8, 6%N); (9, 9%N)].
Proof.
  destruct (s_crun (c_first ++ c_second) c_new) as [[[c cl] es]|] eqn:R; [|vm_compute in R; discriminate].
  exists c, cl, es. split; [reflexivity|]. vm_compute in R. injection R as <- <- <-.
  split; [labels|]. split; [c_rest_tac|]. split; [reflexivity|]. split; [reflexivity|]. split; [reflexivity|].
  split; [spawned_tac|]. split; [reflexivity|].
  split; [handled_tac|]. split; [handled_tac|]. split; [handled_tac|].
  split; [|reflexivity]. eexists. split; [eexists _, KK8; split; [reflexivity|eexists; reflexivity]|]. vm_compute. lia.
Qed.

(** And over USB. *)
Example C79_usb_ex :
  usb_sizes None 256 128 /\ no_transfer_errors u_history /\
  exists u cl es, uu_run u_history uu_bg = Some (u, cl, es) /\ Forall (label_ok x_eps x_tin) cl /\
    (forall l, u_own_step l = true -> uu_step l u = None) /\ is_closed (u_client _ _ _ u) = false /\
    (forall h p r, In (EvSend ByDispatcher h p r) (u_trace _ _ _ u) -> r <> TxErr TxConnectionClosed /\ r <> TxErr TxTimeout) /\
    all_spawned (u_trace _ _ _ u) /\
    accepted cl es = [inl 0; inl 1; inl 2; inr 0] /\
    has_handler x_std x_ea x_ta cl (inl 0) /\ has_handler x_std x_ea x_ta cl (inl 1) /\ has_handler x_std x_ea x_ta cl (inr 0) /\
    map (fun i => (fst (fst i), snd i)) (invocations (u_trace _ _ _ u)) = [(7, 5%N); (8, 6%N); (9, 9%N)].
Proof.
  split. { repeat split; auto; cbn; lia. }
  split. { intros e. split; intros Hl; vm_compute in Hl; repeat (destruct Hl as [Hl|Hl]; [discriminate Hl|]); destruct Hl. }
  destruct (uu_run u_history uu_bg) as [[[u cl] es]|] eqn:R; [|vm_compute in R; discriminate].
  exists u, cl, es. split; [reflexivity|]. vm_compute in R. injection R as <- <- <-.
  split; [labels|]. split; [u_rest_tac|]. split; [reflexivity|]. split; [sends_tac|]. split; [spawned_tac|]. split; [reflexivity|].
  split; [handled_tac|]. split; [handled_tac|]. split; [handled_tac|]. reflexivity.
Qed.

(** Without room in the executor a request that arrived is not handled: its caller gets
    an error. *)
Definition a_full : list ALabel :=
  map ASystem (map SClient ([LRequest (xk 12) (xk 13) [6%N]] ++ y_out 0) ++ [SServe 0]) ++
  [AResume] ++ map ASystem [SRecv 0; SClient (LWake (Some 1)); SClient (LTakeErr 0)].
Example C79_full_executor_ex :
  exists a cl es,
    a_run N N N x_std x_net (fun _ _ => false) KK1 (fun c => (c, c)) x_disp s_enc s_task s_cfg a_full (asys_new N N N [] 0%N) = Some (a, cl, es) /\
    Forall (label_ok x_eps x_tin) cl /\ is_closed (y_client _ _ _ (a_sys _ _ _ a)) = false /\
    (forall h p r, In (EvSend ByDispatcher h p r) (y_trace _ _ _ (a_sys _ _ _ a)) -> r <> TxErr TxConnectionClosed /\ r <> TxErr TxTimeout) /\
    (forall l, a_own_step l = true ->
       a_step N N N x_std x_net (fun _ _ => false) KK1 (fun c => (c, c)) x_disp s_enc s_task s_cfg l a = None) /\
    lossless (system_labels a_full) /\
    accepted cl es = [inl 0] /\ has_handler x_std x_ea x_ta cl (inl 0) /\ invocations (y_trace _ _ _ (a_sys _ _ _ a)) = [] /\
    exists f, results es = [(0, GotError f)].
Proof.
  destruct (a_run N N N x_std x_net (fun _ _ => false) KK1 (fun c => (c, c)) x_disp s_enc s_task s_cfg a_full (asys_new N N N [] 0%N)) as [[[a cl] es]|] eqn:R; [|vm_compute in R; discriminate].
  exists a, cl, es. split; [reflexivity|]. vm_compute in R. injection R as <- <- <-.
  split; [labels|]. split; [reflexivity|]. split; [sends_tac|].
  split; [apply a_nothing_to_do; [reflexivity|at_rest_tac]|].
  split. { intros l Hl. vm_compute in Hl. repeat (destruct Hl as [<-|Hl]; [exact Logic.I|]). destruct Hl. }
  split; [reflexivity|]. split; [handled_tac|]. split; [reflexivity|]. eexists. reflexivity.
Qed.
