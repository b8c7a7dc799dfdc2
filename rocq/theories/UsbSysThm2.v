(** A concrete history for the theorems of UsbSysThm.v, and why they ask for transfers
    that do not fail amid a message and for requests that fit the device's buffer. *)
From Coq Require Import NArith List Bool Arith Lia.
From Verif Require Import KeyModel HeaderModel KeySpec HeaderSpec MinKeyModel MinKeySpec
  SchemaModel MacroModel PostcardModel DispatchModel DispatchSpec DispatchThm SubModel SubSpec ClientModel ClientSpec ClientThm4
  UsbModel UsbSpec NusbRxModel LogModel.
From Verif Require Import DispatchModel DispatchSpec SystemModel SystemSpec SystemProof SystemThm SystemThm2 FlowSpec LiveSpec LiveProof LiveThm LiveThm2 AsyncModel AsyncSpec
  UsbSysModel UsbSysSpec UsbSysProof UsbSysLive UsbSysThm.
Import ListNotations.

(** A state in which nothing is left to do. *)
Lemma u_nothing_to_do {Val Ctx SCtx} std can_spawn kkind spawn_ctxt (d : Dispatcher Val Ctx) enc task cfg txlen rxlen consumes mps outcome (u : USys Val Ctx SCtx) :
  0 < rxlen -> u_cur _ _ _ u = None -> u_out _ _ _ u = [] -> u_in _ _ _ u = [] -> u_comps _ _ _ u = [] -> Forall (fun p => p = HRet tt) (u_tasks _ _ _ u) ->
  Forall (fun q => rq_pc q = PEnded \/ exists kk, rq_pc q = PSent kk /\ rq_ok q = None /\ rq_err q = None) (c_reqs (u_client _ _ _ u)) ->
  Forall (fun p => p = None) (c_pubs (u_client _ _ _ u)) -> c_out (u_client _ _ _ u) = [] -> c_sending (u_client _ _ _ u) = None ->
  c_offer (u_client _ _ _ u) = None -> s_blocked (c_subs (u_client _ _ _ u)) = None -> c_stopped (u_client _ _ _ u) = false ->
  forall l, u_own_step l = true ->
    u_step Val Ctx SCtx std can_spawn kkind spawn_ctxt d enc task cfg txlen rxlen consumes mps outcome l u = None.
Proof.
  intros Hrx Hc Ho Hi Hco Ht Hr Hp Hq Hs Hf Hb Hst l Hl.
  set (s := MkSys Val Ctx SCtx (u_client _ _ _ u) [] [] (u_ctx _ _ _ u) (u_trace _ _ _ u) (u_tasks _ _ _ u) (u_serving _ _ _ u)).
  assert (N : forall l, own_step l = true -> sys_step Val Ctx SCtx std (fun _ _ _ => TxOk) can_spawn kkind spawn_ctxt d enc task cfg l s = None).
  { apply nothing_to_do; auto. }
  destruct l as [l|fails k| | |i| |e|e|halts]; try discriminate Hl; cbn [u_step].
  - specialize (N (SClient l) Hl). cbn [sys_step] in N. change (y_client _ _ _ s) with (u_client _ _ _ u) in N.
    destruct (step cfg l (u_client _ _ _ u)) as [[c e]|]; [|destruct l; reflexivity]. destruct l; try discriminate N; try reflexivity; discriminate Hl.
  - rewrite Hc, Ho. destruct (u_serving _ _ _ u); auto. unfold receive. cbn. destruct rxlen; [lia|reflexivity].
  - rewrite Hc. reflexivity.
  - destruct (nth_error (u_tasks _ _ _ u) i) as [p|] eqn:E; auto. apply nth_error_In in E. rewrite Forall_forall in Ht. rewrite (Ht _ E). reflexivity.
  - rewrite Hi. reflexivity.
  - rewrite Hco. unfold recv. cbn. destruct (_ + _); reflexivity.
Qed.
Ltac u_rest_tac := apply u_nothing_to_do; [lia|..]; try reflexivity;
  repeat (apply Forall_cons; [first [reflexivity | left; reflexivity | right; eexists; repeat split; reflexivity]|]); apply Forall_nil.

(** The device and the client of SystemThm2.v over USB, with a host that does not know
    the packet size and therefore sends a zero-length packet after each frame.  The task
    spawned for the second request answers while the server is refusing the third, and a background task publishes 77
    and 78. *)
Definition uu_run := u_run N N N x_std (fun _ _ => true) KK1 (fun c => (c, c)) x_disp s_enc s_task s_cfg 256 128 true None (fun _ => []).
Definition uu_step := u_step N N N x_std (fun _ _ => true) KK1 (fun c => (c, c)) x_disp s_enc s_task s_cfg 256 128 true None (fun _ => []).
Definition uu_new : USys N N N := usys_new N N N [] 0%N.
Definition uu_bg : USys N N N := usys_new N N N s_bg 0%N.
Definition u_history : list ULabel :=
  map UClient ([LSub (SubscribeExclusive (xk 7) 4);
                LRequest (xk 10) (xk 11) [5%N]; LRequest (xk 12) (xk 13) [6%N]; LRequest (xk 10) (xk 11) [1%N; 2%N];
                LPublish (MkFrame (MkHeader (VKey8 (xk 20)) (Seq1 2)) [9%N])] ++
               y_out 0 ++ y_out 1 ++ y_out 2 ++ [LPubSend 0; LOutPop; LOutSent]) ++
  [UServe; UResume; UServe; UServe; UServe; UServe; UTask 0; UTask 1; UResume; UServe; UServe; UTask 0; UResume; UServe; UIn; UIn; UIn; UIn; UIn; UIn;
   URecv []; UClient (LWake (Some 0)); UClient (LTakeOk 0); URecv [];
   URecv []; UClient (LWake (Some 0)); UClient (LTakeOk 1);
   URecv []; UClient (LWake (Some 1)); UClient (LTakeErr 2);
   URecv []; URecv []; UClient (LSub (ReceiveX 0)); UClient (LSub (ReceiveX 0)); UClient (LSub (ReceiveX 0))].

Example C71_C72_ex :
  usb_sizes None 256 128 /\
  config_ok x_eps x_tin x_tout x_ea x_ta /\ define_dispatch N N x_eps x_tin x_tout x_ea x_ta = Done x_disp /\
  device_ok x_std x_eps x_tout x_ea /\ handlers_ok x_std x_tout x_ea x_ta s_task s_bg /\
  klen (d_kind _ _ x_disp) <= klen KK1 /\ cfg_err_key s_cfg = error_key x_std /\
  tasks_answer x_std x_ea s_task /\ 0 < cfg_depth s_cfg /\
  ~ In (compact (klen KK1) (k8_bytes (error_key x_std)))
       (map (fun k => compact (klen KK1) (k8_bytes k)) (map ep_resp (em_endpoints x_eps))) /\
  no_transfer_errors u_history /\
  exists u cl es, uu_run u_history uu_bg = Some (u, cl, es) /\
    Forall (label_ok x_eps x_tin) cl /\ (N.of_nat (typed cl) <= 2 ^ 32)%N /\
    subscriptions_apart KK1 x_std x_eps cl /\ frames_fit 128 es /\ all_sent (u_trace _ _ _ u) /\
    (forall l, u_own_step l = true -> uu_step l u = None) /\
    (forall l, In l cl -> l <> LClose /\ (forall b, l <> LOutFail b) /\ l <> LInFail) /\
    length (issued 0 cl) = 3 /\ subscribed cl es (xk 7) 0 /\ map f_body (given cl es 0) = [[77%N]; [78%N]; [9%N]] /\
    results es = [(0, GotReply (y_frame 11 0 [5%N])); (1, GotReply (y_frame 13 1 [12%N])); (2, GotError (y_frame 6 2 [255%N]))].
Proof.
  destruct x_config as (C & _ & E). destruct s_device as (D1 & _). pose proof s_handlers_bg as D2.
  split. { repeat split; auto; cbn; lia. }
  split; [exact C|]. split; [exact E|]. split; [exact D1|]. split; [exact D2|]. split; [cbn; lia|]. split; [reflexivity|].
  split.
  { intros a sc h v [<-|[<-|[]]] F; [|discriminate]. unfold s_task. apply ss_now. split; auto.
    destruct (v <=? 100)%N; [left|right]; reflexivity. }
  split; [cbn; lia|]. split; [vm_compute; intuition discriminate|].
  split. { intros e. split; intros Hl; vm_compute in Hl; repeat (destruct Hl as [Hl|Hl]; [discriminate Hl|]); destruct Hl. }
  destruct (uu_run u_history uu_bg) as [[[u cl] es]|] eqn:R; [|vm_compute in R; discriminate].
  exists u, cl, es. split; [reflexivity|].
  vm_compute in R. injection R as <- <- <-. split.
  { repeat (apply Forall_cons; [cbn; auto|]); try apply Forall_nil.
    - exists [117%N]. cbn. auto.
    - exists [118%N]. cbn. auto.
    - exists [117%N]. cbn. auto.
    - exists (xk 20). split; [cbn; auto|]. split; [reflexivity|]. lia. }
  split; [vm_compute; discriminate|].
  split. { intros k k' [<-|[]] Hk. cbn in Hk. repeat (destruct Hk as [<-|Hk]; [vm_compute; discriminate|]). destruct Hk. }
  split. { unfold frames_fit. cbn. repeat (apply Forall_cons; [split; cbn; lia|]). apply Forall_nil. }
  split. { intros w h p r Hi. cbn in Hi. repeat (destruct Hi as [Hi|Hi]; [try discriminate Hi; injection Hi as _ _ _ <-; reflexivity|]). destruct Hi. }
  split; [u_rest_tac|].
  split. { intros l Hl. repeat (destruct Hl as [<-|Hl]; [repeat split; discriminate|]). destruct Hl. }
  split; [reflexivity|]. split. { exists 4. left. cbn. auto. }
  split; reflexivity.
Qed.

(** A device whose replies take 100 bytes, the first of which is interrupted after one
    packet; a task that was spawned before sends a second message, whereupon the host
    takes what came of the first for a message.  The caller of the first request gets the
    beginning of its reply. *)
Definition u_enc (p : Payload N) : list N := match p with PVal v => repeat v 100 | _ => s_enc p end.
Definition u_interrupted (n : nat) : list WRes := match n with 0 => [WDone; WDropped false] | _ => [] end.
Definition u_history2 : list ULabel :=
  map UClient ([LRequest (xk 12) (xk 13) [6%N]; LRequest (xk 10) (xk 11) [5%N]] ++ y_out 0 ++ y_out 1) ++
  [UServe; UServe; UServe; UResume; UResume; UTask 0; UIn; UIn; UIn; UIn; UIn; URecv []; UClient (LWake (Some 2)); UClient (LTakeOk 1);
   URecv []; UClient (LWake None);
   URecv []; UClient (LWake (Some 0)); UClient (LTakeOk 0)].

Definition u2_run := u_run N N N x_std (fun _ _ => true) KK1 (fun c => (c, c)) x_disp u_enc s_task s_cfg 256 128 true None u_interrupted.

Ltac labels_tac := repeat (apply Forall_cons; [cbn; auto|]); try apply Forall_nil.

(** An answer may be cut short: the host does not tell an interrupted message from a
    complete one. *)
Theorem C71_whole_answer_refuted :
  usb_sizes None 256 128 /\ errors_between_messages u_history2 /\
  exists u cl es f missing, u2_run u_history2 uu_new = Some (u, cl, es) /\ Forall (label_ok x_eps x_tin) cl /\
    In (1, GotReply f) (results es) /\ u_enc (PVal 5%N) = f_body f ++ missing /\ missing <> [] /\ forall v, u_enc (PVal v) <> f_body f.
Proof.
  split. { repeat split; auto; cbn; lia. }
  split. { intros e Hl. vm_compute in Hl. repeat (destruct Hl as [Hl|Hl]; [discriminate Hl|]). destruct Hl. }
  destruct (u2_run u_history2 uu_new) as [[[u cl] es]|] eqn:R; [|vm_compute in R; discriminate].
  exists u, cl, es, (y_frame 11 1 (repeat 5%N 58)), (repeat 5%N 42). split; [reflexivity|].
  vm_compute in R. injection R as <- <- <-. split.
  { labels_tac; [exists [118%N]|exists [117%N]]; cbn; auto. }
  split; [left; reflexivity|]. split; [reflexivity|]. split; [discriminate|].
  intros v H. apply (f_equal (@length N)) in H. cbn [u_enc] in H. rewrite repeat_length in H. discriminate H.
Qed.

(** If an IN transfer fails amid a message, the host takes the rest of the message for a
    message.  With a device whose answers contain, from their second packet on, what
    looks like an answer to another request, a caller gets a reply although no handler
    was ever run for its request. *)
Definition u_enc3 (p : Payload N) : list N :=
  match p with PVal v => repeat 0%N 58 ++ rpc_to_bytes (y_frame 11 1 [99%N]) | _ => s_enc p end.
Definition u3_run := u_run N N N x_std (fun _ _ => true) KK1 (fun c => (c, c)) x_disp u_enc3 s_task s_cfg 256 128 true None (fun _ => []).
Definition u_history3 : list ULabel :=
  map UClient ([LRequest (xk 10) (xk 11) [5%N]; LRequest (xk 10) (xk 11) [6%N]] ++ y_out 0 ++ y_out 1) ++
  [UServe; UResume; UIn; UErrorAmid Unknown; UError Cancelled; UError Cancelled; UError Cancelled; UIn; URecv [true];
   UClient (LWake (Some 2)); UClient (LTakeOk 1)].
Theorem C71_error_amid_message_refuted :
  usb_sizes None 256 128 /\
  exists u cl es f, u3_run u_history3 uu_new = Some (u, cl, es) /\ Forall (label_ok x_eps x_tin) cl /\
    all_sent (u_trace _ _ _ u) /\ In (1, GotReply f) (results es) /\ runs_for (xk 10) 1 (u_trace _ _ _ u) = [].
Proof.
  split. { repeat split; auto; cbn; lia. }
  destruct (u3_run u_history3 uu_new) as [[[u cl] es]|] eqn:R; [|vm_compute in R; discriminate].
  exists u, cl, es, (y_frame 11 1 [99%N]). split; [reflexivity|].
  vm_compute in R. injection R as <- <- <-. split.
  { labels_tac; [exists [117%N]|exists [117%N]]; cbn; auto. }
  split. { intros w h p r Hi. cbn in Hi. repeat (destruct Hi as [Hi|Hi]; [try discriminate Hi; injection Hi as _ _ _ <-; reflexivity|]). destruct Hi. }
  split; [left; reflexivity|reflexivity].
Qed.

(** A request that does not fit the device's receive buffer is dropped without a word,
    and its caller waits for ever. *)
Definition u4_run := u_run N N N x_std (fun _ _ => true) KK1 (fun c => (c, c)) x_disp s_enc s_task s_cfg 256 64 true None (fun _ => []).
Definition u4_step := u_step N N N x_std (fun _ _ => true) KK1 (fun c => (c, c)) x_disp s_enc s_task s_cfg 256 64 true None (fun _ => []).
Definition u_history4 : list ULabel :=
  map UClient ([LRequest (xk 10) (xk 11) (repeat 5%N 70)] ++ y_out 0) ++ [UServe; UServe].
Theorem C72_too_long_refuted :
  usb_sizes None 256 64 /\ no_transfer_errors u_history4 /\
  exists u cl es, u4_run u_history4 uu_new = Some (u, cl, es) /\ Forall (label_ok x_eps x_tin) cl /\
    all_sent (u_trace _ _ _ u) /\ u_serving _ _ _ u = true /\ (forall l, u_own_step l = true -> u4_step l u = None) /\
    length (issued 0 cl) = 1 /\ ~ In (LCancel 0) cl /\ results es = [].
Proof.
  split. { repeat split; auto; cbn; lia. }
  split. { intros e. split; intros Hl; vm_compute in Hl; repeat (destruct Hl as [Hl|Hl]; [discriminate Hl|]); destruct Hl. }
  destruct (u4_run u_history4 uu_new) as [[[u cl] es]|] eqn:R; [|vm_compute in R; discriminate].
  exists u, cl, es. split; [reflexivity|].
  vm_compute in R. injection R as <- <- <-. split.
  { labels_tac; exists [117%N]; cbn; auto. }
  split. { intros w h p r Hi. destruct Hi. }
  split; [reflexivity|]. split; [u_rest_tac|]. split; [reflexivity|]. split; [|reflexivity].
  intros Hl. repeat (destruct Hl as [Hl|Hl]; [discriminate Hl|]). destruct Hl.
Qed.

(** A request that is answered, one whose answer was interrupted after one packet, and one
    that does not fit the device's buffer. *)
Definition u_interrupted5 (n : nat) : list WRes := match n with 1 => [WDone; WDropped false] | _ => [] end.
Definition u5_run := u_run N N N x_std (fun _ _ => true) KK1 (fun c => (c, c)) x_disp u_enc s_task s_cfg 256 64 true (Some 64) u_interrupted5.
Definition u5_step := u_step N N N x_std (fun _ _ => true) KK1 (fun c => (c, c)) x_disp u_enc s_task s_cfg 256 64 true (Some 64) u_interrupted5.
Definition u_history5 : list ULabel :=
  map UClient ([LRequest (xk 10) (xk 11) [5%N]; LRequest (xk 12) (xk 13) [6%N]; LRequest (xk 10) (xk 11) (repeat 5%N 70)] ++ y_out 0 ++ y_out 1 ++ y_out 2) ++
  [UServe; UResume; UServe; UTask 0; UServe; UIn; UIn; UIn; URecv []; UClient (LWake (Some 0)); UClient (LTakeOk 0)].
Example C72_waits_ex :
  usb_sizes (Some 64) 256 64 /\ tasks_answer x_std x_ea s_task /\ no_transfer_errors u_history5 /\
  exists u cl es, u5_run u_history5 uu_new = Some (u, cl, es) /\
    Forall (label_ok x_eps x_tin) cl /\ subscriptions_apart KK1 x_std x_eps cl /\
    (forall h p r, In (EvSend ByDispatcher h p r) (u_trace _ _ _ u) -> r <> TxErr TxConnectionClosed /\ r <> TxErr TxTimeout) /\
    (forall l, u_own_step l = true -> u5_step l u = None) /\
    length (issued 0 cl) = 3 /\ (forall r, ~ In (LCancel r) cl) /\
    results es = [(0, GotReply (y_frame 11 0 (repeat 5%N 100)))] /\
    In (EvSend ByHandler (out_header KK1 (xk 13) (Seq4 1)) (PVal 12%N) (TxErr TxTimeout)) (u_trace _ _ _ u) /\
    exists b, In b (wire es) /\ request_frame (MkFrame (MkHeader (VKey8 (xk 10)) (Seq4 2)) (repeat 5%N 70)) b /\ ~ fits 64 (length b).
Proof.
  split. { repeat split; auto; cbn; lia. }
  split.
  { intros a sc h v [<-|[<-|[]]] F; [|discriminate]. unfold s_task. apply ss_now. split; auto.
    destruct (v <=? 100)%N; [left|right]; reflexivity. }
  split. { intros e. split; intros Hl; vm_compute in Hl; repeat (destruct Hl as [Hl|Hl]; [discriminate Hl|]); destruct Hl. }
  destruct (u5_run u_history5 uu_new) as [[[u cl] es]|] eqn:R; [|vm_compute in R; discriminate].
  exists u, cl, es. split; [reflexivity|].
  vm_compute in R. injection R as <- <- <-. split.
  { labels_tac; [exists [117%N]|exists [118%N]|exists [117%N]]; cbn; auto. }
  split. { intros k k' []. }
  split. { intros h p r Hi. cbn in Hi. repeat (destruct Hi as [Hi|Hi]; [try discriminate Hi; injection Hi as _ _ <-; split; discriminate|]). destruct Hi. }
  split; [u_rest_tac|]. split; [reflexivity|].
  split. { intros r Hl. repeat (destruct Hl as [Hl|Hl]; [discriminate Hl|]). destruct Hl. }
  split; [reflexivity|]. split. { cbn. auto 10. }
  eexists. split. { cbn. right. right. left. reflexivity. }
  split. { exists KK8. reflexivity. }
  cbn. unfold fits. lia.
Qed.
Print Assumptions C71_whole_answer_refuted.
Print Assumptions C71_error_amid_message_refuted.
Print Assumptions C72_too_long_refuted.
