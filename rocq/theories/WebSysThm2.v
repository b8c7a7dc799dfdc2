(** A concrete history for the theorems of WebSysThm.v, and the lengths at which WebUSB
    goes wrong. *)
From Coq Require Import NArith List Bool Arith Lia.
From Verif Require Import KeyModel HeaderModel KeySpec HeaderSpec MinKeyModel MinKeySpec
  SchemaModel MacroModel PostcardModel DispatchModel DispatchSpec DispatchThm SubModel SubSpec ClientModel ClientSpec ClientThm4
  UsbModel UsbSpec NusbRxModel LogModel.
From Verif Require Import DispatchModel DispatchSpec SystemModel SystemSpec SystemProof SystemThm SystemThm2 FlowSpec LiveSpec LiveProof LiveThm LiveThm2 AsyncModel AsyncSpec
  UsbSysModel UsbSysSpec UsbSysProof UsbSysLive UsbSysThm UsbSysThm2 WebUsbModel WebSysModel WebSysSpec WebSysThm.
Import ListNotations.

Lemma w_nothing_to_do {Val Ctx SCtx} std can_spawn kkind spawn_ctxt (d : Dispatcher Val Ctx) enc task cfg txlen rxlen consumes max outcome (w : WSys Val Ctx SCtx) :
  w_done _ _ _ w = None -> u_in _ _ _ (w_sys _ _ _ w) = [] ->
  (forall l, u_own_step l = true ->
    u_step Val Ctx SCtx std can_spawn kkind spawn_ctxt d enc task cfg txlen rxlen consumes None outcome l (w_sys _ _ _ w) = None) ->
  forall l, w_own_step l = true ->
    w_step Val Ctx SCtx std can_spawn kkind spawn_ctxt d enc task cfg txlen rxlen consumes max outcome l w = None.
Proof.
  intros Hd Hi H l Hl. destruct l as [l|fails k| | |i| | |]; try discriminate Hl; cbn [w_step]; unfold device_step.
  - specialize (H (UClient l) Hl). cbn [u_step] in H. destruct (step cfg l (u_client _ _ _ (w_sys _ _ _ w))) as [[c e]|]; [|destruct l; reflexivity].
    destruct l; try discriminate H; reflexivity.
  - rewrite (H UServe eq_refl). reflexivity.
  - rewrite (H UResume eq_refl). reflexivity.
  - rewrite (H (UTask i) eq_refl). reflexivity.
  - rewrite Hd, Hi. destruct (c_in_alive _); reflexivity.
  - rewrite Hd. reflexivity.
Qed.
Ltac w_rest_tac := apply w_nothing_to_do; [reflexivity|reflexivity|u_rest_tac].

(** The device and the client of UsbSysThm2.v with a client in a browser, which asks for
    1000 bytes at a time as the documentation has it.  Answers take two packets. *)
Definition w_enc (p : Payload N) : list N := match p with PVal v => repeat v 100 | _ => s_enc p end.
Definition ww_run max := w_run N N N x_std (fun _ _ => true) KK1 (fun c => (c, c)) x_disp w_enc s_task s_cfg 256 128 true max (fun _ => []).
Definition ww_step max := w_step N N N x_std (fun _ _ => true) KK1 (fun c => (c, c)) x_disp w_enc s_task s_cfg 256 128 true max (fun _ => []).
Definition ww_new : WSys N N N := wsys_new N N N [] 0%N.
Definition ww_bg : WSys N N N := wsys_new N N N s_bg 0%N.
Definition w_history : list WLabel :=
  map WClient ([LSub (SubscribeExclusive (xk 7) 4);
                LRequest (xk 10) (xk 11) [5%N]; LRequest (xk 12) (xk 13) [6%N]; LRequest (xk 10) (xk 11) [1%N; 2%N]] ++
               y_out 0 ++ y_out 1 ++ y_out 2) ++
  [WServe; WResume; WServe; WServe; WTask 0; WTask 1; WResume; WTask 0;
   WIn; WIn; WRecv; WClient (LWake (Some 0)); WClient (LTakeOk 0);
   WIn; WIn; WRecv; WIn; WIn; WRecv; WClient (LWake (Some 0)); WClient (LTakeOk 1);
   WIn; WRecv; WClient (LWake (Some 1)); WClient (LTakeErr 2);
   WIn; WIn; WRecv; WClient (LSub (ReceiveX 0)); WClient (LSub (ReceiveX 0))].
Ltac no_more H := repeat (destruct H as [H|H]; [try discriminate H|]); try (destruct H).

Example C89_ex :
  web_sizes 256 128 /\ no_failed_transfer w_history /\ tasks_answer x_std x_ea s_task /\
  exists w cl es, ww_run 1000 w_history ww_bg = Some (w, cl, es) /\
    no_whole_packets es /\ messages_below w_enc 256 (Nat.min 1000 1024) (u_trace _ _ _ (w_sys _ _ _ w)) /\
    Forall (label_ok x_eps x_tin) cl /\ subscriptions_apart KK1 x_std x_eps cl /\ frames_fit 128 es /\ all_sent (u_trace _ _ _ (w_sys _ _ _ w)) /\
    (forall l, w_own_step l = true -> ww_step 1000 l w = None) /\
    (forall l, In l cl -> l <> LClose /\ (forall b, l <> LOutFail b) /\ l <> LInFail) /\
    length (issued 0 cl) = 3 /\ subscribed cl es (xk 7) 0 /\ map f_body (given cl es 0) = [repeat 77%N 100; repeat 78%N 100] /\
    results es = [(0, GotReply (y_frame 11 0 (repeat 5%N 100))); (1, GotReply (y_frame 13 1 (repeat 12%N 100))); (2, GotError (y_frame 6 2 [255%N]))].
Proof.
  split. { repeat split; auto; cbn; lia. }
  split. { intros H. vm_compute in H. no_more H. }
  split.
  { intros a sc h v [<-|[<-|[]]] F; [|discriminate]. unfold s_task. apply ss_now. split; auto.
    destruct (v <=? 100)%N; [left|right]; reflexivity. }
  destruct (ww_run 1000 w_history ww_bg) as [[[w cl] es]|] eqn:R; [|vm_compute in R; discriminate].
  exists w, cl, es. split; [reflexivity|]. vm_compute in R. injection R as <- <- <-.
  split. { unfold no_whole_packets. cbn. repeat (apply Forall_cons; [cbn; lia|]). apply Forall_nil. }
  split. { intros w h p r Hi _. cbn in Hi. repeat (destruct Hi as [Hi|Hi]; [try discriminate Hi; injection Hi as _ <- <- _; vm_compute; lia|]). destruct Hi. }
  split. { labels_tac; [exists [117%N]|exists [118%N]|exists [117%N]]; cbn; auto. }
  split. { intros k k' [<-|[]] Hk. cbn in Hk. repeat (destruct Hk as [<-|Hk]; [vm_compute; discriminate|]). destruct Hk. }
  split. { unfold frames_fit. cbn. repeat (apply Forall_cons; [split; cbn; lia|]). apply Forall_nil. }
  split. { intros w h p r Hi. cbn in Hi. repeat (destruct Hi as [Hi|Hi]; [try discriminate Hi; injection Hi as _ _ _ <-; reflexivity|]). destruct Hi. }
  split; [w_rest_tac|].
  split. { intros l Hl. repeat (destruct Hl as [<-|Hl]; [repeat split; discriminate|]). destruct Hl. }
  split; [reflexivity|]. split. { exists 4. left. cbn. auto. }
  split; reflexivity.
Qed.

(** A request whose frame takes exactly one packet swallows the next request: the device
    takes the two for one.  Nothing failed, both fit its buffer and it is ready for more,
    but the second call, a perfectly ordinary one, never returns. *)
Definition w_history2 : list WLabel :=
  map WClient ([LRequest (xk 10) (xk 11) (repeat 5%N 51); LRequest (xk 10) (xk 11) [5%N]] ++ y_out 0 ++ y_out 1) ++
  [WServe; WResume; WIn; WRecv; WClient (LWake (Some 1)); WClient (LTakeErr 0)].
Theorem C89_whole_packets_refuted :
  web_sizes 256 128 /\ no_failed_transfer w_history2 /\
  exists w cl es, ww_run 1000 w_history2 ww_new = Some (w, cl, es) /\ Forall (label_ok x_eps x_tin) cl /\
    messages_below w_enc 256 (Nat.min 1000 1024) (u_trace _ _ _ (w_sys _ _ _ w)) /\
    frames_fit 128 es /\ all_sent (u_trace _ _ _ (w_sys _ _ _ w)) /\ u_serving _ _ _ (w_sys _ _ _ w) = true /\
    (forall l, w_own_step l = true -> ww_step 1000 l w = None) /\
    map (@length N) (wire es) = [64; 14] /\
    length (issued 0 cl) = 2 /\ (forall r, ~ In (LCancel r) cl) /\
    results es = [(0, GotError (y_frame 6 0 [255%N]))].
Proof.
  split. { repeat split; auto; cbn; lia. }
  split. { intros H. vm_compute in H. no_more H. }
  destruct (ww_run 1000 w_history2 ww_new) as [[[w cl] es]|] eqn:R; [|vm_compute in R; discriminate].
  exists w, cl, es. split; [reflexivity|]. vm_compute in R. injection R as <- <- <-.
  split. { labels_tac; [exists [117%N]|exists [117%N]]; cbn; auto. }
  split. { intros w h p r Hi _. cbn in Hi. repeat (destruct Hi as [Hi|Hi]; [try discriminate Hi; injection Hi as _ <- <- _; vm_compute; lia|]). destruct Hi. }
  split. { unfold frames_fit. cbn. repeat (apply Forall_cons; [split; cbn; lia|]). apply Forall_nil. }
  split. { intros w h p r Hi. cbn in Hi. repeat (destruct Hi as [Hi|Hi]; [try discriminate Hi; injection Hi as _ _ _ <-; reflexivity|]). destruct Hi. }
  split; [reflexivity|]. split; [w_rest_tac|]. split; [reflexivity|]. split; [reflexivity|].
  split; [|reflexivity]. intros r Hl. repeat (destruct Hl as [Hl|Hl]; [discriminate Hl|]). destruct Hl.
Qed.

(** An answer that is longer than an IN transfer ends the client's receive worker for
    good: the call returns with an error although the device answered it, nothing failed
    on the bus and nobody closed the client. *)
Definition w_history3 : list WLabel :=
  map WClient ([LRequest (xk 10) (xk 11) [5%N]] ++ y_out 0) ++
  [WServe; WResume; WIn; WIn; WRecv; WClient (LTakeClosed 0)].
Theorem C89_babble_refuted :
  web_sizes 256 128 /\ no_failed_transfer w_history3 /\
  exists w cl es, ww_run 100 w_history3 ww_new = Some (w, cl, es) /\ Forall (label_ok x_eps x_tin) cl /\
    no_whole_packets es /\ frames_fit 128 es /\ all_sent (u_trace _ _ _ (w_sys _ _ _ w)) /\
    ~ In LClose cl /\ In LInFail cl /\
    In (EvSend ByDispatcher (out_header KK1 (xk 11) (Seq4 0)) (PVal 5%N) TxOk) (u_trace _ _ _ (w_sys _ _ _ w)) /\
    results es = [(0, Closed)].
Proof.
  split. { repeat split; auto; cbn; lia. }
  split. { intros H. vm_compute in H. no_more H. }
  destruct (ww_run 100 w_history3 ww_new) as [[[w cl] es]|] eqn:R; [|vm_compute in R; discriminate].
  exists w, cl, es. split; [reflexivity|]. vm_compute in R. injection R as <- <- <-.
  split. { labels_tac; exists [117%N]; cbn; auto. }
  split. { unfold no_whole_packets. cbn. repeat (apply Forall_cons; [cbn; lia|]). apply Forall_nil. }
  split. { unfold frames_fit. cbn. repeat (apply Forall_cons; [split; cbn; lia|]). apply Forall_nil. }
  split. { intros w h p r Hi. cbn in Hi. repeat (destruct Hi as [Hi|Hi]; [try discriminate Hi; injection Hi as _ _ _ <-; reflexivity|]). destruct Hi. }
  split. { intros Hl. repeat (destruct Hl as [Hl|Hl]; [discriminate Hl|]). destruct Hl. }
  split. { cbn. auto 20. }
  split; [cbn; auto|reflexivity].
Qed.
Print Assumptions C89_whole_packets_refuted.
Print Assumptions C89_babble_refuted.
