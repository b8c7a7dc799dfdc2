(** Concrete histories for the theorems of SessionThm.v, and the refutations of C74 for
    devices that are not settled. *)
From Coq Require Import NArith ZArith List Bool Arith Lia.
From Verif Require Import KeyModel HeaderModel KeySpec HeaderSpec MinKeyModel MinKeySpec
  SchemaModel MacroModel PostcardModel DispatchModel DispatchSpec DispatchThm SubModel SubSpec ClientModel ClientSpec ClientThm4.
From Verif Require Import UsbSpec DispatchModel DispatchSpec SystemModel SystemSpec SystemProof SystemThm SystemThm2 FlowSpec LiveSpec LiveProof LiveThm LiveThm2
  AsyncModel AsyncSpec AsyncProof AsyncThm AsyncThm2 SessionModel SessionSpec SessionProof SessionThm.
From Verif Require CodecModel CodecSpec CodecStdModel TypedSpec TypedThm TypedThm2.
Import ListNotations.

(** After the history of AsyncThm2.v, its client is replaced by a new one, which calls
    both endpoints and subscribes to topic 7, on which the device publishes what the
    client publishes on topic 20. *)
Definition e_second : list ALabel :=
  map ASystem (map SClient ([LRequest (xk 12) (xk 13) [7%N]; LRequest (xk 10) (xk 11) [5%N]; LSub (SubscribeExclusive (xk 7) 4);
                LPublish (MkFrame (MkHeader (VKey8 (xk 20)) (Seq1 2)) [8%N])] ++
               y_out 0 ++ y_out 1 ++ [LPubSend 0; LOutPop; LOutSent]) ++ [SServe 0; SServe 0]) ++
  [AResume; ASystem (STask 2); ASystem (SServe 0); AResume] ++
  map ASystem [SRecv 0; SClient (LWake (Some 2)); SClient (LTakeOk 1); SRecv 0; SClient (LWake (Some 0)); SClient (LTakeOk 0);
               SRecv 0; SClient (LSub (ReceiveX 0))].

Lemma e_device : config_ok x_eps x_tin x_tout x_ea x_ta /\ define_dispatch N N x_eps x_tin x_tout x_ea x_ta = Done x_disp /\
  device_ok x_std x_eps x_tout x_ea /\ handlers_ok x_std x_tout x_ea x_ta s_task s_bg /\
  klen (d_kind _ _ x_disp) <= klen KK1 /\ cfg_err_key s_cfg = error_key x_std /\
  tasks_answer x_std x_ea s_task /\ 0 < cfg_depth s_cfg /\
  ~ In (compact (klen KK1) (k8_bytes (error_key x_std)))
       (map (fun k => compact (klen KK1) (k8_bytes k)) (map ep_resp (em_endpoints x_eps))).
Proof.
  destruct x_config as (C & _ & E). destruct s_device as (D1 & _).
  split; [exact C|]. split; [exact E|]. split; [exact D1|]. split; [exact s_handlers_bg|]. split; [cbn; lia|]. split; [reflexivity|].
  split.
  { intros a sc h v [<-|[<-|[]]] F; [|discriminate]. unfold s_task. apply ss_now. split; auto.
    destruct (v <=? 100)%N; [left|right]; reflexivity. }
  split; [cbn; lia|]. vm_compute; intuition discriminate.
Qed.

Example C74_ex :
  exists a cl0 es0, s_arun a_history a_start = Some (a, cl0, es0) /\ settled x_tout a /\
  lossless (system_labels e_second) /\ uncut (system_labels e_second) /\
  exists a' cl es, s_arun e_second (reconnect N N N a) = Some (a', cl, es) /\
    Forall (label_ok x_eps x_tin) cl /\ (N.of_nat (typed cl) <= 2 ^ 32)%N /\
    subscriptions_apart KK1 x_std x_eps cl /\
    (forall h p r, In (EvSend ByDispatcher h p r) (y_trace _ _ _ (a_sys _ _ _ a')) -> r <> TxErr TxConnectionClosed /\ r <> TxErr TxTimeout) /\
    (forall l, a_own_step l = true ->
       a_step N N N x_std x_net (fun _ _ => true) KK1 (fun c => (c, c)) x_disp s_enc s_task s_cfg l a' = None) /\
    subscribed cl es (xk 7) 0 /\ map f_body (given cl es 0) = [[8%N]] /\
    (** the same sequence numbers as those of the first client, but other answers *)
    results es = [(1, GotReply (y_frame 11 1 [15%N])); (0, GotReply (y_frame 13 0 [14%N]))].
Proof.
  destruct (s_arun a_history a_start) as [[[a cl0] es0]|] eqn:R0; [|vm_compute in R0; discriminate].
  exists a, cl0, es0. split; [reflexivity|]. vm_compute in R0. injection R0 as <- _ _.
  split.
  { split; [reflexivity|]. split; [reflexivity|]. split; [reflexivity|].
    cbn. repeat (apply Forall_cons; [intros key seq p M; inversion M|]). apply Forall_nil. }
  split. { intros l Hl. vm_compute in Hl. repeat (destruct Hl as [<-|Hl]; [exact Logic.I|]). destruct Hl. }
  split. { intros i n Hl. vm_compute in Hl. repeat (destruct Hl as [Hl|Hl]; [discriminate|]). destruct Hl. }
  match goal with |- context [s_arun e_second ?x] => destruct (s_arun e_second x) as [[[a' cl] es]|] eqn:R end; [|vm_compute in R; discriminate].
  exists a', cl, es. split; [reflexivity|]. vm_compute in R. injection R as <- <- <-. split.
  { repeat (apply Forall_cons; [cbn; auto|]); try apply Forall_nil.
    - exists [118%N]. cbn. auto.
    - exists [117%N]. cbn. auto.
    - exists (xk 20). split; [cbn; auto|]. split; [reflexivity|]. lia. }
  split; [vm_compute; discriminate|].
  split. { intros k k' [<-|[]] Hk. cbn in Hk. repeat (destruct Hk as [<-|Hk]; [vm_compute; discriminate|]). destruct Hk. }
  split. { intros h p r Hi. cbn in Hi. repeat (destruct Hi as [Hi|Hi]; [try discriminate; injection Hi as <- <- <-; split; discriminate|]). destruct Hi. }
  split; [apply a_nothing_to_do; [reflexivity|at_rest_tac]|].
  split; [exists 4; left; cbn; auto|]. split; reflexivity.
Qed.

(** A device with plain handlers only, and a background task that publishes.  Three
    clients, one after another, each make the same call; each handler adds the number of
    calls so far to its argument. *)
Definition e_ea := [x_arm].
Definition e_disp : Dispatcher N N :=
  Eval vm_compute in
  match define_dispatch N N x_eps x_tin x_tout e_ea x_ta with Done d => d | Panicked => MkDispatcher N N KK8 [] [] (MkMap [] [] [] [] KK8) end.
Definition e_call (lose : list SysLabel) : list ALabel :=
  map ASystem (map SClient ([LRequest (xk 10) (xk 11) [5%N]] ++ y_out 0) ++ [SServe 0]) ++ [AResume] ++
  map ASystem ([SRecv 0; SClient (LWake (Some 0)); SClient (LTakeOk 0)] ++ lose).
Definition e_sessions := sessions N N N x_std x_net (fun _ _ => true) KK1 (fun c => (c, c)) e_disp s_enc s_task s_cfg.
Definition e_clients : list (list ALabel) := [e_call [STask 0; SLoseDown 0]; e_call []; e_call [STask 0; SRecv 0]].

Example C74_sessions_ex :
  config_ok x_eps x_tin x_tout e_ea x_ta /\ define_dispatch N N x_eps x_tin x_tout e_ea x_ta = Done e_disp /\
  device_ok x_std x_eps x_tout e_ea /\ handlers_ok x_std x_tout e_ea x_ta s_task (y_tasks _ _ _ (a_sys _ _ _ a_start)) /\
  klen (d_kind _ _ e_disp) <= klen KK1 /\ a_cur _ _ _ a_start = None /\ (forall x, In x e_ea -> ea_flavor _ _ x <> Spawn) /\
  exists ses, e_sessions e_clients a_start = Some ses /\
    Forall (fun se => a_cur _ _ _ (se_start se) = None /\ y_up _ _ _ (a_sys _ _ _ (se_start se)) = [] /\ y_down _ _ _ (a_sys _ _ _ (se_start se)) = []) ses /\
    Forall (fun se => Forall (label_ok x_eps x_tin) (se_labels se) /\ (N.of_nat (typed (se_labels se)) <= 2 ^ 32)%N) ses /\
    map (fun se => results (se_events se)) ses =
      [[(0, GotReply (y_frame 11 0 [5%N]))]; [(0, GotReply (y_frame 11 0 [6%N]))]; [(0, GotReply (y_frame 11 0 [7%N]))]].
Proof.
  destruct s_device as ((D1 & D2 & D3 & D4) & _). destruct s_handlers_bg as (H1 & H2 & H3 & H4 & H5).
  split. { unfold config_ok, keys_ok. repeat split; repeat constructor; cbn; repeat constructor. }
  split; [vm_compute; reflexivity|].
  split. { split; [exact D1|]. split; [exact D2|]. split; [exact D3|]. intros a [<-|[]]. apply D4. right. left. reflexivity. }
  split.
  { split; [intros a ctx h v key seq p [<-|[]]; apply H1; right; left; reflexivity|]. split; [exact H2|].
    split; [intros a sc h v key seq p [<-|[]]; apply H3; right; left; reflexivity|]. split; [exact H4|exact H5]. }
  split; [cbn; lia|]. split; [reflexivity|]. split; [intros x [<-|[]]; discriminate|].
  destruct (e_sessions e_clients a_start) as [ses|] eqn:R; [|vm_compute in R; discriminate].
  exists ses. split; [reflexivity|]. vm_compute in R. injection R as <-.
  split. { repeat (apply Forall_cons; [repeat split|]). apply Forall_nil. }
  split.
  { repeat (apply Forall_cons; [split; [|vm_compute; discriminate]|]); [| | |apply Forall_nil];
      (repeat (apply Forall_cons; [cbn; auto; exists [117%N]; cbn; auto|]); apply Forall_nil). }
  reflexivity.
Qed.

(** The typed device again: after the client of AsyncThm2.v, a second one with another
    argument for the same call. *)
Section Typed.
  Import CodecModel CodecSpec CodecStdModel TypedSpec TypedThm TypedThm2.
  Definition ez_v : value := VUInt W32 7.
  Definition ez_second : list ALabel :=
    map ASystem (map SClient ([LRequest (xk 12) (xk 13) (ser ez_v)] ++ y_out 0) ++
      [SServe 0; STask 1; SRecv 0; SClient (LWake (Some 0)); SClient (LTakeOk 0)]).
  Definition ez_run := a_run value N N x_std z_net (fun _ _ => true) KK1 (fun c => (c, c)) z_disp payload_bytes z_task s_cfg.
  Example C74_typed_ex :
    exists a cl0 es0, ez_run az_history (asys_new value N N [] 3%N) = Some (a, cl0, es0) /\ settled x_tout a /\
    exists a' cl es, ez_run ez_second (reconnect value N N a) = Some (a', cl, es) /\
      Forall (label_ok x_eps x_tin) cl /\ (N.of_nat (ClientSpec.typed cl) <= 2 ^ 32)%N /\
      called z_rqty cl 0 (xk 12) ez_v /\
      exists f, results es = [(0, GotReply f)] /\ returned z_rsty (xk 12) (GotReply f) = HOk _ _ (VUInt W64 14).
  Proof.
    destruct (ez_run az_history (asys_new value N N [] 3%N)) as [[[a cl0] es0]|] eqn:R0; [|vm_compute in R0; discriminate].
    exists a, cl0, es0. split; [reflexivity|]. vm_compute in R0. injection R0 as <- _ _.
    split.
    { split; [reflexivity|]. split; [reflexivity|]. split; [reflexivity|].
      cbn. repeat (apply Forall_cons; [intros key seq p M; inversion M|]). apply Forall_nil. }
    match goal with |- context [ez_run ez_second ?x] => destruct (ez_run ez_second x) as [[[a' cl] es]|] eqn:R end; [|vm_compute in R; discriminate].
    exists a', cl, es. split; [reflexivity|]. vm_compute in R. injection R as _ <- <-. split.
    { repeat (apply Forall_cons; [cbn; auto; exists [118%N]; cbn; auto|]). apply Forall_nil. }
    split; [vm_compute; discriminate|].
    split; [eexists; split; [reflexivity|cbn; apply N.ltb_lt; reflexivity]|].
    eexists. split; [reflexivity|]. vm_compute. reflexivity.
  Qed.
End Typed.

(** ** C74 is false of devices that are not settled

    Sequence numbers start from 0 with each client, and nothing else tells an answer to
    the last client's request from an answer to this one's. *)

Definition e_run := sessions N N N x_std x_net (fun _ _ => true) KK1 (fun c => (c, c)) x_disp s_enc s_task s_cfg.

(** A client calls an endpoint with the argument 5 and goes away while the handler is at
    work.  The next client calls it with the argument 9 and gets the answer for 5, before
    the server has even received its request. *)
Definition e_stale : list (list ALabel) :=
  [map ASystem (map SClient ([LRequest (xk 10) (xk 11) [5%N]] ++ y_out 0) ++ [SServe 0]);
   map ASystem (map SClient ([LRequest (xk 10) (xk 11) [9%N]] ++ y_out 0)) ++ [AResume] ++
   map ASystem [SRecv 0; SClient (LWake (Some 0)); SClient (LTakeOk 0)]].

(** The reply [f] to the call numbered 0, with this request, of the client of [ses], is
    not what any handler that ever ran made of the request. *)
Definition not_its_answer (ses : Session N N N) (req resp : Key8) (body : list N) (f : RpcFrame) : Prop :=
  issued 0 (se_labels ses) = [(MkFrame (MkHeader (VKey8 req) (Seq4 0)) body, resp)] /\
  results (se_events ses) = [(0, GotReply f)] /\
  ~ exists p, s_enc p = f_body f /\ answered x_std x_ea s_task x_disp (y_trace _ _ _ (a_sys _ _ _ (se_end ses))) req 0 body p.

Theorem C74_stale_answer_refuted :
  exists hs ses1 ses2 req resp body f,
    config_ok x_eps x_tin x_tout x_ea x_ta /\ define_dispatch N N x_eps x_tin x_tout x_ea x_ta = Done x_disp /\
    device_ok x_std x_eps x_tout x_ea /\ handlers_ok x_std x_tout x_ea x_ta s_task [] /\ klen (d_kind _ _ x_disp) <= klen KK1 /\
    e_run hs (asys_new N N N [] 0%N) = Some [ses1; ses2] /\
    Forall (label_ok x_eps x_tin) (se_labels ses1 ++ se_labels ses2) /\
    lossless (system_labels (concat hs)) /\
    (** nothing is in the link and no task is running when the second client connects *)
    y_up _ _ _ (a_sys _ _ _ (se_start ses2)) = [] /\ y_down _ _ _ (a_sys _ _ _ (se_start ses2)) = [] /\
    y_tasks _ _ _ (a_sys _ _ _ (se_start ses2)) = [] /\
    (** its only request is answered with something else, while it is still on the way *)
    not_its_answer ses2 req resp body f /\
    length (y_up _ _ _ (a_sys _ _ _ (se_end ses2))) = 1.
Proof.
  destruct s_device as (D1 & H1 & H2 & H3 & H4 & _). destruct x_config as (C & _ & E).
  destruct (e_run e_stale (asys_new N N N [] 0%N)) as [ses|] eqn:R; [|vm_compute in R; discriminate].
  destruct ses as [|ses1 [|ses2 [|x y]]]; try (vm_compute in R; discriminate).
  exists e_stale, ses1, ses2, (xk 10), (xk 11), [9%N], (y_frame 11 0 [5%N]).
  split; [exact C|]. split; [exact E|]. split; [exact D1|].
  split. { do 4 (split; [assumption|]). intros p key seq pl []. }
  split; [cbn; lia|]. split; [exact R|]. vm_compute in R. injection R as <- <-.
  split. { repeat (apply Forall_cons; [cbn; auto; exists [117%N]; cbn; auto|]). apply Forall_nil. }
  split. { intros l Hl. vm_compute in Hl. repeat (destruct Hl as [<-|Hl]; [exact Logic.I|]). destruct Hl. }
  do 3 (split; [reflexivity|]). split; [|reflexivity].
  split; [reflexivity|]. split; [reflexivity|]. intros (p & Ep & A).
  inversion A as [n Er _|t Er _|a ctx hdr v ctx' reply Ia Er Fl Ed Es Ir M|a sc hdr v p' Ia Er Fl Ed Es Ir M]; subst; try (vm_compute in Er; discriminate).
  - destruct Ia as [<-|[<-|[]]]; [discriminate|]. vm_compute in Ed. injection Ed as <-. cbn in Ir.
    repeat (destruct Ir as [Ir|Ir]; [discriminate|]). destruct Ir.
  - destruct Ia as [<-|[<-|[]]]; discriminate.
Qed.
Print Assumptions C74_stale_answer_refuted.

(** The same when it is a spawned task that has yet to answer the first client. *)
Definition e_stale_task : list (list ALabel) :=
  [map ASystem (map SClient ([LRequest (xk 12) (xk 13) [5%N]] ++ y_out 0) ++ [SServe 0]);
   map ASystem (map SClient ([LRequest (xk 12) (xk 13) [9%N]] ++ y_out 0) ++
     [STask 0; SRecv 0; SClient (LWake (Some 0)); SClient (LTakeOk 0)])].

Theorem C74_stale_task_refuted :
  exists hs ses1 ses2 req resp body f,
    config_ok x_eps x_tin x_tout x_ea x_ta /\ define_dispatch N N x_eps x_tin x_tout x_ea x_ta = Done x_disp /\
    device_ok x_std x_eps x_tout x_ea /\ handlers_ok x_std x_tout x_ea x_ta s_task [] /\ klen (d_kind _ _ x_disp) <= klen KK1 /\
    e_run hs (asys_new N N N [] 0%N) = Some [ses1; ses2] /\
    Forall (label_ok x_eps x_tin) (se_labels ses1 ++ se_labels ses2) /\
    lossless (system_labels (concat hs)) /\
    (** nothing is in the link and the server is not dispatching when the second client
        connects *)
    y_up _ _ _ (a_sys _ _ _ (se_start ses2)) = [] /\ y_down _ _ _ (a_sys _ _ _ (se_start ses2)) = [] /\
    a_cur _ _ _ (se_start ses2) = None /\
    not_its_answer ses2 req resp body f /\
    length (y_up _ _ _ (a_sys _ _ _ (se_end ses2))) = 1.
Proof.
  destruct s_device as (D1 & H1 & H2 & H3 & H4 & _). destruct x_config as (C & _ & E).
  destruct (e_run e_stale_task (asys_new N N N [] 0%N)) as [ses|] eqn:R; [|vm_compute in R; discriminate].
  destruct ses as [|ses1 [|ses2 [|x y]]]; try (vm_compute in R; discriminate).
  exists e_stale_task, ses1, ses2, (xk 12), (xk 13), [9%N], (y_frame 13 0 [10%N]).
  split; [exact C|]. split; [exact E|]. split; [exact D1|].
  split. { do 4 (split; [assumption|]). intros p key seq pl []. }
  split; [cbn; lia|]. split; [exact R|]. vm_compute in R. injection R as <- <-.
  split. { repeat (apply Forall_cons; [cbn; auto; exists [118%N]; cbn; auto|]). apply Forall_nil. }
  split. { intros l Hl. vm_compute in Hl. repeat (destruct Hl as [<-|Hl]; [exact Logic.I|]). destruct Hl. }
  do 3 (split; [reflexivity|]). split; [|reflexivity].
  split; [reflexivity|]. split; [reflexivity|]. intros (p & Ep & A).
  inversion A as [n Er _|t Er _|a ctx hdr v ctx' reply Ia Er Fl Ed Es Ir M|a sc hdr v p' Ia Er Fl Ed Es Ir M]; subst; try (vm_compute in Er; discriminate).
  - destruct Ia as [<-|[<-|[]]]; [apply Fl; reflexivity|discriminate].
  - destruct Ia as [<-|[<-|[]]]; [|discriminate]. vm_compute in Ed. injection Ed as <-. cbn in Ir.
    repeat (destruct Ir as [Ir|Ir]; [discriminate|]). destruct Ir.
Qed.
Print Assumptions C74_stale_task_refuted.

(** The same when the first client's answer is still in the link, *)
Definition e_stale_frame : list (list ALabel) :=
  [map ASystem (map SClient ([LRequest (xk 10) (xk 11) [5%N]] ++ y_out 0) ++ [SServe 0]) ++ [AResume];
   map ASystem (map SClient ([LRequest (xk 10) (xk 11) [9%N]] ++ y_out 0) ++
     [SRecv 0; SClient (LWake (Some 0)); SClient (LTakeOk 0)])].
(** or its request. *)
Definition e_stale_request : list (list ALabel) :=
  [map ASystem (map SClient ([LRequest (xk 10) (xk 11) [5%N]] ++ y_out 0));
   map ASystem (map SClient ([LRequest (xk 10) (xk 11) [9%N]] ++ y_out 0) ++ [SServe 0]) ++ [AResume] ++
   map ASystem [SRecv 0; SClient (LWake (Some 0)); SClient (LTakeOk 0)]].

Theorem C74_stale_frame_refuted :
  exists hs ses1 ses2 req resp body f,
    config_ok x_eps x_tin x_tout x_ea x_ta /\ define_dispatch N N x_eps x_tin x_tout x_ea x_ta = Done x_disp /\
    device_ok x_std x_eps x_tout x_ea /\ handlers_ok x_std x_tout x_ea x_ta s_task [] /\ klen (d_kind _ _ x_disp) <= klen KK1 /\
    e_run hs (asys_new N N N [] 0%N) = Some [ses1; ses2] /\
    Forall (label_ok x_eps x_tin) (se_labels ses1 ++ se_labels ses2) /\
    lossless (system_labels (concat hs)) /\
    (** the device is doing nothing when the second client connects, and no request is on
        its way to it *)
    a_cur _ _ _ (se_start ses2) = None /\ y_tasks _ _ _ (a_sys _ _ _ (se_start ses2)) = [] /\
    y_up _ _ _ (a_sys _ _ _ (se_start ses2)) = [] /\
    not_its_answer ses2 req resp body f /\
    length (y_up _ _ _ (a_sys _ _ _ (se_end ses2))) = 1.
Proof.
  destruct s_device as (D1 & H1 & H2 & H3 & H4 & _). destruct x_config as (C & _ & E).
  destruct (e_run e_stale_frame (asys_new N N N [] 0%N)) as [ses|] eqn:R; [|vm_compute in R; discriminate].
  destruct ses as [|ses1 [|ses2 [|x y]]]; try (vm_compute in R; discriminate).
  exists e_stale_frame, ses1, ses2, (xk 10), (xk 11), [9%N], (y_frame 11 0 [5%N]).
  split; [exact C|]. split; [exact E|]. split; [exact D1|].
  split. { do 4 (split; [assumption|]). intros p key seq pl []. }
  split; [cbn; lia|]. split; [exact R|]. vm_compute in R. injection R as <- <-.
  split. { repeat (apply Forall_cons; [cbn; auto; exists [117%N]; cbn; auto|]). apply Forall_nil. }
  split. { intros l Hl. vm_compute in Hl. repeat (destruct Hl as [<-|Hl]; [exact Logic.I|]). destruct Hl. }
  do 3 (split; [reflexivity|]). split; [|reflexivity].
  split; [reflexivity|]. split; [reflexivity|]. intros (p & Ep & A).
  inversion A as [n Er _|t Er _|a ctx hdr v ctx' reply Ia Er Fl Ed Es Ir M|a sc hdr v p' Ia Er Fl Ed Es Ir M]; subst; try (vm_compute in Er; discriminate).
  - destruct Ia as [<-|[<-|[]]]; [discriminate|]. vm_compute in Ed. injection Ed as <-. cbn in Ir.
    repeat (destruct Ir as [Ir|Ir]; [discriminate|]). destruct Ir.
  - destruct Ia as [<-|[<-|[]]]; discriminate.
Qed.
Print Assumptions C74_stale_frame_refuted.

Theorem C74_stale_request_refuted :
  exists hs ses1 ses2 req resp body f,
    config_ok x_eps x_tin x_tout x_ea x_ta /\ define_dispatch N N x_eps x_tin x_tout x_ea x_ta = Done x_disp /\
    device_ok x_std x_eps x_tout x_ea /\ handlers_ok x_std x_tout x_ea x_ta s_task [] /\ klen (d_kind _ _ x_disp) <= klen KK1 /\
    e_run hs (asys_new N N N [] 0%N) = Some [ses1; ses2] /\
    Forall (label_ok x_eps x_tin) (se_labels ses1 ++ se_labels ses2) /\
    lossless (system_labels (concat hs)) /\ up_in_order (system_labels (concat hs)) /\
    (** the device is doing nothing when the second client connects, and no answer is on
        its way *)
    a_cur _ _ _ (se_start ses2) = None /\ y_tasks _ _ _ (a_sys _ _ _ (se_start ses2)) = [] /\
    y_down _ _ _ (a_sys _ _ _ (se_start ses2)) = [] /\
    not_its_answer ses2 req resp body f /\
    length (y_up _ _ _ (a_sys _ _ _ (se_end ses2))) = 1.
Proof.
  destruct s_device as (D1 & H1 & H2 & H3 & H4 & _). destruct x_config as (C & _ & E).
  destruct (e_run e_stale_request (asys_new N N N [] 0%N)) as [ses|] eqn:R; [|vm_compute in R; discriminate].
  destruct ses as [|ses1 [|ses2 [|x y]]]; try (vm_compute in R; discriminate).
  exists e_stale_request, ses1, ses2, (xk 10), (xk 11), [9%N], (y_frame 11 0 [5%N]).
  split; [exact C|]. split; [exact E|]. split; [exact D1|].
  split. { do 4 (split; [assumption|]). intros p key seq pl []. }
  split; [cbn; lia|]. split; [exact R|]. vm_compute in R. injection R as <- <-.
  split. { repeat (apply Forall_cons; [cbn; auto; exists [117%N]; cbn; auto|]). apply Forall_nil. }
  split. { intros l Hl. vm_compute in Hl. repeat (destruct Hl as [<-|Hl]; [exact Logic.I|]). destruct Hl. }
  split. { intros i Hi. vm_compute in Hi. repeat (destruct Hi as [Hi|Hi]; [try discriminate; injection Hi as <-; reflexivity|]). destruct Hi. }
  do 3 (split; [reflexivity|]). split; [|reflexivity].
  split; [reflexivity|]. split; [reflexivity|]. intros (p & Ep & A).
  inversion A as [n Er _|t Er _|a ctx hdr v ctx' reply Ia Er Fl Ed Es Ir M|a sc hdr v p' Ia Er Fl Ed Es Ir M]; subst; try (vm_compute in Er; discriminate).
  - destruct Ia as [<-|[<-|[]]]; [discriminate|]. vm_compute in Ed. injection Ed as <-. cbn in Ir.
    repeat (destruct Ir as [Ir|Ir]; [discriminate|]). destruct Ir.
  - destruct Ia as [<-|[<-|[]]]; discriminate.
Qed.
Print Assumptions C74_stale_request_refuted.
