(** Concrete histories for the theorems of ChanSysThm.v. *)
From Coq Require Import NArith List Bool Arith Lia Permutation.
From Verif Require Import KeyModel HeaderModel KeySpec HeaderSpec MinKeyModel MinKeySpec
  SchemaModel MacroModel PostcardModel DispatchModel DispatchSpec DispatchThm SubModel SubSpec ClientModel ClientSpec ClientThm4.
From Verif Require Import DispatchModel DispatchSpec SystemModel SystemSpec SystemProof SystemThm SystemThm2 FlowSpec LiveSpec LiveProof LiveThm LiveThm2
  AsyncModel AsyncSpec AsyncProof AsyncThm AsyncThm2 MissSpec MissThm ChanModel ChanSysModel ChanSysSpec ChanSysProof ChanSysLive ChanSysThm.
Import ListNotations.

(** A state in which nothing is left to do. *)
Lemma c_nothing_to_do {Val Ctx SCtx} std can_spawn kkind spawn_ctxt (d : Dispatcher Val Ctx) enc task cfg cap_up cap_down buf (c : CSys Val Ctx SCtx) :
  a_cur _ _ _ (cs_a _ _ _ c) = None -> tasks_done c ->
  Forall (fun q => rq_pc q = PEnded \/ exists kk, rq_pc q = PSent kk /\ rq_ok q = None /\ rq_err q = None /\ c_stopped (cs_client c) = false) (c_reqs (cs_client c)) ->
  Forall (fun p => p = None) (c_pubs (cs_client c)) -> c_out (cs_client c) = [] -> c_sending (cs_client c) = None ->
  c_offer (cs_client c) = None -> s_blocked (c_subs (cs_client c)) = None ->
  c_stopped (cs_client c) = false \/ (c_in_alive (cs_client c) = false /\ c_out_alive (cs_client c) = false) ->
  (y_down _ _ _ (a_sys _ _ _ (cs_a _ _ _ c)) = [] /\ sender_left _ _ _ c = true) \/ c_in_alive (cs_client c) = false ->
  (y_serving _ _ _ (a_sys _ _ _ (cs_a _ _ _ c)) && negb (cs_ended _ _ _ c))%bool = false \/
    (y_up _ _ _ (a_sys _ _ _ (cs_a _ _ _ c)) = [] /\ c_out_alive (cs_client c) = true /\ cs_stopped _ _ _ c = false) ->
  forall l, c_own_step l = true -> c_step Val Ctx SCtx std can_spawn kkind spawn_ctxt d enc task cfg cap_up cap_down buf l c = None.
Proof.
  intros Cu Ht Hr Hp Ho Hs Hf Hb Hc Hd Hu l Hl. rewrite Forall_forall in Hr, Hp. unfold tasks_done in Ht. rewrite Forall_forall in Ht.
  assert (Rq : forall r q, nth_error (c_reqs (cs_client c)) r = Some q -> rq_pc q = PEnded \/ exists kk, rq_pc q = PSent kk /\ rq_ok q = None /\ rq_err q = None /\ c_stopped (cs_client c) = false).
  { intros r q Hq. apply Hr. eapply nth_error_In; eauto. }
  assert (Cl : forall x, step cfg x (cs_client c) = None -> client_step Val Ctx SCtx std can_spawn kkind spawn_ctxt d enc task cfg x c = None).
  { intros x E. unfold client_step. unfold cs_client in E. rewrite E. reflexivity. }
  assert (Rv : c_in_alive (cs_client c) = false -> forall b, step cfg (LRecv b) (cs_client c) = None) by (intros A b; cbn [step]; rewrite Hf, A; reflexivity).
  destruct l as [l| | |pref|pref who| |]; try discriminate Hl; cbn [c_step].
  - assert (St : step cfg l (cs_client c) = None).
    { destruct l; try discriminate Hl; cbn [step sub_step]; rewrite ?Ho, ?Hs, ?Hf; try reflexivity;
      try (destruct (nth_error (c_reqs (cs_client c)) r) as [q|] eqn:Hq; [|reflexivity];
           destruct (Rq _ _ Hq) as [->|(kk & -> & E1 & E2 & E3)]; rewrite ?E1, ?E2, ?E3; reflexivity);
      try (destruct (nth_error (c_pubs (cs_client c)) i) as [[f|]|] eqn:Hi; try reflexivity;
           apply nth_error_In in Hi; apply Hp in Hi; discriminate).
      - destruct Hc as [->|(_ & ->)]; [|rewrite andb_false_r]; reflexivity.
      - unfold unblock. rewrite Hb. destruct (c_in_alive (cs_client c)); reflexivity.
      - destruct Hc as [->|(-> & _)]; [|rewrite andb_false_r]; reflexivity. }
    destruct l; try reflexivity; try (apply Cl; exact St). destruct reached; [reflexivity|]. apply Cl. exact St.
  - destruct (snd _); try reflexivity; apply Cl; cbn [step]; rewrite Hs; reflexivity.
  - unfold host_receive. cbn [down_for_client ch_queue ch_tx]. destruct Hd as [(-> & ->)|A]; [reflexivity|]. destruct (y_down _ _ _ _) as [|b q].
    + destruct (negb (sender_left _ _ _ c)); [|reflexivity]. apply Cl. cbn [step]. rewrite Hf, A. reflexivity.
    + specialize (Rv A b). unfold cs_client in Rv. rewrite Rv. reflexivity.
  - rewrite Cu. destruct Hu as [->|(U & A & S1)]; [reflexivity|]. destruct (_ && _)%bool; [|reflexivity]. unfold chan_receive. cbn [up_for_server ch_stop ch_queue ch_tx].
    unfold cs_client in A. rewrite S1, U, A. reflexivity.
  - assert (E : forall net, a_step Val Ctx SCtx std net can_spawn kkind spawn_ctxt d enc task cfg (match who with None => AResume | Some i => ASystem (STask i) end) (cs_a _ _ _ c) = None).
    { intros net. destruct who as [i|]; cbn [a_step sys_step]; [|rewrite Cu; reflexivity]. destruct (nth_error _ i) as [t|] eqn:Nt; [|reflexivity]. rewrite (Ht _ (nth_error_In _ _ Nt)). reflexivity. }
    rewrite !E. destruct (snd _); reflexivity.
Qed.
Ltac c_rest_tac := apply c_nothing_to_do; try reflexivity;
  try (repeat (apply Forall_cons; [first [reflexivity | left; reflexivity | right; eexists; repeat split; reflexivity]|]); apply Forall_nil);
  try (left; reflexivity); try (left; split; reflexivity); try (right; split; reflexivity); try (right; reflexivity); try (right; repeat split; reflexivity).

Definition c_new : CSys N N N := csys_new N N N s_bg 0%N.
Definition s_cstep := c_step N N N x_std (fun _ _ => true) KK1 (fun c => (c, c)) x_disp s_enc s_task s_cfg 1 1 20.
Definition s_crun := c_run N N N x_std (fun _ _ => true) KK1 (fun c => (c, c)) x_disp s_enc s_task s_cfg 1 1 20.
Definition c_prepare (r : nat) : list CLabel := map CClient [LKind r; LEnqOk r; LEnqErr r; LSend r].

(** The device of SystemThm2.v, with room for one frame in either direction and a buffer
    of 20 bytes.  Three requests, the third of which is too long, and a publication are
    made; the background task fills the channel to the client. *)
Definition c_first : list CLabel :=
  map CClient [LSub (SubscribeExclusive (xk 7) 4); LRequest (xk 10) (xk 11) [5%N]; LRequest (xk 12) (xk 13) [6%N]; LRequest (xk 10) (xk 11) (repeat 1%N 9);
     LPublish (MkFrame (MkHeader (VKey8 (xk 20)) (Seq1 2)) [9%N])] ++ c_prepare 0 ++ c_prepare 1 ++ c_prepare 2 ++
  [CClient (LPubSend 0); CClient LOutPop; COut; CClient LOutPop; CSend false (Some 0); CServe false; COut; CClient LOutPop].
(** Now the handler of request 0 waits for room for its answer, the out worker for room for
    request 2, and the background task for room for its second message; only the client
    can go on, and receive. *)
Definition c_second : list CLabel :=
  [CRecv; CSend false None; CServe false; COut; CClient LOutPop; CServe false; COut; CServe false;
   CRecv; CClient (LWake (Some 0)); CClient (LTakeOk 0); CSend true None; CRecv; CSend false (Some 1); CRecv; CClient (LWake (Some 0)); CClient (LTakeOk 1); CSend false (Some 0); CRecv] ++
  map CClient [LSub (ReceiveX 0); LSub (ReceiveX 0); LSub (ReceiveX 0)].

Ltac labels := repeat (apply Forall_cons; [first [exact Logic.I | exists [117%N]; cbn; auto; fail | exists [118%N]; cbn; auto; fail | exists (xk 20); split; [cbn; auto|split; [reflexivity|vm_compute; reflexivity]]]|]); apply Forall_nil.

Example C78_ex :
  config_ok x_eps x_tin x_tout x_ea x_ta /\ define_dispatch N N x_eps x_tin x_tout x_ea x_ta = Done x_disp /\
  device_ok x_std x_eps x_tout x_ea /\ handlers_ok x_std x_tout x_ea x_ta s_task s_bg /\
  klen (d_kind _ _ x_disp) <= klen KK1 /\ cfg_err_key s_cfg = error_key x_std /\
  tasks_answer x_std x_ea s_task /\ 0 < cfg_depth s_cfg /\
  ~ In (compact (klen KK1) (k8_bytes (error_key x_std)))
       (map (fun k => compact (klen KK1) (k8_bytes k)) (map ep_resp (em_endpoints x_eps))) /\
  exists c0 cl0 es0 c cl es,
    s_crun c_first c_new = Some (c0, cl0, es0) /\
    s_cstep COut c0 = None /\ s_cstep (CServe false) c0 = None /\ s_cstep (CSend false None) c0 = None /\ s_cstep (CSend true (Some 0)) c0 = None /\
    a_cur _ _ _ (cs_a _ _ _ c0) <> None /\
    s_crun (c_first ++ c_second) c_new = Some (c, cl, es) /\
    Forall (label_ok x_eps x_tin) cl /\ (N.of_nat (typed cl) <= 2 ^ 32)%N /\ subscriptions_apart KK1 x_std x_eps cl /\
    (forall l, c_own_step l = true -> s_cstep l c = None) /\
    cs_stopped _ _ _ c = false /\ cs_dropped _ _ _ c = false /\ ~ In LClose cl /\
    subscribed cl es (xk 7) 0 /\ map f_body (given cl es 0) = [[77%N]; [9%N]; [78%N]] /\
    length (issued 0 cl) = 3 /\
    results es = [(0, GotReply (y_frame 11 0 [5%N])); (1, GotReply (y_frame 13 1 [12%N]))].
Proof.
  destruct x_config as (C & _ & E). destruct s_device as (D1 & _). pose proof s_handlers_bg as D2.
  split; [exact C|]. split; [exact E|]. split; [exact D1|]. split; [exact D2|]. split; [cbn; lia|]. split; [reflexivity|].
  split.
  { intros a sc h v [<-|[<-|[]]] F; [|discriminate]. unfold s_task. apply ss_now. split; auto.
    destruct (v <=? 100)%N; [left|right]; reflexivity. }
  split; [cbn; lia|]. split; [vm_compute; intuition discriminate|].
  destruct (s_crun c_first c_new) as [[[c0 cl0] es0]|] eqn:R0; [|vm_compute in R0; discriminate].
  destruct (s_crun (c_first ++ c_second) c_new) as [[[c cl] es]|] eqn:R; [|vm_compute in R; discriminate].
  exists c0, cl0, es0, c, cl, es. split; [reflexivity|]. vm_compute in R0. injection R0 as <- _ _. do 4 (split; [vm_compute; reflexivity|]). split; [discriminate|].
  split; [reflexivity|]. vm_compute in R. injection R as <- <- <-. split; [labels|]. split; [vm_compute; discriminate|].
  split. { intros k k' [<-|[]] Hk. cbn in Hk. repeat (destruct Hk as [<-|Hk]; [vm_compute; discriminate|]). destruct Hk. }
  split; [c_rest_tac|]. split; [reflexivity|]. split; [reflexivity|]. split; [cbn; intuition discriminate|].
  split; [exists 4; left; cbn; auto|]. split; [reflexivity|]. split; reflexivity.
Qed.

(** A subscription in the middle of the traffic: 77 is in the channel when the client
    subscribes, with room for one message; 78 has to wait for the user to take 77, and so
    has, in the channel, the message of the handler. *)
Definition c_before : list CLabel :=
  map CClient [LPublish (MkFrame (MkHeader (VKey8 (xk 20)) (Seq1 2)) [9%N]); LPubSend 0; LOutPop] ++ [COut; CSend false (Some 0)].
Definition c_after : list CLabel :=
  [CRecv; CSend false (Some 0); CRecv; CServe false; CSend false None; CClient (LSub (ReceiveX 0)); CClient (LUnblock RoomFound);
   CClient (LSub (ReceiveX 0)); CRecv; CClient (LSub (ReceiveX 0)); CClient (LSub (ReceiveX 0))].
Definition c_after_multi : list CLabel :=
  [CRecv; CClient (LSub (ReceiveM 0)); CSend false (Some 0); CRecv; CServe false; CSend false None; CClient (LSub (ReceiveM 0)); CRecv;
   CClient (LSub (ReceiveM 0)); CClient (LSub (ReceiveM 0))].

Example C78_nothing_missed_ex :
  exists c1 c2 c cl1 cl2 es1 es2,
    s_crun c_before c_new = Some (c1, cl1, es1) /\
    s_cstep (CClient (LSub (SubscribeExclusive (xk 7) 1))) c1 = Some (c2, Some (LSub (SubscribeExclusive (xk 7) 1), [EvSub (ORes (Subscribed 0))])) /\
    s_crun c_after c2 = Some (c, cl2, es2) /\
    Forall (label_ok x_eps x_tin) cl1 /\ Forall (label_ok x_eps x_tin) cl2 /\
    cs_stopped _ _ _ c = false /\ c_in_alive (cs_client c) = true /\
    kept cl2 (xk 7) 0 /\ only_topic KK1 (xk 7) (cl1 ++ LSub (SubscribeExclusive (xk 7) 1) :: cl2) /\
    patient cl2 s_cfg /\ found_empty cl2 es2 0 /\
    (forall l, c_own_step l = true -> s_cstep l c = None) /\
    map f_body (on_the_way (xk 7) (y_down _ _ _ (a_sys _ _ _ (cs_a _ _ _ c1)))) = [[77%N]] /\
    map f_body (given cl2 es2 0) = [[77%N]; [78%N]; [9%N]].
Proof.
  destruct (s_crun c_before c_new) as [[[c1 cl1] es1]|] eqn:R; [|vm_compute in R; discriminate].
  vm_compute in R. injection R as <- <- <-. do 2 eexists.
  do 5 eexists. split; [reflexivity|]. split; [vm_compute; reflexivity|]. split; [vm_compute; reflexivity|].
  split; [labels|]. split; [labels|]. split; [reflexivity|]. split; [reflexivity|].
  split. { split; [|intros dd]; intros H; cbn in H; intuition discriminate. }
  split. { intros k' H _. cbn in H. destruct H as [<-|[]]. reflexivity. }
  split. { split; [reflexivity|]. intros H; cbn in H; intuition discriminate. }
  split. { match goal with |- found_empty ?c ?e _ => exists (removelast c), (removelast e); split; reflexivity end. }
  split; [c_rest_tac|]. split; vm_compute; reflexivity.
Qed.
Example C78_multi_nothing_missed_ex :
  exists c1 c2 c cl1 cl2 es1 es2,
    s_crun c_before c_new = Some (c1, cl1, es1) /\
    s_cstep (CClient (LSub (SubscribeMulti (xk 7) 1))) c1 = Some (c2, Some (LSub (SubscribeMulti (xk 7) 1), [EvSub (ORes (Subscribed 0))])) /\
    s_crun c_after_multi c2 = Some (c, cl2, es2) /\
    Forall (label_ok x_eps x_tin) cl1 /\ Forall (label_ok x_eps x_tin) cl2 /\
    cs_stopped _ _ _ c = false /\ c_in_alive (cs_client c) = true /\
    kept_multi cl2 0 /\ only_topic KK1 (xk 7) (cl1 ++ LSub (SubscribeMulti (xk 7) 1) :: cl2) /\
    never_lagged cl2 es2 0 /\ found_empty_multi cl2 es2 0 /\
    (forall l, c_own_step l = true -> s_cstep l c = None) /\
    map f_body (given_multi cl2 es2 0) = [[77%N]; [78%N]; [9%N]].
Proof.
  destruct (s_crun c_before c_new) as [[[c1 cl1] es1]|] eqn:R; [|vm_compute in R; discriminate].
  vm_compute in R. injection R as <- <- <-. do 2 eexists.
  do 5 eexists. split; [reflexivity|]. split; [vm_compute; reflexivity|]. split; [vm_compute; reflexivity|].
  split; [labels|]. split; [labels|]. split; [reflexivity|]. split; [reflexivity|].
  split. { intros H; cbn in H; intuition discriminate. }
  split. { intros k' H _. cbn in H. destruct H as [<-|[]]. reflexivity. }
  split. { intros f H; cbn in H; intuition discriminate. }
  split. { match goal with |- found_empty_multi ?c ?e _ => exists (removelast c), (removelast e); split; reflexivity end. }
  split; [c_rest_tac|]. vm_compute; reflexivity.
Qed.

(** ** Stopping the server

    The server is stopped while a request that fits its buffer is in the channel, and
    while the handler of another one waits for room: the handler's answer is lost, and
    [run] returns.  While the owner keeps the stopped server the channels stay open, so
    that the two calls wait, although nothing will happen any more: over these channels it is
    not true that every call returns once the server has returned. *)
Definition c_stopping : list CLabel :=
  map CClient [LRequest (xk 10) (xk 11) [5%N]; LRequest (xk 12) (xk 13) [6%N]] ++ c_prepare 0 ++ c_prepare 1 ++
  [CClient LOutPop; COut; CSend false (Some 0); CServe false; CClient LOutPop; COut; CStop; CSend false None; CSend true None; CSend true (Some 0); CRecv; CClient (LWake None)].
Theorem C78_stopped_call_waits_refuted :
  exists ls c cl es,
    s_crun ls c_new = Some (c, cl, es) /\ Forall (label_ok x_eps x_tin) cl /\ subscriptions_apart KK1 x_std x_eps cl /\
    (forall l, c_own_step l = true -> s_cstep l c = None) /\
    cs_stopped _ _ _ c = true /\ run_returned c /\ is_closed (cs_client c) = false /\ ~ In LClose cl /\
    exists r f resp b, nth_error (issued 0 cl) r = Some (f, resp) /\ ~ In (LCancel r) cl /\
      request_frame f b /\ length b <= 20 /\ ~ exists res, In (r, res) (results es).
Proof.
  destruct (s_crun c_stopping c_new) as [[[c cl] es]|] eqn:R; [|vm_compute in R; discriminate].
  exists c_stopping, c, cl, es. split; [exact R|]. vm_compute in R. injection R as <- <- <-. split; [labels|].
  split. { intros k k' []. }
  split; [c_rest_tac|]. split; [reflexivity|]. split; [split; [reflexivity|right; reflexivity]|]. split; [reflexivity|]. split; [cbn; intuition discriminate|].
  eexists 0, _, _, _. split; [reflexivity|]. split; [cbn; intuition discriminate|]. split; [exists KK8; reflexivity|]. split; [vm_compute; lia|].
  intros (res & H). exact H.
Qed.
(** When the owner drops the stopped server, the client notices, and the calls return. *)
Definition c_dropping : list CLabel :=
  [CDrop; CRecv; CClient (LOutEnd false); CClient (LTakeClosed 0); CClient (LTakeClosed 1)].
Example C78_dropped_ex :
  exists c cl es,
    s_crun (c_stopping ++ c_dropping) c_new = Some (c, cl, es) /\
    (forall l, c_own_step l = true -> s_cstep l c = None) /\
    cs_stopped _ _ _ c = true /\ cs_dropped _ _ _ c = true /\ is_closed (cs_client c) = true /\ length (issued 0 cl) = 2 /\
    results es = [(0, Closed); (1, Closed)].
Proof.
  destruct (s_crun (c_stopping ++ c_dropping) c_new) as [[[c cl] es]|] eqn:R; [|vm_compute in R; discriminate].
  exists c, cl, es. split; [reflexivity|]. vm_compute in R. injection R as <- <- <-. split; [c_rest_tac|]. repeat split.
Qed.
(** The server is dropped while the background task still has messages to send: the
    client waits for them, receives them, and only then is told. *)
Example C78_told_last_ex :
  exists c1 c cl1 cl es1 es,
    s_crun [CStop; CServe true; CDrop] c_new = Some (c1, cl1, es1) /\ s_cstep CRecv c1 = None /\
    s_crun [CSend false (Some 0); CRecv; CClient (LWake None); CSend false (Some 0); CRecv; CClient (LWake None); CRecv] c1 = Some (c, cl, es) /\
    In LInFail cl /\ length (outcomes (cs_trace c)) = 2 /\ length cl = 5.
Proof. do 6 eexists. split; [vm_compute; reflexivity|]. split; [vm_compute; reflexivity|]. split; [vm_compute; reflexivity|]. vm_compute. auto 10. Qed.
(** The same when the client is closed: [run] returns after it has received what was in
    the channel. *)
Example C78_close_ex :
  exists c cl es,
    s_crun ([CClient (LRequest (xk 10) (xk 11) [5%N])] ++ c_prepare 0 ++
      [CClient LOutPop; COut; CClient LClose; CClient LInEnd; CClient (LOutEnd false); CClient (LTakeClosed 0); CServe false; CSend false None; CSend false None; CSend false (Some 0); CSend true (Some 0)]) c_new = Some (c, cl, es) /\
    (forall l, c_own_step l = true -> s_cstep l c = None) /\
    is_closed (cs_client c) = true /\ cs_stopped _ _ _ c = false /\ run_returned c /\ results es = [(0, Closed)].
Proof.
  destruct (s_crun _ c_new) as [[[c cl] es]|] eqn:R; [|vm_compute in R; discriminate].
  exists c, cl, es. split; [reflexivity|]. vm_compute in R. injection R as <- <- <-. split; [c_rest_tac|]. repeat split. right. reflexivity.
Qed.
Print Assumptions C78_stopped_call_waits_refuted.
