(** Concrete histories for the theorems of AsyncThm.v. *)
From Coq Require Import NArith ZArith List Bool Arith Lia.
From Verif Require Import KeyModel HeaderModel KeySpec HeaderSpec MinKeyModel MinKeySpec
  SchemaModel MacroModel PostcardModel DispatchModel DispatchSpec DispatchThm SubModel SubSpec ClientModel ClientSpec ClientThm4.
From Verif Require Import DispatchModel DispatchSpec SystemModel SystemSpec SystemProof SystemThm SystemThm2 FlowSpec LiveSpec LiveProof LiveThm LiveThm2
  AsyncModel AsyncSpec AsyncProof AsyncThm.
From Verif Require CodecModel CodecSpec CodecProof TypedSpec TypedThm TypedThm2.
Import ListNotations.

(** A state in which nothing is left to do. *)
Lemma a_nothing_to_do {Val Ctx SCtx} std net can_spawn kkind spawn_ctxt (d : Dispatcher Val Ctx) enc task cfg (a : ASys Val Ctx SCtx) :
  a_cur _ _ _ a = None ->
  (forall l, own_step l = true -> sys_step Val Ctx SCtx std net can_spawn kkind spawn_ctxt d enc task cfg l (a_sys _ _ _ a) = None) ->
  forall l, a_own_step l = true -> a_step Val Ctx SCtx std net can_spawn kkind spawn_ctxt d enc task cfg l a = None.
Proof.
  intros C H [l|] Hl; cbn [a_step]; [|now rewrite C]. specialize (H l Hl).
  destruct l; cbn [a_step]; rewrite ?H; try reflexivity. rewrite C. cbn [sys_step] in H.
  destruct (y_serving _ _ _ (a_sys _ _ _ a)); [|reflexivity]. destruct (nth_error _ i) as [b|]; [|reflexivity].
  destruct (take_from_slice b) as [[[hdr body]|]|]; try reflexivity; [|discriminate H].
  destruct (handle _ _ _ _ _ _ _ _ _ _ _ _ _) as [[ctx res] tr]. discriminate H.
Qed.

(** The device of SystemThm2.v.  The server spawns the task of request 1 and begins to
    dispatch the publication, whose handler waits in its own transmission; meanwhile the
    task answers, and the client receives that answer.  Then the handler's transmission
    goes out, and requests 0 and 2 are served.  A background task publishes 77 before
    the handler starts and 78 while it is waiting. *)
Definition a_history : list ALabel :=
  map ASystem (map SClient ([LSub (SubscribeExclusive (xk 7) 4);
                LRequest (xk 10) (xk 11) [5%N]; LRequest (xk 12) (xk 13) [6%N]; LRequest (xk 10) (xk 11) [1%N; 2%N];
                LPublish (MkFrame (MkHeader (VKey8 (xk 20)) (Seq1 2)) [9%N])] ++
               y_out 0 ++ y_out 1 ++ y_out 2 ++ [LPubSend 0; LOutPop; LOutSent]) ++
     [SServe 1; STask 0; SServe 2; STask 1; SRecv 0; SRecv 0; SClient (LWake (Some 2)); SClient (LTakeOk 1); STask 0]) ++
  [AResume; ASystem (SServe 0); AResume; ASystem (SServe 0); AResume] ++
  map ASystem [SRecv 0; SRecv 0; SRecv 0; SClient (LWake (Some 0)); SClient (LTakeOk 0);
     SRecv 0; SClient (LWake (Some 1)); SClient (LTakeErr 2); SClient (LSub (ReceiveX 0)); SClient (LSub (ReceiveX 0)); SClient (LSub (ReceiveX 0))].

Definition a_start : ASys N N N := asys_new N N N s_bg 0%N.
Definition s_arun := a_run N N N x_std x_net (fun _ _ => true) KK1 (fun c => (c, c)) x_disp s_enc s_task s_cfg.

Example C73_ex :
  config_ok x_eps x_tin x_tout x_ea x_ta /\ define_dispatch N N x_eps x_tin x_tout x_ea x_ta = Done x_disp /\
  device_ok x_std x_eps x_tout x_ea /\ handlers_ok x_std x_tout x_ea x_ta s_task s_bg /\
  klen (d_kind _ _ x_disp) <= klen KK1 /\ cfg_err_key s_cfg = error_key x_std /\
  tasks_answer x_std x_ea s_task /\ 0 < cfg_depth s_cfg /\
  ~ In (compact (klen KK1) (k8_bytes (error_key x_std)))
       (map (fun k => compact (klen KK1) (k8_bytes k)) (map ep_resp (em_endpoints x_eps))) /\
  lossless (system_labels a_history) /\ uncut (system_labels a_history) /\ down_in_order (system_labels a_history) /\
  exists a cl es, s_arun a_history a_start = Some (a, cl, es) /\
    Forall (label_ok x_eps x_tin) cl /\ (N.of_nat (typed cl) <= 2 ^ 32)%N /\
    subscriptions_apart KK1 x_std x_eps cl /\
    (forall h p r, In (EvSend ByDispatcher h p r) (y_trace _ _ _ (a_sys _ _ _ a)) -> r <> TxErr TxConnectionClosed /\ r <> TxErr TxTimeout) /\
    (forall l, a_own_step l = true ->
       a_step N N N x_std x_net (fun _ _ => true) KK1 (fun c => (c, c)) x_disp s_enc s_task s_cfg l a = None) /\
    (forall l, In l cl -> l <> LClose /\ (forall b, l <> LOutFail b) /\ l <> LInFail) /\
    subscribed cl es (xk 7) 0 /\ map f_body (given cl es 0) = [[77%N]; [78%N]; [9%N]] /\
    length (issued 0 cl) = 3 /\
    results es = [(1, GotReply (y_frame 13 1 [12%N])); (0, GotReply (y_frame 11 0 [14%N])); (2, GotError (y_frame 6 2 [255%N]))] /\
    (** the task's answer went out while the handler of the publication was waiting *)
    exists h7 h8 h9 k7 k7' k7'' k13 k11 k6, y_trace _ _ _ (a_sys _ _ _ a) =
      [EvSpawn 8 0%N h8 6%N true; EvSend ByHandler k7 (PVal 77%N) TxOk; EvRun 9 h9 9%N; EvSend ByHandler k13 (PVal 12%N) TxOk;
       EvSend ByHandler k7' (PVal 78%N) TxOk; EvSend ByHandler k7'' (PVal 9%N) TxOk;
       EvRun 7 h7 5%N; EvSend ByDispatcher k11 (PVal 14%N) TxOk; EvSend ByDispatcher k6 (PError DeserFailed) TxOk].
Proof.
  destruct x_config as (C & _ & E). destruct s_device as (D1 & _). pose proof s_handlers_bg as D2.
  split; [exact C|]. split; [exact E|]. split; [exact D1|]. split; [exact D2|]. split; [cbn; lia|]. split; [reflexivity|].
  split.
  { intros a sc h v [<-|[<-|[]]] F; [|discriminate]. unfold s_task. apply ss_now. split; auto.
    destruct (v <=? 100)%N; [left|right]; reflexivity. }
  split; [cbn; lia|]. split; [vm_compute; intuition discriminate|].
  split. { intros l Hl. vm_compute in Hl. repeat (destruct Hl as [<-|Hl]; [exact Logic.I|]). destruct Hl. }
  split. { intros i n Hl. vm_compute in Hl. repeat (destruct Hl as [Hl|Hl]; [discriminate|]). destruct Hl. }
  split. { intros i Hi. vm_compute in Hi. repeat (destruct Hi as [Hi|Hi]; [try discriminate; injection Hi as <-; reflexivity|]). destruct Hi. }
  destruct (s_arun a_history a_start) as [[[a cl] es]|] eqn:R; [|vm_compute in R; discriminate].
  exists a, cl, es. split; [reflexivity|].
  vm_compute in R. injection R as <- <- <-. split.
  { repeat (apply Forall_cons; [cbn; auto|]); try apply Forall_nil.
    - exists [117%N]. cbn. auto.
    - exists [118%N]. cbn. auto.
    - exists [117%N]. cbn. auto.
    - exists (xk 20). split; [cbn; auto|]. split; [reflexivity|]. lia. }
  split; [vm_compute; discriminate|].
  split. { intros k k' [<-|[]] Hk. cbn in Hk. repeat (destruct Hk as [<-|Hk]; [vm_compute; discriminate|]). destruct Hk. }
  split. { intros h p r Hi. cbn in Hi. repeat (destruct Hi as [Hi|Hi]; [try discriminate; injection Hi as <- <- <-; split; discriminate|]). destruct Hi. }
  split; [apply a_nothing_to_do; [reflexivity|at_rest_tac]|].
  split. { intros l Hl. repeat (destruct Hl as [<-|Hl]; [repeat split; discriminate|]). destruct Hl. }
  split; [exists 4; left; cbn; auto|]. split; [reflexivity|]. split; [reflexivity|]. split; [reflexivity|].
  eexists _, _, _, _, _, _, _, _, _. reflexivity.
Qed.

(** The same, but the task's answer is lost while the handler is waiting, and request 2 on
    its way: request 0 still returns. *)
Definition a_lossy : list ALabel :=
  map ASystem (map SClient ([LSub (SubscribeExclusive (xk 7) 4);
                LRequest (xk 10) (xk 11) [5%N]; LRequest (xk 12) (xk 13) [6%N]; LRequest (xk 10) (xk 11) [1%N; 2%N];
                LPublish (MkFrame (MkHeader (VKey8 (xk 20)) (Seq1 2)) [9%N])] ++
               y_out 0 ++ y_out 1 ++ y_out 2 ++ [LPubSend 0; LOutPop; LOutSent]) ++
     [SServe 1; SLoseUp 1; STask 0; SServe 1; STask 0; STask 1; SLoseDown 2]) ++
  [AResume; ASystem (SServe 0); AResume] ++
  map ASystem [SRecv 0; SRecv 0; SRecv 0; SRecv 0; SClient (LWake (Some 0)); SClient (LTakeOk 0)].

Example C73_lossy_ex :
  exists a cl es, s_arun a_lossy a_start = Some (a, cl, es) /\
    Forall (label_ok x_eps x_tin) cl /\ (N.of_nat (typed cl) <= 2 ^ 32)%N /\
    subscriptions_apart KK1 x_std x_eps cl /\
    (forall h p r, In (EvSend ByDispatcher h p r) (y_trace _ _ _ (a_sys _ _ _ a)) -> r <> TxErr TxConnectionClosed /\ r <> TxErr TxTimeout) /\
    (forall l, a_own_step l = true ->
       a_step N N N x_std x_net (fun _ _ => true) KK1 (fun c => (c, c)) x_disp s_enc s_task s_cfg l a = None) /\
    map snd (issued 0 cl) = [xk 11; xk 13; xk 11] /\
    results es = [(0, GotReply (y_frame 11 0 [14%N]))] /\
    (exists f, nth_error (issued 0 cl) 2 = Some (f, xk 11) /\
       a_lost (a_step N N N x_std x_net (fun _ _ => true) KK1 (fun c => (c, c)) x_disp s_enc s_task s_cfg) loses_up a_lossy a_start =
         [rpc_to_bytes (shrink_frame KK8 f)]) /\
    a_lost (a_step N N N x_std x_net (fun _ _ => true) KK1 (fun c => (c, c)) x_disp s_enc s_task s_cfg) loses_down a_lossy a_start =
      [rpc_to_bytes (MkFrame (out_header KK1 (xk 13) (Seq4 1)) [12%N])].
Proof.
  destruct (s_arun a_lossy a_start) as [[[a cl] es]|] eqn:R; [|vm_compute in R; discriminate].
  exists a, cl, es. split; [reflexivity|].
  vm_compute in R. injection R as <- <- <-. split.
  { repeat (apply Forall_cons; [cbn; auto|]); try apply Forall_nil.
    - exists [117%N]. cbn. auto.
    - exists [118%N]. cbn. auto.
    - exists [117%N]. cbn. auto.
    - exists (xk 20). split; [cbn; auto|]. split; [reflexivity|]. lia. }
  split; [vm_compute; discriminate|].
  split. { intros k k' [<-|[]] Hk. cbn in Hk. repeat (destruct Hk as [<-|Hk]; [vm_compute; discriminate|]). destruct Hk. }
  split. { intros h p r Hi. cbn in Hi. repeat (destruct Hi as [Hi|Hi]; [try discriminate; injection Hi as <- <- <-; split; discriminate|]). destruct Hi. }
  split; [apply a_nothing_to_do; [reflexivity|at_rest_tac]|]. split; [reflexivity|]. split; [reflexivity|].
  split; [eexists; split; [reflexivity|vm_compute; reflexivity]|vm_compute; reflexivity].
Qed.

(** The typed device of TypedThm2.v: the answer to call 0 is transmitted by the task
    while the handler of the publication is waiting. *)
Section Typed.
  Import CodecModel CodecSpec CodecProof CodecStdModel TypedSpec TypedThm TypedThm2.
  Definition az_v1 : value := VUInt W32 50.
  Definition az_history : list ALabel :=
    map ASystem (map SClient ([LRequest (xk 12) (xk 13) (ser az_v1); LRequest (xk 10) (xk 11) (ser z_v0);
                  LPublish (MkFrame (MkHeader (VKey8 (xk 20)) (Seq1 2)) [9%N])] ++ y_out 0 ++ y_out 1 ++ [LPubSend 0; LOutPop; LOutSent]) ++
      [SServe 0; SServe 1; STask 0; SRecv 0; SClient (LWake (Some 0)); SClient (LTakeOk 0)]) ++
    [AResume; ASystem (SServe 0)] ++ map ASystem [SRecv 0; SClient (LWake None)] ++ [AResume] ++
    map ASystem [SRecv 0; SClient (LWake (Some 0)); SClient (LTakeOk 1)].
  Example C73_typed_ex :
    config_ok x_eps x_tin x_tout z_ea z_ta /\ define_dispatch value N x_eps x_tin x_tout z_ea z_ta = Done z_disp /\
    device_ok x_std x_eps x_tout z_ea /\ handlers_ok x_std x_tout z_ea z_ta z_task [] /\
    typed_device x_std z_ea z_task z_rqty z_rsty /\ klen (d_kind _ _ z_disp) <= klen KK1 /\
    exists a cl es,
      a_run value N N x_std z_net (fun _ _ => true) KK1 (fun c => (c, c)) z_disp payload_bytes z_task s_cfg az_history (asys_new value N N [] 3%N) = Some (a, cl, es) /\
      Forall (label_ok x_eps x_tin) cl /\ (N.of_nat (ClientSpec.typed cl) <= 2 ^ 32)%N /\
      called z_rqty cl 0 (xk 12) az_v1 /\ called z_rqty cl 1 (xk 10) z_v0 /\
      exists f0 f1, results es = [(0, GotReply f0); (1, GotReply f1)] /\
        returned z_rsty (xk 12) (GotReply f0) = HOk _ _ (VUInt W64 100) /\
        returned z_rsty (xk 10) (GotReply f1) = HOk _ _ (VTup [VString [104; 195; 169]; VUInt W32 304]%N).
  Proof.
    destruct z_conf as (C & E). destruct z_device as (D1 & D2).
    split; [exact C|]. split; [exact E|]. split; [exact D1|]. split; [exact D2|]. split; [exact z_typed|]. split; [cbn; lia|].
    destruct (a_run value N N x_std z_net (fun _ _ => true) KK1 (fun c => (c, c)) z_disp payload_bytes z_task s_cfg az_history (asys_new value N N [] 3%N)) as [[[a cl] es]|] eqn:R; [|vm_compute in R; discriminate].
    exists a, cl, es. split; [reflexivity|].
    vm_compute in R. injection R as _ <- <-. split.
    { repeat (apply Forall_cons; [cbn; auto|]); try apply Forall_nil.
      - exists [118%N]. cbn. auto.
      - exists [117%N]. cbn. auto.
      - exists (xk 20). split; [cbn; auto|]. split; [reflexivity|]. lia. }
    split; [vm_compute; discriminate|].
    split; [eexists; split; [reflexivity|cbn; apply N.ltb_lt; reflexivity]|]. split; [eexists; split; [reflexivity|cbn; repeat first [split | apply CodecProof.utf8_ok_text]; auto; reflexivity]|].
    eexists _, _. split; [reflexivity|]. vm_compute. auto.
  Qed.
End Typed.
