(** Concrete histories for the theorems of HandleThm.v, and what letting go of a client
    does not promise. *)
From Coq Require Import NArith List Bool Arith Lia Permutation.
From Verif Require Import KeyModel HeaderModel KeySpec HeaderSpec MinKeyModel MinKeySpec
  SchemaModel MacroModel PostcardModel DispatchModel DispatchSpec DispatchThm SubModel SubSpec ClientModel ClientSpec ClientThm4
  UsbModel UsbSpec NusbRxModel LogModel.
From Verif Require Import DispatchModel DispatchSpec SystemModel SystemSpec SystemProof SystemThm SystemThm2 FlowSpec LiveSpec LiveProof LiveThm LiveThm2
  AsyncModel AsyncSpec AsyncProof AsyncThm AsyncThm2 UsbSysModel UsbSysSpec UsbSysProof UsbSysLive UsbSysThm UsbSysThm2
  ChanModel ChanSysModel ChanSysSpec ChanSysProof ChanSysLive ChanSysThm ChanSysThm2 ServedSpec ServedProof ServedThm ServedThm2
  HandleModel HandleSpec HandleProof HandleChan HandleThm.
Import ListNotations.

Lemma none_held hs : some_alive hs = false -> ~ held hs.
Proof. intros A Y. apply some_held in Y. congruence. Qed.

(** *** A client by itself *)
Definition hc_step := h_step Client Label (client_below s_cfg) (fun c => c) (fun l => l) is_call.
Definition hc_run := h_run Client Label (client_below s_cfg) (fun c => c) (fun l => l) is_call.
Definition hc_new := h_new Client client_new.
Definition h_pub : Label := LPublish (MkFrame (MkHeader (VKey8 (xk 20)) (Seq1 2)) [9%N]).

(** Two handles; one waits for the client to be closed and gives up; a publication is
    made with the other.  It cannot be dropped before the publication is accepted; once
    both handles are gone, the frame is still sent. *)
Definition h_alone : list (HLabel Label) :=
  [HClone _ 0; HWait _ 1; HCall _ 0 h_pub].
Definition h_alone2 : list (HLabel Label) :=
  [HGo _ (LPubSend 0); HDrop _ 0; HWaitCancel _ 0; HDrop _ 1].
Definition h_alone3 : list (HLabel Label) :=
  [HGo _ LOutPop; HGo _ LOutSent; HEnd _; HGo _ LInEnd].
Example C80_ex :
  exists s1 cl1 es1 s2 cl2 es2 s cl es,
    hc_run h_alone hc_new = Some (s1, cl1, es1) /\ hc_step (HDrop _ 0) s1 = None /\ hc_step (HDrop _ 1) s1 = None /\
    hc_run (h_alone ++ h_alone2) hc_new = Some (s2, cl2, es2) /\ ~ held (h_handles _ s2) /\ is_closed (h_below _ s2) = false /\ wire es2 = [] /\ hc_step (HEnd _) s2 = None /\
    hc_run (h_alone ++ h_alone2 ++ h_alone3) hc_new = Some (s, cl, es) /\ ~ held (h_handles _ s) /\
    ~ user_closed (h_alone ++ h_alone2 ++ h_alone3) /\ ~ transport_failed cl /\ is_closed (h_below _ s) = true /\
    length (published cl) = 1 /\ ~ In (LPubCancel 0) cl /\ accepted cl es = [inr 0] /\ length (wire es) = 1 /\
    (forall l, h_own_step own_alone l = true -> hc_step l s = None).
Proof.
  destruct (hc_run h_alone hc_new) as [[[s1 cl1] es1]|] eqn:R1; [|vm_compute in R1; discriminate].
  destruct (hc_run (h_alone ++ h_alone2) hc_new) as [[[s2 cl2] es2]|] eqn:R2; [|vm_compute in R2; discriminate].
  destruct (hc_run (h_alone ++ h_alone2 ++ h_alone3) hc_new) as [[[s cl] es]|] eqn:R; [|vm_compute in R; discriminate].
  exists s1, cl1, es1, s2, cl2, es2, s, cl, es. vm_compute in R1, R2, R. injection R1 as <- <- <-. injection R2 as <- <- <-. injection R as <- <- <-.
  split; [reflexivity|]. split; [reflexivity|]. split; [reflexivity|]. split; [reflexivity|].
  split; [apply none_held; reflexivity|]. split; [reflexivity|]. split; [reflexivity|]. split; [reflexivity|]. split; [reflexivity|].
  split; [apply none_held; reflexivity|].
  split. { intros (h & H). cbn in H. repeat (destruct H as [H|H]; [discriminate|]). destruct H. }
  split. { intros [H|(b & H)]; cbn in H; repeat (destruct H as [H|H]; [discriminate|]); destruct H. }
  split; [reflexivity|]. split; [reflexivity|]. split. { intros H; cbn in H; repeat (destruct H as [H|H]; [discriminate|]); destruct H. }
  split; [reflexivity|]. split; [reflexivity|].
  intros l Hl. destruct l as [h|h|h l|l| |h|i|i]; try discriminate Hl; try reflexivity.
  - cbn in Hl. destruct l; try discriminate Hl; try reflexivity; try (match goal with x : nat |- _ => destruct x as [|[|x]]; reflexivity end); match goal with x : bool |- _ => destruct x; reflexivity end.
  - destruct i as [|[|i]]; reflexivity.
Qed.

(** [wait_closed] returns when another handle closes the client. *)
Example C80_wait_ex :
  exists s cl es,
    hc_run [HClone _ 0; HWait _ 0] hc_new = Some (s, cl, es) /\ hc_step (HWaitDone _ 0) s = None /\
    exists s' cl' es', hc_run [HClone _ 0; HWait _ 0; HCall _ 1 LClose; HWaitDone _ 0] hc_new = Some (s', cl', es') /\ is_closed (h_below _ s') = true /\ held (h_handles _ s').
Proof. do 3 eexists. split; [reflexivity|]. split; [reflexivity|]. do 3 eexists. split; [reflexivity|]. split; [reflexivity|]. exists 0. reflexivity. Qed.

(** Closing a client is not letting go of it: a publication that was accepted is not sent
    if [close] is called before the out worker got to it (as its documentation says,
    mod.rs:762-766). *)
Example C80_close_does_not_flush_ex :
  exists ls s cl es,
    hc_run ls hc_new = Some (s, cl, es) /\ ~ transport_failed cl /\ is_closed (h_below _ s) = true /\
    (forall l, h_own_step own_alone l = true -> hc_step l s = None) /\
    accepted cl es = [inr 0] /\ wire es = [].
Proof.
  exists [HCall _ 0 h_pub; HGo _ (LPubSend 0); HCall _ 0 LClose; HGo _ (LOutEnd false); HGo _ LInEnd].
  do 3 eexists. split; [reflexivity|].
  split. { intros [H|(b & H)]; cbn in H; repeat (destruct H as [H|H]; [discriminate|]); destruct H. }
  split; [reflexivity|]. split; [|split; reflexivity].
  intros l Hl. destruct l as [h|h|h l|l| |h|i|i]; try discriminate Hl; try reflexivity.
  - cbn in Hl. destruct l; try discriminate Hl; try reflexivity; try (match goal with x : nat |- _ => destruct x as [|[|x]]; reflexivity end); match goal with x : bool |- _ => destruct x; reflexivity end.
  - destruct i as [|i]; reflexivity.
Qed.

(** A subscription is no handle: when the last client is dropped it ends, here after the
    message that was already in it. *)
Example C80_subscription_ends_ex :
  exists ls s cl es,
    hc_run ls hc_new = Some (s, cl, es) /\ ~ user_closed ls /\ ~ transport_failed cl /\ ~ In (LSub (DropX 0)) cl /\
    subscribed cl es (xk 7) 0 /\ map f_body (given cl es 0) = [[77%N]] /\
    exists s', hc_step (HGo _ (LSub (ReceiveX 0))) s = Some (s', [(LSub (ReceiveX 0), [EvSub (OX XEnded)])]).
Proof.
  exists ([HCall _ 0 (LSub (SubscribeExclusive (xk 7) 4)); HGo _ (LRecv (rpc_to_bytes (MkFrame (MkHeader (VKey8 (xk 7)) (Seq1 2)) [77%N])));
          HDrop _ 0; HEnd _; HGo _ LInEnd; HGo _ LPurge; HGo _ (LSub (ReceiveX 0))]).
  do 3 eexists. split; [vm_compute; reflexivity|].
  split. { intros (h & H). cbn in H. repeat (destruct H as [H|H]; [discriminate|]). destruct H. }
  split. { intros [H|(b & H)]; cbn in H; repeat (destruct H as [H|H]; [discriminate|]); destruct H. }
  split. { intros H; cbn in H; repeat (destruct H as [H|H]; [discriminate|]); destruct H. }
  split. { exists 4. left. left. reflexivity. }
  split; [reflexivity|]. eexists. vm_compute. reflexivity.
Qed.

(** *** With the server of ChanSysThm2.v *)
Definition hs_step := h_step (CSys N N N) CLabel s_cstep cs_client CClient chan_call.
Definition hs_run := h_run (CSys N N N) CLabel s_cstep cs_client CClient chan_call.
Definition hs_new := h_new (CSys N N N) c_new.
Lemma h_rest (s : HState (CSys N N N)) :
  (forall l, c_own_step l = true -> s_cstep l (h_below _ s) = None) -> c_out_alive (cs_client (h_below _ s)) = false ->
  Forall (fun w => w = None) (hs_waits (h_handles _ s)) -> forall l, h_own_step c_own_step l = true -> hs_step l s = None.
Proof.
  intros H1 H2 H3 l Hl. destruct l as [h|h|h l|l| |h|i|i]; try discriminate Hl; unfold hs_step, h_step.
  - rewrite (H1 l Hl). destruct (chan_call l); reflexivity.
  - unfold h_client. rewrite H2, andb_false_r. destruct (c_sending _); [reflexivity|]. destruct (c_out _); reflexivity.
  - destruct (nth_error (hs_waits (h_handles _ s)) i) as [[w|]|] eqn:E; auto. apply nth_error_In in E. rewrite Forall_forall in H3. specialize (H3 _ E). discriminate.
Qed.

(** Two publications; both handles are dropped as soon as the second is accepted.  The
    channel has room for one frame: the server still handles both, and [run] returns. *)
Definition h_pub2 : Label := LPublish (MkFrame (MkHeader (VKey8 (xk 20)) (Seq1 3)) [8%N]).
Definition h_forget : list (HLabel CLabel) :=
  [HClone _ 0; HCall _ 0 h_pub; HCall _ 1 h_pub2; HGo _ (CClient (LPubSend 0)); HDrop _ 0; HGo _ (CClient (LPubSend 1)); HDrop _ 1] ++
  map (HGo _) [CClient LOutPop; COut; CClient LOutPop; CSend false (Some 0); CServe false; COut] ++ [HEnd _] ++
  map (HGo _) [CClient LInEnd; CSend false None; CServe false; CSend false None; CServe false; CSend false (Some 0)].
Example C80_channels_ex :
  config_ok x_eps x_tin x_tout x_ea x_ta /\ define_dispatch N N x_eps x_tin x_tout x_ea x_ta = Done x_disp /\
  device_ok x_std x_eps x_tout x_ea /\ handlers_ok x_std x_tout x_ea x_ta s_task s_bg /\
  klen (d_kind _ _ x_disp) <= klen KK1 /\ 0 < cfg_depth s_cfg /\
  exists s cl es, hs_run h_forget hs_new = Some (s, cl, es) /\
    (forall l, h_own_step c_own_step l = true -> hs_step l s = None) /\ ~ held (h_handles _ s) /\
    cs_stopped _ _ _ (h_below _ s) = false /\ cs_dropped _ _ _ (h_below _ s) = false /\ ~ user_closed h_forget /\
    Forall (label_ok x_eps x_tin) cl /\ all_spawned (cs_trace (h_below _ s)) /\
    issued 0 cl = [] /\ (forall f, In f (published cl) -> exists a, In a x_ta /\ hdr_key (f_hdr f) = VKey8 (ta_key _ _ a)) /\
    accepted cl es = [inr 0; inr 1] /\ has_handler x_std x_ea x_ta cl (inr 0) /\ has_handler x_std x_ea x_ta cl (inr 1) /\
    map (fun i => (fst (fst i), snd i)) (invocations (cs_trace (h_below _ s))) = [(9, 9%N); (9, 8%N)].
Proof.
  destruct x_config as (C & _ & E). destruct s_device as (D1 & _). pose proof s_handlers_bg as D2.
  split; [exact C|]. split; [exact E|]. split; [exact D1|]. split; [exact D2|]. split; [cbn; lia|]. split; [cbn; lia|].
  destruct (hs_run h_forget hs_new) as [[[s cl] es]|] eqn:R; [|vm_compute in R; discriminate].
  exists s, cl, es. split; [reflexivity|]. vm_compute in R. injection R as <- <- <-.
  split. { apply h_rest; [c_rest_tac|reflexivity|constructor]. }
  split; [apply none_held; reflexivity|]. split; [reflexivity|]. split; [reflexivity|].
  split. { intros (h & H). cbn in H. repeat (destruct H as [H|H]; [discriminate|]). destruct H. }
  split; [labels|]. split; [spawned_tac|]. split; [reflexivity|].
  split. { intros f [<-|[<-|[]]]; exists x_tparm; split; try (left; reflexivity); reflexivity. }
  split; [reflexivity|]. split; [handled_tac|]. split; [handled_tac|]. reflexivity.
Qed.

(** With requests among the calls the same is false.  A request is made, and its caller
    gives up; a publication follows, and the client is dropped.  Everything is sent, and
    nothing is wrong with the connection; but the answer to the request can no longer
    be delivered, which makes [Server::run] return, and the publication, which had arrived,
    is never looked at. *)
Definition h_lose : list (HLabel CLabel) :=
  [HCall _ 0 (LRequest (xk 10) (xk 11) [5%N])] ++ map (HGo _) (c_prepare 0) ++ [HGo _ (CClient (LCancel 0)); HCall _ 0 h_pub; HGo _ (CClient (LPubSend 0)); HDrop _ 0] ++
  map (HGo _) [CClient LOutPop; COut; CClient LOutPop; CServe false; COut] ++ [HEnd _] ++
  map (HGo _) [CClient LInEnd; CSend false None; CSend false None; CSend false (Some 0); CSend false (Some 0)].
Lemma h_lose_facts s cl es : hs_run h_lose hs_new = Some (s, cl, es) -> ~ transport_failed cl /\ is_closed (cs_client (h_below _ s)) = true.
Proof.
  intros R. vm_compute in R. injection R as <- <- _. split; [|reflexivity].
  intros [H|(b & H)]; cbn in H; repeat (destruct H as [H|H]; [discriminate|]); destruct H.
Qed.
Lemma h_sent ls s cl es : hs_run ls hs_new = Some (s, cl, es) -> ~ user_closed ls -> ~ transport_failed cl -> is_closed (cs_client (h_below _ s)) = true -> everything_sent cl es.
Proof.
  exact (fun R U T C => proj1 (proj2 (proj2 (C80_open_while_held s_cfg s_cstep cs_client CClient chan_call
    (chan_contains x_std (fun _ _ => true) KK1 (fun c => (c, c)) x_disp s_enc s_task s_cfg 1 1 20) c_new eq_refl ls s cl es R U T C)))).
Qed.
Lemma h_lose_sent s cl es : hs_run h_lose hs_new = Some (s, cl, es) -> everything_sent cl es.
Proof.
  intros R. destruct (h_lose_facts _ _ _ R) as [F1 F2]. refine (h_sent _ _ _ _ R _ F1 F2).
  intros (h & H). cbn in H. repeat (destruct H as [H|H]; [discriminate|]). destruct H.
Qed.
Theorem C80_dropping_loses_calls_refuted :
  exists ls s cl es, hs_run ls hs_new = Some (s, cl, es) /\
    (forall l, h_own_step c_own_step l = true -> hs_step l s = None) /\ ~ held (h_handles _ s) /\
    cs_stopped _ _ _ (h_below _ s) = false /\ cs_dropped _ _ _ (h_below _ s) = false /\ ~ user_closed ls /\
    Forall (label_ok x_eps x_tin) cl /\ all_spawned (cs_trace (h_below _ s)) /\ run_returned (h_below _ s) /\
    everything_sent cl es /\ In (inr 0) (accepted cl es) /\ has_handler x_std x_ea x_ta cl (inr 0) /\
    (forall b, call_frame cl (inr 0) b -> length b <= 20) /\
    map (fun i => (fst (fst i), snd i)) (invocations (cs_trace (h_below _ s))) = [(7, 5%N)].
Proof.
  destruct (hs_run h_lose hs_new) as [[[s cl] es]|] eqn:R; [|vm_compute in R; discriminate].
  exists h_lose, s, cl, es. split; [exact R|].
  assert (Sent : everything_sent cl es) by exact (h_lose_sent _ _ _ R).
  vm_compute in R. injection R as <- <- <-.
  split. { apply h_rest; [c_rest_tac|reflexivity|constructor]. }
  split; [apply none_held; reflexivity|]. split; [reflexivity|]. split; [reflexivity|].
  split. { intros (h & H). cbn in H. repeat (destruct H as [H|H]; [discriminate|]). destruct H. }
  split; [labels|]. split; [spawned_tac|]. split; [split; [reflexivity|right; reflexivity]|].
  split; [exact Sent|]. split; [cbn; auto|]. split; [handled_tac|]. split; [|reflexivity].
  intros b (f & kk & -> & Hf). cbn in Hf. injection Hf as <-. destruct kk; vm_compute; lia.
Qed.

Print Assumptions C80_dropping_loses_calls_refuted.
