(** Concrete histories for the theorems of MissThm.v. *)
From Coq Require Import NArith List Bool Arith Lia Permutation.
From Verif Require Import KeyModel HeaderModel KeySpec HeaderSpec MinKeyModel MinKeySpec
  SchemaModel MacroModel PostcardModel DispatchModel DispatchSpec DispatchThm SubModel SubSpec ClientModel ClientSpec ClientThm4.
From Verif Require Import DispatchModel DispatchSpec SystemModel SystemSpec SystemProof SystemThm SystemThm2 FlowSpec LiveSpec LiveProof LiveThm LiveThm2
  AsyncModel AsyncSpec AsyncProof AsyncThm AsyncThm2 MissSpec MissThm.
Import ListNotations.

Ltac in_all := intros; repeat match goal with H : In _ (_ :: _) |- _ => destruct H as [<-|H] | H : In _ [] |- _ => destruct H end.

(** The device of SystemThm2.v: a background task publishes 77 and 78, and the handler of
    the publication 9.  77 is transmitted before the client subscribes, with room for one
    message; 78 has to wait for the user to take 77. *)
Definition w_before : list ALabel :=
  map ASystem (map SClient [LPublish (MkFrame (MkHeader (VKey8 (xk 20)) (Seq1 2)) [9%N]); LPubSend 0; LOutPop; LOutSent] ++ [STask 0]).
Definition w_after : list ALabel :=
  map ASystem [SRecv 0; STask 0; SRecv 0; SClient (LSub (ReceiveX 0)); SClient (LUnblock RoomFound); SServe 0] ++ [AResume] ++
  map ASystem [SClient (LSub (ReceiveX 0)); SRecv 0; SClient (LSub (ReceiveX 0)); SClient (LSub (ReceiveX 0))].

Example C75_ex :
  config_ok x_eps x_tin x_tout x_ea x_ta /\ define_dispatch N N x_eps x_tin x_tout x_ea x_ta = Done x_disp /\
  device_ok x_std x_eps x_tout x_ea /\ handlers_ok x_std x_tout x_ea x_ta s_task s_bg /\ klen (d_kind _ _ x_disp) <= klen KK1 /\
  keeps_down (system_labels w_after) /\ down_in_order (system_labels w_after) /\
  exists a1 a2 a cl1 cl2 es1 es2,
    s_arun w_before a_start = Some (a1, cl1, es1) /\
    s_arun [ASystem (SClient (LSub (SubscribeExclusive (xk 7) 1)))] a1 =
      Some (a2, [LSub (SubscribeExclusive (xk 7) 1)], [[EvSub (ORes (Subscribed 0))]]) /\
    s_arun w_after a2 = Some (a, cl2, es2) /\
    Forall (label_ok x_eps x_tin) cl1 /\ Forall (label_ok x_eps x_tin) cl2 /\ still_receiving (cl1 ++ cl2) /\
    kept cl2 (xk 7) 0 /\ only_topic KK1 (xk 7) (cl1 ++ LSub (SubscribeExclusive (xk 7) 1) :: cl2) /\
    patient cl2 s_cfg /\ found_empty cl2 es2 0 /\
    (forall l, a_own_step l = true ->
       a_step N N N x_std x_net (fun _ _ => true) KK1 (fun c => (c, c)) x_disp s_enc s_task s_cfg l a = None) /\
    map f_body (on_the_way (xk 7) (y_down _ _ _ (a_sys _ _ _ a1))) = [[77%N]] /\
    map f_body (given cl2 es2 0) = [[77%N]; [78%N]; [9%N]].
Proof.
  destruct x_config as (C & _ & E). destruct s_device as (D1 & _). pose proof s_handlers_bg as D2.
  split; [exact C|]. split; [exact E|]. split; [exact D1|]. split; [exact D2|]. split; [cbn; lia|].
  split. { intros l Hl. vm_compute in Hl. repeat (destruct Hl as [<-|Hl]; [exact Logic.I|]). destruct Hl. }
  split. { intros i Hi. vm_compute in Hi. repeat (destruct Hi as [Hi|Hi]; [try discriminate; injection Hi as <-; reflexivity|]). destruct Hi. }
  destruct (s_arun w_before a_start) as [[[a1 cl1] es1]|] eqn:R; [|vm_compute in R; discriminate].
  vm_compute in R. injection R as <- <- <-. do 2 eexists. 
  do 5 eexists. split; [reflexivity|]. split; [vm_compute; reflexivity|]. split; [vm_compute; reflexivity|].
  split. { repeat (apply Forall_cons; [cbn; auto|]); try apply Forall_nil. exists (xk 20). split; [cbn; auto|]. split; [reflexivity|]. lia. }
  split. { repeat (apply Forall_cons; [cbn; auto|]); apply Forall_nil. }
  split. { split; intros H; cbn in H; intuition discriminate. }
  split. { split; [|intros dd]; intros H; cbn in H; intuition discriminate. }
  split. { intros k' H _. cbn in H. destruct H as [<-|[]]. reflexivity. }
  split. { split; [reflexivity|]. intros H; cbn in H; intuition discriminate. }
  split. { eexists (_ :: _ :: _ :: _ :: _ :: _ :: _ :: []), (_ :: _ :: _ :: _ :: _ :: _ :: _ :: []). split; reflexivity. }
  split; [apply a_nothing_to_do; [reflexivity|at_rest_tac]|]. split; vm_compute; reflexivity.
Qed.

(** The same with a subscription of the other kind, for which the user keeps up. *)
Definition w_after_multi : list ALabel :=
  map ASystem [SRecv 0; SClient (LSub (ReceiveM 0)); STask 0; SRecv 0; SClient (LSub (ReceiveM 0)); SServe 0] ++ [AResume] ++
  map ASystem [SRecv 0; SClient (LSub (ReceiveM 0)); SClient (LSub (ReceiveM 0))].
Example C75_multi_ex :
  keeps_down (system_labels w_after_multi) /\ down_in_order (system_labels w_after_multi) /\
  exists a1 a2 a cl1 cl2 es1 es2,
    s_arun w_before a_start = Some (a1, cl1, es1) /\
    s_arun [ASystem (SClient (LSub (SubscribeMulti (xk 7) 1)))] a1 =
      Some (a2, [LSub (SubscribeMulti (xk 7) 1)], [[EvSub (ORes (Subscribed 0))]]) /\
    s_arun w_after_multi a2 = Some (a, cl2, es2) /\
    Forall (label_ok x_eps x_tin) cl1 /\ Forall (label_ok x_eps x_tin) cl2 /\ still_receiving (cl1 ++ cl2) /\
    kept_multi cl2 0 /\ only_topic KK1 (xk 7) (cl1 ++ LSub (SubscribeMulti (xk 7) 1) :: cl2) /\
    (forall d', ~ In (LSub (SubscribeMulti (xk 7) d')) cl1) /\ keeps_up_multi cl2 es2 (xk 7) 0 1 /\ found_empty_multi cl2 es2 0 /\
    (forall l, a_own_step l = true ->
       a_step N N N x_std x_net (fun _ _ => true) KK1 (fun c => (c, c)) x_disp s_enc s_task s_cfg l a = None) /\
    map f_body (given_multi cl2 es2 0) = [[77%N]; [78%N]; [9%N]].
Proof.
  split. { intros l Hl. vm_compute in Hl. repeat (destruct Hl as [<-|Hl]; [exact Logic.I|]). destruct Hl. }
  split. { intros i Hi. vm_compute in Hi. repeat (destruct Hi as [Hi|Hi]; [try discriminate; injection Hi as <-; reflexivity|]). destruct Hi. }
  destruct (s_arun w_before a_start) as [[[a1 cl1] es1]|] eqn:R; [|vm_compute in R; discriminate].
  vm_compute in R. injection R as <- <- <-.
  do 7 eexists. split; [reflexivity|]. split; [vm_compute; reflexivity|]. split; [vm_compute; reflexivity|].
  split. { repeat (apply Forall_cons; [cbn; auto|]); try apply Forall_nil. exists (xk 20). split; [cbn; auto|]. split; [reflexivity|]. lia. }
  split. { repeat (apply Forall_cons; [cbn; auto|]); apply Forall_nil. }
  split. { split; intros H; cbn in H; intuition discriminate. }
  split. { intros H; cbn in H; intuition discriminate. }
  split. { intros k' H _. cbn in H. destruct H as [<-|[]]. reflexivity. }
  split. { intros dd H; cbn in H; intuition discriminate. }
  split. { intros n. do 12 (destruct n as [|n]; [vm_compute; lia|]). vm_compute. lia. }
  split. { eexists (_ :: _ :: _ :: _ :: _ :: _ :: []), (_ :: _ :: _ :: _ :: _ :: _ :: []). split; reflexivity. }
  split; [apply a_nothing_to_do; [reflexivity|at_rest_tac]|]. vm_compute; reflexivity.
Qed.

(** Without the condition on the user a message can be missed for good: here the user
    takes 77 only after the time to wait for room is up, and 78 is gone. *)
Definition w_impatient : list ALabel :=
  map ASystem [SRecv 0; STask 0; SRecv 0; SClient (LUnblock TimeUp); SClient (LSub (ReceiveX 0)); SClient (LSub (ReceiveX 0))].
Theorem C75_impatient_misses :
  exists a1 a2 a cl1 cl2 es1 es2 new,
    s_arun w_before a_start = Some (a1, cl1, es1) /\
    s_arun [ASystem (SClient (LSub (SubscribeExclusive (xk 7) 1)))] a1 =
      Some (a2, [LSub (SubscribeExclusive (xk 7) 1)], [[EvSub (ORes (Subscribed 0))]]) /\
    s_arun w_impatient a2 = Some (a, cl2, es2) /\
    keeps_down (system_labels w_impatient) /\ down_in_order (system_labels w_impatient) /\ still_receiving (cl1 ++ cl2) /\
    kept cl2 (xk 7) 0 /\ only_topic KK1 (xk 7) (cl1 ++ LSub (SubscribeExclusive (xk 7) 1) :: cl2) /\ found_empty cl2 es2 0 /\
    y_trace _ _ _ (a_sys _ _ _ a) = y_trace _ _ _ (a_sys _ _ _ a1) ++ new /\
    map f_body (on_the_way (xk 7) (y_down _ _ _ (a_sys _ _ _ a1)) ++ messages s_enc new (xk 7)) = [[77%N]; [78%N]] /\
    map f_body (given cl2 es2 0) = [[77%N]] /\ y_down _ _ _ (a_sys _ _ _ a) = [].
Proof.
  destruct (s_arun w_before a_start) as [[[a1 cl1] es1]|] eqn:R; [|vm_compute in R; discriminate].
  vm_compute in R. injection R as <- <- <-.
  do 8 eexists. split; [reflexivity|]. split; [vm_compute; reflexivity|]. split; [vm_compute; reflexivity|].
  split. { intros l Hl. vm_compute in Hl. repeat (destruct Hl as [<-|Hl]; [exact Logic.I|]). destruct Hl. }
  split. { intros i Hi. vm_compute in Hi. repeat (destruct Hi as [Hi|Hi]; [try discriminate; injection Hi as <-; reflexivity|]). destruct Hi. }
  split. { split; intros H; cbn in H; intuition discriminate. }
  split. { split; [|intros dd]; intros H; cbn in H; intuition discriminate. }
  split. { intros k' H _. cbn in H. destruct H as [<-|[]]. reflexivity. }
  split. { eexists (_ :: _ :: _ :: _ :: []), (_ :: _ :: _ :: _ :: []). split; reflexivity. }
  split. { cbn [a_sys y_trace app]. reflexivity. }
  split; [vm_compute; reflexivity|]. split; vm_compute; reflexivity.
Qed.
Print Assumptions C75_impatient_misses.

(** And a user of the other kind of subscription that falls behind is told that it missed
    a message. *)
Definition w_behind : list ALabel :=
  map ASystem [SRecv 0; STask 0; SRecv 0; SClient (LSub (ReceiveM 0)); SClient (LSub (ReceiveM 0)); SClient (LSub (ReceiveM 0))].
Theorem C75_behind_misses :
  exists a1 a2 a cl1 cl2 es1 es2 new,
    s_arun w_before a_start = Some (a1, cl1, es1) /\
    s_arun [ASystem (SClient (LSub (SubscribeMulti (xk 7) 1)))] a1 =
      Some (a2, [LSub (SubscribeMulti (xk 7) 1)], [[EvSub (ORes (Subscribed 0))]]) /\
    s_arun w_behind a2 = Some (a, cl2, es2) /\
    keeps_down (system_labels w_behind) /\ down_in_order (system_labels w_behind) /\ still_receiving (cl1 ++ cl2) /\
    kept_multi cl2 0 /\ only_topic KK1 (xk 7) (cl1 ++ LSub (SubscribeMulti (xk 7) 1) :: cl2) /\ found_empty_multi cl2 es2 0 /\
    y_trace _ _ _ (a_sys _ _ _ a) = y_trace _ _ _ (a_sys _ _ _ a1) ++ new /\
    map f_body (on_the_way (xk 7) (y_down _ _ _ (a_sys _ _ _ a1)) ++ messages s_enc new (xk 7)) = [[77%N]; [78%N]] /\
    map f_body (given_multi cl2 es2 0) = [[78%N]] /\ y_down _ _ _ (a_sys _ _ _ a) = [] /\
    In (LSub (ReceiveM 0), [EvSub (OM (MLagged 1))]) (combine cl2 es2).
Proof.
  destruct (s_arun w_before a_start) as [[[a1 cl1] es1]|] eqn:R; [|vm_compute in R; discriminate].
  vm_compute in R. injection R as <- <- <-.
  do 8 eexists. split; [reflexivity|]. split; [vm_compute; reflexivity|]. split; [vm_compute; reflexivity|].
  split. { intros l Hl. vm_compute in Hl. repeat (destruct Hl as [<-|Hl]; [exact Logic.I|]). destruct Hl. }
  split. { intros i Hi. vm_compute in Hi. repeat (destruct Hi as [Hi|Hi]; [try discriminate; injection Hi as <-; reflexivity|]). destruct Hi. }
  split. { split; intros H; cbn in H; intuition discriminate. }
  split. { intros H; cbn in H; intuition discriminate. }
  split. { intros k' H _. cbn in H. destruct H as [<-|[]]. reflexivity. }
  split. { eexists (_ :: _ :: _ :: _ :: []), (_ :: _ :: _ :: _ :: []). split; reflexivity. }
  split. { cbn [a_sys y_trace app]. reflexivity. }
  split; [vm_compute; reflexivity|]. split; [vm_compute; reflexivity|]. split; [vm_compute; reflexivity|]. cbn. tauto.
Qed.
Print Assumptions C75_behind_misses.
