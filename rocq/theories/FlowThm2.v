(** A concrete history for the theorems of FlowThm.v. *)
From Coq Require Import NArith ZArith List Bool Arith Lia.
From Verif Require Import KeyModel HeaderModel KeySpec HeaderSpec MinKeyModel MinKeySpec SchemaModel MacroModel PostcardModel
  DispatchModel DispatchSpec DispatchThm SubModel ClientModel ClientSpec ClientThm4 SystemModel SystemSpec SystemProof SystemThm SystemThm2
  CodecModel CodecSpec CodecProof CodecStdModel CodecStdProof CodecThm TypedSpec TypedThm TypedThm2 UsbSpec FlowSpec FlowThm.
Import ListNotations.

(** The device of TypedThm2.v republishes what it is sent on topic 20 on topic 7.  The
    client subscribes to topic 7 in both ways, makes a request and publishes four
    messages, of which one is lost on the way to the device; on the way back one message
    is lost and one cut short. *)
Definition w_pub (n : N) : Label := LPublish (MkFrame (MkHeader (VKey8 (xk 20)) (Seq1 n)) (ser (VUInt W32 (100 * n)))).
Definition w_history : list SysLabel :=
  map SClient ([LSub (SubscribeExclusive (xk 7) 4); LSub (SubscribeMulti (xk 7) 4);
    LRequest (xk 10) (xk 11) (ser z_v0); w_pub 1; w_pub 2; w_pub 3; w_pub 4] ++
    [LPubSend 0; LOutPop; LOutSent] ++ y_out 0 ++ [LPubSend 1; LPubSend 2; LOutPop; LOutSent; LOutPop; LOutSent; LPubSend 3; LOutPop; LOutSent]) ++
  [SServe 0; SServe 0; SLoseUp 0; SServe 0; SServe 0; SLoseDown 2; SCutDown 2 4;
   SRecv 0; SRecv 0; SClient (LWake (Some 0)); SClient (LTakeOk 0); SRecv 0; STask 0; SRecv 0;
   SClient (LSub (ReceiveX 0)); SClient (LSub (ReceiveX 0)); SClient (LSub (ReceiveX 0));
   SClient (LSub (ReceiveM 0)); SClient (LSub (ReceiveM 0)); SClient (LSub (ReceiveM 0))].
(** Besides, a background task publishes 55 on topic 7. *)
Definition w_bg : list (HProg value unit) := [HSend (xk 7) (Seq1 9) (PVal (VUInt W32 55)) (fun _ => HRet tt)].
Definition w_new : Sys value N N := sys_new value N N w_bg 3%N.
Lemma w_handlers : handlers_ok x_std x_tout z_ea z_ta z_task w_bg.
Proof.
  destruct z_device as (_ & H1 & H2 & H3 & H4 & _). do 4 (split; [assumption|]).
  intros p key seq pl [<-|[]] M. inversion M; subst; [split; [cbn; auto|cbn; lia]|].
  match goal with H : may_send (HRet _) _ _ _ |- _ => inversion H end.
Qed.

(** All hypotheses of C67 and C68 hold of it: four handler runs are due to calls 0 (a
    publication), 0 (the request), 2 and 3, and both subscriptions are given the first
    message whole, the last cut short and that of the background task. *)
Example C67_C68_ex :
  config_ok x_eps x_tin x_tout z_ea z_ta /\ define_dispatch value N x_eps x_tin x_tout z_ea z_ta = Done z_disp /\
  device_ok x_std x_eps x_tout z_ea /\ handlers_ok x_std x_tout z_ea z_ta z_task w_bg /\
  klen (d_kind _ _ z_disp) <= klen KK1 /\ up_in_order w_history /\ down_in_order w_history /\
  exists s cl es, z_run w_history w_new = Some (s, cl, es) /\
    Forall (label_ok x_eps x_tin) cl /\
    map (fun i => snd i) (invocations (y_trace _ _ _ s)) = [VUInt W32 100; z_v0; VUInt W32 300; VUInt W32 400]%N /\
    accepted cl es = [inr 0; inl 0; inr 1; inr 2; inr 3] /\
    subscribed cl es (xk 7) 0 /\ subscribed_multi cl es (xk 7) 0 /\
    map f_body (given cl es 0) = [[100]; [144]; [55]]%N /\ map f_body (given_multi cl es 0) = [[100]; [144]; [55]]%N /\
    sent_on (y_trace _ _ _ s) (xk 7) = [PVal (VUInt W32 100); PVal (VUInt W32 300); PVal (VUInt W32 400); PVal (VUInt W32 55)]%N.
Proof.
  destruct z_conf as (C & E). destruct z_device as (D1 & _). pose proof w_handlers as D2.
  split; [exact C|]. split; [exact E|]. split; [exact D1|]. split; [exact D2|]. split; [cbn; lia|].
  split. { intros i Hi. vm_compute in Hi. repeat (destruct Hi as [Hi|Hi]; [try discriminate; injection Hi as <-; reflexivity|]). destruct Hi. }
  split. { intros i Hi. vm_compute in Hi. repeat (destruct Hi as [Hi|Hi]; [try discriminate; injection Hi as <-; reflexivity|]). destruct Hi. }
  destruct (z_run w_history w_new) as [[[s cl] es]|] eqn:R; [|vm_compute in R; discriminate].
  exists s, cl, es. split; [reflexivity|].
  vm_compute in R. injection R as <- <- <-. split.
  { repeat (apply Forall_cons; [cbn; auto|]); try apply Forall_nil; try (exists (xk 20); split; [cbn; auto|]; split; [reflexivity|]; cbn; lia).
    exists [117%N]. cbn. auto. }
  split; [reflexivity|]. split; [reflexivity|].
  split; [exists 4; left; cbn; auto|]. split; [exists 4; cbn; auto|].
  repeat split; reflexivity.
Qed.
