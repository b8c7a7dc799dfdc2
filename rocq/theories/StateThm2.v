(** A concrete history for C90. *)
From Coq Require Import NArith List Bool Arith Lia.
From Verif Require Import KeyModel HeaderModel KeySpec HeaderSpec MinKeyModel MinKeySpec
  SchemaModel MacroModel PostcardModel DispatchModel DispatchSpec DispatchThm SubModel SubSpec ClientModel ClientSpec ClientThm4
  UsbModel UsbSpec NusbRxModel LogModel.
From Verif Require Import DispatchModel DispatchSpec SystemModel SystemSpec SystemProof SystemThm SystemThm2 AsyncModel AsyncSpec
  UsbSysModel UsbSysSpec UsbSysThm UsbSysThm2 StateSpec StateProof StateThm.
Import ListNotations.

(** The device of DispatchThm.v over USB: its endpoint adds the number kept in the context
    to its argument and increments that number; its topic adds to it.  The client calls
    with 5, waits for the reply, tells 10, and calls with 6 and with 7. *)
Definition g_history : list ULabel :=
  map UClient (LRequest (xk 10) (xk 11) [5%N] :: y_out 0) ++
  [UServe; UResume; UIn; URecv []; UClient (LWake (Some 0)); UClient (LTakeOk 0)] ++
  map UClient ([LPublish (MkFrame (MkHeader (VKey8 (xk 20)) (Seq1 2)) [10%N]); LPubSend 0; LOutPop; LOutSent] ++
               LRequest (xk 10) (xk 11) [6%N] :: y_out 1 ++ LRequest (xk 10) (xk 11) [7%N] :: y_out 2) ++
  [UServe; UServe; UResume; UServe; UServe; UResume; UServe; UServe; UResume;
   UIn; UIn; UIn; URecv []; UClient (LWake None); URecv []; UClient (LWake (Some 0)); UClient (LTakeOk 1);
   URecv []; UClient (LWake (Some 0)); UClient (LTakeOk 2)].

Example C90_ex :
  usb_sizes None 256 128 /\ dispatcher_for x_eps x_tin x_tout x_ea x_ta x_disp /\
  device_ok x_std x_eps x_tout x_ea /\ handlers_ok x_std x_tout x_ea x_ta s_task [] /\
  klen (d_kind _ _ x_disp) <= klen KK1 /\ errors_between_messages g_history /\
  ~ In (compact (klen KK1) (k8_bytes (error_key x_std)))
       (map (fun k => compact (klen KK1) (k8_bytes k)) (map ep_resp (em_endpoints x_eps))) /\
  exists u cl es, uu_run g_history uu_new = Some (u, cl, es) /\
    Forall (label_ok x_eps x_tin) cl /\ (N.of_nat (typed cl) <= 2 ^ 32)%N /\
    results es = [(0, GotReply (y_frame 11 0 [5%N])); (1, GotReply (y_frame 11 1 [17%N])); (2, GotReply (y_frame 11 2 [19%N]))] /\
    u_ctx _ _ _ u = 13%N /\ u_cur _ _ _ u = None /\
    accepted cl es = [inl 0; inr 0; inl 1; inl 2] /\
    returned_before cl es 0 1 /\ returned_before cl es 0 2 /\ ~ returned_before cl es 1 2.
Proof.
  destruct x_config as (C & _ & E). destruct s_device as (D1 & D2).
  split. { repeat split; auto; cbn; lia. }
  split; [exact (C09_made_for _ _ _ _ _ _ _ _ C E)|]. split; [exact D1|]. split; [exact D2|]. split; [cbn; lia|].
  split. { intros e Hl. vm_compute in Hl; repeat (destruct Hl as [Hl|Hl]; [discriminate Hl|]); destruct Hl. }
  split; [vm_compute; intuition discriminate|].
  destruct (uu_run g_history uu_new) as [[[u cl] es]|] eqn:R; [|vm_compute in R; discriminate].
  exists u, cl, es. split; [reflexivity|].
  vm_compute in R. injection R as <- <- <-. split.
  { repeat (apply Forall_cons; [cbn; auto|]); try apply Forall_nil.
    - exists [117%N]. cbn. auto.
    - exists (xk 20). split; [cbn; auto|]. split; [reflexivity|]. lia.
    - exists [117%N]. cbn. auto.
    - exists [117%N]. cbn. auto. }
  split; [vm_compute; discriminate|]. split; [reflexivity|]. split; [reflexivity|]. split; [reflexivity|]. split; [reflexivity|].
  split; [|split].
  - exists 11, (y_frame 11 0 [5%N]). split; [vm_compute; auto|vm_compute; lia].
  - exists 11, (y_frame 11 0 [5%N]). split; [vm_compute; auto|vm_compute; lia].
  - intros (n & f & Hr & Hi). revert Hr Hi.
    do 40 (destruct n as [|n]; [cbn; intuition (try discriminate; lia)|]). cbn. intros _ H. lia.
Qed.
