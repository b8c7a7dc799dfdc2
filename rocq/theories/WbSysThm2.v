(** A concrete history of the workbook example for C91. *)
From Coq Require Import NArith ZArith List Bool Arith Lia.
From Verif Require Import KeyModel HeaderModel KeySpec HeaderSpec MinKeyModel MinKeySpec SchemaModel MacroModel PostcardModel
  DispatchModel DispatchSpec DispatchThm SubModel ClientModel ClientSpec ClientThm4 UsbModel UsbSpec NusbRxModel LogModel.
From Verif Require Import DispatchModel DispatchSpec DispatchThm SystemModel SystemSpec SystemThm2 AsyncModel AsyncSpec
  UsbSysModel UsbSysSpec UsbSysThm2 WebUsbModel WebSysModel WebSysSpec
  CodecModel CodecSpec CodecStdModel TypedSpec StateSpec OmitThm OmitThm2
  WorkbookModel WorkbookSpec WbSysModel WbSysSpec WbSysThm.
Import ListNotations.
Local Open Scope N_scope.

(** Keys that tell the paths apart. *)
Definition wx_path (t : NamedType) (p : str) : Key8 := xk (fold_left (fun a c => (a * 7 + c) mod 241) p 0).
Definition wx_busy (h : VarHeader) : bool := match hdr_seq h with Seq4 6 => true | _ => false end.
Definition wx_readings (h : VarHeader) : list Acceleration := [MkAcc 1 (-2) 3; MkAcc 4 5 (-6)].
Definition wx_disp : Dispatcher value Wb :=
  match define_dispatch value Wb (wb_eps wx_path) (wb_tin wx_path) (wb_tout wx_path x_std) (wb_arms wx_path wx_busy) [] with
  | Done d => d | Panicked => MkDispatcher value Wb KK8 [] [] (MkMap [] [] [] [] KK8) end.
Definition wx_calls : list WbCall :=
  [SetAllRgbSingle 1 2 3; SetRgbSingle 3 10 20 30; SetRgbSingle 24 9 9 9; Ping 77; GetId; StartAccelerometer 250 G8; StopAccelerometer].
Definition wx_run := u_run value Wb unit x_std (fun _ _ => true) KK1 wb_spawn wx_disp payload_bytes (wb_task wx_path wx_readings) s_cfg
  1024 1024 true (Some 64)%nat (fun _ => []).
Definition wx_call (r : nat) : list ULabel := map UClient (wb_request wx_path x_std (nth r wx_calls GetId) :: y_out r) ++ [UServe].
Definition wx_get (r : nat) : list ULabel := [UIn; URecv []; UClient (LWake (Some 0%nat)); UClient (LTakeOk r)].
Definition wx_sample : list ULabel := [UTask 0; UIn; URecv []; UClient (LWake None)].
(** The host program: all lights to one colour, one of them to another, one that is not
    there; a ping, the id, and two samples of acceleration. *)
Definition wx_history : list ULabel :=
  flat_map (fun r => wx_call r ++ UResume :: wx_get r) [0; 1; 2; 3; 4]%nat ++
  wx_call 5 ++ UTask 0 :: wx_get 5 ++ wx_sample ++ wx_call 6 ++ UResume :: UTask 0 :: wx_get 6 ++ [UIn; URecv []; UClient (LWake None)].

(** [returned_before], decided. *)
Definition returnedb (cl : list Label) (es : list (list Ev)) (r1 r2 : nat) : bool :=
  existsb (fun n => existsb (fun x => (fst x =? r1)%nat && match snd x with GotReply _ => true | _ => false end) (results (firstn n es)) &&
                    (length (issued 0 (firstn n cl)) <=? r2)%nat) (seq 0 (length es)).
Lemma returned_ok cl es r1 r2 : returnedb cl es r1 r2 = true -> returned_before cl es r1 r2.
Proof.
  intros H. apply existsb_exists in H. destruct H as (n & _ & H). apply andb_true_iff in H as [H1 H2]. apply Nat.leb_le in H2.
  apply existsb_exists in H1. destruct H1 as ([r x] & H1 & H3). apply andb_true_iff in H3 as [H3 H4]. cbn [fst snd] in *. apply Nat.eqb_eq in H3. subst r.
  destruct x as [f| | |]; try discriminate H4. exists n, f. auto.
Qed.

Example C91_ex :
  config_ok (wb_eps wx_path) (wb_tin wx_path) (wb_tout wx_path x_std) (wb_arms wx_path wx_busy) [] /\
  define_dispatch value Wb (wb_eps wx_path) (wb_tin wx_path) (wb_tout wx_path x_std) (wb_arms wx_path wx_busy) [] = Done wx_disp /\
  (klen (d_kind _ _ wx_disp) <= klen KK1)%nat /\
  distinct_at (klen (d_kind _ _ wx_disp)) (ping_req x_std :: schemas_req x_std :: map ep_req (em_endpoints (wb_eps wx_path)) ++ map snd (tm_topics (wb_tin wx_path))) /\
  distinct_at (klen (d_kind _ _ wx_disp)) (ping_resp x_std :: schemas_resp x_std :: map ep_resp (em_endpoints (wb_eps wx_path)) ++ map snd (tm_topics (wb_tout wx_path x_std))) /\
  ~ In (compact (klen KK1) (k8_bytes (error_key x_std)))
    (map (fun k => compact (klen KK1) (k8_bytes k)) (ping_resp x_std :: schemas_resp x_std :: map ep_resp (em_endpoints (wb_eps wx_path)))) /\
  error_key x_std <> td_key wx_path row_data /\ usb_sizes (Some 64)%nat 1024 1024 /\ errors_between_messages wx_history /\ Forall call_ok wx_calls /\
  exists u cl es, wx_run wx_history (usys_new value Wb unit [] (wb_new 99)) = Some (u, cl, es) /\
    (forall f, ~ In (LPublish f) cl) /\ made wx_path x_std cl wx_calls /\ N.of_nat (ClientSpec.typed cl) <= 2 ^ 32 /\
    one_by_one cl es wx_calls /\ u_cur _ _ _ u = None /\
    map (fun x => wb_result (nth (fst x) wx_calls GetId) (snd x)) (results es) =
      [WOk VUnitVal; WOk VUnitVal; WBadPosition; WOk (VUInt W32 77); WOk (VUInt W64 99); WOk VUnitVal; WOk (VBool true)] /\
    leds (lights (u_ctx _ _ _ u)) = repeat (MkRgb 1 2 3) 3 ++ MkRgb 10 20 30 :: repeat (MkRgb 1 2 3) 20.
Proof.
  split. { unfold config_ok, keys_ok. repeat split; vm_compute; repeat constructor. }
  split; [reflexivity|]. split; [vm_compute; lia|].
  split. { apply nodupb_ok. vm_compute. reflexivity. }
  split. { apply nodupb_ok. vm_compute. reflexivity. }
  split; [intros X; not_in X|]. split; [vm_compute; discriminate|]. split; [repeat split; auto; cbn; lia|].
  split. { intros e Hl. vm_compute in Hl; repeat (destruct Hl as [Hl|Hl]; [discriminate Hl|]); destruct Hl. }
  split; [repeat constructor|].
  destruct (wx_run wx_history (usys_new value Wb unit [] (wb_new 99))) as [[[u cl] es]|] eqn:R; [|vm_compute in R; discriminate].
  exists u, cl, es. split; [reflexivity|]. vm_compute in R. injection R as <- <- <-.
  split. { intros f Hl. vm_compute in Hl; repeat (destruct Hl as [Hl|Hl]; [discriminate Hl|]); destruct Hl. }
  split; [vm_compute; reflexivity|]. split; [vm_compute; discriminate|].
  split.
  { split.
    - intros r Hr. apply returned_ok. do 6 (destruct r as [|r]; [vm_compute; reflexivity|]). cbn in Hr. lia.
    - intros r c Hr.
      do 7 (destruct r as [|r]; [injection Hr as <-; eexists; split; [vm_compute; auto 10|vm_compute; discriminate]|]). destruct r; discriminate Hr. }
  split; [reflexivity|]. split; vm_compute; reflexivity.
Qed.
