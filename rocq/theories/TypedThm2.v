(** A concrete device with typed endpoints for the theorems of TypedThm.v. *)
From Coq Require Import NArith ZArith List Bool Arith Lia.
From Verif Require Import KeyModel HeaderModel KeySpec HeaderSpec MinKeyModel MinKeySpec SchemaModel MacroModel PostcardModel
  DispatchModel DispatchSpec DispatchThm SubModel ClientModel ClientSpec ClientThm4 SystemModel SystemSpec SystemProof SystemThm SystemThm2
  CodecModel CodecSpec CodecProof CodecStdModel CodecStdProof CodecThm TypedSpec TypedThm.
Import ListNotations.

(** Endpoint 10 takes a number and a text and answers with the text and the number plus
    a counter; endpoint 12 is answered by a spawned task with twice the number, or an
    error above 100. *)
Definition z_pair : NamedType := NT [] (DTuple [t_u32; t_string]).
Definition z_swap : NamedType := NT [] (DTuple [t_string; t_u32]).
Definition z_u64 : NamedType := NT [] (DPrim PU64).
Definition z_rqty (k : Key8) : NamedType := match k8_bytes k with 10%N :: _ => z_pair | _ => t_u32 end.
Definition z_rsty (k : Key8) : NamedType :=
  match k8_bytes k with 3%N :: _ => t_totals | 10%N :: _ => z_swap | 12%N :: _ => z_u64 | _ => t_u32 end.
Definition z_arm : EpArm value N :=
  MkEpArm value N (xk 10) (xk 11) (from_bytes z_pair) DispatchModel.Blocking 7
    (fun ctx _ v => match v with
                    | VTup [VUInt W32 n; s] => HRet (ctx + 1, VTup [s; VUInt W32 ((n + ctx) mod 2 ^ 32)])
                    | _ => HRet (ctx, VTup [VString []; VUInt W32 0])
                    end)%N.
Definition z_spawn_arm : EpArm value N :=
  MkEpArm value N (xk 12) (xk 13) (from_bytes t_u32) Spawn 8 (fun ctx _ v => HRet (ctx, v)).
Definition z_tparm : TpArm value N :=
  MkTpArm value N (xk 20) (from_bytes t_u32) Async 9 (fun ctx _ v => HSend (xk 7) (Seq1 0) (PVal v) (fun _ => HRet (ctx + 1)%N)).
Definition z_ea := [z_spawn_arm; z_arm].
Definition z_ta := [z_tparm].
Definition z_disp : Dispatcher value N :=
  match define_dispatch value N x_eps x_tin x_tout z_ea z_ta with Done d => d | Panicked => MkDispatcher value N KK8 [] [] (MkMap [] [] [] [] KK8) end.
Definition z_net : Trace value N -> VarHeader -> Payload value -> TxRes := fun _ _ _ => TxOk.
Definition z_task (n : nat) (sc : N) (h : VarHeader) (v : value) : HProg value unit :=
  match v with
  | VUInt W32 m => if (m <=? 100)%N then HSend (xk 13) (hdr_seq h) (PVal (VUInt W64 (2 * m))) (fun _ => HRet tt)
                   else HSend (xk 6) (hdr_seq h) (PError (FrameTooLong m 100)) (fun _ => HRet tt)
  | _ => HRet tt
  end.
Definition z_run := sys_run value N N x_std z_net (fun _ _ => true) KK1 (fun c => (c, c)) z_disp payload_bytes z_task s_cfg.
Definition z_new : Sys value N N := sys_new value N N [] 3%N.

Definition z_v0 : value := VTup [VUInt W32 300; VString [104; 195; 169]]%N.
Definition z_v1 : value := VUInt W32 200.
Definition z_history : list SysLabel :=
  map SClient ([LRequest (xk 10) (xk 11) (ser z_v0); LRequest (xk 12) (xk 13) (ser z_v1); LRequest (xk 10) (xk 11) (ser z_v0);
                LPublish (MkFrame (MkHeader (VKey8 (xk 20)) (Seq1 2)) [9%N])] ++
               y_out 0 ++ y_out 1 ++ y_out 2 ++ [LPubSend 0; LOutPop; LOutSent]) ++
  [SServe 1; SServe 0; SServe 0; SServe 0; STask 0; SLoseDown 2;
   SRecv 2; SClient (LWake (Some 3)); SClient (LTakeErr 1);
   SRecv 1; SClient (LWake (Some 2)); SClient (LTakeOk 2);
   SCutDown 0 9; SRecv 0; SClient (LWake (Some 0)); SClient (LTakeOk 0)].

Lemma z_conf : config_ok x_eps x_tin x_tout z_ea z_ta /\ define_dispatch value N x_eps x_tin x_tout z_ea z_ta = Done z_disp.
Proof.
  split.
  - unfold config_ok, keys_ok. repeat split; repeat constructor; cbn; repeat constructor.
  - vm_compute. reflexivity.
Qed.

Lemma z_device : device_ok x_std x_eps x_tout z_ea /\ handlers_ok x_std x_tout z_ea z_ta z_task [].
Proof.
  split.
  - repeat split.
    + exists [112%N]. cbn. auto.
    + exists [103%N]. cbn. auto.
    + cbn. auto.
    + intros a [<-|[<-|[]]]; [exists [118%N]|exists [117%N]]; cbn; auto.
  - assert (X : forall a ctx h v key seq p, In a z_ea -> ~ may_send (ea_run _ _ a ctx h v) key seq p).
    { intros a ctx h v key seq p [<-|[<-|[]]] M; cbn in M; [inversion M|].
      repeat match type of M with context [match ?x with _ => _ end] => destruct x end; inversion M. }
    split; [intros; exfalso; eapply X; eauto|]. split; [|split; [|split]].
    + intros a ctx h v key seq p [<-|[]] M. cbn in M. inversion M; subst; [|match goal with H : may_send (HRet _) _ _ _ |- _ => inversion H end].
      split; cbn; [auto|lia].
    + intros a sc h v key seq p [<-|[<-|[]]] F M; [|discriminate]. right. unfold z_task in M. cbn in *.
      destruct v; try solve [inversion M]. destruct w; try solve [inversion M].
      destruct (n <=? 100)%N; inversion M; subst; auto; match goal with H : may_send (HRet _) _ _ _ |- _ => inversion H end.
    + intros a sc h v key seq p [<-|[]] F. discriminate.
    + intros p key seq pl [].
Qed.

Lemma z_typed : typed_device x_std z_ea z_task z_rqty z_rsty.
Proof.
  unfold typed_device. split; [reflexivity|]. split; [reflexivity|]. split; [reflexivity|]. split; [|split; [|split]].
  - intros a body [<-|[<-|[]]]; reflexivity.
  - intros a ctx h v ctx' w [<-|[<-|[]]] F Hv M; [exfalso; apply F; reflexivity|]. clear F.
    change (ea_req _ _ z_arm) with (xk 10) in *. change (z_rqty (xk 10)) with z_pair in Hv. change (z_rsty (xk 10)) with z_swap.
    destruct v; try contradiction. destruct vs as [|a [|b [|]]]; cbn in Hv; try tauto. destruct Hv as (H1 & H2 & _).
    destruct a; try contradiction. destruct w0; try contradiction. cbn [ea_run z_arm] in M. inversion M; subst.
    cbn [typed z_swap typed_dmt all2]. split; [exact H2|]. split; [|exact I]. cbn. unfold uint_ok. apply N.mod_lt. discriminate.
  - intros a sc h v seq p [<-|[<-|[]]] F Hv M; [|discriminate]. cbn in Hv. destruct v; try contradiction. destruct w; try contradiction.
    unfold z_task in M. destruct (n <=? 100)%N eqn:E; inversion M; subst; try (match goal with H : may_send (HRet _) _ _ _ |- _ => inversion H end).
    exists (VUInt W64 (2 * n)). split; [reflexivity|]. cbn. apply N.leb_le in E. unfold uint_ok. change (2 ^ bits W64)%N with 18446744073709551616%N.
    change (match n with 0 => 0 | N.pos q => N.pos q~0 end)%N with (2 * n)%N. lia.
  - intros a sc h v seq p [<-|[<-|[]]] F Hv M; [|discriminate]. cbn in Hv. destruct v; try contradiction. destruct w; try contradiction.
    unfold z_task in M. destruct (n <=? 100)%N eqn:E; inversion M; subst; try (match goal with H : may_send (HRet _) _ _ _ |- _ => inversion H end).
    exists (FrameTooLong n 100). split; [reflexivity|]. split; [exact Hv|reflexivity].
Qed.

(** All hypotheses of C66 hold of this device and history, in which a reply is also cut
    short: the three calls return an error value, a value, and a failure to decode. *)
Example C66_ex :
  config_ok x_eps x_tin x_tout z_ea z_ta /\ define_dispatch value N x_eps x_tin x_tout z_ea z_ta = Done z_disp /\
  device_ok x_std x_eps x_tout z_ea /\ handlers_ok x_std x_tout z_ea z_ta z_task [] /\
  typed_device x_std z_ea z_task z_rqty z_rsty /\
  klen (d_kind _ _ z_disp) <= klen KK1 /\ cfg_err_key s_cfg = error_key x_std /\
  exists s cl es, z_run z_history z_new = Some (s, cl, es) /\
    Forall (label_ok x_eps x_tin) cl /\ (N.of_nat (ClientSpec.typed cl) <= 2 ^ 32)%N /\
    (forall g, In g (published cl) -> exists a, In a z_ta /\ hdr_key (f_hdr g) = VKey8 (ta_key _ _ a)) /\
    called z_rqty cl 0 (xk 10) z_v0 /\ called z_rqty cl 1 (xk 12) z_v1 /\ called z_rqty cl 2 (xk 10) z_v0 /\
    exists f0 f1 f2, results es = [(1, GotError f1); (2, GotReply f2); (0, GotReply f0)] /\
      returned z_rsty (xk 12) (GotError f1) = HWire _ _ (FrameTooLong 200 100) /\
      returned z_rsty (xk 10) (GotReply f2) = HOk _ _ (VTup [VString [104; 195; 169]; VUInt W32 304]%N) /\
      returned z_rsty (xk 10) (GotReply f0) = HPostcard _ _.
Proof.
  destruct z_conf as (C & E). destruct z_device as (D1 & D2).
  split; [exact C|]. split; [exact E|]. split; [exact D1|]. split; [exact D2|]. split; [exact z_typed|]. split; [cbn; lia|]. split; [reflexivity|].
  destruct (z_run z_history z_new) as [[[s cl] es]|] eqn:R; [|vm_compute in R; discriminate].
  exists s, cl, es. split; [reflexivity|].
  vm_compute in R. injection R as _ <- <-. split.
  { repeat (apply Forall_cons; [cbn; auto|]); try apply Forall_nil.
    - exists [117%N]. cbn. auto.
    - exists [118%N]. cbn. auto.
    - exists [117%N]. cbn. auto.
    - exists (xk 20). split; [cbn; auto|]. split; [reflexivity|]. lia. }
  split; [vm_compute; discriminate|]. split; [intros g [<-|[]]; exists z_tparm; split; [left; auto|reflexivity]|].
  split; [eexists; split; [reflexivity|cbn; repeat first [split | apply CodecProof.utf8_ok_text]; auto; reflexivity]|]. split; [eexists; split; [reflexivity|cbn; repeat first [split | apply CodecProof.utf8_ok_text]; auto; reflexivity]|].
  split; [eexists; split; [reflexivity|cbn; repeat first [split | apply CodecProof.utf8_ok_text]; auto; reflexivity]|].
  eexists _, _, _. split; [reflexivity|]. vm_compute. auto.
Qed.
