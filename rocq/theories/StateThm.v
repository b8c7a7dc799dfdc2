(** Theorems saying that the device behaves as one sequential object: C90. *)
From Coq Require Import NArith List Bool Arith Lia Permutation.
From Verif Require Import KeyModel HeaderModel KeySpec HeaderSpec MinKeyModel MinKeySpec
  SchemaModel MacroModel PostcardModel DispatchModel DispatchSpec SubModel SubSpec ClientModel ClientSpec
  UsbModel UsbSpec NusbRxModel LogModel.
From Verif Require Import DispatchModel DispatchSpec SystemModel SystemSpec AsyncModel AsyncSpec AsyncProof AsyncThm
  UsbSysModel UsbSysSpec UsbSysThm WebUsbModel WebSysModel WebSysSpec WebSysThm StateSpec StateProof.
Import ListNotations.

Section T.
  Context {Val Ctx SCtx : Type}.
  Variable std : StdKeys.
  Variable can_spawn : Trace Val SCtx -> nat -> bool.
  Variable kkind : VarKeyKind.
  Variable spawn_ctxt : Ctx -> Ctx * SCtx.
  Variable d : Dispatcher Val Ctx.
  Variable enc : Payload Val -> list N.
  Variable task : nat -> SCtx -> VarHeader -> Val -> HProg Val unit.
  Variable bg : list (HProg Val unit).
  Variable cfg : Config.
  Variable ctx0 : Ctx.
  Variable cl : list Label.
  Variable es : list (list Ev).

  Variable eps : EndpointMap.
  Variable tin tout : TopicMap.
  Variable ea : list (EpArm Val Ctx).
  Variable ta : list (TpArm Val Ctx).
  Hypothesis Hdisp : dispatcher_for eps tin tout ea ta d.
  Hypothesis Hdev : device_ok std eps tout ea.
  Hypothesis Hhand : handlers_ok std tout ea ta task bg.
  Hypothesis Hkk : klen (d_kind _ _ d) <= klen kkind.
  Hypothesis Hlab : Forall (label_ok eps tin) cl.
  Hypothesis Hcount : (N.of_nat (typed cl) <= 2 ^ 32)%N.
  Hypothesis Herr : ~ In (compact (klen kkind) (k8_bytes (error_key std)))
         (map (fun k => compact (klen kkind) (k8_bytes k)) (map ep_resp (em_endpoints eps))).

  Notation explained_by := (explained_by std ea ta task spawn_ctxt d cl es enc).

  (** ** C90 The device is one sequential object *)

  (** Whatever the user of the client does, whatever the network and the executor do, and
      however tasks and waiting handlers interleave: the replies that the client got, and
      the context that the handlers share, are those of handling some of the calls one
      after the other, each completely, each handler taking over the context that the
      previous one left.  Each call is handled at most once; if the link keeps the order,
      calls are handled in the order in which they were accepted for sending, so that a
      call made after another one returned is handled after it. *)
  Section Link.
    Variable net : Trace Val SCtx -> VarHeader -> Payload Val -> TxRes.
    Notation a_run := (a_run Val Ctx SCtx std net can_spawn kkind spawn_ctxt d enc task cfg).
    Variable ls : list ALabel.
    Variable a : ASys Val Ctx SCtx.
    Hypothesis Hrun : a_run ls (asys_new Val Ctx SCtx bg ctx0) = Some (a, cl, es).

    Theorem C90_one_object :
      exists ts c,
        explained_by ctx0 ts c (y_trace _ _ _ (a_sys _ _ _ a)) (up_in_order (system_labels ls)) (uncut (system_labels ls)) /\
        (a_cur _ _ _ a = None -> c = y_ctx _ _ _ (a_sys _ _ _ a)).
    Proof.
      destruct (C73_as_if_at_once std net can_spawn kkind spawn_ctxt d enc task bg cfg _ _ _ _ _ Hrun)
        as (net' & can' & ls' & s & more & R & _ & _ & _ & St & _ & Fin & U & O & _).
      destruct (one_object std net' can' kkind spawn_ctxt enc task bg cfg eps tin tout ea ta d Hdisp Hdev Hhand Hkk _ _ _ _ _ R Hlab Hcount Herr)
        as (ts & P & B & ND & Inc & Ord & Rep).
      exists ts, (y_ctx _ _ _ s). split; [|intros C; exact (proj1 (proj2 (Fin C)))]. split; auto.
      - rewrite St in B. exact B.
      - intros Hu. exact (real_time std net' can' kkind spawn_ctxt enc task bg cfg eps tin tout ea ta d Hdisp Hdev Hhand Hkk _ _ _ _ _ ts R Hlab Hcount Herr (Ord (O Hu))).
      - intros r f Hr. destruct (Rep r f Hr) as (_ & req & resp & body & p & H1 & H2 & H3 & H4). exists req, resp, body, p. auto 10.
    Qed.
  End Link.

  (** The same over USB, packet by packet, if transfers fail between messages only (if one
      fails amid a message, the client may take what follows for a reply:
      C71_error_amid_message_refuted). *)
  Section Usb.
    Variable txlen rxlen : nat.
    Variable consumes : bool.
    Variable mps : option nat.
    Variable outcome : nat -> list WRes.
    Hypothesis Hsizes : usb_sizes mps txlen rxlen.
    Notation u_run := (u_run Val Ctx SCtx std can_spawn kkind spawn_ctxt d enc task cfg txlen rxlen consumes mps outcome).
    Variable ls : list ULabel.
    Variable u : USys Val Ctx SCtx.
    Hypothesis Hrun : u_run ls (usys_new Val Ctx SCtx bg ctx0) = Some (u, cl, es).
    Hypothesis Herrs : errors_between_messages ls.

    Theorem C90_over_usb_partial :
      exists ts c,
        explained_by ctx0 ts c (u_trace _ _ _ u) True (none_interrupted (u_trace _ _ _ u)) /\
        (u_cur _ _ _ u = None -> c = u_ctx _ _ _ u).
    Proof.
      destruct (C71_usb_is_a_link std can_spawn kkind spawn_ctxt d enc task bg cfg txlen rxlen consumes mps outcome Hsizes _ _ _ _ _ Hrun Herrs)
        as (ls' & a & R & _ & Ex & Et & _ & _ & Ec & O & _ & C & _).
      destruct (C90_one_object _ _ _ R) as (ts & c & [] & Fin). rewrite Et in *. rewrite Ec, Ex in Fin. exists ts, c. split; auto.
      split; auto. intros r f Hr. destruct (ex_reply r f Hr) as (req & resp & body & p & H1 & H2 & H3 & H4). exists req, resp, body, p. auto 10.
    Qed.
  End Usb.

  (** And over WebUSB, for frames and messages of the lengths that WebUSB can deal with
      (cf. C89_whole_packets_refuted, C89_babble_refuted). *)
  Section Web.
    Variable txlen rxlen : nat.
    Variable consumes : bool.
    Variable max : nat.
    Variable outcome : nat -> list WRes.
    Hypothesis Hsizes : web_sizes txlen rxlen.
    Notation w_run := (w_run Val Ctx SCtx std can_spawn kkind spawn_ctxt d enc task cfg txlen rxlen consumes max outcome).
    Variable ls : list WLabel.
    Variable w : WSys Val Ctx SCtx.
    Hypothesis Hrun : w_run ls (wsys_new Val Ctx SCtx bg ctx0) = Some (w, cl, es).
    Notation tr := (u_trace _ _ _ (w_sys _ _ _ w)).
    Hypothesis Hframes : no_whole_packets es.
    Hypothesis Hmsgs : messages_below enc txlen (Nat.min max 1024) tr.

    Theorem C90_over_webusb_partial :
      exists ts c,
        explained_by ctx0 ts c tr True (none_interrupted tr) /\
        (u_cur _ _ _ (w_sys _ _ _ w) = None -> c = u_ctx _ _ _ (w_sys _ _ _ w)).
    Proof.
      assert (Hs64 : usb_sizes (Some 64) txlen rxlen) by (destruct Hsizes as (H1 & H2 & H3); repeat split; auto).
      destruct (C89_as_over_nusb_partial std can_spawn kkind spawn_ctxt d enc task bg cfg txlen rxlen consumes max outcome _ _ _ _ _ Hrun Hframes Hmsgs)
        as (us & u & R & _ & Et & Ex & _ & _ & A & _ & Ec). rewrite <- Et, <- Ex, <- Ec.
      exact (C90_over_usb_partial _ _ _ _ _ Hs64 _ _ R A).
    Qed.
  End Web.
End T.
Print Assumptions C90_one_object.
Print Assumptions C90_over_usb_partial.
Print Assumptions C90_over_webusb_partial.
