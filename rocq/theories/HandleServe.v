(** Lemmas for HandleThm.v: a server that is only sent publications keeps serving. *)
From Coq Require Import NArith List Bool Arith Lia Permutation.
From Verif Require Import KeyModel HeaderModel KeySpec HeaderSpec KeyProof HeaderProof MinKeyModel MinKeySpec MinKeyProof
  SchemaModel MacroModel PostcardModel DispatchModel DispatchSpec DispatchProof SubModel SubSpec SubProof
  ClientModel ClientSpec ClientProof ClientHist ClientMore ClientOut ClientThm ClientThm3.
From Verif Require Import UsbSpec FlowBase SubFlow FlowSpec FlowProof.
From Verif Require Import KeySpec HeaderModel HeaderSpec DispatchModel DispatchSpec DispatchThm SubModel SystemModel SystemSpec SystemProof SystemThm FlowThm
  LiveSpec LiveProof ServedSpec ServedProof.
Import ListNotations.

Section S.
  Context {Val Ctx SCtx : Type}.
  Variable std : StdKeys.
  Variable net : Trace Val SCtx -> VarHeader -> Payload Val -> TxRes.
  Variable can_spawn : Trace Val SCtx -> nat -> bool.
  Variable kkind : VarKeyKind.
  Variable spawn_ctxt : Ctx -> Ctx * SCtx.
  Variable enc : Payload Val -> list N.
  Variable task : nat -> SCtx -> VarHeader -> Val -> HProg Val unit.
  Variable bg : list (HProg Val unit).
  Variable cfg : Config.
  Variable eps : EndpointMap.
  Variable tin tout : TopicMap.
  Variable ea : list (EpArm Val Ctx).
  Variable ta : list (TpArm Val Ctx).
  Variable d : Dispatcher Val Ctx.
  Hypothesis Hdisp : dispatcher_for eps tin tout ea ta d.
  Hypothesis Hdev : device_ok std eps tout ea.
  Hypothesis Hhand : handlers_ok std tout ea ta task bg.
  Hypothesis Hkk : klen (d_kind _ _ d) <= klen kkind.

  Notation sys_run := (sys_run Val Ctx SCtx std net can_spawn kkind spawn_ctxt d enc task cfg).
  Notation sys_step := (sys_step Val Ctx SCtx std net can_spawn kkind spawn_ctxt d enc task cfg).
  Notation handle := (handle Val Ctx SCtx std net can_spawn kkind spawn_ctxt).
  Notation sys_new := (sys_new Val Ctx SCtx).

  (** The server stopped because of a frame that the client had sent. *)
  Lemma stopped_by ctx0 ls s cl es : sys_run ls (sys_new bg ctx0) = Some (s, cl, es) -> y_serving _ _ _ s = false ->
    exists b hdr body ctx t0 ctx' res t1, In b (wire es) /\ take_from_slice b = Done (Some (hdr, body)) /\
      handle d ctx hdr body t0 = (ctx', res, t1) /\ res <> TxOk.
  Proof.
    revert ls s cl es. apply (sys_ind std net can_spawn kkind spawn_ctxt enc task cfg d (fun ls s cl es => y_serving _ _ _ s = false ->
      exists b hdr body ctx t0 ctx' res t1, In b (wire es) /\ take_from_slice b = Done (Some (hdr, body)) /\
      handle d ctx hdr body t0 = (ctx', res, t1) /\ res <> TxOk)); [discriminate|].
    intros ls s cl es l s' Hr IH Hs.
    assert (Mono : forall e, y_serving _ _ _ s = false -> exists b hdr body ctx t0 ctx' res t1, In b (wire (es ++ [e])) /\ take_from_slice b = Done (Some (hdr, body)) /\
      handle d ctx hdr body t0 = (ctx', res, t1) /\ res <> TxOk).
    { intros e V. destruct (IH V) as (b & hdr & body & ctx & t0 & ctx' & res & t1 & H1 & H2). exists b, hdr, body, ctx, t0, ctx', res, t1. split; auto. rewrite wire_app. apply in_app_iff. auto. }
    destruct (reach_served std net can_spawn kkind spawn_ctxt enc task bg cfg eps tin tout ea ta d Hdisp Hhand _ _ _ _ _ Hr) as (handled & pieces & P & _).
    destruct l as [l|i|i|i|i|i|i n|]; cbn [client_label].
    - intros e He V. cbn [SystemModel.sys_step] in Hs. rewrite He in Hs. apply Mono. destruct l; try discriminate; injection Hs as Hs; rewrite <- Hs in V; exact V.
    - cbn [SystemModel.sys_step] in Hs. destruct (nth_error (y_down _ _ _ s) i) as [b|] eqn:Hn; cbn [option_map]; [|discriminate].
      intros e He V. rewrite He in Hs. injection Hs as Hs. apply Mono. rewrite <- Hs in V. exact V.
    - cbn [SystemModel.sys_step] in Hs. destruct (y_serving _ _ _ s) eqn:Sv; [|discriminate].
      destruct (nth_error (y_up _ _ _ s) i) as [b|] eqn:Hn; [|discriminate].
      destruct (take_from_slice b) as [[[hdr body]|]|] eqn:Ht; [| |discriminate]; [|injection Hs as <-; discriminate].
      destruct (handle d (y_ctx _ _ _ s) hdr body (y_trace _ _ _ s)) as [[ctx1 res] tr] eqn:Hh. injection Hs as <-. cbn. intros V.
      exists b, hdr, body, (y_ctx _ _ _ s), (y_trace _ _ _ s), ctx1, res, tr. split; [|repeat split; auto; destruct res; discriminate].
      eapply Permutation_in; [apply Permutation_sym, P|]. apply in_app_iff. right. apply in_app_iff. left. eapply nth_error_In; eauto.
    - cbn [SystemModel.sys_step] in Hs. destruct (nth_error (y_tasks _ _ _ s) i) as [[|key seq p k]|] eqn:Hn; try discriminate.
      destruct (send_keyed _ _ _ _ _ _ _ _ _) as [r tr]. injection Hs as <-. exact IH.
    - cbn [SystemModel.sys_step] in Hs. destruct (nth_error _ _); [|discriminate]. injection Hs as <-. exact IH.
    - cbn [SystemModel.sys_step] in Hs. destruct (nth_error _ _); [|discriminate]. injection Hs as <-. exact IH.
    - cbn [SystemModel.sys_step] in Hs. destruct (nth_error _ _); [|discriminate]. injection Hs as <-. exact IH.
    - cbn [SystemModel.sys_step] in Hs. injection Hs as <-. exact IH.
  Qed.

  Lemma first_arm (l : list (TpArm Val Ctx)) a : In a l ->
    exists before a' after, l = before ++ a' :: after /\ ta_key _ _ a' = ta_key _ _ a /\ ~ In (ta_key _ _ a') (map (@ta_key _ _) before).
  Proof.
    clear. induction l as [|x l IH]; intros H; [destruct H|].
    destruct (list_eq_dec N.eq_dec (k8_bytes (ta_key _ _ x)) (k8_bytes (ta_key _ _ a))) as [E|N].
    - assert (E' : ta_key _ _ x = ta_key _ _ a) by (destruct (ta_key _ _ x), (ta_key _ _ a); cbn in E; congruence).
      exists [], x, l. repeat split; auto.
    - destruct H as [->|H]; [congruence|]. destruct (IH H) as (before & a' & after & -> & E & Nb). exists (x :: before), a', after. split; [reflexivity|]. split; auto.
      cbn. intros [X|X]; [apply N; congruence|contradiction].
  Qed.

  Lemma quiet_serves ctx0 ls s cl es : sys_run ls (sys_new bg ctx0) = Some (s, cl, es) -> Forall (label_ok eps tin) cl -> issued 0 cl = [] ->
    (forall f, In f (published cl) -> exists a, In a ta /\ hdr_key (f_hdr f) = VKey8 (ta_key _ _ a)) ->
    y_serving _ _ _ s <> false.
  Proof.
    intros Hrun Hlab Hi Hp V. destruct (stopped_by _ _ _ _ _ Hrun V) as (b & hdr & body & ctx & t0 & ctx' & res & t1 & Hb & Ht & Hd & Ne).
    destruct (reach_sys std net can_spawn kkind spawn_ctxt enc task bg cfg eps tin tout ea ta d Hdisp Hhand _ _ _ _ _ Hrun) as (handled0 & HI).
    destruct (C59_in_order_once _ _ _ _ (si_run _ _ _ _ _ _ _ _ _ _ _ _ _ _ _ _ _ HI)) as (_ & frames & F & (rest & E) & _).
    assert (Hf : exists x f, frame_for cl es x f /\ b = rpc_to_bytes f).
    { assert (In b (map rpc_to_bytes frames)) as X by (rewrite E; apply in_app_iff; auto). apply in_map_iff in X as (f & <- & X).
      clear - F X. induction F as [|x g acc fs Hx F IH]; [destruct X|]. destruct X as [->|X]; eauto. }
    destruct Hf as (x & f & (g & kk & Hkd & -> & Hg) & ->).
    pose proof (seen_le std net can_spawn kkind spawn_ctxt enc task bg cfg eps tin tout ea ta d Hdisp Hhand _ _ _ _ _ HI _ Hkd) as Lk.
    destruct x as [r|i]; [destruct Hg as (resp & Hg); rewrite Hi in Hg; destruct r; discriminate|].
    pose proof (nth_error_In _ _ Hg) as Hin. destruct (Hp _ Hin) as (a0 & Ha0 & Ek). destruct (first_arm _ _ Ha0) as (before & a & after & Ea & Eka & Nb). rewrite <- Eka in Ek.
    assert (Hl : label_ok eps tin (LPublish g)).
    { rewrite Forall_forall in Hlab. apply Hlab. unfold published in Hin. apply in_flat_map in Hin as (l & Hl & Hii). destruct l; try destruct Hii; [subst; auto|contradiction]. }
    destruct Hl as (key & Hk & _ & Hok).
    assert (Hstd : has_std std eps). { destruct Hdev as (D1 & D2 & _). split; eapply endpoint_in; eauto. }
    assert (Ld : klen (d_kind _ _ d) <= klen kk) by lia.
    unfold shrink_frame, rpc_to_bytes in Ht. cbn [f_hdr f_body] in Ht. rewrite Ek in Ht. rewrite take_written_ok in Ht by exact Hok.
    set (hd := MkHeader _ _) in Ht at 1. injection Ht as <- <-.
    rewrite (handle_topic std net can_spawn kkind spawn_ctxt _ _ _ _ _ _ before a after kk hd (f_body g) ctx t0 Hdisp Hstd Ea Nb Ld eq_refl) in Hd.
    destruct (ta_deser _ _ a (f_body g)) as [v|]; [|congruence]. destruct (tp_arm_trace net can_spawn kkind spawn_ctxt _ _ _ _ _ _ _ _ Hd) as (X & _). congruence.
  Qed.
End S.
