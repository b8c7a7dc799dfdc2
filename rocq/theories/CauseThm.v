(** Theorems about what came before what: C92. *)
From Coq Require Import NArith List Bool Arith Lia Permutation.
From Verif Require Import KeyModel HeaderModel KeySpec HeaderSpec KeyProof HeaderProof MinKeyModel MinKeySpec MinKeyProof
  SchemaModel MacroModel PostcardModel DispatchModel DispatchSpec DispatchProof SubModel SubSpec SubProof
  ClientModel ClientSpec ClientProof ClientHist ClientMore ClientOut ClientThm UsbModel UsbSpec NusbRxModel LogModel FlowBase.
From Verif Require Import KeySpec HeaderModel HeaderSpec DispatchModel DispatchSpec SubModel SystemModel SystemSpec SystemProof SystemThm
  FlowSpec FlowProof FlowThm AsyncModel AsyncSpec AsyncProof AsyncThm UsbSysModel UsbSysSpec UsbSysThm WebUsbModel WebSysModel WebSysSpec WebSysThm
  CauseSpec CauseProof.
Import ListNotations.

Section T.
  Context {Val Ctx SCtx : Type}.
  Variable std : StdKeys.
  Variable can_spawn : Trace Val SCtx -> nat -> bool.
  Variable kkind : VarKeyKind.
  Variable spawn_ctxt : Ctx -> Ctx * SCtx.
  Variable d : Dispatcher Val Ctx.
  Variable enc : Payload Val -> list N.
  Variable task : nat -> SCtx -> VarHeader -> Val -> HProg Val unit.
  Variable bg : list (HProg Val unit).
  Variable cfg : Config.
  Variable ctx0 : Ctx.
  Variable cl : list Label.
  Variable es : list (list Ev).
  Variable eps : EndpointMap.
  Variable tin tout : TopicMap.
  Variable ea : list (EpArm Val Ctx).
  Variable ta : list (TpArm Val Ctx).
  Hypothesis Hdisp : dispatcher_for eps tin tout ea ta d.
  Hypothesis Hdev : device_ok std eps tout ea.
  Hypothesis Hhand : handlers_ok std tout ea ta task bg.
  Hypothesis Hkk : klen (d_kind _ _ d) <= klen kkind.
  Hypothesis Hlab : Forall (label_ok eps tin) cl.
  Hypothesis Hcount : (N.of_nat (typed cl) <= 2 ^ 32)%N.
  Hypothesis Herr : ~ In (compact (klen kkind) (k8_bytes (error_key std)))
    (map (fun k => compact (klen kkind) (k8_bytes k)) (map ep_resp (em_endpoints eps))).
  Notation fit_together := (fit_together std kkind enc ea ta task d).

  (** ** C92 Cause before effect *)
  Section Link.
    Variable net : Trace Val SCtx -> VarHeader -> Payload Val -> TxRes.
    Notation a_run := (a_run Val Ctx SCtx std net can_spawn kkind spawn_ctxt d enc task cfg).
    Variable ls : list ALabel.
    Variable a : ASys Val Ctx SCtx.
    Hypothesis Hrun : a_run ls (asys_new Val Ctx SCtx bg ctx0) = Some (a, cl, es).
    Notation trace a := (y_trace _ _ _ (a_sys _ _ _ a)).
    Notation whole := (uncut (system_labels ls)).

    Lemma part_labels cl1 cl2 : cl = cl1 ++ cl2 -> Forall (label_ok eps tin) cl1 /\ (N.of_nat (typed cl1) <= 2 ^ 32)%N.
    Proof.
      intros E. rewrite E in Hlab, Hcount. apply Forall_app in Hlab as [H _]. split; [exact H|].
      unfold typed in *. rewrite filter_app, app_length in Hcount. lia.
    Qed.
    Lemma all_come ls0 a0 cl0 es0 cl2 : a_run ls0 (asys_new Val Ctx SCtx bg ctx0) = Some (a0, cl0, es0) -> cl = cl0 ++ cl2 ->
      down_in_order (system_labels ls0) -> embeds (is_message enc (uncut (system_labels ls0))) (arrived cl0) (messages (trace a0)).
    Proof.
      intros R E D. destruct (part_labels _ _ E) as [L _].
      destruct (down_flow enc (system_labels ls0) (trace a0) cl0 (y_down _ _ _ (a_sys _ _ _ a0))) as (ss & kept & _ & O & Sk & F).
      { eapply a_flow. exact R. }
      { intros w h p r Hi. destruct (sent_header std net can_spawn kkind spawn_ctxt d enc task bg cfg _ _ _ _ _ R eps tin tout ea ta Hdisp Hdev Hkk L Hhand _ _ _ _ Hi) as (key & sq & -> & Hs). exact Hs. }
      rewrite (O D) in Sk. exists kept. split; [exact Sk|exact F].
    Qed.

    (** Over a link that keeps the order, the histories fit together. *)
    Theorem C92_cause_before_effect :
      down_in_order (system_labels ls) -> fit_together whole cl es (trace a).
    Proof.
      intros D n.
      destruct (a_prefix std net can_spawn kkind spawn_ctxt d enc task cfg n _ _ _ _ _ Hrun Logic.I) as (ls1 & ls2 & a1 & after & El & R1 & Et).
      exists (trace a1), after. split; [exact Et|].
      assert (Ecl : cl = firstn n cl ++ skipn n cl) by (symmetry; apply firstn_skipn).
      destruct (part_labels _ _ Ecl) as [L1 C1].
      assert (D1 : down_in_order (system_labels ls1)).
      { intros i Hi. apply D. rewrite El. unfold system_labels. rewrite flat_map_app. apply in_app_iff. left. exact Hi. }
      assert (W1 : whole -> uncut (system_labels ls1)).
      { intros U i m Hi. apply (U i m). rewrite El. unfold system_labels. rewrite flat_map_app. apply in_app_iff. left. exact Hi. }
      assert (E1 : embeds (is_message enc whole) (arrived (firstn n cl)) (messages (trace a1))).
      { eapply embeds_mono; [|exact (all_come _ _ _ _ _ R1 Ecl D1)]. intros x y (H1 & m & H2 & H3). split; [exact H1|]. exists m. auto. }
      assert (E2 : embeds (is_message enc whole) (arrived cl) (messages (trace a))).
      { exact (all_come _ _ _ _ [] Hrun (eq_sym (app_nil_r cl)) D). }
      split; [exact E1|]. split.
      { destruct (C73_every_run_was_called std net can_spawn kkind spawn_ctxt d enc task bg cfg _ _ _ _ _ R1 eps tin tout ea ta Hdisp Hkk L1 Hhand) as (calls & F & ND & _). eauto. }
      intros r f Hr.
      destruct (client_run std net can_spawn kkind spawn_ctxt d enc task bg cfg _ _ _ _ _ R1 eps tin tout ea ta Hdisp Hhand) as (c & Rc).
      destruct (proj1 (C30_answer_matches _ _ _ _ r f Rc) Hr) as (sent & resp & kk & Hi & Ha & Hk & Hm).
      (* the message that is the reply *)
      rewrite Et, messages_app in E2. rewrite Ecl, arrived_app in E2. apply (embeds_early _ _ _ _ _ E1) in E2 as (b1 & b2 & Eb & F1 & F2).
      apply in_split in Ha as (x & y & Ea). rewrite Ea in F1. apply (embeds_split _ x (f :: y)) in F1 as (u & v & -> & _ & F1).
      apply (embeds_split _ [f] y) in F1 as (v1 & v2 & -> & F1 & F3). apply embeds_one in F1 as (v3 & m & v4 & -> & Hf).
      rewrite <- !app_assoc in Eb. cbn [app] in Eb. rewrite app_assoc in Eb.
      destruct (messages_split _ _ _ _ Eb) as (t1 & w & res & t2 & Ea1 & _ & M2). destruct m as [h p]. cbn [fst snd] in *.
      (* the device up to then *)
      destruct (up_to_send std net can_spawn kkind spawn_ctxt d enc task bg cfg _ _ _ _ _ R1) as (_ & Up).
      destruct (Up _ _ _ _ _ _ Ea1) as (ls3 & a3 & cl3 & es3 & cl4 & es4 & R3 & Ecl3 & Ees3 & T3).
      destruct (C73_as_if_at_once std net can_spawn kkind spawn_ctxt d enc task bg cfg _ _ _ _ _ R3) as (net' & can' & ls' & s & more & R & _ & _ & _ & Es & P & _).
      destruct (reach_sys std net' can' kkind spawn_ctxt enc task bg cfg eps tin tout ea ta d Hdisp Hhand _ _ _ _ _ R) as (handled & HI).
      assert (Hs : In (EvSend w h p res) (y_trace _ _ _ s)).
      { eapply Permutation_in; [apply Permutation_sym, P|]. rewrite T3. rewrite !in_app_iff. cbn. auto. }
      assert (Ecl3' : cl = cl3 ++ (cl4 ++ skipn n cl)). { rewrite app_assoc, <- Ecl3. exact Ecl. }
      destruct (part_labels _ _ Ecl3') as [L3 _].
      destruct (send_class std net' can' kkind spawn_ctxt enc task bg cfg eps tin tout ea ta d Hdisp Hdev Hhand Hkk _ _ _ _ _ HI L3 _ _ _ _ Hs)
        as (key & sq & -> & Hok & Cls).
      (* it is the answer to request [r] *)
      assert (Lk : klen kkind <= klen kk).
      { destruct (C73_as_if_at_once std net can_spawn kkind spawn_ctxt d enc task bg cfg _ _ _ _ _ R1) as (net2 & can2 & ls2' & s2 & more2 & Q & _).
        destruct (reach_sys std net2 can2 kkind spawn_ctxt enc task bg cfg eps tin tout ea ta d Hdisp Hhand _ _ _ _ _ Q) as (handled2 & HI2).
        exact (seen_le std net2 can2 kkind spawn_ctxt enc task bg cfg eps tin tout ea ta d Hdisp Hhand _ _ _ _ _ HI2 _ Hk). }
      destruct Hf as [Hfh Hfb]. destruct f as [fh fb]. cbn [fst snd f_hdr f_body] in Hfh, Hfb. subst fh.
      apply (answers_key kkind d Hkk _ _ _ _ _ _ Lk) in Hm as [Hsq Hkey].
      assert (Hi' : nth_error (issued 0 cl) r = Some (sent, resp)).
      { rewrite Ecl, issued_app, nth_error_app1; [exact Hi|]. apply nth_error_Some. congruence. }
      destruct (issued_asked eps tin cl Hlab _ _ _ Hi') as (req & body & As & ->). cbn [f_hdr hdr_seq seq_value] in Hsq.
      pose proof As as [Hep Hn]. pose proof (endpoint_in _ _ _ Hep) as [_ Hresp].
      pose proof Hdisp as (_ & _ & Dd & _). destruct (Dd kkind Hkk) as [_ D2].
      destruct Cls as [Ht|[(-> & _)|(r2 & req2 & resp2 & body2 & As2 & -> & [(-> & _)|(-> & An)])]].
      { exfalso. exact (distinct_app_disj _ _ _ _ _ D2 Hresp Ht Hkey). }
      { exfalso. apply Herr. rewrite <- Hkey. apply in_map_iff. eauto. }
      { exfalso. apply Herr. rewrite <- Hkey. apply in_map_iff. eauto. }
      assert (As2' : asked eps cl r2 req2 resp2 body2).
      { destruct As2 as [A1 A2]. split; [exact A1|]. rewrite Ecl3', issued_app, nth_error_app1; [exact A2|]. apply nth_error_Some. congruence. }
      cbn [seq_value] in Hsq. destruct (asked_same kkind eps tin d Hkk cl Hlab Hcount _ _ _ _ _ _ _ _ As As2' (eq_sym Hsq)) as (<- & <- & <- & <-).
      rewrite (asked_num kkind eps tin d Hkk cl Hlab Hcount _ _ _ _ As) in *.
      exists t1, w, (out_header kkind resp (Seq4 (N.of_nat r))), p, res, t2, req, resp, body.
      split; [exact Ea1|]. split; [reflexivity|]. split; [split; [reflexivity|exact Hfb]|]. split; [exact Hn|]. split.
      - assert (Es' : starts (y_trace _ _ _ s) = starts t1).
        { rewrite Es, T3. unfold starts. rewrite filter_app. cbn [filter]. apply app_nil_r. }
        clear - An Es'. destruct An.
        + apply an_ping; auto.
        + apply an_schemas; auto.
        + eapply an_handler; eauto.
          * apply starts_in; [exact Logic.I|]. rewrite <- Es'. apply in_starts; [exact Logic.I|]. rewrite H4. apply in_app_iff. right. left. reflexivity.
          * eapply TypedThm.run_prog_returns; eauto.
        + eapply an_task; eauto. apply starts_in; [exact Logic.I|]. rewrite <- Es'. apply in_starts; [exact Logic.I|assumption].
      - unfold come_from. rewrite messages_app, M2, <- !app_assoc. exact (embeds_more _ _ _ v4 (embeds_more _ _ _ v2 F2)).
    Qed.
  End Link.

  (** Over USB, if transfers fail between messages only. *)
  Section Usb.
    Variable txlen rxlen : nat.
    Variable consumes : bool.
    Variable mps : option nat.
    Variable outcome : nat -> list WRes.
    Hypothesis Hsizes : usb_sizes mps txlen rxlen.
    Notation u_run := (u_run Val Ctx SCtx std can_spawn kkind spawn_ctxt d enc task cfg txlen rxlen consumes mps outcome).
    Variable ls : list ULabel.
    Variable u : USys Val Ctx SCtx.
    Hypothesis Hrun : u_run ls (usys_new Val Ctx SCtx bg ctx0) = Some (u, cl, es).
    Hypothesis Herrs : errors_between_messages ls.

    Lemma come_from_mono (w1 w2 : Prop) fs t : (w2 -> w1) -> come_from enc w1 fs t -> come_from (SCtx := SCtx) enc w2 fs t.
    Proof. intros H. apply embeds_mono. intros x y (H1 & m & H2 & H3). split; [exact H1|]. exists m. auto. Qed.
    Lemma fit_mono (w1 w2 : Prop) c e t : (w2 -> w1) -> fit_together w1 c e t -> fit_together w2 c e t.
    Proof.
      intros H F n. destruct (F n) as (b & af & E & A & B & C). exists b, af. split; [exact E|]. split; [exact (come_from_mono _ _ _ _ H A)|]. split; [exact B|].
      intros r f Hr. destruct (C r f Hr) as (t1 & w & h & p & res & t2 & req & resp & body & C1 & C2 & C3 & C4 & C5 & C6).
      exists t1, w, h, p, res, t2, req, resp, body. do 2 (split; [assumption|]). split.
      { destruct C3 as (H1 & m & H2 & H3). split; [exact H1|]. exists m. auto. }
      split; [assumption|]. split; [assumption|]. exact (come_from_mono _ _ _ _ H C6).
    Qed.

    Theorem C92_over_usb_partial : fit_together (none_interrupted (u_trace _ _ _ u)) cl es (u_trace _ _ _ u).
    Proof.
      destruct (C71_usb_is_a_link std can_spawn kkind spawn_ctxt d enc task bg cfg txlen rxlen consumes mps outcome Hsizes _ _ _ _ _ Hrun Herrs)
        as (ls' & a & R & _ & _ & Et & _ & _ & _ & _ & D & C & _). rewrite <- Et in *.
      eapply fit_mono; [exact C|]. exact (C92_cause_before_effect _ _ _ R D).
    Qed.
  End Usb.

  (** Over WebUSB, for frames and messages of the lengths that it can deal with. *)
  Section Web.
    Variable txlen rxlen : nat.
    Variable consumes : bool.
    Variable max : nat.
    Variable outcome : nat -> list WRes.
    Hypothesis Hsizes : web_sizes txlen rxlen.
    Notation w_run := (w_run Val Ctx SCtx std can_spawn kkind spawn_ctxt d enc task cfg txlen rxlen consumes max outcome).
    Variable ls : list WLabel.
    Variable w : WSys Val Ctx SCtx.
    Hypothesis Hrun : w_run ls (wsys_new Val Ctx SCtx bg ctx0) = Some (w, cl, es).
    Notation tr := (u_trace _ _ _ (w_sys _ _ _ w)).
    Hypothesis Hframes : no_whole_packets es.
    Hypothesis Hmsgs : messages_below enc txlen (Nat.min max 1024) tr.

    Theorem C92_over_webusb_partial : fit_together (none_interrupted tr) cl es tr.
    Proof.
      assert (Hs64 : usb_sizes (Some 64) txlen rxlen) by (destruct Hsizes as (H1 & H2 & H3); repeat split; auto).
      destruct (C89_as_over_nusb_partial std can_spawn kkind spawn_ctxt d enc task bg cfg txlen rxlen consumes max outcome _ _ _ _ _ Hrun Hframes Hmsgs)
        as (us & u & R & _ & Et & _ & _ & _ & A & _). rewrite <- Et.
      exact (C92_over_usb_partial _ _ _ _ _ Hs64 _ _ R A).
    Qed.
  End Web.
End T.
Print Assumptions C92_cause_before_effect.
Print Assumptions C92_over_usb_partial.
Print Assumptions C92_over_webusb_partial.
