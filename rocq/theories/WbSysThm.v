(** Theorems about the workbook example as a whole: C91. *)
From Coq Require Import NArith ZArith List Bool Arith Lia Sorting.Sorted.
From Verif Require Import KeyModel HeaderModel KeySpec KeyProof HeaderSpec MinKeyModel MinKeySpec SchemaModel MacroModel PostcardModel
  DispatchModel DispatchSpec SubModel ClientModel ClientSpec UsbModel UsbSpec NusbRxModel LogModel.
From Verif Require Import DispatchModel DispatchSpec DispatchThm SystemModel SystemSpec AsyncModel AsyncSpec UsbSysModel UsbSysSpec WebUsbModel WebSysModel WebSysSpec
  CodecModel CodecSpec CodecProof CodecStdModel CodecStdProof CodecThm TypedSpec StateSpec StateThm StateTyped
  WorkbookModel WorkbookSpec WorkbookThm WbSysModel WbSysSpec WbSysProof OmitThm.
Import ListNotations.

Section T.
  Variable for_path : NamedType -> str -> Key8.
  Variable std : StdKeys.
  Variable busy : VarHeader -> bool.
  Variable readings : VarHeader -> list Acceleration.
  Variable can_spawn : Trace value unit -> nat -> bool.
  Variable kkind : VarKeyKind.
  Variable cfg : Config.
  Variable id : N.
  Notation arms := (wb_arms for_path busy).
  Notation task := (wb_task for_path readings).
  Notation eps := (wb_eps for_path).
  Notation tout := (wb_tout for_path std).
  Notation tin := (wb_tin for_path).
  Variable d : Dispatcher value Wb.
  (** The firmware compiles; the standard keys stand apart from its own at the key length
      in use (cf. C86); so does the error key. *)
  Hypothesis Hconf : config_ok eps tin tout arms [].
  Hypothesis Hdef : define_dispatch value Wb eps tin tout arms [] = Done d.
  Hypothesis Hkk : klen (d_kind _ _ d) <= klen kkind.
  Hypothesis Hin_apart : distinct_at (klen (d_kind _ _ d)) (ping_req std :: schemas_req std :: map ep_req (em_endpoints eps) ++ map snd (tm_topics tin)).
  Hypothesis Hout_apart : distinct_at (klen (d_kind _ _ d)) (ping_resp std :: schemas_resp std :: map ep_resp (em_endpoints eps) ++ map snd (tm_topics tout)).
  Hypothesis Herr : ~ In (compact (klen kkind) (k8_bytes (error_key std)))
    (map (fun k => compact (klen kkind) (k8_bytes k)) (ping_resp std :: schemas_resp std :: map ep_resp (em_endpoints eps))).
  Hypothesis Hed : error_key std <> td_key for_path row_data.
  Hypothesis Hid : (id < 2 ^ 64)%N.

  (** What the host program did with the client: the device listens to no topic, and
      requests are made by the methods of [WorkbookClient]. *)
  Variable cl : list Label.
  Variable es : list (list Ev).
  Variable calls : list WbCall.
  Hypothesis Hpub : forall f, ~ In (LPublish f) cl.
  Hypothesis Hmade : made for_path std cl calls.
  Hypothesis Hok : Forall call_ok calls.
  Hypothesis Hcount : (N.of_nat (ClientSpec.typed cl) <= 2 ^ 32)%N.

  Notation result := (wb_result).

  Lemma apart_in : NoDup (ping_req std :: schemas_req std :: map (ed_req_key for_path) wb_rows).
  Proof.
    unfold distinct_at in Hin_apart. apply NoDup_map_inv in Hin_apart. rewrite wb_topics_in, app_nil_r, wb_endpoints, map_map in Hin_apart. exact Hin_apart.
  Qed.
  Lemma apart_out : NoDup (ping_resp std :: schemas_resp std :: map (ed_resp_key for_path) wb_rows ++ [schema_topic std; logging_key std; td_key for_path row_data]).
  Proof.
    unfold distinct_at in Hout_apart. apply NoDup_map_inv in Hout_apart. rewrite wb_topics, wb_endpoints, map_map in Hout_apart. exact Hout_apart.
  Qed.
  Lemma apart_err : ~ In (error_key std) (map (ed_resp_key for_path) wb_rows).
  Proof.
    intros H. apply Herr. rewrite wb_endpoints. cbn [map] in *. right; right. cbn [In] in H |- *.
    repeat (destruct H as [<-|H]; [cbn; tauto|]). destruct H.
  Qed.
  Lemma labels_fine : Forall (label_ok (all_eps std eps) tin) cl.
  Proof.
    apply Forall_forall. intros l Hl.
    assert (X : forall req resp body, l = LRequest req resp body -> exists k, l = wb_request for_path std k).
    { intros req resp body ->. assert (Y : In (LRequest req resp body) (map (wb_request for_path std) calls)) by (rewrite <- Hmade; apply filter_In; auto).
      apply in_map_iff in Y. destruct Y as (k & E & _). eauto. }
    destruct l; cbn [label_ok]; auto.
    - destruct (X _ _ _ eq_refl) as (k & E). injection E as -> -> _. unfold is_endpoint, all_eps. cbn [em_endpoints]. rewrite wb_endpoints.
      destruct k; eexists; cbn [wb_req wb_resp wb_rows map In]; [left; reflexivity|..]; do 3 right; auto 10.
    - match type of Hl with In ?x _ => assert (Y : In x (map (wb_request for_path std) calls)) by (rewrite <- Hmade; apply filter_In; auto) end.
      apply in_map_iff in Y. destruct Y as (k & E & _). discriminate E.
    - exfalso. eapply Hpub. exact Hl.
  Qed.

  (** ** C91 The workbook example works *)
  Section Explained.
    Variable ts : list (Turn value Wb unit).
    Variable c : Wb.
    Variable tr : Trace value unit.
    Variable whole : Prop.
    Hypothesis Hex : explained_by std arms [] task wb_spawn d cl es payload_bytes (wb_new id) ts c tr True whole.

    Lemma explained :
      exists order, map call_of ts = map inl order /\
        (forall r k res, nth_error calls r = Some k -> In (r, res) (results es) -> result k res <> WComms ->
           right_result id k (result k res) /\ (light_op k <> [] -> In r order)) /\
        (whole -> forall r k f, nth_error calls r = Some k -> In (r, GotReply f) (results es) -> result k (GotReply f) <> WComms) /\
        lights c = fst (led_run (light_ops calls order) strip_new) /\ unique_id c = id /\ (forall r, In r order -> r < length calls).
    Proof.
      pose proof (wb_typed for_path std busy readings apart_in apart_out Hed apart_err) as Ty.
      destruct (path_light for_path std busy readings apart_in apart_out Hed apart_err cl calls Hmade Hok Hcount (wb_new id) ts c (ex_path _ _ _ _ _ _ _ _ _ _ _ _ _ _ _ Hex) [] (Forall_nil _) eq_refl)
        as (U & order & Eo & El & V & W & Lt).
      exists order. split; [exact Eo|].
      assert (Ret : forall k res, result k res = match returned (wb_rsty for_path std) (wb_req for_path std k) res with
          | HOk _ _ v => match k, v with SetRgbSingle _ _ _ _, VEnum 0 w => WOk w | SetRgbSingle _ _ _ _, VEnum _ _ => WBadPosition | _, _ => WOk v end
          | _ => WComms end).
      { intros k res. unfold returned. rewrite (proj2 (call_types for_path std apart_in k)). destruct k; reflexivity. }
      split; [|split; [|split; [exact El|split; [exact U|exact Lt]]]].
      - intros r k res Hk Hr Hn. rewrite Ret in *.
        destruct (returned (wb_rsty for_path std) (wb_req for_path std k) res) as [w| | | |] eqn:E; try (exfalso; now apply Hn). clear Hn.
        pose proof (C90_values _ _ _ _ _ _ _ _ _ _ _ _ _ _ _ _ Ty Hex _ _ _ _ _ (call_called for_path std apart_in cl calls Hmade Hok Hcount _ _ Hk) Hr E) as Va.
        assert (InO : forall t, In t ts -> call_of t = inl r -> In r order).
        { intros t Ht Et. assert (X : In (inl r) (map (@inl nat nat) order)) by (rewrite <- Eo, <- Et; now apply in_map).
          apply in_map_iff in X. destruct X as (r' & E' & X). now injection E' as ->. }
        destruct Va as [Eq|t Eq _|a h w Eq I1|a h sc w Eq I1 M].
        + pose proof (call_row_spec for_path std k) as C. destruct k; cbn [call_row] in C; try (exfalso; destruct C as [I1 C]; eapply (ping_apart for_path std apart_in); [exact I1|congruence]).
          cbn [right_result wb_arg light_op]. split; [reflexivity|]. intros X. now destruct X.
        + exfalso. eapply (schemas_apart for_path std apart_in). exact Eq.
        + destruct (V _ _ _ _ _ I1) as (k' & Hk' & Rv). rewrite Hk in Hk'. injection Hk' as <-. split; [|intros _; eapply InO; [exact I1|reflexivity]].
          destruct k; cbn [right_value right_result unique_id wb_new] in *; try contradiction; subst; auto.
          * rewrite N.mod_small by exact Hid. reflexivity.
          * destruct (position <? 24)%N; reflexivity.
          * destruct Rv as (b & ->). eauto.
        + destruct (W _ _ _ _ _ I1) as (k' & Hk' & Rw). rewrite Hk in Hk'. injection Hk' as <-. destruct k; try discriminate Rw. cbn [right_result light_op].
          split; [|intros X; now destruct X].
          destruct (path_turn wb_spawn arms [] cl ts _ _ _ (ex_path _ _ _ _ _ _ _ _ _ _ _ _ _ _ _ Hex) I1) as (x & y & G).
          inversion G as [| |? ? ? ? ? ? ? Rq Fl Sp Z|]; subst. destruct Rq as (Ha & _).
          destruct Ha as [<-|[<-|[<-|[<-|[<-|[<-|[]]]]]]]; try discriminate Fl. cbn [wb_arm ea_name wb_task ea_resp] in M.
          destruct (accel_send for_path busy _ _ _ _ _ M) as [(_ & _ & Q)|(Q & _)]; [now injection Q as ->|].
          exfalso. pose proof apart_out as N1. inversion N1 as [|? ? _ N2]; subst. inversion N2 as [|? ? _ N3]; subst. cbn in N3. rewrite Q in N3.
          repeat (match goal with H : NoDup (_ :: _) |- _ => inversion H; clear H; subst end). cbn in *. tauto.
      - intros Wh r k f Hk Hr.
        destruct (C90_replies_decode _ _ _ _ _ _ _ _ _ _ _ _ _ _ _ _ Ty Hex Wh _ _ _ _ (call_called for_path std apart_in cl calls Hmade Hok Hcount _ _ Hk) Hr) as (w & E).
        rewrite Ret, E. destruct k; try discriminate. destruct w; try discriminate. destruct i; discriminate.
    Qed.
  End Explained.

  Lemma apart_in_all : dispatcher_for (all_eps std eps) tin tout arms [] d /\ device_ok std (all_eps std eps) tout arms /\ handlers_ok std tout arms [] task [].
  Proof.
    apply (C86_as_with_std_partial std can_spawn task [] eps tin tout tout arms [] d Hconf Hdef).
    - intros a H. unfold is_endpoint. rewrite wb_endpoints.
      destruct H as [<-|[<-|[<-|[<-|[<-|[<-|[]]]]]]]; eexists; cbn [wb_arm ea_req ea_resp wb_rows map In]; eauto 10.
    - exact (wb_handlers for_path std busy readings).
    - apply incl_refl.
    - unfold is_topic_out. rewrite wb_topics. cbn. auto.
    - exact Hin_apart.
    - exact Hout_apart.
  Qed.

  Lemma explained_works ts c tr (whole : Prop) :
    explained_by std arms [] task wb_spawn d cl es payload_bytes (wb_new id) ts c tr True whole ->
    exists order, works cl es id calls order whole /\ lit id (light_ops calls order) c.
  Proof.
    intros Hex. destruct (explained ts c tr whole Hex) as (order & Eo & R & Wh & El & U & Lt). exists order.
    destruct Hex as [_ _ On _ Or Ti _]. rewrite Eo in On, Or. split.
    - split; [eapply NoDup_map_inv; exact On|exact Lt|exact (Or I)| | | |exact Wh].
      + intros r1 r2 H (x & y & z & E). apply (Ti I r1 r2 H). exists (map inl x), (map inl y), (map inl z). rewrite Eo, E, map_app. cbn [map].
        rewrite map_app. reflexivity.
      + intros r k res Hk Hr Hn. exact (proj2 (R r k res Hk Hr Hn)).
      + intros r k res Hk Hr Hn. exact (proj1 (R r k res Hk Hr Hn)).
    - pose proof (C85_lights (light_ops calls order) (light_ops_ok calls order)) as L. destruct (led_run (light_ops calls order) strip_new) as [s' rs'].
      cbn [fst] in El. rewrite <- El in L. destruct L as (_ & L1 & L2 & L3). split; [exact U|]. split; [exact L1|].
      intros (o & Ho & Hp). apply L2. rewrite L3. apply in_map_iff. exists o. split; [|exact Ho].
      destruct o as [p q|]; [|reflexivity]. destruct (N.ltb_spec p 24); [reflexivity|lia].
  Qed.

  Lemma flat_map_ext_in' {A B} (f g : A -> list B) l : (forall x, In x l -> f x = g x) -> flat_map f l = flat_map g l.
  Proof. induction l as [|x l IH]; intros H; [reflexivity|]. cbn [flat_map]. rewrite (H x (or_introl eq_refl)), IH; auto. intros y Hy. apply H. now right. Qed.
  (** A program that awaits each call before it makes the next. *)
  Lemma in_order (f : nat -> list LedOp) n : forall a l, StronglySorted lt l -> (forall r, In r l -> a <= r) ->
    (forall r, a <= r < a + n -> f r <> [] -> In r l) -> (forall r, a + n <= r -> f r = []) -> flat_map f l = flat_map f (seq a n).
  Proof.
    induction n as [|n IH]; intros a l Hs Ha Hf Hz; cbn [seq flat_map].
    - clear Hs Hf. induction l as [|x l IHl]; [reflexivity|]. cbn [flat_map]. rewrite (Hz x), IHl; [reflexivity| |].
      + intros r H. apply Ha. now right.
      + pose proof (Ha x (or_introl eq_refl)). lia.
    - assert (Z : forall r, S a + n <= r -> f r = []) by (intros r H; apply Hz; lia).
      destruct l as [|x l].
      + assert (E : f a = []). { destruct (f a) eqn:E; [reflexivity|]. exfalso. apply (Hf a); [lia|]. congruence. }
        rewrite E. cbn [app]. apply (IH (S a) [] Hs); [intros r []| |exact Z]. intros r H1 H2. apply (Hf r); [lia|exact H2].
      + inversion Hs as [|? ? Hs' Hlt]; subst. rewrite Forall_forall in Hlt. pose proof (Ha x (or_introl eq_refl)) as Hx.
        destruct (Nat.eq_dec x a) as [->|Ne].
        * cbn [flat_map]. f_equal. apply (IH (S a) l Hs'); [intros r H; specialize (Hlt r H); lia| |exact Z].
          intros r H1 H2. destruct (Hf r ltac:(lia) H2) as [<-|H]; [lia|exact H].
        * assert (E : f a = []). { destruct (f a) eqn:E; [reflexivity|]. exfalso. destruct (Hf a ltac:(lia) ltac:(congruence)) as [->|H]; [lia|]. specialize (Hlt a H). lia. }
          rewrite E. cbn [app]. apply (IH (S a) (x :: l) Hs); [intros r [<-|H]; [lia|specialize (Hlt r H); lia]| |exact Z].
          intros r H1 H2. apply (Hf r); [lia|exact H2].
  Qed.
  Lemma seq_calls : forall (l : list WbCall) a, flat_map (fun r => match nth_error l (r - a) with Some c => light_op c | None => [] end) (seq a (length l)) = flat_map light_op l.
  Proof.
    induction l as [|c l IH]; intros a; [reflexivity|]. cbn [length seq flat_map]. rewrite Nat.sub_diag. cbn [nth_error]. f_equal.
    rewrite <- (IH (S a)). apply flat_map_ext_in'. intros r H. apply in_seq in H. replace (r - a) with (S (r - S a)) by lia. reflexivity.
  Qed.
  Lemma works_in_order order whole : works cl es id calls order whole -> one_by_one cl es calls -> light_ops calls order = flat_map light_op calls.
  Proof.
    intros W (O1 & O2). rewrite <- (seq_calls calls 0).
    transitivity (flat_map (fun r => match nth_error calls r with Some c => light_op c | None => [] end) (seq 0 (length calls))).
    2:{ apply flat_map_ext_in'. intros r _. now rewrite Nat.sub_0_r. }
    pose proof (wk_made _ _ _ _ _ _ W) as Len.
    unfold light_ops. apply in_order.
    - assert (T : forall r1 r2, r1 < r2 -> r2 < length calls -> ~ comes_before order r2 r1).
      { intros r1 r2 L1 L2. apply (wk_time _ _ _ _ _ _ W). destruct (O1 r1 ltac:(lia)) as (n & f & A & B). exists n, f. split; [exact A|lia]. }
      pose proof (wk_once _ _ _ _ _ _ W) as ND. clear - T ND Len. induction order as [|x order IH]; constructor.
      + apply IH. { intros r H. apply Len. now right. } { intros r1 r2 L1 L2 (u & v & w & E). apply (T r1 r2 L1 L2). exists (x :: u), v, w. now rewrite E. } now inversion ND.
      + apply Forall_forall. intros y Hy. destruct (Nat.lt_trichotomy x y) as [L|[->|L]]; [exact L| |]; exfalso.
        * inversion ND; auto.
        * apply (T y x L (Len x (or_introl eq_refl))). apply in_split in Hy. destruct Hy as (v & w & ->). exists [], v, w. reflexivity.
    - lia.
    - intros r H1 H2. destruct (nth_error calls r) as [k|] eqn:E; [|now destruct H2]. destruct (O2 r k E) as (res & A & B). exact (wk_done _ _ _ _ _ _ W r k res E A B H2).
    - intros r H. cbn in H. rewrite (proj2 (nth_error_None calls r) H). reflexivity.
  Qed.

  Lemma works_usb (c : Wb) (tr : Trace value unit) (ctx : Wb) (rest : Prop) whole :
    (exists ts c, explained_by std arms [] task wb_spawn d cl es payload_bytes (wb_new id) ts c tr True whole /\ (rest -> c = ctx)) ->
    exists order, works cl es id calls order whole /\ (rest -> lit id (light_ops calls order) ctx).
  Proof.
    intros (ts & c' & Hex & Fin). destruct (explained_works _ _ _ _ Hex) as (order & W & L). exists order. split; [exact W|].
    intros H. now rewrite <- (Fin H).
  Qed.

  (** Over USB. *)
  Section Usb.
    Variable txlen rxlen : nat.
    Variable consumes : bool.
    Variable mps : option nat.
    Variable outcome : nat -> list WRes.
    Hypothesis Hsizes : usb_sizes mps txlen rxlen.
    Variable ls : list ULabel.
    Variable u : USys value Wb unit.
    Hypothesis Hrun : u_run value Wb unit std can_spawn kkind wb_spawn d payload_bytes task cfg txlen rxlen consumes mps outcome
      ls (usys_new value Wb unit [] (wb_new id)) = Some (u, cl, es).
    Hypothesis Herrs : errors_between_messages ls.

    Theorem C91_over_usb_partial :
      exists order, works cl es id calls order (none_interrupted (u_trace _ _ _ u)) /\
        (u_cur _ _ _ u = None -> lit id (light_ops calls order) (u_ctx _ _ _ u)).
    Proof.
      destruct apart_in_all as (A & B & C). apply (works_usb (u_ctx _ _ _ u) (u_trace _ _ _ u)).
      exact (C90_over_usb_partial std can_spawn kkind wb_spawn d payload_bytes task [] cfg (wb_new id) cl es _ _ _ _ _ A B C Hkk labels_fine Hcount Herr
        txlen rxlen consumes mps outcome Hsizes ls u Hrun Herrs).
    Qed.

    (** If the host program goes step by step, every call returns what it ought to, and
        once the device is at rest, every light has the colour it was given last. *)
    Theorem C91_step_by_step_partial :
      one_by_one cl es calls ->
      (forall r c res, nth_error calls r = Some c -> In (r, res) (results es) -> wb_result c res <> WComms -> right_result id c (wb_result c res)) /\
      (u_cur _ _ _ u = None -> lit id (flat_map light_op calls) (u_ctx _ _ _ u)).
    Proof.
      intros O. destruct C91_over_usb_partial as (order & W & L). split; [exact (wk_right _ _ _ _ _ _ W)|].
      now rewrite <- (works_in_order order _ W O).
    Qed.
  End Usb.

  (** Over WebUSB, for frames and messages of the lengths that it can deal with. *)
  Section Web.
    Variable txlen rxlen : nat.
    Variable consumes : bool.
    Variable max : nat.
    Variable outcome : nat -> list WRes.
    Hypothesis Hsizes : web_sizes txlen rxlen.
    Variable ls : list WLabel.
    Variable w : WSys value Wb unit.
    Hypothesis Hrun : w_run value Wb unit std can_spawn kkind wb_spawn d payload_bytes task cfg txlen rxlen consumes max outcome
      ls (wsys_new value Wb unit [] (wb_new id)) = Some (w, cl, es).
    Notation u := (w_sys _ _ _ w).
    Hypothesis Hframes : no_whole_packets es.
    Hypothesis Hmsgs : messages_below payload_bytes txlen (Nat.min max 1024) (u_trace _ _ _ u).

    Theorem C91_over_webusb_partial :
      exists order, works cl es id calls order (none_interrupted (u_trace _ _ _ u)) /\
        (u_cur _ _ _ u = None -> lit id (light_ops calls order) (u_ctx _ _ _ u)).
    Proof.
      destruct apart_in_all as (A & B & C). apply (works_usb (u_ctx _ _ _ u) (u_trace _ _ _ u)).
      exact (C90_over_webusb_partial std can_spawn kkind wb_spawn d payload_bytes task [] cfg (wb_new id) cl es _ _ _ _ _ A B C Hkk labels_fine Hcount Herr
        txlen rxlen consumes max outcome Hsizes ls w Hrun Hframes Hmsgs).
    Qed.
  End Web.
End T.
Print Assumptions C91_over_usb_partial.
Print Assumptions C91_step_by_step_partial.
Print Assumptions C91_over_webusb_partial.
