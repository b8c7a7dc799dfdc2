(** Theorems about asking a device what it offers, over the whole system: C76. *)
From Coq Require Import NArith List Bool Arith Lia Permutation.
From Verif Require Import KeyModel HeaderModel KeySpec HeaderSpec KeyProof HeaderProof MinKeyModel MinKeySpec MinKeyProof
  SchemaModel MacroModel PostcardModel DispatchModel DispatchSpec DispatchProof SubModel SubSpec
  ClientModel ClientSpec ClientProof ClientHist ClientMore ClientOut ClientThm ClientThm3 UsbSpec FlowBase.
From Verif Require Import DispatchModel DispatchSpec SystemModel SystemSpec SystemProof SystemThm FlowSpec FlowProof FlowThm LiveSpec LiveProof LiveThm
  AsyncModel AsyncSpec AsyncProof AsyncThm MissSpec MissProof MissThm CodecModel CodecSpec CodecStdModel CodecProof CodecStdProof CodecThm TypedThm
  ReportModel ReportSpec ReportProof ReportThm DiscoverSpec DiscoverProof.
Import ListNotations.

Lemma part_none {A} (l : list A) : Part [] l.
Proof. induction l; constructor; auto. Qed.
Lemma part_front {A} (l : list A) : forall a b, Part (a ++ b) l -> Part a l.
Proof.
  induction l as [|x l IH]; intros a b P.
  - inversion P as [E| |]; subst. destruct a; [constructor|discriminate].
  - inversion P as [|? ? ? P'|? ? ? P' E]; subst.
    + apply part_lose. eapply IH; eauto.
    + destruct a as [|y a]; [apply part_none|]. cbn in E. injection E as -> ->. apply part_keep. eapply IH; eauto.
Qed.

Section T.
  Context {Ctx SCtx : Type}.
  Notation Val := value.
  Variable std : StdKeys.
  Variable net : Trace Val SCtx -> VarHeader -> Payload Val -> TxRes.
  Variable can_spawn : Trace Val SCtx -> nat -> bool.
  Variable kkind : VarKeyKind.
  Variable spawn_ctxt : Ctx -> Ctx * SCtx.
  Variable d : Dispatcher Val Ctx.
  Variable task : nat -> SCtx -> VarHeader -> Val -> HProg Val unit.
  Variable bg : list (HProg Val unit).
  Variable cfg : Config.
  Variable eps : EndpointMap.
  Variable tin tout : TopicMap.
  Variable ea : list (EpArm Val Ctx).
  Variable ta : list (TpArm Val Ctx).
  Notation enc := payload_bytes.
  Notation a_run := (a_run Val Ctx SCtx std net can_spawn kkind spawn_ctxt d enc task cfg).
  Notation a_sys := (a_sys Val Ctx SCtx).
  Notation a_cur := (a_cur Val Ctx SCtx).
  Notation y_client := (y_client Val Ctx SCtx).
  Notation y_down := (y_down Val Ctx SCtx).
  Notation y_trace := (y_trace Val Ctx SCtx).
  Notation m := (d_map _ _ d).
  Notation Tr := (Trace Val SCtx).

  Hypothesis Hdisp : dispatcher_for eps tin tout ea ta d.
  Hypothesis Hdev : device_ok std eps tout ea.
  Hypothesis Hhand : handlers_ok std tout ea ta task bg.
  Hypothesis Hkk : klen (d_kind _ _ d) <= klen kkind.
  (** The two standard endpoints differ; the device does not meddle with the schemas and
      offers fewer than 65536 items, with names that are text; its error key is not
      confused with other keys. *)
  Hypothesis Hps : ping_req std <> schemas_req std.
  Hypothesis Hleave : leaves_schemas std ea ta task bg.
  Hypothesis Hlen : (N.of_nat (length (advertised m)) < 65536)%N.
  Hypothesis Hnames : Forall sd_ok (advertised m).
  Hypothesis Happart : error_apart kkind std eps tout.

  Notation outs_keys := (map ep_resp (em_endpoints eps) ++ map snd (tm_topics tout)).
  Notation same k1 k2 := (compact (klen kkind) (k8_bytes k1) = compact (klen kkind) (k8_bytes k2)).

  Lemma same_shrunk t k : varkey_eqb (VKey8 t) (shrink_to (VKey8 k) kkind) = true <-> same t k.
  Proof.
    rewrite varkey_eqb_spec. rewrite vlen_shrunk, vlen8, Nat.min_r by apply klen_le_8. unfold agree_at.
    rewrite shrink_bytes, vlen8, Nat.min_l by apply klen_le_8. rewrite (compact_compact (VKey8 k) kkind kkind); [reflexivity|auto|rewrite vlen8; apply klen_le_8].
  Qed.
  Lemma sk_key_spec k : sk_key std kkind k = true <-> same (schema_topic std) k \/ same (schemas_resp std) k.
  Proof. unfold sk_key, sk, out_header. cbn [hdr_key]. rewrite orb_true_iff, !same_shrunk. reflexivity. Qed.

  Lemma topic_in : In (schema_topic std) outs_keys.
  Proof. destruct Hdev as (_ & _ & H & _). apply in_app_iff. right. exact H. Qed.
  Lemma resp_in req resp : is_endpoint eps req resp -> In resp outs_keys.
  Proof. intros H. apply in_app_iff. left. apply (endpoint_in _ _ _ H). Qed.
  Lemma schemas_in : In (schemas_resp std) outs_keys.
  Proof. destruct Hdev as (_ & H & _). eapply resp_in; eauto. Qed.
  Lemma out_same x y : In x outs_keys -> In y outs_keys -> same x y -> x = y.
  Proof. intros Hx Hy E. eapply (out_keys eps tin tout ea ta d Hdisp kkind); eauto. Qed.
  Lemma topic_not_resp req resp : is_endpoint eps req resp -> ~ same (schema_topic std) resp.
  Proof.
    intros H E. destruct Hdisp as (_ & _ & D & _). destruct (D kkind Hkk) as [_ D2].
    destruct Hdev as (_ & _ & Ht & _). apply (endpoint_in _ _ _) in H as [_ H]. exact (distinct_app_disj _ _ _ _ _ D2 H Ht (eq_sym E)).
  Qed.
  Lemma sk_topic key : is_topic_out tout key -> key <> schema_topic std -> sk_key std kkind key = false.
  Proof.
    intros H N. destruct (sk_key std kkind key) eqn:E; auto. exfalso. apply sk_key_spec in E as [E|E].
    - apply N. symmetry. apply out_same; auto using topic_in. apply in_app_iff. right. exact H.
    - destruct Hdisp as (_ & _ & D & _). destruct (D kkind Hkk) as [_ D2].
      destruct Hdev as (_ & Hs & _). apply (endpoint_in _ _ _) in Hs as [_ Hs]. exact (distinct_app_disj _ _ _ _ _ D2 Hs H E).
  Qed.
  Lemma sk_resp req resp : is_endpoint eps req resp -> req <> schemas_req std -> sk_key std kkind resp = false.
  Proof.
    intros H N. destruct (sk_key std kkind resp) eqn:E; auto. exfalso. apply sk_key_spec in E as [E|E].
    - exact (topic_not_resp _ _ H E).
    - apply out_same in E; [|apply schemas_in|eapply resp_in; eauto]. subst resp. destruct Hdev as (_ & Hs & _).
      apply N. exact (endpoint_unique_resp kkind eps tin tout ea ta d Hdisp Hkk _ _ _ H Hs).
  Qed.
  Lemma sk_error : sk_key std kkind (error_key std) = false.
  Proof.
    destruct (sk_key std kkind (error_key std)) eqn:E; auto. exfalso. apply Happart. apply sk_key_spec in E as [E|E]; rewrite <- E; apply (in_map (fun k => compact (klen kkind) (k8_bytes k))); [apply topic_in|apply schemas_in].
  Qed.
  Lemma sk_own : sk_key std kkind (schema_topic std) = true /\ sk_key std kkind (schemas_resp std) = true.
  Proof. split; apply sk_key_spec; auto. Qed.
  Lemma sk_ping : sk_key std kkind (ping_resp std) = false.
  Proof. destruct Hdev as (H & _). eapply sk_resp; eauto. Qed.

  Lemma leaves_ea a : In a ea -> sk_key std kkind (ea_resp _ _ a) = false /\ (forall ctx h v, leaves std kkind (ea_run _ _ a ctx h v)) /\
    (ea_flavor _ _ a = Spawn -> forall sc h v, leaves std kkind (task (ea_name _ _ a) sc h v)).
  Proof.
    intros Ha. destruct Hdev as (_ & _ & _ & He). destruct Hhand as (H1 & _ & H3 & _). destruct Hleave as (L0 & L1 & _ & L3 & _).
    assert (R : sk_key std kkind (ea_resp _ _ a) = false) by (eapply sk_resp; eauto).
    split; [exact R|]. split.
    - intros ctx h v key seq pl M. destruct (H1 _ _ _ _ _ _ _ Ha M) as [T _]. apply sk_topic; auto. intros ->. exact (L1 _ _ _ _ _ _ Ha M).
    - intros F sc h v key seq pl M. destruct (H3 _ _ _ _ _ _ _ Ha F M) as [[T _]|[[->| ->] _]]; auto using sk_error.
      apply sk_topic; auto. intros ->. exact (L3 _ _ _ _ _ _ Ha F M).
  Qed.
  Lemma leaves_ta a : In a ta -> (forall ctx h v, leaves std kkind (ta_run _ _ a ctx h v)) /\
    (ta_flavor _ _ a = Spawn -> forall sc h v, leaves std kkind (task (ta_name _ _ a) sc h v)).
  Proof.
    intros Ha. destruct Hhand as (_ & H2 & _ & H4 & _). destruct Hleave as (_ & _ & L2 & _ & L4 & _). split.
    - intros ctx h v key seq pl M. destruct (H2 _ _ _ _ _ _ _ Ha M) as [T _]. apply sk_topic; auto. intros ->. exact (L2 _ _ _ _ _ _ Ha M).
    - intros F sc h v key seq pl M. destruct (H4 _ _ _ _ _ _ _ Ha F M) as [T _]. apply sk_topic; auto. intros ->. exact (L4 _ _ _ _ _ _ Ha F M).
  Qed.
  Lemma leaves_bg : Forall (leaves std kkind) bg.
  Proof.
    apply Forall_forall. intros t Ht key seq pl M. destruct Hhand as (_ & _ & _ & _ & H5). destruct Hleave as (_ & _ & _ & _ & _ & L5).
    destruct (H5 _ _ _ _ Ht M) as [T _]. apply sk_topic; auto. intros ->. exact (L5 _ _ _ Ht M).
  Qed.

  Section Run.
  Variable ctx0 : Ctx.
  Variable ls : list ALabel.
  Variable a : ASys Val Ctx SCtx.
  Variable cl : list Label.
  Variable es : list (list Ev).
  Hypothesis Hrun : a_run ls (asys_new Val Ctx SCtx bg ctx0) = Some (a, cl, es).
  Hypothesis Hlab : Forall (label_ok eps tin) cl.
  Notation tr := (y_trace (a_sys a)).

  Lemma reach_d : exists handled, DInv std kkind d task a es handled.
  Proof.
    destruct (disp_arms eps tin tout ea ta d Hdisp) as [E1 E2]. destruct sk_own as [O1 O2].
    eapply (reach_dinv std kkind spawn_ctxt d enc task bg cfg net can_spawn); eauto using sk_error, sk_ping, leaves_bg.
    - rewrite E1. exact leaves_ea.
    - rewrite E2. exact leaves_ta.
  Qed.

  (** A frame that asks for the schemas stems from a request for them. *)
  Lemma asks_req key kk sq : klen (d_kind _ _ d) <= klen kk ->
    In key (map ep_req (em_endpoints eps) ++ map snd (tm_topics tin)) ->
    asks std d (MkHeader (shrink_to (VKey8 key) kk) sq) = true -> key = schemas_req std.
  Proof.
    intros L Hi A. unfold asks in A. cbn [hdr_key] in A. rewrite keyb_of_spec, vlen_shrunk in A.
    destruct (Nat.leb_spec (klen (d_kind _ _ d)) (klen kk)); [|lia]. apply andb_true_iff in A as [_ A].
    refine (pat_in eps tin tout ea ta d Hdisp key kk (MkHeader (shrink_to (VKey8 key) kk) sq) (schemas_req std) L eq_refl Hi _ A).
    apply in_app_iff. left. destruct Hdev as (_ & Hs & _). apply (endpoint_in _ _ _ Hs).
  Qed.

  Variable r : nat.
  Hypothesis Hone : forall r' f resp, nth_error (issued 0 cl) r' = Some (f, resp) -> hdr_key (f_hdr f) = VKey8 (schemas_req std) -> r' = r.

  Lemma one_stream : forall new, fin_cur (a_cur a) new ->
    sch std (tr ++ new) = [] \/ (r < length (issued 0 cl) /\ exists sq, seq_value sq = (N.of_nat r mod 4294967296)%N /\ full std kkind d sq (sch std (tr ++ new))).
  Proof.
    intros new Hf. destruct reach_d as (handled & [(lost & P) _ _ Hs]). destruct (Hs new Hf) as (ss & F & E).
    destruct (C73_as_if_at_once std net can_spawn kkind spawn_ctxt d enc task bg cfg ctx0 ls a cl es Hrun)
      as (net' & can' & ls' & s & more & R & _).
    destruct (reach_sys std net' can' kkind spawn_ctxt enc task bg cfg eps tin tout ea ta d Hdisp Hhand _ _ _ _ _ R) as (hd & HI).
    pose proof (si_run _ _ _ _ _ _ _ _ _ _ _ _ _ _ _ _ _ HI) as Hc.
    destruct (C59_in_order_once _ _ _ _ Hc) as (ND & frames & Ff & (rest & Ew) & _).
    assert (K : forall x f, frame_for cl es x f -> frame_asks std d (rpc_to_bytes f) = true ->
      x = inl r /\ r < length (issued 0 cl) /\ exists hdr body, take_from_slice (rpc_to_bytes f) = Done (Some (hdr, body)) /\ seq_value (hdr_seq hdr) = (N.of_nat r mod 4294967296)%N).
    { intros x f (g & kk & Hkd & -> & Hg) Hq.
      pose proof (seen_le std net' can' kkind spawn_ctxt enc task bg cfg eps tin tout ea ta d Hdisp Hhand _ _ _ _ _ HI _ Hkd) as Lk.
      unfold frame_asks, rpc_to_bytes, shrink_frame in Hq |- *. cbn [f_hdr f_body] in Hq |- *. destruct x as [r2|i].
      - destruct Hg as (resp2 & Hr2). destruct (issued_asked eps tin cl Hlab _ _ _ Hr2) as (req2 & body2 & As2 & ->).
        cbn [f_hdr f_body hdr_seq hdr_key] in Hq |- *.
        assert (Tk : forall b, take_from_slice (write_to_vec (MkHeader (shrink_to (VKey8 req2) kk) (Seq4 (N.of_nat r2 mod 4294967296))) ++ b) =
          Done (Some (MkHeader (shrink_to (VKey8 req2) kk) (Seq4 (N.of_nat r2 mod 4294967296)), b))) by (intros; apply take_written_ok; cbn; apply N.mod_lt; discriminate).
        rewrite Tk in Hq |- *.
        apply asks_req in Hq; [|lia|apply in_app_iff; left; destruct As2 as [He _]; apply (endpoint_in _ _ _ He)]. subst req2.
        rewrite <- (Hone _ _ _ Hr2 eq_refl). split; [reflexivity|]. split; [apply nth_error_Some; congruence|]. do 2 eexists. split; [reflexivity|]. reflexivity.
      - exfalso. assert (Hl : label_ok eps tin (LPublish g)).
        { rewrite Forall_forall in Hlab. apply Hlab. apply nth_error_In in Hg. unfold ClientSpec.published in Hg. apply in_flat_map in Hg as (l & Hl & Hi).
          destruct l; try destruct Hi; [subst; auto|destruct H]. }
        destruct Hl as (key & Hk & Ek & Hok). rewrite take_written_ok in Hq by exact Hok. rewrite Ek in Hq.
        apply asks_req in Hq; [|lia|apply in_app_iff; right; exact Hk]. subst key.
        destruct Hdisp as (_ & _ & D & _). destruct (D kkind Hkk) as [D1 _].
        destruct Hdev as (_ & Hs' & _). apply (endpoint_in _ _ _) in Hs' as [Hs' _]. exact (distinct_app_disj _ _ _ _ _ D1 Hs' Hk eq_refl). }
    assert (L2 : length (filter (fun f => frame_asks std d (rpc_to_bytes f)) frames) <= 1).
    { eapply (filter_one _ _ (inl r)); [exact Ff|exact ND|]. intros x f Hx Hq. apply (K x f Hx Hq). }
    assert (L3 : length (filter (frame_asks std d) (map rpc_to_bytes frames)) = length (filter (fun f => frame_asks std d (rpc_to_bytes f)) frames)).
    { clear. induction frames; cbn; auto. destruct (frame_asks _ _ _); cbn; auto. }
    assert (L1 : length (filter (frame_asks std d) handled) <= 1).
    { apply (perm_filter (frame_asks std d)) in P. rewrite filter_app, app_length in P. rewrite Ew, filter_app, app_length in L3. lia. }
    destruct (filter (frame_asks std d) handled) as [|b [|b2 tl]] eqn:Eh; [| |cbn in L1; lia].
    - inversion F; subst. left. rewrite E. reflexivity.
    - inversion F as [|? l0 ? ss' A0 F0]; subst. inversion F0; subst. right. cbn [concat] in E. rewrite app_nil_r in E. rewrite E.
      destruct A0 as (hdr & body & Tk & Fu).
      assert (Hb : In b (wire es) /\ frame_asks std d b = true).
      { assert (In b (filter (frame_asks std d) handled)) as Hb by (rewrite Eh; left; reflexivity). apply filter_In in Hb as [Hb1 Hb2]. split; auto.
        eapply Permutation_in; [apply Permutation_sym, P|]. apply in_app_iff. auto. }
      destruct Hb as [Hb Fa]. assert (Hb' : In b (map rpc_to_bytes frames)) by (rewrite Ew; apply in_app_iff; auto).
      apply in_map_iff in Hb' as (f & Eb & Hf'). assert (X : exists x, frame_for cl es x f).
      { clear - Ff Hf'. induction Ff; [destruct Hf'|]. destruct Hf' as [<-|]; eauto. }
      destruct X as (x & Hx). rewrite <- Eb in Fa, Tk. destruct (K _ _ Hx Fa) as (_ & Lr & hdr' & body' & Tk' & Sv). rewrite Tk in Tk'. injection Tk' as <- <-. split; [exact Lr|]. exists (hdr_seq hdr). auto.
  Qed.

  (** *** What was transmitted about the schemas *)
  Definition fr (e : Event Val SCtx) : list RpcFrame := match e with EvSend _ h p _ => [MkFrame h (enc p)] | _ => [] end.
  Lemma sent_on_sch (t : Tr) : sent_on t (schema_topic std) = sent_on (sch std t) (schema_topic std).
  Proof.
    induction t as [|e t IH]; [reflexivity|]. unfold sent_on in *. cbn [flat_map]. rewrite IH. destruct e as [w h p r0| |]; try reflexivity.
    unfold sch. cbn [filter]. unfold sk. destruct (varkey_eqb (VKey8 (schema_topic std)) (hdr_key h)) eqn:E; cbn [orb].
    - cbn [flat_map]. rewrite E. reflexivity.
    - destruct (varkey_eqb (VKey8 (schemas_resp std)) (hdr_key h)); [|reflexivity]. cbn [flat_map]. rewrite E. reflexivity.
  Qed.
  Lemma topic_own : varkey_eqb (VKey8 (schema_topic std)) (shrink_to (VKey8 (schema_topic std)) kkind) = true.
  Proof. apply same_shrunk. reflexivity. Qed.
  Lemma resp_own : varkey_eqb (VKey8 (schemas_resp std)) (shrink_to (VKey8 (schemas_resp std)) kkind) = true.
  Proof. apply same_shrunk. reflexivity. Qed.
  Lemma topic_resp : varkey_eqb (VKey8 (schema_topic std)) (shrink_to (VKey8 (schemas_resp std)) kkind) = false.
  Proof.
    destruct (varkey_eqb _ _) eqn:E; auto. apply same_shrunk in E. destruct Hdev as (_ & H & _). destruct (topic_not_resp _ _ H E).
  Qed.
  Lemma resp_topic : varkey_eqb (VKey8 (schemas_resp std)) (shrink_to (VKey8 (schema_topic std)) kkind) = false.
  Proof.
    destruct (varkey_eqb _ _) eqn:E; auto. apply same_shrunk in E. destruct Hdev as (_ & H & _). destruct (topic_not_resp _ _ H (eq_sym E)).
  Qed.
  Lemma pubs_topic items : forall i rs, length rs = length items -> sent_on (publications (Val := Val) (SCtx := SCtx) std kkind i items rs) (schema_topic std) = map PSchemaData items.
  Proof.
    induction items as [|x items IH]; intros i [|r0 rs] L; cbn in L; try lia; auto. cbn [publications map]. unfold sent_on in *. cbn [flat_map out_header hdr_key].
    rewrite topic_own, IH by lia. reflexivity.
  Qed.
  Lemma pubs_not_resp items : forall i rs w h p r0, In (EvSend w h p r0) (publications (Val := Val) (SCtx := SCtx) std kkind i items rs) ->
    varkey_eqb (VKey8 (schemas_resp std)) (hdr_key h) = false.
  Proof.
    induction items as [|x items IH]; intros i [|r1 rs] w h p r0 H; cbn [publications] in H; try destruct H as [].
    - injection H as <- <- <- <-. apply resp_topic.
    - eapply IH; eauto.
  Qed.
  Lemma full_topic sq (l : Tr) : full std kkind d sq l -> sent_on l (schema_topic std) = map PSchemaData (advertised m).
  Proof.
    intros (rs & r0 & L & ->). unfold sent_on. rewrite flat_map_app. fold (sent_on (publications (Val := Val) (SCtx := SCtx) std kkind 0 (advertised m) rs) (schema_topic std)).
    rewrite (pubs_topic _ _ _ L). cbn [flat_map out_header hdr_key]. rewrite topic_resp, !app_nil_r. reflexivity.
  Qed.

  (** All that was transmitted under the schema topic is the beginning of one list of
      what the device advertises. *)
  Lemma sent_is_part : exists rest, map PSchemaData (advertised m) = sent_on tr (schema_topic std) ++ rest \/ sent_on tr (schema_topic std) = [].
  Proof.
    destruct (fin_cur_some (a_cur a)) as (new & Hf). destruct (one_stream new Hf) as [E|(_ & sq & _ & F)].
    - exists []. right. rewrite sent_on_sch. rewrite sch_app in E. apply app_eq_nil in E as [-> _]. reflexivity.
    - apply full_topic in F. rewrite sch_app in F. unfold sent_on in F. rewrite flat_map_app in F.
      eexists. left. rewrite sent_on_sch. symmetry. exact F.
  Qed.

  (** A response to a request for the schemas comes after the whole list. *)
  Lemma response_is_last w h p r0 : In (EvSend w h p r0) tr -> varkey_eqb (VKey8 (schemas_resp std)) (hdr_key h) = true ->
    exists rs sq, length rs = length (advertised m) /\ r < length (issued 0 cl) /\
      sch std tr = publications std kkind 0 (advertised m) rs ++ [EvSend ByDispatcher (out_header kkind (schemas_resp std) sq) (PSchemaTotals (totals d rs)) r0] /\
      h = out_header kkind (schemas_resp std) sq /\ p = PSchemaTotals (totals d rs).
  Proof.
    intros Hi Hm. destruct (fin_cur_some (a_cur a)) as (new & Hf).
    assert (Hs : In (EvSend w h p r0) (sch std tr)). { apply filter_In. split; auto. unfold sk. rewrite Hm. apply orb_true_r. }
    destruct (one_stream new Hf) as [E|(Lr & sq & _ & rs & r1 & L & E)]; rewrite sch_app in E.
    { apply app_eq_nil in E as [E _]. rewrite E in Hs. destruct Hs. }
    destruct (sch std new) as [|e tl] eqn:En.
    - rewrite app_nil_r in E. rewrite E in Hs. apply in_app_iff in Hs as [Hs|[Hs|[]]].
      + apply pubs_not_resp in Hs. congruence.
      + injection Hs as <- <- <- <-. exists rs, sq. auto.
    - exfalso. destruct (exists_last (l := e :: tl)) as (tl' & x & Ex); [discriminate|]. rewrite Ex, app_assoc in E. apply app_inj_tail in E as [E _].
      assert (Hp : In (EvSend w h p r0) (publications std kkind 0 (advertised m) rs)) by (rewrite <- E; apply in_app_iff; auto).
      apply pubs_not_resp in Hp. congruence.
  Qed.

  Lemma totals_fine rs : length rs = length (advertised m) -> totals_ok (totals d rs).
  Proof.
    intros L. pose proof Hlen as Lt'. clear - Lt' L. unfold advertised in Lt', L. rewrite !app_length, !map_length in Lt', L.
    assert (Lf : failures rs <= length rs) by (unfold failures; clear; induction rs as [|x rs IH]; cbn; [lia|destruct x; cbn; lia]).
    unfold totals_ok, totals, uint_ok. cbn [bits types_sent endpoints_sent topics_in_sent topics_out_sent errors].
    assert (65536 < 2 ^ 32)%N by (vm_compute; reflexivity). lia.
  Qed.
  Lemma totals_part t l missing t' : totals_ok t -> ser (totals_value t) = l ++ missing -> from_bytes_totals l = Some t' -> t' = t.
  Proof.
    intros He E H. unfold from_bytes_totals in H. destruct (from_bytes t_totals l) as [w|] eqn:D; [|discriminate].
    destruct (totals_typed t He) as [T V]. destruct (de_part _ _ _ _ _ T E D) as [-> _]. congruence.
  Qed.
  Lemma schema_part x l missing x' : sd_ok x -> ser (schema_value x) = l ++ missing -> from_bytes_schema l = Some x' -> x' = x.
  Proof.
    intros Hx E H. unfold from_bytes_schema in H. destruct (de_schema_data l) as [[w rest]|] eqn:D; [|discriminate]. injection H as ->.
    pose proof (ext2_schema _ _ _ missing D) as X. rewrite <- E in X.
    pose proof (de_schema_ser x [] Hx) as Y. rewrite app_nil_r, X in Y. injection Y as -> _. reflexivity.
  Qed.

  (** *** The reply *)
  Lemma frame_sent f : In f (arrived cl) -> exists w h p r0, In (EvSend w h p r0) tr /\ f_hdr f = h /\ body_of enc (system_labels ls) f p.
  Proof.
    intros Hf.
    pose proof (a_flow std kkind spawn_ctxt d enc task bg cfg net can_spawn ctx0 ls a cl es Hrun) as Fl.
    destruct (down_flow enc (system_labels ls) tr cl (y_down (a_sys a)) Fl) as (ss & kept & P & _ & Sk & F).
    { intros w h p r0 Hi. eapply (sent_seq std net can_spawn kkind spawn_ctxt d enc task bg cfg eps tin tout ea ta Hdisp Hdev Hkk Hhand ctx0 ls a cl es Hrun Hlab); eauto. }
    assert (Hx : exists x, In x kept /\ f_hdr f = fst x /\ body_of enc (system_labels ls) f (snd x)).
    { clear - F Hf. induction F as [|f0 x l1 l2 [H1 H2] F IH]; [destruct Hf|]. destruct Hf as [->|Hf]; [exists x; split; [left|]; auto|].
      destruct (IH Hf) as (y & Hy & E). exists y. split; [right|]; auto. }
    destruct Hx as ([h p] & Hx & E & B). cbn [fst snd] in E, B.
    assert (Hs : In (h, p) (sends tr)).
    { eapply Permutation_in; [apply Permutation_sym, P|]. eapply subseq_in; eauto. }
    unfold sends in Hs. apply in_flat_map in Hs as (e & He & Hs). destruct e as [w h0 p0 r0| |]; cbn in Hs; try contradiction. destruct Hs as [[= <- <-]|[]].
    exists w, h0, p0, r0. auto.
  Qed.

  Lemma reply_frame f : In (r, GotReply f) (results es) -> asks_schemas std cl r ->
    In f (arrived cl) /\ varkey_eqb (VKey8 (schemas_resp std)) (hdr_key (f_hdr f)) = true.
  Proof.
    intros Hr (q & Hi & _).
    destruct (C73_as_if_at_once std net can_spawn kkind spawn_ctxt d enc task bg cfg ctx0 ls a cl es Hrun)
      as (net' & can' & ls' & s & more & R & _).
    destruct (reach_sys std net' can' kkind spawn_ctxt enc task bg cfg eps tin tout ea ta d Hdisp Hhand _ _ _ _ _ R) as (hd & HI).
    pose proof (si_run _ _ _ _ _ _ _ _ _ _ _ _ _ _ _ _ _ HI) as Hc.
    destruct (proj1 (C30_answer_matches _ _ _ _ r f Hc) Hr) as (sent & resp & kk & Hi' & Ha & Hk & Hm).
    rewrite Hi in Hi'. injection Hi' as <- <-.
    pose proof (seen_le std net' can' kkind spawn_ctxt enc task bg cfg eps tin tout ea ta d Hdisp Hhand _ _ _ _ _ HI _ Hk) as Lk.
    destruct (frame_sent f Ha) as (w & h & p & r0 & Hs & Eh & _).
    destruct (sent_header std net can_spawn kkind spawn_ctxt d enc task bg cfg ctx0 ls a cl es Hrun eps tin tout ea ta Hdisp Hdev Hkk Hlab Hhand _ _ _ _ Hs)
      as (key & sq & -> & _).
    split; auto. destruct f as [fh fb]. cbn [f_hdr] in Eh. subst fh. apply (answers_key kkind d Hkk _ _ _ _ _ _ Lk) in Hm as [_ Hm].
    cbn [f_hdr out_header hdr_key]. apply same_shrunk. exact Hm.
  Qed.

  Lemma reply_totals f tot : In (r, GotReply f) (results es) -> asks_schemas std cl r -> from_bytes_totals (f_body f) = Some tot ->
    exists rs, length rs = length (advertised m) /\ tot = totals d rs /\
      exists sq r0, sch std tr = publications std kkind 0 (advertised m) rs ++ [EvSend ByDispatcher (out_header kkind (schemas_resp std) sq) (PSchemaTotals (totals d rs)) r0].
  Proof.
    intros Hr As Ht. destruct (reply_frame f Hr As) as [Ha Hm]. destruct (frame_sent f Ha) as (w & h & p & r0 & Hs & Eh & (missing & Eb & _)).
    rewrite Eh in Hm. destruct (response_is_last _ _ _ _ Hs Hm) as (rs & sq & L & _ & E & _ & ->).
    exists rs. split; auto. split; [|eauto]. eapply totals_part; [apply totals_fine; exact L|exact Eb|exact Ht].
  Qed.

  (** *** What the collecting task hears *)
  Definition decoded (fs : list RpcFrame) : list SchemaData :=
    flat_map (fun f => match from_bytes_schema (f_body f) with Some s => [s] | None => [] end) fs.
  Definition gots (l : list RecvOutcome) : list SchemaData := flat_map (fun o => match o with Got s => [s] | _ => [] end) l.
  Lemma gots_heard cl' es' id : gots (heard cl' es' id) = decoded (given_multi cl' es' id).
  Proof.
    unfold gots, heard, decoded, given_multi. rewrite !flat_map_flat_map. apply flat_map_ext. intros [l e].
    repeat match goal with |- context [match ?x with _ => _ end] => is_var x; destruct x; cbn [flat_map app]; try reflexivity end.
    all: try (destruct (Nat.eqb _ _); reflexivity).
    destruct (Nat.eqb _ _); cbn [flat_map app]; auto. destruct (from_bytes_schema _); reflexivity.
  Qed.
  Lemma collect_gots l : exists rest, gots l = collect l ++ rest.
  Proof. induction l as [|[x| | |] l (rest & IH)]; cbn; eauto. fold (gots l). rewrite IH. eauto. Qed.

  Lemma heard_part id outs : subscribed_multi cl es (schema_topic std) id -> down_in_order (system_labels ls) -> listened cl es id outs -> Part (collect outs) (advertised m).
  Proof.
    intros Hs Ho (got & rest & Eh & ->).
    destruct (C73_given_multi_was_sent std net can_spawn kkind spawn_ctxt d enc task bg cfg ctx0 ls a cl es Hrun eps tin tout ea ta Hdisp Hdev Hkk Hlab Hhand _ _ Hs)
      as (ps & F & _ & Sq). specialize (Sq Ho).
    destruct (collect_gots (got ++ [Elapsed])) as (r1 & E1).
    assert (E2 : decoded (given_multi cl es id) = collect (got ++ [Elapsed]) ++ (r1 ++ gots rest)).
    { rewrite <- gots_heard, Eh. unfold gots in *. rewrite !flat_map_app in *. cbn [flat_map] in E1. rewrite !app_nil_r in E1. rewrite E1, app_assoc. reflexivity. }
    assert (P : Part (decoded (given_multi cl es id)) (advertised m)).
    { destruct sent_is_part as (more & [Em|En]).
      - assert (Sq' : subsequence ps (map PSchemaData (advertised m))). { rewrite Em. clear - Sq. induction Sq; cbn; constructor; auto. }
        clear - F Sq' Hnames. remember (map PSchemaData (advertised m)) as l eqn:El. revert El F. generalize (given_multi cl es id). revert Hnames. generalize (advertised m).
        induction Sq'; intros xs Hok fs El F.
        + inversion F; subst. clear. induction xs; constructor; auto.
        + destruct xs as [|y xs]; [discriminate|]. cbn in El. injection El as -> ->. inversion F as [|f p fs' ps' (missing & E & _) F']; subst.
          pose proof (Forall_inv Hok) as Hy. specialize (IHSq' _ (Forall_inv_tail Hok) _ eq_refl F'). unfold decoded. cbn [flat_map]. fold (decoded fs').
          destruct (from_bytes_schema (f_body f)) as [y'|] eqn:D; cbn [app].
          * rewrite (schema_part y (f_body f) missing y' Hy E D). apply part_keep. exact IHSq'.
          * apply part_lose. exact IHSq'.
        + destruct xs as [|y xs]; [discriminate|]. cbn in El. injection El as -> ->. apply part_lose. apply IHSq'; auto. apply (Forall_inv_tail Hok).
      - rewrite En in Sq. inversion Sq; subst. inversion F; subst. cbn. clear. induction (advertised m); constructor; auto. }
    rewrite E2 in P. eapply part_front; exact P.
  Qed.

  Lemma report_is_of_device hash builtin order id f tot outs rpt : set_order order ->
    down_in_order (system_labels ls) ->
    asks_schemas std cl r ->
    subscribed_multi cl es (schema_topic std) id ->
    In (r, GotReply f) (results es) -> from_bytes_totals (f_body f) = Some tot ->
    listened cl es id outs ->
    @get_schema_report hash builtin order unit true (Some outs) (inl tot) = Done (inl rpt) ->
    same_rows rpt m /\ report_sound hash rpt /\
    (forall t, In t (rp_types rpt) -> In t builtin \/ In t (dm_types m)).
  Proof.
    intros Hord Ho As Hs Hr Ht Hl R.
    pose proof (heard_part id outs Hs Ho Hl) as P. destruct (reply_totals f tot Hr As Ht) as (rs & L & -> & _).
    destruct (report_ok hash builtin order Hord _ _ _ R) as (ND & Ts & Q1 & Q2 & Q3 & Sd & S1 & S2 & S3 & S4).
    cbn [totals endpoints_sent topics_in_sent topics_out_sent] in S1, S2, S3. unfold totals in S1, S2, S3. cbn in S1, S2, S3.
    apply Nnat.Nat2N.inj in S1, S2, S3. split; [|split; [exact Sd|]].
    - split; [|split].
      + rewrite Q1, <- eps_advertised. apply part_full; [apply part_flat_map; exact P|].
        change (length (eps_of (collect outs)) = length (eps_of (advertised m))).
        rewrite <- Q1, map_length, eps_advertised. congruence.
      + rewrite Q2, <- tin_advertised. apply part_full; [apply part_flat_map; exact P|].
        change (length (tin_of (collect outs)) = length (tin_of (advertised m))).
        rewrite <- Q2, map_length, tin_advertised. congruence.
      + rewrite Q3, <- tout_advertised. apply part_full; [apply part_flat_map; exact P|].
        change (length (tout_of (collect outs)) = length (tout_of (advertised m))).
        rewrite <- Q3, map_length, tout_advertised. congruence.
    - intros t It. apply Ts in It. unfold known in It. apply in_app_or in It. destruct It as [It|It]; auto.
      right. rewrite <- types_advertised. eapply part_in; [apply part_flat_map; exact P|exact It].
  Qed.

  (** *** What is on the way *)
  Lemma down_sent f : In f (flat_map frame_of (y_down (a_sys a))) -> exists w p r0, In (EvSend w (f_hdr f) p r0) tr.
  Proof.
    intros Hf.
    pose proof (a_flow std kkind spawn_ctxt d enc task bg cfg net can_spawn ctx0 ls a cl es Hrun) as Fl.
    assert (Fl' : SystemProof.flow enc (system_labels ls) tr (recvd (cl ++ map LRecv (y_down (a_sys a))) ++ [])).
    { rewrite app_nil_r. unfold recvd in *. rewrite flat_map_app.
      replace (flat_map (fun l => match l with LRecv b => [b] | _ => [] end) (map LRecv (y_down (a_sys a)))) with (y_down (a_sys a)); [exact Fl|].
      generalize (y_down (a_sys a)). induction l as [|b l IH]; cbn; congruence. }
    destruct (down_flow enc (system_labels ls) tr _ [] Fl') as (ss & kept & P & _ & Sk & F).
    { intros w h p r0 Hi. eapply (sent_seq std net can_spawn kkind spawn_ctxt d enc task bg cfg eps tin tout ea ta Hdisp Hdev Hkk Hhand ctx0 ls a cl es Hrun Hlab); eauto. }
    assert (Ha : In f (arrived (cl ++ map LRecv (y_down (a_sys a))))).
    { rewrite arrived_app. apply in_app_iff. right. unfold arrived. rewrite flat_map_concat_map, map_map, <- flat_map_concat_map. exact Hf. }
    assert (Hx : exists x, In x kept /\ f_hdr f = fst x).
    { clear - F Ha. induction F as [|f0 x l1 l2 [H1 H2] F IH]; [destruct Ha|]. destruct Ha as [->|Hf]; [exists x; split; [left|]; auto|].
      destruct (IH Hf) as (y & Hy & E). exists y. split; [right|]; auto. }
    destruct Hx as ([h p] & Hx & E). cbn [fst] in E.
    assert (Hs : In (h, p) (sends tr)).
    { eapply Permutation_in; [apply Permutation_sym, P|]. eapply subseq_in; eauto. }
    unfold sends in Hs. apply in_flat_map in Hs as (e & He & Hs). destruct e as [w h0 p0 r0| |]; cbn in Hs; try contradiction. destruct Hs as [[= <- <-]|[]].
    rewrite E. eauto.
  Qed.
  End Run.

  (** *** C76 What a report can say *)

  (** [get_schema_report] subscribes to the schema topic, asks for the schemas, and collects
      what it hears until its timer runs out (mod.rs:237-300).  The link may lose or cut
      what it carries, requests and handlers of other kinds may run beside it, the
      subscription may be made late or lag, and the timer may run out early.  If it
      returns a report at all, the endpoints and topics in it are those of the device. *)
  Theorem C76_report_is_of_the_device :
    forall ctx0 ls a cl es r hash builtin order id f tot outs rpt,
      a_run ls (asys_new Val Ctx SCtx bg ctx0) = Some (a, cl, es) -> Forall (label_ok eps tin) cl ->
      set_order order ->
      down_in_order (system_labels ls) ->
      only_discovery std cl r ->
      subscribed_multi cl es (schema_topic std) id ->
      In (r, GotReply f) (results es) -> from_bytes_totals (f_body f) = Some tot ->
      listened cl es id outs ->
      @get_schema_report hash builtin order unit true (Some outs) (inl tot) = Done (inl rpt) ->
      same_rows rpt m /\ report_sound hash rpt /\
      (forall t, In t (rp_types rpt) -> In t builtin \/ In t (dm_types m)).
  Proof.
    intros ctx0 ls a cl es r hash builtin order id f tot outs rpt Hrun Hlab Hord Ho [As On] Hs Hr Ht Hl R.
    eapply report_is_of_device; eauto.
  Qed.

  Lemma sk_messages (t : Tr) : (forall w h p r0, In (EvSend w h p r0) t -> seq_ok (hdr_seq h)) ->
    filter (fun f => sk std (f_hdr f)) (flat_map frame_of (frames_sent Val SCtx enc t)) = flat_map fr (sch std t).
  Proof.
    induction t as [|e t IH]; intros H; [reflexivity|]. specialize (IH ltac:(intros; eapply H; right; eauto)).
    destruct e as [w h p r| |]; try exact IH.
    unfold frames_sent. cbn [flat_map]. fold (frames_sent Val SCtx enc t).
    rewrite flat_map_app, filter_app, IH. cbn [flat_map]. rewrite app_nil_r. unfold frame_of, rpc_to_bytes. cbn [f_hdr f_body].
    rewrite take_written_ok by (eapply H; left; reflexivity). cbn [filter f_hdr]. unfold sch at 2. cbn [filter]. destruct (sk std h); reflexivity.
  Qed.
  Lemma messages_sch (t : Tr) : messages enc t (schema_topic std) = messages enc (sch std t) (schema_topic std).
  Proof.
    induction t as [|e t IH]; [reflexivity|]. unfold messages in *. cbn [flat_map]. rewrite IH. destruct e as [w h p r0| |]; try reflexivity.
    unfold sch. cbn [filter]. unfold sk. destruct (varkey_eqb (VKey8 (schema_topic std)) (hdr_key h)) eqn:E; cbn [orb].
    - cbn [flat_map]. rewrite E. reflexivity.
    - destruct (varkey_eqb (VKey8 (schemas_resp std)) (hdr_key h)); [|reflexivity]. cbn [flat_map]. rewrite E. reflexivity.
  Qed.
  Lemma pubs_decoded items : forall i rs, length rs = length items -> Forall sd_ok items ->
    decoded (messages enc (publications (Val := Val) (SCtx := SCtx) std kkind i items rs) (schema_topic std)) = items.
  Proof.
    induction items as [|x items IH]; intros i [|r0 rs] L Hok; cbn in L; try lia; auto. cbn [publications]. unfold messages. cbn [flat_map out_header hdr_key].
    rewrite topic_own. unfold decoded. cbn [app flat_map f_body]. fold (messages enc (publications (Val := Val) (SCtx := SCtx) std kkind (S i) items rs) (schema_topic std)).
    fold (decoded (messages enc (publications (Val := Val) (SCtx := SCtx) std kkind (S i) items rs) (schema_topic std))).
    rewrite (IH (S i) rs ltac:(lia) (Forall_inv_tail Hok)). unfold payload_bytes.
    pose proof (proj2 (proj2 C65_standard_round_trip) x [] (Forall_inv Hok)) as R. rewrite app_nil_r in R. rewrite R. reflexivity.
  Qed.
  Lemma all_gots cl es id : never_lagged cl es id -> never_closed cl es id -> heard cl es id = map Got (gots (heard cl es id)).
  Proof.
    intros NL NC. assert (F : Forall (fun o => exists x, o = Got x) (heard cl es id)).
    { apply Forall_forall. intros o Ho. unfold heard in Ho. apply in_flat_map in Ho as ([l e] & Hi & Ho).
      destruct l; try contradiction. destruct o0 as [| | | | | |i| | |]; try contradiction.
      all: destruct e as [|[| | |out|] []]; try contradiction; destruct out as [| | |mo|]; try contradiction.
      all: destruct (Nat.eqb_spec i id) as [->|]; [|contradiction]; destruct mo as [g| | |]; try contradiction.
      - destruct (from_bytes_schema (f_body g)); [|destruct Ho]. destruct Ho as [<-|[]]. eauto.
      - exfalso. eapply NL; eauto. }
    induction F as [|o l (x & ->) F IH]; [reflexivity|]. cbn. f_equal. exact IH.
  Qed.

  (** *** C76 When discovery succeeds *)
  Variable ctx0 : Ctx.
  Variables (depth id : nat).
  Variable ls1 ls2 : list ALabel.
  Variable a1 a2 a : ASys Val Ctx SCtx.
  Variable cl1 cl2 : list Label.
  Variable es1 es2 : list (list Ev).
  Notation subscribe := (LSub (SubscribeMulti (schema_topic std) depth)).
  Notation cl := (cl1 ++ subscribe :: cl2).
  Notation es := (es1 ++ [EvSub (ORes (Subscribed id))] :: es2).
  Hypothesis Hrun1 : a_run ls1 (asys_new Val Ctx SCtx bg ctx0) = Some (a1, cl1, es1).
  Hypothesis Hsub : a_run [ASystem (SClient subscribe)] a1 = Some (a2, [subscribe], [[EvSub (ORes (Subscribed id))]]).
  Hypothesis Hrun2 : a_run ls2 a2 = Some (a, cl2, es2).
  Hypothesis Hlab1 : Forall (label_ok eps tin) cl1.
  Hypothesis Hlab2 : Forall (label_ok eps tin) cl2.
  Hypothesis Hrecv : still_receiving (cl1 ++ cl2).
  Hypothesis Hkeeps : keeps_down (system_labels ls2).
  Hypothesis Horder : down_in_order (system_labels ls2).
  Variable r : nat.
  Hypothesis Honly : only_discovery std cl r.
  Hypothesis Hafter : length (issued 0 cl1) <= r.

  Lemma whole_run : a_run (ls1 ++ [ASystem (SClient subscribe)] ++ ls2) (asys_new Val Ctx SCtx bg ctx0) = Some (a, cl, es).
  Proof.
    exact (run_then std net can_spawn kkind spawn_ctxt d enc task cfg _ _ _ _ _ _ _ _ _ Hrun1 (run_then std net can_spawn kkind spawn_ctxt d enc task cfg _ _ _ _ _ _ _ _ _ Hsub Hrun2)).
  Qed.
  Lemma whole_labels : Forall (label_ok eps tin) cl.
  Proof. apply Forall_app. split; auto. constructor; auto. exact Logic.I. Qed.
  Lemma one1 r' f resp : nth_error (issued 0 cl1) r' = Some (f, resp) -> hdr_key (f_hdr f) = VKey8 (schemas_req std) -> r' = r.
  Proof.
    intros H. destruct Honly as [_ H0]. apply (H0 r' f resp). rewrite issued_app, nth_error_app1; auto. apply nth_error_Some. congruence.
  Qed.
  Lemma nothing_before : sch std (y_trace (a_sys a1)) = [].
  Proof.
    destruct (fin_cur_some (a_cur a1)) as (new & Hf). destruct (one_stream ctx0 ls1 a1 cl1 es1 Hrun1 Hlab1 r one1 new Hf) as [E|(L & _)]; [|lia].
    rewrite sch_app in E. apply app_eq_nil in E as [E _]. exact E.
  Qed.
  Lemma not_before w h p r0 : In (EvSend w h p r0) (y_trace (a_sys a1)) -> sk std h = false.
  Proof.
    intros Hi. destruct (sk std h) eqn:E; auto. exfalso. assert (H : In (EvSend w h p r0) (sch std (y_trace (a_sys a1)))) by (apply filter_In; auto).
    rewrite nothing_before in H. destruct H.
  Qed.
  Lemma filter_none {A} (g : A -> bool) l : (forall x, In x l -> g x = false) -> filter g l = [].
  Proof. induction l as [|x l IH]; intros H; auto. cbn. rewrite (H x (or_introl eq_refl)). apply IH. intros y Hy. apply H. right. exact Hy. Qed.

  (** The subscription is made before the schemas are asked for, the subscriber neither
      lags nor stops listening before the reply, and the link to the client loses nothing:
      then the reply is complete and so is the report. *)
  Theorem C76_discovery_succeeds :
    forall hash builtin order f, set_order order ->
      kept_multi cl2 id -> only_topic kkind (schema_topic std) cl ->
      never_lagged cl2 es2 id \/ ((forall d', ~ In (LSub (SubscribeMulti (schema_topic std) d')) cl1) /\ keeps_up_multi cl2 es2 (schema_topic std) id depth) ->
      found_empty_multi cl2 es2 id ->
      In (r, GotReply f) (results es) ->
      (forall w h x r0, In (EvSend w h (PSchemaData x) r0) (y_trace (a_sys a)) -> r0 = TxOk) ->
      Forall (ep_resolvable hash (builtin ++ dm_types m)) (dm_endpoints m) ->
      Forall (tp_resolvable hash (builtin ++ dm_types m)) (dm_topics_in m) ->
      Forall (tp_resolvable hash (builtin ++ dm_types m)) (dm_topics_out m) ->
      exists tot rpt, from_bytes_totals (f_body f) = Some tot /\
        @get_schema_report hash builtin order unit true (Some (heard cl2 es2 id ++ [Elapsed])) (inl tot) = Done (inl rpt) /\
        same_rows rpt m /\ same_types builtin rpt m /\ report_sound hash rpt.
  Proof.
    intros hash builtin order f Hord K O G Fe Hr Hok R1 R2 R3.
    pose proof whole_run as Hw. pose proof whole_labels as Hl.
    destruct (reply_frame _ _ _ _ _ Hw Hl r f Hr (proj1 Honly)) as [Ha Hm].
    (* the reply came after the subscription *)
    assert (Ha2 : In f (arrived cl2)).
    { rewrite arrived_app in Ha. apply in_app_iff in Ha as [Ha|Ha]; [|exact Ha]. exfalso.
      destruct (frame_sent _ _ _ _ _ Hrun1 Hlab1 f Ha) as (w & h & p & r0 & Hs & Eh & _). apply not_before in Hs. rewrite <- Eh in Hs. unfold sk in Hs. rewrite Hm, orb_true_r in Hs. discriminate. }
    destruct (frame_sent _ _ _ _ _ Hw Hl f Ha) as (w & h & p & r0 & Hs & Eh & _). rewrite Eh in Hm.
    destruct (response_is_last _ _ _ _ _ Hw Hl r (proj2 Honly) _ _ _ _ Hs Hm) as (rs & sq & L & _ & Esch & Eh' & Ep).
    (* the link *)
    destruct (sub_same std net can_spawn kkind spawn_ctxt d enc task cfg ls2 a1 a2 a cl2 es2 Hrun2 _ _ Hsub eq_refl) as [Et Ed].
    destruct (link std net can_spawn kkind spawn_ctxt d enc task cfg a2 _ _ _ _ Hrun2 Hkeeps) as (new & T & _ & Q). specialize (Q Horder). rewrite Et in T. rewrite Ed in Q.
    destruct (C75_multi_nothing_missed std net can_spawn kkind spawn_ctxt d enc task bg cfg eps tin tout ea ta Hdisp Hdev Hkk Hhand ctx0 (schema_topic std) depth id
      ls1 ls2 a1 a2 a cl1 cl2 es1 es2 Hrun1 Hrun2 Hlab1 Hlab2 Hrecv Hkeeps Hsub K O G) as (NL & NC & new' & waiting & T' & _ & Q' & W).
    specialize (Q' Horder). rewrite (W Fe) in Q'. cbn [app] in Q'. rewrite T in T'. apply app_inv_head in T'. subst new'.
    assert (Sq : forall w h p r, In (EvSend w h p r) new -> seq_ok (hdr_seq h)).
    { intros w1 h1 p1 r1 Hi. eapply (sent_seq std net can_spawn kkind spawn_ctxt d enc task bg cfg eps tin tout ea ta Hdisp Hdev Hkk Hhand ctx0 _ _ _ _ Hw Hl).
      rewrite T. apply in_app_iff. right. exact Hi. }
    assert (Esn : sch std new = sch std (y_trace (a_sys a))). { rewrite T, sch_app, nothing_before. reflexivity. }
    rewrite Esch in Esn.
    assert (D1 : filter (fun g => sk std (f_hdr g)) (flat_map frame_of (y_down (a_sys a1))) = []).
    { apply filter_none. intros g Hg. destruct (down_sent _ _ _ _ _ Hrun1 Hlab1 g Hg) as (w1 & p1 & r1 & Hi). eapply not_before; eauto. }
    apply (f_equal (filter (fun g => sk std (f_hdr g)))) in Q. rewrite !filter_app, D1, (sk_messages _ Sq), Esn, flat_map_app in Q. cbn [app flat_map fr] in Q.
    assert (Hf : In f (filter (fun g => sk std (f_hdr g)) (arrived cl2))).
    { apply filter_In. split; auto. rewrite Eh. unfold sk. rewrite Hm. apply orb_true_r. }
    (* so nothing more of the schemas is on the way *)
    destruct (filter (fun g => sk std (f_hdr g)) (flat_map frame_of (y_down (a_sys a)))) as [|g tl] eqn:Dn.
    2:{ exfalso. destruct (exists_last (l := g :: tl)) as (tl' & x & Ex); [discriminate|]. rewrite Ex, !app_assoc in Q. apply app_inj_tail in Q as [Q _].
        assert (Hp : In f (flat_map fr (publications (Val := Val) (SCtx := SCtx) std kkind 0 (advertised m) rs))) by (rewrite <- Q; apply in_app_iff; auto).
        apply in_flat_map in Hp as (e & He & Hp). destruct e as [w1 h1 p1 r1| |]; cbn in Hp; try contradiction. destruct Hp as [<-|[]]. cbn [f_hdr] in Eh. subst h1.
        apply pubs_not_resp in He. congruence. }
    rewrite app_nil_r in Q. rewrite Q in Hf.
    assert (Ef : f_body f = enc (PSchemaTotals (totals d rs))).
    { apply in_app_iff in Hf as [Hf|[Hf|[]]]; [|subst f; reflexivity]. exfalso.
      apply in_flat_map in Hf as (e & He & Hp). destruct e as [w1 h1 p1 r1| |]; cbn in Hp; try contradiction. destruct Hp as [<-|[]]. cbn [f_hdr] in Eh. subst h1.
      apply pubs_not_resp in He. congruence. }
    assert (W1 : on_the_way (schema_topic std) (y_down (a_sys a1)) = []).
    { apply filter_none. intros g Hg. destruct (down_sent _ _ _ _ _ Hrun1 Hlab1 g Hg) as (w1 & p1 & r1 & Hi). apply not_before in Hi.
      unfold sk in Hi. apply orb_false_iff in Hi as [Hi _]. exact Hi. }
    assert (W2 : on_the_way (schema_topic std) (y_down (a_sys a)) = []).
    { apply filter_none. intros g Hg. destruct (of_topic (schema_topic std) g) eqn:E; auto. exfalso.
      assert (X : In g (filter (fun g => sk std (f_hdr g)) (flat_map frame_of (y_down (a_sys a))))).
      { apply filter_In. split; auto. unfold sk. unfold of_topic in E. rewrite E. reflexivity. }
      rewrite Dn in X. destruct X. }
    rewrite W1, W2, app_nil_r, messages_sch, Esn in Q'. cbn [app] in Q'.
    assert (Eg : gots (heard cl2 es2 id) = advertised m).
    { rewrite gots_heard, Q'. unfold messages. rewrite flat_map_app. unfold decoded. rewrite flat_map_app.
      change (decoded (messages enc (publications (Val := Val) (SCtx := SCtx) std kkind 0 (advertised m) rs) (schema_topic std)) ++
        decoded (flat_map (fun e => match e with EvSend _ h0 p0 _ => if varkey_eqb (VKey8 (schema_topic std)) (hdr_key h0) then [MkFrame h0 (enc p0)] else [] | _ => [] end)
          [EvSend (Val := Val) (SCtx := SCtx) ByDispatcher (out_header kkind (schemas_resp std) sq) (PSchemaTotals (totals d rs)) r0]) = advertised m).
      rewrite (pubs_decoded _ _ _ L Hnames). cbn [flat_map out_header hdr_key]. rewrite topic_resp. cbn. apply app_nil_r. }
    assert (F0 : failures rs = 0).
    { assert (Hall : forall e, In e (publications (Val := Val) (SCtx := SCtx) std kkind 0 (advertised m) rs) -> In e (y_trace (a_sys a))).
      { intros e He. assert (X : In e (sch std (y_trace (a_sys a)))) by (rewrite Esch; apply in_app_iff; auto). apply filter_In in X as [X _]. exact X. }
      clear - Hall Hok L. revert Hall. generalize 0 at 1 as i. revert rs L. induction (advertised m) as [|x items IH]; intros [|r1 rs] L i Hall; cbn in L; try discriminate; [reflexivity|].
      cbn [publications] in Hall. pose proof (Hok _ _ _ _ (Hall _ (or_introl eq_refl))) as ->. unfold failures. cbn. apply (IH rs ltac:(lia) (S i)). intros e He. apply Hall. right. exact He. }
    exists (totals d rs).
    assert (Et' : from_bytes_totals (f_body f) = Some (totals d rs)).
    { rewrite Ef. pose proof (proj1 (proj2 C65_standard_round_trip) (totals d rs) [] (totals_fine rs L)) as X. rewrite app_nil_r in X. exact X. }
    rewrite (all_gots _ _ _ NL NC), Eg.
    destruct (C43_report hash builtin order Hord unit m (totals d rs) [Elapsed]) as (rpt & Y1 & Y2 & Y3 & Y4); auto.
    { intros x tl. discriminate. }
    { unfold totals. cbn. rewrite F0. reflexivity. }
    exists rpt. auto.
  Qed.
End T.
Print Assumptions C76_report_is_of_the_device.
Print Assumptions C76_discovery_succeeds.
