(** Property theorems C43, C44 and C60: the schema report. *)
From Coq Require Import NArith List Bool Arith Lia Permutation.
From Verif Require Import KeyModel HeaderModel KeySpec HeaderSpec MinKeyModel SchemaModel SchemaSpec SchemaProof SchemaThm
  MacroModel MacroProof DispatchModel DispatchSpec DispatchThm ReportModel ReportSpec ReportProof.
Import ListNotations.

(** A [HashSet] iterates over its elements, each once, in some order. *)
Definition set_order (order : list NamedType -> list NamedType) : Prop := forall l, Permutation (order l) l.

(** ** C43 on the host alone: what it makes of a complete stream *)
Theorem C43_report :
  forall hash builtin order, set_order order ->
  forall (E : Type) m tot stop,
    (forall d tl, stop <> Got d :: tl) ->
    endpoints_sent tot = N.of_nat (length (dm_endpoints m)) ->
    topics_in_sent tot = N.of_nat (length (dm_topics_in m)) ->
    topics_out_sent tot = N.of_nat (length (dm_topics_out m)) ->
    errors tot = 0%N ->
    Forall (ep_resolvable hash (builtin ++ dm_types m)) (dm_endpoints m) ->
    Forall (tp_resolvable hash (builtin ++ dm_types m)) (dm_topics_in m) ->
    Forall (tp_resolvable hash (builtin ++ dm_types m)) (dm_topics_out m) ->
    exists rpt,
      @get_schema_report hash builtin order E true (Some (map Got (advertised m) ++ stop)) (inl tot) = Done (inl rpt) /\
      same_rows rpt m /\ same_types builtin rpt m /\ report_sound hash rpt.
Proof.
  intros hash builtin order Ho E m tot stop Hs T1 T2 T3 T4 R1 R2 R3.
  set (outs := map Got (advertised m) ++ stop).
  assert (Ec : collect outs = advertised m) by (apply collect_got; exact Hs).
  destruct (report_run hash builtin order Ho (E := E) outs tot) as [G _].
  destruct G as (rpt & Er & Q1 & Q2 & Q3).
  { rewrite Ec. unfold known. rewrite types_advertised. apply advertised_resolvable. auto. }
  rewrite Ec in Q1, Q2, Q3. rewrite eps_advertised in Q1. rewrite tin_advertised in Q2. rewrite tout_advertised in Q3.
  assert (M : data_matches tot rpt = true).
  { unfold data_matches, len_is. rewrite T1, T2, T3, T4, <- Q1, <- Q2, <- Q3, !map_length, !N.eqb_refl. reflexivity. }
  rewrite M in Er. exists rpt. split; [exact Er|].
  destruct (report_ok hash builtin order Ho _ _ _ Er) as (ND & Ts & _ & _ & _ & Sd & _).
  split; [repeat split; auto|]. split; [|exact Sd]. split; [exact ND|].
  intros t. rewrite Ts, Ec. unfold known. rewrite types_advertised, in_app_iff. tauto.
Qed.
Print Assumptions C43_report.

(** It fails if a type is missing: as soon as one delivered row names a key that
    no built-in and no delivered type hashes to. *)
Theorem C43_missing_type :
  forall hash builtin order, set_order order ->
  forall (E : Type) outs tot path k1 k2 dir,
    (In (SDEndpoint path k1 k2) (collect outs) \/ In (SDTopic path k1 dir) (collect outs) \/
     In (SDEndpoint path k2 k1) (collect outs)) ->
    (forall t, In t builtin \/ In (SDType t) (collect outs) -> hash t path <> k1) ->
    @get_schema_report hash builtin order E true (Some outs) (inl tot) = Done (inr SInvalidReportData).
Proof.
  intros hash builtin order Ho E outs tot path k1 k2 dir I N.
  destruct (report_run hash builtin order Ho (E := E) outs tot) as [_ G].
  assert (NK : ~ exists t, stands_for hash (known builtin (collect outs)) path k1 t).
  { intros (t & It & Et). apply (N t); auto. unfold known in It. apply in_app_or in It. destruct It as [It|It]; auto.
    right. unfold types_of in It. apply in_flat_map in It. destruct It as ([t'|p a b|p k d] & It & Q); cbn in Q; try tauto.
    destruct Q as [<-|[]]. exact It. }
  destruct I as [I|[I|I]]; apply (G _ I); cbn; unfold tp_resolvable; cbn; tauto.
Qed.
Print Assumptions C43_missing_type.

(** *** Items accepted by the transport *)
Lemma published_pubs {Val SCtx} std kk items : forall i rs, length rs = length items ->
  Part (published (@publications Val SCtx std kk i items rs)) items /\
  (failures rs = 0 -> published (@publications Val SCtx std kk i items rs) = items) /\
  totals_sent (@publications Val SCtx std kk i items rs) = [].
Proof.
  induction items as [|d items IH]; intros i [|r rs] L; try discriminate L.
  - cbn. split; [constructor|auto].
  - cbn in L. injection L as L. destruct (IH (S i) rs L) as (A & B & C). cbn [publications].
    destruct r as [|e]; cbn [published totals_sent].
    + split; [apply part_keep; auto|]. split; [|auto]. intros F. f_equal. apply B. exact F.
    + split; [apply part_lose; auto|]. split; [|auto]. cbn. discriminate.
Qed.
Lemma published_app {Val SCtx} (a b : list (Event Val SCtx)) : published (a ++ b) = published a ++ published b.
Proof.
  induction a as [|e a IH]; cbn; auto.
  destruct e as [w h p r|n h v|n sc h v ok]; auto. destruct p; auto. destruct r; auto. cbn. rewrite IH. reflexivity.
Qed.
Lemma totals_app {Val SCtx} (a b : list (Event Val SCtx)) : totals_sent (a ++ b) = totals_sent a ++ totals_sent b.
Proof.
  induction a as [|e a IH]; cbn; auto.
  destruct e as [w h p r|n h v|n sc h v ok]; auto. destruct p; auto. destruct r; auto. cbn. rewrite IH. reflexivity.
Qed.
Lemma accepted_pubs {Val SCtx} std kk items : forall i rs, length rs = length items ->
  all_accepted (@publications Val SCtx std kk i items rs) -> failures rs = 0.
Proof.
  induction items as [|d items IH]; intros i [|r rs] L A; try discriminate L; auto.
  cbn in L. injection L as L. cbn [publications] in A.
  assert (r = TxOk) by (eapply A; left; reflexivity). subst r.
  change (failures rs = 0). apply (IH (S i) rs L). intros w h p r I. eapply A. right. exact I.
Qed.

(** ** From the device to the host *)
Section Device.
  Context {Val Ctx SCtx : Type} (std : StdKeys).
  Variable net : Trace Val SCtx -> VarHeader -> Payload Val -> TxRes.
  Variable can_spawn : Trace Val SCtx -> nat -> bool.
  Variable kkind : VarKeyKind.
  Variable spawn_ctxt : Ctx -> Ctx * SCtx.
  Notation handle := (handle Val Ctx SCtx std net can_spawn kkind spawn_ctxt).

  (** A device built from tables that contain the standard endpoints and fewer than
      65536 items in all, ... *)
  Variables (eps : EndpointMap) (tin tout : TopicMap) (ea : list (EpArm Val Ctx)) (ta : list (TpArm Val Ctx)).
  Variable d : Dispatcher Val Ctx.
  Hypothesis Hcfg : config_ok eps tin tout ea ta.
  Hypothesis Hstd : has_std std eps.
  Hypothesis Hping : ping_req std <> schemas_req std.
  Hypothesis Hdef : define_dispatch Val Ctx eps tin tout ea ta = Done d.
  Hypothesis Hlen : (N.of_nat (length (advertised (d_map _ _ d))) < 65536)%N.
  (** ... asked for its schemas by a request of any sufficient key length. *)
  Variables (k : VarKeyKind) (hdr : VarHeader) (body : list N) (ctx : Ctx) (tr new : Trace Val SCtx).
  Variables (ctx' : Ctx) (res : TxRes).
  Hypothesis Hk : klen (d_kind _ _ d) <= klen k.
  Hypothesis Hkey : hdr_key hdr = shrink_to (VKey8 (schemas_req std)) k.
  Hypothesis Hrun : handle d ctx hdr body tr = (ctx', res, tr ++ new).
  (** The host: its hash, built-in types and set order. *)
  Variable hash : NamedType -> str -> Key8.
  Variable builtin : list NamedType.
  Variable order : list NamedType -> list NamedType.
  Hypothesis Hord : set_order order.
  Variable E : Type.
  (** The reply it got is one the device sent. *)
  Variable tot : SchemaTotals.
  Hypothesis Htot : In tot (totals_sent new).
  Notation report outs := (@get_schema_report hash builtin order E true (Some outs) (inl tot)).
  Notation m := (d_map _ _ d).

  Lemma device_stream : exists rs, length rs = length (advertised m) /\
    endpoints_sent tot = N.of_nat (length (dm_endpoints m)) /\
    topics_in_sent tot = N.of_nat (length (dm_topics_in m)) /\
    topics_out_sent tot = N.of_nat (length (dm_topics_out m)) /\
    errors tot = N.of_nat (failures rs) /\
    Part (published new) (advertised m) /\
    (failures rs = 0 -> published new = advertised m) /\
    (all_accepted new -> failures rs = 0).
  Proof.
    destruct (C42_schema_stream std net can_spawn kkind spawn_ctxt _ _ _ _ _ _ Hcfg Hstd Hping Hdef Hlen
      k hdr body ctx tr Hk Hkey) as (rs & r & L & Ex).
    rewrite Hrun in Ex. injection Ex as _ <- Ex. apply app_inv_head in Ex.
    destruct (C42_advertised_is_declared _ _ _ _ _ _ Hdef) as (E1 & E2 & E3 & _).
    destruct (published_pubs (Val := Val) (SCtx := SCtx) std kkind (advertised m) 0 rs L) as (P1 & P2 & P3).
    exists rs. split; [exact L|].
    rewrite Ex, totals_app, P3 in Htot. cbn [app totals_sent] in Htot.
    assert (T : res = TxOk /\ tot = MkTotals (N.of_nat (length (dm_types m))) (N.of_nat (length (em_endpoints eps)))
      (N.of_nat (length (tm_topics tin))) (N.of_nat (length (tm_topics tout))) (N.of_nat (failures rs))).
    { destruct res; [|destruct Htot]. destruct Htot as [<-|[]]. auto. }
    destruct T as [-> ->]. cbn [endpoints_sent topics_in_sent topics_out_sent errors].
    rewrite E1, E2, E3. repeat (split; [reflexivity|]).
    rewrite Ex, published_app. cbn [published]. rewrite app_nil_r. split; [exact P1|]. split; [exact P2|].
    intros A. apply (accepted_pubs (Val := Val) (SCtx := SCtx) std kkind _ 0 _ L). intros w h p r' I.
    eapply A. apply in_or_app. left. exact I.
  Qed.

  (** *** C43 Nothing is lost: every frame is accepted and all that was published
      is received before the host stops listening. *)
  Theorem C43_device_to_host :
    forall stop,
      all_accepted new ->
      (forall x tl, stop <> Got x :: tl) ->
      Forall (ep_resolvable hash (builtin ++ dm_types m)) (dm_endpoints m) ->
      Forall (tp_resolvable hash (builtin ++ dm_types m)) (dm_topics_in m) ->
      Forall (tp_resolvable hash (builtin ++ dm_types m)) (dm_topics_out m) ->
      exists rpt, report (map Got (published new) ++ stop) = Done (inl rpt) /\
        same_rows rpt m /\ same_types builtin rpt m /\ report_sound hash rpt.
  Proof.
    intros stop A St R1 R2 R3. destruct device_stream as (rs & L & T1 & T2 & T3 & T4 & _ & Pf & Af).
    specialize (Af A). rewrite (Pf Af). rewrite Af in T4. apply C43_report; auto.
  Qed.

  (** *** C44 Items may be lost anywhere (a failing transmission, the link, the
      host's queue, the host's timer). *)

  (** Missing: types.  [types_sent] is not compared, so lost types go unnoticed
      unless a row needs them; see [C44_lost_type_refuted]. *)
  Theorem C44_rows_partial :
    forall outs rpt,
      Part (collect outs) (published new) ->
      report outs = Done (inl rpt) ->
      published new = advertised m /\
      same_rows rpt m /\ report_sound hash rpt /\
      (forall t, In t (rp_types rpt) -> In t builtin \/ In t (dm_types m)).
  Proof.
    intros outs rpt P R. destruct device_stream as (rs & L & T1 & T2 & T3 & T4 & Pp & Pf & _).
    destruct (report_ok hash builtin order Hord _ _ _ R) as (ND & Ts & Q1 & Q2 & Q3 & Sd & S1 & S2 & S3 & S4).
    assert (F : failures rs = 0) by lia. specialize (Pf F). rewrite Pf in P.
    split; [exact Pf|]. split; [|split; [exact Sd|]].
    - rewrite S1 in T1. rewrite S2 in T2. rewrite S3 in T3. apply Nnat.Nat2N.inj in T1, T2, T3. split; [|split].
      + rewrite Q1, <- eps_advertised. apply part_full; [apply part_flat_map; exact P|].
        change (length (eps_of (collect outs)) = length (eps_of (advertised m))).
        rewrite <- Q1, map_length, T1, eps_advertised. reflexivity.
      + rewrite Q2, <- tin_advertised. apply part_full; [apply part_flat_map; exact P|].
        change (length (tin_of (collect outs)) = length (tin_of (advertised m))).
        rewrite <- Q2, map_length, T2, tin_advertised. reflexivity.
      + rewrite Q3, <- tout_advertised. apply part_full; [apply part_flat_map; exact P|].
        change (length (tout_of (collect outs)) = length (tout_of (advertised m))).
        rewrite <- Q3, map_length, T3, tout_advertised. reflexivity.
    - intros t It. apply Ts in It. unfold known in It. apply in_app_or in It. destruct It as [It|It]; auto.
      right. rewrite <- types_advertised. eapply part_in; [apply part_flat_map; exact P|exact It].
  Qed.

  (** If the hash tells the types apart, no type of a payload can be lost: what is
      missing from an accepted report is at most nested types. *)
  Theorem C44_payload_types_partial :
    forall outs rpt,
      Part (collect outs) (published new) ->
      report outs = Done (inl rpt) ->
      (forall path t t', In t (builtin ++ dm_types m) -> In t' (builtin ++ dm_types m) ->
         hash t path = hash t' path -> t = t') ->
      forall t, In t (builtin ++ dm_types m) ->
        (exists path rq rp, In (path, rq, rp) (dm_endpoints m) /\ (hash t path = rq \/ hash t path = rp)) \/
        (exists path key, (In (path, key) (dm_topics_in m) \/ In (path, key) (dm_topics_out m)) /\ hash t path = key) ->
        In t (rp_types rpt).
  Proof.
    intros outs rpt P R Sep t It U.
    destruct (C44_rows_partial _ _ P R) as (_ & (Q1 & Q2 & Q3) & (S1 & S2) & Ts).
    assert (K : forall path key t', stands_for hash (rp_types rpt) path key t' -> hash t path = key -> In t (rp_types rpt)).
    { intros path key t' (I' & H') H. replace t with t'; auto. apply (Sep path); auto; [|congruence].
      apply in_or_app. auto. }
    destruct U as [(path & rq & rp & I & U)|(path & key & I & U)].
    - rewrite <- Q1 in I. apply in_map_iff in I. destruct I as (e & Ee & Ie). injection Ee as <- <- <-.
      destruct (S1 _ Ie) as [A B]. destruct U as [U|U]; eauto.
    - rewrite <- Q2, <- Q3, <- in_app_iff, <- map_app in I. apply in_map_iff in I. destruct I as (e & Ee & Ie).
      injection Ee as <- <-. pose proof (S2 _ Ie). eauto.
  Qed.
End Device.
Print Assumptions C43_device_to_host.
Print Assumptions C44_rows_partial.
Print Assumptions C44_payload_types_partial.
