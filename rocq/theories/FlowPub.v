(** C69: who sent what a subscriber is given. *)
From Coq Require Import NArith List Bool Arith Lia Permutation.
From Verif Require Import KeyModel HeaderModel KeySpec HeaderSpec KeyProof HeaderProof MinKeyModel MinKeySpec MinKeyProof
  SchemaModel MacroModel PostcardModel DispatchModel DispatchSpec DispatchProof SubModel SubSpec SubProof
  ClientModel ClientSpec ClientProof ClientHist ClientMore ClientOut ClientThm ClientThm3.
From Verif Require Import UsbSpec FlowBase SubFlow FlowSpec FlowProof.
From Verif Require Import KeySpec HeaderModel HeaderSpec DispatchModel DispatchSpec SubModel SystemModel SystemSpec SystemProof SystemThm FlowThm.
Import ListNotations.

Section Pub.
  Context {Val Ctx SCtx : Type}.
  Variable std : StdKeys.
  Variable net : Trace Val SCtx -> VarHeader -> Payload Val -> TxRes.
  Variable can_spawn : Trace Val SCtx -> nat -> bool.
  Variable kkind : VarKeyKind.
  Variable spawn_ctxt : Ctx -> Ctx * SCtx.
  Variable enc : Payload Val -> list N.
  Variable task : nat -> SCtx -> VarHeader -> Val -> HProg Val unit.
  Variable bg : list (HProg Val unit).
  Variable cfg : Config.
  Variable eps : EndpointMap.
  Variable tin tout : TopicMap.
  Variable ea : list (EpArm Val Ctx).
  Variable ta : list (TpArm Val Ctx).
  Variable d : Dispatcher Val Ctx.

  Hypothesis Hdisp : dispatcher_for eps tin tout ea ta d.
  Hypothesis Hdev : device_ok std eps tout ea.
  Hypothesis Hhand : handlers_ok std tout ea ta task bg.
  Hypothesis Hkk : klen (d_kind _ _ d) <= klen kkind.

  Notation handle := (handle Val Ctx SCtx std net can_spawn kkind spawn_ctxt).
  Notation ep_arm := (ep_arm Val Ctx SCtx std net can_spawn kkind spawn_ctxt).
  Notation tp_arm := (tp_arm Val Ctx SCtx net can_spawn kkind spawn_ctxt).
  Notation run_prog := (run_prog Val SCtx net kkind).
  Notation Tr := (Trace Val SCtx).
  Notation dk := (d_kind _ _ d).
  Variable bodies : list (list N).
  Notation publishes := (publishes std ea ta task bg d bodies).

  Definition fate (tr : Tr) (h : VarHeader) (p : Payload Val) : Prop :=
    exists key seq, h = out_header kkind key seq /\
      (publishes tr key p /\ is_topic_out tout key \/ key = error_key std \/ In key (map ep_resp (em_endpoints eps))).
  Definition fates (tr new : Tr) : Prop := forall w h p r, In (EvSend w h p r) new -> fate (tr ++ new) h p.

  Lemma publishes_mono t1 t2 k p : publishes t1 k p -> publishes (t1 ++ t2) k p.
  Proof.
    intros H. inversion H; subst; [eapply pub_endpoint|eapply pub_topic|eapply pub_endpoint_task|eapply pub_topic_task|eapply pub_background|eapply pub_schema]; eauto; apply in_app_iff; auto.
  Qed.
  Lemma fate_mono t1 t2 h p : fate t1 h p -> fate (t1 ++ t2) h p.
  Proof. intros (key & seq & E & [[H1 H2]|H]); exists key, seq; split; auto. left. split; auto. apply publishes_mono; auto. Qed.

  Lemma user_fates {R} (prog : HProg Val R) (tr0 t0 : Tr) :
    (forall key seq p, may_send prog key seq p -> is_topic_out tout key /\ publishes t0 key p) ->
    exists new, snd (run_prog prog tr0) = tr0 ++ new /\ forall w h p r, In (EvSend w h p r) new -> fate t0 h p.
  Proof.
    intros Hp. destruct (run_prog_sends net kkind prog tr0) as (new & E & S). exists new. split; auto.
    intros w h p r Hi. destruct (S _ Hi) as (key & seq & pl & r' & Ee & Ms). injection Ee as -> -> -> ->.
    exists key, seq. split; auto. left. destruct (Hp _ _ _ Ms); auto.
  Qed.
  Lemma err_fate t sq p : fate t (out_header kkind (error_key std) sq) p.
  Proof. do 2 eexists. split; [reflexivity|]. auto. Qed.
  Lemma resp_fate t key sq p : In key (map ep_resp (em_endpoints eps)) -> fate t (out_header kkind key sq) p.
  Proof. intros H. do 2 eexists. split; [reflexivity|]. auto. Qed.

  Lemma ep_arm_fates a ctx hdr body v (tr : Tr) ctx' res tr' :
    In a ea -> ea_deser _ _ a body = Some v -> In body bodies -> ep_arm a ctx hdr v tr = (ctx', res, tr') -> exists new, tr' = tr ++ new /\ fates tr new.
  Proof.
    intros Ha Hd Hbd H. destruct Hhand as (Hh1 & _). destruct Hdev as (_ & _ & _ & Hep).
    assert (Hr : In (ea_resp _ _ a) (map ep_resp (em_endpoints eps))) by apply (endpoint_in _ _ _ (Hep a Ha)).
    assert (Run : ea_flavor _ _ a <> Spawn -> exists new, tr' = tr ++ new /\ fates tr new).
    { intros F. destruct (ep_arm_runs std net can_spawn kkind spawn_ctxt a ctx hdr v tr F) as (c & rep & tr1 & new & R & E1 & Iv & Fr & M).
      destruct (user_fates (ea_run _ _ a ctx hdr v) (tr ++ [EvRun (ea_name _ _ a) hdr v]) (tr ++ [EvRun (ea_name _ _ a) hdr v])) as (new' & E2 & S).
      { intros key seq p Ms. split; [eapply Hh1; eauto|]. eapply pub_endpoint; eauto. apply in_app_iff. right. left. auto. }
      rewrite R in E2. cbn [snd] in E2. rewrite E1, <- app_assoc in E2. cbn [app] in E2.
      apply app_inv_head in E2. injection E2 as <-.
      assert (G : forall rest, (forall w h p r, In (EvSend w h p r) rest -> fate (tr ++ (EvRun (ea_name _ _ a) hdr v :: new) ++ rest) h p) ->
        exists new0, tr1 ++ rest = tr ++ new0 /\ fates tr new0).
      { intros rest Hrest. exists ((EvRun (ea_name _ _ a) hdr v :: new) ++ rest). rewrite E1, <- app_assoc. split; auto.
        intros w h p r Hi. apply in_app_iff in Hi as [[Hi|Hi]|Hi]; [discriminate| |eauto].
        specialize (S _ _ _ _ Hi). apply (fate_mono _ (new ++ rest)) in S. rewrite <- app_assoc in S. exact S. }
      destruct M as [M|(k & r & M)]; rewrite M in H; injection H as <- <- <-; apply G.
      - intros w h p r [[= <- <- <- <-]|[]]. apply resp_fate. auto.
      - intros w h p r0 [[= <- <- <- <-]|[[= <- <- <- <-]|[]]]; [apply resp_fate; auto|apply err_fate]. }
    destruct (ea_flavor _ _ a) eqn:F.
    1,2: apply Run; congruence.
    unfold DispatchModel.ep_arm in H. rewrite F in H. destruct (spawn_ctxt ctx) as [c2 sc].
    destruct (can_spawn tr (ea_name _ _ a)) eqn:Cs; cbn [negb] in H.
    - injection H as <- <- <-. eexists. split; [reflexivity|]. intros w h p r [Hi|[]]. discriminate.
    - unfold send_error, send_keyed, tx_send in H. injection H as <- <- <-. rewrite <- app_assoc. eexists. split; [reflexivity|].
      intros w h p r [Hi|[Hi|[]]]; [discriminate|]. injection Hi as <- <- <- <-. apply err_fate.
  Qed.

  Lemma tp_arm_fates a ctx hdr body v (tr : Tr) ctx' res tr' :
    In a ta -> ta_deser _ _ a body = Some v -> In body bodies -> tp_arm a ctx hdr v tr = (ctx', res, tr') -> exists new, tr' = tr ++ new /\ fates tr new.
  Proof.
    intros Ha Hd Hbd H. destruct Hhand as (_ & Hh2 & _).
    assert (Run : ta_flavor _ _ a <> Spawn -> forall ctx'' tr1, run_prog (ta_run _ _ a ctx hdr v) (tr ++ [EvRun (ta_name _ _ a) hdr v]) = (ctx'', tr1) ->
      exists new, tr1 = tr ++ new /\ fates tr new).
    { intros F ctx'' tr1 R.
      destruct (user_fates (ta_run _ _ a ctx hdr v) (tr ++ [EvRun (ta_name _ _ a) hdr v]) (tr ++ [EvRun (ta_name _ _ a) hdr v])) as (new & E2 & S).
      { intros key seq p Ms. split; [eapply Hh2; eauto|]. eapply pub_topic; eauto. apply in_app_iff. right. left. auto. }
      rewrite R in E2. cbn [snd] in E2. rewrite <- app_assoc in E2. cbn [app] in E2. eexists. split; [exact E2|].
      intros w h p r [Hi|Hi]; [discriminate|]. specialize (S _ _ _ _ Hi). apply (fate_mono _ new) in S. rewrite <- app_assoc in S. exact S. }
    unfold DispatchModel.tp_arm in H. destruct (ta_flavor _ _ a) eqn:F.
    1,2: destruct (DispatchModel.run_prog _ _ _ _ (ta_run _ _ a ctx hdr v) _) as [c2 tr1] eqn:R; injection H as <- <- <-; (eapply Run; [congruence|eauto]).
    destruct (spawn_ctxt ctx) as [c2 sc]. injection H as <- <- <-. eexists. split; [reflexivity|].
    intros w h p r [Hi|[]]. discriminate.
  Qed.

  Lemma schemas_fates seq (tr : Tr) res tr' :
    send_all_schemas Val SCtx std net kkind seq (d_map _ _ d) tr = (res, tr') -> exists new, tr' = tr ++ new /\ fates tr new.
  Proof.
    intros H. destruct (send_all_schemas_spec std net can_spawn kkind seq (d_map _ _ d) tr) as (rs & r & Lr & Es).
    rewrite Es in H. injection H as <- <-. eexists. split; [reflexivity|]. destruct Hdev as (_ & Hs & Ht & _).
    assert (G : forall t items i rl, incl items (advertised (d_map _ _ d)) -> forall w h p r0, In (EvSend w h p r0) (@item_events Val SCtx std kkind i items rl) -> fate t h p).
    { intros t. induction items as [|x items IH]; intros i [|y rl] In1 w h p r0 Hi; cbn in Hi; try contradiction.
      destruct Hi as [[= <- <- <- <-]|Hi].
      - exists (schema_topic std). eexists. split; [reflexivity|]. left. split; auto. apply pub_schema; auto. apply In1. left; auto.
      - eapply IH; [|exact Hi]. intros z Hz. apply In1. right; auto. }
    intros w h p r0 Hi. apply in_app_iff in Hi as [Hi|[[= <- <- <- <-]|[]]].
    - eapply (G _ (all_items (d_map _ _ d))); [|exact Hi]. rewrite all_items_advertised. apply incl_refl.
    - apply resp_fate. apply (endpoint_in _ _ _ Hs).
  Qed.

  Lemma handle_fates hdr body ctx (tr : Tr) ctx' res tr' :
    In body bodies -> handle d ctx hdr body tr = (ctx', res, tr') -> exists new, tr' = tr ++ new /\ fates tr new.
  Proof.
    intros Hbd H. destruct (disp_arms _ _ _ _ _ _ Hdisp) as [A1 A2]. unfold DispatchModel.handle in H. destruct Hdev as (Hp & _).
    assert (One : forall w key sq (p : Payload Val) r c0, key = error_key std \/ In key (map ep_resp (em_endpoints eps)) ->
      (c0, r, tr ++ [EvSend w (out_header kkind key sq) p r]) = (ctx', res, tr') -> exists new, tr' = tr ++ new /\ fates tr new).
    { intros w key sq p r c0 K [= <- <- <-]. eexists. split; [reflexivity|].
      intros w' h' p' r' [[= <- <- <- <-]|[]]. destruct K as [->|K]; [apply err_fate|apply resp_fate; auto]. }
    rewrite keyb_of_spec in H. destruct (klen dk <=? vlen (hdr_key hdr)).
    2:{ unfold send_error, send_keyed, tx_send in H. eapply One; [left; reflexivity|exact H]. }
    destruct (pat_eqb _ (const_key _ (ping_req std))).
    { destruct (from_bytes_u32 body); unfold send_error, send_keyed, tx_send in H; (eapply One; [|exact H]); auto.
      right. apply (endpoint_in _ _ _ Hp). }
    destruct (pat_eqb _ (const_key _ (schemas_req std))).
    { destruct (send_all_schemas _ _ _ _ _ _ _ _) as [r2 tr2] eqn:Sa. injection H as <- <- <-. eapply schemas_fates; eauto. }
    rewrite A1, A2 in H.
    destruct (match_eps_cases std net can_spawn kkind spawn_ctxt dk (shrink_to (hdr_key hdr) dk) ea ta ctx hdr body tr)
      as [(a & v & Ia & Pa & Da & M)|[(r & M)|[_ M]]]; rewrite M in H; try (eapply One; [left; reflexivity|exact H]).
    - eapply ep_arm_fates; eauto.
    - destruct (match_tps_cases std net can_spawn kkind spawn_ctxt dk (shrink_to (hdr_key hdr) dk) ta ctx hdr body tr)
        as [(a & v & Ia & Pa & Da & M2)|[M2|[_ (r & M2)]]]; rewrite M2 in H; try (eapply One; [left; reflexivity|exact H]).
      + eapply tp_arm_fates; eauto.
      + injection H as <- <- <-. exists []. rewrite app_nil_r. split; auto. intros w h p r [].
  Qed.

End Pub.

Section Reach.
  Context {Val Ctx SCtx : Type}.
  Variable std : StdKeys.
  Variable net : Trace Val SCtx -> VarHeader -> Payload Val -> TxRes.
  Variable can_spawn : Trace Val SCtx -> nat -> bool.
  Variable kkind : VarKeyKind.
  Variable spawn_ctxt : Ctx -> Ctx * SCtx.
  Variable enc : Payload Val -> list N.
  Variable task : nat -> SCtx -> VarHeader -> Val -> HProg Val unit.
  Variable bg : list (HProg Val unit).
  Variable cfg : Config.
  Variable eps : EndpointMap.
  Variable tin tout : TopicMap.
  Variable ea : list (EpArm Val Ctx).
  Variable ta : list (TpArm Val Ctx).
  Variable d : Dispatcher Val Ctx.

  Hypothesis Hdisp : dispatcher_for eps tin tout ea ta d.
  Hypothesis Hdev : device_ok std eps tout ea.
  Hypothesis Hhand : handlers_ok std tout ea ta task bg.
  Hypothesis Hkk : klen (d_kind _ _ d) <= klen kkind.

  Notation Tr := (Trace Val SCtx).
  Notation dk := (d_kind _ _ d).
  Variable ctx0 : Ctx.
  Variable ls : list SysLabel.
  Variable s : Sys Val Ctx SCtx.
  Variable cl : list Label.
  Variable es : list (list Ev).
  Hypothesis Hrun : sys_run Val Ctx SCtx std net can_spawn kkind spawn_ctxt d enc task cfg ls (sys_new Val Ctx SCtx bg ctx0) = Some (s, cl, es).
  Notation tr := (y_trace _ _ _ s).
  Notation R := (reach_sys std net can_spawn kkind spawn_ctxt enc task bg cfg eps tin tout ea ta d Hdisp Hhand _ _ _ _ _ Hrun).

  Hypothesis Hlab : Forall (label_ok eps tin) cl.
  Lemma body_issued r sent resp : nth_error (issued 0 cl) r = Some (sent, resp) -> In (f_body sent) (bodies_of cl).
  Proof. intros H. apply in_app_iff. left. apply nth_error_In in H. apply (in_map (fun x => f_body (fst x))) in H. exact H. Qed.
  Lemma body_published i g : nth_error (published cl) i = Some g -> In (f_body g) (bodies_of cl).
  Proof. intros H. apply in_app_iff. right. apply nth_error_In in H. apply (in_map f_body) in H. exact H. Qed.

  Lemma spawned_by n sc hdr v : In (EvSpawn n sc hdr v true) tr ->
    (exists a, In a ea /\ ea_flavor _ _ a = Spawn /\ n = ea_name _ _ a /\ exists body, ea_deser _ _ a body = Some v /\ In body (bodies_of cl)) \/ (exists a, In a ta /\ ta_flavor _ _ a = Spawn /\ n = ta_name _ _ a /\ exists body, ta_deser _ _ a body = Some v /\ In body (bodies_of cl)).
  Proof.
    intros Hi. destruct R as (handled & HI).
    destruct (event_class std net can_spawn kkind spawn_ctxt enc task bg cfg eps tin tout ea ta d Hdisp Hdev Hhand Hkk _ _ _ _ _ HI Hlab _ Hi)
      as [(r & req & resp & body & hdr2 & t0 & new & t2 & c & c' & res & As & Hs & Hk & Hh & Et & Hin & Ev)|[(i & key2 & body & hdr2 & To & Ev & Q)|
          [(n2 & sc2 & hdr2 & v2 & key2 & sq2 & p2 & r2 & E2 & _)|(t & key2 & sq2 & p2 & r2 & E2 & _)]]]; [| |discriminate|discriminate].
    - destruct Ev as (-> & a & Ia & Ea & Er & Ef & Ed & ->). left. exists a. repeat split; auto. exists body. split; auto. destruct As as [_ As]. exact (body_issued _ _ _ As).
    - destruct Ev as (a & Ia & Ef & -> & Ed). right. exists a. repeat split; auto. exists body. split; auto. destruct To as (_ & _ & To). exact (body_published _ _ To).
  Qed.

  Lemma send_fate w h p r : In (EvSend w h p r) tr -> fate std kkind task bg eps tout ea ta d (bodies_of cl) tr h p.
  Proof.
    intros Hi. destruct R as (handled & HI).
    destruct (si_ev _ _ _ _ _ _ _ _ _ _ _ _ _ _ _ _ _ HI _ Hi)
      as [(t0 & new & t2 & ctx & ctx' & res & hdr1 & body & b & E & I1 & I2 & T & H)|[(n1 & sc1 & hdr1 & v1 & key & seq & p1 & r1 & E & I1 & M)|(t & key & seq & p1 & r1 & E & I1 & M)]].
    - assert (Hb : In body (bodies_of cl)).
      { destruct (classify std net can_spawn kkind spawn_ctxt enc task bg cfg eps tin tout ea ta d Hdisp Hhand Hkk _ _ _ _ _ HI Hlab _ _ _ I2 T)
          as (kk & _ & _ & [(r0 & req & resp & _ & _ & X & _)|(i & key & _ & _ & X & _)]); [exact (body_issued _ _ _ X)|exact (body_published _ _ X)]. }
      destruct (handle_fates std net can_spawn kkind spawn_ctxt task bg eps tin tout ea ta d Hdisp Hdev Hhand (bodies_of cl) _ _ _ _ _ _ _ Hb H) as (new1 & En & F). apply app_inv_head in En. subst new1.
      specialize (F _ _ _ _ I1). apply (fate_mono _ _ _ _ _ _ _ _ _ _ _ t2) in F. rewrite <- app_assoc, <- E in F. exact F.
    - injection E as -> -> -> ->. exists key, seq. split; auto. destruct Hhand as (_ & _ & Hh3 & Hh4 & _). destruct Hdev as (_ & _ & _ & Hep).
      destruct (spawned_by _ _ _ _ I1) as [(a & Ia & Fa & -> & bd & Ed & Ib)|(a & Ia & Fa & -> & bd & Ed & Ib)];
        [assert (P : publishes std ea ta task bg d (bodies_of cl) tr key p1) by (eapply pub_endpoint_task; eauto)|assert (P : publishes std ea ta task bg d (bodies_of cl) tr key p1) by (eapply pub_topic_task; eauto)].
      + destruct (Hh3 _ _ _ _ _ _ _ Ia Fa M) as [[H1 H2]|[[->| ->] _]]; auto. right. right. apply (endpoint_in _ _ _ (Hep a Ia)).
      + destruct (Hh4 _ _ _ _ _ _ _ Ia Fa M). auto.
    - injection E as -> -> -> ->. exists key, seq. split; auto. destruct Hhand as (_ & _ & _ & _ & Hh5). destruct (Hh5 _ _ _ _ I1 M).
      left. split; auto. eapply pub_background; eauto.
  Qed.

  (** Everything the server transmitted under the key of an outgoing topic was published
      on that topic: errors and replies never look like messages of a topic (as long as
      the error key does not). *)
  Lemma sent_published k : is_topic_out tout k ->
    compact (klen kkind) (k8_bytes k) <> compact (klen kkind) (k8_bytes (error_key std)) ->
    Forall (publishes std ea ta task bg d (bodies_of cl) tr k) (sent_on tr k).
  Proof.
    intros Hk He. apply Forall_forall. intros p Hp. unfold sent_on in Hp. apply in_flat_map in Hp as (e & Hi & Hp).
    destruct e as [w h p0 r| |]; cbn iota in Hp; try solve [destruct Hp]. destruct (varkey_eqb (VKey8 k) (hdr_key h)) eqn:V; [|destruct Hp].
    destruct Hp as [<-|[]]. destruct (send_fate _ _ _ _ Hi) as (key & seq & -> & Hf).
    assert (C : compact (klen kkind) (k8_bytes k) = compact (klen kkind) (k8_bytes key)).
    { cbn [out_header hdr_key] in V. rewrite varkey_eqb_sym in V. apply varkey_eqb_spec in V. rewrite vlen_shrunk, vlen8, Nat.min_l in V by apply klen_le_8.
      rewrite agree_shrunk in V by lia. auto. }
    destruct Hf as [[Hf Ht]|[->|Hr]].
    - assert (k = key) as ->; auto.
      eapply (out_keys _ _ _ _ _ _ Hdisp kkind); eauto; apply in_app_iff; right; auto.
    - destruct (He C).
    - exfalso. destruct Hdisp as (_ & _ & D & _).
      destruct (D kkind Hkk) as [_ D2]. eapply (distinct_app_disj _ _ _ _ _ D2); [exact Hr|exact Hk|auto].
  Qed.

  (** What the holder of a subscription to a topic is given was published on that very
      topic, by a handler that ran, a task that was spawned, or the schema reporter; each
      message is given at most as often as the server transmitted it, and in the order of
      transmission if the link keeps the order. *)
  Theorem C69_given_was_published_partial :
    forall k id, is_topic_out tout k ->
      compact (klen kkind) (k8_bytes k) <> compact (klen kkind) (k8_bytes (error_key std)) ->
      subscribed cl es k id ->
      exists ps, Forall2 (body_of enc ls) (given cl es id) ps /\ Forall (publishes std ea ta task bg d (bodies_of cl) tr k) ps /\
        (exists rest, Permutation (sent_on tr k) (ps ++ rest)) /\
        (down_in_order ls -> subsequence ps (sent_on tr k)).
  Proof.
    intros k id Hk He Hs.
    destruct (C68_given_was_sent _ _ _ _ _ enc _ _ cfg _ _ _ _ _ _ Hdisp Hdev Hhand Hkk _ _ _ _ _ Hrun Hlab k id Hs) as (ps & F & (rest & P) & O).
    exists ps. split; auto. split; [|eauto]. pose proof (sent_published k Hk He) as H. rewrite Forall_forall in *. intros p Hp. apply H.
    eapply Permutation_in; [apply Permutation_sym, P|]. apply in_app_iff. auto.
  Qed.
  Theorem C69_given_multi_was_published_partial :
    forall k id, is_topic_out tout k ->
      compact (klen kkind) (k8_bytes k) <> compact (klen kkind) (k8_bytes (error_key std)) ->
      subscribed_multi cl es k id ->
      exists ps, Forall2 (body_of enc ls) (given_multi cl es id) ps /\ Forall (publishes std ea ta task bg d (bodies_of cl) tr k) ps /\
        (exists rest, Permutation (sent_on tr k) (ps ++ rest)) /\
        (down_in_order ls -> subsequence ps (sent_on tr k)).
  Proof.
    intros k id Hk He Hs.
    destruct (C68_given_multi_was_sent _ _ _ _ _ enc _ _ cfg _ _ _ _ _ _ Hdisp Hdev Hhand Hkk _ _ _ _ _ Hrun Hlab k id Hs) as (ps & F & (rest & P) & O).
    exists ps. split; auto. split; [|eauto]. pose proof (sent_published k Hk He) as H. rewrite Forall_forall in *. intros p Hp. apply H.
    eapply Permutation_in; [apply Permutation_sym, P|]. apply in_app_iff. auto.
  Qed.
End Reach.
Print Assumptions C69_given_was_published_partial.
Print Assumptions C69_given_multi_was_published_partial.
