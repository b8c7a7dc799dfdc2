(** Lemmas for C90. *)
From Coq Require Import NArith List Bool Arith Lia Permutation.
From Verif Require Import KeyModel HeaderModel KeySpec HeaderSpec KeyProof HeaderProof MinKeyModel MinKeySpec MinKeyProof
  SchemaModel MacroModel PostcardModel DispatchModel DispatchSpec DispatchProof SubModel SubSpec SubProof
  ClientModel ClientSpec ClientProof ClientHist ClientMore ClientOut ClientThm ClientThm3.
From Verif Require Import UsbSpec FlowBase SubFlow FlowSpec FlowProof.
From Verif Require Import KeySpec HeaderModel HeaderSpec DispatchModel DispatchSpec SubModel SystemModel SystemSpec SystemProof SystemThm FlowThm.
From Verif Require Import TypedSpec TypedThm AsyncModel AsyncSpec StateSpec.
Import ListNotations.

Section S.
  Context {Val Ctx SCtx : Type}.
  Variable std : StdKeys.
  Variable net : Trace Val SCtx -> VarHeader -> Payload Val -> TxRes.
  Variable can_spawn : Trace Val SCtx -> nat -> bool.
  Variable kkind : VarKeyKind.
  Variable spawn_ctxt : Ctx -> Ctx * SCtx.
  Variable enc : Payload Val -> list N.
  Variable task : nat -> SCtx -> VarHeader -> Val -> HProg Val unit.
  Variable bg : list (HProg Val unit).
  Variable cfg : Config.
  Variable eps : EndpointMap.
  Variable tin tout : TopicMap.
  Variable ea : list (EpArm Val Ctx).
  Variable ta : list (TpArm Val Ctx).
  Variable d : Dispatcher Val Ctx.

  Hypothesis Hdisp : dispatcher_for eps tin tout ea ta d.
  Hypothesis Hdev : device_ok std eps tout ea.
  Hypothesis Hhand : handlers_ok std tout ea ta task bg.
  Hypothesis Hkk : klen (d_kind _ _ d) <= klen kkind.

  Notation handle := (handle Val Ctx SCtx std net can_spawn kkind spawn_ctxt).
  Notation ep_arm := (ep_arm Val Ctx SCtx std net can_spawn kkind spawn_ctxt).
  Notation tp_arm := (tp_arm Val Ctx SCtx net can_spawn kkind spawn_ctxt).
  Notation run_prog := (run_prog Val SCtx net kkind).
  Notation Tr := (Trace Val SCtx).
  Notation sys_step := (sys_step Val Ctx SCtx std net can_spawn kkind spawn_ctxt d enc task cfg).
  Notation sys_run := (sys_run Val Ctx SCtx std net can_spawn kkind spawn_ctxt d enc task cfg).
  Notation sys_new := (sys_new Val Ctx SCtx).
  Notation Sys := (Sys Val Ctx SCtx).
  Notation Turn := (Turn Val Ctx SCtx).
  Notation dk := (d_kind _ _ d).

  Lemma starts_app (a b : Tr) : starts (a ++ b) = starts a ++ starts b.
  Proof. apply filter_app. Qed.

  Lemma send_inj w w' h h' p p' x x' : EvSend (Val := Val) (SCtx := SCtx) w h p x = EvSend w' h' p' x' -> w = w' /\ h = h' /\ p = p' /\ x = x'.
  Proof. intros [= -> -> -> ->]. auto. Qed.

  (** *** One dispatch *)
  Record Entry := MkEntry { e_bytes : list N; e_before : Ctx; e_after : Ctx; e_t0 : Tr; e_new : Tr }.
  Definition entry_ok (e : Entry) : Prop :=
    (take_from_slice (e_bytes e) = Done None /\ e_after e = e_before e /\ e_new e = []) \/
    exists hdr body res, take_from_slice (e_bytes e) = Done (Some (hdr, body)) /\
      handle d (e_before e) hdr body (e_t0 e) = (e_after e, res, e_t0 e ++ e_new e).
  Inductive chained : Ctx -> list Entry -> Ctx -> Prop :=
  | ch_nil c : chained c [] c
  | ch_cons e log c' : chained (e_after e) log c' -> chained (e_before e) (e :: log) c'.
  Lemma chained_app c l1 c1 l2 c2 : chained c l1 c1 -> chained c1 l2 c2 -> chained c (l1 ++ l2) c2.
  Proof. intros H. induction H; intros H2; cbn; auto. constructor. auto. Qed.

  Definition by_task (tr : Tr) (e : Event Val SCtx) : Prop :=
    (exists n sc hdr v key seq p r, e = EvSend ByHandler (out_header kkind key seq) p r /\
       In (EvSpawn n sc hdr v true) tr /\ may_send (task n sc hdr v) key seq p) \/
    (exists t key seq p r, e = EvSend ByHandler (out_header kkind key seq) p r /\ In t bg /\ may_send t key seq p).
  Lemma by_task_mono t1 t2 e : by_task t1 e -> by_task (t1 ++ t2) e.
  Proof.
    intros [(n & sc & hdr & v & key & sq & p & r & E & H & M)|H]; [left|right; exact H].
    exists n, sc, hdr, v, key, sq, p, r. split; auto. split; auto. apply in_app_iff. auto.
  Qed.

  Record LogInv (ctx0 : Ctx) (ls : list SysLabel) (s : Sys) (es : list (list Ev)) (log : list Entry) : Prop := {
    li_ok : Forall entry_ok log;
    li_chain : chained ctx0 log (y_ctx _ _ _ s);
    li_up : exists lost, Permutation (wire es) (map e_bytes log ++ y_up _ _ _ s ++ lost);
    li_order : up_in_order ls -> subsequence (map e_bytes log ++ y_up _ _ _ s) (wire es);
    li_starts : starts (y_trace _ _ _ s) = concat (map (fun e => starts (e_new e)) log);
    li_ev : forall e, In e (y_trace _ _ _ s) -> (exists en, In en log /\ In e (e_new en)) \/ by_task (y_trace _ _ _ s) e }.

  Lemma log_same ctx0 ls s es log l s' : LogInv ctx0 ls s es log -> y_ctx _ _ _ s' = y_ctx _ _ _ s -> y_trace _ _ _ s' = y_trace _ _ _ s ->
    (forall lost, Permutation (wire es) (map e_bytes log ++ y_up _ _ _ s ++ lost) -> exists lost, Permutation (wire es) (map e_bytes log ++ y_up _ _ _ s' ++ lost)) ->
    (up_in_order (ls ++ [l]) -> subsequence (y_up _ _ _ s') (y_up _ _ _ s)) ->
    LogInv ctx0 (ls ++ [l]) s' es log.
  Proof.
    intros [] Ec Et Hp Ho. split; auto.
    - now rewrite Ec.
    - destruct li_up0 as (lost & P). eauto.
    - intros U. eapply subseq_trans; [apply li_order0, (up_in_order_app _ _ U)|]. apply subseq_app; [apply subseq_refl|auto].
    - now rewrite Et.
    - now rewrite Et.
  Qed.

  Lemma reach_log ctx0 ls s cl es : sys_run ls (sys_new bg ctx0) = Some (s, cl, es) -> exists log, LogInv ctx0 ls s es log.
  Proof.
    revert ls s cl es. apply (sys_ind std net can_spawn kkind spawn_ctxt enc task cfg d (fun ls s cl es => exists log, LogInv ctx0 ls s es log)).
    { exists []. split; cbn; auto.
      - constructor.
      - exists []. constructor.
      - intros _. constructor.
      - intros e []. }
    intros ls s cl es l s' Hr (log & V) Hs.
    pose proof (reach_sys std net can_spawn kkind spawn_ctxt enc task bg cfg eps tin tout ea ta d Hdisp Hhand _ _ _ _ _ Hr) as (handled & HI).
    destruct l as [l|i|i|i|i|i|i n|]; cbn [client_label].
    - (* a client step *)
      intros e He. cbn [SystemModel.sys_step] in Hs. rewrite He in Hs. exists log.
      assert (Hl : s' = MkSys _ _ _ (y_client _ _ _ s') (y_up _ _ _ s ++ wire_of e) (y_down _ _ _ s) (y_ctx _ _ _ s) (y_trace _ _ _ s) (y_tasks _ _ _ s) (y_serving _ _ _ s)).
      { destruct l; try discriminate; injection Hs as Hs; symmetry; exact Hs. }
      destruct V. rewrite Hl. split; cbn [y_ctx y_up y_trace]; auto.
      + destruct li_up0 as (lost & P). exists lost. rewrite wire_snoc.
        eapply perm_trans; [apply Permutation_app_tail; exact P|]. rewrite <- !app_assoc. apply Permutation_app_head, Permutation_app_head.
        apply Permutation_app_comm.
      + intros U. rewrite wire_snoc, app_assoc. apply subseq_app; [apply li_order0, (up_in_order_app _ _ U)|apply subseq_refl].
    - (* the client receives *)
      destruct (nth_error (y_down _ _ _ s) i) as [b|] eqn:Hn; cbn [option_map].
      2:{ cbn [SystemModel.sys_step] in Hs. rewrite Hn in Hs. discriminate. }
      intros e He. cbn [SystemModel.sys_step] in Hs. rewrite Hn, He in Hs. pose proof (recv_wire cfg _ _ _ _ He) as ->. injection Hs as <-.
      exists log. destruct V. split; cbn [y_ctx y_up y_trace]; auto.
      + rewrite wire_snoc. cbn. rewrite app_nil_r. auto.
      + intros U. rewrite wire_snoc. cbn. rewrite app_nil_r. apply li_order0, (up_in_order_app _ _ U).
    - (* the server dispatches *)
      cbn [SystemModel.sys_step] in Hs. destruct (y_serving _ _ _ s) eqn:Hsv; [|discriminate].
      destruct (nth_error (y_up _ _ _ s) i) as [b|] eqn:Hn; [|discriminate]. destruct V.
      assert (P' : exists lost, Permutation (wire es) ((map e_bytes log ++ [b]) ++ remove_nth i (y_up _ _ _ s) ++ lost)).
      { destruct li_up0 as (lost & P). exists lost. eapply perm_trans; [exact P|]. rewrite <- app_assoc. apply Permutation_app_head.
        eapply perm_trans; [apply Permutation_app_tail, remove_nth_perm; eauto|]. reflexivity. }
      assert (O' : up_in_order (ls ++ [SServe i]) -> subsequence ((map e_bytes log ++ [b]) ++ remove_nth i (y_up _ _ _ s)) (wire es)).
      { intros U. assert (i = 0) as -> by (apply U, in_app_iff; right; left; reflexivity).
        destruct (y_up _ _ _ s); [discriminate|]. injection Hn as ->. rewrite <- app_assoc. apply li_order0, (up_in_order_app _ _ U). }
      destruct (take_from_slice b) as [[[hdr body]|]|] eqn:Ht; [| |discriminate].
      2:{ injection Hs as <-. exists (log ++ [MkEntry b (y_ctx _ _ _ s) (y_ctx _ _ _ s) (y_trace _ _ _ s) []]).
          split; cbn [y_ctx y_up y_trace]; rewrite ?map_app; cbn [map e_bytes]; auto.
          - apply Forall_app. split; auto. constructor; auto. left. auto.
          - eapply chained_app; eauto. change (chained (e_before (MkEntry b (y_ctx _ _ _ s) (y_ctx _ _ _ s) (y_trace _ _ _ s) [])) [MkEntry b (y_ctx _ _ _ s) (y_ctx _ _ _ s) (y_trace _ _ _ s) []] (y_ctx _ _ _ s)).
            constructor. cbn. constructor.
          - rewrite concat_app. cbn. rewrite app_nil_r. auto.
          - intros e He. destruct (li_ev0 _ He) as [(en & H1 & H2)|H]; auto. left. exists en. rewrite in_app_iff. auto. }
      destruct (handle d (y_ctx _ _ _ s) hdr body (y_trace _ _ _ s)) as [[ctx1 res] tr] eqn:Hh.
      destruct (handle_new std net can_spawn kkind spawn_ctxt task bg eps tin tout ea ta d Hdisp Hhand _ _ _ _ _ _ _ Hh) as (new & -> & _).
      injection Hs as <-.
      set (en := MkEntry b (y_ctx _ _ _ s) ctx1 (y_trace _ _ _ s) new).
      exists (log ++ [en]). split; cbn [y_ctx y_up y_trace]; rewrite ?map_app; cbn [map]; auto.
      + apply Forall_app. split; auto. constructor; auto. right. exists hdr, body, res. auto.
      + eapply chained_app; eauto. change (chained (e_before en) [en] (e_after en)). constructor. constructor.
      + rewrite starts_app, li_starts0, concat_app. cbn. rewrite app_nil_r. auto.
      + intros e He. apply in_app_iff in He as [He|He].
        * destruct (li_ev0 _ He) as [(en' & H1 & H2)|H]; [left; exists en'; rewrite in_app_iff; auto|right; apply by_task_mono; auto].
        * left. exists en. rewrite in_app_iff. cbn. auto.
    - (* a task sends *)
      cbn [SystemModel.sys_step] in Hs. destruct (nth_error (y_tasks _ _ _ s) i) as [[|key seq p k]|] eqn:Hn; try discriminate.
      unfold send_keyed, tx_send in Hs.
      set (h := MkHeader (shrink_to (VKey8 key) kkind) seq) in Hs. set (r := net (y_trace _ _ _ s) h p) in Hs. injection Hs as <-.
      assert (Ft : from_task task bg (y_trace _ _ _ s) (HSend key seq p k)).
      { pose proof (si_tasks _ _ _ _ _ _ _ _ _ _ _ _ _ _ _ _ _ HI) as V5. rewrite Forall_forall in V5. apply V5. eapply nth_error_In; eauto. }
      exists log. destruct V. split; cbn [y_ctx y_up y_trace]; auto.
      + intros U. apply li_order0, (up_in_order_app _ _ U).
      + rewrite starts_app, li_starts0. cbn. now rewrite app_nil_r.
      + intros e He. apply in_app_iff in He as [He|[<-|[]]].
        * destruct (li_ev0 _ He) as [H|H]; [left; auto|right; apply by_task_mono; auto].
        * right. destruct Ft as [(n & sc & hdr & v & I1 & M)|(t & I1 & M)].
          -- left. exists n, sc, hdr, v, key, seq, p, r. split; [reflexivity|]. split; [apply in_app_iff; auto|]. apply M. constructor.
          -- right. exists t, key, seq, p, r. split; [reflexivity|]. split; auto. apply M. constructor.
    - cbn [SystemModel.sys_step] in Hs. destruct (nth_error (y_up _ _ _ s) i) as [b|] eqn:Hn; [|discriminate]. injection Hs as <-.
      exists log. eapply log_same; eauto; cbn [y_up].
      + intros lost P. exists (b :: lost). eapply perm_trans; [exact P|]. apply Permutation_app_head.
        eapply perm_trans; [apply Permutation_app_tail, remove_nth_perm; eauto|]. cbn. apply Permutation_middle.
      + intros _. apply subseq_remove.
    - cbn [SystemModel.sys_step] in Hs. destruct (nth_error (y_down _ _ _ s) i) as [b|] eqn:Hn; [|discriminate]. injection Hs as <-.
      exists log. eapply log_same; eauto; cbn [y_up]. intros _. apply subseq_refl.
    - cbn [SystemModel.sys_step] in Hs. destruct (nth_error (y_down _ _ _ s) i) as [b|] eqn:Hn; [|discriminate]. injection Hs as <-.
      exists log. eapply log_same; eauto; cbn [y_up]. intros _. apply subseq_refl.
    - injection Hs as <-. exists log. eapply log_same; eauto; cbn [y_up]. intros _. apply subseq_refl.
  Qed.

  (** *** The turn that a dispatch takes *)
  Lemma shrunk_eqb key kk : varkey_eqb (VKey8 key) (shrink_to (VKey8 key) kk) = true.
  Proof.
    apply varkey_eqb_spec. unfold agree_at. rewrite shrink_bytes, vlen_shrunk, vlen8, Nat.min_r by apply klen_le_8.
    rewrite Nat.min_l by apply klen_le_8. rewrite (compact_compact (VKey8 key) kk kk); auto. rewrite vlen8. apply klen_le_8.
  Qed.

  Lemma user_starts (new : Tr) : (forall e, In e new -> exists key sq p r, e = EvSend ByHandler (out_header kkind key sq) p r) -> starts new = [].
  Proof.
    induction new as [|e new IH]; intros H; auto. destruct (H e (or_introl eq_refl)) as (key & sq & p & r & ->). cbn.
    apply IH. intros e He. apply H. right. auto.
  Qed.

  Section Turns.
    Variable cl : list Label.
    Notation goes := (goes ea ta spawn_ctxt cl).
    Notation request_of := (request_of ea cl).
    Notation message_of := (message_of ta cl).

    (** What is sent in a turn, besides messages on topics and errors. *)
    Definition sends_ok (new : Tr) (P : Key8 -> VarSeq -> Payload Val -> Prop) : Prop :=
      forall w h p x, In (EvSend w h p x) new -> exists key sq, h = out_header kkind key sq /\
        (is_topic_out tout key \/ key = error_key std \/ P key sq p).

    Lemma ep_turn a r c hdr v (t0 : Tr) c' res new :
      request_of r a hdr v -> ep_arm a c hdr v t0 = (c', res, t0 ++ new) ->
      exists t e, goes c t c' /\ call_of t = inl r /\ starts new = [e] /\ begins e t /\
        sends_ok new (fun key sq p => key = ea_resp _ _ a /\ sq = hdr_seq hdr /\ exists w, t = Called r a hdr v w /\ p = PVal w).
    Proof.
      intros Hr H. destruct Hhand as (Hh1 & _ & _).
      assert (Ia : In a ea) by apply Hr.
      assert (Run : ea_flavor _ _ a <> Spawn -> exists t e, goes c t c' /\ call_of t = inl r /\ starts new = [e] /\ begins e t /\
        sends_ok new (fun key sq p => key = ea_resp _ _ a /\ sq = hdr_seq hdr /\ exists w, t = Called r a hdr v w /\ p = PVal w)).
      { intros F. destruct (ep_arm_runs std net can_spawn kkind spawn_ctxt a c hdr v t0 F) as (c1 & rep & tr1 & user & R & E1 & _ & _ & M).
        destruct (run_prog_sends net kkind (ea_run _ _ a c hdr v) (t0 ++ [EvRun (ea_name _ _ a) hdr v])) as (user' & E2 & Sn).
        rewrite R in E2. cbn [snd] in E2. rewrite E1, <- app_assoc in E2. cbn [app] in E2.
        apply app_inv_head in E2. injection E2 as <-.
        assert (Us : starts user = []).
        { apply user_starts. intros e He. destruct (Sn e He) as (key & sq & p & x & -> & _). eauto 6. }
        assert (Ec : c' = c1 /\ exists more, new = EvRun (ea_name _ _ a) hdr v :: user ++ more /\ starts more = [] /\
          sends_ok more (fun key sq p => key = ea_resp _ _ a /\ sq = hdr_seq hdr /\ exists w, Called (SCtx := SCtx) r a hdr v rep = Called r a hdr v w /\ p = PVal w)).
        { destruct M as [M|(k & r0 & M)]; rewrite M in H; injection H as -> <- H; rewrite E1, <- app_assoc in H; cbn [app] in H; apply app_inv_head in H;
            (split; [reflexivity|]); rewrite <- H; eexists; (split; [reflexivity|]); (split; [reflexivity|]).
          - intros w h p x [[= <- <- <- <-]|[]]. do 2 eexists. split; [reflexivity|]. right. right. eauto.
          - intros w h p x [[= <- <- <- <-]|[[= <- <- <- <-]|[]]]; do 2 eexists; (split; [reflexivity|]); right; [right; eauto|left; auto]. }
        destruct Ec as (-> & more & -> & Sm & Sok).
        exists (Called r a hdr v rep), (EvRun (ea_name _ _ a) hdr v). split. { constructor; auto. eapply run_prog_returns; eauto. }
        split; [reflexivity|]. split. { transitivity (EvRun (SCtx := SCtx) (ea_name _ _ a) hdr v :: starts (user ++ more)); [reflexivity|]. rewrite starts_app, Us, Sm. reflexivity. } split; [reflexivity|].
        intros w h p x [Hi|Hi]; [discriminate|]. apply in_app_iff in Hi as [Hi|Hi]; [|apply (Sok _ _ _ _ Hi)].
        destruct (Sn _ Hi) as (key & sq & p' & x' & [= -> -> -> ->] & Ms). exists key, sq. split; auto. left. eapply Hh1; eauto. }
      destruct (ea_flavor _ _ a) eqn:F; [apply Run; congruence|apply Run; congruence|].
      unfold DispatchModel.ep_arm in H. rewrite F in H. destruct (spawn_ctxt c) as [c2 sc] eqn:Esc.
      exists (CallSpawned r a hdr v sc). destruct (can_spawn t0 (ea_name _ _ a)) eqn:Cs; cbn [negb] in H.
      - injection H as -> <- H. apply app_inv_head in H as <-. eexists. split; [constructor; auto|]. split; [reflexivity|]. split; [reflexivity|].
        split; [eexists; reflexivity|]. intros w h p x [Hi|[]]. discriminate.
      - unfold send_error, send_keyed, tx_send in H. injection H as -> <- H. rewrite <- app_assoc in H. apply app_inv_head in H as <-.
        eexists. split; [constructor; auto|]. split; [reflexivity|]. split; [reflexivity|].
        split; [eexists; reflexivity|]. intros w h p x [Hi|[[= <- <- <- <-]|[]]]; [discriminate|]. do 2 eexists. split; [reflexivity|]. auto.
    Qed.

    Lemma tp_turn a i c hdr v (t0 : Tr) c' res new :
      message_of i a hdr v -> tp_arm a c hdr v t0 = (c', res, t0 ++ new) ->
      exists t e, goes c t c' /\ call_of t = inr i /\ starts new = [e] /\ begins e t /\ sends_ok new (fun _ _ _ => False).
    Proof.
      intros Hr H. destruct Hhand as (_ & Hh2 & _). assert (Ia : In a ta) by apply Hr.
      unfold DispatchModel.tp_arm in H.
      assert (Run : ta_flavor _ _ a <> Spawn -> (let (ctx', tr1) := run_prog (ta_run _ _ a c hdr v) (t0 ++ [EvRun (ta_name _ _ a) hdr v]) in (ctx', TxOk, tr1)) = (c', res, t0 ++ new) ->
        exists t e, goes c t c' /\ call_of t = inr i /\ starts new = [e] /\ begins e t /\ sends_ok new (fun _ _ _ => False)).
      { intros F G. destruct (run_prog_sends net kkind (ta_run _ _ a c hdr v) (t0 ++ [EvRun (ta_name _ _ a) hdr v])) as (user & E2 & Sn).
        destruct (DispatchModel.run_prog _ _ _ _ (ta_run _ _ a c hdr v) _) as [c1 tr1] eqn:R. injection G as -> <- ->. cbn [snd] in E2.
        rewrite <- app_assoc in E2. apply app_inv_head in E2. cbn [app] in E2. subst new.
        exists (Told i a hdr v), (EvRun (ta_name _ _ a) hdr v). split. { constructor; auto. eapply run_prog_returns; eauto. }
        split; [reflexivity|]. split.
        { transitivity (EvRun (SCtx := SCtx) (ta_name _ _ a) hdr v :: starts user); [reflexivity|]. rewrite user_starts; auto. intros e He. destruct (Sn e He) as (key & sq & p & x & -> & _). eauto 6. }
        split; [reflexivity|]. intros w h p x [Hi|Hi]; [discriminate|].
        destruct (Sn _ Hi) as (key & sq & p' & x' & [= -> -> -> ->] & Ms). exists key, sq. split; auto. left. eapply Hh2; eauto. }
      destruct (ta_flavor _ _ a) eqn:F; [apply Run; [congruence|exact H]|apply Run; [congruence|exact H]|].
      destruct (spawn_ctxt c) as [c2 sc] eqn:Esc. injection H as -> <- H. apply app_inv_head in H as <-.
      exists (ToldSpawned i a hdr v sc). eexists. split; [constructor; auto|]. split; [reflexivity|]. split; [reflexivity|].
      split; [eexists; reflexivity|]. intros w h p x [Hi|[]]. discriminate.
    Qed.

    (** What one dispatch of the frame of request [r] gives as its answer. *)
    Definition gives (ot : option Turn) (r : nat) (req : Key8) (body : list N) (p : Payload Val) : Prop :=
      (exists n, req = ping_req std /\ from_bytes_u32 body = Some n /\ p = PPing n) \/
      (exists t, req = schemas_req std /\ announces (d_map _ _ d) t /\ p = PSchemaTotals t) \/
      (exists a h v w, ot = Some (Called r a h v w) /\ ea_req _ _ a = req /\ p = PVal w).

    Definition turn_ok (c : Ctx) (ot : option Turn) (c' : Ctx) (x : nat + nat) (new : Tr) : Prop :=
      match ot with
      | None => c' = c /\ starts new = []
      | Some t => goes c t c' /\ call_of t = x /\ exists e, starts new = [e] /\ begins e t
      end.

    Lemma ep_dispatch r req resp kk hdr body c (t0 : Tr) c' res new :
      is_endpoint eps req resp -> klen dk <= klen kk -> hdr_key hdr = shrink_to (VKey8 req) kk ->
      nth_error (issued 0 cl) r = Some (MkFrame (MkHeader (VKey8 req) (hdr_seq hdr)) body, resp) ->
      handle d c hdr body t0 = (c', res, t0 ++ new) ->
      exists ot, turn_ok c ot c' (inl r) new /\
        sends_ok new (fun key sq p => key = resp /\ sq = hdr_seq hdr /\ gives ot r req body p).
    Proof.
      intros He L Hk Hn H. destruct Hdev as (D1 & D2 & D3 & D4).
      destruct (std_in std eps tout ea Hdev) as [SI1 SI2].
      destruct (disp_arms eps tin tout ea ta d Hdisp) as [A1 A2].
      assert (Pin : forall x, In x (map ep_req (em_endpoints eps)) -> pat_eqb (shrink_to (hdr_key hdr) dk) (const_key dk x) = true -> req = x).
      { intros x Hx. apply (pat_in eps tin tout ea ta d Hdisp req kk hdr x L Hk); apply in_app_iff; left; auto. apply (endpoint_in _ _ _ He). }
      assert (One : forall key p0 r0 c0, (c0, r0, t0 ++ [EvSend ByDispatcher (out_header kkind key (hdr_seq hdr)) p0 r0]) = (c', res, t0 ++ new) ->
        c' = c0 /\ new = [EvSend ByDispatcher (out_header kkind key (hdr_seq hdr)) p0 r0]).
      { intros key p0 r0 c0 [= -> <- E]. apply app_inv_head in E. auto. }
      assert (Err : forall er r0 c0, c0 = c -> (c0, r0, t0 ++ [EvSend ByDispatcher (out_header kkind (error_key std) (hdr_seq hdr)) (PError er) r0]) = (c', res, t0 ++ new) ->
        exists ot, turn_ok c ot c' (inl r) new /\ sends_ok new (fun key sq p => key = resp /\ sq = hdr_seq hdr /\ gives ot r req body p)).
      { intros er r0 c0 -> E. destruct (One _ _ _ _ E) as [-> ->]. exists None. split; [split; reflexivity|].
        intros w h p x [[= <- <- <- <-]|[]]. do 2 eexists. split; [reflexivity|]. auto. }
      unfold DispatchModel.handle in H. rewrite keyb_of_spec, Hk, vlen_shrunk in H. apply Nat.leb_le in L as L'. rewrite L', <- Hk in H.
      destruct (pat_eqb _ (const_key _ (ping_req std))) eqn:P1.
      { apply Pin in P1; auto. subst req.
        assert (resp = ping_resp std) as -> by (eapply (endpoint_unique kkind eps tin tout ea ta d Hdisp Hkk); eauto).
        destruct (from_bytes_u32 body) eqn:Fb; unfold send_error, send_keyed, tx_send in H.
        - destruct (One _ _ _ _ H) as [-> ->]. exists None. split; [split; reflexivity|].
          intros w h p x [[= <- <- <- <-]|[]]. do 2 eexists. split; [reflexivity|]. right. right. repeat split. left. eauto.
        - eapply Err; [reflexivity|exact H]. }
      destruct (pat_eqb _ (const_key _ (schemas_req std))) eqn:P2.
      { apply Pin in P2; auto. subst req.
        assert (resp = schemas_resp std) as -> by (eapply (endpoint_unique kkind eps tin tout ea ta d Hdisp Hkk); eauto).
        destruct (send_all_schemas _ _ _ _ _ _ _ _) as [r2 tr2] eqn:Sa. injection H as -> <- ->.
        destruct (schemas_events std net can_spawn kkind d _ _ _ _ Sa) as (new' & E & _ & Ev). apply app_inv_head in E. subst new'.
        exists None. split.
        { split; [reflexivity|]. clear - Ev. induction new as [|e new IH]; auto. destruct (Ev e (or_introl eq_refl)) as (h & p & x & -> & _).
          cbn. apply IH. intros e He. apply Ev. right. auto. }
        intros w h p x Hin'. destruct (Ev _ Hin') as (h' & p' & r' & E & [(n & -> & Ln)|(-> & t & -> & An)]); injection E as -> -> -> ->; do 2 eexists; (split; [reflexivity|]).
        - left. auto.
        - right. right. repeat split. right. left. eauto. }
      rewrite A1, A2 in H.
      destruct (match_eps_cases std net can_spawn kkind spawn_ctxt dk (shrink_to (hdr_key hdr) dk) ea ta c hdr body t0)
        as [(a & v & Ia & Pa & Da & M)|[(r0 & M)|[_ M]]]; rewrite M in H.
      - apply Pin in Pa; [|apply (endpoint_in _ _ _ (D4 _ Ia))]. subst req.
        assert (resp = ea_resp _ _ a) as -> by (eapply (endpoint_unique kkind eps tin tout ea ta d Hdisp Hkk); eauto).
        assert (Hq : request_of r a hdr v).
        { split; auto. split; [rewrite Hk; apply shrunk_eqb|]. eauto. }
        destruct (ep_turn _ _ _ _ _ _ _ _ _ Hq H) as (t & e & G & Ct & St & Be & Sk). exists (Some t). split. { split; auto. split; auto. eauto. }
        intros w h p x Hi. destruct (Sk _ _ _ _ Hi) as (key & sq & -> & [S1|[S1|(S1 & S2 & w0 & -> & ->)]]); exists key, sq; (split; [reflexivity|]); auto.
        right. right. repeat split; auto. right. right. eauto 8.
      - eapply Err; [reflexivity|exact H].
      - destruct (match_tps_cases std net can_spawn kkind spawn_ctxt dk (shrink_to (hdr_key hdr) dk) ta c hdr body t0)
          as [(a & v & Ia & Pa & Da & M2)|[M2|[_ (r0 & M2)]]]; rewrite M2 in H.
        + exfalso. apply pat_match in Pa; [|rewrite Hk, vlen_shrunk; auto]. rewrite Hk, agree_shrunk in Pa by auto.
          destruct (Hdisp) as (_ & _ & D & _).
          destruct (D dk (le_n _)) as [D5 _]. eapply (distinct_app_disj _ _ _ _ _ D5); [|apply (tarms_in eps tin tout ea ta d Hdisp _ Ia)|exact Pa].
          apply (endpoint_in _ _ _ He).
        + injection H as -> <- H. rewrite <- (app_nil_r t0) in H at 1. apply app_inv_head in H as <-. exists None. split; [split; reflexivity|].
          intros w h p x [].
        + eapply Err; [reflexivity|exact H].
    Qed.

    Lemma tp_dispatch i key kk hdr body c (t0 : Tr) c' res new :
      is_topic_in tin key -> klen dk <= klen kk -> hdr_key hdr = shrink_to (VKey8 key) kk ->
      nth_error (published cl) i = Some (MkFrame (MkHeader (VKey8 key) (hdr_seq hdr)) body) ->
      handle d c hdr body t0 = (c', res, t0 ++ new) ->
      exists ot, turn_ok c ot c' (inr i) new /\ sends_ok new (fun _ _ _ => False).
    Proof.
      intros He L Hk Hn H. destruct (std_in std eps tout ea Hdev) as [SI1 SI2]. destruct (disp_arms eps tin tout ea ta d Hdisp) as [A1 A2].
      assert (Hno : forall x, In x (map ep_req (em_endpoints eps)) -> pat_eqb (shrink_to (hdr_key hdr) dk) (const_key dk x) = false).
      { intros x Hx. destruct (pat_eqb _ _) eqn:P; auto. exfalso.
        apply pat_match in P; [|rewrite Hk, vlen_shrunk; auto]. rewrite Hk, agree_shrunk in P by auto.
        destruct (Hdisp) as (_ & _ & D & _).
        destruct (D dk (le_n _)) as [D5 _]. eapply (distinct_app_disj _ _ _ _ _ D5); [exact Hx|exact He|symmetry; exact P]. }
      unfold DispatchModel.handle in H. rewrite keyb_of_spec, Hk, vlen_shrunk in H. apply Nat.leb_le in L as L'. rewrite L', <- Hk in H.
      rewrite !Hno, A1, A2 in H by auto.
      assert (Hm : match_eps Val Ctx SCtx std net can_spawn kkind spawn_ctxt dk (shrink_to (hdr_key hdr) dk) ea ta c hdr body t0 =
        match_tps Val Ctx SCtx std net can_spawn kkind spawn_ctxt dk (shrink_to (hdr_key hdr) dk) ta c hdr body t0).
      { rewrite <- (app_nil_r ea) at 1. rewrite match_eps_skip; [reflexivity|]. intros a Ha. apply Hno, (arms_in std eps tout ea Hdev). auto. }
      rewrite Hm in H.
      destruct (match_tps_cases std net can_spawn kkind spawn_ctxt dk (shrink_to (hdr_key hdr) dk) ta c hdr body t0)
          as [(a & v & Ia & Pa & Da & M2)|[M2|[N2 (r & M2)]]]; rewrite M2 in H.
      - assert (key = ta_key _ _ a).
        { apply (pat_in eps tin tout ea ta d Hdisp key kk hdr _ L Hk); auto; apply in_app_iff; right; auto.
          apply (tarms_in eps tin tout ea ta d Hdisp _ Ia). }
        subst key.
        assert (Hq : message_of i a hdr v). { split; auto. split; [rewrite Hk; apply shrunk_eqb|]. eauto. }
        destruct (tp_turn _ _ _ _ _ _ _ _ _ Hq H) as (t & e & G & Ct & St & Be & Sk). exists (Some t). split; auto. split; auto. split; auto. eauto.
      - injection H as -> <- H. rewrite <- (app_nil_r t0) in H at 1. apply app_inv_head in H as <-. exists None. split; [split; reflexivity|].
        intros w h p x [].
      - injection H as -> <- H. apply app_inv_head in H as <-. exists None. split; [split; reflexivity|].
        intros w h p x [[= <- <- <- <-]|[]]. do 2 eexists. split; [reflexivity|]. auto.
    Qed.
  End Turns.

  (** *** All turns of a history *)
  Section History.
    Variable ctx0 : Ctx.
    Variable ls : list SysLabel.
    Variable s : Sys.
    Variable cl : list Label.
    Variable es : list (list Ev).
    Hypothesis Hrun : sys_run ls (sys_new bg ctx0) = Some (s, cl, es).
    Hypothesis Hlab : Forall (label_ok eps tin) cl.
    Notation tr := (y_trace _ _ _ s).
    Notation asked := (asked eps cl).
    Notation R := (reach_sys std net can_spawn kkind spawn_ctxt enc task bg cfg eps tin tout ea ta d Hdisp Hhand _ _ _ _ _ Hrun).

    Definition frame_bytes_for (b : list N) (x : nat + nat) : Prop := exists f, frame_for cl es x f /\ b = rpc_to_bytes f.

    Lemma frame_class b x hdr body : frame_bytes_for b x -> take_from_slice b = Done (Some (hdr, body)) ->
      exists kk, klen dk <= klen kk /\
      match x with
      | inl r => exists req resp, is_endpoint eps req resp /\
          nth_error (issued 0 cl) r = Some (MkFrame (MkHeader (VKey8 req) (hdr_seq hdr)) body, resp) /\
          hdr_seq hdr = Seq4 (N.of_nat r mod 4294967296) /\ hdr_key hdr = shrink_to (VKey8 req) kk
      | inr i => exists key, is_topic_in tin key /\
          nth_error (published cl) i = Some (MkFrame (MkHeader (VKey8 key) (hdr_seq hdr)) body) /\ hdr_key hdr = shrink_to (VKey8 key) kk
      end.
    Proof.
      destruct R as (handled & HI). intros (f & (g & kk & Hkd & -> & Hg) & ->) Ht.
      pose proof (seen_le std net can_spawn kkind spawn_ctxt enc task bg cfg eps tin tout ea ta d Hdisp Hhand _ _ _ _ _ HI _ Hkd) as Lk.
      exists kk. split; [lia|].
      unfold rpc_to_bytes, shrink_frame in Ht. cbn [f_hdr f_body] in Ht. destruct x as [r|i].
      - destruct Hg as (resp & Hr). destruct (issued_seq_ok eps tin cl Hlab _ _ _ Hr) as (req & body' & He & -> & Hok). cbn in Hok.
        cbn [f_hdr f_body hdr_seq hdr_key] in Ht. rewrite take_written_ok in Ht by exact Hok. injection Ht as <- <-. cbn [hdr_seq hdr_key].
        exists req, resp. auto.
      - assert (Hl : label_ok eps tin (LPublish g)).
        { rewrite Forall_forall in Hlab. apply Hlab. apply nth_error_In in Hg. unfold published in Hg. apply in_flat_map in Hg as (l & Hl & Hi).
          destruct l; try destruct Hi; [subst; auto|destruct H]. }
        destruct Hl as (key & Hk & Ek & Hok). rewrite take_written_ok in Ht by exact Hok. injection Ht as <- <-. cbn [hdr_seq hdr_key].
        exists key. rewrite Ek. repeat split; auto. rewrite <- Ek. destruct g as [[] ?]. exact Hg.
    Qed.

    Definition answer_sent (ot : option Turn) (x : nat + nat) (key : Key8) (sq : VarSeq) (p : Payload Val) : Prop :=
      exists r req resp body, x = inl r /\ asked r req resp body /\ key = resp /\ sq = Seq4 (N.of_nat r mod 4294967296) /\ gives ot r req body p.
    Record Row := MkRow { r_entry : Entry; r_call : nat + nat; r_turn : option Turn }.
    Definition row_ok (x : Row) : Prop :=
      turn_ok cl (e_before (r_entry x)) (r_turn x) (e_after (r_entry x)) (r_call x) (e_new (r_entry x)) /\
      sends_ok (e_new (r_entry x)) (answer_sent (r_turn x) (r_call x)).

    Lemma entry_row en x : entry_ok en -> frame_bytes_for (e_bytes en) x -> exists ot, row_ok (MkRow en x ot).
    Proof.
      intros [(_ & E1 & E2)|(hdr & body & res & Ht & Hh)] Hf.
      - exists None. split; cbn; [rewrite E2; auto|]. rewrite E2. intros w h p y [].
      - destruct (frame_class _ _ _ _ Hf Ht) as (kk & L & C). destruct x as [r|i].
        + destruct C as (req & resp & He & Hi & Hs & Hk).
          destruct (ep_dispatch cl _ _ _ _ _ _ _ _ _ _ _ He L Hk Hi Hh) as (ot & T & Sk). exists ot. split; auto. cbn.
          intros w h p y Hy. destruct (Sk _ _ _ _ Hy) as (key & sq & -> & [S1|[S1|(-> & -> & G)]]); exists key, sq || exists resp, (hdr_seq hdr); (split; [reflexivity|]); auto.
          right. right. exists r, req, resp, body. split; auto. split; [split; auto; rewrite <- Hs; auto|]. auto.
        + destruct C as (key & He & Hi & Hk).
          destruct (tp_dispatch cl _ _ _ _ _ _ _ _ _ _ He L Hk Hi Hh) as (ot & T & Sk). exists ot. split; auto. cbn.
          intros w h p y Hy. destruct (Sk _ _ _ _ Hy) as (k & sq & -> & [S1|[S1|[]]]); exists k, sq; auto.
    Qed.

    Lemma log_rows log : Forall entry_ok log -> forall hc, Forall2 frame_bytes_for (map e_bytes log) hc ->
      exists rows, map r_entry rows = log /\ map r_call rows = hc /\ Forall row_ok rows.
    Proof.
      induction 1 as [|en log Hen F IH]; intros hc F2; inversion F2; subst; cbn in *.
      - exists []. auto.
      - destruct (IH _ H3) as (rows & <- & <- & Fr). destruct (entry_row _ _ Hen H1) as (ot & Ho). exists (MkRow en y ot :: rows). auto.
    Qed.

    Definition turns (rows : list Row) : list Turn := flat_map (fun x => opt (r_turn x)) rows.
    Lemma rows_path rows : Forall row_ok rows -> forall c c', chained c (map r_entry rows) c' -> path ea ta spawn_ctxt cl c (turns rows) c'.
    Proof.
      induction 1 as [|x rows [T _] F IH]; intros c c' H; inversion H; subst; cbn [turns flat_map].
      - constructor.
      - destruct (r_turn x) as [t|]; cbn [opt app turn_ok] in *.
        + destruct T as (G & _). econstructor; eauto.
        + destruct T as (E & _). rewrite <- E. auto.
    Qed.
    Lemma rows_calls rows : Forall row_ok rows -> subsequence (map call_of (turns rows)) (map r_call rows).
    Proof.
      induction 1 as [|x rows [T _] F IH]; cbn [turns flat_map map]; [constructor|].
      destruct (r_turn x) as [t|]; cbn [opt app turn_ok map] in *.
      - destruct T as (_ & -> & _). constructor. auto.
      - apply sub_skip. auto.
    Qed.
    Lemma rows_starts rows : Forall row_ok rows -> Forall2 begins (concat (map (fun e => starts (e_new e)) (map r_entry rows))) (turns rows).
    Proof.
      induction 1 as [|x rows [T _] F IH]; cbn [turns flat_map map concat]; [constructor|].
      destruct (r_turn x) as [t|]; cbn [opt app turn_ok] in *.
      - destruct T as (_ & _ & e & -> & B). constructor; auto.
      - destruct T as (_ & ->). auto.
    Qed.

    (** The calls whose frames were handled. *)
    Lemma handled_calls log : LogInv ctx0 ls s es log -> exists hc, Forall2 frame_bytes_for (map e_bytes log) hc /\ NoDup hc /\ incl hc (accepted cl es) /\
      (up_in_order ls -> subsequence hc (accepted cl es)).
    Proof.
      intros V. destruct R as (handled & HI).
      destruct (C59_in_order_once _ _ _ _ (si_run _ _ _ _ _ _ _ _ _ _ _ _ _ _ _ _ _ HI)) as (ND & frames & F & (rest & E) & _).
      assert (W : exists acc more, accepted cl es = acc ++ more /\ Forall2 frame_bytes_for (wire es) acc).
      { clear - F E. unfold frame_bytes_for. revert frames F E. generalize (wire es). generalize (accepted cl es). intros acc bs frames F.
        revert bs. induction F as [|x f acc frames Hx F IH]; intros bs E.
        - destruct bs; [|discriminate]. exists [], []. split; auto.
        - destruct bs as [|b bs]. { exists [], (x :: acc). split; auto. }
          injection E as Eb E. destruct (IH _ E) as (a1 & m & -> & H2). exists (x :: a1), m. split; auto. constructor; auto. exists f. auto. }
      destruct W as (acc & more & Ea & W).
      assert (Sub : subsequence acc (accepted cl es)).
      { rewrite Ea. rewrite <- (app_nil_r acc) at 1. apply subseq_app; [apply subseq_refl|constructor]. }
      destruct (up_in_order_dec ls) as [U|U].
      - pose proof (li_order _ _ _ _ _ V U) as So. destruct (subseq_forall2 _ _ _ So _ W) as (hc & S1 & F1).
        apply forall2_app_l in F1 as (h1 & h2 & -> & F1 & F2). exists h1.
        assert (S2 : subsequence h1 (accepted cl es)).
        { eapply subseq_trans; [exact Sub|]. eapply subseq_trans; [exact S1|]. rewrite <- (app_nil_r h1) at 1. apply subseq_app; [apply subseq_refl|constructor]. }
        split; auto. split; [eapply subseq_nodup; eauto|]. split; auto. intros x. eapply subseq_in; eauto.
      - destruct (li_up _ _ _ _ _ V) as (lost & P). destruct (perm_forall2 _ _ _ P _ W) as (hc & P1 & F1).
        apply forall2_app_l in F1 as (h1 & h2 & -> & F1 & F2). exists h1. split; auto. split.
        + assert (ND2 : NoDup (h1 ++ h2)). { eapply Permutation_NoDup; [exact P1|]. eapply subseq_nodup; eauto. }
          eapply subseq_nodup; [|exact ND2]. rewrite <- (app_nil_r h1) at 1. apply subseq_app; [apply subseq_refl|constructor].
        + split; [|intros X; destruct (U X)]. intros x Hx. eapply subseq_in; [exact Sub|]. eapply Permutation_in; [apply Permutation_sym, P1|].
          apply in_app_iff. auto.
    Qed.

    Hypothesis Hcount : (N.of_nat (typed cl) <= 4294967296)%N.
    Hypothesis Herr : ~ In (compact (klen kkind) (k8_bytes (error_key std)))
         (map (fun k => compact (klen kkind) (k8_bytes k)) (map ep_resp (em_endpoints eps))).

    (** A transmission under a request's response key and number is the answer of the
        request's turn. *)
    Lemma sent_in_turn rows w key sq p x r req resp body :
      Forall row_ok rows -> (forall e, In e tr -> (exists en, In en (map r_entry rows) /\ In e (e_new en)) \/ by_task tr e) ->
      starts tr = concat (map (fun e => starts (e_new e)) (map r_entry rows)) ->
      asked r req resp body -> In (EvSend w (out_header kkind key sq) p x) tr ->
      compact (klen kkind) (k8_bytes resp) = compact (klen kkind) (k8_bytes key) -> seq_value sq = (N.of_nat r mod 4294967296)%N ->
      In (inl r) (map r_call rows) /\ answered_in std task d (turns rows) r req body p.
    Proof.
      intros Fr Ev St As Hi Ek Hsq. pose proof As as [Hep _]. pose proof (endpoint_in _ _ _ Hep) as [_ Hresp].
      destruct (Hdisp) as (_ & _ & D & _). destruct (D kkind Hkk) as [_ D2].
      assert (NoTopic : forall k, is_topic_out tout k -> compact (klen kkind) (k8_bytes resp) = compact (klen kkind) (k8_bytes k) -> False).
      { intros k Ht E. exact (distinct_app_disj _ _ _ _ _ D2 Hresp Ht E). }
      assert (NoErr : compact (klen kkind) (k8_bytes resp) = compact (klen kkind) (k8_bytes (error_key std)) -> False).
      { intros E. apply Herr. rewrite <- E. apply in_map_iff. eauto. }
      assert (Cut : forall k1 q1 k2 q2, out_header kkind k1 q1 = out_header kkind k2 q2 -> q1 = q2 /\ compact (klen kkind) (k8_bytes k1) = compact (klen kkind) (k8_bytes k2)).
      { intros k1 q1 k2 q2 E. pose proof (f_equal hdr_key E) as E1. pose proof (f_equal hdr_seq E) as E2. cbn [out_header hdr_key hdr_seq] in E1, E2. split; auto.
        assert (X : forall k, varkey_bytes (shrink_to (VKey8 k) kkind) = compact (klen kkind) (k8_bytes k)).
        { intros k. rewrite shrink_bytes, vlen8, Nat.min_l by apply klen_le_8. reflexivity. }
        rewrite <- !X, E1. reflexivity. }
      destruct (Ev _ Hi) as [(en & Hen & Hin)|[(n & sc & hdr & v & k & q & p' & x' & E & Hsp & Ms)|(t & k & q & p' & x' & E & Hbg & Ms)]].
      - apply in_map_iff in Hen as (row & <- & Hrow). rewrite Forall_forall in Fr. destruct (Fr _ Hrow) as [T Sk].
        destruct (Sk _ _ _ _ Hin) as (k & q & Eh & H). destruct (Cut _ _ _ _ Eh) as [<- Ek2]. rewrite Ek2 in Ek.
        destruct H as [H|[->|(r2 & req2 & resp2 & body2 & Ex & As2 & -> & -> & G)]]; [destruct (NoTopic _ H Ek)|destruct (NoErr Ek)|].
        cbn [seq_value] in Hsq. destruct (asked_same kkind eps tin d Hkk cl Hlab Hcount _ _ _ _ _ _ _ _ As As2 (eq_sym Hsq)) as (<- & <- & <- & <-).
        split. { apply in_map_iff. exists row. auto. }
        destruct G as [(n & -> & Fb & ->)|[(t & -> & An & ->)|(a & h & v & w0 & Et & <- & ->)]].
        + apply ai_ping; auto.
        + apply ai_schemas; auto.
        + eapply ai_turn; [reflexivity|]. unfold turns. apply in_flat_map. exists row. split; auto. rewrite Et. left. reflexivity.
      - apply send_inj in E as (-> & Eh & -> & ->). destruct (Cut _ _ _ _ Eh) as [<- Ek2]. rewrite Ek2 in Ek.
        assert (Hst : In (EvSpawn n sc hdr v true) (starts tr)) by (apply filter_In; auto).
        rewrite St in Hst. apply in_concat in Hst as (new & Hnew & Hst). rewrite map_map in Hnew. apply in_map_iff in Hnew as (row & <- & Hrow).
        pose proof Fr as Fr'. rewrite Forall_forall in Fr'. destruct (Fr' _ Hrow) as [T _].
        unfold turn_ok in T. destruct (r_turn row) as [t|] eqn:Et; [|destruct T as [_ T]; rewrite T in Hst; destruct Hst].
        destruct T as (G & Ct & e & Es & B). rewrite Es in Hst. destruct Hst as [->|[]].
        assert (Ht : In t (turns rows)). { unfold turns. apply in_flat_map. exists row. split; auto. rewrite Et. left. reflexivity. }
        destruct G as [r2 a h u w0 c c' Hq _ _|i a h u c c' Hm _ _|r2 a h u sc2 c c' Hq Fl _|i a h u sc2 c c' Hm Fl _]; cbn [begins] in B; try discriminate B;
          destruct B as (ok & B); injection B as -> <- <- <- _.
        + destruct Hq as (Ia & Hke & body2 & resp2 & Hn & Hd). destruct Hhand as (_ & _ & Hh3 & _).
          destruct (Hh3 _ _ _ _ _ _ _ Ia Fl Ms) as [[H1 _]|[Hkey Hq]]; [destruct (NoTopic _ H1 Ek)|]. destruct Hkey as [->| ->]; [|destruct (NoErr Ek)].
          destruct (issued_asked eps tin cl Hlab _ _ _ Hn) as (req3 & body3 & As3 & E3). injection E3 as <- Eseq <-.
          rewrite Hq, Eseq in Hsq. cbn [seq_value] in Hsq.
          destruct (asked_same kkind eps tin d Hkk cl Hlab Hcount _ _ _ _ _ _ _ _ As As3 (eq_sym Hsq)) as (<- & -> & <- & <-).
          split. { apply in_map_iff. exists row. auto. }
          eapply ai_task; [reflexivity|exact Ht|]. rewrite <- Hq. exact Ms.
        + destruct Hm as (Ia & _). destruct Hhand as (_ & _ & _ & Hh4 & _). destruct (Hh4 _ _ _ _ _ _ _ Ia Fl Ms) as [H1 _]. destruct (NoTopic _ H1 Ek).
      - apply send_inj in E as (-> & Eh & -> & ->). destruct (Cut _ _ _ _ Eh) as [<- Ek2]. rewrite Ek2 in Ek. destruct Hhand as (_ & _ & _ & _ & Hh5).
        destruct (Hh5 _ _ _ _ Hbg Ms) as [H1 _]. destruct (NoTopic _ H1 Ek).
    Qed.

    Lemma one_object : exists ts,
      path ea ta spawn_ctxt cl ctx0 ts (y_ctx _ _ _ s) /\ Forall2 begins (starts tr) ts /\
      NoDup (map call_of ts) /\ incl (map call_of ts) (accepted cl es) /\
      (up_in_order ls -> subsequence (map call_of ts) (accepted cl es)) /\
      forall r f, In (r, GotReply f) (results es) -> In (inl r) (accepted cl es) /\
        exists req resp body p,
          nth_error (issued 0 cl) r = Some (MkFrame (MkHeader (VKey8 req) (Seq4 (N.of_nat r))) body, resp) /\
          (exists missing, enc p = f_body f ++ missing) /\ (uncut ls -> f_body f = enc p) /\
          answered_in std task d ts r req body p.
    Proof.
      destruct (reach_log _ _ _ _ _ Hrun) as (log & V). destruct (handled_calls _ V) as (hc & F & ND & Inc & Ord).
      destruct (log_rows _ (li_ok _ _ _ _ _ V) _ F) as (rows & El & Eh & Fr). subst log hc.
      pose proof (rows_calls _ Fr) as Sc.
      exists (turns rows). split; [apply rows_path; auto; exact (li_chain _ _ _ _ _ V)|].
      split; [rewrite (li_starts _ _ _ _ _ V); apply rows_starts; auto|].
      split; [eapply subseq_nodup; eauto|]. split; [intros y Hy; apply Inc; eapply subseq_in; eauto|].
      split; [intros U; eapply subseq_trans; [apply Ord, U|exact Sc]|].
      intros r f Hr. destruct R as (handled & HI). pose proof (si_run _ _ _ _ _ _ _ _ _ _ _ _ _ _ _ _ _ HI) as Hc.
      destruct (proj1 (C30_answer_matches _ _ _ _ r f Hc) Hr) as (sent & resp & kk & Hi & Ha & Hk & Hm).
      pose proof (seen_le std net can_spawn kkind spawn_ctxt enc task bg cfg eps tin tout ea ta d Hdisp Hhand _ _ _ _ _ HI _ Hk) as Lk.
      destruct (arrived_class std net can_spawn kkind spawn_ctxt enc task bg cfg eps tin tout ea ta d Hdisp Hdev Hhand Hkk _ _ _ _ _ HI Hlab _ Ha)
        as (w & key & sq & p & r0 & x & Hs & Hok & Hfh & Hfb & Hfx). destruct f as [fh fb]. cbn [f_hdr f_body] in Hfh, Hfb |- *. subst fh.
      apply (answers_key kkind d Hkk _ _ _ _ _ _ Lk) in Hm as [Hsq Hkey].
      destruct (issued_asked eps tin cl Hlab _ _ _ Hi) as (req & body & As & ->). cbn [f_hdr hdr_seq seq_value] in Hsq.
      destruct (sent_in_turn _ _ _ _ _ _ _ _ _ _ Fr (li_ev _ _ _ _ _ V) (li_starts _ _ _ _ _ V) As Hs Hkey Hsq) as [Hin An].
      split; auto. exists req, resp, body, p. destruct As as [Hep As].
      rewrite (asked_num kkind eps tin d Hkk cl Hlab Hcount _ _ _ _ (conj Hep As)) in As.
      split; [auto|]. split; [eauto|]. split; [|auto]. intros U. rewrite Hfb, (Hfx U), app_nil_r. reflexivity.
    Qed.
  End History.

  (** *** Time *)
  Lemma sys_prefix n : forall ls s0 s cl es, sys_run ls s0 = Some (s, cl, es) ->
    exists ls1 s1, sys_run ls1 s0 = Some (s1, firstn n cl, firstn n es) /\ (up_in_order ls -> up_in_order ls1).
  Proof.
    intros ls. revert n. induction ls as [|l ls IH]; intros n s0 s cl es H; cbn [SystemModel.sys_run] in H.
    - injection H as <- <- <-. exists [], s0. destruct n; auto.
    - destruct (sys_step l s0) as [s1|] eqn:E; [|discriminate].
      destruct (SystemModel.sys_run _ _ _ _ _ _ _ _ _ _ _ _ ls s1) as [[[s2 cl2] es2]|] eqn:Rn; [|discriminate].
      destruct (client_label _ _ _ l s0) as [x|] eqn:X.
      + destruct (step cfg x (y_client _ _ _ s0)) as [[c e]|] eqn:Sx; [|discriminate]. injection H as <- <- <-.
        destruct n as [|n]. { exists [], s0. split; [reflexivity|]. intros _ j []. }
        destruct (IH n _ _ _ _ Rn) as (ls1 & s3 & R1 & U). exists (l :: ls1), s3. split.
        * cbn [SystemModel.sys_run firstn]. rewrite E, R1, X, Sx. reflexivity.
        * intros H j [->|Hj]; [apply H; left; auto|]. apply U; auto. intros k Hk. apply H. right. auto.
      + injection H as <- <- <-. destruct (IH n _ _ _ _ Rn) as (ls1 & s3 & R1 & U). exists (l :: ls1), s3. split.
        * cbn [SystemModel.sys_run]. rewrite E, R1, X. reflexivity.
        * intros H j [->|Hj]; [apply H; left; auto|]. apply U; auto. intros k Hk. apply H. right. auto.
  Qed.

  Lemma subseq_split_r {A} (a b1 : list A) : forall b2, subsequence a (b1 ++ b2) -> exists a1 a2, a = a1 ++ a2 /\ subsequence a1 b1 /\ subsequence a2 b2.
  Proof.
    revert a. induction b1 as [|x b1 IH]; intros a b2 H; cbn in H.
    - exists [], a. repeat split; auto. constructor.
    - inversion H; subst.
      + exists [], []. repeat split; constructor.
      + destruct (IH _ _ H2) as (a1 & a2 & -> & S1 & S2). exists (x :: a1), a2. repeat split; auto. constructor; auto.
      + destruct (IH _ _ H2) as (a1 & a2 & -> & S1 & S2). exists a1, a2. repeat split; auto. apply sub_skip; auto.
  Qed.

  Lemma accepted_firstn n : forall cl es, exists more, accepted cl es = accepted (firstn n cl) (firstn n es) ++ more.
  Proof.
    induction n as [|n IH]; intros cl es. { exists (accepted cl es). reflexivity. }
    destruct cl as [|l cl]; [exists []; reflexivity|]. destruct es as [|e es].
    - exists []. cbn [firstn]. destruct l; reflexivity.
    - destruct (IH cl es) as (more & E). exists more. cbn [firstn].
      assert (X : exists h, forall c2 e2, accepted (l :: c2) (e :: e2) = h ++ accepted c2 e2).
      { destruct l; try (exists []; reflexivity).
        - destruct e; [exists [inl r]; reflexivity|exists []; reflexivity].
        - destruct e as [|[] [|]]; try (exists []; reflexivity). all: destruct ok; try (exists []; reflexivity). exists [inr i]; reflexivity. }
      destruct X as (h & X). rewrite !X, E, app_assoc. reflexivity.
  Qed.

  Lemma real_time ctx0 ls s cl es (ts : list Turn) :
    sys_run ls (sys_new bg ctx0) = Some (s, cl, es) -> Forall (label_ok eps tin) cl -> (N.of_nat (typed cl) <= 4294967296)%N ->
    ~ In (compact (klen kkind) (k8_bytes (error_key std)))
         (map (fun k => compact (klen kkind) (k8_bytes k)) (map ep_resp (em_endpoints eps))) ->
    subsequence (map call_of ts) (accepted cl es) ->
    forall r1 r2, returned_before cl es r1 r2 -> ~ turn_before ts r2 r1.
  Proof.
    intros Hrun Hlab Hcount Herr Hsub r1 r2 (n & f & Hret & Hmade) (x & y & z & Ets).
    destruct (sys_prefix n _ _ _ _ _ Hrun) as (ls1 & s1 & Hrun1 & _).
    assert (Hlab1 : Forall (label_ok eps tin) (firstn n cl)).
    { rewrite Forall_forall in *. intros l Hl. apply Hlab. rewrite <- (firstn_skipn n cl). apply in_app_iff. auto. }
    assert (Hcount1 : (N.of_nat (typed (firstn n cl)) <= 4294967296)%N).
    { assert (typed (firstn n cl) <= typed cl); [|lia]. unfold typed. rewrite <- (firstn_skipn n cl) at 2. rewrite filter_app, app_length. lia. }
    destruct (one_object _ _ _ _ _ Hrun1 Hlab1 Hcount1 Herr) as (ts1 & _ & _ & _ & _ & _ & Hrep).
    destruct (Hrep _ _ Hret) as [A1 _].
    pose proof (reach_sys std net can_spawn kkind spawn_ctxt enc task bg cfg eps tin tout ea ta d Hdisp Hhand _ _ _ _ _ Hrun) as (h & HI).
    pose proof (reach_sys std net can_spawn kkind spawn_ctxt enc task bg cfg eps tin tout ea ta d Hdisp Hhand _ _ _ _ _ Hrun1) as (h1 & HI1).
    destruct (C59_in_order_once _ _ _ _ (si_run _ _ _ _ _ _ _ _ _ _ _ _ _ _ _ _ _ HI)) as (ND & _).
    destruct (C59_in_order_once _ _ _ _ (si_run _ _ _ _ _ _ _ _ _ _ _ _ _ _ _ _ _ HI1)) as (_ & frames & F & _).
    assert (A2 : ~ In (inl r2) (accepted (firstn n cl) (firstn n es))).
    { intros Hin. clear - F Hin Hmade. induction F as [|u g acc fr Hg F IH]; [destruct Hin|]. destruct Hin as [->|Hin]; auto.
      destruct Hg as (g' & kk & _ & _ & resp & Hn). assert (nth_error (issued 0 (firstn n cl)) r2 <> None) by congruence.
      apply nth_error_Some in H. lia. }
    destruct (accepted_firstn n cl es) as (more & E). rewrite E in Hsub, ND.
    destruct (subseq_split_r _ _ _ Hsub) as (t1 & t2 & Et & S1 & S2). rewrite Ets in Et.
    assert (B : In (inl r1) t2).
    { clear - Et S1 A2. revert t1 S1 Et. induction x as [|u x IH]; intros [|v t1] S1 Et; cbn in Et.
      - subst t2. right. apply in_app_iff. right. left. reflexivity.
      - injection Et as <- _. destruct A2. eapply subseq_in; [exact S1|]. left. reflexivity.
      - subst t2. right. apply in_app_iff. right. right. apply in_app_iff. right. left. reflexivity.
      - injection Et as <- Et. refine (IH t1 _ Et). eapply subseq_trans; [exact S1|]. apply sub_skip, subseq_refl. }
    apply (subseq_in _ _ _ S2) in B.
    clear - ND A1 B. induction (accepted (firstn n cl) (firstn n es)) as [|u l IH]; [destruct A1|]. cbn in ND. inversion ND; subst.
    destruct A1 as [->|A1]; auto. apply H1. apply in_app_iff. auto.
  Qed.
End S.
