(** Lemmas about calls that reach their handlers. *)
From Coq Require Import NArith List Bool Arith Lia Permutation.
From Verif Require Import KeyModel HeaderModel KeySpec HeaderSpec KeyProof HeaderProof MinKeyModel MinKeySpec MinKeyProof
  SchemaModel MacroModel PostcardModel DispatchModel DispatchSpec DispatchProof SubModel SubSpec SubProof
  ClientModel ClientSpec ClientProof ClientHist ClientMore ClientOut ClientThm ClientThm3.
From Verif Require Import UsbSpec FlowBase SubFlow FlowSpec FlowProof.
From Verif Require Import KeySpec HeaderModel HeaderSpec DispatchModel DispatchSpec DispatchThm SubModel SystemModel SystemSpec SystemProof SystemThm FlowThm
  LiveSpec LiveProof ServedSpec.
Import ListNotations.

Section S.
  Context {Val Ctx SCtx : Type}.
  Variable std : StdKeys.
  Variable net : Trace Val SCtx -> VarHeader -> Payload Val -> TxRes.
  Variable can_spawn : Trace Val SCtx -> nat -> bool.
  Variable kkind : VarKeyKind.
  Variable spawn_ctxt : Ctx -> Ctx * SCtx.
  Variable enc : Payload Val -> list N.
  Variable task : nat -> SCtx -> VarHeader -> Val -> HProg Val unit.
  Variable bg : list (HProg Val unit).
  Variable cfg : Config.
  Variable eps : EndpointMap.
  Variable tin tout : TopicMap.
  Variable ea : list (EpArm Val Ctx).
  Variable ta : list (TpArm Val Ctx).
  Variable d : Dispatcher Val Ctx.
  Hypothesis Hdisp : dispatcher_for eps tin tout ea ta d.
  Hypothesis Hdev : device_ok std eps tout ea.
  Hypothesis Hhand : handlers_ok std tout ea ta task bg.
  Hypothesis Hkk : klen (d_kind _ _ d) <= klen kkind.

  Notation sys_run := (sys_run Val Ctx SCtx std net can_spawn kkind spawn_ctxt d enc task cfg).
  Notation sys_step := (sys_step Val Ctx SCtx std net can_spawn kkind spawn_ctxt d enc task cfg).
  Notation handle := (handle Val Ctx SCtx std net can_spawn kkind spawn_ctxt).
  Notation sys_new := (sys_new Val Ctx SCtx).
  Notation Tr := (Trace Val SCtx).
  Notation dk := (d_kind _ _ d).

  (** What became of a frame that the server took. *)
  Definition whole_piece (tr : Tr) (b : list N) (piece : list (nat * VarHeader * Val)) : Prop :=
    (take_from_slice b = Done None /\ piece = []) \/
    exists hdr body t0 new t2 ctx ctx' res, take_from_slice b = Done (Some (hdr, body)) /\
      handle d ctx hdr body t0 = (ctx', res, t0 ++ new) /\ piece = invocations new /\ tr = t0 ++ new ++ t2.
  Lemma whole_mono tr more b piece : whole_piece tr b piece -> whole_piece (tr ++ more) b piece.
  Proof.
    intros [X|(hdr & body & t0 & new & t2 & ctx & ctx' & res & H1 & H2 & H3 & ->)]; [left; auto|right].
    exists hdr, body, t0, new, (t2 ++ more), ctx, ctx', res. rewrite <- !app_assoc. auto.
  Qed.

  Lemma reach_served ctx0 ls s cl es : sys_run ls (sys_new bg ctx0) = Some (s, cl, es) ->
    exists handled pieces,
      Permutation (wire es) (handled ++ y_up _ _ _ s ++ lost_up sys_step ls (sys_new bg ctx0)) /\
      (up_in_order ls -> subsequence (handled ++ y_up _ _ _ s) (wire es)) /\
      Forall2 (whole_piece (y_trace _ _ _ s)) handled pieces /\ invocations (y_trace _ _ _ s) = concat pieces.
  Proof.
    revert ls s cl es. apply (sys_ind std net can_spawn kkind spawn_ctxt enc task cfg d (fun ls s cl es => exists handled pieces,
      Permutation (wire es) (handled ++ y_up _ _ _ s ++ lost_up sys_step ls (sys_new bg ctx0)) /\
      (up_in_order ls -> subsequence (handled ++ y_up _ _ _ s) (wire es)) /\
      Forall2 (whole_piece (y_trace _ _ _ s)) handled pieces /\ invocations (y_trace _ _ _ s) = concat pieces)).
    { exists [], []. cbn. repeat split; constructor. }
    intros ls s cl es l s' Hr (handled & pieces & P & O & F & E) Hs.
    destruct (lost_snoc std net can_spawn kkind spawn_ctxt enc task cfg d _ _ _ _ _ l Hr) as [Lu _].
    destruct l as [l|i|i|i|i|i|i n|]; cbn [client_label]; cbn [loses_up] in Lu; rewrite ?app_nil_r in Lu; rewrite Lu; clear Lu.
    - intros e He. cbn [SystemModel.sys_step] in Hs. rewrite He in Hs.
      assert (Eq : s' = MkSys _ _ _ (y_client _ _ _ s') (y_up _ _ _ s ++ wire_of e) (y_down _ _ _ s) (y_ctx _ _ _ s) (y_trace _ _ _ s) (y_tasks _ _ _ s) (y_serving _ _ _ s)).
      { destruct l; try discriminate; injection Hs as Hs; symmetry; exact Hs. }
      exists handled, pieces. rewrite Eq. cbn [y_up y_trace]. rewrite wire_snoc. split; [|split; [|auto]].
      + eapply perm_trans; [apply Permutation_app_tail; exact P|]. rewrite <- !app_assoc. apply Permutation_app_head, Permutation_app_head, Permutation_app_comm.
      + intros U. rewrite app_assoc. apply subseq_app; [apply O, (up_in_order_app _ _ U)|apply subseq_refl].
    - destruct (nth_error (y_down _ _ _ s) i) as [b|] eqn:Hn; cbn [option_map].
      2:{ cbn [SystemModel.sys_step] in Hs. rewrite Hn in Hs. discriminate. }
      intros e He. cbn [SystemModel.sys_step] in Hs. rewrite Hn, He in Hs. pose proof (recv_wire _ _ _ _ _ He) as ->. injection Hs as <-.
      exists handled, pieces. rewrite wire_snoc. cbn. rewrite app_nil_r. split; auto. split; auto. intros U. apply O, (up_in_order_app _ _ U).
    - cbn [SystemModel.sys_step] in Hs. destruct (y_serving _ _ _ s); [|discriminate].
      destruct (nth_error (y_up _ _ _ s) i) as [b|] eqn:Hn; [|discriminate].
      assert (P' : Permutation (wire es) ((handled ++ [b]) ++ remove_nth i (y_up _ _ _ s) ++ lost_up sys_step ls (sys_new bg ctx0))).
      { eapply perm_trans; [exact P|]. rewrite <- app_assoc. apply Permutation_app_head.
        eapply perm_trans; [apply Permutation_app_tail, remove_nth_perm; eauto|]. reflexivity. }
      assert (O' : up_in_order (ls ++ [SServe i]) -> subsequence ((handled ++ [b]) ++ remove_nth i (y_up _ _ _ s)) (wire es)).
      { intros U. assert (i = 0) as -> by (apply U, in_app_iff; right; left; reflexivity).
        destruct (y_up _ _ _ s); [discriminate|]. injection Hn as ->. rewrite <- app_assoc. apply O, (up_in_order_app _ _ U). }
      destruct (take_from_slice b) as [[[hdr body]|]|] eqn:Ht; [| |discriminate].
      2:{ injection Hs as <-. exists (handled ++ [b]), (pieces ++ [[]]). split; [exact P'|]. split; [exact O'|]. cbn [y_trace]. split.
          - apply Forall2_app; auto. constructor; [left; auto|constructor].
          - rewrite concat_app. cbn. rewrite app_nil_r. auto. }
      destruct (handle d (y_ctx _ _ _ s) hdr body (y_trace _ _ _ s)) as [[ctx1 res] tr] eqn:Hh.
      destruct (handle_new std net can_spawn kkind spawn_ctxt task bg eps tin tout ea ta d Hdisp Hhand _ _ _ _ _ _ _ Hh) as (new & -> & _). injection Hs as <-.
      exists (handled ++ [b]), (pieces ++ [invocations new]). split; [exact P'|]. split; [exact O'|]. cbn [y_trace]. split.
      + apply Forall2_app.
        * clear - F. induction F; constructor; auto. apply whole_mono. auto.
        * constructor; [|constructor]. right. exists hdr, body, (y_trace _ _ _ s), new, [], (y_ctx _ _ _ s), ctx1, res. rewrite app_nil_r. auto.
      + rewrite invocations_app, concat_app. cbn. rewrite app_nil_r, E. auto.
    - cbn [SystemModel.sys_step] in Hs. destruct (nth_error (y_tasks _ _ _ s) i) as [[|key seq p k]|] eqn:Hn; try discriminate.
      unfold send_keyed, tx_send in Hs. injection Hs as <-. exists handled, pieces. cbn [y_up y_trace]. split; auto. split; [intros U; apply O, (up_in_order_app _ _ U)|]. split.
      + clear - F. induction F; constructor; auto. apply whole_mono. auto.
      + rewrite invocations_app. cbn. rewrite app_nil_r. auto.
    - cbn [SystemModel.sys_step] in Hs. destruct (nth_error (y_up _ _ _ s) i) as [b|] eqn:Hn; [|discriminate]. injection Hs as <-.
      exists handled, pieces. cbn [y_up y_trace]. split; [|split; [|auto]].
      + eapply perm_trans; [exact P|]. apply Permutation_app_head.
        eapply perm_trans; [apply Permutation_app_tail, remove_nth_perm; eauto|]. cbn [app].
        eapply perm_trans; [apply Permutation_middle|]. apply Permutation_app_head, Permutation_cons_append.
      + intros U. eapply subseq_trans; [apply O, (up_in_order_app _ _ U)|]. apply subseq_app; [apply subseq_refl|apply subseq_remove].
    - cbn [SystemModel.sys_step] in Hs. destruct (nth_error (y_down _ _ _ s) i) as [b|] eqn:Hn; [|discriminate]. injection Hs as <-.
      exists handled, pieces. cbn [y_up y_trace]. split; auto. split; [intros U; apply O, (up_in_order_app _ _ U)|auto].
    - cbn [SystemModel.sys_step] in Hs. destruct (nth_error (y_down _ _ _ s) i) as [b|] eqn:Hn; [|discriminate]. injection Hs as <-.
      exists handled, pieces. cbn [y_up y_trace]. split; auto. split; [intros U; apply O, (up_in_order_app _ _ U)|auto].
    - cbn [SystemModel.sys_step] in Hs. injection Hs as <-.
      exists handled, pieces. cbn [y_up y_trace]. split; auto. split; [intros U; apply O, (up_in_order_app _ _ U)|auto].
  Qed.

  (** A frame of a call that has a handler starts it, unless there was no room for the
      task. *)
  Lemma whole_runs ls s cl es handled x f piece : SysInv std net can_spawn kkind spawn_ctxt enc task bg cfg ea ta d ls s cl es handled ->
    Forall (label_ok eps tin) cl -> all_spawned (y_trace _ _ _ s) -> has_handler std ea ta cl x -> frame_for cl es x f ->
    whole_piece (y_trace _ _ _ s) (rpc_to_bytes f) piece -> piece <> [].
  Proof.
    intros HI Hlab Hroom Hh (g & kk & Hkd & -> & Hg) Hp.
    pose proof (seen_le std net can_spawn kkind spawn_ctxt enc task bg cfg eps tin tout ea ta d Hdisp Hhand _ _ _ _ _ HI _ Hkd) as Lk.
    assert (Hstd : has_std std eps).
    { destruct Hdev as (D1 & D2 & _). split; eapply endpoint_in; eauto. }
    assert (Ld : klen dk <= klen kk) by lia.
    destruct x as [r|i]; cbn [has_handler] in Hh.
    - destruct Hh as (a & seq & body & resp & v & (before & after & Ea & Nb) & Hr & Hv). destruct Hg as (resp' & Hg).
      rewrite Hr in Hg. injection Hg as <- <-. destruct (issued_seq_ok eps tin cl Hlab _ _ _ Hr) as (req & body' & _ & E & Hok).
      cbn [f_hdr hdr_seq] in Hok. clear E. unfold shrink_frame in Hp. cbn [f_hdr f_body hdr_key hdr_seq] in Hp.
      destruct Hp as [[Ht _]|(hdr & body1 & t0 & new & t2 & ctx & ctx' & res & Ht & Hd & -> & Et)];
        unfold rpc_to_bytes in Ht; cbn [f_hdr f_body] in Ht; rewrite take_written_ok in Ht by exact Hok; [discriminate|].
      set (hd := MkHeader _ _) in Ht at 1. injection Ht as <- <-.
      rewrite (handle_endpoint std net can_spawn kkind spawn_ctxt _ _ _ _ _ _ before a after kk hd body ctx t0 Hdisp Hstd Ea Nb Ld eq_refl), Hv in Hd.
      destruct (ep_arm_trace std net can_spawn kkind spawn_ctxt _ _ _ _ _ _ _ _ Hd) as (new' & En & X). apply app_inv_head in En. subst new'.
      destruct (ea_flavor _ _ a) eqn:Fl; try (destruct X as [-> _]; discriminate).
      destruct (can_spawn t0 (ea_name _ _ a)) eqn:Cs; [destruct X as [-> _]; discriminate|]. exfalso.
      unfold ep_arm in Hd. rewrite Fl, Cs in Hd. destruct (spawn_ctxt ctx) as [c1 sc]. cbn [negb] in Hd.
      unfold send_error, send_keyed, tx_send in Hd. injection Hd as _ _ Hd. rewrite <- !app_assoc in Hd. apply app_inv_head in Hd.
      eapply Hroom. rewrite Et. apply in_app_iff. right. apply in_app_iff. left. rewrite <- Hd. left. reflexivity.
    - destruct Hh as (a & seq & body & v & (before & after & Ea & Nb) & Hr & Hv).
      rewrite Hr in Hg. injection Hg as <-.
      assert (Hl : label_ok eps tin (LPublish (MkFrame (MkHeader (VKey8 (ta_key _ _ a)) seq) body))).
      { rewrite Forall_forall in Hlab. apply Hlab. apply nth_error_In in Hr. unfold published in Hr. apply in_flat_map in Hr as (l & Hl & Hi).
        destruct l; try destruct Hi; [subst; auto|contradiction]. }
      destruct Hl as (key & Hk & Ek & Hok). cbn [f_hdr hdr_seq] in Hok. unfold shrink_frame in Hp. cbn [f_hdr f_body hdr_key hdr_seq] in Hp.
      destruct Hp as [[Ht _]|(hdr & body1 & t0 & new & t2 & ctx & ctx' & res & Ht & Hd & -> & Et)];
        unfold rpc_to_bytes in Ht; cbn [f_hdr f_body] in Ht; rewrite take_written_ok in Ht by exact Hok; [discriminate|].
      set (hd := MkHeader _ _) in Ht at 1. injection Ht as <- <-.
      rewrite (handle_topic std net can_spawn kkind spawn_ctxt _ _ _ _ _ _ before a after kk hd body ctx t0 Hdisp Hstd Ea Nb Ld eq_refl), Hv in Hd.
      destruct (tp_arm_trace net can_spawn kkind spawn_ctxt _ _ _ _ _ _ _ _ Hd) as (_ & new' & En & _ & X). apply app_inv_head in En. subst new'. rewrite X.
      destruct (ta_flavor _ _ a) eqn:Fl; try discriminate. destruct (can_spawn t0 (ta_name _ _ a)) eqn:Cs; [discriminate|]. exfalso.
      unfold tp_arm in Hd. rewrite Fl, Cs in Hd. destruct (spawn_ctxt ctx) as [c1 sc]. injection Hd as _ _ Hd. apply app_inv_head in Hd.
      eapply Hroom. rewrite Et. apply in_app_iff. right. apply in_app_iff. left. rewrite <- Hd. left. reflexivity.
  Qed.
End S.

(** What becomes of a call that the client accepts for sending. *)
Section Accepted.
  Variable cfg : Config.
  Definition CallInv (cl : list Label) (es : list (list Ev)) (c : Client) : Prop :=
    (forall r q, nth_error (c_reqs c) r = Some q -> (exists kk, rq_pc q = PSent kk) \/ rq_pc q = PEnded ->
       In (inl r) (accepted cl es) \/ In (LCancel r) cl \/ In (r, BadResponse) (results es) \/ c_out_alive c = false) /\
    (forall i, nth_error (c_pubs c) i = Some None -> In (inr i) (accepted cl es) \/ In (LPubCancel i) cl \/ c_out_alive c = false \/ c_stopped c = true).

  Definition over (q : Req) : Prop := (exists kk, rq_pc q = PSent kk) \/ rq_pc q = PEnded.
  Lemma step_over l c c' e r q' : step cfg l c = Some (c', e) -> nth_error (c_reqs c') r = Some q' -> over q' ->
    (exists q, nth_error (c_reqs c) r = Some q /\ over q) \/ l = LCancel r \/ result_of e = Some (r, BadResponse) \/ (l = LSend r /\ e = []) \/ c_out_alive c = false.
  Proof.
    intros Hs Hq Ho. pose proof (step_cstep _ _ _ _ _ Hs) as HC.
    remember (c_reqs c) as reqs eqn:E1. remember (c_reqs c') as reqs' eqn:E2. remember (c_waiters c) as ws eqn:E3. remember (c_waiters c') as ws' eqn:E4.
    remember (result_of e) as o eqn:E5. clear E4.
    destruct HC.
    - left. eauto.
    - apply nth_app_last in Hq as [Hq|[_ ->]]; [left; eauto|]. destruct Ho as [(kk & X)|X]; discriminate.
    - apply set_nth_inv in Hq as [[-> ->]|[_ Hq]]; [|left; eauto]. destruct Ho as [(k' & X)|X]; discriminate.
    - apply set_nth_inv in Hq as [[-> ->]|[_ Hq]]; [|left; eauto]. destruct e0; destruct H0 as (_ & _ & ->); destruct Ho as [(k' & X)|X]; discriminate.
    - apply set_nth_inv in Hq as [[-> ->]|[_ Hq]]; [|left; eauto]. right. right. right.
      cbn [step] in Hs. rewrite <- E1, H, H0 in Hs. destruct (c_out_alive c); cbn [negb] in Hs; [|auto].
      destruct (_ <? _); [|discriminate]. injection Hs as _ <-. auto.
    - apply set_nth_inv in Hq as [[<- ->]|[_ Hq]]; [|left; eauto]. destruct o as [[r' res]|]; [|subst l; auto].
      destruct H1 as [-> H1]. destruct res as [f|f| |]; [destruct H1 as [-> H1]|destruct H1 as [-> H1]|auto|destruct H1 as [-> | ->]].
      all: cbn [step] in Hs; rewrite <- E1, H in Hs.
      + left. exists q. split; auto. left. destruct (rq_pc q); try discriminate. eauto.
      + left. exists q. split; auto. left. destruct (rq_pc q); try discriminate. eauto.
      + left. exists q. split; auto. left. destruct (rq_pc q); try discriminate. eauto.
      + destruct (rq_pc q); try discriminate. destruct (c_out_alive c); cbn [negb] in Hs; [|auto 6].
        destruct (_ <? _); [|discriminate]. injection Hs as _ <-. discriminate.
    - apply set_nth_inv in Hq as [[-> ->]|[_ Hq]]; [|left; eauto]. left. exists q. split; auto. unfold over, fill in *. destruct (w_err w); exact Ho.
  Qed.
  Lemma step_done l c c' e i : step cfg l c = Some (c', e) -> nth_error (c_pubs c') i = Some None ->
    nth_error (c_pubs c) i = Some None \/ l = LPubCancel i \/ (l = LPubSend i /\ e = [EvPublished i true]) \/ c_out_alive c = false \/ c_stopped c = true.
  Proof.
    intros Hs Hn. destruct l; cbn [step] in Hs.
    all: try (repeat match type of Hs with context [match ?x with _ => _ end] => destruct x eqn:?; try discriminate end;
         injection Hs as <- <-; left; unfold adopt in *; repeat match type of Hn with context [if ?b then _ else _] => destruct b end; exact Hn).
    - injection Hs as <- <-. cbn in Hn. apply nth_app_last in Hn as [Hn|[_ X]]; [auto|discriminate].
    - destruct (nth_error (c_pubs c) i0) as [[f|]|] eqn:Hi; try discriminate. destruct (c_out_alive c); cbn [negb] in Hs; [|auto].
      destruct (_ <? _); [|discriminate]. injection Hs as <- <-. cbn in Hn. apply set_nth_inv in Hn as [[-> _]|[_ Hn]]; auto.
    - destruct (nth_error (c_pubs c) i0) as [[f|]|] eqn:Hi; try discriminate. destruct (c_stopped c); [|discriminate].
      injection Hs as <- <-. cbn in Hn. apply set_nth_inv in Hn as [[-> _]|[_ Hn]]; auto 6.
    - destruct (nth_error (c_pubs c) i0) as [[f|]|] eqn:Hi; try discriminate.
      injection Hs as <- <-. cbn in Hn. apply set_nth_inv in Hn as [[-> _]|[_ Hn]]; auto 6.
  Qed.

  Lemma reach_calls cl c es : run cfg cl client_new = Some (c, es) -> CallInv cl es c.
  Proof.
    revert cl c es. apply (run_ind cfg (fun cl c es => CallInv cl es c)).
    - split; [intros [|r]|intros [|i]]; discriminate.
    - intros ls c es l c' e Hr [I1 I2] Hs. pose proof (run_length _ _ _ _ _ Hr) as HL.
      unfold CallInv. rewrite (accepted_app _ _ _ _ (eq_sym HL)), results_app.
      assert (Al : c_out_alive c = false -> c_out_alive c' = false).
      { intros X. destruct (c_out_alive c') eqn:Y; auto. rewrite (step_out_alive _ _ _ _ _ Hs Y) in X. discriminate. }
      split.
      + intros r q' Hq Ho. rewrite !in_app_iff. destruct (step_over _ _ _ _ _ _ Hs Hq Ho) as [(q & Q1 & Q2)|[->|[E|[[-> ->]|X]]]].
        * destruct (I1 _ _ Q1 Q2) as [X|[X|[X|X]]]; auto 8.
        * right. left. right. left. reflexivity.
        * right. right. left. right. rewrite (step_results _ _ _ _ _ Hs), E. left. reflexivity.
        * left. right. left. reflexivity.
        * auto 8.
      + intros i Hi. rewrite !in_app_iff. destruct (step_done _ _ _ _ _ Hs Hi) as [Hn|[->|[[-> ->]|[X|X]]]].
        * destruct (I2 _ Hn) as [X|[X|[X|X]]]; auto 8. right. right. right. eapply step_stopped; eauto.
        * right. left. right. left. reflexivity.
        * left. right. left. reflexivity.
        * auto 8.
        * right. right. right. eapply step_stopped; eauto.
  Qed.

  (** Nothing is left to do for the client. *)
  Lemma rest_accepts cl c es : run cfg cl client_new = Some (c, es) -> c_stopped c = false -> 0 < cfg_depth cfg ->
    (forall l, own_client l = true -> step cfg l c = None) ->
    c_out_alive c = true /\ c_sending c = None /\ c_out c = [] /\
    (forall r, r < length (issued 0 cl) -> ~ In (LCancel r) cl -> ~ In (r, BadResponse) (results es) -> In (inl r) (accepted cl es)) /\
    (forall i, i < length (published cl) -> ~ In (LPubCancel i) cl -> In (inr i) (accepted cl es)).
  Proof.
    intros Hr Hst Hd Hrest.
    assert (Ha : c_out_alive c = true). { destruct (c_out_alive c) eqn:X; auto. pose proof (proj1 (reach_finv _ _ _ _ Hr) X). congruence. }
    assert (Hsd : c_sending c = None). { destruct (c_sending c) eqn:X; auto. specialize (Hrest LOutSent eq_refl). cbn in Hrest. rewrite X in Hrest. discriminate. }
    assert (Ho : c_out c = []). { destruct (c_out c) eqn:X; auto. specialize (Hrest LOutPop eq_refl). cbn in Hrest. rewrite Hsd, X, Ha in Hrest. discriminate. }
    destruct (reach_calls _ _ _ Hr) as [I1 I2]. split; auto. split; auto. split; auto. split.
    - intros r Hl Hc Hb. 
      destruct (nth_error (c_reqs c) r) as [q|] eqn:Hq.
      2:{ exfalso. apply nth_error_None in Hq. destruct (reach_issued _ _ _ _ Hr) as (_ & IL & _). lia. }
      assert (Ov : over q).
      { unfold over. destruct (rq_pc q) eqn:P; eauto; exfalso.
        - specialize (Hrest (LKind r) eq_refl). cbn in Hrest. rewrite Hq, P in Hrest. discriminate.
        - specialize (Hrest (LEnqOk r) eq_refl). cbn in Hrest. rewrite Hq, P in Hrest. destruct (is_duplicate _ _); discriminate.
        - specialize (Hrest (LEnqErr r) eq_refl). cbn in Hrest. rewrite Hq, P in Hrest. destruct (is_duplicate _ _); discriminate.
        - specialize (Hrest (LSend r) eq_refl). cbn [step] in Hrest. rewrite Hq, P, Ha, Ho in Hrest. cbn [negb length] in Hrest.
          destruct (cfg_depth cfg); [lia|discriminate]. }
      destruct (I1 _ _ Hq Ov) as [X|[X|[X|X]]]; auto; try contradiction. congruence.
    - intros i Hl Hc. destruct (reach_pubs _ _ _ _ Hr) as [PL _].
      destruct (nth_error (c_pubs c) i) as [[f|]|] eqn:Hi.
      + exfalso. specialize (Hrest (LPubSend i) eq_refl). cbn [step] in Hrest. rewrite Hi, Ha, Ho in Hrest. cbn [negb length] in Hrest.
        destruct (cfg_depth cfg); [lia|discriminate].
      + destruct (I2 _ Hi) as [X|[X|[X|X]]]; auto; try contradiction; congruence.
      + exfalso. apply nth_error_None in Hi. lia.
  Qed.
End Accepted.
