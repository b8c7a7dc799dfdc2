(** C79: every call that the client accepts reaches its handler, once. *)
From Coq Require Import NArith List Bool Arith Lia Permutation.
From Verif Require Import KeyModel HeaderModel KeySpec HeaderSpec KeyProof HeaderProof MinKeyModel MinKeySpec MinKeyProof
  SchemaModel MacroModel PostcardModel DispatchModel DispatchSpec DispatchProof SubModel SubSpec SubProof
  ClientModel ClientSpec ClientProof ClientHist ClientMore ClientOut ClientThm ClientThm3.
From Verif Require Import UsbSpec FlowBase SubFlow FlowSpec FlowProof.
From Verif Require Import KeySpec HeaderModel HeaderSpec DispatchModel DispatchSpec DispatchThm SubModel SystemModel SystemSpec SystemProof SystemThm FlowThm
  LiveSpec LiveProof LiveThm AsyncModel AsyncSpec AsyncProof AsyncThm ChanModel ChanSysModel ChanSysSpec ChanSysProof ChanSysLive ChanSysThm
  UsbModel UsbSysModel UsbSysSpec UsbSysProof UsbSysLive UsbSysThm ServedSpec ServedProof.
Import ListNotations.

Lemma forall2_impl {A B} (R R' : A -> B -> Prop) l l' : (forall x y, R x y -> R' x y) -> Forall2 R l l' -> Forall2 R' l l'.
Proof. intros H F. induction F; constructor; auto. Qed.
Lemma forall2_flip {A B} (R : A -> B -> Prop) l l' : Forall2 R l l' -> Forall2 (fun y x => R x y) l' l.
Proof. intros F. induction F; constructor; auto. Qed.

Lemma Forall2_len {A B} (R : A -> B -> Prop) l l' : Forall2 R l l' -> length l = length l'.
Proof. induction 1; cbn; auto. Qed.

Lemma subseq_split {A B} (R : A -> B -> Prop) (a b : list A) : subsequence a b -> forall c, Forall2 R b c ->
  exists r a' r', Permutation b (a ++ r) /\ subsequence a' c /\ Permutation c (a' ++ r') /\ Forall2 R a a' /\ Forall2 R r r'.
Proof.
  induction 1 as [l|x a b H IH|x a b H IH]; intros c F.
  - exists l, [], c. repeat split; auto; constructor.
  - inversion F as [|? y ? c' Hx F']; subst. destruct (IH _ F') as (r & a' & r' & P1 & S1 & P2 & F1 & F2).
    exists r, (y :: a'), r'. repeat split; auto; try constructor; auto.
  - inversion F as [|? y ? c' Hx F']; subst. destruct (IH _ F') as (r & a' & r' & P1 & S1 & P2 & F1 & F2).
    exists (x :: r), a', (y :: r'). split; [|split; [constructor; auto|split; [|split; [auto|constructor; auto]]]].
    + eapply perm_trans; [apply perm_skip, P1|apply Permutation_middle].
    + eapply perm_trans; [apply perm_skip, P2|apply Permutation_middle].
Qed.

Section S.
  Context {Val Ctx SCtx : Type}.
  Variable std : StdKeys.
  Variable net : Trace Val SCtx -> VarHeader -> Payload Val -> TxRes.
  Variable can_spawn : Trace Val SCtx -> nat -> bool.
  Variable kkind : VarKeyKind.
  Variable spawn_ctxt : Ctx -> Ctx * SCtx.
  Variable enc : Payload Val -> list N.
  Variable task : nat -> SCtx -> VarHeader -> Val -> HProg Val unit.
  Variable bg : list (HProg Val unit).
  Variable cfg : Config.
  Variable eps : EndpointMap.
  Variable tin tout : TopicMap.
  Variable ea : list (EpArm Val Ctx).
  Variable ta : list (TpArm Val Ctx).
  Variable d : Dispatcher Val Ctx.
  Hypothesis Hdisp : dispatcher_for eps tin tout ea ta d.
  Hypothesis Hdev : device_ok std eps tout ea.
  Hypothesis Hhand : handlers_ok std tout ea ta task bg.
  Hypothesis Hkk : klen (d_kind _ _ d) <= klen kkind.

  Notation sys_run := (sys_run Val Ctx SCtx std net can_spawn kkind spawn_ctxt d enc task cfg).
  Notation sys_step := (sys_step Val Ctx SCtx std net can_spawn kkind spawn_ctxt d enc task cfg).
  Notation sys_new := (sys_new Val Ctx SCtx).

  Variable ctx0 : Ctx.
  Variable ls : list SysLabel.
  Variable s : Sys Val Ctx SCtx.
  Variable cl : list Label.
  Variable es : list (list Ev).
  Hypothesis Hrun : sys_run ls (sys_new bg ctx0) = Some (s, cl, es).
  Hypothesis Hlab : Forall (label_ok eps tin) cl.
  Notation tr := (y_trace _ _ _ s).

  (** ** C79 Every call is accounted for *)

  (** At any time, over any link: the calls that the client accepted for sending are those
      that the server has heard of and those whose frames are still on their way to the
      server, were lost by the link, wait in the client, or were dropped when the client
      stopped sending; one frame for each call.  The handlers that ran are those for calls
      that the server has heard of, one run for each call; every such call for which there
      is a handler, and whose body can be decoded, has run it (if the executor had room for
      every task).  If the link keeps the order, calls are heard in the order in which they
      were accepted. *)
  Theorem C79_accounted :
    exists heard missing calls dropped,
      Permutation (accepted cl es) (heard ++ missing) /\
      Forall2 (call_frame cl) missing (y_up _ _ _ s ++ lost_up sys_step ls (sys_new bg ctx0) ++ dropped) /\
      (c_out_alive (y_client _ _ _ s) = true ->
         dropped = map rpc_to_bytes (opt (c_sending (y_client _ _ _ s)) ++ c_out (y_client _ _ _ s))) /\
      length (accepted cl es) = length (wire es) + length dropped /\
      Forall2 (run_of ea ta cl) (invocations tr) calls /\ subsequence calls heard /\ NoDup heard /\
      (all_spawned tr -> forall x, In x heard -> has_handler std ea ta cl x -> In x calls) /\
      (up_in_order ls -> subsequence heard (accepted cl es)).
  Proof.
    destruct (reach_sys std net can_spawn kkind spawn_ctxt enc task bg cfg eps tin tout ea ta d Hdisp Hhand _ _ _ _ _ Hrun) as (handled0 & HI).
    destruct (reach_served std net can_spawn kkind spawn_ctxt enc task bg cfg eps tin tout ea ta d Hdisp Hhand _ _ _ _ _ Hrun) as (handled & pieces & P & O & FP & EP).
    destruct (C59_in_order_once _ _ _ _ (si_run _ _ _ _ _ _ _ _ _ _ _ _ _ _ _ _ _ HI)) as (ND & frames & F & (rest & E) & Ea).
    set (isf := fun (b : list N) x => exists f, frame_for cl es x f /\ b = rpc_to_bytes f).
    assert (W : exists acc more, accepted cl es = acc ++ more /\ Forall2 isf (wire es) acc /\ Forall2 isf rest more).
    { assert (F' : Forall2 isf (wire es ++ rest) (accepted cl es)).
      { rewrite <- E. clear - F. induction F as [|x f acc frames Hx F IH]; constructor; auto. exists f. auto. }
      apply Forall2_app_inv_l in F' as (acc & more & F1 & F2 & ->). exists acc, more. auto. }
    destruct W as (acc & more & Eacc & Wa & Wm).
    set (lost := lost_up sys_step ls (sys_new bg ctx0)) in *.
    (* the calls that were heard of, and those whose frames are elsewhere *)
    assert (H : exists heard away, Forall2 isf handled heard /\ Permutation acc (heard ++ away) /\ Forall2 isf (y_up _ _ _ s ++ lost) away /\ (up_in_order ls -> subsequence heard acc)).
    { destruct (up_in_order_dec ls) as [U|U].
      - destruct (subseq_split _ _ _ (O U) _ Wa) as (r & a' & r' & P1 & S1 & P2 & F1 & F2).
        assert (Pr : Permutation r lost). { apply (Permutation_app_inv_l (handled ++ y_up _ _ _ s)). eapply perm_trans; [apply Permutation_sym, P1|]. rewrite <- app_assoc. exact P. }
        destruct (perm_forall2 _ _ _ Pr _ F2) as (r2 & Pr2 & F3).
        apply forall2_app_l in F1 as (h1 & h2 & -> & F1 & F4). exists h1, (h2 ++ r2). split; auto. split; [|split].
        + eapply perm_trans; [exact P2|]. rewrite <- app_assoc. apply Permutation_app_head, Permutation_app_head, Pr2.
        + apply Forall2_app; auto.
        + intros _. eapply subseq_trans; [exact S1|]. rewrite <- (app_nil_r h1) at 1. apply subseq_app; [apply subseq_refl|constructor].
      - destruct (perm_forall2 _ _ _ P _ Wa) as (h & P1 & F1). apply forall2_app_l in F1 as (h1 & h2 & -> & F1 & F2).
        exists h1, h2. split; auto. split; auto. split; auto. intros X. destruct (U X). }
    destruct H as (heard & away & FH & Ph & FA & Oh).
    assert (Pall : Permutation (accepted cl es) (heard ++ away ++ more)). { rewrite Eacc, app_assoc. apply Permutation_app_tail. exact Ph. }
    assert (NDh : NoDup heard).
    { pose proof (Permutation_NoDup Pall ND) as N2. eapply subseq_nodup; [|exact N2]. rewrite <- (app_nil_r heard) at 1. apply subseq_app; [apply subseq_refl|constructor]. }
    assert (G : exists calls, Forall2 (run_of ea ta cl) (concat pieces) calls /\ subsequence calls heard /\
      (all_spawned tr -> forall x, In x heard -> has_handler std ea ta cl x -> In x calls)).
    { assert (Step : forall x f piece, frame_for cl es x f -> whole_piece std net can_spawn kkind spawn_ctxt d tr (rpc_to_bytes f) piece ->
        (piece = [] /\ (all_spawned tr -> ~ has_handler std ea ta cl x)) \/ exists i, piece = [i] /\ run_of ea ta cl i x).
      { intros x f piece Hf Hp.
        assert (Pc : piece_of ea ta d (rpc_to_bytes f) piece).
        { destruct Hp as [[_ ->]|(hdr & body & t0 & new & t2 & ctx & ctx' & res & Ht & Hh & -> & _)]; [left; auto|]. right. exists hdr, body. split; auto.
          destruct (handle_new std net can_spawn kkind spawn_ctxt task bg eps tin tout ea ta d Hdisp Hhand _ _ _ _ _ _ _ Hh) as (new' & En & St & _).
          apply app_inv_head in En. subst new'. exact St. }
        destruct (started_by std net can_spawn kkind spawn_ctxt enc task bg cfg eps tin tout ea ta d Hdisp Hhand Hkk _ _ _ _ Hlab _ _ _ _ _ HI Hf eq_refl Pc) as [->|X]; auto.
        left. split; auto. intros Hr Hh.
        exact (whole_runs std net can_spawn kkind spawn_ctxt enc task bg cfg eps tin tout ea ta d Hdisp Hdev Hhand Hkk _ _ _ _ _ _ _ _ HI Hlab Hr Hh Hf Hp eq_refl). }
      clear - FH FP Step. revert heard FH. induction FP as [|b piece handled pieces Hp FP IH]; intros heard FH.
      - inversion FH; subst. exists []. split; constructor; [constructor|intros _ x []].
      - inversion FH as [|? x ? heard' (f & Hf & Eb) FH']; subst. destruct (IH _ FH') as (calls & F1 & S1 & C1).
        destruct (Step _ _ _ Hf Hp) as [[-> N]|(i & -> & Hr)]; cbn [concat app].
        + exists calls. split; auto. split; [constructor; auto|]. intros A y [<-|Hy] Hh; [destruct (N A Hh)|auto].
        + exists (x :: calls). split; [constructor; auto|]. split; [constructor; auto|]. intros A y [<-|Hy] Hh; [left; auto|right; auto]. }
    destruct G as (calls & FC & SC & CC).
    exists heard, (away ++ more), calls, rest.
    split; [exact Pall|]. split.
    { rewrite (app_assoc (y_up _ _ _ s)). apply Forall2_app; apply forall2_flip; [apply (forall2_impl isf) with (2 := FA)|apply (forall2_impl isf) with (2 := Wm)].
      all: intros b x (f & (g & kk & _ & -> & Hg) & ->); exists g, kk; split; auto. }
    split. { intros A. specialize (Ea A). rewrite E in Ea. apply app_inv_head in Ea. exact Ea. }
    split. { rewrite Eacc, app_length. f_equal; symmetry; eapply Forall2_len; eauto. }
    split; [rewrite EP; exact FC|]. split; auto. split; auto. split; auto.
    intros U. eapply subseq_trans; [|exact (Oh U)]. rewrite Eacc. rewrite <- (app_nil_r acc) at 1. apply subseq_app; [apply subseq_refl|constructor].
  Qed.
End S.

Section A.
  Context {Val Ctx SCtx : Type}.
  Variable std : StdKeys.
  Variable net : Trace Val SCtx -> VarHeader -> Payload Val -> TxRes.
  Variable can_spawn : Trace Val SCtx -> nat -> bool.
  Variable kkind : VarKeyKind.
  Variable spawn_ctxt : Ctx -> Ctx * SCtx.
  Variable d : Dispatcher Val Ctx.
  Variable enc : Payload Val -> list N.
  Variable task : nat -> SCtx -> VarHeader -> Val -> HProg Val unit.
  Variable bg : list (HProg Val unit).
  Variable cfg : Config.

  Notation a_step := (a_step Val Ctx SCtx std net can_spawn kkind spawn_ctxt d enc task cfg).
  Notation a_run := (a_run Val Ctx SCtx std net can_spawn kkind spawn_ctxt d enc task cfg).
  Notation asys_new := (asys_new Val Ctx SCtx).
  Notation a_sys := (a_sys Val Ctx SCtx).

  Variable ctx0 : Ctx.
  Variable ls : list ALabel.
  Variable a : ASys Val Ctx SCtx.
  Variable cl : list Label.
  Variable es : list (list Ev).
  Hypothesis Hrun : a_run ls (asys_new bg ctx0) = Some (a, cl, es).
  Notation tr := (y_trace _ _ _ (a_sys a)).
  Variable eps : EndpointMap.
  Variable tin tout : TopicMap.
  Variable ea : list (EpArm Val Ctx).
  Variable ta : list (TpArm Val Ctx).
  Hypothesis Hdisp : dispatcher_for eps tin tout ea ta d.
  Hypothesis Hdev : device_ok std eps tout ea.
  Hypothesis Hhand : handlers_ok std tout ea ta task bg.
  Hypothesis Hkk : klen (d_kind _ _ d) <= klen kkind.
  Hypothesis Hlab : Forall (label_ok eps tin) cl.
  Hypothesis Hdepth : 0 < cfg_depth cfg.
  Hypothesis Hrest : forall l, a_own_step l = true -> a_step l a = None.
  Hypothesis Hopen : is_closed (y_client _ _ _ (a_sys a)) = false.

  Lemma a_rest_client : run cfg cl client_new = Some (y_client _ _ _ (a_sys a), es) /\
    (forall l, own_client l = true -> step cfg l (y_client _ _ _ (a_sys a)) = None).
  Proof.
    destruct (reach_sim std net can_spawn kkind spawn_ctxt d enc task bg cfg _ _ _ _ _ Hrun) as (ls' & s & R & Rl & Ok & _ & _). specialize (R [] []).
    destruct (rest_rest std kkind spawn_ctxt d enc task cfg net can_spawn _ _ (net_of (outcomes (y_trace _ _ _ s) ++ [])) (can_of (spawns (y_trace _ _ _ s) ++ [])) Rl Ok Hrest) as [_ Rst].
    split.
    - exact (a_client_run std can_spawn kkind spawn_ctxt d enc task cfg _ _ _ _ _ _ Hrun).
    - rewrite <- (ar_client _ _ _ _ Rl). intros l Hl. destruct (step cfg l (y_client _ _ _ s)) as [[c e]|] eqn:St; auto.
      specialize (Rst (SClient l) Hl). cbn [SystemModel.sys_step] in Rst. rewrite St in Rst. destruct l; discriminate.
  Qed.

  (** Once the system has come to rest with the client open, every request that was made
      and whose future was not dropped was accepted for sending (unless it failed at once
      with [BadResponse], see C50); so was every publication whose future was not
      dropped. *)
  Theorem C79_every_call_is_accepted :
    (forall r, r < length (issued 0 cl) -> ~ In (LCancel r) cl -> ~ In (r, BadResponse) (results es) -> In (inl r) (accepted cl es)) /\
    (forall i, i < length (published cl) -> ~ In (LPubCancel i) cl -> In (inr i) (accepted cl es)).
  Proof. destruct a_rest_client as [R Q]. apply (rest_accepts _ _ _ _ R Hopen Hdepth Q). Qed.

  (** And each call that was accepted and for which there is a handler has been handled,
      exactly once, except for as many calls as frames were lost, whose frames are those
      that were lost.  (The dispatcher's transmissions did not fail because the link is
      closed or timed out, which stops the server; the executor had room for every
      task.) *)
  Theorem C79_every_call_is_handled :
    (forall h p r, In (EvSend ByDispatcher h p r) tr -> r <> TxErr TxConnectionClosed /\ r <> TxErr TxTimeout) ->
    all_spawned tr ->
    exists calls missing,
      ran_for ea ta cl es tr calls /\
      Forall2 (call_frame cl) missing (a_lost a_step loses_up ls (asys_new bg ctx0)) /\ NoDup missing /\
      (forall x, In x (accepted cl es) -> has_handler std ea ta cl x -> In x calls \/ In x missing) /\
      (forall x, In x calls -> ~ In x missing) /\
      (up_in_order (system_labels ls) -> subsequence calls (accepted cl es)).
  Proof.
    intros Hsent Hroom. destruct (reach_sim std net can_spawn kkind spawn_ctxt d enc task bg cfg _ _ _ _ _ Hrun) as (ls' & s & R & Rl & Ok & L & Lo). specialize (R [] []). specialize (Lo [] []).
    destruct (rest_rest std kkind spawn_ctxt d enc task cfg net can_spawn _ _ (net_of (outcomes (y_trace _ _ _ s) ++ [])) (can_of (spawns (y_trace _ _ _ s) ++ [])) Rl Ok Hrest) as [C Rst].
    assert (Sv : y_serving _ _ _ s = true).
    { eapply C70_keeps_serving; [exact R|]. intros h p r Hi.
      pose proof (ar_trace _ _ _ _ Rl) as P. unfold ahead in P. rewrite C in P. cbn in P. rewrite app_nil_r in P. eapply Hsent, Permutation_in; eauto. }
    assert (Up : y_up _ _ _ s = []).
    { specialize (Rst (SServe 0) eq_refl). cbn [SystemModel.sys_step] in Rst. rewrite Sv in Rst. destruct (y_up _ _ _ s) as [|b q]; auto. cbn [nth_error] in Rst.
      destruct (take_defined b) as [[[h bd]|] T]; rewrite T in Rst; [|discriminate]. destruct (handle _ _ _ _ _ _ _ _ _ _ _ _ _) as [[? ?] ?] in Rst. discriminate. }
    destruct a_rest_client as [Rc Q]. destruct (rest_accepts _ _ _ _ Rc Hopen Hdepth Q) as (Al & Sd & Ou & _).
    destruct (C79_accounted std _ _ kkind spawn_ctxt enc task bg cfg eps tin tout ea ta d Hdisp Hdev Hhand Hkk _ _ _ _ _ R Hlab)
      as (heard & missing & calls & dropped & P & FM & Dr & _ & FC & SC & ND & AC & OC).
    rewrite (ar_client _ _ _ _ Rl) in Dr. rewrite (Dr Al), Sd, Ou, Up, (proj1 Lo) in FM. cbn [opt app map] in FM. rewrite app_nil_r in FM.
    assert (St : starts (y_trace _ _ _ s) = starts tr) by exact (ar_starts _ _ _ _ Rl).
    rewrite starts_invocations, St, <- starts_invocations in FC.
    assert (Hroom' : all_spawned (y_trace _ _ _ s)).
    { intros n sc h v Hi. apply (Hroom n sc h v). apply starts_in; [exact Logic.I|]. rewrite <- St. apply in_starts; [exact Logic.I|exact Hi]. }
    destruct (C59_in_order_once _ _ _ _ Rc) as (NDa & _). pose proof (Permutation_NoDup P NDa) as N2.
    assert (Dis : forall x, In x heard -> ~ In x missing).
    { intros x H1 H2. apply in_split in H2 as (m1 & m2 & ->). rewrite app_assoc in N2. apply NoDup_remove_2 in N2. apply N2. rewrite !in_app_iff. auto. }
    assert (Inc : incl calls (accepted cl es)).
    { intros x Hx. eapply Permutation_in; [apply Permutation_sym, P|]. apply in_app_iff. left. eapply subseq_in; eauto. }
    exists calls, missing. split. { split; auto. split; [eapply subseq_nodup; eauto|auto]. }
    split; auto. split.
    { eapply subseq_nodup; [|exact N2]. change missing with ([] ++ missing) at 1. apply subseq_app; [constructor|apply subseq_refl]. }
    split. { intros x Hx Hh. apply (Permutation_in _ P) in Hx. apply in_app_iff in Hx as [Hx|Hx]; [left; apply AC; auto|auto]. }
    split. { intros x Hx. apply Dis. eapply subseq_in; eauto. }
    intros U. eapply subseq_trans; [apply OC, (like_up_in_order _ _ L), U|exact SC].
  Qed.
End A.

(** *** Over bounded channels *)
Section C.
  Context {Val Ctx SCtx : Type}.
  Variable std : StdKeys.
  Variable can_spawn : Trace Val SCtx -> nat -> bool.
  Variable kkind : VarKeyKind.
  Variable spawn_ctxt : Ctx -> Ctx * SCtx.
  Variable d : Dispatcher Val Ctx.
  Variable enc : Payload Val -> list N.
  Variable task : nat -> SCtx -> VarHeader -> Val -> HProg Val unit.
  Variable bg : list (HProg Val unit).
  Variable cfg : Config.
  Variable cap_up cap_down buf : nat.
  Notation c_step := (c_step Val Ctx SCtx std can_spawn kkind spawn_ctxt d enc task cfg cap_up cap_down buf).
  Notation c_run := (c_run Val Ctx SCtx std can_spawn kkind spawn_ctxt d enc task cfg cap_up cap_down buf).
  Notation a_step n := (a_step Val Ctx SCtx std n can_spawn kkind spawn_ctxt d enc task cfg).
  Notation a_run n := (a_run Val Ctx SCtx std n can_spawn kkind spawn_ctxt d enc task cfg).
  Notation cs_a := (cs_a Val Ctx SCtx).
  Variable ctx0 : Ctx.
  Variable ls : list CLabel.
  Variable c : CSys Val Ctx SCtx.
  Variable cl : list Label.
  Variable es : list (list Ev).
  Hypothesis Hrun : c_run ls (csys_new Val Ctx SCtx bg ctx0) = Some (c, cl, es).
  Hypothesis Hup : 0 < cap_up.
  Hypothesis Hdown : 0 < cap_down.
  Hypothesis Hrest : forall l, c_own_step l = true -> c_step l c = None.
  Hypothesis Hopen : is_closed (cs_client c) = false.
  Hypothesis Hstop : cs_stopped _ _ _ c = false.

  (** At rest, with the client open and the server not stopped: a link at rest. *)
  Lemma chan_rest_link : exists net ls',
    a_run net ls' (asys_new Val Ctx SCtx bg ctx0) = Some (cs_a c, cl, es) /\ up_in_order (system_labels ls') /\
    (forall l, a_own_step l = true -> a_step net l (cs_a c) = None) /\
    (forall h p r, In (EvSend ByDispatcher h p r) (cs_trace c) -> r <> TxErr TxConnectionClosed /\ r <> TxErr TxTimeout) /\
    (forall b, In b (a_lost (a_step net) loses_up ls' (asys_new Val Ctx SCtx bg ctx0)) -> buf < length b).
  Proof.
    pose proof (reach_k std can_spawn kkind spawn_ctxt d enc task bg cfg cap_up cap_down buf _ _ _ _ _ Hrun) as K.
    pose proof (reach_client std can_spawn kkind spawn_ctxt d enc task bg cfg cap_up cap_down buf _ _ _ _ _ Hrun) as Rc.
    pose proof (reach_finv _ _ _ _ Rc) as F. pose proof (reach_cinv _ _ _ _ Rc) as HI.
    pose proof F as (F1 & F2 & F').
    assert (Ai : c_in_alive (cs_client c) = true) by (destruct (c_in_alive (cs_client c)); auto; specialize (F2 eq_refl); unfold is_closed in Hopen; congruence).
    assert (Ao : c_out_alive (cs_client c) = true) by (destruct (c_out_alive (cs_client c)); auto; specialize (F1 eq_refl); unfold is_closed in Hopen; congruence).
    destruct (C78_as_over_a_link std can_spawn kkind spawn_ctxt d enc task bg cfg cap_up cap_down buf _ _ _ _ _ Hrun) as (net & ls' & R & _ & U & _ & Lu & Ld & Sent).
    assert (Ok : forall w h p r, In (EvSend w h p r) (cs_trace c) -> r = TxOk) by (intros w h p x Hi; destruct (Sent _ _ _ _ Hi) as [X|(_ & [X|X])]; auto; congruence).
    assert (Cu : a_cur _ _ _ (cs_a c) = None) by (apply (C78_no_deadlock std can_spawn kkind spawn_ctxt d enc task bg cfg cap_up cap_down buf _ _ _ _ _ Hrun Hup Hdown Hrest)).
    assert (Sv : y_serving _ _ _ (a_sys _ _ _ (cs_a c)) = true).
    { destruct (C73_as_if_at_once std net can_spawn kkind spawn_ctxt d enc task bg cfg ctx0 ls' _ _ _ R) as (net' & can' & ls2 & s & more & R2 & _ & _ & _ & _ & P & Y & _).
      destruct (Y Cu) as (-> & _ & Y1 & _). rewrite <- Y1. eapply C70_keeps_serving; [exact R2|]. intros h p x Hi. rewrite app_nil_r in P. apply (Permutation_in _ P) in Hi. unfold cs_trace in Ok. rewrite (Ok _ _ _ _ Hi). split; discriminate. }
    assert (Nr : ~ run_returned c). { intros (_ & [X|X]); [|congruence]. destruct (k_why _ _ _ K X); congruence. }
    exists net, ls'. split; [exact R|]. split; [exact U|]. split; [|split; [|exact Lu]].
    - intros l Hl. exact (rest_rest' std can_spawn kkind spawn_ctxt d enc task cfg cap_up cap_down buf c K F HI Hup Hdown Hrest net l Nr Hl).
    - intros h p x Hi. rewrite (Ok _ _ _ _ Hi). split; discriminate.
  Qed.

  Variable eps : EndpointMap.
  Variable tin tout : TopicMap.
  Variable ea : list (EpArm Val Ctx).
  Variable ta : list (TpArm Val Ctx).
  Hypothesis Hdisp : dispatcher_for eps tin tout ea ta d.
  Hypothesis Hdev : device_ok std eps tout ea.
  Hypothesis Hhand : handlers_ok std tout ea ta task bg.
  Hypothesis Hkk : klen (d_kind _ _ d) <= klen kkind.
  Hypothesis Hlab : Forall (label_ok eps tin) cl.
  Hypothesis Hdepth : 0 < cfg_depth cfg.

  (** Once the system over bounded channels has come to rest, with the client open and the
      server not stopped, every call that was made and not dropped was accepted, and every
      call that was accepted, for which there is a handler and whose frame fits the
      server's buffer, was handled exactly once, in the order of the calls. *)
  Theorem C79_channels :
    all_spawned (cs_trace c) ->
    (forall r, r < length (issued 0 cl) -> ~ In (LCancel r) cl -> ~ In (r, BadResponse) (results es) -> In (inl r) (accepted cl es)) /\
    (forall i, i < length (published cl) -> ~ In (LPubCancel i) cl -> In (inr i) (accepted cl es)) /\
    exists calls,
      ran_for ea ta cl es (cs_trace c) calls /\ subsequence calls (accepted cl es) /\
      forall x, In x (accepted cl es) -> has_handler std ea ta cl x -> In x calls \/ exists b, call_frame cl x b /\ buf < length b.
  Proof.
    intros Hroom. destruct chan_rest_link as (net & ls' & R & U & Rst & Sn & Lu).
    destruct (C79_every_call_is_accepted std net can_spawn kkind spawn_ctxt d enc task bg cfg _ _ _ _ _ R Hdepth Rst Hopen) as [A1 A2]. split; auto. split; auto.
    destruct (C79_every_call_is_handled std net can_spawn kkind spawn_ctxt d enc task bg cfg _ _ _ _ _ R eps tin tout ea ta Hdisp Hdev Hhand Hkk Hlab Hdepth Rst Hopen Sn Hroom)
      as (calls & missing & Rf & FM & _ & H & _ & O). exists calls. split; [exact Rf|]. split; [exact (O U)|].
    intros x Hx Hh. destruct (H x Hx Hh) as [X|X]; auto. right.
    assert (Y : exists b, In b (a_lost (a_step net) loses_up ls' (asys_new Val Ctx SCtx bg ctx0)) /\ call_frame cl x b).
    { clear - FM X. induction FM as [|y b ys bs Hy FM IH]; [destruct X|]. destruct X as [->|X]; [exists b; split; [left|]; auto|]. destruct (IH X) as (b' & B1 & B2). exists b'. split; [right|]; auto. }
    destruct Y as (b & B1 & B2). exists b. auto.
  Qed.
End C.

(** *** Over USB *)
Section U.
  Context {Val Ctx SCtx : Type}.
  Variable std : StdKeys.
  Variable can_spawn : Trace Val SCtx -> nat -> bool.
  Variable kkind : VarKeyKind.
  Variable spawn_ctxt : Ctx -> Ctx * SCtx.
  Variable d : Dispatcher Val Ctx.
  Variable enc : Payload Val -> list N.
  Variable task : nat -> SCtx -> VarHeader -> Val -> HProg Val unit.
  Variable bg : list (HProg Val unit).
  Variable cfg : Config.
  Variable txlen rxlen : nat.
  Variable consumes : bool.
  Variable mps : option nat.
  Variable outcome : nat -> list WRes.
  Hypothesis Hsizes : usb_sizes mps txlen rxlen.
  Notation u_step := (u_step Val Ctx SCtx std can_spawn kkind spawn_ctxt d enc task cfg txlen rxlen consumes mps outcome).
  Notation u_run := (u_run Val Ctx SCtx std can_spawn kkind spawn_ctxt d enc task cfg txlen rxlen consumes mps outcome).
  Variable ctx0 : Ctx.
  Variable ls : list ULabel.
  Variable u : USys Val Ctx SCtx.
  Variable cl : list Label.
  Variable es : list (list Ev).
  Hypothesis Hrun : u_run ls (usys_new Val Ctx SCtx bg ctx0) = Some (u, cl, es).
  Notation tr := (u_trace _ _ _ u).
  Hypothesis Herrs : no_transfer_errors ls.
  Hypothesis Hrest : forall l, u_own_step l = true -> u_step l u = None.
  Hypothesis Hopen : is_closed (u_client _ _ _ u) = false.
  Variable eps : EndpointMap.
  Variable tin tout : TopicMap.
  Variable ea : list (EpArm Val Ctx).
  Variable ta : list (TpArm Val Ctx).
  Hypothesis Hdisp : dispatcher_for eps tin tout ea ta d.
  Hypothesis Hdev : device_ok std eps tout ea.
  Hypothesis Hhand : handlers_ok std tout ea ta task bg.
  Hypothesis Hkk : klen (d_kind _ _ d) <= klen kkind.
  Hypothesis Hlab : Forall (label_ok eps tin) cl.
  Hypothesis Hdepth : 0 < cfg_depth cfg.

  (** The same over USB: once at rest, with the client open and no failed transfers, every
      call that was accepted, for which there is a handler and whose frame fits the
      device's buffer, was handled exactly once, in the order of the calls. *)
  Theorem C79_usb :
    (forall h p r, In (EvSend ByDispatcher h p r) tr -> r <> TxErr TxConnectionClosed /\ r <> TxErr TxTimeout) ->
    all_spawned tr ->
    (forall r, r < length (issued 0 cl) -> ~ In (LCancel r) cl -> ~ In (r, BadResponse) (results es) -> In (inl r) (accepted cl es)) /\
    (forall i, i < length (published cl) -> ~ In (LPubCancel i) cl -> In (inr i) (accepted cl es)) /\
    exists calls,
      ran_for ea ta cl es tr calls /\ subsequence calls (accepted cl es) /\
      forall x, In x (accepted cl es) -> has_handler std ea ta cl x -> In x calls \/ exists b, call_frame cl x b /\ In b (wire es) /\ ~ fits rxlen (length b).
  Proof.
    intros Sn Hroom.
    destruct (at_rest_link std can_spawn kkind spawn_ctxt d enc task bg cfg txlen rxlen consumes mps outcome Hsizes _ _ _ _ _ Hrun Herrs Hrest) as (ls' & a & R & Rst & Et & Lu & _ & U).
    assert (He : errors_between_messages ls) by (intros e; apply Herrs).
    destruct (C71_usb_is_a_link std can_spawn kkind spawn_ctxt d enc task bg cfg txlen rxlen consumes mps outcome Hsizes _ _ _ _ _ Hrun He) as (ls1 & a1 & R1 & Ec & _).
    assert (Ea : y_client _ _ _ (a_sys _ _ _ a) = u_client _ _ _ u).
    { pose proof (a_client_run std can_spawn kkind spawn_ctxt d enc task cfg _ _ _ _ _ _ R) as X. pose proof (a_client_run std can_spawn kkind spawn_ctxt d enc task cfg _ _ _ _ _ _ R1) as Y.
      rewrite <- Ec. cbn in X, Y. rewrite X in Y. injection Y as Y. exact Y. }
    rewrite <- Ea in Hopen. rewrite <- Et in Sn, Hroom.
    destruct (C79_every_call_is_accepted std _ can_spawn kkind spawn_ctxt d enc task bg cfg _ _ _ _ _ R Hdepth Rst Hopen) as [A1 A2]. split; auto. split; auto.
    destruct (C79_every_call_is_handled std _ can_spawn kkind spawn_ctxt d enc task bg cfg _ _ _ _ _ R eps tin tout ea ta Hdisp Hdev Hhand Hkk Hlab Hdepth Rst Hopen Sn Hroom)
      as (calls & missing & Rf & FM & _ & H & _ & O). rewrite Et in Rf. exists calls. split; [exact Rf|]. split; [exact (O U)|].
    intros x Hx Hh. destruct (H x Hx Hh) as [X|X]; auto. right.
    assert (Y : exists b, (In b (wire es) /\ ~ fits rxlen (length b)) /\ call_frame cl x b).
    { clear - FM X Lu. revert Lu. induction FM as [|y b ys bs Hy FM IH]; intros Lu; [destruct X|]. destruct X as [->|X]; [exists b; split; [apply Lu; left|]; auto|].
      apply IH; auto. intros z Hz. apply Lu. right. exact Hz. }
    destruct Y as (b & [B0 B1] & B2). exists b. auto.
  Qed.
End U.
Print Assumptions C79_accounted.
Print Assumptions C79_every_call_is_accepted.
Print Assumptions C79_every_call_is_handled.
Print Assumptions C79_channels.
Print Assumptions C79_usb.
