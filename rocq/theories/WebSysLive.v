(** Runs over WebUSB: as runs over nusb; and coming to rest. *)
From Coq Require Import NArith List Bool Arith Lia.
From Verif Require Import KeyModel HeaderModel KeySpec HeaderSpec KeyProof HeaderProof MinKeyModel SchemaModel MacroModel PostcardModel DispatchModel SubModel
  ClientModel ClientSpec ClientProof ClientMore ClientOut UsbModel UsbSpec UsbProof NusbRxModel NusbRxThm LogModel LogThm SystemModel SystemSpec LiveSpec LiveProof
  AsyncModel AsyncSpec AsyncProof UsbSysModel UsbSysSpec UsbLink UsbSysProof UsbSysLive WebUsbModel WebSysModel WebSysSpec WebSysProof.
Import ListNotations.

Section Runs.
  Context {Val Ctx SCtx : Type}.
  Variable std : StdKeys.
  Variable can_spawn : Trace Val SCtx -> nat -> bool.
  Variable kkind : VarKeyKind.
  Variable spawn_ctxt : Ctx -> Ctx * SCtx.
  Variable d : Dispatcher Val Ctx.
  Variable enc : Payload Val -> list N.
  Variable task : nat -> SCtx -> VarHeader -> Val -> HProg Val unit.
  Variable cfg : Config.
  Variable txlen rxlen : nat.
  Variable consumes : bool.
  Variable max : nat.
  Variable outcome : nat -> list WRes.

  Notation u_step := (u_step Val Ctx SCtx std can_spawn kkind spawn_ctxt d enc task cfg txlen rxlen consumes (Some 64) outcome).
  Notation u_step0 := (UsbSysModel.u_step Val Ctx SCtx std can_spawn kkind spawn_ctxt d enc task cfg txlen rxlen consumes None outcome).
  Notation u_run := (u_run Val Ctx SCtx std can_spawn kkind spawn_ctxt d enc task cfg txlen rxlen consumes (Some 64) outcome).
  Notation w_step := (w_step Val Ctx SCtx std can_spawn kkind spawn_ctxt d enc task cfg txlen rxlen consumes max outcome).
  Notation w_run := (w_run Val Ctx SCtx std can_spawn kkind spawn_ctxt d enc task cfg txlen rxlen consumes max outcome).
  Notation USys := (USys Val Ctx SCtx).
  Notation WSys := (WSys Val Ctx SCtx).
  Notation w_sys := (w_sys Val Ctx SCtx).
  Notation w_done := (w_done Val Ctx SCtx).
  Notation Tr := (Trace Val SCtx).
  Notation WRel L := (@WRel Val Ctx SCtx enc txlen outcome L).
  Notation device_step := (device_step Val Ctx SCtx std can_spawn kkind spawn_ctxt d enc task cfg txlen rxlen consumes outcome).

  Lemma w_grows l w w' ce : w_step l w = Some (w', ce) -> exists new, u_trace _ _ _ (w_sys w') = u_trace _ _ _ (w_sys w) ++ new.
  Proof.
    assert (Dev : forall ul, device ul -> device_step ul w = Some (w', ce) -> exists new, u_trace _ _ _ (w_sys w') = u_trace _ _ _ (w_sys w) ++ new).
    { intros ul D E. unfold WebSysModel.device_step in E. destruct (u_step0 ul (w_sys w)) as [[v ce']|] eqn:St; [|discriminate]. injection E as <- <-.
      destruct (device_same std can_spawn kkind spawn_ctxt d enc task cfg txlen rxlen consumes outcome 0 ul (w_sys w) v ce' D St) as (_ & _ & _ & Tr & _). exact Tr. }
    intros Hs. destruct l as [l|fails k| | |i| | |]; cbn [WebSysModel.w_step] in Hs.
    - destruct (step cfg l (u_client _ _ _ (w_sys w))) as [[c e]|]; [|destruct l; discriminate].
      destruct l; try discriminate; injection Hs as <- <-; exists []; symmetry; apply app_nil_r.
    - match type of Hs with match ?x with _ => _ end = _ => destruct x as [[c e]|]; [|discriminate] end. injection Hs as <- <-. exists []; symmetry; apply app_nil_r.
    - apply (Dev UServe); auto. left. reflexivity.
    - apply (Dev UResume); auto. right. left. reflexivity.
    - apply (Dev (UTask i)); auto. right. right. eauto.
    - destruct (w_done w); [discriminate|]. destruct (c_in_alive _); [|discriminate]. destruct (u_in _ _ _ (w_sys w)); [discriminate|].
      destruct (max <? _); [|destruct (_ || _)]; injection Hs as <- <-; exists []; symmetry; apply app_nil_r.
    - destruct (w_done w); [discriminate|]. destruct (c_in_alive _); [|discriminate]. injection Hs as <- <-; exists []; symmetry; apply app_nil_r.
    - destruct (w_done w) as [r|]; [|discriminate]. match type of Hs with match ?x with _ => _ end = _ => destruct x as [[c e]|]; [|discriminate] end.
      injection Hs as <- <-. exists []; symmetry; apply app_nil_r.
  Qed.
  Lemma w_run_cons l ls w w' cl es : w_run (l :: ls) w = Some (w', cl, es) ->
    exists w1 ce cl2 es2, w_step l w = Some (w1, ce) /\ w_run ls w1 = Some (w', cl2, es2) /\ cl = cl_of ce ++ cl2 /\ es = es_of ce ++ es2.
  Proof.
    cbn [WebSysModel.w_run]. destruct (w_step l w) as [[w1 ce]|]; [|discriminate]. destruct (w_run ls w1) as [[[w2 cl2] es2]|] eqn:R; [|discriminate].
    intros H. exists w1, ce, cl2, es2. rewrite R. destruct ce as [[? ?]|]; injection H as <- <- <-; auto.
  Qed.
  Lemma w_run_grows ls : forall w w' cl es, w_run ls w = Some (w', cl, es) -> exists new, u_trace _ _ _ (w_sys w') = u_trace _ _ _ (w_sys w) ++ new.
  Proof.
    induction ls as [|l ls IH]; intros w w' cl es H.
    - injection H as <- _ _. exists []. symmetry. apply app_nil_r.
    - apply w_run_cons in H as (w1 & ce & cl2 & es2 & Hs & R & _). apply w_grows in Hs as [n1 E1]. apply IH in R as [n2 E2].
      exists (n1 ++ n2). rewrite E2, E1. symmetry. apply app_assoc.
  Qed.

  Lemma wsim_run L ls : L <= max -> L <= 1024 -> forall w u w' cl es, WRel L w u -> w_run ls w = Some (w', cl, es) ->
    no_whole_packets es -> messages_below enc txlen L (u_trace _ _ _ (w_sys w')) ->
    exists us u', u_run us u = Some (u', cl, es) /\ WRel L w' u' /\ errors_between_messages us /\ (no_failed_transfer ls -> no_transfer_errors us).
  Proof.
    intros Lm Lt. induction ls as [|l ls IH]; intros w u w' cl es R H Hw Hm.
    - injection H as <- <- <-. exists [], u. split; [reflexivity|]. split; auto. split; [intros e []|]. intros _ e. split; intros [].
    - apply w_run_cons in H as (w1 & ce & cl2 & es2 & Hs & Hr & -> & ->). unfold no_whole_packets in Hw. rewrite (wire_app _ _) in Hw.
      apply Forall_app in Hw as [Hw1 Hw2].
      assert (Hm1 : messages_below enc txlen L (u_trace _ _ _ (w_sys w1))).
      { destruct (w_run_grows _ _ _ _ _ Hr) as [new E]. rewrite E in Hm. eapply messages_less; eauto. }
      destruct (wsim_step std can_spawn kkind spawn_ctxt d enc task cfg txlen rxlen consumes max outcome L Lm Lt l w u w1 ce R Hs Hw1 Hm1) as (us1 & u1 & R1 & W1 & A1 & B1 & _).
      destruct (IH w1 u1 w' cl2 es2 W1 Hr Hw2 Hm) as (us2 & u2 & R2 & W2 & A2 & B2).
      exists (us1 ++ us2), u2. split. { eapply u_run_app; eauto. }
      split; auto. split. { intros e He. apply in_app_or in He as [He|He]; [apply (A1 e He)|apply (A2 e He)]. }
      intros Hf. apply no_errors_app; [apply B1|apply B2].
      + intros ->. apply Hf. left. reflexivity.
      + intros X. apply Hf. right. exact X.
  Qed.

  (** *** At rest *)
  Lemma arrive_all ins : forall acc comps reqs errs u, exists acc' more,
    u_run (repeat UIn (length ins)) (plant ins acc comps reqs errs u) = Some (plant [] acc' (comps ++ more) reqs errs u, [], []).
  Proof.
    induction ins as [|p ins IH]; intros acc comps reqs errs u; cbn [length repeat UsbSysModel.u_run].
    - exists acc, []. now rewrite app_nil_r.
    - cbn [UsbSysModel.u_step plant u_in u_acc u_comps u_reqs u_errs u_client u_out u_ctx u_trace u_tasks u_serving u_cur]. destruct (_ || _).
      + destruct (IH [] (comps ++ [COk (acc ++ p)]) reqs errs u) as (acc' & more & E). exists acc', ([COk (acc ++ p)] ++ more). rewrite app_assoc. unfold plant in E. rewrite E. reflexivity.
      + destruct (IH (acc ++ p) comps reqs errs u) as (acc' & more & E). exists acc', more. unfold plant in E. rewrite E. reflexivity.
  Qed.

  Lemma device_rest ul u ins acc comps reqs errs : device ul -> u_step0 ul u = None -> u_step ul (plant ins acc comps reqs errs u) = None.
  Proof.
    intros [->|[->|[i ->]]]; cbn [UsbSysModel.u_step plant u_cur u_serving u_out u_trace u_tasks u_ctx].
    - destruct (u_cur _ _ _ u); auto. destruct (u_serving _ _ _ u); auto. destruct (receive _ _ _) as [[f| | |] rest]; try discriminate; auto.
      destruct (take_from_slice f) as [[[hdr body]|]|]; try discriminate; auto.
    - destruct (u_cur _ _ _ u) as [[| | |w h p k]|]; auto. discriminate.
    - destruct (nth_error (u_tasks _ _ _ u) i) as [[r|key seq p k]|]; auto. destruct (send_keyed _ _ _ _ _ _ _ _ _). discriminate.
  Qed.
  Lemma device_step_none ul w : device_step ul w = None -> u_step0 ul (w_sys w) = None.
  Proof. unfold WebSysModel.device_step. destruct (u_step0 ul (w_sys w)) as [[v ce]|]; auto. discriminate. Qed.

  Lemma w_rest L w u : WRel L w u -> (forall l, w_own_step l = true -> w_step l w = None) ->
    exists us u', u_run us u = Some (u', [], []) /\ no_transfer_errors us /\
      (forall l, u_own_step l = true -> u_step l u' = None) /\
      exists ins acc comps reqs errs, u' = plant ins acc comps reqs errs (w_sys w).
  Proof.
    intros (ins & comps & reqs & errs & -> & R) Hrest.
    assert (A : exists n acc' more, u_run (repeat UIn n) (plant ins [] comps reqs errs (w_sys w)) = Some (plant [] acc' (comps ++ more) reqs errs (w_sys w), [], []) /\
              (c_in_alive (u_client _ _ _ (w_sys w)) = true -> w_done w = None -> comps ++ more = [])).
    { destruct (c_in_alive (u_client _ _ _ (w_sys w))) eqn:Al; [|destruct (arrive_all ins [] comps reqs errs (w_sys w)) as (acc' & more & E); exists (length ins), acc', more; split; [exact E|discriminate]].
      destruct (w_done w) as [r|] eqn:Ed; [destruct (arrive_all ins [] comps reqs errs (w_sys w)) as (acc' & more & E); exists (length ins), acc', more; split; [exact E|discriminate]|].
      unfold in_rel in R. rewrite Ed in R. destruct (R Al) as (-> & _ & held & -> & Ec & Lh & Fh).
      assert (Ei : u_in _ _ _ (w_sys w) = []).
      { specialize (Hrest WIn eq_refl). cbn [WebSysModel.w_step] in Hrest. rewrite Ed, Al in Hrest. destruct (u_in _ _ _ (w_sys w)); auto.
        destruct (max <? _); [discriminate|]. destruct (_ || _); discriminate. }
      rewrite Ei, app_nil_r. exists (length held), (concat held), []. split; auto.
      pose proof (arrive std can_spawn kkind spawn_ctxt d enc task cfg txlen rxlen consumes outcome held [] [] [] reqs errs (w_sys w) Fh ltac:(cbn; lia)) as X.
      rewrite app_nil_r in X. exact X. }
    destruct A as (n & acc' & more & Er & Em). eexists _, _. split; [exact Er|]. split; [apply no_error_repeat|]. split; [|eauto 6].
    intros l Ho. destruct l as [l|fails k| | |i| |e|e|halts]; try discriminate Ho.
    - specialize (Hrest (WClient l) Ho). cbn [WebSysModel.w_step] in Hrest. cbn [UsbSysModel.u_step plant u_client].
      destruct (step cfg l (u_client _ _ _ (w_sys w))) as [[c e]|]; [|destruct l; reflexivity]. destruct l; try discriminate; reflexivity.
    - apply device_rest; [left; reflexivity|]. apply device_step_none. exact (Hrest WServe eq_refl).
    - apply device_rest; [right; left; reflexivity|]. apply device_step_none. exact (Hrest WResume eq_refl).
    - apply device_rest; [right; right; eauto|]. apply device_step_none. exact (Hrest (WTask i) eq_refl).
    - reflexivity.
    - specialize (Hrest WRecv eq_refl). cbn [WebSysModel.w_step] in Hrest. cbn [UsbSysModel.u_step plant u_reqs u_errs u_comps u_client].
      destruct (c_in_alive (u_client _ _ _ (w_sys w))) eqn:Al.
      + unfold in_rel in R. specialize (R Al). destruct (w_done w) as [[b|]|] eqn:Ed.
        * destruct R as (-> & _). destruct (recv_first_ok can_spawn task outcome reqs errs (COk b) more halts Logic.I) as (b' & Eb & q & E). injection Eb as <-.
          cbn [app]. rewrite E. destruct (step cfg (LRecv b) (u_client _ _ _ (w_sys w))) as [[c e]|]; [discriminate|reflexivity].
        * subst comps. cbn [app]. unfold recv. cbn [recv_inner length]. destruct (reqs + (IN_FLIGHT_REQS - reqs)) as [|q]; [reflexivity|].
          destruct (step cfg LInFail (u_client _ _ _ (w_sys w))) as [[c e]|]; [discriminate|reflexivity].
        * rewrite (Em eq_refl eq_refl). unfold recv. cbn. destruct (_ + _); reflexivity.
      + destruct (recv reqs errs (comps ++ more) halts) as [[[[[res q] e'] c'] h'] aw]. destruct res as [b|e| | |]; auto.
        * cbn [step]. rewrite Al. destruct (c_offer _); reflexivity.
        * cbn [step]. rewrite Al. destruct (c_offer _); reflexivity.
  Qed.

  (** *** The steps end *)
  Hypothesis Hrx : 64 <= rxlen.
  Definition kd (w : WSys) : nat := match w_done w with Some _ => 2 | None => 0 end.
  Definition wless (a b : WSys) : Prop :=
    k1 (w_sys a) < k1 (w_sys b) \/ (k1 (w_sys a) = k1 (w_sys b) /\ (k2 (w_sys a) < k2 (w_sys b) \/ (k2 (w_sys a) = k2 (w_sys b) /\
      (kc (w_sys a) < kc (w_sys b) \/ (kc (w_sys a) = kc (w_sys b) /\ (k3 (w_sys a) < k3 (w_sys b) \/ (k3 (w_sys a) = k3 (w_sys b) /\ k4 (w_sys a) + kd a < k4 (w_sys b) + kd b))))))).
  Lemma wless_wf : well_founded wless.
  Proof.
    assert (G : forall n1 n2 nc n3 n4 s, k1 (w_sys s) = n1 -> k2 (w_sys s) = n2 -> kc (w_sys s) = nc -> k3 (w_sys s) = n3 -> k4 (w_sys s) + kd s = n4 -> Acc wless s).
    { induction n1 as [n1 I1] using lt_wf_ind. induction n2 as [n2 I2] using lt_wf_ind. induction nc as [nc Ic] using lt_wf_ind. induction n3 as [n3 I3] using lt_wf_ind.
      induction n4 as [n4 I4] using lt_wf_ind. intros s E1 E2 Ec E3 E4. constructor. intros s' [Lt|[E [Lt|[E' [Lt|[Ec' [Lt|[E'' Lt]]]]]]]].
      - eapply (I1 (k1 (w_sys s'))); eauto. lia.
      - eapply (I2 (k2 (w_sys s'))); eauto; lia.
      - eapply (Ic (kc (w_sys s'))); eauto; lia.
      - eapply (I3 (k3 (w_sys s'))); eauto; lia.
      - eapply (I4 (k4 (w_sys s') + kd s')); eauto; lia. }
    intros s. eapply G; reflexivity.
  Qed.
  Lemma web_short b : Forall short (webusb_send b).
  Proof. apply transfer_short. Qed.

  Lemma w_own_less l w w' ce : Forall short (u_out _ _ _ (w_sys w)) -> w_own_step l = true -> w_step l w = Some (w', ce) -> wless w' w.
  Proof.
    intros Sh Ho Hs.
    assert (Dev : forall ul, u_own_step ul = true -> device_step ul w = Some (w', ce) -> wless w' w).
    { intros ul Ho' E. unfold WebSysModel.device_step in E. destruct (u_step0 ul (w_sys w)) as [[v ce']|] eqn:St; [|discriminate]. injection E as <- <-.
      destruct (u_own_less std can_spawn kkind spawn_ctxt d enc task cfg txlen rxlen consumes None outcome Hrx ul (w_sys w) v ce' Sh Ho' St) as [Lt _].
      unfold wless, uless in *. unfold kd. cbn [WebSysModel.w_sys WebSysModel.w_done]. intuition. }
    unfold wless. destruct l as [l|fails k| | |i| | |]; try discriminate Ho; cbn [WebSysModel.w_step] in Hs.
    - assert (E : exists c e, step cfg l (u_client _ _ _ (w_sys w)) = Some (c, e) /\
        w' = MkWSys _ _ _ (with_client _ _ _ c (u_out _ _ _ (w_sys w) ++ flat_map webusb_send (wire_of e)) (w_sys w)) (w_done w)).
      { destruct (step cfg l (u_client _ _ _ (w_sys w))) as [[c e]|]; [|destruct l; discriminate].
        exists c, e. destruct l; try discriminate; injection Hs as <- <-; auto. }
      destruct E as (c & e & St & ->). unfold kd, kc, k1, k2, k3, k4. cbn [WebSysModel.w_sys WebSysModel.w_done with_client u_client u_out u_tasks u_in u_comps u_cur].
      destruct (own_client_less _ _ _ _ _ Ho St) as [Lt|[L1 L2]]; [lia|]. destruct (wire_of e) eqn:W; [|cbn [length] in L1; lia].
      cbn [length flat_map] in L1 |- *. rewrite app_nil_r. lia.
    - apply (Dev UServe); auto.
    - apply (Dev UResume); auto.
    - apply (Dev (UTask i)); auto.
    - destruct (w_done w) eqn:Ed; [discriminate|]. destruct (c_in_alive _); [|discriminate]. destruct (u_in _ _ _ (w_sys w)) as [|p tl] eqn:Ei; [discriminate|].
      unfold kd, kc, k1, k2, k3, k4. destruct (max <? _); [|destruct (_ || _)]; injection Hs as <- <-;
        cbn [WebSysModel.w_sys WebSysModel.w_done set_in_side u_client u_out u_tasks u_in u_comps u_cur]; rewrite Ed, Ei; cbn [length]; lia.
    - destruct (w_done w) as [r|] eqn:Ed; [|discriminate].
      destruct (step cfg match r with WebGot b => LRecv b | WebErr => LInFail end (u_client _ _ _ (w_sys w))) as [[c e]|] eqn:St; [|discriminate]. injection Hs as <- <-.
      assert (E : m_out c = m_out (u_client _ _ _ (w_sys w)) /\ m_in c <= m_in (u_client _ _ _ (w_sys w)) + 1).
      { destruct r as [b|]; [destruct (recv_less _ _ _ _ _ St); lia|destruct (in_fail_less can_spawn task cfg rxlen outcome Hrx _ _ _ St); lia]. }
      unfold kd, kc, k1, k2, k3, k4. cbn [WebSysModel.w_sys WebSysModel.w_done with_client u_client u_out u_tasks u_in u_comps u_cur]. rewrite Ed. lia.
  Qed.
  Lemma w_step_short l w w' ce : Forall short (u_out _ _ _ (w_sys w)) -> w_step l w = Some (w', ce) -> Forall short (u_out _ _ _ (w_sys w')).
  Proof.
    intros Sh Hs.
    assert (Dev : forall ul, u_own_step ul = true -> device_step ul w = Some (w', ce) -> Forall short (u_out _ _ _ (w_sys w'))).
    { intros ul Ho' E. unfold WebSysModel.device_step in E. destruct (u_step0 ul (w_sys w)) as [[v ce']|] eqn:St; [|discriminate]. injection E as <- <-.
      exact (proj2 (u_own_less std can_spawn kkind spawn_ctxt d enc task cfg txlen rxlen consumes None outcome Hrx ul (w_sys w) v ce' Sh Ho' St)). }
    destruct l as [l|fails k| | |i| | |]; cbn [WebSysModel.w_step] in Hs.
    - assert (E : exists c e, w' = MkWSys _ _ _ (with_client _ _ _ c (u_out _ _ _ (w_sys w) ++ flat_map webusb_send (wire_of e)) (w_sys w)) (w_done w)).
      { destruct (step cfg l (u_client _ _ _ (w_sys w))) as [[c e]|]; [|destruct l; discriminate].
        exists c, e. destruct l; try discriminate; injection Hs as <- <-; auto. }
      destruct E as (c & e & ->). cbn. apply Forall_app. split; auto. apply Forall_forall. intros p Hp. apply in_flat_map in Hp as (f & _ & Hp).
      pose proof (web_short f) as N. rewrite Forall_forall in N. auto.
    - match type of Hs with match ?x with _ => _ end = _ => destruct x as [[c e]|]; [|discriminate] end. injection Hs as <- <-. cbn.
      apply Forall_app. split; auto. destruct (c_sending _) as [f|]; auto.
      apply Forall_forall. intros p Hp. assert (Hq : In p (webusb_send (rpc_to_bytes f))) by (rewrite <- (firstn_skipn k); apply in_or_app; auto).
      pose proof (web_short (rpc_to_bytes f)) as N. rewrite Forall_forall in N. auto.
    - apply (Dev UServe); auto.
    - apply (Dev UResume); auto.
    - apply (Dev (UTask i)); auto.
    - destruct (w_done w); [discriminate|]. destruct (c_in_alive _); [|discriminate]. destruct (u_in _ _ _ (w_sys w)); [discriminate|].
      destruct (max <? _); [|destruct (_ || _)]; injection Hs as <- <-; exact Sh.
    - destruct (w_done w); [discriminate|]. destruct (c_in_alive _); [|discriminate]. injection Hs as <- <-; exact Sh.
    - destruct (w_done w) as [r|]; [|discriminate]. match type of Hs with match ?x with _ => _ end = _ => destruct x as [[c e]|]; [|discriminate] end.
      injection Hs as <- <-. exact Sh.
  Qed.
  Lemma w_run_short ls : forall w w' cl es, w_run ls w = Some (w', cl, es) -> Forall short (u_out _ _ _ (w_sys w)) -> Forall short (u_out _ _ _ (w_sys w')).
  Proof.
    induction ls as [|l ls IH]; intros w w' cl es H Sh.
    - injection H as <- _ _. exact Sh.
    - apply w_run_cons in H as (w1 & ce & cl2 & es2 & Hs & R & _). eapply IH; [exact R|]. eapply w_step_short; eauto.
  Qed.
  Lemma w_own_ends (f : nat -> WSys) : Forall short (u_out _ _ _ (w_sys (f 0))) ->
    ~ (forall n, exists l ce, w_own_step l = true /\ w_step l (f n) = Some (f (S n), ce)).
  Proof.
    intros H0 H. assert (Sh : forall n, Forall short (u_out _ _ _ (w_sys (f n)))).
    { induction n as [|n IH]; auto. destruct (H n) as (l & ce & _ & Hs). eapply w_step_short; eauto. }
    assert (Le : forall n, wless (f (S n)) (f n)). { intros n. destruct (H n) as (l & ce & Ho & Hs). eapply w_own_less; eauto. }
    assert (G : forall s, Acc wless s -> forall n, f n <> s).
    { intros s A. induction A as [s _ IH]. intros n <-. exact (IH (f (S n)) (Le n) (S n) eq_refl). }
    exact (G _ (wless_wf (f 0)) 0 eq_refl).
  Qed.
End Runs.
