(** Lemmas about the system over USB coming to rest. *)
From Coq Require Import NArith List Bool Arith Lia Permutation Wellfounded.
From Verif Require Import KeyModel HeaderModel KeySpec HeaderSpec KeyProof HeaderProof MinKeyModel SchemaModel MacroModel PostcardModel DispatchModel SubModel
  ClientModel ClientSpec ClientProof ClientMore ClientOut UsbModel UsbSpec UsbProof NusbRxModel NusbRxThm LogModel LogThm SystemModel SystemSpec LiveSpec LiveProof
  AsyncModel AsyncSpec AsyncProof UsbSysModel UsbSysSpec UsbLink UsbSysProof.
Import ListNotations.

(** Whether the client can receive does not depend on what there is to receive. *)
Lemma recv_any cfg b b' c : FInv c -> step cfg (LRecv b) c = None -> step cfg (LRecv b') c = None.
Proof.
  intros F H. cbn [step] in *. destruct (c_offer c); auto. destruct (negb (c_in_alive c) || blocked (c_subs c)) eqn:E; auto. exfalso.
  apply orb_false_iff in E as [E1 E2]. apply negb_false_iff in E1. destruct F as (_ & _ & _ & _ & F & _). specialize (F E1).
  destruct (take_defined b) as [[[h bd]|] T]; rewrite T in H; [|discriminate].
  cbn [sub_step] in H. rewrite E2, F in H. cbn [orb] in H. destruct (deliver _ _ _) as [s' []]; discriminate.
Qed.

Definition short (p : packet) : Prop := length p <= 64.
Lemma packed_short l ps : packed l ps -> Forall short ps.
Proof. induction 1; constructor; auto; unfold short; lia. Qed.
Lemma transfer_short d : Forall short (transfer_packets d).
Proof. unfold transfer_packets. destruct d; [repeat constructor; unfold short; cbn; lia|]. eapply packed_short, chunks_packed. Qed.
Lemma nusb_short mps d : Forall short (nusb_send mps d).
Proof. unfold nusb_send. apply Forall_app. split; [apply transfer_short|]. destruct mps as [m|]; [destruct (_ =? _)|]; auto; apply transfer_short. Qed.

Lemma drain_less c B ps : 64 <= B -> Forall short ps -> exists rest, snd (drain c B (map Pkt ps)) = map Pkt rest /\ Forall short rest /\ length rest <= length ps.
Proof.
  intros HB. induction ps as [|p ps IH]; intros F; cbn [drain map].
  - exists []. auto.
  - inversion F as [|? ? F1 F2]; subst. unfold short in F1. destruct (B <? length p) eqn:E; [apply Nat.ltb_lt in E; lia|].
    destruct (length p =? 64).
    + destruct (IH F2) as (rest & E1 & E2 & E3). exists rest. cbn. auto.
    + exists ps. cbn. auto.
Qed.
Lemma fill_less c B ps : 64 <= B -> forall acc, Forall short ps ->
  exists rest, snd (fill c B acc (map Pkt ps)) = map Pkt rest /\ Forall short rest /\ length rest <= length ps.
Proof.
  intros HB. induction ps as [|p ps IH]; intros acc F; cbn [fill map].
  - destruct (_ =? 0); exists []; auto.
  - destruct (_ =? 0) eqn:W. { apply (drain_less c B (p :: ps)); auto. }
    inversion F as [|? ? F1 F2]; subst. destruct (_ <? _).
    + destruct c; [exists ps|exists (p :: ps)]; cbn; auto.
    + destruct (length p =? 64).
      * destruct (IH (acc ++ p) F2) as (rest & E1 & E2 & E3). exists rest. cbn. auto.
      * exists ps. cbn. auto.
Qed.
(** Receiving takes at least one packet. *)
Lemma receive_less c B ps r items : 64 <= B -> Forall short ps -> receive c B (map Pkt ps) = (r, items) -> r <> RPending ->
  exists rest, items = map Pkt rest /\ Forall short rest /\ length rest < length ps.
Proof.
  intros HB F H Hr. unfold receive in H. destruct ps as [|p ps]; cbn [map fill] in H; cbn [length] in H; rewrite Nat.sub_0_r in H;
    (destruct (B =? 0) eqn:Z; [apply Nat.eqb_eq in Z; lia|]).
  - injection H as <- _. congruence.
  - inversion F as [|? ? F1 F2]; subst. unfold short in F1. destruct (B <? length p) eqn:E; [apply Nat.ltb_lt in E; lia|].
    destruct (length p =? 64).
    + destruct (fill_less c B ps HB ([] ++ p) F2) as (rest & E1 & E2 & E3). rewrite H in E1. cbn in E1. exists rest. cbn. split; auto. split; auto. lia.
    + injection H as <- <-. exists ps. cbn. auto.
Qed.

Lemma recv_shorter fuel : forall p errs comps halts r p' errs' c' h' aw, recv_inner fuel p errs comps halts = (r, p', errs', c', h', aw) ->
  length c' <= length comps /\ match r with NGot _ | NErr _ => length c' < length comps | _ => True end.
Proof.
  induction fuel as [|fuel IH]; intros p errs comps halts r p' errs' c' h' aw H; cbn [recv_inner] in H.
  - injection H as <- <- <- <- <- <-. auto.
  - destruct (p + (IN_FLIGHT_REQS - p)) as [|q]; [injection H as <- <- <- <- <- <-; auto|].
    destruct comps as [|[b|e] tl]; [injection H as <- <- <- <- <- <-; auto|injection H as <- <- <- <- <- <-; cbn; auto|].
    match type of H with (if ?x then _ else _) = _ => destruct x end; [|injection H as <- <- <- <- <- <-; cbn; auto].
    destruct (drain_requests (IN_FLIGHT_REQS - 1) q tl) as [[[rr p2] tl'] aw2] eqn:D.
    destruct (drain_suffix _ _ _ _ _ _ _ D) as [pre E]. assert (L : length tl' <= length tl) by (rewrite E, app_length; lia).
    destruct rr as [rr|].
    + injection H as <- <- <- <- <- <-. cbn. split; [lia|]. destruct rr; auto; lia.
    + destruct (hd true halts).
      * destruct (recv_inner fuel p2 (S errs) tl' (List.tl halts)) as [[[[[r3 p3] e3] c3] h3] a3] eqn:R.
        injection H as <- <- <- <- <- <-. apply IH in R as [R1 R2]. cbn. split; [lia|]. destruct r3; auto; lia.
      * injection H as <- <- <- <- <- <-. cbn. split; lia.
Qed.

Section Live.
  Context {Val Ctx SCtx : Type}.
  Variable std : StdKeys.
  Variable can_spawn : Trace Val SCtx -> nat -> bool.
  Variable kkind : VarKeyKind.
  Variable spawn_ctxt : Ctx -> Ctx * SCtx.
  Variable d : Dispatcher Val Ctx.
  Variable enc : Payload Val -> list N.
  Variable task : nat -> SCtx -> VarHeader -> Val -> HProg Val unit.
  Variable cfg : Config.
  Variable txlen rxlen : nat.
  Variable consumes : bool.
  Variable mps : option nat.
  Variable outcome : nat -> list WRes.

  Notation unet := (usb_net Val SCtx enc txlen outcome).
  Notation tx_pending := (tx_pending Val SCtx enc txlen outcome).
  Notation sys_step := (sys_step Val Ctx SCtx std unet can_spawn kkind spawn_ctxt d enc task cfg).
  Notation u_step := (u_step Val Ctx SCtx std can_spawn kkind spawn_ctxt d enc task cfg txlen rxlen consumes mps outcome).
  Notation u_run := (u_run Val Ctx SCtx std can_spawn kkind spawn_ctxt d enc task cfg txlen rxlen consumes mps outcome).
  Notation a_step := (a_step Val Ctx SCtx std unet can_spawn kkind spawn_ctxt d enc task cfg).
  Notation a_run := (a_run Val Ctx SCtx std unet can_spawn kkind spawn_ctxt d enc task cfg).
  Notation Sys := (Sys Val Ctx SCtx).
  Notation USys := (USys Val Ctx SCtx).
  Notation ASys := (ASys Val Ctx SCtx).

  (** *** The steps end *)
  (** The most transmissions that remain. *)
  Fixpoint cdepth {R} (p : SProg Val SCtx R) : nat :=
    match p with
    | SpRet _ => 0
    | SpRun _ _ _ k => cdepth k
    | SpSpawn _ _ _ _ k => Nat.max (cdepth (k true)) (cdepth (k false))
    | SpSend _ _ _ k => S (Nat.max (cdepth (k TxOk)) (Nat.max (cdepth (k (TxErr TxConnectionClosed)))
                         (Nat.max (cdepth (k (TxErr TxOther))) (cdepth (k (TxErr TxTimeout))))))
    end.
  Lemma cdepth_settle {R} (p : SProg Val SCtx R) : forall tr, cdepth (fst (settle Val SCtx can_spawn p tr)) <= cdepth p.
  Proof.
    induction p as [r|n h v k IH|n sc h v k IH|w h pl k IH]; intros tr; cbn [settle cdepth fst]; auto.
    destruct (can_spawn tr n); [specialize (IH true (tr ++ [EvSpawn n sc h v true]))|specialize (IH false (tr ++ [EvSpawn n sc h v false]))]; lia.
  Qed.
  Lemma cdepth_lt {R} w h p (k : TxRes -> SProg Val SCtx R) r : cdepth (k r) < cdepth (SpSend w h p k).
  Proof. cbn [cdepth]. destruct r as [|[]]; lia. Qed.
  Definition k1 (u : USys) : nat := m_out (u_client _ _ _ u).
  Definition k2 (u : USys) : nat := length (u_out _ _ _ u).
  Definition kc (u : USys) : nat := match u_cur _ _ _ u with Some p => cdepth p | None => 0 end.
  Definition k3 (u : USys) : nat := sum hdepth (u_tasks _ _ _ u).
  Definition k4 (u : USys) : nat := 3 * length (u_in _ _ _ u) + 2 * length (u_comps _ _ _ u) + m_in (u_client _ _ _ u).
  Definition uless (a b : USys) : Prop :=
    k1 a < k1 b \/ (k1 a = k1 b /\ (k2 a < k2 b \/ (k2 a = k2 b /\ (kc a < kc b \/ (kc a = kc b /\ (k3 a < k3 b \/ (k3 a = k3 b /\ k4 a < k4 b))))))).
  Lemma uless_wf : well_founded uless.
  Proof.
    assert (G : forall n1 n2 nc n3 n4 s, k1 s = n1 -> k2 s = n2 -> kc s = nc -> k3 s = n3 -> k4 s = n4 -> Acc uless s).
    { induction n1 as [n1 I1] using lt_wf_ind. induction n2 as [n2 I2] using lt_wf_ind. induction nc as [nc Ic] using lt_wf_ind. induction n3 as [n3 I3] using lt_wf_ind.
      induction n4 as [n4 I4] using lt_wf_ind. intros s E1 E2 Ec E3 E4. constructor. intros s' [L|[E [L|[E' [L|[Ec' [L|[E'' L]]]]]]]].
      - eapply (I1 (k1 s')); eauto. lia.
      - eapply (I2 (k2 s')); eauto; lia.
      - eapply (Ic (kc s')); eauto; lia.
      - eapply (I3 (k3 s')); eauto; lia.
      - eapply (I4 (k4 s')); eauto; lia. }
    intros s. eapply G; reflexivity.
  Qed.
  Lemma carry_less u p : u_client _ _ _ (u_carry_on Val Ctx SCtx can_spawn task u p) = u_client _ _ _ u /\
    u_out _ _ _ (u_carry_on Val Ctx SCtx can_spawn task u p) = u_out _ _ _ u /\ kc (u_carry_on Val Ctx SCtx can_spawn task u p) <= cdepth p.
  Proof.
    unfold u_carry_on, kc. pose proof (cdepth_settle p (u_trace _ _ _ u)) as L.
    destruct (settle Val SCtx can_spawn p (u_trace _ _ _ u)) as [[[ctx res]| | |] tr]; cbn [fst] in L; split; auto; split; auto; cbn [u_cur]; lia.
  Qed.

  Hypothesis Hrx : 64 <= rxlen.

  Lemma in_fail_less c c' e : step cfg LInFail c = Some (c', e) -> m_out c' = m_out c /\ m_in c' <= m_in c + 1.
  Proof.
    cbn [step]. intros H. destruct (c_offer c) eqn:O; [discriminate|]. destruct (_ || _); [discriminate|]. injection H as <- <-.
    unfold m_out, m_in, in_gone. cbn -[sum]. rewrite O. split; [reflexivity|]. cbn. lia.
  Qed.

  Lemma u_own_less l u u' ce : Forall short (u_out _ _ _ u) -> u_own_step l = true -> u_step l u = Some (u', ce) ->
    uless u' u /\ Forall short (u_out _ _ _ u').
  Proof.
    intros Sh Ho Hs. unfold uless, k1, k2, k3, k4. destruct l as [l|fails k| | |i| |e|e|halts]; try discriminate Ho.
    - assert (E : exists c e, step cfg l (u_client _ _ _ u) = Some (c, e) /\ u' = with_client _ _ _ c (u_out _ _ _ u ++ flat_map (nusb_send mps) (wire_of e)) u).
      { cbn [UsbSysModel.u_step] in Hs. destruct (step cfg l (u_client _ _ _ u)) as [[c e]|]; [|destruct l; discriminate].
        destruct l; try discriminate; injection Hs as <- <-; exists c, e; auto. }
      destruct E as (c & e & St & ->). unfold kc. cbn [with_client u_client u_out u_tasks u_in u_comps u_cur]. split.
      + destruct (own_client_less _ _ _ _ _ Ho St) as [L|[L1 L2]]; [lia|]. destruct (wire_of e) eqn:W; [|cbn [length] in L1; lia].
        cbn [length flat_map] in L1 |- *. rewrite app_nil_r. right. split; [lia|]. right. split; [lia|]. right. split; [lia|]. right. split; [lia|]. lia.
      + apply Forall_app. split; auto. apply Forall_forall. intros p Hp. apply in_flat_map in Hp as (f & _ & Hp).
        pose proof (nusb_short mps f) as N. rewrite Forall_forall in N. auto.
    - cbn [UsbSysModel.u_step] in Hs. destruct (u_cur _ _ _ u); [discriminate|]. destruct (u_serving _ _ _ u); [|discriminate].
      destruct (receive consumes rxlen (map Pkt (u_out _ _ _ u))) as [r items] eqn:Rc.
      assert (Np : r <> RPending) by (intros ->; discriminate).
      destruct (receive_less _ _ _ _ _ Hrx Sh Rc Np) as (rest & -> & Sr & L).
      destruct r as [f| | |]; try discriminate.
      + destruct (take_from_slice f) as [[[hdr body]|]|]; [| |discriminate].
        * injection Hs as <- <-. rewrite packets_left_map.
          edestruct carry_less as (-> & -> & _). cbn [with_client u_client u_out]. split; auto.
        * injection Hs as <- <-. cbn [with_client u_client u_out u_tasks u_in u_comps]. rewrite packets_left_map. split; auto.
      + injection Hs as <- <-. cbn [with_client u_client u_out u_tasks u_in u_comps]. rewrite packets_left_map. split; auto.
    - cbn [UsbSysModel.u_step] in Hs. destruct (u_cur _ _ _ u) as [[| | |w h p k]|] eqn:Cu; try discriminate. injection Hs as <- <-.
      edestruct carry_less as (-> & -> & L). cbn [u_client u_out]. split; auto. right. split; auto. right. split; auto. left.
      eapply Nat.le_lt_trans; [exact L|]. unfold kc. rewrite Cu. apply cdepth_lt.
    - cbn [UsbSysModel.u_step] in Hs. destruct (nth_error (u_tasks _ _ _ u) i) as [[r|key seq p k]|] eqn:Ht; try discriminate.
      destruct (send_keyed _ _ _ _ _ _ _ _ _) as [r tr]. injection Hs as <- <-. unfold kc. cbn [u_client u_out u_tasks u_cur]. split; auto.
      right. split; auto. right. split; auto. right. split; auto. left.
      pose proof (sum_set (@hdepth Val unit) _ _ (k r) _ Ht) as E. pose proof (hdepth_lt _ key seq p k r). lia.
    - cbn [UsbSysModel.u_step] in Hs. destruct (u_in _ _ _ u) as [|p tl] eqn:Ei; [discriminate|].
      destruct (_ || _); injection Hs as <- <-; unfold kc; cbn [u_client u_out u_tasks u_in u_comps u_cur]; split; auto;
        right; split; auto; right; split; auto; right; split; auto; right; split; auto; rewrite ?app_length; cbn [length]; lia.
    - cbn [UsbSysModel.u_step] in Hs.
      destruct (recv (u_reqs _ _ _ u) (u_errs _ _ _ u) (u_comps _ _ _ u) halts) as [[[[[res reqs] errs] comps] h'] aw] eqn:Rc.
      unfold recv in Rc. apply recv_shorter in Rc as [_ L]. destruct res as [b|e| | |]; try discriminate.
      + destruct (step cfg (LRecv b) (u_client _ _ _ u)) as [[c ev]|] eqn:St; [|discriminate]. injection Hs as <- <-.
        destruct (recv_less _ _ _ _ _ St) as [E1 E2]. unfold kc. cbn [u_client u_out u_tasks u_in u_comps u_cur]. split; auto. right. split; auto. right. split; auto. right. split; auto. right. split; auto. lia.
      + destruct (step cfg LInFail (u_client _ _ _ u)) as [[c ev]|] eqn:St; [|discriminate]. injection Hs as <- <-.
        destruct (in_fail_less _ _ _ St) as [E1 E2]. unfold kc. cbn [u_client u_out u_tasks u_in u_comps u_cur]. split; auto. right. split; auto. right. split; auto. right. split; auto. right. split; auto. lia.
  Qed.

  (** No packet is longer than 64 bytes. *)
  Lemma step_short l u u' ce : Forall short (u_out _ _ _ u) -> u_step l u = Some (u', ce) -> Forall short (u_out _ _ _ u').
  Proof.
    intros Sh Hs. destruct (u_own_step l) eqn:Ho; [eapply u_own_less; eauto|].
    destruct l as [l|fails k| | |i| |e|e|halts]; try discriminate Ho; cbn [UsbSysModel.u_step] in Hs.
    - assert (E : exists c e, u' = with_client _ _ _ c (u_out _ _ _ u ++ flat_map (nusb_send mps) (wire_of e)) u).
      { destruct (step cfg l (u_client _ _ _ u)) as [[c e]|]; [|destruct l; discriminate].
        destruct l; try discriminate; injection Hs as <- <-; exists c, e; auto. }
      destruct E as (c & e & ->). cbn. apply Forall_app. split; auto. apply Forall_forall. intros p Hp. apply in_flat_map in Hp as (f & _ & Hp).
      pose proof (nusb_short mps f) as N. rewrite Forall_forall in N. auto.
    - match type of Hs with match ?x with _ => _ end = _ => destruct x as [[c e]|]; [|discriminate] end. injection Hs as <- <-. cbn.
      apply Forall_app. split; auto. destruct (c_sending _) as [f|]; auto.
      apply Forall_forall. intros p Hp. assert (Hq : In p (nusb_send mps (rpc_to_bytes f))) by (rewrite <- (firstn_skipn k); apply in_or_app; auto).
      pose proof (nusb_short mps (rpc_to_bytes f)) as N. rewrite Forall_forall in N. auto.
    - destruct (u_acc _ _ _ u); [|discriminate]. injection Hs as <- <-. exact Sh.
    - destruct (u_acc _ _ _ u); [discriminate|]. injection Hs as <- <-. exact Sh.
  Qed.
  Lemma run_short ls : forall u u' cl es, u_run ls u = Some (u', cl, es) -> Forall short (u_out _ _ _ u) -> Forall short (u_out _ _ _ u').
  Proof.
    induction ls as [|l ls IH]; intros u u' cl es H Sh; cbn [UsbSysModel.u_run] in H.
    - injection H as <- _ _. exact Sh.
    - destruct (u_step l u) as [[u1 ce]|] eqn:Hs; [|discriminate]. destruct (u_run ls u1) as [[[u2 cl2] es2]|] eqn:R; [|discriminate].
      assert (u' = u2) as -> by (destruct ce as [[? ?]|]; injection H as -> _ _; reflexivity).
      eapply IH; eauto. eapply step_short; eauto.
  Qed.

  Lemma u_own_ends (f : nat -> USys) : Forall short (u_out _ _ _ (f 0)) ->
    ~ (forall n, exists l ce, u_own_step l = true /\ u_step l (f n) = Some (f (S n), ce)).
  Proof.
    intros H0 H. assert (Sh : forall n, Forall short (u_out _ _ _ (f n)) /\ uless (f (S n)) (f n)).
    { induction n as [|n [IH _]].
      - split; auto. destruct (H 0) as (l & ce & Ho & Hs). eapply u_own_less; eauto.
      - destruct (H n) as (l & ce & Ho & Hs). destruct (u_own_less _ _ _ _ IH Ho Hs) as [_ S1]. split; auto.
        destruct (H (S n)) as (l2 & ce2 & Ho2 & Hs2). eapply u_own_less; eauto. }
    assert (G : forall s, Acc uless s -> forall n, f n <> s).
    { intros s A. induction A as [s _ IH]. intros n <-. refine (IH (f (S n)) _ (S n) eq_refl). apply Sh. }
    exact (G _ (uless_wf (f 0)) 0 eq_refl).
  Qed.

  (** *** At rest *)
  Hypothesis Hmod : rxlen mod 64 = 0.
  Lemma labels_lifted ls : system_labels (map ASystem ls) = ls.
  Proof. induction ls as [|l ls IH]; auto. cbn [map]. unfold system_labels in *. cbn [flat_map app]. rewrite IH. reflexivity. Qed.
  Lemma u_rest_rest W u a : Rel enc txlen outcome true W u a -> a_ok a ->
    (forall l, u_own_step l = true -> u_step l u = None) ->
    exists ls a', a_run ls a = Some (a', [], []) /\ (forall l, a_own_step l = true -> a_step l a' = None) /\
      a_lost a_step loses_up ls a = [] /\ Forall (not_sent enc (u_trace _ _ _ u)) (a_lost a_step loses_down ls a) /\
      y_trace _ _ _ (a_sys _ _ _ a') = u_trace _ _ _ u /\ (forall i, ~ In (SServe i) (system_labels ls)) /\ Forall tidy (system_labels ls).
  Proof.
    intros [] Ok Hrest. destruct a as [s cur]. cbn [AsyncModel.a_sys AsyncModel.a_cur] in *.
    assert (Ui : u_in _ _ _ u = []).
    { specialize (Hrest UIn eq_refl). cbn [UsbSysModel.u_step] in Hrest. destruct (u_in _ _ _ u); auto. destruct (_ || _); discriminate. }
    assert (Cu : cur = None).
    { specialize (Hrest UResume eq_refl). cbn [UsbSysModel.u_step] in Hrest. rewrite <- rl_cur in Hrest. destruct cur as [p|]; auto. unfold a_ok in Ok. cbn in Ok.
      destruct p; try (destruct (proj2 Ok)). discriminate. }
    assert (Cu' : u_cur _ _ _ u = None) by congruence. rewrite Cu in Ok |- *. clear rl_cur Cu cur.
    unfold down_rel in rl_down. rewrite Ui in rl_down. cbn [host_in] in rl_down. destruct rl_down as (open & O & NS & E). rewrite app_nil_r in E.
    destruct (adjust_run std can_spawn kkind spawn_ctxt d enc task cfg txlen rxlen outcome false _ _ _ (adjust_none false _ _ NS) _ s E) as (ls & R & FL & Lo & Lu).
    assert (NSv : forall i, ~ In (SServe i) ls). { intros i Hi. rewrite Forall_forall in FL. exact (FL _ Hi). }
    destruct (lift std can_spawn kkind spawn_ctxt d enc task cfg txlen outcome ls s None _ _ _ NSv R) as (R' & Lu' & Ld').
    rewrite app_nil_r in R'. eexists _, _. split; [exact R'|]. rewrite Lu', Ld'. split; [|split; [auto|split; [auto|split; [auto|rewrite labels_lifted; split; [exact NSv|eapply loses_tidy; exact FL]]]]].
    intros l Ho. destruct l as [l|]; [|reflexivity]. cbn [a_own_step] in Ho.
    destruct l as [l|i|i|i|i|i|i n|]; try discriminate Ho; cbn [AsyncModel.a_step AsyncModel.a_sys AsyncModel.a_cur].
    - assert (N : step cfg l (y_client _ _ _ s) = None).
      { rewrite rl_client. specialize (Hrest (UClient l) Ho). cbn [UsbSysModel.u_step] in Hrest.
        destruct (step cfg l (u_client _ _ _ u)) as [[c e]|]; auto. destruct l; try discriminate Ho; discriminate. }
      cbn [SystemModel.sys_step set_down y_client]. rewrite N. destruct l; auto.
    - cbn [SystemModel.sys_step set_down y_down y_client]. destruct (nth_error _ i) as [b|] eqn:Hb; auto.
      specialize (rl_comps eq_refl). destruct (u_comps _ _ _ u) as [|c0 cs] eqn:Eu. { destruct i; discriminate. }
      inversion rl_comps as [|? ? K1 K2]; subst.
      destruct (recv_first_ok can_spawn task outcome (u_reqs _ _ _ u) (u_errs _ _ _ u) c0 cs [] K1) as (b' & -> & q & E').
      specialize (Hrest (URecv []) eq_refl). cbn [UsbSysModel.u_step] in Hrest. rewrite Eu, E' in Hrest.
      destruct (step cfg (LRecv b') (u_client _ _ _ u)) as [[c e]|] eqn:St; [discriminate|].
      rewrite rl_client, (recv_any _ _ b _ rl_finv St). reflexivity.
    - specialize (Hrest UServe eq_refl). cbn [UsbSysModel.u_step] in Hrest. rewrite Cu' in Hrest. cbn [set_down y_serving y_up]. rewrite rl_serving.
      destruct (u_serving _ _ _ u); [|reflexivity].
      destruct (receive_carried consumes rxlen _ _ _ Hrx Hmod rl_up) as [[E1 Ey]|[(ps & Ep & E1 & C)|(f & ps & fs & Ep & Ef & C & E1)]]; rewrite E1 in Hrest.
      + rewrite Ey. destruct i; reflexivity.
      + discriminate.
      + destruct (_ && _) in Hrest; [|discriminate]. destruct (take_defined f) as [[[h bd]|] T]; rewrite T in Hrest; discriminate.
    - cbn [SystemModel.sys_step set_down y_tasks]. rewrite rl_tasks. specialize (Hrest (UTask i) eq_refl). cbn [UsbSysModel.u_step] in Hrest.
      destruct (nth_error (u_tasks _ _ _ u) i) as [[r|key seq p k]|]; auto.
      destruct (send_keyed _ _ _ _ _ _ _ _ _) as [r tr] in Hrest. discriminate.
  Qed.
End Live.
