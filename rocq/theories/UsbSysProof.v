(** The system over USB does nothing that the system over links (AsyncModel.v) cannot
    do: simulation. *)
From Coq Require Import NArith List Bool Arith Lia.
From Verif Require Import KeyModel HeaderModel KeySpec HeaderSpec KeyProof HeaderProof MinKeyModel SchemaModel MacroModel PostcardModel DispatchModel SubModel
  ClientModel ClientSpec ClientProof ClientMore ClientOut UsbModel UsbSpec UsbProof NusbRxModel NusbRxThm LogModel LogThm SystemModel SystemSpec LiveSpec
  AsyncModel AsyncSpec AsyncProof UsbSysModel UsbSysSpec UsbLink.
Import ListNotations.

Lemma write_ne h body : write_to_vec h ++ body <> [].
Proof. rewrite write_to_vec_eq. discriminate. Qed.
Lemma rpc_ne f : rpc_to_bytes f <> [].
Proof. apply write_ne. Qed.
Lemma packets_left_map ps : packets_left (map Pkt ps) = ps.
Proof. induction ps; cbn; auto. now f_equal. Qed.

Section Sim.
  Context {Val Ctx SCtx : Type}.
  Variable std : StdKeys.
  Variable can_spawn : Trace Val SCtx -> nat -> bool.
  Variable kkind : VarKeyKind.
  Variable spawn_ctxt : Ctx -> Ctx * SCtx.
  Variable d : Dispatcher Val Ctx.
  Variable enc : Payload Val -> list N.
  Variable task : nat -> SCtx -> VarHeader -> Val -> HProg Val unit.
  Variable bg : list (HProg Val unit).
  Variable cfg : Config.
  Variable txlen rxlen : nat.
  Variable consumes : bool.
  Variable mps : option nat.
  Variable outcome : nat -> list WRes.
  Hypothesis Hsizes : usb_sizes mps txlen rxlen.

  Notation unet := (usb_net Val SCtx enc txlen outcome).
  Notation sends := (sends Val SCtx enc txlen outcome).
  Notation n_sent := (n_sent Val SCtx enc txlen outcome).
  Notation tx_pending := (tx_pending Val SCtx enc txlen outcome).
  Notation new_packets := (new_packets Val SCtx enc txlen outcome).
  Notation message := (message Val enc txlen).
  Notation Tr := (Trace Val SCtx).
  Notation sys_step := (sys_step Val Ctx SCtx std unet can_spawn kkind spawn_ctxt d enc task cfg).
  Notation sys_run := (sys_run Val Ctx SCtx std unet can_spawn kkind spawn_ctxt d enc task cfg).
  Notation u_step := (u_step Val Ctx SCtx std can_spawn kkind spawn_ctxt d enc task cfg txlen rxlen consumes mps outcome).
  Notation u_run := (u_run Val Ctx SCtx std can_spawn kkind spawn_ctxt d enc task cfg txlen rxlen consumes mps outcome).
  Notation a_step := (a_step Val Ctx SCtx std unet can_spawn kkind spawn_ctxt d enc task cfg).
  Notation a_run := (a_run Val Ctx SCtx std unet can_spawn kkind spawn_ctxt d enc task cfg).
  Notation Sys := (Sys Val Ctx SCtx).
  Notation ASys := (ASys Val Ctx SCtx).
  Notation MkASys := (MkASys Val Ctx SCtx).
  Notation a_sys := (a_sys Val Ctx SCtx).
  Notation a_cur := (a_cur Val Ctx SCtx).
  Notation USys := (USys Val Ctx SCtx).
  Notation not_sent := (@not_sent Val SCtx enc).
  Notation frames_sent := (frames_sent Val SCtx enc).

  (** *** What the device puts on the wire *)
  Lemma sends_app n tr : forall new, sends n (tr ++ new) = sends n tr ++ sends (n + length (sends 0 tr)) new.
  Proof.
    assert (L : forall tr n m, length (sends n tr) = length (sends m tr)).
    { induction tr0 as [|[] tl IH]; intros; cbn; auto. }
    revert n. induction tr as [|e tr IH]; intros n new; cbn [app UsbSysModel.sends length].
    - now rewrite Nat.add_0_r.
    - destruct e; cbn [app length]; rewrite IH; auto. do 3 f_equal. rewrite (L tr 1 0). lia.
  Qed.
  Lemma n_sent_app tr new : n_sent (tr ++ new) = n_sent tr + length (sends (n_sent tr) new).
  Proof. unfold UsbSysModel.n_sent. rewrite sends_app, app_length. reflexivity. Qed.
  Lemma send_seq_app a : forall p b, send_seq p (a ++ b) =
    (let '(w1, p1, r1) := send_seq p a in let '(w2, p2, r2) := send_seq p1 b in (w1 ++ w2, p2, r1 ++ r2)).
  Proof.
    induction a as [|[out os] a IH]; intros p b; cbn [app send_seq].
    - destruct (send_seq p b) as [[? ?] ?]. reflexivity.
    - destruct (send_all out p os) as [[w p'] r]. rewrite IH. destruct (send_seq p' a) as [[w1 p1] r1]. destruct (send_seq p1 b) as [[w2 p2] r2].
      now rewrite app_assoc.
  Qed.
  Lemma tx_pending_app tr new : tx_pending (tr ++ new) = snd (fst (send_seq (tx_pending tr) (sends (n_sent tr) new))).
  Proof.
    unfold UsbSysModel.tx_pending at 1. rewrite sends_app, send_seq_app. cbn [Nat.add]. fold (n_sent tr).
    unfold UsbSysModel.tx_pending. destruct (send_seq false (sends 0 tr)) as [[w1 p1] r1]. cbn [fst snd].
    destruct (send_seq p1 _) as [[w2 p2] r2]. reflexivity.
  Qed.
  Lemma sends_none evs : outcomes evs = [] -> forall n, sends n evs = [].
  Proof. induction evs as [|[] evs IH]; intros H n; cbn in *; auto; discriminate. Qed.
  Lemma tx_pending_none tr evs : outcomes evs = [] -> tx_pending (tr ++ evs) = tx_pending tr.
  Proof. intros H. rewrite tx_pending_app, sends_none by auto. reflexivity. Qed.

  Lemma not_sent_more tr new b : not_sent tr b -> not_sent (tr ++ new) b.
  Proof. intros (w & h & p & r & H & H2). exists w, h, p, r. split; auto. apply in_app_iff. auto. Qed.

  Definition whole (r : TxRes) : Prop := r = TxOk \/ r = TxErr TxOther.

  (** One transmission. *)
  Lemma link_event tr w h p r open part : r = unet tr h p ->
    open_ok open (tx_pending tr) part -> Forall (not_sent tr) open ->
    let '(ts, part') := host_in MTS part (new_packets tr [EvSend w h p r]) in
    exists open' cuts, open_ok open' (tx_pending (tr ++ [EvSend w h p r])) part' /\ Forall (not_sent (tr ++ [EvSend w h p r])) open' /\
      adjust cuts (not_sent (tr ++ [EvSend w h p r])) (open ++ [rpc_to_bytes (MkFrame h (enc p))]) (filter ne ts ++ open') /\
      (whole r -> tx_pending tr = false -> tx_pending (tr ++ [EvSend w h p r]) = false /\ cuts = false).
  Proof.
    intros Hb O NS. assert (NS' : Forall (not_sent (tr ++ [EvSend w h p r])) open).
    { eapply Forall_impl; [|exact NS]. intros b. apply not_sent_more. }
    assert (Me : r <> TxOk -> not_sent (tr ++ [EvSend w h p r]) (rpc_to_bytes (MkFrame h (enc p)))).
    { intros Hr. exists w, h, p, r. split; [apply in_app_iff; right; left; reflexivity|auto]. }
    unfold UsbSysModel.new_packets. rewrite tx_pending_app. cbn [UsbSysModel.sends send_seq fst snd].
    unfold UsbSysModel.usb_net in Hb. unfold UsbSysModel.message, UsbSysModel.prepared in *.
    rewrite usb_send_eq in *. rewrite repeat_length in *. unfold rpc_to_bytes in *. cbn [f_hdr f_body] in *.
    destruct (header_len h + length (enc p) <=? txlen) eqn:L.
    - apply Nat.leb_le in L. destruct Hsizes as (_ & _ & _ & Ht).
      pose proof (link_send open (tx_pending tr) part (write_to_vec h ++ enc p) (outcome (n_sent tr)) O (write_ne _ _)) as K.
      rewrite app_length, write_to_vec_len in K. specialize (K ltac:(unfold MTS; lia)).
      destruct (send_all (write_to_vec h ++ enc p) (tx_pending tr) (outcome (n_sent tr))) as [[w' p'] r'].
      cbn [fst snd] in *. rewrite app_nil_r. destruct (host_in MTS part w') as [ts part'].
      destruct K as (open' & O' & A & I & P1).
      assert (Hr' : r' <> SOk -> r <> TxOk) by (intros Hr; rewrite Hb; destruct r'; [congruence|discriminate..]).
      assert (May : forall x, In x open \/ x = write_to_vec h ++ enc p /\ r' <> SOk -> not_sent (tr ++ [EvSend w h p r]) x).
      { intros x [Hx|[-> Hr]]; [rewrite Forall_forall in NS'; auto|]. apply Me. auto. }
      assert (Q : Forall (not_sent (tr ++ [EvSend w h p r])) open').
      { assert (D : r' = SOk \/ r' <> SOk) by (destruct r'; auto; right; discriminate). destruct D as [D|D].
        - rewrite (P1 D) in O'. destruct O' as [[[-> _]|[_ Q]] _]; [constructor|discriminate].
        - apply Forall_forall. intros x Hx. apply I, in_app_iff in Hx as [Hx|[<-|[]]]; auto. }
      assert (A' : adjust true (not_sent (tr ++ [EvSend w h p r])) (open ++ [write_to_vec h ++ enc p]) (filter ne ts ++ open')).
      { eapply adjust_weak; [exact A|]. auto. }
      assert (D : (whole r /\ tx_pending tr = false) \/ ~ (whole r /\ tx_pending tr = false)).
      { unfold whole. destruct r as [|[]], (tx_pending tr); auto; right; intros [[X|X] Y]; discriminate. }
      destruct D as [[D1 D2]|D].
      + assert (r' = SOk) by (destruct r'; auto; subst r; destruct D1 as [?|?]; discriminate). subst r'.
        exists open', false. split; auto. split; auto. split; [|auto].
        assert (Op : open = []). { destruct O as [[[-> _]|[_ X]] _]; auto. congruence. }
        rewrite (adjust_eq _ _ _ _ A); [apply adjust_refl|]. intros x _ [X|[_ X]]; [rewrite Op in X; destruct X|congruence].
      + exists open', true. split; auto. split; auto. split; auto. intros; exfalso; auto.
    - cbn [send_all fst snd app]. change (host_in MTS part []) with (@nil (list N), part). exists open, false. split; [exact O|]. split; auto. split; [|auto].
      cbn [filter app]. rewrite <- (app_nil_r open) at 2. apply adjust_app; [apply adjust_refl|apply adjust_none]. constructor; [|constructor].
      apply Me. rewrite Hb. discriminate.
  Qed.

  (** *** Runs of the abstract system *)
  Lemma sys_run_app a : forall b s s1 cl1 es1 s2 cl2 es2,
    sys_run a s = Some (s1, cl1, es1) -> sys_run b s1 = Some (s2, cl2, es2) -> sys_run (a ++ b) s = Some (s2, cl1 ++ cl2, es1 ++ es2).
  Proof.
    induction a as [|l a IH]; intros b s s1 cl1 es1 s2 cl2 es2 H1 H2; cbn [app SystemModel.sys_run] in *.
    - injection H1 as <- <- <-. exact H2.
    - destruct (sys_step l s) as [s3|]; [|discriminate].
      destruct (SystemModel.sys_run _ _ _ _ _ _ _ _ _ _ _ _ a s3) as [[[s4 cl4] es4]|] eqn:R; [|discriminate].
      destruct (client_label _ _ _ l s) as [x|].
      + destruct (step cfg x (y_client _ _ _ s)) as [[c e]|] eqn:St; [|discriminate]. injection H1 as <- <- <-.
        rewrite (IH _ _ _ _ _ _ _ _ R H2). reflexivity.
      + injection H1 as <- <- <-. rewrite (IH _ _ _ _ _ _ _ _ R H2). reflexivity.
  Qed.

  Definition set_down (dn : list (list N)) (s : Sys) : Sys :=
    MkSys _ _ _ (y_client _ _ _ s) (y_up _ _ _ s) dn (y_ctx _ _ _ s) (y_trace _ _ _ s) (y_tasks _ _ _ s) (y_serving _ _ _ s).
  Definition loses (cuts : bool) (l : SysLabel) : Prop :=
    match l with SLoseDown _ => True | SCutDown _ _ => cuts = true | _ => False end.

  Lemma a_run_app ls1 : forall ls2 a a1 cl1 es1 a2 cl2 es2,
    a_run ls1 a = Some (a1, cl1, es1) -> a_run ls2 a1 = Some (a2, cl2, es2) ->
    a_run (ls1 ++ ls2) a = Some (a2, cl1 ++ cl2, es1 ++ es2) /\
    forall f, a_lost a_step f (ls1 ++ ls2) a = a_lost a_step f ls1 a ++ a_lost a_step f ls2 a1.
  Proof.
    induction ls1 as [|l ls1 IH]; intros ls2 a a1 cl1 es1 a2 cl2 es2 H1 H2; cbn [app AsyncModel.a_run a_lost] in *.
    - injection H1 as <- <- <-. auto.
    - destruct (a_step l a) as [a3|]; [|discriminate].
      destruct (a_run ls1 a3) as [[[a4 cl4] es4]|] eqn:R; [|discriminate].
      assert (E : a4 = a1) by (destruct (a_client_label _ _ _ l a) as [x|]; [destruct (step cfg x _) as [[c e]|]|]; congruence).
      subst a4. destruct (IH _ _ _ _ _ _ _ _ R H2) as [IH1 IH2]. rewrite IH1. split.
      + destruct (a_client_label _ _ _ l a) as [x|].
        * destruct (step cfg x _) as [[c e]|] eqn:St; [|discriminate]. injection H1 as <- <-. reflexivity.
        * injection H1 as <- <-. reflexivity.
      + intros f. rewrite IH2, app_assoc. reflexivity.
  Qed.

  (** Steps of the links and of the client, with the server waiting. *)
  Lemma lift ls : forall s cur s' cl es, (forall i, ~ In (SServe i) ls) -> sys_run ls s = Some (s', cl, es) ->
    a_run (map ASystem ls) (MkASys s cur) = Some (MkASys s' cur, cl, es) /\
    a_lost a_step loses_up (map ASystem ls) (MkASys s cur) = lost_up sys_step ls s /\
    a_lost a_step loses_down (map ASystem ls) (MkASys s cur) = lost_down sys_step ls s.
  Proof.
    induction ls as [|l ls IH]; intros s cur s' cl es Hn H; cbn [map SystemModel.sys_run AsyncModel.a_run a_lost lost_up lost_down] in *.
    - injection H as <- <- <-. auto.
    - assert (E : a_step (ASystem l) (MkASys s cur) = match sys_step l s with Some s1 => Some (MkASys s1 cur) | None => None end).
      { destruct l; try reflexivity. destruct (Hn i). left. reflexivity. }
      rewrite E. destruct (sys_step l s) as [s1|]; [|discriminate].
      destruct (sys_run ls s1) as [[[s2 cl2] es2]|] eqn:R; [|discriminate].
      assert (s2 = s') by (destruct (client_label _ _ _ l s) as [x|]; [destruct (step cfg x _) as [[c e]|]|]; congruence). subst s2.
      destruct (IH s1 cur s' cl2 es2) as (I1 & I2 & I3); auto. { intros i Hi. apply (Hn i). right. exact Hi. }
      rewrite I1, I2, I3. cbn [AsyncModel.a_sys a_client_label]. split; [|auto].
      destruct (client_label _ _ _ l s) as [x|]; [destruct (step cfg x _) as [[c e]|]; [|discriminate]|]; injection H as <- <-; reflexivity.
  Qed.
  Lemma labels_lift ls : system_labels (map ASystem ls) = ls.
  Proof. unfold system_labels. induction ls; cbn; auto. now f_equal. Qed.

  Lemma nth_mid {A} (pre : list A) x post : nth_error (pre ++ x :: post) (length pre) = Some x.
  Proof. rewrite nth_error_app2, Nat.sub_diag by lia. reflexivity. Qed.
  Lemma remove_mid {A} (pre : list A) x post : remove_nth (length pre) (pre ++ x :: post) = pre ++ post.
  Proof. induction pre; cbn; auto. now f_equal. Qed.
  Lemma set_mid {A} (pre : list A) x y post : set_nth (length pre) y (pre ++ x :: post) = pre ++ y :: post.
  Proof.
    unfold set_nth. rewrite skipn_app, skipn_all, Nat.sub_diag. cbn [skipn app].
    now rewrite firstn_app, firstn_all, Nat.sub_diag, firstn_O, app_nil_r.
  Qed.

  Lemma adjust_run c may a b : adjust c may a b -> forall pre s, y_down _ _ _ s = pre ++ a ->
    exists ls, sys_run ls s = Some (set_down (pre ++ b) s, [], []) /\ Forall (loses c) ls /\ Forall may (lost_down sys_step ls s) /\ lost_up sys_step ls s = [].
  Proof.
    induction 1 as [|x a b H IH|x a b M H IH|x n a b M E H IH]; intros pre s Hd.
    - exists []. split; [|split; [|split]; constructor]. cbn. rewrite <- Hd. destruct s; reflexivity.
    - destruct (IH (pre ++ [x]) s) as (ls & R & F). { now rewrite <- app_assoc. }
      exists ls. rewrite <- app_assoc in R. auto.
    - destruct (IH pre (set_down (pre ++ a) s) eq_refl) as (ls & R & F & L & U).
      assert (S : sys_step (SLoseDown (length pre)) s = Some (set_down (pre ++ a) s)).
      { cbn [SystemModel.sys_step]. rewrite Hd, nth_mid, remove_mid. reflexivity. }
      exists (SLoseDown (length pre) :: ls). split; [|split; [constructor; [exact Logic.I|auto]|]].
      + cbn [SystemModel.sys_run]. rewrite S, R. reflexivity.
      + cbn [lost_down lost_up loses_down loses_up]. rewrite S, Hd, nth_mid. split; [constructor; auto|auto].
    - destruct (IH (pre ++ [firstn n x]) (set_down (pre ++ firstn n x :: a) s)) as (ls & R & F & L & U). { now rewrite <- app_assoc. }
      assert (S : sys_step (SCutDown (length pre) n) s = Some (set_down (pre ++ firstn n x :: a) s)).
      { cbn [SystemModel.sys_step]. rewrite Hd, nth_mid, set_mid. reflexivity. }
      exists (SCutDown (length pre) n :: ls). split; [|split; [constructor; [exact E|auto]|]].
      + cbn [SystemModel.sys_run]. rewrite S, R, <- app_assoc. reflexivity.
      + cbn [lost_down lost_up loses_down loses_up]. rewrite S, Hd, nth_mid. split; [constructor; auto|auto].
  Qed.

  (** *** The relation *)
  Definition down_rel (comps : list Completion) (acc : list N) (ins : list packet) (tr : Tr) (dn : list (list N)) : Prop :=
    let '(ts, part) := host_in MTS acc ins in
    exists open, open_ok open (tx_pending tr) part /\ Forall (not_sent tr) open /\ dn = filter ne (good comps ++ ts) ++ open.

  Definition is_cok (c : Completion) : Prop := match c with COk _ => True | CErr _ => False end.
  (** [clean]: no transfer failed; [W] holds of the frames on the wire. *)
  Record Rel (clean : bool) (W : list N -> Prop) (u : USys) (a : ASys) : Prop := {
    rl_client : y_client _ _ _ (a_sys a) = u_client _ _ _ u;
    rl_ctx : y_ctx _ _ _ (a_sys a) = u_ctx _ _ _ u;
    rl_trace : y_trace _ _ _ (a_sys a) = u_trace _ _ _ u;
    rl_tasks : y_tasks _ _ _ (a_sys a) = u_tasks _ _ _ u;
    rl_serving : y_serving _ _ _ (a_sys a) = u_serving _ _ _ u;
    rl_cur : a_cur a = u_cur _ _ _ u;
    rl_finv : FInv (u_client _ _ _ u);
    rl_up : carries (c_out_alive (u_client _ _ _ u)) (u_out _ _ _ u) (y_up _ _ _ (a_sys a));
    rl_down : down_rel (u_comps _ _ _ u) (u_acc _ _ _ u) (u_in _ _ _ u) (u_trace _ _ _ u) (y_down _ _ _ (a_sys a));
    rl_whole : none_interrupted (u_trace _ _ _ u) -> tx_pending (u_trace _ _ _ u) = false;
    rl_comps : clean = true -> Forall is_cok (u_comps _ _ _ u);
    rl_wire : Forall W (y_up _ _ _ (a_sys a)) }.

  Definition tidy (l : SysLabel) : Prop := match l with SServe i | SRecv i => i = 0 | _ => True end.
  Definition no_cut (l : SysLabel) : Prop := match l with SCutDown _ _ => False | _ => True end.

  (** *** Sending *)
  Lemma down_send comps acc ins tr w h p r s : r = unet tr h p ->
    forall dn, down_rel comps acc ins tr dn -> y_down _ _ _ s = dn ++ [rpc_to_bytes (MkFrame h (enc p))] ->
    exists dn' ls, sys_run ls s = Some (set_down dn' s, [], []) /\
      down_rel comps acc (ins ++ new_packets tr [EvSend w h p r]) (tr ++ [EvSend w h p r]) dn' /\
      Forall (loses true) ls /\ (whole r -> tx_pending tr = false -> tx_pending (tr ++ [EvSend w h p r]) = false /\ Forall (loses false) ls) /\
      Forall (not_sent (tr ++ [EvSend w h p r])) (lost_down sys_step ls s) /\ lost_up sys_step ls s = [].
  Proof.
    intros B dn D Hd. unfold down_rel in *. rewrite host_in_app. destruct (host_in MTS acc ins) as [ts part].
    destruct D as (open & O & NS & ->). pose proof (link_event tr w h p r open part B O NS) as K.
    destruct (host_in MTS part (new_packets tr [EvSend w h p r])) as [ts' part']. destruct K as (open' & cuts & O' & NS' & A & Wh).
    rewrite <- app_assoc in Hd. destruct (adjust_run _ _ _ _ A _ s Hd) as (ls & R & FL & Lo & Lu).
    exists (filter ne (good comps ++ ts ++ ts') ++ open'), ls.
    split. { rewrite R, !filter_app, !app_assoc. reflexivity. }
    split; [eauto|]. split. { eapply Forall_impl; [|exact FL]. intros []; cbn; auto. }
    split; [|auto]. intros H1 H2. destruct (Wh H1 H2) as [E ->]. auto.
  Qed.
  Lemma down_none comps acc ins tr evs dn : outcomes evs = [] -> down_rel comps acc ins tr dn -> down_rel comps acc ins (tr ++ evs) dn.
  Proof.
    intros He. unfold down_rel. destruct (host_in MTS acc ins) as [ts part]. rewrite tx_pending_none by auto. intros (open & O & NS & E). exists open.
    split; auto. split; auto. eapply Forall_impl; [|exact NS]. intros b. apply not_sent_more.
  Qed.

  (** *** Receiving *)
  (** Dropping the first frames on the way to the client. *)
  Lemma lose_front pre : forall rest s, y_down _ _ _ s = pre ++ rest ->
    sys_run (map (fun _ => SLoseDown 0) pre) s = Some (set_down rest s, [], []) /\ lost_up sys_step (map (fun _ => SLoseDown 0) pre) s = [].
  Proof.
    induction pre as [|x pre IH]; intros rest s Hd.
    - cbn in Hd |- *. rewrite <- Hd. destruct s; auto.
    - cbn [map SystemModel.sys_run SystemModel.sys_step lost_up loses_up app]. rewrite Hd. cbn [app nth_error remove_nth].
      change (MkSys _ _ _ (y_client _ _ _ s) (y_up _ _ _ s) (pre ++ rest) (y_ctx _ _ _ s) (y_trace _ _ _ s) (y_tasks _ _ _ s) (y_serving _ _ _ s)) with (set_down (pre ++ rest) s).
      destruct (IH rest (set_down (pre ++ rest) s) eq_refl) as [I1 I2]. rewrite I1, I2. auto.
  Qed.

  Lemma recv_first_ok p errs c comps halts : is_cok c ->
    exists b, c = COk b /\ exists q, recv p errs (c :: comps) halts = (NGot b, q, 0, comps, halts, [AMain (p + (IN_FLIGHT_REQS - p))]).
  Proof.
    destruct c as [b|]; [|contradiction]. intros _. exists b. split; auto. unfold recv. cbn [recv_inner].
    destruct (p + (IN_FLIGHT_REQS - p)) as [|q] eqn:E; [unfold IN_FLIGHT_REQS in E; lia|]. eauto.
  Qed.

  (** *** The client *)
  Lemma alive_same l c c' e : step cfg l c = Some (c', e) ->
    (forall b, l <> LOutFail b) -> (forall b, l <> LOutEnd b) -> c_out_alive c' = c_out_alive c.
  Proof.
    intros H N1 N2. destruct l; try (exfalso; eapply N1; reflexivity); try (exfalso; eapply N2; reflexivity);
    cbn [ClientModel.step] in H;
    repeat match type of H with context [match ?x with _ => _ end] => destruct x eqn:?; try discriminate end;
    injection H as <- <-; unfold adopt; try destruct (negb (kkind_eqb _ _)); cbn; auto; congruence.
  Qed.
  Lemma wire_cases l c c' e : step cfg l c = Some (c', e) -> FInv c ->
    wire_of e = [] \/ exists f, wire_of e = [rpc_to_bytes f] /\ c_out_alive c = true.
  Proof.
    intros H F. destruct (step_out _ _ _ _ _ H) as [(r & q & kk & _ & -> & _)|[(i & f & _ & -> & _)|[(f & rest & -> & _ & Q & _)|(_ & W & _)]]]; auto.
    - right. exists f. split; auto. destruct (c_out_alive c) eqn:A; auto. destruct F as (_ & _ & _ & F4 & _). destruct (F4 A) as [Q1 Q2].
      unfold queued in Q. rewrite Q1, Q2 in Q. discriminate.
    - left. unfold wire in W. cbn [concat] in W. rewrite app_nil_r in W. exact W.
  Qed.

  Definition cl_of (ce : option (Label * list Ev)) : list Label := match ce with Some (x, _) => [x] | None => [] end.
  Definition es_of (ce : option (Label * list Ev)) : list (list Ev) := match ce with Some (_, e) => [e] | None => [] end.

  Lemma skipn_grown (tr new : Tr) : skipn (length tr) (tr ++ new) = new.
  Proof. rewrite skipn_app, skipn_all, Nat.sub_diag. reflexivity. Qed.
  Lemma none_int_app (a b : Tr) : none_interrupted (a ++ b) -> none_interrupted a /\ none_interrupted b.
  Proof. intros H. split; intros w h p r Hi; eapply H, in_or_app; eauto. Qed.
  Lemma loses_tidy c ls : Forall (loses c) ls -> Forall tidy ls.
  Proof. apply Forall_impl. intros []; cbn; auto; contradiction. Qed.
  Lemma loses_no_cut ls : Forall (loses false) ls -> Forall no_cut ls.
  Proof. apply Forall_impl. intros []; cbn; auto; discriminate. Qed.

  Definition too_long (W : list N -> Prop) (b : list N) : Prop := W b /\ ~ fits rxlen (length b).
  Definition Sim (clean : bool) (W : list N -> Prop) (u u' : USys) (a : ASys) (ce : option (Label * list Ev)) : Prop :=
    exists ls a', a_run ls a = Some (a', cl_of ce, es_of ce) /\ Rel clean W u' a' /\ Forall tidy (system_labels ls) /\
      (none_interrupted (u_trace _ _ _ u') -> Forall no_cut (system_labels ls)) /\
      Forall (too_long W) (a_lost a_step loses_up ls a) /\
      (clean = true -> Forall (not_sent (u_trace _ _ _ u')) (a_lost a_step loses_down ls a)) /\
      exists new, u_trace _ _ _ u' = u_trace _ _ _ u ++ new.

  Lemma one_client l s cur c e : (forall b, l <> LRecv b) -> step cfg l (y_client _ _ _ s) = Some (c, e) ->
    a_run [ASystem (SClient l)] (MkASys s cur) =
      Some (MkASys (MkSys _ _ _ c (y_up _ _ _ s ++ wire_of e) (y_down _ _ _ s) (y_ctx _ _ _ s) (y_trace _ _ _ s) (y_tasks _ _ _ s) (y_serving _ _ _ s)) cur, [l], [e]).
  Proof.
    intros N H. cbn [AsyncModel.a_run a_client_label client_label AsyncModel.a_sys AsyncModel.a_cur AsyncModel.a_step]. rewrite H.
    assert (E : sys_step (SClient l) s = Some (MkSys _ _ _ c (y_up _ _ _ s ++ wire_of e) (y_down _ _ _ s) (y_ctx _ _ _ s) (y_trace _ _ _ s) (y_tasks _ _ _ s) (y_serving _ _ _ s))).
    { cbn [SystemModel.sys_step]. rewrite H. destruct l; auto. exfalso. eapply N. reflexivity. }
    rewrite E. reflexivity.
  Qed.

  (** A client step that puts [out] on the wire. *)
  Lemma sim_client clean W l u a c e out : Rel clean W u a -> (forall b, l <> LRecv b) ->
    step cfg l (u_client _ _ _ u) = Some (c, e) -> Forall W (wire_of e) ->
    carries (c_out_alive c) (u_out _ _ _ u ++ out) (y_up _ _ _ (a_sys a) ++ wire_of e) ->
    Sim clean W u (with_client _ _ _ c (u_out _ _ _ u ++ out) u) a (Some (l, e)).
  Proof.
    intros [] N H F C. destruct a as [s cur]. cbn [AsyncModel.a_sys AsyncModel.a_cur] in *. rewrite <- rl_client0 in H.
    eexists [ASystem (SClient l)], _. split; [exact (one_client _ _ _ _ _ N H)|].
    split; [|split; [repeat constructor|split; [repeat constructor|split; [|split; [|exists []; now rewrite app_nil_r]]]]].
    - split; cbn; auto.
      + rewrite rl_client0 in H. eapply finv_step; eauto.
      + apply Forall_app. auto.
    - cbn [a_lost loses_up app]. destruct (a_step _ _); constructor.
    - intros _. cbn [a_lost loses_down app]. destruct (a_step _ _); constructor.
  Qed.

  (** Nothing happens in the abstract system. *)
  Lemma sim_stutter clean W u u' a : Rel clean W u' a -> (exists new, u_trace _ _ _ u' = u_trace _ _ _ u ++ new) -> Sim clean W u u' a None.
  Proof.
    intros R T. exists [], a. split; [reflexivity|]. split; [exact R|]. split; [constructor|]. split; [intros _; constructor|].
    split; [constructor|]. split; [intros _; constructor|]. exact T.
  Qed.

  Lemma carries_more w ps fs f : carries w ps fs -> w = true -> f <> [] ->
    carries w (ps ++ nusb_send mps f) (fs ++ [f]).
  Proof. intros C -> Hf. apply carries_app; auto. apply carries_send; auto. apply Hsizes. Qed.

  (** The server carries on. *)
  Notation carry_on := (carry_on Val Ctx SCtx can_spawn task).
  Notation u_carry_on := (u_carry_on Val Ctx SCtx can_spawn task).
  Lemma carry_trace u p : exists evs, u_trace _ _ _ (u_carry_on u p) = u_trace _ _ _ u ++ evs /\ outcomes evs = [].
  Proof.
    unfold UsbSysModel.u_carry_on. destruct (settle _ _ can_spawn p (u_trace _ _ _ u)) as [p' tr'] eqn:E.
    destruct (settle_spec task can_spawn _ _ _ _ E) as (evs & -> & O & _). exists evs. split; auto. destruct p' as [[ctx res]| | |]; reflexivity.
  Qed.
  Lemma carry_rel clean W u s p : Rel clean W u (MkASys s None) -> Rel clean W (u_carry_on u p) (carry_on s p).
  Proof.
    intros []. cbn [AsyncModel.a_sys AsyncModel.a_cur] in *. unfold UsbSysModel.u_carry_on, AsyncModel.carry_on. rewrite rl_trace0, rl_tasks0.
    destruct (settle _ _ can_spawn p (u_trace _ _ _ u)) as [p' tr'] eqn:E.
    destruct (settle_spec task can_spawn _ _ _ _ E) as (evs & -> & O & _ & _ & S & _).
    assert (Wh : none_interrupted (u_trace _ _ _ u ++ evs) -> tx_pending (u_trace _ _ _ u ++ evs) = false).
    { intros Hn. rewrite tx_pending_none by auto. apply rl_whole0. apply (none_int_app _ _ Hn). }
    destruct p' as [[ctx res]| | |]; try contradiction; split; cbn; auto; apply down_none; auto.
  Qed.
  Lemma carry_down s p dn : let a := carry_on s p in MkASys (set_down dn (a_sys a)) (a_cur a) = carry_on (set_down dn s) p /\ y_down _ _ _ (a_sys a) = y_down _ _ _ s.
  Proof.
    unfold AsyncModel.carry_on. cbn [set_down y_trace y_tasks y_client y_up y_ctx y_serving].
    destruct (settle _ _ can_spawn p (y_trace _ _ _ s)) as [[[ctx res]| | |] tr']; split; reflexivity.
  Qed.

  (** The frames of a transmission are adjusted after the step [l], that transmits
      [EvSend w h p r]. *)
  Lemma sim_sends clean W u a u' l a1 w h p r more :
    Rel clean W u a -> r = unet (u_trace _ _ _ u) h p -> a_step l a = Some a1 -> a_client_label _ _ _ l a = None ->
    y_down _ _ _ (a_sys a1) = y_down _ _ _ (a_sys a) ++ [rpc_to_bytes (MkFrame h (enc p))] ->
    Forall tidy (system_labels [l]) -> Forall no_cut (system_labels [l]) -> a_lost a_step loses_up [l] a = [] -> a_lost a_step loses_down [l] a = [] ->
    u_trace _ _ _ u' = u_trace _ _ _ u ++ [EvSend w h p r] ++ more ->
    (forall dn, down_rel (u_comps _ _ _ u) (u_acc _ _ _ u) (u_in _ _ _ u ++ new_packets (u_trace _ _ _ u) [EvSend w h p r]) (u_trace _ _ _ u ++ [EvSend w h p r]) dn ->
       (none_interrupted (u_trace _ _ _ u ++ [EvSend w h p r]) -> tx_pending (u_trace _ _ _ u ++ [EvSend w h p r]) = false) ->
       Rel clean W u' (MkASys (set_down dn (a_sys a1)) (a_cur a1))) ->
    Sim clean W u u' a None.
  Proof.
    intros R B St Cl Hd T1 T2 Lu1 Ld1 Et G.
    destruct (down_send _ _ _ _ w h p r (a_sys a1) B _ (rl_down _ _ _ _ R) Hd) as (dn' & ls & Run & D & L1 & L2 & L3 & L4).
    assert (Wh : none_interrupted (u_trace _ _ _ u ++ [EvSend w h p r]) -> whole r /\ tx_pending (u_trace _ _ _ u) = false).
    { intros Hn. split; [eapply Hn, in_or_app; right; left; reflexivity|]. apply (rl_whole _ _ _ _ R). apply (none_int_app _ _ Hn). }
    assert (NSv : forall i, ~ In (SServe i) ls).
    { intros i Hi. rewrite Forall_forall in L1. exact (L1 _ Hi). }
    destruct (lift ls (a_sys a1) (a_cur a1) _ _ _ NSv Run) as (Run' & Lu & Ld). 
    assert (Ea : MkASys (a_sys a1) (a_cur a1) = a1) by (destruct a1; reflexivity). rewrite Ea in Run', Lu, Ld.
    assert (Run1 : a_run [l] a = Some (a1, [], [])). { cbn [AsyncModel.a_run]. rewrite St, Cl. reflexivity. }
    destruct (a_run_app _ _ _ _ _ _ _ _ _ Run1 Run') as [Run2 Lo]. cbn [app] in Run2, Lo.
    assert (Sl : system_labels (l :: map ASystem ls) = system_labels [l] ++ ls).
    { change (l :: map ASystem ls) with ([l] ++ map ASystem ls). unfold system_labels at 1. rewrite flat_map_app. fold (system_labels (map ASystem ls)). now rewrite labels_lift. }
    exists (l :: map ASystem ls), (MkASys (set_down dn' (a_sys a1)) (a_cur a1)). split; [exact Run2|].
    split. { apply G; auto. intros Hn. destruct (Wh Hn). apply L2; auto. }
    rewrite Sl, !Lo, Lu1, Ld1, Lu, Ld, L4.
    split. { apply Forall_app. split; auto. eapply loses_tidy; eauto. }
    split. { intros Hn. apply Forall_app. split; auto. rewrite Et, app_assoc in Hn. destruct (Wh (proj1 (none_int_app _ _ Hn))). apply loses_no_cut, L2; auto. }
    split; [constructor|]. split; [|exists ([EvSend w h p r] ++ more); exact Et].
    intros _. cbn [app]. eapply Forall_impl; [|exact L3]. intros b Hb. rewrite Et, app_assoc. apply not_sent_more. exact Hb.
  Qed.

  Lemma sim_step clean W l u a u' ce : Rel clean W u a -> u_step l u = Some (u', ce) -> (forall e, l <> UErrorAmid e) ->
    (clean = true -> forall e, l <> UError e) -> Forall W (wire (es_of ce)) ->
    Sim clean W u u' a ce.
  Proof.
    intros R Hs NA Hc Hw. assert (Hsz := Hsizes). destruct Hsz as (Hm & HB & MB & Ht).
    assert (Wone : forall e, wire [e] = wire_of e).
    { intros e. unfold wire. cbn [concat]. now rewrite app_nil_r. }
    destruct l as [l|fails k| | |i| |e|e|halts].
    - (* the client *)
      assert (E : exists c e, step cfg l (u_client _ _ _ u) = Some (c, e) /\ u' = with_client _ _ _ c (u_out _ _ _ u ++ flat_map (nusb_send mps) (wire_of e)) u /\ ce = Some (l, e) /\
                 (forall b, l <> LRecv b) /\ (forall b, l <> LOutFail b) /\ (forall b, l <> LOutEnd b)).
      { cbn [UsbSysModel.u_step] in Hs. destruct (step cfg l (u_client _ _ _ u)) as [[c e]|]; [|destruct l; discriminate].
        destruct l; try discriminate; injection Hs as <- <-; exists c, e; (split; [reflexivity|]); (split; [reflexivity|]); (split; [reflexivity|]);
          (split; [|split]); intros; discriminate. }
      destruct E as (c & e & St & -> & -> & N1 & N2 & N3). cbn [es_of] in Hw. rewrite Wone in Hw.
      apply sim_client; auto.
      rewrite (alive_same _ _ _ _ St N2 N3). destruct (wire_cases _ _ _ _ St (rl_finv _ _ _ _ R)) as [-> |(f & -> & A)].
      + cbn. rewrite !app_nil_r. apply (rl_up _ _ _ _ R).
      + cbn [flat_map]. rewrite app_nil_r. apply carries_more; auto. { apply (rl_up _ _ _ _ R). } apply rpc_ne.
    - (* the transmit worker ends *)
      cbn [UsbSysModel.u_step] in Hs.
      set (reached := match c_sending (u_client _ _ _ u) with Some f => complete_at f <=? k | None => false end) in Hs.
      set (out := match c_sending (u_client _ _ _ u) with Some f => firstn k (nusb_send mps (rpc_to_bytes f)) | None => [] end) in Hs.
      set (l := if fails then LOutFail reached else LOutEnd reached) in Hs.
      destruct (step cfg l (u_client _ _ _ u)) as [[c e]|] eqn:St; [|discriminate]. injection Hs as <- <-.
      cbn [es_of] in Hw. rewrite Wone in Hw. apply sim_client; auto.
      { unfold l. destruct fails; discriminate. }
      assert (Al : c_out_alive (u_client _ _ _ u) = true).
      { destruct (c_out_alive (u_client _ _ _ u)) eqn:A; auto. exfalso. destruct (rl_finv _ _ _ _ R) as (_ & _ & _ & F4 & _). destruct (F4 A) as [_ F].
        unfold l in St. destruct fails; cbn [ClientModel.step] in St; [rewrite F in St; discriminate|]. rewrite A, andb_false_r in St. discriminate. }
      assert (X : c_out_alive c = false /\ wire_of e = match c_sending (u_client _ _ _ u) with Some f => if reached then [rpc_to_bytes f] else [] | None => [] end).
      { unfold l in St. destruct fails; cbn [ClientModel.step] in St.
        - destruct (c_sending (u_client _ _ _ u)) as [f|]; [|discriminate]. injection St as <- <-. split; auto. destruct reached; reflexivity.
        - destruct (_ && _); [|discriminate]. injection St as <- <-. split; auto. destruct (c_sending (u_client _ _ _ u)); auto. destruct reached; reflexivity. }
      destruct X as [-> ->]. pose proof (rl_up _ _ _ _ R) as U. rewrite Al in U. unfold out, reached, complete_at.
      destruct (c_sending (u_client _ _ _ u)) as [f|].
      + apply carries_app; auto. apply carries_stop; auto. apply rpc_ne.
      + rewrite !app_nil_r. apply carries_weak. auto.
    - (* the server receives *)
      cbn [UsbSysModel.u_step] in Hs. destruct (u_cur _ _ _ u) eqn:Cu; [discriminate|]. destruct (u_serving _ _ _ u) eqn:Sv; [|discriminate].
      destruct (receive_carried consumes rxlen _ _ _ HB MB (rl_up _ _ _ _ R)) as [[E _]|[(ps & Ep & E & C)|(f & ps & fs & Ep & Ef & C & E)]]; rewrite E in Hs.
      + discriminate.
      + change (take_from_slice []) with (@Done (option (VarHeader * list N)) None) in Hs. cbn iota in Hs.
        injection Hs as <- <-. rewrite packets_left_map. apply sim_stutter; [|exists []; now rewrite app_nil_r]. destruct R. split; cbn; auto.
      + pose proof R as R0. destruct R0.
        assert (Up0 : nth_error (y_up _ _ _ (a_sys a)) 0 = Some f) by (rewrite Ef; reflexivity).
        assert (Up1 : remove_nth 0 (y_up _ _ _ (a_sys a)) = fs) by (rewrite Ef; reflexivity).
        assert (Fs : W f /\ Forall W fs). { rewrite Ef in rl_wire0. inversion rl_wire0; auto. }
        destruct Fs as [Wf Wfs].
        set (s' := MkSys _ _ _ (y_client _ _ _ (a_sys a)) fs (y_down _ _ _ (a_sys a)) (y_ctx _ _ _ (a_sys a)) (y_trace _ _ _ (a_sys a)) (y_tasks _ _ _ (a_sys a)) true).
        assert (R' : Rel clean W (with_client _ _ _ (u_client _ _ _ u) ps u) (MkASys s' None)).
        { split; cbn; auto. }
        destruct ((length f <=? rxlen) && negb ((length f =? rxlen) && (length f mod 64 =? 0))) eqn:Fit.
        * destruct (take_from_slice f) as [[[hdr body]|]|] eqn:Tk; [| |discriminate].
          { injection Hs as <- <-. rewrite packets_left_map.
            assert (St : a_step (ASystem (SServe 0)) a = Some (carry_on s' (sp_handle Val Ctx SCtx std kkind spawn_ctxt d (u_ctx _ _ _ u) hdr body))).
            { cbn [AsyncModel.a_step]. rewrite rl_cur0, Cu, rl_serving0, Sv, Up0, Tk, Up1, <- rl_ctx0. reflexivity. }
            eexists [ASystem (SServe 0)], _. split. { cbn [AsyncModel.a_run]. rewrite St. reflexivity. }
            split. { apply carry_rel. exact R'. }
            split; [repeat constructor|]. split; [repeat constructor|]. split; [cbn [a_lost loses_up]; rewrite St; constructor|].
            split; [intros _; cbn [a_lost loses_down]; rewrite St; constructor|].
            edestruct carry_trace as (evs & Ev & _). exists evs. rewrite Ev. reflexivity. }
          { injection Hs as <- <-. rewrite packets_left_map.
            assert (St : a_step (ASystem (SServe 0)) a = Some (MkASys s' None)).
            { cbn [AsyncModel.a_step]. rewrite rl_cur0, Cu, rl_serving0, Sv, Up0, Tk, Up1. reflexivity. }
            eexists [ASystem (SServe 0)], _. split. { cbn [AsyncModel.a_run]. rewrite St. reflexivity. }
            split. { exact R'. }
            split; [repeat constructor|]. split; [repeat constructor|]. split; [cbn [a_lost loses_up]; rewrite St; constructor|].
            split; [intros _; cbn [a_lost loses_down]; rewrite St; constructor|]. exists []. cbn. now rewrite app_nil_r. }
        * injection Hs as <- <-. rewrite packets_left_map.
          assert (St : exists s1, a_step (ASystem (SLoseUp 0)) a = Some (MkASys s1 (a_cur a)) /\ Rel clean W (with_client _ _ _ (u_client _ _ _ u) ps u) (MkASys s1 (a_cur a))).
          { eexists. split. { cbn [AsyncModel.a_step SystemModel.sys_step]. rewrite Up0, Up1. reflexivity. } split; cbn; auto. }
          destruct St as (s1 & St & R1).
          eexists [ASystem (SLoseUp 0)], _. split. { cbn [AsyncModel.a_run]. rewrite St. reflexivity. }
          split; [exact R1|].
          split; [repeat constructor|]. split; [repeat constructor|].
          split. { cbn [a_lost loses_up]. rewrite St, Up0. constructor; [|constructor]. split; auto. intros X. apply receive_fits_b in X. congruence. }
          split; [intros _; cbn [a_lost loses_down]; rewrite St; constructor|]. exists []; cbn; now rewrite app_nil_r.
    - (* the server carries on *)
      cbn [UsbSysModel.u_step] in Hs. destruct (u_cur _ _ _ u) as [[| | |w h p k]|] eqn:Cu; try discriminate. injection Hs as <- <-.
      pose proof R as R0. destruct R0. set (r := unet (u_trace _ _ _ u) h p).
      set (s1 := MkSys _ _ _ (y_client _ _ _ (a_sys a)) (y_up _ _ _ (a_sys a)) (y_down _ _ _ (a_sys a) ++ [rpc_to_bytes (MkFrame h (enc p))]) (y_ctx _ _ _ (a_sys a))
                          (u_trace _ _ _ u ++ [EvSend w h p r]) (y_tasks _ _ _ (a_sys a)) (y_serving _ _ _ (a_sys a))).
      set (u1 := MkUSys _ _ _ _ _ _ _ _ _ _ _ _ _ _ _).
      assert (St : a_step AResume a = Some (carry_on s1 (k r))).
      { cbn [AsyncModel.a_step]. rewrite rl_cur0, Cu, rl_trace0. reflexivity. }
      destruct (carry_trace u1 (k r)) as (evs & Ev & _). unfold u1 at 2 in Ev. cbn [u_trace] in Ev. rewrite <- app_assoc in Ev.
      eapply sim_sends with (l := AResume) (more := evs); [exact R|reflexivity|exact St|reflexivity| | | | | |exact Ev|].
      + rewrite (proj2 (carry_down s1 (k r) [])). reflexivity.
      + constructor.
      + constructor.
      + cbn [a_lost]. rewrite St. reflexivity.
      + cbn [a_lost]. rewrite St. reflexivity.
      + intros dn D Wh. rewrite (proj1 (carry_down s1 (k r) dn)). apply carry_rel. unfold u1, s1. split; cbn; auto.
    - (* a spawned task *)
      cbn [UsbSysModel.u_step] in Hs. destruct (nth_error (u_tasks _ _ _ u) i) as [[r|key seq p k]|] eqn:Ht'; try discriminate.
      unfold send_keyed, tx_send in Hs. rewrite skipn_grown in Hs. injection Hs as <- <-. pose proof R as R0. destruct R0.
      assert (St : a_step (ASystem (STask i)) a = Some (MkASys (MkSys _ _ _ (y_client _ _ _ (a_sys a)) (y_up _ _ _ (a_sys a)) 
          (y_down _ _ _ (a_sys a) ++ [rpc_to_bytes (MkFrame (MkHeader (shrink_to (VKey8 key) kkind) seq) (enc p))]) (y_ctx _ _ _ (a_sys a))
          (u_trace _ _ _ u ++ [EvSend ByHandler (MkHeader (shrink_to (VKey8 key) kkind) seq) p (unet (u_trace _ _ _ u) (MkHeader (shrink_to (VKey8 key) kkind) seq) p)])
          (set_nth i (k (unet (u_trace _ _ _ u) (MkHeader (shrink_to (VKey8 key) kkind) seq) p)) (u_tasks _ _ _ u)) (y_serving _ _ _ (a_sys a))) (a_cur a))).
      { cbn [AsyncModel.a_step SystemModel.sys_step]. rewrite rl_tasks0, Ht'. unfold send_keyed, tx_send. rewrite rl_trace0, skipn_grown. reflexivity. }
      eapply sim_sends with (l := ASystem (STask i)) (more := []); [exact R|reflexivity|exact St|reflexivity|reflexivity| | | | |rewrite app_nil_r; reflexivity|].
      + repeat constructor.
      + repeat constructor.
      + cbn [a_lost loses_up]. rewrite St. reflexivity.
      + cbn [a_lost loses_down]. rewrite St. reflexivity.
      + intros dn D Wh. split; cbn; auto.
    - (* a packet arrives at the host *)
      cbn [UsbSysModel.u_step] in Hs. destruct (u_in _ _ _ u) as [|p tl] eqn:Ei; [discriminate|]. pose proof R as R0. destruct R0.
      unfold down_rel in rl_down0. rewrite Ei in rl_down0. cbn [host_in] in rl_down0. change MAX_TRANSFER_SIZE with MTS in Hs.
      destruct ((length p <? 64) || (MTS <=? length (u_acc _ _ _ u ++ p))) eqn:F; injection Hs as <- <-;
        (apply sim_stutter; [|exists []; cbn; now rewrite app_nil_r]); split; cbn; auto.
      + unfold down_rel. destruct (host_in MTS [] tl) as [ts part]. destruct rl_down0 as (open & O & NS & E). exists open. split; auto. split; auto.
        rewrite E. unfold good. rewrite flat_map_app. cbn [flat_map]. rewrite <- !app_assoc. reflexivity.
      + intros Hcl. apply Forall_app. split; auto. repeat constructor.
    - (* a transfer fails between messages *)
      cbn [UsbSysModel.u_step] in Hs. destruct (u_acc _ _ _ u) eqn:Ea; [|discriminate]. injection Hs as <- <-. destruct R.
      apply sim_stutter; [|exists []; cbn; now rewrite app_nil_r]. split; cbn; auto.
      + unfold down_rel in *. rewrite Ea in rl_down0. unfold good. rewrite flat_map_app. cbn [flat_map app]. rewrite app_nil_r. exact rl_down0.
      + intros Hcl. destruct (Hc Hcl e eq_refl).
    - destruct (NA _ eq_refl).
    - (* the client receives *)
      cbn [UsbSysModel.u_step] in Hs. pose proof R as R0. destruct R0.
      destruct (recv (u_reqs _ _ _ u) (u_errs _ _ _ u) (u_comps _ _ _ u) halts) as [[[[[res reqs] errs] comps] h'] aw] eqn:Rc.
      destruct (recv_suffix _ _ _ _ _ _ _ _ _ _ _ Rc) as (pre & Ec & Got).
      destruct a as [s cur]. cbn [AsyncModel.a_sys AsyncModel.a_cur] in *.
      assert (Dn : exists open ts, (let '(ts', part) := host_in MTS (u_acc _ _ _ u) (u_in _ _ _ u) in ts = ts' /\ open_ok open (tx_pending (u_trace _ _ _ u)) part /\ Forall (not_sent (u_trace _ _ _ u)) open) /\
         y_down _ _ _ s = filter ne (good pre) ++ filter ne (good comps ++ ts) ++ open).
      { unfold down_rel in rl_down0. destruct (host_in MTS (u_acc _ _ _ u) (u_in _ _ _ u)) as [ts part]. destruct rl_down0 as (open & O & NS & E).
        exists open, ts. split; auto. rewrite E, Ec. unfold good. rewrite flat_map_app, !filter_app, <- !app_assoc. reflexivity. }
      destruct Dn as (open & ts & O & Dn).
      assert (D' : down_rel comps (u_acc _ _ _ u) (u_in _ _ _ u) (u_trace _ _ _ u) (filter ne (good comps ++ ts) ++ open)).
      { unfold down_rel. destruct (host_in MTS (u_acc _ _ _ u) (u_in _ _ _ u)) as [ts' part]. destruct O as (-> & O & NS). eauto. }
      assert (Fm : forall (P : SysLabel -> Prop) (l : list (list N)), P (SLoseDown 0) -> Forall P (map (fun _ => SLoseDown 0) l)).
      { intros P l HP. apply Forall_forall. intros x Hx. apply in_map_iff in Hx as (? & <- & _). exact HP. }
      destruct res as [b|e| | |]; try discriminate.
      + destruct (step cfg (LRecv b) (u_client _ _ _ u)) as [[c ev]|] eqn:St; [|discriminate]. injection Hs as <- <-.
        destruct (Got b eq_refl) as [pre' ->].
        assert (Al : c_out_alive c = c_out_alive (u_client _ _ _ u)) by (apply (alive_same _ _ _ _ St); discriminate).
        assert (Dn' : y_down _ _ _ s = filter ne (good pre') ++ filter ne [b] ++ filter ne (good comps ++ ts) ++ open).
        { rewrite Dn. unfold good. rewrite flat_map_app, !filter_app. cbn [flat_map]. rewrite app_nil_r, <- !app_assoc. reflexivity. }
        set (s0 := set_down (filter ne [b] ++ filter ne (good comps ++ ts) ++ open) s).
        set (s2 := MkSys _ _ _ c (y_up _ _ _ s) (filter ne (good comps ++ ts) ++ open) (y_ctx _ _ _ s) (y_trace _ _ _ s) (y_tasks _ _ _ s) (y_serving _ _ _ s)).
        assert (Run : exists ls2, a_run (map ASystem ls2) (MkASys s0 cur) = Some (MkASys s2 cur, [LRecv b], [ev]) /\ (ls2 = [SRecv 0] \/ ls2 = [SEmptyDown 0; SRecv 0]) /\
          a_lost a_step loses_up (map ASystem ls2) (MkASys s0 cur) = [] /\ a_lost a_step loses_down (map ASystem ls2) (MkASys s0 cur) = []).
        { destruct b as [|b0 b].
          - exists [SEmptyDown 0; SRecv 0].
            assert (S1 : sys_run [SEmptyDown 0; SRecv 0] s0 = Some (s2, [LRecv []], [ev])).
            { cbn [s0 SystemModel.sys_run SystemModel.sys_step client_label set_down y_down y_client firstn skipn app nth_error option_map filter ne].
              rewrite rl_client0, St. reflexivity. }
            destruct (lift [SEmptyDown 0; SRecv 0] s0 cur _ _ _ ltac:(intros i [X|[X|[]]]; discriminate) S1) as (I1 & I2 & I3). rewrite I1, I2, I3. split; auto. split; auto.
            cbn [lost_up lost_down loses_up loses_down app]. split; repeat (destruct (sys_step _ _); auto).
          - exists [SRecv 0].
            assert (S1 : sys_run [SRecv 0] s0 = Some (s2, [LRecv (b0 :: b)], [ev])).
            { cbn [s0 SystemModel.sys_run SystemModel.sys_step client_label set_down y_down y_client app nth_error option_map filter ne].
              rewrite rl_client0, St. reflexivity. }
            destruct (lift [SRecv 0] s0 cur _ _ _ ltac:(intros i [X|[]]; discriminate) S1) as (I1 & I2 & I3). rewrite I1, I2, I3. split; auto. split; auto.
            cbn [lost_up lost_down loses_up loses_down app]. split; repeat (destruct (sys_step _ _); auto). }
        destruct Run as (ls2 & Run & Sh & Lu2 & Ld2).
        destruct (lose_front _ _ s Dn') as [R1 Lu1]. fold s0 in R1.
        destruct (lift (map (fun _ => SLoseDown 0) _) s cur _ _ _ ltac:(intros i X; apply in_map_iff in X as (? & X & _); discriminate) R1) as (I1 & I2 & I3).
        destruct (a_run_app _ _ _ _ _ _ _ _ _ I1 Run) as [Run2 Lo]. cbn [app] in Run2.
        eexists (_ ++ _), (MkASys s2 cur). split; [exact Run2|].
        rewrite <- map_app, labels_lift, map_app, !Lo, I2, I3, Lu1, Lu2, Ld2, !app_nil_r.
        split. { split; cbn; auto.
          - eapply finv_step; eauto.
          - rewrite Al. auto.
          - intros Hcl. specialize (rl_comps0 Hcl). rewrite Ec in rl_comps0. apply Forall_app in rl_comps0 as [_ X]. exact X. }
        split. { apply Forall_app. split; [apply Fm; exact Logic.I|destruct Sh as [-> | ->]; repeat constructor]. }
        split. { intros _. apply Forall_app. split; [apply Fm; exact Logic.I|destruct Sh as [-> | ->]; repeat constructor]. }
        split; [constructor|].
        split. { intros Hcl. specialize (rl_comps0 Hcl). assert (Z : pre' = []).
          { destruct (u_comps _ _ _ u) as [|c0 cs] eqn:Eu; [destruct pre'; discriminate|]. inversion rl_comps0 as [|? ? K1 K2]; subst.
            destruct (recv_first_ok (u_reqs _ _ _ u) (u_errs _ _ _ u) c0 cs halts K1) as (b' & -> & q & E'). rewrite Rc in E'. injection E' as <- <- <- -> <- _.
            assert (L : length ((pre' ++ [COk b]) ++ cs) = length (COk b :: cs)) by congruence. rewrite !app_length in L. cbn in L. destruct pre'; auto. cbn in L. lia. }
          rewrite Z. constructor. }
        exists []. cbn. now rewrite app_nil_r.
      + destruct (step cfg LInFail (u_client _ _ _ u)) as [[c ev]|] eqn:St; [|discriminate]. injection Hs as <- <-.
        assert (Al : c_out_alive c = c_out_alive (u_client _ _ _ u)) by (apply (alive_same _ _ _ _ St); discriminate).
        assert (Wn : wire_of ev = []).
        { destruct (wire_cases _ _ _ _ St rl_finv0) as [W0|(f & W0 & _)]; auto. cbn [ClientModel.step] in St.
          destruct (c_offer _); [discriminate|]. destruct (_ || _); [discriminate|]. injection St as <- <-. discriminate. }
        set (s1 := set_down (filter ne (good comps ++ ts) ++ open) s).
        assert (St' : step cfg LInFail (y_client _ _ _ s1) = Some (c, ev)) by (cbn; rewrite rl_client0; exact St).
        pose proof (one_client LInFail s1 cur c ev ltac:(discriminate) St') as Run.
        destruct (lose_front _ _ s Dn) as [R1 Lu1]. fold s1 in R1.
        destruct (lift (map (fun _ => SLoseDown 0) _) s cur _ _ _ ltac:(intros i X; apply in_map_iff in X as (? & X & _); discriminate) R1) as (I1 & I2 & I3).
        destruct (a_run_app _ _ _ _ _ _ _ _ _ I1 Run) as [Run2 Lo]. cbn [app] in Run2.
        eexists (_ ++ _), _. split; [exact Run2|].
        change [ASystem (SClient LInFail)] with (map ASystem [SClient LInFail]) at 1 2. rewrite <- map_app, labels_lift. rewrite !Lo, I2, I3, Lu1.
        split. { split; cbn; rewrite ?Wn, ?app_nil_r; auto.
          - eapply finv_step; [exact St|exact rl_finv0].
          - rewrite Al. auto.
          - intros Hcl. specialize (rl_comps0 Hcl). rewrite Ec in rl_comps0. apply Forall_app in rl_comps0 as [_ X]. exact X. }
        split. { apply Forall_app. split; [apply Fm; exact Logic.I|repeat constructor]. }
        split. { intros _. apply Forall_app. split; [apply Fm; exact Logic.I|repeat constructor]. }
        split. { cbn [a_lost loses_up app]. destruct (a_step _ _); constructor. }
        split. { intros Hcl. exfalso. specialize (rl_comps0 Hcl).
          destruct (u_comps _ _ _ u) as [|c0 cs] eqn:Eu.
          - unfold recv in Rc. cbn [recv_inner length] in Rc. destruct (_ + _); discriminate Rc.
          - inversion rl_comps0 as [|? ? K1 K2]; subst. destruct (recv_first_ok (u_reqs _ _ _ u) (u_errs _ _ _ u) c0 cs halts K1) as (b' & -> & q & E'). congruence. }
        exists []. cbn. now rewrite app_nil_r.
  Qed.

  (** *** Histories *)
  Lemma wire_app a b : wire (a ++ b) = wire a ++ wire b.
  Proof. unfold wire. rewrite concat_app. unfold wire_of. rewrite flat_map_app. reflexivity. Qed.

  Lemma sim_run clean W ls : forall u a u' cl es, Rel clean W u a -> u_run ls u = Some (u', cl, es) ->
    errors_between_messages ls -> (clean = true -> no_transfer_errors ls) -> Forall W (wire es) ->
    exists ls' a', a_run ls' a = Some (a', cl, es) /\ Rel clean W u' a' /\ Forall tidy (system_labels ls') /\
      (none_interrupted (u_trace _ _ _ u') -> Forall no_cut (system_labels ls')) /\
      Forall (too_long W) (a_lost a_step loses_up ls' a) /\
      (clean = true -> Forall (not_sent (u_trace _ _ _ u')) (a_lost a_step loses_down ls' a)) /\
      exists new, u_trace _ _ _ u' = u_trace _ _ _ u ++ new.
  Proof.
    induction ls as [|l ls IH]; intros u a u' cl es R Hr Hb Hc Hw; cbn [UsbSysModel.u_run] in Hr.
    - injection Hr as <- <- <-. exists [], a. split; [reflexivity|]. split; [exact R|]. split; [constructor|]. split; [intros _; constructor|].
      split; [constructor|]. split; [intros _; constructor|]. exists []. now rewrite app_nil_r.
    - destruct (u_step l u) as [[u1 ce]|] eqn:Hs; [|discriminate].
      destruct (u_run ls u1) as [[[u2 cl2] es2]|] eqn:Hr2; [|discriminate].
      assert (E : u' = u2 /\ cl = cl_of ce ++ cl2 /\ es = es_of ce ++ es2).
      { destruct ce as [[x e]|]; injection Hr as <- <- <-; auto. }
      destruct E as (-> & -> & ->). clear Hr. rewrite wire_app in Hw. apply Forall_app in Hw as [Hw1 Hw2].
      destruct (sim_step clean W l u a u1 ce R Hs) as (ls1 & a1 & R1 & Rel1 & T1 & C1 & U1 & D1 & new1 & N1).
      { intros e ->. apply (Hb e). left. reflexivity. }
      { intros Hcl e ->. apply (proj2 (Hc Hcl e)). left. reflexivity. } { exact Hw1. }
      destruct (IH u1 a1 u2 cl2 es2 Rel1 Hr2) as (ls2 & a2 & R2 & Rel2 & T2 & C2 & U2 & D2 & new2 & N2).
      { intros e X. apply (Hb e). right. exact X. }
      { intros Hcl e. split; intros X; [apply (proj1 (Hc Hcl e))|apply (proj2 (Hc Hcl e))]; right; exact X. } { exact Hw2. }
      destruct (a_run_app _ _ _ _ _ _ _ _ _ R1 R2) as [R3 Lo].
      assert (Sl : system_labels (ls1 ++ ls2) = system_labels ls1 ++ system_labels ls2) by apply flat_map_app.
      exists (ls1 ++ ls2), a2. split; [exact R3|]. split; [exact Rel2|]. rewrite Sl, !Lo.
      split; [apply Forall_app; auto|].
      split. { intros Hn. apply Forall_app. split; [|auto]. apply C1. rewrite N2 in Hn. apply (none_int_app _ _ Hn). }
      split; [apply Forall_app; auto|].
      split. { intros Hcl. apply Forall_app. split; [|auto]. eapply Forall_impl; [|exact (D1 Hcl)]. intros b. rewrite N2. apply not_sent_more. }
      exists (new1 ++ new2). rewrite N2, N1, app_assoc. reflexivity.
  Qed.

  Lemma rel_new clean W ctx : Rel clean W (usys_new Val Ctx SCtx bg ctx) (asys_new Val Ctx SCtx bg ctx).
  Proof.
    split; cbn; auto.
    - exact (reach_finv cfg [] client_new [] eq_refl).
    - constructor; [constructor|auto].
    - unfold down_rel. cbn. exists []. split; [apply open_new|auto].
  Qed.

  Lemma sim_new clean ls ctx u cl es : u_run ls (usys_new Val Ctx SCtx bg ctx) = Some (u, cl, es) ->
    errors_between_messages ls -> (clean = true -> no_transfer_errors ls) ->
    exists ls' a, a_run ls' (asys_new Val Ctx SCtx bg ctx) = Some (a, cl, es) /\ Rel clean (fun b => In b (wire es)) u a /\
      up_in_order (system_labels ls') /\ down_in_order (system_labels ls') /\ (none_interrupted (u_trace _ _ _ u) -> uncut (system_labels ls')) /\
      (forall b, In b (a_lost a_step loses_up ls' (asys_new Val Ctx SCtx bg ctx)) -> In b (wire es) /\ ~ fits rxlen (length b)) /\
      (clean = true -> forall b, In b (a_lost a_step loses_down ls' (asys_new Val Ctx SCtx bg ctx)) -> not_sent (u_trace _ _ _ u) b).
  Proof.
    intros Hr Hb Hc.
    destruct (sim_run clean (fun b => In b (wire es)) ls _ _ _ _ _ (rel_new clean _ ctx) Hr Hb Hc) as (ls' & a & R & Rl & T & C & U & D & _).
    { apply Forall_forall. auto. }
    exists ls', a. split; [exact R|]. split; [exact Rl|]. rewrite Forall_forall in T, U.
    split; [intros i Hi; exact (T _ Hi)|]. split; [intros i Hi; exact (T _ Hi)|]. split.
    - intros Hn i n Hi. pose proof (C Hn) as X. rewrite Forall_forall in X. exact (X _ Hi).
    - split; [exact U|]. intros Hcl. specialize (D Hcl). rewrite Forall_forall in D. exact D.
  Qed.

  (** Nothing was lost if the lists of what was lost are empty. *)
  Lemma nothing_lost ls : forall a a' cl es, a_run ls a = Some (a', cl, es) ->
    a_lost a_step loses_up ls a = [] -> a_lost a_step loses_down ls a = [] -> lossless (system_labels ls).
  Proof.
    induction ls as [|l ls IH]; intros a a' cl es H Hu Hd x Hx; [destruct Hx|]. cbn [AsyncModel.a_run a_lost] in *.
    destruct (a_step l a) as [a1|] eqn:St; [|discriminate]. destruct (a_run ls a1) as [[[a2 cl2] es2]|] eqn:R; [|discriminate].
    apply app_eq_nil in Hu as [Hu1 Hu2]. apply app_eq_nil in Hd as [Hd1 Hd2].
    unfold system_labels in Hx. cbn [flat_map] in Hx. apply in_app_iff in Hx as [Hx|Hx]; [|eapply (IH a1); eauto].
    destruct l as [l|]; [|destruct Hx]. destruct Hx as [<-|[]]. destruct l; auto; cbn in St, Hu1, Hd1;
      match type of St with context [nth_error ?a ?b] => destruct (nth_error a b); discriminate end.
  Qed.
End Sim.
