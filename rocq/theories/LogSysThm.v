(** Theorems about log messages that travel through the whole system: C88. *)
From Coq Require Import NArith List Bool Arith Lia Permutation.
From Verif Require Import KeyModel HeaderModel KeySpec HeaderSpec KeyProof HeaderProof MinKeyModel MinKeySpec
  SchemaModel MacroModel PostcardModel DispatchModel DispatchSpec DispatchProof SubModel SubSpec ClientModel ClientSpec
  UsbModel UsbSpec NusbRxModel LogModel LogThm.
From Verif Require Import DispatchModel DispatchSpec SystemModel SystemSpec SystemProof SystemThm FlowSpec FlowThm LiveSpec LiveProof LiveThm AsyncModel AsyncSpec AsyncProof AsyncThm
  UsbSysModel UsbSysSpec UsbSysProof UsbSysLive UsbSysThm MissSpec MissThm UsbMissThm ThreadsSpec ThreadsThm SoleProof LogSysModel LogSysSpec.
Import ListNotations.

(** *** What a log call transmits *)
Lemma produced_text args : ~ In FmtError args -> no_failure args /\ produced args = call_text (LogFmt args).
Proof.
  induction args as [|[s|] args IH]; intros H; cbn; [split; [constructor|auto]| |destruct H; left; auto].
  destruct IH as [N E]. { intros X. apply H. right. exact X. }
  split; [constructor; [discriminate|exact N]|]. rewrite E. reflexivity.
Qed.

Section Frames.
  Variable usz : nat.
  Variable lkey : Key8.
  Variable kk : VarKeyKind.
  Variable txlen : nat.
  Hypothesis Husz : usz = 4 \/ usz = 8.
  Hypothesis Hlen : (N.of_nat txlen < 2 ^ (8 * N.of_nat usz))%N.
  Hypothesis Hkey : Forall byte_ok (k8_bytes lkey).

  Lemma log_frame_form c f buf : (fst c < 65536)%N -> formats_well (snd c) -> length buf = txlen ->
    log_frame usz lkey kk buf c = Done (Transmit f) ->
    exists body, f = write_to_vec (log_header lkey kk (fst c)) ++ body /\ take_str body = Some (call_text (snd c), []) /\
      header_len (log_header lkey kk (fst c)) + length body <= txlen /\
      forall buf', length buf' = txlen -> log_frame usz lkey kk buf' c = Done (Transmit f).
  Proof.
    destruct c as [q [s|args]]; cbn [fst snd]; unfold log_frame; cbn [fst snd]; intros Hq Hf Hb H.
    - injection H as H. destruct (C46_str _ _ _ _ _ _ _ Husz ltac:(rewrite Hb; exact Hlen) Hkey Hq H) as (body & T & S).
      unfold send_log_str in H. cbn [fst] in H. rewrite usb_send_eq in H.
      destruct (Nat.leb_spec (header_len (log_header lkey kk q) + length (str_enc usz s)) (length buf)) as [L|L]; [|discriminate].
      injection H as <-. rewrite take_write in T by (apply log_header_ok; auto). injection T as <-.
      exists (str_enc usz s). repeat split; auto; [lia|]. intros buf' Hb'. unfold send_log_str. cbn [fst]. rewrite usb_send_eq, Hb', <- Hb.
      now replace (header_len (log_header lkey kk q) + length (str_enc usz s) <=? length buf) with true by (symmetry; apply Nat.leb_le; lia).
    - destruct (produced_text _ Hf) as [Hn Ht].
      destruct (C46_formatted _ _ _ _ _ _ _ Husz ltac:(rewrite Hb; exact Hlen) Hkey Hq Hn H) as (body & T & S). rewrite Ht in S.
      rewrite send_log_fmt_eq in H by auto. cbv zeta in H. rewrite Hb in H.
      set (room := txlen - hlen kk) in *.
      destruct (Nat.ltb_spec (hlen kk) txlen) as [L|L]; [|discriminate].
      set (w := width usz (N.of_nat room)) in *. set (text := produced args) in *.
      destruct (Nat.leb_spec (w + length text) room) as [F|F]; [|discriminate].
      destruct (Nat.leb_spec (length (varint_usize usz (N.of_nat (length text)))) w) as [W|W]; [|discriminate].
      pose proof (fmt_write_spec args (room - w)) as FW. fold text in FW.
      replace (length text <=? room - w) with true in FW by (symmetry; apply Nat.leb_le; lia).
      destruct FW as (err & E & Herr). rewrite E in H. pose proof (Herr Hn) as ->. cbn [andb] in H.
      injection H as <-. rewrite firstn_app, firstn_all, Nat.sub_diag, firstn_O, app_nil_r in *.
      rewrite take_write in T by (apply log_header_ok; auto). injection T as <-.
      exists (filled (varint_usize usz (N.of_nat (length text))) w ++ text). split; [reflexivity|]. split; [exact S|]. split.
      + rewrite log_header_len, app_length.
        destruct (usize_ok usz (N.of_nat (length text)) Husz ltac:(unfold room in *; lia)) as (A & B & C).
        pose proof (width_bounds usz Husz (N.of_nat room)) as WB. fold w in WB.
        assert (V : (N.of_nat (length text) < 128 ^ N.of_nat w)%N) by (apply (enc_len_iff (varint_max usz)); auto; lia).
        destruct (filled_dec (varint_max usz) (N.of_nat (length text)) w text C ltac:(lia) A V B) as [_ D]. unfold varint_usize. rewrite D. unfold room in *. lia.
      + intros buf' Hb'. rewrite send_log_fmt_eq by auto. cbv zeta. rewrite Hb'. fold room w text.
        replace (hlen kk <? txlen) with true by (symmetry; apply Nat.ltb_lt; lia).
        replace (w + length text <=? room) with true by (symmetry; apply Nat.leb_le; lia).
        replace (length (varint_usize usz (N.of_nat (length text))) <=? w) with true by (symmetry; apply Nat.leb_le; lia).
        rewrite E. cbn [andb]. rewrite firstn_app, firstn_all, Nat.sub_diag, firstn_O, app_nil_r. reflexivity.
  Qed.

  (** ** C88 The messages of a logging task *)

  (** A log call that transmits does so whatever the transmit buffer held before; it
      transmits what sending its body on the logging topic would, and the body holds the
      text. *)
  Theorem C88_log_frames :
    forall c f buf, (fst c < 65536)%N -> formats_well (snd c) -> length buf = txlen ->
      log_frame usz lkey kk buf c = Done (Transmit f) ->
      (forall buf', length buf' = txlen -> log_frame usz lkey kk buf' c = Done (Transmit f)) /\
      usb_send (repeat 0%N txlen) (out_header kk lkey (Seq2 (fst c))) (log_body usz lkey kk txlen c) = Transmit f /\
      take_str (log_body usz lkey kk txlen c) = Some (call_text (snd c), []).
  Proof.
    intros c f buf Hq Hf Hb H. destruct (log_frame_form _ _ _ Hq Hf Hb H) as (body & E & T & L & A). split; [exact A|].
    assert (Eb : log_body usz lkey kk txlen c = body).
    { unfold log_body. rewrite A by apply repeat_length. rewrite E, take_write by (apply log_header_ok; auto). reflexivity. }
    rewrite Eb. split; [|exact T]. rewrite usb_send_eq, repeat_length. unfold out_header. rewrite <- const_key_spec.
    change (MkHeader (const_key kk lkey) (Seq2 (fst c))) with (log_header lkey kk (fst c)).
    replace (header_len _ + length body <=? txlen) with true by (symmetry; apply Nat.leb_le; exact L). rewrite E. reflexivity.
  Qed.

  (** A call that transmits, on a buffer of that length. *)
  Definition goes_out (c : NCall) : Prop :=
    (fst c < 65536)%N /\ formats_well (snd c) /\ exists f, log_frame usz lkey kk (repeat 0%N txlen) c = Done (Transmit f).
  Lemma body_text c : goes_out c -> take_str (log_body usz lkey kk txlen c) = Some (call_text (snd c), []).
  Proof. intros (Hq & Hf & f & H). apply (C88_log_frames c f (repeat 0%N txlen) Hq Hf (repeat_length _ _) H). Qed.

  Definition log_rpc (c : NCall) : RpcFrame := MkFrame (out_header kk lkey (Seq2 (fst c))) (log_body usz lkey kk txlen c).
  Lemma texts_rpc calls : Forall goes_out calls -> texts_of (map log_rpc calls) = map (fun c => call_text (snd c)) calls.
  Proof.
    induction 1 as [|c tl H _ IH]; auto. cbn [map texts_of flat_map]. unfold log_rpc at 1. cbn [f_body]. rewrite (body_text _ H). cbn [app]. f_equal. exact IH.
  Qed.

  (** What the task has said. *)
  Context {Val SCtx : Type}.
  Variable enc : Payload Val -> list N.
  Variable raw : list N -> Val.
  Hypothesis Hraw : forall b, enc (PVal (raw b)) = b.

  Lemma own_topic h : hdr_key h = shrink_to (VKey8 lkey) kk -> varkey_eqb (VKey8 lkey) (hdr_key h) = true.
  Proof.
    intros ->. rewrite varkey_eqb_spec, vlen_shrunk, vlen8, Nat.min_r by apply klen_le_8. unfold agree_at.
    rewrite shrink_bytes, vlen8, Nat.min_l by apply klen_le_8. rewrite (compact_compact (VKey8 lkey) kk kk); [reflexivity|auto|rewrite vlen8; apply klen_le_8].
  Qed.
  Lemma logger_says calls : forall (said : Trace Val SCtx) rest, says kk (logger raw usz lkey kk txlen calls) said rest ->
    exists made todo, calls = made ++ todo /\ rest = logger raw usz lkey kk txlen todo /\ messages enc said lkey = map log_rpc made /\ length said = length made.
  Proof.
    induction calls as [|c tl IH]; intros said rest H; cbn [logger] in H; inversion H; subst.
    - exists [], []. auto.
    - exists [], (c :: tl). auto.
    - match goal with X : says _ _ _ _ |- _ => destruct (IH _ _ X) as (made & todo & -> & -> & E & Ln) end.
      exists (c :: made), todo. repeat split; auto.
      + cbn [messages flat_map map]. rewrite own_topic by reflexivity. rewrite Hraw. cbn [app]. unfold log_rpc at 1, out_header. f_equal. exact E.
      + cbn. rewrite Ln. reflexivity.
  Qed.
  Lemma says_app (a b : Trace Val SCtx) : forall p q, says kk p (a ++ b) q -> exists r, says kk p a r /\ says kk r b q.
  Proof.
    induction a as [|e a IH]; intros p q H; [exists p; split; [constructor|exact H]|]. cbn in H. inversion H; subst.
    match goal with X : says _ _ (a ++ b) _ |- _ => destruct (IH _ _ X) as (r0 & A & B) end. exists r0. split; [constructor; exact A|exact B].
  Qed.
  Lemma logger_done todo : logger raw usz lkey kk txlen todo = HRet tt -> todo = [].
  Proof. destruct todo; [auto|discriminate]. Qed.
End Frames.
Print Assumptions C88_log_frames.

Lemma numbered_nth cs : forall q n c, (q < 65536)%N -> nth_error (numbered q cs) n = Some c -> fst c = ((q + N.of_nat n) mod 65536)%N.
Proof.
  induction cs as [|x cs IH]; intros q [|n] c Hq H; cbn [numbered nth_error] in H; try discriminate.
  - injection H as <-. cbn [fst]. rewrite N.add_0_r, N.mod_small by exact Hq. reflexivity.
  - assert (Hm : ((q + 1) mod 65536 < 65536)%N) by (apply N.mod_lt; discriminate).
    rewrite (IH _ _ _ Hm H). rewrite N.add_mod_idemp_l by discriminate. f_equal. lia.
Qed.

(** *** What the host prints *)
Lemma prints_given cl es id : never_lagged cl es id -> never_closed cl es id ->
  print_logs (recvs cl es id) = (texts_of (given_multi cl es id), true).
Proof.
  unfold never_lagged, never_closed, recvs, given_multi. generalize (combine cl es). intros l NL NC. induction l as [|[x e] l IH]; [reflexivity|].
  cbn [flat_map].
  match type of IH with _ -> _ -> print_logs ?a = (texts_of ?b, true) => set (A := a) in *; set (B := b) in * end.
  assert (IH' : print_logs A = (texts_of B, true)).
  { apply IH; [intros n Hi; apply (NL n)|intros Hi; apply NC]; right; exact Hi. }
  clear IH. destruct x; try exact IH'. destruct o; try exact IH'.
  destruct e as [|[| | |e|] [|]]; try exact IH'; [|destruct e as [| | |[]|]; exact IH']. destruct e as [| | |r|]; try exact IH'.
  destruct (Nat.eqb_spec id0 id) as [->|]; [|destruct r; exact IH'].
  destruct r as [f|n| |]; cbn [app print_logs].
  - cbn [texts_of flat_map]. rewrite IH'. destruct (take_str (f_body f)) as [[s r]|]; reflexivity.
  - destruct (NL n). left. reflexivity.
  - destruct NC. left. reflexivity.
  - exact IH'.
Qed.

Section T.
  Context {Val Ctx SCtx : Type}.
  Variable std : StdKeys.
  Variable can_spawn : Trace Val SCtx -> nat -> bool.
  Variable kkind : VarKeyKind.
  Variable spawn_ctxt : Ctx -> Ctx * SCtx.
  Variable d : Dispatcher Val Ctx.
  Variable enc : Payload Val -> list N.
  Variable task : nat -> SCtx -> VarHeader -> Val -> HProg Val unit.
  Variable bg : list (HProg Val unit).
  Variable cfg : Config.
  Variable txlen rxlen : nat.
  Variable consumes : bool.
  Variable mps : option nat.
  Variable outcome : nat -> list WRes.
  Variable eps : EndpointMap.
  Variable tin tout : TopicMap.
  Variable ea : list (EpArm Val Ctx).
  Variable ta : list (TpArm Val Ctx).
  Notation net := (usb_net Val SCtx enc txlen outcome).
  Notation a_step := (a_step Val Ctx SCtx std net can_spawn kkind spawn_ctxt d enc task cfg).
  Notation a_run := (a_run Val Ctx SCtx std net can_spawn kkind spawn_ctxt d enc task cfg).
  Notation a_sys := (a_sys Val Ctx SCtx).
  Notation y_trace := (y_trace Val Ctx SCtx).
  Notation u_step := (u_step Val Ctx SCtx std can_spawn kkind spawn_ctxt d enc task cfg txlen rxlen consumes mps outcome).
  Notation u_run := (u_run Val Ctx SCtx std can_spawn kkind spawn_ctxt d enc task cfg txlen rxlen consumes mps outcome).
  Notation u_trace := (u_trace Val Ctx SCtx).
  Hypothesis Hsizes : usb_sizes mps txlen rxlen.
  Hypothesis Hdisp : dispatcher_for eps tin tout ea ta d.
  Hypothesis Hdev : device_ok std eps tout ea.
  Hypothesis Hkk : klen (d_kind _ _ d) <= klen kkind.
  Hypothesis Hhand : handlers_ok std tout ea ta task bg.

  (** Before the subscription [o], the subscription, after it. *)
  Variable ctx0 : Ctx.
  Variable ls1 ls2 : list ULabel.
  Variable u1 u2 u : USys Val Ctx SCtx.
  Variable cl1 cl2 : list Label.
  Variable es1 es2 : list (list Ev).
  Variable k : Key8.
  Variable depth id : nat.
  Notation o := (SubscribeMulti k depth).
  Hypothesis Hrun1 : u_run ls1 (usys_new Val Ctx SCtx bg ctx0) = Some (u1, cl1, es1).
  Hypothesis Hsub : u_step (UClient (LSub o)) u1 = Some (u2, Some (LSub o, [EvSub (ORes (Subscribed id))])).
  Hypothesis Hrun2 : u_run ls2 u2 = Some (u, cl2, es2).
  Hypothesis Herr1 : no_transfer_errors ls1.
  Hypothesis Herr2 : no_transfer_errors ls2.
  Hypothesis Hall : all_sent (u_trace u).
  Hypothesis Hlab1 : Forall (label_ok eps tin) cl1.
  Hypothesis Hlab2 : Forall (label_ok eps tin) cl2.
  Hypothesis Hrecv : still_receiving (cl1 ++ cl2).
  Hypothesis Hkept : kept_multi cl2 id.
  Hypothesis Honly : only_topic kkind k (cl1 ++ LSub o :: cl2).
  Hypothesis Hup : never_lagged cl2 es2 id \/ ((forall d', ~ In (LSub (SubscribeMulti k d')) cl1) /\ keeps_up_multi cl2 es2 k id depth).

  Lemma open_all_along : never_lagged cl2 es2 id /\ never_closed cl2 es2 id.
  Proof.
    destruct (usb_link std can_spawn kkind spawn_ctxt d enc task bg cfg txlen rxlen consumes mps outcome Hsizes ctx0 ls1 ls2 u1 u2 u cl1 cl2 es1 es2 _ id Hrun1 Hsub Hrun2 Herr1 Herr2 Hall)
      as (l1 & l2 & a1 & a2 & a & W & [R1 Rs R2 K1 K2 O1 O2 E1 E2] & _).
    destruct (C75_multi_nothing_missed std net can_spawn kkind spawn_ctxt d enc task bg cfg eps tin tout ea ta Hdisp Hdev Hkk Hhand ctx0 k depth id l1 l2 _ _ _ _ _ _ _ R1 R2 Hlab1 Hlab2 Hrecv K2 Rs Hkept Honly Hup)
      as (NL & NC & _). auto.
  Qed.

  Section Sole.
    Variable i : nat.
    Variable p0 : HProg Val unit.
    Hypothesis Hk : is_topic_out tout k.
    Hypothesis Hi : nth_error bg i = Some p0.
    Hypothesis Hsole : only_publisher std kkind ea ta task bg k i.
    Notation same x y := (compact (klen kkind) (k8_bytes x) = compact (klen kkind) (k8_bytes y)).
    Notation outs_keys := (map ep_resp (em_endpoints eps) ++ map snd (tm_topics tout)).

    Lemma onkey_spec x : onkey kkind k x = true <-> same k x.
    Proof.
      unfold onkey, onk, out_header. cbn [hdr_key]. rewrite varkey_eqb_spec. rewrite vlen_shrunk, vlen8, Nat.min_r by apply klen_le_8. unfold agree_at.
      rewrite shrink_bytes, vlen8, Nat.min_l by apply klen_le_8. rewrite (compact_compact (VKey8 x) kkind kkind); [reflexivity|auto|rewrite vlen8; apply klen_le_8].
    Qed.
    Lemma off_topic x : is_topic_out tout x -> x <> k -> onkey kkind k x = false.
    Proof.
      intros H N. destruct (onkey kkind k x) eqn:E; auto. apply onkey_spec in E. destruct N. symmetry.
      eapply (out_keys eps tin tout ea ta d Hdisp kkind); eauto; apply in_app_iff; right; assumption.
    Qed.
    Lemma off_resp req resp : is_endpoint eps req resp -> onkey kkind k resp = false.
    Proof.
      intros H. destruct (onkey kkind k resp) eqn:E; auto. exfalso. apply onkey_spec in E.
      destruct Hdisp as (_ & _ & D & _). destruct (D kkind Hkk) as [_ D2].
      apply (endpoint_in _ _ _) in H as [_ H]. exact (distinct_app_disj _ _ _ _ _ D2 H Hk (eq_sym E)).
    Qed.
    Lemma off_error : onkey kkind k (error_key std) = false.
    Proof. destruct (onkey kkind k (error_key std)) eqn:E; auto. exfalso. apply onkey_spec in E. destruct Hsole as (_ & N & _). apply N. auto. Qed.

    (** *** A topic with a single publisher *)
    Lemma sole_said ls a cl es : a_run ls (asys_new Val Ctx SCtx bg ctx0) = Some (a, cl, es) ->
      exists said rest, says (SCtx := SCtx) kkind p0 said rest /\ messages enc (y_trace (a_sys a)) k = messages enc said k /\
        ((forall l, a_own_step l = true -> a_step l a = None) -> rest = HRet tt).
    Proof.
      intros R. destruct Hsole as (Nt & _ & S1 & S2 & S3 & S4 & S5). destruct Hhand as (H1 & H2 & H3 & H4 & H5). destruct Hdev as (Dp & Ds & Dt & De).
      destruct Hdisp as (Ee & Et & _).
      assert (Topic : forall key, is_topic_out tout key -> key <> k -> onkey kkind k key = false) by exact off_topic.
      destruct (reach_sinv std kkind spawn_ctxt d enc task bg cfg net can_spawn k i p0 Hi) with (ctx0 := ctx0) (ls := ls) (a := a) (cl := cl) (es := es)
        as [_ _ (said & rest & Hn & Hs & Hm)]; auto using off_error.
      - intros j p Nj Hp key seq pl M. apply Topic; [eapply H5; eauto using nth_error_In|]. intros ->. exact (S5 _ _ _ _ Nj Hp M).
      - exact (off_resp _ _ Dp).
      - exact (off_resp _ _ Ds).
      - rewrite Ee. intros a' Ha. split; [exact (off_resp _ _ (De _ Ha))|]. split.
        + intros ctx h v key seq pl M. apply Topic; [eapply H1; eauto|]. intros ->. exact (S1 _ _ _ _ _ _ Ha M).
        + intros F sc h v key seq pl M. destruct (H3 _ _ _ _ _ _ _ Ha F M) as [[T _]|[[->| ->] _]].
          * apply Topic; auto. intros ->. exact (S3 _ _ _ _ _ _ Ha F M).
          * exact (off_resp _ _ (De _ Ha)).
          * exact off_error.
      - rewrite Et. intros a' Ha. split.
        + intros ctx h v key seq pl M. apply Topic; [eapply H2; eauto|]. intros ->. exact (S2 _ _ _ _ _ _ Ha M).
        + intros F sc h v key seq pl M. apply Topic; [eapply H4; eauto|]. intros ->. exact (S4 _ _ _ _ _ _ Ha F M).
      - exists said, rest. split; [exact Hs|]. split; [exact Hm|]. intros Rest. specialize (Rest (ASystem (STask i)) eq_refl).
        cbn [AsyncModel.a_step SystemModel.sys_step] in Rest. rewrite Hn in Rest. destruct rest as [[]|]; [reflexivity|].
        destruct (send_keyed _ _ _ _ _ _ _ _) in Rest. discriminate.
    Qed.

    (** If only one task publishes on a topic then what the subscriber was given and what
        had reached the host before is a part of what the program of the task says,
        from its beginning; once the system is at rest, it is all of it. *)
    Theorem C88_only_publisher :
      (exists said q rest, says (SCtx := SCtx) kkind p0 said q /\
         messages enc said k = filter (of_topic k) (arrived cl1) ++ given_multi cl2 es2 id ++ rest) /\
      (found_empty_multi cl2 es2 id -> (forall l, u_own_step l = true -> u_step l u = None) ->
       exists said, says (SCtx := SCtx) kkind p0 said (HRet tt) /\
         messages enc said k = filter (of_topic k) (arrived cl1) ++ given_multi cl2 es2 id).
    Proof.
      destruct (C87_multi_nothing_missed std can_spawn kkind spawn_ctxt d enc task bg cfg txlen rxlen consumes mps outcome Hsizes ctx0 ls1 ls2 u1 u2 u cl1 cl2 es1 es2 o id
        Hrun1 Hsub Hrun2 Herr1 Herr2 Hall eps tin tout ea ta Hdisp Hdev Hkk Hhand Hlab1 Hlab2 Hrecv k depth eq_refl Hkept Honly Hup) as [[rest P] Q].
      split.
      - destruct (usb_link std can_spawn kkind spawn_ctxt d enc task bg cfg txlen rxlen consumes mps outcome Hsizes ctx0 ls1 ls2 u1 u2 u cl1 cl2 es1 es2 _ id Hrun1 Hsub Hrun2 Herr1 Herr2 Hall)
          as (l1 & l2 & a1 & a2 & a & W & [R1 Rs R2 K1 K2 O1 O2 E1 E2] & _).
        pose proof (run_then std net can_spawn kkind spawn_ctxt d enc task cfg _ _ _ _ _ _ _ _ _ R1 (run_then std net can_spawn kkind spawn_ctxt d enc task cfg _ _ _ _ _ _ _ _ _ Rs R2)) as R.
        destruct (sole_said _ _ _ _ R) as (said & q & S & M & _). exists said, q, rest. split; [exact S|]. rewrite <- M, E2. exact P.
      - intros Fe Rest.
        destruct (usb_link_rest std can_spawn kkind spawn_ctxt d enc task bg cfg txlen rxlen consumes mps outcome Hsizes ctx0 ls1 ls2 u1 u2 u cl1 cl2 es1 es2 _ id Hrun1 Hsub Hrun2 Herr1 Herr2 Hall Rest)
          as (l1 & l2 & a1 & a2 & a & [R1 Rs R2 K1 K2 O1 O2 E1 E2] & Rst).
        pose proof (run_then std net can_spawn kkind spawn_ctxt d enc task cfg _ _ _ _ _ _ _ _ _ R1 (run_then std net can_spawn kkind spawn_ctxt d enc task cfg _ _ _ _ _ _ _ _ _ Rs R2)) as R.
        destruct (sole_said _ _ _ _ R) as (said & q & S & M & D). rewrite (D Rst) in S. exists said. split; [exact S|]. rewrite <- M, E2. exact (Q Fe Rest).
    Qed.
  End Sole.

  (** *** Logging *)
  Section Logging.
    Variable raw : list N -> Val.
    Hypothesis Hraw : forall b, enc (PVal (raw b)) = b.
    Variable usz : nat.
    Hypothesis Husz : usz = 4 \/ usz = 8.
    Hypothesis Hbytes : Forall byte_ok (k8_bytes k).
    Variable i : nat.
    Variable calls : list NCall.
    Hypothesis Hi : nth_error bg i = Some (logger raw usz k kkind txlen calls).
    Hypothesis Hout : Forall (goes_out usz k kkind txlen) calls.

    Lemma tx_small : (N.of_nat txlen < 2 ^ (8 * N.of_nat usz))%N.
    Proof.
      destruct Hsizes as (_ & _ & _ & L). clear - L Husz. destruct Husz as [-> | ->].
      - apply N.le_lt_trans with 1024%N; [lia|reflexivity].
      - apply N.le_lt_trans with 1024%N; [lia|reflexivity].
    Qed.
    Notation text c := (call_text (snd c)).

    (** If only one task logs, the host program of logging.rs prints the texts of its log
        calls, in order, without gaps: those of the calls whose messages had not reached
        the host when it subscribed.  Its loop goes on, and once the system is at rest the
        text of the last call has been printed. *)
    Theorem C88_host_prints_the_log :
      is_topic_out tout k -> only_publisher std kkind ea ta task bg k i ->
      let early := length (filter (of_topic k) (arrived cl1)) in
      let '(lines, going) := print_logs (recvs cl2 es2 id) in
      going = true /\
      (exists later, skipn early (map (fun c => text c) calls) = lines ++ later) /\
      (found_empty_multi cl2 es2 id -> (forall l, u_own_step l = true -> u_step l u = None) ->
       lines = skipn early (map (fun c => text c) calls)).
    Proof.
      intros Hk Hsole early. destruct open_all_along as [NL NC]. rewrite (prints_given _ _ _ NL NC). split; [reflexivity|].
      destruct (C88_only_publisher i _ Hk Hi Hsole) as [(said & q & rest & S & M) F].
      set (G := given_multi cl2 es2 id) in *. set (E := filter (of_topic k) (arrived cl1)) in *.
      assert (Cut : forall made todo rest, calls = made ++ todo -> map (log_rpc usz k kkind txlen) made = E ++ G ++ rest ->
        skipn early (map (fun c => text c) calls) = texts_of G ++ texts_of rest ++ map (fun c => text c) todo).
      { intros made todo rest0 Ec Em. rewrite Ec in Hout. apply Forall_app in Hout as [Ho _].
        assert (early <= length made). { unfold early. fold E. rewrite <- (map_length (log_rpc usz k kkind txlen) made), Em, app_length. lia. }
        rewrite Ec, map_app, skipn_app, map_length, (proj2 (Nat.sub_0_le early (length made))) by lia. cbn [skipn].
        rewrite app_assoc. f_equal. rewrite skipn_map.
        rewrite <- (texts_rpc usz k kkind txlen Husz tx_small Hbytes) by (apply Forall_forall; intros c Hc; rewrite Forall_forall in Ho; apply Ho; rewrite <- (firstn_skipn early made); apply in_app_iff; auto).
        rewrite <- skipn_map, Em. unfold early. fold E. rewrite skipn_app, skipn_all, Nat.sub_diag. cbn [app skipn]. apply flat_map_app. }
      split.
      - destruct (logger_says usz k kkind txlen enc raw Hraw _ _ _ S) as (made & todo & Ec & _ & Em & _). rewrite Em in M.
        rewrite (Cut _ _ _ Ec M). eexists. reflexivity.
      - intros Fe Rest. destruct (F Fe Rest) as (said' & S' & M').
        destruct (logger_says usz k kkind txlen enc raw Hraw _ _ _ S') as (made & todo & Ec & Et & Em & _). rewrite Em in M'.
        symmetry in Et. apply logger_done in Et. subst todo. rewrite <- (app_nil_r G) in M'. rewrite (Cut _ _ _ Ec M'). cbn. rewrite app_nil_r. reflexivity.
    Qed.

    (** The messages that reach the host then bear consecutive numbers, modulo 2^16: the
        first is that of the first call whose message had not reached the host when it
        subscribed. *)
    Theorem C88_numbers_without_gaps :
      is_topic_out tout k -> only_publisher std kkind ea ta task bg k i ->
      forall first made, (first < 65536)%N -> calls = numbered first made ->
      let early := length (filter (of_topic k) (arrived cl1)) in
      forall j f, nth_error (given_multi cl2 es2 id) j = Some f ->
        hdr_seq (f_hdr f) = Seq2 ((first + N.of_nat (early + j)) mod 65536)%N.
    Proof.
      intros Hk Hsole first cs Hf Ecs early j f Hj.
      destruct (C88_only_publisher i _ Hk Hi Hsole) as [(said & q & rest & S & M) _].
      destruct (logger_says usz k kkind txlen enc raw Hraw _ _ _ S) as (made & todo & Ec & _ & Em & _). rewrite Em in M.
      assert (Hn : nth_error (map (log_rpc usz k kkind txlen) made) (early + j) = Some f).
      { rewrite M. unfold early. rewrite nth_error_app2 by lia. rewrite nth_error_app1.
        - replace (_ + j - _) with j by lia. exact Hj.
        - replace (_ + j - _) with j by lia. apply nth_error_Some. congruence. }
      rewrite nth_error_map in Hn. destruct (nth_error made (early + j)) as [c|] eqn:Hc; [|discriminate]. cbn in Hn. injection Hn as <-.
      unfold log_rpc, out_header. cbn [f_hdr hdr_seq]. f_equal. apply (numbered_nth cs _ _ _ Hf). rewrite <- Ecs, Ec.
      rewrite nth_error_app1; [exact Hc|]. apply nth_error_Some. congruence.
    Qed.

    (** If others log, too, the texts of the calls of each task are printed in order, in
        between those of others: calls made before the subscription may be missing, those
        made after it are there. *)
    Theorem C88_every_logger_is_heard :
      found_empty_multi cl2 es2 id -> (forall l, u_own_step l = true -> u_step l u = None) ->
      exists before after, calls = before ++ after /\
        subsequence (map (fun c => text c) before) (texts_of (messages enc (u_trace u1) k)) /\
        subsequence (map (fun c => text c) after) (fst (print_logs (recvs cl2 es2 id))).
    Proof.
      intros Fe Rest. destruct open_all_along as [NL NC]. rewrite (prints_given _ _ _ NL NC). cbn [fst].
      destruct (usb_link_rest std can_spawn kkind spawn_ctxt d enc task bg cfg txlen rxlen consumes mps outcome Hsizes ctx0 ls1 ls2 u1 u2 u cl1 cl2 es1 es2 _ id Hrun1 Hsub Hrun2 Herr1 Herr2 Hall Rest)
        as (l1 & l2 & a1 & a2 & a & [R1 Rs R2 K1 K2 O1 O2 E1 E2] & Rst).
      destruct (C77_tasks_are_heard_multi std net can_spawn kkind spawn_ctxt d enc task bg cfg eps tin tout ea ta Hdisp Hdev Hkk Hhand ctx0 k depth id l1 l2 a1 a2 a cl1 cl2 es1 es2
        R1 R2 Hlab1 Hlab2 Hrecv K2 O2 Rst Rs Hkept Honly Hup Fe i (logger raw usz k kkind txlen calls)) as (bf & af & S & B & A).
      { unfold programs. rewrite nth_error_app1 by (apply nth_error_Some; congruence). exact Hi. }
      destruct (says_app _ _ _ _ _ S) as (q & S1 & S2).
      destruct (logger_says usz k kkind txlen enc raw Hraw _ _ _ S1) as (b & todo & Ec & -> & Eb & _).
      destruct (logger_says usz k kkind txlen enc raw Hraw _ _ _ S2) as (m & todo' & Ec' & Et & Em & _).
      symmetry in Et. apply logger_done in Et. rewrite Et, app_nil_r in Ec'. rewrite Ec' in Ec. rewrite Ec in Hout. apply Forall_app in Hout as [O3 O4].
      exists b, m. split; [exact Ec|].
      rewrite <- !(texts_rpc usz k kkind txlen Husz tx_small Hbytes) by assumption. rewrite <- Eb, <- Em, <- E1. split.
      - unfold texts_of, messages. apply subsequence_flat_map, subsequence_flat_map. exact B.
      - unfold texts_of at 1. apply subsequence_flat_map. exact A.
    Qed.
  End Logging.
End T.
Print Assumptions C88_only_publisher.
Print Assumptions C88_host_prints_the_log.
Print Assumptions C88_numbers_without_gaps.
Print Assumptions C88_every_logger_is_heard.
