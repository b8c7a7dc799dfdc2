(** C67, C68: what flows through the whole system. *)
From Coq Require Import NArith List Bool Arith Lia Permutation.
From Verif Require Import KeyModel HeaderModel KeySpec HeaderSpec KeyProof HeaderProof MinKeyModel MinKeySpec MinKeyProof
  SchemaModel MacroModel PostcardModel DispatchModel DispatchSpec DispatchProof SubModel SubSpec SubProof
  ClientModel ClientSpec ClientProof ClientHist ClientMore ClientOut ClientThm ClientThm3.
From Verif Require Import UsbSpec FlowBase SubFlow FlowSpec FlowProof.
From Verif Require Import KeySpec HeaderModel HeaderSpec DispatchModel DispatchSpec SubModel SystemModel SystemSpec SystemProof SystemThm.
Import ListNotations.

(** Decodes whether all server steps took the oldest frame. *)
Lemma up_in_order_dec (ls : list SysLabel) : up_in_order ls \/ ~ up_in_order ls.
Proof.
  induction ls as [|l ls IH]. { left. intros i []. }
  destruct IH as [IH|IH]; [|right; intros H; apply IH; intros i Hi; apply H; right; auto].
  destruct l; try (left; intros j [Hj|Hj]; [discriminate|auto]; fail).
  destruct i; [left; intros j [Hj|Hj]; [injection Hj as <-; auto|auto]|].
  right. intros H. specialize (H (S i) (or_introl eq_refl)). discriminate.
Qed.

Lemma down_in_order_dec (ls : list SysLabel) : down_in_order ls \/ ~ down_in_order ls.
Proof.
  induction ls as [|l ls IH]. { left. intros i []. }
  destruct IH as [IH|IH]; [|right; intros H; apply IH; intros i Hi; apply H; right; auto].
  destruct l; try (left; intros j [Hj|Hj]; [discriminate|auto]; fail).
  destruct i; [left; intros j [Hj|Hj]; [injection Hj as <-; auto|auto]|].
  right. intros H. specialize (H (S i) (or_introl eq_refl)). discriminate.
Qed.

Lemma forall2_app_l {A B} (R : A -> B -> Prop) a1 a2 b : Forall2 R (a1 ++ a2) b -> exists b1 b2, b = b1 ++ b2 /\ Forall2 R a1 b1 /\ Forall2 R a2 b2.
Proof. intros H. apply Forall2_app_inv_l in H as (b1 & b2 & H1 & H2 & ->). eauto. Qed.

(** * From the server to subscribers *)
Section Link.
  Context {Val SCtx : Type}.
  Variable enc : Payload Val -> list N.
  Variable ls : list SysLabel.
  Variable tr : Trace Val SCtx.
  Variable cl : list Label.
  Notation body_of := (body_of enc ls).

  Definition sends (t : Trace Val SCtx) : list (VarHeader * Payload Val) :=
    flat_map (fun e => match e with EvSend _ h p _ => [(h, p)] | _ => [] end) t.
  Definition frame_bytes (x : VarHeader * Payload Val) : list N := rpc_to_bytes (MkFrame (fst x) (enc (snd x))).
  Lemma sends_frames t : frames_sent _ _ enc t = map frame_bytes (sends t).
  Proof. unfold frames_sent, sends. induction t as [|[] t IH]; cbn; auto. rewrite IH. reflexivity. Qed.

  Definition frame_from (f : RpcFrame) (x : VarHeader * Payload Val) : Prop := f_hdr f = fst x /\ body_of f (snd x).

  Lemma thin_arrived bs : forall ss, thin (cut_of ls) bs (map frame_bytes ss) -> (forall h p, In (h, p) ss -> seq_ok (hdr_seq h)) ->
    exists kept, subsequence kept ss /\ Forall2 frame_from (flat_map frame_of bs) kept.
  Proof.
    intros ss T. remember (map frame_bytes ss) as sent eqn:Es. revert ss Es. induction T; intros ss Es Hok.
    - exists []. split; constructor.
    - destruct ss as [|x ss]; [discriminate|]. injection Es as -> ->.
      destruct (IHT ss eq_refl) as (kept & S1 & F1). { intros; eapply Hok; right; eauto. } exists kept. split; auto. constructor; auto.
    - destruct ss as [|[h p] ss]; [discriminate|]. injection Es as -> ->.
      destruct (IHT ss eq_refl) as (kept & S1 & F1). { intros; eapply Hok; right; eauto. }
      cbn [flat_map]. unfold frame_of at 1. destruct (take_from_slice x) as [[[h' b']|]|] eqn:Ht; cbn [app].
      2,3: exists kept; split; auto; constructor; auto.
      exists ((h, p) :: kept). split; [constructor; auto|]. constructor; auto.
      destruct H as [(y & Ey) U]. unfold frame_bytes, rpc_to_bytes in Ey, U. cbn [fst snd f_hdr f_body] in Ey, U.
      assert (B1 : Forall byte_ok (firstn 1 x)).
      { pose proof (first_byte h (enc p) (length x)) as B. rewrite Ey, firstn_app, firstn_all, Nat.sub_diag, app_nil_r in B. exact B. }
      pose proof (take_written_ok h (enc p) (Hok _ _ (or_introl eq_refl))) as Hf. rewrite Ey in Hf.
      destruct (take_cut _ _ _ _ _ _ B1 Ht Hf) as [E1 E2]. split; [auto|]. exists y. cbn [snd f_body]. split; auto.
      intros Un. specialize (U Un). rewrite <- U in Ey. rewrite <- (app_nil_r x) in Ey at 1. apply app_inv_head in Ey. auto.
    - cbn [flat_map]. apply IHT; auto.
  Qed.

  Lemma arrived_recvd : arrived cl = flat_map frame_of (recvd cl).
  Proof.
    unfold arrived, recvd. rewrite flat_map_flat_map. apply flat_map_ext. intros []; auto. cbn. now rewrite app_nil_r.
  Qed.

  Variable more : list (list N).
  Hypothesis Hflow : flow enc ls tr (recvd cl ++ more).
  Hypothesis Hok : forall w h p r, In (EvSend w h p r) tr -> seq_ok (hdr_seq h).

  Lemma down_flow : exists ss kept, Permutation (sends tr) ss /\ (down_in_order ls -> ss = sends tr) /\ subsequence kept ss /\
    Forall2 frame_from (arrived cl) kept.
  Proof.
    destruct Hflow as (sent & P & O & T).
    assert (Hok' : forall h p, In (h, p) (sends tr) -> seq_ok (hdr_seq h)).
    { intros h p Hi. unfold sends in Hi. apply in_flat_map in Hi as (e & He & Hi). destruct e as [w h0 p0 r0| |]; cbn in Hi; try contradiction.
      destruct Hi as [[= <- <-]|[]]. eapply Hok; eauto. }
    rewrite sends_frames in P, O.
    assert (X : exists ss, Permutation (sends tr) ss /\ (down_in_order ls -> ss = sends tr) /\ sent = map frame_bytes ss).
    { destruct (down_in_order_dec ls) as [D|D].
      - exists (sends tr). auto.
      - apply Permutation_sym, Permutation_map_inv in P as (ss & -> & P). exists ss. split; auto. split; auto. intros H. destruct (D H). }
    destruct X as (ss & Pss & Oss & ->). exists ss.
    assert (T1 : thin (cut_of ls) (recvd cl) (map frame_bytes ss)).
    { apply thin_split in T as (s1 & s2 & -> & T1 & _). rewrite <- (app_nil_r (recvd cl)). apply thin_app; auto.
      clear. induction s2; constructor; auto. }
    destruct (thin_arrived _ _ T1) as (kept & S1 & F1). { intros h p Hi. eapply Hok'. eapply Permutation_in; [apply Permutation_sym, Pss|exact Hi]. }
    exists kept. rewrite arrived_recvd. auto.
  Qed.

  Lemma sent_on_sends t k : sent_on t k = map snd (filter (fun x => varkey_eqb (VKey8 k) (hdr_key (fst x))) (sends t)).
  Proof. unfold sent_on, sends. induction t as [|[] t IH]; cbn [flat_map app filter map fst]; auto.
    destruct (varkey_eqb (VKey8 k) (hdr_key h)); cbn [app map snd]; rewrite IH; reflexivity.
  Qed.

  (** The messages of topic [k] that arrived, and any part of them. *)
  Lemma part_of_sent k part : subsequence part (filter (of_topic k) (arrived cl)) ->
    exists ps, Forall2 body_of part ps /\ (exists rest, Permutation (sent_on tr k) (ps ++ rest)) /\
      (down_in_order ls -> subsequence ps (sent_on tr k)).
  Proof.
    intros Sp. destruct down_flow as (ss & kept & P & O & Sk & F).
    assert (G : exists kept', subsequence kept' (filter (fun x => varkey_eqb (VKey8 k) (hdr_key (fst x))) kept) /\ Forall2 frame_from part kept').
    { apply (subseq_forall2 _ _ _ Sp). clear - F. induction F; cbn [filter]; [constructor|]. destruct H as [E H].
      unfold of_topic at 1. rewrite E. destruct (varkey_eqb (VKey8 k) (hdr_key (fst y))); auto. constructor; auto. split; auto. }
    destruct G as (kept' & S1 & F1). exists (map snd kept').
    set (q := fun x : VarHeader * Payload Val => varkey_eqb (VKey8 k) (hdr_key (fst x))) in *.
    assert (S2 : subsequence (map snd kept') (map snd (filter q ss))).
    { apply subseq_map. eapply subseq_trans; [|exact S1]. apply subseq_filter. auto. }
    split; [|split].
    - clear - F1. induction F1; cbn; constructor; auto. apply H.
    - destruct (subseq_perm _ _ S2) as (rest & P2). exists rest. eapply perm_trans; [|exact P2]. rewrite sent_on_sends. apply Permutation_map.
      apply (filter_perm q). exact P.
    - intros D. rewrite sent_on_sends, <- (O D). exact S2.
  Qed.
End Link.

Section Flow.
  Context {Val Ctx SCtx : Type}.
  Variable std : StdKeys.
  Variable net : Trace Val SCtx -> VarHeader -> Payload Val -> TxRes.
  Variable can_spawn : Trace Val SCtx -> nat -> bool.
  Variable kkind : VarKeyKind.
  Variable spawn_ctxt : Ctx -> Ctx * SCtx.
  Variable enc : Payload Val -> list N.
  Variable task : nat -> SCtx -> VarHeader -> Val -> HProg Val unit.
  Variable bg : list (HProg Val unit).
  Variable cfg : Config.
  Variable eps : EndpointMap.
  Variable tin tout : TopicMap.
  Variable ea : list (EpArm Val Ctx).
  Variable ta : list (TpArm Val Ctx).
  Variable d : Dispatcher Val Ctx.

  Hypothesis Hdisp : dispatcher_for eps tin tout ea ta d.
  Hypothesis Hdev : device_ok std eps tout ea.
  Hypothesis Hhand : handlers_ok std tout ea ta task bg.
  Hypothesis Hkk : klen (d_kind _ _ d) <= klen kkind.

  Notation sys_run := (sys_run Val Ctx SCtx std net can_spawn kkind spawn_ctxt d enc task cfg).
  Notation sys_new := (sys_new Val Ctx SCtx).

  Variable ctx0 : Ctx.
  Variable ls : list SysLabel.
  Variable s : Sys Val Ctx SCtx.
  Variable cl : list Label.
  Variable es : list (list Ev).
  Hypothesis Hrun : sys_run ls (sys_new bg ctx0) = Some (s, cl, es).
  Hypothesis Hlab : Forall (label_ok eps tin) cl.
  Notation tr := (y_trace _ _ _ s).
  Notation dk := (d_kind _ _ d).

  Notation R := (reach_sys std net can_spawn kkind spawn_ctxt enc task bg cfg eps tin tout ea ta d Hdisp Hhand _ _ _ _ _ Hrun).

  (** *** From callers to handlers *)

  (** What a call's frame makes the server run. *)
  Lemma started_by handled x f b piece :
    SysInv std net can_spawn kkind spawn_ctxt enc task bg cfg ea ta d ls s cl es handled ->
    frame_for cl es x f -> b = rpc_to_bytes f -> piece_of ea ta d b piece ->
    piece = [] \/ exists i, piece = [i] /\ run_of ea ta cl i x.
  Proof.
    intros HI (g & kk & Hkd & -> & Hg) -> [->|(hdr & body & Ht & St)]; auto.
    pose proof (seen_le std net can_spawn kkind spawn_ctxt enc task bg cfg eps tin tout ea ta d Hdisp Hhand _ _ _ _ _ HI _ Hkd) as Lk.
    destruct Hdisp as (_ & _ & D & I1 & _ & I3).
    destruct (D dk (le_n _)) as [D5 _].
    assert (Same : forall k1 k2, agree_at (klen dk) (shrink_to (VKey8 k1) kk) (VKey8 k2) ->
      compact (klen dk) (k8_bytes k1) = compact (klen dk) (k8_bytes k2)).
    { intros k1 k2 A. rewrite agree_shrunk in A by lia. exact A. }
    unfold rpc_to_bytes, shrink_frame in Ht. cbn [f_hdr f_body] in Ht. destruct x as [r|i].
    - destruct Hg as (resp & Hr). destruct (issued_seq_ok eps tin cl Hlab _ _ _ Hr) as (req & body' & He & -> & Hok). cbn in Hok.
      cbn [f_hdr f_body hdr_seq hdr_key] in Ht. rewrite take_written_ok in Ht by exact Hok. injection Ht as <- <-.
      assert (Hreq : In req (map ep_req (em_endpoints eps))) by (eapply endpoint_in; eauto).
      destruct St as [->|[(a & v & Ia & _ & A & Da & ->)|(a & v & Ia & _ & A & Da & ->)]]; auto; cbn [hdr_key] in A; apply Same in A; right.
      + eexists. split; [reflexivity|]. cbn [run_of hdr_seq]. exists a, body', resp. repeat split; auto.
        assert (req = ea_req _ _ a) as <-; auto. eapply distinct_inj; eauto; apply in_app_iff; left; auto. apply I1. now apply in_map.
      + exfalso. eapply distinct_app_disj; eauto. apply I3. now apply in_map.
    - assert (Hl : label_ok eps tin (LPublish g)).
      { rewrite Forall_forall in Hlab. apply Hlab. apply nth_error_In in Hg. unfold published in Hg. apply in_flat_map in Hg as (l & Hl & Hi).
        destruct l; try destruct Hi; [subst; auto|destruct H]. }
      destruct Hl as (key & Hk & Ek & Hok). rewrite take_written_ok in Ht by exact Hok. injection Ht as <- <-. rewrite Ek in St.
      destruct St as [->|[(a & v & Ia & _ & A & Da & ->)|(a & v & Ia & _ & A & Da & ->)]]; auto; cbn [hdr_key] in A; apply Same in A; right.
      + exfalso. eapply (distinct_app_disj _ _ _ (ea_req _ _ a) key); eauto. apply I1. now apply in_map.
      + eexists. split; [reflexivity|]. cbn [run_of hdr_seq]. exists a, (f_body g). repeat split; auto.
        assert (key = ta_key _ _ a) as <-. { eapply distinct_inj; eauto; apply in_app_iff; right; auto. apply I3. now apply in_map. }
        rewrite <- Ek. destruct g as [[] ?]. exact Hg.
  Qed.

  (** Every run of a handler is due to one call of this client, of that very endpoint or
      topic, and works on what the caller passed; no call makes two runs.  If the link
      keeps the order, handlers run in the order in which the calls were accepted. *)
  Theorem C67_every_run_was_called :
    exists calls, Forall2 (run_of ea ta cl) (invocations tr) calls /\ NoDup calls /\ incl calls (accepted cl es) /\
      (up_in_order ls -> subsequence calls (accepted cl es)).
  Proof.
    destruct R as (handled & HI).
    destruct (C59_in_order_once _ _ _ _ (si_run _ _ _ _ _ _ _ _ _ _ _ _ _ _ _ _ _ HI)) as (ND & frames & F & (rest & E) & _).
    (* the calls whose frames reached the wire *)
    assert (W : exists acc more, accepted cl es = acc ++ more /\ Forall2 (fun b x => exists f, frame_for cl es x f /\ b = rpc_to_bytes f) (wire es) acc).
    { clear - F E. revert frames F E. generalize (wire es). generalize (accepted cl es). intros acc bs frames F.
      revert bs. induction F as [|x f acc frames Hx F IH]; intros bs E.
      - destruct bs; [|discriminate]. exists [], []. split; auto.
      - destruct bs as [|b bs]. { exists [], (x :: acc). split; auto. }
        injection E as Eb E. destruct (IH _ E) as (a1 & m & -> & H2). exists (x :: a1), m. split; auto. constructor; auto. exists f. auto. }
    destruct W as (acc & more & Ea & W).
    assert (Sub : subsequence acc (accepted cl es)).
    { rewrite Ea. rewrite <- (app_nil_r acc) at 1. apply subseq_app; [apply subseq_refl|constructor]. }
    (* the calls whose frames were handled *)
    assert (H : exists hc, Forall2 (fun b x => exists f, frame_for cl es x f /\ b = rpc_to_bytes f) handled hc /\ NoDup hc /\ incl hc (accepted cl es) /\
      (up_in_order ls -> subsequence hc (accepted cl es))).
    { destruct (up_in_order_dec ls) as [U|U].
      - pose proof (si_up_order _ _ _ _ _ _ _ _ _ _ _ _ _ _ _ _ _ HI U) as So. destruct (subseq_forall2 _ _ _ So _ W) as (hc & S1 & F1).
        apply forall2_app_l in F1 as (h1 & h2 & -> & F1 & F2). exists h1.
        assert (S2 : subsequence h1 (accepted cl es)).
        { eapply subseq_trans; [exact Sub|]. eapply subseq_trans; [exact S1|]. rewrite <- (app_nil_r h1) at 1. apply subseq_app; [apply subseq_refl|constructor]. }
        split; auto. split; [eapply subseq_nodup; eauto|]. split; auto. intros x. eapply subseq_in; eauto.
      - destruct (si_up _ _ _ _ _ _ _ _ _ _ _ _ _ _ _ _ _ HI) as (lost & P). destruct (perm_forall2 _ _ _ P _ W) as (hc & P1 & F1).
        apply forall2_app_l in F1 as (h1 & h2 & -> & F1 & F2). exists h1. split; auto. split.
        + assert (ND2 : NoDup (h1 ++ h2)). { eapply Permutation_NoDup; [exact P1|]. eapply subseq_nodup; eauto. }
          eapply subseq_nodup; [|exact ND2]. rewrite <- (app_nil_r h1) at 1. apply subseq_app; [apply subseq_refl|constructor].
        + split; [|intros X; destruct (U X)]. intros x Hx. eapply subseq_in; [exact Sub|]. eapply Permutation_in; [apply Permutation_sym, P1|].
          apply in_app_iff. auto. }
    destruct H as (hc & FH & NDh & Ih & Oh).
    destruct (si_inv _ _ _ _ _ _ _ _ _ _ _ _ _ _ _ _ _ HI) as (pieces & FP & EP). rewrite EP.
    assert (G : exists calls, Forall2 (run_of ea ta cl) (concat pieces) calls /\ subsequence calls hc).
    { assert (Step : forall x f b piece, frame_for cl es x f -> b = rpc_to_bytes f -> piece_of ea ta d b piece ->
        piece = [] \/ exists i, piece = [i] /\ run_of ea ta cl i x) by (intros; eapply started_by; eauto).
      clear - FH FP Step. revert hc FH. induction FP as [|b piece handled pieces Hp FP IH]; intros hc FH; inversion FH; subst.
      - exists []. split; constructor.
      - destruct (IH _ H3) as (calls & F1 & S1). destruct H1 as (f & Hf & ->).
        destruct (Step _ _ _ _ Hf eq_refl Hp) as [->|(i & -> & Hr)]; cbn [concat app].
        + exists calls. split; auto. constructor; auto.
        + exists (y :: calls). split; constructor; auto. }
    destruct G as (calls & FC & SC). exists calls. split; auto. split; [eapply subseq_nodup; eauto|].
    split; [intros x Hx; apply Ih; eapply subseq_in; eauto|]. intros U. eapply subseq_trans; [apply Oh, U|]. exact SC.
  Qed.

  (** *** From the server to subscribers *)
  Lemma sys_part k part : subsequence part (filter (of_topic k) (arrived cl)) ->
    exists ps, Forall2 (body_of enc ls) part ps /\ (exists rest, Permutation (sent_on tr k) (ps ++ rest)) /\
      (down_in_order ls -> subsequence ps (sent_on tr k)).
  Proof.
    destruct R as (handled & HI).
    apply (part_of_sent enc ls tr cl (y_down _ _ _ s)). { exact (si_flow _ _ _ _ _ _ _ _ _ _ _ _ _ _ _ _ _ HI). }
    intros w h p r Hi.
    destruct (send_class std net can_spawn kkind spawn_ctxt enc task bg cfg eps tin tout ea ta d Hdisp Hdev Hhand Hkk _ _ _ _ _ HI Hlab _ _ _ _ Hi) as (key & sq & -> & Hs & _). exact Hs.
  Qed.

  (** What the user of an exclusive subscription to a topic is given are messages that
      the server transmitted under that topic, each at most as often as it was
      transmitted, whole unless the link cut them short, in which case the end is
      missing.  If the link keeps the order, they come in the order in which the server
      transmitted them. *)
  Theorem C68_given_was_sent :
    forall k id, subscribed cl es k id ->
      exists ps, Forall2 (body_of enc ls) (given cl es id) ps /\
        (exists rest, Permutation (sent_on tr k) (ps ++ rest)) /\
        (down_in_order ls -> subsequence ps (sent_on tr k)).
  Proof.
    intros k id Hs. apply sys_part. destruct R as (handled & HI). eapply given_arrived; eauto. exact (si_run _ _ _ _ _ _ _ _ _ _ _ _ _ _ _ _ _ HI).
  Qed.
  (** The same for every broadcast subscription. *)
  Theorem C68_given_multi_was_sent :
    forall k id, subscribed_multi cl es k id ->
      exists ps, Forall2 (body_of enc ls) (given_multi cl es id) ps /\
        (exists rest, Permutation (sent_on tr k) (ps ++ rest)) /\
        (down_in_order ls -> subsequence ps (sent_on tr k)).
  Proof.
    intros k id Hs. apply sys_part. destruct R as (handled & HI). eapply given_multi_arrived; eauto. exact (si_run _ _ _ _ _ _ _ _ _ _ _ _ _ _ _ _ _ HI).
  Qed.
End Flow.
Print Assumptions C67_every_run_was_called.
Print Assumptions C68_given_was_sent.
Print Assumptions C68_given_multi_was_sent.
