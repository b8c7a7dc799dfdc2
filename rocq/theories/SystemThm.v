(** Theorems about a client and a server joined by links: C49, C50, C51. *)
From Coq Require Import NArith List Bool Arith Lia Permutation.
From Verif Require Import KeyModel HeaderModel KeySpec HeaderSpec KeyProof HeaderProof MinKeyModel MinKeySpec MinKeyProof
  SchemaModel MacroModel PostcardModel DispatchModel DispatchSpec DispatchProof SubModel SubSpec
  ClientModel ClientSpec ClientProof ClientHist ClientMore ClientOut ClientThm ClientThm3.
From Verif Require Import DispatchModel DispatchSpec SystemModel SystemSpec SystemProof.
Import ListNotations.

Lemma filter_one {A B} (P : A -> B -> Prop) (q : B -> bool) x0 xs fs :
  Forall2 P xs fs -> NoDup xs -> (forall x f, P x f -> q f = true -> x = x0) -> length (filter q fs) <= 1.
Proof.
  intros F ND H. induction F as [|x f xs fs Hp F IH]; [cbn; lia|]. inversion ND as [|? ? Nx ND']; subst. cbn [filter].
  destruct (q f) eqn:E; [|auto]. rewrite (H _ _ Hp E) in Nx.
  assert (Z : filter q fs = []).
  { clear - F H Nx. induction F as [|x f xs fs Hp F IH]; auto. cbn. destruct (q f) eqn:E.
    - exfalso. apply Nx. left. eauto.
    - apply IH. intros Hi. apply Nx. right. auto. }
  rewrite Z. cbn. lia.
Qed.
Lemma perm_filter {A} (q : A -> bool) l l' : Permutation l l' -> length (filter q l) = length (filter q l').
Proof.
  induction 1; cbn; auto; try congruence.
  - destruct (q x); cbn; auto.
  - destruct (q x), (q y); reflexivity.
Qed.

(** A client whose server always uses the key length [k], at which the error key
    differs from the reply keys of all requests, never refuses a request itself. *)
Lemma no_bad_response cfg k ls c es :
  run cfg ls client_new = Some (c, es) ->
  (forall f key, ~ In (LRequestRaw f key) ls) -> (N.of_nat (typed ls) <= 4294967296)%N ->
  (forall f, In f (arrived ls) -> varkey_kind (hdr_key (f_hdr f)) = k) ->
  (forall req resp body, In (LRequest req resp body) ls ->
     compact (klen k) (k8_bytes (cfg_err_key cfg)) <> compact (klen k) (k8_bytes resp)) ->
  forall r, ~ In (r, BadResponse) (results es).
Proof.
  revert ls c es. apply (run_ind cfg (fun ls c es =>
    (forall f key, ~ In (LRequestRaw f key) ls) -> (N.of_nat (typed ls) <= 4294967296)%N ->
    (forall f, In f (arrived ls) -> varkey_kind (hdr_key (f_hdr f)) = k) ->
    (forall req resp body, In (LRequest req resp body) ls ->
       compact (klen k) (k8_bytes (cfg_err_key cfg)) <> compact (klen k) (k8_bytes resp)) ->
    forall r, ~ In (r, BadResponse) (results es))); [cbn; auto|].
  intros ls c es l c' e Hrun IH Hs Hraw Ht Hk Hd r Hr.
  assert (Hraw' : forall f key, ~ In (LRequestRaw f key) ls) by (intros f key Hi; eapply Hraw; apply in_app_iff; eauto).
  rewrite typed_app in Ht. rewrite arrived_app in Hk.
  assert (Hk' : forall f, In f (arrived ls) -> varkey_kind (hdr_key (f_hdr f)) = k) by (intros; apply Hk, in_app_iff; auto).
  assert (Hd' : forall req resp body, In (LRequest req resp body) ls ->
       compact (klen k) (k8_bytes (cfg_err_key cfg)) <> compact (klen k) (k8_bytes resp)) by (intros; eapply Hd, in_app_iff; eauto).
  rewrite results_app in Hr. apply in_app_iff in Hr as [Hr|Hr]. { eapply IH; eauto. lia. }
  rewrite (step_results _ _ _ _ _ Hs) in Hr. destruct (result_of e) as [p|] eqn:Er; [|destruct Hr]. destruct Hr as [->|[]].
  pose proof (step_cstep _ _ _ _ _ Hs) as HC. rewrite Er in HC.
  destruct (cstep_result_inv _ _ _ _ _ _ _ _ HC) as (q & Hq & _ & _ & _ & (b & kk & Hdup & Hpc)).
  unfold is_duplicate in Hdup. apply existsb_exists in Hdup as (w & Hw & Hh).
  destruct (wi_from _ _ _ (reach_cinv _ _ _ _ Hrun) _ Hw) as (q2 & kk2 & Hq2 & Hreg & _ & Ew).
  destruct (reach_issued _ _ _ _ Hrun) as (_ & HL & HM).
  assert (Num : forall r' q', nth_error (c_reqs c) r' = Some q' -> exists req body,
     In (LRequest req (rq_resp q') body) ls /\ hdr_seq (f_hdr (rq_frame q')) = Seq4 (N.of_nat r')).
  { intros r' q' H'. destruct (nth_error (issued 0 ls) r') as [[sent resp]|] eqn:Hi.
    2:{ apply nth_error_None in Hi. assert (r' < length (c_reqs c)) by (apply nth_error_Some; congruence). lia. }
    destruct (issued_typed _ _ _ _ _ Hraw' Hi) as (Lr & req & body & Hin & Es). pose proof (HM _ _ _ Hi H') as M.
    exists req, body. pose proof (proj1 M) as M1. cbn [snd] in M1. rewrite M1. split; auto.
    rewrite (made_seq _ _ M). cbn [fst]. rewrite Es. cbn [f_hdr hdr_seq]. rewrite N.mod_small by lia. reflexivity. }
  destruct (Num _ _ Hq) as (req1 & body1 & In1 & S1). destruct (Num _ _ Hq2) as (req2 & body2 & In2 & S2).
  apply header_eqb_iff in Hh as [Hh1 Hh2]. rewrite Ew in Hh1, Hh2.
  assert (SQ : forall bb qq kq, hdr_seq (whdr cfg bb qq kq) = hdr_seq (f_hdr (rq_frame qq))) by (intros [] ? ?; reflexivity).
  rewrite !SQ, S1, S2 in Hh2. cbn [seq_value] in Hh2. apply Nat2N.inj in Hh2. rewrite Hh2, Hq in Hq2. injection Hq2 as <-.
  destruct b, Hpc as [_ Hpc]; rewrite Hpc in Hreg; [|destruct (w_err w); discriminate].
  destruct (w_err w); [discriminate|]. injection Hreg as <-.
  unfold whdr, ok_header, err_header in Hh1. cbn [hdr_key] in Hh1.
  assert (L : klen k <= klen kk).
  { destruct (reach_adopt cfg k _ _ _ Hrun Hk') as (_ & _ & A3).
    destruct (A3 r q kk Hq ltac:(rewrite Hpc; reflexivity)) as [->|[-> _]]; auto. apply klen_le_8. }
  eapply Hd'; [exact In1|]. symmetry.
  apply varkey_eqb_spec in Hh1. rewrite !vlen_shrunk, Nat.min_id in Hh1. unfold agree_at in Hh1.
  rewrite !shrink_bytes, !vlen8, !Nat.min_l in Hh1 by apply klen_le_8.
  assert (Z : forall key, compact (klen k) (compact (klen kk) (compact (klen kk) (varkey_bytes (VKey8 key)))) = compact (klen k) (k8_bytes key)).
  { intros key. rewrite (compact_compact (VKey8 key) kk kk), (compact_compact (VKey8 key) k kk); rewrite ?vlen8; auto; apply klen_le_8. }
  rewrite <- !Z, Hh1. reflexivity.
Qed.

Section T.
  Context {Val Ctx SCtx : Type}.
  Variable std : StdKeys.
  Variable net : Trace Val SCtx -> VarHeader -> Payload Val -> TxRes.
  Variable can_spawn : Trace Val SCtx -> nat -> bool.
  Variable kkind : VarKeyKind.
  Variable spawn_ctxt : Ctx -> Ctx * SCtx.
  Variable enc : Payload Val -> list N.
  Variable task : nat -> SCtx -> VarHeader -> Val -> HProg Val unit.
  Variable bg : list (HProg Val unit).
  Variable cfg : Config.
  Variable eps : EndpointMap.
  Variable tin tout : TopicMap.
  Variable ea : list (EpArm Val Ctx).
  Variable ta : list (TpArm Val Ctx).
  Variable d : Dispatcher Val Ctx.

  Hypothesis Hdisp : dispatcher_for eps tin tout ea ta d.
  Hypothesis Hdev : device_ok std eps tout ea.
  Hypothesis Hhand : handlers_ok std tout ea ta task bg.
  Hypothesis Hkk : klen (d_kind _ _ d) <= klen kkind.

  Notation sys_run := (sys_run Val Ctx SCtx std net can_spawn kkind spawn_ctxt d enc task cfg).
  Notation sys_new := (sys_new Val Ctx SCtx).

  Variable ctx0 : Ctx.
  Variable ls : list SysLabel.
  Variable s : Sys Val Ctx SCtx.
  Variable cl : list Label.
  Variable es : list (list Ev).
  Hypothesis Hrun : sys_run ls (sys_new bg ctx0) = Some (s, cl, es).
  Hypothesis Hlab : Forall (label_ok eps tin) cl.
  Hypothesis Hcount : (N.of_nat (typed cl) <= 2 ^ 32)%N.
  Notation tr := (y_trace _ _ _ s).

  Notation R := (reach_sys std net can_spawn kkind spawn_ctxt enc task bg cfg eps tin tout ea ta d Hdisp Hhand _ _ _ _ _ Hrun).
  Notation Count := (Hcount : (N.of_nat (typed cl) <= 4294967296)%N).

  (** ** C49 End-to-end correctness *)

  (** No handler is run twice for one request. *)
  Theorem C49_at_most_one_run :
    forall r req resp body,
      nth_error (issued 0 cl) r = Some (MkFrame (MkHeader (VKey8 req) (Seq4 (N.of_nat r))) body, resp) ->
      length (runs_for req (N.of_nat r) tr) <= 1.
  Proof.
    intros r req resp body Hr. destruct R as (handled & HI).
    assert (Hreq : In req (map ep_req (em_endpoints eps))).
    { destruct (issued_seq_ok eps tin cl Hlab _ _ _ Hr) as (req' & body' & He & E & _). injection E as <- _ <-. eapply endpoint_in; eauto. }
    set (q := fun b => match take_from_slice b with
                       | Done (Some (hdr, _)) => (varkey_eqb (VKey8 req) (hdr_key hdr) && (seq_value (hdr_seq hdr) =? N.of_nat r)%N)%bool
                       | _ => false end).
    assert (L1 : length (runs_for req (N.of_nat r) tr) <= length (filter q handled)).
    { destruct (si_inv _ _ _ _ _ _ _ _ _ _ _ _ _ _ _ _ _ HI) as (pieces & F & E). unfold runs_for. rewrite E. clear E HI.
      induction F as [|b piece handled' pieces' Hp F IH]; [cbn; lia|]. cbn [concat]. rewrite filter_app, app_length. cbn [filter].
      assert (Hp' : piece = [] \/ exists n hdr x body', piece = [(n, hdr, x)] /\ take_from_slice b = Done (Some (hdr, body'))).
      { destruct Hp as [->|(hdr & body' & Ht & [->|[(a & v & _ & _ & _ & _ & ->)|(a & v & _ & _ & _ & _ & ->)]])]; auto; right; do 4 eexists; eauto. }
      destruct Hp' as [->|(n & hdr & x & body' & -> & Ht)].
      - cbn [filter length]. destruct (q b); cbn [length]; lia.
      - cbn [filter fst snd]. unfold q at 1. rewrite Ht. destruct (_ && _)%bool; cbn [length]; lia. }
    destruct (C59_in_order_once _ _ _ _ (si_run _ _ _ _ _ _ _ _ _ _ _ _ _ _ _ _ _ HI)) as (ND & frames & F & (rest & E) & _).
    assert (L2 : length (filter (fun f => q (rpc_to_bytes f)) frames) <= 1).
    { eapply (filter_one _ _ (inl r)); [exact F|exact ND|]. intros x f (g & kk & Hkd & -> & Hg) Hq.
      pose proof (seen_le std net can_spawn kkind spawn_ctxt enc task bg cfg eps tin tout ea ta d Hdisp Hhand _ _ _ _ _ HI _ Hkd) as Lk.
      assert (Ly : forall k2, varkey_eqb (VKey8 req) (shrink_to (VKey8 k2) kk) = true -> compact (klen kk) (k8_bytes req) = compact (klen kk) (k8_bytes k2)).
      { intros k2 Hv. apply varkey_eqb_spec in Hv. rewrite vlen_shrunk, vlen8, Nat.min_r in Hv by apply klen_le_8. unfold agree_at in Hv.
        rewrite shrink_bytes, vlen8, Nat.min_l in Hv by apply klen_le_8.
        rewrite (compact_compact (VKey8 k2) kk kk) in Hv; auto. rewrite vlen8. apply klen_le_8. }
      unfold q, rpc_to_bytes, shrink_frame in Hq. cbn [f_hdr f_body] in Hq. destruct x as [r2|i].
      - destruct Hg as (resp2 & Hr2). destruct (issued_asked eps tin cl Hlab _ _ _ Hr2) as (req2 & body2 & As2 & ->).
        cbn [f_hdr f_body hdr_seq hdr_key] in Hq.
        rewrite take_written_ok in Hq by (cbn; apply N.mod_lt; discriminate). cbn [hdr_seq hdr_key seq_value] in Hq.
        apply andb_true_iff in Hq as [_ Hq2]. apply N.eqb_eq in Hq2. rewrite (asked_num kkind eps tin d Hkk cl Hlab Count _ _ _ _ As2) in Hq2.
        apply Nat2N.inj in Hq2. congruence.
      - exfalso. assert (Hl : label_ok eps tin (LPublish g)).
        { rewrite Forall_forall in Hlab. apply Hlab. apply nth_error_In in Hg. unfold published in Hg. apply in_flat_map in Hg as (l & Hl & Hi).
          destruct l; try destruct Hi; [subst; auto|destruct H]. }
        destruct Hl as (key & Hk & Ek & Hok). rewrite take_written_ok in Hq by exact Hok. cbn [hdr_seq hdr_key] in Hq. rewrite Ek in Hq.
        apply andb_true_iff in Hq as [Hq1 _]. apply Ly in Hq1.
        destruct Hdisp as (_ & _ & D & _).
        destruct (D kk (Nat.le_trans _ _ _ Hkk Lk)) as [D5 _]. exact (distinct_app_disj _ _ _ _ _ D5 Hreq Hk Hq1). }
    destruct (si_up _ _ _ _ _ _ _ _ _ _ _ _ _ _ _ _ _ HI) as (lost & P). apply (perm_filter q) in P. rewrite filter_app, app_length in P.
    assert (L3 : length (filter q (map rpc_to_bytes frames)) = length (filter (fun f => q (rpc_to_bytes f)) frames)).
    { clear. induction frames; cbn; auto. destruct (q _); cbn; auto. }
    rewrite E, filter_app, app_length in L3. lia.
  Qed.

  (** A request that returns a reply returns what its own endpoint answered to that
      very request, whole unless the link cut it short, in which case the end is
      missing.  (That the error key is not taken for a response key is not
      guaranteed by the library: see C50.) *)
  Hypothesis Herr : ~ In (compact (klen kkind) (k8_bytes (error_key std)))
                        (map (fun k => compact (klen kkind) (k8_bytes k)) (map ep_resp (em_endpoints eps))).

  Theorem C49_reply_is_the_answer :
    forall r f,
      In (r, GotReply f) (results es) ->
      exists req resp body p,
        nth_error (issued 0 cl) r = Some (MkFrame (MkHeader (VKey8 req) (Seq4 (N.of_nat r))) body, resp) /\
        (exists missing, enc p = f_body f ++ missing) /\
        (uncut ls -> f_body f = enc p) /\
        answer_of std ea task net kkind d tr req (N.of_nat r) body p.
  Proof.
    intros r f Hr. destruct R as (handled & HI). pose proof (si_run _ _ _ _ _ _ _ _ _ _ _ _ _ _ _ _ _ HI) as Hc.
    destruct (proj1 (C30_answer_matches _ _ _ _ r f Hc) Hr) as (sent & resp & kk & Hi & Ha & Hk & Hm).
    pose proof (seen_le std net can_spawn kkind spawn_ctxt enc task bg cfg eps tin tout ea ta d Hdisp Hhand _ _ _ _ _ HI _ Hk) as Lk.
    destruct (arrived_class std net can_spawn kkind spawn_ctxt enc task bg cfg eps tin tout ea ta d Hdisp Hdev Hhand Hkk _ _ _ _ _ HI Hlab _ Ha)
      as (w & key & sq & p & r0 & x & Hs & Hok & Hfh & Hfb & Hfx). destruct f as [fh fb]. cbn [f_hdr f_body] in Hfh, Hfb |- *. subst fh.
    apply (answers_key kkind d Hkk _ _ _ _ _ _ Lk) in Hm as [Hsq Hkey].
    destruct (issued_asked eps tin cl Hlab _ _ _ Hi) as (req & body & As & ->). cbn [f_hdr hdr_seq seq_value] in Hsq.
    destruct (send_class std net can_spawn kkind spawn_ctxt enc task bg cfg eps tin tout ea ta d Hdisp Hdev Hhand Hkk _ _ _ _ _ HI Hlab _ _ _ _ Hs)
      as (key' & sq' & E & _ & Cls). pose proof (f_equal hdr_key E) as E1. pose proof (f_equal hdr_seq E) as E2.
    cbn [out_header hdr_key hdr_seq] in E1, E2. subst sq'. clear E.
    assert (Ek : compact (klen kkind) (k8_bytes key) = compact (klen kkind) (k8_bytes key')).
    { assert (X : forall k, varkey_bytes (shrink_to (VKey8 k) kkind) = compact (klen kkind) (k8_bytes k)).
      { intros k. rewrite shrink_bytes, vlen8, Nat.min_l by apply klen_le_8. reflexivity. }
      rewrite <- !X, E1. reflexivity. }
    rewrite Ek in Hkey. pose proof As as [Hep _]. pose proof (endpoint_in _ _ _ Hep) as [_ Hresp].
    destruct Hdisp as (_ & _ & D & _). destruct (D kkind Hkk) as [_ D2].
    destruct Cls as [Ht|[(-> & _)|(r2 & req2 & resp2 & body2 & As2 & -> & [(-> & _)|(-> & An)])]].
    - exfalso. exact (distinct_app_disj _ _ _ _ _ D2 Hresp Ht Hkey).
    - exfalso. apply Herr. rewrite <- Hkey. apply in_map_iff. eauto.
    - exfalso. apply Herr. rewrite <- Hkey. apply in_map_iff. eauto.
    - cbn [seq_value] in Hsq. destruct (asked_same kkind eps tin d Hkk cl Hlab Count _ _ _ _ _ _ _ _ As As2 (eq_sym Hsq)) as (<- & <- & <- & <-).
      rewrite (asked_num kkind eps tin d Hkk cl Hlab Count _ _ _ _ As) in *.
      exists req, resp, body, p. destruct As as [_ As]. rewrite (asked_num kkind eps tin d Hkk cl Hlab Count _ _ _ _ (conj Hep As)) in As.
      split; [auto|]. split; [eauto|]. split; [|auto]. intros U. rewrite Hfb, (Hfx U), app_nil_r. reflexivity.
  Qed.

  (** ** C50 Errors are never mistaken for responses (where the keys allow it) *)

  (** With an error key that differs from the response keys at the server's key
      length, no request is refused by the client itself. *)
  Theorem C50_requests_can_be_issued_partial :
    cfg_err_key cfg = error_key std ->
    forall r, ~ In (r, BadResponse) (results es).
  Proof.
    intros Hce r Hr. destruct R as (handled & HI). pose proof (si_run _ _ _ _ _ _ _ _ _ _ _ _ _ _ _ _ _ HI) as Hc.
    assert (Hresp : forall req resp body, In (LRequest req resp body) cl ->
      compact (klen kkind) (k8_bytes (cfg_err_key cfg)) <> compact (klen kkind) (k8_bytes resp)).
    { intros req resp body Hi E. rewrite Forall_forall in Hlab. pose proof (Hlab _ Hi) as Hep.
      apply Herr. rewrite <- Hce, E. apply in_map_iff. exists resp. split; auto. apply (endpoint_in _ _ _ Hep). }
    assert (Hkd : forall f, In f (arrived cl) -> varkey_kind (hdr_key (f_hdr f)) = kkind).
    { intros f Hf. eapply arrived_kind; [exact Hdisp|exact Hhand|exact HI|exact Hf]. }
    eapply no_bad_response; [exact Hc| |exact Hcount|exact Hkd|exact Hresp|exact Hr].
    intros f k. eapply no_raw. exact Hlab.
  Qed.

  (** ... and no error frame completes a request as its reply. *)
  Theorem C50_error_never_a_reply_partial :
    forall r f sq, In (r, GotReply f) (results es) -> f_hdr f <> out_header kkind (error_key std) sq.
  Proof.
    intros r f sq Hr Hf. destruct R as (handled & HI). pose proof (si_run _ _ _ _ _ _ _ _ _ _ _ _ _ _ _ _ _ HI) as Hc.
    destruct (proj1 (C30_answer_matches _ _ _ _ r f Hc) Hr) as (sent & resp & kk & Hi & Ha & Hk & Hm).
    pose proof (seen_le std net can_spawn kkind spawn_ctxt enc task bg cfg eps tin tout ea ta d Hdisp Hhand _ _ _ _ _ HI _ Hk) as Lk.
    destruct f as [fh fb]. cbn [f_hdr] in Hf. subst fh. apply (answers_key kkind d Hkk _ _ _ _ _ _ Lk) in Hm as [_ Hkey].
    destruct (issued_asked eps tin cl Hlab _ _ _ Hi) as (req & body & [Hep _] & _). apply (endpoint_in _ _ _) in Hep as [_ Hresp].
    apply Herr. rewrite <- Hkey. apply in_map_iff. eauto.
  Qed.

  (** ** C51 A wire error is about this very request (where publications allow it) *)
  Hypothesis Herr_topics : ~ In (compact (klen kkind) (k8_bytes (error_key std)))
                               (map (fun k => compact (klen kkind) (k8_bytes k)) (map snd (tm_topics tout))).

  (** If every publication goes to a topic the server has a handler for, a request
      fails with a wire error only if the server refused that very request; the error
      is whole unless the link cut it short. *)
  Theorem C51_error_is_about_this_request_partial :
    cfg_err_key cfg = error_key std ->
    (forall g, In g (published cl) -> exists a, In a ta /\ hdr_key (f_hdr g) = VKey8 (ta_key _ _ a)) ->
    forall r f,
      In (r, GotError f) (results es) ->
      exists req resp body p,
        nth_error (issued 0 cl) r = Some (MkFrame (MkHeader (VKey8 req) (Seq4 (N.of_nat r))) body, resp) /\
        (exists missing, enc p = f_body f ++ missing) /\
        (uncut ls -> f_body f = enc p) /\
        refused std ea task net kkind d can_spawn spawn_ctxt tr req (N.of_nat r) body p.
  Proof.
    intros Hce Hpub r f Hr. destruct R as (handled & HI). pose proof (si_run _ _ _ _ _ _ _ _ _ _ _ _ _ _ _ _ _ HI) as Hc.
    destruct (proj2 (C30_answer_matches _ _ _ _ r f Hc) Hr) as (sent & resp & kk & Hi & Ha & Hk & Hm).
    pose proof (seen_le std net can_spawn kkind spawn_ctxt enc task bg cfg eps tin tout ea ta d Hdisp Hhand _ _ _ _ _ HI _ Hk) as Lk.
    destruct (arrived_class std net can_spawn kkind spawn_ctxt enc task bg cfg eps tin tout ea ta d Hdisp Hdev Hhand Hkk _ _ _ _ _ HI Hlab _ Ha)
      as (w & key & sq & p & r0 & x & Hs & Hok & Hfh & Hfb & Hfx). destruct f as [fh fb]. cbn [f_hdr f_body] in Hfh, Hfb |- *. subst fh.
    apply (answers_key kkind d Hkk _ _ _ _ _ _ Lk) in Hm as [Hsq Hkey]. rewrite Hce in Hkey.
    destruct (issued_asked eps tin cl Hlab _ _ _ Hi) as (req & body & As & ->). cbn [f_hdr hdr_seq seq_value] in Hsq.
    destruct (send_class std net can_spawn kkind spawn_ctxt enc task bg cfg eps tin tout ea ta d Hdisp Hdev Hhand Hkk _ _ _ _ _ HI Hlab _ _ _ _ Hs)
      as (key' & sq' & E & _ & Cls). pose proof (f_equal hdr_key E) as E1. pose proof (f_equal hdr_seq E) as E2.
    cbn [out_header hdr_key hdr_seq] in E1, E2. subst sq'. clear E.
    assert (Ek : compact (klen kkind) (k8_bytes key) = compact (klen kkind) (k8_bytes key')).
    { assert (X : forall k, varkey_bytes (shrink_to (VKey8 k) kkind) = compact (klen kkind) (k8_bytes k)).
      { intros k. rewrite shrink_bytes, vlen8, Nat.min_l by apply klen_le_8. reflexivity. }
      rewrite <- !X, E1. reflexivity. }
    rewrite Ek in Hkey.
    destruct Cls as [Ht|[(-> & i & tkey & tbody & er & _ & (_ & _ & Hp) & Hno)|(r2 & req2 & resp2 & body2 & As2 & -> & [(_ & Rf)|(-> & _)])]].
    - exfalso. apply Herr_topics. rewrite Hkey. apply (in_map (fun k => compact (klen kkind) (k8_bytes k))). exact Ht.
    - exfalso. apply Hno. destruct (Hpub _ (nth_error_In _ _ Hp)) as (a & Hia & Hka). cbn in Hka. injection Hka as ->. eauto.
    - cbn [seq_value] in Hsq. destruct (asked_same kkind eps tin d Hkk cl Hlab Count _ _ _ _ _ _ _ _ As As2 (eq_sym Hsq)) as (<- & <- & <- & <-).
      rewrite (asked_num kkind eps tin d Hkk cl Hlab Count _ _ _ _ As) in *.
      exists req, resp, body, p. pose proof As as [Hep As']. rewrite (asked_num kkind eps tin d Hkk cl Hlab Count _ _ _ _ As) in As'.
      split; [auto|]. split; [eauto|]. split; [|auto]. intros U. rewrite Hfb, (Hfx U), app_nil_r. reflexivity.
    - exfalso. apply Herr. rewrite Hkey. apply (in_map (fun k => compact (klen kkind) (k8_bytes k))).
      destruct As2 as [Hep _]. apply (endpoint_in _ _ _ Hep).
  Qed.
End T.
Print Assumptions C49_at_most_one_run.
Print Assumptions C49_reply_is_the_answer.
Print Assumptions C50_requests_can_be_issued_partial.
Print Assumptions C50_error_never_a_reply_partial.
Print Assumptions C51_error_is_about_this_request_partial.
