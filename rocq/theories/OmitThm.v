(** C86: devices whose tables leave the standard endpoints out ([omit_std = true], as the
    tables of example/workbook-icd/src/lib.rs:14-23 do).  The dispatcher still answers
    "postcard-rpc/ping" and "postcard-rpc/schemas/get" (dispatch_macro.rs:147-163), but
    their keys have no part in the choice of the key length (dispatch_macro.rs:228-246). *)
From Coq Require Import NArith List Bool Arith Lia.
From Verif Require Import KeyModel HeaderModel KeySpec HeaderSpec KeyProof MinKeyModel MinKeySpec MinKeyProof
  SchemaModel MacroModel PostcardModel PostcardProof DispatchModel DispatchSpec DispatchProof DispatchThm
  SubModel ClientModel ClientSpec ClientThm4.
From Verif Require Import DispatchModel DispatchSpec SystemModel SystemSpec SystemProof SystemThm SystemThm2.
Import ListNotations.

(** The endpoint table with the standard endpoints added to it (their paths are of no
    importance here). *)
Definition all_eps (std : StdKeys) (eps : EndpointMap) : EndpointMap :=
  MkEpMap (em_types eps) (([], ping_req std, ping_resp std) :: ([], schemas_req std, schemas_resp std) :: em_endpoints eps).

Section Thm.
  Context {Val Ctx SCtx : Type} (std : StdKeys).
  Variable net : Trace Val SCtx -> VarHeader -> Payload Val -> TxRes.
  Variable can_spawn : Trace Val SCtx -> nat -> bool.
  Variable kkind : VarKeyKind.
  Variable spawn_ctxt : Ctx -> Ctx * SCtx.
  Notation handle := (handle Val Ctx SCtx std net can_spawn kkind spawn_ctxt).

  (** ** Who handles a request: of any dispatcher the macro makes, from tables with or
      without the standard endpoints *)

  (** A request for the endpoint of handler [a] is handled by the built-in ping if the
      two keys look alike at the device's key length; otherwise by the built-in report
      of the tables if they look alike; otherwise by [a]. *)
  Theorem C86_who_handles :
    forall eps tin tout before a after ta d,
      config_ok eps tin tout (before ++ a :: after) ta ->
      define_dispatch Val Ctx eps tin tout (before ++ a :: after) ta = Done d ->
      ~ In (ea_req _ _ a) (map (@ea_req _ _) before) ->
    forall k hdr body ctx tr,
      klen (d_kind _ _ d) <= klen k ->
      hdr_key hdr = shrink_to (VKey8 (ea_req _ _ a)) k ->
      let look k1 k2 := compact (klen (d_kind _ _ d)) (k8_bytes k1) = compact (klen (d_kind _ _ d)) (k8_bytes k2) in
      (look (ea_req _ _ a) (ping_req std) ->
         match from_bytes_u32 body with
         | Some n => exists r, handle d ctx hdr body tr =
             (ctx, r, tr ++ [EvSend ByDispatcher (out_header kkind (ping_resp std) (hdr_seq hdr)) (PPing n) r])
         | None => refused_with std kkind (hdr_seq hdr) DeserFailed ctx tr (handle d ctx hdr body tr)
         end) /\
      (~ look (ea_req _ _ a) (ping_req std) -> look (ea_req _ _ a) (schemas_req std) ->
         exists r reports t, handle d ctx hdr body tr =
             (ctx, r, tr ++ reports ++ [EvSend ByDispatcher (out_header kkind (schemas_resp std) (hdr_seq hdr)) (PSchemaTotals t) r]) /\
           invocations reports = []) /\
      (~ look (ea_req _ _ a) (ping_req std) -> ~ look (ea_req _ _ a) (schemas_req std) ->
         forall req ctx' res tr',
           ea_deser _ _ a body = Some req ->
           (ea_flavor _ _ a = Spawn -> can_spawn tr (ea_name _ _ a) = true) ->
           handle d ctx hdr body tr = (ctx', res, tr') ->
           invocations tr' = invocations tr ++ [(ea_name _ _ a, hdr, req)]).
  Proof.
    intros eps tin tout before a after ta d C E Nb k hdr body ctx tr L Hk look.
    assert (AG : forall b, agree_at (klen (d_kind _ _ d)) (hdr_key hdr) (VKey8 b) <-> look (ea_req _ _ a) b).
    { intros b. rewrite Hk. apply agree_shrunk. exact L. }
    assert (LL : klen (d_kind _ _ d) <= vlen (hdr_key hdr)) by (rewrite Hk, vlen_shrunk; exact L).
    assert (KB : keyb_of (d_kind _ _ d) (hdr_key hdr) = Some (shrink_to (hdr_key hdr) (d_kind _ _ d))).
    { rewrite keyb_of_spec. destruct (Nat.leb_spec (klen (d_kind _ _ d)) (vlen (hdr_key hdr))); [reflexivity|lia]. }
    assert (F : forall b, ~ look (ea_req _ _ a) b -> pat_eqb (shrink_to (hdr_key hdr) (d_kind _ _ d)) (const_key (d_kind _ _ d) b) = false).
    { intros b Nl. apply const_false; [exact LL|]. now rewrite AG. }
    assert (T : forall b, look (ea_req _ _ a) b -> pat_eqb (shrink_to (hdr_key hdr) (d_kind _ _ d)) (const_key (d_kind _ _ d) b) = true).
    { intros b Nl. apply pat_match; [exact LL|]. now rewrite AG. }
    unfold DispatchModel.handle. rewrite KB. split; [|split].
    - intros P. rewrite (T _ P). destruct (from_bytes_u32 body); eexists; reflexivity.
    - intros N P. rewrite (F _ N), (T _ P).
      destruct (send_all_schemas_spec std net can_spawn kkind (hdr_seq hdr) (d_map _ _ d) tr) as (rs & r & _ & ->).
      eexists _, _, _. split; [reflexivity|]. generalize 0.
      induction (all_items (d_map _ _ d)) as [|x xs IH] in rs |- *; destruct rs; cbn; auto.
    - intros N1 N2 req ctx' res tr' Hd Hs. rewrite (F _ N1), (F _ N2).
      destruct (made_for can_spawn _ _ _ _ _ _ C E) as (E1 & E2 & D & I1 & _).
      destruct (D (d_kind _ _ d) (le_n _)) as [D1 _]. rewrite E1, match_eps_skip.
      2: { intros a' Ha'. apply F. intros X. apply Nb. rewrite in_map_iff. exists a'. split; [|exact Ha'].
           symmetry. eapply distinct_inj; [exact D1| | |exact X]; apply in_app_iff; left; apply I1; apply in_map; apply in_app_iff; cbn; auto. }
      cbn [DispatchModel.match_eps]. rewrite T by reflexivity. rewrite Hd. intros H.
      destruct (ep_arm_trace _ _ _ _ _ _ _ _ _ _ _ _ _ H) as (new & -> & M).
      rewrite invocations_app. destruct (ea_flavor _ _ a).
      + destruct M as [-> _]. reflexivity.
      + destruct M as [-> _]. reflexivity.
      + rewrite Hs in M by auto. destruct M as [-> _]. reflexivity.
  Qed.

  (** ** If the standard keys happen to stand apart, everything is as with the standard
      tables *)

  Variable enc : Payload Val -> list N.
  Variable task : nat -> SCtx -> VarHeader -> Val -> HProg Val unit.
  Variable bg : list (HProg Val unit).
  Variable cfg : Config.
  Variable eps : EndpointMap.
  Variable tin tout tout' : TopicMap.
  Variable ea : list (EpArm Val Ctx).
  Variable ta : list (TpArm Val Ctx).
  Variable d : Dispatcher Val Ctx.
  Hypothesis Hconf : config_ok eps tin tout ea ta.
  Hypothesis Hmade : define_dispatch Val Ctx eps tin tout ea ta = Done d.
  Hypothesis Hown : forall a, In a ea -> is_endpoint eps (ea_req _ _ a) (ea_resp _ _ a).
  Hypothesis Hhand : handlers_ok std tout ea ta task bg.
  (** [tout'] is the table of outgoing topics, with the standard topics added if they
      were left out of it, too. *)
  Hypothesis Hout : incl (tm_topics tout) (tm_topics tout').
  Hypothesis Hsch : is_topic_out tout' (schema_topic std).
  (** The standard keys stand apart at the key length of the device. *)
  Hypothesis Hin_apart : distinct_at (klen (d_kind _ _ d))
    (ping_req std :: schemas_req std :: map ep_req (em_endpoints eps) ++ map snd (tm_topics tin)).
  Hypothesis Hout_apart : distinct_at (klen (d_kind _ _ d))
    (ping_resp std :: schemas_resp std :: map ep_resp (em_endpoints eps) ++ map snd (tm_topics tout')).

  (** These are the hypotheses the theorems about whole systems make about a device
      (C49-C51, C66-C80): they hold of this one, with the standard endpoints among those
      a client may call. *)
  Theorem C86_as_with_std_partial :
    dispatcher_for (all_eps std eps) tin tout' ea ta d /\ device_ok std (all_eps std eps) tout' ea /\
    handlers_ok std tout' ea ta task bg.
  Proof.
    destruct (made_for can_spawn _ _ _ _ _ _ Hconf Hmade) as (E1 & E2 & D & I1 & I2 & I3).
    assert (Ht : forall k, is_topic_out tout k -> is_topic_out tout' k).
    { intros k H. unfold is_topic_out in *. rewrite in_map_iff in *. destruct H as (x & Ex & Hx). exists x. auto. }
    split; [|split].
    - split; [exact E1|]. split; [exact E2|]. split.
      { intros k L. split; (eapply distinct_mono; [exact L|]); [exact Hin_apart|exact Hout_apart]. }
      split; [intros x Hx; right; right; apply I1; exact Hx|].
      split; [intros x Hx; right; right; apply I2; exact Hx|exact I3].
    - split; [exists []; left; reflexivity|]. split; [exists []; right; left; reflexivity|]. split; [exact Hsch|].
      intros a Ha. destruct (Hown a Ha) as (path & Hp). exists path. right; right. exact Hp.
    - destruct Hhand as (H1 & H2 & H3 & H4 & H5). split; [|split; [|split; [|split]]].
      + intros a ctx h v key seq p Ha Hm. destruct (H1 a ctx h v key seq p Ha Hm). auto.
      + intros a ctx h v key seq p Ha Hm. destruct (H2 a ctx h v key seq p Ha Hm). auto.
      + intros a sc h v key seq p Ha Hf Hm. destruct (H3 a sc h v key seq p Ha Hf Hm) as [[X Y]|X]; auto.
      + intros a sc h v key seq p Ha Hf Hm. destruct (H4 a sc h v key seq p Ha Hf Hm). auto.
      + intros q key seq p Hq Hm. destruct (H5 q key seq p Hq Hm). auto.
  Qed.

  (** So every reply is the answer of the endpoint called, be it a standard one or one of
      the device's own ... *)
  Hypothesis Hkk : klen (d_kind _ _ d) <= klen kkind.
  Variable ctx0 : Ctx.
  Variable ls : list SysLabel.
  Variable s : Sys Val Ctx SCtx.
  Variable cl : list Label.
  Variable es : list (list Ev).
  Hypothesis Hrun : sys_run Val Ctx SCtx std net can_spawn kkind spawn_ctxt d enc task cfg ls (sys_new Val Ctx SCtx bg ctx0) = Some (s, cl, es).
  Hypothesis Hlab : Forall (label_ok (all_eps std eps) tin) cl.
  Hypothesis Hcount : (N.of_nat (typed cl) <= 2 ^ 32)%N.
  Hypothesis Herr : ~ In (compact (klen kkind) (k8_bytes (error_key std)))
    (map (fun k => compact (klen kkind) (k8_bytes k)) (ping_resp std :: schemas_resp std :: map ep_resp (em_endpoints eps))).

  Theorem C86_reply_is_the_answer_partial :
    forall r f,
      In (r, GotReply f) (results es) ->
      exists req resp body p,
        nth_error (issued 0 cl) r = Some (MkFrame (MkHeader (VKey8 req) (Seq4 (N.of_nat r))) body, resp) /\
        (exists missing, enc p = f_body f ++ missing) /\
        (uncut ls -> f_body f = enc p) /\
        answer_of std ea task net kkind d (y_trace _ _ _ s) req (N.of_nat r) body p.
  Proof.
    destruct C86_as_with_std_partial as (A & B & C).
    exact (C49_reply_is_the_answer std net can_spawn kkind spawn_ctxt enc task bg cfg _ _ _ _ _ _ A B C Hkk _ _ _ _ _ Hrun Hlab Hcount Herr).
  Qed.

  (** ... and a client that calls the standard ping of such a device, as
      workbook-host/src/client.rs:50-57 does, gets its number back. *)
  Theorem C86_ping_is_echoed_partial :
    forall r f n resp,
      In (r, GotReply f) (results es) -> uncut ls -> (n < 2 ^ 32)%N ->
      nth_error (issued 0 cl) r = Some (MkFrame (MkHeader (VKey8 (ping_req std)) (Seq4 (N.of_nat r))) (u32_varint n), resp) ->
      f_body f = enc (PPing n).
  Proof.
    intros r f n resp Hr U Hn Hi. destruct (C86_reply_is_the_answer_partial r f Hr) as (req & resp' & body & p & Hi' & _ & Hb & An).
    rewrite Hi in Hi'. injection Hi' as <- <- <-. rewrite (Hb U). f_equal. unfold distinct_at in Hin_apart.
    destruct C86_as_with_std_partial as ((_ & _ & _ & I1 & _) & _).
    assert (NH : forall a, In a ea -> ea_req _ _ a = ping_req std -> False).
    { intros a Ha Ea. destruct (Hown a Ha) as (path & Hp). inversion Hin_apart as [|x l Nx _]. apply Nx. right.
      rewrite map_app. apply in_app_iff. left. apply in_map_iff. exists (ping_req std). split; [reflexivity|].
      apply in_map_iff. exists (path, ea_req _ _ a, ea_resp _ _ a). split; [exact Ea|exact Hp]. }
    inversion An as [n' _ Hd|t Hq|a ctx hdr v t0 user t1 ctx' reply Ha Ea|a sc hdr v p' Ha Ea]; subst.
    - pose proof (from_bytes_u32_enc n [] Hn) as X. rewrite app_nil_r in X. congruence.
    - exfalso. inversion Hin_apart as [|x l Nx _]. apply Nx. left. now rewrite Hq.
    - exfalso. eauto.
    - exfalso. eauto.
  Qed.
End Thm.
Print Assumptions C86_who_handles.
Print Assumptions C86_as_with_std_partial.
Print Assumptions C86_reply_is_the_answer_partial.
Print Assumptions C86_ping_is_echoed_partial.
