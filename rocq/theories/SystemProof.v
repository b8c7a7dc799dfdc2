(** Lemmas about the whole system. *)
From Coq Require Import NArith List Bool Arith Lia Permutation.
From Verif Require Import KeyModel HeaderModel KeySpec HeaderSpec KeyProof HeaderProof MinKeyModel MinKeySpec MinKeyProof
  SchemaModel MacroModel PostcardModel DispatchModel DispatchSpec DispatchProof SubModel SubSpec
  ClientModel ClientSpec ClientProof ClientHist ClientMore ClientOut ClientThm ClientThm3.
From Verif Require Import UsbSpec FlowBase.
From Verif Require Import HeaderModel HeaderSpec DispatchModel DispatchSpec SubModel SystemModel SystemSpec.
Import ListNotations.

Lemma remove_nth_perm {A} i (l : list A) x : nth_error l i = Some x -> Permutation l (x :: remove_nth i l).
Proof.
  revert l. induction i; destruct l; cbn; intros; try discriminate; [injection H as <-; apply Permutation_refl|].
  eapply perm_trans; [apply perm_skip, IHi; eauto|]. apply perm_swap.
Qed.
Lemma remove_nth_incl {A} i (l : list A) : incl (remove_nth i l) l.
Proof. revert l. induction i; destruct l; cbn; intros x Hx; auto; [right; auto|]. destruct Hx as [<-|Hx]; [left; auto|right; apply IHi; auto]. Qed.

Lemma take_written h body :
  take_from_slice (write_to_vec h ++ body) =
  Done (match take_seq (seq_code (hdr_seq h)) (seq_bytes (hdr_seq h) ++ body) with
        | None => None | Some (s, r) => Some (MkHeader (hdr_key h) s, r) end).
Proof.
  rewrite write_to_vec_eq. cbn [app].
  rewrite take_eq by apply disc_byte_lt.
  assert (Hk : (key_code (hdr_key h) < 4)%N) by (destruct (hdr_key h); cbn; lia).
  assert (Hc : (seq_code (hdr_seq h) < 3)%N) by (destruct (hdr_seq h); cbn; lia).
  unfold disc_byte.
  set (c := key_code (hdr_key h)) in *. set (e := seq_code (hdr_seq h)) in *.
  replace ((64 * c + 16 * e) mod 16)%N with 0%N by lia.
  replace ((64 * c + 16 * e) / 64)%N with c by lia.
  replace ((64 * c + 16 * e) / 16 mod 4)%N with e by lia.
  unfold c, e. rewrite <- app_assoc, take_key_write. reflexivity.
Qed.
Lemma take_written_ok h body : seq_ok (hdr_seq h) -> take_from_slice (write_to_vec h ++ body) = Done (Some (h, body)).
Proof. intros H. rewrite take_written, take_seq_write by auto. destruct h; reflexivity. Qed.
Lemma take_written_key h body h' b' : take_from_slice (write_to_vec h ++ body) = Done (Some (h', b')) -> hdr_key h' = hdr_key h.
Proof. rewrite take_written. destruct (take_seq _ _) as [[s r]|]; intros [= <- _]. reflexivity. Qed.


(** A header that was read stays the same when more bytes follow. *)
Lemma take_key_app c l k r x : take_key c l = Some (k, r) -> take_key c (l ++ x) = Some (k, r ++ x).
Proof.
  unfold take_key. destruct c as [|[[|[]|]|[|[]|]|]]; try discriminate;
  repeat (destruct l as [|? l]; [discriminate|]); intros [= <- <-]; reflexivity.
Qed.
Lemma take_seq_app c l k r x : take_seq c l = Some (k, r) -> take_seq c (l ++ x) = Some (k, r ++ x).
Proof.
  unfold take_seq. destruct c as [|[[|[]|]|[|[]|]|]]; try discriminate;
  repeat (destruct l as [|? l]; [discriminate|]); intros [= <- <-]; reflexivity.
Qed.
Lemma take_cut b x h body h' body' : Forall byte_ok (firstn 1 b) ->
  take_from_slice b = Done (Some (h, body)) -> take_from_slice (b ++ x) = Done (Some (h', body')) ->
  h' = h /\ body' = body ++ x.
Proof.
  intros Hb H H'. destruct b as [|d tl]; [discriminate|]. inversion Hb as [|? ? Hd _]; subst. unfold byte_ok in Hd.
  cbn [app] in H'. rewrite take_eq in H, H' by auto. destruct (d mod 16 =? 0)%N; [|discriminate].
  destruct (take_key (d / 64) tl) as [[k r]|] eqn:K; [|discriminate]. rewrite (take_key_app _ _ _ _ x K) in H'.
  destruct (take_seq _ r) as [[sq r2]|] eqn:Q; [|discriminate]. rewrite (take_seq_app _ _ _ _ x Q) in H'.
  injection H as <- <-. injection H' as <- <-. auto.
Qed.
Lemma first_byte h body n : Forall byte_ok (firstn 1 (firstn n (write_to_vec h ++ body))).
Proof. rewrite write_to_vec_eq. destruct n; cbn [app firstn]; repeat constructor. apply disc_byte_lt. Qed.

Lemma in_arrived f cl : In f (arrived cl) -> exists b, In (LRecv b) cl /\ take_from_slice b = Done (Some (f_hdr f, f_body f)).
Proof.
  unfold arrived. intros H. apply in_flat_map in H as (l & Hl & Hf). destruct l; try destruct Hf.
  exists bytes. split; auto. unfold frame_of in Hf. destruct (take_from_slice bytes) as [[[h b]|]|]; try destruct Hf.
  - subst. reflexivity.
  - destruct H.
Qed.

(** Typed requests only: the [r]-th has sequence number [r]. *)
Lemma issued_typed cl : forall n r sent resp, (forall f k, ~ In (LRequestRaw f k) cl) ->
  nth_error (issued n cl) r = Some (sent, resp) ->
  r < typed cl /\ exists req body, In (LRequest req resp body) cl /\
    sent = MkFrame (MkHeader (VKey8 req) (Seq4 ((n + N.of_nat r) mod 4294967296))) body.
Proof.
  induction cl as [|l cl IH]; intros n r sent resp Hraw H; [destruct r; discriminate|].
  assert (Hraw' : forall f k, ~ In (LRequestRaw f k) cl) by (intros f k Hi; eapply Hraw; right; eauto).
  destruct l as [req0 resp0 body0|f0 k0|r0|r0|r0|r0|r0|r0|r0|r0|f0|i|i|i| | | | |b0|ch|w| | | |o| |];
    try (cbn [issued] in H; destruct (IH _ _ _ _ Hraw' H) as (L & req & body & Hi & E); split; [exact L|];
         exists req, body; split; [right; exact Hi|exact E]).
  - unfold typed in *. cbn [issued filter is_typed length] in *. destruct r as [|r]; cbn [nth_error] in H.
    + injection H as <- <-. split; [lia|]. exists req0, body0. split; [left; auto|]. replace (n + N.of_nat 0)%N with n by lia. reflexivity.
    + destruct (IH _ _ _ _ Hraw' H) as (L & req & body & Hi & E). split; [lia|]. exists req, body. split; [right; auto|].
      rewrite E. replace (n + N.of_nat (S r))%N with (n + 1 + N.of_nat r)%N by lia. reflexivity.
  - exfalso. eapply Hraw. left. reflexivity.
Qed.

Section S.
  Context {Val Ctx SCtx : Type}.
  Variable std : StdKeys.
  Variable net : Trace Val SCtx -> VarHeader -> Payload Val -> TxRes.
  Variable can_spawn : Trace Val SCtx -> nat -> bool.
  Variable kkind : VarKeyKind.
  Variable spawn_ctxt : Ctx -> Ctx * SCtx.
  Variable enc : Payload Val -> list N.
  Variable task : nat -> SCtx -> VarHeader -> Val -> HProg Val unit.
  Variable bg : list (HProg Val unit).
  Variable cfg : Config.
  Variable eps : EndpointMap.
  Variable tin tout : TopicMap.
  Variable ea : list (EpArm Val Ctx).
  Variable ta : list (TpArm Val Ctx).
  Variable d : Dispatcher Val Ctx.

  Hypothesis Hdisp : dispatcher_for eps tin tout ea ta d.
  Hypothesis Hdev : device_ok std eps tout ea.
  Hypothesis Hhand : handlers_ok std tout ea ta task bg.
  Hypothesis Hkk : klen (d_kind _ _ d) <= klen kkind.

  Notation handle := (handle Val Ctx SCtx std net can_spawn kkind spawn_ctxt).
  Notation ep_arm := (ep_arm Val Ctx SCtx std net can_spawn kkind spawn_ctxt).
  Notation tp_arm := (tp_arm Val Ctx SCtx net can_spawn kkind spawn_ctxt).
  Notation match_eps := (match_eps Val Ctx SCtx std net can_spawn kkind spawn_ctxt).
  Notation match_tps := (match_tps Val Ctx SCtx std net can_spawn kkind spawn_ctxt).
  Notation run_prog := (run_prog Val SCtx net kkind).
  Notation Tr := (Trace Val SCtx).
  Notation sys_step := (sys_step Val Ctx SCtx std net can_spawn kkind spawn_ctxt d enc task cfg).
  Notation sys_run := (sys_run Val Ctx SCtx std net can_spawn kkind spawn_ctxt d enc task cfg).
  Notation Sys := (Sys Val Ctx SCtx).
  Notation answer_of := (answer_of std ea task net kkind d).
  Notation dk := (d_kind _ _ d).

  (** *** Keys *)
  Lemma in_keys k x y : klen dk <= klen k ->
    In x (map ep_req (em_endpoints eps) ++ map snd (tm_topics tin)) ->
    In y (map ep_req (em_endpoints eps) ++ map snd (tm_topics tin)) ->
    compact (klen k) (k8_bytes x) = compact (klen k) (k8_bytes y) -> x = y.
  Proof.
    intros L Hx Hy E. destruct Hdisp as (_ & _ & D & _).
    destruct (D k L) as [D1 _]. eapply distinct_inj; eauto.
  Qed.
  Lemma out_keys k x y : klen dk <= klen k ->
    In x (map ep_resp (em_endpoints eps) ++ map snd (tm_topics tout)) ->
    In y (map ep_resp (em_endpoints eps) ++ map snd (tm_topics tout)) ->
    compact (klen k) (k8_bytes x) = compact (klen k) (k8_bytes y) -> x = y.
  Proof.
    intros L Hx Hy E. destruct Hdisp as (_ & _ & D & _).
    destruct (D k L) as [_ D2]. eapply distinct_inj; eauto.
  Qed.

  Lemma endpoint_in req resp : is_endpoint eps req resp ->
    In req (map ep_req (em_endpoints eps)) /\ In resp (map ep_resp (em_endpoints eps)).
  Proof. intros (path & H). split; apply in_map_iff; exists (path, req, resp); auto. Qed.
  Lemma endpoint_unique req resp resp' : is_endpoint eps req resp -> is_endpoint eps req resp' -> resp = resp'.
  Proof.
    intros (p & H) (p' & H'). destruct Hdisp as (_ & _ & D & _).
    destruct (D kkind Hkk) as [D1 _]. unfold distinct_at in D1. rewrite map_app, map_map in D1.
    assert (D2 : NoDup (map (fun x : EpRow => compact (klen kkind) (k8_bytes (ep_req x))) (em_endpoints eps))).
    { clear - D1. induction (em_endpoints eps) as [|x l IH]; [constructor|]. cbn in *. inversion D1; subst. constructor; auto.
      rewrite in_app_iff in *. auto. }
    clear D D1. induction (em_endpoints eps) as [|x l IH]; [destruct H|]. cbn in D2. inversion D2 as [|? ? N1 N2]; subst.
    destruct H as [->|H], H' as [E|H'].
    - congruence.
    - exfalso. apply N1. apply in_map_iff. exists (p', req, resp'). auto.
    - subst x. exfalso. apply N1. apply in_map_iff. exists (p, req, resp). auto.
    - auto.
  Qed.
  Lemma endpoint_unique_resp req req' resp : is_endpoint eps req resp -> is_endpoint eps req' resp -> req = req'.
  Proof.
    intros (p & H) (p' & H'). destruct Hdisp as (_ & _ & D & _).
    destruct (D kkind Hkk) as [_ D1]. unfold distinct_at in D1. rewrite map_app, map_map in D1.
    assert (D2 : NoDup (map (fun x : EpRow => compact (klen kkind) (k8_bytes (ep_resp x))) (em_endpoints eps))).
    { clear - D1. induction (em_endpoints eps) as [|x l IH]; [constructor|]. cbn in *. inversion D1; subst. constructor; auto.
      rewrite in_app_iff in *. auto. }
    clear D D1. induction (em_endpoints eps) as [|x l IH]; [destruct H|]. cbn in D2. inversion D2 as [|? ? N1 N2]; subst.
    destruct H as [->|H], H' as [E|H'].
    - congruence.
    - exfalso. apply N1. apply in_map_iff. exists (p', req', resp). auto.
    - subst x. exfalso. apply N1. apply in_map_iff. exists (p, req, resp). auto.
    - auto.
  Qed.

  (** *** What one dispatch may do *)

  Lemma run_prog_sends {R} (p : HProg Val R) : forall (tr : Tr),
    exists new, snd (run_prog p tr) = tr ++ new /\
      forall e, In e new -> exists key seq pl r, e = EvSend ByHandler (out_header kkind key seq) pl r /\ may_send p key seq pl.
  Proof.
    induction p as [r|key seq pl k IH]; intros tr; cbn [DispatchModel.run_prog].
    - exists []. rewrite app_nil_r. split; auto. intros e [].
    - unfold send_keyed, tx_send. set (h := MkHeader (shrink_to (VKey8 key) kkind) seq). set (r := net tr h pl).
      destruct (IH r (tr ++ [EvSend ByHandler h pl r])) as (new & E & H). exists (EvSend ByHandler h pl r :: new).
      split. { rewrite E, <- app_assoc. reflexivity. }
      intros e [<-|He]. { exists key, seq, pl, r. split; [reflexivity|constructor]. }
      destruct (H e He) as (key' & seq' & pl' & r' & -> & M). exists key', seq', pl', r'. split; auto. econstructor. eauto.
  Qed.

  Lemma answer_mono tr1 tr2 req seq body p : answer_of tr1 req seq body p -> answer_of (tr1 ++ tr2) req seq body p.
  Proof.
    intros H. destruct H.
    - eapply ans_ping; eauto.
    - eapply ans_schemas; eauto.
    - eapply ans_handler with (t1 := t1 ++ tr2); eauto. subst tr1. rewrite <- app_assoc. cbn. rewrite <- app_assoc. reflexivity.
    - eapply ans_task; eauto. apply in_app_iff. auto.
  Qed.

  (** What a dispatch of [hdr], [body] may add for endpoint [req], [resp]. *)
  Definition ep_event (req resp : Key8) (hdr : VarHeader) (body : list N) (tr : Tr) (e : Event Val SCtx) : Prop :=
    match e with
    | EvSend w h p r => exists key seq, h = out_header kkind key seq /\
        ((is_topic_out tout key /\ seq_ok seq) \/
         (key = error_key std /\ seq = hdr_seq hdr /\ w = ByDispatcher /\ exists er, p = PError er /\ dispatch_error er) \/
         (key = resp /\ seq = hdr_seq hdr /\ w = ByDispatcher /\ answer_of tr req (seq_value (hdr_seq hdr)) body p))
    | EvSpawn n sc h v true => h = hdr /\
        exists a, In a ea /\ ea_req _ _ a = req /\ ea_resp _ _ a = resp /\ ea_flavor _ _ a = Spawn /\
          ea_deser _ _ a body = Some v /\ n = ea_name _ _ a
    | _ => True
    end.
  Definition tp_event (hdr : VarHeader) (body : list N) (e : Event Val SCtx) : Prop :=
    match e with
    | EvSend w h p r => exists key seq, h = out_header kkind key seq /\
        ((is_topic_out tout key /\ seq_ok seq) \/
         (key = error_key std /\ seq = hdr_seq hdr /\ w = ByDispatcher /\ exists er, p = PError er))
    | EvSpawn n sc h v true => exists a, In a ta /\ ta_flavor _ _ a = Spawn /\ n = ta_name _ _ a /\ ta_deser _ _ a body = Some v
    | _ => True
    end.

  Lemma refused_event req resp hdr body tr tr' er r : dispatch_error er ->
    forall e, In e [EvSend ByDispatcher (out_header kkind (error_key std) (hdr_seq hdr)) (PError er) r] -> ep_event req resp hdr body (tr ++ tr') e.
  Proof. intros D e [<-|[]]. cbn. do 2 eexists. split; [reflexivity|]. right. left. eauto 7. Qed.

  Lemma ep_arm_events a ctx hdr body v (tr : Tr) ctx' res tr' :
    In a ea -> ea_deser _ _ a body = Some v ->
    ep_arm a ctx hdr v tr = (ctx', res, tr') ->
    exists new, tr' = tr ++ new /\
      (invocations new = [] \/ invocations new = [(ea_name _ _ a, hdr, v)]) /\
      forall e, In e new -> ep_event (ea_req _ _ a) (ea_resp _ _ a) hdr body (tr ++ new) e.
  Proof.
    intros Ha Hd H. destruct Hhand as (Hh1 & _ & Hh3 & _).
    assert (Run : ea_flavor _ _ a <> Spawn -> exists new, tr' = tr ++ new /\
      (invocations new = [] \/ invocations new = [(ea_name _ _ a, hdr, v)]) /\
      forall e, In e new -> ep_event (ea_req _ _ a) (ea_resp _ _ a) hdr body (tr ++ new) e).
    { intros F. destruct (ep_arm_runs std net can_spawn kkind spawn_ctxt a ctx hdr v tr F) as (c & rep & tr1 & new & R & E1 & Iv & Fr & M).
      destruct (run_prog_sends (ea_run _ _ a ctx hdr v) (tr ++ [EvRun (ea_name _ _ a) hdr v])) as (new' & E2 & S).
      rewrite R in E2. cbn [snd] in E2. rewrite E1, <- app_assoc in E2. cbn [app] in E2.
      apply app_inv_head in E2. injection E2 as <-.
      assert (User : forall rest, forall e, In e (EvRun (ea_name _ _ a) hdr v :: new) -> ep_event (ea_req _ _ a) (ea_resp _ _ a) hdr body (tr ++ rest) e).
      { intros rest e [<-|He]; [exact I|]. destruct (S e He) as (key & seq & pl & r & -> & Ms). cbn. exists key, seq. split; auto.
        left. eapply Hh1; eauto. }
      assert (Ans : forall r rest, ep_event (ea_req _ _ a) (ea_resp _ _ a) hdr body (tr ++ (EvRun (ea_name _ _ a) hdr v :: new) ++ rest)
                 (EvSend ByDispatcher (out_header kkind (ea_resp _ _ a) (hdr_seq hdr)) (PVal rep) r)).
      { intros r rest. cbn [ep_event]. do 2 eexists. split; [reflexivity|]. right. right. repeat split; auto.
        eapply ans_handler with (t0 := tr) (user := new) (t1 := rest); eauto. rewrite R, E1. reflexivity. }
      destruct M as [M|(k & r & M)]; rewrite M in H; injection H as <- <- <-; rewrite E1, <- app_assoc.
      - eexists. split; [reflexivity|]. split.
        { right. rewrite invocations_app. cbn. rewrite Iv. reflexivity. }
        intros e He. apply in_app_iff in He as [He|[<-|[]]]; auto.
      - eexists. split; [reflexivity|]. split.
        { right. rewrite invocations_app. cbn. rewrite Iv. reflexivity. }
        intros e He. apply in_app_iff in He as [He|[<-|[<-|[]]]]; auto. eapply refused_event; [|left; reflexivity]. exact I. }
    destruct (ea_flavor _ _ a) eqn:F.
    1,2: apply Run; congruence.
    unfold DispatchModel.ep_arm in H. rewrite F in H. destruct (spawn_ctxt ctx) as [c2 sc].
    destruct (can_spawn tr (ea_name _ _ a)) eqn:Cs; cbn [negb] in H.
    - injection H as <- <- <-. eexists. split; [reflexivity|]. split; [right; reflexivity|].
      intros e [<-|[]]. cbn. split; auto. exists a. repeat split; auto.
    - unfold send_error, send_keyed, tx_send in H. injection H as <- <- <-. rewrite <- app_assoc. eexists. split; [reflexivity|].
      split; [left; reflexivity|]. intros e [<-|[<-|[]]]; [exact I|]. eapply refused_event; [|left; reflexivity]. exact I.
  Qed.

  Lemma tp_arm_events a ctx hdr body v (tr : Tr) ctx' res tr' :
    In a ta -> ta_deser _ _ a body = Some v -> tp_arm a ctx hdr v tr = (ctx', res, tr') ->
    exists new, tr' = tr ++ new /\
      (invocations new = [] \/ invocations new = [(ta_name _ _ a, hdr, v)]) /\
      forall e, In e new -> tp_event hdr body e.
  Proof.
    intros Ha Hd H. destruct Hhand as (_ & Hh2 & _ & Hh4 & _).
    assert (Run : forall ctx'' tr1, run_prog (ta_run _ _ a ctx hdr v) (tr ++ [EvRun (ta_name _ _ a) hdr v]) = (ctx'', tr1) ->
      exists new, tr1 = tr ++ new /\ (invocations new = [] \/ invocations new = [(ta_name _ _ a, hdr, v)]) /\
      forall e, In e new -> tp_event hdr body e).
    { intros ctx'' tr1 R.
      destruct (run_prog_sends (ta_run _ _ a ctx hdr v) (tr ++ [EvRun (ta_name _ _ a) hdr v])) as (new & E2 & S).
      destruct (run_prog_trace net kkind (ta_run _ _ a ctx hdr v) (tr ++ [EvRun (ta_name _ _ a) hdr v])) as (new' & E3 & Iv & _).
      rewrite E2 in E3. apply app_inv_head in E3. subst new'.
      rewrite R in E2. cbn [snd] in E2. rewrite <- app_assoc in E2. cbn [app] in E2.
      eexists. split; [exact E2|]. split. { right. cbn. rewrite Iv. reflexivity. }
      intros e [<-|He]; [exact I|]. destruct (S e He) as (key & seq & pl & r & -> & Ms). cbn. exists key, seq. split; auto.
      left. eapply Hh2; eauto. }
    unfold DispatchModel.tp_arm in H. destruct (ta_flavor _ _ a) eqn:F.
    1,2: destruct (DispatchModel.run_prog _ _ _ _ (ta_run _ _ a ctx hdr v) _) as [c2 tr1] eqn:R; injection H as <- <- <-; eapply Run; eauto.
    destruct (spawn_ctxt ctx) as [c2 sc]. injection H as <- <- <-. eexists. split; [reflexivity|].
    destruct (can_spawn tr (ta_name _ _ a)).
    - split; [right; reflexivity|]. intros e [<-|[]]. cbn. eauto 8.
    - split; [left; reflexivity|]. intros e [<-|[]]. exact I.
  Qed.

  Lemma schemas_events seq (tr : Tr) res tr' :
    send_all_schemas Val SCtx std net kkind seq (d_map _ _ d) tr = (res, tr') ->
    exists new, tr' = tr ++ new /\ invocations new = [] /\
      forall e, In e new -> exists h p r, e = EvSend ByDispatcher h p r /\
        ((exists n, h = out_header kkind (schema_topic std) (Seq2 n) /\ (n < 65536)%N) \/
         (h = out_header kkind (schemas_resp std) seq /\ exists t, p = PSchemaTotals t /\ announces (d_map _ _ d) t)).
  Proof.
    intros H. destruct (send_all_schemas_spec std net can_spawn kkind seq (d_map _ _ d) tr) as (rs & r & Lr & Es).
    rewrite Es in H. injection H as <- <-. eexists. split; [reflexivity|].
    assert (G : forall items i rl, invocations (@item_events Val SCtx std kkind i items rl) = [] /\
       forall e, In e (@item_events Val SCtx std kkind i items rl) -> exists n p r, e = EvSend ByDispatcher (out_header kkind (schema_topic std) (Seq2 n)) p r /\ (n < 65536)%N).
    { induction items as [|x items IH]; intros i [|y rl]; cbn; try (split; [reflexivity|intros e []]).
      destruct (IH (S i) rl) as [G1 G2]. split; [exact G1|]. intros e [<-|He]; auto.
      do 3 eexists. split; [reflexivity|]. apply N.mod_lt. discriminate. }
    destruct (G (all_items (d_map _ _ d)) 0 rs) as [G1 G2]. split; [rewrite invocations_app, G1; reflexivity|].
    intros e He. apply in_app_iff in He as [He|[<-|[]]].
    - destruct (G2 e He) as (n & p & r' & -> & L). do 3 eexists. split; [reflexivity|]. left. eauto.
    - do 3 eexists. split; [reflexivity|]. right. split; [reflexivity|]. eexists. split; [reflexivity|].
      repeat split. cbn [errors]. apply N.mod_lt. discriminate.
  Qed.

  (** *** One dispatch of an endpoint's or a topic's frame *)
  Lemma std_in : In (ping_req std) (map ep_req (em_endpoints eps)) /\ In (schemas_req std) (map ep_req (em_endpoints eps)).
  Proof. destruct Hdev as (H1 & H2 & _). split; [apply (endpoint_in _ _ H1)|apply (endpoint_in _ _ H2)]. Qed.

  Lemma pat_in req kk hdr x : klen dk <= klen kk -> hdr_key hdr = shrink_to (VKey8 req) kk ->
    In req (map ep_req (em_endpoints eps) ++ map snd (tm_topics tin)) ->
    In x (map ep_req (em_endpoints eps) ++ map snd (tm_topics tin)) ->
    pat_eqb (shrink_to (hdr_key hdr) dk) (const_key dk x) = true -> req = x.
  Proof.
    intros L Hk H1 H2 P. apply pat_match in P; [|rewrite Hk, vlen_shrunk; auto]. rewrite Hk, agree_shrunk in P by auto.
    eapply (in_keys dk); eauto.
  Qed.

  Lemma arms_in a : In a ea -> In (ea_req _ _ a) (map ep_req (em_endpoints eps)).
  Proof. intros Ha. destruct Hdev as (_ & _ & _ & H). apply (endpoint_in _ _ (H a Ha)). Qed.
  Lemma tarms_in a : In a ta -> In (ta_key _ _ a) (map snd (tm_topics tin)).
  Proof.
    intros Ha. destruct Hdisp as (_ & _ & _ & _ & _ & I3).
    apply I3. apply in_map. auto.
  Qed.
  Lemma disp_arms : d_eps _ _ d = ea /\ d_tps _ _ d = ta.
  Proof. destruct Hdisp as (E1 & E2 & _). auto. Qed.

  Lemma handle_ep req resp kk hdr body ctx (tr : Tr) ctx' res tr' :
    is_endpoint eps req resp -> klen dk <= klen kk -> hdr_key hdr = shrink_to (VKey8 req) kk ->
    handle d ctx hdr body tr = (ctx', res, tr') ->
    exists new, tr' = tr ++ new /\ forall e, In e new -> ep_event req resp hdr body (tr ++ new) e.
  Proof.
    intros He L Hk H. destruct Hdev as (D1 & D2 & D3 & D4). destruct std_in as [SI1 SI2]. destruct disp_arms as [A1 A2].
    assert (Hin : In req (map ep_req (em_endpoints eps) ++ map snd (tm_topics tin))).
    { apply in_app_iff. left. apply (endpoint_in _ _ He). }
    unfold DispatchModel.handle in H. rewrite keyb_of_spec, Hk, vlen_shrunk in H. apply Nat.leb_le in L as L'. rewrite L', <- Hk in H.
    destruct (pat_eqb _ (const_key _ (ping_req std))) eqn:P1.
    { apply (pat_in req kk) in P1; auto; [|apply in_app_iff; auto]. subst req.
      assert (resp = ping_resp std) as -> by (eapply endpoint_unique; eauto).
      destruct (from_bytes_u32 body) eqn:Fb; unfold send_error, send_keyed, tx_send in H; injection H as <- <- <-;
        (eexists; split; [reflexivity|]).
      - intros e [<-|[]]. cbn. do 2 eexists. split; [reflexivity|]. right. right. repeat split; auto. eapply ans_ping; eauto.
      - eapply refused_event. exact I. }
    destruct (pat_eqb _ (const_key _ (schemas_req std))) eqn:P2.
    { apply (pat_in req kk) in P2; auto; [|apply in_app_iff; auto]. subst req.
      assert (resp = schemas_resp std) as -> by (eapply endpoint_unique; eauto).
      destruct (send_all_schemas _ _ _ _ _ _ _ _) as [r2 tr2] eqn:Sa. injection H as <- <- <-.
      destruct (schemas_events _ _ _ _ Sa) as (new & -> & _ & Ev). exists new. split; auto.
      intros e Hin'. destruct (Ev e Hin') as (h & p & r & -> & [(n & -> & Ln)|(-> & t & -> & An)]); cbn; do 2 eexists; (split; [reflexivity|]).
      - left. split; auto.
      - right. right. repeat split; auto. eapply ans_schemas; eauto. }
    rewrite A1, A2 in H.
    destruct (match_eps_cases std net can_spawn kkind spawn_ctxt dk (shrink_to (hdr_key hdr) dk) ea ta ctx hdr body tr)
      as [(a & v & Ia & Pa & Da & M)|[(r & M)|[_ M]]]; rewrite M in H.
    - apply (pat_in req kk) in Pa; auto; [|apply in_app_iff; left; apply arms_in; auto]. subst req.
      assert (resp = ea_resp _ _ a) as -> by (eapply endpoint_unique; eauto).
      destruct (ep_arm_events _ _ _ _ _ _ _ _ _ Ia Da H) as (new & -> & _ & Ev). eauto.
    - injection H as <- <- <-. eexists. split; [reflexivity|]. eapply refused_event. exact I.
    - destruct (match_tps_cases std net can_spawn kkind spawn_ctxt dk (shrink_to (hdr_key hdr) dk) ta ctx hdr body tr)
        as [(a & v & Ia & Pa & Da & M2)|[M2|[_ (r & M2)]]]; rewrite M2 in H.
      + exfalso. apply pat_match in Pa; [|rewrite Hk, vlen_shrunk; auto]. rewrite Hk, agree_shrunk in Pa by auto.
        destruct Hdisp as (_ & _ & D & _).
        destruct (D dk (le_n _)) as [D5 _]. eapply (distinct_app_disj _ _ _ _ _ D5); [|apply tarms_in; eauto|exact Pa].
        apply (endpoint_in _ _ He).
      + injection H as <- <- <-. exists []. rewrite app_nil_r. split; auto. intros e [].
      + injection H as <- <- <-. eexists. split; [reflexivity|]. eapply refused_event. exact I.
  Qed.

  Lemma handle_tp key kk hdr body ctx (tr : Tr) ctx' res tr' :
    is_topic_in tin key -> klen dk <= klen kk -> hdr_key hdr = shrink_to (VKey8 key) kk ->
    handle d ctx hdr body tr = (ctx', res, tr') ->
    exists new, tr' = tr ++ new /\ (forall e, In e new -> tp_event hdr body e) /\
      ((exists a, In a ta /\ ta_key _ _ a = key) -> forall w h er r, ~ In (EvSend w h (PError er) r) (filter (fun e => match e with EvSend ByDispatcher _ _ _ => true | _ => false end) new)).
  Proof.
    intros He L Hk H. destruct std_in as [SI1 SI2]. destruct disp_arms as [A1 A2].
    assert (Hin : In key (map ep_req (em_endpoints eps) ++ map snd (tm_topics tin))) by (apply in_app_iff; auto).
    assert (Hno : forall x, In x (map ep_req (em_endpoints eps)) -> pat_eqb (shrink_to (hdr_key hdr) dk) (const_key dk x) = false).
    { intros x Hx. destruct (pat_eqb _ _) eqn:P; auto. exfalso.
      apply pat_match in P; [|rewrite Hk, vlen_shrunk; auto]. rewrite Hk, agree_shrunk in P by auto.
      destruct Hdisp as (_ & _ & D & _).
      destruct (D dk (le_n _)) as [D5 _]. eapply (distinct_app_disj _ _ _ _ _ D5); [exact Hx|exact He|symmetry; exact P]. }
    unfold DispatchModel.handle in H. rewrite keyb_of_spec, Hk, vlen_shrunk in H. apply Nat.leb_le in L as L'. rewrite L', <- Hk in H.
    rewrite !Hno, A1, A2 in H by auto.
    assert (Hm : match_eps dk (shrink_to (hdr_key hdr) dk) ea ta ctx hdr body tr = match_tps dk (shrink_to (hdr_key hdr) dk) ta ctx hdr body tr).
    { rewrite <- (app_nil_r ea) at 1. rewrite match_eps_skip; [reflexivity|]. intros a Ha. apply Hno, arms_in. auto. }
    rewrite Hm in H.
    destruct (match_tps_cases std net can_spawn kkind spawn_ctxt dk (shrink_to (hdr_key hdr) dk) ta ctx hdr body tr)
        as [(a & v & Ia & Pa & Da & M2)|[M2|[N2 (r & M2)]]]; rewrite M2 in H.
    - destruct (tp_arm_trace net can_spawn kkind spawn_ctxt _ _ _ _ _ _ _ _ H) as (_ & new2 & E2 & Fr & _).
      destruct (tp_arm_events _ _ _ _ _ _ _ _ _ Ia Da H) as (new & -> & _ & Ev). apply app_inv_head in E2. subst new2.
      exists new. split; auto. split; auto. intros _ w h er r X.
      assert (G : forall l : Tr, dispatcher_frames l = [] -> filter (fun e => match e with EvSend ByDispatcher _ _ _ => true | _ => false end) l = []).
      { clear. induction l as [|[[] | |] l IH]; cbn; auto; discriminate. }
      rewrite (G _ Fr) in X. destruct X.
    - injection H as <- <- <-. exists []. rewrite app_nil_r. split; auto. split; [intros e []|intros _ w h er r []].
    - injection H as <- <- <-. eexists. split; [reflexivity|]. split.
      + intros e [<-|[]]. cbn. do 2 eexists. split; [reflexivity|]. right. eauto 6.
      + intros (a & Ha & Ek). exfalso. specialize (N2 a Ha). rewrite Ek, Hk in N2.
        assert (pat_eqb (shrink_to (shrink_to (VKey8 key) kk) dk) (const_key dk key) = true); [|congruence].
        apply pat_match; [rewrite vlen_shrunk; auto|]. apply agree_shrunk; auto.
  Qed.

  (** Any frame: at most one handler is started, with the frame's header; everything
      sent carries a key of the server's length. *)
  Definition sends_keyed (new : Tr) : Prop :=
    forall w h p r, In (EvSend w h p r) new -> exists key seq, h = out_header kkind key seq.

  Definition started (hdr : VarHeader) (body : list N) (runs : list (nat * VarHeader * Val)) : Prop :=
    runs = [] \/
    (exists a v, In a ea /\ klen dk <= vlen (hdr_key hdr) /\ agree_at (klen dk) (hdr_key hdr) (VKey8 (ea_req _ _ a)) /\
       ea_deser _ _ a body = Some v /\ runs = [(ea_name _ _ a, hdr, v)]) \/
    (exists a v, In a ta /\ klen dk <= vlen (hdr_key hdr) /\ agree_at (klen dk) (hdr_key hdr) (VKey8 (ta_key _ _ a)) /\
       ta_deser _ _ a body = Some v /\ runs = [(ta_name _ _ a, hdr, v)]).
  Lemma handle_new hdr body ctx (tr : Tr) ctx' res tr' :
    handle d ctx hdr body tr = (ctx', res, tr') ->
    exists new, tr' = tr ++ new /\ started hdr body (invocations new) /\ sends_keyed new.
  Proof.
    intros H. destruct disp_arms as [A1 A2]. unfold DispatchModel.handle in H.
    assert (One : forall w key sq (p : Payload Val) r c0, (c0, r, tr ++ [EvSend w (out_header kkind key sq) p r]) = (ctx', res, tr') ->
      exists new, tr' = tr ++ new /\ started hdr body (invocations new) /\ sends_keyed new).
    { intros w key sq p r c0 [= <- <- <-]. eexists. split; [reflexivity|]. split; [left; reflexivity|].
      intros w' h' p' r' [[= <- <- <- <-]|[]]. eauto. }
    assert (Epk : forall req resp hdr' body' t new, (forall e, In e new -> ep_event req resp hdr' body' t e) -> sends_keyed new).
    { intros req resp hdr' body' t new Hn w h p r Hi. destruct (Hn _ Hi) as (key & sq & -> & _). eauto. }
    rewrite keyb_of_spec in H. destruct (klen dk <=? vlen (hdr_key hdr)) eqn:Lk; [apply Nat.leb_le in Lk|].
    2:{ unfold send_error, send_keyed, tx_send in H. eapply One; exact H. }
    destruct (pat_eqb _ (const_key _ (ping_req std))).
    { destruct (from_bytes_u32 body); unfold send_error, send_keyed, tx_send in H; eapply One; exact H. }
    destruct (pat_eqb _ (const_key _ (schemas_req std))).
    { destruct (send_all_schemas _ _ _ _ _ _ _ _) as [r2 tr2] eqn:Sa. injection H as <- <- <-.
      destruct (schemas_events _ _ _ _ Sa) as (new & -> & Iv & Ev). exists new. split; auto. split; [left; auto|].
      intros w h p r Hi. destruct (Ev _ Hi) as (h' & p' & r' & E & [(n & Eh & _)|(Eh & _)]); injection E as -> -> -> ->; rewrite Eh; eauto. }
    rewrite A1, A2 in H.
    destruct (match_eps_cases std net can_spawn kkind spawn_ctxt dk (shrink_to (hdr_key hdr) dk) ea ta ctx hdr body tr)
      as [(a & v & Ia & Pa & Da & M)|[(r & M)|[_ M]]]; rewrite M in H; try (eapply One; exact H).
    - destruct (ep_arm_events _ _ _ _ _ _ _ _ _ Ia Da H) as (new & -> & Iv & Ev). exists new. split; auto. split; [|eauto].
      destruct Iv as [Iv|Iv]; [left; auto|right; left]. exists a, v. apply pat_match in Pa; auto.
    - destruct (match_tps_cases std net can_spawn kkind spawn_ctxt dk (shrink_to (hdr_key hdr) dk) ta ctx hdr body tr)
        as [(a & v & Ia & Pa & Da & M2)|[M2|[_ (r & M2)]]]; rewrite M2 in H; try (eapply One; exact H).
      + destruct (tp_arm_events _ _ _ _ _ _ _ _ _ Ia Da H) as (new & -> & Iv & Ev). exists new. split; auto. split; [|intros w h p r Hi; destruct (Ev _ Hi) as (key & sq & -> & _); eauto].
        destruct Iv as [Iv|Iv]; [left; auto|right; right]. exists a, v. apply pat_match in Pa; auto.
      + injection H as <- <- <-. exists []. rewrite app_nil_r. split; auto. split; [left; auto|]. intros w h p r [].
  Qed.

  (** *** The invariant *)
  Definition origin (handled : list (list N)) (tr : Tr) (e : Event Val SCtx) : Prop :=
    (exists t0 new t2 ctx ctx' res hdr body b, tr = t0 ++ new ++ t2 /\ In e new /\ In b handled /\
       take_from_slice b = Done (Some (hdr, body)) /\ handle d ctx hdr body t0 = (ctx', res, t0 ++ new)) \/
    (exists n sc hdr v key seq p r, e = EvSend ByHandler (out_header kkind key seq) p r /\
       In (EvSpawn n sc hdr v true) tr /\ may_send (task n sc hdr v) key seq p) \/
    (exists t key seq p r, e = EvSend ByHandler (out_header kkind key seq) p r /\ In t bg /\ may_send t key seq p).

  Definition from_task (tr : Tr) (prog : HProg Val unit) : Prop :=
    (exists n sc hdr v, In (EvSpawn n sc hdr v true) tr /\
      forall key seq p, may_send prog key seq p -> may_send (task n sc hdr v) key seq p) \/
    (exists t, In t bg /\ forall key seq p, may_send prog key seq p -> may_send t key seq p).

  Definition piece_of (b : list N) (piece : list (nat * VarHeader * Val)) : Prop :=
    piece = [] \/ exists hdr body, take_from_slice b = Done (Some (hdr, body)) /\ started hdr body piece.

  (** What the client has received. *)
  Definition recvd (cl : list Label) : list (list N) := flat_map (fun l => match l with LRecv b => [b] | _ => [] end) cl.
  (** What may become of a frame on the way. *)
  Definition cut_of (ls : list SysLabel) (x b : list N) : Prop := (exists y, b = x ++ y) /\ (uncut ls -> x = b).

  Record SysInv (ls : list SysLabel) (s : Sys) (cl : list Label) (es : list (list Ev)) (handled : list (list N)) : Prop := {
    si_run : run cfg cl client_new = Some (y_client _ _ _ s, es);
    si_up : exists lost, Permutation (wire es) (handled ++ y_up _ _ _ s ++ lost);
    si_down : forall b, In b (y_down _ _ _ s) \/ In (LRecv b) cl ->
      b = [] \/
      exists w h p r n, In (EvSend w h p r) (y_trace _ _ _ s) /\ b = firstn n (rpc_to_bytes (MkFrame h (enc p))) /\
        (uncut ls -> b = rpc_to_bytes (MkFrame h (enc p)));
    si_ev : forall e, In e (y_trace _ _ _ s) -> origin handled (y_trace _ _ _ s) e;
    si_tasks : Forall (from_task (y_trace _ _ _ s)) (y_tasks _ _ _ s);
    si_inv : exists pieces, Forall2 piece_of handled pieces /\ invocations (y_trace _ _ _ s) = concat pieces;
    si_up_order : up_in_order ls -> subsequence (handled ++ y_up _ _ _ s) (wire es);
    si_flow : exists sent, Permutation (frames_sent _ _ enc (y_trace _ _ _ s)) sent /\
      (down_in_order ls -> sent = frames_sent _ _ enc (y_trace _ _ _ s)) /\ thin (cut_of ls) (recvd cl ++ y_down _ _ _ s) sent }.

  Lemma sys_ind (P : list SysLabel -> Sys -> list Label -> list (list Ev) -> Prop) s0 :
    P [] s0 [] [] ->
    (forall ls s cl es l s', sys_run ls s0 = Some (s, cl, es) -> P ls s cl es -> sys_step l s = Some s' ->
       match client_label _ _ _ l s with
       | Some x => forall e, step cfg x (y_client _ _ _ s) = Some (y_client _ _ _ s', e) -> P (ls ++ [l]) s' (cl ++ [x]) (es ++ [e])
       | None => P (ls ++ [l]) s' cl es
       end) ->
    forall ls s cl es, sys_run ls s0 = Some (s, cl, es) -> P ls s cl es.
  Proof.
    intros H0 HS.
    assert (Last : forall ls l s2 cl2 es2 s1, sys_run (ls ++ [l]) s1 = Some (s2, cl2, es2) ->
      exists s cl es, sys_run ls s1 = Some (s, cl, es) /\ sys_step l s = Some s2 /\
        match client_label _ _ _ l s with
        | Some x => exists c e, step cfg x (y_client _ _ _ s) = Some (c, e) /\ cl2 = cl ++ [x] /\ es2 = es ++ [e]
        | None => cl2 = cl /\ es2 = es
        end).
    { induction ls as [|l0 ls IH]; intros l s2 cl2 es2 s1 H; cbn [app SystemModel.sys_run] in H.
      - destruct (sys_step l s1) as [s3|] eqn:E; [|discriminate]. exists s1, [], []. split; [reflexivity|].
        destruct (client_label _ _ _ l s1) as [x|] eqn:X.
        + destruct (step cfg x (y_client _ _ _ s1)) as [[c e]|] eqn:St; [|discriminate]. injection H as <- <- <-.
          split; auto. exists c, e. auto.
        + injection H as <- <- <-. auto.
      - destruct (sys_step l0 s1) as [s3|] eqn:E; [|discriminate].
        destruct (SystemModel.sys_run _ _ _ _ _ _ _ _ _ _ _ _ (ls ++ [l]) s3) as [[[s4 cl4] es4]|] eqn:R; [|discriminate].
        destruct (IH _ _ _ _ _ R) as (s & cl & es & R1 & St & M).
        destruct (client_label _ _ _ l0 s1) as [x|] eqn:X.
        + destruct (step cfg x (y_client _ _ _ s1)) as [[c e]|] eqn:Sx; [|discriminate]. injection H as <- <- <-.
          exists s, (x :: cl), (e :: es). split. { cbn [SystemModel.sys_run]. rewrite E, R1, X, Sx. reflexivity. }
          split; auto. destruct (client_label _ _ _ l s) as [y|].
          * destruct M as (c' & e' & St' & -> & ->). exists c', e'. auto.
          * destruct M as (-> & ->). auto.
        + injection H as <- <- <-. exists s, cl, es. split; [|auto].
          cbn [SystemModel.sys_run]. rewrite E, R1, X. reflexivity. }
    assert (Step : forall l s s', sys_step l s = Some s' ->
       forall x c e, client_label _ _ _ l s = Some x -> step cfg x (y_client _ _ _ s) = Some (c, e) -> c = y_client _ _ _ s').
    { intros l s s' H x c e Hx Hc. destruct l; cbn in Hx; try discriminate.
      - injection Hx as ->. cbn [SystemModel.sys_step] in H. destruct x; try discriminate; rewrite Hc in H; injection H as <-; reflexivity.
      - cbn [SystemModel.sys_step] in H. destruct (nth_error (y_down _ _ _ s) i) as [b|]; [|discriminate]. injection Hx as <-.
        rewrite Hc in H. injection H as <-. reflexivity. }
    intros ls. induction ls as [|l ls IH] using rev_ind; intros s cl es H.
    - cbn in H. injection H as <- <- <-. auto.
    - destruct (Last _ _ _ _ _ _ H) as (s1 & cl1 & es1 & R & St & M).
      pose proof (HS _ _ _ _ _ _ R (IH _ _ _ R) St) as G. destruct (client_label _ _ _ l s1) as [x|] eqn:X.
      + destruct M as (c & e & Sx & -> & ->). apply G. rewrite <- (Step _ _ _ St _ _ _ X Sx). auto.
      + destruct M as (-> & ->). auto.
  Qed.

  Lemma origin_mono h1 h2 t1 t2 e : origin h1 t1 e -> origin (h1 ++ h2) (t1 ++ t2) e.
  Proof.
    intros [(t0 & new & t3 & c & c' & res & hdr & body & b & E & I1 & I2 & T & H)|[(n & sc & hdr & v & key & seq & p & r & E & I1 & M)|H]].
    - left. exists t0, new, (t3 ++ t2), c, c', res, hdr, body, b. subst t1. rewrite <- !app_assoc. repeat split; auto. apply in_app_iff. auto.
    - right. left. exists n, sc, hdr, v, key, seq, p, r. repeat split; auto. apply in_app_iff. auto.
    - right. right. exact H.
  Qed.
  Lemma from_task_mono t1 t2 prog : from_task t1 prog -> from_task (t1 ++ t2) prog.
  Proof. intros [(n & sc & hdr & v & I1 & M)|H]; [left|right; exact H]. exists n, sc, hdr, v. split; auto. apply in_app_iff. auto. Qed.

  Lemma frames_sent_in (new : Tr) b : In b (frames_sent _ _ enc new) ->
    exists w h p r, In (EvSend w h p r) new /\ b = rpc_to_bytes (MkFrame h (enc p)).
  Proof.
    unfold frames_sent. intros H. apply in_flat_map in H as (e & He & Hb). destruct e; try destruct Hb. subst.
    - eauto 8.
    - destruct H.
  Qed.
  Lemma tasks_of_from (t0 new : Tr) : Forall (from_task (t0 ++ new)) (tasks_of _ _ task new).
  Proof.
    apply Forall_forall. unfold tasks_of. intros x H. apply in_flat_map in H as (e & He & Hx).
    destruct e as [| |n sc h req []]; try destruct Hx. subst x.
    - left. exists n, sc, h, req. split; auto. apply in_app_iff. auto.
    - destruct H.
  Qed.

  Lemma set_nth_forall {A} (P : A -> Prop) i x l : Forall P l -> P x -> Forall P (set_nth i x l).
  Proof.
    intros H Hx. apply Forall_forall. intros y Hy. apply In_nth_error in Hy as (j & Hj).
    destruct (set_nth_inv _ _ _ _ _ _ Hj) as [[_ ->]|[_ Hj']]; auto. rewrite Forall_forall in H. apply H. eapply nth_error_In; eauto.
  Qed.

  Lemma wire_snoc es e : wire (es ++ [e]) = wire es ++ wire_of e.
  Proof. rewrite wire_app. f_equal. unfold wire, wire_of. cbn [concat]. rewrite app_nil_r. reflexivity. Qed.

  Lemma recv_wire b c c' e : step cfg (LRecv b) c = Some (c', e) -> e = [].
  Proof.
    cbn [ClientModel.step]. intros H.
    repeat match type of H with context [match ?x with _ => _ end] => destruct x eqn:?; try discriminate end;
    injection H as <- <-; reflexivity.
  Qed.

  Lemma uncut_app (l1 l2 : list SysLabel) : uncut (l1 ++ l2) -> uncut l1.
  Proof. intros U i n H. apply (U i n). apply in_app_iff. auto. Qed.

  (** What may be on the way to the client, or have arrived. *)
  Definition down_ok (ls : list SysLabel) (tr : Tr) (b : list N) : Prop :=
    b = [] \/
    exists w h p r n, In (EvSend w h p r) tr /\ b = firstn n (rpc_to_bytes (MkFrame h (enc p))) /\
      (uncut ls -> b = rpc_to_bytes (MkFrame h (enc p))).
  Lemma down_ok_mono ls l tr new b : down_ok ls tr b -> down_ok (ls ++ [l]) (tr ++ new) b.
  Proof.
    intros [->|(w & h & p & r & n & I1 & E & U)]; [left; reflexivity|]. right. exists w, h, p, r, n.
    rewrite in_app_iff. split; auto. split; auto. intros U'. apply U, (uncut_app _ _ U').
  Qed.
  Lemma down_ok_sent ls (tr new : Tr) b : In b (frames_sent _ _ enc new) -> down_ok ls (tr ++ new) b.
  Proof.
    intros Hb. destruct (frames_sent_in _ _ Hb) as (w & h & p & r & I1 & E). right.
    exists w, h, p, r, (length b). rewrite in_app_iff. split; auto. split; auto. rewrite <- E. symmetry. apply firstn_all.
  Qed.
  Lemma down_ok_step ls l (tr : Tr) b : down_ok ls tr b -> down_ok (ls ++ [l]) tr b.
  Proof. intros H. rewrite <- (app_nil_r tr). apply down_ok_mono. auto. Qed.

  Lemma up_in_order_app (l1 l2 : list SysLabel) : up_in_order (l1 ++ l2) -> up_in_order l1.
  Proof. intros U i H. apply (U i). apply in_app_iff. auto. Qed.
  Lemma down_in_order_app (l1 l2 : list SysLabel) : down_in_order (l1 ++ l2) -> down_in_order l1.
  Proof. intros U i H. apply (U i). apply in_app_iff. auto. Qed.
  Lemma cut_of_mono ls l x b : cut_of ls x b -> cut_of (ls ++ [l]) x b.
  Proof. intros [H U]. split; auto. intros U'. apply U, (uncut_app _ _ U'). Qed.
  Lemma cut_of_refl ls b : cut_of ls b b.
  Proof. split; auto. exists []. now rewrite app_nil_r. Qed.
  Lemma frames_sent_app (t1 t2 : Tr) : frames_sent _ _ enc (t1 ++ t2) = frames_sent _ _ enc t1 ++ frames_sent _ _ enc t2.
  Proof. apply flat_map_app. Qed.
  Lemma recvd_snoc cl l : recvd (cl ++ [l]) = recvd cl ++ match l with LRecv b => [b] | _ => [] end.
  Proof. unfold recvd. rewrite flat_map_app. cbn. now rewrite app_nil_r. Qed.

  Definition flow (ls : list SysLabel) (tr : Tr) (xs : list (list N)) : Prop :=
    exists sent, Permutation (frames_sent _ _ enc tr) sent /\ (down_in_order ls -> sent = frames_sent _ _ enc tr) /\ thin (cut_of ls) xs sent.
  Lemma flow_step ls l tr xs : flow ls tr xs -> flow (ls ++ [l]) tr xs.
  Proof.
    intros (sent & P & O & T). exists sent. split; auto. split. { intros H. apply O, (down_in_order_app _ _ H). }
    eapply thin_mono; [|exact T]. intros. apply cut_of_mono. auto.
  Qed.
  Lemma flow_sent ls tr new xs : flow ls tr xs -> flow ls (tr ++ new) (xs ++ frames_sent _ _ enc new).
  Proof.
    intros (sent & P & O & T). exists (sent ++ frames_sent _ _ enc new). rewrite frames_sent_app. split. { apply Permutation_app_tail. auto. }
    split. { intros H. rewrite O; auto. } apply thin_app; auto. apply thin_refl. intros. apply cut_of_refl.
  Qed.

  Lemma reach_sys ctx ls s cl es : sys_run ls (sys_new _ _ _ bg ctx) = Some (s, cl, es) -> exists handled, SysInv ls s cl es handled.
  Proof.
    revert ls s cl es. apply (sys_ind (fun ls s cl es => exists handled, SysInv ls s cl es handled)).
    { exists []. split; cbn; auto.
      - exists []. constructor.
      - intros b [[]|[]].
      - intros e [].
      - apply Forall_forall. intros t Ht. right. eauto.
      - exists []. split; [constructor|reflexivity].
      - intros _. constructor.
      - exists []. repeat split; constructor. }
    intros ls s cl es l s' Hr (handled & [V1 V2 V3 V4 V5 V6 V7 V8]) Hs. apply (flow_step _ l) in V8. change (forall b, In b (y_down _ _ _ s) \/ In (LRecv b) cl -> down_ok ls (y_trace _ _ _ s) b) in V3.
    destruct l as [l|i|i|i|i|i|i n|]; cbn [client_label].
    - (* a client step *)
      intros e He. cbn [SystemModel.sys_step] in Hs. rewrite He in Hs.
      assert (Hl : (forall b, l <> LRecv b) /\ s' = MkSys _ _ _ (y_client _ _ _ s') (y_up _ _ _ s ++ wire_of e) (y_down _ _ _ s) (y_ctx _ _ _ s) (y_trace _ _ _ s) (y_tasks _ _ _ s) (y_serving _ _ _ s)).
      { destruct l; try discriminate; injection Hs as Hs; (split; [discriminate|symmetry; exact Hs]). }
      destruct Hl as [Hl E]. exists handled. rewrite E. split; cbn [y_client y_up y_down y_trace y_tasks]; auto.
      + eapply run_last; eauto.
      + destruct V2 as (lost & P). exists lost. rewrite wire_snoc.
        eapply perm_trans; [apply Permutation_app_tail; exact P|]. rewrite <- !app_assoc. apply Permutation_app_head, Permutation_app_head.
        apply Permutation_app_comm.
      + intros b Hb. apply down_ok_step, V3. destruct Hb as [Hb|Hb]; auto. apply in_app_iff in Hb as [Hb|[Hb|[]]]; auto. destruct (Hl _ Hb).
      + intros U. rewrite wire_snoc, app_assoc. apply subseq_app; [apply V7, (up_in_order_app _ _ U)|apply subseq_refl].
      + rewrite recvd_snoc. destruct l; try (rewrite app_nil_r; exact V8). destruct (Hl _ eq_refl).
    - (* the client receives *)
      destruct (nth_error (y_down _ _ _ s) i) as [b|] eqn:Hn; cbn [option_map].
      2:{ cbn [SystemModel.sys_step] in Hs. rewrite Hn in Hs. discriminate. }
      intros e He. cbn [SystemModel.sys_step] in Hs. rewrite Hn, He in Hs. pose proof (recv_wire _ _ _ _ He) as ->. injection Hs as <-.
      exists handled. split; cbn [y_client y_up y_down y_trace y_tasks]; auto.
      + eapply run_last; eauto.
      + rewrite wire_snoc. cbn. rewrite app_nil_r. auto.
      + intros b' Hb. apply down_ok_step, V3. destruct Hb as [Hb|Hb].
        * left. eapply remove_nth_incl; eauto.
        * apply in_app_iff in Hb as [Hb|[[= <-]|[]]]; auto. left. eapply nth_error_In; eauto.
      + intros U. rewrite wire_snoc. cbn. rewrite app_nil_r. apply V7, (up_in_order_app _ _ U).
      + rewrite recvd_snoc. destruct V8 as (sent & P & O & T). destruct (thin_move _ _ _ _ _ _ Hn T) as (sent' & P' & T' & O').
        exists sent'. split; [eapply perm_trans; eauto|]. split; auto. intros D. rewrite O'; auto. apply (D i). apply in_app_iff. right. left. auto.
    - (* the server dispatches *)
      cbn [SystemModel.sys_step] in Hs. destruct (y_serving _ _ _ s) eqn:Hsv; [|discriminate].
      destruct (nth_error (y_up _ _ _ s) i) as [b|] eqn:Hn; [|discriminate].
      assert (P' : exists lost, Permutation (wire es) ((handled ++ [b]) ++ remove_nth i (y_up _ _ _ s) ++ lost)).
      { destruct V2 as (lost & P). exists lost. eapply perm_trans; [exact P|]. rewrite <- app_assoc. apply Permutation_app_head.
        eapply perm_trans; [apply Permutation_app_tail, remove_nth_perm; eauto|]. reflexivity. }
      assert (O' : up_in_order (ls ++ [SServe i]) -> subsequence ((handled ++ [b]) ++ remove_nth i (y_up _ _ _ s)) (wire es)).
      { intros U. assert (i = 0) as -> by (apply U, in_app_iff; right; left; reflexivity).
        destruct (y_up _ _ _ s); [discriminate|]. injection Hn as ->. rewrite <- app_assoc. apply V7, (up_in_order_app _ _ U). }
      destruct (take_from_slice b) as [[[hdr body]|]|] eqn:Ht; [| |discriminate].
      2:{ injection Hs as <-. exists (handled ++ [b]). split; cbn [y_client y_up y_down y_trace y_tasks]; auto.
          - intros b' Hb. apply down_ok_step, V3, Hb.
          - intros e He. rewrite <- (app_nil_r (y_trace _ _ _ s)). apply origin_mono. auto.
          - destruct V6 as (pieces & F & E). exists (pieces ++ [[]]). split.
            + apply Forall2_app; auto. constructor; [left; auto|constructor].
            + rewrite concat_app. cbn. rewrite app_nil_r. auto. }
      destruct (handle d (y_ctx _ _ _ s) hdr body (y_trace _ _ _ s)) as [[ctx1 res] tr] eqn:Hh.
      destruct (handle_new _ _ _ _ _ _ _ Hh) as (new & -> & Iv & _).
      rewrite skipn_app, skipn_all, Nat.sub_diag in Hs. cbn [app skipn] in Hs. injection Hs as <-.
      exists (handled ++ [b]). split; cbn [y_client y_up y_down y_trace y_tasks]; auto.
      + intros b' Hb. rewrite in_app_iff in Hb. destruct Hb as [[Hb|Hb]|Hb].
        * apply down_ok_mono, V3. auto.
        * apply down_ok_sent. auto.
        * apply down_ok_mono, V3. auto.
      + intros e He. apply in_app_iff in He as [He|He]. { apply origin_mono. auto. }
        left. exists (y_trace _ _ _ s), new, [], (y_ctx _ _ _ s), ctx1, res, hdr, body, b. rewrite app_nil_r. repeat split; auto.
        apply in_app_iff. right. left. auto.
      + apply Forall_app. split; [|apply tasks_of_from]. eapply Forall_impl; [|exact V5]. intros x. apply from_task_mono.
      + destruct V6 as (pieces & F & E). exists (pieces ++ [invocations new]). split.
        * apply Forall2_app; auto. constructor; [|constructor]. right. eauto.
        * rewrite invocations_app, concat_app. cbn. rewrite app_nil_r, E. auto.
      + apply (flow_sent _ _ new) in V8. rewrite app_assoc. exact V8.
    - (* a task sends *)
      cbn [SystemModel.sys_step] in Hs. destruct (nth_error (y_tasks _ _ _ s) i) as [[|key seq p k]|] eqn:Hn; try discriminate.
      unfold send_keyed, tx_send in Hs. rewrite skipn_app, skipn_all, Nat.sub_diag in Hs. cbn [app skipn] in Hs.
      set (h := MkHeader (shrink_to (VKey8 key) kkind) seq) in Hs. set (r := net (y_trace _ _ _ s) h p) in Hs. injection Hs as <-.
      assert (Ft : from_task (y_trace _ _ _ s) (HSend key seq p k)).
      { rewrite Forall_forall in V5. apply V5. eapply nth_error_In; eauto. }
      exists handled. split; cbn [y_client y_up y_down y_trace y_tasks]; auto.
      + intros b' Hb. rewrite in_app_iff in Hb. destruct Hb as [[Hb|Hb]|Hb].
        * apply down_ok_mono, V3. auto.
        * apply down_ok_sent. exact Hb.
        * apply down_ok_mono, V3. auto.
      + intros e He. rewrite <- (app_nil_r handled). apply in_app_iff in He as [He|[<-|[]]]. { apply origin_mono. auto. }
        right. destruct Ft as [(n & sc & hdr & v & I1 & M)|(t & I1 & M)].
        * left. exists n, sc, hdr, v, key, seq, p, r. split; [reflexivity|]. split; [apply in_app_iff; auto|]. apply M. constructor.
        * right. exists t, key, seq, p, r. split; [reflexivity|]. split; auto. apply M. constructor.
      + apply set_nth_forall. { eapply Forall_impl; [|exact V5]. intros x. apply from_task_mono. }
        destruct Ft as [(n & sc & hdr & v & I1 & M)|(t & I1 & M)].
        * left. exists n, sc, hdr, v. split. { apply in_app_iff. auto. } intros key' seq' p' Hm. apply M. econstructor. eauto.
        * right. exists t. split; auto. intros key' seq' p' Hm. apply M. econstructor. eauto.
      + destruct V6 as (pieces & F & E). exists pieces. split; auto. rewrite invocations_app. cbn. rewrite app_nil_r. auto.
      + intros U. apply V7, (up_in_order_app _ _ U).
      + apply (flow_sent _ _ [EvSend ByHandler h p r]) in V8. rewrite app_assoc. exact V8.
    - cbn [SystemModel.sys_step] in Hs. destruct (nth_error (y_up _ _ _ s) i) as [b|] eqn:Hn; [|discriminate]. injection Hs as <-.
      exists handled. split; cbn [y_client y_up y_down y_trace y_tasks]; auto.
      + destruct V2 as (lost & P). exists (b :: lost). eapply perm_trans; [exact P|]. apply Permutation_app_head.
        eapply perm_trans; [apply Permutation_app_tail, remove_nth_perm; eauto|]. cbn. apply Permutation_middle.
      + intros b' Hb. apply down_ok_step, V3, Hb.
      + intros U. eapply subseq_trans; [apply V7, (up_in_order_app _ _ U)|]. apply subseq_app; [apply subseq_refl|apply subseq_remove].
    - cbn [SystemModel.sys_step] in Hs. destruct (nth_error (y_down _ _ _ s) i) as [b|] eqn:Hn; [|discriminate]. injection Hs as <-.
      exists handled. split; cbn [y_client y_up y_down y_trace y_tasks]; auto.
      { intros b' [Hb|Hb]; apply down_ok_step, V3; auto. left. eapply remove_nth_incl; eauto. }
      { intros U. apply V7, (up_in_order_app _ _ U). }
      destruct V8 as (sent & P & O & T). exists sent. split; auto. split; auto.
      destruct (thin_split _ _ _ _ T) as (s1 & s2 & -> & T1 & T2). apply thin_app; auto. apply thin_remove. auto.
    - cbn [SystemModel.sys_step] in Hs. destruct (nth_error (y_down _ _ _ s) i) as [b|] eqn:Hn; [|discriminate]. injection Hs as <-.
      exists handled. split; cbn [y_client y_up y_down y_trace y_tasks]; auto.
      2:{ intros U. apply V7, (up_in_order_app _ _ U). }
      2:{ destruct V8 as (sent & P & O & T). exists sent. split; auto. split; auto.
          destruct (thin_split _ _ _ _ T) as (s1 & s2 & -> & T1 & T2). apply thin_app; auto.
          eapply thin_set; [intros x c Hx; exact Hx| | |exact T2].
          - intros x c Hx [(y & ->) U]. rewrite Hn in Hx. injection Hx as <-. split.
            + exists (skipn n b ++ y). rewrite app_assoc, firstn_skipn. reflexivity.
            + intros U'. destruct (U' i n). apply in_app_iff. right. left. reflexivity.
          - rewrite Hn. intros [= ->]. apply firstn_nil. }
      intros b' [Hb|Hb]; [|apply down_ok_step, V3; auto].
      apply In_nth_error in Hb as (j & Hj). destruct (set_nth_inv _ _ _ _ _ _ Hj) as [[_ ->]|[_ Hj']].
      + destruct (V3 b (or_introl (nth_error_In _ _ Hn))) as [->|(w & h & p & r & m & I1 & E & U)].
        * left. now rewrite firstn_nil.
        * right. exists w, h, p, r, (min n m). split; auto. rewrite E, firstn_firstn. split; auto.
          intros U'. exfalso. apply (U' i n). apply in_app_iff. right. left. reflexivity.
      + apply down_ok_step, V3. left. eapply nth_error_In; eauto.
    - injection Hs as <-. exists handled. split; cbn [y_client y_up y_down y_trace y_tasks]; auto.
      2:{ intros U. apply V7, (up_in_order_app _ _ U). }
      2:{ destruct V8 as (sent & P & O & T). exists sent. split; auto. split; auto. rewrite app_assoc. apply thin_insert_empty. rewrite <- app_assoc, firstn_skipn. auto. }
      intros b' [Hb|Hb]; [|apply down_ok_step, V3; auto].
      apply in_app_iff in Hb as [Hb|[<-|Hb]]; [|left; reflexivity|];
        apply down_ok_step, V3; left; rewrite <- (firstn_skipn i (y_down _ _ _ s)); apply in_app_iff; auto.
  Qed.

  (** *** Reading the invariant *)
  Section Reach.
    Variable ls : list SysLabel.
    Variable s : Sys.
    Variable cl : list Label.
    Variable es : list (list Ev).
    Variable handled : list (list N).
    Hypothesis HI : SysInv ls s cl es handled.
    Hypothesis Hlab : Forall (label_ok eps tin) cl.
    Notation tr := (y_trace _ _ _ s).

    Lemma no_raw f k : ~ In (LRequestRaw f k) cl.
    Proof. intros H. rewrite Forall_forall in Hlab. exact (Hlab _ H). Qed.

    Lemma sends_kind w h p r : In (EvSend w h p r) tr -> exists key seq, h = out_header kkind key seq.
    Proof.
      intros H. destruct (si_ev _ _ _ _ _ HI _ H) as
        [(t0 & new & t3 & c & c' & res & hdr & body & b & _ & I1 & _ & _ & Hh)|[(n & sc & hdr & v & key & seq & p' & r' & E & _)|(t & key & seq & p' & r' & E & _)]].
      - destruct (handle_new _ _ _ _ _ _ _ Hh) as (new' & E & _ & K). apply app_inv_head in E. subst new'. eapply K; eauto.
      - injection E as -> -> -> ->. eauto.
      - injection E as -> -> -> ->. eauto.
    Qed.

    Lemma arrived_sent f : In f (arrived cl) -> exists w key seq p r x, In (EvSend w (out_header kkind key seq) p r) tr /\
      (uncut ls -> x = []) /\
      (forall h b, take_from_slice (rpc_to_bytes (MkFrame (out_header kkind key seq) (enc p))) = Done (Some (h, b)) ->
        h = f_hdr f /\ b = f_body f ++ x) /\
      hdr_key (f_hdr f) = hdr_key (out_header kkind key seq).
    Proof.
      intros H. apply in_arrived in H as (b & Hb & Ht). destruct (si_down _ _ _ _ _ HI b (or_intror Hb)) as [->|(w & h & p & r & n & I1 & E & U)].
      { discriminate Ht. }
      destruct (sends_kind _ _ _ _ I1) as (key & seq & ->).
      set (full := rpc_to_bytes (MkFrame (out_header kkind key seq) (enc p))) in *.
      assert (Eb : full = b ++ skipn n full) by (rewrite E; symmetry; apply firstn_skipn).
      assert (B1 : Forall byte_ok (firstn 1 b)).
      { rewrite E. unfold full, rpc_to_bytes. apply first_byte. }
      exists w, key, seq, p, r, (skipn n full). split; auto. split; [|split].
      - intros Un. apply (app_inv_head b). rewrite app_nil_r, <- Eb. symmetry. apply U, Un.
      - intros h' b' Hf. fold full in Hf. rewrite Eb in Hf. exact (take_cut _ _ _ _ _ _ B1 Ht Hf).
      - assert (Full : exists s r2, take_from_slice full = Done (Some (MkHeader (hdr_key (out_header kkind key seq)) s, r2))).
        { unfold full, rpc_to_bytes. cbn [f_hdr f_body]. rewrite take_written.
          destruct seq; cbn [out_header hdr_seq seq_code seq_bytes u16_to_le u32_to_le app take_seq]; eauto. }
        destruct Full as (sq & r2 & Hf). rewrite Eb in Hf. destruct (take_cut _ _ _ _ _ _ B1 Ht Hf) as [<- _]. reflexivity.
    Qed.

    Lemma kind_shrunk (key : Key8) k : varkey_kind (shrink_to (VKey8 key) k) = k.
    Proof. destruct key, k; reflexivity. Qed.

    Lemma arrived_kind f : In f (arrived cl) -> varkey_kind (hdr_key (f_hdr f)) = kkind.
    Proof.
      intros H. destruct (arrived_sent _ H) as (w & key & seq & p & r & x & _ & _ & _ & ->). apply kind_shrunk.
    Qed.

    Lemma seen_kind kk : kind_seen es kk -> kk = KK8 \/ kk = kkind.
    Proof.
      intros [->|(f & Hf & <-)]; auto. right. apply arrived_kind. eapply mi_in; [exact (reach_used _ _ _ _ (si_run _ _ _ _ _ HI))|].
      unfold used. apply in_app_iff. left. auto.
    Qed.
    Lemma seen_le kk : kind_seen es kk -> klen kkind <= klen kk.
    Proof. intros H. destruct (seen_kind _ H) as [->| ->]; auto. apply klen_le_8. Qed.

    Lemma issued_seq_ok r sent resp : nth_error (issued 0 cl) r = Some (sent, resp) ->
      exists req body, is_endpoint eps req resp /\ sent = MkFrame (MkHeader (VKey8 req) (Seq4 (N.of_nat r mod 4294967296))) body /\
        seq_ok (hdr_seq (f_hdr sent)).
    Proof.
      intros H. destruct (issued_typed _ _ _ _ _ no_raw H) as (_ & req & body & Hi & ->).
      exists req, body. split; [rewrite Forall_forall in Hlab; exact (Hlab _ Hi)|]. split; auto. cbn. apply N.mod_lt. discriminate.
    Qed.

    (** Every frame the server dispatched is a request or a publication of this
        client. *)
    Lemma classify b hdr body : In b handled -> take_from_slice b = Done (Some (hdr, body)) ->
      exists kk, klen dk <= klen kk /\ seq_ok (hdr_seq hdr) /\
      ((exists r req resp, In (inl r) (accepted cl es) /\ is_endpoint eps req resp /\
          nth_error (issued 0 cl) r = Some (MkFrame (MkHeader (VKey8 req) (hdr_seq hdr)) body, resp) /\
          hdr_seq hdr = Seq4 (N.of_nat r mod 4294967296) /\ hdr_key hdr = shrink_to (VKey8 req) kk) \/
       (exists i key, In (inr i) (accepted cl es) /\ is_topic_in tin key /\
          nth_error (published cl) i = Some (MkFrame (MkHeader (VKey8 key) (hdr_seq hdr)) body) /\ hdr_key hdr = shrink_to (VKey8 key) kk)).
    Proof.
      intros Hb Ht. destruct (si_up _ _ _ _ _ HI) as (lost & P).
      assert (Hw : In b (wire es)). { eapply Permutation_in; [apply Permutation_sym, P|]. apply in_app_iff. auto. }
      destruct (C59_in_order_once _ _ _ _ (si_run _ _ _ _ _ HI)) as (_ & frames & F & (rest & E) & _).
      assert (Hf : In b (map rpc_to_bytes frames)) by (rewrite E; apply in_app_iff; auto).
      apply in_map_iff in Hf as (f & <- & Hf). clear E P rest lost Hw.
      assert (X : exists x, In x (accepted cl es) /\ frame_for cl es x f).
      { clear Ht Hb. induction F; [destruct Hf|]. destruct Hf as [->|Hf]; [exists x; split; auto; left; auto|].
        destruct (IHF Hf) as (x' & Hx & Hff). exists x'. split; auto. right. auto. }
      destruct X as (x & Hx & g & kk & Hkd & -> & Hg).
      exists kk. split. { pose proof (seen_le _ Hkd). lia. }
      unfold rpc_to_bytes, shrink_frame in Ht. cbn [f_hdr f_body] in Ht. destruct x as [r|i].
      - destruct Hg as (resp & Hr). destruct (issued_seq_ok _ _ _ Hr) as (req & body' & He & -> & Hok). cbn in Hok.
        cbn [f_hdr f_body hdr_seq hdr_key] in Ht. rewrite take_written_ok in Ht by exact Hok. injection Ht as <- <-. cbn [hdr_seq hdr_key].
        split; auto. left. exists r, req, resp. auto.
      - assert (Hl : label_ok eps tin (LPublish g)).
        { rewrite Forall_forall in Hlab. apply Hlab. apply nth_error_In in Hg. unfold published in Hg. apply in_flat_map in Hg as (l & Hl & Hi).
          destruct l; try destruct Hi; [subst; auto|destruct H]. }
        destruct Hl as (key & Hk & Ek & Hok). rewrite take_written_ok in Ht by exact Hok. injection Ht as <- <-. cbn [hdr_seq hdr_key].
        split; auto. right. exists i, key. rewrite Ek. repeat split; auto. rewrite <- Ek. destruct g as [[] ?]. exact Hg.
    Qed.

    Lemma ep_event_mono req resp hdr body t1 t2 e : ep_event req resp hdr body t1 e -> ep_event req resp hdr body (t1 ++ t2) e.
    Proof.
      destruct e; cbn; auto. intros (key & sq & E & H). exists key, sq. split; auto.
      destruct H as [H|[H|(H1 & H2 & H3 & H4)]]; auto. right. right. repeat split; auto. apply answer_mono. auto.
    Qed.

    (** The request [r] of this client, as issued. *)
    Definition asked r req resp body : Prop :=
      is_endpoint eps req resp /\
      nth_error (issued 0 cl) r = Some (MkFrame (MkHeader (VKey8 req) (Seq4 (N.of_nat r mod 4294967296))) body, resp).
    Definition told i key sq body : Prop :=
      is_topic_in tin key /\ seq_ok sq /\ nth_error (published cl) i = Some (MkFrame (MkHeader (VKey8 key) sq) body).

    Lemma event_class e : In e tr ->
      (exists r req resp body hdr t0 new t2 ctx ctx' res, asked r req resp body /\ hdr_seq hdr = Seq4 (N.of_nat r mod 4294967296) /\
         varkey_eqb (VKey8 req) (hdr_key hdr) = true /\
         handle d ctx hdr body t0 = (ctx', res, t0 ++ new) /\ tr = t0 ++ new ++ t2 /\ In e new /\
         ep_event req resp hdr body tr e) \/
      (exists i key body hdr, told i key (hdr_seq hdr) body /\ tp_event hdr body e /\
         ((exists a, In a ta /\ ta_key _ _ a = key) -> forall h er r, e <> EvSend ByDispatcher h (PError er) r)) \/
      (exists n sc hdr v key seq p r, e = EvSend ByHandler (out_header kkind key seq) p r /\
         In (EvSpawn n sc hdr v true) tr /\ may_send (task n sc hdr v) key seq p) \/
      (exists t key seq p r, e = EvSend ByHandler (out_header kkind key seq) p r /\ In t bg /\ may_send t key seq p).
    Proof.
      intros He. destruct (si_ev _ _ _ _ _ HI _ He) as
        [(t0 & new & t2 & c & c' & res & hdr & body & b & Et & I1 & I2 & Ht & Hh)|H]; [|right; right; exact H].
      destruct (classify _ _ _ I2 Ht) as (kk & L & Hok & [(r & req & resp & _ & Hep & Hi & Hs & Hk)|(i & key & _ & Htp & Hi & Hk)]).
      - left. exists r, req, resp, body, hdr, t0, new, t2, c, c', res. split. { split; auto. rewrite <- Hs. auto. }
        split; auto. split.
        { rewrite Hk. apply varkey_eqb_spec. unfold agree_at. rewrite shrink_bytes, vlen_shrunk, vlen8, Nat.min_r by apply klen_le_8.
          rewrite Nat.min_l by apply klen_le_8. rewrite (compact_compact (VKey8 req) kk kk); auto. rewrite vlen8. apply klen_le_8. }
        repeat split; auto.
        destruct (handle_ep _ _ _ _ _ _ _ _ _ _ Hep L Hk Hh) as (new' & E & Ev). apply app_inv_head in E. subst new'.
        rewrite Et, app_assoc. apply ep_event_mono. auto.
      - right. left. exists i, key, body, hdr. split. { split; auto. }
        destruct (handle_tp _ _ _ _ _ _ _ _ _ Htp L Hk Hh) as (new' & E & Ev & Q). apply app_inv_head in E. subst new'.
        split; auto. intros Ha h er r ->. eapply (Q Ha). apply filter_In. split; eauto.
    Qed.

    Lemma seqv4 n : seq_value (Seq4 n) = n. Proof. reflexivity. Qed.

    Lemma send_class w h p r0 : In (EvSend w h p r0) tr -> exists key sq, h = out_header kkind key sq /\ seq_ok sq /\
      (is_topic_out tout key \/
       (key = error_key std /\ exists i tkey body er, p = PError er /\ told i tkey sq body /\ ~ exists a, In a ta /\ ta_key _ _ a = tkey) \/
       (exists r req resp body, asked r req resp body /\ sq = Seq4 (N.of_nat r mod 4294967296) /\
         ((key = error_key std /\ refused std ea task net kkind d can_spawn spawn_ctxt tr req (N.of_nat r mod 4294967296) body p) \/
          (key = resp /\ answer_of tr req (N.of_nat r mod 4294967296) body p)))).
    Proof.
      intros He.
      assert (Sq : forall n, seq_ok (Seq4 (n mod 4294967296))) by (intros n; cbn; apply N.mod_lt; discriminate).
      destruct (event_class _ He) as [(r & req & resp & body & hdr & t0 & new & t2 & c & c' & res & As & Hs & Hk & Hh & Et & Hin & Ev)|[(i & key & body & hdr & To & Ev & Q)|
        [(n & sc & hdr & v & key & sq & p' & r' & E & Hsp & Ms)|(t & key & sq & p' & r' & E & Hbg & Ms)]]].
      - destruct Ev as (key & sq & -> & H). exists key, sq. split; auto.
        destruct H as [[H1 H2]|[(H1 & H2 & H3 & er & H4 & H5)|(H1 & H2 & H3 & H4)]]; auto; subst; rewrite Hs.
        + split; [apply Sq|]. right. right. exists r, req, resp, body. split; auto. split; auto. left. split; auto.
          eapply ref_dispatch; eauto. rewrite Hs. reflexivity.
        + split; [apply Sq|]. right. right. exists r, req, resp, body. split; auto. split; auto. right. split; auto.
          rewrite Hs, seqv4 in H4. exact H4.
      - destruct Ev as (k & sq & -> & H). exists k, sq. split; auto.
        destruct H as [[H1 H2]|(H1 & H2 & H3 & er & H4)]; auto. subst. split; [apply To|]. right. left. split; auto.
        exists i, key, body, er. repeat split; auto; try apply To. intros Ha. eapply (Q Ha). reflexivity.
      - injection E as -> -> -> ->. exists key, sq. split; auto.
        destruct (event_class _ Hsp) as [(r & req & resp & body & hdr2 & t0 & new & t2 & c & c' & res & As & Hs & Hk & Hh & Et & Hin & Ev)|[(i & key2 & body & hdr2 & To & Ev & Q)|
          [(n2 & sc2 & hdr2 & v2 & key2 & sq2 & p2 & r2 & E2 & _)|(t & key2 & sq2 & p2 & r2 & E2 & _)]]]; [| |discriminate|discriminate].
        + destruct Ev as (-> & a & Ia & Ea & Er & Ef & Ed & ->). destruct Hhand as (_ & _ & Hh3 & _).
          destruct (Hh3 _ _ _ _ _ _ _ Ia Ef Ms) as [[H1 H2]|[Hkey ->]]; auto.
          rewrite Hs. split; [apply Sq|]. right. right. exists r, req, resp, body. split; auto. split; auto.
          destruct Hkey as [->| ->]; [right|left]; (split; [auto|]).
          * eapply ans_task; eauto. rewrite Hs. reflexivity.
          * eapply ref_task; eauto. rewrite Hs. reflexivity.
        + destruct Ev as (a & Ia & Ef & -> & _). destruct Hhand as (_ & _ & _ & Hh4 & _).
          destruct (Hh4 _ _ _ _ _ _ _ Ia Ef Ms). auto.
      - injection E as -> -> -> ->. exists key, sq. split; auto. destruct Hhand as (_ & _ & _ & _ & Hh5).
        destruct (Hh5 _ _ _ _ Hbg Ms). auto.
    Qed.

    (** A frame the client received is one the server sent, possibly cut short. *)
    Lemma arrived_class f : In f (arrived cl) -> exists w key sq p r x, In (EvSend w (out_header kkind key sq) p r) tr /\ seq_ok sq /\
      f_hdr f = out_header kkind key sq /\ enc p = f_body f ++ x /\ (uncut ls -> x = []).
    Proof.
      intros H. destruct (arrived_sent _ H) as (w & key & sq & p & r & x & Hs & U & Ht & _).
      destruct (send_class _ _ _ _ Hs) as (key' & sq' & E & Hok & _). injection E as _ <-.
      unfold rpc_to_bytes in Ht. cbn [f_hdr f_body] in Ht. destruct (Ht _ _ (take_written_ok (out_header kkind key sq) (enc p) Hok)) as [E1 E2].
      exists w, key, sq, p, r, x. split; auto.
    Qed.

    Lemma answers_key kk k sq key sq' body : klen kkind <= klen kk -> answers_to kk k sq (MkFrame (out_header kkind key sq') body) ->
      seq_value sq' = seq_value sq /\ compact (klen kkind) (k8_bytes k) = compact (klen kkind) (k8_bytes key).
    Proof.
      intros L [H1 H2]. cbn [f_hdr out_header hdr_seq hdr_key] in *. split; auto.
      apply varkey_eqb_spec in H2. rewrite !vlen_shrunk, Nat.min_r in H2 by lia.
      unfold agree_at in H2. rewrite !shrink_bytes, !vlen8, !Nat.min_l in H2 by apply klen_le_8.
      rewrite (compact_compact (VKey8 k) kkind kk), (compact_compact (VKey8 key) kkind kkind) in H2; rewrite ?vlen8; auto; apply klen_le_8.
    Qed.

    Hypothesis Hcount : (N.of_nat (typed cl) <= 4294967296)%N.
    Lemma asked_num r req resp body : asked r req resp body -> (N.of_nat r mod 4294967296 = N.of_nat r)%N.
    Proof. intros [_ H]. destruct (issued_typed _ _ _ _ _ no_raw H) as (L & _). apply N.mod_small. lia. Qed.
    Lemma issued_asked r sent resp : nth_error (issued 0 cl) r = Some (sent, resp) ->
      exists req body, asked r req resp body /\ sent = MkFrame (MkHeader (VKey8 req) (Seq4 (N.of_nat r mod 4294967296))) body.
    Proof. intros H. destruct (issued_seq_ok _ _ _ H) as (req & body & He & -> & _). exists req, body. split; auto. split; auto. Qed.
    Lemma asked_same r1 r2 req1 resp1 body1 req2 resp2 body2 : asked r1 req1 resp1 body1 -> asked r2 req2 resp2 body2 ->
      (N.of_nat r1 mod 4294967296 = N.of_nat r2 mod 4294967296)%N -> r1 = r2 /\ req1 = req2 /\ resp1 = resp2 /\ body1 = body2.
    Proof.
      intros H1 H2 E. rewrite (asked_num _ _ _ _ H1), (asked_num _ _ _ _ H2) in E. apply Nat2N.inj in E. subst r2.
      destruct H1 as [_ H1], H2 as [_ H2]. rewrite H1 in H2. injection H2 as -> -> ->. auto.
    Qed.
  End Reach.
End S.
