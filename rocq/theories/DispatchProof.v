(** Lemmas about the dispatcher. *)
From Coq Require Import NArith List Bool Arith Lia.
From Verif Require Import KeyModel HeaderModel KeySpec KeyProof MinKeyModel MinKeySpec MinKeyProof
  SchemaModel SchemaSpec SchemaProof MacroModel MacroProof PostcardModel DispatchModel DispatchSpec.
Import ListNotations.

Lemma pat_eqb_iff a b : pat_eqb a b = true <-> a = b.
Proof.
  destruct a, b; cbn; try (split; discriminate).
  - rewrite key1_eqb_iff. split; congruence.
  - rewrite key2_eqb_iff. split; congruence.
  - rewrite key4_eqb_iff. split; congruence.
  - rewrite key8_eqb_iff. split; congruence.
Qed.
Lemma pat_eqb_refl a : pat_eqb a a = true.
Proof. now apply pat_eqb_iff. Qed.

Lemma keyb_of_spec kind v :
  keyb_of kind v = if klen kind <=? vlen v then Some (shrink_to v kind) else None.
Proof. destruct kind, v as [[]|[]|[]|[]]; reflexivity. Qed.
Lemma const_key_spec kind k : const_key kind k = shrink_to (VKey8 k) kind.
Proof. destruct kind, k; reflexivity. Qed.

Lemma klen_le_8 k : klen k <= 8.
Proof. destruct k; cbn; lia. Qed.
Lemma vlen8 k : vlen (VKey8 k) = 8.
Proof. destruct k; reflexivity. Qed.

Lemma shrink8_iff kind a b :
  shrink_to (VKey8 a) kind = shrink_to (VKey8 b) kind <->
  compact (klen kind) (k8_bytes a) = compact (klen kind) (k8_bytes b).
Proof.
  pose proof (shrink_bytes (VKey8 a) kind) as Ha. pose proof (shrink_bytes (VKey8 b) kind) as Hb.
  rewrite vlen8 in Ha, Hb. rewrite Nat.min_l in Ha, Hb by apply klen_le_8.
  cbn [varkey_bytes] in Ha, Hb. rewrite <- Ha, <- Hb. split; [congruence|apply varkey_bytes_inj].
Qed.

(** A pattern matches exactly when the received key, compacted to the
    dispatcher's length, equals the compacted full key. *)
Lemma pat_match kind v k : klen kind <= vlen v ->
  (pat_eqb (shrink_to v kind) (const_key kind k) = true <-> agree_at (klen kind) v (VKey8 k)).
Proof.
  intros L. rewrite pat_eqb_iff, const_key_spec. unfold agree_at.
  pose proof (shrink_bytes v kind) as Hv. pose proof (shrink_bytes (VKey8 k) kind) as Hk.
  rewrite vlen8 in Hk. rewrite Nat.min_l in Hk by apply klen_le_8.
  rewrite Nat.min_l in Hv by lia. rewrite <- Hv, <- Hk.
  split; [congruence|apply varkey_bytes_inj].
Qed.

(** Distinctness of a table, used across and within its halves. *)
Lemma distinct_inj n keys a b : distinct_at n keys -> In a keys -> In b keys ->
  compact n (k8_bytes a) = compact n (k8_bytes b) -> a = b.
Proof.
  unfold distinct_at. intros D. induction keys as [|k keys IH]; cbn; [tauto|].
  cbn in D. inversion D; subst. intros [->|Ha] [->|Hb] E; auto.
  - exfalso. apply H1. rewrite E. apply in_map_iff. eauto.
  - exfalso. apply H1. rewrite <- E. apply in_map_iff. eauto.
Qed.
Lemma nodup_app_disj {A} (l1 l2 : list A) x : NoDup (l1 ++ l2) -> In x l1 -> In x l2 -> False.
Proof.
  induction l1; cbn; [tauto|]. intros N [->|H] H2; inversion N; subst.
  - match goal with H : ~ In _ _ |- _ => apply H end. apply in_app_iff. auto.
  - eauto.
Qed.
Lemma distinct_app_disj n l1 l2 a b : distinct_at n (l1 ++ l2) -> In a l1 -> In b l2 ->
  compact n (k8_bytes a) <> compact n (k8_bytes b).
Proof.
  unfold distinct_at. rewrite map_app. intros D Ha Hb E.
  eapply nodup_app_disj; [exact D| |]; apply in_map_iff; [exists a|exists b]; eauto.
Qed.

Section D.
  Context {Val Ctx SCtx : Type} (std : StdKeys).
  Variable net : Trace Val SCtx -> VarHeader -> Payload Val -> TxRes.
  Variable can_spawn : Trace Val SCtx -> nat -> bool.
  Variable kkind : VarKeyKind.
  Variable spawn_ctxt : Ctx -> Ctx * SCtx.

  Notation handle := (handle Val Ctx SCtx std net can_spawn kkind spawn_ctxt).
  Notation ep_arm := (ep_arm Val Ctx SCtx std net can_spawn kkind spawn_ctxt).
  Notation tp_arm := (tp_arm Val Ctx SCtx net can_spawn kkind spawn_ctxt).
  Notation match_eps := (match_eps Val Ctx SCtx std net can_spawn kkind spawn_ctxt).
  Notation match_tps := (match_tps Val Ctx SCtx std net can_spawn kkind spawn_ctxt).
  Notation run_prog := (run_prog Val SCtx net kkind).
  Notation Tr := (Trace Val SCtx).

  Lemma invocations_app (a b : Tr) : invocations (a ++ b) = invocations a ++ invocations b.
  Proof. induction a as [|[| |? ? ? ? []]]; cbn; auto; now rewrite IHa. Qed.
  Lemma dispatcher_frames_app (a b : Tr) :
    dispatcher_frames (a ++ b) = dispatcher_frames a ++ dispatcher_frames b.
  Proof. induction a as [|[[] | |]]; cbn; auto; now rewrite IHa. Qed.

  (** What user code adds to the trace. *)
  Lemma run_prog_trace {R} (p : HProg Val R) : forall (tr : Tr),
    exists new, snd (run_prog p tr) = tr ++ new /\ invocations new = [] /\ dispatcher_frames new = [].
  Proof.
    induction p as [r|key seq pl k IH]; intros tr; cbn [DispatchModel.run_prog].
    - exists []. now rewrite app_nil_r.
    - unfold send_keyed, tx_send.
      set (h := MkHeader (shrink_to (VKey8 key) kkind) seq). set (r := net tr h pl).
      destruct (IH r (tr ++ [EvSend ByHandler h pl r])) as (new & E & I & D).
      rewrite E. exists (EvSend ByHandler h pl r :: new).
      rewrite <- app_assoc. auto.
  Qed.

  Lemma match_eps_skip kind keyb l1 l2 tps ctx hdr body (tr : Tr) :
    (forall a, In a l1 -> pat_eqb keyb (const_key kind (ea_req _ _ a)) = false) ->
    match_eps kind keyb (l1 ++ l2) tps ctx hdr body tr = match_eps kind keyb l2 tps ctx hdr body tr.
  Proof.
    induction l1; cbn; intros H; auto. rewrite H by auto. apply IHl1. auto.
  Qed.
  Lemma match_tps_skip kind keyb l1 l2 ctx hdr body (tr : Tr) :
    (forall a, In a l1 -> pat_eqb keyb (const_key kind (ta_key _ _ a)) = false) ->
    match_tps kind keyb (l1 ++ l2) ctx hdr body tr = match_tps kind keyb l2 ctx hdr body tr.
  Proof.
    induction l1; cbn; intros H; auto. rewrite H by auto. apply IHl1. auto.
  Qed.

  (** The elaborated dispatcher. *)
  Lemma define_dispatch_inv eps tin tout ea ta d : config_ok eps tin tout ea ta ->
    define_dispatch Val Ctx eps tin tout ea ta = Done d ->
    d_eps _ _ d = ea /\ d_tps _ _ d = ta /\
    (forall k, klen (d_kind _ _ d) <= klen k ->
      distinct_at (klen k) (map ep_req (em_endpoints eps) ++ map snd (tm_topics tin)) /\
      distinct_at (klen k) (map ep_resp (em_endpoints eps) ++ map snd (tm_topics tout))) /\
    incl (map (@ea_req _ _) ea) (map ep_req (em_endpoints eps)) /\
    incl (map (@ea_resp _ _) ea) (map ep_resp (em_endpoints eps)) /\
    incl (map (@ta_key _ _) ta) (map snd (tm_topics tin)) /\
    dm_min_key_len (d_map _ _ d) = d_kind _ _ d /\
    dm_endpoints (d_map _ _ d) = em_endpoints eps /\
    dm_topics_in (d_map _ _ d) = tm_topics tin /\ dm_topics_out (d_map _ _ d) = tm_topics tout.
  Proof.
    intros (K1 & K2 & K3 & K4 & K5 & K6 & K7). unfold define_dispatch.
    destruct (needed_sz _ _ _ _ _ _) as [n|] eqn:E; [|discriminate].
    apply needed_sz_spec in E; auto. destruct E as (P & D & I1 & I2 & I3).
    destruct (kind_of_size n) as [kind|] eqn:Ek; [|discriminate].
    assert (Hn : n = klen kind).
    { destruct P as [->|[->|[->| ->]]]; cbn in Ek; injection Ek as <-; reflexivity. }
    unfold device_map. rewrite merge_types_eq. cbn [obind]. intros [= <-]. cbn.
    repeat split; auto; intros; apply D; try lia; destruct k; unfold permitted; cbn; auto.
  Qed.

  Lemma made_for eps tin tout ea ta d : config_ok eps tin tout ea ta ->
    define_dispatch Val Ctx eps tin tout ea ta = Done d -> dispatcher_for eps tin tout ea ta d.
  Proof. intros C E. destruct (define_dispatch_inv _ _ _ _ _ _ C E) as (A & B & D & I1 & I2 & I3 & _). repeat split; auto; now apply D. Qed.

  Lemma const_false kind v k : klen kind <= vlen v -> ~ agree_at (klen kind) v (VKey8 k) ->
    pat_eqb (shrink_to v kind) (const_key kind k) = false.
  Proof. intros L N. apply not_true_is_false. now rewrite pat_match. Qed.

  (** The key of a handler, at a sufficient length, agrees with no other key of
      the table. *)
  Lemma agree_shrunk kind k a b : klen kind <= klen k ->
    agree_at (klen kind) (shrink_to (VKey8 a) k) (VKey8 b) <->
    compact (klen kind) (k8_bytes a) = compact (klen kind) (k8_bytes b).
  Proof.
    intros L. unfold agree_at. rewrite (shrink_bytes (VKey8 a) k), vlen8, Nat.min_l by apply klen_le_8.
    rewrite (compact_compact (VKey8 a) kind k); [cbn [varkey_bytes]; tauto|auto|].
    rewrite vlen8. apply klen_le_8.
  Qed.
  Lemma vlen_shrunk a k : vlen (shrink_to (VKey8 a) k) = klen k.
  Proof. rewrite shrink_len, vlen8. pose proof (klen_le_8 k). lia. Qed.

  Lemma handle_endpoint eps tin tout ea ta d l1 a l2 k hdr body ctx (tr : Tr) :
    dispatcher_for eps tin tout ea ta d ->
    has_std std eps -> ea = l1 ++ a :: l2 ->
    ~ In (ea_req _ _ a) (ping_req std :: schemas_req std :: map (@ea_req _ _) l1) ->
    klen (d_kind _ _ d) <= klen k -> hdr_key hdr = shrink_to (VKey8 (ea_req _ _ a)) k ->
    handle d ctx hdr body tr =
      match ea_deser _ _ a body with
      | None => let (res, tr') := send_error Val SCtx std net kkind (hdr_seq hdr) DeserFailed tr in (ctx, res, tr')
      | Some req => ep_arm a ctx hdr req tr
      end.
  Proof.
    intros E [Hp Hs] -> N L Hk. destruct E as (E1 & E2 & D & I1 & _).
    specialize (D (d_kind _ _ d) (le_n _)). destruct D as [D _].
    assert (Ia : In (ea_req _ _ a) (map ep_req (em_endpoints eps))).
    { apply I1. apply in_map_iff. exists a. split; auto. apply in_app_iff. cbn; auto. }
    assert (DD : forall b, In b (map ep_req (em_endpoints eps)) -> b <> ea_req _ _ a ->
      pat_eqb (shrink_to (hdr_key hdr) (d_kind _ _ d)) (const_key (d_kind _ _ d) b) = false).
    { intros b Hb Nb. apply const_false; [rewrite Hk, vlen_shrunk; auto|].
      rewrite Hk, agree_shrunk by auto. intros A. apply Nb. symmetry.
      eapply distinct_inj; eauto; apply in_app_iff; auto. }
    unfold DispatchModel.handle. rewrite keyb_of_spec, Hk, vlen_shrunk.
    destruct (Nat.leb_spec (klen (d_kind _ _ d)) (klen k)); [|lia]. rewrite <- Hk.
    rewrite DD; auto. 2: { intros EE. apply N. cbn; auto. }
    rewrite DD; auto. 2: { intros EE. apply N. cbn; auto. }
    rewrite E1, match_eps_skip.
    2: { intros a' Ha'. apply DD.
      - apply I1. apply in_map_iff. exists a'. split; auto. apply in_app_iff; auto.
      - intros EE. apply N. right; right. rewrite <- EE. now apply in_map. }
    cbn [DispatchModel.match_eps].
    assert (M : pat_eqb (shrink_to (hdr_key hdr) (d_kind _ _ d)) (const_key (d_kind _ _ d) (ea_req _ _ a)) = true).
    { apply pat_match; [rewrite Hk, vlen_shrunk; auto|]. rewrite Hk. now apply agree_shrunk. }
    rewrite M. reflexivity.
  Qed.

  Lemma handle_topic eps tin tout ea ta d l1 a l2 k hdr body ctx (tr : Tr) :
    dispatcher_for eps tin tout ea ta d ->
    has_std std eps -> ta = l1 ++ a :: l2 ->
    ~ In (ta_key _ _ a) (map (@ta_key _ _) l1) ->
    klen (d_kind _ _ d) <= klen k -> hdr_key hdr = shrink_to (VKey8 (ta_key _ _ a)) k ->
    handle d ctx hdr body tr =
      match ta_deser _ _ a body with
      | None => (ctx, TxOk, tr)
      | Some msg => tp_arm a ctx hdr msg tr
      end.
  Proof.
    intros E [Hp Hs] -> N L Hk. destruct E as (E1 & E2 & D & I1 & _ & I3).
    specialize (D (d_kind _ _ d) (le_n _)). destruct D as [D _].
    assert (Ia : In (ta_key _ _ a) (map snd (tm_topics tin))).
    { apply I3. apply in_map_iff. exists a. split; auto. apply in_app_iff. cbn; auto. }
    assert (D1 : forall b, In b (map ep_req (em_endpoints eps)) ->
      pat_eqb (shrink_to (hdr_key hdr) (d_kind _ _ d)) (const_key (d_kind _ _ d) b) = false).
    { intros b Hb. apply const_false; [rewrite Hk, vlen_shrunk; auto|].
      rewrite Hk, agree_shrunk by auto. intros A. symmetry in A.
      eapply distinct_app_disj; eauto. }
    assert (D2 : forall b, In b (map snd (tm_topics tin)) -> b <> ta_key _ _ a ->
      pat_eqb (shrink_to (hdr_key hdr) (d_kind _ _ d)) (const_key (d_kind _ _ d) b) = false).
    { intros b Hb Nb. apply const_false; [rewrite Hk, vlen_shrunk; auto|].
      rewrite Hk, agree_shrunk by auto. intros A. apply Nb. symmetry.
      eapply distinct_inj; eauto; apply in_app_iff; auto. }
    unfold DispatchModel.handle. rewrite keyb_of_spec, Hk, vlen_shrunk.
    destruct (Nat.leb_spec (klen (d_kind _ _ d)) (klen k)); [|lia]. rewrite <- Hk.
    rewrite !D1 by auto. rewrite E1, E2.
    rewrite <- (app_nil_r ea), match_eps_skip.
    2: { intros a' Ha'. apply D1. apply I1. now apply in_map. }
    cbn [DispatchModel.match_eps]. rewrite match_tps_skip.
    2: { intros a' Ha'. apply D2.
      - apply I3. apply in_map_iff. exists a'. split; auto. apply in_app_iff; auto.
      - intros EE. apply N. rewrite <- EE. now apply in_map. }
    cbn [DispatchModel.match_tps].
    assert (M : pat_eqb (shrink_to (hdr_key hdr) (d_kind _ _ d)) (const_key (d_kind _ _ d) (ta_key _ _ a)) = true).
    { apply pat_match; [rewrite Hk, vlen_shrunk; auto|]. rewrite Hk. now apply agree_shrunk. }
    rewrite M. reflexivity.
  Qed.

  (** Invocations and frames of the arms. *)
  Lemma ep_arm_trace a ctx hdr req (tr : Tr) ctx' res tr' :
    ep_arm a ctx hdr req tr = (ctx', res, tr') ->
    exists new, tr' = tr ++ new /\
    match ea_flavor _ _ a with
    | Spawn => 
        if can_spawn tr (ea_name _ _ a)
        then invocations new = [(ea_name _ _ a, hdr, req)] /\ dispatcher_frames new = [] /\ res = TxOk
        else invocations new = [] /\
          dispatcher_frames new = [(out_header kkind (error_key std) (hdr_seq hdr), PError FailedToSpawn, res)]
    | _ => invocations new = [(ea_name _ _ a, hdr, req)] /\ exists v, 
        dispatcher_frames new = [(out_header kkind (ea_resp _ _ a) (hdr_seq hdr), PVal v, TxOk)] /\ res = TxOk
        \/ exists k, dispatcher_frames new =
            [(out_header kkind (ea_resp _ _ a) (hdr_seq hdr), PVal v, TxErr k);
             (out_header kkind (error_key std) (hdr_seq hdr), PError SerFailed, res)]
    end.
  Proof.
    assert (G : (let '((ctx', reply), tr1) := run_prog (ea_run _ _ a ctx hdr req) (tr ++ [EvRun (ea_name _ _ a) hdr req]) in
      let (res, tr2) := send_keyed Val SCtx net kkind ByDispatcher (hdr_seq hdr) (ea_resp _ _ a) (PVal reply) tr1 in
      if is_err res
      then let (res', tr3) := send_error Val SCtx std net kkind (hdr_seq hdr) SerFailed tr2 in (ctx', res', tr3)
      else (ctx', TxOk, tr2)) = (ctx', res, tr') ->
      exists new, tr' = tr ++ new /\ invocations new = [(ea_name _ _ a, hdr, req)] /\
      exists v, 
        dispatcher_frames new = [(out_header kkind (ea_resp _ _ a) (hdr_seq hdr), PVal v, TxOk)] /\ res = TxOk
        \/ exists k, dispatcher_frames new =
            [(out_header kkind (ea_resp _ _ a) (hdr_seq hdr), PVal v, TxErr k);
             (out_header kkind (error_key std) (hdr_seq hdr), PError SerFailed, res)]).
    { destruct (run_prog_trace (ea_run _ _ a ctx hdr req) (tr ++ [EvRun (ea_name _ _ a) hdr req])) as (new & E & I & D).
      destruct (run_prog (ea_run _ _ a ctx hdr req) (tr ++ [EvRun (ea_name _ _ a) hdr req])) as [[c v] tr1].
      cbn [snd] in E. subst tr1. unfold send_keyed, tx_send.
      set (r := net _ _ (PVal v)). clearbody r. destruct r as [|k]; cbn [is_err].
      - intros [= <- <- <-].
        exists (EvRun (ea_name _ _ a) hdr req :: new ++ [EvSend ByDispatcher (out_header kkind (ea_resp _ _ a) (hdr_seq hdr)) (PVal v) TxOk]).
        split; [now rewrite <- !app_assoc|]. cbn [invocations dispatcher_frames].
        rewrite invocations_app, dispatcher_frames_app, I, D. cbn. split; auto. exists v. left. auto.
      - unfold send_error, send_keyed, tx_send. set (r2 := net _ _ (PError SerFailed)). clearbody r2.
        intros [= <- <- <-].
        exists (EvRun (ea_name _ _ a) hdr req :: new ++
           [EvSend ByDispatcher (out_header kkind (ea_resp _ _ a) (hdr_seq hdr)) (PVal v) (TxErr k);
            EvSend ByDispatcher (out_header kkind (error_key std) (hdr_seq hdr)) (PError SerFailed) r2]).
        split; [now rewrite <- !app_assoc|]. cbn [invocations dispatcher_frames].
        rewrite invocations_app, dispatcher_frames_app, I, D. cbn. split; auto. exists v. right. exists k. auto. }
    unfold DispatchModel.ep_arm. destruct (ea_flavor _ _ a); auto.
    clear G. destruct (spawn_ctxt ctx) as [c sc]. destruct (can_spawn tr (ea_name _ _ a)) eqn:Ec; cbn [negb].
    - intros [= <- <- <-]. eexists. split; [reflexivity|]. cbn. auto.
    - unfold send_error, send_keyed, tx_send. set (r := net _ _ (PError FailedToSpawn)). clearbody r.
      intros [= <- <- <-]. rewrite <- app_assoc. eexists. split; [reflexivity|]. cbn. auto.
  Qed.

  Lemma tp_arm_trace a ctx hdr msg (tr : Tr) ctx' res tr' :
    tp_arm a ctx hdr msg tr = (ctx', res, tr') ->
    res = TxOk /\
    exists new, tr' = tr ++ new /\ dispatcher_frames new = [] /\
      invocations new =
        match ta_flavor _ _ a with
        | Spawn => if can_spawn tr (ta_name _ _ a) then [(ta_name _ _ a, hdr, msg)] else []
        | _ => [(ta_name _ _ a, hdr, msg)]
        end.
  Proof.
    assert (G : (let (ctx', tr1) := run_prog (ta_run _ _ a ctx hdr msg) (tr ++ [EvRun (ta_name _ _ a) hdr msg]) in
      (ctx', TxOk, tr1)) = (ctx', res, tr') -> res = TxOk /\
      exists new, tr' = tr ++ new /\ dispatcher_frames new = [] /\ invocations new = [(ta_name _ _ a, hdr, msg)]).
    { destruct (run_prog_trace (ta_run _ _ a ctx hdr msg) (tr ++ [EvRun (ta_name _ _ a) hdr msg])) as (new & E & I & D).
      destruct (run_prog (ta_run _ _ a ctx hdr msg) _) as [c tr1]. cbn [snd] in E. subst tr1.
      intros [= <- <- <-]. split; auto. rewrite <- app_assoc. eexists. split; [reflexivity|].
      cbn. rewrite I, D. auto. }
    unfold DispatchModel.tp_arm. destruct (ta_flavor _ _ a); auto.
    clear G. destruct (spawn_ctxt ctx) as [c sc]. intros [= <- <- <-]. split; auto.
    eexists. split; [reflexivity|]. cbn. destruct (can_spawn tr (ta_name _ _ a)); auto.
  Qed.

  (** *** Schema stream *)
  Notation schema_loop := (schema_loop Val SCtx std net kkind).

  (** The frame of the [i]-th item. *)
  Definition item_header (i : nat) : VarHeader :=
    out_header kkind (schema_topic std) (Seq2 (N.of_nat i mod 65536)%N).

  (** [rs] are the results of sending [items] starting at index [i]. *)
  Fixpoint item_events (i : nat) (items : list SchemaData) (rs : list TxRes) : Tr :=
    match items, rs with
    | d :: tl, r :: rl => EvSend ByDispatcher (item_header i) (PSchemaData d) r :: item_events (S i) tl rl
    | _, _ => []
    end.
  Definition err_count (rs : list TxRes) : nat := length (filter is_err rs).

  Lemma item_events_app i a b ra rb : length a = length ra ->
    item_events i (a ++ b) (ra ++ rb) = item_events i a ra ++ item_events (i + length a) b rb.
  Proof.
    revert i ra. induction a; intros i [|r ra] L; cbn in L; try discriminate; cbn.
    - now rewrite Nat.add_0_r.
    - rewrite IHa by lia. do 3 f_equal. lia.
  Qed.
  Lemma err_count_app a b : err_count (a ++ b) = err_count a + err_count b.
  Proof. unfold err_count. now rewrite filter_app, app_length. Qed.

  Lemma schema_loop_spec items : forall i e (tr : Tr),
    exists rs, length rs = length items /\
    schema_loop items (N.of_nat i mod 65536)%N (N.of_nat e mod 4294967296)%N tr =
      ((N.of_nat (i + length items) mod 65536)%N, (N.of_nat (e + err_count rs) mod 4294967296)%N,
       tr ++ item_events i items rs).
  Proof.
    induction items as [|d items IH]; intros i e tr; cbn [DispatchModel.schema_loop].
    - exists []. cbn. rewrite app_nil_r, !Nat.add_0_r. auto.
    - unfold send_keyed, tx_send. set (r := net _ _ _). 
      set (e' := if is_err r then S e else e).
      destruct (IH (S i) e' (tr ++ [EvSend ByDispatcher (item_header i) (PSchemaData d) r])) as (rs & L & E).
      exists (r :: rs). split; [cbn; lia|].
      replace ((N.of_nat i mod 65536 + 1) mod 65536)%N with (N.of_nat (S i) mod 65536)%N.
      2: { rewrite N.add_mod_idemp_l by discriminate. f_equal. lia. }
      replace (if is_err r then ((N.of_nat e mod 4294967296 + 1) mod 4294967296)%N else (N.of_nat e mod 4294967296)%N)
        with (N.of_nat e' mod 4294967296)%N.
      2: { unfold e'. destruct (is_err r); auto. rewrite N.add_mod_idemp_l by discriminate. f_equal. lia. }
      unfold item_header, out_header in E. rewrite E. f_equal; [f_equal|].
      + f_equal. cbn [length]. lia.
      + f_equal. f_equal. unfold err_count, e'. cbn [filter]. destruct (is_err r); cbn [length]; lia.
      + cbn [item_events]. now rewrite <- app_assoc.
  Qed.

  (** All items of a device map, in transmission order. *)
  Definition all_items (m : DeviceMap) : list SchemaData :=
    map SDType (dm_types m) ++
    map (fun r : EpRow => SDEndpoint (fst (fst r)) (ep_req r) (ep_resp r)) (dm_endpoints m) ++
    map (fun r : TpRow => SDTopic (fst r) (snd r) ToClient) (dm_topics_out m) ++
    map (fun r : TpRow => SDTopic (fst r) (snd r) ToServer) (dm_topics_in m).

  Lemma send_all_schemas_spec seq m (tr : Tr) :
    exists rs r, length rs = length (all_items m) /\
    send_all_schemas Val SCtx std net kkind seq m tr =
      (r, tr ++ item_events 0 (all_items m) rs ++
        [EvSend ByDispatcher (out_header kkind (schemas_resp std) seq)
          (PSchemaTotals (MkTotals (u32_len (dm_types m)) (u32_len (dm_endpoints m))
             (u32_len (dm_topics_in m)) (u32_len (dm_topics_out m))
             (N.of_nat (err_count rs) mod 4294967296)%N)) r]).
  Proof.
    unfold send_all_schemas, all_items.
    set (i1 := map SDType _). set (i2 := map _ (dm_endpoints m)).
    set (i3 := map _ (dm_topics_out m)). set (i4 := map _ (dm_topics_in m)).
    change 0%N with (N.of_nat 0 mod 65536)%N at 1.
    change 0%N with (N.of_nat 0 mod 4294967296)%N at 1.
    destruct (schema_loop_spec i1 0 0 tr) as (r1 & L1 & E1). rewrite E1.
    destruct (schema_loop_spec i2 (0 + length i1) (0 + err_count r1) (tr ++ item_events 0 i1 r1)) as (r2 & L2 & E2). rewrite E2.
    destruct (schema_loop_spec i3 (0 + length i1 + length i2) (0 + err_count r1 + err_count r2)
      ((tr ++ item_events 0 i1 r1) ++ item_events (0 + length i1) i2 r2)) as (r3 & L3 & E3). rewrite E3.
    destruct (schema_loop_spec i4 (0 + length i1 + length i2 + length i3) (0 + err_count r1 + err_count r2 + err_count r3)
      (((tr ++ item_events 0 i1 r1) ++ item_events (0 + length i1) i2 r2) ++ item_events (0 + length i1 + length i2) i3 r3))
      as (r4 & L4 & E4). rewrite E4.
    unfold send_keyed, tx_send. set (r := net _ _ _). 
    exists (r1 ++ r2 ++ r3 ++ r4), r. split; [rewrite !app_length; lia|].
    f_equal. rewrite !item_events_app by auto. cbn [Nat.add]. rewrite <- !app_assoc. unfold out_header.
    rewrite !err_count_app, !Nat.add_assoc. reflexivity.
  Qed.

  (** *** Any request at all *)

  Lemma match_tps_cases kind keyb tps ctx hdr body (tr : Tr) :
    (exists a msg, In a tps /\ pat_eqb keyb (const_key kind (ta_key _ _ a)) = true /\
        ta_deser _ _ a body = Some msg /\
        match_tps kind keyb tps ctx hdr body tr = tp_arm a ctx hdr msg tr) \/
    match_tps kind keyb tps ctx hdr body tr = (ctx, TxOk, tr) \/
    (forall a, In a tps -> pat_eqb keyb (const_key kind (ta_key _ _ a)) = false) /\
      refused_with std kkind (hdr_seq hdr) UnknownKey ctx tr (match_tps kind keyb tps ctx hdr body tr).
  Proof.
    induction tps as [|a tps IH]; cbn [DispatchModel.match_tps].
    - right; right. split; [intros ? []|]. eexists. reflexivity.
    - destruct (pat_eqb keyb _) eqn:E.
      + destruct (ta_deser _ _ a body) eqn:Ed; [|auto]. left. exists a, v. cbn; auto.
      + destruct IH as [(b & msg & I & P & Dm & M)|[M|[N M]]].
        * left. exists b, msg. cbn; auto.
        * auto.
        * right; right. split; auto. intros b [<-|Hb]; auto.
  Qed.
  Lemma match_eps_cases kind keyb eps tps ctx hdr body (tr : Tr) :
    (exists a req, In a eps /\ pat_eqb keyb (const_key kind (ea_req _ _ a)) = true /\
        ea_deser _ _ a body = Some req /\
        match_eps kind keyb eps tps ctx hdr body tr = ep_arm a ctx hdr req tr) \/
    refused_with std kkind (hdr_seq hdr) DeserFailed ctx tr (match_eps kind keyb eps tps ctx hdr body tr) \/
    (forall a, In a eps -> pat_eqb keyb (const_key kind (ea_req _ _ a)) = false) /\
      match_eps kind keyb eps tps ctx hdr body tr = match_tps kind keyb tps ctx hdr body tr.
  Proof.
    induction eps as [|a eps IH]; cbn [DispatchModel.match_eps].
    - right; right. split; auto. intros ? [].
    - destruct (pat_eqb keyb _) eqn:E.
      + destruct (ea_deser _ _ a body) eqn:Ed.
        * left. exists a, v. cbn; auto.
        * right; left. eexists. reflexivity.
      + destruct IH as [(b & msg & I & P & Dm & M)|[M|[N M]]].
        * left. exists b, msg. cbn; auto.
        * auto.
        * right; right. split; auto. intros b [<-|Hb]; auto.
  Qed.

  (** Frames the dispatcher itself sends for a request other than
      GetAllSchemas. *)
  Definition reply_frames (seq : VarSeq) (l : list (VarHeader * Payload Val * TxRes)) : Prop :=
    l = [] \/
    (exists h p r, l = [(h, p, r)] /\ hdr_seq h = seq) \/
    (exists h p k h' r, l = [(h, p, TxErr k); (h', PError SerFailed, r)] /\ hdr_seq h = seq /\
       h' = out_header kkind (error_key std) seq).

  Lemma refused_frames seq e (ctx : Ctx) (tr : Tr) c r tr' :
    refused_with std kkind seq e ctx tr (c, r, tr') ->
    c = ctx /\ tr' = tr ++ [EvSend ByDispatcher (out_header kkind (error_key std) seq) (PError e) r].
  Proof. intros (r' & [= -> -> ->]). auto. Qed.

  Lemma handle_frames d ctx hdr body (tr : Tr) ctx' res tr' :
    ~ agree_at (klen (d_kind _ _ d)) (hdr_key hdr) (VKey8 (schemas_req std)) ->
    handle d ctx hdr body tr = (ctx', res, tr') ->
    exists new, tr' = tr ++ new /\ reply_frames (hdr_seq hdr) (dispatcher_frames new) /\
      length (invocations new) <= 1.
  Proof.
    intros NS. unfold DispatchModel.handle. rewrite keyb_of_spec.
    assert (One : forall h (p : Payload Val) r ctx0, hdr_seq h = hdr_seq hdr ->
      (ctx0, r, tr ++ [EvSend ByDispatcher h p r]) = (ctx', res, tr') ->
      exists new, tr' = tr ++ new /\ reply_frames (hdr_seq hdr) (dispatcher_frames new) /\
      length (invocations new) <= 1).
    { intros h p r ctx0 Hh [= <- <- <-]. eexists. split; [reflexivity|]. cbn. split; [|lia].
      right; left. exists h, p, r. auto. }
    destruct (Nat.leb_spec (klen (d_kind _ _ d)) (vlen (hdr_key hdr))) as [L|L].
    2: { unfold send_error, send_keyed, tx_send. intros H. eapply One; [|exact H]. reflexivity. }
    destruct (pat_eqb _ (const_key _ (ping_req std))).
    { destruct (from_bytes_u32 body); unfold send_error, send_keyed, tx_send; intros H; (eapply One; [|exact H]); reflexivity. }
    rewrite const_false by auto.
    destruct (match_eps_cases (d_kind _ _ d) (shrink_to (hdr_key hdr) (d_kind _ _ d)) (d_eps _ _ d) (d_tps _ _ d) ctx hdr body tr)
      as [(a & req & I & P & Dm & M)|[(r & M)|[N M]]]; rewrite M.
    - intros H. destruct (ep_arm_trace _ _ _ _ _ _ _ _ H) as (new & -> & C). exists new. split; auto.
      destruct (ea_flavor _ _ a).
      1,2: destruct C as (Iv & v & [[F _]|(k & F)]); rewrite Iv, F; (split; [|cbn; lia]);
        [right; left; do 3 eexists; split; [reflexivity|reflexivity]
        |right; right; do 5 eexists; split; [reflexivity|split; reflexivity]].
      destruct (can_spawn tr (ea_name _ _ a)).
      + destruct C as (Iv & F & _). rewrite Iv, F. split; [left; auto|cbn; lia].
      + destruct C as (Iv & F). rewrite Iv, F. split; [|cbn; lia].
        right; left. do 3 eexists. split; reflexivity.
    - intros H. eapply One; [|exact H]. reflexivity.
    - destruct (match_tps_cases (d_kind _ _ d) (shrink_to (hdr_key hdr) (d_kind _ _ d)) (d_tps _ _ d) ctx hdr body tr)
        as [(a & msg & I & P & Dm & M2)|[M2|[N2 (r & M2)]]]; rewrite M2.
      + intros H. destruct (tp_arm_trace _ _ _ _ _ _ _ _ H) as (-> & new & -> & F & Iv). exists new.
        split; auto. rewrite F, Iv. split; [left; auto|].
        destruct (ta_flavor _ _ a); [| |destruct (can_spawn _ _)]; cbn; lia.
      + intros [= <- <- <-]. exists []. rewrite app_nil_r. cbn. repeat split; [left; auto|lia].
      + intros H. eapply One; [|exact H]. reflexivity.
  Qed.

  Lemma handle_unknown d ctx hdr body (tr : Tr) :
    klen (d_kind _ _ d) <= vlen (hdr_key hdr) ->
    (forall k, In k (known_keys std d) -> ~ agree_at (klen (d_kind _ _ d)) (hdr_key hdr) (VKey8 k)) ->
    refused_with std kkind (hdr_seq hdr) UnknownKey ctx tr (handle d ctx hdr body tr).
  Proof.
    intros L N. unfold DispatchModel.handle. rewrite keyb_of_spec.
    destruct (Nat.leb_spec (klen (d_kind _ _ d)) (vlen (hdr_key hdr))); [|lia].
    unfold known_keys in N.
    rewrite !const_false; auto; try (apply N; cbn; auto; fail).
    rewrite <- (app_nil_r (d_eps _ _ d)), match_eps_skip.
    2: { intros a Ha. apply const_false; auto. apply N. right; right. apply in_app_iff. left. now apply in_map. }
    cbn [DispatchModel.match_eps]. rewrite <- (app_nil_r (d_tps _ _ d)), match_tps_skip.
    2: { intros a Ha. apply const_false; auto. apply N. right; right. apply in_app_iff. right. now apply in_map. }
    eexists. reflexivity.
  Qed.

  Lemma handle_too_small d ctx hdr body (tr : Tr) :
    vlen (hdr_key hdr) < klen (d_kind _ _ d) ->
    refused_with std kkind (hdr_seq hdr) KeyTooSmall ctx tr (handle d ctx hdr body tr).
  Proof.
    intros L. unfold DispatchModel.handle. rewrite keyb_of_spec.
    destruct (Nat.leb_spec (klen (d_kind _ _ d)) (vlen (hdr_key hdr))); [lia|]. eexists. reflexivity.
  Qed.

  Lemma handle_ping d k ctx hdr body (tr : Tr) :
    klen (d_kind _ _ d) <= klen k -> hdr_key hdr = shrink_to (VKey8 (ping_req std)) k ->
    match from_bytes_u32 body with
    | Some n => exists r, handle d ctx hdr body tr =
        (ctx, r, tr ++ [EvSend ByDispatcher (out_header kkind (ping_resp std) (hdr_seq hdr)) (PPing n) r])
    | None => refused_with std kkind (hdr_seq hdr) DeserFailed ctx tr (handle d ctx hdr body tr)
    end.
  Proof.
    intros L Hk. unfold DispatchModel.handle. rewrite keyb_of_spec, Hk, vlen_shrunk.
    destruct (Nat.leb_spec (klen (d_kind _ _ d)) (klen k)); [|lia].
    assert (M : pat_eqb (shrink_to (shrink_to (VKey8 (ping_req std)) k) (d_kind _ _ d))
       (const_key (d_kind _ _ d) (ping_req std)) = true).
    { apply pat_match; [rewrite vlen_shrunk; auto|]. now apply agree_shrunk. }
    rewrite M. destruct (from_bytes_u32 body); eexists; reflexivity.
  Qed.

  Lemma handle_schemas eps tin tout ea ta d k ctx hdr body (tr : Tr) :
    dispatcher_for eps tin tout ea ta d ->
    has_std std eps -> ping_req std <> schemas_req std ->
    klen (d_kind _ _ d) <= klen k -> hdr_key hdr = shrink_to (VKey8 (schemas_req std)) k ->
    handle d ctx hdr body tr =
      (let (res, tr') := send_all_schemas Val SCtx std net kkind (hdr_seq hdr) (d_map _ _ d) tr in (ctx, res, tr')).
  Proof.
    intros E [Hp Hs] Nps L Hk. destruct E as (E1 & E2 & D & _).
    specialize (D (d_kind _ _ d) (le_n _)). destruct D as [D _].
    unfold DispatchModel.handle. rewrite keyb_of_spec, Hk, vlen_shrunk.
    destruct (Nat.leb_spec (klen (d_kind _ _ d)) (klen k)); [|lia].
    rewrite const_false; [|rewrite vlen_shrunk; auto|].
    2: { rewrite agree_shrunk by auto. intros A. apply Nps. symmetry.
         eapply distinct_inj; eauto; apply in_app_iff; auto. }
    assert (M : pat_eqb (shrink_to (shrink_to (VKey8 (schemas_req std)) k) (d_kind _ _ d))
       (const_key (d_kind _ _ d) (schemas_req std)) = true).
    { apply pat_match; [rewrite vlen_shrunk; auto|]. now apply agree_shrunk. }
    now rewrite M.
  Qed.

  Lemma all_items_advertised m : all_items m = advertised m.
  Proof. reflexivity. Qed.
  Lemma item_events_publications items : forall i rs, (N.of_nat (i + length items) <= 65536)%N ->
    item_events i items rs = publications std kkind i items rs.
  Proof.
    induction items as [|d items IH]; intros i [|r rs] H; cbn [item_events publications]; auto.
    cbn [length] in H. rewrite IH by lia. unfold item_header. rewrite N.mod_small by lia. reflexivity.
  Qed.

  (** The result of [handle] is the result of its last transmission. *)
  Lemma handle_last d ctx hdr body (tr : Tr) ctx' res tr' :
    handle d ctx hdr body tr = (ctx', res, tr') ->
    exists new, tr' = tr ++ new /\
      (dispatcher_frames new = [] /\ res = TxOk \/
       exists l h p, dispatcher_frames new = l ++ [(h, p, res)]).
  Proof.
    intros H.
    assert (One : forall h (p : Payload Val) r ctx0,
      (ctx0, r, tr ++ [EvSend ByDispatcher h p r]) = (ctx', res, tr') ->
      exists new, tr' = tr ++ new /\ (dispatcher_frames new = [] /\ res = TxOk \/
       exists l h p, dispatcher_frames new = l ++ [(h, p, res)])).
    { intros h p r ctx0 [= <- <- <-]. eexists. split; [reflexivity|]. right. exists [], h, p. reflexivity. }
    unfold DispatchModel.handle in H. destruct (keyb_of _ _) as [kb|].
    2: { eapply One. exact H. }
    destruct (pat_eqb kb _).
    { destruct (from_bytes_u32 body); eapply One; exact H. }
    destruct (pat_eqb kb _).
    { destruct (send_all_schemas_spec (hdr_seq hdr) (d_map _ _ d) tr) as (rs & r & L & E).
      rewrite E in H. injection H as <- <- <-. eexists. split; [reflexivity|]. right.
      rewrite dispatcher_frames_app. cbn [dispatcher_frames]. do 3 eexists. reflexivity. }
    destruct (match_eps_cases (d_kind _ _ d) kb (d_eps _ _ d) (d_tps _ _ d) ctx hdr body tr)
      as [(a & req & I & P & Dm & M)|[(r & M)|[N M]]]; rewrite M in H.
    - destruct (ep_arm_trace _ _ _ _ _ _ _ _ H) as (new & -> & C). exists new. split; auto.
      destruct (ea_flavor _ _ a).
      1,2: destruct C as (Iv & v & [[F ->]|(k & F)]); rewrite F; right;
        [exists []; do 2 eexists; reflexivity | do 3 eexists; apply (app_assoc [_] [] [_])].
      destruct (can_spawn tr (ea_name _ _ a)).
      + destruct C as (Iv & F & ->). auto.
      + destruct C as (Iv & F). rewrite F. right. exists []; do 2 eexists; reflexivity.
    - eapply One; exact H.
    - destruct (match_tps_cases (d_kind _ _ d) kb (d_tps _ _ d) ctx hdr body tr)
        as [(a & msg & I & P & Dm & M2)|[M2|[N2 (r & M2)]]]; rewrite M2 in H.
      + destruct (tp_arm_trace _ _ _ _ _ _ _ _ H) as (-> & new & -> & F & Iv). exists new. auto.
      + injection H as <- <- <-. exists []. rewrite app_nil_r. auto.
      + eapply One; exact H.
  Qed.

  Lemma ep_arm_runs a ctx hdr req (tr : Tr) :
    ea_flavor _ _ a <> Spawn ->
    exists c' v tr1 new,
      run_prog (ea_run _ _ a ctx hdr req) (tr ++ [EvRun (ea_name _ _ a) hdr req]) = ((c', v), tr1) /\
      tr1 = tr ++ EvRun (ea_name _ _ a) hdr req :: new /\ invocations new = [] /\ dispatcher_frames new = [] /\
      (ep_arm a ctx hdr req tr =
        (c', TxOk, tr1 ++ [EvSend ByDispatcher (out_header kkind (ea_resp _ _ a) (hdr_seq hdr)) (PVal v) TxOk])
      \/ exists k r, ep_arm a ctx hdr req tr =
        (c', r, tr1 ++ [EvSend ByDispatcher (out_header kkind (ea_resp _ _ a) (hdr_seq hdr)) (PVal v) (TxErr k);
                        EvSend ByDispatcher (out_header kkind (error_key std) (hdr_seq hdr)) (PError SerFailed) r])).
  Proof.
    intros F. destruct (run_prog_trace (ea_run _ _ a ctx hdr req) (tr ++ [EvRun (ea_name _ _ a) hdr req])) as (new & E & I & D).
    unfold DispatchModel.ep_arm.
    destruct (run_prog (ea_run _ _ a ctx hdr req) (tr ++ [EvRun (ea_name _ _ a) hdr req])) as [[c v] tr1].
    cbn [snd] in E. rewrite <- app_assoc in E. exists c, v, tr1, new. split; auto. split; auto. split; auto. split; auto.
    unfold send_error, send_keyed, tx_send, out_header.
    destruct (ea_flavor _ _ a); [| |congruence];
    (destruct (net tr1 (MkHeader (shrink_to (VKey8 (ea_resp _ _ a)) kkind) (hdr_seq hdr)) (PVal v)) as [|k];
     cbn [is_err]; [left; reflexivity|right; do 2 eexists; rewrite <- app_assoc; reflexivity]).
  Qed.

  (** *** Constant networks *)
  Section Const.
    Variable c0 : TxRes.
    Hypothesis net_const : forall t h p, net t h p = c0.
    Definition sends_const (l : Tr) : Prop :=
      Forall (fun e => match e with EvSend _ _ _ r => r = c0 | _ => True end) l.
    Definition extends_const (tr tr' : Tr) : Prop := exists new, tr' = tr ++ new /\ sends_const new.

    Lemma ext_refl tr : extends_const tr tr.
    Proof. exists []. rewrite app_nil_r. split; [auto|constructor]. Qed.
    Lemma ext_trans a b c : extends_const a b -> extends_const b c -> extends_const a c.
    Proof.
      intros (n1 & -> & H1) (n2 & -> & H2). exists (n1 ++ n2). rewrite app_assoc. split; auto.
      apply Forall_app; auto.
    Qed.
    Lemma ext_send w h p tr : extends_const tr (snd (tx_send _ _ net w h p tr)).
    Proof. eexists. split; [reflexivity|]. constructor; [apply net_const|constructor]. Qed.
    Lemma ext_run_prog {R} (p : HProg Val R) : forall tr, extends_const tr (snd (run_prog p tr)).
    Proof.
      induction p as [r|key seq pl k IH]; intros tr; cbn [DispatchModel.run_prog]; [apply ext_refl|].
      unfold send_keyed. pose proof (ext_send ByHandler (MkHeader (shrink_to (VKey8 key) kkind) seq) pl tr) as E.
      destruct (tx_send _ _ _ _ _ _ _) as [r tr1]. eapply ext_trans; [exact E|]. apply IH.
    Qed.
    Lemma ext_error seq e tr : extends_const tr (snd (send_error _ _ std net kkind seq e tr)).
    Proof. apply ext_send. Qed.
    Lemma ext_event e tr : (forall w h p r, e <> EvSend w h p r) -> extends_const tr (tr ++ [e]).
    Proof.
      intros N. exists [e]. split; auto. constructor; [|constructor]. destruct e; auto. exfalso. eapply N. reflexivity.
    Qed.
    Lemma ext_schema_loop items : forall m e tr, extends_const tr (snd (schema_loop items m e tr)).
    Proof.
      induction items as [|d items IH]; intros m e tr; cbn [DispatchModel.schema_loop]; [apply ext_refl|].
      unfold send_keyed. pose proof (ext_send ByDispatcher (MkHeader (shrink_to (VKey8 (schema_topic std)) kkind) (Seq2 m)) (PSchemaData d) tr) as E.
      destruct (tx_send _ _ _ _ _ _ _) as [r tr1]. eapply ext_trans; [exact E|]. apply IH.
    Qed.
    Lemma ext_send_all seq m tr : extends_const tr (snd (send_all_schemas _ _ std net kkind seq m tr)).
    Proof.
      unfold send_all_schemas.
      match goal with |- context [DispatchModel.schema_loop _ _ _ _ _ ?a ?b ?c tr] => pose proof (ext_schema_loop a b c tr) as E1; destruct (schema_loop a b c tr) as [[? ?] tr1] end.
      match goal with |- context [DispatchModel.schema_loop _ _ _ _ _ ?a ?b ?c tr1] => pose proof (ext_schema_loop a b c tr1) as E2; destruct (schema_loop a b c tr1) as [[? ?] tr2] end.
      match goal with |- context [DispatchModel.schema_loop _ _ _ _ _ ?a ?b ?c tr2] => pose proof (ext_schema_loop a b c tr2) as E3; destruct (schema_loop a b c tr2) as [[? ?] tr3] end.
      match goal with |- context [DispatchModel.schema_loop _ _ _ _ _ ?a ?b ?c tr3] => pose proof (ext_schema_loop a b c tr3) as E4; destruct (schema_loop a b c tr3) as [[? ?] tr4] end.
      cbn [snd] in *. eapply ext_trans; [exact E1|]. eapply ext_trans; [exact E2|]. eapply ext_trans; [exact E3|].
      eapply ext_trans; [exact E4|]. apply ext_send.
    Qed.
    Lemma ext_ep_arm a ctx hdr req tr : extends_const tr (snd (ep_arm a ctx hdr req tr)).
    Proof.
      unfold DispatchModel.ep_arm.
      assert (G : extends_const tr (snd (let '((ctx', reply), tr1) := run_prog (ea_run _ _ a ctx hdr req) (tr ++ [EvRun (ea_name _ _ a) hdr req]) in
        let (res, tr2) := send_keyed Val SCtx net kkind ByDispatcher (hdr_seq hdr) (ea_resp _ _ a) (PVal reply) tr1 in
        if is_err res
        then let (res', tr3) := send_error Val SCtx std net kkind (hdr_seq hdr) SerFailed tr2 in (ctx', res', tr3)
        else (ctx', TxOk, tr2)))).
      { pose proof (ext_run_prog (ea_run _ _ a ctx hdr req) (tr ++ [EvRun (ea_name _ _ a) hdr req])) as E1.
        destruct (run_prog _ _) as [[c v] tr1]. unfold send_keyed.
        pose proof (ext_send ByDispatcher (MkHeader (shrink_to (VKey8 (ea_resp _ _ a)) kkind) (hdr_seq hdr)) (PVal v) tr1) as E2.
        destruct (tx_send _ _ _ _ _ _ _) as [r tr2].
        pose proof (ext_error (hdr_seq hdr) SerFailed tr2) as E3.
        destruct (send_error _ _ _ _ _ _ _ _) as [r3 tr3]. cbn [snd] in *.
        assert (E : extends_const tr tr2).
        { eapply ext_trans; [|eapply ext_trans; [exact E1|exact E2]]. apply ext_event; intros; discriminate. }
        destruct (is_err r); cbn [snd]; auto. eapply ext_trans; eauto. }
      destruct (ea_flavor _ _ a); auto. clear G.
      destruct (spawn_ctxt ctx) as [c sc]. set (e := EvSpawn _ _ _ _ _).
      pose proof (ext_error (hdr_seq hdr) FailedToSpawn (tr ++ [e])) as E3.
      destruct (send_error _ _ _ _ _ _ _ _) as [r3 tr3].
      assert (E : extends_const tr (tr ++ [e])) by (apply ext_event; unfold e; intros; discriminate).
      destruct (negb _); cbn [snd] in *; auto. eapply ext_trans; eauto.
    Qed.
    Lemma ext_tp_arm a ctx hdr req tr : extends_const tr (snd (tp_arm a ctx hdr req tr)).
    Proof.
      unfold DispatchModel.tp_arm.
      assert (G : extends_const tr (snd (let (ctx', tr1) := run_prog (ta_run _ _ a ctx hdr req) (tr ++ [EvRun (ta_name _ _ a) hdr req]) in
        (ctx', TxOk, tr1)))).
      { pose proof (ext_run_prog (ta_run _ _ a ctx hdr req) (tr ++ [EvRun (ta_name _ _ a) hdr req])) as E1.
        destruct (run_prog _ _) as [c tr1]. cbn [snd] in *. eapply ext_trans; [|exact E1]. apply ext_event; intros; discriminate. }
      destruct (ta_flavor _ _ a); auto. destruct (spawn_ctxt ctx). apply ext_event. intros; discriminate.
    Qed.
    Lemma ext_match_tps kind kb l ctx hdr body tr : extends_const tr (snd (match_tps kind kb l ctx hdr body tr)).
    Proof.
      induction l as [|a l IH]; cbn [DispatchModel.match_tps]; [apply ext_error|].
      destruct (pat_eqb kb _); auto. destruct (ta_deser _ _ a body); [apply ext_tp_arm|apply ext_refl].
    Qed.
    Lemma ext_match_eps kind kb l lt ctx hdr body tr : extends_const tr (snd (match_eps kind kb l lt ctx hdr body tr)).
    Proof.
      induction l as [|a l IH]; cbn [DispatchModel.match_eps]; [apply ext_match_tps|].
      destruct (pat_eqb kb _); auto. destruct (ea_deser _ _ a body); [apply ext_ep_arm|apply ext_error].
    Qed.
    Lemma ext_handle d ctx hdr body tr : extends_const tr (snd (handle d ctx hdr body tr)).
    Proof.
      unfold DispatchModel.handle. destruct (keyb_of _ _) as [kb|]; [|apply ext_error].
      destruct (pat_eqb kb _). { destruct (from_bytes_u32 body); apply ext_send. }
      destruct (pat_eqb kb _); [|apply ext_match_eps].
      pose proof (ext_send_all (hdr_seq hdr) (d_map _ _ d) tr) as E. destruct (send_all_schemas _ _ _ _ _ _ _ _). exact E.
    Qed.
    Lemma handle_sent_by_net d ctx hdr body tr ctx' r new h p r0 :
      handle d ctx hdr body tr = (ctx', r, tr ++ new) -> In (h, p, r0) (dispatcher_frames new) -> r0 = c0.
    Proof.
      intros E I. destruct (ext_handle d ctx hdr body tr) as (new' & En & F). rewrite E in En. cbn [snd] in En.
      apply app_inv_head in En. subst new'. clear E. induction F as [|e l He F IH]; [destruct I|].
      destruct e as [[] | |]; cbn in I; auto. destruct I as [[= <- <- <-]|I]; auto.
    Qed.
  End Const.
End D.
