(** Lemmas about asking a device what it offers: what the server, await by await,
    transmits under the schema topic and as a response to the request for schemas. *)
From Coq Require Import NArith List Bool Arith Lia Permutation.
From Verif Require Import KeyModel HeaderModel KeySpec HeaderSpec MinKeyModel MinKeySpec SchemaModel MacroModel PostcardModel DispatchModel DispatchSpec DispatchProof SubModel SubProof
  ClientModel ClientSpec ClientHist UsbSpec FlowBase.
From Verif Require Import DispatchModel DispatchSpec SystemModel SystemSpec SystemProof LiveSpec LiveProof AsyncModel AsyncSpec AsyncProof DiscoverSpec.
Import ListNotations.

Section P.
  Context {Val Ctx SCtx : Type}.
  Variable std : StdKeys.
  Variable kkind : VarKeyKind.
  Variable spawn_ctxt : Ctx -> Ctx * SCtx.
  Variable d : Dispatcher Val Ctx.
  Variable enc : Payload Val -> list N.
  Variable task : nat -> SCtx -> VarHeader -> Val -> HProg Val unit.
  Variable bg : list (HProg Val unit).
  Variable cfg : Config.
  Variable net : Trace Val SCtx -> VarHeader -> Payload Val -> TxRes.
  Variable can_spawn : Trace Val SCtx -> nat -> bool.

  Notation Tr := (Trace Val SCtx).
  Notation SProg := (SProg Val SCtx).
  Notation Code := (SProg (Ctx * TxRes)).
  Notation Sys := (Sys Val Ctx SCtx).
  Notation ASys := (ASys Val Ctx SCtx).
  Notation sp_handle := (sp_handle Val Ctx SCtx std kkind spawn_ctxt d).
  Notation sp_user := (sp_user Val SCtx kkind).
  Notation a_step := (a_step Val Ctx SCtx std net can_spawn kkind spawn_ctxt d enc task cfg).
  Notation a_run := (a_run Val Ctx SCtx std net can_spawn kkind spawn_ctxt d enc task cfg).
  Notation a_sys := (a_sys Val Ctx SCtx).
  Notation a_cur := (a_cur Val Ctx SCtx).
  Notation y_client := (y_client Val Ctx SCtx).
  Notation y_up := (y_up Val Ctx SCtx).
  Notation y_tasks := (y_tasks Val Ctx SCtx).
  Notation y_trace := (y_trace Val Ctx SCtx).
  Notation settle := (settle Val SCtx can_spawn).
  Notation carry_on := (carry_on Val Ctx SCtx can_spawn task).
  Notation m := (d_map _ _ d).

  (** *** The ways in which code may end *)
  Inductive finishes {R} : SProg R -> Tr -> Prop :=
  | fin_ret r : finishes (SpRet r) []
  | fin_run n h v k new : finishes k new -> finishes (SpRun n h v k) (EvRun n h v :: new)
  | fin_spawn n sc h v k b new : finishes (k b) new -> finishes (SpSpawn n sc h v k) (EvSpawn n sc h v b :: new)
  | fin_send w h p k r new : finishes (k r) new -> finishes (SpSend w h p k) (EvSend w h p r :: new).

  Lemma fin_some {R} (p : SProg R) : exists new, finishes p new.
  Proof.
    induction p as [r|n h v k (new & IH)|n sc h v k IH|w h pl k IH].
    - eexists. constructor.
    - eexists. constructor. eauto.
    - destruct (IH true) as (new & H). eexists. econstructor. eauto.
    - destruct (IH TxOk) as (new & H). eexists. econstructor. eauto.
  Qed.
  Lemma fin_exec {R} (p : SProg R) new : finishes p new -> forall tr os qs, exists x,
    sp_exec Val SCtx (net_of (outcomes tr ++ outcomes new ++ os)) (can_of (spawns tr ++ spawns new ++ qs)) p tr = (x, tr ++ new).
  Proof.
    intros F. induction F as [r|n h v k new F IH|n sc h v k b new F IH|w h p k r new F IH]; intros tr os qs; cbn [AsyncModel.sp_exec].
    - exists r. now rewrite app_nil_r.
    - change (outcomes (EvRun n h v :: new)) with (outcomes new). change (spawns (EvRun n h v :: new)) with (spawns new).
      destruct (IH (tr ++ [EvRun n h v]) os qs) as (x & E). exists x. rewrite outcomes_app, spawns_app in E.
      change (outcomes [EvRun n h v]) with (@nil TxRes) in E. change (spawns [EvRun n h v]) with (@nil bool) in E.
      rewrite !app_nil_r, <- app_assoc in E. exact E.
    - change (outcomes (EvSpawn n sc h v b :: new)) with (outcomes new). change (spawns (EvSpawn n sc h v b :: new)) with (b :: spawns new).
      destruct (IH (tr ++ [EvSpawn n sc h v b]) os qs) as (x & E). exists x. rewrite outcomes_app, spawns_app in E.
      change (outcomes [EvSpawn n sc h v b]) with (@nil TxRes) in E. change (spawns [EvSpawn n sc h v b]) with [b] in E.
      cbn [app]. rewrite (can_at task). rewrite app_nil_r, <- !app_assoc in E. exact E.
    - change (outcomes (EvSend w h p r :: new)) with (r :: outcomes new). change (spawns (EvSend w h p r :: new)) with (spawns new).
      destruct (IH (tr ++ [EvSend w h p r]) os qs) as (x & E). exists x. rewrite outcomes_app, spawns_app in E.
      change (outcomes [EvSend w h p r]) with [r] in E. change (spawns [EvSend w h p r]) with (@nil bool) in E.
      cbn [app]. rewrite (net_at enc). rewrite app_nil_r, <- !app_assoc in E. exact E.
  Qed.
  Lemma settle_fin {R} (p : SProg R) : forall tr p' tr', settle p tr = (p', tr') ->
    exists evs, tr' = tr ++ evs /\ forall new, finishes p' new -> finishes p (evs ++ new).
  Proof.
    induction p as [r|n h v k IH|n sc h v k IH|w h pl k IH]; intros tr p' tr'; cbn [AsyncModel.settle]; intros H.
    - injection H as <- <-. exists []. rewrite app_nil_r. auto.
    - destruct (IH _ _ _ H) as (evs & -> & F). exists (EvRun n h v :: evs). rewrite <- app_assoc. split; auto. intros new Hn. constructor. auto.
    - destruct (IH _ _ _ _ H) as (evs & -> & F). eexists (_ :: evs). rewrite <- app_assoc. split; [reflexivity|]. intros new Hn. constructor. auto.
    - injection H as <- <-. exists []. rewrite app_nil_r. auto.
  Qed.

  (** *** What concerns the schemas *)
  Definition sk (h : VarHeader) : bool :=
    varkey_eqb (VKey8 (schema_topic std)) (hdr_key h) || varkey_eqb (VKey8 (schemas_resp std)) (hdr_key h).
  Definition sk_key (k : Key8) : bool := sk (out_header kkind k (Seq1 0)).
  Definition sch (tr : Tr) : Tr := filter (fun e => match e with EvSend _ h _ _ => sk h | _ => false end) tr.
  Lemma sch_app a b : sch (a ++ b) = sch a ++ sch b. Proof. apply filter_app. Qed.
  Lemma sk_out k s : sk (out_header kkind k s) = sk_key k. Proof. reflexivity. Qed.
  Lemma sch_send w key seq p r l : sch (EvSend w (MkHeader (shrink_to (VKey8 key) kkind) seq) p r :: l) =
    if sk_key key then EvSend w (MkHeader (shrink_to (VKey8 key) kkind) seq) p r :: sch l else sch l.
  Proof. reflexivity. Qed.
  Definition leaves {A} (p : HProg Val A) : Prop := forall key seq pl, may_send p key seq pl -> sk_key key = false.

  Hypothesis Herr : sk_key (error_key std) = false.
  Hypothesis Hping : sk_key (ping_resp std) = false.
  Hypothesis Htop : sk_key (schema_topic std) = true.
  Hypothesis Hres : sk_key (schemas_resp std) = true.
  Hypothesis Hea : forall a, In a (d_eps _ _ d) -> sk_key (ea_resp _ _ a) = false /\ (forall ctx h v, leaves (ea_run _ _ a ctx h v)) /\
    (ea_flavor _ _ a = Spawn -> forall sc h v, leaves (task (ea_name _ _ a) sc h v)).
  Hypothesis Hta : forall a, In a (d_tps _ _ d) -> (forall ctx h v, leaves (ta_run _ _ a ctx h v)) /\
    (ta_flavor _ _ a = Spawn -> forall sc h v, leaves (task (ta_name _ _ a) sc h v)).
  Hypothesis Hbg : Forall leaves bg.
  Hypothesis Hlen : (N.of_nat (length (advertised m)) < 65536)%N.

  Lemma leaves_next {A} key seq p (k : TxRes -> HProg Val A) r : leaves (HSend key seq p k) -> leaves (k r).
  Proof. intros H key' seq' p' M. eapply H. econstructor. exact M. Qed.

  (** Code of which the spawned tasks leave the schemas alone. *)
  Fixpoint spawns_ok {R} (p : SProg R) : Prop :=
    match p with
    | SpRet _ => True
    | SpRun _ _ _ k => spawns_ok k
    | SpSpawn n sc h v k => leaves (task n sc h v) /\ forall b, spawns_ok (k b)
    | SpSend _ _ _ k => forall r, spawns_ok (k r)
    end.
  Lemma settle_ok {R} (p : SProg R) : forall tr p' tr', settle p tr = (p', tr') -> spawns_ok p ->
    spawns_ok p' /\ exists evs, tr' = tr ++ evs /\ Forall leaves (tasks_of Val SCtx task evs).
  Proof.
    induction p as [r|n h v k IH|n sc h v k IH|w h pl k IH]; intros tr p' tr'; cbn [AsyncModel.settle spawns_ok]; intros H O.
    - injection H as <- <-. split; auto. exists []. rewrite app_nil_r. split; auto. constructor.
    - destruct (IH _ _ _ H O) as (O' & evs & -> & F). split; auto. exists (EvRun n h v :: evs). rewrite <- app_assoc. auto.
    - destruct O as [O1 O2]. destruct (IH _ _ _ _ H (O2 _)) as (O' & evs & -> & F). split; auto. eexists (_ :: evs). rewrite <- app_assoc. split; [reflexivity|].
      cbn. destruct (can_spawn tr n); cbn; auto.
    - injection H as <- <-. split; auto. exists []. rewrite app_nil_r. split; auto. constructor.
  Qed.
  Lemma user_ok {A R} (p : HProg Val A) (k : A -> SProg R) : (forall a, spawns_ok (k a)) -> spawns_ok (sp_user p k).
  Proof. intros H. induction p as [a|key seq pl k' IH]; cbn; auto. Qed.
  Lemma loop_ok {R} items : forall c e (k : N -> N -> SProg R), (forall c e, spawns_ok (k c e)) -> spawns_ok (sp_schema_loop Val SCtx std kkind items c e k).
  Proof. induction items as [|x tl IH]; intros c e k H; cbn -[N.modulo N.add]; auto. Qed.
  Lemma handle_ok ctx hdr body : spawns_ok (sp_handle ctx hdr body).
  Proof.
    unfold AsyncModel.sp_handle. destruct (keyb_of _ _) as [keyb|]; [|cbn; auto].
    destruct (pat_eqb keyb _). { destruct (from_bytes_u32 body); cbn; auto. }
    destruct (pat_eqb keyb _). { unfold sp_schemas. do 4 (apply loop_ok; intros). cbn. auto. }
    revert Hea. generalize (d_eps _ _ d). intros eps. induction eps as [|a tl IH]; intros Ha; cbn [sp_match_eps].
    - clear Ha. revert Hta. generalize (d_tps _ _ d). intros tps. induction tps as [|a tl IH]; intros Ht; cbn [sp_match_tps]; [cbn; auto|].
      destruct (pat_eqb _ _); [|apply IH; intros; apply Ht; right; auto]. destruct (ta_deser _ _ a body) as [msg|]; [|cbn; auto]. unfold sp_tp_arm.
      destruct (Ht a (or_introl eq_refl)) as [_ T]. destruct (ta_flavor _ _ a); cbn [spawns_ok]; try (apply user_ok; cbn; auto).
      split; [apply T; auto|cbn; auto].
    - destruct (pat_eqb _ _); [|apply IH; intros; apply Ha; right; auto]. destruct (ea_deser _ _ a body) as [req|]; [|cbn; auto]. unfold sp_ep_arm.
      destruct (Ha a (or_introl eq_refl)) as (_ & _ & T). destruct (ea_flavor _ _ a); cbn [spawns_ok].
      1,2: apply user_ok; cbn; intros x r; destruct (is_err r); cbn; auto.
      split; [apply T; auto|]. intros []; cbn; auto.
  Qed.

  (** *** Dispatching a frame *)
  Definition asks (hdr : VarHeader) : bool :=
    match keyb_of (d_kind _ _ d) (hdr_key hdr) with
    | None => false
    | Some keyb => negb (pat_eqb keyb (const_key (d_kind _ _ d) (ping_req std))) && pat_eqb keyb (const_key (d_kind _ _ d) (schemas_req std))
    end.

  Definition totals (rs : list TxRes) : SchemaTotals :=
    MkTotals (N.of_nat (length (dm_types m))) (N.of_nat (length (dm_endpoints m))) (N.of_nat (length (dm_topics_in m)))
      (N.of_nat (length (dm_topics_out m))) (N.of_nat (failures rs)).
  (** A whole answer to a request with sequence number [seq]. *)
  Definition full (seq : VarSeq) (l : Tr) : Prop :=
    exists rs r, length rs = length (advertised m) /\
      l = publications std kkind 0 (advertised m) rs ++ [EvSend ByDispatcher (out_header kkind (schemas_resp std) seq) (PSchemaTotals (totals rs)) r].

  Lemma sch_pubs items : forall i rs, sch (publications std kkind i items rs) = publications std kkind i items rs.
  Proof.
    induction items as [|x items IH]; intros i [|r rs]; cbn [publications]; auto. unfold sch in *. cbn [filter]. rewrite sk_out, Htop, IH. reflexivity.
  Qed.
  Lemma sch_full seq l : full seq l -> sch l = l.
  Proof. intros (rs & r & _ & ->). rewrite sch_app, sch_pubs. cbn. rewrite sk_out, Hres. reflexivity. Qed.

  Lemma asks_new ctx hdr body new : asks hdr = true -> finishes (sp_handle ctx hdr body) new -> full (hdr_seq hdr) new.
  Proof.
    intros A F. destruct (fin_exec _ _ F [] [] []) as (x & E). cbn [app] in E. rewrite exec_handle in E.
    unfold asks in A. unfold DispatchModel.handle in E. destruct (keyb_of _ _) as [keyb|]; [|discriminate].
    apply andb_true_iff in A as [A1 A2]. apply negb_true_iff in A1. rewrite A1, A2 in E.
    match type of E with context [send_all_schemas _ _ _ ?n _ _ _ _] =>
      destruct (send_all_schemas_spec std n can_spawn kkind (hdr_seq hdr) m []) as (rs & r & Lr & Es) end.
    rewrite Es in E. injection E as _ E. rewrite all_items_advertised in *. exists rs, r. split; auto. rewrite <- E.
    rewrite (item_events_publications std can_spawn kkind) by (cbn [Nat.add]; lia). cbn [app].
    pose proof Hlen as Lt'. unfold advertised in Lt'. rewrite !app_length, !map_length in Lt'.
    assert (Lf : failures rs <= length rs) by (unfold failures; clear; induction rs as [|x rs IH]; cbn; [lia|destruct x; cbn; lia]).
    unfold u32_len. rewrite !N.mod_small; try lia; [reflexivity|]. change (err_count rs) with (failures rs). lia.
  Qed.

  Lemma fin_keyed {R} w seq key p (k : TxRes -> SProg R) new : finishes (sp_keyed Val SCtx kkind w seq key p k) new ->
    exists r n, new = EvSend w (MkHeader (shrink_to (VKey8 key) kkind) seq) p r :: n /\ finishes (k r) n.
  Proof. intros F. inversion F as [| | |? ? ? ? r n F']; subst. exists r, n. split; [reflexivity|exact F']. Qed.
  Lemma fin_user {A R} (p : HProg Val A) (k : A -> SProg R) : leaves p -> forall new, finishes (sp_user p k) new ->
    exists n1 n2 a, new = n1 ++ n2 /\ sch n1 = [] /\ finishes (k a) n2.
  Proof.
    intros L. induction p as [a|key seq pl k' IH]; intros new F; cbn [AsyncModel.sp_user] in F.
    - exists [], new, a. auto.
    - destruct (fin_keyed _ _ _ _ _ _ F) as (r & new' & -> & F'). destruct (IH _ (leaves_next _ _ _ _ r L) _ F') as (n1 & n2 & a & -> & S & F2).
      eexists (_ :: n1), n2, a. split; [reflexivity|]. split; auto. rewrite sch_send, (L key seq pl); [exact S|constructor].
  Qed.
  Lemma error_new {R} seq e (k : TxRes -> SProg R) new : (forall r n, finishes (k r) n -> sch n = []) ->
    finishes (sp_error Val SCtx std kkind seq e k) new -> sch new = [].
  Proof.
    intros H F. destruct (fin_keyed _ _ _ _ _ _ F) as (r & n & -> & F'). rewrite sch_send, Herr. eapply H. eauto.
  Qed.
  Lemma ret_new {R} (x : R) n : finishes (SpRet x) n -> sch n = []. Proof. intros F. inversion F. reflexivity. Qed.

  Ltac retn := cbv beta in *; match goal with H : finishes _ ?n |- _ => exact (ret_new _ _ H) end.
  Lemma other_new ctx hdr body new : asks hdr = false -> finishes (sp_handle ctx hdr body) new -> sch new = [].
  Proof.
    intros A F. unfold asks in A. unfold AsyncModel.sp_handle in F. destruct (keyb_of _ _) as [keyb|].
    2:{ eapply error_new; [|exact F]. intros; retn. }
    destruct (pat_eqb keyb (const_key (d_kind Val Ctx d) (ping_req std))).
    { destruct (from_bytes_u32 body).
      - destruct (fin_keyed _ _ _ _ _ _ F) as (r & n' & -> & F'). rewrite sch_send, Hping. retn.
      - eapply error_new; [|exact F]. intros; retn. }
    destruct (pat_eqb keyb (const_key (d_kind Val Ctx d) (schemas_req std))); [discriminate|]. clear A.
    revert Hea F. generalize (d_eps _ _ d). intros eps. induction eps as [|a tl IH]; intros Ha; cbn [sp_match_eps].
    - clear Ha. revert Hta. generalize (d_tps _ _ d). intros tps. induction tps as [|a tl IH]; intros Ht; cbn [sp_match_tps]; intros F.
      + eapply error_new; [|exact F]. intros; retn.
      + destruct (pat_eqb _ _); [|apply IH; auto; intros; apply Ht; right; auto]. destruct (ta_deser _ _ a body) as [msg|]; [|retn].
        unfold sp_tp_arm in F. destruct (Ht a (or_introl eq_refl)) as [T _].
        destruct (ta_flavor _ _ a); inversion F; subst; cbn [sch filter];
          try (match goal with H : finishes (sp_user _ _) _ |- _ => destruct (fin_user _ _ (T _ _ _) _ H) as (n1 & n2 & y & -> & S1 & F2) end;
               fold (sch (n1 ++ n2)); rewrite sch_app, S1; retn).
        retn.
    - intros F. destruct (pat_eqb _ _); [|apply IH; auto; intros; apply Ha; right; auto].
      destruct (ea_deser _ _ a body) as [req|]. 2:{ eapply error_new; [|exact F]. intros; retn. }
      unfold sp_ep_arm in F. destruct (Ha a (or_introl eq_refl)) as (R1 & T & _).
      destruct (ea_flavor _ _ a); inversion F; subst; cbn [sch filter].
      1,2: match goal with H : finishes (sp_user _ _) _ |- _ => destruct (fin_user _ _ (T _ _ _) _ H) as (n1 & n2 & y & -> & S1 & F2) end;
        fold (sch (n1 ++ n2)); rewrite sch_app, S1; cbn [app]; destruct (fin_keyed _ _ _ _ _ _ F2) as (r2 & n3 & -> & F3); rewrite sch_send, R1;
        match goal with H : finishes (if is_err ?r then _ else _) _ |- _ => destruct (is_err r) end;
        [eapply error_new; [|eassumption]; intros; retn|retn].
      destruct b; [retn|]. eapply error_new; [|eassumption]. intros; retn.
  Qed.

  (** *** The invariant *)
  Definition frame_asks (b : list N) : bool := match take_from_slice b with Done (Some (hdr, _)) => asks hdr | _ => false end.
  Definition answer_to (b : list N) (l : Tr) : Prop :=
    exists hdr body, take_from_slice b = Done (Some (hdr, body)) /\ full (hdr_seq hdr) l.
  Definition streams (handled : list (list N)) (l : Tr) : Prop :=
    exists ss, Forall2 answer_to (filter frame_asks handled) ss /\ l = concat ss.
  Definition fin_cur (c : option Code) (new : Tr) : Prop := match c with Some p => finishes p new | None => new = [] end.
  Lemma fin_cur_some c : exists new, fin_cur c new.
  Proof. destruct c; [apply fin_some|eexists; reflexivity]. Qed.

  Record DInv (a : ASys) (es : list (list Ev)) (handled : list (list N)) : Prop := {
    di_up : exists lost, Permutation (wire es) (handled ++ y_up (a_sys a) ++ lost);
    di_tasks : Forall leaves (y_tasks (a_sys a));
    di_cur : match a_cur a with Some p => spawns_ok p | None => True end;
    di_sch : forall new, fin_cur (a_cur a) new -> streams handled (sch (y_trace (a_sys a) ++ new)) }.

  Lemma carry_dinv s p es handled : (exists lost, Permutation (wire es) (handled ++ y_up s ++ lost)) -> Forall leaves (y_tasks s) -> spawns_ok p ->
    (forall new, finishes p new -> streams handled (sch (y_trace s ++ new))) -> DInv (carry_on s p) es handled.
  Proof.
    intros Pu Ft Ok Hs. unfold AsyncModel.carry_on. destruct (settle p (y_trace s)) as [p' tr'] eqn:E.
    destruct (settle_fin _ _ _ _ E) as (evs & -> & F). destruct (settle_ok _ _ _ _ E Ok) as (O' & evs' & E' & Ft'). apply app_inv_head in E'. subst evs'.
    rewrite skipn_exact. assert (G : forall new, finishes p' new -> streams handled (sch ((y_trace s ++ evs) ++ new))).
    { intros new Hn. rewrite <- app_assoc. apply Hs, F, Hn. }
    destruct p' as [[ctx res]| | |]; split; cbn [AsyncModel.a_sys AsyncModel.a_cur SystemModel.y_up SystemModel.y_tasks SystemModel.y_trace fin_cur]; auto;
      try (apply Forall_app; auto).
    intros new ->. apply G. constructor.
  Qed.

  Lemma reach_dinv ctx0 ls a cl es : a_run ls (asys_new _ _ _ bg ctx0) = Some (a, cl, es) -> exists handled, DInv a es handled.
  Proof.
    revert ls a cl es. apply (a_ind std kkind spawn_ctxt d enc task cfg net can_spawn (fun ls a cl es => exists handled, DInv a es handled)).
    { exists []. split; cbn; auto. - exists []. constructor. - intros new ->. exists []. split; [constructor|reflexivity]. }
    intros ls a cl es l a' _ (handled & [(lost & Pu) Ft Fc Fs]) St. destruct l as [l|].
    2:{ cbn [a_client_label]. cbn [AsyncModel.a_step] in St. destruct (a_cur a) as [[| | |w h p k]|] eqn:Ec; try discriminate St. injection St as <-.
        exists handled. apply carry_dinv; cbn [SystemModel.y_up SystemModel.y_tasks SystemModel.y_trace]; eauto.
        intros new Hn. rewrite <- app_assoc. apply Fs. cbn [app fin_cur]. constructor. exact Hn. }
    cbn [a_client_label].
    destruct l as [l|i|i|i|i|i|i n|i]; cbn [AsyncModel.a_step client_label] in St |- *.
    - destruct (SystemModel.sys_step _ _ _ _ _ _ _ _ _ _ _ _ _ _) as [s'|] eqn:Hs; [|discriminate]. injection St as <-.
      destruct (step_client std net can_spawn kkind spawn_ctxt enc task cfg d _ _ _ Hs) as (e & Nr & Sc & Es).
      intros c e' Sc'. rewrite Sc in Sc'. injection Sc' as <- <-. rewrite Es. exists handled.
      split; cbn [AsyncModel.a_sys AsyncModel.a_cur SystemModel.y_up SystemModel.y_tasks SystemModel.y_trace]; auto.
      exists lost. rewrite wire_snoc.
      eapply perm_trans; [apply Permutation_app_tail; exact Pu|]. rewrite <- !app_assoc. apply Permutation_app_head, Permutation_app_head, Permutation_app_comm.
    - destruct (SystemModel.sys_step _ _ _ _ _ _ _ _ _ _ _ _ _ _) as [s'|] eqn:Hs; [|discriminate]. injection St as <-.
      cbn [SystemModel.sys_step] in Hs. destruct (nth_error (SystemModel.y_down _ _ _ (a_sys a)) i) as [b|] eqn:Hn; [|discriminate]. cbn [option_map].
      destruct (step cfg (LRecv b) _) as [[c e]|] eqn:Sc; [|discriminate]. intros c' e' [= <- <-]. pose proof (recv_wire cfg _ _ _ _ Sc) as ->. injection Hs as <-.
      exists handled. split; cbn [AsyncModel.a_sys AsyncModel.a_cur SystemModel.y_up SystemModel.y_tasks SystemModel.y_trace]; auto.
      exists lost. rewrite wire_snoc. cbn. rewrite app_nil_r. auto.
    - destruct (a_cur a) eqn:Ec; [discriminate|]. destruct (y_serving _); [|discriminate]. destruct (nth_error _ _) as [b|] eqn:Hn; [|discriminate].
      assert (P' : exists lost, Permutation (wire es) ((handled ++ [b]) ++ remove_nth i (y_up (a_sys a)) ++ lost)).
      { exists lost. eapply perm_trans; [exact Pu|]. rewrite <- app_assoc. apply Permutation_app_head.
        eapply perm_trans; [apply Permutation_app_tail, remove_nth_perm; eauto|]. reflexivity. }
      destruct (Fs [] eq_refl) as (ss & Fss & Ess). rewrite app_nil_r in Ess.
      destruct (take_from_slice b) as [[[hdr body]|]|] eqn:Tk; [| |discriminate]; injection St as <-; exists (handled ++ [b]).
      + apply carry_dinv; cbn [SystemModel.y_up SystemModel.y_tasks SystemModel.y_trace]; auto. { apply handle_ok. }
        intros new Hn'. rewrite sch_app, Ess. unfold streams. rewrite filter_app. cbn [filter].
        destruct (frame_asks b) eqn:Fa; unfold frame_asks in Fa; rewrite Tk in Fa.
        * pose proof (asks_new _ _ _ _ Fa Hn') as Hf. exists (ss ++ [new]). split.
          -- apply Forall2_app; auto. constructor; [|constructor]. exists hdr, body. auto.
          -- rewrite concat_app. cbn. rewrite app_nil_r, (sch_full _ _ Hf). reflexivity.
        * exists ss. rewrite (other_new _ _ _ _ Fa Hn'), !app_nil_r. auto.
      + split; cbn [AsyncModel.a_sys AsyncModel.a_cur SystemModel.y_up SystemModel.y_tasks SystemModel.y_trace]; auto.
        intros new ->. rewrite app_nil_r, Ess. exists ss. rewrite filter_app. cbn [filter]. unfold frame_asks at 2. rewrite Tk, app_nil_r. auto.
    - destruct (SystemModel.sys_step _ _ _ _ _ _ _ _ _ _ _ _ _ _) as [s'|] eqn:Hs; [|discriminate]. injection St as <-.
      cbn [SystemModel.sys_step] in Hs. destruct (nth_error (y_tasks (a_sys a)) i) as [[|key seq p k]|] eqn:Hn; try discriminate.
      unfold send_keyed, tx_send in Hs. set (h := MkHeader (shrink_to (VKey8 key) kkind) seq) in Hs. injection Hs as <-.
      assert (L : leaves (HSend key seq p k)). { rewrite Forall_forall in Ft. apply Ft. eapply nth_error_In; eauto. }
      exists handled. split; cbn [AsyncModel.a_sys AsyncModel.a_cur SystemModel.y_up SystemModel.y_tasks SystemModel.y_trace]; eauto.
      + apply set_nth_forall; auto. eapply leaves_next; eauto.
      + intros new Hc. specialize (Fs new Hc). rewrite sch_app in Fs. rewrite sch_app, sch_app. unfold h. rewrite sch_send, (L key seq p) by constructor. rewrite app_nil_r. exact Fs.
    - destruct (SystemModel.sys_step _ _ _ _ _ _ _ _ _ _ _ _ _ _) as [s'|] eqn:Hs; [|discriminate]. injection St as <-.
      cbn [SystemModel.sys_step] in Hs. destruct (nth_error _ _) as [b|] eqn:Hn; [|discriminate]. injection Hs as <-.
      exists handled. split; cbn [AsyncModel.a_sys AsyncModel.a_cur SystemModel.y_up SystemModel.y_tasks SystemModel.y_trace]; auto.
      exists (b :: lost). eapply perm_trans; [exact Pu|]. apply Permutation_app_head.
      eapply perm_trans; [apply Permutation_app_tail, remove_nth_perm; eauto|]. cbn. apply Permutation_middle.
    - destruct (SystemModel.sys_step _ _ _ _ _ _ _ _ _ _ _ _ _ _) as [s'|] eqn:Hs; [|discriminate]. injection St as <-.
      cbn [SystemModel.sys_step] in Hs. destruct (nth_error _ _) as [b|] eqn:Hn; [|discriminate]. injection Hs as <-. exists handled. split; eauto.
    - destruct (SystemModel.sys_step _ _ _ _ _ _ _ _ _ _ _ _ _ _) as [s'|] eqn:Hs; [|discriminate]. injection St as <-.
      cbn [SystemModel.sys_step] in Hs. destruct (nth_error _ _) as [b|] eqn:Hn; [|discriminate]. injection Hs as <-. exists handled. split; eauto.
    - destruct (SystemModel.sys_step _ _ _ _ _ _ _ _ _ _ _ _ _ _) as [s'|] eqn:Hs; [|discriminate]. injection St as <-.
      cbn [SystemModel.sys_step] in Hs. injection Hs as <-. exists handled. split; eauto.
  Qed.
End P.
