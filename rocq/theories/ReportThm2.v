(** Property theorems C43, C44 and C60, continued: declared types, and what is not
    so. *)
From Coq Require Import NArith List Bool Arith Lia Permutation.
From Verif Require Import KeyModel HeaderModel KeySpec HeaderSpec MinKeyModel MinKeySpec SchemaModel SchemaSpec SchemaProof SchemaThm
  MacroModel MacroProof DispatchModel DispatchSpec DispatchThm ReportModel ReportSpec ReportProof ReportThm.
Import ListNotations.

Lemma nt_dec (a b : NamedType) : {a = b} + {a <> b}.
Proof. destruct (nty_eq a b) eqn:E; [left|right]; [now apply nty_eq_iff|]. intros X. apply nty_eq_iff in X. congruence. Qed.

(** ** From the declarations *)
Section Declared.
  Variable hash : NamedType -> str -> Key8.
  (** The rows of the standard tables and of the user's. *)
  Variables (std_e user_e : list EpDef) (std_i user_i std_o user_o : list TpDef).
  Variables (es eps : EndpointMap) (tis tin tos tout : TopicMap) (kind : VarKeyKind) (m : DeviceMap).
  Hypothesis Hes : endpoints_macro hash None std_e = Done es.
  Hypothesis Heps : endpoints_macro hash (Some es) user_e = Done eps.
  Hypothesis Htis : topics_macro hash ToServer None std_i = Done tis.
  Hypothesis Htin : topics_macro hash ToServer (Some tis) user_i = Done tin.
  Hypothesis Htos : topics_macro hash ToClient None std_o = Done tos.
  Hypothesis Htout : topics_macro hash ToClient (Some tos) user_o = Done tout.
  Hypothesis Hm : device_map eps tin tout kind = Done m.

  Definition declares (t : NamedType) : Prop :=
    (exists e, In e (std_e ++ user_e) /\ (t = ed_request e \/ t = ed_response e)) \/
    (exists d, In d ((std_i ++ user_i) ++ (std_o ++ user_o)) /\ t = td_message d).

  Lemma rows_declared :
    dm_endpoints m = map (fun e => (ed_path e, hash (ed_request e) (ed_path e), hash (ed_response e) (ed_path e))) (std_e ++ user_e) /\
    dm_topics_in m = map (fun t => (td_path t, hash (td_message t) (td_path t))) (std_i ++ user_i) /\
    dm_topics_out m = map (fun t => (td_path t, hash (td_message t) (td_path t))) (std_o ++ user_o).
  Proof.
    destruct (C29_device_map _ _ _ _ _ Hm) as (E1 & E2 & E3 & _).
    destruct (C29_endpoint_table _ _ _ _ Heps) as (F1 & _).
    destruct (C29_topic_table _ _ _ _ _ Htin) as (_ & F2 & _).
    destruct (C29_topic_table _ _ _ _ _ Htout) as (_ & F3 & _).
    cbn [endpoints_macro] in Hes. rewrite ep_tys_user_eq in Hes. cbn [obind] in Hes.
    cbn [topics_macro] in Htis, Htos. rewrite tp_tys_user_eq in Htis, Htos. cbn [obind] in Htis, Htos.
    injection Hes as G1. injection Htis as G2. injection Htos as G3.
    rewrite E1, E2, E3, F1, F2, F3, <- G1, <- G2, <- G3, !map_app. auto.
  Qed.

  Lemma types_declared t : declares t -> ~ primitive t -> In t (dm_types m).
  Proof.
    intros D P. destruct (C29_device_map _ _ _ _ _ Hm) as (_ & _ & _ & _ & _ & M). apply M. split; auto.
    destruct (C29_endpoint_table _ _ _ _ Heps) as (_ & _ & F1).
    destruct (C29_topic_table _ _ _ _ _ Htin) as (_ & _ & _ & F2).
    destruct (C29_topic_table _ _ _ _ _ Htout) as (_ & _ & _ & F3).
    cbn [endpoints_macro] in Hes. rewrite ep_tys_user_eq in Hes. cbn [obind] in Hes.
    cbn [topics_macro] in Htis, Htos. rewrite tp_tys_user_eq in Htis, Htos. cbn [obind] in Htis, Htos.
    injection Hes as G1. injection Htis as G2. injection Htos as G3.
    assert (V : forall x, visible x x) by constructor.
    destruct D as [(e & I & U)|(e & I & U)].
    - left. apply F1. split; auto. apply in_app_or in I. destruct I as [I|I].
      + left. rewrite <- G1. cbn [em_types]. apply dadds_in. right. split; auto. apply ep_lists_in. split; auto.
        exists e. split; auto. destruct U as [-> | ->]; auto.
      + right. exists e. split; auto. destruct U as [-> | ->]; auto.
    - right. rewrite !in_app_iff in I. destruct I as [[I|I]|[I|I]].
      + left. apply F2. split; auto. left. rewrite <- G2. cbn [tm_types]. apply dadds_in. right. split; auto. apply tp_lists_in.
        split; auto. exists e. subst t. auto.
      + left. apply F2. split; auto. right. exists e. subst t. auto.
      + right. apply F3. split; auto. left. rewrite <- G3. cbn [tm_types]. apply dadds_in. right. split; auto. apply tp_lists_in.
        split; auto. exists e. subst t. auto.
      + right. apply F3. split; auto. right. exists e. subst t. auto.
  Qed.

  Variable builtin : list NamedType.

  (** *** C60 The host can describe the device

      A primitive payload type is never advertised, so the host must know it.
      Missing: it does not know them all, see [C60_usize_refuted]. *)
  Theorem C60_describable_partial :
    (forall t, declares t -> primitive t -> In t builtin) ->
    Forall (ep_resolvable hash (builtin ++ dm_types m)) (dm_endpoints m) /\
    Forall (tp_resolvable hash (builtin ++ dm_types m)) (dm_topics_in m) /\
    Forall (tp_resolvable hash (builtin ++ dm_types m)) (dm_topics_out m).
  Proof.
    intros Pr. destruct rows_declared as (E1 & E2 & E3).
    assert (K : forall t, declares t -> In t (builtin ++ dm_types m)).
    { intros t D. apply in_or_app. destruct (is_prim (nt_ty t)) eqn:Q.
      - left. apply Pr; auto. apply is_prim_iff, Q.
      - right. apply types_declared; auto. intros P. apply is_prim_iff in P. congruence. }
    split; [|split].
    - rewrite E1. apply Forall_map, Forall_forall. intros e I. cbn. split; eexists; (split; [apply K|reflexivity]); left; eauto.
    - rewrite E2. apply Forall_map, Forall_forall. intros e I. eexists. cbn. split; [apply K|reflexivity]. right. exists e.
      split; auto. apply in_or_app. auto.
    - rewrite E3. apply Forall_map, Forall_forall. intros e I. eexists. cbn. split; [apply K|reflexivity]. right. exists e.
      split; auto. apply in_or_app. auto.
  Qed.

  (** *** C43 If moreover the hash tells the types apart, the report is the
      declaration: every row with its own types. *)
  Theorem C43_declared_types :
    forall order (E : Type) tot stop,
      set_order order ->
      (forall t, declares t -> primitive t -> In t builtin) ->
      (forall path t t', In t (builtin ++ dm_types m) -> In t' (builtin ++ dm_types m) ->
         hash t path = hash t' path -> t = t') ->
      (forall d tl, stop <> Got d :: tl) ->
      endpoints_sent tot = N.of_nat (length (dm_endpoints m)) ->
      topics_in_sent tot = N.of_nat (length (dm_topics_in m)) ->
      topics_out_sent tot = N.of_nat (length (dm_topics_out m)) ->
      errors tot = 0%N ->
      exists rpt,
        @get_schema_report hash builtin order E true (Some (map Got (advertised m) ++ stop)) (inl tot) = Done (inl rpt) /\
        rp_endpoints rpt =
          map (fun e => MkEpRep (ed_path e) (hash (ed_request e) (ed_path e)) (ed_request e)
                                (hash (ed_response e) (ed_path e)) (ed_response e)) (std_e ++ user_e) /\
        rp_topics_in rpt =
          map (fun t => MkTpRep (td_path t) (hash (td_message t) (td_path t)) (td_message t)) (std_i ++ user_i) /\
        rp_topics_out rpt =
          map (fun t => MkTpRep (td_path t) (hash (td_message t) (td_path t)) (td_message t)) (std_o ++ user_o) /\
        same_types builtin rpt m.
  Proof.
    intros order E tot stop Ho Pr Sep Hs T1 T2 T3 T4.
    destruct (C60_describable_partial Pr) as (R1 & R2 & R3).
    destruct (C43_report hash builtin order Ho E m tot stop Hs T1 T2 T3 T4 R1 R2 R3) as (rpt & Er & (Q1 & Q2 & Q3) & (ND & Ts) & (S1 & S2)).
    exists rpt. split; [exact Er|].
    assert (K : forall t, declares t -> In t (builtin ++ dm_types m)).
    { intros t D. apply in_or_app. destruct (is_prim (nt_ty t)) eqn:Q.
      - left. apply Pr; auto. apply is_prim_iff, Q.
      - right. apply types_declared; auto. intros P. apply is_prim_iff in P. congruence. }
    assert (U : forall path key t t', stands_for hash (rp_types rpt) path key t' -> declares t -> hash t path = key -> t' = t).
    { intros path key t t' (I' & H') D H. apply (Sep path); auto; [|congruence]. apply in_or_app. apply Ts. exact I'. }
    destruct rows_declared as (E1 & E2 & E3).
    assert (G : forall (l : list EpDef) (rs : list EndpointReport),
      (forall e, In e l -> declares (ed_request e) /\ declares (ed_response e)) ->
      (forall e, In e rs -> In e (rp_endpoints rpt)) ->
      map ep_row rs = map (fun e => (ed_path e, hash (ed_request e) (ed_path e), hash (ed_response e) (ed_path e))) l ->
      rs = map (fun e => MkEpRep (ed_path e) (hash (ed_request e) (ed_path e)) (ed_request e)
                                (hash (ed_response e) (ed_path e)) (ed_response e)) l).
    { induction l as [|e l IH]; intros [|r rs] D I M; try discriminate M; auto.
      cbn in M. injection M as M1 M2 M3 M. cbn [map]. f_equal.
      - destruct (S1 r (I r (or_introl eq_refl))) as [A B]. destruct (D e (or_introl eq_refl)) as [Da Db].
        rewrite M1 in A, B. rewrite M2 in A. rewrite M3 in B.
        pose proof (U _ _ _ _ A Da eq_refl). pose proof (U _ _ _ _ B Db eq_refl). destruct r. cbn in *. congruence.
      - apply IH; auto; intros x X; [apply D|apply I]; right; auto. }
    assert (G' : forall (l : list TpDef) (rs : list TopicReport),
      (forall e, In e l -> declares (td_message e)) ->
      (forall e, In e rs -> In e (rp_topics_in rpt ++ rp_topics_out rpt)) ->
      map tp_row rs = map (fun t => (td_path t, hash (td_message t) (td_path t))) l ->
      rs = map (fun t => MkTpRep (td_path t) (hash (td_message t) (td_path t)) (td_message t)) l).
    { induction l as [|e l IH]; intros [|r rs] D I M; try discriminate M; auto.
      cbn in M. injection M as M1 M2 M. cbn [map]. f_equal.
      - pose proof (S2 r (I r (or_introl eq_refl))) as A. pose proof (D e (or_introl eq_refl)) as Da.
        rewrite M1, M2 in A. pose proof (U _ _ _ _ A Da eq_refl). destruct r. cbn in *. congruence.
      - apply IH; auto; intros x X; [apply D|apply I]; right; auto. }
    split; [|split; [|split; [|split; auto]]].
    - apply G; auto; [|congruence]. intros e I. split; left; eauto.
    - apply G'; [| |congruence].
      + intros e I. right. exists e. split; auto. apply in_or_app. auto.
      + intros e I. apply in_or_app. auto.
    - apply G'; [| |congruence].
      + intros e I. right. exists e. split; auto. apply in_or_app. auto.
      + intros e I. apply in_or_app. auto.
  Qed.
  (** *** C60 Exactly when the report fails: whenever a declared payload type is a primitive
      that the host does not know, and only then (given that the hash tells types apart). *)
  Theorem C60_fails_iff_partial :
    forall order (E : Type) tot stop,
      set_order order ->
      (forall path t t', In t (builtin ++ dm_types m) -> In t' (builtin ++ dm_types m) \/ declares t' ->
         hash t path = hash t' path -> t = t') ->
      (forall d tl, stop <> Got d :: tl) ->
      endpoints_sent tot = N.of_nat (length (dm_endpoints m)) ->
      topics_in_sent tot = N.of_nat (length (dm_topics_in m)) ->
      topics_out_sent tot = N.of_nat (length (dm_topics_out m)) ->
      errors tot = 0%N ->
      let report := @get_schema_report hash builtin order E true (Some (map Got (advertised m) ++ stop)) (inl tot) in
      (report = Done (inr SInvalidReportData) <-> exists t, declares t /\ primitive t /\ ~ In t builtin) /\
      ((exists rpt, report = Done (inl rpt)) <-> forall t, declares t -> primitive t -> In t builtin).
  Proof.
    intros order E tot stop Ho Sep Hs T1 T2 T3 T4 report.
    assert (Bad : (exists t, declares t /\ primitive t /\ ~ In t builtin) -> report = Done (inr SInvalidReportData)).
    { intros (t & D & P & N).
      assert (No : forall path t', In t' builtin \/ In (SDType t') (collect (map Got (advertised m) ++ stop)) -> hash t' path <> hash t path).
      { intros path t' I H. assert (I' : In t' (builtin ++ dm_types m)).
        { apply in_or_app. destruct I as [I|I]; [auto|]. right. rewrite collect_got in I by exact Hs. unfold advertised in I.
          rewrite !in_app_iff, !in_map_iff in I. destruct I as [(x & X & I)|[(x & X & I)|[(x & X & I)|(x & X & I)]]]; try discriminate X.
          injection X as <-. exact I. }
        pose proof (Sep path t' t I' (or_intror D) H) as ->. apply in_app_or in I'. destruct I' as [I'|I']; [auto|].
        destruct (C29_device_map _ _ _ _ _ Hm) as (_ & _ & _ & _ & _ & M). apply M in I'. tauto. }
      destruct rows_declared as (E1 & E2 & E3). destruct D as [(e & I & [->| ->])|(e & I & ->)].
      - apply (C43_missing_type hash builtin order Ho E _ tot (ed_path e) (hash (ed_request e) (ed_path e)) (hash (ed_response e) (ed_path e)) ToServer); [|apply No].
        left. rewrite collect_got by exact Hs. unfold advertised. rewrite !in_app_iff, E1, !map_map. right. left. apply in_map_iff. exists e. auto.
      - apply (C43_missing_type hash builtin order Ho E _ tot (ed_path e) (hash (ed_response e) (ed_path e)) (hash (ed_request e) (ed_path e)) ToServer); [|apply No].
        right. right. rewrite collect_got by exact Hs. unfold advertised. rewrite !in_app_iff, E1, !map_map. right. left. apply in_map_iff. exists e. auto.
      - apply in_app_or in I. destruct I as [I|I].
        + apply (C43_missing_type hash builtin order Ho E _ tot (td_path e) (hash (td_message e) (td_path e)) (hash (td_message e) (td_path e)) ToServer); [|apply No].
          right. left. rewrite collect_got by exact Hs. unfold advertised. rewrite !in_app_iff, E2, !map_map. right. right. right. apply in_map_iff. exists e. auto.
        + apply (C43_missing_type hash builtin order Ho E _ tot (td_path e) (hash (td_message e) (td_path e)) (hash (td_message e) (td_path e)) ToClient); [|apply No].
          right. left. rewrite collect_got by exact Hs. unfold advertised. rewrite !in_app_iff, E3, !map_map. right. right. left. apply in_map_iff. exists e. auto. }
    assert (Good : (forall t, declares t -> primitive t -> In t builtin) -> exists rpt, report = Done (inl rpt)).
    { intros Pr. destruct (C60_describable_partial Pr) as (R1 & R2 & R3).
      destruct (C43_report hash builtin order Ho E m tot stop Hs T1 T2 T3 T4 R1 R2 R3) as (rpt & Er & _). eauto. }
    assert (Dec : (forall t, declares t -> primitive t -> In t builtin) \/ exists t, declares t /\ primitive t /\ ~ In t builtin).
    { set (all := flat_map (fun e => [ed_request e; ed_response e]) (std_e ++ user_e) ++ map td_message ((std_i ++ user_i) ++ (std_o ++ user_o))).
      assert (A : forall t, In t all <-> declares t).
      { intros t. unfold all, declares. rewrite in_app_iff, in_flat_map, in_map_iff. cbn [In]. split.
        - intros [(e & I & [<-|[<-|[]]])|(e & <- & I)]; [left; eauto..|right; eauto].
        - intros [(e & I & [->| ->])|(e & I & ->)]; [left; eauto..|right; eauto]. }
      destruct (Forall_Exists_dec (fun t => primitive t -> In t builtin)) with (l := all) as [F|F].
      - intros t. destruct (is_prim (nt_ty t)) eqn:Q.
        + destruct (in_dec nt_dec t builtin); [left; auto|]. right. intros X. apply n, X, is_prim_iff, Q.
        + left. intros X. apply is_prim_iff in X. congruence.
      - left. intros t D. rewrite Forall_forall in F. apply F, A, D.
      - right. apply Exists_exists in F. destruct F as (t & I & F). exists t. split; [apply A, I|].
        destruct (is_prim (nt_ty t)) eqn:Q.
        + split; [apply is_prim_iff, Q|]. intros X. apply F. auto.
        + exfalso. apply F. intros X. apply is_prim_iff in X. congruence. }
    split; split.
    - intros H. destruct Dec as [Pr|X]; [|exact X]. destruct (Good Pr) as [rpt X]. congruence.
    - exact Bad.
    - intros [rpt H]. destruct Dec as [Pr|X]; [exact Pr|]. apply Bad in X. congruence.
    - exact Good.
  Qed.
End Declared.
Print Assumptions C60_fails_iff_partial.
Print Assumptions C60_describable_partial.
Print Assumptions C43_declared_types.

(** ** Concrete devices *)
Definition q_nt (n : N) (d : DMT) : NamedType := NT [n] d.
Definition q_u32 := q_nt 1 (DPrim PU32).
Definition q_unit := q_nt 2 (DPrim PUnit).
Definition q_string := q_nt 3 (DPrim PString).
Definition q_usize := q_nt 4 (DPrim PUsize).
Definition q_totals := q_nt 5 (DStruct [([1], q_u32); ([2], q_u32); ([3], q_u32); ([4], q_u32); ([5], q_u32)])%N.
Definition q_data := q_nt 6 (DEnum [([1]%N, VUnit)]).
Definition q_inner := q_nt 7 (DStruct [([1], q_u32); ([2], q_u32)])%N.
Definition q_outer := q_nt 8 (DStruct [([1], q_inner)])%N.
(** Like the real hash it looks at structure and path, not at names. *)
Definition q_code (d : DMT) : N :=
  match d with
  | DPrim PUnit => 1 | DPrim PU32 => 2 | DPrim PUsize => 3 | DPrim PString => 4
  | DStruct l => 16 + N.of_nat (length l) | DEnum l => 32 + N.of_nat (length l) | _ => 60
  end%N.
Definition q_hash (t : NamedType) (p : str) : Key8 := K8 (q_code (nt_ty t)) (hd 0%N p) 0 0 0 0 0 0.
Definition q_std_e := [MkEpDef q_u32 q_u32 [112]%N; MkEpDef q_unit q_totals [103]%N]%N.
Definition q_std_o := [MkTpDef q_data [115]%N; MkTpDef q_string [108]%N]%N.
Definition q_std : StdKeys :=
  MkStd (q_hash q_u32 [112]%N) (q_hash q_u32 [112]%N) (q_hash q_unit [103]%N) (q_hash q_totals [103]%N)
        (q_hash q_data [115]%N) (q_hash q_u32 [101]%N) (q_hash q_string [108]%N)%N.
Definition q_builtin := [q_u32; q_unit; q_string].

Definition ofail {A} (dflt : A) (o : outcome A) : A := match o with Done a => a | Panicked => dflt end.
Definition q_e0 := MkEpMap [] []. Definition q_t0 := MkTpMap ToServer [] [].
Definition q_es := Eval vm_compute in ofail q_e0 (endpoints_macro q_hash None q_std_e).
Definition q_tis := Eval vm_compute in ofail q_t0 (topics_macro q_hash ToServer None []).
Definition q_tos := Eval vm_compute in ofail q_t0 (topics_macro q_hash ToClient None q_std_o).

(** A device with one endpoint of its own, on path "u", taking [t]. *)
Definition q_eps (t : NamedType) := ofail q_e0 (endpoints_macro q_hash (Some q_es) [MkEpDef t q_unit [117]%N]).
Definition q_tin := Eval vm_compute in ofail q_t0 (topics_macro q_hash ToServer (Some q_tis) [MkTpDef q_u32 [116]%N]).
Definition q_tout := Eval vm_compute in ofail q_t0 (topics_macro q_hash ToClient (Some q_tos) []).
Definition q_arm (t : NamedType) : EpArm N N :=
  MkEpArm N N (q_hash t [117]%N) (q_hash q_unit [117]%N) x_deser Blocking 0 (fun ctx _ v => HRet (ctx, v)).
Definition q_tparm : TpArm N N :=
  MkTpArm N N (q_hash q_u32 [116]%N) x_deser Blocking 1 (fun ctx _ v => HRet ctx).
Definition q_disp (t : NamedType) : Dispatcher N N :=
  ofail (MkDispatcher N N KK8 [] [] (MkMap [] [] [] [] KK8)) (define_dispatch N N (q_eps t) q_tin q_tout [q_arm t] [q_tparm]).
Definition q_req : VarHeader := MkHeader (shrink_to (VKey8 (schemas_req q_std)) KK8) (Seq1 3).
Definition q_new (t : NamedType) : Trace N N :=
  snd (handle N N N q_std x_net (fun _ _ => false) KK8 (fun c => (c, c)) (q_disp t) 0%N q_req [] []).
Definition q_tot (t : NamedType) : SchemaTotals := hd (MkTotals 0 0 0 0 1) (totals_sent (q_new t)).
Definition q_report (t : NamedType) (outs : list RecvOutcome) :=
  @get_schema_report q_hash q_builtin (fun l => l) unit true (Some outs) (inl (q_tot t)).

Lemma keys_ok_by l : forallb (fun x => forallb (fun b => (b <? 256)%N) (k8_bytes x)) l = true -> keys_ok l.
Proof.
  rewrite forallb_forall. intros H. apply Forall_forall. intros x I. apply H in I. rewrite forallb_forall in I.
  apply Forall_forall. intros b Ib. apply N.ltb_lt, I, Ib.
Qed.

(** The hypotheses of the theorems above are met by these devices. *)
Lemma q_device t : t = q_outer \/ t = q_usize ->
  config_ok (q_eps t) q_tin q_tout [q_arm t] [q_tparm] /\ has_std q_std (q_eps t) /\
  ping_req q_std <> schemas_req q_std /\
  define_dispatch N N (q_eps t) q_tin q_tout [q_arm t] [q_tparm] = Done (q_disp t) /\
  (N.of_nat (length (advertised (d_map _ _ (q_disp t)))) < 65536)%N /\
  klen (d_kind _ _ (q_disp t)) <= klen KK8 /\
  (exists r, handle N N N q_std x_net (fun _ _ => false) KK8 (fun c => (c, c)) (q_disp t) 0%N q_req [] [] = (0%N, r, q_new t)) /\
  In (q_tot t) (totals_sent (q_new t)) /\ all_accepted (q_new t) /\ length (published (q_new t)) >= 8.
Proof.
  intros [-> | ->].
  all: split; [unfold config_ok; repeat split; apply keys_ok_by; vm_compute; reflexivity|].
  all: split; [split; vm_compute; auto|].
  all: split; [vm_compute; discriminate|].
  all: split; [vm_compute; reflexivity|].
  all: split; [vm_compute; reflexivity|].
  all: split; [vm_compute; lia|].
  all: split; [eexists; vm_compute; reflexivity|].
  all: split; [vm_compute; auto|].
  all: split; [|vm_compute; lia].
  all: intros w h p r I; vm_compute in I; repeat (destruct I as [I|I]; [injection I as <- <- <- <-; reflexivity|]); destruct I.
Qed.

Example C43_nontrivial :
  exists rpt, q_report q_outer (map Got (published (q_new q_outer)) ++ [Elapsed]) = Done (inl rpt) /\
    map er_req_ty (rp_endpoints rpt) = [q_u32; q_unit; q_outer] /\
    length (rp_topics_out rpt) = 2 /\ length (rp_topics_in rpt) = 1 /\ In q_inner (rp_types rpt).
Proof. eexists. split; [vm_compute; reflexivity|]. vm_compute. tauto. Qed.

(** The hypotheses of [C43_declared_types] and [C60_describable_partial] are met by
    the first device. *)
Example C43_declared_nontrivial :
  endpoints_macro q_hash None q_std_e = Done q_es /\
  endpoints_macro q_hash (Some q_es) [MkEpDef q_outer q_unit [117]%N] = Done (q_eps q_outer) /\
  topics_macro q_hash ToClient None q_std_o = Done q_tos /\
  topics_macro q_hash ToServer (Some q_tis) [MkTpDef q_u32 [116]%N] = Done q_tin /\
  exists m, device_map (q_eps q_outer) q_tin q_tout KK2 = Done m /\
    (forall t, declares q_std_e [MkEpDef q_outer q_unit [117]%N] [] [MkTpDef q_u32 [116]%N] q_std_o [] t -> primitive t -> In t q_builtin) /\
    (forall path t t', In t (q_builtin ++ dm_types m) -> In t' (q_builtin ++ dm_types m) ->
       q_hash t path = q_hash t' path -> t = t').
Proof.
  do 4 (split; [vm_compute; reflexivity|]). eexists. split; [vm_compute; reflexivity|]. split.
  - intros t [(e & I & U)|(e & I & U)] [p P]; cbn in I;
      repeat (destruct I as [<-|I]; [cbn in U; try destruct U as [U|U]; subst t; solve [cbn; auto|discriminate P]|]); destruct I.
  - intros path t t' I I' H. cbn in I, I'.
    repeat (destruct I as [<-|I]; [repeat (destruct I' as [<-|I']; [first [reflexivity|discriminate H]|]); destruct I'|]). destruct I.
Qed.

(** Those of [C60_fails_iff_partial] by the second, which declares a [usize]. *)
Example C60_fails_iff_ex :
  let declared := declares q_std_e [MkEpDef q_usize q_unit [117]%N] [] [MkTpDef q_u32 [116]%N] q_std_o [] in
  endpoints_macro q_hash (Some q_es) [MkEpDef q_usize q_unit [117]%N] = Done (q_eps q_usize) /\
  exists m, device_map (q_eps q_usize) q_tin q_tout KK2 = Done m /\
    (exists t, declared t /\ primitive t /\ ~ In t q_builtin) /\
    (forall path t t', In t (q_builtin ++ dm_types m) -> In t' (q_builtin ++ dm_types m) \/ declared t' ->
       q_hash t path = q_hash t' path -> t = t').
Proof.
  intros declared. split; [vm_compute; reflexivity|]. eexists. split; [vm_compute; reflexivity|]. split.
  - exists q_usize. split; [left; eexists; split; [do 2 right; left; reflexivity|left; reflexivity]|]. split; [eexists; reflexivity|].
    intros I. cbn in I. repeat (destruct I as [I|I]; [discriminate I|]). destruct I.
  - intros path t t' I I' H.
    assert (I2 : In t' [q_u32; q_unit; q_string; q_totals; q_data; q_usize]).
    { destruct I' as [I'|[(e & I' & U)|(e & I' & U)]].
      - cbn in I'. repeat (destruct I' as [<-|I']; [cbn; auto 7|]). destruct I'.
      - cbn in I'. repeat (destruct I' as [<-|I']; [cbn in U; destruct U as [->| ->]; cbn; auto 7|]). destruct I'.
      - cbn in I'. repeat (destruct I' as [<-|I']; [cbn in U; subst t'; cbn; auto 7|]). destruct I'. }
    clear I'. cbn in I, I2.
    repeat (destruct I as [<-|I]; [repeat (destruct I2 as [<-|I2]; [first [reflexivity|discriminate H]|]); destruct I2|]). destruct I.
Qed.

Example C44_nontrivial :
  q_report q_outer (map Got (skipn 1 (published (q_new q_outer)))) <> Done (inr SLostData) /\
  q_report q_outer (map Got (firstn 6 (published (q_new q_outer))) ++ [Lagged]) = Done (inr SLostData) /\
  q_report q_outer (map Got (skipn 4 (published (q_new q_outer)))) = Done (inr SInvalidReportData).
Proof. split; [vm_compute; discriminate|]. split; vm_compute; reflexivity. Qed.

(** ** C44 is false as stated: the type [q_inner], nested in the request type, is
    lost, and the report, without it, is returned as complete. *)
Theorem C44_lost_type_refuted :
  exists outs rpt t,
    Part (collect outs) (published (q_new q_outer)) /\
    q_report q_outer outs = Done (inl rpt) /\
    In t (dm_types (d_map _ _ (q_disp q_outer))) /\ ~ In t (rp_types rpt) /\
    (exists e, In e (rp_endpoints rpt) /\ visible t (er_req_ty e)).
Proof.
  exists (map Got (filter (fun d => match d with SDType t => negb (nty_eq t q_inner) | _ => true end) (published (q_new q_outer)))).
  eexists. exists q_inner. split; [|split; [vm_compute; reflexivity|]].
  - vm_compute. repeat (apply part_keep || apply part_nil || apply part_lose).
  - split; [vm_compute; auto|]. split.
    + vm_compute. intros I. repeat (destruct I as [I|I]; [discriminate I|]). destruct I.
    + eexists. split; [vm_compute; right; right; left; reflexivity|]. cbn [er_req_ty].
      eapply vis_below; [eapply cp_struct; left; reflexivity|constructor].
Qed.
Print Assumptions C44_lost_type_refuted.

(** Nor does it hold when two reports are requested at the same time: both calls
    listen to the same topic, so each sees the items of both streams, and rows are
    only counted.  Here two rows of each stream are lost; the report repeats two
    rows and lacks two others. *)
Theorem C44_two_calls_refuted :
  exists a b c rpt row,
    Part a (published (q_new q_outer)) /\ Part b (published (q_new q_outer)) /\ Mix a b c /\
    q_report q_outer (map Got c) = Done (inl rpt) /\
    In row (dm_endpoints (d_map _ _ (q_disp q_outer))) /\ ~ In row (map ep_row (rp_endpoints rpt)).
Proof.
  exists (map SDType (dm_types (d_map _ _ (q_disp q_outer))) ++
     [SDEndpoint [112]%N (q_hash q_u32 [112]%N) (q_hash q_u32 [112]%N); SDEndpoint [103]%N (q_hash q_unit [103]%N) (q_hash q_totals [103]%N);
      SDTopic [115]%N (q_hash q_data [115]%N) ToClient; SDTopic [108]%N (q_hash q_string [108]%N) ToClient])%N.
  exists [SDEndpoint [112]%N (q_hash q_u32 [112]%N) (q_hash q_u32 [112]%N); SDTopic [116]%N (q_hash q_u32 [116]%N) ToServer]%N.
  eexists. eexists. exists ([117]%N, q_hash q_outer [117]%N, q_hash q_unit [117]%N)%N.
  split; [vm_compute; repeat (apply part_keep || apply part_nil || apply part_lose)|].
  split; [vm_compute; repeat (apply part_keep || apply part_nil || apply part_lose)|].
  split; [vm_compute; repeat apply mix_l; repeat apply mix_r; apply mix_nil|].
  split; [vm_compute; reflexivity|]. split; [vm_compute; auto|].
  vm_compute. intros I. repeat (destruct I as [I|I]; [discriminate I|]). destruct I.
Qed.
Print Assumptions C44_two_calls_refuted.

(** Two simultaneous calls fail even if nothing at all is lost. *)
Theorem C43_two_calls_fail :
  forall hash builtin order, set_order order ->
  forall (E : Type) m tot outs,
    Mix (advertised m) (advertised m) (collect outs) ->
    endpoints_sent tot = N.of_nat (length (dm_endpoints m)) -> dm_endpoints m <> [] ->
    forall rpt, @get_schema_report hash builtin order E true (Some outs) (inl tot) <> Done (inl rpt).
Proof.
  intros hash builtin order Ho E m tot outs M T N rpt R.
  destruct (report_ok hash builtin order Ho _ _ _ R) as (_ & _ & Q1 & _ & _ & _ & S1 & _).
  assert (L : forall a b c, Mix a b c -> length (eps_of c) = length (eps_of a) + length (eps_of b)).
  { intros a b c X. induction X as [|x a b c X IH|x a b c X IH]; [reflexivity| |]; destruct x; unfold eps_of in *; cbn in *; lia. }
  apply L in M. rewrite eps_advertised, <- Q1, map_length in M. rewrite S1 in T. apply Nnat.Nat2N.inj in T.
  destruct (dm_endpoints m); [congruence|]. cbn in *. lia.
Qed.
Print Assumptions C43_two_calls_fail.

Example C43_two_calls_ex :
  dm_endpoints (d_map _ _ (q_disp q_outer)) <> [] /\
  q_report q_outer (map Got (published (q_new q_outer) ++ published (q_new q_outer))) = Done (inr SLostData).
Proof. split; [vm_compute; discriminate|vm_compute; reflexivity]. Qed.

(** ** C60 is false as stated: an endpoint taking a [usize] (a primitive that the
    host does not know, mod.rs:1014-1017) makes every report of the device fail,
    whatever the set order, although nothing is lost. *)
Theorem C60_usize_refuted :
  exists t,
    define_dispatch N N (q_eps t) q_tin q_tout [q_arm t] [q_tparm] = Done (q_disp t) /\
    all_accepted (q_new t) /\ In (q_tot t) (totals_sent (q_new t)) /\
    forall order, set_order order ->
      @get_schema_report q_hash q_builtin order unit true (Some (map Got (published (q_new t)) ++ [Elapsed]))
        (inl (q_tot t)) = Done (inr SInvalidReportData).
Proof.
  exists q_usize. destruct (q_device q_usize (or_intror eq_refl)) as (_ & _ & _ & D & _ & _ & _ & T & A & _).
  split; [exact D|]. split; [exact A|]. split; [exact T|]. intros order Ho.
  apply (C43_missing_type q_hash q_builtin order Ho _ _ _ [117]%N (q_hash q_usize [117]%N) (q_hash q_unit [117]%N) ToServer).
  - left. vm_compute. auto 12.
  - intros t [I|I] H; vm_compute in I; repeat (destruct I as [I|I]; [try discriminate I; try (injection I as <-); subst; discriminate H|]); destruct I.
Qed.
Print Assumptions C60_usize_refuted.
