(** Lemmas about the schema report. *)
From Coq Require Import NArith List Bool Lia Permutation.
From Verif Require Import KeyModel HeaderModel KeyProof SchemaModel SchemaProof MacroModel MinKeyModel
  DispatchModel DispatchSpec ReportModel ReportSpec.
Import ListNotations.

(** *** Lists with elements left out *)
Lemma part_in {A} (a b : list A) : Part a b -> forall x, In x a -> In x b.
Proof. induction 1; cbn; intros y; firstorder. Qed.
Lemma part_len {A} (a b : list A) : Part a b -> length a <= length b.
Proof. induction 1; cbn; lia. Qed.
Lemma part_full {A} (a b : list A) : Part a b -> length a = length b -> a = b.
Proof.
  induction 1 as [|x a b P IH|x a b P IH]; cbn; intros E; auto.
  - apply part_len in P. lia.
  - f_equal. apply IH. lia.
Qed.
Lemma part_refl {A} (a : list A) : Part a a.
Proof. induction a; [apply part_nil|apply part_keep; auto]. Qed.
Lemma part_trans {A} (b c : list A) : Part b c -> forall a, Part a b -> Part a c.
Proof.
  induction 1 as [|x b c P IH|x b c P IH]; intros a Q; auto.
  - apply part_lose. auto.
  - inversion Q; subst; solve [apply part_lose; auto|apply part_keep; auto].
Qed.
Lemma part_flat_map {A B} (f : A -> list B) a b : Part a b -> Part (flat_map f a) (flat_map f b).
Proof.
  induction 1 as [|x a b P IH|x a b P IH]; cbn; auto; [apply part_nil| |].
  - induction (f x); cbn; auto. apply part_lose. auto.
  - induction (f x); cbn; auto. apply part_keep. auto.
Qed.
Lemma part_app_keep {A} (p a b : list A) : Part a b -> Part (p ++ a) (p ++ b).
Proof. induction p; cbn; auto. intros H. apply part_keep. auto. Qed.

(** *** Items by kind *)
Definition eps_of (l : list SchemaData) : list EpRow :=
  flat_map (fun d => match d with SDEndpoint p a b => [(p, a, b)] | _ => [] end) l.
Definition tin_of (l : list SchemaData) : list TpRow :=
  flat_map (fun d => match d with SDTopic p k ToServer => [(p, k)] | _ => [] end) l.
Definition tout_of (l : list SchemaData) : list TpRow :=
  flat_map (fun d => match d with SDTopic p k ToClient => [(p, k)] | _ => [] end) l.
Definition types_of (l : list SchemaData) : list NamedType :=
  flat_map (fun d => match d with SDType t => [t] | _ => [] end) l.
Definition rows_of (l : list SchemaData) : list SchemaData :=
  filter (fun d => match d with SDType _ => false | _ => true end) l.

Lemma flat_map_map {A B C} (f : B -> list C) (g : A -> B) l : flat_map f (map g l) = flat_map (fun x => f (g x)) l.
Proof. induction l; cbn; congruence. Qed.
Lemma flat_map_single {A B} (g : A -> B) l : flat_map (fun x => [g x]) l = map g l.
Proof. induction l; cbn; congruence. Qed.
Lemma flat_map_none {A B} (l : list A) : flat_map (fun _ => @nil B) l = [].
Proof. induction l; auto. Qed.
Lemma map_same {A} (f : A -> A) l : (forall x, f x = x) -> map f l = l.
Proof. intros E. rewrite (map_ext f (fun x => x)) by auto. apply map_id. Qed.

Lemma types_advertised m : types_of (advertised m) = dm_types m.
Proof.
  unfold types_of, advertised. rewrite !flat_map_app, !flat_map_map, !flat_map_none, flat_map_single, map_id, !app_nil_r. reflexivity.
Qed.
Lemma eps_advertised m : eps_of (advertised m) = dm_endpoints m.
Proof.
  unfold eps_of, advertised. rewrite !flat_map_app, !flat_map_map, !flat_map_none, flat_map_single, !app_nil_r. cbn [app].
  apply map_same. intros [[p a] b]. reflexivity.
Qed.
Lemma tout_advertised m : tout_of (advertised m) = dm_topics_out m.
Proof.
  unfold tout_of, advertised. rewrite !flat_map_app, !flat_map_map, !flat_map_none, flat_map_single, !app_nil_r. cbn [app].
  apply map_same. intros [p a]. reflexivity.
Qed.
Lemma tin_advertised m : tin_of (advertised m) = dm_topics_in m.
Proof.
  unfold tin_of, advertised. rewrite !flat_map_app, !flat_map_map, !flat_map_none, flat_map_single. cbn [app].
  apply map_same. intros [p a]. reflexivity.
Qed.

Lemma rows_of_same l : eps_of (rows_of l) = eps_of l /\ tin_of (rows_of l) = tin_of l /\
  tout_of (rows_of l) = tout_of l /\ types_of (rows_of l) = [].
Proof.
  unfold eps_of, tin_of, tout_of, types_of, rows_of.
  induction l as [|[t|p a b|p k [|]] l (E1 & E2 & E3 & E4)]; cbn [filter flat_map app]; rewrite ?E1, ?E2, ?E3, ?E4; auto.
Qed.

(** *** Types *)
Section Proof.
  Variable hash : NamedType -> str -> Key8.
  Variable builtin : list NamedType.
  Variable order : list NamedType -> list NamedType.
  Hypothesis Hord : forall l, Permutation (order l) l.

  Lemma add_type_in r t x : In x (rp_types (add_type r t)) <-> In x (rp_types r) \/ x = t.
  Proof.
    unfold add_type. destruct (existsb (nty_eq t) (rp_types r)) eqn:E; cbn [rp_types].
    - apply existsb_nty in E. split; [auto|intros [H| ->]; auto].
    - rewrite in_app_iff. cbn. firstorder.
  Qed.
  Lemma add_type_nodup r t : NoDup (rp_types r) -> NoDup (rp_types (add_type r t)).
  Proof.
    unfold add_type. destruct (existsb (nty_eq t) (rp_types r)) eqn:E; cbn [rp_types]; auto.
    intros N. apply nodup_snoc; auto. intros I. apply existsb_nty in I. congruence.
  Qed.
  Lemma add_type_rest r t : rp_endpoints (add_type r t) = rp_endpoints r /\
    rp_topics_in (add_type r t) = rp_topics_in r /\ rp_topics_out (add_type r t) = rp_topics_out r.
  Proof. unfold add_type. destruct (existsb _ _); auto. Qed.

  Definition no_rows (r : SchemaReport) : Prop :=
    rp_endpoints r = [] /\ rp_topics_in r = [] /\ rp_topics_out r = [].

  Lemma default_spec : no_rows (default_report builtin) /\ NoDup (rp_types (default_report builtin)) /\
    forall t, In t (rp_types (default_report builtin)) <-> In t builtin.
  Proof.
    unfold default_report.
    assert (G : forall l r, no_rows r -> NoDup (rp_types r) ->
      no_rows (fold_left add_type l r) /\ NoDup (rp_types (fold_left add_type l r)) /\
      forall t, In t (rp_types (fold_left add_type l r)) <-> In t (rp_types r) \/ In t l).
    { induction l as [|x l IH]; intros r R N.
      - cbn. repeat split; auto; try apply R. intros [H|[]]. auto.
      - cbn [fold_left]. destruct (IH (add_type r x)) as (A & B & C).
        + destruct (add_type_rest r x) as (E1 & E2 & E3), R as (R1 & R2 & R3). unfold no_rows. rewrite E1, E2, E3. auto.
        + apply add_type_nodup. auto.
        + split; [auto|]. split; [auto|]. intros t. rewrite C, add_type_in. cbn. split; [intros [[H|H]|H]|intros [H|[H|H]]]; auto. }
    destruct (G builtin (MkReport [] [] [] [])) as (A & B & C); [repeat split|constructor|].
    split; [auto|]. split; [auto|]. intros t. rewrite C. cbn. tauto.
  Qed.

  Lemma first_pass_spec data : forall r rest, exists r',
    first_pass data r rest = (r', rest ++ rows_of data) /\
    (rp_endpoints r' = rp_endpoints r /\ rp_topics_in r' = rp_topics_in r /\ rp_topics_out r' = rp_topics_out r) /\
    (NoDup (rp_types r) -> NoDup (rp_types r')) /\
    forall t, In t (rp_types r') <-> In t (rp_types r) \/ In t (types_of data).
  Proof.
    induction data as [|d data IH]; intros r rest.
    - exists r. cbn. rewrite app_nil_r. repeat split; auto. intros [H|[]]; auto.
    - destruct d as [t|p a b|p k dir].
      + cbn [first_pass]. destruct (IH (add_type r t) rest) as (r' & E & R & N & T). exists r'.
        destruct (add_type_rest r t) as (E1 & E2 & E3). rewrite E1, E2, E3 in R.
        split; [exact E|]. split; [exact R|]. split; [intros H; apply N, add_type_nodup, H|].
        intros x. rewrite T, add_type_in. cbn. split; [intros [[H|H]|H]|intros [H|[H|H]]]; auto.
      + cbn [first_pass]. destruct (IH r (rest ++ [SDEndpoint p a b])) as (r' & E & R). exists r'.
        rewrite <- app_assoc in E. cbn [app] in E. split; [exact E|]. exact R.
      + cbn [first_pass]. destruct (IH r (rest ++ [SDTopic p k dir])) as (r' & E & R). exists r'.
        rewrite <- app_assoc in E. cbn [app] in E. split; [exact E|]. exact R.
  Qed.

  Lemma find_some r p k t : find_type hash order r p k = Some t -> stands_for hash (rp_types r) p k t.
  Proof.
    unfold find_type. intros H. apply find_some in H. destruct H as [I E]. apply key8_eqb_iff in E.
    split; auto. eapply Permutation_in; [apply Hord|exact I].
  Qed.
  Lemma find_exists r p k : (exists t, stands_for hash (rp_types r) p k t) ->
    exists t, find_type hash order r p k = Some t.
  Proof.
    intros (t & I & E). unfold find_type.
    destruct (find _ (order (rp_types r))) as [x|] eqn:F; eauto.
    exfalso. eapply find_none in F; [|eapply Permutation_in; [symmetry; apply Hord|exact I]].
    cbn in F. assert (X : key8_eqb (hash t p) k = true) by (apply key8_eqb_iff; auto). congruence.
  Qed.
  Lemma find_not r p k : ~ (exists t, stands_for hash (rp_types r) p k t) -> find_type hash order r p k = None.
  Proof.
    intros N. destruct (find_type hash order r p k) as [t|] eqn:E; auto. destruct N. exists t. apply find_some, E.
  Qed.

  (** A row that went in. *)
  Lemma second_pass_ok data : forall r r', second_pass hash order data r = P2Ok r' ->
    rp_types r' = rp_types r /\
    map ep_row (rp_endpoints r') = map ep_row (rp_endpoints r) ++ eps_of data /\
    map tp_row (rp_topics_in r') = map tp_row (rp_topics_in r) ++ tin_of data /\
    map tp_row (rp_topics_out r') = map tp_row (rp_topics_out r) ++ tout_of data /\
    types_of data = [] /\
    (report_sound hash r -> report_sound hash r').
  Proof.
    induction data as [|d data IH]; intros r r' H.
    - cbn in H. injection H as <-. cbn. rewrite !app_nil_r. auto 8.
    - destruct d as [t|p a b|p k [|]]; cbn [second_pass] in H; [discriminate| | |].
      + unfold add_endpoint in H. destruct (find_type hash order r p a) as [ta|] eqn:Fa; [|discriminate].
        destruct (find_type hash order r p b) as [tb|] eqn:Fb; [|discriminate].
        destruct (IH _ _ H) as (E1 & E2 & E3 & E4 & E5 & E6). cbn [rp_types rp_endpoints rp_topics_in rp_topics_out] in *.
        rewrite E1, E2, E3, E4, map_app, <- !app_assoc. do 5 (split; [auto; fail|]).
        intros [S1 S2]. apply E6. split; cbn [rp_types rp_endpoints rp_topics_in rp_topics_out]; auto.
        intros e Ie. apply in_app_or in Ie. destruct Ie as [Ie|[<-|[]]]; [exact (S1 _ Ie)|].
        cbn. split; [exact (find_some _ _ _ _ Fa)|exact (find_some _ _ _ _ Fb)].
      + unfold add_topic_in in H. destruct (find_type hash order r p k) as [ta|] eqn:Fa; [|discriminate].
        destruct (IH _ _ H) as (E1 & E2 & E3 & E4 & E5 & E6). cbn [rp_types rp_endpoints rp_topics_in rp_topics_out] in *.
        rewrite E1, E2, E3, E4, map_app, <- !app_assoc. do 5 (split; [auto; fail|]).
        intros [S1 S2]. apply E6. split; cbn [rp_types rp_endpoints rp_topics_in rp_topics_out]; auto.
        intros e Ie. rewrite <- app_assoc in Ie. apply in_app_or in Ie. destruct Ie as [Ie|[<-|Ie]].
        * apply S2, in_or_app. auto.
        * exact (find_some _ _ _ _ Fa).
        * apply S2, in_or_app. auto.
      + unfold add_topic_out in H. destruct (find_type hash order r p k) as [ta|] eqn:Fa; [|discriminate].
        destruct (IH _ _ H) as (E1 & E2 & E3 & E4 & E5 & E6). cbn [rp_types rp_endpoints rp_topics_in rp_topics_out] in *.
        rewrite E1, E2, E3, E4, map_app, <- !app_assoc. do 5 (split; [auto; fail|]).
        intros [S1 S2]. apply E6. split; cbn [rp_types rp_endpoints rp_topics_in rp_topics_out]; auto.
        intros e Ie. rewrite app_assoc in Ie. apply in_app_or in Ie. destruct Ie as [Ie|[<-|[]]].
        * apply S2, Ie.
        * exact (find_some _ _ _ _ Fa).
  Qed.

  Definition item_resolvable (known : list NamedType) (d : SchemaData) : Prop :=
    match d with
    | SDType _ => True
    | SDEndpoint p a b => ep_resolvable hash known (p, a, b)
    | SDTopic p k _ => tp_resolvable hash known (p, k)
    end.

  Lemma second_pass_total data : forall r, types_of data = [] ->
    (Forall (item_resolvable (rp_types r)) data -> exists r', second_pass hash order data r = P2Ok r') /\
    (forall d, In d data -> ~ item_resolvable (rp_types r) d -> second_pass hash order data r = P2NotFound).
  Proof.
    induction data as [|d data IH]; intros r T.
    - split; [cbn; eauto|intros ? []].
    - destruct d as [t|p a b|p k dir]; [discriminate| |].
      + cbn [second_pass]. unfold add_endpoint. split.
        * intros F. inversion F as [|? ? Fab F']; subst. cbn in Fab. destruct Fab as [Fa Fb].
          destruct (find_exists _ _ _ Fa) as [ta ->]. destruct (find_exists _ _ _ Fb) as [tb ->].
          apply IH; auto.
        * intros d I N. destruct (find_type hash order r p a) as [ta|] eqn:Fa; auto.
          destruct (find_type hash order r p b) as [tb|] eqn:Fb; auto.
          destruct I as [<-|I].
          -- destruct N. split; eexists; eapply find_some; eassumption.
          -- eapply IH; eauto.
      + assert (G : exists f : NamedType -> SchemaReport, (forall ty, rp_types (f ty) = rp_types r) /\
          second_pass hash order (SDTopic p k dir :: data) r =
          match find_type hash order r p k with Some ty => second_pass hash order data (f ty) | None => P2NotFound end).
        { destruct dir; cbn [second_pass]; unfold add_topic_in, add_topic_out.
          - exists (fun ty => MkReport (rp_types r) (rp_topics_in r ++ [MkTpRep p k ty]) (rp_topics_out r) (rp_endpoints r)).
            split; auto. destruct (find_type _ _ _ _ _); auto.
          - exists (fun ty => MkReport (rp_types r) (rp_topics_in r) (rp_topics_out r ++ [MkTpRep p k ty]) (rp_endpoints r)).
            split; auto. destruct (find_type _ _ _ _ _); auto. }
        destruct G as (f & Ef & ->). split.
        * intros F. inversion F as [|? ? Fa F']; subst.
          destruct (find_exists r p k Fa) as [ta ->]. apply IH; auto. rewrite Ef. auto.
        * intros d I N. destruct (find_type hash order r p k) as [ta|] eqn:Fa; auto.
          destruct I as [<-|I].
          -- destruct N. exists ta. eapply find_some; eassumption.
          -- eapply IH; eauto. rewrite Ef. auto.
  Qed.

  (** *** The whole call *)
  Definition known (data : list SchemaData) : list NamedType := builtin ++ types_of data.

  Lemma resolvable_ext k1 k2 d : (forall t, In t k1 <-> In t k2) -> item_resolvable k1 d <-> item_resolvable k2 d.
  Proof.
    intros E. destruct d as [t|p a b|p k dir]; cbn; [tauto| |]; unfold ep_resolvable, tp_resolvable, stands_for; firstorder.
  Qed.

  Lemma report_ok {E} outs tot (rpt : SchemaReport) :
    @get_schema_report hash builtin order E true (Some outs) (inl tot) = Done (inl rpt) ->
    NoDup (rp_types rpt) /\ (forall t, In t (rp_types rpt) <-> In t (known (collect outs))) /\
    map ep_row (rp_endpoints rpt) = eps_of (collect outs) /\
    map tp_row (rp_topics_in rpt) = tin_of (collect outs) /\
    map tp_row (rp_topics_out rpt) = tout_of (collect outs) /\
    report_sound hash rpt /\
    endpoints_sent tot = N.of_nat (length (rp_endpoints rpt)) /\
    topics_in_sent tot = N.of_nat (length (rp_topics_in rpt)) /\
    topics_out_sent tot = N.of_nat (length (rp_topics_out rpt)) /\ errors tot = 0%N.
  Proof.
    unfold get_schema_report. cbn [negb].
    destruct (first_pass_spec (collect outs) (default_report builtin) []) as (r & -> & R & ND & T). cbn [app].
    destruct default_spec as ((D1 & D2 & D3) & DN & DT).
    destruct (second_pass hash order (rows_of (collect outs)) r) as [r'| |] eqn:S; [|discriminate|discriminate].
    destruct (data_matches tot r') eqn:M; [|discriminate]. intros [= <-].
    destruct (second_pass_ok _ _ _ S) as (E1 & E2 & E3 & E4 & E5 & E6).
    destruct (rows_of_same (collect outs)) as (Q1 & Q2 & Q3 & _).
    destruct R as (R1 & R2 & R3). rewrite R1, D1, Q1 in E2. rewrite R2, D2, Q2 in E3. rewrite R3, D3, Q3 in E4.
    rewrite E1. split; [auto|]. split.
    { intros t. rewrite T, DT. unfold known. rewrite in_app_iff. tauto. }
    repeat (split; [assumption|]). split.
    { apply E6. split.
      - rewrite R1, D1. intros e [].
      - rewrite R2, R3, D2, D3. intros e []. }
    unfold data_matches, len_is in M. rewrite !andb_true_iff, !N.eqb_eq in M. tauto.
  Qed.

  Lemma report_run {E} outs tot :
    (Forall (item_resolvable (known (collect outs))) (collect outs) ->
     exists rpt, @get_schema_report hash builtin order E true (Some outs) (inl tot) =
       Done (if data_matches tot rpt then inl rpt else inr SLostData) /\
       map ep_row (rp_endpoints rpt) = eps_of (collect outs) /\
       map tp_row (rp_topics_in rpt) = tin_of (collect outs) /\
       map tp_row (rp_topics_out rpt) = tout_of (collect outs)) /\
    (forall d, In d (collect outs) -> ~ item_resolvable (known (collect outs)) d ->
       @get_schema_report hash builtin order E true (Some outs) (inl tot) = Done (inr SInvalidReportData)).
  Proof.
    unfold get_schema_report. cbn [negb].
    destruct (first_pass_spec (collect outs) (default_report builtin) []) as (r & -> & R & ND & T). cbn [app].
    destruct default_spec as ((D1 & D2 & D3) & DN & DT).
    destruct (rows_of_same (collect outs)) as (Q1 & Q2 & Q3 & Q4).
    assert (K : forall t, In t (rp_types r) <-> In t (known (collect outs))).
    { intros t. rewrite T, DT. unfold known. rewrite in_app_iff. tauto. }
    destruct (second_pass_total (rows_of (collect outs)) r Q4) as [P1 P2]. split.
    - intros F. destruct P1 as [r' S].
      + apply Forall_forall. intros d I. apply filter_In in I. destruct I as [I _].
        apply (resolvable_ext _ _ d K). revert d I. apply Forall_forall. exact F.
      + rewrite S. exists r'. destruct (second_pass_ok _ _ _ S) as (E1 & E2 & E3 & E4 & E5 & E6).
        destruct R as (R1 & R2 & R3). rewrite R1, D1, Q1 in E2. rewrite R2, D2, Q2 in E3. rewrite R3, D3, Q3 in E4.
        split; [destruct (data_matches tot r'); auto|]. auto.
    - intros d I N. rewrite (P2 d).
      + reflexivity.
      + apply filter_In. split; auto. destruct d; auto. destruct N. exact Logic.I.
      + rewrite (resolvable_ext _ _ d K). exact N.
  Qed.

  Lemma advertised_resolvable kn m :
    Forall (item_resolvable kn) (advertised m) <->
    Forall (ep_resolvable hash kn) (dm_endpoints m) /\
    Forall (tp_resolvable hash kn) (dm_topics_in m) /\ Forall (tp_resolvable hash kn) (dm_topics_out m).
  Proof.
    unfold advertised. rewrite !Forall_app, !Forall_map. cbn [item_resolvable].
    assert (X : Forall (fun x : EpRow => ep_resolvable hash kn (fst (fst x), ep_req x, ep_resp x)) (dm_endpoints m) <->
      Forall (ep_resolvable hash kn) (dm_endpoints m)).
    { rewrite !Forall_forall. split; intros H [[p a] b] I; exact (H _ I). }
    assert (Y : forall l, Forall (fun x : TpRow => tp_resolvable hash kn (fst x, snd x)) l <-> Forall (tp_resolvable hash kn) l).
    { intros l. rewrite !Forall_forall. split; intros H [p a] I; exact (H _ I). }
    rewrite X, !Y. split; [intros (_ & A & B & C); auto|intros (A & B & C)]. repeat split; auto.
    apply Forall_forall. intros ? _. exact I.
  Qed.
End Proof.

Lemma collect_got l stop : (forall d tl, stop <> Got d :: tl) -> collect (map Got l ++ stop) = l.
Proof.
  intros N. induction l as [|x l IH]; cbn; [|congruence]. destruct stop as [|[d| | |] tl]; auto. destruct (N d tl eq_refl).
Qed.
