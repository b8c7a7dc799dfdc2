(** Lemmas about the generated tables. *)
From Coq Require Import NArith List Bool Arith Lia.
From Verif Require Import KeyModel HeaderModel MinKeyModel SchemaModel SchemaSpec SchemaProof MacroModel.
Import ListNotations.

Lemma oseq_done {A B} (f : A -> outcome B) (g : A -> B) l :
  (forall x, f x = Done (g x)) -> oseq (map f l) = Done (map g l).
Proof. intros H. induction l; cbn; [reflexivity|]. rewrite H. cbn. rewrite IHl. reflexivity. Qed.

Lemma oseq_app {A} (a b : list (outcome A)) :
  oseq (a ++ b) = obind (oseq a) (fun x => obind (oseq b) (fun y => Done (x ++ y))).
Proof.
  induction a; cbn.
  - destruct (oseq b); reflexivity.
  - destruct a as [x|]; cbn; [|reflexivity]. rewrite IHa.
    destruct (oseq a0); cbn; [|reflexivity]. destruct (oseq b); reflexivity.
Qed.

Definition ep_lists (rows : list EpDef) : list (list NamedType) :=
  flat_map (fun e => [coll (ed_request e); coll (ed_response e)]) rows.

Lemma ep_tys_user_eq rows : ep_tys_user rows = Done (dadds [] (concat (ep_lists rows))).
Proof.
  unfold ep_tys_user.
  assert (E : oseq (flat_map (fun e => [unique_types (ed_request e); unique_types (ed_response e)]) rows)
              = Done (ep_lists rows)).
  { induction rows; [reflexivity|]. cbn [flat_map]. rewrite oseq_app, IHrows.
    cbn. rewrite !unique_types_coll. reflexivity. }
  rewrite E. apply merge_types_eq.
Qed.

Lemma tp_tys_user_eq rows :
  tp_tys_user rows = Done (dadds [] (concat (map (fun t => coll (td_message t)) rows))).
Proof.
  unfold tp_tys_user. rewrite (oseq_done _ (fun t => coll (td_message t))) by (intros; apply unique_types_coll).
  apply merge_types_eq.
Qed.

Lemma macros_never_fail for_path :
    (forall std rows, exists m, endpoints_macro for_path std rows = Done m) /\
    (forall dir std rows, exists m, topics_macro for_path dir std rows = Done m) /\
    (forall eps tin tout kind, exists m, device_map eps tin tout kind = Done m).
Proof.
  split; [|split].
  - intros [s|] rows; cbn; rewrite ep_tys_user_eq; cbn; [|eauto].
    rewrite merge_types_eq. cbn. rewrite concat_arrays_eq. cbn. eauto.
  - intros dir [s|] rows; cbn; rewrite tp_tys_user_eq; cbn; [|eauto].
    rewrite merge_types_eq. cbn. rewrite concat_arrays_eq. cbn. eauto.
  - intros. unfold device_map. rewrite merge_types_eq. cbn. eauto.
Qed.

Lemma ep_lists_in rows t : In t (concat (ep_lists rows)) <->
  (exists e, In e rows /\ (visible t (ed_request e) \/ visible t (ed_response e))) /\ ~ primitive t.
Proof.
  unfold ep_lists. induction rows; cbn [flat_map concat app].
  - cbn. firstorder.
  - rewrite !in_app_iff, IHrows, !coll_in. cbn [In]. split.
    + intros [[? ?]|[[? ?]|[(e & ? & ?) ?]]]; split; auto.
      * exists a. auto. * exists a. auto. * exists e. auto.
    + intros [(e & [<-|He] & [Hv|Hv]) Hp]; auto; right; right; split; auto; exists e; auto.
Qed.

Lemma endpoints_macro_std for_path s rows m : endpoints_macro for_path (Some s) rows = Done m ->
    em_endpoints m = em_endpoints s ++
      map (fun e => (ed_path e, for_path (ed_request e) (ed_path e),
                                for_path (ed_response e) (ed_path e))) rows /\
    NoDup (em_types m) /\
    (forall t, In t (em_types m) <->
       ~ primitive t /\ (In t (em_types s) \/
         exists e, In e rows /\ (visible t (ed_request e) \/ visible t (ed_response e)))).
Proof.
  cbn [endpoints_macro]. rewrite ep_tys_user_eq. cbn [obind]. rewrite merge_types_eq. cbn [obind].
  rewrite concat_arrays_eq. cbn [obind]. intros [= <-]. cbn [em_endpoints em_types]. split; [|split].
  - cbn [concat]. rewrite app_nil_r. reflexivity.
  - apply dadds_nodup. constructor.
  - intros t. rewrite dadds_in. cbn [concat]. rewrite app_nil_r, in_app_iff, dadds_in, ep_lists_in.
    cbn [In]. tauto.
Qed.

Lemma tp_lists_in rows t : In t (concat (map (fun t => coll (td_message t)) rows)) <->
  (exists d, In d rows /\ visible t (td_message d)) /\ ~ primitive t.
Proof.
  induction rows; cbn [map concat].
  - cbn. firstorder.
  - rewrite in_app_iff, IHrows, coll_in. cbn [In]. split.
    + intros [[? ?]|[(e & ? & ?) ?]]; split; auto; [exists a|exists e]; auto.
    + intros [(e & [<-|He] & Hv) Hp]; auto; right; split; auto; exists e; auto.
Qed.

Lemma topics_macro_std for_path dir s rows m : topics_macro for_path dir (Some s) rows = Done m ->
    tm_dir m = dir /\
    tm_topics m = tm_topics s ++ map (fun t => (td_path t, for_path (td_message t) (td_path t))) rows /\
    NoDup (tm_types m) /\
    (forall t, In t (tm_types m) <->
       ~ primitive t /\ (In t (tm_types s) \/ exists d, In d rows /\ visible t (td_message d))).
Proof.
  cbn [topics_macro]. rewrite tp_tys_user_eq. cbn [obind]. rewrite merge_types_eq. cbn [obind].
  rewrite concat_arrays_eq. cbn [obind]. intros [= <-]. cbn [tm_dir tm_topics tm_types].
  split; [reflexivity|]. split; [|split].
  - cbn [concat]. rewrite app_nil_r. reflexivity.
  - apply dadds_nodup. constructor.
  - intros t. rewrite dadds_in. cbn [concat]. rewrite app_nil_r, in_app_iff, dadds_in, tp_lists_in.
    cbn [In]. tauto.
Qed.
