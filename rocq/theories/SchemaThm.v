(** Theorems C25-C29: schema comparison, type collection, table generation. *)
From Coq Require Import NArith List Bool Lia.
From Verif Require Import KeyModel HeaderModel MinKeyModel SchemaModel SchemaSpec SchemaProof
  MacroModel MacroProof.
Import ListNotations.

(** ** C25 Schema comparison decides structural equality *)
Theorem C25_comparison_decides_equality :
  forall a b, nty_eq a b = true <-> a = b.
Proof. exact nty_eq_iff. Qed.
Print Assumptions C25_comparison_decides_equality.

(** Sample schemas. *)
Definition t_u8 : NamedType := NT [117; 56]%N (DPrim PU8).
Definition t_inner : NamedType := NT [73]%N (DStruct [([120]%N, t_u8)]).
Definition t_inner' : NamedType := NT [73]%N (DStruct [([121]%N, t_u8)]).
Definition t_wrap : NamedType := NT [87]%N (DStruct [([97]%N, t_inner); ([98]%N, t_inner)]).
Definition t_pair : NamedType := NT [80]%N (DTuple [t_wrap; t_u8; t_inner]).
Definition t_enum : NamedType := NT [69]%N (DEnum [([65]%N, VUnit); ([66]%N, VNewtype t_wrap)]).

Example C25_nontrivial :
  nty_eq t_pair t_pair = true /\ nty_eq t_inner t_inner' = false.
Proof. split; reflexivity. Qed.

(** ** C26 Collected types are sound and unique *)
Theorem C26_sound_and_unique :
  forall s, exists l, unique_types s = Done l /\ NoDup l /\
    (forall t, In t l -> occurs t s /\ ~ primitive t) /\
    (~ primitive s -> In s l).
Proof.
  intros s. exists (coll s). split; [apply unique_types_coll|]. split; [apply coll_nodup|]. split.
  - intros t H. apply coll_in in H. destruct H as [H1 H2]. split; auto. now apply visible_occurs.
  - intros H. apply coll_in. split; auto. constructor.
Qed.
Print Assumptions C26_sound_and_unique.

(** Exactly which types are collected: those that occur without going below the
    payload of a newtype variant. *)
Theorem C26_exact :
  forall s l, unique_types s = Done l ->
    forall t, In t l <-> visible t s /\ ~ primitive t.
Proof.
  intros s l H t. rewrite unique_types_coll in H. injection H as <-. apply coll_in.
Qed.
Print Assumptions C26_exact.

Example C26_nontrivial : unique_types t_pair = Done [t_inner; t_wrap; t_pair].
Proof. vm_compute. reflexivity. Qed.

(** ** C27 The tables never overflow *)
Theorem C27_collecting_never_fails :
  forall s, exists l, unique_types s = Done l.
Proof. intros s. exists (coll s). apply unique_types_coll. Qed.
Print Assumptions C27_collecting_never_fails.

(** Any larger table works too and gives the same result. *)
Theorem C27_upper_bound :
  forall s n, nty_upper s <= n -> exists arr l, chew_nty n s = Done (arr, length l)
    /\ unique_types s = Done l /\ length l <= nty_upper s.
Proof.
  intros s n H. destruct (proj1 (chew_ok n) s H) as [E L].
  exists (fst (enc n (coll s))), (coll s).
  split; [exact E|]. split; [apply unique_types_coll|exact L].
Qed.
Print Assumptions C27_upper_bound.

Theorem C27_merging_never_fails :
  forall ls, exists l, merge_types ls = Done l.
Proof. intros ls. rewrite merge_types_eq. eauto. Qed.
Print Assumptions C27_merging_never_fails.

(** The endpoint and topic macros and the device map compile for every table. *)
Theorem C27_macros_never_fail :
  forall for_path,
    (forall std rows, exists m, endpoints_macro for_path std rows = Done m) /\
    (forall dir std rows, exists m, topics_macro for_path dir std rows = Done m) /\
    (forall eps tin tout kind, exists m, device_map eps tin tout kind = Done m).
Proof. exact macros_never_fail. Qed.
Print Assumptions C27_macros_never_fail.

(** ** C28 Completeness of the collected types *)
(** Full claim: forall s l, unique_types s = Done l -> forall t, occurs t s ->
    ~ primitive t -> In t l.  False: see [C28_complete_refuted].  It holds for
    schemas in which the payloads of newtype variants have no composite
    types below them. *)
Theorem C28_complete_partial :
  forall s l, flat_variants s -> unique_types s = Done l ->
    forall t, occurs t s -> ~ primitive t -> In t l.
Proof.
  intros s l F H t O P. rewrite unique_types_coll in H. injection H as <-.
  apply coll_in. split; auto. now apply flat_complete.
Qed.
Print Assumptions C28_complete_partial.

(** enum E { A, B(Wrap) }, struct Wrap { a: Inner, b: Inner }: Inner is missing. *)
Theorem C28_complete_refuted :
  exists s t, occurs t s /\ ~ primitive t /\
    forall l, unique_types s = Done l -> ~ In t l.
Proof.
  exists t_enum, t_inner. split; [|split].
  - eapply occ_below; [right; eapply cv_enum; right; left; reflexivity|].
    eapply occ_below; [left; eapply cp_struct; left; reflexivity|]. constructor.
  - intros [p H]. discriminate H.
  - intros l H.
    assert (E : unique_types t_enum = Done [t_wrap; t_enum]) by (vm_compute; reflexivity).
    rewrite E in H. injection H as <-. cbn. intros [H|[H|[]]]; discriminate H.
Qed.
Print Assumptions C28_complete_refuted.

Example C28_nontrivial :
  flat_variants t_pair /\ occurs t_inner t_pair /\ ~ primitive t_inner.
Proof.
  split; [|split].
  - intros e He c Hc. exfalso.
    assert (G : forall e s, occurs e s -> (s = t_pair \/ s = t_wrap \/ s = t_inner \/ s = t_u8) ->
      forall vs, nt_ty e <> DEnum vs).
    { clear. intros e s H. induction H as [|name d c Hc Ho IH]; intros Hs vs.
      - destruct Hs as [->|[->|[->| ->]]]; discriminate.
      - apply IH. destruct Hs as [Hs|[Hs|[Hs|Hs]]]; injection Hs as -> ->;
          destruct Hc as [Hc|Hc]; inversion Hc; subst;
          repeat match goal with
          | H : In _ (_ :: _) |- _ => destruct H as [H|H]
          | H : In _ [] |- _ => destruct H
          | H : (_, _) = (_, _) |- _ => injection H as <- <-
          end; subst; tauto. }
    inversion Hc as [n vs Hin Hd]. eapply (G e t_pair He); [tauto|symmetry; exact Hd].
  - eapply occ_below; [left; eapply cp_tuple; right; right; left; reflexivity|constructor].
  - intros [p H]. discriminate H.
Qed.

(** ** C29 Merging and concatenating *)
Theorem C29_merge :
  forall ls, exists r, merge_types ls = Done r /\ first_occ [] (concat ls) r.
Proof. exact merge_types_first. Qed.
Print Assumptions C29_merge.

Theorem C29_merge_members :
  forall ls r, merge_types ls = Done r ->
    NoDup r /\ (forall t, In t r <-> (exists l, In l ls /\ In t l) /\ ~ primitive t).
Proof.
  intros ls r H. rewrite merge_types_eq in H. injection H as <-. split.
  - apply dadds_nodup. constructor.
  - intros t. rewrite dadds_in, in_concat. cbn. firstorder.
Qed.
Print Assumptions C29_merge_members.

Theorem C29_concat :
  forall T (init : T) ls, concat_arrays init ls = Done (concat ls).
Proof. exact @concat_arrays_eq. Qed.
Print Assumptions C29_concat.

(** The generated endpoint table: standard rows first, then the user's rows in
    the order written, each with the hashes of its own types and path; the
    types are those collected from all of the rows and the standard ones, once. *)
Theorem C29_endpoint_table :
  forall for_path s rows m, endpoints_macro for_path (Some s) rows = Done m ->
    em_endpoints m = em_endpoints s ++
      map (fun e => (ed_path e, for_path (ed_request e) (ed_path e),
                                for_path (ed_response e) (ed_path e))) rows /\
    NoDup (em_types m) /\
    (forall t, In t (em_types m) <->
       ~ primitive t /\ (In t (em_types s) \/
         exists e, In e rows /\ (visible t (ed_request e) \/ visible t (ed_response e)))).
Proof. exact endpoints_macro_std. Qed.
Print Assumptions C29_endpoint_table.

Theorem C29_topic_table :
  forall for_path dir s rows m, topics_macro for_path dir (Some s) rows = Done m ->
    tm_dir m = dir /\
    tm_topics m = tm_topics s ++ map (fun t => (td_path t, for_path (td_message t) (td_path t))) rows /\
    NoDup (tm_types m) /\
    (forall t, In t (tm_types m) <->
       ~ primitive t /\ (In t (tm_types s) \/ exists d, In d rows /\ visible t (td_message d))).
Proof. exact topics_macro_std. Qed.
Print Assumptions C29_topic_table.

Definition hash0 (t : NamedType) (p : str) : Key8 := K8 (N.of_nat (length (nt_name t))) (N.of_nat (length p)) 0 0 0 0 0 7.
Example C29_nontrivial :
  exists s m, endpoints_macro hash0 None [MkEpDef t_u8 t_inner [112]%N] = Done s /\
    endpoints_macro hash0 (Some s) [MkEpDef t_pair t_inner' [113; 114]%N] = Done m /\
    length (em_endpoints m) = 2 /\ em_types m = [t_inner; t_wrap; t_pair; t_inner'].
Proof. eexists. eexists. repeat split; vm_compute; reflexivity. Qed.

(** The device map advertised by a dispatcher: the rows of the three tables as they
    are and the types of all three, each once. *)
Theorem C29_device_map :
  forall eps tin tout kind m, device_map eps tin tout kind = Done m ->
    dm_endpoints m = em_endpoints eps /\ dm_topics_in m = tm_topics tin /\ dm_topics_out m = tm_topics tout /\
    dm_min_key_len m = kind /\
    NoDup (dm_types m) /\
    (forall t, In t (dm_types m) <->
       ~ primitive t /\ (In t (em_types eps) \/ In t (tm_types tin) \/ In t (tm_types tout))).
Proof.
  intros eps tin tout kind m H. unfold device_map in H.
  destruct (merge_types _) as [tys|] eqn:E; cbn [obind] in H; [|discriminate]. injection H as <-. cbn.
  destruct (C29_merge_members _ _ E) as [ND M]. repeat split; auto.
  - apply M in H. tauto.
  - apply M in H. destruct H as [(l & [<-|[<-|[<-|[]]]] & Hl) _]; auto.
  - intros [P I]. apply M. split; auto. cbn. destruct I as [I|[I|I]]; eauto 8.
Qed.
Print Assumptions C29_device_map.

(** From the user's tables to the device map: every composite type that occurs in a
    row of any table (not below the payload of a newtype variant, see C28) is
    advertised. *)
Theorem C29_device_map_complete :
  forall for_path es is os erows irows orows eps tin tout kind m,
    endpoints_macro for_path (Some es) erows = Done eps ->
    topics_macro for_path ToServer (Some is) irows = Done tin ->
    topics_macro for_path ToClient (Some os) orows = Done tout ->
    device_map eps tin tout kind = Done m ->
    forall t, ~ primitive t ->
      (exists e, In e erows /\ (visible t (ed_request e) \/ visible t (ed_response e))) \/
      (exists d, (In d irows \/ In d orows) /\ visible t (td_message d)) ->
      In t (dm_types m).
Proof.
  intros for_path es is os erows irows orows eps tin tout kind m He Hi Ho Hm t Hp H.
  destruct (C29_device_map _ _ _ _ _ Hm) as (_ & _ & _ & _ & _ & M). apply M. split; auto.
  destruct H as [H|(d & [H|H] & Hv)].
  - left. apply (C29_endpoint_table _ _ _ _ He). auto.
  - right. left. apply (C29_topic_table _ _ _ _ _ Hi). eauto.
  - right. right. apply (C29_topic_table _ _ _ _ _ Ho). eauto.
Qed.
Print Assumptions C29_device_map_complete.

Example C29_device_map_ex :
  exists es eps tp tin tout m,
    endpoints_macro hash0 None [] = Done es /\ topics_macro hash0 ToServer None [] = Done tp /\
    endpoints_macro hash0 (Some es) [MkEpDef t_u8 t_inner' [112]%N] = Done eps /\
    topics_macro hash0 ToServer (Some tp) [MkTpDef t_wrap [113]%N] = Done tin /\
    topics_macro hash0 ToClient (Some tp) [MkTpDef t_pair [113]%N] = Done tout /\
    device_map eps tin tout KK4 = Done m /\ dm_types m = [t_inner'; t_inner; t_wrap; t_pair].
Proof. do 6 eexists. repeat split; vm_compute; reflexivity. Qed.
