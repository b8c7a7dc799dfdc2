(** Lemmas for HandleThm.v: what becomes of a call, by what its caller is told. *)
From Coq Require Import NArith List Bool Arith Lia.
From Verif Require Import KeyModel HeaderModel KeySpec HeaderSpec SubModel SubSpec SubProof ClientModel ClientSpec ClientProof ClientHist ClientMore ClientOut ServedProof.
Import ListNotations.

Section Calls.
  Variable cfg : Config.
  Definition ToldInv (cl : list Label) (es : list (list Ev)) (c : Client) : Prop :=
    (forall r q, nth_error (c_reqs c) r = Some q -> over q ->
       In (inl r) (accepted cl es) \/ In (LCancel r) cl \/ In (r, BadResponse) (results es) \/ In (r, Closed) (results es)) /\
    (forall i, nth_error (c_pubs c) i = Some None -> In (inr i) (accepted cl es) \/ In (LPubCancel i) cl \/ In (EvPublished i false) (concat es)).

  Lemma step_told l c c' e r q' : step cfg l c = Some (c', e) -> nth_error (c_reqs c') r = Some q' -> over q' ->
    (exists q, nth_error (c_reqs c) r = Some q /\ over q) \/ l = LCancel r \/ result_of e = Some (r, BadResponse) \/ (l = LSend r /\ e = []) \/ result_of e = Some (r, Closed).
  Proof.
    intros Hs Hq Ho. destruct (step_over _ _ _ _ _ _ _ Hs Hq Ho) as [X|[X|[X|[X|X]]]]; auto.
    pose proof (step_cstep _ _ _ _ _ Hs) as HC.
    remember (c_reqs c) as reqs eqn:E1. remember (c_reqs c') as reqs' eqn:E2. remember (c_waiters c) as ws eqn:E3. remember (c_waiters c') as ws' eqn:E4.
    remember (result_of e) as o eqn:E5. clear E4.
    destruct HC.
    - left. eauto.
    - apply nth_app_last in Hq as [Hq|[_ ->]]; [left; eauto|]. destruct Ho as [(kk & Y)|Y]; discriminate.
    - apply set_nth_inv in Hq as [[-> ->]|[_ Hq]]; [|left; eauto]. destruct Ho as [(k' & Y)|Y]; discriminate.
    - apply set_nth_inv in Hq as [[-> ->]|[_ Hq]]; [|left; eauto]. destruct e0; destruct H0 as (_ & _ & ->); destruct Ho as [(k' & Y)|Y]; discriminate.
    - apply set_nth_inv in Hq as [[-> ->]|[_ Hq]]; [|left; eauto].
      cbn [step] in Hs. rewrite <- E1, H, H0, X in Hs. cbn [negb] in Hs. injection Hs as _ <-. cbn in E5. discriminate.
    - apply set_nth_inv in Hq as [[<- ->]|[_ Hq]]; [|left; eauto]. destruct o as [[r' res]|]; [|subst l; auto].
      destruct H1 as [-> H1]. destruct res as [f|f| |]; auto 6; destruct H1 as [-> H1]; cbn [step] in Hs; rewrite <- E1, H in Hs.
      + left. exists q. split; auto. left. destruct (rq_pc q); try discriminate. eauto.
      + left. exists q. split; auto. left. destruct (rq_pc q); try discriminate. eauto.
    - apply set_nth_inv in Hq as [[-> ->]|[_ Hq]]; [|left; eauto]. left. exists q. split; auto. unfold over, fill in *. destruct (w_err w); exact Ho.
  Qed.
  Lemma step_pub_told l c c' e i : step cfg l c = Some (c', e) -> nth_error (c_pubs c') i = Some None ->
    nth_error (c_pubs c) i = Some None \/ l = LPubCancel i \/ (l = LPubSend i /\ e = [EvPublished i true]) \/ In (EvPublished i false) e.
  Proof.
    intros Hs Hn. destruct l; cbn [step] in Hs.
    all: try (repeat match type of Hs with context [match ?x with _ => _ end] => destruct x eqn:?; try discriminate end;
         injection Hs as <- <-; left; unfold adopt in *; repeat match type of Hn with context [if ?b then _ else _] => destruct b end; exact Hn).
    - injection Hs as <- <-. cbn in Hn. apply nth_app_last in Hn as [Hn|[_ X]]; [auto|discriminate].
    - destruct (nth_error (c_pubs c) i0) as [[f|]|] eqn:Hi; try discriminate. destruct (c_out_alive c); cbn [negb] in Hs.
      + destruct (_ <? _); [|discriminate]. injection Hs as <- <-. cbn in Hn. apply set_nth_inv in Hn as [[-> _]|[_ Hn]]; auto.
      + injection Hs as <- <-. cbn in Hn. apply set_nth_inv in Hn as [[-> _]|[_ Hn]]; auto. cbn. auto.
    - destruct (nth_error (c_pubs c) i0) as [[f|]|] eqn:Hi; try discriminate. destruct (c_stopped c); [|discriminate].
      injection Hs as <- <-. cbn in Hn. apply set_nth_inv in Hn as [[-> _]|[_ Hn]]; auto. cbn. auto.
    - destruct (nth_error (c_pubs c) i0) as [[f|]|] eqn:Hi; try discriminate.
      injection Hs as <- <-. cbn in Hn. apply set_nth_inv in Hn as [[-> _]|[_ Hn]]; auto.
  Qed.
  Lemma reach_told cl c es : run cfg cl client_new = Some (c, es) -> ToldInv cl es c.
  Proof.
    revert cl c es. apply (run_ind cfg (fun cl c es => ToldInv cl es c)).
    - split; [intros [|r]|intros [|i]]; discriminate.
    - intros ls c es l c' e Hr [I1 I2] Hs. pose proof (run_length _ _ _ _ _ Hr) as HL.
      unfold ToldInv. rewrite (accepted_app _ _ _ _ HL), results_app, concat_app. cbn [concat]. rewrite app_nil_r. split.
      + intros r q' Hq Ho. rewrite !in_app_iff. destruct (step_told _ _ _ _ _ _ Hs Hq Ho) as [(q & Q1 & Q2)|[->|[E|[[-> ->]|E]]]].
        * destruct (I1 _ _ Q1 Q2) as [X|[X|[X|X]]]; auto 8.
        * right. left. right. left. reflexivity.
        * right. right. left. right. rewrite (step_results _ _ _ _ _ Hs), E. left. reflexivity.
        * left. right. left. reflexivity.
        * right. right. right. right. rewrite (step_results _ _ _ _ _ Hs), E. left. reflexivity.
      + intros i Hi. rewrite !in_app_iff. destruct (step_pub_told _ _ _ _ _ Hs Hi) as [Hn|[->|[[-> ->]|X]]]; auto.
        * destruct (I2 _ Hn) as [X|[X|X]]; auto 8.
        * right. left. right. left. reflexivity.
        * left. right. left. reflexivity.
  Qed.
End Calls.
