(** The outgoing side of the client, as a history invariant. *)
From Coq Require Import NArith List Bool Arith Lia Permutation.
From Verif Require Import KeyModel HeaderModel KeySpec HeaderSpec KeyProof HeaderProof SubModel SubSpec SubProof ClientModel ClientSpec ClientProof ClientHist ClientMore.
Import ListNotations.

Lemma published_app a b : published (a ++ b) = published a ++ published b.
Proof. unfold published. apply flat_map_app. Qed.
Lemma accepted_app a ea b eb : length a = length ea -> accepted (a ++ b) (ea ++ eb) = accepted a ea ++ accepted b eb.
Proof.
  revert ea. induction a as [|l a IH]; intros [|e ea] H; try discriminate; [reflexivity|].
  injection H as H. cbn [app accepted]. rewrite (IH ea H).
  destruct l; try reflexivity; destruct e as [|[] [|]]; try reflexivity; destruct ok; reflexivity.
Qed.

Lemma nth_err_app_l A (l : list A) x i y : nth_error l i = Some y -> nth_error (l ++ x) i = Some y.
Proof. intros H. rewrite nth_error_app1; auto. apply nth_error_Some. congruence. Qed.

Section Out.
  Variable cfg : Config.
  Notation step := (step cfg).
  Notation run := (run cfg).

  Lemma run_length ls c c' es : run ls c = Some (c', es) -> length ls = length es.
  Proof.
    revert c es. induction ls as [|l ls IH]; cbn; intros c es H; [injection H as <- <-; auto|].
    destruct (step l c) as [[c1 e]|]; [|discriminate]. destruct (run ls c1) as [[c2 e2]|] eqn:E; [|discriminate].
    injection H as <- <-. cbn. f_equal. eauto.
  Qed.

  Lemma frame_for_mono ls es ls' es' x f : frame_for ls es x f -> frame_for (ls ++ ls') (es ++ es') x f.
  Proof.
    intros (g & kk & K & E & H). exists g, kk. split; [apply kind_seen_mono; auto|]. split; auto.
    destruct x as [r|i].
    - destruct H as (resp & H). exists resp. rewrite issued_app. apply nth_err_app_l. auto.
    - rewrite published_app. apply nth_err_app_l. auto.
  Qed.
  Lemma Forall2_frame_mono ls es ls' es' xs fs : Forall2 (frame_for ls es) xs fs -> Forall2 (frame_for (ls ++ ls') (es ++ es')) xs fs.
  Proof. induction 1; constructor; auto. apply frame_for_mono; auto. Qed.

  Definition PubInv (ls : list Label) (es : list (list Ev)) (c : Client) : Prop :=
    length (c_pubs c) = length (published ls) /\
    forall i f, nth_error (c_pubs c) i = Some (Some f) -> exists g kk, kind_seen es kk /\ f = shrink_frame kk g /\ nth_error (published ls) i = Some g.

  Lemma step_pubs l c c' e : step l c = Some (c', e) ->
    (exists f, l = LPublish f /\ c_pubs c' = c_pubs c ++ [Some (shrink_frame (c_kkind c) f)]) \/
    (published [l] = [] /\ length (c_pubs c') = length (c_pubs c) /\
     forall i f, nth_error (c_pubs c') i = Some (Some f) -> nth_error (c_pubs c) i = Some (Some f)).
  Proof.
    intros H. destruct l; cbn [ClientModel.step] in H;
    repeat match type of H with context [match ?x with _ => _ end] => destruct x eqn:?; try discriminate end;
    injection H as <- <-;
    try (left; eexists; split; reflexivity);
    right; split; try reflexivity; unfold adopt; try destruct (negb (kkind_eqb _ _)); cbn [c_pubs set_kkind end_req set_waiters set_req set_out set_pubs set_in new_request out_gone in_gone];
    rewrite ?set_nth_length; split; auto;
    intros i' f' Hi; apply set_nth_inv in Hi as [[_ Hi]|[_ Hi]]; congruence.
  Qed.

  Lemma reach_pubs ls c es : run ls client_new = Some (c, es) -> PubInv ls es c.
  Proof.
    revert ls c es. apply (run_ind cfg (fun ls c es => PubInv ls es c)).
    - split; cbn; auto. intros [|i] f; discriminate.
    - intros ls c es l c' e Hr [I1 I2] Hs. unfold PubInv. rewrite published_app.
      destruct (step_pubs _ _ _ _ Hs) as [(f & -> & ->)|(P & L & M)].
      + cbn [published flat_map app]. split. { rewrite !app_length. cbn. lia. }
        intros i g Hi. apply nth_app_last in Hi as [Hi|[-> Hi]].
        * destruct (I2 _ _ Hi) as (g' & kk & K & E & N). exists g', kk. split; [apply kind_seen_mono; auto|]. split; auto. apply nth_err_app_l. auto.
        * injection Hi as ->. exists f, (c_kkind c). split; [apply kind_seen_mono; apply (reach_kinds _ _ _ _ Hr)|].
          split; auto. rewrite I1, nth_error_app2, Nat.sub_diag by lia. reflexivity.
      + rewrite P, app_nil_r. split; [congruence|]. intros i f Hi.
        destruct (I2 _ _ (M _ _ Hi)) as (g' & kk & K & E & N). exists g', kk. split; [apply kind_seen_mono; auto|]. auto.
  Qed.

  Lemma adopt_or kk f c : adopt kk f c = c \/ adopt kk f c = set_kkind (varkey_kind (hdr_key (f_hdr f))) c.
  Proof. unfold adopt. cbv zeta. destruct (negb _); auto. Qed.

  Definition queued (c : Client) : list RpcFrame := opt (c_sending c) ++ c_out c.

  (** What a step does to the outgoing side. *)
  Lemma step_out l c c' e : step l c = Some (c', e) ->
    (exists r q kk, l = LSend r /\ e = [] /\ nth_error (c_reqs c) r = Some q /\ rq_pc q = PReg kk /\
       c_out_alive c' = true /\ queued c' = queued c ++ [rq_frame q] /\ nth_error (c_reqs c') r = Some (with_pc q (PSent kk)) /\ c_pubs c' = c_pubs c) \/
    (exists i f, l = LPubSend i /\ e = [EvPublished i true] /\ nth_error (c_pubs c) i = Some (Some f) /\
       c_out_alive c' = true /\ queued c' = queued c ++ [f] /\ nth_error (c_pubs c') i = Some None) \/
    (exists f rest, e = [EvWire (rpc_to_bytes f)] /\ (accepted [l] [e] = [] /\ published [l] = []) /\ queued c = f :: rest /\ c_pubs c' = c_pubs c /\
       (c_out_alive c' = c_out_alive c /\ queued c' = rest \/ c_out_alive c' = false /\ queued c' = [])) \/
    (accepted [l] [e] = [] /\ wire [e] = [] /\
      ((queued c' = queued c /\ c_out_alive c' = c_out_alive c) \/ (queued c' = [] /\ c_out_alive c' = false)) /\
      (forall i, nth_error (c_pubs c) i = Some None -> nth_error (c_pubs c') i = Some None)).
  Proof.
    unfold queued. intros H. destruct l; cbn [ClientModel.step] in H.
    all: try (injection H as <- <-; right; right; right; split; [reflexivity|]; split; [reflexivity|]; split; [left; split; reflexivity|auto]; fail).
    all: try (destruct (nth_error (c_reqs c) r) as [q|] eqn:Hq; [|discriminate]; destruct (rq_pc q) eqn:Hp; try discriminate).
    all: repeat match type of H with
         | context [match is_duplicate _ _ with _ => _ end] => destruct (is_duplicate _ _)
         | context [match rq_ok _ with _ => _ end] => destruct (rq_ok q); [|discriminate]
         | context [match rq_err _ with _ => _ end] => destruct (rq_err q); [|discriminate]
         | context [match c_stopped _ with _ => _ end] => destruct (c_stopped c); [|discriminate]
         end.
    all: try (injection H as <- <-; right; right; right; split; [reflexivity|]; split; [reflexivity|];
              try match goal with |- context [adopt ?a ?b ?d] => destruct (adopt_or a b d) as [->| ->] end; split; [left; split; reflexivity|intros; assumption]; fail).
    - destruct (c_out_alive c) eqn:Ha; cbn [negb] in H.
      + destruct (length (c_out c) <? cfg_depth cfg); [|discriminate]. injection H as <- <-. left. exists r, q, kk. cbn.
        repeat split; auto. { rewrite app_assoc. reflexivity. } eapply set_nth_some; eauto.
      + injection H as <- <-. right. right. right. split; [reflexivity|]. split; [reflexivity|]. split; [left; split; auto|auto].
    - injection H as <- <-. right. right. right. split; [reflexivity|]. split; [reflexivity|].
      match goal with |- context [adopt ?a ?b ?d] => destruct (adopt_or a b d) as [->| ->] end; (split; [left; split; reflexivity|intros; assumption]).
    - injection H as <- <-. right. right. right. split; [reflexivity|]. split; [reflexivity|].
      match goal with |- context [adopt ?a ?b ?d] => destruct (adopt_or a b d) as [->| ->] end; (split; [left; split; reflexivity|intros; assumption]).
    - injection H as <- <-. right. right. right. split; [reflexivity|]. split; [reflexivity|]. split; [left; split; reflexivity|].
      intros i Hi. cbn. apply nth_err_app_l. auto.
    - destruct (nth_error (c_pubs c) i) as [[f|]|] eqn:Hi; try discriminate. destruct (c_out_alive c) eqn:Ha; cbn [negb] in H.
      + destruct (length (c_out c) <? cfg_depth cfg); [|discriminate]. injection H as <- <-. right. left. exists i, f. cbn.
        repeat split; auto. { rewrite app_assoc. reflexivity. } eapply set_nth_some; eauto.
      + injection H as <- <-. right. right. right. split; [reflexivity|]. split; [reflexivity|]. split; [left; split; auto|].
        intros j Hj. cbn. destruct (Nat.eq_dec i j) as [->|]; [eapply set_nth_some; eauto|rewrite set_nth_other; auto].
    - destruct (nth_error (c_pubs c) i) as [[f|]|] eqn:Hi; try discriminate. destruct (c_stopped c); [|discriminate].
      injection H as <- <-. right. right. right. split; [reflexivity|]. split; [reflexivity|]. split; [left; split; auto|].
      intros j Hj. cbn. destruct (Nat.eq_dec i j) as [->|]; [eapply set_nth_some; eauto|rewrite set_nth_other; auto].
    - destruct (nth_error (c_pubs c) i) as [[f|]|] eqn:Hi; try discriminate.
      injection H as <- <-. right. right. right. split; [reflexivity|]. split; [reflexivity|]. split; [left; split; auto|].
      intros j Hj. cbn. destruct (Nat.eq_dec i j) as [->|]; [eapply set_nth_some; eauto|rewrite set_nth_other; auto].
    - destruct (c_sending c) eqn:Es; [discriminate|]. destruct (c_out c) as [|f q] eqn:Eo; [discriminate|]. destruct (c_out_alive c) eqn:Ea; [|discriminate].
      injection H as <- <-. right. right. right. split; [reflexivity|]. split; [reflexivity|]. split; [left; split; auto|auto].
    - destruct (c_sending c) as [f|] eqn:Es; [|discriminate]. injection H as <- <-. right. right. left. exists f, (c_out c). repeat split; auto.
    - destruct (c_sending c) as [f|] eqn:Es; [|discriminate]. injection H as <- <-. right. right. destruct reached.
      { left. exists f, (c_out c). repeat split; auto. }
      right. split; [reflexivity|]. split; [reflexivity|]. split; [right; split; auto|auto].
    - destruct (_ && _)%bool; [|discriminate]. injection H as <- <-. right. right. destruct (c_sending c) as [f|] eqn:Es.
      { destruct reached.
        { left. exists f, (c_out c). repeat split; auto. }
        right. split; [reflexivity|]. split; [reflexivity|]. split; [right; split; auto|auto]. }
      right. split; [reflexivity|]. split; [reflexivity|]. split; [right; split; auto|auto].
    - repeat match type of H with context [match ?x with _ => _ end] => destruct x eqn:?; try discriminate end;
      injection H as <- <-; right; right; right; (split; [reflexivity|]; split; [reflexivity|]; split; [left; split; auto|auto]).
    - repeat match type of H with context [match ?x with _ => _ end] => destruct x eqn:?; try discriminate end;
      injection H as <- <-; right; right; right; (split; [reflexivity|]; split; [reflexivity|]; split; [left; split; auto|auto]).
    - repeat match type of H with context [match ?x with _ => _ end] => destruct x eqn:?; try discriminate end;
      injection H as <- <-; right; right; right; (split; [reflexivity|]; split; [reflexivity|]; split; [left; split; auto|auto]).
    - repeat match type of H with context [match ?x with _ => _ end] => destruct x eqn:?; try discriminate end;
      injection H as <- <-; right; right; right; (split; [reflexivity|]; split; [reflexivity|]; split; [left; split; auto|auto]).
    - repeat match type of H with context [match ?x with _ => _ end] => destruct x eqn:?; try discriminate end;
      injection H as <- <-; right; right; right; (split; [reflexivity|]; split; [reflexivity|]; split; [left; split; auto|auto]).
    - repeat match type of H with context [match ?x with _ => _ end] => destruct x eqn:?; try discriminate end;
      injection H as <- <-; right; right; right; (split; [reflexivity|]; split; [reflexivity|]; split; [left; split; auto|auto]).
    - repeat match type of H with context [match ?x with _ => _ end] => destruct x eqn:?; try discriminate end;
      injection H as <- <-; right; right; right; (split; [reflexivity|]; split; [reflexivity|]; split; [left; split; auto|auto]).
  Qed.

  Definition OutInv (ls : list Label) (es : list (list Ev)) (c : Client) : Prop :=
    (exists acc lost, Forall2 (frame_for ls es) (accepted ls es) acc /\
       map rpc_to_bytes acc = wire es ++ map rpc_to_bytes (queued c) ++ lost /\
       (c_out_alive c = true -> lost = []) /\ (c_out_alive c = false -> queued c = [])) /\
    NoDup (accepted ls es) /\
    (forall r, In (inl r) (accepted ls es) -> exists q, nth_error (c_reqs c) r = Some q /\ (rq_pc q = PEnded \/ exists kk, rq_pc q = PSent kk)) /\
    (forall i, In (inr i) (accepted ls es) -> nth_error (c_pubs c) i = Some None).

  Lemma nodup_snoc A (l : list A) x : NoDup l -> ~ In x l -> NoDup (l ++ [x]).
  Proof.
    intros H Hx. apply (Permutation_NoDup (l := x :: l)); [apply Permutation_cons_append|constructor; auto].
  Qed.

  Lemma sent_stays l c c' e r q : step l c = Some (c', e) -> CInv cfg c -> nth_error (c_reqs c) r = Some q ->
    (rq_pc q = PEnded \/ exists kk, rq_pc q = PSent kk) ->
    exists q', nth_error (c_reqs c') r = Some q' /\ (rq_pc q' = PEnded \/ exists kk, rq_pc q' = PSent kk).
  Proof.
    intros H HI Hq [Hp|(kk & Hp)].
    - destruct (step_ended _ _ _ _ _ r H HI) as [(q' & Q1 & Q2) _]; [exists q; auto|]. exists q'. auto.
    - assert (Hpe : rq_pc q <> PEnded) by congruence.
      destruct (step_running _ _ _ _ _ _ _ H HI (conj Hq Hpe)) as [(_ & _ & q' & Q1 & Q2)|[(res & _ & q' & Q1 & Q2)|(q' & [Q1 Q2] & K & _)]].
      + exists q'. auto. + exists q'. auto.
      + exists q'. split; auto. right. exists kk. destruct K as (_ & _ & K3 & _). auto.
  Qed.

  Lemma reach_out ls c es : run ls client_new = Some (c, es) -> OutInv ls es c.
  Proof.
    revert ls c es. apply (run_ind cfg (fun ls c es => OutInv ls es c)).
    - split. { exists [], []. cbn. repeat split; auto. } split; [constructor|]. split; intros ? [].
    - intros ls c es l c' e Hr ((acc & lost & A1 & A2 & A3 & A4) & ND & R & P) Hs.
      pose proof (run_length _ _ _ _ Hr) as HL. pose proof (reach_cinv _ _ _ _ Hr) as HI.
      unfold OutInv. rewrite (accepted_app _ _ _ _ HL), wire_app.
      assert (RR : forall r, In (inl r) (accepted ls es) -> exists q, nth_error (c_reqs c') r = Some q /\ (rq_pc q = PEnded \/ exists kk, rq_pc q = PSent kk)).
      { intros r Hin. destruct (R _ Hin) as (q & Q1 & Q2). eapply sent_stays; eauto. }
      destruct (step_out _ _ _ _ Hs) as [(r & q & kk & -> & -> & Hq & Hp & Ha & Hqd & Hq' & Hpb)|[(i & f & -> & -> & Hi & Ha & Hqd & Hi')|[(f & rest & -> & (E1 & _) & Hqd & Hpb & Ha)|(E1 & E2 & E3 & E4)]]].
      + assert (Ha0 : c_out_alive c = true) by (eapply step_out_alive; eauto).
        pose proof (A3 Ha0) as ->. rewrite app_nil_r in A2. cbn [accepted]. split; [|split; [|split]].
        * exists (acc ++ [rq_frame q]), []. split; [|split; [|split]]; auto; try congruence.
          -- apply Forall2_app. { apply Forall2_frame_mono; auto. } constructor; [|constructor].
             destruct (reach_issued _ _ _ _ Hr) as (_ & L & M).
             destruct (nth_error (issued 0 ls) r) as [[g resp]|] eqn:Hi.
             2:{ apply nth_error_None in Hi. assert (r < length (c_reqs c)) by (apply nth_error_Some; congruence). lia. }
             destruct (M _ _ _ Hi Hq) as [_ M2]. rewrite Hp in M2. exists g, kk. split.
             ++ apply kind_seen_mono. eapply reach_kinds; eauto. rewrite Hp. reflexivity.
             ++ split; auto. exists resp. rewrite issued_app. apply nth_err_app_l. auto.
          -- rewrite app_nil_r, Hqd, !map_app, A2, app_nil_r, app_assoc. reflexivity.
        * apply nodup_snoc; auto. intros Hin. destruct (R _ Hin) as (q1 & Q1 & Q2). rewrite Hq in Q1. injection Q1 as <-.
          rewrite Hp in Q2. destruct Q2 as [|(k & Q2)]; discriminate.
        * intros r1 Hin. apply in_app_iff in Hin as [Hin|[E|[]]]; [auto|]. injection E as <-. eexists. split; [exact Hq'|]. right. exists kk. reflexivity.
        * intros i Hin. apply in_app_iff in Hin as [Hin|[E|[]]]; [|discriminate]. rewrite Hpb. auto.
      + assert (Ha0 : c_out_alive c = true) by (eapply step_out_alive; eauto).
        pose proof (A3 Ha0) as ->. rewrite app_nil_r in A2. cbn [accepted]. split; [|split; [|split]].
        * exists (acc ++ [f]), []. split; [|split; [|split]]; auto; try congruence.
          -- apply Forall2_app. { apply Forall2_frame_mono; auto. } constructor; [|constructor].
             destruct (reach_pubs _ _ _ Hr) as (_ & M). destruct (M _ _ Hi) as (g & kk & K & E & Hn). exists g, kk.
             split; [apply kind_seen_mono; auto|]. split; auto. rewrite published_app. apply nth_err_app_l. auto.
          -- rewrite app_nil_r, Hqd, !map_app, A2, app_nil_r, app_assoc. reflexivity.
        * apply nodup_snoc; auto. intros Hin. rewrite (P _ Hin) in Hi. discriminate.
        * intros r1 Hin. apply in_app_iff in Hin as [Hin|[E|[]]]; [auto|discriminate].
        * intros j Hin. apply in_app_iff in Hin as [Hin|[E|[]]]; [|injection E as <-; auto].
          destruct (Nat.eq_dec i j) as [->|Hne]; auto.
          pose proof (P _ Hin) as Hj. cbn [ClientModel.step] in Hs. rewrite Hi in Hs. destruct (negb _).
          { injection Hs as <-. cbn. rewrite set_nth_other; auto. }
          destruct (length (c_out c) <? cfg_depth cfg); [|discriminate]. injection Hs as <-. cbn. rewrite set_nth_other; auto.
      + rewrite E1, app_nil_r. split; [|split; [|split]]; auto.
        * destruct Ha as [[Ha Hq']|[Ha Hq']].
          -- exists acc, lost. split; [apply Forall2_frame_mono; auto|]. rewrite A2, Hqd, Hq'. cbn. rewrite <- app_assoc. split; [reflexivity|].
             rewrite Ha. split; auto. intros Hf. rewrite (A4 Hf) in Hqd. discriminate.
          -- exists acc, (map rpc_to_bytes rest ++ lost). split; [apply Forall2_frame_mono; auto|]. rewrite A2, Hqd, Hq'. cbn. rewrite <- app_assoc. split; [reflexivity|].
             rewrite Ha. split; auto. discriminate.
        * intros i Hin. rewrite Hpb. auto.
      + rewrite E1, E2, !app_nil_r. split; [|split; [|split]]; auto.
        destruct E3 as [[Q1 Q2]|[Q1 Q2]].
        * exists acc, lost. rewrite Q1, Q2. split; [apply Forall2_frame_mono; auto|]. auto.
        * exists acc, (map rpc_to_bytes (queued c) ++ lost). split; [apply Forall2_frame_mono; auto|]. rewrite Q1, Q2. cbn. split; auto. split; auto; discriminate.
  Qed.
End Out.
