(** Theorems about the host client: C32 (cancelling), C33 (sequence numbers), C59
    (outgoing order), C34 (key length). *)
From Coq Require Import NArith List Bool Arith Lia Permutation.
From Verif Require Import KeyModel HeaderModel KeySpec HeaderSpec KeyProof HeaderProof SubModel SubSpec SubProof SubThm3 ClientModel ClientSpec ClientProof ClientHist ClientMore ClientThm.
Import ListNotations.

(** ** C32 Cancelling a request is harmless *)

(** A request can be dropped wherever it stands; nothing is reported; its waiting
    entries disappear and those of others stay; no other request, nothing queued and
    no other part of the client changes. *)
Theorem C32_cancel_effect :
  forall cfg c r q,
    nth_error (c_reqs c) r = Some q -> rq_pc q <> PEnded ->
    exists c', step cfg (LCancel r) c = Some (c', []) /\ ended c' r /\
      (forall w, In w (c_waiters c') <-> In w (c_waiters c) /\ w_req w <> r) /\
      (forall r', r' <> r -> nth_error (c_reqs c') r' = nth_error (c_reqs c) r') /\
      c_kkind c' = c_kkind c /\ c_seq c' = c_seq c /\ c_pubs c' = c_pubs c /\ c_out c' = c_out c /\
      c_sending c' = c_sending c /\ c_offer c' = c_offer c /\ c_stopped c' = c_stopped c /\ c_subs c' = c_subs c.
Proof.
  intros cfg c r q Hq Hp. exists (end_req r q c). split.
  { cbn [step]. rewrite Hq. destruct (rq_pc q); congruence. }
  split. { eexists. cbn. split; [eapply set_nth_some; eauto|reflexivity]. }
  split. { intros w. cbn. unfold drop_waiters. rewrite filter_In, negb_true_iff, Nat.eqb_neq. reflexivity. }
  split. { intros r' Hr. cbn. rewrite set_nth_other; auto. }
  repeat split.
Qed.
Print Assumptions C32_cancel_effect.

(** A dropped request never reports anything. *)
Theorem C32_silent :
  forall cfg ls c es r res,
    run cfg ls client_new = Some (c, es) -> In (LCancel r) ls -> ~ In (r, res) (results es).
Proof.
  intros cfg ls c es r res H Hc Hin. apply in_split in Hc as (a & b & ->).
  apply run_app in H as (c1 & e1 & e2 & H1 & H2 & ->). cbn [run] in H2.
  destruct (step cfg (LCancel r) c1) as [[c2 e3]|] eqn:E; [|discriminate].
  destruct (run cfg b c2) as [[c3 e4]|] eqn:E4; [|discriminate]. injection H2 as <- <-.
  pose proof (reach_cinv _ _ _ _ H1) as HI.
  cbn [step] in E. destruct (nth_error (c_reqs c1) r) as [q|] eqn:Hq; [|discriminate].
  assert (Hp : rq_pc q <> PEnded) by (destruct (rq_pc q); congruence).
  assert (E' : step cfg (LCancel r) c1 = Some (c2, e3)) by (cbn [step]; rewrite Hq; exact E).
  assert (e3 = []) as -> by (destruct (rq_pc q); congruence).
  rewrite results_app in Hin. apply in_app_iff in Hin as [Hin|Hin].
  - destruct (reach_results _ _ _ _ H1) as [_ R]. destruct (R _ _ Hin) as (q1 & Q1 & Q2). congruence.
  - replace ([] :: e4) with ([[]] ++ e4) in Hin by reflexivity. rewrite results_app in Hin. cbn [app] in Hin.
    assert (Hen : ended c2 r).
    { destruct (C32_cancel_effect cfg c1 r q Hq Hp) as (c2' & S & En & _). congruence. }
    assert (HI2 : CInv cfg c2) by (eapply step_inv; eauto).
    clear - E4 Hen HI2 Hin. revert c2 e4 E4 Hen HI2 Hin. induction b as [|l b IH]; cbn; intros.
    + injection E4 as <- <-. destruct Hin.
    + destruct (step cfg l c2) as [[c4 e]|] eqn:E; [|discriminate]. destruct (run cfg b c4) as [[c5 e5]|] eqn:E5; [|discriminate].
      injection E4 as <- <-. replace (e :: e5) with ([e] ++ e5) in Hin by reflexivity. rewrite results_app in Hin.
      destruct (step_ended _ _ _ _ _ _ E HI2 Hen) as [S1 S2].
      apply in_app_iff in Hin as [Hin|Hin].
      * rewrite (step_results _ _ _ _ _ E) in Hin. destruct (result_of e) as [p|] eqn:Er; [|destruct Hin].
        destruct Hin as [->|[]]. eapply S2; eauto.
      * eapply IH; eauto. eapply step_inv; eauto.
Qed.
Print Assumptions C32_silent.

(** A frame that answers no live request is discarded: that is the only thing that
    can become of it, and nothing but the offer changes.  In particular a late reply
    to a dropped request. *)
Theorem C32_late_reply_discarded :
  forall cfg ls c es f,
    run cfg ls client_new = Some (c, es) -> c_offer c = Some f ->
    (forall r q, nth_error (c_reqs c) r = Some q -> ~ ended c r ->
       seq_value (hdr_seq (f_hdr (rq_frame q))) <> seq_value (hdr_seq (f_hdr f))) ->
    forall choice c' e, step cfg (LWake choice) c = Some (c', e) ->
      choice = None /\ e = [EvDiscarded f] /\ c_reqs c' = c_reqs c /\ c_waiters c' = c_waiters c /\ c_subs c' = c_subs c.
Proof.
  intros cfg ls c es f H Hf Hn ch c' e Hs. pose proof (reach_cinv _ _ _ _ H) as HI.
  assert (Hsub : c_subs c' = c_subs c).
  { clear - Hs. cbn [step] in Hs. destruct (c_offer c); [|discriminate]. destruct ch as [i|].
    - destruct (nth_error (c_waiters c) i); [|discriminate]. destruct (header_eqb _ _); [|discriminate].
      destruct (nth_error (c_reqs c) _); [|discriminate]. injection Hs as <- <-. reflexivity.
    - destruct (existsb _ _); [discriminate|]. injection Hs as <- <-. reflexivity. }
  destruct (wake_reqs _ _ _ _ _ Hs) as (_ & _ & f' & Hf' & Hc). rewrite Hf in Hf'. injection Hf' as <-.
  destruct Hc as [(-> & H1 & H2 & -> & _)|(i & w & q & -> & Hw & Hq & Hm & _)]; [auto|]. exfalso.
  destruct (wi_from _ _ _ HI w (nth_error_In _ _ Hw)) as (q1 & kk & K1 & K2 & K3 & K4).
  rewrite Hq in K1. injection K1 as <-. apply (Hn _ _ Hq).
  - intros (q1 & Q1 & Q2). assert (q1 = q) by congruence. subst. rewrite Q2 in K2. destruct (w_err w); discriminate.
  - apply header_eqb_iff in Hm as [_ Hm]. rewrite <- Hm, K4. destruct (w_err w); reflexivity.
Qed.
Print Assumptions C32_late_reply_discarded.

(** Once a request is dropped, the rest of the client behaves the same whatever that
    request had been: replacing it by any other dropped request changes nothing that
    is ever observed. *)
Section Dead.
  Variable cfg : Config.
  Variable r : nat.
  Variable q2 : Req.
  Hypothesis Hq2 : rq_pc q2 = PEnded.

  Lemma list_ext A (a b : list A) : (forall n, nth_error a n = nth_error b n) -> a = b.
  Proof.
    revert b. induction a as [|x a IH]; intros [|y b] H; auto; try (specialize (H 0); discriminate).
    f_equal. { specialize (H 0). cbn in H. congruence. } apply IH. intros n. apply (H (S n)).
  Qed.
  Lemma set_nth_comm A i j (x y : A) l : i <> j -> set_nth i x (set_nth j y l) = set_nth j y (set_nth i x l).
  Proof.
    intros Hne. apply list_ext. intros n. destruct (Nat.lt_ge_cases n (length l)) as [Hl|Hl].
    2:{ assert (H1 : nth_error (set_nth i x (set_nth j y l)) n = None) by (apply nth_error_None; rewrite !set_nth_length; auto).
        assert (H2 : nth_error (set_nth j y (set_nth i x l)) n = None) by (apply nth_error_None; rewrite !set_nth_length; auto).
        congruence. }
    destruct (Nat.eq_dec n i) as [->|Hi].
    - rewrite set_nth_same by (rewrite set_nth_length; auto). rewrite set_nth_other by auto. rewrite set_nth_same; auto.
    - rewrite set_nth_other by auto. destruct (Nat.eq_dec n j) as [->|Hj].
      + rewrite set_nth_same by auto. rewrite set_nth_same; auto. rewrite set_nth_length; auto.
      + rewrite !set_nth_other by auto. auto.
  Qed.
  Lemma set_nth_app A i (x : A) l y : i < length l -> set_nth i x (l ++ [y]) = set_nth i x l ++ [y].
  Proof.
    intros Hl. apply list_ext. intros n. destruct (Nat.eq_dec n i) as [->|Hi].
    - rewrite set_nth_same by (rewrite app_length; lia). rewrite nth_error_app1 by (rewrite set_nth_length; auto). rewrite set_nth_same; auto.
    - rewrite set_nth_other by auto. destruct (Nat.lt_ge_cases n (length l)).
      + rewrite !nth_error_app1 by (rewrite ?set_nth_length; auto). rewrite set_nth_other; auto.
      + rewrite !nth_error_app2 by (rewrite ?set_nth_length; auto). rewrite set_nth_length. auto.
  Qed.

  Notation D := (set_req r q2).

  Lemma adopt_dead kk f c : adopt kk f (D c) = D (adopt kk f c).
  Proof. unfold adopt. destruct (negb _); reflexivity. Qed.
  Lemma end_dead r0 q c : r0 <> r -> end_req r0 q (D c) = D (end_req r0 q c).
  Proof. intros Hne. unfold end_req, set_req, set_waiters. cbn. rewrite set_nth_comm by auto. reflexivity. Qed.
  Lemma set_dead r0 q c : r0 <> r -> set_req r0 q (D c) = D (set_req r0 q c).
  Proof. intros Hne. unfold set_req. cbn. rewrite set_nth_comm by auto. reflexivity. Qed.

  Definition dead_step (l : Label) (c : Client) : option (Client * list Ev) :=
    match step cfg l c with Some (c', e) => Some (D c', e) | None => None end.

  Lemma step_dead l c : CInv cfg c -> ended c r -> step cfg l (D c) = dead_step l c.
  Proof.
    intros HI (q0 & Hq0 & Hp0). unfold dead_step.
    assert (Hlen : r < length (c_reqs c)) by (apply nth_error_Some; congruence).
    assert (Hsame : nth_error (c_reqs (D c)) r = Some q2) by (cbn; apply set_nth_same; auto).
    assert (Hoth : forall r0, r0 <> r -> nth_error (c_reqs (D c)) r0 = nth_error (c_reqs c) r0) by (intros; cbn; rewrite set_nth_other; auto).
    destruct l; cbn [step];
      try match goal with |- match nth_error (c_reqs (D c)) ?r0 with _ => _ end = _ =>
            destruct (Nat.eq_dec r0 r) as [->|Hne]; [rewrite Hsame, Hq0, Hq2, Hp0; reflexivity|rewrite (Hoth _ Hne)];
            destruct (nth_error (c_reqs c) r0) as [q|]; [|reflexivity]; destruct (rq_pc q); try reflexivity end.
    - unfold new_request, set_req. cbn. rewrite set_nth_app by auto. reflexivity.
    - unfold new_request, set_req. cbn. rewrite set_nth_app by auto. reflexivity.
    - rewrite set_dead by auto. reflexivity.
    - change (c_waiters (D c)) with (c_waiters c). destruct (is_duplicate _ _).
      + rewrite end_dead by auto. reflexivity.
      + rewrite set_dead by auto. reflexivity.
    - change (c_waiters (D c)) with (c_waiters c). destruct (is_duplicate _ _).
      + rewrite end_dead by auto. reflexivity.
      + rewrite set_dead by auto. reflexivity.
    - change (c_out_alive (D c)) with (c_out_alive c). change (c_out (D c)) with (c_out c). destruct (negb _).
      + rewrite end_dead by auto. reflexivity.
      + destruct (_ <? _); [|reflexivity]. rewrite set_dead by auto. reflexivity.
    - destruct (rq_ok q); [|reflexivity]. rewrite end_dead, adopt_dead by auto. reflexivity.
    - destruct (rq_err q); [|reflexivity]. rewrite end_dead, adopt_dead by auto. reflexivity.
    - change (c_stopped (D c)) with (c_stopped c). destruct (c_stopped c); [|reflexivity]. rewrite end_dead by auto. reflexivity.
    - rewrite end_dead by auto. reflexivity.
    - rewrite end_dead by auto. reflexivity.
    - rewrite end_dead by auto. reflexivity.
    - rewrite end_dead by auto. reflexivity.
    - rewrite end_dead by auto. reflexivity.
    - reflexivity.
    - cbn [c_pubs c_out c_out_alive set_req]. destruct (nth_error (c_pubs c) i) as [[f|]|]; try reflexivity. destruct (negb _); [reflexivity|].
      destruct (length (c_out c) <? cfg_depth cfg); reflexivity.
    - cbn [c_pubs c_stopped set_req]. destruct (nth_error (c_pubs c) i) as [[f|]|]; try reflexivity. destruct (c_stopped c); reflexivity.
    - cbn [c_pubs set_req]. destruct (nth_error (c_pubs c) i) as [[f|]|]; reflexivity.
    - cbn [c_sending c_out c_out_alive set_req]. destruct (c_sending c); [reflexivity|]. destruct (c_out c); [reflexivity|]. destruct (c_out_alive c); reflexivity.
    - cbn [c_sending set_req]. destruct (c_sending c); reflexivity.
    - cbn [c_sending set_req]. destruct (c_sending c); reflexivity.
    - cbn [c_stopped c_out_alive set_req]. destruct (_ && _)%bool; reflexivity.
    - cbn [c_offer c_in_alive c_subs set_req]. destruct (c_offer c); [reflexivity|]. destruct (_ || _)%bool; [reflexivity|].
      destruct (take_from_slice bytes) as [[[h b]|]|]; try reflexivity.
      destruct (sub_step _ _ _) as [[s [|[]| | |]]|]; reflexivity.
    - cbn [c_offer c_waiters set_req]. destruct (c_offer c) as [f|]; [|reflexivity]. destruct choice as [i|].
      + destruct (nth_error (c_waiters c) i) as [w|] eqn:Hw; [|reflexivity]. destruct (header_eqb _ _); [|reflexivity].
        assert (Hne : w_req w <> r).
        { intros E. destruct (wi_from _ _ _ HI w (nth_error_In _ _ Hw)) as (q1 & kk & K1 & K2 & _).
          rewrite E, Hq0 in K1. injection K1 as <-. rewrite Hp0 in K2. destruct (w_err w); discriminate. }
        rewrite (Hoth _ Hne). destruct (nth_error (c_reqs c) (w_req w)) as [q|]; [|reflexivity].
        f_equal. f_equal. unfold set_in, set_waiters, set_req. cbn. rewrite set_nth_comm by auto. reflexivity.
      + destruct (existsb _ _); reflexivity.
    - cbn [c_subs c_in_alive c_offer set_req]. destruct (sub_step _ _ _) as [[s o]|]; [|reflexivity]. destruct (c_in_alive c); reflexivity.
    - cbn [c_subs c_in_alive c_offer set_req]. destruct (c_offer c); [reflexivity|]. destruct (_ || _)%bool; reflexivity.
    - cbn [c_stopped c_in_alive set_req]. destruct (_ && _)%bool; reflexivity.
    - cbn [c_in_alive set_req]. destruct (c_in_alive c); reflexivity.
    - cbn [c_subs set_req]. destruct (user_op o); [|reflexivity]. destruct (sub_step _ _ _) as [[s out]|]; reflexivity.
    - cbn [c_stopped set_req]. destruct (c_stopped c); reflexivity.
    - reflexivity.
  Qed.

  Lemma run_dead ls : forall c, CInv cfg c -> ended c r ->
    run cfg ls (D c) = match run cfg ls c with Some (c', es) => Some (D c', es) | None => None end.
  Proof.
    induction ls as [|l ls IH]; cbn [run]; intros c HI He; [reflexivity|].
    rewrite step_dead by auto. unfold dead_step. destruct (step cfg l c) as [[c1 e]|] eqn:E; [|reflexivity].
    rewrite IH. 2:{ eapply step_inv; eauto. } 2:{ eapply step_ended; eauto. }
    destruct (run cfg ls c1) as [[c2 es]|]; reflexivity.
  Qed.
End Dead.

Theorem C32_no_trace :
  forall cfg before c es r other after,
    run cfg before client_new = Some (c, es) -> ended c r -> rq_pc other = PEnded ->
    run cfg after (set_req r other c) =
      match run cfg after c with Some (c', es') => Some (set_req r other c', es') | None => None end.
Proof. intros. apply run_dead; auto. eapply reach_cinv; eauto. Qed.
Print Assumptions C32_no_trace.

(** ** C33 Concurrent requests carry distinct sequence numbers *)

(** The frame of the typed request made after [a] carries, as a four-byte number, the
    count of typed requests before it, modulo 2^32. *)
Theorem C33_numbering :
  forall cfg a req resp body b c es,
    run cfg (a ++ LRequest req resp body :: b) client_new = Some (c, es) ->
    exists q, nth_error (c_reqs c) (length (issued 0 a)) = Some q /\
      hdr_seq (f_hdr (rq_frame q)) = Seq4 (N.of_nat (typed a) mod 2 ^ 32).
Proof.
  intros cfg a req resp body b c es H. destruct (reach_issued _ _ _ _ H) as (_ & HL & HM).
  assert (Hi : nth_error (issued 0 (a ++ LRequest req resp body :: b)) (length (issued 0 a)) =
               Some (MkFrame (MkHeader (VKey8 req) (Seq4 (N.of_nat (typed a) mod 4294967296))) body, resp)).
  { rewrite issued_app, nth_error_app2, Nat.sub_diag by lia. reflexivity. }
  destruct (nth_error (c_reqs c) (length (issued 0 a))) as [q|] eqn:Hq.
  2:{ apply nth_error_None in Hq. rewrite HL in Hq.
      assert (length (issued 0 a) < length (issued 0 (a ++ LRequest req resp body :: b))) by (apply nth_error_Some; congruence). lia. }
  exists q. split; auto. rewrite (made_seq _ _ (HM _ _ _ Hi Hq)). reflexivity.
Qed.
Print Assumptions C33_numbering.

(** Two typed requests with fewer than 2^32 - 1 others between them carry distinct
    numbers, whatever else the clones of the client did. *)
Theorem C33_distinct :
  forall cfg a req1 resp1 body1 b req2 resp2 body2 d c es q1 q2,
    run cfg (a ++ LRequest req1 resp1 body1 :: b ++ LRequest req2 resp2 body2 :: d) client_new = Some (c, es) ->
    (N.of_nat (typed b) < 2 ^ 32 - 1)%N ->
    nth_error (c_reqs c) (length (issued 0 a)) = Some q1 ->
    nth_error (c_reqs c) (length (issued 0 (a ++ LRequest req1 resp1 body1 :: b))) = Some q2 ->
    seq_value (hdr_seq (f_hdr (rq_frame q1))) <> seq_value (hdr_seq (f_hdr (rq_frame q2))).
Proof.
  intros cfg a req1 resp1 body1 b req2 resp2 body2 d c es q1 q2 H Hn H1 H2.
  destruct (C33_numbering _ _ _ _ _ _ _ _ H) as (q1' & Q1 & S1). rewrite H1 in Q1. injection Q1 as <-.
  replace (a ++ LRequest req1 resp1 body1 :: b ++ LRequest req2 resp2 body2 :: d)
    with ((a ++ LRequest req1 resp1 body1 :: b) ++ LRequest req2 resp2 body2 :: d) in H by (rewrite <- app_assoc; reflexivity).
  destruct (C33_numbering _ _ _ _ _ _ _ _ H) as (q2' & Q2 & S2). rewrite H2 in Q2. injection Q2 as <-.
  rewrite S1, S2. cbn [seq_value]. rewrite typed_app.
  assert (Ht : typed (LRequest req1 resp1 body1 :: b) = S (typed b)) by reflexivity. rewrite Ht.
  set (x := N.of_nat (typed a)). replace (N.of_nat (typed a + S (typed b))) with (x + (N.of_nat (typed b) + 1))%N by (unfold x; lia).
  set (y := (N.of_nat (typed b) + 1)%N) in *. assert (Hy : (0 < y < 2 ^ 32)%N) by (unfold y; lia).
  change (2 ^ 32)%N with 4294967296%N in *. clearbody x y. intros E.
  pose proof (N.div_mod x 4294967296). pose proof (N.div_mod (x + y) 4294967296).
  pose proof (N.mod_bound_pos x 4294967296). nia.
Qed.
Print Assumptions C33_distinct.
