(** Theorems about the host client: C59 (outgoing order), C34 (key length), C35
    (sequence number width), C36 (closing), C41 (requests and subscriptions). *)
From Coq Require Import NArith List Bool Arith Lia Permutation.
From Verif Require Import KeyModel HeaderModel KeySpec HeaderSpec KeyProof HeaderProof SubModel SubSpec SubProof SubThm3 ClientModel ClientSpec ClientProof ClientHist ClientMore ClientOut ClientThm ClientThm2.
Import ListNotations.

(** ** C59 Frames leave in the order in which they were accepted, each once *)

(** No call is accepted twice.  What was given to the transport is, in order, one frame
    for each accepted call: the caller's frame with the key cut to a length in use.
    While the out worker lives, nothing accepted is missing except what it is writing
    and what is queued. *)
Theorem C59_in_order_once :
  forall cfg ls c es,
    run cfg ls client_new = Some (c, es) ->
    NoDup (accepted ls es) /\
    exists frames, Forall2 (frame_for ls es) (accepted ls es) frames /\
      (exists rest, map rpc_to_bytes frames = wire es ++ rest) /\
      (c_out_alive c = true -> map rpc_to_bytes frames = wire es ++ map rpc_to_bytes (opt (c_sending c) ++ c_out c)).
Proof.
  intros cfg ls c es H. destruct (reach_out _ _ _ _ H) as ((acc & lost & A1 & A2 & A3 & A4) & ND & _).
  split; auto. exists acc. split; auto. split; [eauto|]. intros Ha. rewrite A2, (A3 Ha), app_nil_r. reflexivity.
Qed.
Print Assumptions C59_in_order_once.

(** ** C34 The client adopts the server's key length *)

(** Whatever the server does, the client uses no key length but the full one and
    lengths it saw in a frame that completed a request; before the first completion,
    the full one. *)
Theorem C34_only_seen_lengths :
  forall cfg ls c es,
    run cfg ls client_new = Some (c, es) ->
    kind_seen es (c_kkind c) /\ (answers es = [] -> c_kkind c = KK8).
Proof.
  intros cfg ls c es H. destruct (reach_kinds _ _ _ _ H) as [K _]. split; auto.
  intros E. destruct K as [K|(f & F & _)]; auto. rewrite E in F. destruct F.
Qed.
Print Assumptions C34_only_seen_lengths.

Section Adopt.
  Variable cfg : Config.
  Variable k : VarKeyKind.

  Definition AdInv (es : list (list Ev)) (c : Client) : Prop :=
    (c_kkind c = KK8 \/ c_kkind c = k) /\
    (answers es <> [] -> c_kkind c = k) /\
    (forall r q kk, nth_error (c_reqs c) r = Some q -> cap (rq_pc q) = Some kk -> kk = KK8 \/ (kk = k /\ c_kkind c = k)).

  Lemma kkind_eqb_refl x : kkind_eqb x x = true.
  Proof. destruct x; reflexivity. Qed.

  Lemma take_kkind l c c' e : step cfg l c = Some (c', e) ->
    (c_kkind c' = c_kkind c /\ answers [e] = []) \/
    exists r q kk f, nth_error (c_reqs c) r = Some q /\ cap (rq_pc q) = Some kk /\ answers [e] = [f] /\
      c_kkind c' = (if kkind_eqb (varkey_kind (hdr_key (f_hdr f))) kk then c_kkind c else varkey_kind (hdr_key (f_hdr f))).
  Proof.
    intros H. destruct l; cbn [ClientModel.step] in H;
    repeat match type of H with context [match ?x with _ => _ end] => destruct x eqn:?; try discriminate end;
    injection H as <- <-; try (left; split; reflexivity).
    - right. exists r, r0, kk, r1. rewrite Heqp. repeat split; auto. unfold adopt. cbv zeta. destruct (kkind_eqb _ _); reflexivity.
    - right. exists r, r0, kk, r1. rewrite Heqp. repeat split; auto. unfold adopt. cbv zeta. destruct (kkind_eqb _ _); reflexivity.
  Qed.

  Lemma reach_adopt ls c es : run cfg ls client_new = Some (c, es) ->
    (forall f, In f (arrived ls) -> varkey_kind (hdr_key (f_hdr f)) = k) -> AdInv es c.
  Proof.
    revert ls c es. apply (run_ind cfg (fun ls c es => (forall f, In f (arrived ls) -> varkey_kind (hdr_key (f_hdr f)) = k) -> AdInv es c)).
    - intros _. split; [left; reflexivity|]. split; [intros X; destruct (X eq_refl)|]. intros [|r]; discriminate.
    - intros ls c es l c' e Hr IH Hs Hk. rewrite arrived_app in Hk.
      destruct (IH (fun f Hf => Hk f (in_or_app _ _ _ (or_introl Hf)))) as (I1 & I2 & I3).
      assert (Hans : forall f, In f (answers (es ++ [e])) -> varkey_kind (hdr_key (f_hdr f)) = k).
      { intros f Hf. apply Hk. rewrite <- arrived_app. eapply mi_in; [eapply reach_used; eapply run_last; eauto|].
        unfold used. apply in_app_iff. auto. }
      unfold AdInv. rewrite answers_app in *.
      assert (Hkk : c_kkind c = k -> c_kkind c' = k).
      { intros E. destruct (take_kkind _ _ _ _ Hs) as [[-> _]|(r & q & kk & f & Hq & Hc & Ha & ->)]; auto.
        destruct (kkind_eqb _ _); auto. apply Hans. rewrite Ha. apply in_app_iff. right. left. auto. }
      split; [|split].
      + destruct (take_kkind _ _ _ _ Hs) as [[-> _]|(r & q & kk & f & Hq & Hc & Ha & ->)]; auto.
        destruct (kkind_eqb _ _); auto. right. apply Hans. rewrite Ha. apply in_app_iff. right. left. auto.
      + intros Hne. destruct (take_kkind _ _ _ _ Hs) as [[-> Ha]|(r & q & kk & f & Hq & Hc & Ha & ->)].
        * rewrite Ha, app_nil_r in Hne. auto.
        * assert (Hf : varkey_kind (hdr_key (f_hdr f)) = k). { apply Hans. rewrite Ha. apply in_app_iff. right. left. auto. }
          destruct (kkind_eqb _ _) eqn:Ek; auto. apply kkind_eqb_iff in Ek. rewrite Hf in Ek. subst kk.
          destruct (I3 _ _ _ Hq Hc) as [E|[_ E]]; auto. destruct I1; congruence.
      + intros r q kk Hq Hc. destruct (step_cap _ _ _ _ _ _ _ _ Hs Hq Hc) as [->|(q0 & Q & C)].
        * destruct I1 as [E|E]; auto.
        * destruct (I3 _ _ _ Q C) as [E|[E1 E2]]; auto.
  Qed.
End Adopt.

(** Against a server that always answers with keys of one length: once a request has
    completed, every typed request made from then on is sent with keys of that
    length. *)
Theorem C34_adopts_server_length :
  forall cfg a c0 e0 req resp body b c es k q,
    run cfg a client_new = Some (c0, e0) ->
    answers e0 <> [] ->
    run cfg (LRequest req resp body :: b) c0 = Some (c, es) ->
    (forall f, In f (arrived (a ++ b)) -> varkey_kind (hdr_key (f_hdr f)) = k) ->
    nth_error (c_reqs c) (length (c_reqs c0)) = Some q ->
    rq_pc q <> PStart -> rq_pc q <> PEnded ->
    hdr_key (f_hdr (rq_frame q)) = shrink_to (VKey8 req) k /\ c_kkind c = k.
Proof.
  intros cfg a c0 e0 req resp body b c es k q Ha Hne Hb Hk Hq Hp1 Hp2.
  pose proof (run_app2 _ _ _ _ _ _ _ _ Ha Hb) as Hrun.
  destruct (reach_issued _ _ _ _ Ha) as (_ & L0 & _).
  destruct (reach_issued _ _ _ _ Hrun) as (_ & L & M).
  assert (Hi : nth_error (issued 0 (a ++ LRequest req resp body :: b)) (length (c_reqs c0)) =
               Some (MkFrame (MkHeader (VKey8 req) (Seq4 (N.of_nat (typed a) mod 4294967296))) body, resp)).
  { rewrite L0, issued_app, nth_error_app2, Nat.sub_diag by lia. reflexivity. }
  destruct (M _ _ _ Hi Hq) as [_ M2].
  assert (Hcap : exists kk, cap (rq_pc q) = Some kk /\ rq_frame q = shrink_frame kk (MkFrame (MkHeader (VKey8 req) (Seq4 (N.of_nat (typed a) mod 4294967296))) body)).
  { destruct (rq_pc q); try congruence; eexists; (split; [reflexivity|exact M2]). }
  destruct Hcap as (kk & Hc & Hf).
  (* the length was read after the first completion *)
  assert (Hall : forall l1 l2 c1 e1, LRequest req resp body :: b = l1 ++ l2 -> run cfg l1 c0 = Some (c1, e1) -> c_kkind c1 = k).
  { intros l1 l2 c1 e1 E H1. pose proof (run_app2 _ _ _ _ _ _ _ _ Ha H1) as H2.
    destruct (reach_adopt cfg k _ _ _ H2) as (_ & X & _).
    - intros f Hin. apply Hk. rewrite arrived_app in *. apply in_app_iff in Hin as [Hin|Hin]; apply in_app_iff; [auto|right].
      assert (Hin2 : In f (arrived (LRequest req resp body :: b))) by (rewrite E, arrived_app; apply in_app_iff; auto). exact Hin2.
    - apply X. rewrite answers_app. intros E0. apply app_eq_nil in E0 as [E0 _]. congruence. }
  assert (Hkk : kk = k).
  { clear - Hall Hb Hq Hc. revert c es Hb Hq Hall. 
    assert (G : forall ls c es, run cfg ls c0 = Some (c, es) ->
      (forall l1 l2 c1 e1, ls = l1 ++ l2 -> run cfg l1 c0 = Some (c1, e1) -> c_kkind c1 = k) ->
      forall q kk, nth_error (c_reqs c) (length (c_reqs c0)) = Some q -> cap (rq_pc q) = Some kk -> kk = k).
    { intros ls. induction ls as [|l ls IH] using rev_ind; intros c es H Hall q' kk' Hq' Hc'.
      - cbn in H. injection H as <- <-. exfalso. assert (length (c_reqs c0) < length (c_reqs c0)) by (apply nth_error_Some; congruence). lia.
      - apply run_app in H as (c1 & e1 & e2 & H1 & H2 & ->). cbn [run] in H2.
        destruct (step cfg l c1) as [[c2 e]|] eqn:E; [|discriminate]. injection H2 as <- <-.
        destruct (step_cap _ _ _ _ _ _ _ _ E Hq' Hc') as [->|(q0 & Q & C)].
        + eapply (Hall ls [l]); eauto.
        + eapply (IH _ _ H1); eauto. intros l1 l2 c3 e3 -> H3. eapply (Hall l1 (l2 ++ [l])); eauto. rewrite app_assoc. reflexivity. }
    intros c es Hb Hq Hall. eapply G; eauto. }
  subst kk. rewrite Hf. split; [reflexivity|]. eapply (Hall _ []); eauto. rewrite app_nil_r. reflexivity.
Qed.
Print Assumptions C34_adopts_server_length.

(** ** C36 Closing is final and total *)

(** Closed is for ever; closing happens by [close] and by failure of either worker;
    then both workers are bound to stop. *)
Theorem C36_closed_stays :
  forall cfg ls c c' es,
    run cfg ls c = Some (c', es) -> is_closed c = true -> is_closed c' = true.
Proof. intros. eapply run_stopped; eauto. Qed.
Print Assumptions C36_closed_stays.

Theorem C36_what_closes :
  forall cfg l c c' e,
    (l = LClose \/ (exists b, l = LOutFail b) \/ l = LInFail) -> step cfg l c = Some (c', e) ->
    is_closed c' = true /\
    (c_out_alive c' = true -> exists c2, step cfg (LOutEnd false) c' = Some (c2, [])) /\
    (c_in_alive c' = true -> exists c2, step cfg LInEnd c' = Some (c2, [])).
Proof.
  intros cfg l c c' e Hl H.
  assert (S : is_closed c' = true).
  { destruct Hl as [->|[(b & ->)| ->]]; cbn [step] in H.
    - injection H as <- <-. reflexivity.
    - destruct (c_sending c); [|discriminate]. injection H as <- <-. reflexivity.
    - destruct (c_offer c); [discriminate|]. destruct (_ || _)%bool; [discriminate|]. injection H as <- <-. reflexivity. }
  unfold is_closed in *. split; auto. split; intros A; cbn [step]; rewrite S, A; cbn [andb]; [destruct (c_sending c')|]; eexists; reflexivity.
Qed.
Print Assumptions C36_what_closes.

(** In a closed client every request that has neither returned nor been dropped can run
    to its end by its own steps and the end of the workers alone, with no help from
    the server, the link or other requests; if it has been registered and was handed
    nothing, it ends with Closed. *)
Theorem C36_every_request_ends :
  forall cfg ls c es r q,
    run cfg ls client_new = Some (c, es) -> is_closed c = true ->
    nth_error (c_reqs c) r = Some q -> rq_pc q <> PEnded ->
    exists more c' es' res,
      incl more [LOutEnd false; LKind r; LEnqOk r; LEnqErr r; LSend r; LTakeClosed r] /\
      run cfg more c = Some (c', es') /\ results es' = [(r, res)] /\ (res = Closed \/ res = BadResponse) /\
      ((exists kk, rq_pc q = PReg kk \/ rq_pc q = PSent kk) -> res = Closed).
Proof.
  intros cfg ls c es r q H Hcl Hq Hp. unfold is_closed in Hcl.
  (* first the out worker ends *)
  assert (Hout : exists m c1 e1, incl m [LOutEnd false] /\ run cfg m c = Some (c1, e1) /\ results e1 = [] /\ c_out_alive c1 = false /\
            c_stopped c1 = true /\ c_reqs c1 = c_reqs c).
  { destruct (c_out_alive c) eqn:A.
    - exists [LOutEnd false]. cbn [run step]. rewrite Hcl, A. cbn. eexists _, _. split; [apply incl_refl|]. split; [reflexivity|]. destruct (c_sending c); auto.
    - exists [], c, []. split; [intros ? []|]. auto. }
  destruct Hout as (m & c1 & e1 & Hm & R1 & E1 & A1 & S1 & Q1).
  assert (Hq1 : nth_error (c_reqs c1) r = Some q) by congruence.
  assert (G : exists more c' es' res, incl more [LOutEnd false; LKind r; LEnqOk r; LEnqErr r; LSend r; LTakeClosed r] /\
      run cfg more c1 = Some (c', es') /\ results es' = [(r, res)] /\ (res = Closed \/ res = BadResponse) /\
      ((exists kk, rq_pc q = PReg kk \/ rq_pc q = PSent kk) -> res = Closed)).
  { clear R1 Q1 H Hq Hm E1 Hcl m e1 es ls.
    (* from PReg *)
    assert (GReg : forall c1 q kk, c_out_alive c1 = false -> nth_error (c_reqs c1) r = Some q -> rq_pc q = PReg kk ->
        exists c', run cfg [LSend r] c1 = Some (c', [[EvResult r Closed]])).
    { intros d p kk A N P. cbn [run step]. rewrite N, P, A. cbn. eauto. }
    assert (GOk : forall c1 q kk, c_out_alive c1 = false -> nth_error (c_reqs c1) r = Some q -> rq_pc q = POkReg kk ->
        exists m c' es' res, incl m [LEnqErr r; LSend r] /\ run cfg m c1 = Some (c', es') /\ results es' = [(r, res)] /\ (res = Closed \/ res = BadResponse)).
    { intros d p kk A N P. destruct (is_duplicate (err_header cfg p kk) (c_waiters d)) eqn:D.
      - exists [LEnqErr r]. cbn [run step]. rewrite N, P, D. eexists _, _, _. split; [intros x [<-|[]]; left; auto|].
        split; [reflexivity|]. cbn. split; [reflexivity|auto].
      - pose (d2 := set_waiters (c_waiters d ++ [MkWaiter (err_header cfg p kk) r true]) (set_req r (with_pc p (PReg kk)) d)).
        assert (N2 : nth_error (c_reqs d2) r = Some (with_pc p (PReg kk))) by (cbn; eapply set_nth_some; eauto).
        destruct (GReg d2 _ kk A N2 eq_refl) as (c' & R).
        exists [LEnqErr r; LSend r], c', ([] :: [[EvResult r Closed]]), Closed. split; [apply incl_refl|]. split; [|split; [reflexivity|auto]].
        replace [LEnqErr r; LSend r] with ([LEnqErr r] ++ [LSend r]) by reflexivity.
        apply (run_app2 cfg [LEnqErr r] [LSend r] d d2 [[]] c' [[EvResult r Closed]]); auto.
        cbn [run step]. rewrite N, P, D. reflexivity. }
    assert (GKind : forall c1 q kk, c_out_alive c1 = false -> nth_error (c_reqs c1) r = Some q -> rq_pc q = PKind kk ->
        exists m c' es' res, incl m [LEnqOk r; LEnqErr r; LSend r] /\ run cfg m c1 = Some (c', es') /\ results es' = [(r, res)] /\ (res = Closed \/ res = BadResponse)).
    { intros d p kk A N P. destruct (is_duplicate (ok_header p kk) (c_waiters d)) eqn:D.
      - exists [LEnqOk r]. cbn [run step]. rewrite N, P, D. eexists _, _, _. split; [intros x [<-|[]]; left; auto|].
        split; [reflexivity|]. cbn. split; [reflexivity|auto].
      - pose (d2 := set_waiters (c_waiters d ++ [MkWaiter (ok_header p kk) r false]) (set_req r (with_pc p (POkReg kk)) d)).
        assert (N2 : nth_error (c_reqs d2) r = Some (with_pc p (POkReg kk))) by (cbn; eapply set_nth_some; eauto).
        destruct (GOk d2 _ kk A N2 eq_refl) as (m & c' & es' & res & I & R & E & X).
        exists ([LEnqOk r] ++ m), c', ([[]] ++ es'), res. split; [intros x [<-|Hx]; [left; auto|right; apply I; auto]|].
        split; [|split; [rewrite results_app, E; reflexivity|auto]].
        eapply run_app2; [|exact R]. cbn [run step]. rewrite N, P, D. reflexivity. }
    assert (Sub1 : forall m, incl m [LEnqErr r; LSend r] -> incl m [LOutEnd false; LKind r; LEnqOk r; LEnqErr r; LSend r; LTakeClosed r]).
    { intros m I x Hx. destruct (I _ Hx) as [<-|[<-|[]]]; cbn; auto 10. }
    assert (Sub2 : forall m, incl m [LEnqOk r; LEnqErr r; LSend r] -> incl m [LOutEnd false; LKind r; LEnqOk r; LEnqErr r; LSend r; LTakeClosed r]).
    { intros m I x Hx. destruct (I _ Hx) as [<-|[<-|[<-|[]]]]; cbn; auto 10. }
    destruct (rq_pc q) eqn:P.
    - pose (q' := MkReq (shrink_frame (c_kkind c1) (rq_frame q)) (rq_resp q) (PKind (c_kkind c1)) (rq_ok q) (rq_err q)).
      assert (N2 : nth_error (c_reqs (set_req r q' c1)) r = Some q') by (cbn; eapply set_nth_some; eauto).
      destruct (GKind (set_req r q' c1) q' (c_kkind c1) A1 N2 eq_refl) as (m & c' & es' & res & I & R & E & X).
      exists ([LKind r] ++ m), c', ([[]] ++ es'), res. split.
      { intros x [<-|Hx]; [right; left; auto|]. apply (Sub2 m I x Hx). }
      split; [|split; [rewrite results_app, E; reflexivity|split; auto]].
      + eapply run_app2; [|exact R]. cbn [run step]. rewrite Hq1, P. reflexivity.
      + intros (kk & [|]); discriminate.
    - destruct (GKind c1 q kk A1 Hq1 P) as (m & c' & es' & res & I & R & E & X). exists m, c', es', res.
      split; [auto|]. repeat split; auto. intros (k2 & [|]); discriminate.
    - destruct (GOk c1 q kk A1 Hq1 P) as (m & c' & es' & res & I & R & E & X). exists m, c', es', res.
      split; [auto|]. repeat split; auto. intros (k2 & [|]); discriminate.
    - destruct (GReg c1 q kk A1 Hq1 P) as (c' & R). exists [LSend r], c', [[EvResult r Closed]], Closed.
      split; [intros x [<-|[]]; cbn; auto 10|]. repeat split; auto.
    - exists [LTakeClosed r]. cbn [run step]. rewrite Hq1, P, S1. eexists _, _, Closed.
      split; [intros x [<-|[]]; cbn; auto 10|]. split; [reflexivity|]. repeat split; auto.
    - congruence. }
  destruct G as (more & c' & es' & res & I & R & E & X & Y).
  exists (m ++ more), c', (e1 ++ es'), res. split.
  { intros x Hx. apply in_app_iff in Hx as [Hx|Hx]; [|auto]. destruct (Hm _ Hx) as [<-|[]]. left. auto. }
  split; [eapply run_app2; eauto|]. rewrite results_app, E1, E. auto.
Qed.
Print Assumptions C36_every_request_ends.

(** Once the receiving worker has ended, no request that was handed nothing before
    gets an answer any more, whatever happens: pending requests and requests made
    later can only return Closed (or be refused as duplicates). *)
Theorem C36_no_answer_after_end :
  forall cfg ls c es more c' es' r res,
    run cfg ls client_new = Some (c, es) -> c_in_alive c = false ->
    (forall q, nth_error (c_reqs c) r = Some q -> rq_ok q = None /\ rq_err q = None) ->
    run cfg more c = Some (c', es') -> In (r, res) (results es') -> res = Closed \/ res = BadResponse.
Proof.
  intros cfg ls c es more. revert ls c es. induction more as [|l more IH]; intros ls c es c' es' r res H Ha Hn Hm Hin.
  - cbn in Hm. injection Hm as <- <-. destruct Hin.
  - cbn [run] in Hm. destruct (step cfg l c) as [[c1 e]|] eqn:E; [|discriminate].
    destruct (run cfg more c1) as [[c2 e2]|] eqn:E2; [|discriminate]. injection Hm as <- <-.
    pose proof (reach_finv _ _ _ _ H) as (_ & _ & F3 & _). destruct (F3 Ha) as [Fo _].
    replace (e :: e2) with ([e] ++ e2) in Hin by reflexivity. rewrite results_app in Hin. apply in_app_iff in Hin as [Hin|Hin].
    + rewrite (step_results _ _ _ _ _ E) in Hin. destruct (result_of e) as [p|] eqn:Er; [|destruct Hin]. destruct Hin as [->|[]].
      pose proof (step_cstep _ _ _ _ _ E) as HC. rewrite Er in HC.
      destruct (cstep_result_inv _ _ _ _ _ _ _ _ HC) as (q & Hq & _ & _ & _ & X).
      destruct (Hn _ Hq) as [N1 N2]. destruct res; auto; destruct X as [_ X]; congruence.
    + eapply (IH (ls ++ [l]) c1 (es ++ [e])); eauto.
      * eapply run_last; eauto.
      * destruct (c_in_alive c1) eqn:A; auto. rewrite (step_in_alive _ _ _ _ _ E A) in Ha. discriminate.
      * intros q Hq. pose proof (step_cstep _ _ _ _ _ E) as HC. pose proof (reach_cinv _ _ _ _ H) as HI. unfold CInv in HI.
        assert (Hnw : forall i, l <> LWake (Some i)).
        { intros i ->. cbn [step] in E. rewrite Fo in E. discriminate. }
        clear - HC Hn Hq Hnw. destruct HC; auto.
        -- apply nth_app_last in Hq as [Hq|[-> ->]]; auto.
        -- apply set_nth_inv in Hq as [[-> ->]|[_ Hq]]; auto. cbn. auto.
        -- apply set_nth_inv in Hq as [[-> ->]|[_ Hq]]; auto. 
           match goal with N : nth_error _ _ = Some ?q0, X : (if ?b then _ else _) |- _ => destruct (Hn q0 N); destruct b; destruct X as (_ & _ & ->); auto end.
        -- apply set_nth_inv in Hq as [[-> ->]|[_ Hq]]; auto. cbn. auto.
        -- apply set_nth_inv in Hq as [[-> ->]|[_ Hq]]; auto.
        -- exfalso. eapply Hnw; eauto.
Qed.
Print Assumptions C36_no_answer_after_end.

(** Publications: in a closed client each pending one can return at once with an
    error; once the out worker has ended, none is accepted any more. *)
Theorem C36_publications :
  forall cfg ls c es i f,
    run cfg ls client_new = Some (c, es) -> nth_error (c_pubs c) i = Some (Some f) ->
    (is_closed c = true -> exists c', step cfg (LPubClosed i) c = Some (c', [EvPublished i false])) /\
    (c_out_alive c = false -> exists c', step cfg (LPubSend i) c = Some (c', [EvPublished i false])).
Proof.
  intros cfg ls c es i f _ Hi. split.
  - unfold is_closed. intros Hc. cbn [step]. rewrite Hi, Hc. eauto.
  - intros Ha. cbn [step]. rewrite Hi, Ha. cbn. eauto.
Qed.
Print Assumptions C36_publications.

(** ** C41 Requests do not steal from subscriptions *)

(** A frame that a subscription is registered for is never handed to a request nor
    discarded: on arrival it goes to the subscriptions only.  Any other frame is
    offered to the requests. *)
Theorem C41_requests_get_the_rest :
  forall cfg c bytes f c' e,
    step cfg (LRecv bytes) c = Some (c', e) -> frame_of bytes = [f] ->
    (c_offer c' = None <->
     exists k id, (In (k, id) (exclusive_list (c_subs c)) \/ In (k, id) (broadcast_list (c_subs c))) /\ of_topic k f = true) /\
    (c_offer c' <> None -> c_offer c' = Some f /\ c_subs c' = c_subs c) /\
    c_reqs c' = c_reqs c /\ c_waiters c' = c_waiters c.
Proof.
  intros cfg c bytes f c' e H Hf. unfold frame_of in Hf. cbn [step] in H.
  destruct (c_offer c) eqn:Ho; [discriminate|]. destruct (_ || _)%bool; [discriminate|].
  destruct (take_from_slice bytes) as [[[h b]|]|]; try discriminate. injection Hf as <-.
  destruct (sub_step (cfg_no_wait cfg) (Deliver (MkFrame h b)) (c_subs c)) as [[s o]|] eqn:E; [|discriminate].
  assert (Hd : exists d, o = ODelivery d).
  { cbn in E. destruct (_ || _)%bool; [discriminate|]. destruct (deliver _ _ _). injection E as <- <-. eauto. }
  destruct Hd as (d & ->). destruct (C41_offered_to_requests_iff _ _ _ _ _ E) as [D1 D2].
  assert (Hno : d <> NotHandled -> exists k id, (In (k, id) (exclusive_list (c_subs c)) \/ In (k, id) (broadcast_list (c_subs c))) /\ of_topic k (MkFrame h b) = true).
  { intros Hd.
    destruct (existsb (fun e => of_topic (fst e) (MkFrame h b)) (exclusive_list (c_subs c) ++ broadcast_list (c_subs c))) eqn:X.
    - apply existsb_exists in X as ([k id] & Hin & T). exists k, id. apply in_app_iff in Hin. auto.
    - exfalso. apply Hd. apply D1.
      assert (G : forall k id, In (k, id) (exclusive_list (c_subs c) ++ broadcast_list (c_subs c)) -> of_topic k (MkFrame h b) = false).
      { intros k id Hin. destruct (of_topic k (MkFrame h b)) eqn:T; auto. exfalso.
        assert (X2 : existsb (fun e => of_topic (fst e) (MkFrame h b)) (exclusive_list (c_subs c) ++ broadcast_list (c_subs c)) = true); [|congruence].
        apply existsb_exists. exists (k, id). auto. }
      split; intros k id Hin; eapply G; apply in_app_iff; eauto. }
  destruct d.
  - injection H as <- <-. cbn. split; [|split; [congruence|auto]]. split; auto. intros _. apply Hno. discriminate.
  - injection H as <- <-. cbn. destruct D1 as [D1 _]. destruct (D1 eq_refl) as [Y1 Y2]. split; [|split; [intros _; split; auto|auto]].
    split; [discriminate|]. intros (k & id & [Hin|Hin] & T); change (of_topic k (MkFrame h b) = true) in T.
    + rewrite (Y1 _ _ Hin) in T. discriminate.
    + rewrite (Y2 _ _ Hin) in T. discriminate.
  - injection H as <- <-. cbn. split; [|split; [congruence|auto]]. split; auto. intros _. apply Hno. discriminate.
Qed.
Print Assumptions C41_requests_get_the_rest.
