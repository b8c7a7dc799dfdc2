(** What the state of a client tells about its history. *)
From Coq Require Import NArith List Bool Arith Lia Permutation.
From Verif Require Import KeyModel HeaderModel KeySpec HeaderSpec KeyProof HeaderProof SubModel SubSpec SubProof ClientModel ClientSpec ClientProof.
Import ListNotations.


Lemma typed_app a b : typed (a ++ b) = typed a + typed b.
Proof. unfold typed. rewrite filter_app, app_length. reflexivity. Qed.

Lemma issued_app a b n : issued n (a ++ b) = issued n a ++ issued (n + N.of_nat (typed a)) b.
Proof.
  revert n. induction a as [|l a IH]; intros n.
  - cbn. f_equal. lia.
  - destruct l; cbn [app issued]; rewrite IH; try reflexivity.
    cbn [app]. do 3 f_equal. unfold typed. cbn [filter is_typed length]. lia.
Qed.

Lemma arrived_app a b : arrived (a ++ b) = arrived a ++ arrived b.
Proof. unfold arrived. apply flat_map_app. Qed.
Lemma results_app a b : results (a ++ b) = results a ++ results b.
Proof. unfold results. rewrite concat_app. apply flat_map_app. Qed.
Lemma answers_app a b : answers (a ++ b) = answers a ++ answers b.
Proof. unfold answers. rewrite results_app. apply flat_map_app. Qed.
Lemma wire_app a b : wire (a ++ b) = wire a ++ wire b.
Proof. unfold wire. rewrite concat_app. apply flat_map_app. Qed.

Section Hist.
  Variable cfg : Config.
  Notation step := (step cfg).
  Notation run := (run cfg).

  Lemma step_results l c c' e : step l c = Some (c', e) ->
    results [e] = match result_of e with Some p => [p] | None => [] end.
  Proof.
    intros H. destruct l; cbn [ClientModel.step] in H;
    repeat match type of H with context [match ?x with _ => _ end] => destruct x; try discriminate end;
    injection H as <- <-; try reflexivity.
  Qed.

  (** ** Requests as issued *)
  Definition made (i : RpcFrame * Key8) (q : Req) : Prop :=
    rq_resp q = snd i /\
    match rq_pc q with
    | PStart => rq_frame q = fst i
    | PKind kk | POkReg kk | PReg kk | PSent kk => rq_frame q = shrink_frame kk (fst i)
    | PEnded => rq_frame q = fst i \/ exists kk, rq_frame q = shrink_frame kk (fst i)
    end.
  Definition IssuedInv (ls : list Label) (c : Client) : Prop :=
    c_seq c = (N.of_nat (typed ls) mod 4294967296)%N /\
    length (c_reqs c) = length (issued 0 ls) /\
    forall r i q, nth_error (issued 0 ls) r = Some i -> nth_error (c_reqs c) r = Some q -> made i q.

  Lemma cstep_made l reqs ws reqs' ws' o :
    CStep cfg l reqs ws reqs' ws' o -> 
    (forall f resp, l <> LRequestRaw f resp) -> (forall a b d, l <> LRequest a b d) ->
    length reqs' = length reqs /\
    forall r i q', nth_error reqs' r = Some q' -> (forall q, nth_error reqs r = Some q -> made i q) -> made i q'.
  Proof.
    intros H N1 N2. destruct H.
    - split; auto.
    - exfalso. destruct H as [->|(req & body & -> & _)]; [eapply N1|eapply N2]; eauto.
    - rewrite set_nth_length. split; auto. intros j i q' Hj Hm. apply set_nth_inv in Hj as [[-> ->]|[_ Hj]]; [|auto].
      destruct (Hm _ H) as [M1 M2]. rewrite H0 in M2. split; cbn; auto. rewrite M2. auto.
    - rewrite set_nth_length. split; auto. intros j i q1 Hj Hm. apply set_nth_inv in Hj as [[-> ->]|[_ Hj]]; [|auto].
      destruct (Hm _ H) as [M1 M2]. destruct e, H0 as (-> & Hp & ->); rewrite Hp in M2; split; cbn; auto.
    - rewrite set_nth_length. split; auto. intros j i q' Hj Hm. apply set_nth_inv in Hj as [[-> ->]|[_ Hj]]; [|auto].
      destruct (Hm _ H) as [M1 M2]. rewrite H0 in M2. split; cbn; auto.
    - rewrite set_nth_length. split; auto. intros j i q' Hj Hm. apply set_nth_inv in Hj as [[-> ->]|[_ Hj]]; [|auto].
      destruct (Hm _ H) as [M1 M2]. split; cbn; auto. destruct (rq_pc q); eauto.
    - rewrite set_nth_length. split; auto. intros j i0 q' Hj Hm. apply set_nth_inv in Hj as [[-> ->]|[_ Hj]]; [|auto].
      destruct (Hm _ H0) as [M1 M2]. unfold fill. destruct (w_err w); split; cbn; auto.
  Qed.

  Lemma issued_other n l : (forall f resp, l <> LRequestRaw f resp) -> (forall a b d, l <> LRequest a b d) -> issued n [l] = [].
  Proof. intros A B. destruct l; auto; exfalso; [eapply B|eapply A]; reflexivity. Qed.

  Lemma adopt_seq kk f c : c_seq (adopt kk f c) = c_seq c.
  Proof. unfold adopt. destruct (negb _); auto. Qed.

  Lemma step_seq l c c' e : step l c = Some (c', e) ->
    c_seq c' = if is_typed l then ((c_seq c + 1) mod 4294967296)%N else c_seq c.
  Proof.
    intros H. destruct l; cbn [ClientModel.step] in H;
    repeat match type of H with context [match ?x with _ => _ end] => destruct x; try discriminate end;
    injection H as <- <-; cbn [is_typed]; rewrite ?adopt_seq; reflexivity.
  Qed.

  Lemma reach_issued ls c es : run ls client_new = Some (c, es) -> IssuedInv ls c.
  Proof.
    revert ls c es. apply run_ind.
    - repeat split; cbn; auto; destruct r; discriminate.
    - intros ls c es l c' e Hr (I1 & I2 & I3) Hs.
      assert (Hseq : c_seq c' = (N.of_nat (typed (ls ++ [l])) mod 4294967296)%N).
      { rewrite (step_seq _ _ _ _ Hs), I1, typed_app.
        assert (Ht : typed [l] = if is_typed l then 1 else 0) by (destruct l; reflexivity). rewrite Ht. destruct (is_typed l).
        - rewrite N.add_mod_idemp_l by discriminate. f_equal. lia.
        - f_equal. lia. }
      split; [exact Hseq|]. rewrite issued_app.
      assert (Hcase : (exists f resp, l = LRequestRaw f resp) \/ (exists a b d, l = LRequest a b d) \/
                      ((forall f resp, l <> LRequestRaw f resp) /\ (forall a b d, l <> LRequest a b d))).
      { destruct l; eauto; try (right; right; split; congruence). right. left. eauto. }
      destruct Hcase as [(f & resp & ->)|[(req & resp & body & ->)|[N1 N2]]].
      + cbn in Hs. injection Hs as <- <-. cbn [c_reqs new_request issued]. split.
        * rewrite !app_length. cbn. lia.
        * intros r i q Hi Hq. apply nth_app_last in Hi, Hq. destruct Hi as [Hi|[Hi ->]], Hq as [Hq|[Hq ->]].
          -- eauto.
          -- exfalso. assert (r < length (issued 0 ls)) by (apply nth_error_Some; congruence). lia.
          -- exfalso. assert (r < length (c_reqs c)) by (apply nth_error_Some; congruence). lia.
          -- split; reflexivity.
      + cbn in Hs. injection Hs as <- <-. cbn [c_reqs new_request issued]. split.
        * rewrite !app_length. cbn. lia.
        * intros r i q Hi Hq. apply nth_app_last in Hi, Hq. destruct Hi as [Hi|[Hi ->]], Hq as [Hq|[Hq ->]].
          -- eauto.
          -- exfalso. assert (r < length (issued 0 ls)) by (apply nth_error_Some; congruence). lia.
          -- exfalso. assert (r < length (c_reqs c)) by (apply nth_error_Some; congruence). lia.
          -- split; cbn [rq_resp snd rq_pc rq_frame fst]; auto. rewrite I1. reflexivity.
      + rewrite issued_other, app_nil_r by auto.
        destruct (cstep_made _ _ _ _ _ _ (step_cstep _ _ _ _ _ Hs) N1 N2) as [L M]. split; [congruence|].
        intros r i q Hi Hq. eapply M; eauto.
  Qed.

  (** ** Frames are used once *)
  Definition held (reqs : list Req) : list RpcFrame := flat_map (fun q => opt (rq_ok q) ++ opt (rq_err q)) reqs.

  Lemma held_app a b : held (a ++ b) = held a ++ held b.
  Proof. unfold held. apply flat_map_app. Qed.

  Lemma set_nth_split A (l : list A) i x y : nth_error l i = Some y -> set_nth i x l = firstn i l ++ x :: skipn (S i) l.
  Proof.
    intros H. pose proof (split_at _ _ _ _ H) as E. unfold set_nth.
    assert (Hs : skipn i l = y :: skipn (S i) l).
    { rewrite E at 1. rewrite skipn_app, firstn_length_le by (apply Nat.lt_le_incl, nth_error_Some; congruence).
      rewrite Nat.sub_diag, skipn_all2; [reflexivity|]. rewrite firstn_length. lia. }
    rewrite Hs. reflexivity.
  Qed.

  Lemma held_set reqs r q q' : nth_error reqs r = Some q ->
    exists a b, held reqs = a ++ (opt (rq_ok q) ++ opt (rq_err q)) ++ b /\ held (set_nth r q' reqs) = a ++ (opt (rq_ok q') ++ opt (rq_err q')) ++ b.
  Proof.
    intros H. rewrite (set_nth_split _ _ _ q' _ H). pose proof (split_at _ _ _ _ H) as E.
    exists (held (firstn r reqs)), (held (skipn (S r) reqs)). split; [rewrite E at 1|]; rewrite held_app; reflexivity.
  Qed.

  Definition used (c : Client) (es : list (list Ev)) : list RpcFrame := answers es ++ held (c_reqs c) ++ opt (c_offer c).

  (** [xs] is contained in [ys], with multiplicities. *)
  Definition mset_incl (xs ys : list RpcFrame) : Prop := exists rest, Permutation ys (xs ++ rest).

  Lemma mi_refl xs : mset_incl xs xs.
  Proof. exists []. rewrite app_nil_r. reflexivity. Qed.
  Lemma mi_trans a b c : mset_incl a b -> mset_incl b c -> mset_incl a c.
  Proof. intros [r P] [r' P']. exists (r ++ r'). rewrite P', P, app_assoc. reflexivity. Qed.
  Lemma mi_perm a b : Permutation a b -> mset_incl a b.
  Proof. intros P. exists []. rewrite app_nil_r. symmetry. exact P. Qed.
  Lemma mi_app_r a b x : mset_incl a b -> mset_incl (a ++ x) (b ++ x).
  Proof. intros [r P]. exists r. rewrite P, <- !app_assoc. apply Permutation_app_head, Permutation_app_comm. Qed.
  Lemma mi_app_l a b x : mset_incl a b -> mset_incl (x ++ a) (x ++ b).
  Proof. intros [r P]. exists r. rewrite P, app_assoc. reflexivity. Qed.
  Lemma mi_weak a b : mset_incl a (a ++ b).
  Proof. exists b. reflexivity. Qed.
  Lemma mi_weak_l a b : mset_incl a (b ++ a).
  Proof. exists b. apply Permutation_app_comm. Qed.
  Lemma mi_nil a : mset_incl [] a.
  Proof. exists a. reflexivity. Qed.
  Lemma mi_app a b x y : mset_incl a b -> mset_incl x y -> mset_incl (a ++ x) (b ++ y).
  Proof. intros H1 H2. eapply mi_trans; [apply mi_app_r; eauto|]. apply mi_app_l; auto. Qed.
  Lemma mi_in a b x : mset_incl a b -> In x a -> In x b.
  Proof. intros [r P] H. eapply Permutation_in; [symmetry; exact P|]. apply in_app_iff. auto. Qed.

  Definition answer_of (o : option (nat * ReqResult)) : list RpcFrame :=
    match o with Some (_, GotReply f) => [f] | Some (_, GotError f) => [f] | _ => [] end.
  Lemma step_answers l c c' e : step l c = Some (c', e) -> answers [e] = answer_of (result_of e).
  Proof.
    intros H. unfold answers. rewrite (step_results _ _ _ _ H). destruct (result_of e) as [[r []]|]; reflexivity.
  Qed.

  Lemma cstep_held l reqs ws reqs' ws' o :
    CStep cfg l reqs ws reqs' ws' o -> WInv cfg reqs ws -> (forall ch, l <> LWake ch) ->
    mset_incl (answer_of o ++ held reqs') (held reqs).
  Proof.
    intros H HI Hw. destruct H.
    - apply mi_refl.
    - cbn. rewrite held_app. cbn. rewrite app_nil_r. apply mi_refl.
    - destruct (held_set _ _ _ (MkReq (shrink_frame kk (rq_frame q)) (rq_resp q) (PKind kk) (rq_ok q) (rq_err q)) H) as (a & b & -> & ->). apply mi_refl.
    - destruct (held_set _ _ _ q' H) as (a & b & -> & ->). destruct e, H0 as (_ & _ & ->); apply mi_refl.
    - destruct (held_set _ _ _ (with_pc q (PSent kk)) H) as (a & b & -> & ->). apply mi_refl.
    - destruct (held_set _ _ _ (MkReq (rq_frame q) (rq_resp q) PEnded None None) H) as (a & b & -> & ->). cbn [rq_ok rq_err opt app].
      assert (HH : mset_incl (answer_of o) (opt (rq_ok q) ++ opt (rq_err q))).
      { destruct o as [[r' res]|]; cbn; [|apply mi_nil]. destruct H1 as (-> & H1). destruct res; try apply mi_nil.
        - destruct H1 as (_ & ->). apply mi_weak.
        - destruct H1 as (_ & ->). apply mi_weak_l. }
      eapply mi_trans; [|apply mi_app_l, mi_app_r, HH].
      apply mi_perm. rewrite !app_assoc. apply Permutation_app_tail, Permutation_app_comm.
    - exfalso. eapply Hw; eauto.
  Qed.

  Lemma step_offer l c c' e : step l c = Some (c', e) -> (forall ch, l <> LWake ch) ->
    mset_incl (opt (c_offer c')) (opt (c_offer c) ++ arrived [l]).
  Proof.
    intros H Hw. destruct l; cbn [ClientModel.step] in H;
    try (exfalso; eapply Hw; reflexivity);
    try (repeat match type of H with context [match ?x with _ => _ end] => destruct x eqn:?; try discriminate end;
         injection H as <- <-; unfold adopt; try destruct (negb _); cbn [c_offer set_kkind end_req set_waiters set_req];
         first [apply mi_weak | apply mi_nil | idtac]).
    all: unfold arrived, frame_of; cbn; rewrite ?Heqo, ?Heqo0; cbn; first [apply mi_refl | apply mi_nil].
  Qed.

  Lemma answers_last es e : answers (es ++ [e]) = answers es ++ answers [e].
  Proof. apply answers_app. Qed.

  Lemma wake_reqs ch c c' e : step (LWake ch) c = Some (c', e) ->
    answers [e] = [] /\ c_offer c' = None /\ exists f, c_offer c = Some f /\
    ((ch = None /\ c_reqs c' = c_reqs c /\ c_waiters c' = c_waiters c /\ e = [EvDiscarded f] /\
        existsb (fun w => header_eqb (w_hdr w) (f_hdr f)) (c_waiters c) = false) \/
     (exists i w q, ch = Some i /\ nth_error (c_waiters c) i = Some w /\ nth_error (c_reqs c) (w_req w) = Some q /\
        header_eqb (w_hdr w) (f_hdr f) = true /\ e = [] /\
        c_waiters c' = firstn i (c_waiters c) ++ skipn (S i) (c_waiters c) /\
        c_reqs c' = set_nth (w_req w) (fill (w_err w) q f) (c_reqs c))).
  Proof.
    cbn [ClientModel.step]. intros H. destruct (c_offer c) as [f|]; [|discriminate]. destruct ch as [i|].
    - destruct (nth_error (c_waiters c) i) as [w|] eqn:Hw; [|discriminate].
      destruct (header_eqb _ _) eqn:Hm; [|discriminate].
      destruct (nth_error (c_reqs c) (w_req w)) as [q|] eqn:Hq; [|discriminate].
      injection H as <- <-. split; [reflexivity|]. split; [reflexivity|]. exists f. split; auto. right. exists i, w, q. auto 10.
    - destruct (existsb _ _) eqn:Hx; [discriminate|]. injection H as <- <-.
      split; [reflexivity|]. split; [reflexivity|]. exists f. split; auto. left. auto.
  Qed.

  Lemma reach_used ls c es : run ls client_new = Some (c, es) -> mset_incl (used c es) (arrived ls).
  Proof.
    revert ls c es. apply run_ind.
    - apply mi_refl.
    - intros ls c es l c' e Hr IH Hs. pose proof (reach_cinv _ _ _ _ Hr) as HI.
      rewrite arrived_app. unfold used in *. rewrite answers_last.
      eapply mi_trans; [|apply mi_app_r; exact IH].
      assert (Hd : (exists ch, l = LWake ch) \/ (forall ch, l <> LWake ch)) by (destruct l; eauto; right; congruence).
      destruct Hd as [[ch ->]|Hn].
      + destruct (wake_reqs _ _ _ _ Hs) as (Ha & Ho' & f & Ho & Hc). rewrite Ha, Ho', Ho, app_nil_r, app_nil_r. cbn [arrived flat_map]. rewrite app_nil_r.
        apply mi_app_l. destruct Hc as [(_ & -> & _)|(i & w & q & _ & Hw & Hq & Hm & _ & _ & ->)].
        * apply mi_weak.
        * destruct (wi_from _ _ _ HI w (nth_error_In _ _ Hw)) as (q1 & kk & K1 & K2 & K3 & K4).
          rewrite Hq in K1. injection K1 as <-.
          destruct (held_set _ _ _ (fill (w_err w) q f) Hq) as (a & b & -> & ->).
          apply mi_perm. rewrite <- !app_assoc. apply Permutation_app_head. unfold slot in K3. unfold fill.
          destruct (w_err w); cbn; rewrite K3; cbn.
          -- apply Permutation_app_head. apply Permutation_cons_append.
          -- rewrite app_assoc. apply Permutation_cons_append.
      + rewrite (step_answers _ _ _ _ Hs).
        pose proof (cstep_held _ _ _ _ _ _ (step_cstep _ _ _ _ _ Hs) HI Hn) as H1.
        pose proof (step_offer _ _ _ _ Hs Hn) as H2.
        rewrite <- !app_assoc. apply mi_app_l. rewrite app_assoc. apply mi_app; auto.
  Qed.

  (** ** Results *)
  Lemma cstep_ended l reqs ws reqs' ws' o r q : CStep cfg l reqs ws reqs' ws' o -> WInv cfg reqs ws ->
    nth_error reqs r = Some q -> rq_pc q = PEnded -> nth_error reqs' r = Some q.
  Proof.
    intros H HI Hq Hp. destruct H; auto.
    - rewrite nth_error_app1; auto. apply nth_error_Some. congruence.
    - rewrite set_nth_other; auto. intros ->. congruence.
    - rewrite set_nth_other; auto. intros ->. rewrite H in Hq. injection Hq as ->. destruct e, H0 as (_ & Hp' & _); congruence.
    - rewrite set_nth_other; auto. intros ->. congruence.
    - rewrite set_nth_other; auto. intros ->. congruence.
    - rewrite set_nth_other; auto. intros E. destruct (wi_from _ _ _ HI w (nth_error_In _ _ H)) as (q1 & kk & K1 & K2 & _).
      rewrite E, Hq in K1. injection K1 as <-. rewrite Hp in K2. discriminate.
  Qed.

  Lemma cstep_result l reqs ws reqs' ws' r res : CStep cfg l reqs ws reqs' ws' (Some (r, res)) ->
    (exists q, nth_error reqs r = Some q /\ rq_pc q <> PEnded) /\ exists q', nth_error reqs' r = Some q' /\ rq_pc q' = PEnded.
  Proof.
    intros H. inversion H; subst. destruct H2 as (-> & _). split; [eauto|].
    eexists. split; [eapply set_nth_some; eauto|reflexivity].
  Qed.

  Lemma cstep_result_inv l reqs ws reqs' ws' r res : CStep cfg l reqs ws reqs' ws' (Some (r, res)) ->
    exists q, nth_error reqs r = Some q /\ rq_pc q <> PEnded /\
      reqs' = set_nth r (MkReq (rq_frame q) (rq_resp q) PEnded None None) reqs /\ ws' = drop_waiters r ws /\
         match res with
         | GotReply f => l = LTakeOk r /\ rq_ok q = Some f
         | GotError f => l = LTakeErr r /\ rq_err q = Some f
         | BadResponse => exists e kk, is_duplicate (whdr cfg e q kk) ws = true /\
             (if e then l = LEnqErr r /\ rq_pc q = POkReg kk else l = LEnqOk r /\ rq_pc q = PKind kk)
         | Closed => l = LTakeClosed r \/ l = LSend r
         end.
  Proof. intros H. inversion H; subst. destruct H2 as (-> & H2). eauto 10. Qed.

  Lemma step_ended l c c' e r : step l c = Some (c', e) -> CInv cfg c -> ended c r -> ended c' r /\ forall res, result_of e <> Some (r, res).
  Proof.
    intros H HI (q & Hq & Hp). pose proof (step_cstep _ _ _ _ _ H) as HC. split.
    - exists q. split; auto. eapply cstep_ended; eauto.
    - intros res E. rewrite E in HC. destruct (cstep_result _ _ _ _ _ _ _ HC) as ((q1 & Q1 & Q2) & _). congruence.
  Qed.
  Lemma step_result_ended l c c' e r res : step l c = Some (c', e) -> result_of e = Some (r, res) -> ended c' r /\ ~ ended c r.
  Proof.
    intros H E. pose proof (step_cstep _ _ _ _ _ H) as HC. rewrite E in HC.
    destruct (cstep_result _ _ _ _ _ _ _ HC) as ((q1 & Q1 & Q2) & q2 & Q3 & Q4). split; [exists q2; auto|].
    intros (q & Hq & Hp). congruence.
  Qed.

  Lemma reach_results ls c es : run ls client_new = Some (c, es) ->
    NoDup (map fst (results es)) /\ forall r res, In (r, res) (results es) -> ended c r.
  Proof.
    revert ls c es. apply run_ind.
    - split; [constructor|intros ? ? []].
    - intros ls c es l c' e Hr [I1 I2] Hs. rewrite results_app, (step_results _ _ _ _ Hs).
      pose proof (reach_cinv _ _ _ _ Hr) as HI.
      destruct (result_of e) as [[r res]|] eqn:Er.
      + destruct (step_result_ended _ _ _ _ _ _ Hs Er) as [E1 E2]. split.
        * rewrite map_app. cbn. apply (Permutation_NoDup (l := r :: map fst (results es))).
          { apply Permutation_cons_append. }
          constructor; auto. intros Hin. apply in_map_iff in Hin as ([r1 res1] & <- & Hin). apply E2. eapply I2; eauto.
        * intros r1 res1 Hin. apply in_app_iff in Hin as [Hin|[E|[]]].
          -- eapply step_ended; eauto.
          -- injection E as <- <-. auto.
      + rewrite app_nil_r. split; auto. intros r1 res1 Hin. eapply step_ended; eauto.
  Qed.

  (** ** Key lengths *)
  Definition cap (p : Pc) : option VarKeyKind :=
    match p with PKind kk | POkReg kk | PReg kk | PSent kk => Some kk | _ => None end.

  Lemma kind_seen_mono es es' kk : kind_seen es kk -> kind_seen (es ++ es') kk.
  Proof. intros [H|(f & H & E)]; [left; auto|right]. exists f. rewrite answers_app, in_app_iff. auto. Qed.

  Lemma step_kkind l c c' e : step l c = Some (c', e) ->
    c_kkind c' = c_kkind c \/ exists f, In f (answers [e]) /\ c_kkind c' = varkey_kind (hdr_key (f_hdr f)).
  Proof.
    intros H. destruct l; cbn [ClientModel.step] in H;
    repeat match type of H with context [match ?x with _ => _ end] => destruct x eqn:?; try discriminate end;
    injection H as <- <-; auto;
    unfold adopt; destruct (negb _); auto; right; cbn; eauto.
  Qed.

  Lemma step_cap l c c' e r q' kk : step l c = Some (c', e) -> nth_error (c_reqs c') r = Some q' -> cap (rq_pc q') = Some kk ->
    kk = c_kkind c \/ exists q, nth_error (c_reqs c) r = Some q /\ cap (rq_pc q) = Some kk.
  Proof.
    intros H Hq Hc.
    assert (Hd : (exists r0, l = LKind r0) \/ (forall r0, l <> LKind r0)) by (destruct l; eauto; right; congruence).
    destruct Hd as [[r0 ->]|Hn].
    { cbn [ClientModel.step] in H. destruct (nth_error (c_reqs c) r0) as [q|] eqn:E; [|discriminate].
      destruct (rq_pc q); try discriminate. injection H as <- <-. cbn in Hq. apply set_nth_inv in Hq as [[-> ->]|[_ Hq]]; [|eauto].
      cbn in Hc. left. congruence. }
    right. pose proof (step_cstep _ _ _ _ _ H) as HC. destruct HC.
    - eauto.
    - apply nth_app_last in Hq as [Hq|[-> ->]]; [eauto|discriminate].
    - exfalso. eapply Hn; eauto.
    - apply set_nth_inv in Hq as [[-> ->]|[_ Hq]]; [|eauto]. exists q. split; auto.
      destruct e0, H1 as (_ & Hp & ->); rewrite Hp; exact Hc.
    - apply set_nth_inv in Hq as [[-> ->]|[_ Hq]]; [|eauto]. exists q. split; auto. rewrite H1. exact Hc.
    - apply set_nth_inv in Hq as [[-> ->]|[_ Hq]]; [discriminate|eauto].
    - apply set_nth_inv in Hq as [[-> ->]|[_ Hq]]; [|eauto]. exists q. split; auto. revert Hc. unfold fill. destruct (w_err w); auto.
  Qed.

  Lemma reach_kinds ls c es : run ls client_new = Some (c, es) ->
    kind_seen es (c_kkind c) /\ forall r q kk, nth_error (c_reqs c) r = Some q -> cap (rq_pc q) = Some kk -> kind_seen es kk.
  Proof.
    revert ls c es. apply run_ind.
    - split; [left; reflexivity|]. intros r q kk H. destruct r; discriminate.
    - intros ls c es l c' e Hr [I1 I2] Hs. split.
      + destruct (step_kkind _ _ _ _ Hs) as [->|(f & Hf & ->)]; [apply kind_seen_mono; auto|].
        right. exists f. rewrite answers_app, in_app_iff. auto.
      + intros r q kk Hq Hc. apply kind_seen_mono. destruct (step_cap _ _ _ _ _ _ _ Hs Hq Hc) as [->|(q0 & Q & C)]; eauto.
  Qed.

  (** ** Every result is justified *)
  Lemma reg_cap e p kk : reg e p = Some kk -> cap p = Some kk.
  Proof. destruct p, e; cbn; congruence. Qed.

  Lemma made_seq i q : made i q -> hdr_seq (f_hdr (rq_frame q)) = hdr_seq (f_hdr (fst i)).
  Proof.
    intros [_ H]. destruct (rq_pc q); try (rewrite H; reflexivity). destruct H as [->|[kk ->]]; reflexivity.
  Qed.

  Definition justified (ls : list Label) (es : list (list Ev)) (r : nat) (res : ReqResult) : Prop :=
    exists i, nth_error (issued 0 ls) r = Some i /\
    match res with
    | GotReply f => exists kk, kind_seen es kk /\ answers_to kk (snd i) (hdr_seq (f_hdr (fst i))) f
    | GotError f => exists kk, kind_seen es kk /\ answers_to kk (cfg_err_key cfg) (hdr_seq (f_hdr (fst i))) f
    | _ => True
    end.
  Lemma reach_answer ls c es : run ls client_new = Some (c, es) ->
    forall r res, In (r, res) (results es) -> justified ls es r res.
  Proof.
    revert ls c es. apply (run_ind cfg (fun ls c es => forall r res, In (r, res) (results es) -> justified ls es r res)).
    - intros ? ? [].
    - intros ls c es l c' e Hr IH Hs r res Hin. rewrite results_app in Hin. apply in_app_iff in Hin as [Hin|Hin].
      + destruct (IH _ _ Hin) as (i & Hi & Hm). exists i. split.
        { rewrite issued_app, nth_error_app1; auto. apply nth_error_Some. congruence. }
        destruct res; auto; destruct Hm as (kk & K & A); exists kk; split; auto; apply kind_seen_mono; auto.
      + rewrite (step_results _ _ _ _ Hs) in Hin. destruct (result_of e) as [p|] eqn:Er; [|destruct Hin].
        destruct Hin as [->|[]]. pose proof (step_cstep _ _ _ _ _ Hs) as HC. rewrite Er in HC.
        pose proof (reach_cinv _ _ _ _ Hr) as HI. destruct (reach_issued _ _ _ Hr) as (_ & HL & HM).
        destruct (cstep_result_inv _ _ _ _ _ _ _ HC) as (q & Hq & _ & _ & _ & H1). rename r into r0.
        assert (Hi : exists i, nth_error (issued 0 ls) r0 = Some i).
        { destruct (nth_error (issued 0 ls) r0) eqn:E; eauto. apply nth_error_None in E.
          assert (r0 < length (c_reqs c)) by (apply nth_error_Some; congruence). lia. }
        destruct Hi as (i & Hi). exists i. split.
        { rewrite issued_app, nth_error_app1; auto. apply nth_error_Some. congruence. }
        pose proof (HM _ _ _ Hi Hq) as Hm.
        destruct res; auto.
        * destruct H1 as (_ & Ho). destruct (wi_slot _ _ _ HI _ _ false _ Hq Ho) as (kk & K1 & K2). exists kk. split.
          { apply kind_seen_mono. eapply reach_kinds; eauto. eapply reg_cap; eauto. }
          apply header_eqb_iff in K2 as [K2 K3]. cbn in K2, K3. destruct Hm as [M1 M2]. split.
          -- rewrite <- K3. rewrite <- (made_seq i q); auto. split; auto.
          -- rewrite <- M1. auto.
        * destruct H1 as (_ & Ho). destruct (wi_slot _ _ _ HI _ _ true _ Hq Ho) as (kk & K1 & K2). exists kk. split.
          { apply kind_seen_mono. eapply reach_kinds; eauto. eapply reg_cap; eauto. }
          apply header_eqb_iff in K2 as [K2 K3]. cbn in K2, K3. destruct Hm as [M1 M2]. split.
          -- rewrite <- K3. rewrite <- (made_seq i q); auto. split; auto.
          -- auto.
  Qed.
End Hist.
