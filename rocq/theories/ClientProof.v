(** Invariants of the client. *)
From Coq Require Import NArith List Bool Arith Lia Permutation.
From Verif Require Import KeyModel HeaderModel KeySpec HeaderSpec KeyProof HeaderProof SubModel SubSpec SubProof ClientModel ClientSpec.
Import ListNotations.

Lemma nth_app_last A (l : list A) x i y :
  nth_error (l ++ [x]) i = Some y -> nth_error l i = Some y \/ (i = length l /\ y = x).
Proof.
  intros H. destruct (Nat.lt_ge_cases i (length l)).
  - rewrite nth_error_app1 in H by lia. auto.
  - rewrite nth_error_app2 in H by lia. destruct (i - length l) as [|[|k]] eqn:E; cbn in H; try discriminate.
    injection H as <-. right. split; [lia|reflexivity].
Qed.
Lemma set_nth_inv A n (x : A) l i y :
  nth_error (set_nth n x l) i = Some y -> (i = n /\ y = x) \/ (i <> n /\ nth_error l i = Some y).
Proof.
  intros H. destruct (Nat.eq_dec i n) as [->|Hne].
  - assert (Hl : n < length (set_nth n x l)) by (apply nth_error_Some; congruence).
    rewrite set_nth_length in Hl. rewrite set_nth_same in H by auto. injection H as <-. auto.
  - rewrite set_nth_other in H by auto. auto.
Qed.

(** * Waiters and requests *)

(** [e]: the error reply. *)
Definition reg (e : bool) (p : Pc) : option VarKeyKind :=
  match p with
  | POkReg kk => if e then None else Some kk
  | PReg kk | PSent kk => Some kk
  | _ => None
  end.
Definition slot (e : bool) (q : Req) : option RpcFrame := if e then rq_err q else rq_ok q.

Section Proof.
  Variable cfg : Config.
  Notation step := (step cfg).
  Notation run := (run cfg).

  Definition whdr (e : bool) (q : Req) (kk : VarKeyKind) : VarHeader := if e then err_header cfg q kk else ok_header q kk.

  Record WInv (reqs : list Req) (ws : list Waiter) : Prop := {
    wi_from : forall w, In w ws -> exists q kk, nth_error reqs (w_req w) = Some q /\
      reg (w_err w) (rq_pc q) = Some kk /\ slot (w_err w) q = None /\ w_hdr w = whdr (w_err w) q kk;
    wi_nd : NoDup (map (fun w => (w_req w, w_err w)) ws);
    wi_to : forall r q e kk, nth_error reqs r = Some q -> reg e (rq_pc q) = Some kk -> slot e q = None ->
      In (MkWaiter (whdr e q kk) r e) ws;
    wi_slot : forall r q e f, nth_error reqs r = Some q -> slot e q = Some f ->
      exists kk, reg e (rq_pc q) = Some kk /\ header_eqb (whdr e q kk) (f_hdr f) = true
  }.
  Definition CInv (c : Client) : Prop := WInv (c_reqs c) (c_waiters c).

  Lemma winv_new : WInv [] [].
  Proof. split; cbn; intros; try (destruct r; discriminate); try tauto; constructor. Qed.

  Lemma winv_append reqs ws f resp :
    WInv reqs ws -> WInv (reqs ++ [MkReq f resp PStart None None]) ws.
  Proof.
    intros [A B C D]. split; auto.
    - intros w Hw. destruct (A w Hw) as (q & kk & H1 & H2). exists q, kk. split; auto.
      rewrite nth_error_app1; auto. apply nth_error_Some. congruence.
    - intros r q e kk Hr. apply nth_app_last in Hr as [Hr|[-> ->]]; [eauto|]. destruct e; discriminate.
    - intros r q e f' Hr. apply nth_app_last in Hr as [Hr|[-> ->]]; [eauto|]. destruct e; discriminate.
  Qed.

  (** Replacing a request by one that is registered in the same way. *)
  Lemma winv_update reqs ws r q q' :
    WInv reqs ws -> nth_error reqs r = Some q ->
    (forall e, reg e (rq_pc q') = reg e (rq_pc q) /\ slot e q' = slot e q /\ forall kk, reg e (rq_pc q) = Some kk -> whdr e q' kk = whdr e q kk) ->
    WInv (set_nth r q' reqs) ws.
  Proof.
    intros [A B C D] Hq Hs. split; auto.
    - intros w Hw. destruct (A w Hw) as (q1 & kk & H1 & H2 & H3 & H4). destruct (Nat.eq_dec (w_req w) r) as [E|E].
      + rewrite E in *. rewrite Hq in H1. injection H1 as <-. exists q', kk.
        destruct (Hs (w_err w)) as (S1 & S2 & S3). repeat split.
        * eapply set_nth_some; eauto. * congruence. * congruence. * rewrite S3; auto.
      + exists q1, kk. rewrite set_nth_other by auto. auto.
    - intros i q1 e kk Hi. apply set_nth_inv in Hi as [[-> ->]|[_ Hi]]; [|eauto].
      destruct (Hs e) as (S1 & S2 & S3). intros H1 H2. rewrite S3 by congruence. apply C; congruence.
    - intros i q1 e f Hi. apply set_nth_inv in Hi as [[-> ->]|[_ Hi]]; [|eauto].
      destruct (Hs e) as (S1 & S2 & S3). rewrite S2. intros H. destruct (D _ _ _ _ Hq H) as (kk & K1 & K2).
      exists kk. rewrite S1, S3 by auto. auto.
  Qed.

  Lemma winv_enq reqs ws r q q' e kk :
    WInv reqs ws -> nth_error reqs r = Some q -> reg e (rq_pc q) = None -> reg e (rq_pc q') = Some kk ->
    slot e q' = None ->
    (reg (negb e) (rq_pc q') = reg (negb e) (rq_pc q) /\ slot (negb e) q' = slot (negb e) q /\
       forall kk, whdr (negb e) q' kk = whdr (negb e) q kk) ->
    WInv (set_nth r q' reqs) (ws ++ [MkWaiter (whdr e q' kk) r e]).
  Proof.
    intros [A B C D] Hq H1 H2 H3 (S1 & S2 & S3).
    assert (Hno : forall w, In w ws -> w_req w = r -> w_err w = negb e).
    { intros w Hw E. destruct (A w Hw) as (q1 & k1 & K1 & K2 & _). rewrite E, Hq in K1. injection K1 as <-.
      destruct (w_err w), e; auto; congruence. }
    split.
    - intros w Hw. apply in_app_iff in Hw as [Hw|[<-|[]]].
      + destruct (A w Hw) as (q1 & k1 & K1 & K2 & K3 & K4). destruct (Nat.eq_dec (w_req w) r) as [E|E].
        * rewrite E in *. rewrite Hq in K1. injection K1 as <-. pose proof (Hno _ Hw E) as Ee. rewrite Ee in *.
          exists q', k1. repeat split. { eapply set_nth_some; eauto. } { congruence. } { congruence. } { rewrite S3; auto. }
        * exists q1, k1. rewrite set_nth_other by auto. auto.
      + exists q', kk. cbn. repeat split; auto. eapply set_nth_some; eauto.
    - rewrite map_app. cbn. apply NoDup_app_comm || idtac.
      apply (Permutation_NoDup (l := (r, e) :: map (fun w => (w_req w, w_err w)) ws)).
      { apply Permutation_cons_append. }
      constructor; auto. intros Hin. apply in_map_iff in Hin as (w & E & Hw). injection E as E1 E2.
      pose proof (Hno _ Hw E1). destruct e; cbn in *; congruence.
    - intros i q1 e1 k1 Hi. apply set_nth_inv in Hi as [[-> ->]|[_ Hi]].
      + intros R S. apply in_app_iff. destruct (bool_dec e1 e) as [->|He].
        * right. left. congruence.
        * left. assert (e1 = negb e) as -> by (destruct e1, e; cbn; congruence). rewrite S3. apply C; congruence.
      + intros. apply in_app_iff. left. eauto.
    - intros i q1 e1 f Hi. apply set_nth_inv in Hi as [[-> ->]|[_ Hi]]; [|eauto].
      destruct (bool_dec e1 e) as [->|He]; [congruence|].
      assert (e1 = negb e) as -> by (destruct e1, e; cbn; congruence).
      rewrite S1, S2. intros H. destruct (D _ _ _ _ Hq H) as (k1 & K1 & K2). exists k1. rewrite S3. auto.
  Qed.

  Lemma nodup_filter_map A B (g : A -> B) p l : NoDup (map g l) -> NoDup (map g (filter p l)).
  Proof.
    induction l as [|a l IH]; cbn; intros H; [constructor|]. inversion H; subst.
    destruct (p a); cbn; auto. constructor; auto. intros Hi. apply H2.
    apply in_map_iff in Hi as (x & E & Hx). apply filter_In in Hx as [Hx _]. rewrite <- E. apply in_map; auto.
  Qed.

  Lemma winv_end reqs ws r q f resp :
    WInv reqs ws -> nth_error reqs r = Some q ->
    WInv (set_nth r (MkReq f resp PEnded None None) reqs) (drop_waiters r ws).
  Proof.
    intros [A B C D] Hq. unfold drop_waiters. split.
    - intros w Hw. apply filter_In in Hw as [Hw Hr]. apply negb_true_iff, Nat.eqb_neq in Hr.
      destruct (A w Hw) as (q1 & k1 & K1 & K2). exists q1, k1. rewrite set_nth_other by auto. auto.
    - apply nodup_filter_map. auto.
    - intros i q1 e kk Hi. apply set_nth_inv in Hi as [[-> ->]|[Hne Hi]].
      + destruct e; discriminate.
      + intros H1 H2. apply filter_In. split; [eauto|]. cbn. apply negb_true_iff, Nat.eqb_neq. auto.
    - intros i q1 e f1 Hi. apply set_nth_inv in Hi as [[-> ->]|[Hne Hi]]; [|eauto]. destruct e; discriminate.
  Qed.

  Definition fill (e : bool) (q : Req) (f : RpcFrame) : Req :=
    if e then MkReq (rq_frame q) (rq_resp q) (rq_pc q) (rq_ok q) (Some f)
    else MkReq (rq_frame q) (rq_resp q) (rq_pc q) (Some f) (rq_err q).

  Lemma split_at A (l : list A) i x : nth_error l i = Some x -> l = firstn i l ++ x :: skipn (S i) l.
  Proof. revert l. induction i; destruct l; cbn; intros; try discriminate; [congruence|]. f_equal. apply IHi. assumption. Qed.

  Lemma winv_wake reqs ws i w q f :
    WInv reqs ws -> nth_error ws i = Some w -> nth_error reqs (w_req w) = Some q ->
    header_eqb (w_hdr w) (f_hdr f) = true ->
    WInv (set_nth (w_req w) (fill (w_err w) q f) reqs) (firstn i ws ++ skipn (S i) ws).
  Proof.
    intros [A B C D] Hw Hq Hm. pose proof (split_at _ _ _ _ Hw) as Hsp.
    set (ws' := firstn i ws ++ skipn (S i) ws) in *.
    assert (HP : Permutation ws (w :: ws')).
    { rewrite Hsp at 1. unfold ws'. symmetry. apply Permutation_middle. }
    assert (Hnd : NoDup (map (fun w => (w_req w, w_err w)) (w :: ws'))).
    { eapply Permutation_NoDup; [|exact B]. apply Permutation_map. exact HP. }
    cbn in Hnd. inversion Hnd; subst.
    assert (Hsub : forall x, In x ws' -> In x ws).
    { intros x Hx. eapply Permutation_in; [symmetry; exact HP|]. right. auto. }
    assert (Hother : forall x, In x ws' -> w_req x = w_req w -> w_err x = negb (w_err w)).
    { intros x Hx E. destruct (bool_dec (w_err x) (w_err w)) as [E2|E2].
      - exfalso. apply H1. apply in_map_iff. exists x. rewrite E, E2. auto.
      - destruct (w_err x), (w_err w); cbn; congruence. }
    assert (Hpc : rq_pc (fill (w_err w) q f) = rq_pc q) by (unfold fill; destruct (w_err w); reflexivity).
    assert (Hsl : slot (negb (w_err w)) (fill (w_err w) q f) = slot (negb (w_err w)) q) by (unfold fill; destruct (w_err w); reflexivity).
    assert (Hsl2 : slot (w_err w) (fill (w_err w) q f) = Some f) by (unfold fill; destruct (w_err w); reflexivity).
    assert (Hh : forall e kk, whdr e (fill (w_err w) q f) kk = whdr e q kk) by (intros e kk; unfold fill; destruct (w_err w), e; reflexivity).
    split; auto.
    - intros x Hx. destruct (A x (Hsub _ Hx)) as (q1 & k1 & K1 & K2 & K3 & K4).
      destruct (Nat.eq_dec (w_req x) (w_req w)) as [E|E].
      + pose proof (Hother _ Hx E) as Ee. rewrite E in K1. rewrite Hq in K1. injection K1 as <-.
        exists (fill (w_err w) q f), k1. rewrite E. repeat split.
        * eapply set_nth_some; eauto. * rewrite Hpc; auto. * rewrite Ee in *. congruence. * rewrite Hh. auto.
      + exists q1, k1. rewrite set_nth_other by auto. auto.
    - intros j q1 e kk Hj. apply set_nth_inv in Hj as [[-> ->]|[Hne Hj]].
      + rewrite Hpc, Hh. intros R S. destruct (bool_dec e (w_err w)) as [->|He]; [congruence|].
        assert (e = negb (w_err w)) as -> by (destruct e, (w_err w); cbn; congruence).
        rewrite Hsl in S. pose proof (C _ _ _ _ Hq R S) as Hin.
        eapply Permutation_in in Hin; [|exact HP]. destruct Hin as [E|Hin]; [|auto].
        exfalso. apply (f_equal w_err) in E. cbn in E. destruct (w_err w); discriminate.
      + intros R S. pose proof (C _ _ _ _ Hj R S) as Hin. eapply Permutation_in in Hin; [|exact HP].
        destruct Hin as [E|Hin]; [|auto]. exfalso. apply (f_equal w_req) in E. cbn in E. congruence.
    - intros j q1 e g Hj. apply set_nth_inv in Hj as [[-> ->]|[Hne Hj]]; [|eauto].
      destruct (bool_dec e (w_err w)) as [->|He].
      + intros E. rewrite Hsl2 in E. injection E as <-. destruct (A w) as (q1 & k1 & K1 & K2 & K3 & K4).
        { eapply nth_error_In; eauto. }
        rewrite Hq in K1. injection K1 as <-. exists k1. rewrite Hpc, Hh, <- K4. auto.
      + assert (e = negb (w_err w)) as -> by (destruct e, (w_err w); cbn; congruence).
        rewrite Hsl, Hpc. intros S. destruct (D _ _ _ _ Hq S) as (kk & K1 & K2). exists kk. rewrite Hh. auto.
  Qed.

  (** * Steps, as seen by requests and waiters *)
  Inductive CStep : Label -> list Req -> list Waiter -> list Req -> list Waiter -> option (nat * ReqResult) -> Prop :=
  | cs_same (l : Label) reqs ws : CStep l reqs ws reqs ws None
  | cs_new (l : Label) f resp reqs ws :
      (l = LRequestRaw f resp \/ exists req body, l = LRequest req resp body /\ exists n, f = MkFrame (MkHeader (VKey8 req) (Seq4 n)) body) ->
      CStep l reqs ws (reqs ++ [MkReq f resp PStart None None]) ws None
  | cs_kind r q kk reqs ws : nth_error reqs r = Some q -> rq_pc q = PStart ->
      CStep (LKind r) reqs ws (set_nth r (MkReq (shrink_frame kk (rq_frame q)) (rq_resp q) (PKind kk) (rq_ok q) (rq_err q)) reqs) ws None
  | cs_enq (l : Label) r q (e : bool) kk q' reqs ws : nth_error reqs r = Some q ->
      (if e then l = LEnqErr r /\ rq_pc q = POkReg kk /\ q' = with_pc q (PReg kk) else l = LEnqOk r /\ rq_pc q = PKind kk /\ q' = with_pc q (POkReg kk)) ->
      is_duplicate (whdr e q kk) ws = false ->
      CStep l reqs ws (set_nth r q' reqs) (ws ++ [MkWaiter (whdr e q kk) r e]) None
  | cs_sent r q kk reqs ws : nth_error reqs r = Some q -> rq_pc q = PReg kk ->
      CStep (LSend r) reqs ws (set_nth r (with_pc q (PSent kk)) reqs) ws None
  | cs_end (l : Label) r q (o : option (nat * ReqResult)) reqs ws : nth_error reqs r = Some q -> rq_pc q <> PEnded ->
      match o with
      | None => l = LCancel r
      | Some (r', res) => r' = r /\
         match res with
         | GotReply f => l = LTakeOk r /\ rq_ok q = Some f
         | GotError f => l = LTakeErr r /\ rq_err q = Some f
         | BadResponse => exists e kk, is_duplicate (whdr e q kk) ws = true /\
             (if e then l = LEnqErr r /\ rq_pc q = POkReg kk else l = LEnqOk r /\ rq_pc q = PKind kk)
         | Closed => l = LTakeClosed r \/ l = LSend r
         end
      end ->
      CStep l reqs ws (set_nth r (MkReq (rq_frame q) (rq_resp q) PEnded None None) reqs) (drop_waiters r ws) o
  | cs_wake i w q f reqs ws : nth_error ws i = Some w -> nth_error reqs (w_req w) = Some q ->
      header_eqb (w_hdr w) (f_hdr f) = true ->
      CStep (LWake (Some i)) reqs ws (set_nth (w_req w) (fill (w_err w) q f) reqs) (firstn i ws ++ skipn (S i) ws) None.

  Definition result_of (e : list Ev) : option (nat * ReqResult) :=
    match e with [EvResult r res] => Some (r, res) | _ => None end.

  Lemma adopt_reqs kk f c : c_reqs (adopt kk f c) = c_reqs c /\ c_waiters (adopt kk f c) = c_waiters c.
  Proof. unfold adopt. destruct (negb _); auto. Qed.

  Lemma step_cstep l c c' e : step l c = Some (c', e) ->
    CStep l (c_reqs c) (c_waiters c) (c_reqs c') (c_waiters c') (result_of e).
  Proof.
    intros H. destruct l; cbn [ClientModel.step] in H.
    - injection H as <- <-. cbn. apply cs_new. right. eauto 6.
    - injection H as <- <-. cbn. apply cs_new. auto.
    - destruct (nth_error (c_reqs c) r) as [q|] eqn:Hq; [|discriminate]. destruct (rq_pc q) eqn:Hp; try discriminate.
      injection H as <- <-. cbn. apply cs_kind; auto.
    - destruct (nth_error (c_reqs c) r) as [q|] eqn:Hq; [|discriminate]. destruct (rq_pc q) eqn:Hp; try discriminate.
      destruct (is_duplicate _ _) eqn:Hd; injection H as <- <-; cbn.
      + eapply cs_end; eauto. { congruence. } split; auto. exists false, kk. auto.
      + apply (cs_enq _ r q false kk); auto.
    - destruct (nth_error (c_reqs c) r) as [q|] eqn:Hq; [|discriminate]. destruct (rq_pc q) eqn:Hp; try discriminate.
      destruct (is_duplicate _ _) eqn:Hd; injection H as <- <-; cbn.
      + eapply cs_end; eauto. { congruence. } split; auto. exists true, kk. auto.
      + apply (cs_enq _ r q true kk); auto.
    - destruct (nth_error (c_reqs c) r) as [q|] eqn:Hq; [|discriminate]. destruct (rq_pc q) eqn:Hp; try discriminate.
      destruct (negb _).
      + injection H as <- <-. cbn. eapply cs_end; eauto. congruence.
      + destruct (_ <? _); [|discriminate]. injection H as <- <-. cbn. eapply cs_sent; eauto.
    - destruct (nth_error (c_reqs c) r) as [q|] eqn:Hq; [|discriminate]. destruct (rq_pc q) eqn:Hp; try discriminate.
      destruct (rq_ok q) eqn:Ho; [|discriminate]. injection H as <- <-. destruct (adopt_reqs kk r0 (end_req r q c)) as [-> ->].
      cbn. eapply cs_end; eauto. congruence.
    - destruct (nth_error (c_reqs c) r) as [q|] eqn:Hq; [|discriminate]. destruct (rq_pc q) eqn:Hp; try discriminate.
      destruct (rq_err q) eqn:Ho; [|discriminate]. injection H as <- <-. destruct (adopt_reqs kk r0 (end_req r q c)) as [-> ->].
      cbn. eapply cs_end; eauto. congruence.
    - destruct (nth_error (c_reqs c) r) as [q|] eqn:Hq; [|discriminate]. destruct (rq_pc q) eqn:Hp; try discriminate.
      destruct (c_stopped c); [|discriminate]. injection H as <- <-. cbn. eapply cs_end; eauto. congruence.
    - destruct (nth_error (c_reqs c) r) as [q|] eqn:Hq; [|discriminate].
      destruct (rq_pc q) eqn:Hp; try discriminate; injection H as <- <-; cbn; (eapply cs_end; eauto; congruence).
    - injection H as <- <-. apply cs_same.
    - destruct (nth_error (c_pubs c) i) as [[f|]|]; try discriminate. destruct (negb _).
      + injection H as <- <-. apply cs_same.
      + destruct (_ <? _); [|discriminate]. injection H as <- <-. apply cs_same.
    - destruct (nth_error (c_pubs c) i) as [[f|]|]; try discriminate. destruct (c_stopped c); [|discriminate].
      injection H as <- <-. apply cs_same.
    - destruct (nth_error (c_pubs c) i) as [[f|]|]; try discriminate. injection H as <- <-. apply cs_same.
    - destruct (c_sending c); [discriminate|]. destruct (c_out c); [discriminate|]. destruct (c_out_alive c); [|discriminate].
      injection H as <- <-. apply cs_same.
    - destruct (c_sending c); [|discriminate]. injection H as <- <-. apply cs_same.
    - destruct (c_sending c); [|discriminate]. injection H as <- <-. destruct reached; apply cs_same.
    - destruct (_ && _)%bool; [|discriminate]. injection H as <- <-. destruct (c_sending c); [destruct reached|]; apply cs_same.
    - destruct (c_offer c); [discriminate|]. destruct (_ || _)%bool; [discriminate|].
      destruct (take_from_slice bytes) as [[[h b]|]|]; try discriminate.
      + destruct (sub_step _ _ _) as [[s [| [] | | |]]|]; try discriminate; injection H as <- <-; apply cs_same.
      + injection H as <- <-. apply cs_same.
    - destruct (c_offer c) as [f|]; [|discriminate]. destruct choice as [i|].
      + destruct (nth_error (c_waiters c) i) as [w|] eqn:Hw; [|discriminate].
        destruct (header_eqb _ _) eqn:Hm; [|discriminate].
        destruct (nth_error (c_reqs c) (w_req w)) as [q|] eqn:Hq; [|discriminate].
        injection H as <- <-. cbn [c_reqs c_waiters set_in set_waiters set_req]. apply (cs_wake i w q f); auto.
      + destruct (existsb _ _); [discriminate|]. injection H as <- <-. apply cs_same.
    - destruct (sub_step _ _ _) as [[s o]|]; [|discriminate]. destruct (c_in_alive c); [|discriminate].
      injection H as <- <-. apply cs_same.
    - destruct (c_offer c); [discriminate|]. destruct (_ || _)%bool; [discriminate|]. injection H as <- <-. apply cs_same.
    - destruct (_ && _)%bool; [|discriminate]. injection H as <- <-. apply cs_same.
    - destruct (c_in_alive c); [discriminate|]. injection H as <- <-. apply cs_same.
    - destruct (user_op o); [|discriminate]. destruct (sub_step _ _ _) as [[s out]|]; [|discriminate].
      injection H as <- <-. apply cs_same.
    - destruct (c_stopped c); [|discriminate]. injection H as <- <-. apply cs_same.
    - injection H as <- <-. apply cs_same.
  Qed.

  Lemma cstep_inv l reqs ws reqs' ws' o : CStep l reqs ws reqs' ws' o -> WInv reqs ws -> WInv reqs' ws'.
  Proof.
    intros H HI. destruct H.
    - auto.
    - apply winv_append. auto.
    - eapply winv_update; eauto. intros e. cbn. rewrite H0. destruct e; cbn; repeat split; auto; discriminate.
    - assert (Hw : whdr e q kk = whdr e q' kk) by (destruct e, H0 as (_ & _ & ->); reflexivity). rewrite Hw.
      assert (Hs : slot e q = None).
      { destruct (slot e q) eqn:E; auto. destruct (wi_slot _ _ HI _ _ _ _ H E) as (k1 & K1 & _).
        destruct e, H0 as (_ & Hp & _); rewrite Hp in K1; discriminate. }
      destruct e, H0 as (-> & Hp & ->).
      + refine (winv_enq _ _ r q _ true kk HI H _ _ _ _); cbn; rewrite ?Hp; auto.
      + refine (winv_enq _ _ r q _ false kk HI H _ _ _ _); cbn; rewrite ?Hp; auto.
    - eapply winv_update; eauto. intros e. cbn. rewrite H0. destruct e; cbn; repeat split; auto.
    - eapply winv_end; eauto.
    - apply winv_wake; auto.
  Qed.

  Lemma step_inv l c c' e : step l c = Some (c', e) -> CInv c -> CInv c'.
  Proof. intros H. exact (cstep_inv _ _ _ _ _ _ (step_cstep _ _ _ _ H)). Qed.

  Lemma run_app ls1 ls2 c c2 es : run (ls1 ++ ls2) c = Some (c2, es) ->
    exists c1 e1 e2, run ls1 c = Some (c1, e1) /\ run ls2 c1 = Some (c2, e2) /\ es = e1 ++ e2.
  Proof.
    revert c es. induction ls1 as [|l ls1 IH]; cbn; intros c es H.
    - exists c, [], es. auto.
    - destruct (step l c) as [[c1 e]|]; [|discriminate]. destruct (run (ls1 ++ ls2) c1) as [[c3 e3]|] eqn:E; [|discriminate].
      injection H as <- <-. destruct (IH _ _ E) as (d & e1 & e2 & E1 & E2 & ->). rewrite E1. exists d, (e :: e1), e2. auto.
  Qed.
  Lemma run_app2 ls1 ls2 c c1 e1 c2 e2 : run ls1 c = Some (c1, e1) -> run ls2 c1 = Some (c2, e2) ->
    run (ls1 ++ ls2) c = Some (c2, e1 ++ e2).
  Proof.
    revert c e1. induction ls1 as [|l ls1 IH]; cbn; intros c e1 H1 H2.
    - injection H1 as <- <-. auto.
    - destruct (step l c) as [[c3 e]|]; [|discriminate]. destruct (run ls1 c3) as [[c4 e4]|] eqn:E; [|discriminate].
      injection H1 as <- <-. rewrite (IH _ _ E H2). reflexivity.
  Qed.
  Lemma run_last l c1 ls c e1 c2 e : run ls c = Some (c1, e1) -> step l c1 = Some (c2, e) -> run (ls ++ [l]) c = Some (c2, e1 ++ [e]).
  Proof. intros H1 H2. eapply run_app2; eauto. cbn. rewrite H2. reflexivity. Qed.

  Lemma run_ind (P : list Label -> Client -> list (list Ev) -> Prop) c0 :
    P [] c0 [] ->
    (forall ls c es l c' e, run ls c0 = Some (c, es) -> P ls c es -> step l c = Some (c', e) -> P (ls ++ [l]) c' (es ++ [e])) ->
    forall ls c es, run ls c0 = Some (c, es) -> P ls c es.
  Proof.
    intros H0 HS ls. induction ls as [|l ls IH] using rev_ind; intros c es H.
    - cbn in H. injection H as <- <-. auto.
    - apply run_app in H as (c1 & e1 & e2 & H1 & H2 & ->). cbn in H2.
      destruct (step l c1) as [[c2 e]|] eqn:E; [|discriminate]. injection H2 as <- <-. eauto.
  Qed.

  Lemma run_inv ls c c' es : run ls c = Some (c', es) -> CInv c -> CInv c'.
  Proof. intros H HI. revert ls c' es H. apply (run_ind (fun _ c _ => CInv c)); auto. intros. eapply step_inv; eauto. Qed.
  Lemma reach_cinv ls c es : run ls client_new = Some (c, es) -> CInv c.
  Proof. intros H. eapply run_inv; eauto. apply winv_new. Qed.
End Proof.
