(** Theorems about the first host program of the workbook: C99. *)
From Coq Require Import NArith ZArith List Bool Arith Lia.
From Verif Require Import KeyModel HeaderModel KeySpec HeaderSpec MinKeyModel MinKeySpec SchemaModel MacroModel PostcardModel
  DispatchModel DispatchSpec DispatchThm SubModel ClientModel ClientSpec ClientHist ClientThm4 UsbModel UsbSpec NusbRxModel LogModel.
From Verif Require Import DispatchModel DispatchSpec DispatchThm SystemModel SystemSpec SystemThm2 AsyncModel AsyncSpec
  UsbSysModel UsbSysSpec UsbSysThm2
  CodecModel CodecSpec CodecStdModel TypedSpec StateSpec OmitThm OmitThm2
  WorkbookModel WorkbookSpec WbSysModel WbSysSpec WbSysThm WbSysThm2 PingModel PingSpec.
Import ListNotations.

Definition is_request (l : Label) : bool := match l with LRequest _ _ _ | LRequestRaw _ _ => true | _ => false end.
Lemma filter_app' {A} (p : A -> bool) a b : filter p (a ++ b) = filter p a ++ filter p b.
Proof. induction a as [|x a IH]; [reflexivity|]. cbn [app filter]. rewrite IH. destruct (p x); reflexivity. Qed.
Lemma results_app a b : results (a ++ b) = results a ++ results b.
Proof. unfold results. rewrite concat_app, flat_map_app. reflexivity. Qed.
Lemma typed_requests ls : ClientSpec.typed ls <= length (filter is_request ls).
Proof. unfold ClientSpec.typed. induction ls as [|[] ls IH]; cbn [filter is_typed is_request length]; lia. Qed.
Lemma pings_S n : pings (S n) = pings n ++ [Pinging (N.of_nat n); GotBack (N.of_nat n)].
Proof. unfold pings. rewrite seq_S, flat_map_app. reflexivity. Qed.

Section J.
  Variable for_path : NamedType -> str -> Key8.
  Variable std : StdKeys.
  Notation pj_run := (pj_run for_path std).
  Notation pj_step := (pj_step for_path std).
  Notation p_tell := (p_tell for_path std).

  Definition ping_calls (n : nat) : list WbCall := map (fun i => Ping (N.of_nat i)) (seq 0 n).
  Lemma ping_calls_S n : ping_calls (S n) = ping_calls n ++ [Ping (N.of_nat n)].
  Proof. unfold ping_calls. rewrite seq_S, map_app. reflexivity. Qed.
  Lemma ping_calls_len n : length (ping_calls n) = n.
  Proof. unfold ping_calls. rewrite map_length. apply seq_length. Qed.

  (** An answer to the [n]-th ping, and where the program has got to with it. *)
  Definition answered (j : PJoint) (n : nat) (r : WbResult) : Prop :=
    exists res, In (n, res) (results (p_es j)) /\ r = wb_result (Ping (N.of_nat n)) res.
  Definition right (n : nat) (r : WbResult) : Prop := r = WOk (VUInt W32 (N.of_nat n)).
  Definition all_right (j : PJoint) : Prop :=
    forall n r, n < length (p_calls j) -> answered j n r -> r <> WComms -> right n r.

  Record inv (j : PJoint) : Prop := {
    i_made : filter is_request (p_cl j) = map (wb_request for_path std) (p_calls j);
    i_quiet : forall f, ~ In (LPublish f) (p_cl j);
    i_calls : exists n, n <= 10 /\ p_calls j = ping_calls n /\
      match p_at j with Waits i => i = N.of_nat n /\ n < 10 | Pinged i => n = S (N.to_nat i) | _ => True end;
    i_out : all_right j ->
      match p_at j with
      | Panics => exists n, n < 10 /\ p_out j = pings n ++ [Pinging (N.of_nat n)] /\ p_calls j = ping_calls (S n) /\ answered j n WComms
      | _ => as_documented (p_at j) (p_out j)
      end }.

  Lemma tell_inv j x es j' : inv j -> p_tell j x es = Some j' ->
    (forall r, x = Returns r -> exists n, p_calls j = ping_calls (S n) /\ answered j n r) -> inv j'.
  Proof.
    intros [M Q (n & Ln & En & At) O] T An. unfold PingModel.p_tell in T. destruct (p_step (p_at j) x) as [[[s out] cs]|] eqn:St; [|discriminate].
    injection T as <-.
    assert (Mono : forall k r, answered j k r -> answered (MkPJoint (p_cl j ++ map (wb_request for_path std) cs) (p_es j ++ es) s (p_out j ++ out) (p_calls j ++ cs)) k r).
    { intros k r (res & H1 & H2). exists res. split; [|exact H2]. cbn [p_es]. rewrite results_app. apply in_or_app. auto. }
    assert (AR : all_right (MkPJoint (p_cl j ++ map (wb_request for_path std) cs) (p_es j ++ es) s (p_out j ++ out) (p_calls j ++ cs)) -> all_right j).
    { intros H k r Hk A. apply H; [cbn [p_calls]; rewrite app_length; lia|apply Mono; exact A]. }
    assert (Rq : filter is_request (map (wb_request for_path std) cs) = map (wb_request for_path std) cs).
    { clear. induction cs as [|c cs IH]; [reflexivity|]. cbn [map filter is_request wb_request]. rewrite IH. reflexivity. }
    split; cbn [p_cl p_es p_at p_out p_calls].
    - rewrite filter_app', M, Rq, map_app. reflexivity.
    - intros f H. apply in_app_or in H as [H|H]; [exact (Q f H)|]. apply in_map_iff in H as (c & E & _). discriminate E.
    - unfold p_step in St. destruct (p_at j) as [i|i| |] eqn:Ea; try discriminate St.
      + destruct At as [-> L10]. destruct x; try discriminate St; injection St as <- <- <-.
        * exists (S n). rewrite ping_calls_S, En, Nat2N.id. repeat split; lia.
        * exists n. rewrite app_nil_r. auto.
      + destruct x as [|r|]; try discriminate St.
        * assert (Z : cs = [] /\ match s with Waits i' => i' = (i + 1)%N /\ (i + 1 < 10)%N | Pinged _ => False | _ => True end).
          { destruct r as [v| |]; try (injection St as <- <- <-; auto). destruct v as [ | | |w v| | | | | | | | | | | | | ]; try (injection St as <- <- <-; auto; fail).
            destruct w; try (injection St as <- <- <-; auto; fail).
            destruct (v =? i)%N; [|injection St as <- <- <-; auto]. destruct (N.ltb_spec (i + 1) 10); injection St as <- <- <-; auto. }
          destruct Z as [-> Z]. exists n. rewrite app_nil_r. split; [exact Ln|]. split; [exact En|]. destruct s; try contradiction; auto.
          destruct Z as [-> Z]. subst n. lia.
        * injection St as <- <- <-. exists n. rewrite app_nil_r. auto.
    - intros H. specialize (O (AR H)). unfold p_step in St. destruct (p_at j) as [i|i| |] eqn:Ea; try discriminate St.
      + destruct At as [-> L10]. inversion O as [k Hk Ek Eo| | | |]. apply Nat2N.inj in Ek. subst k.
        destruct x; try discriminate St; injection St as <- <- <-; constructor; assumption.
      + inversion O as [|k Hk Ek Eo| | |]. subst i. rewrite Nat2N.id in At. destruct x as [|r|]; try discriminate St.
        * destruct (An r eq_refl) as (k' & Ek' & A). assert (k' = k). { apply (f_equal (@length WbCall)) in Ek'. rewrite En, !ping_calls_len in Ek'. lia. } subst k'.
          assert (Dec : r = WComms \/ r <> WComms) by (destruct r; [right; discriminate|right; discriminate|left; reflexivity]).
          destruct Dec as [->|Nc].
          -- injection St as <- <- <-. exists k. rewrite app_nil_r. split; [exact Hk|]. split; [reflexivity|]. split; [rewrite app_nil_r; exact Ek'|]. apply Mono. exact A.
          -- assert (Rt : right k r) by (apply H; [cbn [p_calls]; rewrite app_length, Ek', ping_calls_len; lia|apply Mono; exact A|exact Nc]).
             unfold right in Rt. subst r. rewrite N.eqb_refl in St. destruct (N.ltb_spec (N.of_nat k + 1) 10) as [L|L]; injection St as <- <- <-.
             ++ replace (N.of_nat k + 1)%N with (N.of_nat (S k)) by lia. rewrite <- app_assoc. cbn [app]. rewrite <- pings_S. constructor. lia.
             ++ rewrite <- app_assoc. cbn [app]. replace k with 9 by lia. change [Pinging (N.of_nat 9); GotBack (N.of_nat 9); AppDone] with ([Pinging (N.of_nat 9); GotBack (N.of_nat 9)] ++ [AppDone]).
                rewrite app_assoc, <- pings_S. constructor.
        * injection St as <- <- <-. rewrite <- app_assoc. constructor. exact Hk.
  Qed.
  Lemma step_inv j l j' : inv j -> pj_step l j = Some j' -> inv j'.
  Proof.
    intros I St. destruct l as [l e|e| |]; cbn [PingModel.pj_step] in St.
    - assert (X : is_request l = false /\ (forall f, l <> LPublish f) /\ j' = MkPJoint (p_cl j ++ [l]) (p_es j ++ [e]) (p_at j) (p_out j) (p_calls j)).
      { destruct l; try discriminate St; injection St as <-; (split; [reflexivity|]); (split; [intros f E; discriminate E|reflexivity]). }
      destruct X as (X1 & X2 & ->). destruct I as [M Q C O].
      assert (Mono : forall k r, answered j k r -> answered (MkPJoint (p_cl j ++ [l]) (p_es j ++ [e]) (p_at j) (p_out j) (p_calls j)) k r).
      { intros k r (res & H1 & H2). exists res. split; [|exact H2]. cbn [p_es]. rewrite results_app. apply in_or_app. auto. }
      split; cbn [p_cl p_es p_at p_out p_calls]; auto.
      + rewrite filter_app'. cbn [filter]. rewrite X1, app_nil_r. exact M.
      + intros f Hi. apply in_app_iff in Hi as [Hi|[Hi|[]]]; [exact (Q f Hi)|exact (X2 f Hi)].
      + intros H. assert (A : all_right j) by (intros k r Hk A; apply H; [exact Hk|apply Mono; exact A]). specialize (O A).
        destruct (p_at j); auto. destruct O as (n & O1 & O2 & O3 & O4). exists n. auto.
    - apply (tell_inv _ _ _ _ I St). discriminate.
    - destruct (rev (p_calls j)) as [|c before] eqn:Ec; [discriminate|].
      destruct (find _ (results (p_es j))) as [[r res]|] eqn:Ef; [|discriminate]. apply (tell_inv _ _ _ _ I St). intros x E. injection E as <-.
      apply find_some in Ef as [Ef1 Ef2]. apply Nat.eqb_eq in Ef2. cbn [fst] in Ef2. subst r.
      destruct (i_calls j I) as (n & Ln & En & _). assert (Er : p_calls j = rev before ++ [c]) by (rewrite <- (rev_involutive (p_calls j)), Ec; reflexivity).
      destruct n as [|n]; [rewrite En in Er; destruct (rev before); discriminate Er|]. exists n. split; [exact En|].
      rewrite En, ping_calls_S in Er. apply app_inj_tail in Er as [Er <-]. exists res. split; [|reflexivity].
      replace n with (length before); [exact Ef1|]. apply (f_equal (@length WbCall)) in Er. rewrite ping_calls_len, rev_length in Er. lia.
    - apply (tell_inv _ _ _ _ I St). discriminate.
  Qed.
  Lemma run_inv ls : forall j j', inv j -> pj_run ls j = Some j' -> inv j'.
  Proof.
    induction ls as [|l ls IH]; intros j j' I R; cbn [PingModel.pj_run] in R; [injection R as <-; exact I|].
    destruct (pj_step l j) as [j1|] eqn:St; [|discriminate]. exact (IH _ _ (step_inv _ _ _ I St) R).
  Qed.
  Lemma start_inv : inv ping_start.
  Proof.
    split; cbn.
    - reflexivity.
    - auto.
    - exists 0. repeat split; lia.
    - intros _. apply (d_waits 0). lia.
  Qed.

  (** With the workbook's firmware at the other end of the USB cable, in the circumstances of
      C91: whatever happens, the program prints what the book says - as far as it gets - and
      the assertion that the answer is the number sent never fails.  It panics only when a
      call fails to communicate. *)
  Theorem C99_prints_as_documented_partial :
    forall busy readings can_spawn kkind cfg id d txlen rxlen consumes mps outcome uls u ls j,
      config_ok (wb_eps for_path) (wb_tin for_path) (wb_tout for_path std) (wb_arms for_path busy) [] ->
      define_dispatch value Wb (wb_eps for_path) (wb_tin for_path) (wb_tout for_path std) (wb_arms for_path busy) [] = Done d ->
      klen (d_kind _ _ d) <= klen kkind ->
      distinct_at (klen (d_kind _ _ d)) (ping_req std :: schemas_req std :: map ep_req (em_endpoints (wb_eps for_path)) ++ map snd (tm_topics (wb_tin for_path))) ->
      distinct_at (klen (d_kind _ _ d)) (ping_resp std :: schemas_resp std :: map ep_resp (em_endpoints (wb_eps for_path)) ++ map snd (tm_topics (wb_tout for_path std))) ->
      ~ In (compact (klen kkind) (k8_bytes (error_key std)))
        (map (fun k => compact (klen kkind) (k8_bytes k)) (ping_resp std :: schemas_resp std :: map ep_resp (em_endpoints (wb_eps for_path)))) ->
      error_key std <> td_key for_path row_data -> (id < 2 ^ 64)%N -> usb_sizes mps txlen rxlen ->
      u_run value Wb unit std can_spawn kkind wb_spawn d payload_bytes (wb_task for_path readings) cfg txlen rxlen consumes mps outcome
        uls (usys_new value Wb unit [] (wb_new id)) = Some (u, p_cl j, p_es j) ->
      errors_between_messages uls ->
      pj_run ls ping_start = Some j ->
      as_documented (p_at j) (p_out j) \/
      p_at j = Panics /\ exists n res, n < 10 /\ p_out j = pings n ++ [Pinging (N.of_nat n)] /\
        In (n, res) (results (p_es j)) /\ wb_result (Ping (N.of_nat n)) res = WComms.
  Proof.
    intros busy readings can_spawn kkind cfg id d txlen rxlen consumes mps outcome uls u ls j H1 H2 H3 H4 H5 H6 H7 H8 H9 Hr He J.
    pose proof (run_inv _ _ _ start_inv J) as [M Q (n & Ln & En & _) O].
    assert (Ok : Forall call_ok (p_calls j)).
    { rewrite En. apply Forall_forall. intros c Hi. unfold ping_calls in Hi. apply in_map_iff in Hi as (i & <- & Hi). apply in_seq in Hi. unfold call_ok.
      eapply N.lt_trans with (m := 11%N); [lia|reflexivity]. }
    assert (Hc : (N.of_nat (ClientSpec.typed (p_cl j)) <= 2 ^ 32)%N).
    { pose proof (typed_requests (p_cl j)) as L. rewrite M, map_length, En, ping_calls_len in L.
      eapply N.le_trans with (m := 10%N); [lia|intros X; discriminate X]. }
    assert (AR : all_right j).
    { intros k r Hk (res & I1 & ->) Nc. rewrite En, ping_calls_len in Hk.
      destruct (C91_over_usb_partial for_path std busy readings can_spawn kkind cfg id d H1 H2 H3 H4 H5 H6 H7 H8 (p_cl j) (p_es j) (p_calls j) Q M Ok Hc
                txlen rxlen consumes mps outcome H9 uls u Hr He) as (order & W & _).
      refine (wk_right _ _ _ _ _ _ W k (Ping (N.of_nat k)) res _ I1 Nc). rewrite En. unfold ping_calls.
      rewrite nth_error_map, (nth_error_nth' _ 0) by (rewrite seq_length; exact Hk). rewrite seq_nth by exact Hk. reflexivity. }
    specialize (O AR). destruct (p_at j); auto. right. split; [reflexivity|]. destruct O as (k & O1 & O2 & O3 & res & O4 & O5). exists k, res. auto.
  Qed.
  (** The program does not hang by itself: it waits for the ticker, or for a call that has
      not returned. *)
  Theorem C99_goes_on :
    forall ls j, pj_run ls ping_start = Some j ->
      match p_at j with
      | Waits _ => forall e, exists j', pj_step (PTick e) j = Some j'
      | Pinged i => forall res, In (N.to_nat i, res) (results (p_es j)) -> exists j', pj_step PReturn j = Some j'
      | _ => True
      end.
  Proof.
    intros ls j R. pose proof (run_inv _ _ _ start_inv R) as [_ _ (n & Ln & En & At) _]. destruct (p_at j) as [i|i| |] eqn:Ea; auto.
    - intros e. cbn [PingModel.pj_step]. unfold PingModel.p_tell. rewrite Ea. cbn [p_step]. eauto.
    - intros res Hi. cbn [PingModel.pj_step]. rewrite En, At, ping_calls_S, rev_app_distr. cbn [rev app].
      destruct (find _ (results (p_es j))) as [[r x]|] eqn:Ef.
      + unfold PingModel.p_tell. rewrite Ea. unfold p_step. destruct (wb_result _ x) as [v| |]; eauto.
        destruct v as [ | | |w v| | | | | | | | | | | | | ]; eauto. destruct w; eauto. destruct (v =? i)%N; eauto. destruct (i + 1 <? 10)%N; eauto.
      + pose proof (find_none _ _ Ef _ Hi) as X. cbn [fst] in X. rewrite rev_length, ping_calls_len, Nat.eqb_refl in X. discriminate X.
  Qed.

  (** And it ends: it is told at most twenty things. *)
  Definition own (l : PLabel) : bool := match l with PClient _ _ => false | _ => true end.
  Definition left (s : PAt) : nat := match s with Waits i => 20 - 2 * N.to_nat i | Pinged i => 19 - 2 * N.to_nat i | _ => 0 end.
  Definition within_ten (s : PAt) : Prop := match s with Waits i | Pinged i => (i < 10)%N | _ => True end.
  Lemma told_less s x s' o c : within_ten s -> p_step s x = Some (s', o, c) -> within_ten s' /\ left s' < left s.
  Proof.
    intros W St. unfold p_step in St. destruct s as [i|i| |], x as [|r|]; try discriminate St; cbn [within_ten left] in *; try (injection St as <- <- <-; cbn [within_ten left]; lia).
    assert (D : s' = Waits (i + 1) /\ (i + 1 < 10)%N \/ s' = Ended \/ s' = Panics).
    { destruct r as [v| |]; try (injection St as <- <- <-; auto; fail). destruct v as [ | | |w v| | | | | | | | | | | | | ]; try (injection St as <- <- <-; auto; fail).
      destruct w; try (injection St as <- <- <-; auto; fail). destruct (v =? i)%N; [|injection St as <- <- <-; auto].
      destruct (N.ltb_spec (i + 1) 10); injection St as <- <- <-; auto. }
    destruct D as [[-> D]|[-> | ->]]; cbn [within_ten left]; lia.
  Qed.
  Lemma own_left ls : forall j j', within_ten (p_at j) -> pj_run ls j = Some j' -> length (filter own ls) + left (p_at j') <= left (p_at j).
  Proof.
    induction ls as [|l ls IH]; intros j j' W R; cbn [PingModel.pj_run] in R; [injection R as <-; cbn; lia|].
    destruct (pj_step l j) as [j1|] eqn:St; [|discriminate].
    assert (T : forall x es, p_tell j x es = Some j1 -> within_ten (p_at j1) /\ left (p_at j1) < left (p_at j)).
    { intros x es T. unfold PingModel.p_tell in T. destruct (p_step (p_at j) x) as [[[s o] c]|] eqn:E; [|discriminate]. injection T as <-.
      exact (told_less _ _ _ _ _ W E). }
    destruct l as [l e|e| |]; cbn [PingModel.pj_step] in St; cbn [filter own length].
    - assert (E : p_at j1 = p_at j) by (destruct l; try discriminate St; injection St as <-; reflexivity).
      rewrite <- E in W |- *. exact (IH _ _ W R).
    - destruct (T _ _ St) as [W1 L]. pose proof (IH _ _ W1 R). lia.
    - destruct (rev (p_calls j)); [discriminate|]. destruct (find _ _) as [[r x]|]; [|discriminate]. destruct (T _ _ St) as [W1 L]. pose proof (IH _ _ W1 R). lia.
    - destruct (T _ _ St) as [W1 L]. pose proof (IH _ _ W1 R). lia.
  Qed.
  Theorem C99_ends : forall ls j, pj_run ls ping_start = Some j -> length (filter own ls) <= 20.
  Proof. intros ls j R. pose proof (own_left ls ping_start j eq_refl R) as L. cbn in L. lia. Qed.
End J.
Print Assumptions C99_goes_on.
Print Assumptions C99_ends.
Print Assumptions C99_prints_as_documented_partial.
