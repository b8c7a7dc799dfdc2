(** C97 from the keyboard to the lights. *)
From Coq Require Import String NArith ZArith List Bool Arith Lia.
From Verif Require Import KeyModel HeaderModel KeySpec HeaderSpec MinKeyModel MinKeySpec SchemaModel MacroModel PostcardModel
  DispatchModel DispatchSpec DispatchThm SubModel ClientModel ClientSpec ClientHist ClientThm4 UsbModel UsbSpec NusbRxModel LogModel.
From Verif Require Import DispatchModel DispatchSpec DispatchThm SystemModel SystemSpec SystemThm2 AsyncModel AsyncSpec
  UsbSysModel UsbSysSpec UsbSysThm2 
  CodecModel CodecSpec CodecStdModel TypedSpec StateSpec OmitThm OmitThm2
  WorkbookModel WorkbookSpec WbSysModel WbSysSpec WbSysThm WbSysThm2 ReplModel ReplSpec ReplProof ReplThm ReplSysModel.
Import ListNotations.

(** The prompt waits for a call. *)
Definition waiting (s : Repl) : bool := match s with Hello | HelloId | Called _ | Starting _ | Stopping => true | _ => false end.
Lemma step_shape s i s' os : repl_step s i = Some (s', os) -> s' <> Died ->
  waiting s = (match i with Answer _ _ => true | _ => false end) /\
  (match i with Answer r _ => exists v, r = WOk v | _ => True end) /\
  ((exists c, calls os = [c] /\ waiting s' = true) \/ (calls os = [] /\ waiting s' = false)).
Proof.
  intros H N. destruct i as [l|r now|ok|v now|ok].
  - destruct s; try discriminate H. cbn [repl_step] in H. injection H as H. split; [reflexivity|]. split; [exact Logic.I|].
    destruct (command_does (split_whitespace l)) as [c A|ms rg dur A|A|A|p]; unfold call, complain in H; injection H as <- <-; try (right; split; reflexivity).
    left. exists c. split; reflexivity.
  - destruct s; try discriminate H; destruct r; cbn [repl_step] in H; try (injection H as <- <-; congruence).
    + injection H as <- <-. split; [reflexivity|]. split; [eauto|]. left. eexists. split; reflexivity.
    + injection H as <- <-. split; [reflexivity|]. split; [eauto|]. right. split; reflexivity.
    + injection H as <- <-. split; [reflexivity|]. split; [eauto|]. right. split; [destruct c; reflexivity|reflexivity].
    + unfold listen in H. destruct (now <? now + dur * 1000000)%N; injection H as <- <-; (split; [reflexivity|]); (split; [eauto|]).
      * right. split; reflexivity.
      * left. eexists. split; reflexivity.
    + injection H as <- <-. split; [reflexivity|]. split; [eauto|]. right. split; reflexivity.
  - destruct s; try discriminate H; destruct ok; cbn [repl_step] in H; injection H as <- <-; [|congruence]. split; [reflexivity|]. split; [exact Logic.I|].
    left. eexists. split; reflexivity.
  - destruct s; try discriminate H; destruct v; cbn [repl_step] in H; [|injection H as <- <-; congruence]. unfold listen in H.
    destruct (now <? until)%N; injection H as <- <-; (split; [reflexivity|]); (split; [exact Logic.I|]).
    + right. split; reflexivity.
    + left. eexists. split; reflexivity.
  - destruct s; try discriminate H; destruct ok; cbn [repl_step] in H; injection H as <- <-; [|congruence]. split; [reflexivity|]. split; [exact Logic.I|].
    right. split; reflexivity.
Qed.
Lemma run_snoc is : forall s s1 os1 i s2 os2, repl_run is s = Some (s1, os1) -> repl_step s1 i = Some (s2, os2) ->
  repl_run (is ++ [i]) s = Some (s2, os1 ++ os2).
Proof.
  induction is as [|x is IH]; intros s s1 os1 i s2 os2 R S.
  - injection R as <- <-. cbn [app repl_run]. rewrite S. rewrite app_nil_r. reflexivity.
  - cbn [app repl_run] in *. destruct (repl_step s x) as [[a b]|]; [|discriminate]. destruct (repl_run is a) as [[a' b']|] eqn:R'; [|discriminate].
    injection R as <- <-. rewrite (IH _ _ _ _ _ _ R' S). rewrite app_assoc. reflexivity.
Qed.

Lemma issued_length cl : forall n, length (issued n cl) = length (filter is_request cl).
Proof. induction cl as [|l cl IH]; intros n; [reflexivity|]. destruct l; cbn [issued filter is_request length]; auto. Qed.
Lemma before_app cl es r1 r2 x y : length cl = length es -> returned_before cl es r1 r2 -> returned_before (cl ++ x) (es ++ y) r1 r2.
Proof.
  intros L (n & f & H1 & H2). exists (Nat.min n (length cl)), f. rewrite !firstn_app.
  replace (Nat.min n (length cl) - length cl) with 0 by lia. replace (Nat.min n (length cl) - length es) with 0 by lia. rewrite !firstn_O, !app_nil_r.
  assert (A : forall X (l : list X), length l = length cl -> firstn (Nat.min n (length cl)) l = firstn n l).
  { intros X l E. destruct (Nat.le_ge_cases n (length cl)); [rewrite Nat.min_l by auto; reflexivity|]. rewrite Nat.min_r by auto. rewrite !firstn_all2 by lia. reflexivity. }
  rewrite !A by auto. auto.
Qed.
Lemma results_app a b : results (a ++ b) = results a ++ results b.
Proof. unfold results. rewrite concat_app, flat_map_app. reflexivity. Qed.

Section J.
  Variable for_path : NamedType -> str -> Key8.
  Variable std : StdKeys.
  Notation j_run := (j_run for_path std).
  Notation j_step := (j_step for_path std).
  Notation j_tell := (j_tell for_path std).

  Record inv (j : Joint) : Prop := {
    i_made : filter is_request (j_cl j) = map (wb_request for_path std) (calls (j_out j));
    i_quiet : forall f, ~ In (LPublish f) (j_cl j);
    i_len : length (j_cl j) = length (j_es j);
    i_run : exists os, j_out j = Do (Ping 42) :: os /\ repl_run (j_in j) Hello = Some (j_at j, os);
    i_back : j_at j <> Died -> forall r c, nth_error (calls (j_out j)) r = Some c -> (waiting (j_at j) = true -> S r < length (calls (j_out j))) ->
      exists f, In (r, GotReply f) (results (j_es j)) /\ wb_result c (GotReply f) <> WComms;
    i_first : j_at j <> Died -> forall r, S r < length (calls (j_out j)) -> returned_before (j_cl j) (j_es j) r (S r) }.

  Lemma requests cs : filter is_request (map (wb_request for_path std) cs) = map (wb_request for_path std) cs.
  Proof. induction cs as [|c cs IH]; [reflexivity|]. cbn [map filter is_request wb_request]. rewrite IH. reflexivity. Qed.
  Lemma filter_app' {A} (p : A -> bool) a b : filter p (a ++ b) = filter p a ++ filter p b.
  Proof. induction a as [|x a IH]; [reflexivity|]. cbn [app filter]. rewrite IH. destruct (p x); reflexivity. Qed.

  Lemma tell_inv j i es j' : inv j -> j_tell j i es = Some j' ->
    (forall r now, i = Answer r now -> exists c before res, calls (j_out j) = before ++ [c] /\ In (length before, res) (results (j_es j)) /\ r = wb_result c res) ->
    inv j'.
  Proof.
    intros [M Q L (os0 & Eo & R) B F] T An. unfold ReplSysModel.j_tell in T. destruct (repl_step (j_at j) i) as [[s os]|] eqn:St; [|discriminate].
    destruct (length es =? length (calls os)) eqn:El; [|discriminate]. apply Nat.eqb_eq in El. injection T as <-.
    assert (Ln : length (issued 0 (j_cl j)) = length (calls (j_out j))) by (rewrite issued_length, M, map_length; reflexivity).
    assert (Nd0 : j_at j <> Died) by (intros E; rewrite E in St; destruct i; discriminate St).
    assert (Back : s <> Died -> forall r c, nth_error (calls (j_out j)) r = Some c -> exists f, In (r, GotReply f) (results (j_es j)) /\ wb_result c (GotReply f) <> WComms).
    { intros Nd r c Hc. destruct (step_shape _ _ _ _ St Nd) as (W & Ok & _).
      destruct i as [l|x now|ok|v now|ok]; try (apply (B Nd0 r c Hc); rewrite W; discriminate).
      destruct (An _ _ eq_refl) as (c0 & before & res & E1 & E2 & ->). destruct Ok as (v & Ok).
      assert (r < length (calls (j_out j))) by (apply nth_error_Some; congruence). rewrite E1, app_length in H. cbn [length] in H.
      destruct (Nat.eq_dec r (length before)) as [->|Ne].
      - rewrite E1, nth_error_app2, Nat.sub_diag in Hc by lia. injection Hc as <-.
        destruct res as [f|f| |]; [|unfold wb_result in Ok; cbn [host_result] in Ok; try destruct (from_bytes_error _); discriminate Ok..].
        exists f. split; [exact E2|]. rewrite Ok. discriminate.
      - apply (B Nd0 r c Hc). intros _. rewrite E1, app_length. cbn. lia. }
    split; cbn [j_cl j_es j_in j_at j_out].
    - rewrite filter_app', M, requests, calls_app, map_app. reflexivity.
    - intros f Hi. apply in_app_iff in Hi as [Hi|Hi]; [exact (Q f Hi)|]. apply in_map_iff in Hi as (c & E & _). discriminate E.
    - rewrite !app_length, map_length. lia.
    - exists (os0 ++ os). split; [rewrite Eo; reflexivity|]. exact (run_snoc _ _ _ _ _ _ _ R St).
    - intros Nd r c Hc Hw. rewrite calls_app in Hc, Hw. rewrite results_app.
      destruct (step_shape _ _ _ _ St Nd) as (_ & _ & [(c1 & E1 & W1)|[E1 W1]]); rewrite E1 in Hc, Hw.
      + specialize (Hw W1). rewrite app_length in Hw. cbn [length] in Hw. rewrite nth_error_app1 in Hc by lia.
        destruct (Back Nd r c Hc) as (f & H1 & H2). exists f. split; [apply in_app_iff; left; exact H1|exact H2].
      + rewrite app_nil_r in Hc. destruct (Back Nd r c Hc) as (f & H1 & H2). exists f. split; [apply in_app_iff; left; exact H1|exact H2].
    - intros Nd r Hr. rewrite calls_app, app_length in Hr.
      destruct (Nat.lt_ge_cases (S r) (length (calls (j_out j)))) as [Lt|Ge]; [apply before_app; auto|].
      destruct (step_shape _ _ _ _ St Nd) as (_ & _ & [(c1 & E1 & W1)|[E1 W1]]); rewrite E1 in Hr; cbn [length] in Hr; [|lia].
      assert (S r = length (calls (j_out j))) by lia.
      destruct (nth_error (calls (j_out j)) r) as [c|] eqn:Hc; [|apply nth_error_None in Hc; lia].
      destruct (Back Nd r c Hc) as (f & H1 & _). exists (length (j_cl j)), f. rewrite !firstn_app, L, !Nat.sub_diag, !firstn_O, !app_nil_r, firstn_all.
      split; [exact H1|]. rewrite <- L, firstn_all, Ln. lia.
  Qed.
  Lemma step_inv j l j' : inv j -> j_step l j = Some j' -> inv j'.
  Proof.
    intros I St. destruct l as [l e|i es|now es]; cbn [ReplSysModel.j_step] in St.
    - assert (X : is_request l = false /\ (forall f, l <> LPublish f) /\ j' = MkJoint (j_cl j ++ [l]) (j_es j ++ [e]) (j_in j) (j_at j) (j_out j)).
      { destruct l; try discriminate St; injection St as <-; (split; [reflexivity|]); (split; [intros f E; discriminate E|reflexivity]). }
      destruct X as (X1 & X2 & ->). destruct I as [M Q L R B F]. split; cbn [j_cl j_es j_in j_at j_out]; auto.
      + rewrite filter_app'. cbn [filter]. rewrite X1, app_nil_r. exact M.
      + intros f Hi. apply in_app_iff in Hi as [Hi|[Hi|[]]]; [exact (Q f Hi)|exact (X2 f Hi)].
      + rewrite !app_length. cbn. lia.
      + intros Nd r c Hc Hw. destruct (B Nd r c Hc Hw) as (f & H1 & H2). exists f. split; [rewrite results_app; apply in_app_iff; left; exact H1|exact H2].
      + intros Nd r Hr. apply before_app; auto.
    - destruct i; try discriminate St; apply (tell_inv _ _ _ _ I St); intros r0 now0 E0; discriminate E0.
    - destruct (rev (calls (j_out j))) as [|c before] eqn:Ec; [discriminate|].
      destruct (find _ (results (j_es j))) as [[r res]|] eqn:Ef; [|discriminate]. apply (tell_inv _ _ _ _ I St). intros x t E. injection E as <- _.
      apply find_some in Ef as [Ef1 Ef2]. apply Nat.eqb_eq in Ef2. cbn [fst] in Ef2. subst r.
      exists c, (rev before), res. split; [|split; [rewrite rev_length; exact Ef1|reflexivity]].
      rewrite <- (rev_involutive (calls (j_out j))), Ec. reflexivity.
  Qed.
  Lemma start_inv e : inv (joint_start for_path std e).
  Proof.
    split; cbn.
    - reflexivity.
    - intros f [E|[]]. discriminate E.
    - reflexivity.
    - eauto.
    - intros _ r c H W. specialize (W eq_refl). lia.
    - intros _ r H. lia.
  Qed.
  Lemma run_inv ls : forall j j', inv j -> j_run ls j = Some j' -> inv j'.
  Proof.
    induction ls as [|l ls IH]; intros j j' I R; cbn [ReplSysModel.j_run] in R; [injection R as <-; exact I|].
    destruct (j_step l j) as [j1|] eqn:St; [|discriminate]. exact (IH _ _ (step_inv _ _ _ I St) R).
  Qed.

  (** The prompt makes one call at a time: whatever happens, when it is back, all its calls
      have returned a reply, each before the next one was made. *)
  Theorem C97_one_at_a_time :
    forall e ls j, j_run ls (joint_start for_path std e) = Some j -> j_at j = Prompt ->
      made for_path std (j_cl j) (calls (j_out j)) /\ one_by_one (j_cl j) (j_es j) (calls (j_out j)).
  Proof.
    intros e ls j R P. pose proof (run_inv _ _ _ (start_inv e) R) as [M Q L X B F]. split; [exact M|]. rewrite P in *. split.
    - apply F. discriminate.
    - intros r c Hc. destruct (B ltac:(discriminate) r c Hc ltac:(discriminate)) as (f & H1 & H2). eauto.
  Qed.

  Lemma obeyed_ok ws cs : obeyed ws cs -> Forall call_ok cs.
  Proof.
    intros [(c & A & ->)|[(ms & rg & dur & A & ->)|(_ & _ & ->)]].
    - constructor; [exact (C97_calls_are_in_range _ _ A)|constructor].
    - inversion A as [? ? ? ? ? ? H]; subst. repeat constructor. apply H.
    - constructor.
  Qed.
  Lemma typed_ok ls css : Forall2 (fun l cs => exists ws, words l ws /\ obeyed ws cs) ls css -> Forall call_ok (concat css).
  Proof.
    induction 1 as [|l cs ls css (ws & _ & O) _ IH]; [constructor|]. cbn [concat]. apply Forall_app. split; [exact (obeyed_ok _ _ O)|exact IH].
  Qed.
  Lemma typed_calls e ls j : j_run ls (joint_start for_path std e) = Some j -> j_at j = Prompt ->
    exists css, Forall2 (fun l cs => exists ws, words l ws /\ obeyed ws cs) (lines (j_in j)) css /\ calls (j_out j) = Ping 42 :: GetId :: concat css.
  Proof.
    intros R P. pose proof (run_inv _ _ _ (start_inv e) R) as [M Q L (os & Eo & X) B F]. rewrite P in X.
    destruct (C97_session_partial _ _ X) as (css & H1 & H2). exists css. split; [exact H1|]. rewrite Eo. exact H2.
  Qed.

  (** From the keyboard to the lights: the firmware of the workbook and its host program,
      over USB, in the circumstances of C91.  When the prompt is back and the device at rest, every light has
      the colour that a line gave it last, and the device shows them. *)
  Theorem C97_typed_colours_partial :
    forall busy readings can_spawn kkind cfg id d txlen rxlen consumes mps outcome uls u e ls j,
      config_ok (wb_eps for_path) (wb_tin for_path) (wb_tout for_path std) (wb_arms for_path busy) [] ->
      define_dispatch value Wb (wb_eps for_path) (wb_tin for_path) (wb_tout for_path std) (wb_arms for_path busy) [] = Done d ->
      klen (d_kind _ _ d) <= klen kkind ->
      distinct_at (klen (d_kind _ _ d)) (ping_req std :: schemas_req std :: map ep_req (em_endpoints (wb_eps for_path)) ++ map snd (tm_topics (wb_tin for_path))) ->
      distinct_at (klen (d_kind _ _ d)) (ping_resp std :: schemas_resp std :: map ep_resp (em_endpoints (wb_eps for_path)) ++ map snd (tm_topics (wb_tout for_path std))) ->
      ~ In (compact (klen kkind) (k8_bytes (error_key std)))
        (map (fun k => compact (klen kkind) (k8_bytes k)) (ping_resp std :: schemas_resp std :: map ep_resp (em_endpoints (wb_eps for_path)))) ->
      error_key std <> td_key for_path row_data -> (id < 2 ^ 64)%N -> usb_sizes mps txlen rxlen ->
      u_run value Wb unit std can_spawn kkind wb_spawn d payload_bytes (wb_task for_path readings) cfg txlen rxlen consumes mps outcome
        uls (usys_new value Wb unit [] (wb_new id)) = Some (u, j_cl j, j_es j) ->
      errors_between_messages uls -> (N.of_nat (ClientSpec.typed (j_cl j)) <= 2 ^ 32)%N ->
      j_run ls (joint_start for_path std e) = Some j -> j_at j = Prompt -> u_cur _ _ _ u = None ->
      exists css, Forall2 (fun l cs => exists ws, words l ws /\ obeyed ws cs) (lines (j_in j)) css /\
        lit id (flat_map light_op (concat css)) (u_ctx _ _ _ u).
  Proof.
    intros busy readings can_spawn kkind cfg id d txlen rxlen consumes mps outcome uls u e ls j H1 H2 H3 H4 H5 H6 H7 H8 H9 Hr He Hc J P Hq.
    destruct (typed_calls _ _ _ J P) as (css & F & E). exists css. split; [exact F|].
    destruct (C97_one_at_a_time _ _ _ J P) as [M O].
    assert (Ok : Forall call_ok (calls (j_out j))). { rewrite E. constructor; [reflexivity|]. constructor; [exact Logic.I|]. exact (typed_ok _ _ F). }
    pose proof (i_quiet _ (run_inv _ _ _ (start_inv e) J)) as Q.
    destruct (C91_step_by_step_partial for_path std busy readings can_spawn kkind cfg id d H1 H2 H3 H4 H5 H6 H7 H8 (j_cl j) (j_es j) (calls (j_out j)) Q M Ok Hc
                txlen rxlen consumes mps outcome H9 uls u Hr He O) as [_ X].
    specialize (X Hq). rewrite E in X. exact X.
  Qed.
End J.
Print Assumptions C97_one_at_a_time.
Print Assumptions C97_typed_colours_partial.

(** The device of [C91_ex], and a session at the prompt. *)
Definition rx_calls : list WbCall := [Ping 42; GetId; SetAllRgbSingle 1 2 3; SetRgbSingle 3 10 20 30].
Definition rx_history : list ULabel :=
  flat_map (fun r => (map UClient (wb_request wx_path x_std (nth r rx_calls GetId) :: y_out r) ++ [UServe]) ++ UResume :: wx_get r) [0; 1; 2; 3].
(** What happens at the prompt before and at each request of the client. *)
Fixpoint weave (ps : list (Label * list Ev)) (told : list (list JLabel * (list (list Ev) -> JLabel))) : list JLabel :=
  match ps with
  | [] => []
  | (l, e) :: tl =>
    if is_request l then match told with (b, f) :: told' => b ++ f [e] :: weave tl told' | [] => [] end
    else JClient l e :: weave tl told
  end.
Definition rx_line (s : string) : list (list Ev) -> JLabel := JPrompt (typed_line s).
Definition rx_told : list (list JLabel * (list (list Ev) -> JLabel)) :=
  [([], JReturn 0); ([JReturn 0 []], rx_line "rgball 1 2 3"); ([JReturn 0 []], rx_line " rgb 3  10 20 30")].
Definition rx_joint (cl : list Label) (es : list (list Ev)) : list JLabel :=
  weave (tl (combine cl es)) rx_told ++ [JReturn 0 []; rx_line "what" []].
Example C97_typed_colours_ex :
  errors_between_messages rx_history /\
  exists u j, wx_run rx_history (usys_new value Wb unit [] (wb_new 99)) = Some (u, j_cl j, j_es j) /\
    (N.of_nat (ClientSpec.typed (j_cl j)) <= 2 ^ 32)%N /\
    j_run wx_path x_std (rx_joint (j_cl j) (j_es j)) (joint_start wx_path x_std (hd [] (j_es j))) = Some j /\ j_at j = Prompt /\
    u_cur _ _ _ u = None /\ length (lines (j_in j)) = 3 /\
    leds (lights (u_ctx _ _ _ u)) = repeat (MkRgb 1 2 3) 3 ++ MkRgb 10 20 30 :: repeat (MkRgb 1 2 3) 20.
Proof.
  split. { intros e Hl. vm_compute in Hl; repeat (destruct Hl as [Hl|Hl]; [discriminate Hl|]); destruct Hl. }
  destruct (wx_run rx_history (usys_new value Wb unit [] (wb_new 99))) as [[[u cl] es]|] eqn:R; [|vm_compute in R; discriminate].
  destruct (j_run wx_path x_std (rx_joint cl es) (joint_start wx_path x_std (hd [] es))) as [j|] eqn:J; [|vm_compute in R; injection R as <- <- <-; vm_compute in J; discriminate J].
  exists u, j. assert (E : cl = j_cl j /\ es = j_es j).
  { vm_compute in R. injection R as <- <- <-. vm_compute in J. injection J as <-. split; reflexivity. }
  destruct E as [Ec Ee]. rewrite <- Ec, <- Ee. split; [reflexivity|].
  clear Ec Ee. vm_compute in R. injection R as <- <- <-. split; [vm_compute; discriminate|]. split; [exact J|]. vm_compute in J. injection J as <-.
  repeat split.
Qed.
