(** Lemmas about what came before what. *)
From Coq Require Import NArith List Bool Arith Lia Permutation.
From Verif Require Import KeyModel HeaderModel KeySpec HeaderSpec KeyProof HeaderProof MinKeyModel MinKeySpec MinKeyProof
  SchemaModel MacroModel PostcardModel DispatchModel DispatchSpec DispatchProof SubModel SubSpec SubProof
  ClientModel ClientSpec ClientProof ClientHist ClientMore ClientOut ClientThm.
From Verif Require Import UsbSpec FlowBase.
From Verif Require Import KeySpec HeaderModel HeaderSpec DispatchModel DispatchSpec SubModel SystemModel SystemSpec SystemProof SystemThm
  FlowSpec FlowProof FlowThm AsyncModel AsyncSpec AsyncProof AsyncThm StateSpec StateProof LiveProof CauseSpec.
Import ListNotations.

(** *** Embeddings *)
Section Embed.
  Context {A B : Type}.
  Variable R : A -> B -> Prop.
  Definition embeds (xs : list A) (ys : list B) : Prop := exists ms, subsequence ms ys /\ Forall2 R xs ms.
  Lemma embeds_app a b x y : embeds a x -> embeds b y -> embeds (a ++ b) (x ++ y).
  Proof. intros (m1 & S1 & F1) (m2 & S2 & F2). exists (m1 ++ m2). split; [now apply subseq_app|now apply Forall2_app]. Qed.
  Lemma embeds_split a b z : embeds (a ++ b) z -> exists x y, z = x ++ y /\ embeds a x /\ embeds b y.
  Proof.
    intros (m & S1 & F). apply Forall2_app_inv_l in F as (m1 & m2 & F1 & F2 & ->).
    apply subseq_app_inv in S1 as (x & y & -> & S1 & S2). exists x, y. split; [reflexivity|]. split; [exists m1|exists m2]; auto.
  Qed.
  Lemma subseq_nil (l : list B) : subsequence [] l.
  Proof. induction l; constructor; auto. Qed.
  Lemma embeds_more a x y : embeds a x -> embeds a (y ++ x).
  Proof. intros H. apply (embeds_app [] a); auto. exists []. split; [apply subseq_nil|constructor]. Qed.
  Lemma embeds_rest a x y : embeds a x -> embeds a (x ++ y).
  Proof. intros H. rewrite <- (app_nil_r a). apply embeds_app; auto. exists []. split; [apply subseq_nil|constructor]. Qed.
  Lemma embeds_one a z : embeds [a] z -> exists x m y, z = x ++ m :: y /\ R a m.
  Proof.
    intros (m & S1 & F). inversion F as [|? m0 ? ? Ra F0]; subst. inversion F0; subst.
    assert (Hi : In m0 z) by (eapply subseq_in; [exact S1|now left]). apply in_split in Hi as (x & y & ->). exists x, m0, y. auto.
  Qed.
  (** What [b] holds is not looked for later. *)
  Lemma embeds_early a1 a2 b c : embeds a1 b -> embeds (a1 ++ a2) (b ++ c) -> exists b1 b2, b = b1 ++ b2 /\ embeds a1 b1 /\ embeds a2 (b2 ++ c).
  Proof.
    intros E1 E. apply embeds_split in E as (p & q & E & P & Q).
    assert (X : (exists b2, b = p ++ b2 /\ q = b2 ++ c) \/ (exists c1, p = b ++ c1 /\ c = c1 ++ q)).
    { clear - E. revert p E. induction b as [|y b IH]; intros [|z p] E; cbn in E.
      - left. exists []. auto.
      - right. exists (z :: p). auto.
      - left. exists (y :: b). auto.
      - injection E as <- E. destruct (IH _ E) as [(b2 & -> & ->)|(c1 & -> & ->)]; [left|right]; eexists; split; reflexivity. }
    destruct X as [(b2 & -> & ->)|(c1 & -> & ->)].
    - exists p, b2. auto.
    - exists b, []. rewrite app_nil_r. split; [reflexivity|]. split; [exact E1|]. cbn [app]. apply embeds_more. exact Q.
  Qed.
End Embed.

Lemma embeds_mono {A B} (R R' : A -> B -> Prop) xs ys : (forall x y, R x y -> R' x y) -> embeds R xs ys -> embeds R' xs ys.
Proof. intros H (ms & S1 & F). exists ms. split; auto. clear S1. induction F; constructor; auto. Qed.

Section P.
  Context {Val Ctx SCtx : Type}.
  Notation Tr := (Trace Val SCtx).
  Lemma messages_app (a b : Tr) : messages (a ++ b) = messages a ++ messages b. Proof. apply flat_map_app. Qed.
  Lemma messages_split (t : Tr) : forall u m v, messages t = u ++ m :: v ->
    exists t1 w r t2, t = t1 ++ EvSend w (fst m) (snd m) r :: t2 /\ messages t1 = u /\ messages t2 = v.
  Proof.
    induction t as [|e t IH]; intros u m v E; [destruct u; discriminate|].
    destruct e as [w h p r| |].
    - cbn in E. destruct u as [|x u]; injection E as <- E.
      + exists [], w, r, t. auto.
      + destruct (IH _ _ _ E) as (t1 & w' & r' & t2 & -> & <- & <-). exists (EvSend w h p r :: t1), w', r', t2. auto.
    - destruct (IH _ _ _ E) as (t1 & w' & r' & t2 & -> & <- & <-). match goal with |- context [?e :: t1 ++ _] => exists (e :: t1), w', r', t2 end. auto.
    - destruct (IH _ _ _ E) as (t1 & w' & r' & t2 & -> & <- & <-). match goal with |- context [?e :: t1 ++ _] => exists (e :: t1), w', r', t2 end. auto.
  Qed.

  Variable std : StdKeys.
  Variable net : Tr -> VarHeader -> Payload Val -> TxRes.
  Variable can_spawn : Tr -> nat -> bool.
  Variable kkind : VarKeyKind.
  Variable spawn_ctxt : Ctx -> Ctx * SCtx.
  Variable d : Dispatcher Val Ctx.
  Variable enc : Payload Val -> list N.
  Variable task : nat -> SCtx -> VarHeader -> Val -> HProg Val unit.
  Variable bg : list (HProg Val unit).
  Variable cfg : Config.
  Notation a_step := (a_step Val Ctx SCtx std net can_spawn kkind spawn_ctxt d enc task cfg).
  Notation a_run := (a_run Val Ctx SCtx std net can_spawn kkind spawn_ctxt d enc task cfg).
  Notation carry_on := (carry_on Val Ctx SCtx can_spawn task).
  Notation a_sys := (a_sys Val Ctx SCtx).
  Notation a_cur := (a_cur Val Ctx SCtx).
  Notation y_trace := (y_trace Val Ctx SCtx).
  Notation trace a := (y_trace (a_sys a)).

  Lemma carry_trace s p : exists evs, trace (carry_on s p) = y_trace s ++ evs /\ messages evs = [] /\ (quiet p -> evs = []).
  Proof.
    unfold AsyncModel.carry_on. destruct (settle _ _ can_spawn p (y_trace s)) as [p' tr'] eqn:E.
    destruct (settle_spec task _ _ _ _ _ E) as (evs & -> & O & _). exists evs.
    assert (M : messages evs = []). { clear - O. unfold outcomes, messages in *. induction evs as [|[] evs IH]; cbn in *; auto; discriminate. }
    split; [destruct p' as [[ctx res]| | |]; reflexivity|]. split; [exact M|].
    intros Q. rewrite (settle_quiet enc task net can_spawn _ _ Q) in E. injection E as _ E.
    rewrite <- (app_nil_r (y_trace s)) in E at 1. apply app_inv_head in E. auto.
  Qed.

  (** A step adds starts, or one transmission. *)
  Lemma a_step_adds l a a' : a_step l a = Some a' -> a_ok a ->
    exists new, trace a' = trace a ++ new /\ (messages new = [] \/ exists w h p r, new = [EvSend w h p r]).
  Proof.
    intros H Ha. destruct l as [l|].
    - assert (Z : trace a' = trace a -> exists new, trace a' = trace a ++ new /\ (messages new = [] \/ exists w h p r, new = [EvSend w h p r])).
      { intros ->. exists []. rewrite app_nil_r. split; auto. }
      destruct l; cbn [AsyncModel.a_step] in H.
      3:{ destruct (a_cur a); [discriminate|]. destruct (y_serving _ _ _ _); [|discriminate]. destruct (nth_error _ _) as [b|]; [|discriminate].
          destruct (take_from_slice b) as [[[hdr body]|]|]; [| |discriminate]; injection H as <-; [|apply Z; reflexivity].
          match goal with |- context [carry_on ?s ?p] => destruct (carry_trace s p) as (evs & E & M & _) end. exists evs. split; [exact E|auto]. }
      3:{ destruct (SystemModel.sys_step _ _ _ _ _ _ _ _ _ _ _ _ _ _) as [s'|] eqn:Hs; [|discriminate]. injection H as <-. cbn [AsyncModel.a_sys].
          cbn [SystemModel.sys_step] in Hs. destruct (nth_error _ _) as [[|key seq p k]|]; try discriminate.
          unfold send_keyed, tx_send in Hs. injection Hs as <-. cbn [SystemModel.y_trace]. eexists. split; [reflexivity|]. right. eauto. }
      all: destruct (SystemModel.sys_step _ _ _ _ _ _ _ _ _ _ _ _ _ _) as [s'|] eqn:Hs; [|discriminate]; injection H as <-; cbn [AsyncModel.a_sys] in *; apply Z; cbn [AsyncModel.a_sys].
      + destruct (step_client std net can_spawn kkind spawn_ctxt enc task cfg d _ _ _ Hs) as (e & _ & _ & ->). reflexivity.
      + cbn [SystemModel.sys_step] in Hs. destruct (nth_error _ _) as [b|]; [|discriminate]. destruct (step cfg (LRecv b) _) as [[c e]|]; [|discriminate]. now injection Hs as <-.
      + cbn [SystemModel.sys_step] in Hs. destruct (nth_error _ _) as [b|]; [|discriminate]. now injection Hs as <-.
      + cbn [SystemModel.sys_step] in Hs. destruct (nth_error _ _) as [b|]; [|discriminate]. now injection Hs as <-.
      + cbn [SystemModel.sys_step] in Hs. destruct (nth_error _ _) as [b|]; [|discriminate]. now injection Hs as <-.
      + cbn [SystemModel.sys_step] in Hs. now injection Hs as <-.
    - cbn [AsyncModel.a_step] in H. unfold a_ok in Ha. destruct (a_cur a) as [[| | |w h p k]|]; try discriminate H. injection H as <-.
      match goal with |- context [carry_on ?s ?p] => destruct (carry_trace s p) as (evs & E & M & Q) end.
      rewrite Q in E by apply Ha. rewrite app_nil_r in E. cbn [SystemModel.y_trace] in E. eexists. split; [exact E|]. right. eauto.
  Qed.

  (** The history up to a transmission. *)
  Lemma up_to_send ctx0 : forall ls a cl es, a_run ls (asys_new _ _ _ bg ctx0) = Some (a, cl, es) ->
    a_ok a /\ forall t1 w h p r t2, trace a = t1 ++ EvSend w h p r :: t2 ->
      exists ls1 a1 cl1 es1 cl2 es2, a_run ls1 (asys_new _ _ _ bg ctx0) = Some (a1, cl1, es1) /\ cl = cl1 ++ cl2 /\ es = es1 ++ es2 /\
        trace a1 = t1 ++ [EvSend w h p r].
  Proof.
    apply (a_ind std kkind spawn_ctxt d enc task cfg net can_spawn
      (fun ls a cl es => a_ok a /\ forall t1 w h p r t2, trace a = t1 ++ EvSend w h p r :: t2 ->
        exists ls1 a1 cl1 es1 cl2 es2, a_run ls1 (asys_new _ _ _ bg ctx0) = Some (a1, cl1, es1) /\ cl = cl1 ++ cl2 /\ es = es1 ++ es2 /\
          trace a1 = t1 ++ [EvSend w h p r])).
    { split; [exact Logic.I|]. intros t1 w h p r t2 E. destruct t1; discriminate E. }
    intros ls a cl es l a' Hr (Ok & IH) St.
    pose proof (a_step_ok std kkind spawn_ctxt d enc task cfg net can_spawn _ _ _ St Ok) as Ok'.
    destruct (a_step_adds _ _ _ St Ok) as (new & E & Cs).
    assert (G : forall cl' es', (exists c2 e2, cl' = cl ++ c2 /\ es' = es ++ e2 /\ (exists lz, a_run lz (asys_new _ _ _ bg ctx0) = Some (a', cl', es'))) ->
      forall t1 w h p r t2, trace a' = t1 ++ EvSend w h p r :: t2 ->
        exists ls1 a1 cl1 es1 cl2 es2, a_run ls1 (asys_new _ _ _ bg ctx0) = Some (a1, cl1, es1) /\ cl' = cl1 ++ cl2 /\ es' = es1 ++ es2 /\
          trace a1 = t1 ++ [EvSend w h p r]).
    { intros cl' es' (c2 & e2 & -> & -> & lz & Hz) t1 w h p r t2 Et. rewrite E in Et.
      assert (X : (exists t3, trace a = t1 ++ EvSend w h p r :: t3) \/ (exists n1 n2, new = n1 ++ EvSend w h p r :: n2 /\ t1 = trace a ++ n1 /\ t2 = n2)).
      { clear - Et. revert t1 Et. induction (trace a) as [|e t IH]; intros t1 Et; cbn in Et.
        - right. exists t1, t2. auto.
        - destruct t1 as [|e1 t1]; cbn in Et; injection Et as <- Et.
          + left. exists t. reflexivity.
          + destruct (IH _ Et) as [(t3 & ->)|(n1 & n2 & -> & -> & ->)]; [left; exists t3; reflexivity|right; exists n1, n2; auto]. }
      destruct X as [(t3 & X)|(n1 & n2 & X & Y & Z)].
      - destruct (IH _ _ _ _ _ _ X) as (ls1 & a1 & cl1 & es1 & cl2 & es2 & R1 & -> & -> & T1).
        exists ls1, a1, cl1, es1, (cl2 ++ c2), (es2 ++ e2). split; [exact R1|]. split; [now rewrite app_assoc|]. split; [now rewrite app_assoc|exact T1].
      - destruct Cs as [M|(w' & h' & p' & r' & En)].
        + rewrite X, messages_app in M. apply app_eq_nil in M as [_ M]. discriminate M.
        + rewrite En in X. destruct n1 as [|e n1]; [|destruct n1; discriminate X]. injection X as <- <- <- <- <-.
          exists lz, a', (cl ++ c2), (es ++ e2), [], []. rewrite !app_nil_r. split; [exact Hz|]. split; [reflexivity|]. split; [reflexivity|].
          rewrite E, En, Y, app_nil_r. reflexivity. }
    assert (Rn : forall ls0 a0 cl0 es0 b, a_run ls0 b = Some (a0, cl0, es0) -> forall a2, a_step l a0 = Some a2 ->
      match a_client_label _ _ _ l a0 with
      | Some x => forall c e, step cfg x (y_client _ _ _ (a_sys a0)) = Some (c, e) -> a_run (ls0 ++ [l]) b = Some (a2, cl0 ++ [x], es0 ++ [e])
      | None => a_run (ls0 ++ [l]) b = Some (a2, cl0, es0)
      end).
    { clear. induction ls0 as [|l0 ls0 IH]; intros a0 cl0 es0 b Hb a2 Hs; cbn [AsyncModel.a_run app] in Hb |- *.
      - injection Hb as <- <- <-. destruct (a_client_label _ _ _ l b) as [x|].
        + intros c e Hx. rewrite Hs, Hx. reflexivity.
        + rewrite Hs. reflexivity.
      - destruct (a_step l0 b) as [b1|]; [|discriminate].
        destruct (AsyncModel.a_run _ _ _ _ _ _ _ _ _ _ _ _ ls0 b1) as [[[a3 cl3] es3]|] eqn:R3; [|discriminate].
        specialize (IH _ _ _ _ R3).
        destruct (a_client_label _ _ _ l0 b) as [y|].
        + destruct (step cfg y (y_client _ _ _ (a_sys b))) as [[c0 e0]|]; [|discriminate]. injection Hb as -> <- <-. specialize (IH _ Hs).
          destruct (a_client_label _ _ _ l a0) as [x|].
          * intros c e Hx. rewrite (IH c e Hx). reflexivity.
          * rewrite IH. reflexivity.
        + injection Hb as -> <- <-. specialize (IH _ Hs). destruct (a_client_label _ _ _ l a0) as [x|].
          * intros c e Hx. rewrite (IH c e Hx). reflexivity.
          * rewrite IH. reflexivity. }
    specialize (Rn _ _ _ _ _ Hr _ St). destruct (a_client_label _ _ _ l a) as [x|].
    - intros c e Hx. split; [exact Ok'|]. apply G. exists [x], [e]. split; [reflexivity|]. split; [reflexivity|]. eexists. exact (Rn c e Hx).
    - split; [exact Ok'|]. apply G. exists [], []. rewrite !app_nil_r. split; [reflexivity|]. split; [reflexivity|]. eexists. exact Rn.
  Qed.

  (** The history up to a step of the client. *)
  Lemma a_prefix n : forall ls a0 a cl es, a_run ls a0 = Some (a, cl, es) -> a_ok a0 ->
    exists ls1 ls2 a1 new, ls = ls1 ++ ls2 /\ a_run ls1 a0 = Some (a1, firstn n cl, firstn n es) /\ trace a = trace a1 ++ new.
  Proof.
    intros ls. revert n.
    assert (Mono : forall ls a0 a cl es, a_run ls a0 = Some (a, cl, es) -> a_ok a0 -> exists new, trace a = trace a0 ++ new).
    { clear ls. intros ls. induction ls as [|l ls IH]; intros a0 a cl es H Ok; cbn [AsyncModel.a_run] in H.
      - injection H as <- <- <-. exists []. now rewrite app_nil_r.
      - destruct (a_step l a0) as [a1|] eqn:E; [|discriminate].
        destruct (AsyncModel.a_run _ _ _ _ _ _ _ _ _ _ _ _ ls a1) as [[[a2 cl2] es2]|] eqn:Rn; [|discriminate].
        destruct (IH _ _ _ _ Rn (a_step_ok std kkind spawn_ctxt d enc task cfg net can_spawn _ _ _ E Ok)) as (n2 & E2).
        destruct (a_step_adds _ _ _ E Ok) as (n1 & E1 & _).
        assert (a2 = a). { destruct (a_client_label _ _ _ l a0); [destruct (step _ _ _) as [[]|]; [|discriminate]|]; injection H; auto. }
        subst a2. exists (n1 ++ n2). rewrite E2, E1, app_assoc. reflexivity. }
    induction ls as [|l ls IH]; intros n a0 a cl es H Ok; cbn [AsyncModel.a_run] in H.
    - injection H as <- <- <-. exists [], [], a0, []. split; [reflexivity|]. split; [destruct n; reflexivity|now rewrite app_nil_r].
    - destruct (a_step l a0) as [a1|] eqn:E; [|discriminate].
      destruct (AsyncModel.a_run _ _ _ _ _ _ _ _ _ _ _ _ ls a1) as [[[a2 cl2] es2]|] eqn:Rn; [|discriminate].
      pose proof (a_step_ok std kkind spawn_ctxt d enc task cfg net can_spawn _ _ _ E Ok) as Ok1.
      destruct (a_step_adds _ _ _ E Ok) as (n1 & E1 & _).
      destruct (a_client_label _ _ _ l a0) as [x|] eqn:X.
      + destruct (step cfg x (y_client _ _ _ (a_sys a0))) as [[c e]|] eqn:Sx; [|discriminate]. injection H as <- <- <-.
        destruct n as [|n].
        { destruct (Mono _ _ _ _ _ Rn Ok1) as (n2 & E2). exists [], (l :: ls), a0, (n1 ++ n2). split; [reflexivity|]. split; [reflexivity|]. rewrite E2, E1, app_assoc. reflexivity. }
        destruct (IH n _ _ _ _ Rn Ok1) as (ls1 & ls2 & a3 & new & -> & R1 & T1). exists (l :: ls1), ls2, a3, new. split; [reflexivity|]. split; [|exact T1].
        cbn [AsyncModel.a_run firstn]. rewrite E, R1, X, Sx. reflexivity.
      + injection H as <- <- <-. destruct (IH n _ _ _ _ Rn Ok1) as (ls1 & ls2 & a3 & new & -> & R1 & T1). exists (l :: ls1), ls2, a3, new. split; [reflexivity|]. split; [|exact T1].
        cbn [AsyncModel.a_run]. rewrite E, R1, X. reflexivity.
  Qed.
End P.
