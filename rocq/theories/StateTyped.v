(** Typed calls of a device that is one sequential object: C90 for values. *)
From Coq Require Import NArith ZArith List Bool Arith Lia.
From Verif Require Import KeyModel HeaderModel KeySpec HeaderSpec MinKeyModel MinKeySpec SchemaModel MacroModel PostcardModel
  DispatchModel DispatchSpec SubModel ClientModel ClientSpec UsbSpec.
From Verif Require Import DispatchModel DispatchSpec SystemModel SystemSpec SystemProof SystemThm
  CodecModel CodecSpec CodecProof CodecStdModel CodecStdProof CodecThm TypedSpec TypedThm StateSpec.
Import ListNotations.

Section T.
  Context {Ctx SCtx : Type}.
  Variable std : StdKeys.
  Variable spawn_ctxt : Ctx -> Ctx * SCtx.
  Variable task : nat -> SCtx -> VarHeader -> value -> HProg value unit.
  Variable ea : list (EpArm value Ctx).
  Variable ta : list (TpArm value Ctx).
  Variable d : Dispatcher value Ctx.
  Variable rqty rsty : Key8 -> NamedType.
  Variable cl : list Label.
  Variable es : list (list Ev).

  (** [w] is the value of call [r] of the endpoint [req] with argument [v] according to
      the turns [ts]. *)
  Inductive valued_in (ts : list (Turn value Ctx SCtx)) (r : nat) (req : Key8) (v : value) : value -> Prop :=
  | vi_ping : req = ping_req std -> valued_in ts r req v v
  | vi_schemas t : req = schemas_req std -> announces (d_map _ _ d) t -> valued_in ts r req v (totals_value t)
      (** it is what the handler returned when run on that argument in the call's turn, *)
  | vi_turn a h w : ea_req _ _ a = req -> In (Called r a h v w) ts -> valued_in ts r req v w
      (** or was sent by the task spawned with that argument in the call's turn. *)
  | vi_task a h sc w : ea_req _ _ a = req -> In (CallSpawned r a h v sc) ts ->
      may_send (task (ea_name _ _ a) sc h v) (ea_resp _ _ a) (hdr_seq h) (PVal w) -> valued_in ts r req v w.

  Variable c0 c : Ctx.
  Variable ts : list (Turn value Ctx SCtx).
  Variable tr : Trace value SCtx.
  Variable ordered whole : Prop.
  Hypothesis Htyped : typed_device std ea task rqty rsty.
  Hypothesis Hex : explained_by std ea ta task spawn_ctxt d cl es payload_bytes c0 ts c tr ordered whole.

  Notation called := (called rqty cl).
  Notation returned := (returned rsty).

  Lemma path_turn c1 c2 t : path ea ta spawn_ctxt cl c1 ts c2 -> In t ts -> exists x y, goes ea ta spawn_ctxt cl x t y.
  Proof. clear Hex. intros H. induction H as [|? ? ? ? ? G P IH]; intros X; [destruct X|]. destruct X as [<-|X]; eauto. Qed.

  Lemma arg_is r req v a h v' : called r req v -> request_of ea cl r a h v' -> ea_req _ _ a = req -> v' = v.
  Proof.
    intros (resp & Hi & Hv) (Ha & _ & body & resp' & Hi' & Hd) <-.
    rewrite Hi in Hi'. injection Hi' as _ <- _. destruct Htyped as (_ & _ & _ & T4 & _).
    rewrite T4 in Hd by auto. rewrite <- (app_nil_r (ser v)), C63_round_trip in Hd by auto. congruence.
  Qed.

  (** Every value that a call returned is the value of its turn; *)
  Theorem C90_values :
    forall r req v res w, called r req v -> In (r, res) (results es) -> returned req res = HOk _ _ w -> valued_in ts r req v w.
  Proof.
    intros r req v res w Hc Hr Hret. unfold TypedSpec.returned, host_result in Hret.
    destruct res as [f|f| |]; try discriminate; [|destruct (from_bytes_error _); discriminate].
    destruct (from_bytes (rsty req) (f_body f)) as [w'|] eqn:D; [|discriminate]. injection Hret as ->.
    destruct (ex_reply _ _ _ _ _ _ _ _ _ _ _ _ _ _ _ Hex r f Hr) as (req0 & resp0 & body0 & p & Hi0 & (missing & Hm) & _ & An).
    destruct Htyped as (T1 & T2 & T3 & T4 & T5 & T6 & _). pose proof Hc as (resp & Hi & Hv).
    rewrite Hi in Hi0. injection Hi0 as <- <- <-.
    destruct An as [n E F|t E F|a h v' w' E I1|a h v' sc p E I1 M].
    - subst req. rewrite T1 in Hv. destruct v; try contradiction. destruct w0; try contradiction.
      assert (X : from_bytes_u32 (ser (VUInt W32 n0)) = Some n0).
      { pose proof (C63_round_trip t_u32 (VUInt W32 n0) [] Hv) as X. rewrite app_nil_r in X.
        unfold from_bytes, t_u32, de, de_dmt, de_prim in X. unfold from_bytes_u32.
        destruct (take_varint W32 (ser (VUInt W32 n0))) as [[m rr]|] eqn:Q; [|discriminate]. cbn in X. injection X as ->.
        unfold take_u32. cbn in Q |- *. rewrite Q. reflexivity. }
      rewrite X in F. injection F as <-. rewrite T2 in D. destruct (de_part t_u32 (VUInt W32 n0) _ _ _ Hv Hm D) as [-> _]. apply vi_ping. reflexivity.
    - subst req. rewrite T3 in D. destruct (de_part t_totals (totals_value t) _ _ _ (proj1 (totals_typed _ (announces_ok _ _ F))) Hm D) as [-> _].
      now apply vi_schemas.
    - destruct (path_turn _ _ _ (ex_path _ _ _ _ _ _ _ _ _ _ _ _ _ _ _ Hex) I1) as (x & y & G).
      inversion G as [? ? ? ? ? ? ? Rq Fl M Z| | |]; subst.
      pose proof (arg_is _ _ _ _ _ _ Hc Rq eq_refl) as ->.
      assert (Hw' : typed (rsty (ea_req _ _ a)) w') by (eapply T5; eauto; apply Rq).
      destruct (de_part _ w' _ _ _ Hw' Hm D) as [-> _]. eapply vi_turn; eauto.
    - destruct (path_turn _ _ _ (ex_path _ _ _ _ _ _ _ _ _ _ _ _ _ _ _ Hex) I1) as (x & y & G).
      inversion G as [| |? ? ? ? ? ? ? Rq Fl Sp Z|]; subst.
      pose proof (arg_is _ _ _ _ _ _ Hc Rq eq_refl) as ->.
      destruct (T6 _ _ _ _ _ _ (proj1 Rq) Fl Hv M) as (w0 & -> & Hw0).
      destruct (de_part _ w0 _ _ _ Hw0 Hm D) as [-> _]. eapply vi_task; eauto.
  Qed.

  (** and every reply is decoded if replies arrive whole. *)
  Theorem C90_replies_decode :
    whole -> forall r req v f, called r req v -> In (r, GotReply f) (results es) -> exists w, returned req (GotReply f) = HOk _ _ w.
  Proof.
    intros W r req v f Hc Hr. unfold TypedSpec.returned, host_result.
    destruct (ex_reply _ _ _ _ _ _ _ _ _ _ _ _ _ _ _ Hex r f Hr) as (req0 & resp0 & body0 & p & Hi0 & _ & Hm & An). rewrite (Hm W).
    destruct Htyped as (T1 & T2 & T3 & T4 & T5 & T6 & _). pose proof Hc as (resp & Hi & Hv).
    rewrite Hi in Hi0. injection Hi0 as <- <- <-.
    assert (G : forall w, typed (rsty req) w -> exists w', match from_bytes (rsty req) (ser w) with Some v0 => HOk value WireError v0 | None => HPostcard _ _ end = HOk _ _ w').
    { intros w Hw. exists w. now rewrite <- (app_nil_r (ser w)), C63_round_trip. }
    destruct An as [n E F|t E F|a h v' w' E I1|a h v' sc p E I1 M].
    - subst req. rewrite T1 in Hv. destruct v; try contradiction. destruct w; try contradiction.
      assert (X : from_bytes_u32 (ser (VUInt W32 n0)) = Some n0).
      { pose proof (C63_round_trip t_u32 (VUInt W32 n0) [] Hv) as X. rewrite app_nil_r in X.
        unfold from_bytes, t_u32, de, de_dmt, de_prim in X. unfold from_bytes_u32.
        destruct (take_varint W32 (ser (VUInt W32 n0))) as [[m rr]|] eqn:Q; [|discriminate]. cbn in X. injection X as ->.
        unfold take_u32. cbn in Q |- *. rewrite Q. reflexivity. }
      rewrite X in F. injection F as <-. apply G. rewrite T2. exact Hv.
    - subst req. apply G. rewrite T3. exact (proj1 (totals_typed _ (announces_ok _ _ F))).
    - destruct (path_turn _ _ _ (ex_path _ _ _ _ _ _ _ _ _ _ _ _ _ _ _ Hex) I1) as (x & y & Go).
      inversion Go as [? ? ? ? ? ? ? Rq Fl M Z| | |]; subst.
      pose proof (arg_is _ _ _ _ _ _ Hc Rq eq_refl) as ->. apply G. eapply T5; eauto. apply Rq.
    - destruct (path_turn _ _ _ (ex_path _ _ _ _ _ _ _ _ _ _ _ _ _ _ _ Hex) I1) as (x & y & Go).
      inversion Go as [| |? ? ? ? ? ? ? Rq Fl Sp Z|]; subst.
      pose proof (arg_is _ _ _ _ _ _ Hc Rq eq_refl) as ->.
      destruct (T6 _ _ _ _ _ _ (proj1 Rq) Fl Hv M) as (w0 & -> & Hw0). apply G. exact Hw0.
  Qed.
End T.
Print Assumptions C90_values.
Print Assumptions C90_replies_decode.
