(** Lemmas for C91. *)
From Coq Require Import NArith ZArith List Bool Arith Lia Sorting.Sorted.
From Verif Require Import KeyModel HeaderModel KeySpec KeyProof HeaderSpec MinKeyModel MinKeySpec SchemaModel MacroModel PostcardModel
  DispatchModel DispatchSpec SubModel ClientModel ClientSpec UsbSpec.
From Verif Require Import DispatchModel DispatchSpec SystemModel SystemSpec
  CodecModel CodecSpec CodecProof CodecStdModel CodecStdProof CodecThm TypedSpec StateSpec StateTyped
  WorkbookModel WorkbookSpec WorkbookThm WbSysModel WbSysSpec OmitThm.
Import ListNotations.

Section W.
  Variable for_path : NamedType -> str -> Key8.
  Variable std : StdKeys.
  Variable busy : VarHeader -> bool.
  Variable readings : VarHeader -> list Acceleration.
  Notation arms := (wb_arms for_path busy).
  Notation task := (wb_task for_path readings).
  Notation eps := (wb_eps for_path).
  Notation tout := (wb_tout for_path std).
  Notation tin := (wb_tin for_path).
  Notation rq := (ed_req_key for_path).
  Notation rs := (ed_resp_key for_path).
  Notation data := (td_key for_path row_data).

  Lemma wb_endpoints : em_endpoints eps = map (fun e => (ed_path e, rq e, rs e)) wb_rows.
  Proof. vm_compute. reflexivity. Qed.
  Lemma wb_topics : map snd (tm_topics tout) = [schema_topic std; logging_key std; data].
  Proof. vm_compute. reflexivity. Qed.
  Lemma wb_topics_in : tm_topics tin = [].
  Proof. vm_compute. reflexivity. Qed.
  (** The types of the endpoints with these keys. *)
  Definition row_of (k : Key8) : option EpDef := find (fun e => key8_eqb (rq e) k) wb_rows.
  Definition wb_rqty (k : Key8) : NamedType :=
    if key8_eqb k (ping_req std) then t_u32 else match row_of k with Some e => ed_request e | None => ty_unit end.
  Definition wb_rsty (k : Key8) : NamedType :=
    if key8_eqb k (ping_req std) then t_u32 else if key8_eqb k (schemas_req std) then t_totals
    else match row_of k with Some e => ed_response e | None => ty_unit end.

  Hypothesis HNi : NoDup (ping_req std :: schemas_req std :: map rq wb_rows).
  Hypothesis HNo : NoDup (ping_resp std :: schemas_resp std :: map rs wb_rows ++ [schema_topic std; logging_key std; data]).
  Hypothesis Hed : error_key std <> data.
  Hypothesis Hers : ~ In (error_key std) (map rs wb_rows).

  Lemma find_row rows e : In e rows -> NoDup (map rq rows) -> find (fun x => key8_eqb (rq x) (rq e)) rows = Some e.
  Proof.
    induction rows as [|x rows IH]; intros H N; [destruct H|]. destruct H as [<-|H]; cbn; inversion N as [|? ? N1 N2]; subst.
    - now rewrite (proj2 (key8_eqb_iff _ _) eq_refl).
    - destruct (key8_eqb (rq x) (rq e)) eqn:E; [|auto]. apply key8_eqb_iff in E. exfalso. apply N1. rewrite E. now apply in_map.
  Qed.
  Lemma row_ty e : In e wb_rows -> wb_rqty (rq e) = ed_request e /\ wb_rsty (rq e) = ed_response e.
  Proof.
    intros H. inversion HNi as [|? ? N1 N2]; subst. inversion N2 as [|? ? N3 N4]; subst.
    assert (A : key8_eqb (rq e) (ping_req std) = false).
    { destruct (key8_eqb (rq e) (ping_req std)) eqn:E; auto. apply key8_eqb_iff in E. exfalso. apply N1. right. rewrite <- E. exact (in_map rq wb_rows e H). }
    assert (B : key8_eqb (rq e) (schemas_req std) = false).
    { destruct (key8_eqb (rq e) (schemas_req std)) eqn:E; auto. apply key8_eqb_iff in E. exfalso. apply N3. rewrite <- E. exact (in_map rq wb_rows e H). }
    unfold wb_rqty, wb_rsty, row_of. rewrite A, B, (find_row wb_rows e H N4). auto.
  Qed.
  Lemma ping_ty : wb_rqty (ping_req std) = t_u32 /\ wb_rsty (ping_req std) = t_u32.
  Proof. unfold wb_rqty, wb_rsty. now rewrite (proj2 (key8_eqb_iff _ _) eq_refl). Qed.
  Lemma schemas_ty : wb_rsty (schemas_req std) = t_totals.
  Proof.
    unfold wb_rsty. rewrite (proj2 (key8_eqb_iff _ _) eq_refl). destruct (key8_eqb (schemas_req std) (ping_req std)) eqn:E; auto.
    apply key8_eqb_iff in E. inversion HNi as [|? ? N1 N2]; subst. exfalso. apply N1. left. auto.
  Qed.

  Lemma samples_send l : forall n key seq p, (n < 256)%N -> may_send (samples for_path n l) key seq p -> key = data /\ seq_ok seq.
  Proof.
    induction l as [|a l IH]; intros n key seq p Hn M; cbn in M; [inversion M|].
    inversion M; subst; [split; [reflexivity|exact Hn]|].
    match goal with H : may_send (if ?b then _ else _) _ _ _ |- _ => destruct b; [inversion H|] end.
    eapply IH; [|eassumption]. apply N.mod_lt. discriminate.
  Qed.
  Lemma accel_send h key seq p : may_send (accelerometer_handler for_path readings h) key seq p ->
    (key = rs row_start /\ seq = hdr_seq h /\ p = PVal VUnitVal) \/ (key = data /\ seq_ok seq).
  Proof.
    intros M. inversion M; subst; [auto|].
    match goal with H : may_send (if ?b then _ else _) _ _ _ |- _ => destruct b; [inversion H|] end.
    right. eapply samples_send; [|eassumption]. lia.
  Qed.

  Lemma set_led_returns c h v x : may_return (set_led_handler c h v) x ->
    exists i, (i < 2)%N /\ snd x = VEnum i VUnitVal.
  Proof.
    intros M. unfold set_led_handler in M.
    assert (G : forall y z : Wb * value, may_return (HRet (Val := value) y) z -> z = y) by (intros y z Q; now inversion Q).
    destruct v; try (apply G in M; subst; exists 1%N; split; [lia|reflexivity]).
    destruct vs as [|v1 vs]; [apply G in M; subst; exists 1%N; split; [lia|reflexivity]|].
    destruct v1; try (apply G in M; subst; exists 1%N; split; [lia|reflexivity]).
    destruct w; try (apply G in M; subst; exists 1%N; split; [lia|reflexivity]).
    destruct vs as [|v2 [|v3 vs]]; try (apply G in M; subst; exists 1%N; split; [lia|reflexivity]).
    destruct (set_led n (rgb_of v2) (lights c)) as [s' r]. apply G in M. subst x. destruct r; cbn [snd]; eexists; (split; [|reflexivity]); lia.
  Qed.

  Lemma wb_typed : typed_device std arms task wb_rqty wb_rsty.
  Proof.
    destruct ping_ty as (P1 & P2).
    assert (R : forall e, In e wb_rows -> wb_rqty (rq e) = ed_request e /\ wb_rsty (rq e) = ed_response e) by exact row_ty.
    split; [exact P1|]. split; [exact P2|]. split; [exact schemas_ty|]. split; [|split; [|split]].
    - intros a body H.
      destruct H as [<-|[<-|[<-|[<-|[<-|[<-|[]]]]]]]; cbn [wb_arm ea_deser ea_req].
      all: match goal with |- context [wb_rqty (rq ?e)] => now rewrite (proj1 (R e ltac:(cbn; tauto))) end.
    - intros a ctx h v ctx' w H F Hv M.
      destruct H as [<-|[<-|[<-|[<-|[<-|[<-|[]]]]]]]; cbn [wb_arm ea_req ea_run ea_flavor] in *;
        match goal with |- context [wb_rsty (rq ?e)] => rewrite (proj1 (R e ltac:(cbn; tauto))) in Hv; rewrite (proj2 (R e ltac:(cbn; tauto))) end.
      + inversion M; subst. exact Hv.
      + inversion M; subst. cbn. unfold uint_ok. apply N.mod_lt. discriminate.
      + destruct (set_led_returns _ _ _ _ M) as (i & Hi & E). cbn [snd] in E. subst w. cbn [ed_response row_one ty_set_result typed typed_dmt].
        split; [unfold uint_ok; change (2 ^ bits W32)%N with 4294967296%N; lia|].
        assert (i = 0 \/ i = 1)%N as [->| ->] by lia; [exact I|reflexivity].
      + unfold set_all_led_handler in M. destruct v; inversion M; subst; exact I.
      + exfalso. now apply F.
      + inversion M; subst. exact I.
    - intros a sc h v seq p H F Hv M.
      destruct H as [<-|[<-|[<-|[<-|[<-|[<-|[]]]]]]]; try discriminate F. cbn [wb_arm ea_req ea_name ea_resp wb_task] in *.
      rewrite (proj2 (R row_start ltac:(cbn; tauto))). destruct (accel_send _ _ _ _ M) as [(_ & _ & ->)|(E & _)].
      + exists VUnitVal. split; [reflexivity|exact I].
      + exfalso. inversion HNo as [|? ? _ N]; subst. inversion N as [|? ? _ N']; subst. cbn in N'. rewrite E in N'.
        repeat (match goal with H : NoDup (_ :: _) |- _ => inversion H; clear H; subst end). cbn in *. tauto.
    - intros a sc h v seq p H F Hv M.
      destruct H as [<-|[<-|[<-|[<-|[<-|[<-|[]]]]]]]; try discriminate F. cbn [wb_arm ea_req ea_name ea_resp wb_task] in *.
      exfalso. destruct (accel_send _ _ _ _ M) as [(E & _)|(E & _)]; [|now apply Hed].
      apply Hers. rewrite E. cbn. tauto.
  Qed.

  Lemma wb_handlers : handlers_ok std tout arms [] task [].
  Proof.
    assert (D : is_topic_out tout data) by (unfold is_topic_out; rewrite wb_topics; cbn; tauto).
    assert (Ret : forall (x : Wb * value) key seq p, ~ may_send (HRet (Val := value) x) key seq p) by (intros x key seq p M; inversion M).
    split; [|split; [|split; [|split]]].
    - intros a ctx h v key seq p H M. exfalso.
      destruct H as [<-|[<-|[<-|[<-|[<-|[<-|[]]]]]]]; cbn [wb_arm ea_run] in M; try (eapply Ret; exact M).
      + unfold set_led_handler in M. destruct v; try (eapply Ret; exact M). destruct vs as [|v1 vs]; [eapply Ret; exact M|].
        destruct v1; try (eapply Ret; exact M). destruct w; try (eapply Ret; exact M). destruct vs as [|v2 [|v3 vs]]; try (eapply Ret; exact M).
        destruct (set_led n (rgb_of v2) (lights ctx)). eapply Ret; exact M.
      + unfold set_all_led_handler in M. destruct v; eapply Ret; exact M.
    - intros a ctx h v key seq p [].
    - intros a sc h v key seq p H F M.
      destruct H as [<-|[<-|[<-|[<-|[<-|[<-|[]]]]]]]; try discriminate F. cbn [wb_arm ea_req ea_name ea_resp wb_task] in *.
      destruct (accel_send _ _ _ _ M) as [(-> & -> & _)|(-> & Q)]; auto.
    - intros a sc h v key seq p [].
    - intros q key seq p [].
  Qed.

  (** ** Calls and requests *)
  Variable cl : list Label.
  Variable es : list (list Ev).
  Variable calls : list WbCall.
  Hypothesis Hmade : made for_path std cl calls.
  Hypothesis Hok : Forall call_ok calls.
  Hypothesis Hcount : (N.of_nat (ClientSpec.typed cl) <= 2 ^ 32)%N.
  Notation wreq := (wb_req for_path std).

  Lemma issued_calls l : forall n ks, made for_path std l ks -> forall r,
    nth_error (issued n l) r = option_map (fun k => (MkFrame (MkHeader (VKey8 (wreq k)) (Seq4 ((n + N.of_nat r) mod 4294967296))) (ser (wb_arg k)), wb_resp for_path std k)) (nth_error ks r).
  Proof.
    induction l as [|x l IH]; intros n ks H r; unfold made in H; cbn [filter] in H.
    - destruct ks; [|discriminate H]. cbn. now destruct r.
    - destruct x; cbn [issued]; try (apply IH; exact H).
      + destruct ks as [|k ks]; [discriminate H|]. cbn [map] in H. injection H as E1 E2 E3 E4. destruct r as [|r]; cbn [nth_error option_map].
        * rewrite N.add_0_r. now subst.
        * rewrite (IH (n + 1)%N ks E4 r). destruct (nth_error ks r); cbn; [|reflexivity].
          replace (n + 1 + N.of_nat r)%N with (n + N.of_nat (S r))%N by lia. reflexivity.
      + destruct ks as [|k ks]; [discriminate H|]. discriminate H.
  Qed.
  Lemma calls_count : length calls = ClientSpec.typed cl.
  Proof.
    unfold made in Hmade. transitivity (length (map (wb_request for_path std) calls)); [now rewrite map_length|]. rewrite <- Hmade.
    assert (N : forall l, (forall f resp, ~ In (LRequestRaw f resp) l) ->
      length (filter (fun l => match l with LRequest _ _ _ | LRequestRaw _ _ => true | _ => false end) l) = ClientSpec.typed l).
    { induction l as [|x l IH]; intros F; [reflexivity|]. specialize (IH (fun f resp H => F f resp (or_intror H))).
      destruct x; cbn in *; try rewrite IH; auto. exfalso. eapply F. left. reflexivity. }
    apply N. intros f resp H.
    assert (X : In (LRequestRaw f resp) (map (wb_request for_path std) calls)) by (rewrite <- Hmade; apply filter_In; auto).
    apply in_map_iff in X. destruct X as (k & X & _). discriminate X.
  Qed.
  Lemma call_issued r k : nth_error calls r = Some k ->
    nth_error (issued 0 cl) r = Some (MkFrame (MkHeader (VKey8 (wreq k)) (Seq4 (N.of_nat r))) (ser (wb_arg k)), wb_resp for_path std k).
  Proof.
    intros H. rewrite (issued_calls cl 0 calls Hmade), H. cbn [option_map]. do 5 f_equal. rewrite N.add_0_l. apply N.mod_small.
    assert (r < length calls) by (apply nth_error_Some; congruence). rewrite calls_count in *. change 4294967296%N with (2 ^ 32)%N. lia.
  Qed.
  Lemma issued_call r f resp : nth_error (issued 0 cl) r = Some (f, resp) -> exists k, nth_error calls r = Some k /\ hdr_key (f_hdr f) = VKey8 (wreq k) /\ f_body f = ser (wb_arg k).
  Proof.
    intros H. rewrite (issued_calls cl 0 calls Hmade) in H. destruct (nth_error calls r) as [k|]; [|discriminate H].
    cbn [option_map] in H. injection H as <- _. exists k. auto.
  Qed.

  (** The row of a call. *)
  Definition call_row (k : WbCall) : option EpDef :=
    match k with
    | Ping _ => None | GetId => Some row_id | SetRgbSingle _ _ _ _ => Some row_one | SetAllRgbSingle _ _ _ => Some row_all
    | StartAccelerometer _ _ => Some row_start | StopAccelerometer => Some row_stop
    end.
  Lemma call_row_spec k : match call_row k with Some e => In e wb_rows /\ wreq k = rq e | None => wreq k = ping_req std end.
  Proof. destruct k; cbn; auto 10. Qed.
  Lemma row_inj e e' : In e wb_rows -> In e' wb_rows -> rq e = rq e' -> e = e'.
  Proof.
    intros H H' E. inversion HNi as [|? ? _ N2]; subst. inversion N2 as [|? ? _ N4]; subst.
    pose proof (find_row _ _ H N4) as A. rewrite E, (find_row _ _ H' N4) in A. congruence.
  Qed.
  Lemma ping_apart e : In e wb_rows -> rq e <> ping_req std.
  Proof. intros H E. inversion HNi as [|? ? N1 _]; subst. apply N1. right. rewrite <- E. exact (in_map rq wb_rows e H). Qed.
  Lemma schemas_apart k : wreq k <> schemas_req std.
  Proof.
    intros E. pose proof (call_row_spec k) as C. inversion HNi as [|? ? N1 N2]; subst. inversion N2 as [|? ? N3 _]; subst.
    destruct (call_row k) as [e|].
    - destruct C as [I1 C]. apply N3. rewrite <- E, C. exact (in_map rq wb_rows e I1).
    - apply N1. left. congruence.
  Qed.
  Lemma called_row k e : In e wb_rows -> wreq k = rq e -> call_row k = Some e.
  Proof.
    intros H E. pose proof (call_row_spec k) as C. destruct (call_row k) as [e'|].
    - destruct C as [I1 C]. f_equal. apply row_inj; auto. congruence.
    - exfalso. apply (ping_apart e H). congruence.
  Qed.
  Lemma call_types k : wb_rqty (wreq k) = match call_row k with Some e => ed_request e | None => t_u32 end /\
                       wb_rsty (wreq k) = match call_row k with Some e => ed_response e | None => t_u32 end.
  Proof.
    pose proof (call_row_spec k) as C. destruct (call_row k) as [e|].
    - destruct C as [I1 ->]. now apply row_ty.
    - rewrite C. exact ping_ty.
  Qed.
  Lemma arg_typed k : call_ok k -> typed (wb_rqty (wreq k)) (wb_arg k).
  Proof.
    intros H. rewrite (proj1 (call_types k)). destruct k; cbn [call_row ed_request row_id row_one row_all row_start row_stop wb_arg].
    - exact H.
    - exact I.
    - destruct H as (H1 & H2 & H3 & H4). repeat split; cbn; auto.
    - destruct H as (H2 & H3 & H4). cbn. repeat split; auto.
    - cbn. repeat split; auto; try (destruct range; vm_compute; reflexivity).
    - exact I.
  Qed.
  Lemma call_called r k : nth_error calls r = Some k -> called wb_rqty cl r (wreq k) (wb_arg k).
  Proof.
    intros H. eexists. split; [apply call_issued; exact H|]. apply arg_typed. rewrite Forall_forall in Hok. apply Hok. eapply nth_error_In; eauto.
  Qed.

  (** ** Turns *)
  Notation goes := (goes arms [] wb_spawn cl).
  Notation path := (path arms [] wb_spawn cl).
  (** What the handler of the call returns. *)
  Definition right_value (id : N) (k : WbCall) (w : value) : Prop :=
    match k with
    | Ping _ | StartAccelerometer _ _ => False
    | GetId => w = VUInt W64 (id mod 2 ^ 64)
    | SetRgbSingle p _ _ _ => w = VEnum (if (p <? 24)%N then 0 else 1) VUnitVal
    | SetAllRgbSingle _ _ _ => w = VUnitVal
    | StopAccelerometer => exists b, w = VBool b
    end.

  Lemma rgb_round c : rgb_of (rgb_value c) = c.
  Proof. now destruct c. Qed.

  Lemma ret_inv (a x : Wb) (b y : value) : may_return (HRet (Val := value) (a, b)) (x, y) -> x = a /\ y = b.
  Proof. intros M. inversion M. auto. Qed.

  Lemma turn_light c t c' : goes c t c' -> length (leds (lights c)) = 24 ->
    unique_id c' = unique_id c /\ exists r k, call_of t = inl r /\ nth_error calls r = Some k /\
      lights c' = fst (led_run (light_op k) (lights c)) /\
      (forall a h v w, t = Called r a h v w -> right_value (unique_id c) k w) /\
      (forall a h v sc, t = CallSpawned r a h v sc -> call_row k = Some row_start).
  Proof.
    intros G L. destruct G as [r a h v w c c' Rq Fl M|i a h v c c' Rq Fl M|r a h v sc c c' Rq Fl Sp|i a h v sc c c' Rq Fl Sp];
      [|destruct Rq as ([] & _)| |destruct Rq as ([] & _)].
    - destruct Rq as (Ha & _ & body & resp & Hi & Hd). destruct (issued_call _ _ _ Hi) as (k & Hk & Ek & Eb). cbn [f_hdr hdr_key f_body] in Ek, Eb.
      injection Ek as Ek. subst body.
      assert (Ty : typed (wb_rqty (wreq k)) (wb_arg k)). { apply arg_typed. rewrite Forall_forall in Hok. apply Hok. eapply nth_error_In; eauto. }
      assert (Ev : v = wb_arg k).
      { destruct wb_typed as (_ & _ & _ & T4 & _). rewrite (T4 a _ Ha), Ek, <- (app_nil_r (ser (wb_arg k))), C63_round_trip in Hd by exact Ty. congruence. }
      subst v.
      destruct Ha as [<-|[<-|[<-|[<-|[<-|[<-|[]]]]]]]; cbn [wb_arm ea_req ea_run ea_flavor] in *;
        try (match type of Ek with rq ?e = _ => pose proof (called_row k e ltac:(cbn; tauto) (eq_sym Ek)) as C end);
        destruct k; try discriminate C; clear C; cbn [wb_arg light_op led_run led_step] in *.
      + apply ret_inv in M as (-> & ->). split; [reflexivity|]. exists r, GetId. repeat split; auto; intros; try discriminate. cbn [right_value unique_id]. congruence.
      + cbn [set_led_handler] in M. rewrite rgb_round in M.
        destruct (set_led position (MkRgb r0 g b) (lights c)) as [s' res] eqn:E. apply ret_inv in M as (-> & ->). split; [reflexivity|].
        exists r, (SetRgbSingle position r0 g b). cbn [light_op led_run led_step call_of]. rewrite E. cbn [fst lights].
        repeat split; auto; intros; try discriminate. match goal with H : Called _ _ _ _ _ = Called _ _ _ _ _ |- _ => injection H as _ _ _ <- end.
        cbn [right_value]. unfold set_led in E. destruct (N.leb_spec 24 position) as [Lp|Lp].
        * injection E as _ <-. destruct (N.ltb_spec position 24); [lia|reflexivity].
        * destruct (assign_some (leds (lights c)) (N.to_nat position) (MkRgb r0 g b) ltac:(rewrite L; lia)) as (l' & E' & _). rewrite E' in E.
          injection E as _ <-. destruct (N.ltb_spec position 24); [reflexivity|lia].
      + cbn [set_all_led_handler] in M. apply ret_inv in M as (-> & ->). split; [reflexivity|]. exists r, (SetAllRgbSingle r0 g b).
        repeat split; auto; intros; try discriminate. cbn [right_value]. congruence.
      + exfalso. apply Fl. reflexivity.
      + apply ret_inv in M as (-> & ->). split; [reflexivity|]. exists r, StopAccelerometer. repeat split; auto; intros; try discriminate.
        exists (busy h). congruence.
    - destruct Rq as (Ha & _ & body & resp & Hi & Hd). destruct (issued_call _ _ _ Hi) as (k & Hk & Ek & Eb). cbn [f_hdr hdr_key f_body] in Ek, Eb.
      injection Ek as Ek. destruct Ha as [<-|[<-|[<-|[<-|[<-|[<-|[]]]]]]]; try discriminate Fl. cbn [wb_arm ea_req] in Ek.
      pose proof (called_row k row_start ltac:(cbn; tauto) (eq_sym Ek)) as C. injection Sp as <- <-. split; [reflexivity|].
      exists r, k. repeat split; auto; intros; try discriminate. destruct k; try discriminate C. reflexivity.
  Qed.

  Lemma led_run_app a : forall b s, fst (led_run (a ++ b) s) = fst (led_run b (fst (led_run a s))).
  Proof.
    induction a as [|o a IH]; intros b s; [reflexivity|]. cbn [app led_run]. destruct (led_step o s) as [s1 r].
    specialize (IH b s1). destruct (led_run (a ++ b) s1), (led_run a s1). exact IH.
  Qed.
  Lemma light_op_ok k : Forall led_op_ok (light_op k).
  Proof. destruct k; repeat constructor. Qed.
  Lemma light_ops_ok order : Forall led_op_ok (light_ops calls order).
  Proof.
    apply Forall_forall. intros o H. unfold light_ops in H. apply in_flat_map in H. destruct H as (r & _ & H).
    destruct (nth_error calls r) as [k|]; [|destruct H]. pose proof (light_op_ok k) as F. rewrite Forall_forall in F. auto.
  Qed.
  Lemma strip_len os : Forall led_op_ok os -> length (leds (fst (led_run os strip_new))) = 24.
  Proof. intros H. pose proof (C85_lights os H) as C. destruct (led_run os strip_new) as [s' rs']. apply C. Qed.

  Lemma path_light c ts c' : path c ts c' -> forall ops0, Forall led_op_ok ops0 -> lights c = fst (led_run ops0 strip_new) ->
    unique_id c' = unique_id c /\ exists order, map call_of ts = map inl order /\
      lights c' = fst (led_run (ops0 ++ light_ops calls order) strip_new) /\
      (forall r a h v w, In (Called r a h v w) ts -> exists k, nth_error calls r = Some k /\ right_value (unique_id c) k w) /\
      (forall r a h v sc, In (CallSpawned r a h v sc) ts -> exists k, nth_error calls r = Some k /\ call_row k = Some row_start) /\
      (forall r, In r order -> r < length calls).
  Proof.
    intros P. induction P as [c|c t c1 ts c' G P IH]; intros ops0 F E.
    - split; [reflexivity|]. exists []. cbn [light_ops flat_map map]. rewrite app_nil_r. repeat split; auto; intros; contradiction.
    - destruct (turn_light _ _ _ G) as (U & r & k & Ec & Hk & El & V & W). { rewrite E. now apply strip_len. }
      destruct (IH (ops0 ++ light_op k)) as (U' & order & Eo & El' & V' & W' & Lt).
      { apply Forall_app. split; [exact F|apply light_op_ok]. } { rewrite led_run_app, <- E. exact El. }
      split; [congruence|]. exists (r :: order). cbn [map]. rewrite Ec, Eo. split; [reflexivity|]. split; [|split; [|split]].
      + rewrite El', <- app_assoc. unfold light_ops. cbn [flat_map]. rewrite Hk. reflexivity.
      + intros r' a h v w [X|X].
        * subst t. cbn [call_of] in Ec. injection Ec as ->. exists k. split; [exact Hk|]. eapply V. reflexivity.
        * rewrite U in V'. eapply V'. exact X.
      + intros r' a h v sc [X|X]; [|eauto]. subst t. cbn [call_of] in Ec. injection Ec as ->. exists k. split; [exact Hk|]. eapply W. reflexivity.
      + intros r' [<-|X]; [|auto]. apply nth_error_Some. congruence.
  Qed.
End W.
