(** Theorems about what a host sees of the workbook's accelerometer: C93. *)
From Coq Require Import NArith ZArith List Bool Arith Lia.
From Verif Require Import KeyModel HeaderModel KeySpec KeyProof HeaderSpec MinKeyModel MinKeySpec MinKeyProof SchemaModel MacroModel PostcardModel
  DispatchModel DispatchSpec DispatchProof SubModel SubSpec ClientModel ClientSpec ClientHist UsbModel UsbSpec NusbRxModel LogModel FlowBase.
From Verif Require Import DispatchModel DispatchSpec DispatchThm SystemModel SystemSpec SystemProof LiveProof FlowSpec AsyncModel AsyncSpec UsbSysModel UsbSysSpec WebUsbModel WebSysModel WebSysSpec
  CodecModel CodecSpec CodecProof CodecStdModel CodecStdProof CodecThm TypedSpec TypedThm StateSpec StateThm StateTyped CauseSpec CauseProof CauseThm
  WorkbookModel WorkbookSpec WorkbookThm WbSysModel WbSysSpec WbSysProof WbSysThm OmitThm AccSysSpec AccSysProof.
Import ListNotations.

Lemma Forall2_within {A B C} (R : A -> B -> Prop) (Q : A -> C -> Prop) (g : B -> C) l l' :
  Forall2 R l l' -> (forall x y, In x l -> In y l' -> R x y -> Q x (g y)) -> Forall2 Q l (map g l').
Proof.
  induction 1 as [|x y l l' H F IH]; intros K; cbn [map]; constructor.
  - apply K; [now left|now left|exact H].
  - apply IH. intros u v Hu Hv. apply K; now right.
Qed.

Lemma Forall2_in_r {A B} (R : A -> B -> Prop) l l' y : Forall2 R l l' -> In y l' -> exists x, In x l /\ R x y.
Proof.
  induction 1 as [|a b l l' H F IH]; intros K; [destruct K|]. destruct K as [<-|K]; [exists a; split; [now left|exact H]|].
  destruct (IH K) as (x & X & Y). exists x. split; [now right|exact Y].
Qed.
Lemma Forall2_in_l {A B} (R : A -> B -> Prop) l l' x : Forall2 R l l' -> In x l -> exists y, In y l' /\ R x y.
Proof.
  induction 1 as [|a b l l' H F IH]; intros K; [destruct K|]. destruct K as [<-|K]; [exists b; split; [now left|exact H]|].
  destruct (IH K) as (y & X & Y). exists y. split; [now right|exact Y].
Qed.

Section T.
  Variable for_path : NamedType -> str -> Key8.
  Variable std : StdKeys.
  Variable busy : VarHeader -> bool.
  Variable readings : VarHeader -> list Acceleration.
  Variable can_spawn : Trace value unit -> nat -> bool.
  Variable kkind : VarKeyKind.
  Variable cfg : Config.
  Variable id : N.
  Notation arms := (wb_arms for_path busy).
  Notation task := (wb_task for_path readings).
  Notation eps := (wb_eps for_path).
  Notation tout := (wb_tout for_path std).
  Notation tin := (wb_tin for_path).
  Variable d : Dispatcher value Wb.
  (** As for C91. *)
  Hypothesis Hconf : config_ok eps tin tout arms [].
  Hypothesis Hdef : define_dispatch value Wb eps tin tout arms [] = Done d.
  Hypothesis Hkk : klen (d_kind _ _ d) <= klen kkind.
  Hypothesis Hin_apart : distinct_at (klen (d_kind _ _ d)) (ping_req std :: schemas_req std :: map ep_req (em_endpoints eps) ++ map snd (tm_topics tin)).
  Hypothesis Hout_apart : distinct_at (klen (d_kind _ _ d)) (ping_resp std :: schemas_resp std :: map ep_resp (em_endpoints eps) ++ map snd (tm_topics tout)).
  Hypothesis Herr : ~ In (compact (klen kkind) (k8_bytes (error_key std)))
    (map (fun k => compact (klen kkind) (k8_bytes k)) (ping_resp std :: schemas_resp std :: map ep_resp (em_endpoints eps))).
  Hypothesis Hed : error_key std <> td_key for_path row_data.

  Variable cl : list Label.
  Variable es : list (list Ev).
  Variable calls : list WbCall.
  Hypothesis Hpub : forall f, ~ In (LPublish f) cl.
  Hypothesis Hmade : made for_path std cl calls.
  Hypothesis Hok : Forall call_ok calls.
  Hypothesis Hcount : (N.of_nat (ClientSpec.typed cl) <= 2 ^ 32)%N.

  Notation same := (same for_path kkind busy).
  Notation of_accel := (of_accel for_path).
  Notation data_frames := (data_frames for_path).
  Notation data_key := (td_key for_path row_data).
  Notation start_key := (ed_resp_key for_path row_start).

  Section Fits.
    Variable ts : list (Turn value Wb unit).
    Variable c : Wb.
    Variable tr : Trace value unit.
    Variable whole : Prop.
    Hypothesis Hex : explained_by std arms [] task wb_spawn d cl es payload_bytes (wb_new id) ts c tr True whole.
    Hypothesis Hfit : fit_together std kkind payload_bytes arms [] task d whole cl es tr.
    Variable acts : list AccelLabel.
    Variable s : Accel.
    Variable os : list Obs.
    Hypothesis Hacts : accel_run acts accel_new = Some (s, os).
    Hypothesis Hsame : Forall2 same (filter of_accel tr) (filter visible os).

    Notation AI := (apart_in for_path std d Hin_apart).
    Lemma data_other : varkey_eqb (VKey8 data_key) (shrink_to (VKey8 start_key) kkind) = false.
    Proof.
      destruct (varkey_eqb _ _) eqn:E; [|reflexivity]. exfalso. apply topic_shrunk in E.
      pose proof (distinct_mono _ _ _ Hkk Hout_apart) as D. unfold distinct_at in D. rewrite wb_topics, wb_endpoints, map_map in D.
      cbn [map wb_rows app ep_resp fst snd] in D.
      do 6 (inversion D as [|? ? _ D']; clear D; subst; rename D' into D). inversion D as [|? ? N1 _]; subst. apply N1.
      cbn [In]. right. right. right. left. exact E.
    Qed.
    Lemma key_own k : varkey_eqb (VKey8 k) (shrink_to (VKey8 k) kkind) = true.
    Proof. rewrite varkey_eqb_sym. apply shrink_eqb. Qed.

    Lemma issued_seq r f resp : nth_error (issued 0 cl) r = Some (f, resp) -> hdr_seq (f_hdr f) = Seq4 (N.of_nat r).
    Proof.
      intros Hi. destruct (issued_call for_path std cl calls Hmade Hcount _ _ _ Hi) as (k & Hk & _).
      rewrite (call_issued for_path std cl calls Hmade Hcount _ _ Hk) in Hi. now injection Hi as <- _.
    Qed.

    (** The task of the accelerometer begins at most once for a call, and only for a call
        to start it. *)
    Lemma spawned_for e h v sc ok : In e tr -> e = EvSpawn 4 sc h v ok ->
      exists r ms rg, nth_error calls r = Some (StartAccelerometer ms rg) /\ hdr_seq h = Seq4 (N.of_nat r) /\
        exists t, In t ts /\ begins e t /\ call_of t = inl r.
    Proof.
      intros Hi ->.
      assert (X : exists t, In t ts /\ begins (EvSpawn 4 sc h v ok) t).
      { pose proof (ex_begins _ _ _ _ _ _ _ _ _ _ _ _ _ _ _ Hex) as F.
        assert (Y : In (EvSpawn 4 sc h v ok) (filter (fun e => match e with EvSend _ _ _ _ => false | _ => true end) tr)) by (apply filter_In; auto).
        exact (Forall2_in_l _ _ _ _ F Y). }
      destruct X as (t & Ht & Hb).
      destruct (path_turn wb_spawn arms [] cl ts _ _ _ (ex_path _ _ _ _ _ _ _ _ _ _ _ _ _ _ _ Hex) Ht) as (x & y & G).
      destruct t as [r a h' v' w|i a h' v'|r a h' v' sc'|i a h' v' sc']; cbn [begins] in Hb; try discriminate Hb.
      2:{ exfalso. inversion G as [| | |? ? ? ? ? ? ? Rq]; subst. destruct Rq as ([] & _). }
      destruct Hb as (ok' & Hb). injection Hb as En <- <- <- <-.
      inversion G as [| |? ? ? ? ? ? ? Rq Fl Sp|]; subst. destruct Rq as (Ha & _ & body & resp & Hi' & _).
      assert (Ea : ea_req _ _ a = ed_req_key for_path row_start).
      { destruct Ha as [<-|[<-|[<-|[<-|[<-|[<-|[]]]]]]]; try discriminate En. reflexivity. }
      rewrite Ea in Hi'.
      destruct (issued_call for_path std cl calls Hmade Hcount _ _ _ Hi') as (k & Hk & Ek & _). cbn [f_hdr hdr_key] in Ek. injection Ek as Ek.
      assert (Ck : call_row k = Some row_start) by (apply (called_row for_path std AI); [cbn; auto 10|auto]).
      destruct k; try discriminate Ck. exists r, ms, range. split; [exact Hk|].
      split; [exact (issued_seq _ _ _ Hi')|].
      exists (CallSpawned r a h v sc). split; [exact Ht|]. split; [exists ok; now rewrite <- En|reflexivity].
    Qed.

    Definition spawned (q : N) (e : Event value unit) : bool :=
      match e with EvSpawn name _ h _ ok => (name =? 4) && (seq_value (hdr_seq h) =? q)%N && ok | _ => false end.
    Lemma accepted_once q : length (filter (is_accepted q) os) <= 1.
    Proof.
      assert (A : length (filter (is_accepted q) os) <= length (filter (spawned q) tr)).
      { rewrite <- (filter_filter (is_accepted q) visible os) by (intros [] H; cbn in *; congruence).
        rewrite <- (filter_filter (spawned q) of_accel tr).
        2:{ intros [] H; cbn in *; try discriminate. apply andb_true_iff in H as [H _]. now apply andb_true_iff in H as [H _]. }
        apply (filter_count (fun o e => same e o) (is_accepted q) (spawned q)).
        - clear - Hsame. induction Hsame; constructor; auto.
        - intros o e _ H Ho. destruct H; try discriminate Ho. cbn in *. now rewrite Ho. }
      eapply Nat.le_trans; [exact A|]. clear A.
      set (starts := fun e : Event value unit => match e with EvSend _ _ _ _ => false | _ => true end).
      rewrite <- (filter_filter (spawned q) starts tr) by (intros [] H; cbn in *; congruence).
      set (dec := fun x y : nat + nat => ltac:(decide equality; apply Nat.eq_dec) : {x = y} + {x <> y}).
      eapply Nat.le_trans; [|apply (nodup_count dec (map call_of ts) (inl (N.to_nat q))); exact (ex_once _ _ _ _ _ _ _ _ _ _ _ _ _ _ _ Hex)].
      assert (F : Forall2 (fun e x => In e tr /\ exists t, In t ts /\ begins e t /\ call_of t = x) (filter starts tr) (map call_of ts)).
      { eapply Forall2_within; [exact (ex_begins _ _ _ _ _ _ _ _ _ _ _ _ _ _ _ Hex)|]. intros x y Hx Hy H. split; [now apply filter_In in Hx|eauto]. }
      eapply filter_count; [exact F|]. intros e x _ (He & t & Ht & Hb & <-) Hs.
      destruct e as [| |name sc h v ok]; try discriminate Hs. cbn in Hs. apply andb_true_iff in Hs as [Hs Ok]. apply andb_true_iff in Hs as [Hn Hq].
      apply Nat.eqb_eq in Hn. apply N.eqb_eq in Hq. subst name ok q.
      assert (X : call_of t = inl (N.to_nat (seq_value (hdr_seq h)))).
      { destruct (path_turn wb_spawn arms [] cl ts _ _ _ (ex_path _ _ _ _ _ _ _ _ _ _ _ _ _ _ _ Hex) Ht) as (x & y & G).
        destruct t as [r a h' v' w|i a h' v'|r a h' v' sc'|i a h' v' sc']; cbn [begins] in Hb; try discriminate Hb.
        2:{ exfalso. inversion G as [| | |? ? ? ? ? ? ? Rq]; subst. destruct Rq as ([] & _). }
        destruct Hb as (ok' & Hb). injection Hb as En <- <- <- <-.
        inversion G as [| |? ? ? ? ? ? ? Rq Fl Sp|]; subst. destruct Rq as (Ha & _ & body & resp & Hi' & _).
        apply issued_seq in Hi'. cbn [f_hdr hdr_seq] in Hi'. rewrite Hi'. cbn. now rewrite Nat2N.id. }
      rewrite X. destruct (dec _ _) as [|N1]; [reflexivity|now destruct N1].
    Qed.

    (** What is shown of the accelerometer after the stop with the header [h] began. *)
    Lemma after_stop r h v a b : tr = a ++ EvRun 5 h v :: b -> seq_value (hdr_seq h) = N.of_nat r -> starts_returned cl es calls r ->
      exists a' b', os = a' ++ StopAnswer (busy h) :: b' /\ Forall2 same (filter of_accel b) (filter visible b') /\ no_start b'.
    Proof.
      intros Et Hh Hst. pose proof Hsame as F. rewrite Et, filter_app in F. cbn [filter AccSysSpec.of_accel Nat.eqb] in F.
      apply Forall2_app_inv_l in F as (oa & ob & Fa & Fb & Eo). inversion Fb as [|e1 o lb ob' So Fb' E1 E2]. clear E1. subst ob. assert (Eso : o = StopAnswer (busy h)) by (inversion So; reflexivity). subst o.
      destruct (filter_split_one _ _ _ _ _ Eo) as (a' & b' & Eos & <- & <-). exists a', b'. split; [exact Eos|]. split; [exact Fb'|].
      intros q Hq.
      (* that start was accepted *)
      assert (C := accepted_once q). pose proof (replied_once q _ _ _ Hacts) as R1. rewrite Eos in C, R1.
      assert (R2 : 1 <= length (filter (is_replied q) b')).
      { apply in_split in Hq as (u1 & u2 & ->). rewrite filter_app, app_length. cbn [filter is_replied]. rewrite N.eqb_refl. cbn [length]. lia. }
      assert (R3 : length (filter (is_replied q) (a' ++ StopAnswer (busy h) :: b')) = length (filter (is_replied q) a') + length (filter (is_replied q) b')).
      { rewrite filter_app, app_length. reflexivity. }
      destruct (filter (is_accepted q) (a' ++ StopAnswer (busy h) :: b')) as [|o l] eqn:Ac; [cbn [length] in R1; lia|].
      assert (Ho : In o (filter (is_accepted q) (a' ++ StopAnswer (busy h) :: b'))) by (rewrite Ac; now left).
      apply filter_In in Ho as [Ho Hoq]. destruct o as [q'| | | | | | | |]; try discriminate Hoq. cbn in Hoq. apply N.eqb_eq in Hoq. subst q'.
      assert (Hv : In (Accepted q) (filter visible (a' ++ StopAnswer (busy h) :: b'))) by (apply filter_In; auto).
      assert (E : exists e, In e (filter of_accel tr) /\ same e (Accepted q)).
      { rewrite <- Eos in Hv. exact (Forall2_in_r _ _ _ _ Hsame Hv). }
      destruct E as (e & He & Hs). apply filter_In in He as [He _]. inversion Hs as [sc h' v' E3 E4| | | | | |]; subst e.
      destruct (spawned_for _ _ _ _ _ He eq_refl) as (r' & ms & rg & Hk & Hq' & _).
      (* so it had returned when the stop was made *)
      destruct (Hst _ _ _ Hk) as (n & f & Hr & Hn). destruct (Hfit n) as (before & after & Eb & _ & (cs & Fc & _) & Rep).
      destruct (Rep _ _ Hr) as (t1 & w & h1 & p & res & t2 & req & resp & body & B1 & -> & _ & Hi & An & _).
      rewrite (call_issued for_path std cl calls Hmade Hcount _ _ Hk) in Hi. injection Hi as <- <- <-. cbn [wb_resp wb_req] in *.
      (* before the stop began *)
      assert (Pre : exists a2, a = before ++ a2).
      { assert (X : before ++ after = a ++ EvRun 5 h v :: b) by now rewrite <- Eb.
        destruct (app_split _ _ _ _ _ X) as [(b2 & Y & _)|(a2 & Y & _)]; [|eauto]. exfalso.
        assert (Hin : In (5, h, v) (invocations before)).
        { rewrite Y, invocations_app, in_app_iff. right. now left. }
        assert (Z : exists x, run_of arms [] (firstn n cl) (5, h, v) x).
        { destruct (Forall2_in_l _ _ _ _ Fc Hin) as (x0 & _ & X0). eauto. }
        destruct Z as ([r2|i] & Z); cbn [run_of] in Z; [|destruct Z as (? & ? & [] & _)].
        destruct Z as (ar & body' & resp' & _ & _ & _ & Hi2).
        assert (L : r2 < length (issued 0 (firstn n cl))) by (apply nth_error_Some; congruence).
        assert (Hi3 : nth_error (issued 0 cl) r2 = Some (MkFrame (MkHeader (VKey8 (ea_req _ _ ar)) (hdr_seq h)) body', resp')).
        { rewrite <- (firstn_skipn n cl), issued_app, nth_error_app1 by exact L. exact Hi2. }
        apply issued_seq in Hi3. cbn [f_hdr hdr_seq] in Hi3. rewrite Hi3 in Hh. cbn [seq_value] in Hh. apply Nat2N.inj in Hh. subst r2. lia. }
      destruct Pre as (a2 & ->).
      (* so its confirmation was shown before the stop *)
      assert (R4 : 1 <= length (filter (is_replied q) a')).
      { assert (X : exists o, In o (filter visible a') /\ same (EvSend w (out_header kkind start_key (Seq4 (N.of_nat r'))) p res) o).
        { assert (Y : In (EvSend w (out_header kkind start_key (Seq4 (N.of_nat r'))) p res) (filter of_accel (before ++ a2))).
          { apply filter_In. split; [rewrite B1, !in_app_iff; left; right; now left|]. cbn [AccSysSpec.of_accel out_header hdr_key]. now rewrite key_own. }
          exact (Forall2_in_l _ _ _ _ Fa Y). }
        destruct X as (o & Ho' & Hso). apply filter_In in Ho' as [Ho' _].
        assert (Rq : is_replied q o = true).
        { clear - Hso E4 Hq'. remember (EvSend w (out_header kkind start_key (Seq4 (N.of_nat r'))) p res) as e0 eqn:Ee.
          destruct Hso; try discriminate Ee; apply (f_equal (fun e : Event value unit => match e with EvSend _ h _ _ => hdr_seq h | _ => Seq1 0 end)) in Ee;
            cbn [out_header hdr_seq] in Ee; try discriminate Ee; subst; cbn [is_replied seq_value]; rewrite Hq'; cbn [seq_value]; apply N.eqb_refl. }
        apply in_split in Ho' as (x1 & y1 & ->). rewrite filter_app, app_length. cbn [filter]. rewrite Rq. cbn [length]. lia. }
      rewrite R3 in R1. cbn [length] in *. lia.
    Qed.

    (** Frames on the topic of the samples are attempts to publish. *)
    Definition is_data (m : VarHeader * Payload value) : bool := varkey_eqb (VKey8 data_key) (hdr_key (fst m)).
    Definition is_try (o : Obs) : bool := match o with Sample _ _ | SampleLost _ _ => true | _ => false end.
    Lemma frames_tries fs t o : come_from payload_bytes whole fs t -> Forall2 same (filter of_accel t) (filter visible o) ->
      length (data_frames fs) <= length (attempted o).
    Proof.
      intros (ms & Sub & F) Fs. rewrite <- attempted_filter.
      assert (L1 : length (data_frames fs) <= length (filter is_data ms)).
      { eapply filter_count; [exact F|]. intros x y _ (Hh & _) Hx. unfold is_data. rewrite <- Hh. exact Hx. }
      assert (L2 : length (filter is_data ms) <= length (filter is_data (messages t))) by (apply subseq_length, subseq_filter; exact Sub).
      assert (L3 : length (filter is_data (messages t)) = length (filter (fun e => match e with EvSend _ h p _ => is_data (h, p) | _ => false end) t)).
      { clear. induction t as [|e t IH]; [reflexivity|]. destruct e; [|exact IH|exact IH]. change (messages (EvSend w h p r :: t)) with ((h, p) :: messages t).
        cbn [filter]. destruct (is_data (h, p)); cbn [length]; now rewrite IH. }
      rewrite <- (filter_filter _ of_accel t) in L3.
      2:{ intros [] H; cbn in *; try discriminate. unfold is_data in H. cbn in H. rewrite H. apply orb_true_r. }
      assert (L4 : length (filter (fun e => match e with EvSend _ h p _ => is_data (h, p) | _ => false end) (filter of_accel t)) <= length (filter is_try (filter visible o))).
      { eapply filter_count; [exact Fs|]. intros x y _ H Hx. destruct H; try discriminate Hx; try reflexivity; unfold is_data in Hx; cbn [fst hdr_key out_header] in Hx; rewrite data_other in Hx; discriminate Hx. }
      rewrite (filter_filter is_try visible o) in L4 by (intros [] H; cbn in *; congruence). unfold is_try in L4. lia.
    Qed.

    Lemma stop_silences n r f b : nth_error calls r = Some StopAccelerometer -> In (r, GotReply f) (results (firstn n es)) ->
      wb_result StopAccelerometer (GotReply f) = WOk (VBool b) -> starts_returned cl es calls r ->
      length (data_frames (arrived (skipn n cl))) <= (if b then 1 else 0).
    Proof.
      intros Hk Hr Hw Hst. destruct (Hfit n) as (before & after & Eb & _ & _ & Rep).
      destruct (Rep _ _ Hr) as (t1 & w & h & p & res & t2 & req & resp & body & B1 & _ & Hm & Hi & An & Later).
      rewrite (call_issued for_path std cl calls Hmade Hcount _ _ Hk) in Hi. injection Hi as <- <- <-. cbn [wb_resp wb_req] in *.
      assert (Is : In row_stop wb_rows) by (cbn; auto 10).
      assert (X : exists hdr v, In (EvRun 5 hdr v) t1 /\ seq_value (hdr_seq hdr) = N.of_nat r /\ p = PVal (VBool (busy hdr))).
      { inversion An as [m E _|t E _|a ctx hdr v ctx' reply Ha Er Fl _ Hs Hin Ret|a sc hdr v p' Ha Er Fl _ _ _ _]; subst.
        - exfalso. eapply (ping_apart for_path std AI); [exact Is|exact E].
        - exfalso. exact (schemas_apart for_path std AI StopAccelerometer E).
        - exists hdr, v.
          destruct Ha as [<-|[<-|[<-|[<-|[<-|[<-|[]]]]]]]; cbn [wb_arm ea_req] in Er;
            try (apply (row_inj for_path std AI) in Er; [discriminate Er|cbn; auto 10|exact Is]).
          split; [exact Hin|]. split; [exact Hs|]. cbn [wb_arm ea_run] in Ret. unfold accelerometer_stop_handler in Ret.
          apply ret_inv in Ret as [_ ->]. reflexivity.
        - exfalso.
          destruct Ha as [<-|[<-|[<-|[<-|[<-|[<-|[]]]]]]]; cbn [wb_arm ea_req ea_flavor] in *; try discriminate Fl.
          apply (row_inj for_path std AI) in Er; [discriminate Er|cbn; auto 10|exact Is]. }
      destruct X as (hdr & v & Hin & Hs & ->).
      assert (Eb' : busy hdr = b).
      { destruct Hm as (_ & missing & Em & _). cbn [fst snd payload_bytes] in Em. unfold wb_result, host_result in Hw.
        destruct (from_bytes ty_bool (f_body f)) as [w'|] eqn:D; [|discriminate Hw].
        destruct (de_part ty_bool (VBool (busy hdr)) _ _ _ ltac:(exact Logic.I) Em D) as [-> _]. congruence. }
      apply in_split in Hin as (a & a2 & Et1).
      destruct (after_stop r hdr v a (a2 ++ EvSend w h (PVal (VBool (busy hdr))) res :: t2 ++ after)) as (a' & b' & Eos & Fb & Ns); [|exact Hs|exact Hst|].
      { rewrite Eb, B1, Et1, <- !app_assoc. reflexivity. }
      pose proof (stop_tries _ _ _ Hacts _ _ _ Eos Ns) as Q. rewrite Eb' in Q.
      replace (a2 ++ EvSend w h (PVal (VBool (busy hdr))) res :: t2 ++ after) with ((a2 ++ [EvSend w h (PVal (VBool (busy hdr))) res]) ++ (t2 ++ after)) in Fb
        by now rewrite <- app_assoc.
      rewrite filter_app in Fb. apply Forall2_app_inv_l in Fb as (o1 & o2 & _ & F2 & E2).
      destruct (filter_split _ _ _ _ E2) as (p1 & p2 & -> & _ & <-).
      pose proof (frames_tries _ _ _ Later F2) as L. rewrite attempted_app, app_length in Q. lia.
    Qed.

    (** What arrives on the topic of the samples are readings, in order. *)
    Lemma samples_read :
      exists vs, subsequence vs (WorkbookSpec.readings acts) /\
        Forall2 (fun f v => exists missing, ser (acc_value v) = f_body f ++ missing /\ (whole -> missing = [])) (data_frames (arrived cl)) vs.
    Proof.
      destruct (Hfit (length cl)) as (before & after & Eb & Co & _). rewrite firstn_all in Co. destruct Co as (ms & Sub & F).
      destruct (C83_samples_are_readings _ _ _ Hacts) as (last & -> & _).
      assert (Sub2 : subsequence ms (messages tr)).
      { rewrite Eb, messages_app. rewrite <- (app_nil_r ms). apply subseq_app; [exact Sub|constructor]. }
      (* the values published, in order *)
      assert (V : Forall2 (fun m v => snd m = PVal (acc_value v)) (filter is_data (messages tr)) (attempted os)).
      { assert (X : forall l lo, Forall2 same l lo -> Forall2 (fun m v => snd m = PVal (acc_value v)) (filter is_data (messages l)) (attempted lo)).
        { induction 1 as [|x y l l' H F' IH]; [constructor|].
          destruct H; try exact IH;
            match goal with |- context [messages (EvSend ?w ?h ?p ?r :: l)] => change (messages (EvSend w h p r :: l)) with ((h, p) :: messages l) end;
            cbn [filter]; unfold is_data at 1; cbn [fst hdr_key out_header]; try (rewrite data_other; exact IH);
            rewrite key_own; (constructor; [reflexivity|exact IH]). }
        specialize (X _ _ Hsame). replace (attempted os) with (attempted (filter visible os)).
        2:{ clear. induction os as [|[] l IH]; cbn; auto; unfold attempted in IH; now rewrite IH. }
        replace (filter is_data (messages tr)) with (filter is_data (messages (filter of_accel tr))); [exact X|].
        clear. induction tr as [|e l IH]; [reflexivity|]. destruct e as [w h p r| |]; cbn [filter AccSysSpec.of_accel].
        - assert (M : forall t : list (Event value unit), messages (EvSend w h p r :: t) = (h, p) :: messages t) by reflexivity.
          destruct (varkey_eqb (VKey8 data_key) (hdr_key h)) eqn:K.
          + rewrite orb_true_r, !M. cbn [filter]. rewrite IH. reflexivity.
          + rewrite orb_false_r, M. assert (D : is_data (h, p) = false) by exact K.
            destruct (varkey_eqb (VKey8 start_key) (hdr_key h)); rewrite ?M; cbn [filter]; rewrite ?D; exact IH.
        - destruct (handler =? 5); exact IH.
        - destruct (handler =? 4); exact IH. }
      apply (subseq_filter is_data) in Sub2.
      destruct (subseq_forall2 _ _ _ Sub2 _ V) as (vs & Sv & Fv). exists vs. split.
      { rewrite <- (app_nil_r vs). apply subseq_app; [exact Sv|constructor]. }
      clear - F Fv. revert vs Fv. induction F as [|f m fs ms (Hh & missing & Hm & Hw) F IH]; intros vs Fv; cbn [filter] in Fv.
      { inversion Fv. constructor. }
      unfold data_frames, AccSysSpec.data_frames. cbn [filter]. unfold of_topic at 1. rewrite Hh.
      unfold is_data at 1 in Fv. destruct (varkey_eqb (VKey8 data_key) (hdr_key (fst m))); [|exact (IH _ Fv)].
      inversion Fv as [|? v ? vs' Ev Fv']; subst. constructor; [|exact (IH _ Fv')]. exists missing. rewrite Ev in Hm. auto.
    Qed.

    (** No sample arrives before a start was called. *)
    Lemma sample_called n : data_frames (arrived (firstn n cl)) <> [] ->
      exists r ms rg, nth_error calls r = Some (StartAccelerometer ms rg) /\ r < length (issued 0 (firstn n cl)).
    Proof.
      intros Hne. destruct (Hfit n) as (before & after & Eb & Co & (cs & Fc & _) & _).
      pose proof Hsame as F. rewrite Eb, filter_app in F. apply Forall2_app_inv_l in F as (o1 & o2 & F1 & _ & Eo).
      destruct (filter_split _ _ _ _ Eo) as (p1 & p2 & Ep & <- & _).
      pose proof (frames_tries _ _ _ Co F1) as L.
      assert (Na : attempted p1 <> []). { intros E. rewrite E in L. destruct (data_frames (arrived (firstn n cl))); [now apply Hne|cbn in L; lia]. }
      assert (X : exists a o b, p1 = a ++ o :: b /\ attempted [o] <> []).
      { clear - Na. induction p1 as [|o l IH]; [now destruct Na|]. destruct (attempted [o]) as [|x y] eqn:E.
        - destruct IH as (a & o' & b & -> & H); [|exists (o :: a), o', b; auto]. change (o :: l) with ([o] ++ l) in Na. now rewrite attempted_app, E in Na.
        - exists [], o, l. split; [reflexivity|]. rewrite E. discriminate. }
      destruct X as (a & o & b & -> & Ho).
      destruct (proj2 (sample_accepted _ _ _ Hacts) a o (b ++ p2)) as (q & Hq); [now rewrite Ep, <- app_assoc|exact Ho|].
      assert (Hv : In (Accepted q) (filter visible (a ++ o :: b))) by (apply filter_In; split; [apply in_app_iff; now left|reflexivity]).
      destruct (Forall2_in_r _ _ _ _ F1 Hv) as (e & He & Hs). apply filter_In in He as [He _].
      inversion Hs as [sc h v E3 E4| | | | | |]; subst e.
      assert (Ht : In (EvSpawn 4 sc h v true) tr) by (rewrite Eb; apply in_app_iff; now left).
      destruct (spawned_for _ _ _ _ _ Ht eq_refl) as (r & ms & rg & Hk & Hh & _). exists r, ms, rg. split; [exact Hk|].
      assert (Hi : In (4, h, v) (invocations before)).
      { apply in_split in He as (x & y & ->). rewrite invocations_app, in_app_iff. right. now left. }
      destruct (Forall2_in_l _ _ _ _ Fc Hi) as ([r2|i] & _ & Z); cbn [run_of] in Z; [|destruct Z as (? & ? & [] & _)].
      destruct Z as (ar & body' & resp' & _ & _ & _ & Hi2).
      assert (Lt : r2 < length (issued 0 (firstn n cl))) by (apply nth_error_Some; congruence).
      assert (Hi3 : nth_error (issued 0 cl) r2 = Some (MkFrame (MkHeader (VKey8 (ea_req _ _ ar)) (hdr_seq h)) body', resp')).
      { rewrite <- (firstn_skipn n cl), issued_app, nth_error_app1 by exact Lt. exact Hi2. }
      apply issued_seq in Hi3. cbn [f_hdr hdr_seq] in Hi3. rewrite Hh in Hi3. injection Hi3 as Es. apply Nat2N.inj in Es. now subst r2.
    Qed.

    Lemma sees : host_sees for_path cl es calls acts whole.
    Proof.
      split; [exact stop_silences| |exact sample_called].
      destruct samples_read as (vs & Sub & F). exists vs. split; [exact Sub|]. clear - F.
      induction F as [|f v fs vs (missing & E & Hw) F IH]; constructor; [|exact IH]. split; [eauto|]. intros W (X & Y & Z).
      rewrite (Hw W), app_nil_r in E. rewrite <- E, <- (app_nil_r (ser (acc_value v))). apply C63_round_trip.
      cbn [acc_value ty_acceleration CodecSpec.typed]. cbn. unfold sint_ok. cbn [bits]. change (2 ^ Z.of_N (16 - 1))%Z with 32768%Z. repeat split; lia.
    Qed.
  End Fits.

  (** ** C93 The accelerometer as seen by the host *)

  (** Over USB. *)
  Section Usb.
    Variable txlen rxlen : nat.
    Variable consumes : bool.
    Variable mps : option nat.
    Variable outcome : nat -> list WRes.
    Hypothesis Hsizes : usb_sizes mps txlen rxlen.
    Variable ls : list ULabel.
    Variable u : USys value Wb unit.
    Hypothesis Hrun : u_run value Wb unit std can_spawn kkind wb_spawn d payload_bytes task cfg txlen rxlen consumes mps outcome
      ls (usys_new value Wb unit [] (wb_new id)) = Some (u, cl, es).
    Hypothesis Herrs : errors_between_messages ls.

    Theorem C93_over_usb_partial :
      forall acts, accel_as_modelled for_path kkind busy acts (u_trace _ _ _ u) ->
      host_sees for_path cl es calls acts (none_interrupted (u_trace _ _ _ u)).
    Proof.
      intros acts (s & os & Ha & Hs).
      destruct (apart_in_all for_path std busy readings can_spawn d Hconf Hdef Hin_apart Hout_apart) as (A & B & C).
      pose proof (labels_fine for_path std cl calls Hpub Hmade) as LF.
      destruct (C90_over_usb_partial std can_spawn kkind wb_spawn d payload_bytes task [] cfg (wb_new id) cl es _ _ _ _ _ A B C Hkk LF Hcount Herr
        txlen rxlen consumes mps outcome Hsizes ls u Hrun Herrs) as (ts & c & Hex & _).
      eapply sees; [exact Hex| |exact Ha|exact Hs].
      assert (Herr' : ~ In (compact (klen kkind) (k8_bytes (error_key std)))
        (map (fun k => compact (klen kkind) (k8_bytes k)) (map ep_resp (em_endpoints (all_eps std eps))))) by exact Herr.
      exact (C92_over_usb_partial std can_spawn kkind wb_spawn d payload_bytes task [] cfg (wb_new id) cl es _ _ _ _ _ A B C Hkk LF Hcount Herr'
        txlen rxlen consumes mps outcome Hsizes ls u Hrun Herrs).
    Qed.
  End Usb.

  (** Over WebUSB, for frames and messages of the lengths that it can deal with. *)
  Section Web.
    Variable txlen rxlen : nat.
    Variable consumes : bool.
    Variable max : nat.
    Variable outcome : nat -> list WRes.
    Hypothesis Hsizes : web_sizes txlen rxlen.
    Variable ls : list WLabel.
    Variable w : WSys value Wb unit.
    Hypothesis Hrun : w_run value Wb unit std can_spawn kkind wb_spawn d payload_bytes task cfg txlen rxlen consumes max outcome
      ls (wsys_new value Wb unit [] (wb_new id)) = Some (w, cl, es).
    Notation u := (w_sys _ _ _ w).
    Hypothesis Hframes : no_whole_packets es.
    Hypothesis Hmsgs : messages_below payload_bytes txlen (Nat.min max 1024) (u_trace _ _ _ u).

    Theorem C93_over_webusb_partial :
      forall acts, accel_as_modelled for_path kkind busy acts (u_trace _ _ _ u) ->
      host_sees for_path cl es calls acts (none_interrupted (u_trace _ _ _ u)).
    Proof.
      intros acts (s & os & Ha & Hs).
      destruct (apart_in_all for_path std busy readings can_spawn d Hconf Hdef Hin_apart Hout_apart) as (A & B & C).
      pose proof (labels_fine for_path std cl calls Hpub Hmade) as LF.
      destruct (C90_over_webusb_partial std can_spawn kkind wb_spawn d payload_bytes task [] cfg (wb_new id) cl es _ _ _ _ _ A B C Hkk LF Hcount Herr
        txlen rxlen consumes max outcome Hsizes ls w Hrun Hframes Hmsgs) as (ts & c & Hex & _).
      eapply sees; [exact Hex| |exact Ha|exact Hs].
      exact (C92_over_webusb_partial std can_spawn kkind wb_spawn d payload_bytes task [] cfg (wb_new id) cl es _ _ _ _ _ A B C Hkk LF Hcount Herr
        txlen rxlen consumes max outcome Hsizes ls w Hrun Hframes Hmsgs).
    Qed.
  End Web.
End T.
Print Assumptions C93_over_usb_partial.
Print Assumptions C93_over_webusb_partial.
