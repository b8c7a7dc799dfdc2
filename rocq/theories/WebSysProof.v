(** The system over WebUSB does nothing that the system over nusb (UsbSysModel.v) cannot
    do, as long as frames are told apart: simulation. *)
From Coq Require Import NArith List Bool Arith Lia.
From Verif Require Import KeyModel HeaderModel KeySpec HeaderSpec KeyProof HeaderProof MinKeyModel SchemaModel MacroModel PostcardModel DispatchModel SubModel
  ClientModel ClientSpec ClientProof ClientMore ClientOut UsbModel UsbSpec UsbProof NusbRxModel NusbRxThm LogModel LogThm SystemModel SystemSpec LiveSpec
  AsyncModel AsyncSpec AsyncProof UsbSysModel UsbSysSpec UsbLink UsbSysProof WebUsbModel WebSysModel WebSysSpec.
Import ListNotations.

(** *** Transfers shorter than [L] *)
(** The length of the transfer under way after these packets, if none was longer. *)
Fixpoint scan (L n : nat) (ps : list packet) : option nat :=
  match ps with
  | [] => Some n
  | p :: tl => if n + length p <? L then scan L (if length p <? 64 then 0 else n + length p) tl else None
  end.
Lemma scan_app L a : forall n b, scan L n (a ++ b) = match scan L n a with Some m => scan L m b | None => None end.
Proof. induction a as [|p a IH]; intros n b; cbn [app scan]; auto. destruct (_ <? L); auto. Qed.
Lemma scan_lt L ps : forall n m, scan L n ps = Some m -> n < L \/ n = 0 -> m < L \/ m = 0.
Proof.
  induction ps as [|p ps IH]; intros n m H Hn; cbn [scan] in H.
  - injection H as <-. exact Hn.
  - destruct (Nat.ltb_spec (n + length p) L) as [E|E]; [|discriminate]. eapply IH; [exact H|]. destruct (_ <? 64); auto.
Qed.
Lemma write1_packets p o : fst (write1 p o) = [] \/ fst (write1 p o) = [p].
Proof. destruct o as [|[]|[]]; cbn; auto. Qed.
Lemma write1_on p o : snd (write1 p o) = None -> fst (write1 p o) = [p].
Proof. destruct o as [|[]|[]]; cbn; auto; discriminate. Qed.
Lemma scan_zlp L n o : n < L -> exists m, scan L n (fst (write1 [] o)) = Some m /\ m < L /\ (snd (write1 [] o) = None -> m = 0).
Proof.
  intros H. destruct (write1_packets [] o) as [E|E].
  - exists n. rewrite E. split; [reflexivity|]. split; auto. intros N. apply write1_on in N. congruence.
  - exists 0. rewrite E. cbn [scan length]. rewrite Nat.add_0_r. destruct (Nat.ltb_spec n L); [|lia]. split; [reflexivity|]. split; auto. lia.
Qed.
Lemma scan_chunks L l chs : packed l chs -> forall n os, n + length l < L ->
  let '(w, r, _) := write_chunks chs os in
  exists m, scan L n w = Some m /\ m < L /\ (r = None -> length l mod 64 = 0 \/ m = 0).
Proof.
  induction 1 as [|l H1 H2|c l chs Hc P IH]; intros n os Hn; cbn [write_chunks].
  - exists n. cbn in *. split; auto. split; [lia|auto].
  - destruct (write1 l (hd WDone os)) as [w stop] eqn:W.
    assert (E : w = [] \/ w = [l]) by (pose proof (write1_packets l (hd WDone os)) as X; rewrite W in X; exact X).
    assert (On : stop = None -> w = [l]) by (pose proof (write1_on l (hd WDone os)) as X; rewrite W in X; exact X).
    assert (S1 : scan L n [l] = Some 0).
    { cbn [scan]. destruct (Nat.ltb_spec (n + length l) L); [|lia]. destruct (Nat.ltb_spec (length l) 64); [reflexivity|lia]. }
    destruct stop.
    + destruct E as [-> | ->]; [exists n|exists 0]; (split; [auto|split; [lia|discriminate]]).
    + rewrite (On eq_refl). cbn [app]. exists 0. split; auto. split; [lia|auto].
  - rewrite app_length in Hn.
    destruct (write1 c (hd WDone os)) as [w stop] eqn:W.
    assert (E : w = [] \/ w = [c]) by (pose proof (write1_packets c (hd WDone os)) as X; rewrite W in X; exact X).
    assert (On : stop = None -> w = [c]) by (pose proof (write1_on c (hd WDone os)) as X; rewrite W in X; exact X).
    assert (S1 : forall tl, scan L n (c :: tl) = scan L (n + 64) tl).
    { intros tl. cbn [scan]. rewrite Hc. destruct (Nat.ltb_spec (n + 64) L); [|lia]. reflexivity. }
    destruct stop.
    + destruct E as [-> | ->]; [exists n|exists (n + 64)]; (split; [try reflexivity; apply S1|split; [lia|discriminate]]).
    + rewrite (On eq_refl). specialize (IH (n + 64) (List.tl os)). destruct (write_chunks chs (List.tl os)) as [[w' r] os'].
      destruct IH as (m & M1 & M2 & M3); [lia|]. exists m. cbn [app]. rewrite S1. split; auto. split; auto.
      intros Hr. rewrite app_length, mod64_add by auto. auto.
Qed.
Lemma scan_send L m b pending os : length b < L -> m < L -> (pending = false -> m = 0) ->
  let '(w, pending', _) := send_all b pending os in
  exists m', scan L m w = Some m' /\ m' < L /\ (pending' = false -> m' = 0).
Proof.
  intros Hb Hm Hp. unfold send_all. destruct b as [|x b']. { exists m. auto. } set (b := x :: b') in *.
  assert (A : exists w0 r0 os0, (if pending then let (w, s) := write1 [] (hd WDone os) in (w, s, List.tl os) else ([], None, os)) = (w0, r0, os0) /\
    exists m0, scan L m w0 = Some m0 /\ m0 < L /\ (r0 = None -> m0 = 0) /\ (pending = false -> r0 = None)).
  { destruct pending.
    - destruct (scan_zlp L m (hd WDone os) Hm) as (m0 & M1 & M2 & M3). destruct (write1 [] (hd WDone os)) as [w s]. cbn [fst snd] in *.
      exists w, s, (List.tl os). split; auto. exists m0. split; auto. split; auto. split; auto. discriminate.
    - exists [], None, os. split; auto. exists m. split; auto. }
  destruct A as (w0 & r0 & os0 & E & m0 & M1 & M2 & M3 & M4). rewrite E. destruct r0 as [r|].
  - exists m0. intuition.
  - rewrite (M3 eq_refl) in M1. pose proof (scan_chunks L b _ (chunks_packed b) 0 os0 Hb) as K.
    destruct (write_chunks (chunks 64 b) os0) as [[w1 r1] os1]. destruct K as (m1 & K1 & K2 & K3). destruct r1 as [r|].
    + exists m1. rewrite scan_app, M1. split; auto. split; auto. discriminate.
    + rewrite land63. destruct (Nat.eqb_spec (length b mod 64) 0) as [Z|Z].
      * destruct (scan_zlp L m1 (hd WDone os1) K2) as (m2 & Z1 & Z2 & Z3). destruct (write1 [] (hd WDone os1)) as [w2 r2]. cbn [fst snd] in *.
        assert (Sc : scan L m (w0 ++ w1 ++ w2) = Some m2) by (rewrite scan_app, M1, scan_app, K1; exact Z1).
        destruct r2 as [r|]; exists m2; (split; [exact Sc|split; [auto|]]); [discriminate|auto].
      * exists m1. rewrite scan_app, M1. split; auto. split; auto. intros _. destruct (K3 eq_refl); [contradiction|auto].
Qed.

(** *** Packets sent *)
Lemma same_packets b : length b mod 64 <> 0 -> nusb_send (Some 64) b = webusb_send b.
Proof. intros H. unfold nusb_send, webusb_send. destruct (Nat.eqb_spec (length b mod 64) 0); [contradiction|]. apply app_nil_r. Qed.

Section Sim.
  Context {Val Ctx SCtx : Type}.
  Variable std : StdKeys.
  Variable can_spawn : Trace Val SCtx -> nat -> bool.
  Variable kkind : VarKeyKind.
  Variable spawn_ctxt : Ctx -> Ctx * SCtx.
  Variable d : Dispatcher Val Ctx.
  Variable enc : Payload Val -> list N.
  Variable task : nat -> SCtx -> VarHeader -> Val -> HProg Val unit.
  Variable bg : list (HProg Val unit).
  Variable cfg : Config.
  Variable txlen rxlen : nat.
  Variable consumes : bool.
  Variable max : nat.
  Variable outcome : nat -> list WRes.

  Notation unet := (usb_net Val SCtx enc txlen outcome).
  Notation tx_pending := (tx_pending Val SCtx enc txlen outcome).
  Notation new_packets := (new_packets Val SCtx enc txlen outcome).
  Notation u_step := (u_step Val Ctx SCtx std can_spawn kkind spawn_ctxt d enc task cfg txlen rxlen consumes (Some 64) outcome).
  Notation u_step0 := (UsbSysModel.u_step Val Ctx SCtx std can_spawn kkind spawn_ctxt d enc task cfg txlen rxlen consumes None outcome).
  Notation u_run := (u_run Val Ctx SCtx std can_spawn kkind spawn_ctxt d enc task cfg txlen rxlen consumes (Some 64) outcome).
  Notation w_step := (w_step Val Ctx SCtx std can_spawn kkind spawn_ctxt d enc task cfg txlen rxlen consumes max outcome).
  Notation w_run := (w_run Val Ctx SCtx std can_spawn kkind spawn_ctxt d enc task cfg txlen rxlen consumes max outcome).
  Notation USys := (USys Val Ctx SCtx).
  Notation WSys := (WSys Val Ctx SCtx).
  Notation w_sys := (w_sys Val Ctx SCtx).
  Notation w_done := (w_done Val Ctx SCtx).
  Notation Tr := (Trace Val SCtx).
  Notation carry := (u_carry_on Val Ctx SCtx can_spawn task).

  (** [u] with another IN side. *)
  Definition plant (ins : list packet) (acc : list N) (comps : list Completion) (reqs errs : nat) (u : USys) : USys :=
    MkUSys _ _ _ (u_client _ _ _ u) (u_out _ _ _ u) ins acc comps reqs errs
           (u_ctx _ _ _ u) (u_trace _ _ _ u) (u_tasks _ _ _ u) (u_serving _ _ _ u) (u_cur _ _ _ u).
  Lemma plant_carry ins acc comps reqs errs u p : carry (plant ins acc comps reqs errs u) p = plant ins acc comps reqs errs (carry u p).
  Proof. unfold u_carry_on. cbn [plant u_trace]. destruct (settle Val SCtx can_spawn p (u_trace _ _ _ u)) as [[[]| | |] tr]; reflexivity. Qed.
  Lemma carry_side u p : u_in _ _ _ (carry u p) = u_in _ _ _ u /\ u_acc _ _ _ (carry u p) = u_acc _ _ _ u /\ u_client _ _ _ (carry u p) = u_client _ _ _ u.
  Proof. unfold u_carry_on. destruct (settle Val SCtx can_spawn p (u_trace _ _ _ u)) as [[[]| | |] tr]; auto. Qed.
  Definition device (l : ULabel) : Prop := l = UServe \/ l = UResume \/ exists i, l = UTask i.

  Lemma messages_less limit (a b : Tr) : messages_below enc txlen limit (a ++ b) -> messages_below enc txlen limit a.
  Proof. intros H w h p r Hi. apply (H w h p r). apply in_or_app. auto. Qed.

  (** What the device transmits is as short as its messages. *)
  Lemma scan_event L tr w h p r m : messages_below enc txlen L (tr ++ [EvSend w h p r]) -> (m < L \/ m = 0) -> (tx_pending tr = false -> m = 0) ->
    exists m', scan L m (new_packets tr [EvSend w h p r]) = Some m' /\ (tx_pending (tr ++ [EvSend w h p r]) = false -> m' = 0).
  Proof.
    intros Hm Hl Hp. unfold UsbSysModel.new_packets. rewrite (tx_pending_app can_spawn enc task). cbn [UsbSysModel.sends send_seq fst snd].
    unfold UsbSysModel.message, UsbSysModel.prepared. rewrite usb_send_eq, repeat_length.
    destruct (Nat.leb_spec (header_len h + length (enc p)) txlen) as [Lt|Lt].
    - assert (Lm : length (write_to_vec h ++ enc p) < L).
      { apply (Hm w h p r); [apply in_or_app; right; left; reflexivity|]. unfold rpc_to_bytes. cbn [f_hdr f_body]. rewrite app_length, write_to_vec_len. exact Lt. }
      pose proof (scan_send L m (write_to_vec h ++ enc p) (tx_pending tr) (outcome (UsbSysModel.n_sent Val SCtx enc txlen outcome tr)) Lm ltac:(lia) Hp) as K.
      destruct (send_all _ _ _) as [[w' p'] r']. destruct K as (m' & K1 & K2 & K3). cbn [fst snd]. rewrite app_nil_r. eauto.
    - cbn [send_all fst snd app]. exists m. auto.
  Qed.
  Lemma pending_more tr evs : outcomes evs = [] -> tx_pending (tr ++ evs) = tx_pending tr.
  Proof. apply (tx_pending_none can_spawn enc task). Qed.

  Definition tidy_in (L : nat) (u : USys) : Prop :=
    exists m, scan L (length (u_acc _ _ _ u)) (u_in _ _ _ u) = Some m /\ (m < L \/ m = 0) /\ (tx_pending (u_trace _ _ _ u) = false -> m = 0).

  Lemma tidy_carry L u p : tidy_in L u -> tidy_in L (carry u p).
  Proof.
    intros (m & H1 & H2 & H3). destruct (carry_side u p) as (E1 & E2 & _). destruct (carry_trace can_spawn task u p) as (evs & E3 & E4).
    exists m. rewrite E1, E2, E3, pending_more by auto. auto.
  Qed.

  (** A step of the device: the two systems do the same. *)
  Lemma device_same L l u u' ce : device l -> u_step0 l u = Some (u', ce) ->
    ce = None /\ u_client _ _ _ u' = u_client _ _ _ u /\
    (messages_below enc txlen L (u_trace _ _ _ u') -> tidy_in L u -> tidy_in L u') /\
    (exists new, u_trace _ _ _ u' = u_trace _ _ _ u ++ new) /\
    exists pk, u_in _ _ _ u' = u_in _ _ _ u ++ pk /\ u_acc _ _ _ u' = u_acc _ _ _ u /\
      forall ins acc comps reqs errs, u_step l (plant ins acc comps reqs errs u) = Some (plant (ins ++ pk) acc comps reqs errs u', None).
  Proof.
    intros D Hs. destruct D as [->|[->|[i ->]]]; cbn [UsbSysModel.u_step] in *.
    - change (u_cur _ _ _ (plant ?a ?b ?c ?dd ?e u)) with (u_cur _ _ _ u). cbn [plant u_cur u_serving u_out u_ctx].
      destruct (u_cur _ _ _ u); [discriminate|]. destruct (u_serving _ _ _ u); [|discriminate].
      destruct (receive consumes rxlen (map Pkt (u_out _ _ _ u))) as [[f| | |] rest]; try discriminate.
      + destruct (take_from_slice f) as [[[hdr body]|]|]; [| |discriminate]; injection Hs as <- <-.
        * split; auto. destruct (carry_side (with_client _ _ _ (u_client _ _ _ u) (packets_left rest) u) (sp_handle Val Ctx SCtx std kkind spawn_ctxt d (u_ctx _ _ _ u) hdr body)) as (E1 & E2 & E3).
          split; [exact E3|]. split. { intros _ T. apply tidy_carry. exact T. }
          split. { destruct (carry_trace can_spawn task (with_client _ _ _ (u_client _ _ _ u) (packets_left rest) u) (sp_handle Val Ctx SCtx std kkind spawn_ctxt d (u_ctx _ _ _ u) hdr body)) as (evs & E & _). eauto. }
          exists []. rewrite app_nil_r. split; [exact E1|]. split; [exact E2|]. intros. rewrite app_nil_r, <- plant_carry. reflexivity.
        * split; auto. split; auto. split; [auto|]. split; [exists []; symmetry; apply app_nil_r|]. exists []. rewrite app_nil_r. split; auto. split; auto. intros. rewrite app_nil_r. reflexivity.
      + injection Hs as <- <-. split; auto. split; auto. split; [auto|]. split; [exists []; symmetry; apply app_nil_r|]. exists []. rewrite app_nil_r. split; auto. split; auto. intros. rewrite app_nil_r. reflexivity.
    - cbn [plant u_cur u_trace]. destruct (u_cur _ _ _ u) as [[| | |w h p k]|]; try discriminate. injection Hs as <- <-.
      match goal with |- context [carry ?a ?b] => set (v := a); set (q := b) end.
      destruct (carry_side v q) as (E1 & E2 & E3). destruct (carry_trace can_spawn task v q) as (evs & E4 & E5).
      split; auto. split; [exact E3|].
      split. { intros Hm (m & M1 & M2 & M3). apply tidy_carry. rewrite E4 in Hm. apply messages_less in Hm. unfold v in *. cbn [u_trace] in Hm.
               destruct (scan_event L _ _ _ _ _ m Hm M2 M3) as (m' & S1 & S2). exists m'. cbn [u_in u_acc u_trace]. rewrite scan_app, M1. split; [exact S1|].
               split; [|exact S2]. eapply scan_lt; [exact S1|exact M2]. }
      split. { exists ([EvSend w h p (unet (u_trace _ _ _ u) h p)] ++ evs). rewrite E4. unfold v. cbn [u_trace]. now rewrite app_assoc. }
      exists (new_packets (u_trace _ _ _ u) [EvSend w h p (unet (u_trace _ _ _ u) h p)]). split; [exact E1|]. split; [exact E2|].
      intros. rewrite <- plant_carry. reflexivity.
    - cbn [plant u_tasks u_trace]. destruct (nth_error (u_tasks _ _ _ u) i) as [[r|key seq p k]|]; try discriminate.
      unfold send_keyed in *. injection Hs as <- <-. split; auto. split; auto.
      rewrite skipn_grown.
      split. { intros Hm (m & M1 & M2 & M3). cbn [u_trace] in Hm.
               destruct (scan_event L _ _ _ _ _ m Hm M2 M3) as (m' & S1 & S2). exists m'. cbn [u_in u_acc u_trace]. rewrite scan_app, M1. split; [exact S1|].
               split; [|exact S2]. eapply scan_lt; [exact S1|exact M2]. }
      split; [eexists; reflexivity|].
      eexists. split; [reflexivity|]. split; [reflexivity|]. intros. unfold tx_send. cbv beta iota zeta. rewrite skipn_grown. reflexivity.
  Qed.

  (** *** Runs over nusb *)
  Lemma u_run_app a : forall b u u1 cl1 es1 u2 cl2 es2, u_run a u = Some (u1, cl1, es1) -> u_run b u1 = Some (u2, cl2, es2) ->
    u_run (a ++ b) u = Some (u2, cl1 ++ cl2, es1 ++ es2).
  Proof.
    induction a as [|l a IH]; intros b u u1 cl1 es1 u2 cl2 es2 H1 H2; cbn [app UsbSysModel.u_run] in *.
    - injection H1 as <- <- <-. exact H2.
    - destruct (u_step l u) as [[v ce]|]; [|discriminate]. destruct (u_run a v) as [[[u3 cl3] es3]|] eqn:R; [|discriminate].
      assert (E : u3 = u1) by (destruct ce as [[? ?]|]; injection H1; auto). subst u3.
      rewrite (IH b _ _ _ _ _ _ _ R H2). destruct ce as [[? ?]|]; injection H1 as <- <-; reflexivity.
  Qed.
  Lemma u_run_one l u u' ce : u_step l u = Some (u', ce) -> u_run [l] u = Some (u', cl_of ce, es_of ce).
  Proof. intros H. cbn [UsbSysModel.u_run]. rewrite H. destruct ce as [[? ?]|]; reflexivity. Qed.

  (** Full packets arrive. *)
  Lemma arrive held : forall rest acc comps reqs errs u, Forall (fun p => 64 <= length p) held -> length acc + length (concat held) < 1024 ->
    u_run (repeat UIn (length held)) (plant (held ++ rest) acc comps reqs errs u) = Some (plant rest (acc ++ concat held) comps reqs errs u, [], []).
  Proof.
    induction held as [|p held IH]; intros rest acc comps reqs errs u F Lt; cbn [length repeat app concat UsbSysModel.u_run] in *.
    - now rewrite app_nil_r.
    - inversion F as [|? ? F1 F2]; subst. rewrite app_length in Lt. cbn [UsbSysModel.u_step plant u_in u_acc].
      assert (A1 : (length p <? 64) = false) by (apply Nat.ltb_ge; lia).
      assert (A2 : (MAX_TRANSFER_SIZE <=? length (acc ++ p)) = false) by (apply Nat.leb_gt; unfold MAX_TRANSFER_SIZE; rewrite app_length; lia).
      rewrite A1, A2. cbn [orb].
      change (MkUSys _ _ _ _ _ _ _ _ _ _ _ _ _ _ _) with (plant (held ++ rest) (acc ++ p) comps reqs errs u).
      rewrite IH; auto. { now rewrite app_assoc. } rewrite app_length. lia.
  Qed.
  Lemma no_error_repeat n : no_transfer_errors (repeat UIn n).
  Proof. intros e. split; intros H; apply repeat_spec in H; discriminate. Qed.
  Lemma no_errors_app a b : no_transfer_errors a -> no_transfer_errors b -> no_transfer_errors (a ++ b).
  Proof. intros H1 H2 e. split; intros H; apply in_app_or in H as [H|H]; try (apply (proj1 (H1 e) H)); try (apply (proj1 (H2 e) H)); try (apply (proj2 (H1 e) H)); apply (proj2 (H2 e) H). Qed.

  (** *** The relation *)
  Section Limit.
  Variable L : nat.
  Hypothesis Lmax : L <= max.
  Hypothesis Lmts : L <= 1024.

  Definition in_rel (w : WSys) (ins : list packet) (comps : list Completion) : Prop :=
    c_in_alive (u_client _ _ _ (w_sys w)) = true ->
    match w_done w with
    | Some WebErr => comps = [CErr Cancelled]
    | Some (WebGot b) => comps = [COk b] /\ u_acc _ _ _ (w_sys w) = [] /\ ins = u_in _ _ _ (w_sys w) /\ tidy_in L (w_sys w)
    | None => comps = [] /\ tidy_in L (w_sys w) /\
              exists held, ins = held ++ u_in _ _ _ (w_sys w) /\ concat held = u_acc _ _ _ (w_sys w) /\
                length (concat held) < 1024 /\ Forall (fun p => 64 <= length p) held
    end.
  Definition WRel (w : WSys) (u : USys) : Prop :=
    exists ins comps reqs errs, u = plant ins [] comps reqs errs (w_sys w) /\ in_rel w ins comps.

  Lemma wrel_new ctx : WRel (wsys_new Val Ctx SCtx bg ctx) (usys_new Val Ctx SCtx bg ctx).
  Proof.
    exists [], [], 0, 0. split; [reflexivity|]. intros _. cbn [WebSysModel.w_done wsys_new]. split; [reflexivity|]. split.
    { exists 0. split; [reflexivity|]. split; [right; reflexivity|intros _; reflexivity]. }
    exists []. cbn [concat length app]. split; [reflexivity|]. split; [reflexivity|]. split; [apply Nat.lt_0_succ|constructor].
  Qed.

  Lemma in_alive_back l c c' e : step cfg l c = Some (c', e) -> c_in_alive c' = true -> c_in_alive c = true.
  Proof.
    intros H A. destruct l; cbn [ClientModel.step] in H;
    repeat match type of H with context [match ?x with _ => _ end] => destruct x eqn:?; try discriminate end;
    injection H as <- <-; unfold adopt in *; try destruct (negb (kkind_eqb _ _)); cbn in *; auto; congruence.
  Qed.

  Lemma same_wire bs : Forall (fun b => length b mod 64 <> 0) bs -> flat_map (nusb_send (Some 64)) bs = flat_map webusb_send bs.
  Proof. induction 1 as [|b bs H F IH]; cbn [flat_map]; auto. rewrite same_packets, IH by auto. reflexivity. Qed.

  Lemma plant_client ins acc comps reqs errs c out u :
    plant ins acc comps reqs errs (with_client _ _ _ c out u) = with_client _ _ _ c out (plant ins acc comps reqs errs u).
  Proof. reflexivity. Qed.
  Lemma tidy_client c out u : tidy_in L (with_client _ _ _ c out u) <-> tidy_in L u.
  Proof. reflexivity. Qed.

  (** A step of the client other than receiving. *)
  Lemma in_rel_client w ins comps c out : (c_in_alive c = true -> c_in_alive (u_client _ _ _ (w_sys w)) = true) ->
    in_rel w ins comps -> in_rel (MkWSys _ _ _ (with_client _ _ _ c out (w_sys w)) (w_done w)) ins comps.
  Proof. intros A R. unfold in_rel in *. cbn [WebSysModel.w_sys WebSysModel.w_done with_client u_client u_acc u_in]. intros Al. exact (R (A Al)). Qed.

  Lemma wsim_step l w u w' ce : WRel w u -> w_step l w = Some (w', ce) ->
    Forall (fun b => length b mod 64 <> 0) (wire (es_of ce)) -> messages_below enc txlen L (u_trace _ _ _ (w_sys w')) ->
    exists us u', u_run us u = Some (u', cl_of ce, es_of ce) /\ WRel w' u' /\ errors_between_messages us /\ (l <> WFail -> no_transfer_errors us) /\
      exists new, u_trace _ _ _ (w_sys w') = u_trace _ _ _ (w_sys w) ++ new.
  Proof.
    intros (ins & comps & reqs & errs & -> & R) Hs Hw Hm.
    assert (Wone : forall e, wire [e] = wire_of e).
    { intros e. unfold wire. cbn [concat]. now rewrite app_nil_r. }
    assert (One : forall x, (forall e, x <> UErrorAmid e /\ x <> UError e) -> no_transfer_errors [x]).
    { intros x Hx e. destruct (Hx e). split; intros [E|[]]; auto. }
    assert (Dev : forall ul, device ul -> device_step Val Ctx SCtx std can_spawn kkind spawn_ctxt d enc task cfg txlen rxlen consumes outcome ul w = Some (w', ce) ->
      exists us u', u_run us (plant ins [] comps reqs errs (w_sys w)) = Some (u', cl_of ce, es_of ce) /\ WRel w' u' /\ errors_between_messages us /\ (l <> WFail -> no_transfer_errors us) /\
        exists new, u_trace _ _ _ (w_sys w') = u_trace _ _ _ (w_sys w) ++ new).
    { intros ul D E. unfold device_step in E. destruct (u_step0 ul (w_sys w)) as [[v ce']|] eqn:St; [|discriminate]. injection E as <- <-.
      destruct (device_same L ul (w_sys w) v ce' D St) as (-> & Ec & Ti & Tr & pk & Ei & Ea & Su). cbn [WebSysModel.w_sys] in *.
      exists [ul], (plant (ins ++ pk) [] comps reqs errs v). split; [apply (u_run_one _ _ _ None), Su|]. split.
      { exists (ins ++ pk), comps, reqs, errs. split; [reflexivity|]. unfold in_rel in *. cbn [WebSysModel.w_sys WebSysModel.w_done]. rewrite Ec, Ea, Ei. intros Al. specialize (R Al).
        destruct (w_done w) as [[b|]|]; auto.
        - destruct R as (R1 & R2 & -> & R4). auto.
        - destruct R as (R1 & R2 & held & -> & R4 & R5 & R6). split; auto. split; auto. exists held. rewrite app_assoc. auto. }
      assert (Ne : no_transfer_errors [ul]) by (apply One; intros e; destruct D as [->|[->|[i ->]]]; split; discriminate).
      split; [intros e; apply Ne|]. split; [auto|exact Tr]. }
    destruct l as [l|fails k| | |i| | |]; cbn [WebSysModel.w_step] in Hs.
    - assert (E : exists c e, step cfg l (u_client _ _ _ (w_sys w)) = Some (c, e) /\ ce = Some (l, e) /\
        w' = MkWSys _ _ _ (with_client _ _ _ c (u_out _ _ _ (w_sys w) ++ flat_map webusb_send (wire_of e)) (w_sys w)) (w_done w) /\
        u_step (UClient l) (plant ins [] comps reqs errs (w_sys w)) =
          Some (with_client _ _ _ c (u_out _ _ _ (w_sys w) ++ flat_map (nusb_send (Some 64)) (wire_of e)) (plant ins [] comps reqs errs (w_sys w)), Some (l, e))).
      { cbn [UsbSysModel.u_step plant u_client u_out]. destruct (step cfg l (u_client _ _ _ (w_sys w))) as [[c e]|]; [|destruct l; discriminate].
        exists c, e. destruct l; try discriminate; injection Hs as <- <-; auto. }
      destruct E as (c & e & St & -> & -> & Su). cbn [es_of] in Hw. rewrite Wone in Hw. rewrite (same_wire _ Hw) in Su.
      eexists [UClient l], _. split; [exact (u_run_one _ _ _ _ Su)|]. split.
      { exists ins, comps, reqs, errs. split; [reflexivity|]. apply in_rel_client; auto. intros A. eapply in_alive_back; eauto. }
      assert (Ne : no_transfer_errors [UClient l]) by (apply One; intros ?; split; discriminate).
      split; [intros ?; apply Ne|]. split; [auto|exists []; symmetry; apply app_nil_r].
    - set (out := match c_sending (u_client _ _ _ (w_sys w)) with Some f => firstn k (webusb_send (rpc_to_bytes f)) | None => [] end) in *.
      set (reached := match c_sending (u_client _ _ _ (w_sys w)) with Some f => complete_at f <=? length out | None => false end) in *.
      destruct (step cfg (if fails then LOutFail reached else LOutEnd reached) (u_client _ _ _ (w_sys w))) as [[c e]|] eqn:St; [|discriminate].
      injection Hs as <- <-.
      assert (Eo : match c_sending (u_client _ _ _ (w_sys w)) with Some f => firstn (length out) (nusb_send (Some 64) (rpc_to_bytes f)) | None => [] end = out).
      { unfold out. destruct (c_sending _) as [f|]; auto. unfold webusb_send, nusb_send. rewrite firstn_length.
        rewrite firstn_app. replace (Nat.min k (length (transfer_packets (rpc_to_bytes f))) - length (transfer_packets (rpc_to_bytes f))) with 0 by lia.
        rewrite firstn_O, app_nil_r. destruct (Nat.le_ge_cases k (length (transfer_packets (rpc_to_bytes f)))) as [Q|Q].
        - now rewrite Nat.min_l by auto.
        - rewrite Nat.min_r by auto. rewrite firstn_all. symmetry. now apply firstn_all2. }
      eexists [UOutStop fails (length out)], _. split.
      { apply (u_run_one _ _ _ (Some (if fails then LOutFail reached else LOutEnd reached, e))). cbn [UsbSysModel.u_step plant u_client u_out].
        fold reached. rewrite St, Eo. reflexivity. }
      split. { exists ins, comps, reqs, errs. split; [reflexivity|]. apply in_rel_client; auto. intros A. eapply in_alive_back; eauto. }
      assert (Ne : no_transfer_errors [UOutStop fails (length out)]) by (apply One; intros ?; split; discriminate).
      split; [intros ?; apply Ne|]. split; [auto|exists []; symmetry; apply app_nil_r].
    - apply (Dev UServe); auto. left. reflexivity.
    - apply (Dev UResume); auto. right. left. reflexivity.
    - apply (Dev (UTask i)); auto. right. right. eauto.
    - destruct (w_done w) eqn:Ed; [discriminate|]. destruct (c_in_alive (u_client _ _ _ (w_sys w))) eqn:Al; [|discriminate].
      destruct (u_in _ _ _ (w_sys w)) as [|p tl] eqn:Ei; [discriminate|].
      unfold in_rel in R. rewrite Ed in R. destruct (R Al) as (-> & (m & T1 & T2 & T3) & held & -> & Ec & Lh & Fh).
      rewrite Ei in *. cbn [scan] in T1. destruct (Nat.ltb_spec (length (u_acc _ _ _ (w_sys w)) + length p) L) as [Lt|]; [|discriminate].
      assert (La : length (u_acc _ _ _ (w_sys w) ++ p) < L) by (rewrite app_length; auto).
      destruct (Nat.ltb_spec max (length (u_acc _ _ _ (w_sys w) ++ p))); [lia|].
      destruct (Nat.eqb_spec (length (u_acc _ _ _ (w_sys w) ++ p)) max); [lia|]. rewrite orb_false_r in Hs.
      destruct (Nat.ltb_spec (length p) 64) as [Sh|Sh]; injection Hs as <- <-.
      + assert (R1 := arrive held (p :: tl) [] [] reqs errs (w_sys w) Fh ltac:(cbn; lia)). cbn [app] in R1.
        assert (R2 : u_run [UIn] (plant (p :: tl) (concat held) [] reqs errs (w_sys w)) = Some (plant tl [] [COk (concat held ++ p)] reqs errs (w_sys w), [], [])).
        { apply (u_run_one _ _ _ None). cbn [UsbSysModel.u_step plant u_in u_acc]. destruct (Nat.ltb_spec (length p) 64); [|lia]. reflexivity. }
        eexists (repeat UIn (length held) ++ [UIn]), _. split; [exact (u_run_app _ _ _ _ _ _ _ _ _ R1 R2)|]. split.
        { exists tl, [COk (concat held ++ p)], reqs, errs. split; [reflexivity|]. unfold in_rel. cbn [WebSysModel.w_done WebSysModel.w_sys set_in_side u_client u_acc u_in].
          intros _. rewrite Ec. split; auto. split; auto. split; auto. exists m. cbn [set_in_side u_acc u_in u_trace length]. auto. }
        assert (Ne : no_transfer_errors (repeat UIn (length held) ++ [UIn])).
        { apply no_errors_app; [apply no_error_repeat|]. apply One. intros ?; split; discriminate. }
        split; [intros ?; apply Ne|]. split; [auto|exists []; symmetry; apply app_nil_r].
      + eexists [], _. split; [reflexivity|]. split.
        { exists (held ++ p :: tl), [], reqs, errs. split; [reflexivity|]. unfold in_rel. cbn [WebSysModel.w_done WebSysModel.w_sys set_in_side u_client u_acc u_in].
          intros _. split; auto. split. { exists m. cbn [set_in_side u_acc u_in u_trace]. rewrite app_length. auto. }
          exists (held ++ [p]). rewrite <- app_assoc, concat_app, Ec. cbn [app concat]. rewrite app_nil_r. split; auto. split; auto. split; [lia|].
          apply Forall_app. auto. }
        assert (Ne : no_transfer_errors []) by (intros ?; split; intros []).
        split; [intros ?; apply Ne|]. split; [auto|exists []; symmetry; apply app_nil_r].
    - destruct (w_done w) eqn:Ed; [discriminate|]. destruct (c_in_alive (u_client _ _ _ (w_sys w))) eqn:Al; [|discriminate]. injection Hs as <- <-.
      unfold in_rel in R. rewrite Ed in R. destruct (R Al) as (-> & _ & held & -> & _).
      eexists [UError Cancelled], _. split. { apply (u_run_one _ _ _ None). cbn [UsbSysModel.u_step plant u_acc]. reflexivity. }
      split. { exists (held ++ u_in _ _ _ (w_sys w)), [CErr Cancelled], reqs, errs. split; [reflexivity|]. intros _. reflexivity. }
      split. { intros e [E|[]]. discriminate. }
      split; [congruence|exists []; symmetry; apply app_nil_r].
    - destruct (w_done w) as [r|] eqn:Ed; [|discriminate].
      destruct (step cfg match r with WebGot b => LRecv b | WebErr => LInFail end (u_client _ _ _ (w_sys w))) as [[c e]|] eqn:St; [|discriminate]. injection Hs as <- <-.
      assert (Al : c_in_alive (u_client _ _ _ (w_sys w)) = true).
      { destruct r; cbn [ClientModel.step] in St; (destruct (c_offer _); [discriminate|]); destruct (c_in_alive _); auto; discriminate. }
      unfold in_rel in R. rewrite Ed in R. specialize (R Al). destruct r as [b|].
      + destruct R as (-> & Ra & -> & Ti). destruct (recv_first_ok can_spawn task outcome reqs errs (COk b) [] [] Logic.I) as (b' & Eb & q & Er). injection Eb as <-.
        eexists [URecv []], _. split.
        { apply (u_run_one _ _ _ (Some (LRecv b, e))). cbn [UsbSysModel.u_step plant u_reqs u_errs u_comps u_client]. rewrite Er, St. reflexivity. }
        split. { exists (u_in _ _ _ (w_sys w)), [], q, 0. cbn [WebSysModel.w_sys]. rewrite plant_client. split; [reflexivity|]. unfold in_rel.
          cbn [WebSysModel.w_done WebSysModel.w_sys with_client u_client u_acc u_in]. intros _. split; auto. split; [exact Ti|].
          exists []. rewrite Ra. repeat split; auto. cbn. lia. }
        assert (Ne : no_transfer_errors [URecv []]) by (apply One; intros ?; split; discriminate).
        split; [intros ?; apply Ne|]. split; [auto|exists []; symmetry; apply app_nil_r].
      + subst comps. assert (Er : exists q, recv reqs errs [CErr Cancelled] [] = (NErr Cancelled, q, S errs, [], [], [AMain (reqs + (IN_FLIGHT_REQS - reqs))])).
        { unfold recv. cbn [recv_inner length]. destruct (reqs + (IN_FLIGHT_REQS - reqs)) as [|q] eqn:E; [unfold IN_FLIGHT_REQS in E; lia|]. eauto. }
        destruct Er as [q Er]. eexists [URecv []], _. split.
        { apply (u_run_one _ _ _ (Some (LInFail, e))). cbn [UsbSysModel.u_step plant u_reqs u_errs u_comps u_client]. rewrite Er, St. reflexivity. }
        assert (Dead : c_in_alive c = false).
        { cbn [ClientModel.step] in St. destruct (c_offer _); [discriminate|]. destruct (_ || _); [discriminate|]. injection St as <- <-. reflexivity. }
        split. { exists ins, [], q, (S errs). cbn [WebSysModel.w_sys]. rewrite plant_client. split; [reflexivity|]. unfold in_rel. cbn [WebSysModel.w_sys with_client u_client]. congruence. }
        assert (Ne : no_transfer_errors [URecv []]) by (apply One; intros ?; split; discriminate).
        split; [intros ?; apply Ne|]. split; [auto|exists []; symmetry; apply app_nil_r].
  Qed.
  End Limit.
End Sim.
