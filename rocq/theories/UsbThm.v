(** Property theorems C15-C19, C52, C54: USB framing. *)
From Coq Require Import NArith List Bool Arith Lia.
From Verif Require Import KeyModel HeaderModel DispatchModel ServerModel UsbModel UsbSpec UsbProof.
Import ListNotations.

(** ** C15 Device-to-host framing is lossless *)
Theorem C15_lossless :
  forall msgs, Forall (fun m => m <> []) msgs ->
    let '(wire, pending, results) := send_seq false (map (fun m => (m, [])) msgs) in
    transfers [] wire = (msgs, []) /\ pending = false /\ results = map (fun _ => SOk) msgs.
Proof. exact send_seq_lossless. Qed.
Print Assumptions C15_lossless.

Definition x_msg (n : nat) : list N := map (fun i => N.of_nat i mod 256)%N (seq 1 n).
Example C15_nontrivial :
  map (@length N) (fst (fst (send_seq false (map (fun m => (m, [])) [x_msg 64; x_msg 3; x_msg 130; x_msg 128]))))
  = [64; 0; 3; 64; 64; 2; 64; 64; 0].
Proof. vm_compute. reflexivity. Qed.

(** ** C16 Interruptions do no harm to neighbours *)

(** For every sequence of sends, each with any pattern of write outcomes, the host
    sees what [seen] allows: completed sends as one transfer each, in order, and
    otherwise only prefixes of an interrupted message. *)
Theorem C16_interrupted_sends :
  forall sends,
    let '(wire, _, results) := send_seq false sends in
    let '(ts, part) := transfers [] wire in
    length results = length sends /\ seen None (combine (map fst sends) results) ts part.
Proof. intros sends. apply send_seq_seen. split; reflexivity. Qed.
Print Assumptions C16_interrupted_sends.

(** Hence completed messages all arrive intact and in order, ... *)
Theorem C16_completed_intact :
  forall sends,
    let '(wire, _, results) := send_seq false sends in
    subsequence (completed (combine (map fst sends) results)) (fst (transfers [] wire)).
Proof.
  intros sends. pose proof (C16_interrupted_sends sends) as H.
  destruct (send_seq false sends) as [[w p] rs]. destruct (transfers [] w) as [ts part]. destruct H as [_ H].
  eapply seen_completed. exact H.
Qed.
Print Assumptions C16_completed_intact.

(** ... and no transfer mixes bytes of two messages. *)
Theorem C16_no_mixing :
  forall sends,
    let '(wire, _, _) := send_seq false sends in
    let '(ts, part) := transfers [] wire in
    forall t, In t (part :: ts) -> t = [] \/ exists m, In m (map fst sends) /\ prefix_of t m.
Proof.
  intros sends. pose proof (C16_interrupted_sends sends) as H.
  destruct (send_seq false sends) as [[w p] rs]. destruct (transfers [] w) as [ts part]. destruct H as [L H].
  intros t Ht. destruct (seen_no_mixing _ _ _ _ H t Ht) as [E|(m & [I|E] & P)]; auto; [|discriminate].
  right. exists m. split; auto. apply in_map_iff in I. destruct I as ([m' r] & <- & I). cbn.
  eapply in_combine_l. exact I.
Qed.
Print Assumptions C16_no_mixing.

(** A send that times out in its second packet, one that times out while
    recovering, then one that completes. *)
Example C16_nontrivial :
  let sends := [(x_msg 200, [WDone; WDropped false]); (x_msg 5, [WDropped true]); (x_msg 70, []); (x_msg 64, [])] in
  let '(wire, pending, results) := send_seq false sends in
  results = [SInterrupted; SInterrupted; SOk; SOk] /\
  transfers [] wire = ([x_msg 64; []; x_msg 70; x_msg 64], []).
Proof. vm_compute. split; reflexivity. Qed.

(** ** C17 Host-to-device framing is lossless *)

(** Known packet size: exactly the frames.  Unknown: an empty frame follows every
    frame whose length is not a multiple of 64. *)
Theorem C17_lossless :
  forall consumes buflen mps frames rest,
    mps = None \/ mps = Some 64 -> 0 < buflen ->
    Forall (fun f => f <> [] /\ fits buflen (length f)) frames ->
    receives consumes buflen (map Pkt (flat_map (nusb_send mps) frames) ++ rest)
      (flat_map (fun f => RGot f ::
         match mps with
         | Some _ => []
         | None => if length f mod 64 =? 0 then [] else [RGot []]
         end) frames)
      rest.
Proof. intros consumes buflen mps frames rest. apply receives_host. Qed.
Print Assumptions C17_lossless.

(** The server ignores the empty frames: its loop behaves as if it had received
    exactly the host's frames. *)
Definition to_rx (r : RecvRes) : RxRes :=
  match r with
  | RGot f => RxFrame f
  | RTooLarge => RxErr RxTooLarge
  | RClosed => RxErr RxConnectionClosed
  | RPending => RxErr RxOther
  end.
Theorem C17_server :
  forall (St : Type) (handle : St -> VarHeader -> list N -> St * TxRes) mps frames st,
    fst (run St handle st (map to_rx (flat_map (host_frame_results mps) frames)))
    = fst (run St handle st (map RxFrame frames)).
Proof.
  intros St handle mps frames. induction frames as [|f frames IH]; intros st; cbn [flat_map map]; auto.
  rewrite map_app.
  assert (S : forall s, fst (run St handle s (map to_rx
     match mps with None => if length f mod 64 =? 0 then [] else [RGot []] | Some _ => [] end ++
     map to_rx (flat_map (host_frame_results mps) frames))) = fst (run St handle s (map RxFrame frames))).
  { intros s. destruct mps; [apply IH|]. destruct (_ =? 0); [apply IH|]. cbn. apply IH. }
  unfold host_frame_results at 1. cbn [map app to_rx run].
  destruct (take_from_slice f) as [[[h b]|]|]; [|apply S|reflexivity].
  destruct (handle st h b) as [st1 [|[| |]]]; try apply S; reflexivity.
Qed.
Print Assumptions C17_server.

Example C17_nontrivial :
  fits 128 70 /\ fits 128 64 /\
  receive true 128 (map Pkt (flat_map (nusb_send None) [x_msg 70; x_msg 64])) =
    (RGot (x_msg 70), map Pkt ([] :: nusb_send None (x_msg 64))).
Proof. repeat split; try lia; vm_compute; reflexivity. Qed.

(** ** C18 An oversized frame is dropped whole *)

(** True for every buffer whose length is a positive multiple of 64; see the
    refutation for other lengths. *)
Theorem C18_oversized_dropped_partial :
  forall consumes buflen f rest,
    64 <= buflen -> buflen mod 64 = 0 -> ~ fits buflen (length f) ->
    receive consumes buflen (map Pkt (frame_packets f) ++ rest) = (RTooLarge, rest).
Proof.
  intros c B f rest HB Hm N. destruct (receive_not_fits c B f rest N) as (r & E & H).
  rewrite E, H by auto. reflexivity.
Qed.
Print Assumptions C18_oversized_dropped_partial.

Theorem C18_oversized_dropped_refuted :
  forall consumes, exists buflen f g,
    buflen < length f /\
    exists rest got, receive consumes buflen (map Pkt (frame_packets f ++ frame_packets g)) = (RTooLarge, rest) /\
      fst (receive consumes buflen rest) = got /\ got <> RGot g.
Proof.
  intros c. exists 100, (x_msg 130), (x_msg 3). split; [vm_compute; lia|].
  destruct c; do 2 eexists; (split; [vm_compute; reflexivity|]); (split; [vm_compute; reflexivity|]); discriminate.
Qed.
Print Assumptions C18_oversized_dropped_refuted.

Example C18_nontrivial :
  ~ fits 128 300 /\
  receive false 128 (map Pkt (frame_packets (x_msg 300) ++ frame_packets (x_msg 3))) =
    (RTooLarge, map Pkt (frame_packets (x_msg 3))).
Proof. split; [intros [H _]; lia|]. vm_compute. reflexivity. Qed.

(** ** C19 A frame that fits is accepted *)

(** Exactly the frames that fit are accepted.  (Missing for the full claim:
    frames of a multiple of 64 bytes that fill the buffer exactly, see below.) *)
Theorem C19_accepted_iff_partial :
  forall consumes buflen f rest,
    fst (receive consumes buflen (map Pkt (frame_packets f) ++ rest)) = RGot f <-> fits buflen (length f).
Proof.
  intros c B f rest. split.
  - intros H. destruct (le_lt_dec (length f) B) as [L|L].
    + split; auto. intros [E Z]. destruct (receive_not_fits c B f rest) as (r & E' & _).
      * intros [_ N]. auto.
      * rewrite E' in H. discriminate.
    + destruct (receive_not_fits c B f rest) as (r & E' & _).
      * intros [A _]. lia.
      * rewrite E' in H. discriminate.
  - intros F. now rewrite receive_fits.
Qed.
Print Assumptions C19_accepted_iff_partial.

Theorem C19_accepted_refuted :
  exists buflen f, length f <= buflen /\
    forall consumes, fst (receive consumes buflen (map Pkt (frame_packets f))) = RTooLarge.
Proof.
  exists 128, (x_msg 128). split; [vm_compute; lia|]. intros []; vm_compute; reflexivity.
Qed.
Print Assumptions C19_accepted_refuted.

(** ** C52 Send timeout *)
Theorem C52_timeout :
  forall len setting, (len <= 4194304)%N ->
    let per := clamp_timeout setting in
    (1 <= per <= 60000)%N /\ ((1 <= setting <= 60000)%N -> per = setting) /\
    exists packets,
      send_timeout 4294967295 len per = Some (packets * per)%N /\
      (64 * packets < len + 64 /\ len <= 64 * packets)%N /\
      (0 < len -> 0 < packets * per)%N.
Proof.
  intros len setting H per. assert (P : (1 <= per <= 60000)%N) by (unfold per, clamp_timeout; lia).
  split; auto. split; [intros; unfold per, clamp_timeout; lia|].
  clearbody per.   exists ((len + 63) / 64)%N. unfold send_timeout.
  assert (D : (64 * ((len + 63) / 64) <= len + 63 < 64 * ((len + 63) / 64) + 64)%N).
  { clear. set (a := (len + 63)%N). pose proof (N.div_mod a 64 ltac:(discriminate)) as A.
    pose proof (N.mod_lt a 64 ltac:(discriminate)) as B. set (x := (a / 64)%N) in *. set (y := (a mod 64)%N) in *. clearbody a x y. lia. }
  set (q := ((len + 63) / 64)%N) in *.
  assert (Q : (q <= 65536)%N) by lia.
  assert (QP : (q * per <= 65536 * 60000)%N) by (apply N.mul_le_mono; lia).
  destruct (N.ltb_spec 4294967295 (len + 63)); [lia|].
  destruct (N.ltb_spec 4294967295 (q * per)); [lia|].
  split; auto. split; [lia|]. intros L. apply N.mul_pos_pos; lia.
Qed.
Print Assumptions C52_timeout.
Example C52_nontrivial :
  send_timeout 4294967295 120 (clamp_timeout 2) = Some 4%N /\ send_timeout 4294967295 4194304 (clamp_timeout 99999) = Some 3932160000%N.
Proof. split; reflexivity. Qed.
(** The number of packets is exactly the number of data packets sent. *)
Theorem C52_counts_packets :
  forall m, length (chunks 64 m) = (length m + 63) / 64.
Proof.
  intros m. pose proof (chunks_packed m) as P. induction P as [|l H1 H2|c l chs Hc P IH].
  - reflexivity.
  - cbn [length]. apply (Nat.div_unique _ _ 1 (length l - 1)); lia.
  - cbn [length]. rewrite IH, app_length, Hc.
    replace (64 + length l + 63) with (length l + 63 + 1 * 64) by lia. rewrite Nat.div_add by lia. lia.
Qed.
Print Assumptions C52_counts_packets.

(** ** C54 The nusb host's 1024 byte requests *)

(** Messages up to 1024 bytes arrive as one transfer each; after one of exactly
    1024 bytes comes an empty one. *)
Theorem C54_up_to_1024 :
  forall msgs, Forall (fun m => m <> [] /\ length m <= 1024) msgs ->
    host_in 1024 [] (fst (fst (send_seq false (map (fun m => (m, [])) msgs)))) =
    (flat_map (fun m => if length m =? 1024 then [m; []] else [m]) msgs, []).
Proof.
  intros msgs F. induction msgs as [|m msgs IH]; cbn [map send_seq flat_map]; [reflexivity|].
  inversion F as [|? ? [Ne L] F']; subst. specialize (IH F'). rewrite send_all_done by auto.
  destruct (send_seq false (map (fun m => (m, [])) msgs)) as [[w p] rs]. cbn [fst] in *.
  rewrite host_in_app, (host_in_frame 1024 m _ (chunks_packed m) []) by (cbn [length]; lia). rewrite IH.
  cbn [length Nat.add app]. destruct (Nat.eqb_spec (length m) 1024) as [E|E].
  - rewrite E. reflexivity.
  - reflexivity.
Qed.
Print Assumptions C54_up_to_1024.

(** A longer message never arrives whole: the first transfer is its first 1024
    bytes. *)
Theorem C54_longer_is_split :
  forall m, 1024 < length m ->
    exists ts r, host_in 1024 [] (fst (fst (send_all m false []))) = (firstn 1024 m :: ts, r).
Proof.
  intros m L. rewrite send_all_done by (destruct m; [cbn in L; lia|discriminate]). cbn [fst].
  apply (host_in_long 1024 m _ (chunks_packed m) []); cbn [length]; auto; lia.
Qed.
Print Assumptions C54_longer_is_split.
Example C54_nontrivial :
  host_in 1024 [] (fst (fst (send_seq false (map (fun m => (m, [])) [x_msg 10; x_msg 1024; x_msg 64])))) =
   ([x_msg 10; x_msg 1024; []; x_msg 64], []).
Proof. vm_compute. reflexivity. Qed.
