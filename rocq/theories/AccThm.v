(** Property theorems C20–C24 and C56: COBS, the accumulator, and the serial
    transport. *)
From Coq Require Import NArith List Bool Arith Lia.
From Verif Require Import KeyModel HeaderModel HeaderSpec HeaderProof CobsModel AccModel CobsProof AccProof.
Import ListNotations.
Local Open Scope N_scope.

(** ** C20 *)

(** No zero byte in the encoding of a message; at most one byte of overhead per
    254 bytes, plus one; and decoding in place, with or without a terminator and
    whatever follows it, gives back the message. *)
Theorem C20_round_trip :
  forall on_empty on_full m,
    let e := encode on_empty on_full m in
    ~ In 0 e /\
    (length m <= length e <= length m + length m / 254 + 1)%nat /\
    (forall after, after = [] \/ (exists r, after = 0 :: r) ->
     exists buf, decode_in_place (e ++ after) = (buf, Some (length m)) /\
       length buf = length (e ++ after) /\ firstn (length m) buf = m).
Proof.
  intros oe of_ m e.
  assert (D : forall after, after = [] \/ (exists r, after = 0 :: r) ->
     exists buf, decode_in_place (e ++ after) = (buf, Some (length m)) /\
       length buf = length (e ++ after) /\ firstn (length m) buf = m).
  { intros after Ha. pose proof (decode_in_place_spec e after (encode_nz oe of_ m) Ha) as D.
    destruct (decode_in_place (e ++ after)) as [buf r]. unfold e in D. rewrite encode_decode in D.
    destruct D as [L [-> F]]. exists buf. auto. }
  split; [|split; [split|exact D]].
  - intros H. pose proof (encode_nz oe of_ m) as Z. unfold nz in Z. rewrite Forall_forall in Z. now apply (Z 0).
  - destruct (D [] (or_introl eq_refl)) as (buf & _ & L & F). rewrite app_nil_r in L. rewrite <- L.
    assert (X := firstn_length (length m) buf). rewrite F in X. lia.
  - apply encode_len.
Qed.
Print Assumptions C20_round_trip.

(** Encoded bytes are bytes, so they can be put on the wire. *)
Theorem C20_bytes :
  forall on_empty on_full m, Forall (fun b => b < 256) m -> Forall (fun b => b < 256) (encode on_empty on_full m).
Proof.
  intros oe of_ m H. destruct m; [destruct oe; repeat constructor|]. apply encode_from_byte; auto. cbn; lia.
Qed.
Print Assumptions C20_bytes.

Example C20_nontrivial :
  encode false false [0; 7; 0; 0; 9] = [1; 2; 7; 1; 2; 9] /\
  length (encode false false (repeat 5 254)) = 255%nat /\
  length (encode false true (repeat 5 254)) = 256%nat /\
  length (encode false false (repeat 5 255)) = 257%nat.
Proof. repeat split; vm_compute; reflexivity. Qed.

(** ** C21 *)

(** The bytes on the line for a list of messages. *)
Definition line (oe of_ : bool) (msgs : list (list N)) : list N :=
  concat (map (fun m => encode oe of_ m ++ [0]) msgs).
Definition fits_all (oe of_ : bool) (size : nat) (msgs : list (list N)) : Prop :=
  Forall (fun m => (length (encode oe of_ m) + 1 <= size)%nat) msgs.

Lemma line_frames oe of_ msgs : line oe of_ msgs = frame_bytes (map (encode oe of_) msgs).
Proof. unfold line, frame_bytes. now rewrite map_map. Qed.
Lemma all_nz oe of_ msgs : Forall nz (map (encode oe of_) msgs).
Proof. apply Forall_forall. intros e H. apply in_map_iff in H. destruct H as (m & <- & _). apply encode_nz. Qed.
Lemma all_fit oe of_ size msgs : fits_all oe of_ size msgs -> Forall (fun e => (length e + 1 <= size)%nat) (map (encode oe of_) msgs).
Proof. intros F. rewrite Forall_map. exact F. Qed.
Lemma decoded_msgs oe of_ msgs : map decoded (map (encode oe of_) msgs) = map FData msgs.
Proof. rewrite map_map. apply map_ext. intros. apply decoded_encode. Qed.

(** However the stream of frames is chopped, and wherever it is cut off, the
    accumulator delivers exactly the messages whose terminator has arrived. *)
Theorem C21_any_chunking :
  forall oe of_ size msgs chunks tail,
    (1 <= size)%nat -> fits_all oe of_ size msgs ->
    ~ In 0 tail -> (length tail <= size)%nat ->
    concat chunks = line oe of_ msgs ++ tail ->
    exists a, feed_chunks (acc_new size) chunks = Some (map FData msgs, a) /\
      acc_idx a = length tail /\ firstn (acc_idx a) (acc_buf a) = tail.
Proof.
  intros oe of_ size msgs chunks tail Hs Hf Ht Lt E.
  assert (Zt : nz tail) by (apply Forall_forall; intros b Hb ->; auto).
  destruct (feed_chunks_feeds size Hs chunks _ _ (acc_new_ok size)) as (evs & a & p & F & A & FC).
  rewrite line_frames in E.
  pose proof (feeds_chunks_frames size chunks (map (encode oe of_) msgs) [] tail (all_nz _ _ _) (all_fit _ _ _ _ Hf)
    ltac:(constructor) Zt Lt E) as G.
  destruct (feeds_chunks_fun _ _ _ _ _ FC _ _ G) as [-> ->]. rewrite decoded_msgs in F. exists a. split; auto.
  destruct A as (_ & I & _ & P & _). rewrite I. auto.
Qed.
Print Assumptions C21_any_chunking.

Example C21_nontrivial :
  fits_all false false 8 [[1; 0; 2]; []; [0; 0; 7; 7; 7]] /\
  concat [[2; 1]; []; [2; 2; 0; 0; 1]; [1; 4; 7; 7; 7; 0; 3]; [3]] =
    line false false [[1; 0; 2]; []; [0; 0; 7; 7; 7]] ++ [3; 3] /\
  option_map fst (feed_chunks (acc_new 8) [[2; 1]; []; [2; 2; 0; 0; 1]; [1; 4; 7; 7; 7; 0; 3]; [3]]) =
    Some [FData [1; 0; 2]; FData []; FData [0; 0; 7; 7; 7]].
Proof. split; [repeat constructor|split; vm_compute; reflexivity]. Qed.

(** ** C22 *)

(** Feeding never panics and the re-feeding loop always ends. *)
Theorem C22_total :
  forall size chunks, (1 <= size)%nat -> exists evs a, feed_chunks (acc_new size) chunks = Some (evs, a).
Proof.
  intros size chunks Hs. destruct (feed_chunks_feeds size Hs chunks _ _ (acc_new_ok size)) as (evs & a & p & F & _). eauto.
Qed.
Print Assumptions C22_total.

(** Each single feed makes progress: it uses up the input, or leaves strictly
    less of it, or empties a non-empty accumulator. *)
Theorem C22_progress :
  forall size chunks evs a input, (1 <= size)%nat ->
    feed_chunks (acc_new size) chunks = Some (evs, a) -> input <> [] ->
    exists r a', feed_ref a input = Done (r, a') /\
      match r with
      | Consumed => True
      | OverFull rest => (length rest < length input)%nat \/ (rest = input /\ (0 < acc_idx a)%nat /\ acc_idx a' = 0%nat)
      | DeserError rest | Success _ rest => (length rest < length input)%nat
      end.
Proof.
  intros size chunks evs a w Hs F Hw. destruct (feed_chunks_feeds size Hs chunks _ _ (acc_new_ok size)) as (evs' & a0 & p & F' & A & _).
  rewrite F in F'. injection F' as <- <-.
  destruct (zero_pos w) as [n|] eqn:Z.
  - destruct (zero_pos_some _ _ Z) as (x & r & -> & Hx & ->).
    assert (L : (length r < length (x ++ 0%N :: r))%nat) by (rewrite app_length; cbn; lia).
    destruct (le_lt_dec (length p + length x + 1) size) as [G|G].
    + destruct (feed_frame size a p x r A Hx G) as (a1 & E & _). rewrite E. eexists _, _. split; [reflexivity|].
      destruct (decode (p ++ x)); auto.
    + destruct (feed_frame_over size a p x r A Hx G) as (a1 & E & _). rewrite E. eexists _, _. split; [reflexivity|]. left. exact L.
  - apply zero_pos_none in Z. destruct (le_lt_dec (length p + length w) size) as [G|G].
    + destruct (feed_part size a p w A Hw Z G) as (a1 & E & _). rewrite E. eexists _, _. split; [reflexivity|exact I].
    + destruct (feed_over size a p w A Hw Z G) as (a1 & E & A1). rewrite E. eexists _, _. split; [reflexivity|].
      cbn beta iota. destruct A as (_ & Ii & Hp & _). destruct A1 as (_ & Ii1 & _).
      destruct (Nat.eq_dec (length p) size) as [Hq|Hq].
      * right. rewrite Hq, Nat.sub_diag, skipn_O, Ii, Ii1, Hq. repeat split; auto.
      * left. rewrite skipn_length. destruct w; [congruence|]. cbn [length]. lia.
Qed.
Print Assumptions C22_progress.

(** A terminator anywhere, after arbitrary bytes chopped in any way: the frames
    after it are delivered intact, the accumulator ends up empty, and what the
    bytes before yield does not depend on what follows. *)
Theorem C22_resynchronises :
  forall oe of_ size garbage msgs chunks,
    (1 <= size)%nat -> fits_all oe of_ size msgs ->
    concat chunks = garbage ++ 0 :: line oe of_ msgs ->
    exists before a a0,
      feed_chunks (acc_new size) chunks = Some (before ++ map FData msgs, a) /\ acc_idx a = 0%nat /\
      feed_chunks (acc_new size) (cut (length garbage + 1) chunks) = Some (before, a0) /\ acc_idx a0 = 0%nat.
Proof.
  intros oe of_ size g msgs chunks Hs Hf E.
  destruct (feed_chunks_feeds size Hs chunks _ _ (acc_new_ok size)) as (evs & a & p & F & A & FC).
  destruct (feeds_chunks_cut size chunks _ _ _ _ _ FC E) as (e1 & e2 & -> & F1 & F2).
  assert (R : concat (cut_rest (length g + 1) chunks) = line oe of_ msgs).
  { rewrite cut_rest_concat, E. destruct (take_to_zero g (line oe of_ msgs)) as [_ ->]. reflexivity. }
  rewrite line_frames in R.
  pose proof (feeds_chunks_frames size (cut_rest (length g + 1) chunks) (map (encode oe of_) msgs) [] [] (all_nz _ _ _)
    (all_fit _ _ _ _ Hf) ltac:(constructor) ltac:(constructor) ltac:(cbn; lia)) as G.
  rewrite app_nil_r in G. specialize (G R). destruct (feeds_chunks_fun _ _ _ _ _ F2 _ _ G) as [-> ->]. rewrite decoded_msgs in F.
  destruct (feed_chunks_feeds size Hs (cut (length g + 1) chunks) _ _ (acc_new_ok size)) as (ev0 & a0 & p0 & F0 & A0 & FC0).
  destruct (feeds_chunks_fun _ _ _ _ _ FC0 _ _ F1) as [-> ->].
  exists e1, a, a0. destruct A as (_ & Ia & _), A0 as (_ & Ia0 & _). auto.
Qed.
Print Assumptions C22_resynchronises.

Example C22_nontrivial :
  let garbage := [9; 1; 1; 1; 1; 1; 0; 5; 5] in
  concat [[9; 1; 1]; [1; 1; 1; 0; 5]; [5; 0; 2; 4; 0]] = garbage ++ 0 :: line false false [[4]] /\
  option_map fst (feed_chunks (acc_new 4) [[9; 1; 1]; [1; 1; 1; 0; 5]; [5; 0; 2; 4; 0]]) =
    Some [FOverFull; FBad; FData [4]].
Proof. split; vm_compute; reflexivity. Qed.

(** A buffer of size zero would make the re-feeding loop spin forever: the size
    hypothesis is needed. *)
Theorem C22_size_zero_spins : forall fuel b, b <> 0 -> feed_window fuel (acc_new 0) [b] = None.
Proof.
  intros fuel b Hb. assert (Z : (b =? 0) = false) by (now apply N.eqb_neq).
  induction fuel as [|fuel IH]; [reflexivity|].
  rewrite fw_S by discriminate. unfold feed_ref, acc_new. cbn [acc_buf acc_idx repeat length zero_pos].
  rewrite Z. cbn [option_map]. change (0 <? 0 + 1)%nat with true. cbn [negb andb Nat.ltb Nat.leb Nat.sub skipn].
  unfold acc_new in IH. cbn [repeat] in IH. rewrite IH. reflexivity.
Qed.
Print Assumptions C22_size_zero_spins.

(** ** C23 *)

(** Full claim: a frame too long for the buffer never surfaces.  False: when a
    chunk without terminator overflows, the bytes after the overflow count as a
    new frame, and the end of the oversized frame is delivered as a message.
    Here: 1100 zero bytes sent over the serial transport, received in three
    reads; a message of 76 zero bytes appears. *)
Theorem C23_oversized_surfaces_refuted :
  exists m chunks data,
    concat chunks = serial_send false false m /\ (1024 < length (serial_send false false m))%nat /\
    Forall (fun c => (length c <= 1024)%nat) chunks /\
    option_map fst (feed_chunks (acc_new 1024) chunks) = Some [FOverFull; FData data] /\
    data <> m /\ length data = 76%nat /\
    fst (serial_recvs 2 serial_new (map ReadBytes chunks)) = [data].
Proof.
  exists (repeat 0 1100), [repeat 1 1000; repeat 1 90; repeat 1 11 ++ [0]], (repeat 0 76).
  split; [vm_compute; reflexivity|]. split; [vm_compute; lia|].
  split; [repeat constructor; vm_compute; lia|].
  split; [vm_compute; reflexivity|]. split; [discriminate|]. split; vm_compute; reflexivity.
Qed.
Print Assumptions C23_oversized_surfaces_refuted.

(** What holds: if the bytes received before the chunk with the terminator still
    fit the buffer, the oversized frame is reported once and nothing of it is
    delivered; the frames after it are unaffected.  (Missing: chunks without
    terminator that overflow the buffer, see above.) *)
Theorem C23_oversized_dropped_partial :
  forall oe of_ size e before last msgs rest,
    (1 <= size)%nat -> ~ In 0 e -> (size < length e + 1)%nat ->
    concat before ++ last = e -> (length (concat before) <= size)%nat ->
    fits_all oe of_ size msgs -> concat rest = line oe of_ msgs ->
    exists a, feed_chunks (acc_new size) (before ++ (last ++ [0]) :: rest) = Some (FOverFull :: map FData msgs, a).
Proof.
  intros oe of_ size e before last msgs rest Hs Hz Hl E Hb Hf Hr.
  assert (Ze : nz e) by (apply Forall_forall; intros b Hb' ->; auto). rewrite <- E in Ze. apply Forall_app in Ze. destruct Ze as [Z1 Z2].
  assert (B : feeds_chunks size [] before [] (concat before)).
  { apply (feeds_chunks_frames size before [] [] (concat before)); auto; constructor. }
  assert (T : feeds_chunks size (concat before) ((last ++ [0]) :: rest) ([FOverFull] ++ map FData msgs) []).
  { econstructor.
    - apply fd_frame_over; [exact Z2| |constructor]. rewrite <- E, app_length in Hl. lia.
    - rewrite <- (decoded_msgs oe of_). rewrite line_frames in Hr. apply feeds_chunks_frames; auto using all_nz, all_fit;
        try constructor; [cbn; lia|]. rewrite app_nil_r. exact Hr. }
  assert (FC : feeds_chunks size [] (before ++ (last ++ [0]) :: rest) (FOverFull :: map FData msgs) []).
  { exact (feeds_chunks_app _ _ _ _ _ _ _ _ B T). }
  destruct (feed_chunks_feeds size Hs (before ++ (last ++ [0]) :: rest) _ _ (acc_new_ok size)) as (evs & a & p & F & A & FC').
  destruct (feeds_chunks_fun _ _ _ _ _ FC' _ _ FC) as [-> _]. eauto.
Qed.
Print Assumptions C23_oversized_dropped_partial.

Example C23_nontrivial :
  concat [[1; 2]; [3; 4]] ++ [5; 6] = [1; 2; 3; 4; 5; 6] /\
  option_map fst (feed_chunks (acc_new 4) ([[1; 2]; [3; 4]] ++ ([5; 6] ++ [0]) :: [[2]; [9; 0]])) = Some [FOverFull; FData [9]].
Proof. split; vm_compute; reflexivity. Qed.

(** Whatever arrives, an oversized frame is noticed: if more bytes than the
    buffer holds come without a terminator, an overflow is reported. *)
Theorem C23_overflow_reported_partial :
  forall size e chunks, (1 <= size)%nat -> ~ In 0 e -> (size < length e + 1)%nat ->
    concat chunks = e ++ [0] ->
    exists evs a, feed_chunks (acc_new size) chunks = Some (evs, a) /\ In FOverFull evs.
Proof.
  intros size e chunks Hs Hz Hl E.
  assert (Ze : nz e) by (apply Forall_forall; intros b Hb' ->; auto).
  destruct (feed_chunks_feeds size Hs chunks _ _ (acc_new_ok size)) as (evs & a & p & F & A & FC).
  exists evs, a. split; auto. clear F A a.
  assert (G : forall cs p0 evs p1, feeds_chunks size p0 cs evs p1 -> nz p0 -> (length p0 <= size)%nat ->
     forall x, p0 ++ concat cs = x ++ [0] -> nz x -> (size < length x + 1)%nat -> In FOverFull evs).
  { clear. induction cs as [|c cs IH]; intros p0 evs p1 FC Z0 L0 x E Zx Lx.
    - cbn in E. rewrite app_nil_r in E. exfalso. eapply (nz_no_zero x []); [exact Z0|exact E].
    - inversion FC as [|? ? ? e1 q1 e2 q2 Fd FC']; subst. cbn [concat] in E. apply in_or_app.
      destruct Fd as [q|q c Hc Z L|q c evs1 q' Hc Z L F|q y r evs1 q' Hy L F|q y r evs1 q' Hy L F].
      + right. eapply IH; eauto.
      + right. refine (IH (q ++ c) _ _ FC' _ _ x _ Zx Lx); [now apply nz_app|rewrite app_length; lia|]. rewrite <- app_assoc. exact E.
      + left. now left.
      + (* the terminator came while everything fitted *)
        exfalso. rewrite <- app_assoc in E. rewrite app_assoc in E.
        assert (X : x = q ++ y /\ [] = r ++ concat cs).
        { apply nz_split; [exact Zx|now apply nz_app|]. rewrite <- app_assoc in E |- *. symmetry. exact E. }
        destruct X as [-> _]. rewrite app_length in Lx. lia.
      + left. now left. }
  refine (G chunks [] evs p FC _ _ e E Ze Hl); [constructor|cbn; lia].
Qed.
Print Assumptions C23_overflow_reported_partial.

(** ** C24 *)

(** Full claim: every frame with a valid header that fits is received.  False:
    the receiver drops frames of fewer than nine bytes, such as the reply to a
    ping from a server using one-byte keys. *)
Theorem C24_short_frame_lost_refuted :
  exists h body frame,
    header_ok h /\ frame = write_to_vec h ++ body /\
    take_from_slice frame = Done (Some (h, body)) /\
    (length (serial_send false false frame) <= 1024)%nat /\
    forall n, serial_recvs n serial_new [ReadBytes (serial_send false false frame)] = ([], SWaiting).
Proof.
  exists (MkHeader (VKey1 (K1 7)) (Seq4 3)), [42], [32; 7; 3; 0; 0; 0; 42].
  split; [vm_compute; repeat split; auto|]. split; [vm_compute; reflexivity|]. split; [vm_compute; reflexivity|].
  split; [vm_compute; lia|]. intros [|n]; vm_compute; reflexivity.
Qed.
Print Assumptions C24_short_frame_lost_refuted.

(** What holds: every frame of at least nine bytes that fits is received, once
    and in order, however the bytes are chopped into reads; then the receiver
    waits.  (Missing: frames of fewer than nine bytes.) *)
Theorem C24_delivered_partial :
  forall oe of_ frames reads n,
    Forall (fun f => (9 <= length f)%nat) frames ->
    Forall (fun f => (length (serial_send oe of_ f) <= 1024)%nat) frames ->
    concat reads = concat (map (serial_send oe of_) frames) ->
    (length frames < n)%nat ->
    serial_recvs n serial_new (map ReadBytes reads) = (frames, SWaiting).
Proof.
  intros oe of_ frames reads n H9 Hf E Hn.
  assert (Hfit : fits_all oe of_ 1024 frames).
  { eapply Forall_impl; [|exact Hf]. intros f. cbv beta. unfold serial_send. rewrite app_length. cbn. lia. }
  assert (FC : feeds_chunks 1024 [] reads (map FData frames) []).
  { rewrite <- (decoded_msgs oe of_). apply feeds_chunks_frames; auto using all_nz, all_fit; try constructor; [cbn; lia|].
    rewrite app_nil_r, <- line_frames. exact E. }
  assert (K : keep_messages (map FData frames) = frames).
  { clear -H9. induction H9 as [|f frames Hf F IH]; auto. cbn [map]. unfold keep_messages in *. cbn [flat_map].
    replace (9 <=? length f)%nat with true by (symmetry; apply Nat.leb_le; auto). cbn [app]. now rewrite IH. }
  pose proof (serial_recvs_feeds reads serial_new [] _ _ n (acc_new_ok 1024) FC) as R. rewrite K in R.
  apply R. exact Hn.
Qed.
Print Assumptions C24_delivered_partial.

(** In particular all frames with an eight-byte key, or a four-byte key and a
    four-byte sequence number, and up to 1018 bytes long. *)
Theorem C24_wide_headers_partial :
  forall oe of_ (frames : list (VarHeader * list N)) reads n,
    Forall (fun f => header_ok (fst f) /\
                     (varkey_kind (hdr_key (fst f)) = KK8 \/
                      (varkey_kind (hdr_key (fst f)) = KK4 /\ exists s, hdr_seq (fst f) = Seq4 s)) /\
                     (length (write_to_vec (fst f) ++ snd f) <= 1018)%nat) frames ->
    concat reads = concat (map (fun f => serial_send oe of_ (write_to_vec (fst f) ++ snd f)) frames) ->
    (length frames < n)%nat ->
    serial_recvs n serial_new (map ReadBytes reads) =
      (map (fun f => write_to_vec (fst f) ++ snd f) frames, SWaiting).
Proof.
  intros oe of_ frames reads n H E Hn. eapply (C24_delivered_partial oe of_).
  - rewrite Forall_map. eapply Forall_impl; [|exact H]. intros [[k s] b] (_ & K & _). cbn [fst snd hdr_key hdr_seq] in *.
    rewrite app_length. rewrite write_to_vec_len. unfold header_len. cbn [hdr_key hdr_seq].
    destruct K as [K|[K [q ->]]]; destruct k as [[]|[]|[]|[]]; try discriminate K.
    + destruct s; vm_compute; lia.
    + vm_compute. lia.
  - rewrite Forall_map. eapply Forall_impl; [|exact H]. intros [h b] (_ & _ & L). cbn [fst snd] in *.
    unfold serial_send. rewrite app_length. set (m := write_to_vec h ++ b) in *. pose proof (encode_len oe of_ m) as X. cbn [length].
    assert (D : (length m / 254 <= 1018 / 254)%nat) by (apply Nat.div_le_mono; lia). change (1018 / 254)%nat with 4%nat in D. lia.
  - rewrite map_map. exact E.
  - rewrite map_length. exact Hn.
Qed.
Print Assumptions C24_wide_headers_partial.

Example C24_nontrivial :
  let f1 := [176; 1; 2; 3; 4; 5; 6; 7; 8; 0; 0; 42] in
  let f2 := [112; 0; 0; 0; 0; 9; 0; 0; 0] in
  serial_recvs 3 serial_new (map ReadBytes
    [[10; 176; 1; 2; 3; 4; 5]; [6; 7; 8; 1; 2; 42; 0; 2; 112]; [1; 1; 1; 2; 9; 1; 1; 1; 0]]) = ([f1; f2], SWaiting) /\
  concat [[10; 176; 1; 2; 3; 4; 5]; [6; 7; 8; 1; 2; 42; 0; 2; 112]; [1; 1; 1; 2; 9; 1; 1; 1; 0]] =
  concat (map (serial_send false false) [f1; f2]).
Proof. split; vm_compute; reflexivity. Qed.

(** ** C56 *)

(** Full claim: a closed port is reported by [receive].  False: at end of file
    reads return no bytes, and the receiver retries forever. *)
Theorem C56_end_of_file_spins_refuted :
  forall n, serial_recv serial_new (repeat (ReadBytes []) n) = (SWaiting, serial_new, []).
Proof. intros n. unfold serial_new. induction n as [|n IH]; [reflexivity|]. exact IH. Qed.
Print Assumptions C56_end_of_file_spins_refuted.

(** What holds: a read error is reported, after the messages that arrived before
    it. *)
Theorem C56_read_error_partial :
  forall oe of_ frames reads later n,
    Forall (fun f => (9 <= length f)%nat) frames ->
    Forall (fun f => (length (serial_send oe of_ f) <= 1024)%nat) frames ->
    concat reads = concat (map (serial_send oe of_) frames) ->
    (length frames < n)%nat ->
    serial_recvs n serial_new (map ReadBytes reads ++ ReadError :: later) = (frames, SError).
Proof.
  intros oe of_ frames reads later n H9 Hf E Hn.
  pose proof (C24_delivered_partial oe of_ frames reads n H9 Hf E Hn) as D.
  assert (G : forall n s rs ds, serial_recvs n s rs = (ds, SWaiting) -> (length ds < n)%nat ->
            serial_recvs n s (rs ++ ReadError :: later) = (ds, SError)).
  { assert (One : forall rs s r s' rs', serial_recv s rs = (r, s', rs') ->
       match r with
       | SWaiting => exists s2, serial_recv s (rs ++ ReadError :: later) = (SError, s2, later)
       | _ => serial_recv s (rs ++ ReadError :: later) = (r, s', rs' ++ ReadError :: later)
       end).
    { induction rs as [|x rs IH]; intros [a pend] r s' rs' Hr; cbn [serial_recv srx_pending app] in *.
      - destruct pend as [|m pend]; injection Hr as <- <- <-; cbn [app]; eauto.
      - destruct pend as [|m pend]; [|injection Hr as <- <- <-; reflexivity].
        destruct x as [bs|]; [|injection Hr as <- <- <-; reflexivity].
        destruct (feed_all (srx_acc (MkSerial a [])) bs) as [[evs a']|]; [|injection Hr as <- <- <-; reflexivity].
        apply IH. exact Hr. }
    clear -One. induction n as [|n IH]; intros s rs ds H L; [lia|]. cbn [serial_recvs] in *.
    destruct (serial_recv s rs) as [[r s'] rs'] eqn:R. pose proof (One _ _ _ _ _ R) as O. destruct r.
    - rewrite O. destruct (serial_recvs n s' rs') as [ds' r'] eqn:R'. injection H as <- ->. cbn in L.
      rewrite (IH s' rs' ds' R') by lia. reflexivity.
    - discriminate.
    - destruct O as [s2 ->]. injection H as <-. reflexivity.
    - discriminate. }
  apply G; auto.
Qed.
Print Assumptions C56_read_error_partial.

Example C56_nontrivial :
  serial_recvs 3 serial_new [ReadBytes [10; 1; 2; 3; 4; 5; 6; 7; 8; 9]; ReadBytes []; ReadBytes [0; 3]; ReadError] =
  ([[1; 2; 3; 4; 5; 6; 7; 8; 9]], SError).
Proof. vm_compute; reflexivity. Qed.
