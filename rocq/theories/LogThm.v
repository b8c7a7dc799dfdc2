(** Property theorems C45–C47 and C57: how the USB server prepares messages and
    logs. *)
From Coq Require Import NArith List Bool Arith Lia.
From Verif Require Import KeyModel HeaderModel KeySpec HeaderSpec KeyProof HeaderProof PostcardModel PostcardProof
  DispatchModel DispatchProof LogModel.
Import ListNotations.
Local Open Scope N_scope.

(** ** Sending messages *)
Lemma usb_send_eq tx_buf h body :
  usb_send tx_buf h body =
  if (header_len h + length body <=? length tx_buf)%nat then Transmit (write_to_vec h ++ body) else RefusedOther.
Proof.
  unfold usb_send. rewrite write_to_slice_eq. unfold to_slice.
  destruct (Nat.leb_spec (header_len h) (length tx_buf)) as [L|L].
  - rewrite skipn_length.
    destruct (Nat.leb_spec (length body) (length tx_buf - header_len h)) as [L2|L2].
    + replace (header_len h + length body <=? length tx_buf)%nat with true by (symmetry; apply Nat.leb_le; lia).
      rewrite !app_length, write_to_vec_len. rewrite skipn_length, skipn_length.
      replace (_ <=? _)%nat with true by (symmetry; apply Nat.leb_le; lia).
      f_equal. rewrite app_assoc. rewrite firstn_app.
      rewrite app_length, write_to_vec_len, Nat.sub_diag, firstn_O, app_nil_r.
      apply firstn_all2. rewrite app_length, write_to_vec_len. lia.
    + replace (header_len h + length body <=? length tx_buf)%nat with false by (symmetry; apply Nat.leb_gt; lia). reflexivity.
  - replace (header_len h + length body <=? length tx_buf)%nat with false by (symmetry; apply Nat.leb_gt; lia). reflexivity.
Qed.

(** ** C57 *)

(** Whatever stale bytes the transmit buffer holds: a message that fits is
    transmitted as exactly its header and its body, from which the receiver gets
    both back; one that does not fit is refused and nothing is transmitted. *)
Theorem C57_send_exact :
  forall tx_buf h body, header_ok h ->
    let need := (1 + length (varkey_bytes (hdr_key h)) + slen (hdr_seq h) + length body)%nat in
    ((need <= length tx_buf)%nat ->
       exists f, usb_send tx_buf h body = Transmit f /\ length f = need /\
         take_from_slice f = Done (Some (h, body))) /\
    ((length tx_buf < need)%nat -> usb_send tx_buf h body = RefusedOther).
Proof.
  intros tx_buf h body Hh need. rewrite usb_send_eq. unfold need. change (1 + length (varkey_bytes (hdr_key h)) + slen (hdr_seq h))%nat with (header_len h).
  split; intros H.
  - replace (header_len h + length body <=? length tx_buf)%nat with true by (symmetry; apply Nat.leb_le; lia).
    eexists; split; [reflexivity|]. rewrite app_length, write_to_vec_len. split; [reflexivity|]. now apply take_write.
  - replace (header_len h + length body <=? length tx_buf)%nat with false by (symmetry; apply Nat.leb_gt; lia). reflexivity.
Qed.
Print Assumptions C57_send_exact.

Example C57_nontrivial :
  usb_send (repeat 255 8) (MkHeader (VKey2 (K2 1 2)) (Seq1 9)) [5; 6; 7] = Transmit [64; 1; 2; 9; 5; 6; 7] /\
  usb_send (repeat 255 6) (MkHeader (VKey2 (K2 1 2)) (Seq1 9)) [5; 6; 7] = RefusedOther.
Proof. split; vm_compute; reflexivity. Qed.

(** ** Varints *)
Lemma pad_dec last r n : forall m i, (1 <= n <= m)%nat -> varint_dec m i last (len_field_init n ++ r) = Some (0, r).
Proof.
  induction n as [|n IH]; intros m i H; [lia|]. destruct m as [|m]; [lia|].
  destruct n as [|n].
  - cbn. destruct m; [|reflexivity]. destruct (last <? 0) eqn:E; [apply N.ltb_lt in E; lia|reflexivity].
  - change (len_field_init (S (S n))) with (128 :: len_field_init (S n)). cbn [app varint_dec].
    rewrite IH by lia. reflexivity.
Qed.

Lemma mark_last_len l : length (mark_last l) = length l.
Proof. induction l as [|a [|b l] IH]; auto. cbn [mark_last length] in *. now rewrite IH. Qed.

Lemma marked_dec last r k : forall v j m i, (1 <= j)%nat -> (length (varint_enc k v) + j <= m)%nat -> v < 128 ^ N.of_nat k -> (0 < k)%nat ->
  varint_dec m i last (mark_last (varint_enc k v) ++ len_field_init j ++ r) = Some (v * 2 ^ (7 * i), r).
Proof.
  induction k as [|k IH]; intros v j m i Hj Hm Hv Hk; [lia|]. cbn [varint_enc] in *.
  destruct (v <? 128) eqn:E.
  - apply N.ltb_lt in E. cbn [length mark_last app] in *. rewrite N.mod_small by lia.
    destruct (lor_128 v ltac:(lia)) as [[A1 A2] B].
    destruct m as [|m]; [lia|]. cbn [varint_dec].
    replace (N.lor v 128 <? 128) with false by (symmetry; apply N.ltb_ge; lia).
    rewrite pad_dec by lia. rewrite B, (N.mod_small v 128) by lia. f_equal. f_equal. lia.
  - apply N.ltb_ge in E. destruct k as [|k]; [cbn in Hv; lia|].
    set (v' := v / 128) in *.
    assert (NE : varint_enc (S k) v' <> []) by (cbn; destruct (v' <? 128); discriminate).
    remember (varint_enc (S k) v') as t eqn:Ht. destruct t as [|c t]; [congruence|].
    change (mark_last (N.lor (v mod 256) 128 :: c :: t)) with (N.lor (v mod 256) 128 :: mark_last (c :: t)).
    cbn [app]. destruct m as [|m]; [cbn in Hm; lia|]. cbn [varint_dec].
    assert (M : v mod 256 < 256) by (apply N.mod_lt; discriminate).
    destruct (lor_128 (v mod 256) M) as [[A1 A2] B].
    replace (N.lor (v mod 256) 128 <? 128) with false by (symmetry; apply N.ltb_ge; lia).
    rewrite Ht. rewrite IH; auto; [| rewrite <- Ht; cbn [length] in *; lia | | lia].
    + rewrite B. f_equal. f_equal.
      replace (7 * (i + 1)) with (7 * i + 7) by lia. rewrite N.pow_add_r. change (2 ^ 7) with 128.
      replace ((v mod 256) mod 128) with (v mod 128).
      2: { change 256 with (128 * 2). rewrite N.mod_mul_r by discriminate.
           rewrite (N.mul_comm 128 ((v / 128) mod 2)), N.mod_add by discriminate. now rewrite N.mod_mod by discriminate. }
      pose proof (N.div_mod v 128 ltac:(discriminate)) as D. fold v' in D.
      rewrite D at 2. set (x := v mod 128). set (p := 2 ^ (7 * i)). clearbody x p v'. lia.
    + unfold v'. apply N.div_lt_upper_bound; [discriminate|].
      rewrite Nnat.Nat2N.inj_succ in Hv. rewrite N.pow_succ_r' in Hv. exact Hv.
Qed.

(** Length of a varint. *)
Lemma enc_len_iff k : forall n v, v < 128 ^ N.of_nat k -> (0 < k)%nat -> (1 <= n)%nat ->
  ((length (varint_enc k v) <= n)%nat <-> v < 128 ^ N.of_nat n).
Proof.
  induction k as [|k IH]; intros n v Hv Hk Hn; [lia|]. cbn [varint_enc].
  destruct (v <? 128) eqn:E.
  - apply N.ltb_lt in E. cbn [length]. split; intros _; [|lia].
    destruct n as [|n]; [lia|]. rewrite Nnat.Nat2N.inj_succ, N.pow_succ_r'.
    assert (1 <= 128 ^ N.of_nat n) by (assert (128 ^ N.of_nat n <> 0) by (apply N.pow_nonzero; discriminate); lia).
    lia.
  - apply N.ltb_ge in E. destruct k as [|k]; [cbn in Hv; lia|]. cbn [length].
    assert (Hv' : v / 128 < 128 ^ N.of_nat (S k)).
    { apply N.div_lt_upper_bound; [discriminate|]. rewrite Nnat.Nat2N.inj_succ in Hv. rewrite N.pow_succ_r' in Hv. exact Hv. }
    destruct n as [|n]; [lia|]. destruct n as [|n].
    + change (128 ^ N.of_nat 1) with 128. split; intros H; [|lia].
      pose proof (varint_enc_len (S k) (v / 128) ltac:(lia)). lia.
    + specialize (IH (S n) (v / 128) Hv' ltac:(lia) ltac:(lia)).
      rewrite (Nnat.Nat2N.inj_succ (S n)), N.pow_succ_r'.
      set (P := 128 ^ N.of_nat (S n)) in *.
      assert (X : v / 128 < P <-> v < 128 * P).
      { split; intros H.
        - pose proof (N.div_mod v 128 ltac:(discriminate)). pose proof (N.mod_lt v 128 ltac:(discriminate)).
          set (q := v / 128) in *. set (m := v mod 128) in *. clearbody q m P. nia.
        - apply N.div_lt_upper_bound; [discriminate|exact H]. }
      rewrite <- X, <- IH. cbn [length]. lia.
Qed.

(** A length field of [w] bytes holding [v] decodes to [v]. *)
Definition filled (len_used : list N) (w : nat) : list N :=
  let l := if (length len_used =? w)%nat then len_used else mark_last len_used in
  l ++ skipn (length l) (len_field_init w).

Lemma len_field_len n : length (len_field_init n) = n.
Proof. induction n as [|[|n] IH]; auto. cbn [len_field_init length] in *. now rewrite IH. Qed.
Lemma len_field_skip a : forall n, (a < n)%nat -> skipn a (len_field_init n) = len_field_init (n - a).
Proof.
  induction a as [|a IH]; intros n H; [now rewrite Nat.sub_0_r|].
  destruct n as [|[|n]]; try lia. change (len_field_init (S (S n))) with (128 :: len_field_init (S n)).
  cbn [skipn Nat.sub]. apply IH. lia.
Qed.

Lemma enc_stable k k' : forall v, v < 128 ^ N.of_nat k -> v < 128 ^ N.of_nat k' -> (0 < k)%nat -> (0 < k')%nat -> varint_enc k v = varint_enc k' v.
Proof.
  revert k'. induction k as [|k IH]; intros k' v H H' Hk Hk'; [lia|]. destruct k' as [|k']; [lia|]. cbn [varint_enc].
  destruct (v <? 128) eqn:E; auto. apply N.ltb_ge in E. f_equal.
  destruct k as [|k]; [cbn in H; lia|]. destruct k' as [|k']; [cbn in H'; lia|].
  apply IH; try lia; (apply N.div_lt_upper_bound; [discriminate|]).
  - rewrite Nnat.Nat2N.inj_succ, N.pow_succ_r' in H. exact H.
  - rewrite Nnat.Nat2N.inj_succ, N.pow_succ_r' in H'. exact H'.
Qed.

Lemma filled_dec k v w r : (0 < k <= 10)%nat -> (1 <= w <= 10)%nat -> v < 128 ^ N.of_nat k -> v < 128 ^ N.of_nat w ->
  v < 18446744073709551616 ->
  take_u64 (filled (varint_enc k v) w ++ r) = Some (v, r) /\ length (filled (varint_enc k v) w) = w.
Proof.
  intros Hk Hw Hv Hvw H64.
  assert (L : (length (varint_enc k v) <= w)%nat) by (apply enc_len_iff; auto; lia).
  unfold filled. destruct (Nat.eqb_spec (length (varint_enc k v)) w) as [E|E].
  - rewrite skipn_all2 by (rewrite len_field_len; lia). rewrite app_nil_r. split; auto.
    assert (H128 : v < 128 ^ N.of_nat 10) by (eapply N.lt_le_trans; [exact H64|vm_compute; discriminate]).
    rewrite (enc_stable k 10 v Hv H128) by lia.
    apply take_u64_enc. exact H64.
  - rewrite mark_last_len. rewrite len_field_skip by lia. rewrite <- app_assoc. split.
    + unfold take_u64. rewrite marked_dec; try lia; auto. f_equal. f_equal. cbn. lia.
    + rewrite app_length, mark_last_len, len_field_len. lia.
Qed.

(** ** Formatting *)
(** The text produced before the formatter fails, if it does. *)
Fixpoint produced (args : list Piece) : list N :=
  match args with Text s :: tl => s ++ produced tl | _ => [] end.
Definition no_failure (args : list Piece) : Prop := Forall (fun p => p <> FmtError) args.

Lemma fmt_write_spec args : forall room,
  if (length (produced args) <=? room)%nat
  then exists err, fmt_write room args = Done (produced args, (room - length (produced args))%nat, err) /\
       (no_failure args -> err = false)
  else fmt_write room args = Panicked.
Proof.
  induction args as [|[s|] args IH]; intros room; cbn [produced fmt_write].
  - cbn. rewrite Nat.sub_0_r. eauto.
  - unfold write_str. rewrite app_length. destruct (Nat.leb_spec (length s) room) as [L|L].
    + rewrite Nat.min_l by lia. rewrite Nat.eqb_refl.
      replace (room <? length s)%nat with false by (symmetry; apply Nat.ltb_ge; lia).
      specialize (IH (room - length s)%nat).
      destruct (Nat.leb_spec (length (produced args)) (room - length s)) as [L2|L2].
      * replace (length s + length (produced args) <=? room)%nat with true by (symmetry; apply Nat.leb_le; lia).
        destruct IH as (err & -> & Hn). exists err. split; [f_equal; f_equal; f_equal; lia|].
        intros F. apply Hn. inversion F; auto.
      * replace (length s + length (produced args) <=? room)%nat with false by (symmetry; apply Nat.leb_gt; lia).
        now rewrite IH.
    + rewrite Nat.min_r by lia.
      replace (room =? length s)%nat with false by (symmetry; apply Nat.eqb_neq; lia).
      replace (length s + length (produced args) <=? room)%nat with false by (symmetry; apply Nat.leb_gt; lia).
      reflexivity.
  - cbn. rewrite Nat.sub_0_r. exists true. split; auto. intros F. inversion F; congruence.
Qed.

(** ** Formatted logs *)
Section Fmt.
  Variable usz : nat.
  Hypothesis Husz : usz = 4%nat \/ usz = 8%nat.
  Variable lkey : Key8.

  Lemma vmax : varint_max usz = (if (usz =? 4)%nat then 5 else 10)%nat.
  Proof. destruct Husz as [-> | ->]; reflexivity. Qed.

  (** Width of the length field for [room] bytes after the header. *)
  Definition width (room : N) : nat :=
    if room <? 256 then 1 else if room <? 32768 then 2 else if room <? 4194304 then 3
    else if room <? 536870912 then 4 else if (usz =? 4)%nat then 5 else 10.
  Lemma width_eq room : actual_varint_max_len usz room = width room.
  Proof. unfold actual_varint_max_len, width. rewrite vmax. reflexivity. Qed.
  Lemma width_bounds room : (1 <= width room <= varint_max usz)%nat.
  Proof.
    rewrite vmax. unfold width. destruct Husz as [-> | ->]; cbn [Nat.eqb];
      repeat (match goal with |- context [if ?c then _ else _] => destruct c end); lia.
  Qed.
  Lemma width_room room : (0 < room)%nat -> (width (N.of_nat room) <= room)%nat.
  Proof.
    intros H. unfold width.
    destruct (N.of_nat room <? 256) eqn:E1; [lia|]. apply N.ltb_ge in E1.
    destruct (N.of_nat room <? 32768); [lia|]. destruct (N.of_nat room <? 4194304); [lia|].
    destruct (N.of_nat room <? 536870912); [lia|]. destruct (usz =? 4)%nat; lia.
  Qed.

  (** How much text can be logged with [room] bytes after the header. *)
  Definition capacity (room : nat) (text : nat) : Prop :=
    (0 < room)%nat /\ (width (N.of_nat room) + text <= room)%nat /\ N.of_nat text < 128 ^ N.of_nat (width (N.of_nat room)).

  Definition hlen (kk : VarKeyKind) : nat := (3 + klen kk)%nat.
  Lemma log_header_len kk ctr : header_len (log_header lkey kk ctr) = hlen kk.
  Proof.
    unfold header_len, log_header, hlen. cbn [hdr_key hdr_seq slen]. rewrite const_key_spec.
    unfold vlen. destruct lkey, kk; reflexivity.
  Qed.
  Lemma log_key_shrink kk : const_key kk lkey = shrink_to (VKey8 lkey) kk.
  Proof. apply const_key_spec. Qed.
  Lemma log_header_ok kk ctr : Forall byte_ok (k8_bytes lkey) -> ctr < 65536 -> header_ok (log_header lkey kk ctr).
  Proof.
    intros K C. split; [|exact C]. cbn [log_header hdr_key]. unfold key_ok. rewrite const_key_spec.
    now apply (shrink_key_ok (VKey8 lkey)).
  Qed.

  Lemma send_log_fmt_eq tx_buf q kk args :
    let room := (length tx_buf - hlen kk)%nat in
    let text := produced args in
    fst (send_log_fmt usz lkey tx_buf q kk args) =
      if (hlen kk <? length tx_buf)%nat then
        if (width (N.of_nat room) + length text <=? room)%nat then
          if (length (varint_usize usz (N.of_nat (length text))) <=? width (N.of_nat room))%nat then
            match fmt_write (room - width (N.of_nat room)) args with
            | Done (_, _, err) =>
              let body1 := text ++ skipn (length text) (skipn (width (N.of_nat room)) (skipn (hlen kk) tx_buf)) in
              let body2 := if (err && (3 <=? length body1)%nat)%bool
                           then firstn (length body1 - 3) body1 ++ [46; 46; 46] else body1 in
              Done (Transmit (write_to_vec (log_header lkey kk q) ++
                              filled (varint_usize usz (N.of_nat (length text))) (width (N.of_nat room)) ++
                              firstn (length text) body2))
            | Panicked => Panicked
            end
          else Panicked
        else Panicked
      else Done RefusedOther.
  Proof.
    cbv zeta. unfold send_log_fmt. cbn [fst]. rewrite write_to_slice_eq, log_header_len.
    destruct (Nat.ltb_spec (hlen kk) (length tx_buf)) as [L|L].
    2: { destruct (Nat.leb_spec (hlen kk) (length tx_buf)) as [L2|L2]; auto.
         rewrite skipn_length. replace (length tx_buf - hlen kk)%nat with 0%nat by lia. reflexivity. }
    replace (hlen kk <=? length tx_buf)%nat with true by (symmetry; apply Nat.leb_le; lia).
    rewrite width_eq, skipn_length. set (room := (length tx_buf - hlen kk)%nat) in *.
    pose proof (width_room room ltac:(lia)) as WR. set (w := width (N.of_nat room)) in *.
    replace (room <? w)%nat with false by (symmetry; apply Nat.ltb_ge; lia).
    rewrite skipn_length, skipn_length. fold room.
    pose proof (fmt_write_spec args (room - w)) as FW.
    destruct (Nat.leb_spec (length (produced args)) (room - w)) as [L2|L2].
    2: { rewrite FW. replace (w + length (produced args) <=? room)%nat with false by (symmetry; apply Nat.leb_gt; lia). reflexivity. }
    replace (w + length (produced args) <=? room)%nat with true by (symmetry; apply Nat.leb_le; lia).
    destruct FW as (err & -> & _). set (text := produced args) in *.
    replace (room - w - (room - w - length text))%nat with (length text) by lia.
    set (body := skipn w (skipn (hlen kk) tx_buf)).
    assert (BL : length body = (room - w)%nat) by (unfold body; rewrite !skipn_length; reflexivity).
    set (body1 := text ++ skipn (length text) body).
    assert (B1 : length body1 = (room - w)%nat) by (unfold body1; rewrite app_length, skipn_length, BL; lia).
    set (body2 := if (err && (3 <=? length body1)%nat)%bool then firstn (length body1 - 3) body1 ++ [46; 46; 46] else body1).
    assert (B2 : length body2 = (room - w)%nat).
    { unfold body2. destruct err; cbn [andb]; auto. destruct (Nat.leb_spec 3 (length body1)); auto.
      rewrite app_length, firstn_length. cbn. lia. }
    set (lu := varint_usize usz (N.of_nat (length text))).
    rewrite len_field_len.
    set (lu' := if (length lu =? w)%nat then lu else mark_last lu).
    assert (LU : length lu' = length lu) by (unfold lu'; destruct (_ =? _)%nat; auto using mark_last_len).
    rewrite LU. destruct (Nat.leb_spec (length lu) w) as [L3|L3]; auto.
    assert (FL : length (lu' ++ skipn (length lu) (len_field_init w)) = w).
    { rewrite app_length, skipn_length, len_field_len, LU. lia. }
    replace (length tx_buf - (room - w - length text))%nat with (hlen kk + (w + length text))%nat by (unfold room in *; lia).
    rewrite !(app_length (write_to_vec _)), write_to_vec_len, log_header_len.
    rewrite (app_length (lu' ++ _)), FL, B2.
    replace (hlen kk + (w + length text) <=? hlen kk + (w + (room - w)))%nat with true by (symmetry; apply Nat.leb_le; lia).
    f_equal. f_equal.
    assert (HL : length (write_to_vec (log_header lkey kk q)) = hlen kk) by (rewrite write_to_vec_len; apply log_header_len).
    rewrite firstn_app. rewrite firstn_all2 by lia. f_equal. rewrite HL.
    replace (hlen kk + (w + length text) - hlen kk)%nat with (w + length text)%nat by lia.
    unfold filled. fold lu'. rewrite LU.
    rewrite firstn_app. rewrite firstn_all2 by lia. f_equal. f_equal. lia.
  Qed.
End Fmt.

Lemma usize_ok usz n : usz = 4%nat \/ usz = 8%nat -> n < 2 ^ (8 * N.of_nat usz) ->
  n < 128 ^ N.of_nat (varint_max usz) /\ n < 18446744073709551616 /\ (0 < varint_max usz <= 10)%nat.
Proof.
  intros [-> | ->] H.
  - change (2 ^ (8 * N.of_nat 4)) with 4294967296 in H. change (varint_max 4) with 5%nat.
    change (128 ^ N.of_nat 5) with 34359738368. lia.
  - change (2 ^ (8 * N.of_nat 8)) with 18446744073709551616 in H. change (varint_max 8) with 10%nat.
    change (128 ^ N.of_nat 10) with 1180591620717411303424. lia.
Qed.

(** ** C45 *)

(** Full claim: formatted logging never panics, and truncates what does not fit.
    False, in two ways.  With 100 bytes of text and a 64-byte buffer, the writer
    panics instead of truncating. *)
Theorem C45_overflow_panics_refuted :
  exists tx_buf args, length tx_buf = 64%nat /\ no_failure args /\ length (produced args) = 100%nat /\
    forall lkey q kk, fst (send_log_fmt 4 lkey tx_buf q kk args) = Panicked.
Proof.
  exists (repeat 0 64), [Text (repeat 65 100)]. split; [reflexivity|]. split; [repeat constructor; discriminate|].
  split; [reflexivity|]. intros lkey q kk. rewrite send_log_fmt_eq by auto. destruct kk; vm_compute; reflexivity.
Qed.
Print Assumptions C45_overflow_panics_refuted.

(** With 200 bytes of text and a 256-byte buffer, in which it fits, the length
    field is too narrow and writing the length panics. *)
Theorem C45_narrow_length_refuted :
  exists tx_buf args, length tx_buf = 256%nat /\ no_failure args /\ length (produced args) = 200%nat /\
    forall lkey q kk, fst (send_log_fmt 4 lkey tx_buf q kk args) = Panicked.
Proof.
  exists (repeat 0 256), [Text (repeat 65 200)]. split; [reflexivity|]. split; [repeat constructor; discriminate|].
  split; [reflexivity|]. intros lkey q kk. rewrite send_log_fmt_eq by auto. destruct kk; vm_compute; reflexivity.
Qed.
Print Assumptions C45_narrow_length_refuted.

(** Exactly when it panics, and exactly when it transmits.  With [room] bytes
    after the header, the length field is [width room] bytes wide; text within
    [capacity] is transmitted, any longer text panics; with no room at all the
    call is refused.  (Missing from the full claim: truncation.) *)
Theorem C45_exact_partial :
  forall usz lkey tx_buf q kk args,
    (usz = 4%nat \/ usz = 8%nat) -> N.of_nat (length tx_buf) < 2 ^ (8 * N.of_nat usz) ->
    let room := (length tx_buf - (3 + klen kk))%nat in
    let text := length (produced args) in
    (room = 0%nat -> fst (send_log_fmt usz lkey tx_buf q kk args) = Done RefusedOther) /\
    (capacity usz room text -> exists f, fst (send_log_fmt usz lkey tx_buf q kk args) = Done (Transmit f)) /\
    (room <> 0%nat -> ~ capacity usz room text -> fst (send_log_fmt usz lkey tx_buf q kk args) = Panicked).
Proof.
  intros usz lkey tx_buf q kk args Hu Hl room text. rewrite send_log_fmt_eq by auto. cbv zeta.
  change (3 + klen kk)%nat with (hlen kk) in *. fold room.
  assert (U : forall n, (n <= room)%nat -> (length (varint_usize usz (N.of_nat n)) <= width usz (N.of_nat room))%nat <-> N.of_nat n < 128 ^ N.of_nat (width usz (N.of_nat room))).
  { intros n Hn. destruct (usize_ok usz (N.of_nat n) Hu ltac:(unfold room in *; lia)) as (A & B & C).
    pose proof (width_bounds usz Hu (N.of_nat room)). apply enc_len_iff; auto; lia. }
  split; [|split].
  - intros R. unfold room in R. replace (hlen kk <? length tx_buf)%nat with false by (symmetry; apply Nat.ltb_ge; lia). reflexivity.
  - intros (R & F & W). fold text.
    replace (hlen kk <? length tx_buf)%nat with true by (symmetry; apply Nat.ltb_lt; unfold room in R; lia).
    replace (width usz (N.of_nat room) + text <=? room)%nat with true by (symmetry; apply Nat.leb_le; lia).
    replace (length (varint_usize usz (N.of_nat text)) <=? width usz (N.of_nat room))%nat with true
      by (symmetry; apply Nat.leb_le, U; [lia|exact W]).
    pose proof (fmt_write_spec args (room - width usz (N.of_nat room))) as FW. fold text in FW.
    replace (text <=? room - width usz (N.of_nat room))%nat with true in FW by (symmetry; apply Nat.leb_le; lia).
    destruct FW as (err & -> & _). eauto.
  - intros R NC. replace (hlen kk <? length tx_buf)%nat with true by (symmetry; apply Nat.ltb_lt; unfold room in R; lia).
    fold text. destruct (Nat.leb_spec (width usz (N.of_nat room) + text) room) as [F|F]; auto.
    destruct (Nat.leb_spec (length (varint_usize usz (N.of_nat text))) (width usz (N.of_nat room))) as [W|W]; auto.
    exfalso. apply NC. split; [lia|]. split; auto. apply U; auto. lia.
Qed.
Print Assumptions C45_exact_partial.

(** In plain numbers: with a buffer of at least 16 bytes (and below 4 GiB), up to
    127 bytes of text that fit are never a problem; and from a buffer of 300
    bytes, up to 16383 that fit. *)
Theorem C45_small_logs_partial :
  forall usz lkey tx_buf q kk args,
    (usz = 4%nat \/ usz = 8%nat) -> N.of_nat (length tx_buf) < 4294967296 ->
    (16 <= length tx_buf)%nat ->
    N.of_nat (length (produced args)) < (if (length tx_buf <? 300)%nat then 128 else 16384) ->
    (length (produced args) + 3 + klen kk + 10 <= length tx_buf)%nat ->
    exists f, fst (send_log_fmt usz lkey tx_buf q kk args) = Done (Transmit f).
Proof.
  intros usz lkey tx_buf q kk args Hu Hl H16 Ht Hr.
  destruct (C45_exact_partial usz lkey tx_buf q kk args Hu) as (_ & C & _).
  { eapply N.lt_le_trans; [exact Hl|]. destruct Hu as [-> | ->]; vm_compute; discriminate. }
  apply C. unfold capacity. cbv zeta. set (room := (length tx_buf - (3 + klen kk))%nat) in *. split; [lia|].
  assert (W : (width usz (N.of_nat room) <= 10)%nat).
  { pose proof (width_bounds usz Hu (N.of_nat room)). rewrite vmax in H by auto. destruct (usz =? 4)%nat; lia. }
  split; [lia|].
  assert (P1 : 128 <= 128 ^ N.of_nat (width usz (N.of_nat room))).
  { pose proof (width_bounds usz Hu (N.of_nat room)). change 128 with (128 ^ 1) at 1. apply N.pow_le_mono_r; lia. }
  assert (K : (klen kk <= 8)%nat) by (destruct kk; cbn; lia).
  destruct (Nat.ltb_spec (length tx_buf) 300) as [B|B]; [lia|].
  assert (P2 : 16384 <= 128 ^ N.of_nat (width usz (N.of_nat room))).
  { change 16384 with (128 ^ 2). apply N.pow_le_mono_r; [discriminate|]. unfold width.
    replace (N.of_nat room <? 256) with false by (symmetry; apply N.ltb_ge; unfold room; lia).
    repeat (match goal with |- context [if ?c then _ else _] => destruct c end); cbn; lia. }
  lia.
Qed.
Print Assumptions C45_small_logs_partial.

(** String logs never panic: [send_log_str] is total, and refuses text that does
    not fit. *)
Theorem C45_str_partial :
  forall usz lkey tx_buf q kk s,
    (exists f, fst (send_log_str usz lkey tx_buf q kk s) = Transmit f) <->
    (3 + klen kk + length (varint_usize usz (N.of_nat (length s))) + length s <= length tx_buf)%nat.
Proof.
  intros usz lkey tx_buf q kk s. unfold send_log_str. cbn [fst]. rewrite usb_send_eq, log_header_len.
  unfold str_enc. rewrite app_length. unfold hlen.
  destruct (Nat.leb_spec (3 + klen kk + (length (varint_usize usz (N.of_nat (length s))) + length s)) (length tx_buf)) as [L|L].
  - split; intros; [lia|eauto].
  - split; intros H; [destruct H; discriminate|lia].
Qed.
Print Assumptions C45_str_partial.

Example C45_nontrivial :
  capacity 4 (300 - 6) 200 /\
  exists f, fst (send_log_fmt 4 (K8 1 2 3 4 5 6 7 8) (repeat 0 300) 7 KK4 [Text (repeat 65 150); Text (repeat 66 50)]) = Done (Transmit f).
Proof.
  split; [unfold capacity; vm_compute; repeat split; auto; lia|]. eexists. vm_compute. reflexivity.
Qed.

(** ** C46 *)

(** Whenever a formatted log is transmitted (and the formatter itself did not
    fail), the frame decodes to the logging key at the server's key length, the
    sequence number, and exactly the formatted text. *)
Theorem C46_formatted :
  forall usz lkey tx_buf q kk args f,
    (usz = 4%nat \/ usz = 8%nat) -> N.of_nat (length tx_buf) < 2 ^ (8 * N.of_nat usz) ->
    Forall byte_ok (k8_bytes lkey) -> q < 65536 -> no_failure args ->
    fst (send_log_fmt usz lkey tx_buf q kk args) = Done (Transmit f) ->
    exists body,
      take_from_slice f = Done (Some (MkHeader (shrink_to (VKey8 lkey) kk) (Seq2 q), body)) /\
      take_str body = Some (produced args, []).
Proof.
  intros usz lkey tx_buf q kk args f Hu Hl Hk Hq Hn H. rewrite send_log_fmt_eq in H by auto. cbv zeta in H.
  set (room := (length tx_buf - hlen kk)%nat) in *.
  destruct (Nat.ltb_spec (hlen kk) (length tx_buf)) as [L|L]; [|discriminate].
  set (w := width usz (N.of_nat room)) in *. set (text := produced args) in *.
  destruct (Nat.leb_spec (w + length text) room) as [F|F]; [|discriminate].
  destruct (Nat.leb_spec (length (varint_usize usz (N.of_nat (length text)))) w) as [W|W]; [|discriminate].
  pose proof (fmt_write_spec args (room - w)) as FW. fold text in FW.
  replace (length text <=? room - w)%nat with true in FW by (symmetry; apply Nat.leb_le; lia).
  destruct FW as (err & E & Herr). rewrite E in H. rewrite (Herr Hn) in H. cbn [andb] in H.
  injection H as <-. rewrite firstn_app, firstn_all, Nat.sub_diag, firstn_O, app_nil_r.
  destruct (usize_ok usz (N.of_nat (length text)) Hu ltac:(unfold room in *; lia)) as (A & B & C).
  pose proof (width_bounds usz Hu (N.of_nat room)) as WB. fold w in WB.
  assert (V : N.of_nat (length text) < 128 ^ N.of_nat w) by (apply (enc_len_iff (varint_max usz)); auto; lia).
  destruct (filled_dec (varint_max usz) (N.of_nat (length text)) w text C ltac:(lia) A V B) as [D _].
  eexists. split.
  - rewrite take_write by (apply log_header_ok; auto). unfold log_header. rewrite const_key_spec. reflexivity.
  - unfold take_str, varint_usize. rewrite D. rewrite Nnat.Nat2N.id, Nat.leb_refl, firstn_all, skipn_all. reflexivity.
Qed.
Print Assumptions C46_formatted.

(** And text within capacity is always transmitted, so it does arrive. *)
Corollary C46_fitting_text_arrives :
  forall usz lkey tx_buf q kk args,
    (usz = 4%nat \/ usz = 8%nat) -> N.of_nat (length tx_buf) < 2 ^ (8 * N.of_nat usz) ->
    Forall byte_ok (k8_bytes lkey) -> q < 65536 -> no_failure args ->
    capacity usz (length tx_buf - (3 + klen kk)) (length (produced args)) ->
    exists f body,
      fst (send_log_fmt usz lkey tx_buf q kk args) = Done (Transmit f) /\
      take_from_slice f = Done (Some (MkHeader (shrink_to (VKey8 lkey) kk) (Seq2 q), body)) /\
      take_str body = Some (produced args, []).
Proof.
  intros usz lkey tx_buf q kk args Hu Hl Hk Hq Hn Hc.
  destruct (C45_exact_partial usz lkey tx_buf q kk args Hu Hl) as (_ & C & _). destruct (C Hc) as [f E].
  destruct (C46_formatted _ _ _ _ _ _ _ Hu Hl Hk Hq Hn E) as (body & D & T). eauto.
Qed.
Print Assumptions C46_fitting_text_arrives.

(** The same for string logs. *)
Theorem C46_str :
  forall usz lkey tx_buf q kk s f,
    (usz = 4%nat \/ usz = 8%nat) -> N.of_nat (length tx_buf) < 2 ^ (8 * N.of_nat usz) ->
    Forall byte_ok (k8_bytes lkey) -> q < 65536 ->
    fst (send_log_str usz lkey tx_buf q kk s) = Transmit f ->
    exists body,
      take_from_slice f = Done (Some (MkHeader (shrink_to (VKey8 lkey) kk) (Seq2 q), body)) /\
      take_str body = Some (s, []).
Proof.
  intros usz lkey tx_buf q kk s f Hu Hl Hk Hq H. unfold send_log_str in H. cbn [fst] in H. rewrite usb_send_eq in H.
  destruct (Nat.leb_spec (header_len (log_header lkey kk q) + length (str_enc usz s)) (length tx_buf)) as [L|L]; [|discriminate].
  injection H as <-. unfold str_enc in *. rewrite app_length in L.
  destruct (usize_ok usz (N.of_nat (length s)) Hu ltac:(lia)) as (A & B & C).
  eexists. split.
  - rewrite take_write by (apply log_header_ok; auto). unfold log_header. rewrite const_key_spec. reflexivity.
  - unfold take_str, varint_usize. rewrite (enc_stable (varint_max usz) 10) by (first [exact A|lia|eapply N.lt_le_trans; [exact B|vm_compute; discriminate]]).
    change (varint_enc 10) with u64_varint. rewrite take_u64_enc by auto.
    rewrite Nnat.Nat2N.id, Nat.leb_refl, firstn_all, skipn_all. reflexivity.
Qed.
Print Assumptions C46_str.

Example C46_nontrivial :
  exists f, fst (send_log_fmt 8 (K8 1 2 3 4 5 6 7 8) (repeat 255 300) 65535 KK1 [Text [104; 105]; Text []; Text [33]]) = Done (Transmit f) /\
    f = [16; 8; 255; 255; 131; 0; 104; 105; 33] /\ take_str [131; 0; 104; 105; 33] = Some ([104; 105; 33], []).
Proof. eexists. repeat split; vm_compute; reflexivity. Qed.

(** ** C47 *)
Lemma fmt_header usz lkey tx_buf q kk args f : (usz = 4%nat \/ usz = 8%nat) ->
  Forall byte_ok (k8_bytes lkey) -> q < 65536 ->
  fst (send_log_fmt usz lkey tx_buf q kk args) = Done (Transmit f) ->
  exists body, take_from_slice f = Done (Some (MkHeader (shrink_to (VKey8 lkey) kk) (Seq2 q), body)).
Proof.
  intros Hu Hk Hq H. rewrite send_log_fmt_eq in H by auto. cbv zeta in H.
  destruct (hlen kk <? length tx_buf)%nat; [|discriminate].
  destruct (_ <=? _)%nat; [|discriminate]. destruct (_ <=? _)%nat; [|discriminate].
  destruct (fmt_write _ args) as [[[t r] err]|]; [|discriminate]. injection H as <-.
  eexists. rewrite take_write by (apply log_header_ok; auto). unfold log_header. rewrite const_key_spec. reflexivity.
Qed.

(** In any history of string and formatted logs, sent or refused, with whatever
    buffer contents: the [i]-th log, if transmitted, carries the logging key at
    the server's key length and sequence number [start + i] modulo 2^16. *)
Theorem C47_consecutive :
  forall usz lkey kk calls start i f,
    (usz = 4%nat \/ usz = 8%nat) -> Forall byte_ok (k8_bytes lkey) -> start < 65536 ->
    nth_error (fst (log_all usz lkey kk start calls)) i = Some (Done (Transmit f)) ->
    exists body,
      take_from_slice f =
        Done (Some (MkHeader (shrink_to (VKey8 lkey) kk) (Seq2 ((start + N.of_nat i) mod 65536)), body)).
Proof.
  intros usz lkey kk calls. induction calls as [|[tx_buf c] calls IH]; intros start i f Hu Hk Hs H.
  - cbn in H. destruct i; discriminate.
  - assert (Hs' : (start + 1) mod 65536 < 65536) by (apply N.mod_lt; discriminate).
    assert (Step : forall j, ((start + 1) mod 65536 + N.of_nat j) mod 65536 = (start + N.of_nat (S j)) mod 65536).
    { intros j. rewrite N.add_mod_idemp_l by discriminate. f_equal. lia. }
    assert (Z : (start + N.of_nat 0) mod 65536 = start) by (rewrite N.add_0_r; apply N.mod_small; auto).
    cbn [log_all] in H. destruct c as [s|args].
    + cbn [send_log_str] in H. unfold send_log_str in H.
      destruct (log_all usz lkey kk ((start + 1) mod 65536) calls) as [ps q'] eqn:E. cbn [fst] in H.
      destruct i as [|i]; cbn [nth_error] in H.
      * injection H as H. rewrite usb_send_eq in H. destruct (_ <=? _)%nat; [|discriminate]. injection H as <-.
        rewrite Z. eexists. rewrite take_write by (apply log_header_ok; auto). unfold log_header. rewrite const_key_spec. reflexivity.
      * rewrite <- Step. apply IH; auto. now rewrite E.
    + destruct (send_log_fmt usz lkey tx_buf start kk args) as [r q] eqn:F.
      assert (Q : q = (start + 1) mod 65536) by (unfold send_log_fmt in F; congruence). subst q.
      destruct r as [p|].
      * destruct (log_all usz lkey kk ((start + 1) mod 65536) calls) as [ps q'] eqn:E. cbn [fst] in H.
        destruct i as [|i]; cbn [nth_error] in H.
        -- injection H as ->. rewrite Z. eapply fmt_header; eauto. now rewrite F.
        -- rewrite <- Step. apply IH; auto. now rewrite E.
      * cbn in H. destruct i as [|[|i]]; discriminate.
Qed.
Print Assumptions C47_consecutive.

(** Every call gets a result (unless an earlier one panicked), so the position is
    the number of the call. *)
Theorem C47_one_result_per_call :
  forall usz lkey kk calls start,
    ~ In Panicked (fst (log_all usz lkey kk start calls)) ->
    length (fst (log_all usz lkey kk start calls)) = length calls.
Proof.
  intros usz lkey kk calls. induction calls as [|[tx_buf c] calls IH]; intros start H; auto.
  cbn [log_all] in *. destruct c as [s|args].
  - destruct (send_log_str usz lkey tx_buf start kk s) as [p q]. specialize (IH q).
    destruct (log_all usz lkey kk q calls) as [ps q']. cbn [fst length] in *. f_equal. apply IH. intros X; apply H; now right.
  - destruct (send_log_fmt usz lkey tx_buf start kk args) as [[p|] q].
    + specialize (IH q). destruct (log_all usz lkey kk q calls) as [ps q']. cbn [fst length] in *. f_equal. apply IH.
      intros X; apply H; now right.
    + exfalso. apply H. now left.
Qed.
Print Assumptions C47_one_result_per_call.

Example C47_nontrivial :
  fst (log_all 4 (K8 1 2 3 4 5 6 7 8) KK1 65534
    [(repeat 0 20, LogStr [65]); (repeat 0 3, LogStr [66]); (repeat 9 20, LogFmt [Text [67]])]) =
  [Done (Transmit [16; 8; 254; 255; 1; 65]); Done RefusedOther; Done (Transmit [16; 8; 0; 0; 1; 67])].
Proof. vm_compute. reflexivity. Qed.
