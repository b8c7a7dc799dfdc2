(** Model of how the embassy USB server builds the bytes of a message in its
    transmit buffer: ordinary messages, string logs and formatted logs.
    Source: /repo/source/postcard-rpc/src/server/impls/embassy_usb_v0_4.rs:297-577
    (embassy_usb_v0_3.rs is identical but for a fixed send time-out).

    What is modelled is everything up to the call of [send_all], whose argument is
    the result ([Transmit]); [send_all] itself is in UsbModel.v.  The lock held
    during each call makes calls atomic with respect to each other. *)
From Coq Require Import NArith List Bool Arith.
From Verif Require Import KeyModel HeaderModel PostcardModel DispatchModel.
Import ListNotations.
Local Open Scope N_scope.

(** [RefusedOther]: [Err(WireTxErrorKind::Other)] before anything is written to
    the endpoint. *)
Inductive Prepared := Transmit (bytes : list N) | RefusedOther.

(** postcard [to_slice]: succeeds iff the encoding fits. *)
Definition to_slice (enc : list N) (remain : list N) : option (list N) :=
  if (length enc <=? length remain)%nat then Some enc else None.

(** 299-323 [send]; [body] is the postcard encoding of the message. *)
Definition usb_send (tx_buf : list N) (hdr : VarHeader) (body : list N) : Prepared :=
  match write_to_slice hdr tx_buf with
  | None => RefusedOther
  | Some (hdr_used, remain) =>
    match to_slice body remain with
    | None => RefusedOther
    | Some bdy_used =>
      let used_ttl := (length hdr_used + length bdy_used)%nat in
      (** the buffer now holds header, body, and stale bytes *)
      let tx_buf' := hdr_used ++ bdy_used ++ skipn (length bdy_used) remain in
      if (used_ttl <=? length tx_buf')%nat then Transmit (firstn used_ttl tx_buf')
      else RefusedOther
    end
  end.

Section Logging.
  (** Size of [usize] in bytes (4 or 8), and the full key of [LoggingTopic]. *)
  Variable usz : nat.
  Variable logging_key : Key8.

  (** 533-547 [varint_max::<usize>()]. *)
  Definition varint_max : nat := ((usz * 8 + (7 - 1)) / 7)%nat.

  (** 550-563 [varint_usize]. *)
  Definition varint_usize (n : N) : list N := varint_enc varint_max n.

  (** postcard encoding of a string: length, then bytes. *)
  Definition str_enc (s : list N) : list N := varint_usize (N.of_nat (length s)) ++ s.

  (** 347-352, 387-392: the logging key at the server's key length
      ([TOPIC_KEY1] etc. are [const_key], lib.rs:408-414). *)
  Definition log_header (kk : VarKeyKind) (ctr : N) : VarHeader :=
    MkHeader (const_key kk logging_key) (Seq2 ctr).

  (** 336-369 [send_log_str]; returns also the new [log_seq]. *)
  Definition send_log_str (tx_buf : list N) (log_seq : N) (kk : VarKeyKind) (s : list N) : Prepared * N :=
    let ctr := log_seq in
    let log_seq' := (log_seq + 1) mod 65536 in
    (usb_send tx_buf (log_header kk ctr) (str_enc s), log_seq').

  (** 565-577 [actual_varint_max_len]. *)
  Definition actual_varint_max_len (largest : N) : nat :=
    if largest <? N.shiftl 2 7 then 1%nat
    else if largest <? N.shiftl 2 14 then 2%nat
    else if largest <? N.shiftl 2 21 then 3%nat
    else if largest <? N.shiftl 2 28 then 4%nat
    else varint_max.

  (** What formatting does: pieces of text handed to [write_str] one after the
      other, or a formatting error raised by the value being formatted.  (A
      formatter that swallows a write error and goes on is not modelled.) *)
  Inductive Piece := Text (s : list N) | FmtError.

  (** 512-530 [SliceWriter::write_str] with [room] bytes left: what is written,
      the room left, and whether it overflowed.  [copy_from_slice] panics unless
      both sides have the same length. *)
  Definition write_str (room : nat) (s : list N) : outcome (list N * nat * bool) :=
    let bad := (room <? length s)%nat in
    let to_write := Nat.min (length s) room in
    let now := to_write in
    let later := (room - to_write)%nat in
    if (now =? length s)%nat then Done (s, later, bad) else Panicked.

  (** [core::fmt::write]: stops at the first error. *)
  Fixpoint fmt_write (room : nat) (args : list Piece) : outcome (list N * nat * bool) :=
    match args with
    | [] => Done ([], room, false)
    | FmtError :: _ => Done ([], room, true)
    | Text s :: tl =>
      match write_str room s with
      | Panicked => Panicked
      | Done (w, room1, true) => Done (w, room1, true)
      | Done (w, room1, false) =>
        match fmt_write room1 tl with
        | Panicked => Panicked
        | Done (w2, room2, err) => Done (w ++ w2, room2, err)
        end
      end
    end.

  (** 412-417: all bytes 0x80 but the last, 0x00. *)
  Fixpoint len_field_init (n : nat) : list N :=
    match n with
    | O => []
    | S O => [0]
    | S n' => 128 :: len_field_init n'
    end.

  (** [*b |= 0x80] on the last byte. *)
  Fixpoint mark_last (l : list N) : list N :=
    match l with
    | [] => []
    | [b] => [N.lor b 128]
    | b :: tl => b :: mark_last tl
    end.

  (** 371-455 [send_log_fmt]. *)
  Definition send_log_fmt (tx_buf : list N) (log_seq : N) (kk : VarKeyKind) (args : list Piece)
    : outcome Prepared * N :=
    let ttl_len := length tx_buf in
    let ctr := log_seq in
    let log_seq' := (log_seq + 1) mod 65536 in
    let r :=
      match write_to_slice (log_header kk ctr) tx_buf with
      | None => Done RefusedOther
      | Some (hdr, remaining) =>
        let max_log_len := actual_varint_max_len (N.of_nat (length remaining)) in
        if (length remaining <? max_log_len)%nat then Done RefusedOther
        else
          let len_field := len_field_init max_log_len in
          let body := skipn max_log_len remaining in
          let body_len := length body in
          match fmt_write body_len args with
          | Panicked => Panicked
          | Done (text, remain, err) =>
            let used := (body_len - remain)%nat in
            let body1 := text ++ skipn (length text) body in
            (** 431-434 *)
            let body2 :=
              if (err && (3 <=? length body1)%nat)%bool
              then firstn (length body1 - 3) body1 ++ [46; 46; 46] else body1 in
            let len_used := varint_usize (N.of_nat used) in
            let len_used' :=
              if (length len_used =? length len_field)%nat then len_used else mark_last len_used in
            (** 449: slicing [len_field[..len_used.len()]] panics if too short *)
            if (length len_used' <=? length len_field)%nat then
              let len_field' := len_used' ++ skipn (length len_used') len_field in
              let tx_buf' := hdr ++ len_field' ++ body2 in
              let act_used := (ttl_len - remain)%nat in
              if (act_used <=? length tx_buf')%nat then Done (Transmit (firstn act_used tx_buf'))
              else Panicked
            else Panicked
          end
      end in
    (r, log_seq').

  (** A log call. *)
  Inductive LogCall := LogStr (s : list N) | LogFmt (args : list Piece).

  (** A history of log calls; the buffer's stale contents may be anything each
      time, so [bufs] supplies them.  A panic ends the history. *)
  Fixpoint log_all (kk : VarKeyKind) (log_seq : N) (calls : list (list N * LogCall)) : list (outcome Prepared) * N :=
    match calls with
    | [] => ([], log_seq)
    | (tx_buf, LogStr s) :: tl =>
      let '(p, q) := send_log_str tx_buf log_seq kk s in
      let '(ps, q') := log_all kk q tl in (Done p :: ps, q')
    | (tx_buf, LogFmt args) :: tl =>
      match send_log_fmt tx_buf log_seq kk args with
      | (Panicked, q) => ([Panicked], q)
      | (Done p, q) => let '(ps, q') := log_all kk q tl in (Done p :: ps, q')
      end
    end.
End Logging.

(** Receiving side: postcard's string decoder on a host with 64-bit [usize]: a
    varint length, then that many bytes (the UTF-8 check is not modelled). *)
Definition take_str (l : list N) : option (list N * list N) :=
  match take_u64 l with
  | None => None
  | Some (n, tl) =>
    if (N.to_nat n <=? length tl)%nat then Some (firstn (N.to_nat n) tl, skipn (N.to_nat n) tl) else None
  end.
