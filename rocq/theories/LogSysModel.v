(** Model of a task that logs over the whole system: its log calls, as messages that the
    server transmits (LogModel.v builds them; UsbSysModel.v carries messages to the host),
    the logging example firmware, and the loop of the host program that prints what it
    receives.
    Source: /repo/source/postcard-rpc/src/server/impls/embassy_usb_v0_4.rs:336-455,
    /repo/example/firmware/src/bin/logging.rs, /repo/example/workbook-host/src/bin/logging.rs. *)
From Coq Require Import NArith List Bool Arith.
From Verif Require Import KeyModel HeaderModel MinKeyModel SchemaModel MacroModel PostcardModel DispatchModel SubModel ClientModel LogModel.
Import ListNotations.

Section Logger.
  (** Values of user messages; [raw b] is one that is serialized to the bytes [b]. *)
  Context {Val : Type}.
  Variable raw : list N -> Val.
  (** Size of [usize] on the device, the key of [LoggingTopic], the length of the keys that
      the server transmits, and the length of its transmit buffer. *)
  Variable usz : nat.
  Variable lkey : Key8.
  Variable kk : VarKeyKind.
  Variable txlen : nat.

  (** A log call together with the number that the shared counter [log_seq] gives it
      (embassy_usb_v0_4.rs:343-344, 383-384). *)
  Definition NCall : Type := N * LogCall.

  (** embassy_usb_v0_4.rs:336-455: what one call hands to [send_all], when the transmit
      buffer holds [buf]. *)
  Definition log_frame (buf : list N) (c : NCall) : outcome Prepared :=
    match snd c with
    | LogStr s => Done (fst (send_log_str usz lkey buf (fst c) kk s))
    | LogFmt args => fst (send_log_fmt usz lkey buf (fst c) kk args)
    end.

  (** The part of it behind the header. *)
  Definition log_body (c : NCall) : list N :=
    match log_frame (repeat 0%N txlen) c with
    | Done (Transmit f) => match take_from_slice f with Done (Some (_, body)) => body | _ => [] end
    | _ => []
    end.

  (** A task that makes these calls one after the other and ignores the results
      (firmware logging.rs:107, 109, [let _ = ...]).  A call is one transmission on the
      logging topic, of the bytes above (that the transmission is the same is
      [C88_log_frames] of LogSysThm.v).  Calls that are refused or panic (C45) are not
      part of this model. *)
  Fixpoint logger (calls : list NCall) : HProg Val unit :=
    match calls with
    | [] => HRet tt
    | c :: tl => HSend lkey (Seq2 (fst c)) (PVal (raw (log_body c))) (fun _ => logger tl)
    end.
End Logger.

(** The counter when only this task logs: embassy_usb_v0_4.rs:343-344. *)
Fixpoint numbered (q : N) (calls : list LogCall) : list NCall :=
  match calls with [] => [] | c :: tl => (q, c) :: numbered ((q + 1) mod 65536)%N tl end.

(** [Display] of a [u16]: its decimal digits. *)
Definition digit (n : N) : N := (48 + n)%N.
Fixpoint decimal_digits (fuel : nat) (n : N) : list N :=
  match fuel with
  | O => []
  | S fuel => if (n <? 10)%N then [digit n] else decimal_digits fuel (n / 10) ++ [digit (n mod 10)]
  end.
Definition decimal (n : N) : list N := decimal_digits 5 n.

(** firmware logging.rs:106-110: ["Hello world!"] at odd counts, ["formatted: {ctr}"] at
    even ones. *)
Definition hello_world : list N := [72; 101; 108; 108; 111; 32; 119; 111; 114; 108; 100; 33]%N.
Definition formatted : list N := [102; 111; 114; 109; 97; 116; 116; 101; 100; 58; 32]%N.
Definition logging_call (ctr : N) : LogCall :=
  if negb (N.land ctr 1 =? 0)%N then LogStr hello_world else LogFmt [Text formatted; Text (decimal ctr)].
(** 101-112: [n] rounds of the loop (which goes on for ever). *)
Fixpoint logging_rounds (n : nat) (ctr : N) : list LogCall :=
  match n with O => [] | S n => logging_call ctr :: logging_rounds n ((ctr + 1) mod 65536)%N end.

(** host logging.rs:16-19: the lines printed, and whether the loop is still going on.
    [outs] is what the subscription's [recv] came to; a message that cannot be decoded is
    skipped (host_client/mod.rs:861-874), and bytes after the string are ignored
    ([postcard::from_bytes]). *)
Fixpoint print_logs (outs : list RecvM) : list (list N) * bool :=
  match outs with
  | [] => ([], true)
  | MGot f :: tl =>
    let '(lines, going) := print_logs tl in
    match take_str (f_body f) with Some (s, _) => (s :: lines, going) | None => (lines, going) end
  | MWaiting :: tl => print_logs tl
  | MLagged _ :: _ | MClosed :: _ => ([], false)
  end.
