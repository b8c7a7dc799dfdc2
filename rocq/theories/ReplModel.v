(** The prompt of the workbook's host program: example/workbook-host/src/bin/comms-02.rs,
    with [read_line] of example/workbook-host/src/lib.rs.  The calls are those of
    [WorkbookClient], [WbCall] of WbSysModel.v. *)
From Coq Require Import Ascii String NArith List Bool.
From Verif Require Import KeyModel HeaderModel SchemaModel CodecModel WorkbookModel WbSysModel.
Import ListNotations.
Local Open Scope N_scope.

(** * What the standard library does with the line; characters are Unicode scalar values *)

(** [char::is_whitespace] *)
Definition is_space (c : N) : bool :=
  ((9 <=? c) && (c <=? 13)) || (c =? 32) || (c =? 133) || (c =? 160) || (c =? 5760) || ((8192 <=? c) && (c <=? 8202)) ||
  (c =? 8232) || (c =? 8233) || (c =? 8239) || (c =? 8287) || (c =? 12288).
(** 24 [split_whitespace], with the word that is being read *)
Fixpoint split_from (w : str) (l : str) : list str :=
  match l with
  | [] => match w with [] => [] | _ => [w] end
  | c :: tl =>
    if is_space c then match w with [] => split_from [] tl | _ => w :: split_from [] tl end
    else split_from (w ++ [c]) tl
  end.
Definition split_whitespace (l : str) : list str := split_from [] l.

(** [u32::from_str], [u8::from_str] with [bound] 2^32 and 256: base 10, an optional plus sign, and a
    number that does not fit is an error. *)
Fixpoint digits (bound acc : N) (s : str) : option N :=
  match s with
  | [] => Some acc
  | c :: tl =>
    if (48 <=? c) && (c <=? 57) then
      let v := acc * 10 + (c - 48) in
      if v <? bound then digits bound v tl else None
    else None
  end.
Definition parse (bound : N) (s : str) : option N :=
  match s with
  | [] => None
  | [c] => if (c =? 43) || (c =? 45) then None else digits bound 0 [c]
  | c :: tl => if c =? 43 then digits bound 0 tl else digits bound 0 s
  end.
Definition parse_u32 := parse (2 ^ 32).
Definition parse_u8 := parse 256.

Fixpoint str_eqb (a b : str) : bool :=
  match a, b with
  | [], [] => true
  | x :: a', y :: b' => (x =? y) && str_eqb a' b'
  | _, _ => false
  end.
Definition kw (s : string) (w : str) : bool := str_eqb (text_of s) w.

(** * The program *)

(** What it prints. *)
Inductive Printed :=
| PGot (v : value)                   (* 14, 28, 36 *)
| PId (v : value)                    (* 16 *)
| PBadU32 (w : str)                  (* 32 *)
| PBadMs (w : str) | PBadDur (w : str) | PBadRange (w : str)   (* 53-66, 85-94 *)
| PStarted | PStopped | PAcc (v : value)    (* 73, 81, 78 *)
| PStoppedWas (v : value)            (* 104 *)
| PReport                            (* 109-133 *)
| PDidntUnderstand (ws : list str).  (* 136 *)
(** What it does. *)
Inductive Out :=
| Print (p : Printed)
| Do (c : WbCall)                    (* calls a method of [WorkbookClient] *)
| Subscribe                          (* 71: subscribes to the accelerometer's topic, for 8 messages *)
| GetReport.                         (* 107 [get_schema_report] *)

(** Where it waits.  Times are in nanoseconds. *)
Inductive Repl :=
| Hello                              (* 13 *)
| HelloId                            (* 15 *)
| Prompt                             (* 23 *)
| Called (c : WbCall)                (* 27, 35, 43, 49, 99, 103 *)
| Subscribing (ms : N) (rg : AccelRange) (dur : N)   (* 71 *)
| Starting (dur : N)                 (* 72 *)
| Receiving (until : N)              (* 77 *)
| Stopping                           (* 80 *)
| Reporting                          (* 107 *)
| Died.                              (* it panicked *)
(** What it waits for.  [now] is the time at which [start.elapsed()] is asked for next. *)
Inductive Inp :=
| Line (l : str)                     (* a line was read; [] at the end of the input *)
| Answer (r : WbResult) (now : N)    (* the call returned *)
| Subscribed (ok : bool)
| Received (v : option value) (now : N)   (* [recv] returned; [None]: it lagged, or the client was closed *)
| Report (ok : bool).

Definition call (c : WbCall) : Repl * list Out := (Called c, [Do c]).
Definition complain (p : Printed) : Repl * list Out := (Prompt, [Print p]).
(** 60-69, 88-97 *)
Definition range_of (w : str) : option AccelRange :=
  if kw "2" w then Some G2 else if kw "4" w then Some G4 else if kw "8" w then Some G8 else if kw "16" w then Some G16 else None.

(** 25-138 *)
Definition command (ws : list str) : Repl * list Out :=
  match ws with
  | [a] =>
    if kw "ping" a then call (Ping 42)                                        (* 26-29 *)
    else if kw "schema" a then (Reporting, [GetReport])                       (* 106-107 *)
    else complain (PDidntUnderstand ws)
  | [a; n] =>
    if kw "ping" a then match parse_u32 n with Some v => call (Ping v) | None => complain (PBadU32 n) end   (* 30-37 *)
    else if kw "accel" a && kw "stop" n then call StopAccelerometer           (* 102-103 *)
    else complain (PDidntUnderstand ws)
  | [a; b; c; d] =>
    if kw "rgball" a then                                                     (* 45-50 *)
      match parse_u8 b, parse_u8 c, parse_u8 d with
      | Some r, Some g, Some b => call (SetAllRgbSingle r g b)
      | _, _, _ => (Died, [])
      end
    else if kw "accel" a && kw "start" b then                                 (* 83-99 *)
      match parse_u32 c with
      | None => complain (PBadMs c)
      | Some ms => match range_of d with Some rg => call (StartAccelerometer ms rg) | None => complain (PBadRange d) end
      end
    else complain (PDidntUnderstand ws)
  | [a; b; c; d; e] =>
    if kw "rgb" a then                                                        (* 38-44 *)
      match parse_u32 b, parse_u8 c, parse_u8 d, parse_u8 e with
      | Some p, Some r, Some g, Some b => call (SetRgbSingle p r g b)
      | _, _, _, _ => (Died, [])
      end
    else if kw "accel" a && kw "listen" b then                                (* 51-71 *)
      match parse_u32 c with
      | None => complain (PBadMs c)
      | Some ms =>
        match parse_u32 e with
        | None => complain (PBadDur e)
        | Some dur => match range_of d with Some rg => (Subscribing ms rg dur, [Subscribe]) | None => complain (PBadRange d) end
        end
      end
    else complain (PDidntUnderstand ws)
  | _ => complain (PDidntUnderstand ws)
  end.

(** What follows a call that returned [Ok(v)]. *)
Definition say (c : WbCall) (v : value) : list Out :=
  match c with
  | Ping _ => [Print (PGot v)]
  | GetId => [Print (PId v)]
  | StartAccelerometer _ _ => [Print PStarted]
  | StopAccelerometer => [Print (PStoppedWas v)]
  | SetRgbSingle _ _ _ _ | SetAllRgbSingle _ _ _ => []
  end.
(** 76: the condition of the loop *)
Definition listen (until now : N) : Repl * list Out :=
  if now <? until then (Receiving until, []) else (Stopping, [Do StopAccelerometer]).

(** 9-140: every [unwrap] of an error ends the program. *)
Definition repl_step (s : Repl) (i : Inp) : option (Repl * list Out) :=
  match s, i with
  | Hello, Answer (WOk v) _ => Some (HelloId, [Print (PGot v); Do GetId])
  | HelloId, Answer (WOk v) _ => Some (Prompt, [Print (PId v)])
  | Prompt, Line l => Some (command (split_whitespace l))
  | Called c, Answer (WOk v) _ => Some (Prompt, say c v)
  | Subscribing ms rg dur, Subscribed true => Some (Starting dur, [Do (StartAccelerometer ms rg)])
  | Starting dur, Answer (WOk _) now =>                                      (* 72-76 *)
    let '(s', os) := listen (now + dur * 1000000) now in Some (s', Print PStarted :: os)
  | Receiving until, Received (Some v) now => let '(s', os) := listen until now in Some (s', Print (PAcc v) :: os)
  | Stopping, Answer (WOk _) _ => Some (Prompt, [Print PStopped])
  | Reporting, Report true => Some (Prompt, [Print PReport])
  | (Hello | HelloId | Called _ | Starting _ | Stopping), Answer _ _ => Some (Died, [])
  | Subscribing _ _ _, Subscribed false => Some (Died, [])
  | Receiving _, Received None _ => Some (Died, [])
  | Reporting, Report false => Some (Died, [])
  | _, _ => None
  end.
Fixpoint repl_run (is : list Inp) (s : Repl) : option (Repl * list Out) :=
  match is with
  | [] => Some (s, [])
  | i :: tl =>
    match repl_step s i with
    | Some (s', os) => match repl_run tl s' with Some (s'', os') => Some (s'', os ++ os') | None => None end
    | None => None
    end
  end.
(** 11-13 *)
Definition repl_start : Repl * list Out := (Hello, [Do (Ping 42)]).
