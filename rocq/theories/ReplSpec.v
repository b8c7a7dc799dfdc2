(** What may be typed at the workbook's prompt, and what it means. *)
From Coq Require Import Ascii String NArith List Bool.
From Verif Require Import KeyModel HeaderModel SchemaModel CodecModel WorkbookModel WbSysModel ReplModel.
Import ListNotations.

(** The characters that Unicode calls white space. *)
Definition white : list N :=
  [9; 10; 11; 12; 13; 32; 133; 160; 5760; 8192; 8193; 8194; 8195; 8196; 8197; 8198; 8199; 8200; 8201; 8202; 8232; 8233; 8239; 8287; 12288]%N.
Definition blank (s : str) : Prop := Forall (fun c => In c white) s.
Definition word (s : str) : Prop := s <> [] /\ Forall (fun c => ~ In c white) s.
(** The line is made of these words, with white space between them and maybe around. *)
Inductive words : str -> list str -> Prop :=
| words_none s : blank s -> words s []
| words_last s w s' : blank s -> word w -> blank s' -> words (s ++ w ++ s') [w]
| words_more s w s' l ws : blank s -> word w -> blank s' -> s' <> [] -> words l ws -> words (s ++ w ++ s' ++ l) (w :: ws).

(** The number in decimal, maybe with zeros and a plus sign in front. *)
Definition decimal (w : str) (v : N) : Prop :=
  exists ds, ds <> [] /\ Forall (fun d => (d < 10)%N) ds /\ v = fold_left (fun a d => 10 * a + d)%N ds 0%N /\
    (w = map (fun d => 48 + d)%N ds \/ w = 43%N :: map (fun d => 48 + d)%N ds).
Definition number (bound : N) (w : str) (v : N) : Prop := decimal w v /\ (v < bound)%N.
Definition a_range (w : str) (r : AccelRange) : Prop :=
  w = text_of (match r with G2 => "2" | G4 => "4" | G8 => "8" | G16 => "16" end).

(** The commands that make one call. *)
Inductive asks : list str -> WbCall -> Prop :=
| ask_ping : asks [text_of "ping"] (Ping 42)
| ask_ping_n n v : number (2 ^ 32) n v -> asks [text_of "ping"; n] (Ping v)
| ask_rgb p r g b vp vr vg vb : number (2 ^ 32) p vp -> number 256 r vr -> number 256 g vg -> number 256 b vb ->
    asks [text_of "rgb"; p; r; g; b] (SetRgbSingle vp vr vg vb)
| ask_all r g b vr vg vb : number 256 r vr -> number 256 g vg -> number 256 b vb ->
    asks [text_of "rgball"; r; g; b] (SetAllRgbSingle vr vg vb)
| ask_start ms rg vms vrg : number (2 ^ 32) ms vms -> a_range rg vrg ->
    asks [text_of "accel"; text_of "start"; ms; rg] (StartAccelerometer vms vrg)
| ask_stop : asks [text_of "accel"; text_of "stop"] StopAccelerometer.
(** Listening to the accelerometer for some milliseconds. *)
Inductive asks_to_listen : list str -> N -> AccelRange -> N -> Prop :=
| ask_listen ms rg dur vms vrg vdur : number (2 ^ 32) ms vms -> a_range rg vrg -> number (2 ^ 32) dur vdur ->
    asks_to_listen [text_of "accel"; text_of "listen"; ms; rg; dur] vms vrg vdur.
(** Colours that are none. *)
Definition bad_colour (ws : list str) : Prop :=
  (exists p r g b, ws = [text_of "rgb"; p; r; g; b] \/ ws = [text_of "rgball"; r; g; b]) /\ (forall c, ~ asks ws c).

(** The calls that a command stands for. *)
Definition obeyed (ws : list str) (cs : list WbCall) : Prop :=
  (exists c, asks ws c /\ cs = [c]) \/
  (exists ms rg dur, asks_to_listen ws ms rg dur /\ cs = [StartAccelerometer ms rg; StopAccelerometer]) \/
  ((forall c, ~ asks ws c) /\ (forall ms rg dur, ~ asks_to_listen ws ms rg dur) /\ cs = []).

Definition lines (is : list Inp) : list str := flat_map (fun i => match i with Line l => [l] | _ => [] end) is.
Definition received (is : list Inp) : list value := flat_map (fun i => match i with Received (Some v) _ => [v] | _ => [] end) is.
Definition calls (os : list Out) : list WbCall := flat_map (fun o => match o with Do c => [c] | _ => [] end) os.
Definition shown_samples (os : list Out) : list value := flat_map (fun o => match o with Print (PAcc v) => [v] | _ => [] end) os.
(** Nothing went wrong: all calls, the subscription, all receptions and reports succeeded. *)
Definition all_well (is : list Inp) : Prop :=
  Forall (fun i => match i with
                   | Line _ => True | Answer (WOk _) _ => True | Answer _ _ => False
                   | Subscribed ok => ok = true | Received v _ => v <> None | Report ok => ok = true
                   end) is.
