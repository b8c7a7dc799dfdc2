(** Vocabulary for the workbook example as a whole. *)
From Coq Require Import NArith List Bool Arith.
From Verif Require Import KeyModel HeaderModel SchemaModel MacroModel DispatchModel SubModel ClientModel ClientSpec
  CodecModel CodecStdModel WorkbookModel WorkbookSpec WbSysModel UsbSpec.
From Verif Require Import SystemSpec StateSpec.
Import ListNotations.

(** Arguments of the methods are of the types the methods declare. *)
Definition call_ok (c : WbCall) : Prop :=
  match c with
  | Ping id => id < 2 ^ 32
  | GetId | StopAccelerometer => True
  | SetRgbSingle p r g b => p < 2 ^ 32 /\ r < 256 /\ g < 256 /\ b < 256
  | SetAllRgbSingle r g b => r < 256 /\ g < 256 /\ b < 256
  | StartAccelerometer ms _ => ms < 2 ^ 32
  end%N.

(** What a call asks of the lights. *)
Definition light_op (c : WbCall) : list LedOp :=
  match c with
  | SetRgbSingle p r g b => [SetLed p (MkRgb r g b)]
  | SetAllRgbSingle r g b => [SetAll (repeat (MkRgb r g b) 24)]
  | _ => []
  end.
(** What the calls with these numbers, in this order, ask of the lights. *)
Definition light_ops (calls : list WbCall) (order : list nat) : list LedOp :=
  flat_map (fun r => match nth_error calls r with Some c => light_op c | None => [] end) order.

(** What a method returns, if it returns anything but a failure to communicate, on a
    device with this id. *)
Definition right_result (id : N) (c : WbCall) (res : WbResult) : Prop :=
  match c with
  | Ping n => res = WOk (VUInt W32 n)
  | GetId => res = WOk (VUInt W64 id)
  | SetRgbSingle p _ _ _ => res = if (p <? 24)%N then WOk VUnitVal else WBadPosition
  | SetAllRgbSingle _ _ _ | StartAccelerometer _ _ => res = WOk VUnitVal
  | StopAccelerometer => exists b, res = WOk (VBool b)
  end.

(** The user of the client made these calls, in this order, and no other requests. *)
Definition made (for_path : NamedType -> str -> Key8) (std : StdKeys) (cl : list Label) (calls : list WbCall) : Prop :=
  filter (fun l => match l with LRequest _ _ _ | LRequestRaw _ _ => true | _ => false end) cl = map (wb_request for_path std) calls.

(** The device [c], once it is at rest: its lights are as the requests [os], one after the
    other, left them, it shows them, and its id is what it was. *)
Definition lit (id : N) (os : list LedOp) (c : Wb) : Prop :=
  unique_id c = id /\
  (forall i, i < 24 -> nth i (leds (lights c)) (MkRgb 0 0 0) = colour i os (MkRgb 0 0 0)) /\
  ((exists o, In o os /\ match o with SetLed p _ => (p < 24)%N | SetAll _ => True end) -> shown (lights c) = leds (lights c)).

(** [a] comes before [b]. *)
Definition comes_before (order : list nat) (a b : nat) : Prop := exists x y z, order = x ++ a :: y ++ b :: z.

(** What the calls returned, and what became of the lights, is as if the device had
    handled calls one after the other in this order:
    - each at most once, and in the order in which they were accepted for sending,
    - if a call had returned a reply when another one was made, then not after that one,
    - all the calls that returned "done" or "bad position" to the lights,
    - and all calls returned what they ought to, unless they returned a failure to
      communicate, which, if [whole], no call with a reply did. *)
Record works (cl : list Label) (es : list (list Ev)) (id : N) (calls : list WbCall) (order : list nat) (whole : Prop) : Prop := {
  wk_once : NoDup order;
  wk_made : forall r, In r order -> r < length calls;
  wk_order : subsequence (map inl order) (accepted cl es);
  wk_time : forall r1 r2, returned_before cl es r1 r2 -> ~ comes_before order r2 r1;
  wk_done : forall r c res, nth_error calls r = Some c -> In (r, res) (results es) -> wb_result c res <> WComms ->
    light_op c <> [] -> In r order;
  wk_right : forall r c res, nth_error calls r = Some c -> In (r, res) (results es) -> wb_result c res <> WComms ->
    right_result id c (wb_result c res);
  wk_comms : whole -> forall r c f, nth_error calls r = Some c -> In (r, GotReply f) (results es) -> wb_result c (GotReply f) <> WComms }.

(** The program awaits every call before it makes the next one, and every call returns a
    reply that is not a failure to communicate. *)
Definition one_by_one (cl : list Label) (es : list (list Ev)) (calls : list WbCall) : Prop :=
  (forall r, S r < length calls -> returned_before cl es r (S r)) /\
  (forall r c, nth_error calls r = Some c -> exists res, In (r, res) (results es) /\ wb_result c res <> WComms).
