(** Vocabulary for statements about what came before what on the two sides of the link. *)
From Coq Require Import NArith List Bool Arith.
From Verif Require Import KeyModel HeaderModel MinKeyModel SchemaModel MacroModel PostcardModel SubModel ClientModel ClientSpec UsbSpec.
From Verif Require Import DispatchModel DispatchSpec SystemModel SystemSpec FlowSpec AsyncModel AsyncSpec.
Import ListNotations.

Section Spec.
  Context {Val Ctx SCtx : Type}.
  Variable std : StdKeys.
  Variable kkind : VarKeyKind.
  Variable enc : Payload Val -> list N.
  Variable ea : list (EpArm Val Ctx).
  Variable ta : list (TpArm Val Ctx).
  Variable task : nat -> SCtx -> VarHeader -> Val -> HProg Val unit.
  Variable d : Dispatcher Val Ctx.

  (** The messages that the device transmitted, in order. *)
  Definition messages (t : Trace Val SCtx) : list (VarHeader * Payload Val) :=
    flat_map (fun e => match e with EvSend _ h p _ => [(h, p)] | _ => [] end) t.
  (** The frame [f] is the message [m], of which the end may be missing, though not if
      [whole]. *)
  Definition is_message (whole : Prop) (f : RpcFrame) (m : VarHeader * Payload Val) : Prop :=
    f_hdr f = fst m /\ exists missing, enc (snd m) = f_body f ++ missing /\ (whole -> missing = []).
  (** The frames [fs] are, in this order, some of the messages transmitted in [t]. *)
  Definition come_from (whole : Prop) (fs : list RpcFrame) (t : Trace Val SCtx) : Prop :=
    exists ms, subsequence ms (messages t) /\ Forall2 (is_message whole) fs ms.

  (** The host's and the device's histories fit together: at any time in the history of
      the host ([n] steps) there is a time in that of the device so that
      - all that the host has received was transmitted before it,
      - all the handlers and tasks begun before it were begun for calls the host had
        made, each for another call,
      - the replies that calls have returned were transmitted before it, each after its
        handler had begun, and all that the host receives later was transmitted after
        those replies. *)
  Definition fit_together (whole : Prop) (cl : list Label) (es : list (list Ev)) (tr : Trace Val SCtx) : Prop :=
    forall n, exists before after, tr = before ++ after /\
      come_from whole (arrived (firstn n cl)) before /\
      (exists calls, Forall2 (run_of ea ta (firstn n cl)) (invocations before) calls /\ NoDup calls) /\
      forall r f, In (r, GotReply f) (results (firstn n es)) ->
        exists t1 w h p res t2 req resp body, before = t1 ++ EvSend w h p res :: t2 /\
          h = out_header kkind resp (Seq4 (N.of_nat r)) /\ is_message whole f (h, p) /\
          nth_error (issued 0 cl) r = Some (MkFrame (MkHeader (VKey8 req) (Seq4 (N.of_nat r))) body, resp) /\
          answered std ea task d t1 req (N.of_nat r) body p /\
          come_from whole (arrived (skipn n cl)) (t2 ++ after).
End Spec.
