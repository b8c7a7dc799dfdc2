(** Vocabulary for statements about calls that reach their handlers. *)
From Coq Require Import NArith List Bool Arith.
From Verif Require Import KeyModel HeaderModel MinKeyModel DispatchModel DispatchSpec SubModel ClientModel ClientSpec SystemModel SystemSpec FlowSpec.
Import ListNotations.

Section Spec.
  Context {Val Ctx SCtx : Type}.
  Variable std : StdKeys.
  Variable ea : list (EpArm Val Ctx).
  Variable ta : list (TpArm Val Ctx).

  (** Of the handlers listed for an endpoint, respectively a topic, the first one is in
      charge; the two standard endpoints are answered by the dispatcher itself. *)
  Definition in_charge (a : EpArm Val Ctx) : Prop :=
    exists before after, ea = before ++ a :: after /\ ~ In (ea_req _ _ a) (ping_req std :: schemas_req std :: map (@ea_req _ _) before).
  Definition in_charge_topic (a : TpArm Val Ctx) : Prop :=
    exists before after, ta = before ++ a :: after /\ ~ In (ta_key _ _ a) (map (@ta_key _ _) before).

  (** Request [r] ([inl r]), respectively publication [i] ([inr i]), of the history [cl]
      is for an endpoint or topic with a handler, and its body can be decoded. *)
  Definition has_handler (cl : list Label) (call : nat + nat) : Prop :=
    match call with
    | inl r => exists a seq body resp v, in_charge a /\
        nth_error (issued 0 cl) r = Some (MkFrame (MkHeader (VKey8 (ea_req _ _ a)) seq) body, resp) /\ ea_deser _ _ a body = Some v
    | inr i => exists a seq body v, in_charge_topic a /\
        nth_error (published cl) i = Some (MkFrame (MkHeader (VKey8 (ta_key _ _ a)) seq) body) /\ ta_deser _ _ a body = Some v
    end.

  (** [b] is the frame of that call on the link, at some key length. *)
  Definition call_frame (cl : list Label) (call : nat + nat) (b : list N) : Prop :=
    exists g kk, b = rpc_to_bytes (shrink_frame kk g) /\
      match call with
      | inl r => exists resp, nth_error (issued 0 cl) r = Some (g, resp)
      | inr i => nth_error (published cl) i = Some g
      end.

  (** The executor had room for every task that a handler asked it to run. *)
  Definition all_spawned (tr : Trace Val SCtx) : Prop := forall n sc h v, ~ In (EvSpawn n sc h v false) tr.

  (** The handlers that ran are exactly those for [calls], one run for each. *)
  Definition ran_for (cl : list Label) (es : list (list Ev)) (tr : Trace Val SCtx) (calls : list (nat + nat)) : Prop :=
    Forall2 (run_of ea ta cl) (invocations tr) calls /\ NoDup calls /\ incl calls (accepted cl es).
End Spec.
