(** Vocabulary for statements about calls that return. *)
From Coq Require Import NArith List Bool Arith.
From Verif Require Import KeyModel HeaderModel KeySpec MinKeyModel SchemaModel MacroModel DispatchModel DispatchSpec SubModel ClientModel ClientSpec SystemModel SystemSpec.
Import ListNotations.

(** The steps that the program takes on its own: the futures of requests and
    publications, the two workers of the client, the server, and the spawned tasks.
    The other steps are taken by the user (a new request, dropping a future, a new
    subscription, closing, ...) or by the environment (losses, failures of the
    transport). *)
Definition own_step (l : SysLabel) : bool :=
  match l with
  | SClient (LKind _ | LEnqOk _ | LEnqErr _ | LSend _ | LTakeOk _ | LTakeErr _ | LTakeClosed _
             | LPubSend _ | LPubClosed _ | LOutPop | LOutSent | LWake _ | LUnblock _) => true
  | SRecv _ | SServe _ | STask _ => true
  | _ => false
  end.

(** Nothing was lost or cut on the way. *)
Definition lossless (ls : list SysLabel) : Prop :=
  forall l, In l ls -> match l with SLoseUp _ | SLoseDown _ | SCutDown _ _ => False | _ => True end.

(** The frames that were lost on the way to the server in a history that started in [s],
    and those that were lost or cut short on the way to the client. *)
Section Lost.
  Context {Val Ctx SCtx : Type}.
  Variable stepping : SysLabel -> Sys Val Ctx SCtx -> option (Sys Val Ctx SCtx).
  Definition loses_up (l : SysLabel) (s : Sys Val Ctx SCtx) : list (list N) :=
    match l with SLoseUp i => match nth_error (y_up _ _ _ s) i with Some b => [b] | None => [] end | _ => [] end.
  Definition loses_down (l : SysLabel) (s : Sys Val Ctx SCtx) : list (list N) :=
    match l with
    | SLoseDown i | SCutDown i _ => match nth_error (y_down _ _ _ s) i with Some b => [b] | None => [] end
    | _ => []
    end.
  Fixpoint lost_up (ls : list SysLabel) (s : Sys Val Ctx SCtx) : list (list N) :=
    match ls with
    | [] => []
    | l :: tl => loses_up l s ++ match stepping l s with Some s' => lost_up tl s' | None => [] end
    end.
  Fixpoint lost_down (ls : list SysLabel) (s : Sys Val Ctx SCtx) : list (list N) :=
    match ls with
    | [] => []
    | l :: tl => loses_down l s ++ match stepping l s with Some s' => lost_down tl s' | None => [] end
    end.
End Lost.

(** [b] is the frame of the request [f], as the client sends it: with its key shortened to
    some length. *)
Definition request_frame (f : RpcFrame) (b : list N) : Prop := exists kk, b = rpc_to_bytes (shrink_frame kk f).
(** [b] is an answer to request [r]: a reply under [resp] or an error, with its sequence
    number. *)
Definition answer_frame (kk : VarKeyKind) (std : StdKeys) (resp : Key8) (r : nat) (b : list N) : Prop :=
  exists key body, (key = resp \/ key = error_key std) /\ b = rpc_to_bytes (MkFrame (out_header kk key (Seq4 (N.of_nat r))) body).

(** A program that, whatever becomes of its transmissions, sends a frame such that
    [P]. *)
Inductive surely_sends {Val R} (P : Key8 -> VarSeq -> Prop) : HProg Val R -> Prop :=
| ss_now key seq p k : P key seq -> surely_sends P (HSend key seq p k)
| ss_later key seq p k : (forall r, surely_sends P (k r)) -> surely_sends P (HSend key seq p k).

Section Spec.
  Context {Val Ctx SCtx : Type}.
  Variable std : StdKeys.
  Variable ea : list (EpArm Val Ctx).
  Variable task : nat -> SCtx -> VarHeader -> Val -> HProg Val unit.

  (** Spawned handlers answer: with the response of their endpoint, or with an
      error. *)
  Definition tasks_answer : Prop :=
    forall a sc h v, In a ea -> ea_flavor _ _ a = Spawn ->
      surely_sends (fun key seq => (key = ea_resp _ _ a \/ key = error_key std) /\ seq = hdr_seq h) (task (ea_name _ _ a) sc h v).
End Spec.

(** The topics that the user of the client subscribed to, at some time. *)
Definition topics_subscribed (cl : list Label) : list Key8 :=
  flat_map (fun l => match l with
    | LSub (SubscribeExclusive k _) | LSub (SubscribeLegacy k _) | LSub (SubscribeMulti k _) => [k]
    | _ => []
    end) cl.

(** No subscription is for a key that, at the key length [kk], looks like the error key
    or the response key of an endpoint. *)
Definition subscriptions_apart (kk : VarKeyKind) (std : StdKeys) (eps : EndpointMap) (cl : list Label) : Prop :=
  forall k k', In k (topics_subscribed cl) -> In k' (error_key std :: map ep_resp (em_endpoints eps)) ->
    compact (klen kk) (k8_bytes k) <> compact (klen kk) (k8_bytes k').
