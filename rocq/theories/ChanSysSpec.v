(** Vocabulary for statements about the whole system over bounded channels. *)
From Coq Require Import NArith List Bool Arith.
From Verif Require Import KeyModel HeaderModel SchemaModel MacroModel DispatchModel SubModel ClientModel ClientSpec SystemModel SystemSpec LiveSpec AsyncModel AsyncSpec
  ChanModel ChanSysModel.
Import ListNotations.

(** The steps that the program takes on its own: the futures of requests and
    publications, the workers of the client, the server and the tasks.  The other steps
    are taken by the user of the client or the owner of the server. *)
Definition c_own_step (l : CLabel) : bool :=
  match l with
  | CClient (LInEnd | LOutEnd _) => true
  | CClient l => own_step (SClient l)
  | COut | CRecv | CServe _ | CSend _ _ => true
  | CStop | CDrop => false
  end.

Section Spec.
  Context {Val Ctx SCtx : Type}.
  (** The client, and what the server did. *)
  Definition cs_client (c : CSys Val Ctx SCtx) : Client := y_client _ _ _ (a_sys _ _ _ (cs_a _ _ _ c)).
  Definition cs_trace (c : CSys Val Ctx SCtx) : Trace Val SCtx := y_trace _ _ _ (a_sys _ _ _ (cs_a _ _ _ c)).
  (** [Server::run] returned. *)
  Definition run_returned (c : CSys Val Ctx SCtx) : Prop :=
    a_cur _ _ _ (cs_a _ _ _ c) = None /\ (cs_ended _ _ _ c = true \/ y_serving _ _ _ (a_sys _ _ _ (cs_a _ _ _ c)) = false).
  (** Every task finished. *)
  Definition tasks_done (c : CSys Val Ctx SCtx) : Prop := Forall (fun t => t = HRet tt) (y_tasks _ _ _ (a_sys _ _ _ (cs_a _ _ _ c))).
End Spec.
