(** Vocabulary for statements about one client after another. *)
From Coq Require Import NArith List Bool Arith.
From Verif Require Import KeyModel HeaderModel HeaderSpec MinKeyModel SchemaModel MacroModel PostcardModel DispatchModel DispatchSpec
  SubModel ClientModel SystemModel SystemSpec AsyncModel.
Import ListNotations.

Section Spec.
  Context {Val Ctx SCtx : Type}.
  Variable tout : TopicMap.

  (** This code publishes on declared topics, and transmits nothing else: in particular
      no answer to a request. *)
  Definition only_publishes (t : HProg Val unit) : Prop :=
    forall key seq p, may_send t key seq p -> is_topic_out tout key /\ seq_ok seq.

  (** Nobody is waiting for the device, and it owes nobody an answer: no frame is in the
      link, no frame is being dispatched, and the tasks that are still running only
      publish. *)
  Definition settled (a : ASys Val Ctx SCtx) : Prop :=
    a_cur _ _ _ a = None /\ y_up _ _ _ (a_sys _ _ _ a) = [] /\ y_down _ _ _ (a_sys _ _ _ a) = [] /\
    Forall only_publishes (y_tasks _ _ _ (a_sys _ _ _ a)).

  (** [tr] is what the server did between [a] and [a']. *)
  Definition did (a a' : ASys Val Ctx SCtx) (tr : Trace Val SCtx) : Prop :=
    y_trace _ _ _ (a_sys _ _ _ a') = y_trace _ _ _ (a_sys _ _ _ a) ++ tr.
End Spec.
