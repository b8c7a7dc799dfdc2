(** Vocabulary for statements about who transmits what: one thread that dispatches frames
    and one for every task. *)
From Coq Require Import NArith List Bool Arith.
From Verif Require Import KeyModel HeaderModel MinKeyModel SchemaModel MacroModel PostcardModel DispatchModel SystemModel AsyncModel.
Import ListNotations.

(** A thread of the server: the dispatcher, with the handlers that it runs itself
    ([None]), or the task number [i] ([Some i]). *)
Definition thread : Type := option nat.
Definition thread_eqb (x y : thread) : bool :=
  match x, y with None, None => true | Some i, Some j => i =? j | _, _ => false end.

(** The part of the history [tr] that is due to thread [t], when [owners] says for every
    event whose it is. *)
Definition part_of {Val SCtx} (t : thread) (owners : list thread) (tr : Trace Val SCtx) : Trace Val SCtx :=
  map snd (filter (fun x => thread_eqb (fst x) t) (combine owners tr)).

Section Spec.
  Context {Val Ctx SCtx : Type}.
  Variable kkind : VarKeyKind.
  Variable task : nat -> SCtx -> VarHeader -> Val -> HProg Val unit.
  Variable bg : list (HProg Val unit).

  (** The program [p] transmits what [es] says, gets the results that [es] says, and [q]
      is what remains of it. *)
  Inductive says : HProg Val unit -> Trace Val SCtx -> HProg Val unit -> Prop :=
  | sy_nothing p : says p [] p
  | sy_send key seq p k r es q : says (k r) es q ->
      says (HSend key seq p k) (EvSend ByHandler (MkHeader (shrink_to (VKey8 key) kkind) seq) p r :: es) q.

  (** The tasks there are, by number: those that were there from the start, and then those
      that were spawned, with what each of them is to do. *)
  Definition programs (tr : Trace Val SCtx) : list (HProg Val unit) :=
    bg ++ flat_map (fun e => match e with EvSpawn n sc h v true => [task n sc h v] | _ => [] end) tr.

  (** The frames that the server took from its link in a history that started in [a]. *)
  Variable stepping : ALabel -> ASys Val Ctx SCtx -> option (ASys Val Ctx SCtx).
  Definition takes (l : ALabel) (a : ASys Val Ctx SCtx) : list (list N) :=
    match l with
    | ASystem (SServe i) => match nth_error (y_up _ _ _ (a_sys _ _ _ a)) i with Some b => [b] | None => [] end
    | _ => []
    end.
  Fixpoint taken (ls : list ALabel) (a : ASys Val Ctx SCtx) : list (list N) :=
    match ls with
    | [] => []
    | l :: tl => takes l a ++ match stepping l a with Some a' => taken tl a' | None => [] end
    end.

  (** Dispatching these frames, one after the other and each at once; frames without a
      header are ignored. *)
  Variable dispatch : Ctx -> VarHeader -> list N -> Trace Val SCtx -> Ctx * TxRes * Trace Val SCtx.
  Fixpoint dispatch_all (bs : list (list N)) (ctx : Ctx) (tr : Trace Val SCtx) : Ctx * Trace Val SCtx :=
    match bs with
    | [] => (ctx, tr)
    | b :: tl =>
      match take_from_slice b with
      | Done (Some (hdr, body)) => let '(ctx', _, tr') := dispatch ctx hdr body tr in dispatch_all tl ctx' tr'
      | _ => dispatch_all tl ctx tr
      end
    end.
End Spec.
