(** Vocabulary for statements about log messages that travel through the whole system. *)
From Coq Require Import NArith Ascii String List Bool Arith.
From Verif Require Import KeyModel HeaderModel KeySpec MinKeyModel SchemaModel MacroModel SubModel ClientModel LogModel.
From Verif Require Import DispatchModel DispatchSpec SystemModel SystemSpec.
Import ListNotations.

(** The bytes of a text in ASCII. *)
Definition ascii (t : string) : list N := List.map N_of_ascii (list_ascii_of_string t).
(** What the example is to say. *)
Definition says_hello : list N := ascii "Hello world!".
Definition says_count (digits : list N) : list N := ascii "formatted: " ++ digits.

(** The text that a log call is to convey. *)
Definition call_text (c : LogCall) : list N :=
  match c with
  | LogStr s => s
  | LogFmt args => concat (map (fun p => match p with Text s => s | FmtError => [] end) args)
  end.
(** Nothing that is formatted raises an error. *)
Definition formats_well (c : LogCall) : Prop :=
  match c with LogStr _ => True | LogFmt args => ~ In FmtError args end.

(** What the subscription [id] gave its user, in order. *)
Definition recvs (cl : list Label) (es : list (list Ev)) (id : nat) : list RecvM :=
  flat_map (fun x => match x with
    | (LSub (ReceiveM i), [EvSub (OM o)]) => if i =? id then [o] else []
    | _ => []
    end) (combine cl es).

(** The texts in these frames. *)
Definition texts_of (fs : list RpcFrame) : list (list N) :=
  flat_map (fun f => match take_str (f_body f) with Some (s, _) => [s] | None => [] end) fs.

Section Spec.
  Context {Val Ctx SCtx : Type}.
  Variable std : StdKeys.
  Variable kkind : VarKeyKind.
  Variable ea : list (EpArm Val Ctx).
  Variable ta : list (TpArm Val Ctx).
  Variable task : nat -> SCtx -> VarHeader -> Val -> HProg Val unit.
  Variable bg : list (HProg Val unit).
  (** Of all the code on the server, only background task number [i] publishes on topic
      [k], and at the length of the keys that the server transmits the error key does not
      look like [k]. *)
  Definition only_publisher (k : Key8) (i : nat) : Prop :=
    k <> schema_topic std /\
    compact (klen kkind) (k8_bytes (error_key std)) <> compact (klen kkind) (k8_bytes k) /\
    (forall a ctx h v seq p, In a ea -> ~ may_send (ea_run _ _ a ctx h v) k seq p) /\
    (forall a ctx h v seq p, In a ta -> ~ may_send (ta_run _ _ a ctx h v) k seq p) /\
    (forall a sc h v seq p, In a ea -> ea_flavor _ _ a = Spawn -> ~ may_send (task (ea_name _ _ a) sc h v) k seq p) /\
    (forall a sc h v seq p, In a ta -> ta_flavor _ _ a = Spawn -> ~ may_send (task (ta_name _ _ a) sc h v) k seq p) /\
    (forall j t seq p, j <> i -> nth_error bg j = Some t -> ~ may_send t k seq p).
End Spec.
