(** Vocabulary for the statement that a device behaves like one sequential object: what
    its handlers keep in the context is passed on from handler to handler, in one order,
    and every reply is the result of its call's turn in that order. *)
From Coq Require Import NArith List Bool Arith.
From Verif Require Import KeyModel HeaderModel KeySpec HeaderSpec MinKeyModel SchemaModel MacroModel PostcardModel DispatchModel DispatchSpec
  SubModel ClientModel ClientSpec SystemModel SystemSpec TypedSpec.
From Verif Require Import UsbSpec.
From Verif Require Import DispatchModel DispatchSpec.
Import ListNotations.

Section Spec.
  Context {Val Ctx SCtx : Type}.
  Variable std : StdKeys.
  Variable ea : list (EpArm Val Ctx).
  Variable ta : list (TpArm Val Ctx).
  Variable task : nat -> SCtx -> VarHeader -> Val -> HProg Val unit.
  Variable spawn_ctxt : Ctx -> Ctx * SCtx.
  Variable d : Dispatcher Val Ctx.
  (** What the user of the client did. *)
  Variable cl : list Label.

  (** One turn of the device: *)
  Inductive Turn :=
      (** the handler [a] of an endpoint runs on the argument [v] of request [r] and
          returns [w], *)
  | Called (r : nat) (a : EpArm Val Ctx) (h : VarHeader) (v w : Val)
      (** the handler [a] of a topic runs on the message [v], the client's publication [i], *)
  | Told (i : nat) (a : TpArm Val Ctx) (h : VarHeader) (v : Val)
      (** a task is to be spawned, with the context [sc], for request [r], respectively
          publication [i]. *)
  | CallSpawned (r : nat) (a : EpArm Val Ctx) (h : VarHeader) (v : Val) (sc : SCtx)
  | ToldSpawned (i : nat) (a : TpArm Val Ctx) (h : VarHeader) (v : Val) (sc : SCtx).

  (** The call whose turn it is. *)
  Definition call_of (t : Turn) : nat + nat :=
    match t with
    | Called r _ _ _ _ | CallSpawned r _ _ _ _ => inl r
    | Told i _ _ _ | ToldSpawned i _ _ _ _ => inr i
    end.

  (** Request [r] of the client was for the endpoint of [a] and carried the argument [v];
      [h] is its header, but for the length of the key. *)
  Definition request_of (r : nat) (a : EpArm Val Ctx) (h : VarHeader) (v : Val) : Prop :=
    In a ea /\ varkey_eqb (VKey8 (ea_req _ _ a)) (hdr_key h) = true /\
    exists body resp, nth_error (issued 0 cl) r = Some (MkFrame (MkHeader (VKey8 (ea_req _ _ a)) (hdr_seq h)) body, resp) /\
      ea_deser _ _ a body = Some v.
  (** Likewise for publication [i]. *)
  Definition message_of (i : nat) (a : TpArm Val Ctx) (h : VarHeader) (v : Val) : Prop :=
    In a ta /\ varkey_eqb (VKey8 (ta_key _ _ a)) (hdr_key h) = true /\
    exists body, nth_error (published cl) i = Some (MkFrame (MkHeader (VKey8 (ta_key _ _ a)) (hdr_seq h)) body) /\
      ta_deser _ _ a body = Some v.

  (** What a turn makes of the context. *)
  Inductive goes : Ctx -> Turn -> Ctx -> Prop :=
  | go_called r a h v w c c' : request_of r a h v -> ea_flavor _ _ a <> Spawn ->
      may_return (ea_run _ _ a c h v) (c', w) -> goes c (Called r a h v w) c'
  | go_told i a h v c c' : message_of i a h v -> ta_flavor _ _ a <> Spawn ->
      may_return (ta_run _ _ a c h v) c' -> goes c (Told i a h v) c'
  | go_call_spawned r a h v sc c c' : request_of r a h v -> ea_flavor _ _ a = Spawn ->
      spawn_ctxt c = (c', sc) -> goes c (CallSpawned r a h v sc) c'
  | go_told_spawned i a h v sc c c' : message_of i a h v -> ta_flavor _ _ a = Spawn ->
      spawn_ctxt c = (c', sc) -> goes c (ToldSpawned i a h v sc) c'.

  (** From the context [c], the turns [ts], one after the other, lead to [c']. *)
  Inductive path : Ctx -> list Turn -> Ctx -> Prop :=
  | path_nil c : path c [] c
  | path_cons c t c1 ts c' : goes c t c1 -> path c1 ts c' -> path c (t :: ts) c'.

  (** The event with which the turn begins on the device. *)
  Definition begins (e : Event Val SCtx) (t : Turn) : Prop :=
    match t with
    | Called _ a h v _ => e = EvRun (ea_name _ _ a) h v
    | Told _ a h v => e = EvRun (ta_name _ _ a) h v
    | CallSpawned _ a h v sc => exists ok, e = EvSpawn (ea_name _ _ a) sc h v ok
    | ToldSpawned _ a h v sc => exists ok, e = EvSpawn (ta_name _ _ a) sc h v ok
    end.

  (** [p] answers request [r] for the endpoint [req] with body [body] according to the
      turns [ts]: *)
  Inductive answered_in (ts : list Turn) (r : nat) (req : Key8) (body : list N) : Payload Val -> Prop :=
  | ai_ping n : req = ping_req std -> from_bytes_u32 body = Some n -> answered_in ts r req body (PPing n)
  | ai_schemas t : req = schemas_req std -> announces (d_map _ _ d) t -> answered_in ts r req body (PSchemaTotals t)
      (** it is what the handler returned in the call's turn, *)
  | ai_turn a h v w : ea_req _ _ a = req -> In (Called r a h v w) ts -> answered_in ts r req body (PVal w)
      (** or it was sent by the task that was spawned in the call's turn. *)
  | ai_task a h v sc p : ea_req _ _ a = req -> In (CallSpawned r a h v sc) ts ->
      may_send (task (ea_name _ _ a) sc h v) (ea_resp _ _ a) (hdr_seq h) p -> answered_in ts r req body p.

  (** What became of the client's steps. *)
  Variable es : list (list Ev).
  (** After some number of steps of the client, request [r1] had returned a reply, and
      request [r2] had not been made. *)
  Definition returned_before (r1 r2 : nat) : Prop :=
    exists n f, In (r1, GotReply f) (results (firstn n es)) /\ length (issued 0 (firstn n cl)) <= r2.
  (** Request [r1] has its turn before request [r2]. *)
  Definition turn_before (ts : list Turn) (r1 r2 : nat) : Prop :=
    exists x y z, map call_of ts = x ++ inl r1 :: y ++ inl r2 :: z.

  (** What the user of the client saw ([cl], [es]) and what began on the device ([tr]) is
      explained by the turns [ts], which take the context from [c0] to [c]:
      - what began on the device is what the turns begin with, in that order;
      - every call has at most one turn, and only calls accepted for sending have one;
      - turns come in the order in which the calls were accepted, in particular not against
        the order of time (if [ordered]);
      - every reply answers its request according to the turns (and is complete if [whole]). *)
  Record explained_by (enc : Payload Val -> list N) (c0 : Ctx) (ts : list Turn) (c : Ctx) (tr : Trace Val SCtx) (ordered whole : Prop) : Prop := {
    ex_path : path c0 ts c;
    ex_begins : Forall2 begins (filter (fun e => match e with EvSend _ _ _ _ => false | _ => true end) tr) ts;
    ex_once : NoDup (map call_of ts);
    ex_accepted : incl (map call_of ts) (accepted cl es);
    ex_order : ordered -> subsequence (map call_of ts) (accepted cl es);
    ex_time : ordered -> forall r1 r2, returned_before r1 r2 -> ~ turn_before ts r2 r1;
    ex_reply : forall r f, In (r, GotReply f) (results es) ->
      exists req resp body p,
        nth_error (issued 0 cl) r = Some (MkFrame (MkHeader (VKey8 req) (Seq4 (N.of_nat r))) body, resp) /\
        (exists missing, enc p = f_body f ++ missing) /\ (whole -> f_body f = enc p) /\
        answered_in ts r req body p }.
End Spec.
Arguments Turn : clear implicits.
