(** The prompt of the workbook's host program and the client it uses, together:
    example/workbook-host/src/bin/comms-02.rs on client.rs on host_client/mod.rs. *)
From Coq Require Import NArith List Bool Arith.
From Verif Require Import KeyModel HeaderModel SchemaModel MacroModel DispatchModel SubModel ClientModel ClientSpec
  CodecModel CodecStdModel WorkbookModel WbSysModel ReplModel ReplSpec.
Import ListNotations.

Section J.
  Variable for_path : NamedType -> str -> Key8.
  Variable std : StdKeys.

  Definition is_request (l : Label) : bool := match l with LRequest _ _ _ | LRequestRaw _ _ => true | _ => false end.

  (** What happens. *)
  Inductive JLabel :=
  | JClient (l : Label) (e : list Ev)            (* a step of the client that is not the making of a call *)
  | JPrompt (i : Inp) (es : list (list Ev))      (* the prompt reads a line, is subscribed, or receives a sample; [es]: what the
                                                    client does with the calls that the prompt makes thereupon *)
  | JReturn (now : N) (es : list (list Ev)).     (* the call that the prompt awaits returns *)

  (** The client's labels and what they led to; what the prompt was told, where it is, and
      what it has done. *)
  Record Joint := MkJoint { j_cl : list Label; j_es : list (list Ev); j_in : list Inp; j_at : Repl; j_out : list Out }.

  (** comms-02.rs:13: the first call is made at the start. *)
  Definition joint_start (e : list Ev) : Joint := MkJoint [wb_request for_path std (Ping 42)] [e] [] Hello [Do (Ping 42)].

  (** The prompt goes on: the calls it makes are requests of the client. *)
  Definition j_tell (j : Joint) (i : Inp) (es : list (list Ev)) : option Joint :=
    match repl_step (j_at j) i with
    | Some (s, os) =>
      if length es =? length (calls os)
      then Some (MkJoint (j_cl j ++ map (wb_request for_path std) (calls os)) (j_es j ++ es) (j_in j ++ [i]) s (j_out j ++ os))
      else None
    | None => None
    end.
  Definition j_step (l : JLabel) (j : Joint) : option Joint :=
    match l with
    | JClient l e =>
      match l with
      | LRequest _ _ _ | LRequestRaw _ _ => None        (* made by the prompt only *)
      | LPublish _ => None                              (* the program publishes nothing *)
      | _ => Some (MkJoint (j_cl j ++ [l]) (j_es j ++ [e]) (j_in j) (j_at j) (j_out j))
      end
    | JPrompt (Answer _ _) _ => None                    (* see [JReturn] *)
    | JPrompt (Report _) _ => None                      (* [schema] is left out: its requests are not those of [WorkbookClient] *)
    | JPrompt i es => j_tell j i es
    | JReturn now es =>                                 (* the last call; a request returns only once *)
      match rev (calls (j_out j)) with
      | [] => None
      | c :: before =>
        match find (fun x => fst x =? length before) (results (j_es j)) with
        | Some (_, res) => j_tell j (Answer (wb_result c res) now) es
        | None => None
        end
      end
    end.
  Fixpoint j_run (ls : list JLabel) (j : Joint) : option Joint :=
    match ls with
    | [] => Some j
    | l :: tl => match j_step l j with Some j' => j_run tl j' | None => None end
    end.
End J.
