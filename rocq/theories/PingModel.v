(** The first host program of the workbook, which pings ten times, and the client it uses:
    example/workbook-host/src/bin/comms-01.rs on client.rs on host_client/mod.rs. *)
From Coq Require Import NArith List Bool Arith.
From Verif Require Import KeyModel HeaderModel SchemaModel MacroModel DispatchModel SubModel ClientModel ClientSpec
  CodecModel CodecStdModel WorkbookModel WbSysModel.
Import ListNotations.

(** What is printed: comms-01.rs:25, 27, 13, 16. *)
Inductive PLine := Pinging (i : N) | GotBack (v : N) | ClosedExiting | AppDone.

(** Where the program is: waiting for the ticker (24), waiting for the answer to [ping(i)]
    (26), ended, or panicked (26 [unwrap], 28 [assert_eq!]). *)
Inductive PAt := Waits (i : N) | Pinged (i : N) | Ended | Panics.

(** What the program is told: the ticker ticks; the call returns; [wait_closed] returns.
    [tokio::select!] (11-18) polls its branches in random order: if several of these are
    possible, any of them may come first. *)
Inductive PIn := Ticks | Returns (res : WbResult) | ClosedNow.

(** 11-29; [None]: the program is not waiting for this. *)
Definition p_step (s : PAt) (x : PIn) : option (PAt * list PLine * list WbCall) :=
  match s, x with
  | Waits i, Ticks => Some (Pinged i, [Pinging i], [Ping i])
  | Pinged i, Returns (WOk (VUInt W32 v)) =>
    if (v =? i)%N
    then if (i + 1 <? 10)%N then Some (Waits (i + 1), [GotBack v], []) else Some (Ended, [GotBack v; AppDone], [])
    else Some (Panics, [GotBack v], [])
  | Pinged _, Returns _ => Some (Panics, [], [])
  | Waits _, ClosedNow | Pinged _, ClosedNow => Some (Ended, [ClosedExiting], [])
  | _, _ => None
  end.

Section J.
  Variable for_path : NamedType -> str -> Key8.
  Variable std : StdKeys.

  (** A step of the client that is not the making of a call; the ticker ticks, and the client
      does [e] with the call; the call that the program awaits returns; the program is told
      that the client is closed. *)
  Inductive PLabel := PClient (l : Label) (e : list Ev) | PTick (e : list Ev) | PReturn | PClosed.

  (** The client's labels and what they led to; where the program is; what it has printed
      and called. *)
  Record PJoint := MkPJoint { p_cl : list Label; p_es : list (list Ev); p_at : PAt; p_out : list PLine; p_calls : list WbCall }.
  Definition ping_start : PJoint := MkPJoint [] [] (Waits 0) [] [].

  Definition p_tell (j : PJoint) (x : PIn) (es : list (list Ev)) : option PJoint :=
    match p_step (p_at j) x with
    | Some (s, out, cs) =>
      Some (MkPJoint (p_cl j ++ map (wb_request for_path std) cs) (p_es j ++ es) s (p_out j ++ out) (p_calls j ++ cs))
    | None => None
    end.
  Definition pj_step (l : PLabel) (j : PJoint) : option PJoint :=
    match l with
    | PClient (LRequest _ _ _) _ | PClient (LRequestRaw _ _) _ | PClient (LPublish _) _ => None   (* the program's own *)
    | PClient l e => Some (MkPJoint (p_cl j ++ [l]) (p_es j ++ [e]) (p_at j) (p_out j) (p_calls j))
    | PTick e => p_tell j Ticks [e]
    | PReturn =>
      match rev (p_calls j) with
      | [] => None
      | c :: before =>
        match find (fun x => fst x =? length before) (results (p_es j)) with
        | Some (_, res) => p_tell j (Returns (wb_result c res)) []
        | None => None
        end
      end
    | PClosed => p_tell j ClosedNow []
    end.
  Fixpoint pj_run (ls : list PLabel) (j : PJoint) : option PJoint :=
    match ls with
    | [] => Some j
    | l :: tl => match pj_step l j with Some j' => pj_run tl j' | None => None end
    end.
End J.
