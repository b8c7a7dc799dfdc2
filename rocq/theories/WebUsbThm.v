(** Property theorems C61 and C62: the WebUSB transport. *)
From Coq Require Import NArith List Bool Arith Lia.
From Verif Require Import UsbModel UsbSpec UsbProof UsbThm WebUsbModel.
Import ListNotations.

(** ** C61 Host to device over WebUSB *)

(** A run of frames is one frame per frame only if none but the last has a length
    that is a multiple of 64: what the device receives is the frames joined up to
    the next frame of another length. *)
Fixpoint joined (acc : list N) (frames : list (list N)) : list (list N) * list N :=
  match frames with
  | [] => ([], acc)
  | f :: tl =>
    if length f mod 64 =? 0 then joined (acc ++ f) tl
    else let (fs, r) := joined [] tl in ((acc ++ f) :: fs, r)
  end.

Lemma packed_join a ca : packed a ca -> forall b cb, length a mod 64 = 0 -> packed b cb -> packed (a ++ b) (ca ++ cb).
Proof.
  induction 1 as [|l H1 H2|c l chs Hc P IH]; intros b cb M Pb.
  - exact Pb.
  - rewrite Nat.mod_small in M by lia. lia.
  - rewrite <- app_assoc. cbn [app]. apply (packed_full c (l ++ b) (chs ++ cb) Hc). apply IH; auto.
    rewrite app_length, (mod64_add (length c)) in M by auto. exact M.
Qed.

Lemma packed_nonempty_cons f : f <> [] -> webusb_send f = chunks 64 f.
Proof. destruct f; [congruence|reflexivity]. Qed.

Lemma receives_joined c B frames : forall acc ca fs part,
  Forall (fun f => f <> []) frames -> packed acc ca -> length acc mod 64 = 0 ->
  joined acc frames = (fs, part) -> Forall (fun f => fits B (length f)) fs ->
  exists cp, packed part cp /\ length part mod 64 = 0 /\
    receives c B (map Pkt (ca ++ flat_map webusb_send frames)) (map RGot fs) (map Pkt cp).
Proof.
  induction frames as [|f frames IH]; intros acc ca fs part Ne P M J F; cbn [joined flat_map] in *.
  - injection J as <- <-. exists ca. rewrite app_nil_r. split; auto. split; auto. constructor.
  - inversion Ne as [|? ? N1 N2]; subst. rewrite packed_nonempty_cons by auto.
    pose proof (packed_join acc ca P f _ M (chunks_packed f)) as PJ.
    assert (LM : length (acc ++ f) mod 64 = length f mod 64).
    { rewrite app_length, Nat.add_mod, M by lia. cbn [Nat.add]. now rewrite Nat.mod_mod by lia. }
    destruct (Nat.eqb_spec (length f mod 64) 0) as [Z|Z].
    + rewrite app_assoc. apply (IH (acc ++ f) _ fs part); auto. now rewrite LM.
    + destruct (joined [] frames) as [fs' r'] eqn:J'. injection J as <- <-.
      inversion F as [|? ? Ft F']; subst.
      destruct (IH [] [] fs' r' N2 packed_nil eq_refl J' F') as (cp & Pp & Mp & R).
      exists cp. split; auto. split; auto. rewrite app_assoc, map_app. cbn [map].
      econstructor; [|discriminate|exact R].
      destruct Ft as [L N].
      pose proof (fill_fits c B (acc ++ f) _ (map Pkt (flat_map webusb_send frames)) PJ [] L) as FF.
      rewrite LM in FF. destruct (Nat.eqb_spec (length f mod 64) 0) as [|_]; [contradiction|].
      rewrite app_nil_r in FF. unfold receive. rewrite FF; [reflexivity|].
      intros [E1 E2]. lia.
Qed.

(** What the device receives, exactly: the joined frames (if they fit), and the
    frames after the last join wait in an unfinished receive. *)
Theorem C61_joined_partial :
  forall consumes buflen frames, Forall (fun f => f <> []) frames ->
    let '(fs, unfinished) := joined [] frames in
    Forall (fun f => fits buflen (length f)) fs ->
    exists waiting,
      receives consumes buflen (map Pkt (flat_map webusb_send frames)) (map RGot fs) (map Pkt waiting) /\
      concat waiting = unfinished /\ Forall (fun p => length p = 64) waiting.
Proof.
  intros c B frames Ne. destruct (joined [] frames) as [fs part] eqn:J. intros F.
  destruct (receives_joined c B frames [] [] fs part Ne packed_nil eq_refl J F) as (cp & P & M & R).
  exists cp. split; [exact R|]. clear -P M.
  induction P as [|l H1 H2|cc l chs Hc P IH]; cbn [concat]; auto.
  - rewrite Nat.mod_small in M by lia. lia.
  - rewrite app_length, (mod64_add (length cc)) in M by auto. destruct (IH M) as [E G]. rewrite E. split; auto.
Qed.
Print Assumptions C61_joined_partial.

(** In particular frames are received one by one if no length is a multiple of
    64.  (Missing for the full claim: the other lengths.) *)
Theorem C61_lossless_partial :
  forall consumes buflen frames rest,
    Forall (fun f => length f mod 64 <> 0 /\ length f <= buflen) frames ->
    receives consumes buflen (map Pkt (flat_map webusb_send frames) ++ rest) (map RGot frames) rest.
Proof.
  intros c B frames rest F. induction F as [|f frames [M L] F IH]; cbn [flat_map map app]; [constructor|].
  rewrite map_app, <- app_assoc. econstructor; [|discriminate|exact IH].
  rewrite packed_nonempty_cons by (intros ->; apply M; reflexivity).
  pose proof (fill_fits c B f _ (map Pkt (flat_map webusb_send frames) ++ rest) (chunks_packed f) [] L) as FF.
  destruct (Nat.eqb_spec (length f mod 64) 0) as [|_]; [contradiction|].
  rewrite app_nil_r in FF. unfold receive. rewrite FF; [reflexivity|]. intros [_ E]. auto.
Qed.
Print Assumptions C61_lossless_partial.

(** The full claim fails: a frame of 64 bytes and one of 3 arrive as one frame of
    67 bytes; a single frame of 64 bytes does not arrive at all. *)
Theorem C61_lossless_refuted :
  exists f g buflen,
    f <> [] /\ g <> [] /\ fits buflen (length f) /\ fits buflen (length g) /\
    forall consumes,
      receive consumes buflen (map Pkt (webusb_send f)) = (RPending, []) /\
      receive consumes buflen (map Pkt (webusb_send f ++ webusb_send g)) = (RGot (f ++ g), []).
Proof.
  exists (x_msg 64), (x_msg 3), 256. split; [discriminate|]. split; [discriminate|].
  split; [split; [vm_compute; lia|intros [E _]; discriminate E]|].
  split; [split; [vm_compute; lia|intros [E _]; discriminate E]|].
  intros []; vm_compute; split; reflexivity.
Qed.
Print Assumptions C61_lossless_refuted.

Example C61_nontrivial :
  map (@length N) (fst (joined [] [x_msg 10; x_msg 128; x_msg 64; x_msg 65; x_msg 70; x_msg 64])) = [10; 257; 70] /\
  length (snd (joined [] [x_msg 10; x_msg 128; x_msg 64; x_msg 65; x_msg 70; x_msg 64])) = 64.
Proof. vm_compute. split; reflexivity. Qed.

(** ** C62 Device to host over WebUSB *)

Lemma webusb_recv_frame max l chs : packed l chs -> forall acc rest,
  length acc < max -> length acc + length l <= max ->
  webusb_recv max acc (chs ++ (if length l mod 64 =? 0 then [[]] else []) ++ rest) =
    (let (ts, r) := webusb_recv max [] rest in
     (map WebGot (if (length acc + length l =? max) && (length l mod 64 =? 0) then [acc ++ l; []] else [acc ++ l]) ++ ts, r)).
Proof.
  induction 1 as [|l H1 H2|c l chs Hc P IH]; intros acc rest La Ll.
  - cbn [length] in *. rewrite Nat.mod_0_l by lia. cbn [Nat.eqb app webusb_recv]. rewrite !app_nil_r, !Nat.add_0_r.
    destruct (Nat.ltb_spec max (length acc)); [lia|]. cbn [length Nat.ltb Nat.leb orb].
    destruct (Nat.eqb_spec (length acc) max); [lia|]. cbn [andb]. destruct (webusb_recv max [] rest). reflexivity.
  - rewrite Nat.mod_small by lia. destruct (Nat.eqb_spec (length l) 0); [lia|]. rewrite andb_false_r.
    cbn [app webusb_recv]. rewrite app_length.
    destruct (Nat.ltb_spec max (length acc + length l)); [lia|].
    destruct (Nat.ltb_spec (length l) 64); [|lia]. cbn [orb]. destruct (webusb_recv max [] rest). reflexivity.
  - rewrite app_length in *. rewrite (mod64_add (length c)) by auto.
    cbn [app webusb_recv]. rewrite app_length.
    destruct (Nat.ltb_spec max (length acc + length c)); [lia|].
    destruct (Nat.ltb_spec (length c) 64); [lia|]. cbn [orb].
    destruct (Nat.eqb_spec (length acc + length c) max) as [E|E].
    + assert (length l = 0) as Z by lia. destruct l; [|discriminate]. apply packed_nil_inv in P. subst chs.
      rewrite app_nil_r. cbn [length]. rewrite Nat.mod_0_l by lia. cbn [Nat.eqb app]. rewrite Nat.add_0_r, E, Nat.eqb_refl.
      cbn [andb map app webusb_recv length Nat.ltb Nat.leb orb].
      destruct (webusb_recv max [] rest). reflexivity.
    + rewrite IH by (rewrite app_length; lia). rewrite app_length, <- !app_assoc.
      replace (length acc + length c + length l) with (length acc + (length c + length l)) by lia. reflexivity.
Qed.

Lemma webusb_recv_long max l chs : packed l chs -> forall acc rest,
  length acc < max -> length acc mod 64 = 0 -> max < length acc + length l ->
  (max mod 64 = 0 -> exists ts r, webusb_recv max acc (chs ++ rest) = (WebGot (firstn max (acc ++ l)) :: ts, r)) /\
  (max mod 64 <> 0 -> webusb_recv max acc (chs ++ rest) = ([WebErr], [])).
Proof.
  induction 1 as [|l H1 H2|c l chs Hc P IH]; intros acc rest La Ma Ll.
  - cbn in Ll. lia.
  - cbn [app webusb_recv]. rewrite app_length. destruct (Nat.ltb_spec max (length acc + length l)); [|lia]. split; auto.
    intros Mm. exfalso.
    pose proof (Nat.div_mod (length acc) 64 ltac:(lia)). pose proof (Nat.div_mod max 64 ltac:(lia)). lia.
  - cbn [app webusb_recv]. rewrite app_length in *. rewrite Hc in *.
    destruct (Nat.ltb_spec max (length acc + 64)) as [B|B].
    + split; auto. intros Mm. exfalso.
      pose proof (Nat.div_mod (length acc) 64 ltac:(lia)). pose proof (Nat.div_mod max 64 ltac:(lia)). lia.
    + cbn [Nat.ltb Nat.leb orb]. destruct (Nat.eqb_spec (length acc + 64) max) as [E|E].
      * split; intros Mm.
        -- destruct (webusb_recv max [] (chs ++ rest)) as [ts r]. exists ts, r.
           rewrite app_assoc, firstn_app, app_length, Hc, E, Nat.sub_diag. cbn [firstn]. rewrite app_nil_r.
           rewrite firstn_all2 by (rewrite app_length; lia). reflexivity.
        -- exfalso. apply Mm. rewrite <- E. replace (length acc + 64) with (length acc + 1 * 64) by lia.
           now rewrite Nat.mod_add by lia.
      * rewrite app_assoc. apply IH; rewrite ?app_length; try lia.
        rewrite Hc. replace (length acc + 64) with (length acc + 1 * 64) by lia. now rewrite Nat.mod_add by lia.
Qed.

(** What the device sends in one go, its messages being accepted by the endpoint. *)
Definition device_wire (msgs : list (list N)) : list packet :=
  fst (fst (send_seq false (map (fun m => (m, [])) msgs))).

(** Messages no longer than the maximum length of a transfer arrive as they are;
    after one of exactly that length comes an empty one if it is a multiple of
    64. *)
Theorem C62_up_to_max :
  forall max msgs, Forall (fun m => m <> [] /\ length m <= max) msgs ->
    webusb_recv max [] (device_wire msgs) =
    (map WebGot (flat_map (fun m => if (length m =? max) && (max mod 64 =? 0) then [m; []] else [m]) msgs), []).
Proof.
  intros max msgs F. unfold device_wire. induction msgs as [|m msgs IH]; cbn [map send_seq flat_map]; [reflexivity|].
  inversion F as [|? ? [Ne L] F']; subst. specialize (IH F'). rewrite send_all_done by auto.
  destruct (send_seq false (map (fun m => (m, [])) msgs)) as [[w p] rs]. cbn [fst] in *.
  assert (0 < length m) by (destruct m; [congruence|cbn; lia]).
  rewrite <- app_assoc, (webusb_recv_frame max m _ (chunks_packed m) []) by (cbn [length]; lia). rewrite IH.
  cbn [length Nat.add app]. rewrite map_app. destruct (Nat.eqb_spec (length m) max) as [E|E]; [|reflexivity].
  rewrite E. reflexivity.
Qed.
Print Assumptions C62_up_to_max.

(** A longer message never arrives whole: it is cut at the maximum length if that
    is a multiple of 64, and otherwise the transfer fails (and the client closes). *)
Theorem C62_longer :
  forall max msgs m rest, 0 < max -> Forall (fun m => m <> [] /\ length m <= max) msgs -> max < length m ->
    exists more r,
    webusb_recv max [] (device_wire (msgs ++ m :: rest)) =
    (map WebGot (flat_map (fun m => if (length m =? max) && (max mod 64 =? 0) then [m; []] else [m]) msgs) ++
     (if max mod 64 =? 0 then WebGot (firstn max m) :: more else [WebErr]), r).
Proof.
  intros max msgs m rest Hx F L. unfold device_wire. induction msgs as [|m0 msgs IH]; cbn [app map send_seq flat_map].
  - rewrite send_all_done by (destruct m; [cbn in L; lia|discriminate]).
    destruct (send_seq false (map (fun m => (m, [])) rest)) as [[w p] rs]. cbn [fst] in *. rewrite <- app_assoc.
    destruct (webusb_recv_long max m _ (chunks_packed m) [] ((if length m mod 64 =? 0 then [[]] else []) ++ w)) as [A B];
      cbn [length]; auto.
    destruct (Nat.eqb_spec (max mod 64) 0) as [Z|Z].
    + destruct (A Z) as (ts & r & E). exists ts, r. exact E.
    + exists [], []. exact (B Z).
  - inversion F as [|? ? [Ne L0] F']; subst. destruct (IH F') as (more & r & E). exists more, r. rewrite send_all_done by auto.
    destruct (send_seq false (map (fun m => (m, [])) (msgs ++ m :: rest))) as [[w p] rs]. cbn [fst] in *.
    rewrite <- app_assoc, (webusb_recv_frame max m0 _ (chunks_packed m0) []) by (cbn [length]; lia). rewrite E.
    cbn [length Nat.add app]. rewrite map_app, <- app_assoc. destruct (Nat.eqb_spec (length m0) max) as [E0|E0]; [|reflexivity].
    rewrite E0. reflexivity.
Qed.
Print Assumptions C62_longer.

Example C62_nontrivial :
  webusb_recv 1000 [] (device_wire [x_msg 1000; x_msg 64; x_msg 1001; x_msg 5]) =
    ([WebGot (x_msg 1000); WebGot (x_msg 64); WebErr], []) /\
  webusb_recv 128 [] (device_wire [x_msg 128; x_msg 3; x_msg 130]) =
    ([WebGot (x_msg 128); WebGot []; WebGot (x_msg 3); WebGot (x_msg 128); WebGot (firstn 2 (skipn 128 (x_msg 130)))], []).
Proof. vm_compute. split; reflexivity. Qed.
