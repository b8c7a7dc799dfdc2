(** Theorems about the workbook's prompt: C97. *)
From Coq Require Import Ascii String NArith ZArith List Bool Lia.
From Verif Require Import KeyModel HeaderModel SchemaModel CodecModel WorkbookModel WorkbookSpec WbSysModel WbSysSpec ReplModel ReplSpec ReplProof.
Import ListNotations.

(** Every line is made of words, in one way. *)
Theorem C97_words : forall l, exists ws, words l ws /\ forall ws', words l ws' -> ws' = ws.
Proof.
  intros l. exists (split_whitespace l). split; [apply split_words|]. intros ws' H. symmetry. apply words_split. exact H.
Qed.

(** A line makes a call if, and only if, it asks for it, with the numbers that were typed,
    whatever the white space. *)
Theorem C97_typed_is_called :
  forall l ws c, words l ws ->
    (asks ws c <-> exists s os, repl_step Prompt (Line l) = Some (s, os) /\ In (Do c) os).
Proof.
  intros l ws c H. apply words_split in H. cbn [repl_step]. rewrite H. split.
  - intros A. rewrite (asked _ _ A). exists (Called c), [Do c]. split; [reflexivity|left; reflexivity].
  - intros (s & os & E & Hi). injection E as E. destruct (command_does ws) as [c' A|ms rg dur A|A|A|p]; unfold call, complain in E; injection E as <- <-;
      cbn in Hi; repeat (destruct Hi as [Hi|Hi]; [try discriminate Hi|]); try (destruct Hi; fail). injection Hi as ->. exact A.
Qed.
(** What is called is within the types of the methods: numbers that do not fit are
    refused, not cut. *)
Theorem C97_calls_are_in_range : forall ws c, asks ws c -> call_ok c.
Proof. intros ws c H. destruct H; unfold number in *; cbn [call_ok]; intuition. reflexivity. Qed.

(** The invariant of a session: what was called, up to the line that is being worked on. *)
Definition todo (s : Repl) : list WbCall :=
  match s with
  | Hello => [GetId]
  | Subscribing ms rg _ => [StartAccelerometer ms rg; StopAccelerometer]
  | Starting _ | Receiving _ => [StopAccelerometer]
  | _ => []
  end.
Lemma line_obeyed ws : forall s os, command ws = (s, os) -> obeyed ws (calls os ++ todo s).
Proof.
  intros s os H. destruct s.
  all: try (exfalso; destruct (command_does ws); unfold call, complain in H; inversion H; fail).
  - right. right. split. { intros c A. rewrite (asked _ _ A) in H. discriminate. }
    split. { intros ms rg dur A. rewrite (asked_to_listen _ _ _ _ A) in H. discriminate. }
    destruct (command_does ws); unfold call, complain in H; inversion H; reflexivity.
  - apply called_asked in H as [A ->]. left. exists c. split; auto.
  - apply subscribed_asked in H as [A ->]. right. left. exists ms, rg, dur. auto.
  - right. right. split. { intros c A. rewrite (asked _ _ A) in H. discriminate. }
    split. { intros ms rg dur A. rewrite (asked_to_listen _ _ _ _ A) in H. discriminate. }
    apply reporting_asked in H as [_ ->]. reflexivity.
  - right. right. split. { intros c A. rewrite (asked _ _ A) in H. discriminate. }
    split. { intros ms rg dur A. rewrite (asked_to_listen _ _ _ _ A) in H. discriminate. }
    apply died_asked in H as [_ ->]. reflexivity.
Qed.
Lemma calls_app a b : calls (a ++ b) = calls a ++ calls b.
Proof. apply flat_map_app. Qed.
Lemma session is : forall s s' os, repl_run is s = Some (s', os) -> s' <> Died ->
  exists css, Forall2 (fun l cs => exists ws, words l ws /\ obeyed ws cs) (lines is) css /\ calls os ++ todo s' = todo s ++ concat css.
Proof.
  induction is as [|i is IH]; intros s s' os R Nd; cbn [repl_run] in R.
  - injection R as <- <-. exists []. split; [constructor|]. cbn. rewrite app_nil_r. reflexivity.
  - destruct (repl_step s i) as [[s1 os1]|] eqn:St; [|discriminate]. destruct (repl_run is s1) as [[s2 os2]|] eqn:R2; [|discriminate].
    injection R as <- <-. destruct (IH _ _ _ R2 Nd) as (css & F & E). rewrite calls_app, <- app_assoc, E.
    assert (Nd1 : s1 <> Died). { intros ->. destruct is; cbn in R2; [injection R2 as <- _; congruence|discriminate]. }
    destruct i as [l|r now|ok|v now|ok].
    + destruct s; try discriminate St. cbn [repl_step] in St. injection St as St. exists ((calls os1 ++ todo s1) :: css). split.
      * constructor; auto. exists (split_whitespace l). split; [apply split_words|]. apply line_obeyed. exact St.
      * cbn [todo concat app]. rewrite app_assoc. reflexivity.
    + exists css. split; [exact F|].
      destruct s; try discriminate St; destruct r; cbn [repl_step] in St; try (injection St as <- <-; congruence).
      * injection St as <- <-. reflexivity.
      * injection St as <- <-. reflexivity.
      * injection St as <- <-. destruct c; reflexivity.
      * unfold listen in St. destruct (now <? now + dur * 1000000)%N; injection St as <- <-; reflexivity.
      * injection St as <- <-. reflexivity.
    + exists css. split; [exact F|]. destruct s; try discriminate St; destruct ok; cbn [repl_step] in St; injection St as <- <-; [reflexivity|congruence].
    + exists css. split; [exact F|]. destruct s; try discriminate St; destruct v; cbn [repl_step] in St; [|injection St as <- <-; congruence].
      unfold listen in St. destruct (now <? until)%N; injection St as <- <-; reflexivity.
    + exists css. split; [exact F|]. destruct s; try discriminate St; destruct ok; cbn [repl_step] in St; injection St as <- <-; [reflexivity|congruence].
Qed.

(** A whole session, back at the prompt: after the two calls at the start, the calls that
    were made are those that the lines stand for, in the order of the lines; listening
    starts the accelerometer and has stopped it. *)
Theorem C97_session_partial :
  forall is os, repl_run is (fst repl_start) = Some (Prompt, os) ->
    exists css, Forall2 (fun l cs => exists ws, words l ws /\ obeyed ws cs) (lines is) css /\
      calls (snd repl_start ++ os) = Ping 42 :: GetId :: concat css.
Proof.
  intros is os R. destruct (session _ _ _ _ R ltac:(discriminate)) as (css & F & E). exists css. split; [exact F|].
  cbn [snd repl_start]. change (calls ([Do (Ping 42)] ++ os)) with (Ping 42 :: calls os). cbn [todo fst repl_start app] in E. rewrite app_nil_r in E. rewrite E. reflexivity.
Qed.

(** The program goes on, whatever is typed and received, as long as no colour is typed that
    is none, and nothing else goes wrong.  (Partial: see the refutations.) *)
Theorem C97_goes_on_partial :
  forall is s os, repl_run is (fst repl_start) = Some (s, os) -> all_well is ->
    (forall l ws, In l (lines is) -> words l ws -> ~ bad_colour ws) -> s <> Died.
Proof.
  intros is s os R W B. assert (N : fst repl_start <> Died) by discriminate. revert R N. generalize (fst repl_start) as s0. revert os.
  induction is as [|i is IH]; intros os s0 R N; cbn [repl_run] in R; [injection R as <- _; exact N|].
  destruct (repl_step s0 i) as [[s1 os1]|] eqn:St; [|discriminate]. destruct (repl_run is s1) as [[s2 os2]|] eqn:R2; [|discriminate].
  injection R as <- <-. inversion W as [|? ? W1 W2]; subst. assert (B2 : forall l ws, In l (lines is) -> words l ws -> ~ bad_colour ws).
  { intros l ws Hl. apply B. unfold lines. cbn [flat_map]. apply in_app_iff. right. exact Hl. }
  apply (IH W2 B2 _ _ R2). intros ->. destruct i as [l|r now|ok|v now|ok].
  - destruct s0; try discriminate St. cbn [repl_step] in St. injection St as St. apply died_asked in St as [St _].
    apply (B l _ (or_introl eq_refl) (split_words l) St).
  - destruct r; [|destruct W1..]. destruct s0; try discriminate St; cbn [repl_step] in St. unfold listen in St. destruct (now <? now + dur * 1000000)%N; discriminate St.
  - subst ok. destruct s0; discriminate St.
  - destruct v; [|congruence]. destruct s0; try discriminate St. cbn [repl_step] in St. unfold listen in St. destruct (now <? until)%N; discriminate St.
  - subst ok. destruct s0; discriminate St.
Qed.
(** Colours that are none do end it. *)
Theorem C97_dies_of_bad_colours :
  forall l ws, words l ws -> bad_colour ws -> repl_step Prompt (Line l) = Some (Died, []).
Proof. intros l ws H B. apply words_split in H. cbn [repl_step]. rewrite H. f_equal. apply died_asked. auto. Qed.

(** All samples that are received are shown, in order. *)
Theorem C97_samples_shown :
  forall is s s' os, repl_run is s = Some (s', os) -> shown_samples os = received is.
Proof.
  induction is as [|i is IH]; intros s s' os R; cbn [repl_run] in R; [injection R as <- <-; reflexivity|].
  destruct (repl_step s i) as [[s1 os1]|] eqn:St; [|discriminate]. destruct (repl_run is s1) as [[s2 os2]|] eqn:R2; [|discriminate].
  injection R as <- <-. unfold shown_samples, received. rewrite flat_map_app. cbn [flat_map]. f_equal; [|exact (IH _ _ _ R2)].
  destruct i as [l|r now|ok|v now|ok].
  - destruct s; try discriminate St. cbn [repl_step] in St. injection St as St. pose proof (command_shows (split_whitespace l)) as C. rewrite St in C. exact C.
  - destruct s; try discriminate St; destruct r; cbn [repl_step] in St; try (injection St as <- <-; reflexivity).
    + injection St as <- <-. destruct c; reflexivity.
    + unfold listen in St. destruct (now <? now + dur * 1000000)%N; injection St as <- <-; reflexivity.
  - destruct s; try discriminate St; destruct ok; cbn [repl_step] in St; injection St as <- <-; reflexivity.
  - destruct s; try discriminate St; destruct v; cbn [repl_step] in St; [|injection St as <- <-; reflexivity].
    unfold listen in St. destruct (now <? until)%N; injection St as <- <-; reflexivity.
  - destruct s; try discriminate St; destruct ok; cbn [repl_step] in St; injection St as <- <-; reflexivity.
Qed.

Lemma receiving t vs : forall s os, repl_run (map (fun x => Received (Some (fst x)) (snd x)) vs) (Receiving t) = Some (s, os) ->
    (s = Receiving t /\ Forall (fun x => snd x < t)%N vs) \/
    (s = Stopping /\ exists vs' v now, vs = vs' ++ [(v, now)] /\ Forall (fun x => snd x < t)%N vs' /\ (t <= now)%N).
Proof.
  induction vs as [|[v now] vs IH]; intros s os R; cbn [map repl_run repl_step fst snd] in R.
  - injection R as <- _. left. auto.
  - unfold listen in R. destruct (now <? t)%N eqn:E.
    + apply N.ltb_lt in E. destruct (repl_run _ _) as [[s2 os2]|] eqn:R2; [|discriminate]. injection R as <- _.
      destruct (IH _ _ eq_refl) as [[-> F]|[-> (vs' & v' & now' & -> & F & L)]]; [left; auto|].
      right. split; [reflexivity|]. exists ((v, now) :: vs'), v', now'. repeat split; auto.
    + apply N.ltb_ge in E. destruct vs as [|x vs]; [|discriminate R]. injection R as <- _. right. split; [reflexivity|].
      exists [], v, now. auto.
Qed.
(** Listening lasts until the first sample that comes [dur] milliseconds after the start was
    confirmed, or later; only if [dur] is 0 it does not wait for any. *)
Theorem C97_listens_as_long :
  forall l ws ms rg dur v t0 vs s os,
    words l ws -> asks_to_listen ws ms rg dur ->
    repl_run (Line l :: Subscribed true :: Answer (WOk v) t0 :: map (fun x => Received (Some (fst x)) (snd x)) vs) Prompt = Some (s, os) ->
    let in_time := Forall (fun x : value * N => snd x < t0 + dur * 1000000)%N in
    (s <> Stopping /\ (0 < dur)%N /\ in_time vs) \/
    (s = Stopping /\ (dur = 0%N /\ vs = [] \/
       (0 < dur)%N /\ exists vs' v' now, vs = vs' ++ [(v', now)] /\ in_time vs' /\ (t0 + dur * 1000000 <= now)%N)).
Proof.
  intros l ws ms rg dur v t0 vs s os W A R. apply words_split in W. cbn [repl_run] in R. cbn [repl_step] in R.
  rewrite W, (asked_to_listen _ _ _ _ A) in R. cbn [repl_step] in R. unfold listen in R.
  destruct (t0 <? t0 + dur * 1000000)%N eqn:E.
  - apply N.ltb_lt in E. assert (0 < dur)%N by lia. destruct (repl_run _ (Receiving _)) as [[s2 os2]|] eqn:R2; [|discriminate R]. injection R as <- _.
    destruct (receiving _ _ _ _ R2) as [[-> F]|[-> X]]; [left; split; [discriminate|auto]|right; auto].
  - apply N.ltb_ge in E. assert (dur = 0%N) by lia. destruct vs as [|x vs]; [|discriminate R]. cbn [map repl_run] in R. injection R as <- _. right. auto.
Qed.
Print Assumptions C97_words.
Print Assumptions C97_typed_is_called.
Print Assumptions C97_calls_are_in_range.
Print Assumptions C97_session_partial.
Print Assumptions C97_goes_on_partial.
Print Assumptions C97_dies_of_bad_colours.
Print Assumptions C97_samples_shown.
Print Assumptions C97_listens_as_long.

(** ** A session, and what is not so *)
Definition typed_line (s : string) : Inp := Line (text_of s ++ [10%N]).
Definition hello : list Inp := [Answer (WOk (VUInt W32 42)) 0; Answer (WOk (VUInt W64 7)) 0].
Definition acc (x : Z) : value := VTup [VSInt W16 x; VSInt W16 0%Z; VSInt W16 0%Z].
Definition good (v : value) (now : N) : Inp := Answer (WOk v) now.
Definition session_ex : list Inp :=
  hello ++ [typed_line "  ping   007 "; good (VUInt W32 7) 0; typed_line "rgb 3 255 0 +7"; good VUnitVal 0; typed_line "ping 4294967296"; typed_line "ping -1";
    typed_line "accel listen 100 8 250"; Subscribed true; good VUnitVal 1000000; Received (Some (acc 1)) 101000000; Received (Some (acc 2)) 201000000;
    Received (Some (acc 3)) 301000000; good (VBool true) 301000000; typed_line "frobnicate"; typed_line ""].
Example C97_ex :
  all_well session_ex /\ (forall l ws, In l (lines session_ex) -> words l ws -> ~ bad_colour ws) /\
  exists os, repl_run session_ex (fst repl_start) = Some (Prompt, os) /\
    calls (snd repl_start ++ os) = [Ping 42; GetId; Ping 7; SetRgbSingle 3 255 0 7; StartAccelerometer 100 G8; StopAccelerometer] /\
    shown_samples os = [acc 1; acc 2; acc 3] /\
    In (Print (PBadU32 (text_of "4294967296"))) os /\ In (Print (PDidntUnderstand [text_of "frobnicate"])) os.
Proof.
  split. { repeat (apply Forall_cons; [first [exact Logic.I|reflexivity|discriminate]|]). apply Forall_nil. }
  split.
  { intros l ws Hl Hw Hb. pose proof (C97_dies_of_bad_colours l ws Hw Hb) as D. vm_compute in Hl.
    repeat (destruct Hl as [<-|Hl]; [vm_compute in D; discriminate D|]). destruct Hl. }
  destruct (repl_run session_ex (fst repl_start)) as [[s os]|] eqn:R; [|vm_compute in R; discriminate].
  exists os. vm_compute in R. injection R as <- <-. split; [reflexivity|]. split; [reflexivity|]. split; [reflexivity|].
  split; vm_compute; tauto.
Qed.

(** It does not go on whatever is typed, even if all calls get the right answer: a colour
    of 256 ends it, and so does the light behind the last one. *)
Theorem C97_goes_on_refuted :
  repl_step Prompt (typed_line "rgb 0 256 0 0") = Some (Died, []) /\
  exists c r, asks (map text_of ["rgb"; "24"; "1"; "2"; "3"]%string) c /\ right_result 7 c r /\
    repl_run [typed_line "rgb 24 1 2 3"; Answer r 0] Prompt = Some (Died, [Do c]).
Proof.
  split; [reflexivity|]. exists (SetRgbSingle 24 1 2 3), WBadPosition. split; [|split; reflexivity].
  change (map text_of ["rgb"; "24"; "1"; "2"; "3"]%string) with [text_of "rgb"; text_of "24"; text_of "1"; text_of "2"; text_of "3"].
  apply ask_rgb; [apply u32_iff|apply u8_iff..]; reflexivity.
Qed.
Print Assumptions C97_goes_on_refuted.

(** Listening does not always stop the accelerometer: if the program falls more than eight
    samples behind, it ends, and the accelerometer goes on. *)
Theorem C97_listening_stops_refuted :
  exists is os c, repl_run is Prompt = Some (Died, os) /\ lines is = [text_of "accel listen 100 8 250" ++ [10%N]] /\
    (forall r now, In (Answer r now) is -> exists v, r = WOk v) /\
    calls os = [c] /\ c = StartAccelerometer 100 G8.
Proof.
  exists [typed_line "accel listen 100 8 250"; Subscribed true; good VUnitVal 0; Received (Some (acc 1)) 100000000; Received None 200000000].
  eexists. eexists. split; [reflexivity|]. split; [reflexivity|]. split; [|split; reflexivity].
  intros r now Hi. repeat (destruct Hi as [Hi|Hi]; [try discriminate Hi; injection Hi as <- _; eexists; reflexivity|]). destruct Hi.
Qed.
Print Assumptions C97_listening_stops_refuted.

(** The program does not end with its input: from then on it reads nothing, complains, and
    reads again, without end. *)
Theorem C97_ends_with_input_refuted :
  exists s, forall n, repl_run (repeat (Line []) n) s = Some (s, repeat (Print (PDidntUnderstand [])) n).
Proof.
  exists Prompt. induction n as [|n IH]; [reflexivity|]. cbn [repeat repl_run]. change (repl_step Prompt (Line [])) with (Some (Prompt, [Print (PDidntUnderstand [])])).
  cbn iota beta. rewrite IH. reflexivity.
Qed.
Print Assumptions C97_ends_with_input_refuted.
