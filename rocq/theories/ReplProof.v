(** Proofs about the workbook's prompt. *)
From Coq Require Import Ascii String NArith List Bool Lia.
From Verif Require Import KeyModel HeaderModel SchemaModel CodecModel WorkbookModel WbSysModel ReplModel ReplSpec.
Import ListNotations.

Lemma is_space_white c : is_space c = true <-> In c white.
Proof.
  split.
  - unfold is_space. intros H. repeat rewrite orb_true_iff in H. repeat rewrite andb_true_iff in H. rewrite ?N.leb_le, ?N.eqb_eq in H. unfold white.
    repeat destruct H as [H|H]; try (subst; cbn; tauto).
    + assert (c = 9 \/ c = 10 \/ c = 11 \/ c = 12 \/ c = 13)%N as X by lia. repeat destruct X as [X|X]; subst; cbn; tauto.
    + assert (c = 8192 \/ c = 8193 \/ c = 8194 \/ c = 8195 \/ c = 8196 \/ c = 8197 \/ c = 8198 \/ c = 8199 \/ c = 8200 \/ c = 8201 \/ c = 8202)%N as X by lia.
      repeat destruct X as [X|X]; subst; cbn; tauto.
  - unfold white. intros H. repeat (destruct H as [<-|H]; [reflexivity|]). destruct H.
Qed.
Lemma not_space c : is_space c = false <-> ~ In c white.
Proof. rewrite <- is_space_white. destruct (is_space c); split; intros; congruence. Qed.

Lemma split_blank s : forall l, blank s -> split_from [] (s ++ l) = split_from [] l.
Proof. induction s as [|c s IH]; intros l B; auto. inversion B; subst. cbn [app split_from]. apply is_space_white in H1. rewrite H1. auto. Qed.
Lemma split_word w : forall a l, Forall (fun c => ~ In c white) w -> split_from a (w ++ l) = split_from (a ++ w) l.
Proof.
  induction w as [|c w IH]; intros a l F; [cbn; rewrite app_nil_r; reflexivity|]. inversion F; subst. cbn [app split_from].
  apply not_space in H1. rewrite H1, IH by auto. rewrite <- app_assoc. reflexivity.
Qed.
Lemma words_split l ws : words l ws -> split_whitespace l = ws.
Proof.
  unfold split_whitespace. induction 1 as [s B|s w s' B W B'|s w s' l ws B W B' N H IH].
  - rewrite <- (app_nil_r s), split_blank by auto. reflexivity.
  - destruct W as [W F]. rewrite split_blank, split_word by auto. cbn [app]. destruct w as [|c w]; [congruence|].
    destruct s' as [|c' s']; [reflexivity|]. inversion B'; subst. cbn [split_from]. apply is_space_white in H1. rewrite H1. f_equal.
    rewrite <- (app_nil_r s'), split_blank by auto. reflexivity.
  - destruct W as [W F]. rewrite split_blank, split_word by auto. cbn [app]. destruct w as [|c w]; [congruence|].
    destruct s' as [|c' s']; [congruence|]. inversion B'; subst. cbn [app split_from]. apply is_space_white in H2. rewrite H2. f_equal.
    rewrite split_blank by auto. first [exact IH|reflexivity].
Qed.
(** Every line is made of words. *)
Lemma blank_before c l ws : In c white -> words l ws -> words (c :: l) ws.
Proof.
  intros Hc H. destruct H as [s B|s w s' B W B'|s w s' l ws B W B' N H].
  - apply words_none. constructor; auto.
  - apply (words_last (c :: s)); auto. constructor; auto.
  - apply (words_more (c :: s)); auto. constructor; auto.
Qed.
Lemma split_is_words l : forall w, Forall (fun c => ~ In c white) w -> words (w ++ l) (split_from w l).
Proof.
  induction l as [|c l IH]; intros w F; cbn [split_from].
  - rewrite app_nil_r. destruct w as [|a w]; [apply words_none; constructor|].
    rewrite <- (app_nil_r (a :: w)) at 1. apply (words_last [] (a :: w) []); try (constructor; fail). split; [discriminate|exact F].
  - destruct (is_space c) eqn:E.
    + apply is_space_white in E. destruct w as [|a w].
      * apply blank_before; auto. apply (IH []). constructor.
      * apply (words_more [] (a :: w) [c] l).
        { constructor. } { split; [discriminate|auto]. } { constructor; [exact E|constructor]. } { discriminate. } { apply (IH []). constructor. }
    + replace (w ++ c :: l) with ((w ++ [c]) ++ l) by (rewrite <- app_assoc; reflexivity). apply IH. apply Forall_app. split; auto.
      constructor; auto. apply not_space. auto.
Qed.
Lemma split_words l : words l (split_whitespace l).
Proof. apply (split_is_words l []). constructor. Qed.

(** Numbers. *)
Notation value_from := (fold_left (fun a d => 10 * a + d)%N).
Lemma value_grows ds : forall a, (a <= value_from ds a)%N.
Proof. induction ds as [|d ds IH]; intros a; cbn [fold_left]; [lia|]. specialize (IH (10 * a + d)%N). lia. Qed.
Lemma digits_iff bound s : forall a v, (a < bound)%N ->
  (digits bound a s = Some v <-> exists ds, s = map (fun d => 48 + d)%N ds /\ Forall (fun d => (d < 10)%N) ds /\ v = value_from ds a /\ (v < bound)%N).
Proof.
  induction s as [|c s IH]; intros a v Ha; cbn [digits].
  - split.
    + intros E. injection E as <-. exists []. repeat split; auto.
    + intros ([|d ds] & E & _ & -> & _); [reflexivity|discriminate].
  - destruct ((48 <=? c) && (c <=? 57))%N eqn:D.
    + apply andb_true_iff in D as [D1 D2]. apply N.leb_le in D1, D2.
      destruct (a * 10 + (c - 48) <? bound)%N eqn:L.
      * apply N.ltb_lt in L. rewrite (IH _ _ L). split.
        -- intros (ds & -> & F & -> & B). exists ((c - 48)%N :: ds). cbn [map fold_left]. replace (48 + (c - 48))%N with c by lia.
           replace (10 * a + (c - 48))%N with (a * 10 + (c - 48))%N by lia. repeat split; auto. constructor; auto. lia.
        -- intros ([|d ds] & E & F & -> & B); [discriminate|]. cbn [map] in E. assert (c = 48 + d)%N by congruence. assert (s = map (fun d => 48 + d)%N ds) by congruence.
           inversion F; subst. exists ds. cbn [fold_left] in *.
           replace (a * 10 + (48 + d - 48))%N with (10 * a + d)%N by lia. repeat split; auto.
      * apply N.ltb_ge in L. split; [discriminate|]. intros ([|d ds] & E & F & -> & B); [discriminate|]. cbn [map] in E. assert (c = 48 + d)%N by congruence. cbn [fold_left] in B.
        pose proof (value_grows ds (10 * a + d)%N). lia.
    + split; [discriminate|]. intros ([|d ds] & E & F & _); [discriminate|]. cbn [map] in E. assert (c = 48 + d)%N by congruence. inversion F; subst.
      apply andb_false_iff in D as [D|D]; [apply N.leb_gt in D|apply N.leb_gt in D]; lia.
Qed.
Lemma parse_iff bound w v : (0 < bound)%N -> (parse bound w = Some v <-> number bound w v).
Proof.
  intros B. unfold number, decimal. destruct w as [|c tl].
  - cbn. split; [discriminate|]. intros ((ds & N & _ & _ & [E|E]) & _); [|discriminate]. destruct ds; [congruence|discriminate].
  - assert (P : parse bound (c :: tl) = if (c =? 43)%N then match tl with [] => None | _ => digits bound 0 tl end else digits bound 0 (c :: tl)).
    { cbn [parse]. destruct tl; [|reflexivity]. destruct (c =? 43)%N eqn:E; [reflexivity|]. destruct (c =? 45)%N eqn:E2; [|reflexivity].
      apply N.eqb_eq in E2. subst. reflexivity. }
    rewrite P. clear P. destruct (c =? 43)%N eqn:E.
    + apply N.eqb_eq in E. subst. split.
      * intros H. destruct tl as [|x tl]; [discriminate|]. apply digits_iff in H as (ds & E & F & V & L); auto. split; auto. exists ds.
        split; [intros ->; discriminate|]. rewrite E. auto.
      * intros ((ds & N & F & V & [E|E]) & L); [destruct ds as [|d ds]; [congruence|]; cbn [map] in E; assert (43 = 48 + d)%N by congruence; lia|]. injection E as ->.
        destruct ds as [|d ds]; [congruence|]. cbn [map]. change (48 + d :: map (fun d => 48 + d) ds)%N with (map (fun d => 48 + d) (d :: ds))%N.
        apply digits_iff; [exact B|]. exists (d :: ds). split; [reflexivity|]. auto.
    + rewrite (digits_iff _ _ _ _ B). apply N.eqb_neq in E. split.
      * intros (ds & E' & F & V & L). split; auto. exists ds. split; [intros ->; discriminate|]. auto.
      * intros ((ds & N & F & V & [E'|E']) & L); [|congruence]. eauto.
Qed.
Lemma u32_iff w v : parse_u32 w = Some v <-> number (2 ^ 32) w v.
Proof. apply parse_iff. reflexivity. Qed.
Lemma u8_iff w v : parse_u8 w = Some v <-> number 256 w v.
Proof. apply parse_iff. reflexivity. Qed.

Lemma str_eqb_iff a : forall b, str_eqb a b = true <-> a = b.
Proof.
  induction a as [|x a IH]; intros [|y b]; cbn [str_eqb]; try (split; [discriminate|discriminate]); [tauto|].
  rewrite andb_true_iff, N.eqb_eq, IH. split; [intros [-> ->]; reflexivity|intros E; injection E as -> ->; auto].
Qed.
Lemma kw_iff s w : kw s w = true <-> w = text_of s.
Proof. unfold kw. rewrite str_eqb_iff. split; congruence. Qed.
Lemma range_iff w r : range_of w = Some r <-> a_range w r.
Proof.
  unfold range_of, a_range. split.
  - intros H. destruct (kw "2" w) eqn:E2; [apply kw_iff in E2; injection H as <-; auto|].
    destruct (kw "4" w) eqn:E4; [apply kw_iff in E4; injection H as <-; auto|].
    destruct (kw "8" w) eqn:E8; [apply kw_iff in E8; injection H as <-; auto|].
    destruct (kw "16" w) eqn:E16; [apply kw_iff in E16; injection H as <-; auto|discriminate].
  - intros ->. destruct r; reflexivity.
Qed.

Lemma asked ws c : asks ws c -> command ws = call c.
Proof.
  intros H. destruct H; cbn [command]; try reflexivity;
    repeat match goal with X : number (2 ^ 32) _ _ |- _ => apply u32_iff in X; revert X | X : number 256 _ _ |- _ => apply u8_iff in X; revert X | X : a_range _ _ |- _ => apply range_iff in X; revert X end; intros.
  - change (kw "ping" (text_of "ping")) with true. cbn iota. rewrite H. reflexivity.
  - change (kw "rgb" (text_of "rgb")) with true. cbn iota. rewrite H, H0, H1, H2. reflexivity.
  - change (kw "rgball" (text_of "rgball")) with true. cbn iota. rewrite H, H0, H1. reflexivity.
  - change (kw "rgball" (text_of "accel")) with false. change (kw "accel" (text_of "accel") && kw "start" (text_of "start")) with true. cbn iota.
    rewrite H, H0. reflexivity.
Qed.
Lemma asked_to_listen ws ms rg dur : asks_to_listen ws ms rg dur -> command ws = (Subscribing ms rg dur, [Subscribe]).
Proof.
  intros H. destruct H. apply u32_iff in H, H1. apply range_iff in H0. cbn [command]. change (kw "rgb" (text_of "accel")) with false.
  change (kw "accel" (text_of "accel") && kw "listen" (text_of "listen")) with true. cbn iota. rewrite H, H0, H1. reflexivity.
Qed.

(** What a line does, seen from what it does. *)
Inductive Does (ws : list str) : Repl * list Out -> Prop :=
| does_call c : asks ws c -> Does ws (call c)
| does_listen ms rg dur : asks_to_listen ws ms rg dur -> Does ws (Subscribing ms rg dur, [Subscribe])
| does_report : ws = [text_of "schema"] -> Does ws (Reporting, [GetReport])
| does_die : (exists p r g b, ws = [text_of "rgb"; p; r; g; b] \/ ws = [text_of "rgball"; r; g; b]) -> Does ws (Died, [])
| does_complain p : Does ws (complain p).
Lemma command_does ws : Does ws (command ws).
Proof.
  destruct ws as [|a [|b [|c [|d [|e [|f ws]]]]]]; cbn [command]; try apply does_complain.
  - destruct (kw "ping" a) eqn:E. { apply kw_iff in E. subst. apply does_call. constructor. }
    destruct (kw "schema" a) eqn:E2. { apply kw_iff in E2. subst. apply does_report. reflexivity. } apply does_complain.
  - destruct (kw "ping" a) eqn:E.
    { apply kw_iff in E. subst. destruct (parse_u32 b) eqn:P; [|apply does_complain]. apply u32_iff in P. apply does_call. constructor. auto. }
    destruct (kw "accel" a && kw "stop" b) eqn:E2; [|apply does_complain]. apply andb_true_iff in E2 as [E2 E3]. apply kw_iff in E2, E3. subst.
    apply does_call. constructor.
  - destruct (kw "rgball" a) eqn:E.
    { apply kw_iff in E. subst. destruct (parse_u8 b) eqn:P1; [|apply does_die; exists b, b, c, d; auto].
      destruct (parse_u8 c) eqn:P2; [|apply does_die; exists b, b, c, d; auto]. destruct (parse_u8 d) eqn:P3; [|apply does_die; exists b, b, c, d; auto].
      apply u8_iff in P1, P2, P3. apply does_call. constructor; auto. }
    destruct (kw "accel" a && kw "start" b) eqn:E2; [|apply does_complain]. apply andb_true_iff in E2 as [E2 E3]. apply kw_iff in E2, E3. subst.
    destruct (parse_u32 c) eqn:P; [|apply does_complain]. destruct (range_of d) eqn:R; [|apply does_complain].
    apply u32_iff in P. apply range_iff in R. apply does_call. constructor; auto.
  - destruct (kw "rgb" a) eqn:E.
    { apply kw_iff in E. subst. destruct (parse_u32 b) eqn:P0; [|apply does_die; exists b, c, d, e; auto].
      destruct (parse_u8 c) eqn:P1; [|apply does_die; exists b, c, d, e; auto].
      destruct (parse_u8 d) eqn:P2; [|apply does_die; exists b, c, d, e; auto]. destruct (parse_u8 e) eqn:P3; [|apply does_die; exists b, c, d, e; auto].
      apply u32_iff in P0. apply u8_iff in P1, P2, P3. apply does_call. constructor; auto. }
    destruct (kw "accel" a && kw "listen" b) eqn:E2; [|apply does_complain]. apply andb_true_iff in E2 as [E2 E3]. apply kw_iff in E2, E3. subst.
    destruct (parse_u32 c) eqn:P; [|apply does_complain]. destruct (parse_u32 e) eqn:P2; [|apply does_complain].
    destruct (range_of d) eqn:R; [|apply does_complain]. apply u32_iff in P, P2. apply range_iff in R. apply does_listen. constructor; auto.
Qed.
(** Hence what it does says what was asked. *)
Lemma called_asked ws c os : command ws = (Called c, os) -> asks ws c /\ os = [Do c].
Proof. intros H. destruct (command_does ws); unfold call, complain in H; inversion H; subst; auto. Qed.
Lemma subscribed_asked ws ms rg dur os : command ws = (Subscribing ms rg dur, os) -> asks_to_listen ws ms rg dur /\ os = [Subscribe].
Proof. intros H. destruct (command_does ws); unfold call, complain in H; inversion H; subst; auto. Qed.
Lemma reporting_asked ws os : command ws = (Reporting, os) -> ws = [text_of "schema"] /\ os = [GetReport].
Proof. intros H. destruct (command_does ws); unfold call, complain in H; inversion H; subst; auto. Qed.
Lemma died_asked ws os : command ws = (Died, os) <-> bad_colour ws /\ os = [].
Proof.
  split.
  - intros H. pose proof (command_does ws) as D. rewrite H in D. inversion D as [c A E|ms rg dur A E|A E|A E|p E]; unfold call, complain in *; try discriminate.
    split; auto. split; auto. intros c Hc. apply asked in Hc. rewrite H in Hc. discriminate.
  - intros [[(p & r & g & b & [->| ->]) N] ->]; cbn [command].
    + change (kw "rgb" (text_of "rgb")) with true. cbn iota.
      destruct (parse_u32 p) eqn:P0; [|reflexivity]. destruct (parse_u8 r) eqn:P1; [|reflexivity]. destruct (parse_u8 g) eqn:P2; [|reflexivity].
      destruct (parse_u8 b) eqn:P3; [|reflexivity]. apply u32_iff in P0. apply u8_iff in P1, P2, P3. exfalso. eapply N. constructor; eauto.
    + change (kw "rgball" (text_of "rgball")) with true. cbn iota.
      destruct (parse_u8 r) eqn:P1; [|reflexivity]. destruct (parse_u8 g) eqn:P2; [|reflexivity].
      destruct (parse_u8 b) eqn:P3; [|reflexivity]. apply u8_iff in P1, P2, P3. exfalso. eapply N. constructor; eauto.
Qed.
Lemma command_shows ws : shown_samples (snd (command ws)) = [].
Proof.
  destruct ws as [|a [|b [|c [|d [|e [|f ws]]]]]]; cbn [command]; unfold call, complain;
    repeat match goal with
           | |- context [match ?x with Some _ => _ | None => _ end] => destruct x
           | |- context [if ?x then _ else _] => destruct x
           end; reflexivity.
Qed.
