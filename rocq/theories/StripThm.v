(** Theorems about the workbook's lights: C96. *)
From Coq Require Import NArith List Bool Arith Lia.
From Verif Require Import WorkbookModel StripModel StripSpec StripProof.
Import ListNotations.

(** ** When the words are taken *)
Fixpoint timed (t : nat) (ws : list N) : Log := match ws with [] => [] | w :: tl => (t, w) :: timed (t + 240) tl end.
Lemma timed_app ws : forall t ws', timed t (ws ++ ws') = timed t ws ++ timed (t + 240 * length ws) ws'.
Proof.
  induction ws as [|w ws IH]; intros t ws'; cbn [app timed length]; [f_equal; lia|]. rewrite IH. f_equal. f_equal. f_equal. lia.
Qed.
Lemma timed_length ws : forall t, length (timed t ws) = length ws.
Proof. induction ws; intros; cbn; auto. Qed.
Lemma timed_nth ws : forall t i, i < length ws -> exists w, nth_error (timed t ws) i = Some (t + 240 * i, w).
Proof.
  induction ws as [|w ws IH]; intros t i H; [cbn in H; lia|]. destruct i as [|i].
  - exists w. cbn. f_equal. f_equal. lia.
  - destruct (IH (t + 240) i) as [w' E]; [cbn in H; lia|]. exists w'. cbn [timed nth_error]. rewrite E. f_equal. f_equal. lia.
Qed.

Definition not_after (t : nat) (log : Log) : Prop := Forall (fun e => fst e <= t) log.
Lemma not_after_nth t log i : not_after t log -> match nth_error log i with Some (s, _) => s | None => 0 end <= t.
Proof.
  intros F. destruct (nth_error log i) as [[s w]|] eqn:E; [|lia]. apply nth_error_In in E. apply (proj1 (Forall_forall _ _) F) in E. exact E.
Qed.

Lemma contig ws : forall p s w older, p <= s + 240 -> not_after s older ->
  snd (push_all p ws ((s, w) :: older)) = rev (timed (s + 240) ws) ++ (s, w) :: older.
Proof.
  induction ws as [|x ws IH]; intros p s w older Hp F; [reflexivity|].
  cbn [push_all]. unfold push.
  assert (M : match nth_error ((s, w) :: older) 7 with Some (s', _) => s' | None => 0 end <= s) by (apply not_after_nth; constructor; [cbn; lia|exact F]).
  set (m := match nth_error ((s, w) :: older) 7 with Some (s', _) => s' | None => 0 end) in *. clearbody m.
  replace (Nat.max (Nat.max p m) (s + 240)) with (s + 240) by lia. rewrite IH.
  - cbn [timed rev]. rewrite <- app_assoc. reflexivity.
  - lia.
  - constructor; [cbn; lia|]. eapply Forall_impl; [|exact F]. cbn. intros; lia.
Qed.
Definition begin (t : nat) (log : Log) : nat := match log with (s, _) :: _ => Nat.max t (s + 240) | [] => t end.
Definition sorted (log : Log) : Prop := match log with (s, _) :: older => not_after s older | [] => True end.
Lemma taken t ws log : ws <> [] -> sorted log -> snd (push_all t ws log) = rev (timed (begin t log) ws) ++ log.
Proof.
  intros Ne S. destruct ws as [|w ws]; [congruence|]. cbn [push_all]. unfold push, begin.
  destruct log as [|[s0 w0] older].
  - cbn [nth_error]. rewrite Nat.max_0_r, contig by (lia || constructor). cbn [timed rev]. rewrite <- app_assoc. reflexivity.
  - cbn [sorted] in S.
    assert (M : match nth_error ((s0, w0) :: older) 7 with Some (s', _) => s' | None => 0 end <= s0) by (apply not_after_nth; constructor; [cbn; lia|exact S]).
    set (m := match nth_error ((s0, w0) :: older) 7 with Some (s', _) => s' | None => 0 end) in *. clearbody m.
    replace (Nat.max (Nat.max t m) (s0 + 240)) with (Nat.max t (s0 + 240)) by lia. rewrite contig.
    + cbn [timed rev]. rewrite <- app_assoc. reflexivity.
    + lia.
    + constructor; [cbn; lia|]. eapply Forall_impl; [|exact S]. cbn. intros; lia.
Qed.

(** When the last word is in the FIFO, if nothing was under way at the beginning. *)
Lemma pushed t ws : forall done older, not_after t older -> match older with (s, _) :: _ => s + 240 <= t | [] => True end ->
  fst (push_all (t + 240 * (length done - 9)) ws (rev (timed t done) ++ older)) = t + 240 * (length done + length ws - 9).
Proof.
  induction ws as [|w ws IH]; intros done older F B.
  - cbn [push_all fst length]. f_equal. f_equal. lia.
  - cbn [push_all]. unfold push.
    assert (R : Nat.max (t + 240 * (length done - 9)) (match nth_error (rev (timed t done) ++ older) 7 with Some (s, _) => s | None => 0 end) = t + 240 * (length done - 8)).
    { destruct (le_lt_dec 8 (length done)) as [L|L].
      - assert (Lr : length (rev (timed t done)) = length done) by (rewrite rev_length, timed_length; reflexivity).
        rewrite nth_error_app1 by lia. destruct (timed_nth done t (length done - 8)) as [w' E]; [lia|].
        assert (E' : nth_error (rev (timed t done)) 7 = Some (t + 240 * (length done - 8), w')).
        { rewrite <- E. rewrite <- (rev_involutive (timed t done)) at 2. 
          pose proof (nth_error_nth' (rev (timed t done)) (0, 0%N) (n := 7) ltac:(lia)) as A. rewrite A.
          pose proof (nth_error_nth' (rev (rev (timed t done))) (0, 0%N) (n := length done - 8)) as B'. rewrite B' by (rewrite rev_length; lia).
          f_equal. rewrite (rev_nth (rev (timed t done))) by lia. f_equal. lia. }
        rewrite E'. lia.
      - replace (length done - 8) with 0 by lia. replace (length done - 9) with 0 by lia.
        rewrite nth_error_app2 by (rewrite rev_length, timed_length; lia).
        pose proof (not_after_nth t older (7 - length (rev (timed t done))) F). lia. }
    rewrite R. 
    assert (St : match rev (timed t done) ++ older with (s0, _) :: _ => Nat.max (t + 240 * (length done - 8)) (s0 + 240) | [] => t + 240 * (length done - 8) end = t + 240 * length done).
    { destruct done as [|d done] using rev_ind.
      - cbn [timed rev app length]. destruct older as [|[s0 w0] older]; cbn [length] in *; lia.
      - rewrite timed_app, rev_app_distr. cbn [timed rev app]. rewrite app_length. cbn [length]. lia. }
    rewrite St.
    specialize (IH (done ++ [w]) older F B). rewrite timed_app, rev_app_distr, !app_length in IH. cbn [timed rev app length] in IH.
    replace (length done + 1 - 9) with (length done - 8) in IH by lia. rewrite IH. cbn [length]. f_equal. f_equal. lia.
Qed.

Lemma timed_not_after ws : forall t, not_after (t + 240 * (length ws - 1)) (timed t ws).
Proof.
  induction ws as [|w ws IH]; intros t; [constructor|]. cbn [timed length]. constructor; [cbn; lia|].
  destruct ws as [|x ws]; [constructor|]. eapply Forall_impl; [|exact (IH (t + 240))]. cbn [length]. intros; lia.
Qed.
Lemma timed_last ws t : ws <> [] -> exists w older, rev (timed t ws) = (t + 240 * (length ws - 1), w) :: older /\ not_after (t + 240 * (length ws - 1)) older.
Proof.
  intros Ne. destruct (exists_last Ne) as (ws' & w & E). subst ws. exists w, (rev (timed t ws')).
  rewrite timed_app, rev_app_distr. cbn [timed rev app]. rewrite app_length. cbn [length]. split.
  - f_equal. f_equal. lia.
  - apply Forall_rev. eapply Forall_impl; [|exact (timed_not_after ws' t)]. cbn. intros; lia.
Qed.

(** ** The levels *)
Lemma pin_timed ws : forall now s tl, ws <> [] -> now <= s ->
  pin_levels now (timed s ws ++ tl) = repeat false (s - now) ++ flat_map word_levels ws ++ pin_levels (s + 240 * length ws) tl.
Proof.
  induction ws as [|w ws IH]; intros now s tl Ne L; [congruence|]. cbn [timed app pin_levels flat_map]. f_equal. rewrite <- app_assoc. f_equal.
  destruct ws as [|x ws]; [cbn [timed app flat_map length]; f_equal; lia|].
  rewrite IH by (discriminate || lia). rewrite Nat.sub_diag. cbn [repeat app]. f_equal. f_equal. cbn [length]. lia.
Qed.
Lemma colours_levels cs : Forall rgb_ok cs -> flat_map word_levels (map word_of cs) = flat_map bit_wave (flat_map colour_bits cs).
Proof.
  induction 1 as [|c cs Hc _ IH]; [reflexivity|]. cbn [map flat_map]. rewrite IH, word_levels_eq, word_bits by exact Hc.
  rewrite !flat_map_concat_map, map_app, concat_app. reflexivity.
Qed.
Lemma colours_ne n cs : 0 < n -> length cs = n -> exists x bs, flat_map colour_bits cs = x :: bs.
Proof. intros H L. destruct cs as [|c cs]; [cbn in L; lia|]. do 2 eexists. reflexivity. Qed.
Lemma again {A} (x : A) bs : removelast (x :: bs) ++ [last bs x] = x :: bs.
Proof. rewrite <- (last_cons bs x x). symmetry. apply app_removelast_last. discriminate. Qed.

Section T.
  Variable reset n : nat.
  Hypothesis Hreset : 8 < reset.
  Hypothesis Hn : 0 < n.
  Definition strip_ok (cs : list Rgb8) : Prop := length cs = n /\ Forall rgb_ok cs.
  Notation heard := (fold_left (fun e l => hear reset l e)).

  Lemma heard_message gap b bits done x bs : reset <= gap + 3 ->
    heard (repeat false gap ++ flat_map bit_wave (x :: bs)) (after b bits done) = after (last bs x) (removelast (x :: bs)) (done ++ [bits ++ [b]]).
  Proof.
    intros H. cbn [flat_map]. rewrite app_assoc, fold_left_app, heard_bit by exact Hreset.
    replace (reset <=? gap + 3 + so_far b) with true by (symmetry; apply Nat.leb_le; destruct b; cbn; lia).
    apply heard_bits. exact Hreset.
  Qed.
  Lemma heard_first_message gap x bs :
    heard (repeat false gap ++ flat_map bit_wave (x :: bs)) (MkEar 0 0 [] []) = after (last bs x) (removelast (x :: bs)) [].
  Proof. cbn [flat_map]. rewrite app_assoc, fold_left_app, heard_first by exact Hreset. apply heard_bits. exact Hreset. Qed.

  Lemma words_ne cs : length cs = n -> map word_of cs <> [].
  Proof. destruct cs; [cbn; lia|discriminate]. Qed.

  (** From a moment at which the last write's words end at [e]. *)
  Definition enough (pause : nat) : Prop := 240 * Nat.min n 9 + reset <= 440 + pause.
  Lemma writes_rest rest : forall t e log,
    Forall (fun w => enough (fst w) /\ strip_ok (snd w)) rest -> e + 440 = t + 240 * Nat.min n 9 ->
    sorted log -> match log with (s, _) :: _ => s + 240 = e | [] => False end ->
    exists tl, rev (writes t rest log) = rev log ++ tl /\
    forall b bits done,
      let ear := heard (pin_levels e tl) (after b bits done) in
      e_done ear ++ [e_bits ear ++ if e_high ear =? 0 then [] else [4 <=? e_high ear]] =
      done ++ [bits ++ [b]] ++ map (fun w => flat_map colour_bits (snd w)) rest.
  Proof.
    induction rest as [|[pause cs] rest IH]; intros t e log F Et S He.
    - exists []. split; [cbn; rewrite app_nil_r; reflexivity|]. intros b bits done. cbn [pin_levels fold_left map]. rewrite app_nil_r. apply finish.
    - apply Forall_cons_iff in F. destruct F as [[En [Ln Ok]] F]. cbn [fst snd] in *. unfold enough in En.
      cbn [writes]. unfold write. destruct (push_all (t + pause) (map word_of cs) log) as [p log'] eqn:E.
      destruct log as [|[s0 w0] older]; [contradiction|]. cbn [sorted] in S.
      assert (Hnow : begin (t + pause) ((s0, w0) :: older) = t + pause) by (cbn [begin]; lia).
      pose proof (taken (t + pause) (map word_of cs) ((s0, w0) :: older) (words_ne cs Ln) S) as Tk. rewrite E, Hnow in Tk. cbn [snd] in Tk.
      assert (NA : not_after (t + pause) ((s0, w0) :: older)).
      { constructor; [cbn; lia|]. eapply Forall_impl; [|exact S]. cbn. intros; lia. }
      pose proof (pushed (t + pause) (map word_of cs) [] ((s0, w0) :: older) NA ltac:(cbn; lia)) as P.
      cbn [length timed rev app] in P. rewrite Nat.mul_0_r, Nat.add_0_r, E, map_length, Ln in P. cbn [fst] in P.
      destruct (timed_last (map word_of cs) (t + pause) (words_ne cs Ln)) as (w & older' & El & So). rewrite map_length, Ln in *.
      destruct (IH (p + 440) (t + pause + 240 * n) log' F) as (tl & R & H).
      + lia.
      + rewrite Tk, El. cbn [app sorted]. apply Forall_app. split; [exact So|]. eapply Forall_impl; [|exact NA]. cbn beta. intros; lia.
      + rewrite Tk, El. cbn [app]. lia.
      + exists (timed (t + pause) (map word_of cs) ++ tl). split.
        { rewrite R, Tk, rev_app_distr, rev_involutive, <- app_assoc. reflexivity. }
        intros b bits done. cbn zeta. rewrite pin_timed by (apply words_ne || lia; exact Ln). rewrite map_length, Ln, colours_levels by exact Ok.
        destruct (colours_ne n cs Hn Ln) as (x & bs & Eb). rewrite Eb, app_assoc, fold_left_app, heard_message by lia.
        rewrite (H (last bs x) (removelast (x :: bs)) (done ++ [bits ++ [b]])). rewrite again. cbn [map snd]. rewrite Eb, <- !app_assoc. reflexivity.
  Qed.

  (** The first write is begun when nothing is under way. *)
  Lemma first_write pause cs tl : strip_ok cs ->
    exists log, rev (writes 0 ((pause, cs) :: tl) []) = rev (writes (pause + 240 * (n - 9) + 440) tl log) /\
      log = rev (timed pause (map word_of cs)).
  Proof.
    intros [Ln Ok]. cbn [writes plus]. unfold write. destruct (push_all pause (map word_of cs) []) as [p log'] eqn:E.
    pose proof (taken pause (map word_of cs) [] (words_ne cs Ln) Logic.I) as Tk. rewrite E in Tk. cbn [snd begin] in Tk. rewrite app_nil_r in Tk.
    pose proof (pushed pause (map word_of cs) [] [] (Forall_nil _) Logic.I) as P.
    cbn [length timed rev app] in P. rewrite Nat.mul_0_r, Nat.add_0_r, E, map_length, Ln in P. cbn [fst] in P.
    exists log'. split; [|exact Tk]. rewrite P. reflexivity.
  Qed.

  (** If there is a pause after each write, long enough for the words under way and the
      reset, the lights show what is written, write by write: for the 24 lights of the workbook and a
      reset of 50 us (400 cycles), 2120 cycles or 265 us from the return of one write to
      the beginning of the next. *)
  Theorem C96_lights_show_partial :
    forall pause colours rest,
      strip_ok colours -> Forall (fun w => 240 * Nat.min n 9 + reset <= 440 + fst w /\ strip_ok (snd w)) rest ->
      map (strip_shows n) (messages reset (pin ((pause, colours) :: rest))) = colours :: map snd rest.
  Proof.
    intros pause cs rest Ok F. destruct (first_write pause cs rest Ok) as (log & Er & El). destruct Ok as [Ln Ok].
    unfold pin. rewrite Er. destruct (timed_last (map word_of cs) pause (words_ne cs Ln)) as (w & older & Et & So). rewrite map_length, Ln in *.
    destruct (writes_rest rest (pause + 240 * (n - 9) + 440) (pause + 240 * n) log F) as (tl & R & H).
    - lia.
    - rewrite El, Et. exact So.
    - rewrite El, Et. lia.
    - rewrite R, El, rev_involutive, pin_timed by (apply words_ne || lia; exact Ln). rewrite map_length, Ln, colours_levels by exact Ok.
      destruct (colours_ne n cs Hn Ln) as (x & bs & Eb). unfold messages. cbn zeta. rewrite Eb, app_assoc, fold_left_app, heard_first_message.
      pose proof (H (last bs x) (removelast (x :: bs)) []) as M. cbn zeta in M. rewrite M, again. cbn [app map]. rewrite <- Eb.
      f_equal.
      + rewrite <- Ln. rewrite <- (app_nil_r (flat_map colour_bits cs)). apply strip_shows_ok. exact Ok.
      + rewrite map_map. clear -F. induction F as [|[p c] rest [_ [L O]] _ IH]; [reflexivity|]. cbn [map snd] in *. rewrite IH. f_equal.
        rewrite <- L. rewrite <- (app_nil_r (flat_map colour_bits c)). apply strip_shows_ok. exact O.
  Qed.

  (** Otherwise a second write is lost: the lights take its words for words that are meant
      for lights behind them. *)
  Theorem C96_too_soon_is_lost :
    forall pause colours pause' colours',
      strip_ok colours -> strip_ok colours' -> 440 + pause' + 8 < 240 * Nat.min n 9 + reset ->
      map (strip_shows n) (messages reset (pin [(pause, colours); (pause', colours')])) = [colours].
  Proof.
    intros pause cs pause' cs' Ok Ok' Soon. destruct (first_write pause cs [(pause', cs')] Ok) as (log & Er & El). destruct Ok as [Ln Ok], Ok' as [Ln' Ok'].
    unfold pin. rewrite Er. destruct (timed_last (map word_of cs) pause (words_ne cs Ln)) as (w & older & Et & So). rewrite map_length, Ln in *.
    cbn [writes]. unfold write. destruct (push_all (pause + 240 * (n - 9) + 440 + pause') (map word_of cs') log) as [p log'] eqn:E.
    assert (S : sorted log) by (rewrite El, Et; exact So).
    pose proof (taken (pause + 240 * (n - 9) + 440 + pause') (map word_of cs') log (words_ne cs' Ln') S) as Tk. rewrite E in Tk. cbn [snd] in Tk.
    set (t' := begin (pause + 240 * (n - 9) + 440 + pause') log) in *.
    assert (Ht : pause + 240 * n <= t' /\ t' - (pause + 240 * n) + 8 < reset).
    { unfold t'. rewrite El, Et. cbn [begin]. lia. }
    clearbody t'. rewrite Tk, rev_app_distr, rev_involutive, El, rev_involutive.
    rewrite pin_timed by (apply words_ne || lia; exact Ln). rewrite map_length, Ln, colours_levels by exact Ok.
    rewrite <- (app_nil_r (timed t' (map word_of cs'))), pin_timed by (apply words_ne || lia; exact Ln'). rewrite colours_levels by exact Ok'. cbn [pin_levels]. rewrite app_nil_r.
    destruct (colours_ne n cs Hn Ln) as (x & bs & Eb). destruct (colours_ne n cs' Hn Ln') as (x' & bs' & Eb').
    unfold messages. cbn zeta. rewrite Eb, Eb', app_assoc, fold_left_app, heard_first_message.
    cbn [flat_map]. rewrite app_assoc, fold_left_app, heard_bit by exact Hreset.
    replace (reset <=? t' - (pause + 240 * n) + 3 + so_far (last bs x)) with false by (symmetry; apply Nat.leb_gt; destruct (last bs x); cbn; lia).
    rewrite heard_bits by exact Hreset. rewrite finish. cbn [app map]. f_equal. rewrite again, <- app_assoc, again, <- Eb.
    rewrite <- Ln. apply strip_shows_ok. exact Ok.
  Qed.
End T.
Print Assumptions C96_lights_show_partial.
Print Assumptions C96_too_soon_is_lost.

(** Each bit takes ten cycles (1.25 us), of which the pin is high for seven or two. *)
Theorem C96_pulses :
  forall c, (red c < 256)%N -> (green c < 256)%N -> (blue c < 256)%N ->
    exists bits, length bits = 24 /\
      word_levels (word_of c) = flat_map (fun b : bool => repeat false 3 ++ repeat true (if b then 7 else 2) ++ repeat false (if b then 0 else 5)) bits /\
      number (firstn 8 bits) = green c /\ number (firstn 8 (skipn 8 bits)) = red c /\ number (skipn 16 bits) = blue c.
Proof.
  intros c R G B. exists (colour_bits c). split; [reflexivity|]. split.
  - rewrite word_levels_eq, word_bits by (repeat split; assumption). apply flat_map_ext. intros []; reflexivity.
  - split; [exact (byte_number _ G)|]. split; [exact (byte_number _ R)|exact (byte_number _ B)].
Qed.
Print Assumptions C96_pulses.

(** The workbook's 24 lights, all made red and then, at once, all made blue: they stay red. *)
Theorem C96_lights_show_refuted :
  exists first second, strip_ok 24 first /\ strip_ok 24 second /\ first <> second /\
    map (strip_shows 24) (messages 400 (pin [(0, first); (0, second)])) = [first].
Proof.
  exists (repeat (MkRgb 255 0 0) 24), (repeat (MkRgb 0 0 255) 24).
  assert (A : forall c, rgb_ok c -> strip_ok 24 (repeat c 24)).
  { intros c H. split; [apply repeat_length|]. apply Forall_forall. intros x Hx. apply repeat_spec in Hx. subst. exact H. }
  split; [apply A; repeat split; cbn; lia|]. split; [apply A; repeat split; cbn; lia|]. split; [discriminate|].
  vm_compute. reflexivity.
Qed.
Print Assumptions C96_lights_show_refuted.

Example C96_ex :
  let one := repeat (MkRgb 255 0 17) 24 in let two := repeat (MkRgb 1 2 200) 24 in
  strip_ok 24 one /\ strip_ok 24 two /\ 240 * Nat.min 24 9 + 400 <= 440 + 2120 /\
  map (strip_shows 24) (messages 400 (pin [(5, one); (2120, two)])) = [one; two] /\
  map (strip_shows 24) (messages 400 (pin [(5, one); (2000, two)])) = [one].
Proof.
  cbn zeta. split; [split; [reflexivity|repeat constructor]|]. split; [split; [reflexivity|repeat constructor]|]. split; [cbn; lia|].
  split; vm_compute; reflexivity.
Qed.
