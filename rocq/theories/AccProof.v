(** Lemmas about the accumulator and the serial receiver. *)
From Coq Require Import NArith List Bool Arith Lia.
From Verif Require Import HeaderModel CobsModel AccModel CobsProof.
Import ListNotations.
Local Open Scope N_scope.

(** The accumulator holds the unterminated bytes [p]. *)
Definition acc_ok (size : nat) (a : Acc) (p : list N) : Prop :=
  length (acc_buf a) = size /\ acc_idx a = length p /\ (length p <= size)%nat /\
  firstn (length p) (acc_buf a) = p /\ nz p.

Lemma acc_new_ok size : acc_ok size (acc_new size) [].
Proof. unfold acc_ok, acc_new; cbn. rewrite repeat_length. repeat split; auto; try lia. constructor. Qed.

Definition decoded (e : list N) : FeedEvent := match decode e with Some d => FData d | None => FBad end.

(** What a window yields, given the pending bytes. *)
Inductive feeds (size : nat) : list N -> list N -> list FeedEvent -> list N -> Prop :=
| fd_nil : forall p, feeds size p [] [] p
| fd_part : forall p c, c <> [] -> nz c -> (length p + length c <= size)%nat -> feeds size p c [] (p ++ c)
| fd_over : forall p c evs p', c <> [] -> nz c -> (size < length p + length c)%nat ->
    feeds size [] (skipn (size - length p) c) evs p' -> feeds size p c (FOverFull :: evs) p'
| fd_frame : forall p x r evs p', nz x -> (length p + length x + 1 <= size)%nat ->
    feeds size [] r evs p' -> feeds size p (x ++ 0 :: r) (decoded (p ++ x) :: evs) p'
| fd_frame_over : forall p x r evs p', nz x -> (size < length p + length x + 1)%nat ->
    feeds size [] r evs p' -> feeds size p (x ++ 0 :: r) (FOverFull :: evs) p'.

Lemma extend_ok size a p c : acc_ok size a p -> (length p + length c <= size)%nat ->
  exists a', extend_unchecked a c = Done a' /\ length (acc_buf a') = size /\
    acc_idx a' = length (p ++ c) /\ firstn (length (p ++ c)) (acc_buf a') = p ++ c.
Proof.
  intros (L & I & Hp & F & Z) H. unfold extend_unchecked. rewrite I, L.
  replace (length p + length c <=? size)%nat with true by (symmetry; apply Nat.leb_le; lia).
  eexists; split; [reflexivity|]. cbn [acc_buf acc_idx]. rewrite F. rewrite !app_length.
  rewrite skipn_length, L. repeat split; [lia|].
  rewrite app_assoc, <- (app_length p c). rewrite firstn_app, Nat.sub_diag, firstn_O, app_nil_r. apply firstn_all.
Qed.

Lemma acc_reset size a p : acc_ok size a p -> acc_ok size (MkAcc (acc_buf a) 0) [].
Proof. intros (L & _). repeat split; auto; cbn; try lia. constructor. Qed.

Lemma feed_part size a p c : acc_ok size a p -> c <> [] -> nz c -> (length p + length c <= size)%nat ->
  exists a', feed_ref a c = Done (Consumed, a') /\ acc_ok size a' (p ++ c).
Proof.
  intros A Hc Z H. destruct (extend_ok _ _ _ _ A H) as (a' & E & L' & I' & F').
  destruct A as (L & I & Hp & F & Zp).
  unfold feed_ref. destruct c as [|b c]; [congruence|]. rewrite zero_pos_nz by auto.
  rewrite L, I. replace (size <? length p + length (b :: c))%nat with false by (symmetry; apply Nat.ltb_ge; lia).
  rewrite E. eexists; split; [reflexivity|]. unfold acc_ok. repeat split; auto.
  - rewrite app_length; lia.
  - now apply nz_app.
Qed.
Lemma feed_over size a p c : acc_ok size a p -> c <> [] -> nz c -> (size < length p + length c)%nat ->
  exists a', feed_ref a c = Done (OverFull (skipn (size - length p) c), a') /\ acc_ok size a' [].
Proof.
  intros A Hc Z H. pose proof (acc_reset _ _ _ A) as R. destruct A as (L & I & Hp & F & Zp).
  unfold feed_ref. destruct c as [|b c]; [congruence|]. rewrite zero_pos_nz by auto.
  rewrite L, I. replace (size <? length p + length (b :: c))%nat with true by (symmetry; apply Nat.ltb_lt; lia).
  replace (size <? length p)%nat with false by (symmetry; apply Nat.ltb_ge; lia).
  replace (length (b :: c) <? size - length p)%nat with false by (symmetry; apply Nat.ltb_ge; lia).
  eauto.
Qed.
Lemma take_to_zero x r : firstn (length x + 1) (x ++ 0 :: r) = x ++ [0] /\ skipn (length x + 1) (x ++ 0 :: r) = r.
Proof.
  induction x as [|b x IH]; cbn; auto. destruct IH as [-> ->]. auto.
Qed.
Lemma feed_frame size a p x r : acc_ok size a p -> nz x -> (length p + length x + 1 <= size)%nat ->
  exists a', feed_ref a (x ++ 0 :: r) =
    Done (match decode (p ++ x) with Some d => Success d r | None => DeserError r end, a') /\ acc_ok size a' [].
Proof.
  intros A Hx H. destruct (extend_ok size a p (x ++ [0]) A ltac:(rewrite app_length; cbn; lia)) as (a' & E & L' & I' & F').
  destruct A as (L & I & Hp & F & Zp).
  assert (NE : exists b c, x ++ 0 :: r = b :: c) by (destruct x; cbn; eauto).
  unfold feed_ref. destruct (take_to_zero x r) as [T1 T2].
  assert (ZP := zero_pos_app x r Hx).
  destruct NE as (b & c & NE). rewrite NE in *. rewrite ZP. rewrite T1, T2, L, I, app_length. cbn [length].
  replace (length p + (length x + 1) <=? size)%nat with true by (symmetry; apply Nat.leb_le; lia).
  rewrite E, I', F'. rewrite app_assoc.
  pose proof (decode_in_place_spec (p ++ x) [0] (nz_app _ _ Zp Hx) ltac:(right; eauto)) as D.
  destruct (decode_in_place ((p ++ x) ++ [0])) as [dec rr]. destruct D as [DL D].
  assert (LL : length (dec ++ skipn (length ((p ++ x) ++ [0])) (acc_buf a')) = size).
  { rewrite app_length, DL, skipn_length, L'. rewrite !app_length; cbn [length]. lia. }
  assert (OK : acc_ok size (MkAcc (dec ++ skipn (length ((p ++ x) ++ [0])) (acc_buf a')) 0) []).
  { repeat split; auto; cbn; try lia. constructor. }
  destruct (decode (p ++ x)) as [d|].
  - destruct D as [-> D]. eexists; split; [|exact OK]. f_equal. f_equal. f_equal.
    rewrite firstn_app. replace (length d - length dec)%nat with 0%nat.
    + rewrite firstn_O, app_nil_r. exact D.
    + assert (X := firstn_length (length d) dec). rewrite D in X. lia.
  - subst rr. eexists; split; [reflexivity|exact OK].
Qed.
Lemma feed_frame_over size a p x r : acc_ok size a p -> nz x -> (size < length p + length x + 1)%nat ->
  exists a', feed_ref a (x ++ 0 :: r) = Done (OverFull r, a') /\ acc_ok size a' [].
Proof.
  intros A Hx H. pose proof (acc_reset _ _ _ A) as R. destruct A as (L & I & Hp & F & Zp).
  assert (NE : exists b c, x ++ 0 :: r = b :: c) by (destruct x; cbn; eauto).
  unfold feed_ref. destruct (take_to_zero x r) as [T1 T2].
  assert (ZP := zero_pos_app x r Hx).
  destruct NE as (b & c & NE). rewrite NE in *. rewrite ZP. rewrite T1, T2, L, I, app_length. cbn [length].
  replace (length p + (length x + 1) <=? size)%nat with false by (symmetry; apply Nat.leb_gt; lia).
  eauto.
Qed.

Lemma fw_S fuel a w : w <> [] -> feed_window (S fuel) a w =
  match feed_ref a w with
  | Panicked => None
  | Done (Consumed, a') => Some ([], a')
  | Done (OverFull w, a') => option_map (fun '(evs, x) => (FOverFull :: evs, x)) (feed_window fuel a' w)
  | Done (DeserError w, a') => option_map (fun '(evs, x) => (FBad :: evs, x)) (feed_window fuel a' w)
  | Done (Success d w, a') => option_map (fun '(evs, x) => (FData d :: evs, x)) (feed_window fuel a' w)
  end.
Proof. destruct w; [congruence|reflexivity]. Qed.
Lemma fw_nil fuel a : feed_window fuel a [] = Some ([], a).
Proof. destruct fuel; reflexivity. Qed.

Lemma feed_window_feeds size : (1 <= size)%nat -> forall fuel a p w,
  acc_ok size a p ->
  (2 * length w + (if (length p =? 0)%nat then 0 else 1) < fuel)%nat ->
  exists evs a' p', feed_window fuel a w = Some (evs, a') /\ acc_ok size a' p' /\ feeds size p w evs p'.
Proof.
  intros Hs. induction fuel as [|fuel IH]; intros a p w A Hf; [lia|].
  destruct (list_eq_dec N.eq_dec w []) as [->|Hw].
  { exists [], a, p. split; [apply fw_nil|]. split; [auto|constructor]. }
  rewrite fw_S by auto. destruct (zero_pos w) as [n|] eqn:Z.
  - destruct (zero_pos_some _ _ Z) as (x & r & -> & Hx & ->).
    assert (Hr : (2 * length r + (if (length (@nil N) =? 0)%nat then 0 else 1) < fuel)%nat).
    { rewrite app_length in Hf. cbn [length] in *. cbn. lia. }
    destruct (le_lt_dec (length p + length x + 1) size) as [G|G].
    + destruct (feed_frame size a p x r A Hx G) as (a1 & E & A1). rewrite E.
      destruct (IH a1 [] r A1 Hr) as (evs & a' & p' & E2 & A2 & F2).
      exists (decoded (p ++ x) :: evs), a', p'. split; [|split; [auto|now constructor]].
      unfold decoded. destruct (decode (p ++ x)); rewrite E2; reflexivity.
    + destruct (feed_frame_over size a p x r A Hx G) as (a1 & E & A1). rewrite E.
      destruct (IH a1 [] r A1 Hr) as (evs & a' & p' & E2 & A2 & F2).
      exists (FOverFull :: evs), a', p'. split; [|split; [auto|now apply fd_frame_over]]. now rewrite E2.
  - apply zero_pos_none in Z. destruct (le_lt_dec (length p + length w) size) as [G|G].
    + destruct (feed_part size a p w A Hw Z G) as (a1 & E & A1). rewrite E.
      exists [], a1, (p ++ w). split; [auto|split; [auto|now constructor]].
    + destruct (feed_over size a p w A Hw Z G) as (a1 & E & A1). rewrite E.
      destruct (IH a1 [] (skipn (size - length p) w) A1) as (evs & a' & p' & E2 & A2 & F2).
      { rewrite skipn_length. destruct A as (_ & _ & Hp & _). cbn [length Nat.eqb].
        destruct (length p =? 0)%nat eqn:P0.
        - apply Nat.eqb_eq in P0. lia.
        - apply Nat.eqb_neq in P0. lia. }
      exists (FOverFull :: evs), a', p'. split; [|split; [auto|now apply fd_over]]. now rewrite E2.
Qed.

Lemma feed_all_feeds size a p w : (1 <= size)%nat -> acc_ok size a p ->
  exists evs a' p', feed_all a w = Some (evs, a') /\ acc_ok size a' p' /\ feeds size p w evs p'.
Proof.
  intros Hs A. apply feed_window_feeds; auto. destruct (length p =? 0)%nat; lia.
Qed.

Lemma nz_split x r y s : nz x -> nz y -> x ++ 0 :: r = y ++ 0 :: s -> x = y /\ r = s.
Proof.
  revert y. induction x as [|a x IH]; intros [|b y] Hx Hy E; cbn in E; inversion E.
  - auto.
  - subst. inversion Hy; congruence.
  - subst. inversion Hx; congruence.
  - subst. apply Forall_inv_tail in Hx, Hy. destruct (IH y) as [-> ->]; auto.
Qed.
Lemma nz_no_zero x r c : nz c -> c = x ++ 0 :: r -> False.
Proof. intros H ->. apply Forall_app in H. destruct H as [_ H]. inversion H; congruence. Qed.

Lemma feeds_inv_zero size p w e p' : feeds size p w e p' -> forall x r, nz x -> w = x ++ 0 :: r ->
  exists evs, feeds size [] r evs p' /\
    e = (if (length p + length x + 1 <=? size)%nat then decoded (p ++ x) else FOverFull) :: evs.
Proof.
  destruct 1 as [p|p c Hc Z L|p c evs p' Hc Z L F|p x r evs p' Hx L F|p x r evs p' Hx L F]; intros x0 r0 Hx0 E.
  - destruct x0; discriminate.
  - exfalso; exact (nz_no_zero _ _ c Z E).
  - exfalso; exact (nz_no_zero _ _ c Z E).
  - destruct (nz_split _ _ _ _ Hx Hx0 E) as [<- <-]. exists evs. split; auto.
    replace (length p + length x + 1 <=? size)%nat with true by (symmetry; apply Nat.leb_le; lia). auto.
  - destruct (nz_split _ _ _ _ Hx Hx0 E) as [<- <-]. exists evs. split; auto.
    replace (length p + length x + 1 <=? size)%nat with false by (symmetry; apply Nat.leb_gt; lia). auto.
Qed.
Lemma feeds_inv_part size p w e p' : feeds size p w e p' -> nz w ->
  (w = [] /\ e = [] /\ p' = p) \/
  (w <> [] /\ (length p + length w <= size)%nat /\ e = [] /\ p' = p ++ w) \/
  (w <> [] /\ (size < length p + length w)%nat /\
   exists evs, e = FOverFull :: evs /\ feeds size [] (skipn (size - length p) w) evs p').
Proof.
  destruct 1 as [p|p c Hc Z L|p c evs p' Hc Z L F|p x r evs p' Hx L F|p x r evs p' Hx L F]; intros Zw.
  - auto.
  - right; left; auto.
  - right; right; eauto.
  - exfalso; exact (nz_no_zero _ _ _ Zw eq_refl).
  - exfalso; exact (nz_no_zero _ _ _ Zw eq_refl).
Qed.
Lemma feeds_fun size p w e1 p1 : feeds size p w e1 p1 -> forall e2 p2, feeds size p w e2 p2 -> e1 = e2 /\ p1 = p2.
Proof.
  induction 1 as [p|p c Hc Z L|p c evs p' Hc Z L F IH|p x r evs p' Hx L F IH|p x r evs p' Hx L F IH]; intros e2 p2 H2.
  - destruct (feeds_inv_part _ _ _ _ _ H2 ltac:(constructor)) as [(_ & -> & ->)|[(C & _)|(C & _)]]; auto; congruence.
  - destruct (feeds_inv_part _ _ _ _ _ H2 Z) as [(C & _)|[(_ & _ & -> & ->)|(_ & C & _)]]; auto; [congruence|lia].
  - destruct (feeds_inv_part _ _ _ _ _ H2 Z) as [(C & _)|[(_ & C & _)|(_ & _ & evs2 & -> & F2)]]; [congruence|lia|].
    destruct (IH _ _ F2) as [-> ->]. auto.
  - destruct (feeds_inv_zero _ _ _ _ _ H2 x r Hx eq_refl) as (evs2 & F2 & ->). destruct (IH _ _ F2) as [-> ->].
    replace (length p + length x + 1 <=? size)%nat with true by (symmetry; apply Nat.leb_le; lia). auto.
  - destruct (feeds_inv_zero _ _ _ _ _ H2 x r Hx eq_refl) as (evs2 & F2 & ->). destruct (IH _ _ F2) as [-> ->].
    replace (length p + length x + 1 <=? size)%nat with false by (symmetry; apply Nat.leb_gt; lia). auto.
Qed.

(** A window may be split after any terminator. *)
Lemma split_after x r a b : nz x -> x ++ 0 :: r = a ++ 0 :: b ->
  (x = a /\ r = b) \/ exists a2, a = x ++ 0 :: a2 /\ r = a2 ++ 0 :: b.
Proof.
  revert a. induction x as [|c x IH]; intros a Hx E.
  - destruct a as [|d a]; cbn in E; injection E as E; [left; auto|]. subst d. right. exists a. auto.
  - destruct a as [|d a]; cbn in E; injection E as E1 E2.
    + subst. inversion Hx; congruence.
    + subst d. apply Forall_inv_tail in Hx. destruct (IH a Hx E2) as [[-> ->]|(a2 & -> & ->)]; [auto|]. right. exists a2. auto.
Qed.
Lemma feeds_split size p w evs p' : feeds size p w evs p' -> forall a b, w = a ++ 0 :: b ->
  exists e1 e2, evs = e1 ++ e2 /\ feeds size p (a ++ [0]) e1 [] /\ feeds size [] b e2 p'.
Proof.
  induction 1 as [p|p c Hc Z L|p c evs p' Hc Z L F IH|p x r evs p' Hx L F IH|p x r evs p' Hx L F IH]; intros a b E.
  - destruct a; discriminate.
  - exfalso; exact (nz_no_zero _ _ c Z E).
  - exfalso; exact (nz_no_zero _ _ c Z E).
  - destruct (split_after _ _ _ _ Hx E) as [[-> ->]|(a2 & -> & ->)].
    + exists [decoded (p ++ a)], evs. split; auto. split; auto. apply fd_frame; auto. constructor.
    + destruct (IH a2 b eq_refl) as (e1 & e2 & -> & F1 & F2). exists (decoded (p ++ x) :: e1), e2.
      split; auto. split; auto. rewrite <- app_assoc. now apply fd_frame.
  - destruct (split_after _ _ _ _ Hx E) as [[-> ->]|(a2 & -> & ->)].
    + exists [FOverFull], evs. split; auto. split; auto. apply fd_frame_over; auto. constructor.
    + destruct (IH a2 b eq_refl) as (e1 & e2 & -> & F1 & F2). exists (FOverFull :: e1), e2.
      split; auto. split; auto. rewrite <- app_assoc. now apply fd_frame_over.
Qed.

(** Chunks. *)
Inductive feeds_chunks (size : nat) : list N -> list (list N) -> list FeedEvent -> list N -> Prop :=
| fc_nil : forall p, feeds_chunks size p [] [] p
| fc_cons : forall p c cs e1 p1 e2 p2, feeds size p c e1 p1 -> feeds_chunks size p1 cs e2 p2 ->
    feeds_chunks size p (c :: cs) (e1 ++ e2) p2.
Lemma feed_chunks_feeds size : (1 <= size)%nat -> forall cs a p, acc_ok size a p ->
  exists evs a' p', feed_chunks a cs = Some (evs, a') /\ acc_ok size a' p' /\ feeds_chunks size p cs evs p'.
Proof.
  intros Hs. induction cs as [|c cs IH]; intros a p A.
  - exists [], a, p. repeat split; try apply A. constructor.
  - destruct (feed_all_feeds size a p c Hs A) as (e1 & a1 & p1 & E1 & A1 & F1).
    destruct (IH a1 p1 A1) as (e2 & a2 & p2 & E2 & A2 & F2).
    exists (e1 ++ e2), a2, p2. split; [|split; [auto|econstructor; eauto]]. cbn [feed_chunks]. now rewrite E1, E2.
Qed.
Lemma feeds_chunks_fun size p cs e1 p1 : feeds_chunks size p cs e1 p1 -> forall e2 p2, feeds_chunks size p cs e2 p2 -> e1 = e2 /\ p1 = p2.
Proof.
  induction 1 as [p|p c cs e1 p1 e1' p1' F FC IH]; intros e2 p2 H2;
    inversion H2 as [|? ? ? f1 q1 f2 q2 F2 FC2]; subst; auto.
  destruct (feeds_fun _ _ _ _ _ F _ _ F2) as [-> ->]. destruct (IH _ _ FC2) as [-> ->]. auto.
Qed.

Lemma feeds_chunks_app size p a e1 q b e2 r : feeds_chunks size p a e1 q -> feeds_chunks size q b e2 r ->
  feeds_chunks size p (a ++ b) (e1 ++ e2) r.
Proof.
  induction 1 as [p|p c cs e1 p1 e1' p1' F FC IH]; intros H; [exact H|]. cbn [app]. rewrite <- app_assoc. econstructor; eauto.
Qed.

(** ** Streams of frames *)
Definition frame_bytes (encs : list (list N)) : list N := concat (map (fun e => e ++ [0]) encs).

(** A stream cut anywhere. *)
Lemma frames_cut size encs : forall s rest q, Forall nz encs -> Forall (fun e => (length e + 1 <= size)%nat) encs ->
  nz q -> (length q <= size)%nat ->
  s ++ rest = frame_bytes encs ++ q ->
  exists f1 f2 q1, encs = f1 ++ f2 /\ s = frame_bytes f1 ++ q1 /\ nz q1 /\ (length q1 <= size)%nat /\
    q1 ++ rest = frame_bytes f2 ++ q.
Proof.
  induction encs as [|e encs IH]; intros s rest q Ze Le Zq Lq E.
  - cbn in E. exists [], [], s. cbn. subst q. apply Forall_app in Zq. destruct Zq. rewrite app_length in Lq.
    repeat split; auto. lia.
  - inversion Ze as [|? ? Z1 Z2]; inversion Le as [|? ? L1 L2]; subst.
    unfold frame_bytes in E. cbn [map concat] in E. fold (frame_bytes encs) in E. rewrite <- app_assoc in E.
    destruct (le_lt_dec (length s) (length e)) as [G|G].
    + (* the cut is inside the first frame *)
      exists [], (e :: encs), s. cbn [app frame_bytes map concat].
      assert (P : s = firstn (length s) e).
      { assert (X : firstn (length s) (s ++ rest) = s) by (rewrite firstn_app, Nat.sub_diag, firstn_O, app_nil_r; apply firstn_all).
        rewrite E in X. rewrite <- app_assoc in X. rewrite firstn_app in X.
        replace (length s - length e)%nat with 0%nat in X by lia. rewrite firstn_O, app_nil_r in X. auto. }
      repeat split; auto.
      * rewrite P. apply Forall_forall. intros b Hb. unfold nz in Z1. rewrite Forall_forall in Z1. apply Z1.
        rewrite <- (firstn_skipn (length s) e). apply in_or_app; auto.
      * lia.
      * rewrite E. unfold frame_bytes. cbn. now rewrite <- !app_assoc.
    + (* the first frame is complete *)
      assert (P : exists s', s = e ++ [0] ++ s' /\ s' ++ rest = frame_bytes encs ++ q).
      { exists (skipn (length e + 1) s).
        assert (Ls : length (e ++ [0]) = (length e + 1)%nat) by (rewrite app_length; reflexivity).
        split.
        - rewrite app_assoc. rewrite <- (firstn_skipn (length e + 1) s) at 1. f_equal.
          assert (X : firstn (length e + 1) (s ++ rest) = firstn (length e + 1) s).
          { rewrite firstn_app. replace (length e + 1 - length s)%nat with 0%nat by lia. rewrite firstn_O. apply app_nil_r. }
          rewrite <- X, E, <- Ls. rewrite firstn_app, Nat.sub_diag, firstn_O, app_nil_r. apply firstn_all.
        - assert (X : skipn (length e + 1) (s ++ rest) = skipn (length e + 1) s ++ rest).
          { rewrite skipn_app. replace (length e + 1 - length s)%nat with 0%nat by lia. reflexivity. }
          rewrite <- X, E, <- Ls. rewrite skipn_app, Nat.sub_diag, skipn_O, skipn_all. reflexivity. }
      destruct P as (s' & -> & E').
      destruct (IH s' rest q Z2 L2 Zq Lq E') as (f1 & f2 & q1 & -> & -> & Z & L & E2).
      exists (e :: f1), f2, q1. repeat split; auto. unfold frame_bytes. cbn. now rewrite <- !app_assoc.
Qed.

(** One window made of the rest of a frame, whole frames and a part. *)
Lemma feeds_frames size encs : forall p w q, Forall nz encs -> Forall (fun e => (length e + 1 <= size)%nat) encs ->
  nz p -> nz q -> (length q <= size)%nat -> p ++ w = frame_bytes encs ++ q ->
  feeds size p w (map decoded encs) q.
Proof.
  induction encs as [|e encs IH]; intros p w q Ze Le Zp Zq Lq E.
  - cbn in E. subst q. cbn. apply Forall_app in Zq. destruct Zq as [_ Zw]. rewrite app_length in Lq.
    destruct w; [rewrite app_nil_r; constructor|]. constructor; auto. discriminate.
  - inversion Ze as [|? ? Z1 Z2]; inversion Le as [|? ? L1 L2]; subst.
    unfold frame_bytes in E. cbn [map concat] in E. fold (frame_bytes encs) in E. rewrite <- !app_assoc in E. cbn [app] in E.
    assert (P : exists x, e = p ++ x).
    { clear -E Z1 Zp. revert e Z1 E. induction p as [|b p IH]; intros e Z1 E; [exists e; auto|].
      destruct e as [|c e]; cbn in E; injection E as E1 E2.
      - subst. inversion Zp; congruence.
      - subst. inversion Zp; inversion Z1; subst. destruct (IH H2 e H6 E2) as [x ->]. now exists x. }
    destruct P as [x ->]. rewrite <- app_assoc in E. apply app_inv_head in E. subst w.
    rewrite app_length in L1. apply Forall_app in Z1. destruct Z1 as [_ Zx].
    cbn [map]. apply fd_frame; auto; try lia. apply IH; auto. constructor.
Qed.

Lemma feeds_chunks_frames size cs : forall encs p q, Forall nz encs -> Forall (fun e => (length e + 1 <= size)%nat) encs ->
  nz p -> nz q -> (length q <= size)%nat -> p ++ concat cs = frame_bytes encs ++ q ->
  feeds_chunks size p cs (map decoded encs) q.
Proof.
  induction cs as [|c cs IH]; intros encs p q Ze Le Zp Zq Lq E; cbn [concat] in E.
  - rewrite app_nil_r in E. destruct encs as [|e encs].
    + cbn in E. subst q. constructor.
    + exfalso. unfold frame_bytes in E. cbn in E. rewrite <- !app_assoc in E. eapply (nz_no_zero e); [exact Zp|exact E].
  - rewrite app_assoc in E.
    destruct (frames_cut size encs (p ++ c) (concat cs) q Ze Le Zq Lq E) as (f1 & f2 & q1 & -> & E1 & Z1 & L1 & E2).
    apply Forall_app in Ze. apply Forall_app in Le. destruct Ze as [Ze1 Ze2], Le as [Le1 Le2].
    rewrite map_app. econstructor; [apply feeds_frames; eauto|apply IH; auto].
Qed.

Lemma decoded_encode oe of_ m : decoded (encode oe of_ m) = FData m.
Proof. unfold decoded. now rewrite encode_decode. Qed.

(** ** Chunks after a terminator *)

(** The first [n] bytes of a chunk sequence, and what follows them. *)
Fixpoint cut (n : nat) (cs : list (list N)) : list (list N) :=
  match cs with
  | [] => []
  | c :: cs' => firstn n c :: cut (n - length c) cs'
  end.
Fixpoint cut_rest (n : nat) (cs : list (list N)) : list (list N) :=
  match cs with
  | [] => []
  | c :: cs' => skipn n c :: cut_rest (n - length c) cs'
  end.
Lemma cut_concat cs : forall n, concat (cut n cs) = firstn n (concat cs).
Proof. induction cs as [|c cs IH]; intros n; cbn; [now rewrite firstn_nil|]. now rewrite IH, firstn_app. Qed.
Lemma cut_rest_concat cs : forall n, concat (cut_rest n cs) = skipn n (concat cs).
Proof. induction cs as [|c cs IH]; intros n; cbn; [now rewrite skipn_nil|]. now rewrite IH, skipn_app. Qed.

Lemma feeds_chunks_empty size p cs : concat cs = [] -> feeds_chunks size p cs [] p.
Proof.
  revert p; induction cs as [|c cs IH]; intros p H; [constructor|]. cbn in H. apply app_eq_nil in H. destruct H as [-> H].
  change (@nil FeedEvent) with (@nil FeedEvent ++ []). econstructor; [constructor|auto].
Qed.

(** Cutting a chunk sequence after a terminator does not change what it yields. *)
Lemma feeds_chunks_cut size cs : forall p evs p' g b,
  feeds_chunks size p cs evs p' -> concat cs = g ++ 0 :: b ->
  exists e1 e2, evs = e1 ++ e2 /\
    feeds_chunks size p (cut (length g + 1) cs) e1 [] /\ feeds_chunks size [] (cut_rest (length g + 1) cs) e2 p'.
Proof.
  induction cs as [|c cs IH]; intros p evs p' g b FC E; [destruct g; discriminate|].
  inversion FC as [|? ? ? e1 p1 e2 p2 F FC']; subst. cbn [concat] in E. cbn [cut cut_rest].
  destruct (le_lt_dec (length c) (length g)) as [G|G].
  - (* the terminator is in a later chunk *)
    assert (P : exists g', g = c ++ g' /\ concat cs = g' ++ 0 :: b).
    { exists (skipn (length c) g). split.
      - rewrite <- (firstn_skipn (length c) g) at 1. f_equal.
        assert (X : firstn (length c) (c ++ concat cs) = c) by (rewrite firstn_app, Nat.sub_diag, firstn_O, app_nil_r; apply firstn_all).
        rewrite E in X. rewrite firstn_app in X. replace (length c - length g)%nat with 0%nat in X by lia.
        rewrite firstn_O, app_nil_r in X. auto.
      - assert (X : skipn (length c) (c ++ concat cs) = concat cs) by (rewrite skipn_app, Nat.sub_diag, skipn_O, skipn_all; reflexivity).
        rewrite E in X. rewrite skipn_app in X. replace (length c - length g)%nat with 0%nat in X by lia. auto. }
    destruct P as (g' & -> & E'). rewrite app_length.
    destruct (IH _ _ _ _ _ FC' E') as (e1' & e2' & -> & F1 & F2).
    exists (e1 ++ e1'), e2'. split; [now rewrite app_assoc|].
    replace (length c + length g' + 1 - length c)%nat with (length g' + 1)%nat by lia.
    rewrite firstn_all2 by lia. rewrite skipn_all2 by lia. split.
    + econstructor; eauto.
    + change e2' with ([] ++ e2'). econstructor; [constructor|auto].
  - (* the terminator is in this chunk *)
    assert (P : exists b1, c = g ++ 0 :: b1 /\ b = b1 ++ concat cs).
    { clear -E G. revert c G E. induction g as [|x g IHg]; intros c G E.
      - destruct c; cbn in *; [lia|]. injection E as E1 E2. subst. eauto.
      - destruct c as [|y c]; cbn in *; [lia|]. injection E as E1 E2. subst.
        destruct (IHg c ltac:(lia) E2) as (b1 & -> & ->). eauto. }
    destruct P as (b1 & -> & ->).
    destruct (feeds_split _ _ _ _ _ F g b1 eq_refl) as (ea & eb & -> & Fa & Fb).
    destruct (take_to_zero g b1) as [T1 T2]. rewrite T1, T2.
    replace (length g + 1 - length (g ++ 0%N :: b1))%nat with 0%nat by (rewrite app_length; cbn; lia).
    exists ea, (eb ++ e2). split; [now rewrite app_assoc|]. split.
    + rewrite <- (app_nil_r ea). econstructor; [exact Fa|]. apply feeds_chunks_empty. rewrite cut_concat. apply firstn_O.
    + econstructor; [exact Fb|].
      assert (X : cut_rest 0 cs = cs) by (clear; induction cs; cbn; [auto|now rewrite IHcs]). now rewrite X.
Qed.

Lemma feeds_end size p w e p' : feeds size p w e p' -> forall w0, w = w0 ++ [0] -> p' = [].
Proof.
  intros F w0 ->. destruct (feeds_split _ _ _ _ _ F w0 [] eq_refl) as (e1 & e2 & _ & _ & F2).
  destruct (feeds_inv_part _ _ _ _ _ F2 ltac:(constructor)) as [(_ & _ & H)|[(C & _)|(C & _)]]; auto; congruence.
Qed.

(** ** The serial receiver *)
Lemma keep_app a b : keep_messages (a ++ b) = keep_messages a ++ keep_messages b.
Proof. apply flat_map_app. Qed.

Definition all_reads (cs : list (list N)) := map ReadBytes cs.

Lemma serial_recvs_feeds cs : forall s p evs p' n,
  acc_ok 1024 (srx_acc s) p -> feeds_chunks 1024 p cs evs p' ->
  (length (srx_pending s ++ keep_messages evs) < n)%nat ->
  serial_recvs n s (all_reads cs) = (srx_pending s ++ keep_messages evs, SWaiting).
Proof.
  induction cs as [|c cs IH]; intros [a pend] p evs p' n A FC Hn; cbn [srx_acc srx_pending] in *.
  - inversion FC; subst. cbn [keep_messages flat_map] in *. rewrite app_nil_r in *.
    revert n Hn. induction pend as [|m pend IHp]; intros n Hn; (destruct n; [cbn in Hn; lia|]).
    + reflexivity.
    + cbn [serial_recvs all_reads map serial_recv srx_pending srx_acc].
      specialize (IHp n ltac:(cbn in Hn; lia)). cbn [all_reads map] in IHp. now rewrite IHp.
  - inversion FC as [|? ? ? e1 p1 e2 p2 F FC']; subst.
    revert n Hn. induction pend as [|m pend IHp]; intros n Hn; (destruct n; [cbn in Hn; lia|]).
    + assert (R : serial_recvs (S n) (MkSerial a []) (all_reads (c :: cs)) =
                  serial_recvs (S n) (MkSerial a (@nil (list N))) (ReadBytes c :: all_reads cs)) by reflexivity.
      rewrite R. destruct (feed_all_feeds 1024 a p c ltac:(lia) A) as (e1' & a1 & p1' & E1 & A1 & F1).
      destruct (feeds_fun _ _ _ _ _ F _ _ F1) as [<- <-].
      assert (R2 : serial_recvs (S n) (MkSerial a []) (ReadBytes c :: all_reads cs) =
                   serial_recvs (S n) (MkSerial a1 (keep_messages e1)) (all_reads cs)).
      { cbn [serial_recvs serial_recv srx_pending srx_acc]. rewrite E1. reflexivity. }
      rewrite R2. rewrite keep_app in *. cbn [app] in *.
      rewrite (IH (MkSerial a1 (keep_messages e1)) p1 e2 p'); auto.
    + cbn [serial_recvs all_reads map serial_recv srx_pending srx_acc].
      specialize (IHp n ltac:(cbn in Hn |- *; lia)). unfold all_reads in IHp. cbn [map] in IHp. rewrite IHp. reflexivity.
Qed.
