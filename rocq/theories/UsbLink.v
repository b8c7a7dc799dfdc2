(** What the two USB links do to frames, packet by packet (for UsbSysThm.v). *)
From Coq Require Import NArith List Bool Arith Lia.
From Verif Require Import UsbModel UsbSpec UsbProof.
Import ListNotations.

Definition ne (b : list N) : bool := match b with [] => false | _ => true end.

(** ** Towards the host *)

(** Losing frames that [may] be lost and, if [cuts], cutting them short. *)
Inductive adjust (cuts : bool) (may : list N -> Prop) : list (list N) -> list (list N) -> Prop :=
| adj_nil : adjust cuts may [] []
| adj_keep x a b : adjust cuts may a b -> adjust cuts may (x :: a) (x :: b)
| adj_lose x a b : may x -> adjust cuts may a b -> adjust cuts may (x :: a) b
| adj_cut x n a b : may x -> cuts = true -> adjust cuts may a b -> adjust cuts may (x :: a) (firstn n x :: b).
Lemma adjust_refl c m a : adjust c m a a.
Proof. induction a; [apply adj_nil|apply adj_keep]; auto. Qed.
Lemma adjust_app c m a b a' b' : adjust c m a b -> adjust c m a' b' -> adjust c m (a ++ a') (b ++ b').
Proof. induction 1; cbn; intros; auto; [apply adj_keep|apply adj_lose|apply adj_cut]; auto. Qed.
Lemma adjust_none c m a : Forall m a -> adjust c m a [].
Proof. induction 1; [apply adj_nil|apply adj_lose]; auto. Qed.
Lemma adjust_weak c (m m' : list N -> Prop) a b : adjust c m a b -> (forall x, In x a -> m x -> m' x) -> adjust c m' a b.
Proof.
  induction 1; intros H'; [apply adj_nil|apply adj_keep|apply adj_lose|apply adj_cut]; auto;
    try (apply H'; [left; reflexivity|assumption]); apply IHadjust; intros; apply H'; auto; right; auto.
Qed.
Lemma adjust_eq c m a b : adjust c m a b -> (forall x, In x a -> ~ m x) -> a = b.
Proof.
  induction 1; intros H'; auto; try (exfalso; eapply H'; [left; reflexivity|assumption]).
  f_equal. apply IHadjust. intros; apply H'; right; auto.
Qed.
Lemma prefix_firstn p m : prefix_of p m -> p = firstn (length p) m.
Proof. intros [s ->]. now rewrite firstn_app, firstn_all, Nat.sub_diag, firstn_O, app_nil_r. Qed.
Lemma adjust_prefix (may : list N -> Prop) p m : may m -> prefix_of p m -> adjust true may [m] (filter ne [p]).
Proof.
  intros Hm H. apply prefix_firstn in H. cbn [filter]. destruct (ne p); [|apply adjust_none; auto].
  rewrite H. apply adj_cut; auto. apply adj_nil.
Qed.

Definition MTS := 1024.

Lemma host_in_chunks l chs : packed l chs -> forall acc,
  length acc < MTS -> length acc mod 64 = 0 -> length acc + length l <= MTS -> 0 < length l ->
  host_in MTS acc chs =
  (if (length l mod 64 =? 0) && (length acc + length l <? MTS) then ([], acc ++ l) else ([acc ++ l], [])).
Proof.
  induction 1 as [|l H1 H2|c l chs Hc P IH]; intros acc La Ma Ll Lp.
  - cbn in Lp. lia.
  - cbn [host_in]. rewrite (Nat.mod_small (length l)) by lia.
    destruct (Nat.ltb_spec (length l) 64); [|lia]. destruct (Nat.eqb_spec (length l) 0); [lia|]. reflexivity.
  - cbn [host_in]. rewrite app_length in *. rewrite Hc in *. rewrite app_length, Hc, mod64_add by auto.
    change (64 <? 64) with false. cbn [orb].
    destruct (Nat.leb_spec MTS (length acc + 64)) as [F|F].
    + assert (Z : length l = 0) by lia. destruct l; [|discriminate]. apply packed_nil_inv in P. subst chs. cbn [host_in].
      rewrite app_nil_r. cbn [length]. destruct (Nat.ltb_spec (length acc + (64 + 0)) MTS); [lia|]. rewrite andb_false_r. reflexivity.
    + destruct l as [|x l'].
      * apply packed_nil_inv in P. subst chs. cbn [host_in length]. rewrite app_nil_r.
        destruct (Nat.ltb_spec (length acc + (64 + 0)) MTS); [|lia]. reflexivity.
      * set (l := x :: l') in *. rewrite IH; rewrite ?app_length, ?Hc; try lia.
        { rewrite <- app_assoc. replace (length acc + (64 + length l)) with (length acc + 64 + length l) by lia. reflexivity. }
        { replace (length acc + 64) with (64 + length acc) by lia. rewrite mod64_add by auto. exact Ma. }
        { unfold l. cbn. lia. }
Qed.

Lemma host_in_part l chs : packed l chs -> forall k acc,
  length acc < MTS -> length acc mod 64 = 0 -> length acc + length l <= MTS ->
  firstn k chs = chs \/
  exists p, prefix_of p l /\ host_in MTS acc (firstn k chs) = ([], acc ++ p) /\
    length (acc ++ p) mod 64 = 0 /\ length (acc ++ p) < MTS.
Proof.
  induction 1 as [|l H1 H2|c l chs Hc P IH]; intros k acc La Ma Ll.
  - left. now destruct k.
  - destruct k as [|k].
    + right. exists []. split; [apply prefix_nil|]. cbn. rewrite app_nil_r. auto.
    + left. cbn. now rewrite firstn_nil.
  - destruct k as [|k].
    + right. exists []. split; [apply prefix_nil|]. cbn. rewrite app_nil_r. auto.
    + rewrite app_length, Hc in Ll. cbn [firstn].
      destruct l as [|x l'].
      { apply packed_nil_inv in P. subst chs. left. now rewrite firstn_nil. }
      set (l := x :: l') in *. assert (0 < length l) by (unfold l; cbn; lia).
      destruct (IH k (acc ++ c)) as [E|(p & Hp & E & M & L)]; rewrite ?app_length, ?Hc; try lia.
      { replace (length acc + 64) with (64 + length acc) by lia. rewrite mod64_add by auto. exact Ma. }
      { left. now rewrite E. }
      right. exists (c ++ p). destruct Hp as [s Hp]. split; [exists s; now rewrite Hp, app_assoc|].
      cbn [host_in]. rewrite !app_length in *. rewrite Hc in *. change (64 <? 64) with false. cbn [orb].
      destruct (Nat.leb_spec MTS (length acc + 64)); [lia|]. rewrite E, <- app_assoc. split; auto.
      split; [rewrite <- M; f_equal; lia|lia].
Qed.

(** The frame of which a part is waiting at the host for the rest to come, if any. *)
Definition open_ok (open : list (list N)) (pending : bool) (part : list N) : Prop :=
  (open = [] /\ part = [] \/ (exists m, open = [m] /\ prefix_of part m) /\ pending = true) /\
  length part mod 64 = 0 /\ length part < MTS.

Lemma open_new pending : open_ok [] pending [].
Proof. split; [auto|]. split; [reflexivity|unfold MTS; cbn; lia]. Qed.

(** One send, as the host sees it. *)
Lemma link_send open pending part out os :
  open_ok open pending part -> out <> [] -> length out <= MTS ->
  let '(w, p', r) := send_all out pending os in
  let '(ts, part') := host_in MTS part w in
  exists open', open_ok open' p' part' /\
    adjust true (fun x => In x open \/ (x = out /\ r <> SOk)) (open ++ [out]) (filter ne ts ++ open') /\
    incl open' (open ++ [out]) /\ (r = SOk -> p' = false).
Proof.
  intros (O & Mp & Lp) Ne Lo. assert (Nz : 0 < length out) by (destruct out; [congruence|cbn; lia]).
  assert (Nf : filter ne [out] = [out]) by (destruct out; [congruence|reflexivity]).
  assert (L0 : length (@nil N) < MTS) by (unfold MTS; cbn; lia).
  unfold send_all. destruct out as [|x out0]; [congruence|]. set (out := x :: out0) in *. clearbody out. clear x out0.
  (* the message itself, into an empty transfer *)
  assert (Body : forall os1,
    let '(w1, r1, os2) := write_chunks (chunks 64 out) os1 in
    match r1 with
    | Some r => r <> SOk /\ exists ts part' open', host_in MTS [] w1 = (ts, part') /\ open_ok open' true part' /\ filter ne ts ++ open' = [out]
    | None => w1 = chunks 64 out
    end).
  { intros os1. destruct (write_chunks (chunks 64 out) os1) as [[w1 r1] os2] eqn:W.
    destruct (write_chunks_cases _ _ _ _ _ W) as [[-> ->]|(k & s & -> & -> & Hs)]; auto. split; auto.
    destruct (host_in_part _ _ (chunks_packed out) k [] L0 eq_refl ltac:(cbn; lia)) as [E|(p & Hp & E & M & L)].
    - rewrite E, (host_in_chunks _ _ (chunks_packed out) []); auto; cbn [length Nat.add app].
      destruct ((length out mod 64 =? 0) && (length out <? MTS)) eqn:B.
      + apply andb_true_iff in B as [B1 B2]. apply Nat.eqb_eq in B1. apply Nat.ltb_lt in B2.
        exists [], out, [out]. split; auto. split; auto.
        split; [right; split; auto; exists out; split; auto; apply prefix_refl|auto].
      + exists [out], [], []. split; auto. split; [apply open_new|]. rewrite Nf. reflexivity.
    - rewrite E. exists [], p, [out]. split; auto. cbn [app] in M, L. split; auto.
      split; [right; split; auto; exists out; auto|auto]. }
  assert (Whole : host_in MTS [] (chunks 64 out ++ (if length out mod 64 =? 0 then [[]] else [])) =
     ((if (length out =? MTS) && (length out mod 64 =? 0) then [out; []] else [out]), [])).
  { rewrite (host_in_frame MTS out _ (chunks_packed out) [] L0 ltac:(cbn; lia)). reflexivity. }
  assert (Wf : filter ne (if (length out =? MTS) && (length out mod 64 =? 0) then [out; []] else [out]) = [out]).
  { destruct (_ && _); [|exact Nf]. change [out; []] with ([out] ++ [[]]). rewrite filter_app, Nf. reflexivity. }
  assert (Full : host_in MTS [] (chunks 64 out) =
     if (length out mod 64 =? 0) && (length out <? MTS) then ([], out) else ([out], [])).
  { rewrite (host_in_chunks _ _ (chunks_packed out) []); auto. }
  (* the rest of the send, after the transfer was closed with [w0] *)
  assert (Rest : forall w0 os0 ts0, host_in MTS part w0 = (ts0, []) -> (forall may : list N -> Prop, (forall x, In x open -> may x) -> adjust true may open (filter ne ts0)) ->
      let '(w, p', r) :=
        (let '(w1, r1, os1) := write_chunks (chunks 64 out) os0 in
         match r1 with
         | Some r => (w0 ++ w1, true, r)
         | None =>
           if Nat.eqb (Nat.land (length out) 63) 0 then
             let (w2, r2) := write1 [] (hd WDone os1) in
             match r2 with
             | Some r => (w0 ++ w1 ++ w2, true, r)
             | None => (w0 ++ w1 ++ w2, false, SOk)
             end
           else (w0 ++ w1, false, SOk)
         end) in
      let '(ts, part') := host_in MTS part w in
      exists open', open_ok open' p' part' /\
        adjust true (fun x => In x open \/ (x = out /\ r <> SOk)) (open ++ [out]) (filter ne ts ++ open') /\
        incl open' (open ++ [out]) /\ (r = SOk -> p' = false)).
  { intros w0 os0 ts0 H0 A0. specialize (Body os0). destruct (write_chunks (chunks 64 out) os0) as [[w1 r1] os1].
    assert (Cat : forall w ts p, host_in MTS [] w = (ts, p) -> host_in MTS part (w0 ++ w) = (ts0 ++ ts, p)).
    { intros w ts p E. rewrite host_in_app, H0, E. reflexivity. }
    assert (Fin : forall w ts part' open' p' r, host_in MTS [] w = (ts, part') -> open_ok open' p' part' ->
       filter ne ts ++ open' = [out] -> (r = SOk -> p' = false) ->
       let '(ts, part') := host_in MTS part (w0 ++ w) in
       exists open', open_ok open' p' part' /\ adjust true (fun x => In x open \/ (x = out /\ r <> SOk)) (open ++ [out]) (filter ne ts ++ open') /\
        incl open' (open ++ [out]) /\ (r = SOk -> p' = false)).
    { intros w ts part' open' p' r E O' A' Ok1. rewrite (Cat _ _ _ E). exists open'. split; auto.
      rewrite filter_app, <- app_assoc, A'. split; [apply adjust_app; [apply A0; auto|apply adjust_refl]|]. split; auto.
      intros x Hx. apply in_app_iff. right. rewrite <- A'. apply in_app_iff. auto. }
    destruct r1 as [r|].
    - destruct Body as (Nr & ts & part' & open' & E & O' & A'). eapply Fin; eauto; intros; contradiction.
    - subst w1. rewrite land63. destruct (length out mod 64 =? 0) eqn:B.
      + destruct (write1 [] (hd WDone os1)) as [w2 r2] eqn:W. destruct (write1_cases _ _ _ _ W) as [[-> ->]|(s & Hw & -> & Hs)].
        * eapply Fin; [exact Whole|apply open_new| |]; rewrite ?app_nil_r, ?Wf; auto.
        * destruct Hw as [-> | ->].
          { rewrite app_nil_r. cbn [andb] in Full. destruct (length out <? MTS) eqn:B2.
            - eapply Fin; [exact Full| | |intros; contradiction].
              + split; [right; split; [exists out; split; [reflexivity|apply prefix_refl]|auto]|].
                apply Nat.eqb_eq in B. apply Nat.ltb_lt in B2. auto.
              + reflexivity.
            - eapply Fin; [exact Full|apply open_new| |intros; contradiction].
              rewrite app_nil_r, Nf. reflexivity. }
          { eapply Fin; [exact Whole|apply open_new| |intros; contradiction].
            rewrite app_nil_r, Wf. reflexivity. }
      + cbn [andb] in Full. eapply Fin; [exact Full|apply open_new| |]; rewrite ?app_nil_r, ?Nf; auto. }
  destruct pending.
  - assert (Close : host_in MTS part [[]] = ([part], []) /\ forall may : list N -> Prop, (forall x, In x open -> may x) -> adjust true may open (filter ne [part])).
    { split. { cbn [host_in length]. change (0 <? 64) with true. cbn [orb]. now rewrite app_nil_r. }
      intros may Hm. destruct O as [[-> ->]|[(m & -> & Hp) _]]; [apply adj_nil|]. apply adjust_prefix; auto. apply Hm. left. reflexivity. }
    destruct Close as [C1 C2].
    destruct (write1 [] (hd WDone os)) as [w0 r0] eqn:W. destruct (write1_cases _ _ _ _ W) as [[-> ->]|(s & Hw & -> & Hs)].
    + apply (Rest [[]] (List.tl os) [part] C1 C2).
    + destruct Hw as [-> | ->].
      * cbn [host_in]. exists open. split; [split; auto; destruct O as [O|[O _]]; auto|]. split; [|split; [|intros; contradiction]].
        { cbn [filter app]. rewrite <- (app_nil_r open) at 2. apply adjust_app; [apply adjust_refl|apply adjust_none; auto]. }
        { intros y Hy. apply in_app_iff. auto. }
      * cbv beta iota. unfold packet in *. rewrite C1. exists []. split; [apply open_new|]. split; [|split; [intros y []|intros; contradiction]].
        apply adjust_app; [apply C2; auto|apply adjust_none; auto].
  - destruct O as [[-> ->]|[_ H]]; [|discriminate]. apply (Rest [] os []); auto. intros; apply adj_nil.
Qed.

(** ** Towards the device *)

(** The packets [ps] on their way are frames [fs], with stray empty packets, and, if the
    sending worker has ended amid a frame, the beginning of that frame. *)
Inductive carries (whole : bool) : list packet -> list (list N) -> Prop :=
| ca_end part : Forall (fun p => length p = 64) part -> (whole = true -> part = []) -> carries whole part []
| ca_empty ps fs : carries whole ps fs -> carries whole ([] :: ps) fs
| ca_frame f ps fs : f <> [] -> carries whole ps fs -> carries whole (frame_packets f ++ ps) (f :: fs).

Lemma carries_app w ps fs : carries true ps fs -> forall qs gs, carries w qs gs -> carries w (ps ++ qs) (fs ++ gs).
Proof.
  induction 1 as [part F E|ps fs H IH|f ps fs Hf H IH]; intros qs gs Hq.
  - now rewrite (E eq_refl).
  - cbn. apply ca_empty. auto.
  - rewrite <- app_assoc. cbn. apply ca_frame; auto.
Qed.
Lemma carries_weak ps fs : carries true ps fs -> carries false ps fs.
Proof. induction 1 as [part F E|ps fs H IH|f ps fs Hf H IH]; constructor; auto; discriminate. Qed.

Lemma carries_send mps f : mps = None \/ mps = Some 64 -> f <> [] -> carries true (nusb_send mps f) [f].
Proof.
  intros Hm Hf. rewrite nusb_send_packets by auto. apply ca_frame; auto.
  assert (Z : carries true [] []) by (constructor; auto).
  destruct (length f mod 64 =? 0); auto. destruct mps; auto. apply (ca_empty _ [] []). auto.
Qed.

Lemma packed_front l chs : packed l chs -> forall k, k < length chs -> Forall (fun p => length p = 64) (firstn k chs).
Proof.
  induction 1 as [|l H1 H2|c l chs Hc P IH]; intros k Hk; cbn [length] in Hk.
  - lia.
  - assert (k = 0) by lia. subst k. constructor.
  - destruct k as [|k]; constructor; auto. apply IH. lia.
Qed.
Lemma packed_full_all l chs : packed l chs -> length l mod 64 = 0 -> Forall (fun p => length p = 64) chs.
Proof.
  induction 1 as [|l H1 H2|c l chs Hc P IH]; intros M; constructor; auto.
  - rewrite Nat.mod_small in M; lia.
  - apply IH. rewrite app_length, mod64_add in M by auto. exact M.
Qed.
Lemma frame_front f k : k < length (frame_packets f) -> Forall (fun p => length p = 64) (firstn k (frame_packets f)).
Proof.
  unfold frame_packets. intros H. rewrite app_length in H. pose proof (chunks_packed f) as P.
  destruct (Nat.eqb_spec (length f mod 64) 0) as [E|E]; cbn [length] in H.
  - rewrite firstn_app. apply Forall_app. split.
    + pose proof (packed_full_all _ _ P E) as A. clear - A. revert k. induction A; intros [|k]; cbn; constructor; auto.
    + replace (k - length (chunks 64 f)) with 0 by lia. constructor.
  - rewrite firstn_app. replace (k - length (chunks 64 f)) with 0 by lia. cbn [firstn]. rewrite app_nil_r.
    apply packed_front with (l := f); auto. lia.
Qed.

Lemma carries_stop mps f k : mps = None \/ mps = Some 64 -> f <> [] ->
  carries false (firstn k (nusb_send mps f)) (if length (frame_packets f) <=? k then [f] else []).
Proof.
  intros Hm Hf. rewrite nusb_send_packets by auto. rewrite firstn_app. set (extra := if _ : bool then _ else _).
  assert (Z : carries false [] []) by (constructor; auto).
  destruct (Nat.leb_spec (length (frame_packets f)) k) as [L|L].
  - rewrite firstn_all2 by auto. apply ca_frame; auto.
    assert (X : extra = [] \/ extra = [[]]).
    { unfold extra. destruct (length f mod 64 =? 0); auto. destruct mps; auto. }
    destruct X as [-> | ->]; [now rewrite firstn_nil|].
    destruct (k - length (frame_packets f)) as [|j]; cbn [firstn]; auto. rewrite firstn_nil. apply ca_empty. auto.
  - replace (k - length (frame_packets f)) with 0 by lia. cbn [firstn]. rewrite app_nil_r. apply ca_end; [|discriminate].
    apply frame_front. auto.
Qed.

Lemma drain_full c B ps : 64 <= B -> Forall (fun p => length p = 64) ps -> drain c B (map Pkt ps) = (RPending, []).
Proof.
  intros HB. induction 1 as [|p ps Hp F IH]; cbn [map drain]; auto. rewrite Hp.
  destruct (Nat.ltb_spec B 64); [lia|]. change (64 =? 64) with true. cbn iota. auto.
Qed.
Lemma fill_full c B ps : 64 <= B -> B mod 64 = 0 -> Forall (fun p => length p = 64) ps -> forall acc,
  length acc mod 64 = 0 -> length acc <= B -> fill c B acc (map Pkt ps) = (RPending, []).
Proof.
  intros HB MB F. induction F as [|p ps Hp F IH]; intros acc Ma La; rewrite fill_unfold; cbv zeta.
  - destruct (_ =? 0); reflexivity.
  - destruct (Nat.eqb_spec (B - length acc) 0) as [Z|Z].
    + apply (drain_full c B (p :: ps)); auto.
    + cbn [map]. rewrite Hp. assert (64 <= B - length acc).
      { apply Nat.mod_divides in Ma; [|lia]. apply Nat.mod_divides in MB; [|lia]. destruct Ma as [a Ha]. destruct MB as [b Hb]. lia. }
      destruct (Nat.ltb_spec (B - length acc) 64); [lia|]. change (64 =? 64) with true. cbn iota.
      apply IH; rewrite app_length, Hp; [|lia]. replace (length acc + 64) with (64 + length acc) by lia. rewrite mod64_add by auto. auto.
Qed.

(** What the device receives next. *)
Lemma receive_carried c B w ps fs : 64 <= B -> B mod 64 = 0 -> carries w ps fs ->
  (receive c B (map Pkt ps) = (RPending, []) /\ fs = []) \/
  (exists ps', ps = [] :: ps' /\ receive c B (map Pkt ps) = (RGot [], map Pkt ps') /\ carries w ps' fs) \/
  (exists f ps' fs', ps = frame_packets f ++ ps' /\ fs = f :: fs' /\ carries w ps' fs' /\
     receive c B (map Pkt ps) = ((if (length f <=? B) && negb ((length f =? B) && (length f mod 64 =? 0)) then RGot f else RTooLarge), map Pkt ps')).
Proof.
  intros HB MB H. destruct H as [part F E|ps fs H|f ps fs Hf H].
  - left. split; auto. unfold receive. apply fill_full; auto; cbn; lia.
  - right. left. exists ps. split; auto. split; auto.
    pose proof (receive_fits c B [] (map Pkt ps)) as R. cbn in R. apply R. split; [lia|]. intros [X _]. lia.
  - right. right. exists f, ps, fs. split; auto. split; auto. split; auto. rewrite map_app.
    destruct ((length f <=? B) && negb ((length f =? B) && (length f mod 64 =? 0))) eqn:D.
    + apply receive_fits. apply andb_true_iff in D as [D1 D2]. apply Nat.leb_le in D1. apply negb_true_iff in D2.
      split; auto. intros [E1 E2]. rewrite E1, Nat.eqb_refl in D2. rewrite <- E1, E2 in D2. discriminate.
    + destruct (receive_not_fits c B f (map Pkt ps)) as (rest & E & G).
      { intros [F1 F2]. apply Nat.leb_le in F1. rewrite F1 in D. cbn [andb] in D. apply negb_false_iff, andb_true_iff in D as [D1 D2].
        apply Nat.eqb_eq in D1, D2. auto. }
      rewrite E, G by auto. reflexivity.
Qed.
Lemma receive_fits_b B n : (n <=? B) && negb ((n =? B) && (n mod 64 =? 0)) = true <-> fits B n.
Proof.
  unfold fits. rewrite andb_true_iff, Nat.leb_le, negb_true_iff, andb_false_iff, !Nat.eqb_neq. split.
  - intros [H [E|E]]; split; auto; intros [A C]; auto.
  - intros [H E]. split; auto. destruct (Nat.eq_dec n B); auto.
Qed.
