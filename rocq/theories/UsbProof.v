(** Lemmas about USB framing. *)
From Coq Require Import NArith List Bool Arith Lia.
From Verif Require Import UsbModel UsbSpec.
Import ListNotations.

Inductive packed : list N -> list packet -> Prop :=
  | packed_nil : packed [] []
  | packed_last l : 0 < length l -> length l < 64 -> packed l [l]
  | packed_full c l chs : length c = 64 -> packed l chs -> packed (c ++ l) (c :: chs).

Lemma chunks_fuel_packed f : forall l, length l <= f -> packed l (chunks_fuel 64 f l).
Proof.
  induction f as [|f IH]; intros l H.
  - destruct l; [constructor|cbn in H; lia].
  - destruct l as [|x l]; [constructor|]. set (m := x :: l) in *.
    change (chunks_fuel 64 (S f) m) with (firstn 64 m :: chunks_fuel 64 f (skipn 64 m)).
    destruct (Nat.lt_ge_cases (length m) 64) as [L|L].
    + rewrite firstn_all2, skipn_all2 by lia.
      assert (E : chunks_fuel 64 f [] = []) by (destruct f; reflexivity). rewrite E.
      apply packed_last; auto. unfold m. cbn. lia.
    + rewrite <- (firstn_skipn 64 m) at 1. apply packed_full.
      * rewrite firstn_length. lia.
      * apply IH. rewrite skipn_length. lia.
Qed.
Lemma chunks_packed l : packed l (chunks 64 l).
Proof. apply chunks_fuel_packed. lia. Qed.

Lemma mod64_add a n : a = 64 -> (a + n) mod 64 = n mod 64.
Proof. intros ->. replace (64 + n) with (n + 1 * 64) by lia. now rewrite Nat.mod_add by lia. Qed.
Lemma land63 n : Nat.land n 63 = n mod 64.
Proof. change 63 with (Nat.ones 6). rewrite Nat.land_ones. reflexivity. Qed.

(** *** Ideal host *)
Lemma transfers_app a : forall acc b,
  transfers acc (a ++ b) =
  (let (t1, r1) := transfers acc a in let (t2, r2) := transfers r1 b in (t1 ++ t2, r2)).
Proof.
  induction a as [|p a IH]; intros acc b; cbn [app transfers].
  - now destruct (transfers acc b).
  - destruct (length p <? 64); rewrite IH.
    + destruct (transfers [] a) as [t1 r1]. now destruct (transfers r1 b).
    + destruct (transfers (acc ++ p) a) as [t1 r1]. now destruct (transfers r1 b).
Qed.

Lemma packed_transfers l chs : packed l chs -> forall acc,
  transfers acc chs = if length l mod 64 =? 0 then ([], acc ++ l) else ([acc ++ l], []).
Proof.
  induction 1 as [|l H1 H2|c l chs Hc P IH]; intros acc.
  - cbn. now rewrite app_nil_r.
  - cbn [transfers]. rewrite Nat.mod_small by lia.
    destruct (Nat.ltb_spec (length l) 64); [|lia]. destruct (Nat.eqb_spec (length l) 0); [lia|reflexivity].
  - cbn [transfers]. destruct (Nat.ltb_spec (length c) 64); [lia|]. rewrite IH.
    rewrite app_length, mod64_add, app_assoc by auto. reflexivity.
Qed.

Lemma packed_firstn l chs : packed l chs -> forall k acc,
  firstn k chs = chs \/
  exists p, prefix_of p l /\ transfers acc (firstn k chs) = ([], acc ++ p).
Proof.
  induction 1 as [|l H1 H2|c l chs Hc P IH]; intros k acc.
  - left. now destruct k.
  - destruct k as [|k].
    + right. exists []. split; [now exists l|]. cbn. now rewrite app_nil_r.
    + left. cbn. now destruct k.
  - destruct k as [|k].
    + right. exists []. split; [now exists (c ++ l)|]. cbn. now rewrite app_nil_r.
    + cbn [firstn]. destruct (IH k (acc ++ c)) as [E|(p & [s Hs] & E)].
      * left. now rewrite E.
      * right. exists (c ++ p). split; [exists s; now rewrite Hs, app_assoc|].
        cbn [transfers]. destruct (Nat.ltb_spec (length c) 64); [lia|]. rewrite E. now rewrite app_assoc.
Qed.

Lemma write_chunks_cases chs : forall os w r os', write_chunks chs os = (w, r, os') ->
  (r = None /\ w = chs) \/ (exists k s, w = firstn k chs /\ r = Some s /\ s <> SOk).
Proof.
  induction chs as [|ch chs IH]; intros os w r os' H; cbn [write_chunks] in H.
  { injection H as <- <- <-. auto. }
  destruct (hd WDone os) as [|b|b]; cbn [write1] in H.
  - destruct (write_chunks chs (tl os)) as [[w1 r1] os1] eqn:E. injection H as <- <- <-.
    destruct (IH _ _ _ _ E) as [[-> ->]|(k & s & -> & -> & N)]; [left; auto|].
    right. exists (S k), s. auto.
  - injection H as <- <- <-. right. exists (if b then 1 else 0), SClosed.
    split; [destruct b; reflexivity|]. split; [auto|discriminate].
  - injection H as <- <- <-. right. exists (if b then 1 else 0), SInterrupted.
    split; [destruct b; reflexivity|]. split; [auto|discriminate].
Qed.
Lemma write1_cases p o w r : write1 p o = (w, r) ->
  (r = None /\ w = [p]) \/ (exists s, (w = [] \/ w = [p]) /\ r = Some s /\ s <> SOk).
Proof.
  destruct o as [|b|b]; cbn; intros [= <- <-]; auto; right; eexists;
    (split; [destruct b; auto|split; [reflexivity|discriminate]]).
Qed.

(** How the device state relates to the host's unfinished transfer. *)
Definition in_step (o : option (list N)) (pending : bool) (acc : list N) : Prop :=
  if pending then exists m, o = Some m /\ prefix_of acc m else o = None /\ acc = [].

Lemma prefix_nil m : prefix_of [] m.
Proof. now exists m. Qed.
Lemma prefix_refl m : prefix_of m m.
Proof. exists []. now rewrite app_nil_r. Qed.

(** The packets of a message, after the transfer [acc] was closed. *)
Lemma body_cases out os1 : out <> [] ->
  let '(w1, r1, os2) := write_chunks (chunks 64 out) os1 in
  let '(w, p', r) :=
      match r1 with
      | Some r => (w1, true, r)
      | None =>
        if Nat.eqb (Nat.land (length out) 63) 0 then
          let (w2, r2) := write1 [] (hd WDone os2) in
          match r2 with
          | Some r => (w1 ++ w2, true, r)
          | None => (w1 ++ w2, false, SOk)
          end
        else (w1, false, SOk)
      end in
  (r = SOk /\ p' = false /\ transfers [] w = ([out], [])) \/
  (r <> SOk /\ p' = true /\ exists p, prefix_of p out /\ transfers [] w = ([], p)) \/
  (r <> SOk /\ p' = true /\ transfers [] w = ([out], [])).
Proof.
  intros Ne. pose proof (chunks_packed out) as P. pose proof (packed_transfers _ _ P []) as T.
  destruct (write_chunks (chunks 64 out) os1) as [[w1 r1] os2] eqn:E.
  destruct (write_chunks_cases _ _ _ _ _ E) as [[-> ->]|(k & s & -> & -> & N)].
  - rewrite land63. destruct (Nat.eqb_spec (length out mod 64) 0) as [Z|Z].
    + destruct (write1 [] (hd WDone os2)) as [w2 r2] eqn:E2.
      destruct (write1_cases _ _ _ _ E2) as [[-> ->]|(s & W & -> & N)].
      * left. repeat split. rewrite transfers_app, T. cbn. now rewrite app_nil_r.
      * right. destruct W as [-> | ->].
        -- left. split; auto. split; auto. exists out. split; [apply prefix_refl|]. now rewrite app_nil_r, T.
        -- right. split; auto. split; auto. rewrite transfers_app, T. cbn. now rewrite app_nil_r.
    + left. auto.
  - right. destruct (packed_firstn _ _ P k []) as [E2|(p & Hp & E2)].
    + rewrite E2, T. destruct (length out mod 64 =? 0).
      * left. split; auto. split; auto. exists out. split; [apply prefix_refl|auto].
      * right. auto.
    + left. split; auto. split; auto. exists p. auto.
Qed.

Definition one_send (o : option (list N)) (acc : list N) (out : list N) (pending : bool) (os : list WRes) : Prop :=
  let '(w, p', r) := send_all out pending os in
  let '(ts, acc') := transfers acc w in
  exists o', in_step o' p' acc' /\
    forall rest tsr part, seen o' rest tsr part -> seen o ((out, r) :: rest) (ts ++ tsr) part.

Lemma send_all_step o acc out pending os : in_step o pending acc -> one_send o acc out pending os.
Proof.
  intros I. unfold one_send, send_all. destruct out as [|x out0].
  { cbn [transfers]. exists o. split; auto. intros. now apply seen_empty. }
  set (out := x :: out0) in *. assert (Ne : out <> []) by discriminate. clearbody out. 
  destruct pending.
  - destruct I as (m & -> & Hp).
    destruct (write1 [] (hd WDone os)) as [w0 r0] eqn:E0.
    destruct (write1_cases _ _ _ _ E0) as [[-> ->]|(s & W & -> & N)].
    + pose proof (body_cases out (tl os) Ne) as B.
      destruct (write_chunks (chunks 64 out) (tl os)) as [[w1 r1] os2].
      assert (Q : forall w p' r,
        ((r = SOk /\ p' = false /\ transfers [] w = ([out], [])) \/
         (r <> SOk /\ p' = true /\ exists p, prefix_of p out /\ transfers [] w = ([], p)) \/
         (r <> SOk /\ p' = true /\ transfers [] w = ([out], []))) ->
        let '(ts, acc') := transfers acc ([[]] ++ w) in
        exists o', in_step o' p' acc' /\
        forall rest tsr part, seen o' rest tsr part -> seen (Some m) ((out, r) :: rest) (ts ++ tsr) part).
      { intros w p' r C. rewrite transfers_app. cbn [transfers Nat.ltb Nat.leb length].
        rewrite app_nil_r. destruct C as [(-> & -> & ->)|[(Nr & -> & p & Pp & ->)|(Nr & -> & ->)]].
        - exists None. split; [split; auto|]. intros. cbn [app]. now apply seen_ok_after.
        - exists (Some out). split; [exists out; auto|]. intros rest tsr part S.
          apply seen_failed with (o' := Some out); auto. exists acc. auto.
        - exists (Some []). split; [exists []; split; [auto|apply prefix_refl]|]. intros rest tsr part S.
          change (([acc] ++ [out]) ++ tsr) with ([acc] ++ (out :: tsr)).
          apply seen_failed with (o' := Some []); auto; [exists acc; auto|]. right. split; auto. exists tsr. auto. }
      destruct r1 as [r|].
      * apply Q. exact B.
      * destruct (Nat.eqb (Nat.land (length out) 63) 0); [|apply Q; exact B].
        destruct (write1 [] (hd WDone os2)) as [w2 r2]. destruct r2; apply Q; exact B.
    + destruct W as [-> | ->].
      * cbn [transfers]. exists (Some m). split; [exists m; auto|]. intros. cbn [app].
        apply (seen_failed_closing _ _ _ _ [] (Some m)); auto. left; auto.
      * cbn [transfers Nat.ltb Nat.leb length]. rewrite app_nil_r.
        exists (Some []). split; [exists []; split; [auto|apply prefix_refl]|]. intros.
        apply seen_failed_closing with (o' := Some []); auto. right. exists acc, m. auto.
  - destruct I as (-> & ->).
    pose proof (body_cases out os Ne) as B.
    destruct (write_chunks (chunks 64 out) os) as [[w1 r1] os2].
    assert (Q : forall w p' r,
      ((r = SOk /\ p' = false /\ transfers [] w = ([out], [])) \/
       (r <> SOk /\ p' = true /\ exists p, prefix_of p out /\ transfers [] w = ([], p)) \/
       (r <> SOk /\ p' = true /\ transfers [] w = ([out], []))) ->
      let '(ts, acc') := transfers [] ([] ++ w) in
      exists o', in_step o' p' acc' /\
      forall rest tsr part, seen o' rest tsr part -> seen None ((out, r) :: rest) (ts ++ tsr) part).
    { intros w p' r C. cbn [app]. destruct C as [(-> & -> & ->)|[(Nr & -> & p & Pp & ->)|(Nr & -> & ->)]].
      - exists None. split; [split; auto|]. intros. cbn [app]. now apply seen_ok.
      - exists (Some out). split; [exists out; auto|]. intros rest tsr part S. 
        apply (seen_failed None out r rest [] (Some out)); auto.
      - exists (Some []). split; [exists []; split; [auto|apply prefix_refl]|]. intros rest tsr part S.
        apply (seen_failed None out r rest [] (Some []) ([out] ++ tsr)); auto. right. split; auto. exists tsr. auto. }
    destruct r1 as [r|].
    + apply Q. exact B.
    + destruct (Nat.eqb (Nat.land (length out) 63) 0); [|apply Q; exact B].
      destruct (write1 [] (hd WDone os2)) as [w2 r2]. destruct r2; apply Q; exact B.
Qed.

Lemma send_seq_seen sends : forall o pending acc, in_step o pending acc ->
  let '(w, p', rs) := send_seq pending sends in
  let '(ts, part) := transfers acc w in
  length rs = length sends /\ seen o (combine (map fst sends) rs) ts part.
Proof.
  induction sends as [|[out os] sends IH]; intros o pending acc I; cbn [send_seq].
  - cbn. split; auto. apply seen_end. unfold in_step in I. destruct pending.
    + destruct I as (m & -> & H). eauto.
    + destruct I; auto.
  - pose proof (send_all_step o acc out pending os I) as S. unfold one_send in S.
    destruct (send_all out pending os) as [[w p'] r].
    destruct (send_seq p' sends) as [[w' p''] rs] eqn:Es. rewrite transfers_app.
    destruct (transfers acc w) as [ts acc']. destruct S as (o' & I' & S).
    specialize (IH o' p' acc' I'). rewrite Es in IH. destruct (transfers acc' w') as [ts' part].
    destruct IH as [L IH]. split; [cbn; lia|]. cbn [map combine fst]. apply S. exact IH.
Qed.

(** *** Complete sends only *)
Lemma write_chunks_done chs : write_chunks chs [] = (chs, None, []).
Proof. induction chs as [|c chs IH]; cbn [write_chunks]; auto. cbn [hd write1 tl]. now rewrite IH. Qed.
Lemma send_all_done out : out <> [] ->
  send_all out false [] = (chunks 64 out ++ (if length out mod 64 =? 0 then [[]] else []), false, SOk).
Proof.
  destruct out as [|x l]; [congruence|]. intros _. unfold send_all.
  rewrite write_chunks_done. rewrite land63. destruct (_ =? 0); cbn [hd write1 app]; [reflexivity|].
  now rewrite app_nil_r.
Qed.

Lemma send_all_ok_transfers m pending : m <> [] ->
  forall acc, (pending = false -> acc = []) ->
  let '(w, p', r) := send_all m pending [] in
  transfers acc w = ((if pending then [acc] else []) ++ [m], []) /\ p' = false /\ r = SOk.
Proof.
  intros Ne acc H. destruct pending.
  - assert (E : send_all m true [] = ([] :: fst (fst (send_all m false [])), false, SOk)).
    { rewrite send_all_done by auto. destruct m; [congruence|]. unfold send_all. cbn [hd write1 tl].
      rewrite write_chunks_done. rewrite land63.
      destruct (length (n :: m) mod 64 =? 0); cbn [hd write1 app fst]; [reflexivity|now rewrite app_nil_r]. }
    rewrite E. split; auto. rewrite send_all_done by auto. cbn [fst transfers length Nat.ltb Nat.leb].
    rewrite transfers_app, (packed_transfers _ _ (chunks_packed m)). rewrite app_nil_r.
    destruct (length m mod 64 =? 0); cbn; now rewrite ?app_nil_r.
  - rewrite (H eq_refl), send_all_done by auto. split; auto.
    rewrite transfers_app, (packed_transfers _ _ (chunks_packed m)).
    destruct (length m mod 64 =? 0); cbn; now rewrite ?app_nil_r.
Qed.

Lemma send_seq_lossless msgs : Forall (fun m => m <> []) msgs ->
  let '(w, p', rs) := send_seq false (map (fun m => (m, [])) msgs) in
  transfers [] w = (msgs, []) /\ p' = false /\ rs = map (fun _ => SOk) msgs.
Proof.
  induction msgs as [|m msgs IH]; intros F; cbn [map send_seq]; [cbn; auto|].
  inversion F as [|? ? Hm F']; subst. specialize (IH F').
  pose proof (send_all_ok_transfers m false Hm [] (fun _ => eq_refl)) as S.
  destruct (send_all m false []) as [[w p'] r]. destruct S as (T & -> & ->).
  destruct (send_seq false (map (fun m => (m, [])) msgs)) as [[w' p''] rs]. destruct IH as (T' & -> & ->).
  rewrite transfers_app, T, T'. auto.
Qed.

Lemma packed_nil_inv chs : packed [] chs -> chs = [].
Proof.
  intros P. remember [] as l eqn:E. destruct P as [|l H1 H2|c l chs Hc P]; auto.
  - subst l. cbn in H1. lia.
  - apply app_eq_nil in E. destruct E as [-> _]. discriminate.
Qed.

(** *** The nusb host's requests of bounded size *)
Lemma host_in_app max a : forall acc b,
  host_in max acc (a ++ b) =
  (let (t1, r1) := host_in max acc a in let (t2, r2) := host_in max r1 b in (t1 ++ t2, r2)).
Proof.
  induction a as [|p a IH]; intros acc b; cbn [app host_in].
  - now destruct (host_in max acc b).
  - destruct ((length p <? 64) || (max <=? length (acc ++ p))); rewrite IH.
    + destruct (host_in max [] a) as [t1 r1]. now destruct (host_in max r1 b).
    + destruct (host_in max (acc ++ p) a) as [t1 r1]. now destruct (host_in max r1 b).
Qed.

Lemma host_in_frame max l chs : packed l chs -> forall acc,
  length acc < max -> length acc + length l <= max ->
  host_in max acc (chs ++ (if length l mod 64 =? 0 then [[]] else [])) =
    ((if (length acc + length l =? max) && (length l mod 64 =? 0) then [acc ++ l; []] else [acc ++ l]), []).
Proof.
  induction 1 as [|l H1 H2|c l chs Hc P IH]; intros acc La Ll.
  - cbn. rewrite app_nil_r, Nat.add_0_r. destruct (Nat.eqb_spec (length acc) max); [lia|]. reflexivity.
  - rewrite Nat.mod_small by lia. destruct (Nat.eqb_spec (length l) 0); [lia|].
    rewrite andb_false_r. cbn [app host_in]. destruct (Nat.ltb_spec (length l) 64); [|lia]. reflexivity.
  - rewrite app_length, mod64_add by auto. cbn [app host_in].
    destruct (Nat.ltb_spec (length c) 64); [lia|]. cbn [orb].
    rewrite app_length in Ll. rewrite !app_length.
    destruct (Nat.leb_spec max (length acc + length c)) as [L|L].
    + assert (length l = 0) by lia. destruct l; [|discriminate].
      apply packed_nil_inv in P. subst chs. cbn [length] in *.
      destruct (Nat.eqb_spec (length acc + (length c + 0)) max); [|lia]. cbn. now rewrite app_nil_r.
    + rewrite IH by (rewrite ?app_length; lia). rewrite app_length, Nat.add_assoc, app_assoc. reflexivity.
Qed.

Lemma host_in_long max l chs : packed l chs -> forall acc extra,
  length acc < max -> length acc mod 64 = 0 -> max mod 64 = 0 -> max < length acc + length l ->
  exists ts r, host_in max acc (chs ++ extra) = (firstn max (acc ++ l) :: ts, r).
Proof.
  induction 1 as [|l H1 H2|c l chs Hc P IH]; intros acc extra La Ma Mm Ll.
  - cbn in Ll. lia.
  - exfalso. apply Nat.mod_divides in Ma; [|lia]. apply Nat.mod_divides in Mm; [|lia].
    destruct Ma as [a Ea], Mm as [m Em]. lia.
  - cbn [app host_in]. destruct (Nat.ltb_spec (length c) 64); [lia|]. cbn [orb]. rewrite app_length.
    rewrite app_length in Ll. destruct (Nat.leb_spec max (length acc + length c)) as [L|L].
    + assert (E : length (acc ++ c) = max).
      { rewrite app_length. apply Nat.mod_divides in Ma; [|lia]. apply Nat.mod_divides in Mm; [|lia].
        destruct Ma as [a Ea], Mm as [m Em]. lia. }
      destruct (host_in max [] (chs ++ extra)) as [ts r]. exists ts, r. f_equal. f_equal.
      rewrite app_assoc, firstn_app, <- E, firstn_all, Nat.sub_diag. cbn. now rewrite app_nil_r.
    + destruct (IH (acc ++ c) extra) as (ts & r & E); rewrite ?app_length; try lia.
      * rewrite Nat.add_comm, mod64_add; auto.
      * exists ts, r. now rewrite E, app_assoc.
Qed.

(** *** Device receive *)
Lemma drain_any c B l chs rest : packed l chs ->
  exists rest', drain c B (map Pkt (chs ++ (if length l mod 64 =? 0 then [[]] else [])) ++ rest) = (RTooLarge, rest')
    /\ (64 <= B -> rest' = rest).
Proof.
  induction 1 as [|l H1 H2|cc l chs Hc P IH].
  - cbn. eauto.
  - rewrite Nat.mod_small by lia. destruct (Nat.eqb_spec (length l) 0); [lia|].
    cbn [app map drain]. destruct (Nat.ltb_spec B (length l)).
    + eexists. split; [reflexivity|]. lia.
    + destruct (Nat.eqb_spec (length l) 64); [lia|]. eauto.
  - rewrite app_length, mod64_add by auto. cbn [app map drain]. destruct (Nat.ltb_spec B (length cc)).
    + eexists. split; [reflexivity|]. lia.
    + rewrite Hc. cbn [Nat.eqb]. exact IH.
Qed.

Lemma fill_unfold c B acc items : fill c B acc items =
  (let w := B - length acc in
   if Nat.eqb w 0 then drain c B items else
   match items with
   | [] => (RPending, [])
   | Disabled :: tl => (RClosed, tl)
   | Pkt p :: tl =>
     if w <? length p then (RTooLarge, if c then tl else items)
     else if Nat.eqb (length p) 64 then fill c B (acc ++ p) tl
     else (RGot (acc ++ p), tl)
   end).
Proof. destruct items; reflexivity. Qed.

Lemma fill_fits c B l chs rest : packed l chs -> forall acc,
  length acc + length l <= B -> ~ (length acc + length l = B /\ length l mod 64 = 0) ->
  fill c B acc (map Pkt (chs ++ (if length l mod 64 =? 0 then [[]] else [])) ++ rest) = (RGot (acc ++ l), rest).
Proof.
  induction 1 as [|l H1 H2|cc l chs Hc P IH]; intros acc L N; rewrite fill_unfold; cbv zeta.
  - cbn in L, N. destruct (Nat.eqb_spec (B - length acc) 0) as [Z|Z]; [exfalso; apply N; split; [lia|reflexivity]|].
    cbn [length Nat.modulo]. cbn [Nat.eqb app map]. reflexivity.
  - destruct (Nat.eqb_spec (B - length acc) 0) as [Z|Z]; [lia|].
    rewrite Nat.mod_small by lia. destruct (Nat.eqb_spec (length l) 0); [lia|]. cbn [app map].
    destruct (Nat.ltb_spec (B - length acc) (length l)); [lia|].
    destruct (Nat.eqb_spec (length l) 64); [lia|]. reflexivity.
  - rewrite app_length in L, N. rewrite app_length, mod64_add in * by auto.
    destruct (Nat.eqb_spec (B - length acc) 0) as [Z|Z]; [lia|]. cbn [app map].
    destruct (Nat.ltb_spec (B - length acc) (length cc)); [lia|].
    rewrite Hc. cbn [Nat.eqb]. rewrite IH; [now rewrite app_assoc| |]; rewrite app_length; rewrite Hc in *; [lia|].
    intros [A A']. apply N. split; [lia|auto].
Qed.

Lemma fill_not_fits c B l chs rest : packed l chs -> forall acc,
  ~ (length acc + length l <= B /\ ~ (length acc + length l = B /\ length l mod 64 = 0)) ->
  exists rest', fill c B acc (map Pkt (chs ++ (if length l mod 64 =? 0 then [[]] else [])) ++ rest) = (RTooLarge, rest')
   /\ (64 <= B -> length acc mod 64 = 0 -> B mod 64 = 0 -> rest' = rest).
Proof.
  induction 1 as [|l H1 H2|cc l chs Hc P IH]; intros acc N; rewrite fill_unfold; cbv zeta.
  - destruct (Nat.eqb_spec (B - length acc) 0) as [Z|Z].
    + destruct (drain_any c B [] [] rest packed_nil) as (r' & E & Hr). exists r'. auto.
    + exfalso. apply N. cbn. lia.
  - destruct (Nat.eqb_spec (B - length acc) 0) as [Z|Z].
    + destruct (drain_any c B l [l] rest) as (r' & E & Hr); [now constructor|]. exists r'. auto.
    + rewrite Nat.mod_small by lia. destruct (Nat.eqb_spec (length l) 0); [lia|]. cbn [app map].
      destruct (Nat.ltb_spec (B - length acc) (length l)).
      * eexists. split; [reflexivity|]. intros HB Ma Mm.
        apply Nat.mod_divides in Ma; [|lia]. apply Nat.mod_divides in Mm; [|lia].
        destruct Ma as [a Ea], Mm as [m Em]. lia.
      * exfalso. apply N. split; [lia|]. intros [_ Z']. rewrite Nat.mod_small in Z' by lia. lia.
  - destruct (Nat.eqb_spec (B - length acc) 0) as [Z|Z].
    + destruct (drain_any c B (cc ++ l) (cc :: chs) rest) as (r' & E & Hr); [now constructor|]. exists r'. auto.
    + rewrite app_length, mod64_add in * by auto. cbn [app map].
      destruct (Nat.ltb_spec (B - length acc) (length cc)).
      * eexists. split; [reflexivity|]. intros HB Ma Mm.
        apply Nat.mod_divides in Ma; [|lia]. apply Nat.mod_divides in Mm; [|lia].
        destruct Ma as [a Ea], Mm as [m Em]. lia.
      * rewrite Hc. cbn [Nat.eqb]. destruct (IH (acc ++ cc)) as (r' & E & Hr).
        { rewrite app_length. intros [A A']. apply N. rewrite Hc in *. split; [lia|]. intros [A1 A2]. apply A'. split; [lia|auto]. }
        exists r'. split; auto. intros HB Ma Mm. apply Hr; auto.
        rewrite app_length, Nat.add_comm, mod64_add; auto.
Qed.

Lemma receive_fits c B f rest : fits B (length f) ->
  receive c B (map Pkt (frame_packets f) ++ rest) = (RGot f, rest).
Proof. intros [L N]. unfold receive, frame_packets. apply (fill_fits c B f _ rest (chunks_packed f) []); auto. Qed.
Lemma receive_not_fits c B f rest : ~ fits B (length f) ->
  exists rest', receive c B (map Pkt (frame_packets f) ++ rest) = (RTooLarge, rest')
   /\ (64 <= B -> B mod 64 = 0 -> rest' = rest).
Proof.
  intros N. unfold receive, frame_packets.
  destruct (fill_not_fits c B f _ rest (chunks_packed f) []) as (r' & E & H); [exact N|].
  exists r'. auto.
Qed.

Lemma nusb_send_packets mps f : f <> [] -> mps = None \/ mps = Some 64 ->
  nusb_send mps f = frame_packets f ++
    (if (length f mod 64 =? 0) then [] else match mps with None => frame_packets [] | _ => [] end).
Proof.
  intros Ne [-> | ->]; unfold nusb_send, frame_packets, transfer_packets; destruct f as [|x f]; try congruence.
  - destruct (length (x :: f) mod 64 =? 0); cbn [app]; rewrite ?app_nil_r; reflexivity.
  - destruct (length (x :: f) mod 64 =? 0); cbn [app]; rewrite ?app_nil_r; reflexivity.
Qed.

(** What the device sees of one host frame. *)
Definition host_frame_results (mps : option nat) (f : list N) : list RecvRes :=
  RGot f :: match mps with
            | None => if length f mod 64 =? 0 then [] else [RGot []]
            | Some _ => []
            end.

Lemma receives_app c B a : forall i1 i2 b i3,
  receives c B i1 a i2 -> receives c B i2 b i3 -> receives c B i1 (a ++ b) i3.
Proof.
  induction a as [|r a IH]; intros i1 i2 b i3 H1 H2; inversion H1; subst; auto.
  cbn. econstructor; eauto.
Qed.

Lemma receives_host c B mps frames rest : mps = None \/ mps = Some 64 -> 0 < B ->
  Forall (fun f => f <> [] /\ fits B (length f)) frames ->
  receives c B (map Pkt (flat_map (nusb_send mps) frames) ++ rest) (flat_map (host_frame_results mps) frames) rest.
Proof.
  intros Hm HB F. induction frames as [|f frames IH]; cbn [flat_map map app]; [constructor|].
  inversion F as [|? ? [Ne Ft] F']; subst. rewrite map_app, <- app_assoc.
  apply receives_app with (i2 := map Pkt (flat_map (nusb_send mps) frames) ++ rest); auto.
  rewrite nusb_send_packets by auto. rewrite map_app, <- app_assoc. unfold host_frame_results.
  econstructor; [apply receive_fits; auto|discriminate|].
  destruct (length f mod 64 =? 0).
  - cbn. destruct mps; constructor.
  - destruct mps; [cbn; constructor|]. econstructor; [apply receive_fits|discriminate|constructor].
    split; cbn; [lia|]. intros [E _]. lia.
Qed.

Lemma sub_app_r {A} (a b j : list A) : subsequence a b -> subsequence a (j ++ b).
Proof. intros H. induction j; cbn; auto. now constructor. Qed.
(** The generated induction principle does not see through the disjunction of the
    last constructor, hence induction on the list of sends. *)
Lemma seen_completed sends : forall o ts part, seen o sends ts part -> subsequence (completed sends) ts.
Proof.
  induction sends as [|[m r] rest IH]; intros o ts part S; [constructor|].
  inversion S as [|o1 r1 t1 p1 S1|m1 r1 t1 p1 Ne S1|o1 p m1 r1 t1 p1 Ne P S1
    |o1 m1 rr r1 junk o' t1 p1 Ne Nr C S1|o1 m1 rr r1 junk o' t1 p1 Ne Nr J D]; subst; cbn [completed flat_map].
  - eapply IH; eauto.
  - destruct m; [congruence|]. cbn. constructor. eapply IH; eauto.
  - destruct m; [congruence|]. cbn. constructor. constructor. eapply IH; eauto.
  - apply sub_app_r. destruct r; [congruence| |]; destruct m; cbn; eapply IH; eauto.
  - apply sub_app_r. assert (Sb : subsequence (completed rest) t1).
    { destruct D as [[-> S1]|[-> (ts' & -> & S1)]]; [eapply IH; eauto|]. constructor. eapply IH; eauto. }
    destruct r; [congruence| |]; destruct m; cbn; exact Sb.
Qed.

Lemma seen_no_mixing sends : forall o ts part, seen o sends ts part ->
  forall t, In t (part :: ts) -> t = [] \/ exists m, (In m (map fst sends) \/ o = Some m) /\ prefix_of t m.
Proof.
  induction sends as [|[m r] rest IH]; intros o ts part S t Ht.
  { inversion S; subst. destruct Ht as [<-|[]]. destruct H as [H|(m & -> & H)]; [auto|]. right. exists m. auto. }
  assert (W : (t = [] \/ exists m', (In m' (map fst rest) \/ o = Some m') /\ prefix_of t m') ->
     t = [] \/ exists m', (In m' (map fst ((m, r) :: rest)) \/ o = Some m') /\ prefix_of t m').
  { intros [H|(m' & [H|H] & P)]; auto; right; exists m'; cbn; auto. }
  assert (W0 : forall o', (o' = o \/ o' = None \/ o' = Some [] \/ o' = Some m) -> 
     (t = [] \/ exists m', (In m' (map fst rest) \/ o' = Some m') /\ prefix_of t m') ->
     t = [] \/ exists m', (In m' (map fst ((m, r) :: rest)) \/ o = Some m') /\ prefix_of t m').
  { intros o' Ho [H|(m' & [H|H] & P)]; auto; [right; exists m'; cbn; auto|].
    destruct Ho as [->|[->|[->| ->]]]; [right; exists m'; cbn; auto|discriminate| |].
    - injection H as <-. destruct P as [s E]. destruct t; [auto|discriminate].
    - injection H as <-. right. exists m. cbn; auto. }
  inversion S as [|o1 r1 t1 p1 S1|m1 r1 t1 p1 Ne S1|o1 p m1 r1 t1 p1 Ne P S1
    |o1 m1 rr r1 junk o' t1 p1 Ne Nr C S1|o1 m1 rr r1 junk o' t1 p1 Ne Nr J D]; subst.
  - apply W. eapply IH; eauto.
  - destruct Ht as [Ht|[Ht|Ht]].
    + apply (W0 None); auto. eapply IH; [eauto|cbn; auto].
    + subst t. right. exists m. split; [cbn; auto|apply prefix_refl].
    + apply (W0 None); auto. eapply IH; [eauto|cbn; auto].
  - destruct Ht as [Ht|[Ht|[Ht|Ht]]].
    + apply (W0 None); auto. eapply IH; [eauto|cbn; auto].
    + subst t. right. exists o1. auto.
    + subst t. right. exists m. split; [cbn; auto|apply prefix_refl].
    + apply (W0 None); auto. eapply IH; [eauto|cbn; auto].
  - assert (Hc : o' = o \/ o' = Some []) by (destruct C as [[_ ->]|(p & m' & _ & _ & _ & ->)]; auto).
    destruct Ht as [Ht|Ht].
    + apply (W0 o'); [tauto|]. eapply IH; [eauto|cbn; auto].
    + apply in_app_iff in Ht. destruct Ht as [Ht|Ht].
      * destruct C as [[-> _]|(p & m' & -> & Pp & -> & _)]; [destruct Ht|]. destruct Ht as [<-|[]].
        right. exists m'. auto.
      * apply (W0 o'); [tauto|]. eapply IH; [eauto|cbn; auto].
  - assert (J' : In t junk -> exists m', o = Some m' /\ prefix_of t m').
    { destruct o as [m0|]; [|subst junk; intros []]. destruct J as (p & Pp & ->). intros [<-|[]]. eauto. }
    assert (Hj : In t junk -> t = [] \/ exists m', (In m' (map fst ((m, r) :: rest)) \/ o = Some m') /\ prefix_of t m').
    { intros H. destruct (J' H) as (m' & E & P). right. exists m'. auto. }
    destruct D as [[-> S1]|[-> (ts' & -> & S1)]].
    + destruct Ht as [Ht|Ht].
      * apply (W0 (Some m)); auto. eapply IH; [eauto|cbn; auto].
      * apply in_app_iff in Ht. destruct Ht as [Ht|Ht]; auto.
        apply (W0 (Some m)); auto. eapply IH; [eauto|cbn; auto].
    + destruct Ht as [Ht|Ht].
      * apply (W0 (Some [])); auto. eapply IH; [eauto|cbn; auto].
      * apply in_app_iff in Ht. destruct Ht as [Ht|[Ht|Ht]]; auto.
        -- subst t. right. exists m. split; [cbn; auto|apply prefix_refl].
        -- apply (W0 (Some [])); auto. eapply IH; [eauto|cbn; auto].
Qed.
