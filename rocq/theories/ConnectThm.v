(** C81: opening a connection over USB. *)
From Coq Require Import NArith List Bool Arith Lia.
From Verif Require Import ConnectModel ConnectSpec UsbSysSpec.
Import ListNotations.

Lemma find_first {A} (p : A -> bool) l x : find p l = Some x -> first_with p l x.
Proof.
  induction l as [|y l IH]; [discriminate|]. cbn. destruct (p y) eqn:E.
  - intros [= ->]. exists [], l. split; [reflexivity|]. split; [exact E|]. intros z [].
  - intros H. destruct (IH H) as (b & a & -> & P & N). exists (y :: b), a. split; [reflexivity|]. split; [exact P|]. intros z [<-|Hz]; auto.
Qed.
Lemma first_find {A} (p : A -> bool) l x : first_with p l x -> find p l = Some x.
Proof.
  intros (b & a & -> & P & N). induction b as [|y b IH]; cbn; [rewrite P; reflexivity|].
  rewrite (N y (or_introl eq_refl)). apply IH. intros z Hz. apply N. right. exact Hz.
Qed.
Lemma position_nth {A} (p : A -> bool) l n : position p l = Some n ->
  exists b x a, l = b ++ x :: a /\ length b = n /\ p x = true /\ forall y, In y b -> p y = false.
Proof.
  revert n. induction l as [|y l IH]; intros n; [discriminate|]. cbn. destruct (p y) eqn:E.
  - intros [= <-]. exists [], y, l. repeat split; auto. intros z [].
  - destruct (position p l) as [k|]; [|discriminate]. intros [= <-]. destruct (IH _ eq_refl) as (b & x & a & -> & <- & P & N).
    exists (y :: b), x, a. repeat split; auto. intros z [<-|Hz]; auto.
Qed.
Lemma position_first {A} (p : A -> bool) b x a : p x = true -> (forall y, In y b -> p y = false) -> position p (b ++ x :: a) = Some (length b).
Proof.
  intros P N. induction b as [|y b IH]; cbn; [rewrite P; reflexivity|]. rewrite (N y (or_introl eq_refl)), IH; [reflexivity|]. intros z Hz. apply N. right. exact Hz.
Qed.

(** What the loop over the endpoints has found. *)
Definition eps_of (alts : list AltSetting) : list UsbEndpoint := flat_map alt_eps alts.
Definition bulk_out (e : UsbEndpoint) : bool := (match ep_type e with Bulk => true | _ => false end && negb (ep_is_in e))%bool.
Definition bulk_in (e : UsbEndpoint) : bool := (match ep_type e with Bulk => true | _ => false end && ep_is_in e)%bool.
Lemma scan_flat alts s : fold_left (fun s a => fold_left scan_ep (alt_eps a) s) alts s = fold_left scan_ep (eps_of alts) s.
Proof.
  revert s. induction alts as [|a alts IH]; intros s; [reflexivity|]. cbn. rewrite IH. unfold eps_of. cbn. rewrite fold_left_app. reflexivity.
Qed.
Definition Found (es : list UsbEndpoint) (s : option nat * option N * option N) : Prop :=
  let '(mps, out, inn) := s in
  (out = None <-> filter bulk_out es = []) /\ (inn = None <-> filter bulk_in es = []) /\
  (forall o, out = Some o -> exists e, In e (filter bulk_out es) /\ ep_addr e = o) /\
  (forall o, inn = Some o -> exists e, In e (filter bulk_in es) /\ ep_addr e = o) /\
  match mps with
  | None => out = None
  | Some m => out <> None /\ (forall e, In e (filter bulk_out es) -> m <= ep_size e) /\ exists e, In e (filter bulk_out es) /\ ep_size e = m
  end.
Lemma scan_found es : Found es (fold_left scan_ep es (None, None, None)).
Proof.
  induction es as [|e es IH] using rev_ind; [cbn; repeat split; auto; discriminate|].
  rewrite fold_left_app. cbn [fold_left]. destruct (fold_left scan_ep es (None, None, None)) as [[mps out] inn]. cbn in IH. destruct IH as (I1 & I2 & I3 & I4 & I5).
  destruct (bulk_out e) eqn:Bo; destruct (bulk_in e) eqn:Bi; unfold bulk_out, bulk_in in Bo, Bi; unfold scan_ep, Found; rewrite !filter_app; cbn [filter];
    fold (bulk_out e) in Bo; fold (bulk_in e) in Bi; rewrite Bo, Bi; unfold bulk_out, bulk_in in Bo, Bi; destruct (ep_type e); cbn [andb] in Bo, Bi; try discriminate;
    destruct (ep_is_in e); cbn [negb] in Bo, Bi; try discriminate; rewrite ?app_nil_r; auto.
  - (* an OUT endpoint *)
    split. { split; [discriminate|]. intros X. destruct (filter bulk_out es); discriminate. }
    split; [exact I2|]. split. { intros o [= <-]. exists e. rewrite in_app_iff. cbn. auto. }
    split; [exact I4|]. split; [discriminate|]. destruct mps as [old|].
    + destruct I5 as (_ & L & e0 & E1 & E2). split.
      * intros x Hx. apply in_app_iff in Hx as [Hx|[<-|[]]]; [specialize (L _ Hx)|]; lia.
      * destruct (Nat.min_spec old (ep_size e)) as [[_ ->]|[_ ->]]; [exists e0|exists e]; rewrite in_app_iff; cbn; auto.
    + subst out. rewrite (proj1 I1 eq_refl). cbn. split; [intros x [<-|[]]; auto|]. exists e. auto.
  - (* an IN endpoint *)
    split; [exact I1|]. split. { split; [discriminate|]. intros X. destruct (filter bulk_in es); discriminate. }
    split; [exact I3|]. split. { intros o [= <-]. exists e. rewrite in_app_iff. cbn. auto. } exact I5.
Qed.
Lemma in_eps alts e : In e (eps_of alts) <-> exists a, In a alts /\ In e (alt_eps a).
Proof. unfold eps_of. rewrite in_flat_map. reflexivity. Qed.
Lemma in_out i e : In e (filter bulk_out (eps_of (if_alts i))) <-> out_endpoint i e.
Proof.
  rewrite filter_In, in_eps. unfold out_endpoint, bulk_out, ep_is_in. destruct (ep_type e); destruct (N.testbit (ep_addr e) 7); cbn; intuition discriminate.
Qed.
Lemma in_in i e : In e (filter bulk_in (eps_of (if_alts i))) <-> in_endpoint i e.
Proof.
  rewrite filter_In, in_eps. unfold in_endpoint, bulk_in, ep_is_in. destruct (ep_type e); destruct (N.testbit (ep_addr e) 7); cbn; intuition discriminate.
Qed.

(** What is found in an interface. *)
Lemma scan_interface i : 
  match scan (if_alts i) with
  | (mps, Some o, Some n) =>
    (exists e, out_endpoint i e /\ ep_addr e = o) /\ (exists e, in_endpoint i e /\ ep_addr e = n) /\
    exists m, mps = Some m /\ (forall e, out_endpoint i e -> m <= ep_size e) /\ exists e, out_endpoint i e /\ ep_size e = m
  | (_, None, _) => forall e, ~ out_endpoint i e
  | (_, _, None) => forall e, ~ in_endpoint i e
  end.
Proof.
  unfold scan. rewrite scan_flat. pose proof (scan_found (eps_of (if_alts i))) as F.
  destruct (fold_left scan_ep (eps_of (if_alts i)) (None, None, None)) as [[mps out] inn]. cbn in F. destruct F as (I1 & I2 & I3 & I4 & I5).
  destruct out as [o|]; [|intros e He; apply in_out in He; rewrite (proj1 I1 eq_refl) in He; exact He].
  destruct inn as [n|]; [|intros e He; apply in_in in He; rewrite (proj1 I2 eq_refl) in He; exact He].
  destruct (I3 _ eq_refl) as (eo & O1 & O2). destruct (I4 _ eq_refl) as (ei & E1 & E2).
  split; [exists eo; rewrite <- in_out; auto|]. split; [exists ei; rewrite <- in_in; auto|].
  destruct mps as [m|]; [|discriminate]. destruct I5 as (_ & L & em & M1 & M2). exists m. split; [reflexivity|].
  split; [intros e He; apply L, in_out, He|]. exists em. rewrite <- in_out. auto.
Qed.

Lemma try_interface_ok dev id lk : try_interface dev id = inl lk ->
  lk_dev lk = dev /\ lk_if lk = (N.of_nat id mod 256)%N /\
  exists i, In i (dev_ifs dev) /\ if_number i = lk_if lk /\ scan (if_alts i) = (lk_mps lk, Some (lk_out lk), Some (lk_in lk)).
Proof.
  unfold try_interface. destruct (dev_opens dev); [|discriminate]. cbn [negb]. destruct (find _ _) as [i|] eqn:Fi; [|discriminate].
  destruct (dev_claims dev _); [|discriminate]. cbn [negb]. destruct (scan (if_alts i)) as [[mps [o|]] [n|]] eqn:Sc; try discriminate.
  intros [= <-]. cbn. split; [reflexivity|]. split; [reflexivity|]. apply find_some in Fi as [F1 F2]. exists i. split; [exact F1|]. split; [apply N.eqb_eq; exact F2|exact Sc].
Qed.
Lemma with_interface_ok devs dp ip lk : try_new_with_interface devs dp ip = inl lk ->
  find dp devs = Some (lk_dev lk) /\ exists id, position ip (dev_infos (lk_dev lk)) = Some id /\ try_interface (lk_dev lk) id = inl lk.
Proof.
  unfold try_new_with_interface. destruct (find dp devs) as [dev|]; [|discriminate]. destruct (position ip (dev_infos dev)) as [id|] eqn:P; [|discriminate].
  intros T. destruct (try_interface_ok _ _ _ T) as (-> & _). split; [reflexivity|]. exists id. auto.
Qed.
Lemma try_new_ok w devs dp lk : try_new w devs dp = inl lk ->
  find dp devs = Some (lk_dev lk) /\ exists id, try_interface (lk_dev lk) id = inl lk.
Proof.
  unfold try_new. destruct w.
  - destruct (find dp devs) as [dev|]; [|discriminate]. intros T. destruct (try_interface_ok _ _ _ T) as (-> & _). split; [reflexivity|]. eauto.
  - intros T. apply with_interface_ok in T as (F & id & _ & T). eauto.
Qed.

(** ** C81 Connecting over USB *)

(** The device is the first one for which the user's function says yes. *)
Theorem C81_first_device :
  forall devs dp lk,
    (exists windows, try_new windows devs dp = inl lk) \/ (exists ip, try_new_with_interface devs dp ip = inl lk) ->
    first_with dp devs (lk_dev lk).
Proof.
  intros devs dp lk [(w & T)|(ip & T)]; apply find_first; [apply try_new_ok in T|apply with_interface_ok in T]; apply T.
Qed.

(** The endpoints are bulk endpoints of the interface that was claimed, one in each
    direction, and the packet size in use is the smallest of its OUT endpoints: with only
    one of them, it is the size of the one in use. *)
Theorem C81_endpoints :
  forall devs dp lk,
    (exists windows, try_new windows devs dp = inl lk) \/ (exists ip, try_new_with_interface devs dp ip = inl lk) ->
    exists i, In i (dev_ifs (lk_dev lk)) /\ if_number i = lk_if lk /\
      (exists e, out_endpoint i e /\ ep_addr e = lk_out lk) /\ (exists e, in_endpoint i e /\ ep_addr e = lk_in lk) /\
      exists m, lk_mps lk = Some m /\ (forall e, out_endpoint i e -> m <= ep_size e) /\ exists e, out_endpoint i e /\ ep_size e = m.
Proof.
  intros devs dp lk H. assert (T : exists id, try_interface (lk_dev lk) id = inl lk).
  { destruct H as [(w & T)|(ip & T)]; [apply try_new_ok in T as (_ & T); exact T|apply with_interface_ok in T as (_ & id & _ & T); eauto]. }
  destruct T as (id & T). destruct (try_interface_ok _ _ _ T) as (_ & _ & i & I1 & I2 & I3).
  exists i. split; [exact I1|]. split; [exact I2|]. pose proof (scan_interface i) as F. rewrite I3 in F. exact F.
Qed.

(** With packet sizes as the USB standard allows them, every message that fills its last
    packet is followed by an empty one, so that the device can tell where it ends:
    whichever OUT endpoint is in use, if its packets are all full, the packets of the size
    that the host reckons with are, too. *)
Theorem C81_full_packets_noticed :
  forall devs dp lk,
    (exists windows, try_new windows devs dp = inl lk) \/ (exists ip, try_new_with_interface devs dp ip = inl lk) ->
    (forall i e, In i (dev_ifs (lk_dev lk)) -> out_endpoint i e -> power_of_two (ep_size e)) ->
    exists i e m, In i (dev_ifs (lk_dev lk)) /\ if_number i = lk_if lk /\ out_endpoint i e /\ ep_addr e = lk_out lk /\
      lk_mps lk = Some m /\ 0 < m /\ forall len, len mod ep_size e = 0 -> len mod m = 0.
Proof.
  intros devs dp lk H P. destruct (C81_endpoints _ _ _ H) as (i & I1 & I2 & (e & O1 & O2) & _ & m & M1 & M2 & em & M3 & M4).
  exists i, e, m. split; [exact I1|]. split; [exact I2|]. split; [exact O1|]. split; [exact O2|]. split; [exact M1|].
  destruct (P _ _ I1 O1) as (k & K). destruct (P _ _ I1 M3) as (j & J). rewrite <- M4, J. specialize (M2 _ O1). rewrite <- M4, J, K in M2. rewrite K.
  pose proof (Nat.pow_nonzero 2 j ltac:(discriminate)). pose proof (Nat.pow_nonzero 2 k ltac:(discriminate)). split; [lia|]. intros len L.
  assert (Jk : j <= k) by (apply (Nat.pow_le_mono_r_iff 2); auto).
  apply Nat.mod_divides in L; [|auto]. destruct L as (q & ->). replace k with (j + (k - j)) by lia. rewrite Nat.pow_add_r, <- Nat.mul_assoc, Nat.mul_comm. apply Nat.mod_mul. auto.
Qed.

(** If the operating system lists the interfaces of the device under their numbers, the
    interface is the first one that was asked for: of class 0xFF, respectively the first for which the
    user's function says yes.  Without that condition this is false, see
    [C81_wrong_interface_refuted]. *)
Theorem C81_interface_partial :
  forall devs dp ip lk,
    try_new_with_interface devs dp ip = inl lk -> listed_by_number (lk_dev lk) ->
    exists info, first_with ip (dev_infos (lk_dev lk)) info /\ ii_number info = lk_if lk.
Proof.
  intros devs dp ip lk T (Ln & Num). apply with_interface_ok in T as (_ & id & P & T). destruct (try_interface_ok _ _ _ T) as (_ & E & _).
  destruct (position_nth _ _ _ P) as (b & x & a & D & L & Px & Nb). exists x. split; [exists b, a; auto|].
  rewrite (Num id x); [|rewrite D, nth_error_app2, L, Nat.sub_diag; [reflexivity|lia]].
  rewrite E. symmetry. apply N.mod_small. rewrite D, app_length in Ln. cbn in Ln. lia.
Qed.
Theorem C81_vendor_interface_partial :
  forall devs dp lk,
    try_new false devs dp = inl lk -> listed_by_number (lk_dev lk) ->
    exists info, first_with (fun i => N.eqb (ii_class i) 255) (dev_infos (lk_dev lk)) info /\ ii_number info = lk_if lk.
Proof. intros devs dp lk T L. exact (C81_interface_partial devs dp _ lk T L). Qed.

(** Connecting does not fail without a reason: there is a device, it can be opened, it has
    such an interface, which can be claimed, and which has bulk endpoints in both directions. *)
Theorem C81_finds :
  forall devs dp ip dev n info i eo ei,
    first_with dp devs dev -> dev_opens dev = true -> listed_by_number dev ->
    first_with ip (dev_infos dev) info -> ii_number info = n ->
    first_with (fun i => N.eqb (if_number i) n) (dev_ifs dev) i -> dev_claims dev n = true ->
    out_endpoint i eo -> in_endpoint i ei ->
    exists lk, try_new_with_interface devs dp ip = inl lk /\ lk_dev lk = dev /\ lk_if lk = n.
Proof.
  intros devs dp ip dev n info i eo ei D Op (Ln & Num) Ii En Fi Cl Eo Ei. unfold try_new_with_interface. rewrite (first_find _ _ _ D).
  destruct Ii as (b & a & DI & Px & Nb). rewrite DI, (position_first ip b info a Px Nb). unfold try_interface. rewrite Op. cbn [negb].
  assert (X : (N.of_nat (length b) mod 256)%N = n).
  { rewrite <- En, (Num (length b) info); [|rewrite DI, nth_error_app2, Nat.sub_diag; [reflexivity|lia]]. apply N.mod_small. rewrite DI, app_length in Ln. cbn in Ln. lia. }
  rewrite X, (first_find _ _ _ Fi), Cl. cbn [negb]. pose proof (scan_interface i) as F. destruct (scan (if_alts i)) as [[mps [o|]] [x|]]; [|destruct (F _ Ei)|destruct (F _ Eo)|destruct (F _ Eo)].
  eexists. split; [reflexivity|]. auto.
Qed.

(** A device that was set up by this crate, to whatever the application added afterwards:
    the host finds the interface that the crate declared, on every platform, and the sizes are those that
    C71 and C72 ask for. *)
Theorem C81_embassy :
  forall windows devs dp dev out inn rest,
    first_with dp devs dev -> dev_opens dev = true -> dev_claims dev 0%N = true ->
    dev_ifs dev = eusb_interfaces out inn rest -> summarized dev ->
    N.testbit out 7 = false -> N.testbit inn 7 = true ->
    exists lk, try_new windows devs dp = inl lk /\
      lk_dev lk = dev /\ lk_if lk = 0%N /\ lk_out lk = out /\ lk_in lk = inn /\
      forall txlen rxlen, 64 <= rxlen -> rxlen mod 64 = 0 -> txlen <= 1024 -> usb_sizes (lk_mps lk) txlen rxlen.
Proof.
  intros w devs dp dev out inn rest D Op Cl If Sm Ho Hi. exists (MkLink dev 0 out inn (Some 64)). split; [|do 4 (split; [reflexivity|]); intros; repeat split; auto].
  assert (T : try_interface dev 0 = inl (MkLink dev 0 out inn (Some 64))).
  { unfold try_interface. rewrite Op, If. cbn [negb]. unfold eusb_interfaces, eusb_interface. cbn [find if_number]. change (N.of_nat 0 mod 256)%N with 0%N. cbn [N.eqb]. rewrite Cl. cbn [negb if_alts].
    unfold scan. cbn [fold_left alt_eps]. unfold scan_ep, ep_is_in. cbn [ep_type ep_addr ep_size]. rewrite Ho, Hi. reflexivity. }
  unfold try_new. destruct w; [rewrite (first_find _ _ _ D); exact T|]. unfold try_new_with_interface. rewrite (first_find _ _ _ D).
  unfold summarized in Sm. rewrite If in Sm. destruct (dev_infos dev) as [|i l]; [discriminate|]. injection Sm as _ Ec _. cbn [position]. rewrite Ec. exact T.
Qed.

(** In a browser: the device is of the vendor that was asked for, if the browser honours
    the filter it is given; and the user is not asked if they allowed such a device
    before: it is the first of these. *)
Theorem C81_webusb_device :
  forall vendor paired asked,
    (forall d, asked = Some d -> fst d = vendor) ->
    (forall d, web_pick vendor paired asked = Some d -> fst d = vendor) /\
    (forall d, first_with (fun x => N.eqb (fst x) vendor) paired d -> web_pick vendor paired asked = Some d) /\
    ((forall d, In d paired -> fst d <> vendor) -> web_pick vendor paired asked = asked).
Proof.
  intros v paired asked Ha.
  assert (E : web_pick v paired asked = match find (fun x => N.eqb (fst x) v) paired with Some d => Some d | None => asked end).
  { unfold web_pick. destruct paired as [|d tl]; [reflexivity|]. cbn [length Nat.ltb Nat.leb]. generalize (d :: tl) as l. clear. induction l as [|x l IH]; [reflexivity|].
    cbn. destruct (N.eqb (fst x) v); [reflexivity|exact IH]. }
  rewrite E. split; [|split].
  - intros d. destruct (find _ paired) as [x|] eqn:F; [|auto]. intros [= <-]. apply find_some in F as [_ F]. apply N.eqb_eq, F.
  - intros d F. rewrite (first_find _ _ _ F). reflexivity.
  - intros N. destruct (find _ paired) as [x|] eqn:F; [|reflexivity]. apply find_some in F as [F1 F2]. destruct (N _ F1). apply N.eqb_eq, F2.
Qed.

Print Assumptions C81_first_device.
Print Assumptions C81_endpoints.
Print Assumptions C81_full_packets_noticed.
Print Assumptions C81_interface_partial.
Print Assumptions C81_vendor_interface_partial.
Print Assumptions C81_finds.
Print Assumptions C81_embassy.
Print Assumptions C81_webusb_device.
