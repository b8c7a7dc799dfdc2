(** Theorems about a host program that is started after another one ended at any point: C95. *)
From Coq Require Import NArith List Bool Arith Lia.
From Verif Require Import KeyModel HeaderModel UsbModel UsbSpec UsbProof UsbThm.
From Verif Require Import SubModel ClientModel ClientSpec ClientThm4.
Import ListNotations.

(** Packets of a frame that has not ended. *)
Definition unfinished (left : list packet) : Prop := Forall (fun p => length p = 64) left.

Lemma packed_more left : unfinished left -> forall l chs, packed l chs -> packed (concat left ++ l) (left ++ chs).
Proof.
  induction 1 as [|p left Hp _ IH]; intros l chs P; [exact P|]. cbn [concat app]. rewrite <- app_assoc. constructor; auto.
Qed.
Lemma unfinished_mod left f : unfinished left -> length (concat left ++ f) mod 64 = length f mod 64.
Proof.
  induction 1 as [|p left Hp _ IH]; [reflexivity|]. cbn [concat]. rewrite <- app_assoc, app_length, mod64_add by exact Hp. exact IH.
Qed.

(** What the device receives first: the frame that comes after what was left behind, glued
    to it; nothing, if that is too long. *)
Definition glued (buflen : nat) (left : list packet) (f : list N) (r : RecvRes) : Prop :=
  (fits buflen (length (concat left ++ f)) /\ r = RGot (concat left ++ f)) \/
  (~ fits buflen (length (concat left ++ f)) /\ r = RTooLarge).

Lemma receive_glued c B left f rest : unfinished left -> 64 <= B -> B mod 64 = 0 ->
  exists r, glued B left f r /\ receive c B (map Pkt (left ++ frame_packets f) ++ rest) = (r, rest).
Proof.
  intros U HB Hm. pose proof (packed_more left U f _ (chunks_packed f)) as P.
  assert (E : left ++ frame_packets f = (left ++ chunks 64 f) ++ (if length (concat left ++ f) mod 64 =? 0 then [[]] else [])).
  { rewrite unfinished_mod by exact U. unfold frame_packets. rewrite <- app_assoc. reflexivity. }
  rewrite E. unfold receive.
  destruct (le_lt_dec (length (concat left ++ f)) B) as [L|L].
  - destruct (Nat.eq_dec (length (concat left ++ f)) B) as [Eq|Ne].
    + assert (N : ~ fits B (length (concat left ++ f))) by (intros [_ X]; apply X; split; [exact Eq|rewrite Eq; exact Hm]).
      exists RTooLarge. split; [right; auto|].
      destruct (fill_not_fits c B _ _ rest P [] N) as (r' & F & H). cbn [app] in F. rewrite F, H by auto. reflexivity.
    + assert (F : fits B (length (concat left ++ f))) by (split; [exact L|intros [X _]; auto]).
      exists (RGot (concat left ++ f)). split; [left; auto|]. apply (fill_fits c B _ _ rest P []); auto. intros [X _]; auto.
  - assert (N : ~ fits B (length (concat left ++ f))) by (intros [X _]; lia).
    exists RTooLarge. split; [right; auto|].
    destruct (fill_not_fits c B _ _ rest P [] N) as (r' & F & H). cbn [app] in F. rewrite F, H by auto. reflexivity.
Qed.

(** A host program that begins where an earlier one ended amid a frame: at most its first
    frame is affected.  All others reach the device, in order and unchanged. *)
Theorem C95_device_finds_its_footing :
  forall consumes buflen mps left frame frames rest,
    unfinished left -> mps = None \/ mps = Some 64 -> 64 <= buflen -> buflen mod 64 = 0 ->
    frame <> [] -> Forall (fun f => f <> [] /\ fits buflen (length f)) frames ->
    exists first, glued buflen left frame first /\
    receives consumes buflen (map Pkt (left ++ flat_map (nusb_send mps) (frame :: frames)) ++ rest)
      (first :: (match mps with None => if length frame mod 64 =? 0 then [] else [RGot []] | Some _ => [] end) ++
       flat_map (host_frame_results mps) frames)
      rest.
Proof.
  intros c B mps left f frames rest U Hm HB Hmod Ne F.
  cbn [flat_map]. rewrite nusb_send_packets by auto. rewrite !app_assoc, <- (app_assoc left), <- !app_assoc.
  set (more := (if length f mod 64 =? 0 then [] else match mps with Some _ => [] | None => frame_packets [] end)).
  destruct (receive_glued c B left f (map Pkt (more ++ flat_map (nusb_send mps) frames) ++ rest) U HB Hmod) as (r & G & E).
  exists r. split; [exact G|]. econstructor; [|destruct G as [[_ ->]|[_ ->]]; discriminate|].
  - rewrite app_assoc, map_app, <- app_assoc. exact E.
  - pose proof (receives_host c B mps frames rest Hm ltac:(lia) F) as R. rewrite map_app, <- app_assoc. unfold more.
    destruct (length f mod 64 =? 0); [destruct mps; exact R|]. destruct mps; [exact R|].
    cbn [app]. econstructor; [apply receive_fits|discriminate|exact R]. split; cbn; [lia|]. intros [X _]. lia.
Qed.
Print Assumptions C95_device_finds_its_footing.

(** If the earlier one ended between frames nothing is affected: this is C17.  Otherwise
    the first frame may turn into a request that no program made: here one with the key
    and sequence number of the earlier program's request, of the right length, with the
    beginning of that request's bytes and the new program's frame as the rest. *)
Theorem C95_no_request_is_made_up_refuted :
  exists buflen old k new hdr body got,
    unfinished (firstn k (frame_packets old)) /\ fits buflen (length old) /\ fits buflen (length new) /\
    receive true buflen (map Pkt (firstn k (frame_packets old) ++ frame_packets new)) = (RGot got, []) /\
    take_from_slice old = Done (Some (hdr, body)) /\ length got = length old /\
    exists body', take_from_slice got = Done (Some (hdr, body')) /\ body' <> body /\ got <> new.
Proof.
  pose (old := rpc_to_bytes (y_frame 5 3 (repeat 1%N 64))). pose (new := rpc_to_bytes (y_frame 6 0 [])).
  exists 128, old, 1, new, (MkHeader (VKey1 (K1 5)) (Seq4 3)), (repeat 1%N 64), (firstn 64 old ++ new).
  split; [repeat constructor|]. split; [split; [cbn; lia|intros [X _]; discriminate X]|]. split; [split; [cbn; lia|intros [X _]; discriminate X]|].
  split; [vm_compute; reflexivity|]. split; [vm_compute; reflexivity|]. split; [reflexivity|].
  eexists. split; [vm_compute; reflexivity|]. split; discriminate.
Qed.
Print Assumptions C95_no_request_is_made_up_refuted.

(** *** The other direction *)

Lemma packed_skip l chs : packed l chs -> forall k, packed (concat (skipn k chs)) (skipn k chs) /\ (exists p, l = p ++ concat (skipn k chs)) /\
  (skipn k chs <> [] -> length (concat (skipn k chs)) mod 64 = length l mod 64).
Proof.
  induction 1 as [|l H1 H2|c l chs Hc P IH]; intros k.
  - rewrite skipn_nil. cbn. split; [exact packed_nil|]. split; [exists []; reflexivity|intros X; destruct (X eq_refl)].
  - destruct k as [|k]; cbn.
    + rewrite app_nil_r. split; [constructor; auto|]. split; [exists []; reflexivity|reflexivity].
    + rewrite skipn_nil. cbn. split; [exact packed_nil|]. split; [exists l; rewrite app_nil_r; reflexivity|intros X; destruct (X eq_refl)].
  - destruct k as [|k].
    + destruct (IH 0) as (A & [p B] & C). cbn [skipn] in *. cbn [concat].
      assert (Ec : concat chs = l).
      { clear -P. induction P as [| |c' l' chs' Hc' P' IH']; cbn; [reflexivity|apply app_nil_r|rewrite IH'; reflexivity]. }
      split; [constructor; [exact Hc|exact A]|]. split; [exists []; rewrite Ec; reflexivity|]. intros _. rewrite Ec. reflexivity.
    + cbn [skipn]. destruct (IH k) as (A & [p B] & C). split; [exact A|]. split; [exists (c ++ p); rewrite <- app_assoc, <- B; reflexivity|].
      intros Ne. rewrite (C Ne), app_length, mod64_add by exact Hc. reflexivity.
Qed.

(** A host program that begins where an earlier one ended amid a message: what it receives
    first is the end of that message, if anything of it is left; then it receives all that
    the device sends, in order and unchanged (an empty transfer follows after one of 1024
    bytes: C54). *)
Theorem C95_host_finds_its_footing :
  forall old k msgs, length old <= 1024 -> Forall (fun m => m <> [] /\ length m <= 1024) msgs ->
    exists tail,
      (tail = [] \/ exists before last, old = before ++ last /\ (tail = [last] \/ tail = [last; []])) /\
      host_in 1024 [] (skipn k (frame_packets old) ++ fst (fst (send_seq false (map (fun m => (m, [])) msgs)))) =
      (tail ++ flat_map (fun m => if length m =? 1024 then [m; []] else [m]) msgs, []).
Proof.
  intros old k msgs Lo F. rewrite host_in_app.
  assert (T : exists tail, (tail = [] \/ exists before last, old = before ++ last /\ (tail = [last] \/ tail = [last; []])) /\
    host_in 1024 [] (skipn k (frame_packets old)) = (tail, [])).
  { unfold frame_packets. rewrite skipn_app. destruct (packed_skip _ _ (chunks_packed old) k) as (P & [p Ep] & Hm).
    destruct (skipn k (chunks 64 old)) as [|x c] eqn:Ec.
    - cbn [app concat] in *. destruct (length old mod 64 =? 0); [|rewrite skipn_nil; exists []; auto].
      destruct (k - length (chunks 64 old)) as [|n]; cbn [skipn].
      + exists [[]]. split; [|reflexivity]. right. exists old, []. rewrite app_nil_r. auto.
      + rewrite skipn_nil. exists []. auto.
    - assert (Hk : k - length (chunks 64 old) = 0).
      { apply Nat.sub_0_le. destruct (le_lt_dec k (length (chunks 64 old))) as [|L]; [assumption|].
        assert (X : skipn k (chunks 64 old) = []) by (apply skipn_all2; lia). rewrite X in Ec. discriminate Ec. }
      rewrite Hk. cbn [skipn]. set (s := concat (x :: c)) in *. rewrite <- (Hm ltac:(discriminate)).
      assert (Ls : length s <= 1024) by (rewrite Ep, app_length in Lo; lia).
      rewrite (host_in_frame 1024 s _ P []) by (cbn [length]; lia). cbn [app].
      exists (if (length (@nil N) + length s =? 1024) && (length s mod 64 =? 0) then [s; []] else [s]). split; [|reflexivity].
      right. exists p, s. split; [exact Ep|]. destruct (_ && _); auto. }
  destruct T as (tail & Ht & ->). exists tail. split; [exact Ht|].
  rewrite (C54_up_to_1024 msgs F). reflexivity.
Qed.
Print Assumptions C95_host_finds_its_footing.

(** That end of a message may look like the answer to a request of the new program: here
    the first request of a new client returns a value although the device has sent nothing
    but one publication to the earlier program, whose last packet was still to come. *)
Definition z_publication : RpcFrame := y_frame 77 9 (repeat 1%N 58 ++ rpc_to_bytes (y_frame 2 0 [100%N])).
Theorem C95_no_answer_is_made_up_refuted :
  exists old k transfer c es,
    host_in 1024 [] (skipn k (frame_packets (rpc_to_bytes old))) = ([transfer], []) /\
    hdr_key (f_hdr old) <> VKey1 (K1 2) /\
    run y_cfg ([LRequest (y_k 1) (y_k 2) [10%N]] ++ y_out 0 ++ [LRecv transfer; LWake (Some 0); LTakeOk 0]) client_new = Some (c, es) /\
    results es = [(0, GotReply (y_frame 2 0 [100%N]))].
Proof.
  exists z_publication, 1. do 3 eexists. split; [vm_compute; reflexivity|]. split; [discriminate|].
  split; [vm_compute; reflexivity|reflexivity].
Qed.
Print Assumptions C95_no_answer_is_made_up_refuted.

(** Two packets of a request of 150 bytes are left; the device's buffer holds 256 bytes.
    The new program's first request has 40 bytes. *)
Example C95_ex :
  let left := firstn 2 (frame_packets (x_msg 150)) in
  unfinished left /\ left <> [] /\ x_msg 40 <> [] /\
  Forall (fun f => f <> [] /\ fits 256 (length f)) [x_msg 7; x_msg 64] /\
  receives true 256 (map Pkt (left ++ flat_map (nusb_send (Some 64)) [x_msg 40; x_msg 7; x_msg 64]))
    [RGot (firstn 128 (x_msg 150) ++ x_msg 40); RGot (x_msg 7); RGot (x_msg 64)] [] /\
  host_in 1024 [] (skipn 2 (frame_packets (x_msg 150)) ++ fst (fst (send_seq false [(x_msg 5, [])]))) = ([skipn 128 (x_msg 150); x_msg 5], []).
Proof.
  split; [repeat constructor|]. split; [discriminate|]. split; [discriminate|].
  split. { repeat (apply Forall_cons; [split; [discriminate|split; [cbn; lia|intros [X _]; discriminate X]]|]). apply Forall_nil. }
  split; [|vm_compute; reflexivity].
  econstructor; [vm_compute; reflexivity|discriminate|]. econstructor; [vm_compute; reflexivity|discriminate|].
  econstructor; [vm_compute; reflexivity|discriminate|]. constructor.
Qed.
