(** Lemmas about the wire format of the standard messages. *)
From Coq Require Import NArith ZArith List Bool Arith Lia ZifyBool ZifyNat ZifyN.
From Verif Require Import KeyModel HeaderModel SchemaModel SchemaProof MacroModel PostcardModel PostcardProof DispatchModel
  CodecModel CodecSpec CodecProof CodecStdModel.
Import ListNotations.
Local Open Scope N_scope.

Lemma de_string_ser s r : name_ok s -> de_string (ser (VString s) ++ r) = Some (s, r).
Proof. intros [H1 H2]. apply utf8_ok_text in H1. unfold de_string. cbn [ser]. rewrite <- app_assoc, take_bytes_put by auto. rewrite H1. reflexivity. Qed.
Lemma put_len_pos n : (1 <= length (put_len n))%nat.
Proof. apply varint_enc_len. cbn. lia. Qed.
Lemma put_varint_pos w n : (1 <= length (put_varint w n))%nat.
Proof. apply varint_enc_len. destruct w; cbn; lia. Qed.

(** [f] reads back the schemas that are written in at most [n] bytes. *)
Definition reads (n : nat) (f : list N -> option (NamedType * list N)) (t : NamedType) : Prop :=
  nt_ok t -> (length (ser (nt_value t)) <= n)%nat -> forall r, f (ser (nt_value t) ++ r) = Some (t, r).

Lemma vec_ser {B} (T : B -> Prop) (g : B -> value) (f : list N -> option (B * list N)) (vs : list B) n r :
  Forall (fun v => T v -> (length (ser (g v)) <= n)%nat -> forall r, f (ser (g v) ++ r) = Some (v, r)) vs ->
  allp T vs -> len_ok vs -> (length (ser (VSeq (map g vs))) <= n)%nat ->
  de_vec f (ser (VSeq (map g vs)) ++ r) = Some (vs, r).
Proof.
  intros F A L Hn. unfold de_vec. cbn [ser] in *. rewrite <- app_assoc, map_length. unfold put_len. rewrite take_put_varint by exact L. rewrite Nat2N.id.
  rewrite app_length in Hn. assert (Hn' : (length (flat_map ser (map g vs)) <= n)%nat) by lia. clear Hn L.
  revert r. induction F as [|v vs Hv F IH]; intros r; [reflexivity|]. destruct A as [A1 A2]. cbn [map flat_map length de_times] in *. rewrite app_length in Hn'.
  rewrite <- app_assoc, Hv by (auto; lia). rewrite IH by (auto; lia). reflexivity.
Qed.
Lemma field_ser {B} (T : B -> Prop) (g : B -> value) (f : list N -> option (B * list N)) n (x : str * B) :
  (T (snd x) -> (length (ser (g (snd x))) <= n)%nat -> forall r, f (ser (g (snd x)) ++ r) = Some (snd x, r)) ->
  (let (s, b) := x in name_ok s /\ T b) -> (length (ser (let (s, b) := x in VTup [VString s; g b])) <= n)%nat ->
  forall r, de_pair de_string f (ser (let (s, b) := x in VTup [VString s; g b]) ++ r) = Some (x, r).
Proof.
  destruct x as [s b]. cbn [snd]. intros F [Hs Hb] L r. change (ser (VTup [VString s; g b])) with (ser (VString s) ++ ser (g b) ++ []) in *.
  rewrite app_nil_r in *. rewrite app_length in L. unfold de_pair. rewrite <- app_assoc, de_string_ser by auto. rewrite F by (auto; lia). reflexivity.
Qed.
Lemma ser_enum i v : ser (VEnum i v) = put_varint W32 i ++ ser v. Proof. reflexivity. Qed.

Lemma read_all :
  (forall t, forall fuel, reads fuel (de_nt fuel) t) /\
  (forall d, forall fuel, dmt_ok d -> (length (ser (dmt_value d)) <= fuel)%nat -> forall r, de_dmt_schema (de_nt fuel) (ser (dmt_value d) ++ r) = Some (d, r)) /\
  (forall m, forall fuel, dmv_ok m -> (length (ser (dmv_value m)) <= fuel)%nat -> forall r, de_dmv_schema (de_nt fuel) (ser (dmv_value m) ++ r) = Some (m, r)).
Proof.
  apply schema_ind.
  - intros name d Hd fuel [Hn Hk] L r.
    change (ser (nt_value (NT name d))) with (ser (VString name) ++ ser (dmt_value d) ++ []) in *. rewrite app_nil_r in *. rewrite app_length in L.
    assert (Lp : (1 <= length (ser (VString name)))%nat) by (cbn [ser]; rewrite app_length; pose proof (put_len_pos (length name)); lia).
    destruct fuel as [|fuel]; [lia|]. cbn [de_nt]. unfold de_pair. rewrite <- app_assoc, de_string_ser by auto. rewrite Hd by (auto; lia). reflexivity.
  - intros p fuel _ _ r. cbn [dmt_value]. rewrite ser_enum, <- app_assoc. unfold de_dmt_schema. rewrite take_put_varint by (destruct p; reflexivity). destruct p; reflexivity.
  - intros fuel _ _ r. cbn [dmt_value]. rewrite ser_enum, <- app_assoc. unfold de_dmt_schema. rewrite take_put_varint by reflexivity. reflexivity.
  - intros t Ht fuel Hk L r. cbn [dmt_value] in *. rewrite ser_enum in *. rewrite app_length in L. rewrite <- app_assoc. unfold de_dmt_schema. rewrite take_put_varint by reflexivity.
    cbn [N.ltb N.compare Pos.compare Pos.compare_cont]. rewrite Ht by (auto; lia). reflexivity.
  - intros t Ht fuel Hk L r. cbn [dmt_value] in *. rewrite ser_enum in *. rewrite app_length in L. rewrite <- app_assoc. unfold de_dmt_schema. rewrite take_put_varint by reflexivity.
    cbn [N.ltb N.compare Pos.compare Pos.compare_cont]. rewrite Ht by (auto; lia). reflexivity.
  - intros t Ht fuel Hk L r. cbn [dmt_value] in *. rewrite ser_enum in *. rewrite app_length in L. rewrite <- app_assoc. unfold de_dmt_schema. rewrite take_put_varint by reflexivity.
    cbn [N.ltb N.compare Pos.compare Pos.compare_cont]. rewrite Ht by (auto; lia). reflexivity.
  - intros ts Ht fuel [Hk Hl] L r. cbn [dmt_value] in *. rewrite ser_enum in *. rewrite app_length in L. rewrite <- app_assoc. unfold de_dmt_schema. rewrite take_put_varint by reflexivity.
    cbn [N.ltb N.compare Pos.compare Pos.compare_cont]. rewrite (vec_ser nt_ok nt_value (de_nt fuel) ts fuel); auto; [|lia]. eapply Forall_impl; [|exact Ht]. intros t H. apply H.
  - intros ts Ht fuel [Hk Hl] L r. cbn [dmt_value] in *. rewrite ser_enum in *. rewrite app_length in L. rewrite <- app_assoc. unfold de_dmt_schema. rewrite take_put_varint by reflexivity.
    cbn [N.ltb N.compare Pos.compare Pos.compare_cont]. rewrite (vec_ser nt_ok nt_value (de_nt fuel) ts fuel); auto; [|lia]. eapply Forall_impl; [|exact Ht]. intros t H. apply H.
  - intros k v Hk Hv fuel [Ok Ov] L r. cbn [dmt_value] in *. rewrite ser_enum in *. rewrite app_length in L. rewrite <- app_assoc. unfold de_dmt_schema. rewrite take_put_varint by reflexivity.
    cbn [N.ltb N.compare Pos.compare Pos.compare_cont]. change (ser (VTup [nt_value k; nt_value v])) with (ser (nt_value k) ++ ser (nt_value v) ++ []) in *. rewrite app_nil_r in *.
    rewrite app_length in L. unfold de_pair. rewrite <- app_assoc, Hk by (auto; lia). rewrite Hv by (auto; lia). reflexivity.
  - intros fs Hf fuel [Hk Hl] L r. cbn [dmt_value] in *. rewrite ser_enum in *. rewrite app_length in L. rewrite <- app_assoc. unfold de_dmt_schema. rewrite take_put_varint by reflexivity.
    cbn [N.ltb N.compare Pos.compare Pos.compare_cont].
    erewrite (vec_ser _ (fun x : str * NamedType => let (n, t) := x in VTup [VString n; nt_value t]) _ fs fuel); [reflexivity| |exact Hk|auto|lia].
    eapply Forall_impl; [|exact Hf]. intros x H. cbv beta in H. apply field_ser. apply H.
  - intros vs Hf fuel [Hk Hl] L r. cbn [dmt_value] in *. rewrite ser_enum in *. rewrite app_length in L. rewrite <- app_assoc. unfold de_dmt_schema. rewrite take_put_varint by reflexivity.
    cbn [N.ltb N.compare Pos.compare Pos.compare_cont].
    erewrite (vec_ser _ (fun x : str * DMV => let (n, m) := x in VTup [VString n; dmv_value m]) _ vs fuel); [reflexivity| |exact Hk|auto|lia].
    eapply Forall_impl; [|exact Hf]. intros x H. cbv beta in H. apply field_ser. apply H.
  - intros fuel _ _ r. cbn [dmv_value]. rewrite ser_enum, <- app_assoc. unfold de_dmv_schema. rewrite take_put_varint by reflexivity. reflexivity.
  - intros t Ht fuel Hk L r. cbn [dmv_value] in *. rewrite ser_enum in *. rewrite app_length in L. rewrite <- app_assoc. unfold de_dmv_schema. rewrite take_put_varint by reflexivity.
    rewrite Ht by (auto; lia). reflexivity.
  - intros ts Ht fuel [Hk Hl] L r. cbn [dmv_value] in *. rewrite ser_enum in *. rewrite app_length in L. rewrite <- app_assoc. unfold de_dmv_schema. rewrite take_put_varint by reflexivity.
    rewrite (vec_ser nt_ok nt_value (de_nt fuel) ts fuel); auto; [|lia]. eapply Forall_impl; [|exact Ht]. intros t H. apply H.
  - intros fs Hf fuel [Hk Hl] L r. cbn [dmv_value] in *. rewrite ser_enum in *. rewrite app_length in L. rewrite <- app_assoc. unfold de_dmv_schema. rewrite take_put_varint by reflexivity.
    erewrite (vec_ser _ (fun x : str * NamedType => let (n, t) := x in VTup [VString n; nt_value t]) _ fs fuel); [reflexivity| |exact Hk|auto|lia].
    eapply Forall_impl; [|exact Hf]. intros x H. cbv beta in H. apply field_ser. apply H.
Qed.

(** *** Reading is not affected by what follows *)
Definition ext2 {B} (f f' : list N -> option (B * list N)) : Prop := forall l v r x, f l = Some (v, r) -> f' (l ++ x) = Some (v, r ++ x).
Lemma ext2_omap {A B} (g : A -> B) f f' : ext2 f f' -> ext2 (fun l => omap g (f l)) (fun l => omap g (f' l)).
Proof. intros H l v r x E. eapply omap_app; [exact E|]. intros a r0 E0. exact (H _ _ _ x E0). Qed.
Lemma ext2_times {B} (f f' : list N -> option (B * list N)) n : ext2 f f' -> ext2 (de_times f n) (de_times f' n).
Proof.
  intros Hf. induction n as [|n IH]; intros l v r x; cbn [de_times]. { intros [= <- <-]. reflexivity. }
  destruct (f l) as [[a r1]|] eqn:E; [|discriminate]. rewrite (Hf _ _ _ x E). destruct (de_times f n r1) as [[vs r2]|] eqn:E2; [|discriminate].
  rewrite (IH _ _ _ x E2). intros [= <- <-]. reflexivity.
Qed.
Lemma ext2_pair {A B} (f f' : list N -> option (A * list N)) (g g' : list N -> option (B * list N)) : ext2 f f' -> ext2 g g' -> ext2 (de_pair f g) (de_pair f' g').
Proof.
  intros Hf Hg l v r x. unfold de_pair. destruct (f l) as [[a r1]|] eqn:E; [|discriminate]. rewrite (Hf _ _ _ x E).
  destruct (g r1) as [[b r2]|] eqn:E2; [|discriminate]. rewrite (Hg _ _ _ x E2). intros [= <- <-]. reflexivity.
Qed.
Lemma ext2_vec {B} (f f' : list N -> option (B * list N)) : ext2 f f' -> ext2 (de_vec f) (de_vec f').
Proof.
  intros Hf l v r x. unfold de_vec. destruct (take_varint W64 l) as [[n r1]|] eqn:E; [|discriminate]. rewrite (take_varint_app _ _ _ _ x E).
  apply ext2_times. exact Hf.
Qed.
Lemma ext2_string : ext2 de_string de_string.
Proof.
  intros l v r x. unfold de_string. destruct (take_bytes l) as [[s r1]|] eqn:E; [|discriminate]. rewrite (take_bytes_app _ _ _ x E).
  destruct (utf8_ok s); [|discriminate]. intros [= <- <-]. reflexivity.
Qed.
Lemma ext2_dmv f f' : ext2 f f' -> ext2 (de_dmv_schema f) (de_dmv_schema f').
Proof.
  intros Hf l v r x. unfold de_dmv_schema. destruct (take_varint W32 l) as [[i r1]|] eqn:E; [|discriminate]. rewrite (take_varint_app _ _ _ _ x E).
  destruct i as [|p]; [intros [= <- <-]; reflexivity|].
  destruct p as [[?|?|]|[?|?|]|]; try discriminate; [apply (ext2_omap VStruct), ext2_vec, ext2_pair; auto using ext2_string|
    apply (ext2_omap VTuple), ext2_vec; auto|apply (ext2_omap VNewtype); auto].
Qed.
Lemma ext2_dmt f f' : ext2 f f' -> ext2 (de_dmt_schema f) (de_dmt_schema f').
Proof.
  intros Hf l v r x. unfold de_dmt_schema. destruct (take_varint W32 l) as [[i r1]|] eqn:E; [|discriminate]. rewrite (take_varint_app _ _ _ _ x E).
  destruct (i <? 18). { destruct (nth_error prims (N.to_nat i)); [|discriminate]. intros [= <- <-]. reflexivity. }
  destruct i as [|p]; [discriminate|].
  do 5 (try destruct p as [p|p|]); try discriminate;
    first [ intros [= <- <-]; reflexivity
          | apply (ext2_omap DOption); exact Hf | apply (ext2_omap DNewtypeStruct); exact Hf | apply (ext2_omap DSeq); exact Hf
          | apply (ext2_omap DTuple), ext2_vec; exact Hf | apply (ext2_omap DTupleStruct), ext2_vec; exact Hf
          | apply (ext2_omap (fun x => DMap (fst x) (snd x)) (de_pair f f)), ext2_pair; exact Hf
          | apply (ext2_omap DStruct), ext2_vec, ext2_pair; [apply ext2_string|exact Hf]
          | apply (ext2_omap DEnum), ext2_vec, ext2_pair; [apply ext2_string|apply ext2_dmv; exact Hf] ].
Qed.
Lemma ext2_nt n : forall m, (n <= m)%nat -> ext2 (de_nt n) (de_nt m).
Proof.
  induction n as [|n IH]; intros m L l v r x; [discriminate|]. destruct m as [|m]; [lia|]. cbn [de_nt].
  apply (ext2_omap (fun y => NT (fst y) (snd y))), ext2_pair; [apply ext2_string|]. apply ext2_dmt, IH. lia.
Qed.
Lemma ext2_key : ext2 de_key de_key.
Proof. intros l v r x. do 8 (destruct l as [|? l]; [discriminate|]). cbn [de_key app]. intros [= <- <-]. reflexivity. Qed.
Lemma ext2_direction : ext2 de_direction de_direction.
Proof.
  intros l v r x. unfold de_direction. destruct (take_varint W32 l) as [[i r1]|] eqn:E; [|discriminate]. rewrite (take_varint_app _ _ _ _ x E).
  destruct i as [|[?|?|]]; try discriminate; intros [= <- <-]; reflexivity.
Qed.
Lemma ext2_schema : ext2 de_schema_data de_schema_data.
Proof.
  intros l v r x. unfold de_schema_data. destruct (take_varint W32 l) as [[i r1]|] eqn:E; [|discriminate]. rewrite (take_varint_app _ _ _ _ x E).
  destruct i as [|[?|[?|?|]|]]; try discriminate.
  - apply (ext2_omap SDType), ext2_nt. rewrite app_length. lia.
  - apply (ext2_omap (fun y => SDTopic (fst (fst y)) (snd (fst y)) (snd y))), ext2_pair; [apply ext2_pair|]; auto using ext2_string, ext2_key, ext2_direction.
  - apply (ext2_omap (fun y => SDEndpoint (fst (fst y)) (snd (fst y)) (snd y))), ext2_pair; [apply ext2_pair|]; auto using ext2_string, ext2_key.
Qed.

Lemma de_key_ser k r : de_key (ser (key_value k) ++ r) = Some (k, r).
Proof. destruct k. reflexivity. Qed.
Lemma de_direction_ser d r : de_direction (ser (direction_value d) ++ r) = Some (d, r).
Proof. destruct d; reflexivity. Qed.
Lemma ser_tup3 a b c : ser (VTup [a; b; c]) = ser a ++ ser b ++ ser c.
Proof. cbn [ser flat_map]. rewrite app_nil_r. reflexivity. Qed.
Lemma de_schema_ser d r : sd_ok d -> de_schema_data (ser (schema_value d) ++ r) = Some (d, r).
Proof.
  destruct d as [t|path rq rp|path k dir]; cbn [sd_ok schema_value]; intros H; unfold de_schema_data;
    rewrite ser_enum, <- app_assoc, take_put_varint by reflexivity.
  - rewrite (proj1 read_all t (length (ser (nt_value t) ++ r)) H); [reflexivity|]. rewrite app_length. lia.
  - rewrite ser_tup3, <- !app_assoc. unfold de_pair. rewrite de_string_ser, !de_key_ser by auto. reflexivity.
  - rewrite ser_tup3, <- !app_assoc. unfold de_pair. rewrite de_string_ser, de_key_ser, de_direction_ser by auto. reflexivity.
Qed.

Lemma error_typed e : error_ok e -> typed t_wire_error (error_value e) /\ value_error (error_value e) = Some e.
Proof. destruct e; cbn; intros H; repeat split; try tauto; reflexivity. Qed.
Lemma totals_typed t : totals_ok t -> typed t_totals (totals_value t) /\ value_totals (totals_value t) = Some t.
Proof. destruct t; unfold totals_ok; cbn. intuition. Qed.
