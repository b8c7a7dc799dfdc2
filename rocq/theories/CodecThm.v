(** Theorems about the wire format: C63, C64, C65. *)
From Coq Require Import NArith ZArith List Bool Arith Lia.
From Verif Require Import KeyModel HeaderModel SchemaModel MacroModel PostcardModel PostcardProof DispatchModel
  CodecModel CodecSpec CodecProof CodecStdModel CodecStdProof.
Import ListNotations.

(** ** C63 What is serialized is what is deserialized *)

(** Every value of every type comes back, whatever follows it in the message. *)
Theorem C63_round_trip : forall t v rest, typed t v -> from_bytes t (ser v ++ rest) = Some v.
Proof. intros t v rest H. unfold from_bytes. rewrite (proj1 de_ser_all t v rest H). reflexivity. Qed.
Print Assumptions C63_round_trip.

(** The bytes determine the value. *)
Theorem C63_injective : forall t v w, typed t v -> typed t w -> ser v = ser w -> v = w.
Proof.
  intros t v w Hv Hw E. pose proof (C63_round_trip t v [] Hv) as H. rewrite E, (C63_round_trip t w [] Hw) in H. congruence.
Qed.
Print Assumptions C63_injective.

(** Deserialization of arbitrary bytes never produces anything but a value of the
    type asked for. *)
Theorem C63_well_formed : forall t l v, Forall byte_ok l -> from_bytes t l = Some v -> typed t v.
Proof.
  intros t l v Hl. unfold from_bytes. destruct (de t l) as [[v' r]|] eqn:E; [|discriminate]. intros [= <-].
  apply (proj1 de_good_all t l v' r Hl E).
Qed.
Print Assumptions C63_well_formed.

(** ** C64 An incomplete message is never taken for a complete one *)

Theorem C64_cut : forall t v n, typed t v -> n < length (ser v) -> from_bytes t (firstn n (ser v)) = None.
Proof.
  intros t v n Hv Hn. unfold from_bytes. destruct (de t (firstn n (ser v))) as [[w r]|] eqn:E; [exfalso|reflexivity].
  pose proof (proj1 de_ext_all t _ _ _ (skipn n (ser v)) E) as H. rewrite firstn_skipn in H.
  pose proof (proj1 de_ser_all t v [] Hv) as H'. rewrite app_nil_r, H in H'. injection H' as _ H'.
  apply (f_equal (@length N)) in H'. rewrite app_length, skipn_length in H'. cbn in H'. lia.
Qed.
Print Assumptions C64_cut.

(** No message is the beginning of another of the same type. *)
Theorem C64_prefix_free : forall t v w rest, typed t v -> typed t w -> ser w = ser v ++ rest -> v = w /\ rest = [].
Proof.
  intros t v w rest Hv Hw E. pose proof (proj1 de_ser_all t v rest Hv) as H. pose proof (proj1 de_ser_all t w [] Hw) as H'.
  rewrite app_nil_r, E, H in H'. injection H' as <- <-. auto.
Qed.
Print Assumptions C64_prefix_free.

(** The same holds of the library's own messages. *)
Theorem C64_standard_cut :
  (forall e n, error_ok e -> n < length (ser (error_value e)) -> from_bytes_error (firstn n (ser (error_value e))) = None) /\
  (forall t n, totals_ok t -> n < length (ser (totals_value t)) -> from_bytes_totals (firstn n (ser (totals_value t))) = None) /\
  (forall d n, sd_ok d -> n < length (ser (schema_value d)) -> from_bytes_schema (firstn n (ser (schema_value d))) = None).
Proof.
  split; [|split].
  - intros e n He Hn. unfold from_bytes_error. rewrite C64_cut; auto. apply error_typed. auto.
  - intros e n He Hn. unfold from_bytes_totals. rewrite C64_cut; auto. apply totals_typed. auto.
  - intros d n Hd Hn. unfold from_bytes_schema. destruct (de_schema_data (firstn n (ser (schema_value d)))) as [[w r]|] eqn:E; [exfalso|reflexivity].
    pose proof (ext2_schema _ _ _ (skipn n (ser (schema_value d))) E) as H. rewrite firstn_skipn in H.
    pose proof (de_schema_ser d [] Hd) as H'. rewrite app_nil_r, H in H'. injection H' as _ H'.
    apply (f_equal (@length N)) in H'. rewrite app_length, skipn_length in H'. cbn in H'. lia.
Qed.
Print Assumptions C64_standard_cut.

(** ** C65 The library's own messages arrive as they were sent *)

Theorem C65_standard_round_trip :
  (forall e rest, error_ok e -> from_bytes_error (ser (error_value e) ++ rest) = Some e) /\
  (forall t rest, totals_ok t -> from_bytes_totals (ser (totals_value t) ++ rest) = Some t) /\
  (forall d rest, sd_ok d -> from_bytes_schema (ser (schema_value d) ++ rest) = Some d).
Proof.
  split; [|split].
  - intros e rest He. unfold from_bytes_error. destruct (error_typed e He) as [H1 H2]. rewrite C63_round_trip by auto. exact H2.
  - intros e rest He. unfold from_bytes_totals. destruct (totals_typed e He) as [H1 H2]. rewrite C63_round_trip by auto. exact H2.
  - intros d rest Hd. unfold from_bytes_schema. rewrite de_schema_ser by auto. reflexivity.
Qed.
Print Assumptions C65_standard_round_trip.

(** Examples: a structure with every kind of component. *)
Definition c_type : NamedType :=
  NT [83]%N (DStruct [([97]%N, NT [] (DPrim PU32)); ([98]%N, NT [] (DOption (NT [] (DSeq (NT [] (DTuple [NT [] (DPrim PI16); NT [] (DPrim PString)]))))));
                      ([99]%N, NT [] (DEnum [([65]%N, VUnit); ([66]%N, VStruct [([120]%N, NT [] (DPrim PChar)); ([121]%N, NT [] (DMap (NT [] (DPrim PU8)) (NT [] (DPrim PF32))))])]))]).
Definition c_value : value :=
  VTup [VUInt W32 300; VSome (VSeq [VTup [VSInt W16 (-3); VString [104; 195; 169]]]); VEnum 1 (VTup [VChar 8364; VMap [(VU8 7, VF32 1065353216)]])]%N.
Example C63_ex : typed c_type c_value /\
  ser c_value = [172; 2; 1; 1; 5; 3; 104; 195; 169; 1; 3; 226; 130; 172; 1; 7; 0; 0; 128; 63]%N /\
  from_bytes c_type (ser c_value) = Some c_value /\ from_bytes c_type (firstn 19 (ser c_value)) = None.
Proof.
  split; [|vm_compute; auto]. cbn. unfold uint_ok, sint_ok, len_ok. cbn.
  repeat match goal with |- _ /\ _ => split | |- Forall _ _ => constructor end; cbn; auto; try reflexivity; try discriminate.
  all: repeat split; auto; try (apply utf8_ok_text; reflexivity); try (apply scalar_iff; reflexivity); try reflexivity; try discriminate.
  repeat constructor.
Qed.

(** The schema of that type travels as well. *)
Example C65_ex : sd_ok (SDType c_type) /\ from_bytes_schema (ser (schema_value (SDType c_type))) = Some (SDType c_type) /\
  error_ok (FrameTooLong 70000 1024) /\ ser (error_value (FrameTooLong 70000 1024)) = [0; 240; 162; 4; 128; 8]%N /\
  from_bytes_error [0; 240; 162; 4; 128; 8]%N = Some (FrameTooLong 70000 1024).
Proof.
  split; [|split; [vm_compute; reflexivity|split; [split; reflexivity|vm_compute; auto]]].
  cbn. unfold name_ok, len_ok. cbn. repeat split; apply utf8_ok_text; reflexivity.
Qed.
