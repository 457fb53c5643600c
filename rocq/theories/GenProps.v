(** Properties C66-C72: the generated data types. *)
From Verif Require Import Base BitLemmas EncModel EncSpec EncWriteProofs EncReadProofs EncProps BlsModel BlsSpec BlsProofs BlsProps GenModel GenSpec GenLenProofs GenSizeProofs GenWriteProofs GenReadProofs GenDecProofs DataTypes.
Ltac Zify.zify_post_hook ::= Z.div_mod_to_equations.

(** the bits in the bytes are these, with zeros behind *)
Definition bytes_hold (bytes : list N) (bits : list bool) : Prop := bytes_ok bytes /\ forall i, stream_bit bytes i = nth i bits false.
(** The frontend can calculate the lengths of the type (otherwise it panics and there is no code). *)
Definition compiles (m : message) : Prop := wf m = true /\ exists n, bls_max_value (bit_length m) = Ok n.
(** what delimiter headers can express *)
Definition short (bits : list bool) : Prop := N.of_nat (length bits) < 8 * (2 ^ 32 - 1).

(** ** Types for the examples *)
Definition u8t : rtype message := TScalar (SPrimitive (PUInt 8)).
Definition boolt : rtype message := TScalar (SPrimitive PBool).
(** a union with an array of sealed structs, a string and a delimited struct; a struct with padding and a bit array *)
Definition inner_t := Message true (KStruct [MData (TScalar (SPrimitive (PInt 16))); MData (TVariable (SPrimitive PByte) 255)]).
Definition union_t := Message false (KUnion [TFixed (SComposite health_t) 3; TVariable (SPrimitive PUtf8) 20; TScalar (SComposite inner_t); TScalar (SPrimitive PFloat32)]).
Definition mixed_t := Message true (KStruct [MData (TScalar (SComposite union_t)); MPadding 4; MData (TFixed (SPrimitive PBool) 11); MData (TScalar (SPrimitive (PInt 5))); MData (TVariable (SPrimitive (PUInt 17)) 300)]).
Definition heartbeat_v := VStruct [VUnsigned 70000; VStruct [VUnsigned 2]; VStruct [VUnsigned 5]; VUnsigned 9].
Definition mixed_v := VStruct [VUnion 2 (VStruct [VSigned (-3); VArray [VUnsigned 200; VUnsigned 4]]); VBits [true; false; true; true; false; false; true; false; true; true; true]; VSigned 9; VArray [VUnsigned 70001; VUnsigned 3]].
Ltac compiled := split; [vm_compute; reflexivity|eexists; vm_compute; reflexivity].
Example heartbeat_compiles : compiles heartbeat_t. Proof. compiled. Qed.
Example mixed_compiles : compiles mixed_t. Proof. compiled. Qed.

(** * C66 *)

(** With a buffer that is large enough, [serialize] does not panic and leaves the encoding of the value in it, with zeros behind. *)
Theorem C66_encoding_partial : forall m v buffer, compiles m -> good m = true -> fits m v = true -> short (enc m v) ->
  (length (enc m v) <= 8 * length buffer)%nat ->
  exists bytes, serialize_to_bytes m v buffer = Ok bytes /\ length bytes = length buffer /\ bytes_hold bytes (enc m v).
Proof.
  intros m v buffer (W & E) G F S L. pose proof (frontend_ok m W E) as B. destruct (serialize_right m W B G v F S) as (P & O).
  assert (LC : (length (content m v) <= length (enc m v))%nat) by (rewrite enc_content; unfold pad_to_byte; rewrite app_length; lia).
  destruct (C38_space buffer _ O ltac:(rewrite P; lia)) as (c & Ec). destruct (C38_pack buffer _ c O Ec) as (H1 & H2 & _ & H4 & _). rewrite P in H4. unfold serialize_to_bytes. rewrite Ec. cbn [bind].
  eexists. split; [reflexivity|]. split; [assumption|]. split; [assumption|]. intro i. rewrite H4, enc_content. unfold pad_to_byte. destruct (Nat.ltb_spec i (length (content m v))) as [Hi|Hi].
  - symmetry. apply app_nth1, Hi.
  - rewrite (nth_overflow _ _ Hi), app_nth2 by lia. unfold pad8. symmetry. apply nth_repeat.
Qed.
Print Assumptions C66_encoding_partial.
Example C66_witness : good heartbeat_t = true /\ fits heartbeat_t heartbeat_v = true /\ length (enc heartbeat_t heartbeat_v) = 56%nat /\
  serialize_to_bytes heartbeat_t heartbeat_v [255; 255; 255; 255; 255; 255; 255; 255] = Ok [112; 17; 1; 0; 2; 5; 9; 0] /\
  good mixed_t = true /\ fits mixed_t mixed_v = true /\ length (enc mixed_t mixed_v) = 152%nat /\
  serialize_to_bytes mixed_t mixed_v (repeat 7 19) = Ok [2; 5; 0; 0; 0; 253; 255; 2; 200; 4; 208; 244; 36; 0; 16; 23; 113; 0; 0] /\
  supports_zero_copy heartbeat_t = false /\ supports_zero_copy (Message false (KStruct [MData u8t; MData (TFixed (SPrimitive (PInt 16)) 2)])) = true.
Proof. vm_compute. repeat split. Qed.

(** The code violates it: the length of an array of composites that is not byte-aligned is written in front of the alignment
    padding, where the next field is not where the specification puts it. *)
Definition unaligned_t := Message false (KStruct [MData boolt; MData (TVariable (SComposite health_t) 3)]).
Theorem C66_unaligned_refuted : exists m v buffer bytes, compiles m /\ fits m v = true /\ (length (enc m v) <= 8 * length buffer)%nat /\
  serialize_to_bytes m v buffer = Ok bytes /\ ~ bytes_hold bytes (enc m v).
Proof.
  exists unaligned_t, (VStruct [VBool true; VArray [VStruct [VUnsigned 3]]]), (repeat 0 3), [3; 0; 3]. split; [compiled|]. split; [vm_compute; reflexivity|]. split; [vm_compute; lia|]. split; [vm_compute; reflexivity|].
  intros (_ & H). specialize (H 1%nat). vm_compute in H. discriminate.
Qed.
Print Assumptions C66_unaligned_refuted.
(** A struct of bytes with a delimited struct of bytes in it is copied as it is in memory, without the delimiter header. *)
Definition zero_copy_t := Message false (KStruct [MData u8t; MData (TScalar (SComposite (Message true (KStruct [MData u8t]))))]).
Theorem C66_zero_copy_refuted : exists m v buffer bytes, compiles m /\ fits m v = true /\ (length (enc m v) <= 8 * length buffer)%nat /\
  serialize_to_bytes m v buffer = Ok bytes /\ ~ bytes_hold bytes (enc m v).
Proof.
  exists zero_copy_t, (VStruct [VUnsigned 1; VStruct [VUnsigned 2]]), (repeat 0 6), [1; 2; 0; 0; 0; 0]. split; [compiled|]. split; [vm_compute; reflexivity|]. split; [vm_compute; lia|]. split; [vm_compute; reflexivity|].
  intros (_ & H). specialize (H 8%nat). vm_compute in H. discriminate.
Qed.
Print Assumptions C66_zero_copy_refuted.
(** The tag of a union with 256 variants takes two bytes instead of one. *)
Definition wide_t := Message false (KUnion (repeat u8t 256)).
Theorem C66_tag_refuted : exists m v buffer bytes, compiles m /\ fits m v = true /\ (length (enc m v) <= 8 * length buffer)%nat /\
  serialize_to_bytes m v buffer = Ok bytes /\ ~ bytes_hold bytes (enc m v).
Proof.
  exists wide_t, (VUnion 1 (VUnsigned 2)), (repeat 0 3), [1; 0; 2]. split; [compiled|]. split; [vm_compute; reflexivity|]. split; [vm_compute; lia|]. split; [vm_compute; reflexivity|].
  intros (_ & H). specialize (H 9%nat). vm_compute in H. discriminate.
Qed.
Print Assumptions C66_tag_refuted.

(** * C67 *)

(** [size_bits], rounded up to whole bytes, is the length of the encoding, and a buffer of this size is enough for [serialize]. *)
Theorem C67_size_partial : forall m v, compiles m -> good m = true -> fits m v = true ->
  ((size_bits m v + 7) / 8 * 8 = length (enc m v))%nat.
Proof. intros m v (W & E) G F. pose proof (sizes_right m W (frontend_ok m W E) G v F) as H. unfold next_multiple_of in H. rewrite <- H. reflexivity. Qed.
Print Assumptions C67_size_partial.
Theorem C67_no_panic_partial : forall m v buffer, compiles m -> good m = true -> fits m v = true -> short (enc m v) ->
  length buffer = ((size_bits m v + 7) / 8)%nat -> serialize_to_bytes m v buffer <> Panic.
Proof.
  intros m v buffer C G F S L. pose proof (C67_size_partial m v C G F) as E. destruct (C66_encoding_partial m v buffer C G F S ltac:(lia)) as (b & -> & _). discriminate.
Qed.
Print Assumptions C67_no_panic_partial.
Example C67_witness : size_bits heartbeat_t heartbeat_v = 56%nat /\ ((size_bits mixed_t mixed_v + 7) / 8 = 19)%nat /\ fixed_size (bit_length mixed_t) = None.
Proof. vm_compute. repeat split. Qed.

(** The code violates it: the padding in front of composites is not counted, ... *)
Definition padding_t := Message false (KStruct [MData boolt; MData (TScalar (SComposite health_t)); MData boolt; MData (TScalar (SComposite health_t)); MData (TVariable (SPrimitive PByte) 3)]).
Theorem C67_padding_refuted : exists m v buffer, compiles m /\ fits m v = true /\ short (enc m v) /\
  length buffer = ((size_bits m v + 7) / 8)%nat /\ serialize_to_bytes m v buffer = Panic.
Proof.
  exists padding_t, (VStruct [VBool true; VStruct [VUnsigned 1]; VBool true; VStruct [VUnsigned 1]; VArray []]), (repeat 0 4). split; [compiled|]. split; [vm_compute; reflexivity|]. split; [vm_compute; reflexivity|]. split; vm_compute; reflexivity.
Qed.
Print Assumptions C67_padding_refuted.
(** ... nor are the delimiter headers of the elements of arrays, where the length is fixed. *)
Definition headers_t := Message false (KStruct [MData (TFixed (SComposite (Message true (KStruct [MData boolt]))) 2)]).
Theorem C67_headers_refuted : exists m v buffer, compiles m /\ fits m v = true /\ short (enc m v) /\
  length buffer = ((size_bits m v + 7) / 8)%nat /\ serialize_to_bytes m v buffer = Panic.
Proof.
  exists headers_t, (VStruct [VArray [VStruct [VBool true]; VStruct [VBool true]]]), (repeat 0 2). split; [compiled|]. split; [vm_compute; reflexivity|]. split; [vm_compute; reflexivity|]. split; vm_compute; reflexivity.
Qed.
Print Assumptions C67_headers_refuted.

(** * C68 *)

(** Whatever [serialize] wrote, [deserialize] reads back, also if more bytes follow. *)
Theorem C68_round_trip_partial : forall m v buffer bytes more, compiles m -> good m = true -> readable m = true -> kept m v = true ->
  length buffer = ((size_bits m v + 7) / 8)%nat -> short (enc m v) ->
  serialize_to_bytes m v buffer = Ok bytes -> bytes_ok more -> deserialize_from_bytes m (bytes ++ more) = Ok (DOk v).
Proof.
  intros m v buffer bytes more C G R K L S E M. pose proof (kept_fits m v K) as F. pose proof (C67_size_partial m v C G F) as Es. destruct (C66_encoding_partial m v buffer C G F S ltac:(lia)) as (b & E' & Lb & Hb & Hs).
  rewrite E' in E. injection E as <-. destruct C as (W & C). pose proof (frontend_ok m W C) as B.
  assert (LC : (length (content m v) <= length (enc m v))%nat) by (rewrite enc_content; unfold pad_to_byte; rewrite app_length; lia).
  assert (Hh : holds (b ++ more) 0 (content m v)).
  { split; [apply bytes_ok_app; split; assumption|]. split; [rewrite app_length; lia|]. intros i Hi. rewrite Nat.add_0_l. transitivity (stream_bit b i).
    - unfold stream_bit. rewrite app_nth1; [reflexivity|]. lia.
    - rewrite Hs, enc_content. unfold pad_to_byte. apply app_nth1, Hi. }
  pose proof (deserialize_right m W B G R v _ O K S eq_refl Hh) as Q. unfold reads in Q. unfold deserialize_from_bytes. change (rc_new (b ++ more)) with (rc_at (b ++ more) 0). rewrite Q. reflexivity.
Qed.
Print Assumptions C68_round_trip_partial.
Example C68_witness : readable heartbeat_t = true /\ kept heartbeat_t heartbeat_v = true /\ readable mixed_t = true /\ kept mixed_t mixed_v = true /\
  deserialize_from_bytes mixed_t [2; 5; 0; 0; 0; 253; 255; 2; 200; 4; 208; 244; 36; 0; 16; 23; 113; 0; 0; 77] = Ok (DOk mixed_v).
Proof. vm_compute. repeat split. Qed.

(** The code violates it: negative numbers of other widths than 8, 16, 32 and 64 bits come back positive, ... *)
Theorem C68_negative_refuted : exists m v bytes v', compiles m /\ good m = true /\ fits m v = true /\ serialize_to_bytes m v [0] = Ok bytes /\ deserialize_from_bytes m bytes = Ok (DOk v') /\ v' <> v.
Proof.
  exists (Message false (KStruct [MData (TScalar (SPrimitive (PInt 7)))])), (VStruct [VSigned (-1)]), [127], (VStruct [VSigned 127]). split; [compiled|]. repeat (split; [vm_compute; reflexivity|]). discriminate.
Qed.
Print Assumptions C68_negative_refuted.
(** ... what follows a variable-length array of 8 booleans is not found, ... *)
Theorem C68_bools_refuted : exists m v bytes v', compiles m /\ good m = true /\ fits m v = true /\ serialize_to_bytes m v [0; 0; 0] = Ok bytes /\ deserialize_from_bytes m bytes = Ok (DOk v') /\ v' <> v.
Proof.
  exists (Message false (KStruct [MData (TVariable (SPrimitive PBool) 16); MData u8t])), (VStruct [VBits (repeat true 8); VUnsigned 5]), [8; 255; 5], (VStruct [VBits (repeat true 8); VUnsigned 0]).
  split; [compiled|]. repeat (split; [vm_compute; reflexivity|]). discriminate.
Qed.
Print Assumptions C68_bools_refuted.
(** ... nor what follows a struct that ends with a byte of padding. *)
Theorem C68_padding_refuted : exists m v bytes v', compiles m /\ good m = true /\ fits m v = true /\ serialize_to_bytes m v [0; 0; 0] = Ok bytes /\ deserialize_from_bytes m bytes = Ok (DOk v') /\ v' <> v.
Proof.
  exists (Message false (KStruct [MData (TScalar (SComposite (Message false (KStruct [MData u8t; MPadding 8])))); MData u8t])), (VStruct [VStruct [VUnsigned 1]; VUnsigned 5]), [1; 0; 5], (VStruct [VStruct [VUnsigned 1]; VUnsigned 0]).
  split; [compiled|]. repeat (split; [vm_compute; reflexivity|]). discriminate.
Qed.
Print Assumptions C68_padding_refuted.

(** * C69 *)

(** [deserialize] does not panic, whatever the bytes, and returns a value of the Rust type, with arrays within their bounds. *)
Theorem C69_total_partial : forall m bytes, wf m = true -> safe m = true -> bytes_ok bytes ->
  exists r, deserialize_from_bytes m bytes = Ok r /\ forall v, r = DOk v -> stored m v = true.
Proof.
  intros m bytes W S B. destruct (dec_total_all m true W S ltac:(discriminate) bytes O bytes O (agree_same bytes O B) (fun _ => eq_refl)) as (r & n & E & _ & K).
  exists r. unfold deserialize_from_bytes. change (rc_new bytes) with (rc_at bytes 0). rewrite E. split; [reflexivity|]. intros v ->. exact K.
Qed.
Print Assumptions C69_total_partial.
Example C69_witness : safe mixed_t = true /\ deserialize_from_bytes mixed_t [2; 200; 0; 0; 0; 1] = Ok (DErr DelimitedLength) /\ deserialize_from_bytes mixed_t [9] = Ok (DErr UnionTag) /\
  deserialize_from_bytes heartbeat_t [] = Ok (DOk (VStruct [VUnsigned 0; VStruct [VUnsigned 0]; VStruct [VUnsigned 0]; VUnsigned 0])).
Proof. vm_compute. repeat split. Qed.

(** The code violates it: a received length of an array of booleans is not checked. *)
Definition bools_t := Message false (KStruct [MData (TVariable (SPrimitive PBool) 12)]).
Theorem C69_bools_refuted : exists m bytes, compiles m /\ good m = true /\ bytes_ok bytes /\ deserialize_from_bytes m bytes = Panic.
Proof. exists bools_t, [17; 255; 255; 255]. split; [compiled|]. split; [vm_compute; reflexivity|]. split; [repeat constructor|]. vm_compute. reflexivity. Qed.
Print Assumptions C69_bools_refuted.
Theorem C69_bools_bound_refuted : exists m bytes v, compiles m /\ good m = true /\ bytes_ok bytes /\ deserialize_from_bytes m bytes = Ok (DOk v) /\ stored m v = false.
Proof. exists bools_t, [13; 255; 255], (VStruct [VBits (repeat true 13)]). split; [compiled|]. split; [vm_compute; reflexivity|]. split; [repeat constructor|]. vm_compute. split; reflexivity. Qed.
Print Assumptions C69_bools_bound_refuted.

(** * C70 *)

(** padding and fields of fixed width, and their number of bits *)
Definition plain (f : member message) : bool := match f with MPadding _ | MData (TScalar (SPrimitive _)) => true | _ => false end.
Definition plain_bits (f : member message) : nat := match f with MPadding bits => bits | MData (TScalar (SPrimitive p)) => prim_bits p | _ => O end.
Lemma read_plain bs : bytes_ok bs -> forall before rest, forallb plain before = true -> Forall (fun f => member_wf wf f = true) before ->
  forall e, (forall p pl, exists c, read_members deserialize pl rest (rc_at bs p) = (if (p + sum pl =? e)%nat then Ok (DErr ArrayLength, c) else read_members deserialize pl rest (rc_at bs p))) ->
  forall p pl, (p + sum pl + sum (map plain_bits before) = e)%nat -> exists c, read_members deserialize pl (before ++ rest) (rc_at bs p) = Ok (DErr ArrayLength, c).
Proof.
  intro Hb. induction before as [|f before IH]; intros rest P W e H p pl E.
  - cbn [app]. destruct (H p pl) as (c & Hc). cbn [map sum fold_right] in E. rewrite (proj2 (Nat.eqb_eq (p + sum pl) e)) in Hc by lia. exists c. exact Hc.
  - cbn [forallb] in P. apply andb_true_iff in P as (P1 & P2). inversion W as [|? ? W1 W2]; subst. cbn [map sum fold_right] in *. fold (sum (map plain_bits before)) in *. destruct f as [bits|[ [m|pr]|s n|s n] ]; try discriminate; cbn [app read_members].
    + apply (IH rest P2 W2 _ H). rewrite sum_app. cbn [plain_bits sum fold_right]. lia.
    + rewrite skip_at. cbn [read_type read_scalar plain_bits] in *.
      assert (T : exists v, read_prim pr (rc_at bs (p + sum pl)) = Ok (DOk v, rc_at bs (p + sum pl + prim_bits pr))).
      { pose proof (prim_wf_bits pr W1) as Bt. destruct pr; cbn [read_prim prim_bits] in *; unfold dbind, lift, dret; rewrite ?read_bool_at, ?read_u_at by (assumption || lia); cbn [bind fst snd]; eexists; reflexivity. }
      destruct T as (v & T). unfold dbind at 1. rewrite T. cbn [bind fst snd]. destruct (IH rest P2 W2 _ H (p + sum pl + prim_bits pr)%nat [] ltac:(cbn [sum fold_right]; lia)) as (c & Hc). exists c. unfold dbind. rewrite Hc. reflexivity.
Qed.
(** A length above the capacity is rejected: in a struct with a variable-length array behind fields of fixed width. *)
Theorem C70_length_partial : forall d before s n after bytes, let m := Message d (KStruct (before ++ MData (TVariable s n) :: after)) in
  wf m = true -> forallb plain before = true -> s <> SPrimitive PBool -> n < 2 ^ 16 -> bytes_ok bytes ->
  n < field bytes (sum (map plain_bits before)) (prefix_bits n) -> deserialize_from_bytes m bytes = Ok (DErr ArrayLength).
Proof.
  intros d before s n after bytes m W P Hs Hn B Hf. unfold deserialize_from_bytes, m. cbn [deserialize].
  assert (Z : supports_zero_copy (Message d (KStruct (before ++ MData (TVariable s n) :: after))) = false).
  { cbn [supports_zero_copy]. destruct (fixed_size _); [|reflexivity]. clear. induction before as [|f before IH]; cbn [app members_zero_copy]; [reflexivity|]. destruct f; [reflexivity|]. rewrite IH. apply andb_false_r. }
  rewrite Z. pose proof (wf_struct _ _ W) as Wf. apply Forall_app in Wf as (W1 & W2). inversion W2 as [|? ? W3 W4]; subst. clear Z W W2.
  assert (K : exists c, read_members deserialize [] (before ++ MData (TVariable s n) :: after) (rc_at bytes 0) = Ok (DErr ArrayLength, c)).
  { apply (read_plain bytes B before _ P W1 (sum (map plain_bits before))); [|cbn [sum fold_right]; lia]. intros p pl. destruct (Nat.eqb_spec (p + sum pl) (sum (map plain_bits before))) as [E|E]; [|exists (rc_at bytes 0); reflexivity].
    cbn [read_members]. rewrite skip_at, E. unfold dbind at 1. pose proof (variable_wf _ _ _ W3) as W64.
    assert (EW : N.to_nat (array_length_bits n) = prefix_bits n) by (rewrite array_length_bits_prefix by assumption; apply Nat2N.id).
    assert (PB : (prefix_bits n = 8 \/ prefix_bits n = 16)%nat) by (unfold prefix_bits; destruct (n <? 2 ^ 8); [left; reflexivity|]; rewrite (proj2 (N.ltb_lt _ _) Hn); right; reflexivity).
    set (q := sum (map plain_bits before)) in *. set (f := field bytes q (prefix_bits n)) in *.
    assert (Fb : f < 2 ^ 16) by (pose proof (field_bound bytes q (prefix_bits n)) as X; fold f in X; destruct PB as [PB|PB]; rewrite PB in X; [change (2 ^ N.of_nat 8) with 256 in X; change (2 ^ 16) with 65536; lia|exact X]).
    assert (R : read_type deserialize (TVariable s n) (rc_at bytes q) = Ok (DErr ArrayLength, rc_at bytes (q + prefix_bits n))).
    { destruct s as [m'|[] ]; try congruence; cbn [read_type]; unfold dbind at 1, lift at 1; rewrite EW, read_u_at by (assumption || lia); cbn [bind fst snd]; fold f; rewrite as_i32_small by (change (2 ^ 16) with 65536 in Fb; lia); rewrite (proj2 (Z.leb_gt _ _)) by lia; reflexivity. }
    rewrite R. cbn [bind fst snd]. eexists. reflexivity. }
  destruct K as (c & K). unfold dbind. change (rc_new bytes) with (rc_at bytes 0). rewrite K. reflexivity.
Qed.
Print Assumptions C70_length_partial.
(** A tag that stands for no variant is rejected. *)
Theorem C70_tag_partial : forall d ts bytes, let m := Message d (KUnion ts) in
  wf m = true -> tag_right ts = true -> bytes_ok bytes -> N.of_nat (length ts) <= field bytes 0 (prefix_bits (N.of_nat (length ts) - 1)) ->
  deserialize_from_bytes m bytes = Ok (DErr UnionTag).
Proof.
  intros d ts bytes m W T B Hf. unfold deserialize_from_bytes, m. cbn [deserialize]. pose proof (tag_ok_intro d _ W T) as Tk. unfold tag_ok in Tk. rewrite Tk, Nat2N.id. set (b := prefix_bits (N.of_nat (length ts) - 1)) in *.
  unfold dbind at 1, lift at 1. change (rc_new bytes) with (rc_at bytes 0). rewrite call_read_aligned_at by (assumption || reflexivity || apply prefix_bits_cases). cbn [bind fst snd]. set (f := field bytes 0 b) in *.
  destruct (Z.ltb_spec (as_i32 f) 0) as [X|X]; [reflexivity|]. rewrite pick_cases. apply wf_union in W as (W1 & W2 & _).
  assert (PB : (b = 8 \/ b = 16 \/ b = 32)%nat).
  { pose proof (prefix_bits_cases (N.of_nat (length ts) - 1)) as PB. fold b in PB. assert (b <> 64)%nat; [|tauto]. unfold b, prefix_bits. destruct (_ <? 2 ^ 8); [discriminate|]. destruct (_ <? 2 ^ 16); [discriminate|]. rewrite (proj2 (N.ltb_lt _ _)); [discriminate|]. change (2 ^ 31) with 2147483648 in W2. change (2 ^ 32) with 4294967296. lia. }
  assert (Fb : f < 2 ^ 32).
  { pose proof (field_bound bytes 0 b) as Y. fold f in Y. destruct PB as [PB|[PB|PB] ]; rewrite PB in Y; [change (2 ^ N.of_nat 8) with 256 in Y; change (2 ^ 32) with 4294967296; lia|change (2 ^ N.of_nat 16) with 65536 in Y; change (2 ^ 32) with 4294967296; lia|exact Y]. }
  assert (Ef : as_i32 f = Z.of_N f). { unfold as_i32 in *. cbv zeta in *. rewrite N.mod_small in * by assumption. destruct (N.ltb_spec f (2 ^ 31)); [reflexivity|]. exfalso. change (2 ^ 32) with 4294967296 in Fb. change (2 ^ 32)%Z with 4294967296%Z in X. lia. }
  rewrite (proj2 (nth_error_None ts _)); [reflexivity|]. rewrite Ef. lia.
Qed.
Print Assumptions C70_tag_partial.
Definition list_t := Message false (KStruct [MData (TScalar (SPrimitive (PUInt 3))); MPadding 2; MData (TVariable (SPrimitive (PUInt 12)) 4); MData u8t]).
Example C70_witness : wf list_t = true /\ deserialize_from_bytes list_t [128; 0] = Ok (DOk (VStruct [VUnsigned 0; VArray (repeat (VUnsigned 0) 4); VUnsigned 0])) /\ deserialize_from_bytes list_t [160; 0] = Ok (DErr ArrayLength) /\
  tag_right [u8t; boolt] = true /\ deserialize_from_bytes (Message true (KUnion [u8t; boolt])) [2] = Ok (DErr UnionTag).
Proof. vm_compute. repeat split. Qed.
(** The code violates it: the length of an array of booleans is accepted above the bound ([C69_bools_bound_refuted]), and a length
    of 2^31 and more is taken as a negative number where the length prefix has 32 bits. *)
Theorem C70_negative_refuted : exists m bytes v, compiles m /\ good m = true /\ bytes_ok bytes /\ 70000 < field bytes 0 32 /\
  m = Message false (KStruct [MData (TVariable (SPrimitive PByte) 70000)]) /\ deserialize_from_bytes m bytes = Ok (DOk v).
Proof.
  exists (Message false (KStruct [MData (TVariable (SPrimitive PByte) 70000)])), [0; 0; 0; 128], (VStruct [VArray []]). split; [compiled|]. split; [vm_compute; reflexivity|]. split; [repeat constructor|]. split; [vm_compute; reflexivity|]. split; [reflexivity|]. vm_compute. reflexivity.
Qed.
Print Assumptions C70_negative_refuted.

(** * C71 *)

(** The length of every encoding is in the calculated set of bit lengths, between its minimum and its maximum. *)
Theorem C71_lengths_partial : forall m v, compiles m -> counted m = true -> fits m v = true ->
  den (bit_length m) (N.of_nat (length (enc m v))) /\
  exists lo hi, bls_min_value (bit_length m) = Ok lo /\ bls_max_value (bit_length m) = Ok hi /\ lo <= N.of_nat (length (enc m v)) <= hi.
Proof.
  intros m v (W & E) C F. pose proof (lengths_in_set m W C v F) as D. split; [exact D|]. pose proof (frontend_ok m W E) as B. destruct (C42_bounds _ B) as (lo & hi & E1 & E2 & _ & _ & H). exists lo, hi. split; [assumption|]. split; [assumption|]. apply H, D.
Qed.
Print Assumptions C71_lengths_partial.
Definition counted_t := Message true (KStruct [MData (TScalar (SComposite inner_t)); MPadding 4; MData (TVariable (SComposite health_t) 3)]).
Example C71_witness : compiles counted_t /\ counted counted_t = true /\ counted heartbeat_t = true /\ fits counted_t (VStruct [VStruct [VSigned 5; VArray [VUnsigned 1]]; VArray [VStruct [VUnsigned 1]; VStruct [VUnsigned 3]]]) = true /\
  bls_min_value (bit_length counted_t) = Ok 72 /\ bls_max_value (bit_length counted_t) = Ok 2136.
Proof. split; [compiled|]. vm_compute. repeat split. Qed.
(** The code violates it: delimiter headers in arrays and unions, and length prefixes in unions, are not counted. *)
Theorem C71_headers_refuted : exists m v, compiles m /\ fits m v = true /\ ~ den (bit_length m) (N.of_nat (length (enc m v))).
Proof.
  exists headers_t, (VStruct [VArray [VStruct [VBool true]; VStruct [VBool true]]]). split; [compiled|]. split; [vm_compute; reflexivity|]. intro D.
  assert (C : compiles headers_t) by compiled. destruct C as (W & C). destruct (C42_bounds _ (frontend_ok _ W C)) as (lo & hi & _ & E2 & _ & _ & H). apply H in D.
  assert (E : bls_max_value (bit_length headers_t) = Ok 16) by (vm_compute; reflexivity). rewrite E in E2. injection E2 as <-. replace (length (enc _ _)) with 80%nat in D by (vm_compute; reflexivity). lia.
Qed.
Print Assumptions C71_headers_refuted.
Theorem C71_union_refuted : exists m v, compiles m /\ fits m v = true /\ ~ den (bit_length m) (N.of_nat (length (enc m v))).
Proof.
  exists (Message false (KUnion [u8t; TVariable (SPrimitive PByte) 2])), (VUnion 1 (VArray [VUnsigned 1; VUnsigned 2])). split; [compiled|]. split; [vm_compute; reflexivity|]. intro D.
  assert (C : compiles (Message false (KUnion [u8t; TVariable (SPrimitive PByte) 2]))) by compiled. destruct C as (W & C). destruct (C42_bounds _ (frontend_ok _ W C)) as (lo & hi & _ & E2 & _ & _ & H). apply H in D.
  assert (E : bls_max_value (bit_length (Message false (KUnion [u8t; TVariable (SPrimitive PByte) 2]))) = Ok 24) by (vm_compute; reflexivity). rewrite E in E2. injection E2 as <-. replace (length (enc _ _)) with 32%nat in D by (vm_compute; reflexivity). lia.
Qed.
Print Assumptions C71_union_refuted.

(** * C72 *)

(** Zero extension: bytes that are missing at the end are read as zeros (types with no delimited types inside). *)
Theorem C72_zero_extension_partial : forall m bytes zeros, wf m = true -> safe m = true -> sealed_inside m = true -> bytes_ok bytes ->
  deserialize_from_bytes m (bytes ++ repeat 0 zeros) = deserialize_from_bytes m bytes.
Proof.
  intros m bytes zeros W S I B. assert (Bz : bytes_ok (repeat 0 zeros)) by (apply Forall_forall; intros x Hx; apply repeat_spec in Hx; subst; reflexivity).
  assert (A : agree false (bytes ++ repeat 0 zeros) 0 bytes 0).
  { split; [apply bytes_ok_app; split; assumption|]. split; [assumption|]. split; [reflexivity|]. split; [|discriminate]. intro i. rewrite !Nat.add_0_l. unfold stream_bit. f_equal.
    destruct (Nat.ltb_spec (i / 8) (length bytes)) as [H|H]; [apply app_nth1, H|]. rewrite app_nth2, (nth_overflow _ _ H) by assumption. apply nth_repeat. }
  destruct (dec_total_all m false W S (fun _ => I) _ _ _ _ A (fun _ => eq_refl)) as (r & n & E1 & E2 & _). unfold deserialize_from_bytes. change (rc_new ?b) with (rc_at b 0). rewrite E1, E2. reflexivity.
Qed.
Print Assumptions C72_zero_extension_partial.
Example C72_witness : sealed_inside heartbeat_t = true /\ safe heartbeat_t = true /\ sealed_inside list_t = true /\ safe list_t = true /\
  deserialize_from_bytes list_t [65; 64] = Ok (DOk (VStruct [VUnsigned 1; VArray [VUnsigned 2; VUnsigned 0]; VUnsigned 0])) /\ deserialize_from_bytes list_t [65; 64; 0] = deserialize_from_bytes list_t [65; 64].
Proof. vm_compute. repeat split. Qed.
(** With a delimited type inside: missing bytes are an error. *)
Theorem C72_delimited_refuted : exists m bytes v, compiles m /\ good m = true /\ bytes_ok bytes /\
  deserialize_from_bytes m bytes = Ok (DErr DelimitedLength) /\ deserialize_from_bytes m (bytes ++ [0]) = Ok (DOk v).
Proof.
  exists (Message false (KStruct [MData (TScalar (SComposite inner_t))])), [3; 0; 0; 0; 5; 0], (VStruct [VStruct [VSigned 5; VArray []]]). split; [compiled|]. split; [vm_compute; reflexivity|]. split; [repeat constructor|]. vm_compute. split; reflexivity.
Qed.
Print Assumptions C72_delimited_refuted.
