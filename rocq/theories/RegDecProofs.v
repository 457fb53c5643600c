(** Decoding access requests. *)
From Verif Require Import Base BitLemmas CoreModel NodeModel NodeSpec EncModel EncSpec EncWriteProofs EncReadProofs EncProps BlsModel BlsSpec GenModel GenSpec GenLenProofs GenSizeProofs GenWriteProofs GenReadProofs GenDecProofs GenProps GenBoundProofs DataTypes BasicModel BasicSpec BasicProofs RegModel RegSpec RegProofs.
Ltac Zify.zify_post_hook ::= Z.div_mod_to_equations.

Lemma read_bytes_at b : bytes_ok b -> forall n p, read_times (read_prim (PUInt 8)) n (rc_at b p) = Ok (DOk (map (fun i => VUnsigned (field b (p + 8 * i) 8)) (seq 0 n)), rc_at b (p + 8 * n)).
Proof.
  intro B. induction n as [|n IH]; intro p; cbn [read_times].
  - unfold dret. rewrite Nat.mul_0_r, Nat.add_0_r. reflexivity.
  - unfold dbind, lift, dret. cbn [read_prim prim_bits]. unfold dbind, lift, dret. rewrite read_u_at by (assumption || lia). cbn [bind fst snd]. rewrite IH. cbn [bind fst snd].
    cbn [seq map]. rewrite Nat.mul_0_r, Nat.add_0_r. rewrite <- seq_shift, map_map. replace (p + 8 + 8 * n)%nat with (p + 8 * S n)%nat by lia.
    replace (map (fun i => VUnsigned (field b (p + 8 * S i) 8)) (seq 0 n)) with (map (fun i => VUnsigned (field b (p + 8 + 8 * i) 8)) (seq 0 n)); [reflexivity|].
    apply map_ext. intro i. replace (p + 8 * S i)%nat with (p + 8 + 8 * i)%nat by lia. reflexivity.
Qed.
Lemma as_i32_byte n : n < 256 -> as_i32 n = Z.of_N n.
Proof. intro H. apply as_i32_small. change (2 ^ 31) with 2147483648. lia. Qed.
Lemma array_deserialize p n : supports_zero_copy (array_t p n) = false -> deserialize (array_t p n) = dbind (read_members deserialize [] [MData (TVariable (SPrimitive p) n)]) (fun vs => dret (VStruct vs)).
Proof. intro H. unfold array_t in *. cbn [deserialize]. rewrite H. reflexivity. Qed.
Lemma array_zero_copy p n : supports_zero_copy (array_t p n) = false.
Proof. unfold array_t. cbn [supports_zero_copy]. destruct (fixed_size _); reflexivity. Qed.
Lemma decode_name b p : bytes_ok b -> deserialize name_t (rc_at b p) =
  Ok (DOk (VStruct [VArray (map (fun i => VUnsigned (field b (p + 8 + 8 * i) 8)) (seq 0 (N.to_nat (field b p 8))))]), rc_at b (p + 8 + 8 * N.to_nat (field b p 8))).
Proof.
  intro B. unfold name_t. rewrite array_deserialize by apply array_zero_copy. cbn [read_members read_type fold_left]. change (N.to_nat (array_length_bits 255)) with 8%nat.
  pose proof (field_bound b p 8) as Hb. change (2 ^ N.of_nat 8) with 256 in Hb. unfold dbind, lift, dret. rewrite read_u_at by (assumption || lia). cbn [bind fst snd]. rewrite as_i32_byte by assumption. rewrite (proj2 (Z.leb_le _ _)) by lia.
  replace (Z.to_nat (Z.of_N (field b p 8))) with (N.to_nat (field b p 8)) by lia. change (read_scalar deserialize (SPrimitive (PUInt 8))) with (read_prim (PUInt 8)). rewrite read_bytes_at by assumption. cbn [bind fst snd]. reflexivity.
Qed.
Lemma access_deserialize : deserialize access_request_t = dbind (read_members deserialize [] [MData (TScalar (SComposite name_t)); MData (TScalar (SComposite value_t))]) (fun vs => dret (VStruct vs)).
Proof.
  assert (Z : supports_zero_copy access_request_t = false) by (vm_compute; reflexivity). unfold access_request_t in *. cbn [deserialize]. rewrite Z. reflexivity.
Qed.
Lemma field_16 b p : bytes_ok b -> (p mod 8 = 0)%nat -> field b p 16 = nth (p / 8) b 0 + 256 * nth (p / 8 + 1) b 0.
Proof.
  intros B P. change 16%nat with (8 + 8)%nat. rewrite field_app, !field_byte by (assumption || lia). replace ((p + 8) / 8)%nat with (p / 8 + 1)%nat by lia.
  assert (H : nth (p / 8) b 0 < 256) by (apply nth_ok, B). change (N.of_nat 8) with 8. rewrite lor_shiftl_add by exact H. change (2 ^ 8) with 256. lia.
Qed.

Lemma integral_stored p v : match p with PInt b => round_up_integer_size b = b | _ => True end -> prim_stored p v = true -> prim_fits p v = true.
Proof. destruct p, v; cbn [prim_stored]; intros E H; rewrite ?E in H; exact H. Qed.
Lemma array_stored_fits p n v : p <> PBool -> match p with PInt b => round_up_integer_size b = b | _ => True end -> stored (array_t p n) v = true -> fits (array_t p n) v = true.
Proof.
  intros Hp Hi H. assert (K : forall x, prim_stored p x = true -> prim_fits p x = true) by (intro x; apply integral_stored, Hi).
  unfold stored, fits, array_t in *. destruct v as [| | | | |vs|]; try discriminate H. cbn [fits_gen members_fit] in *. destruct vs as [|v [|? ?] ]; try discriminate H; [|rewrite andb_false_r in H; discriminate H].
  rewrite andb_true_r in *. destruct v as [| | | |vs| |]; try (destruct p; try discriminate H; congruence).
  assert (H' : (N.of_nat (length vs) <=? n) && forallb (scalar_fits prim_stored stored (SPrimitive p)) vs = true) by (destruct p; try exact H; congruence).
  assert (X : (N.of_nat (length vs) <=? n) && forallb (scalar_fits prim_fits fits (SPrimitive p)) vs = true).
  { apply andb_true_iff in H' as (H1 & H2). apply andb_true_iff. split; [exact H1|]. apply forallb_forall. intros x Hx. apply K. exact (proj1 (forallb_forall _ _) H2 x Hx). }
  destruct p; try exact X. congruence.
Qed.
Lemma variant_shape t m : nth_error value_variants t = Some m -> t <> 3%nat -> wf m = true /\ safe m = true /\ delimited m = false /\ forall v, stored m v = true -> fits m v = true.
Proof.
  intros E N.
  assert (A : forall p n, p <> PBool -> match p with PInt b => round_up_integer_size b = b | _ => True end -> wf (array_t p n) = true -> wf (array_t p n) = true /\ safe (array_t p n) = true /\ delimited (array_t p n) = false /\ forall v, stored (array_t p n) v = true -> fits (array_t p n) v = true).
  { intros p n Hp Hi W. split; [exact W|]. split; [destruct p; try reflexivity; congruence|]. split; [reflexivity|]. intro v. apply array_stored_fits; assumption. }
  destruct t as [|[|[|[|t] ] ] ]; [injection E as <-..|].
  - split; [reflexivity|]. split; [reflexivity|]. split; [reflexivity|]. intros v H. exact H.
  - apply A; [discriminate|exact I|vm_compute; reflexivity].
  - apply A; [discriminate|exact I|vm_compute; reflexivity].
  - congruence.
  - destruct t as [|[|[|[|[|[|[|[|[|[|[|t] ] ] ] ] ] ] ] ] ] ]; [injection E as <-; apply A; [discriminate|try exact I; reflexivity|vm_compute; reflexivity]..|]. destruct t; discriminate E.
Qed.
Lemma read_bits_panic BYTES len c : (8 * BYTES < len)%nat -> read_bit_array BYTES len c = Panic.
Proof.
  intro L. unfold read_bit_array, dbind, lift, ba_deserialize. rewrite (proj2 (proj1 (C60_new_fill BYTES len))) by lia. reflexivity.
Qed.
Definition oversized_at (b : list N) (q : nat) : Prop := nth q b 0 = 3 /\ 2048 < nth (q + 1) b 0 + 256 * nth (q + 2) b 0.
Lemma decode_value b q : bytes_ok b ->
  (oversized_at b q /\ deserialize value_t (rc_at b (8 * q)) = Panic) \/
  (~ oversized_at b q /\ exists r n, deserialize value_t (rc_at b (8 * q)) = Ok (r, rc_at b (8 * q + n)) /\
     match r with DOk v => exists v', v = VUnion (N.to_nat (nth q b 0)) v' /\ fits value_t v = true | DErr _ => True end).
Proof.
  intro B. unfold value_t at 1 2. cbn [deserialize]. change (N.to_nat (discriminant_bits (length (map (fun m => TScalar (SComposite m)) value_variants)))) with 8%nat.
  unfold dbind, lift. rewrite call_read_aligned_at by (assumption || lia). cbn [bind fst snd]. rewrite field_byte by (assumption || lia). replace (8 * q / 8)%nat with q by lia.
  set (t := nth q b 0) in *. assert (Ht : t < 256) by (apply nth_ok, B). rewrite as_i32_byte by assumption. rewrite (proj2 (Z.ltb_ge _ _)) by lia. replace (Z.to_nat (Z.of_N t)) with (N.to_nat t) by lia. rewrite pick_cases, nth_error_map.
  destruct (N.eq_dec t 3) as [E3|E3].
  - rewrite E3. change (N.to_nat 3) with 3%nat. change (option_map _ (nth_error value_variants 3)) with (Some (TScalar (SComposite bit_t))). cbn [read_type read_scalar]. unfold dbind, dret. change (delimited bit_t) with false. rewrite read_undelimited_at.
    replace (length (pad8 (8 * q + 8))) with O by (rewrite pad8_length; lia). rewrite Nat.add_0_r. unfold bit_t. rewrite array_deserialize by apply array_zero_copy. cbn [read_members read_type fold_left]. change (N.to_nat (array_length_bits 2048)) with 16%nat. change (bit_array_bytes 2048) with (N.to_nat 256).
    unfold dbind, dret, lift. rewrite read_u_at by (assumption || lia). cbn [bind fst snd]. rewrite field_16 by (assumption || lia). replace ((8 * q + 8) / 8)%nat with (q + 1)%nat by lia. replace (q + 1 + 1)%nat with (q + 2)%nat by lia. set (k := nth (q + 1) b 0 + 256 * nth (q + 2) b 0).
    destruct (N.lt_ge_cases 2048 k) as [L|L].
    + left. split; [split; [exact E3|exact L]|]. rewrite read_bits_panic by lia. reflexivity.
    + right. split; [intros (_ & X); fold k in X; lia|]. destruct (total_bit_array true (N.to_nat 256) (N.to_nat k) ltac:(lia) b (8 * q + 8 + 16)%nat b (8 * q + 8 + 16)%nat (agree_same b _ B)) as (r & n & E1 & _ & K); [discriminate|]. rewrite E1. cbn [bind fst snd].
      destruct r as [v|e]; cbn [bind fst snd]; rewrite align_at; eexists; exists (8 + 16 + n + length (pad8 (8 * q + 8 + 16 + n)))%nat; rewrite !Nat.add_assoc; (split; [reflexivity|]); [|exact I].
      destruct K as (bits & -> & Lb). eexists. split; [reflexivity|]. apply (variant_fits 3 bit_t); [reflexivity|]. unfold fits, bit_t, array_t. cbn [fits_gen members_fit type_fits]. rewrite !andb_true_r. apply N.leb_le. lia.
  - right. split; [intros (X & _); fold t in X; contradiction|]. destruct (nth_error value_variants (N.to_nat t)) as [m|] eqn:Em; cbn [option_map].
    + destruct (variant_shape _ _ Em ltac:(lia)) as (W & S & D & F).
      destruct (total_composite true m (dec_total_all m) W S ltac:(discriminate) b (8 * q + 8)%nat b (8 * q + 8)%nat (agree_same b _ B)) as (r & n & E1 & _ & K); [discriminate|]. cbn [read_type read_scalar]. unfold dbind, dret. rewrite E1. cbn [bind fst snd].
      destruct r as [v|e]; eexists; exists (8 + n)%nat; rewrite !Nat.add_assoc; (split; [reflexivity|]); [|exact I]. eexists. split; [reflexivity|]. apply (variant_fits _ m); [exact Em|]. apply F, K.
    + unfold derr. exists (DErr UnionTag), 8%nat. split; [reflexivity|exact I].
Qed.
Lemma request_name_length b : length (request_name b) = N.to_nat (nth 0 b 0).
Proof. unfold request_name. rewrite map_length, seq_length. reflexivity. Qed.
Lemma oversized_same b : oversized b <-> oversized_at b (1 + length (request_name b)).
Proof. unfold oversized, oversized_at, request_tag, request_count. replace (1 + length (request_name b) + 1)%nat with (2 + length (request_name b))%nat by lia. replace (1 + length (request_name b) + 2)%nat with (3 + length (request_name b))%nat by lia. tauto. Qed.
Lemma decode_access b : bytes_ok b ->
  (oversized b /\ deserialize_from_bytes access_request_t b = Panic) \/
  (~ oversized b /\ exists r, deserialize_from_bytes access_request_t b = Ok r /\
    match r with DOk x => exists v, x = VStruct [VStruct [VArray (map VUnsigned (request_name b))]; v] /\ fits value_t v = true /\ tag_of v = N.to_nat (request_tag b) | DErr _ => True end).
Proof.
  intros B. rewrite oversized_same. unfold request_tag. set (q := (1 + length (request_name b))%nat). unfold deserialize_from_bytes. rewrite access_deserialize. change (rc_new b) with (rc_at b 0). cbn [read_members read_type read_scalar fold_left]. unfold dbind, dret. change (delimited name_t) with false. change (delimited value_t) with false.
  rewrite read_undelimited_at. replace (length (pad8 0)) with O by (rewrite pad8_length; lia). rewrite Nat.add_0_r. rewrite decode_name by assumption. cbn [bind fst snd]. rewrite align_at.
  replace (field b 0 8) with (nth 0 b 0) by (symmetry; apply field_byte; [assumption|reflexivity]). rewrite <- request_name_length.
  replace (length (pad8 (0 + 8 + 8 * length (request_name b)))) with O by (rewrite pad8_length; lia). replace (0 + 8 + 8 * length (request_name b) + 0)%nat with (8 * q)%nat by (unfold q; lia).
  rewrite read_undelimited_at. replace (length (pad8 (8 * q))) with O by (rewrite pad8_length; lia). rewrite Nat.add_0_r.
  assert (En : map (fun i => VUnsigned (field b (0 + 8 + 8 * i) 8)) (seq 0 (length (request_name b))) = map VUnsigned (request_name b)).
  { rewrite request_name_length. unfold request_name. rewrite map_map. apply map_ext. intro i. rewrite field_byte by (assumption || lia). do 2 f_equal. lia. }
  rewrite En. destruct (decode_value b q B) as [(O & E)|(O & r & n & E & K)]; [left|right]; (split; [exact O|]); rewrite E; cbn [bind fst snd]; [reflexivity|].
  destruct r as [v|e]; cbn [bind fst snd].
  - eexists. split; [reflexivity|]. destruct K as (v' & -> & F). eexists. split; [reflexivity|]. split; [exact F|reflexivity].
  - eexists. split; [reflexivity|exact I].
Qed.
Lemma decode_list b : bytes_ok b -> deserialize_from_bytes list_request_t b = Ok (DOk (VStruct [VUnsigned (nth 0 b 0 + 256 * nth 1 b 0)])).
Proof.
  intro B. unfold deserialize_from_bytes, list_request_t, uint. cbn [deserialize]. change (rc_new b) with (rc_at b 0).
  set (z := supports_zero_copy _). assert (Ez : z = true) by (vm_compute; reflexivity). rewrite Ez. change (memory_size (Message false (KStruct [MData (TScalar (SPrimitive (PUInt 16)))]))) with 2%nat.
  unfold dbind, lift, dret. rewrite zero_copy_at by (assumption || reflexivity). cbn [bind fst snd seq map]. rewrite !field_byte by (assumption || reflexivity). change ((0 + 8 * 0) / 8)%nat with O. change ((0 + 8 * 1) / 8)%nat with 1%nat.
  cbn [from_memory members_from_memory type_from_memory scalar_from_memory prim_bits]. change (16 / 8)%nat with 2%nat. cbn [firstn fst snd from_le]. do 5 f_equal. lia.
Qed.

(** ** Responses *)
Lemma payload_encodes m v : compiles m -> good m = true -> bound m < 8 * (2 ^ 32 - 1) -> fits m v = true -> exists bytes, payload_of m v = Ok bytes /\ encodes m bytes v.
Proof.
  intros C G B F. pose proof (bound_right m v F) as Bv. assert (S : short (enc m v)) by (unfold short; lia).
  pose proof (C67_size_partial m v C G F) as Es. unfold payload_of. set (buffer := repeat 0 ((size_bits m v + 7) / 8)%nat).
  assert (L : length buffer = ((size_bits m v + 7) / 8)%nat) by apply repeat_length.
  destruct (C66_encoding_partial m v buffer C G F S ltac:(lia)) as (b & E & Lb & Hb & Hs). exists b. split; [exact E|]. split; [exact Hb|]. split; [lia|exact Hs].
Qed.
Lemma respond_right n header m v e source : c_id n = Some source -> compiles m -> good m = true -> bound m < 8 * (2 ^ 32 - 1) -> fits m v = true ->
  exists y, respond n (token_of header) m v e = Ok (n, y) /\ responded n header e m v [y].
Proof.
  intros Hid C G B F. destruct (payload_encodes m v C G B F) as (payload & E & X). unfold respond. rewrite E. cbn [bind]. unfold inner_step. cbn [core_step]. unfold send_response, serialize_ok, token_of. rewrite Hid.
  cbn [rt_service rt_client rt_transfer rt_priority]. rewrite Nat.leb_antisym. destruct (64 <? length payload)%nat eqn:L; cbn [negb orb andb].
  - destruct (e_alloc e) eqn:Ea; [destruct (e_push e) eqn:Ep|]; eexists; (split; [reflexivity|]); exists source, payload; do 2 eexists; (split; [exact Hid|]); (split; [exact X|]); (split; [reflexivity|]); rewrite L, Ea; cbn [negb andb]; rewrite ?Ep; split; reflexivity.
  - destruct (e_push e) eqn:Ep; eexists; (split; [reflexivity|]); exists source, payload; do 2 eexists; (split; [exact Hid|]); (split; [exact X|]); (split; [reflexivity|]); rewrite L; cbn [negb andb]; rewrite ?Ep; split; reflexivity.
Qed.
Lemma access_response_fits a v : fits value_t v = true -> fits access_response_t (response_of a v) = true.
Proof. intro F. unfold access_response_t, response_of, timestamp_t, uint. unfold fits in *. cbn [fits_gen members_fit type_fits scalar_fits prim_fits]. rewrite F. reflexivity. Qed.
Lemma list_response_fits name : bytes_ok name -> (length name <= N.to_nat 255)%nat -> fits list_response_t (VStruct [VStruct [VArray (map VUnsigned name)]]) = true.
Proof.
  intros B L. assert (F : fits name_t (VStruct [VArray (map VUnsigned name)]) = true).
  { unfold name_t. apply fits_array; [discriminate|rewrite map_length; lia|]. apply Forall_map. eapply Forall_impl; [|exact B]. intros x Hx. cbn [prim_fits]. apply N.ltb_lt. exact Hx. }
  unfold list_response_t. unfold fits in *. cbn [fits_gen members_fit type_fits scalar_fits]. cbn [fits_gen] in F. rewrite F. reflexivity.
Qed.
