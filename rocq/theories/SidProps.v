(** C130: the fixed-capacity list of subject IDs is compatible with uavcan.node.port.SubjectIDList.1.0. *)
From Verif Require Import Base EncModel EncSpec EncProps EncWriteProofs EncReadProofs BlsModel GenModel GenSpec GenReadProofs GenProps DataTypes SidModel SidSpec SidProofs.
Ltac Zify.zify_post_hook ::= Z.div_mod_to_equations.

(** What is written is the encoding of the sparse list, as the specification has it, in as many bits as [size_bits] says.  Missing:
    lists of more than 255 IDs. *)
Theorem C130_encoding_partial : forall capacity ids buffer, sid_ok capacity ids -> (length ids <= 255)%nat -> (sid_size_bits ids <= 8 * length buffer)%nat ->
  exists bytes, sid_to_bytes ids buffer = Ok bytes /\ length bytes = length buffer /\ bytes_hold bytes (enc subject_id_list_t (sparse_list ids)) /\
    length (enc subject_id_list_t (sparse_list ids)) = sid_size_bits ids.
Proof.
  intros capacity ids buffer (_ & F) L S. unfold sid_size_bits in *. destruct (C38_space buffer _ (sid_writable ids) ltac:(rewrite packs_sid_length; lia)) as (c & Ec). destruct (C38_pack buffer _ c (sid_writable ids) Ec) as (H1 & H2 & _ & H4 & _).
  rewrite (packs_sid ids L), <- (enc_sparse ids F) in H4. exists (wc_bytes c). unfold sid_to_bytes. rewrite Ec. split; [reflexivity|]. split; [assumption|]. split; [split; assumption|]. rewrite (enc_sparse ids F), sid_bits_length. lia.
Qed.
Print Assumptions C130_encoding_partial.

(** The generated type writes the same bytes into the same buffer. *)
Theorem C130_same_bytes_partial : forall capacity ids buffer, sid_ok capacity ids -> (length ids <= 255)%nat -> (sid_size_bits ids <= 8 * length buffer)%nat ->
  sid_to_bytes ids buffer = serialize_to_bytes subject_id_list_t (sparse_list ids) buffer /\ sid_size_bits ids = size_bits subject_id_list_t (sparse_list ids).
Proof.
  intros capacity ids buffer O L S. destruct (C130_encoding_partial capacity ids buffer O L S) as (bytes & E & Lb & (Hb & Hs) & Le). destruct O as (_ & F).
  assert (C : compiles subject_id_list_t) by (split; [reflexivity|]; exists 8200; vm_compute; reflexivity). assert (G : good subject_id_list_t = true) by (vm_compute; reflexivity).
  assert (Ft : fits subject_id_list_t (sparse_list ids) = true).
  { change ((N.of_nat (length (map (fun id => VStruct [VUnsigned id]) ids)) <=? 255) && forallb (fun v => fits subject_id_t v) (map (fun id => VStruct [VUnsigned id]) ids) = true). rewrite map_length. apply andb_true_intro. split; [apply N.leb_le; lia|].
    apply forallb_forall. intros v Hv. apply in_map_iff in Hv. destruct Hv as (id & <- & Hi). rewrite Forall_forall in F. specialize (F id Hi). change (((id <? 2 ^ 13) && true) = true). rewrite andb_true_r. apply N.ltb_lt. change (2 ^ 13) with 8192. lia. }
  assert (Sh : short (enc subject_id_list_t (sparse_list ids))) by (unfold short; rewrite Le; unfold sid_size_bits; change (8 * (2 ^ 32 - 1)) with 34359738360; lia).
  split.
  - destruct (C66_encoding_partial _ _ buffer C G Ft Sh ltac:(rewrite Le; exact S)) as (other & E' & Lo & Ho & Hs'). rewrite E, E'. f_equal. apply same_bytes; [lia|assumption|assumption|]. intro i. rewrite Hs, Hs'. reflexivity.
  - assert (Z : size_bits subject_id_list_t (sparse_list ids) = (8 + (8 + length (map (fun id => VStruct [VUnsigned id]) ids) * 16))%nat) by reflexivity. rewrite Z, map_length. unfold sid_size_bits. lia.
Qed.
Print Assumptions C130_same_bytes_partial.

(** Whatever arrives: a list is read exactly when the generated type reads a sparse list of at most [capacity] IDs, and then it is the same
    list.  All IDs are in range.  There is no panic. *)
Theorem C130_read : forall capacity bytes, bytes_ok bytes ->
  (forall ids, sid_from_bytes capacity bytes = Ok (DOk ids) <-> deserialize_from_bytes subject_id_list_t bytes = Ok (DOk (sparse_list ids)) /\ (length ids <= capacity)%nat) /\
  (forall ids, sid_from_bytes capacity bytes = Ok (DOk ids) -> sid_ok capacity ids) /\
  sid_from_bytes capacity bytes <> Panic.
Proof.
  intros capacity bytes Hb. rewrite (sid_read bytes capacity Hb). split; [|split].
  - intro ids. destruct (N.eqb_spec (field bytes 0 8) 1) as [E|E]; cbn [negb].
    + rewrite (generated_sparse bytes Hb E). destruct (Nat.ltb_spec capacity (N.to_nat (field bytes 8 8))) as [L|L].
      * split; [discriminate|]. intros (H & L'). injection H as H. assert (ids_at bytes 16 (N.to_nat (field bytes 8 8)) = ids) as <- by (apply sparse_inj; unfold sparse_list; rewrite H; reflexivity). rewrite ids_at_length in L'. lia.
      * split.
        -- intro H. injection H as <-. split; [reflexivity|]. rewrite ids_at_length. exact L.
        -- intros (H & _). injection H as H. assert (ids_at bytes 16 (N.to_nat (field bytes 8 8)) = ids) as <- by (apply sparse_inj; unfold sparse_list; rewrite H; reflexivity). reflexivity.
    + split; [discriminate|]. intros (H & _). exfalso. exact (generated_other bytes _ Hb E H).
  - intros ids H. destruct (negb _); [discriminate|]. destruct (Nat.ltb_spec capacity (N.to_nat (field bytes 8 8))) as [L|L]; [discriminate|]. injection H as <-. split; [rewrite ids_at_length; exact L|apply ids_at_ok].
  - discriminate.
Qed.
Print Assumptions C130_read.

(** Written lists come back, whatever follows.  Missing: lists of more than 255 IDs. *)
Theorem C130_round_trip_partial : forall capacity ids buffer bytes more, sid_ok capacity ids -> (length ids <= 255)%nat -> (sid_size_bits ids <= 8 * length buffer)%nat ->
  sid_to_bytes ids buffer = Ok bytes -> bytes_ok more -> sid_from_bytes capacity (bytes ++ more) = Ok (DOk ids).
Proof.
  intros capacity ids buffer bytes more O L S E M. destruct (C130_encoding_partial capacity ids buffer O L S) as (b & E' & Lb & (Hb & Hs) & Le). rewrite E' in E. injection E as <-. destruct O as (O & F). rewrite (enc_sparse ids F) in *.
  apply sid_held; [split; assumption|assumption|]. split; [apply Forall_app; split; assumption|]. split; [rewrite app_length; lia|]. intros i Hi. rewrite Nat.add_0_l, <- Hs. unfold stream_bit. rewrite app_nth1; [reflexivity|]. lia.
Qed.
Print Assumptions C130_round_trip_partial.

Example C130_witness : sid_ok 4 [7509; 8191; 0] /\ sid_to_bytes [7509; 8191; 0] (repeat 9 9) = Ok [1; 3; 85; 29; 255; 31; 0; 0; 0] /\
  sid_from_bytes 4 [1; 3; 85; 29; 255; 31; 0; 0; 9] = Ok (DOk [7509; 8191; 0]) /\ sid_from_bytes 2 [1; 3; 85; 29; 255; 31; 0; 0; 9] = Ok (DErr ArrayLength) /\
  deserialize_from_bytes subject_id_list_t [1; 2; 85; 253] = Ok (DOk (sparse_list [7509; 0])) /\ sid_from_bytes 2 [1; 2; 85; 253] = Ok (DOk [7509; 0]).
Proof. split; [split; [cbn; lia|repeat (constructor; [lia|]); constructor]|]. vm_compute. repeat split. Qed.

(** The code violates it.  Nothing keeps [N] below 256 (the constant that should is never used), and longer lists lose their IDs: only the
    last eight bits of the length are written. *)
Theorem C130_long_refuted : exists capacity ids buffer bytes, sid_ok capacity ids /\ (sid_size_bits ids <= 8 * length buffer)%nat /\ sid_to_bytes ids buffer = Ok bytes /\
  sid_from_bytes capacity bytes = Ok (DOk []) /\ ids <> [].
Proof.
  exists 256%nat, (repeat 5 256), (repeat 0 514), (1 :: 0 :: flat_map (fun _ => [5; 0]) (repeat 5 256)). split; [split; [vm_compute; lia|apply Forall_forall; intros x Hx; apply repeat_spec in Hx; lia]|]. split; [vm_compute; lia|]. split; [vm_compute; reflexivity|]. split; [vm_compute; reflexivity|]. discriminate.
Qed.
Print Assumptions C130_long_refuted.
(** Lists in the two other forms of SubjectIDList.1.0 are refused, however few IDs they have. *)
Theorem C130_other_forms_refuted : exists v bytes, fits subject_id_list_t v = true /\ deserialize_from_bytes subject_id_list_t bytes = Ok (DOk v) /\
  forall capacity, sid_from_bytes capacity bytes = Ok (DErr UnionTag).
Proof.
  exists (VUnion 2 (VStruct [])), [2]. split; [vm_compute; reflexivity|]. split; [vm_compute; reflexivity|]. intro capacity. rewrite sid_read by (constructor; [reflexivity|constructor]). reflexivity.
Qed.
Print Assumptions C130_other_forms_refuted.
