From Verif Require Import Base BitLemmas CrcModel CrcProofs CoreModel HeaderModel HeaderSpec.
Ltac Zify.zify_post_hook ::= Z.div_mod_to_equations.

Lemma land_pow2_eq v k : N.land v (2 ^ k) = if N.testbit v k then 2 ^ k else 0.
Proof.
  apply N.bits_inj; intro i. rewrite N.land_spec, N.pow2_bits_eqb.
  destruct (N.eqb_spec k i) as [->|Hne].
  - rewrite andb_true_r. destruct (N.testbit v i) eqn:E; [rewrite N.pow2_bits_true; reflexivity|rewrite N.bits_0; reflexivity].
  - rewrite andb_false_r. destruct (N.testbit v k); [rewrite N.pow2_bits_false by congruence; reflexivity|rewrite N.bits_0; reflexivity].
Qed.

Lemma testbit_top v k : v < 2 ^ (k + 1) -> N.testbit v k = N.leb (2 ^ k) v.
Proof.
  intro Hv. rewrite N.add_1_r, N.pow_succ_r' in Hv.
  destruct (N.leb_spec (2 ^ k) v) as [H|H].
  - rewrite N.testbit_eqb. apply N.eqb_eq.
    assert (E : v / 2 ^ k = 1).
    { symmetry. apply (N.div_unique v (2 ^ k) 1 (v - 2 ^ k)); lia. }
    rewrite E. reflexivity.
  - apply testbit_high with k; [assumption|lia].
Qed.

Lemma land_top v k : v < 2 ^ (k + 1) -> N.land v (2 ^ k) = if N.leb (2 ^ k) v then 2 ^ k else 0.
Proof. intro. rewrite land_pow2_eq, testbit_top by assumption. reflexivity. Qed.

Lemma land_mask v k m : m = N.ones k -> N.land v m = v mod 2 ^ k.
Proof. intros ->. apply N.land_ones. Qed.

Lemma lor_top a k : a < 2 ^ k -> N.lor a (2 ^ k) = a + 2 ^ k.
Proof. intro H. replace (2 ^ k) with (N.shiftl 1 k) at 1 by (rewrite N.shiftl_1_l; reflexivity).
  rewrite lor_shiftl_add by assumption. lia. Qed.

(** * Layout *)

Lemma raw_to_bytes_length r : length (raw_to_bytes r) = 24%nat.
Proof. unfold raw_to_bytes, be_bytes. rewrite !app_length, rev_length, !le_bytes_length. reflexivity. Qed.

Definition raw_ok (r : raw) : Prop :=
  r_version r < 2 ^ 8 /\ r_prio r < 2 ^ 8 /\ r_src r < 2 ^ 16 /\ r_dst r < 2 ^ 16 /\ r_spec r < 2 ^ 16 /\
  r_tid r < 2 ^ 64 /\ r_fie r < 2 ^ 32 /\ r_data r < 2 ^ 16 /\ r_crc r < 2 ^ 16.

Lemma from_le_exact k n : n < 2 ^ (8 * N.of_nat k) -> from_le (le_bytes k n) = n.
Proof. intro. rewrite from_le_le_bytes. apply N.mod_small. assumption. Qed.

Lemma slice_at (a b c : list N) i n : length a = i -> length b = n -> slice i n (a ++ b ++ c) = b.
Proof.
  intros <- <-. unfold slice. rewrite skipn_app, skipn_all, Nat.sub_diag. cbn [app skipn].
  rewrite firstn_app, firstn_all, Nat.sub_diag. cbn. apply app_nil_r.
Qed.

Lemma raw_of_to r : raw_ok r -> raw_of_bytes (raw_to_bytes r) = r.
Proof.
  intros (H1 & H2 & H3 & H4 & H5 & H6 & H7 & H8 & H9). destruct r as [v p s d sp t f da c].
  cbn [r_version r_prio r_src r_dst r_spec r_tid r_fie r_data r_crc] in *.
  unfold raw_of_bytes, raw_to_bytes. cbn [r_version r_prio r_src r_dst r_spec r_tid r_fie r_data r_crc].
  set (A1 := le_bytes 1 v). set (A2 := le_bytes 1 p). set (A3 := le_bytes 2 s). set (A4 := le_bytes 2 d).
  set (A5 := le_bytes 2 sp). set (A6 := le_bytes 8 t). set (A7 := le_bytes 4 f). set (A8 := le_bytes 2 da).
  set (A9 := be_bytes 2 c).
  assert (L1 : length A1 = 1%nat) by apply le_bytes_length. assert (L2 : length A2 = 1%nat) by apply le_bytes_length.
  assert (L3 : length A3 = 2%nat) by apply le_bytes_length. assert (L4 : length A4 = 2%nat) by apply le_bytes_length.
  assert (L5 : length A5 = 2%nat) by apply le_bytes_length. assert (L6 : length A6 = 8%nat) by apply le_bytes_length.
  assert (L7 : length A7 = 4%nat) by apply le_bytes_length. assert (L8 : length A8 = 2%nat) by apply le_bytes_length.
  assert (L9 : length A9 = 2%nat) by (unfold A9, be_bytes; rewrite rev_length; apply le_bytes_length).
  f_equal.
  - change (A1 ++ A2 ++ A3 ++ A4 ++ A5 ++ A6 ++ A7 ++ A8 ++ A9) with ([] ++ A1 ++ (A2 ++ A3 ++ A4 ++ A5 ++ A6 ++ A7 ++ A8 ++ A9)).
    rewrite slice_at by (assumption || reflexivity). apply from_le_exact. assumption.
  - rewrite slice_at by (assumption || reflexivity). apply from_le_exact. assumption.
  - rewrite (app_assoc A1). rewrite slice_at by (rewrite ?app_length; lia). apply from_le_exact. assumption.
  - rewrite (app_assoc A1), (app_assoc (A1 ++ A2)). rewrite slice_at by (rewrite ?app_length; lia). apply from_le_exact. assumption.
  - rewrite (app_assoc A1), (app_assoc (A1 ++ A2)), (app_assoc ((A1 ++ A2) ++ A3)).
    rewrite slice_at by (rewrite ?app_length; lia). apply from_le_exact. assumption.
  - rewrite (app_assoc A1), (app_assoc (A1 ++ A2)), (app_assoc ((A1 ++ A2) ++ A3)), (app_assoc (((A1 ++ A2) ++ A3) ++ A4)).
    rewrite slice_at by (rewrite ?app_length; lia). apply from_le_exact. assumption.
  - rewrite (app_assoc A1), (app_assoc (A1 ++ A2)), (app_assoc ((A1 ++ A2) ++ A3)), (app_assoc (((A1 ++ A2) ++ A3) ++ A4)),
      (app_assoc ((((A1 ++ A2) ++ A3) ++ A4) ++ A5)).
    rewrite slice_at by (rewrite ?app_length; lia). apply from_le_exact. assumption.
  - rewrite (app_assoc A1), (app_assoc (A1 ++ A2)), (app_assoc ((A1 ++ A2) ++ A3)), (app_assoc (((A1 ++ A2) ++ A3) ++ A4)),
      (app_assoc ((((A1 ++ A2) ++ A3) ++ A4) ++ A5)), (app_assoc (((((A1 ++ A2) ++ A3) ++ A4) ++ A5) ++ A6)).
    rewrite slice_at by (rewrite ?app_length; lia). apply from_le_exact. assumption.
  - rewrite (app_assoc A1), (app_assoc (A1 ++ A2)), (app_assoc ((A1 ++ A2) ++ A3)), (app_assoc (((A1 ++ A2) ++ A3) ++ A4)),
      (app_assoc ((((A1 ++ A2) ++ A3) ++ A4) ++ A5)), (app_assoc (((((A1 ++ A2) ++ A3) ++ A4) ++ A5) ++ A6)),
      (app_assoc ((((((A1 ++ A2) ++ A3) ++ A4) ++ A5) ++ A6) ++ A7)).
    rewrite <- (app_nil_r A9). rewrite slice_at by (rewrite ?app_length; lia).
    unfold A9, be_bytes. rewrite rev_involutive. apply from_le_exact. assumption.
Qed.

Lemma raw_of_bytes_ok b : bytes_ok b -> length b = 24%nat -> raw_ok (raw_of_bytes b) /\ raw_to_bytes (raw_of_bytes b) = b.
Proof.
  intros Hb Hl.
  do 24 (destruct b as [|? b]; [discriminate Hl|]). destruct b; [|discriminate Hl]. clear Hl.
  repeat match goal with H : bytes_ok (_ :: _) |- _ => inversion H; clear H; subst | H : Forall _ (_ :: _) |- _ => inversion H; clear H; subst end.
  unfold is_byte in *. unfold raw_of_bytes, slice. cbn [skipn firstn rev app].
  split.
  - unfold raw_ok. cbn [r_version r_prio r_src r_dst r_spec r_tid r_fie r_data r_crc].
    repeat split; (eapply N.lt_le_trans; [apply from_le_bound; repeat constructor; assumption|cbn; lia]).
  - unfold raw_to_bytes, be_bytes. cbn [r_version r_prio r_src r_dst r_spec r_tid r_fie r_data r_crc].
    repeat match goal with |- context [le_bytes ?k (from_le ?l)] =>
      change (le_bytes k (from_le l)) with (le_bytes (length l) (from_le l));
      rewrite (le_bytes_from_le l) by (repeat constructor; assumption) end.
    reflexivity.
Qed.

(** * Encoding *)

Lemma dspec_bounds d : dspec_ok d -> spec_source d < 2 ^ 16 /\ spec_dest d < 2 ^ 16 /\ spec_bits d < 2 ^ 16.
Proof.
  unfold dspec_ok, node_ok, spec_source, spec_dest, spec_bits, NODE_NONE, SPEC_SERVICE, SPEC_REQUEST.
  destruct d as [[f|] s|f t s|f t s]; intro H; repeat split; try lia.
  - apply lor_bound; [reflexivity|]. change (2 ^ 16) with 65536. lia.
  - apply lor_bound; [reflexivity|]. change (2 ^ 16) with 65536. lia.
Qed.

Lemma request_bits s : s <= 511 -> N.lor (N.lor SPEC_SERVICE SPEC_REQUEST) s = 49152 + s.
Proof.
  intro H. rewrite N.lor_comm. change (N.lor SPEC_SERVICE SPEC_REQUEST) with (N.shiftl 3 14).
  rewrite lor_shiftl_add by (change (2 ^ 14) with 16384; lia). change (3 * 2 ^ 14) with 49152. lia.
Qed.
Lemma response_bits s : s <= 511 -> N.lor SPEC_SERVICE s = 32768 + s.
Proof.
  intro H. rewrite N.lor_comm. change SPEC_SERVICE with (N.shiftl 1 15).
  rewrite lor_shiftl_add by (change (2 ^ 15) with 32768; lia). change (1 * 2 ^ 15) with 32768. lia.
Qed.

Lemma fie_value h : fh_index h < 2 ^ 31 ->
  N.lor (fh_index h) (if fh_last h then LAST_FRAME else 0) = fh_index h + if fh_last h then 2 ^ 31 else 0.
Proof.
  intro H. destruct (fh_last h).
  - change LAST_FRAME with (2 ^ 31). apply lor_top. assumption.
  - rewrite N.lor_0_r. lia.
Qed.

Lemma raw_of_header_ok h : fheader_ok h -> raw_ok (raw_of_header h).
Proof.
  intros (H1 & H2 & H3 & H4 & H5). destruct (dspec_bounds _ H2) as (B1 & B2 & B3).
  unfold raw_ok, raw_of_header. cbn [r_version r_prio r_src r_dst r_spec r_tid r_fie r_data r_crc].
  repeat split; try assumption; try reflexivity.
  - change (2 ^ 8) with 256. lia.
  - rewrite fie_value by assumption. change (2 ^ 32) with (2 * 2 ^ 31). destruct (fh_last h); lia.
  - apply crc16_bytes_bound. reflexivity.
Qed.

Lemma header_encode_crc h : crc16 (header_encode h) = 0.
Proof.
  unfold header_encode, raw_of_header. cbv zeta.
  set (r0 := Raw _ _ _ _ _ _ _ _ 0).
  set (body := le_bytes 1 VERSION ++ le_bytes 1 (fh_prio h) ++ le_bytes 2 (spec_source (fh_spec h)) ++
     le_bytes 2 (spec_dest (fh_spec h)) ++ le_bytes 2 (spec_bits (fh_spec h)) ++ le_bytes 8 (fh_tid h) ++
     le_bytes 4 (r_fie r0) ++ le_bytes 2 (fh_data h)).
  assert (E0 : forall c, raw_to_bytes (Raw VERSION (fh_prio h) (spec_source (fh_spec h)) (spec_dest (fh_spec h))
             (spec_bits (fh_spec h)) (fh_tid h) (r_fie r0) (fh_data h) c) = body ++ be_bytes 2 c).
  { intro c. unfold raw_to_bytes, body. cbn [r_version r_prio r_src r_dst r_spec r_tid r_fie r_data r_crc].
    rewrite <- !app_assoc. reflexivity. }
  assert (El : length body = 22%nat) by (unfold body; rewrite !app_length, !le_bytes_length; reflexivity).
  change (raw_to_bytes r0) with (raw_to_bytes (Raw VERSION (fh_prio h) (spec_source (fh_spec h)) (spec_dest (fh_spec h))
             (spec_bits (fh_spec h)) (fh_tid h) (r_fie r0) (fh_data h) 0)).
  change (N.lor (fh_index h) (if fh_last h then LAST_FRAME else 0)) with (r_fie r0).
  rewrite !E0.
  assert (Ef : firstn (SIZE - 2) (body ++ be_bytes 2 0) = body).
  { change (SIZE - 2)%nat with 22%nat. rewrite <- El, firstn_app, firstn_all, Nat.sub_diag. cbn [firstn]. apply app_nil_r. }
  rewrite Ef. apply crc16_residue.
Qed.

Lemma header_of_raw_of_header h : fheader_ok h -> header_of_raw (raw_of_header h) = Some h.
Proof.
  intro Hok. pose proof Hok as (H1 & H2 & H3 & H4 & H5).
  unfold header_of_raw. unfold checksum_valid.
  change (raw_to_bytes (raw_of_header h)) with (header_encode h). rewrite header_encode_crc.
  unfold raw_of_header. cbn [r_version r_prio r_src r_dst r_spec r_tid r_fie r_data r_crc N.eqb negb].
  unfold is_last_frame, frame_index. cbn [r_fie].
  change (N.eqb VERSION VERSION) with true. cbn [negb].
  unfold try_le at 1. change MAX_PRIO with 7. destruct (N.leb_spec (fh_prio h) 7); [|lia].
  rewrite fie_value by assumption.
  assert (Ei : N.land (fh_index h + (if fh_last h then 2 ^ 31 else 0)) 0x7fffffff = fh_index h).
  { rewrite (land_mask _ 31) by reflexivity. destruct (fh_last h).
    - rewrite <- (N.mul_1_l (2 ^ 31)) at 1. rewrite N.mod_add by discriminate. apply N.mod_small. assumption.
    - rewrite N.add_0_r. apply N.mod_small. assumption. }
  assert (El : negb (N.eqb (N.land (fh_index h + (if fh_last h then 2 ^ 31 else 0)) LAST_FRAME) 0) = fh_last h).
  { change LAST_FRAME with (2 ^ 31). rewrite land_top.
    - destruct (fh_last h).
      + destruct (N.leb_spec (2 ^ 31) (fh_index h + 2 ^ 31)); [reflexivity|lia].
      + destruct (N.leb_spec (2 ^ 31) (fh_index h + 0)); [lia|reflexivity].
    - change (2 ^ (31 + 1)) with (2 * 2 ^ 31). destruct (fh_last h); lia. }
  rewrite Ei, El.
  destruct h as [p d t i l da]. cbn [fh_prio fh_spec fh_tid fh_index fh_last fh_data] in *.
  unfold check_node_id.
  destruct d as [from s|f to s|f to s]; cbn [spec_bits spec_source spec_dest dspec_ok] in *.
  - destruct H2 as [Hf Hs].
    change SPEC_SERVICE with (2 ^ 15) at 1. rewrite land_top by (change (2 ^ (15 + 1)) with 65536; lia).
    destruct (N.leb_spec (2 ^ 15) s) as [Hbig|_]; [change (2 ^ 15) with 32768 in Hbig; lia|].
    change (N.eqb 0 SPEC_SERVICE) with false. cbv iota.
    rewrite (land_mask _ 15) by reflexivity. rewrite N.mod_small by (change (2 ^ 15) with 32768; lia).
    unfold try_le. change MAX_SUBJECT with 8191. destruct (N.leb_spec s 8191); [|lia].
    destruct from as [f|]; cbn.
    + unfold node_ok in Hf. destruct (N.eqb_spec f NODE_NONE); [unfold NODE_NONE in *; lia|]. reflexivity.
    + reflexivity.
  - destruct H2 as (Hf & Ht & Hs). unfold node_ok in *. rewrite request_bits by assumption.
    change SPEC_SERVICE with (2 ^ 15). rewrite land_top by (change (2 ^ (15 + 1)) with 65536; lia).
    destruct (N.leb_spec (2 ^ 15) (49152 + s)) as [_|Hc]; [|change (2 ^ 15) with 32768 in Hc; lia].
    rewrite N.eqb_refl. rewrite (land_mask _ 14) by reflexivity.
    replace (49152 + s) with (s + 3 * 2 ^ 14) at 1 by (change (3 * 2 ^ 14) with 49152; lia).
    rewrite N.mod_add by discriminate. rewrite N.mod_small by (change (2 ^ 14) with 16384; lia).
    unfold try_le. change MAX_SERVICE with 511. destruct (N.leb_spec s 511); [|lia].
    destruct (N.eqb_spec f NODE_NONE); [unfold NODE_NONE in *; lia|].
    destruct (N.eqb_spec to NODE_NONE); [unfold NODE_NONE in *; lia|].
    change SPEC_REQUEST with (2 ^ 14). rewrite land_pow2_eq.
    assert (Eb : N.testbit (49152 + s) 14 = true).
    { rewrite N.testbit_eqb. apply N.eqb_eq. replace ((49152 + s) / 2 ^ 14) with 3; [reflexivity|].
      apply (N.div_unique _ _ _ s); change (2 ^ 14) with 16384; lia. }
    rewrite Eb, N.eqb_refl. reflexivity.
  - destruct H2 as (Hf & Ht & Hs). unfold node_ok in *. rewrite response_bits by assumption.
    change SPEC_SERVICE with (2 ^ 15). rewrite land_top by (change (2 ^ (15 + 1)) with 65536; lia).
    destruct (N.leb_spec (2 ^ 15) (32768 + s)) as [_|Hc]; [|change (2 ^ 15) with 32768 in Hc; lia].
    rewrite N.eqb_refl. rewrite (land_mask _ 14) by reflexivity.
    replace (32768 + s) with (s + 2 * 2 ^ 14) at 1 by (change (2 * 2 ^ 14) with 32768; lia).
    rewrite N.mod_add by discriminate. rewrite N.mod_small by (change (2 ^ 14) with 16384; lia).
    unfold try_le. change MAX_SERVICE with 511. destruct (N.leb_spec s 511); [|lia].
    destruct (N.eqb_spec f NODE_NONE); [unfold NODE_NONE in *; lia|].
    destruct (N.eqb_spec to NODE_NONE); [unfold NODE_NONE in *; lia|].
    change SPEC_REQUEST with (2 ^ 14). rewrite land_pow2_eq.
    assert (Eb : N.testbit (32768 + s) 14 = false).
    { rewrite N.testbit_eqb. replace ((32768 + s) / 2 ^ 14) with 2; [reflexivity|].
      apply (N.div_unique _ _ _ s); change (2 ^ 14) with 16384; lia. }
    rewrite Eb. reflexivity.
Qed.

Lemma header_round_trip h : fheader_ok h -> header_decode (header_encode h) = Some h.
Proof.
  intro H. unfold header_decode, header_encode. rewrite raw_of_to by (apply raw_of_header_ok; assumption).
  apply header_of_raw_of_header. assumption.
Qed.

Lemma header_encode_bytes h : bytes_ok (header_encode h) /\ length (header_encode h) = 24%nat.
Proof.
  split; [|apply raw_to_bytes_length]. unfold header_encode, raw_to_bytes, be_bytes.
  do 8 (apply bytes_ok_app; split; [apply le_bytes_ok|]).
  apply Forall_rev, le_bytes_ok.
Qed.

Lemma header_encode_version h : nth 0 (header_encode h) 0 = 1.
Proof. reflexivity. Qed.

(** * Decoding *)

Lemma raw_bytes_fields b : bytes_ok b -> length b = 24%nat ->
  r_version (raw_of_bytes b) = nth 0 b 0 /\ r_prio (raw_of_bytes b) = nth 1 b 0 /\
  r_src (raw_of_bytes b) = u16_at 2 b /\ r_dst (raw_of_bytes b) = u16_at 4 b /\ r_spec (raw_of_bytes b) = u16_at 6 b.
Proof.
  intros Hb Hl.
  do 24 (destruct b as [|? b]; [discriminate Hl|]). destruct b; [|discriminate Hl].
  unfold raw_of_bytes, slice, u16_at. cbn [skipn firstn rev app r_version r_prio r_src r_dst r_spec nth Nat.add from_le].
  repeat split; lia.
Qed.

Lemma header_decode_iff b : bytes_ok b -> length b = 24%nat ->
  (header_decode b <> None <-> header_well_formed b).
Proof.
  intros Hb Hl. destruct (raw_of_bytes_ok b Hb Hl) as [Hok Hto].
  destruct (raw_bytes_fields b Hb Hl) as (Ev & Ep & Es & Ed & Esp).
  unfold header_decode, header_of_raw, checksum_valid, header_well_formed. rewrite Hto.
  destruct Hok as (_ & _ & _ & _ & Bsp & _). rewrite Esp in Bsp.
  rewrite Ev, Ep, Es, Ed, Esp. clear Ev Ep Es Ed Esp.
  set (v := nth 0 b 0). set (p := nth 1 b 0). set (s := u16_at 2 b). set (d := u16_at 4 b). set (sp := u16_at 6 b) in *.
  destruct (N.eqb_spec v VERSION) as [Hv|Hv]; unfold VERSION in Hv; cbn [negb]; [|split; [congruence|lia]].
  destruct (N.eqb_spec (crc16 b) 0) as [Hc|Hc]; cbn [negb]; [|split; [congruence|intros (_ & E & _); congruence]].
  unfold try_le at 1. unfold MAX_PRIO. destruct (N.leb_spec p 7); [|split; [congruence|lia]].
  change SPEC_SERVICE with (2 ^ 15) at 1. rewrite land_top by exact Bsp.
  change (2 ^ 15) with 32768. unfold SERVICE_MASK, SUBJECT_MASK, try_le, check_node_id, MAX_SERVICE, MAX_SUBJECT, NODE_NONE.
  destruct (N.leb_spec 32768 sp) as [Hbig|Hsm].
  - destruct (N.ltb_spec sp 32768); [lia|]. change (32768 =? SPEC_SERVICE) with true. cbv iota.
    rewrite (land_mask _ 14) by reflexivity. change (2 ^ 14) with 16384.
    destruct (N.leb_spec (sp mod 16384) 511); [|split; [congruence|lia]].
    destruct (N.eqb_spec s 65535); [split; [congruence|lia]|].
    destruct (N.eqb_spec d 65535); [split; [congruence|lia]|].
    destruct (N.eqb _ SPEC_REQUEST); (split; [intros _; repeat split; assumption|discriminate]).
  - destruct (N.ltb_spec sp 32768); [|lia]. change (0 =? SPEC_SERVICE) with false. cbv iota.
    rewrite (land_mask _ 15) by reflexivity. change (2 ^ 15) with 32768. rewrite N.mod_small by assumption.
    destruct (N.leb_spec sp 8191); [|split; [congruence|lia]].
    split; [intros _; repeat split; assumption|discriminate].
Qed.

Definition is_service_spec (d : dspec) : bool := match d with DSubject _ _ => false | _ => true end.

Lemma header_decode_inv b h : bytes_ok b -> length b = 24%nat -> header_decode b = Some h ->
  fheader_ok h /\
  (is_service_spec (fh_spec h) = true -> r_dst (raw_of_bytes b) = spec_dest (fh_spec h)) /\
  raw_of_bytes b = Raw VERSION (fh_prio h) (spec_source (fh_spec h)) (r_dst (raw_of_bytes b)) (spec_bits (fh_spec h))
                (fh_tid h) (N.lor (fh_index h) (if fh_last h then LAST_FRAME else 0)) (fh_data h) (r_crc (raw_of_bytes b)).
Proof.
  intros Hb Hl. destruct (raw_of_bytes_ok b Hb Hl) as [Hok _].
  unfold header_decode. destruct (raw_of_bytes b) as [v p s d sp t f da c].
  unfold raw_ok in Hok. cbn [r_version r_prio r_src r_dst r_spec r_tid r_fie r_data r_crc] in Hok.
  destruct Hok as (B1 & B2 & B3 & B4 & B5 & B6 & B7 & B8 & B9).
  unfold header_of_raw. cbn [r_version r_prio r_src r_dst r_spec r_tid r_fie r_data r_crc].
  destruct (N.eqb_spec v VERSION) as [Hv|Hv]; cbn [negb]; [|discriminate].
  destruct (checksum_valid _); cbn [negb]; [|discriminate].
  unfold try_le at 1. unfold MAX_PRIO. destruct (N.leb_spec p 7); [|discriminate].
  unfold frame_index, is_last_frame. cbn [r_fie].
  assert (Ei : N.land f 0x7fffffff = f mod 2 ^ 31) by (apply land_mask; reflexivity).
  assert (El : negb (N.eqb (N.land f LAST_FRAME) 0) = N.leb (2 ^ 31) f).
  { change LAST_FRAME with (2 ^ 31). rewrite land_top by exact B7. destruct (N.leb (2 ^ 31) f); reflexivity. }
  rewrite Ei, El.
  assert (Bi : f mod 2 ^ 31 < 2 ^ 31) by (apply N.mod_lt; discriminate).
  assert (Ef : N.lor (f mod 2 ^ 31) (if N.leb (2 ^ 31) f then LAST_FRAME else 0) = f).
  { destruct (N.leb_spec (2 ^ 31) f) as [Hf|Hf].
    - change LAST_FRAME with (2 ^ 31). rewrite lor_top by assumption.
      assert (f / 2 ^ 31 = 1) by (symmetry; apply (N.div_unique f (2 ^ 31) 1 (f - 2 ^ 31)); change (2 ^ 32) with (2 * 2 ^ 31) in B7; lia).
      pose proof (N.div_mod f (2 ^ 31) ltac:(discriminate)). lia.
    - rewrite N.lor_0_r. apply N.mod_small. assumption. }
  clear Ei El. generalize dependent (N.leb (2 ^ 31) f). intros last Ef.
  generalize dependent (f mod 2 ^ 31). intros index Bi Ef.
  change SPEC_SERVICE with (2 ^ 15) at 1. rewrite land_top by exact B5.
  unfold SERVICE_MASK, SUBJECT_MASK, try_le, check_node_id, MAX_SERVICE, MAX_SUBJECT.
  change (2 ^ 16) with 65536 in *.
  destruct (N.leb_spec (2 ^ 15) sp) as [Hbig|Hsm].
  - change (2 ^ 15 =? SPEC_SERVICE) with true. cbv iota.
    change (2 ^ 15) with 32768 in Hbig.
    rewrite (land_mask _ 14) by reflexivity. change (2 ^ 14) with 16384.
    destruct (N.leb_spec (sp mod 16384) 511) as [Hs|]; [|discriminate].
    destruct (N.eqb_spec s NODE_NONE) as [|Hs1]; [discriminate|]. unfold NODE_NONE in Hs1.
    destruct (N.eqb_spec d NODE_NONE) as [|Hd1]; [discriminate|]. unfold NODE_NONE in Hd1.
    change SPEC_REQUEST with (2 ^ 14). rewrite land_pow2_eq.
    assert (Ht : N.testbit sp 14 = N.leb 49152 sp).
    { rewrite N.testbit_odd, N.shiftr_div_pow2. change (2 ^ 14) with 16384.
      destruct (N.leb_spec 49152 sp).
      - replace (sp / 16384) with 3 by lia. reflexivity.
      - replace (sp / 16384) with 2 by lia. reflexivity. }
    rewrite Ht. destruct (N.leb_spec 49152 sp) as [Hr|Hr].
    + rewrite N.eqb_refl. intro E. injection E as <-. cbn [fh_prio fh_spec fh_tid fh_index fh_last fh_data].
      split.
      * unfold fheader_ok, dspec_ok, node_ok. cbn. repeat split; try assumption; lia.
      * split; [reflexivity|]. cbn [spec_source spec_dest spec_bits r_dst r_crc]. rewrite request_bits by assumption. rewrite Ef, Hv.
        f_equal. lia.
    + change (N.eqb 0 (2 ^ 14)) with false. cbv iota. intro E. injection E as <-.
      cbn [fh_prio fh_spec fh_tid fh_index fh_last fh_data]. split.
      * unfold fheader_ok, dspec_ok, node_ok. cbn. repeat split; try assumption; lia.
      * split; [reflexivity|]. cbn [spec_source spec_dest spec_bits r_dst r_crc]. rewrite response_bits by assumption. rewrite Ef, Hv.
        f_equal. lia.
  - change (0 =? SPEC_SERVICE) with false. cbv iota. change (2 ^ 15) with 32768 in Hsm.
    rewrite (land_mask _ 15) by reflexivity. change (2 ^ 15) with 32768. rewrite N.mod_small by assumption.
    destruct (N.leb_spec sp 8191); [|discriminate].
    intro E. injection E as <-. cbn [fh_prio fh_spec fh_tid fh_index fh_last fh_data]. split.
    + unfold fheader_ok, dspec_ok, node_ok. cbn [fh_prio fh_spec fh_tid fh_index fh_last fh_data].
      repeat split; try assumption.
      destruct (N.eqb_spec s NODE_NONE) as [|Hn]; [exact I|]. unfold NODE_NONE in Hn. lia.
    + cbn [r_crc r_dst is_service_spec]. split; [discriminate|]. rewrite Ef, Hv.
      cbn [spec_source spec_dest spec_bits].
      destruct (N.eqb_spec s NODE_NONE) as [->|]; reflexivity.
Qed.

Lemma header_decode_ok b h : bytes_ok b -> length b = 24%nat -> header_decode b = Some h -> fheader_ok h.
Proof. intros Hb Hl H. apply (header_decode_inv b h Hb Hl H). Qed.

Lemma header_reencode b h : bytes_ok b -> length b = 24%nat -> header_decode b = Some h ->
  is_service_spec (fh_spec h) = true \/ u16_at 4 b = 65535 -> header_encode h = b.
Proof.
  intros Hb Hl H Hc. destruct (header_decode_inv b h Hb Hl H) as (Hok & Hsd & Hraw).
  destruct (raw_of_bytes_ok b Hb Hl) as [_ Hto].
  destruct (raw_bytes_fields b Hb Hl) as (_ & _ & _ & Ed & _).
  assert (Edst : r_dst (raw_of_bytes b) = spec_dest (fh_spec h)).
  { destruct (is_service_spec (fh_spec h)) eqn:Es; [auto|]. destruct Hc as [Hc|Hc]; [discriminate|].
    rewrite Ed, Hc. destruct (fh_spec h); try discriminate Es. reflexivity. }
  rewrite Edst in Hraw.
  assert (Hcrc : crc16 b = 0).
  { assert (header_well_formed b) by (apply header_decode_iff; congruence). unfold header_well_formed in *. tauto. }
  (* both strings are the same 22 bytes followed by a two-byte checksum *)
  pose proof (header_encode_crc h) as Hce.
  set (body := le_bytes 1 VERSION ++ le_bytes 1 (fh_prio h) ++ le_bytes 2 (spec_source (fh_spec h)) ++
     le_bytes 2 (spec_dest (fh_spec h)) ++ le_bytes 2 (spec_bits (fh_spec h)) ++ le_bytes 8 (fh_tid h) ++
     le_bytes 4 (N.lor (fh_index h) (if fh_last h then LAST_FRAME else 0)) ++ le_bytes 2 (fh_data h)).
  assert (E0 : forall c, raw_to_bytes (Raw VERSION (fh_prio h) (spec_source (fh_spec h)) (spec_dest (fh_spec h))
             (spec_bits (fh_spec h)) (fh_tid h) (N.lor (fh_index h) (if fh_last h then LAST_FRAME else 0)) (fh_data h) c)
             = body ++ be_bytes 2 c).
  { intro c. unfold raw_to_bytes, body. cbn [r_version r_prio r_src r_dst r_spec r_tid r_fie r_data r_crc].
    rewrite <- !app_assoc. reflexivity. }
  rewrite Hraw, E0 in Hto. unfold header_encode, raw_of_header in *. cbv zeta in *. rewrite E0 in Hce.
  rewrite E0.
  set (c1 := crc16 (firstn _ _)) in *. set (c2 := r_crc (raw_of_bytes b)) in *.
  rewrite <- Hto in Hcrc.
  assert (Hbe : forall c, exists x y, be_bytes 2 c = [x; y] /\ is_byte x /\ is_byte y).
  { intro c. unfold be_bytes. cbn [le_bytes rev app]. do 2 eexists. split; [reflexivity|].
    unfold is_byte. split; apply N.mod_lt; discriminate. }
  destruct (Hbe c1) as (x1 & y1 & E1 & X1 & Y1). destruct (Hbe c2) as (x2 & y2 & E2 & X2 & Y2).
  rewrite E1 in Hce |- *. rewrite E2 in Hcrc, Hto.
  apply crc16_residue_inv in Hce; [|assumption..]. apply crc16_residue_inv in Hcrc; [|assumption..].
  rewrite <- Hto. congruence.
Qed.

Lemma core_of_core h : core_header_ok h ->
  fheader_ok (of_core_header h) /\ as_core_header (of_core_header h) (h_ts h) = h.
Proof.
  destruct h as [[ts tid p s src]|[ts tid p s src d]|[ts tid p s src d]]; cbn; unfold svc_ok; cbn;
    intro H; unfold fheader_ok; cbn; (split; [|reflexivity]); repeat split; try tauto; lia.
Qed.

Lemma header_reencode_fields b h : bytes_ok b -> length b = 24%nat -> header_decode b = Some h ->
  firstn 4 (header_encode h) = firstn 4 b /\ slice 6 16 (header_encode h) = slice 6 16 b.
Proof.
  intros Hb Hl H. destruct (header_decode_inv b h Hb Hl H) as (Hok & Hsd & Hraw).
  destruct (raw_of_bytes_ok b Hb Hl) as [_ Hto]. rewrite <- Hto, Hraw.
  unfold header_encode, raw_of_header. cbv zeta.
  set (c1 := crc16 _). set (c2 := r_crc _). set (d1 := spec_dest _). set (d2 := r_dst _).
  clearbody c1 c2 d1 d2. unfold raw_to_bytes. cbn [r_version r_prio r_src r_dst r_spec r_tid r_fie r_data r_crc].
  split.
  - do 3 rewrite (app_assoc (le_bytes _ _) _ (_ ++ _)).
    reflexivity.
  - reflexivity.
Qed.
