(** Proofs about CAN identifiers, tail bytes and identifier filters. *)
From Verif Require Import Base BitLemmas CoreModel FilterModel CanIdModel CanSpec.
Ltac Zify.zify_post_hook ::= Z.div_mod_to_equations.

Lemma bit_set_div n k : bit_set n k = N.eqb ((n / 2 ^ k) mod 2) 1.
Proof. unfold bit_set. change 1 with (N.ones 1) at 1. rewrite N.land_ones, N.shiftr_div_pow2. reflexivity. Qed.
Lemma bit_set_testbit n k : bit_set n k = N.testbit n k.
Proof.
  rewrite bit_set_div. pose proof (N.testbit_spec' n k) as H. destruct (N.testbit n k); cbn [N.b2n] in H; rewrite <- H; reflexivity.
Qed.
Lemma get_u8_div n k : get_u8 n k = (n / 2 ^ k) mod 256.
Proof. unfold get_u8, w8. rewrite N.shiftr_div_pow2. reflexivity. Qed.
Lemma get_u16_div n k : get_u16 n k = (n / 2 ^ k) mod 65536.
Proof. unfold get_u16, w16. rewrite N.shiftr_div_pow2. reflexivity. Qed.
Lemma land_7f x : N.land x 0x7f = x mod 128. Proof. exact (N.land_ones x 7). Qed.
Lemma land_127 x : N.land x 127 = x mod 128. Proof. exact (N.land_ones x 7). Qed.
Lemma land_1f x : N.land x 0x1f = x mod 32. Proof. exact (N.land_ones x 5). Qed.
Lemma land_1ff x : N.land x 0x1ff = x mod 512. Proof. exact (N.land_ones x 9). Qed.
Lemma land_1fff x : N.land x 0x1fff = x mod 8192. Proof. exact (N.land_ones x 13). Qed.
Lemma land_29 x : N.land x 0x1fffffff = x mod 2 ^ 29. Proof. exact (N.land_ones x 29). Qed.

Lemma land_top x : x < 2 ^ 29 -> N.land x 0xe0000000 = 0.
Proof.
  intro H. apply N.bits_inj; intro i. rewrite N.land_spec, N.bits_0.
  destruct (N.lt_ge_cases i 29).
  - change 0xe0000000 with (N.shiftl 7 29). rewrite N.shiftl_spec_low by assumption. apply andb_false_r.
  - rewrite (testbit_high x 29) by assumption. reflexivity.
Qed.

Lemma mod_mod_mul x a b : a <> 0 -> b <> 0 -> (x mod (b * a)) mod b = x mod b.
Proof.
  intros Ha Hb. rewrite N.mod_mul_r by assumption. rewrite (N.mul_comm b), N.mod_add by assumption. apply N.mod_mod. assumption.
Qed.

(** parsing in arithmetic *)
Lemma parse_can_id_spec bits ts tid : bits < 2 ^ 29 ->
  parse_can_id bits ts tid =
  Ok (if N.eqb ((bits / 2 ^ 23) mod 2) 1 then None
      else if N.eqb ((bits / 2 ^ 25) mod 2) 1 then
        let s := SvcH ts tid ((bits / 2 ^ 26) mod 8) ((bits / 2 ^ 14) mod 512) (bits mod 128) ((bits / 2 ^ 7) mod 128) in
        Some (if N.eqb ((bits / 2 ^ 24) mod 2) 1 then HReq s else HResp s)
      else if N.eqb ((bits / 2 ^ 7) mod 2) 1 then None
      else Some (HMsg (MsgH ts tid ((bits / 2 ^ 26) mod 8) ((bits / 2 ^ 8) mod 8192)
                            (if N.eqb ((bits / 2 ^ 24) mod 2) 1 then None else Some (bits mod 128))))).
Proof.
  intro Hb. unfold parse_can_id. rewrite !bit_set_div, !get_u8_div, !get_u16_div, !land_7f, land_1ff, land_1fff.
  assert (E1 : (bits / 2 ^ 26) mod 256 = (bits / 2 ^ 26) mod 8).
  { change (2 ^ 26) with 67108864. change (2 ^ 29) with 536870912 in Hb. lia. }
  assert (E2 : ((bits / 2 ^ 0) mod 256) mod 128 = bits mod 128).
  { rewrite N.pow_0_r, N.div_1_r. apply (mod_mod_mul bits 2 128); discriminate. }
  assert (E3 : ((bits / 2 ^ 7) mod 256) mod 128 = (bits / 2 ^ 7) mod 128).
  { apply (mod_mod_mul _ 2 128); discriminate. }
  assert (E4 : ((bits / 2 ^ 14) mod 65536) mod 512 = (bits / 2 ^ 14) mod 512).
  { apply (mod_mod_mul _ 128 512); discriminate. }
  assert (E5 : ((bits / 2 ^ 8) mod 65536) mod 8192 = (bits / 2 ^ 8) mod 8192).
  { apply (mod_mod_mul _ 8 8192); discriminate. }
  rewrite E1, E2, E3, E4, E5. unfold expect_le.
  assert (H8 : ((bits / 2 ^ 26) mod 8 <=? 7) = true) by (apply N.leb_le; pose proof (N.mod_lt (bits / 2 ^ 26) 8); lia).
  assert (H1 : (bits mod 128 <=? 127) = true) by (apply N.leb_le; pose proof (N.mod_lt bits 128); lia).
  assert (H2 : ((bits / 2 ^ 7) mod 128 <=? 127) = true) by (apply N.leb_le; pose proof (N.mod_lt (bits / 2 ^ 7) 128); lia).
  assert (H3 : ((bits / 2 ^ 14) mod 512 <=? 511) = true) by (apply N.leb_le; pose proof (N.mod_lt (bits / 2 ^ 14) 512); lia).
  assert (H4 : ((bits / 2 ^ 8) mod 8192 <=? 8191) = true) by (apply N.leb_le; pose proof (N.mod_lt (bits / 2 ^ 8) 8192); lia).
  rewrite H8, H1, H2, H3, H4.
  destruct (N.eqb _ 1); [reflexivity|]. destruct (N.eqb ((bits / 2 ^ 25) mod 2) 1); [reflexivity|].
  destruct (N.eqb ((bits / 2 ^ 7) mod 2) 1); reflexivity.
Qed.

Definition set_ts_tid (h : header) (ts tid : N) : header :=
  match h with
  | HMsg m => HMsg (MsgH ts tid (mh_prio m) (mh_subject m) (mh_source m))
  | HReq s => HReq (SvcH ts tid (sh_prio s) (sh_service s) (sh_source s) (sh_dest s))
  | HResp s => HResp (SvcH ts tid (sh_prio s) (sh_service s) (sh_source s) (sh_dest s))
  end.

Ltac hcbn := cbn [h_prio h_ts h_tid mh_prio mh_ts mh_tid mh_subject mh_source sh_prio sh_ts sh_tid sh_service sh_source sh_dest].

Lemma mod2_cases x : x mod 2 = 0 \/ x mod 2 = 1. Proof. lia. Qed.

Lemma parse_can_id_iff bits ts tid h : bits < 2 ^ 29 ->
  (parse_can_id bits ts tid = Ok (Some h) <-> id_means bits h /\ h_ts h = ts /\ h_tid h = tid).
Proof.
  intro Hb. rewrite parse_can_id_spec by assumption. unfold id_means, bits_at.
  change (2 ^ 1) with 2. change (2 ^ 3) with 8. change (2 ^ 13) with 8192. change (2 ^ 9) with 512.
  change ((bits / 2 ^ 0) mod 2 ^ 7) with ((bits / 1) mod 128). change (2 ^ 7) with 128. rewrite N.div_1_r.
  destruct (mod2_cases (bits / 2 ^ 23)) as [E|E]; rewrite E; cbn [N.eqb Pos.eqb].
  2: { split; [discriminate|]. intros ((? & _) & _). discriminate. }
  destruct (mod2_cases (bits / 2 ^ 25)) as [E1|E1]; rewrite E1; cbn [N.eqb Pos.eqb].
  - destruct (mod2_cases (bits / 128)) as [E2|E2]; rewrite E2; cbn [N.eqb Pos.eqb].
    2: { split; [discriminate|]. destruct h; intuition discriminate. }
    destruct (mod2_cases (bits / 2 ^ 24)) as [E3|E3]; rewrite E3; cbn [N.eqb Pos.eqb].
    + split.
      * intro H. injection H as <-. hcbn. repeat split; reflexivity.
      * destruct h as [[a b c d [e|]]|[]|[]]; hcbn; intros ((? & ? & ? & ? & ? & Hx) & ? & ?); try discriminate.
        destruct Hx. subst. reflexivity.
    + split.
      * intro H. injection H as <-. hcbn. repeat split; reflexivity.
      * destruct h as [[a b c d [e|]]|[]|[]]; hcbn; intros ((? & ? & ? & ? & ? & Hx) & ? & ?); try discriminate; [destruct Hx; discriminate|].
        subst. reflexivity.
  - destruct (mod2_cases (bits / 2 ^ 24)) as [E3|E3]; rewrite E3; cbn [N.eqb Pos.eqb].
    + split.
      * intro H. injection H as <-. hcbn. repeat split; reflexivity.
      * destruct h as [[]|[]|[]]; hcbn; intros ((? & ? & ? & ? & ? & Hx) & ? & ?); try discriminate. destruct Hx. subst. reflexivity.
    + split.
      * intro H. injection H as <-. hcbn. repeat split; reflexivity.
      * destruct h as [[]|[]|[]]; hcbn; intros ((? & ? & ? & ? & ? & Hx) & ? & ?); try discriminate. destruct Hx. subst. reflexivity.
Qed.

Lemma parse_can_id_total bits ts tid : bits < 2 ^ 29 ->
  exists r, parse_can_id bits ts tid = Ok r /\
    (r = None <-> bits_at bits 23 1 = 1 \/ (bits_at bits 25 1 = 0 /\ bits_at bits 7 1 = 1)).
Proof.
  intro Hb. rewrite parse_can_id_spec by assumption. unfold bits_at. change (2 ^ 1) with 2.
  eexists; split; [reflexivity|].
  destruct (mod2_cases (bits / 2 ^ 23)) as [E|E]; rewrite E; cbn [N.eqb Pos.eqb]; [|intuition].
  destruct (mod2_cases (bits / 2 ^ 25)) as [E1|E1]; rewrite E1; cbn [N.eqb Pos.eqb]; [|intuition discriminate].
  destruct (mod2_cases (bits / 2 ^ 7)) as [E2|E2]; rewrite E2; cbn [N.eqb Pos.eqb]; intuition discriminate.
Qed.

Lemma parse_ok_fields bits ts tid h : bits < 2 ^ 29 -> ts < 2 ^ 32 -> tid <= 31 ->
  parse_can_id bits ts tid = Ok (Some h) -> can_header_ok h.
Proof.
  intros Hb Hts Htid. rewrite parse_can_id_spec by assumption.
  pose proof (N.mod_lt (bits / 2 ^ 26) 8). pose proof (N.mod_lt bits 128). pose proof (N.mod_lt (bits / 2 ^ 7) 128).
  pose proof (N.mod_lt (bits / 2 ^ 14) 512). pose proof (N.mod_lt (bits / 2 ^ 8) 8192).
  destruct (N.eqb _ 1); [discriminate|]. destruct (N.eqb ((bits / 2 ^ 25) mod 2) 1); cbv zeta.
  - destruct (N.eqb ((bits / 2 ^ 24) mod 2) 1); intro E; injection E as <-; unfold can_header_ok; cbn [h_prio h_tid h_ts sh_prio sh_tid sh_ts sh_service sh_source sh_dest]; lia.
  - destruct (N.eqb ((bits / 2 ^ 7) mod 2) 1); [discriminate|]. intro E; injection E as <-.
    unfold can_header_ok; cbn [h_prio h_tid h_ts mh_prio mh_tid mh_ts mh_subject mh_source].
    do 4 (split; [lia|]). intro s. destruct (N.eqb _ 1); [discriminate|]. intro E. injection E as <-. lia.
Qed.

(** the pseudo ID of anonymous transfers *)
Lemma pseudo_id_bound payload : make_pseudo_id payload <= 125.
Proof.
  unfold make_pseudo_id, node_truncate. rewrite land_127. set (x := _ mod 128).
  assert (Hx : x < 128) by (unfold x; apply N.mod_lt; discriminate). clearbody x.
  cbn [pseudo_loop]. unfold diagnostic_reserved, node_truncate.
  destruct (N.leb_spec (127 - 1) x) as [H|H]; [|lia]. rewrite !land_127.
  assert (x = 126 \/ x = 127) as [-> | ->] by lia; vm_compute; discriminate.
Qed.

Definition h_src_id (h : header) (payload : list N) : N :=
  match h_source h with Some s => s | None => make_pseudo_id payload end.

Lemma src_id_bound h payload : can_header_ok h -> h_src_id h payload <= 127.
Proof.
  intros (_ & _ & _ & H). unfold h_src_id. pose proof (pseudo_id_bound payload).
  destruct h as [m|s|s]; cbn [h_source]; try tauto. destruct (mh_source m) eqn:E; [|lia]. destruct H as (_ & H). auto.
Qed.

(** building in arithmetic *)
Lemma lor_add_hi a b k : b < 2 ^ k -> N.lor (N.shiftl a k) b = b + a * 2 ^ k.
Proof. intros. rewrite N.lor_comm. apply lor_shiftl_add. assumption. Qed.

Lemma lor_swap3 a b c : N.lor (N.lor a b) c = N.lor (N.lor b c) a.
Proof. rewrite (N.lor_comm a b), <- !N.lor_assoc, (N.lor_comm a c). reflexivity. Qed.

Lemma can_id_msg p s subj src (anon : bool) : p <= 7 -> src <= 127 -> subj <= 8191 -> s = N.b2n anon ->
  (let bits := N.lor (N.lor (N.lor (N.shiftl p 26) src) (N.shiftl subj 8)) (N.lor (N.shiftl 1 21) (N.shiftl 1 22)) in
   if anon then N.lor bits (N.shiftl 1 24) else bits)
  = src + subj * 2 ^ 8 + 3 * 2 ^ 21 + s * 2 ^ 24 + p * 2 ^ 26.
Proof.
  intros Hp Hs Hj ->. cbv zeta.
  assert (E : N.lor (N.lor (N.lor (N.shiftl p 26) src) (N.shiftl subj 8)) (N.lor (N.shiftl 1 21) (N.shiftl 1 22))
              = N.lor (N.lor (N.lor src (N.shiftl subj 8)) (N.shiftl 3 21)) (N.shiftl p 26)).
  { change (N.lor (N.shiftl 1 21) (N.shiftl 1 22)) with (N.shiftl 3 21).
    rewrite (N.lor_comm (N.shiftl p 26) src). rewrite <- !N.lor_assoc. f_equal. rewrite N.lor_comm, <- N.lor_assoc. reflexivity. }
  rewrite E. clear E.
  rewrite (lor_shiftl_add src subj 8) by (change (2 ^ 8) with 256; lia).
  rewrite (lor_shiftl_add (src + subj * 2 ^ 8) 3 21) by (change (2 ^ 8) with 256; change (2 ^ 21) with 2097152; lia).
  destruct anon; cbn [N.b2n].
  - rewrite <- N.lor_assoc, (N.lor_comm (N.shiftl p 26)), N.lor_assoc.
    rewrite (lor_shiftl_add _ 1 24) by (change (2 ^ 8) with 256; change (2 ^ 21) with 2097152; change (2 ^ 24) with 16777216; lia).
    rewrite (lor_shiftl_add _ p 26) by (change (2 ^ 8) with 256; change (2 ^ 21) with 2097152; change (2 ^ 24) with 16777216; change (2 ^ 26) with 67108864; lia).
    reflexivity.
  - rewrite (lor_shiftl_add _ p 26) by (change (2 ^ 8) with 256; change (2 ^ 21) with 2097152; change (2 ^ 26) with 67108864; lia).
    lia.
Qed.

Lemma can_id_svc p r srv src dst (req : bool) : p <= 7 -> src <= 127 -> dst <= 127 -> srv <= 511 -> r = N.b2n req ->
  (let bits := N.lor (N.lor (N.shiftl p 26) src) (N.lor (N.lor (N.shiftl srv 14) (N.shiftl dst 7)) (N.shiftl 1 25)) in
   if req then N.lor bits (N.shiftl 1 24) else bits)
  = src + dst * 2 ^ 7 + srv * 2 ^ 14 + r * 2 ^ 24 + 2 ^ 25 + p * 2 ^ 26.
Proof.
  intros Hp Hs Hd Hv ->. cbv zeta.
  set (P := N.shiftl p 26). set (V := N.shiftl srv 14). set (D := N.shiftl dst 7).
  assert (E : (if req then N.lor (N.lor (N.lor P src) (N.lor (N.lor V D) (N.shiftl 1 25))) (N.shiftl 1 24)
               else N.lor (N.lor P src) (N.lor (N.lor V D) (N.shiftl 1 25)))
              = N.lor (N.lor (N.lor (N.lor (N.lor src D) V) (N.shiftl (N.b2n req) 24)) (N.shiftl 1 25)) P).
  { apply N.bits_inj; intro i. destruct req; rewrite ?N.lor_spec; cbn [N.b2n]; rewrite ?N.shiftl_0_l, ?N.bits_0;
      destruct (N.testbit P i), (N.testbit src i), (N.testbit V i), (N.testbit D i), (N.testbit (N.shiftl 1 25) i); try reflexivity;
      rewrite ?orb_true_r, ?orb_false_r; reflexivity. }
  rewrite E. clear E. unfold P, V, D.
  assert (Hr : N.b2n req <= 1) by (destruct req; cbn; lia).
  rewrite (lor_shiftl_add src dst 7) by (change (2 ^ 7) with 128; lia).
  rewrite (lor_shiftl_add _ srv 14) by (change (2 ^ 7) with 128; change (2 ^ 14) with 16384; lia).
  rewrite (lor_shiftl_add _ (N.b2n req) 24) by (change (2 ^ 7) with 128; change (2 ^ 14) with 16384; change (2 ^ 24) with 16777216; lia).
  rewrite (lor_shiftl_add _ 1 25) by (change (2 ^ 7) with 128; change (2 ^ 14) with 16384; change (2 ^ 24) with 16777216; change (2 ^ 25) with 33554432; lia).
  rewrite (lor_shiftl_add _ p 26) by (change (2 ^ 7) with 128; change (2 ^ 14) with 16384; change (2 ^ 24) with 16777216; change (2 ^ 25) with 33554432; change (2 ^ 26) with 67108864; lia).
  lia.
Qed.

Definition can_id_value (h : header) (payload : list N) : N :=
  match h with
  | HMsg m => h_src_id h payload + mh_subject m * 2 ^ 8 + 3 * 2 ^ 21
              + (match mh_source m with None => 1 | Some _ => 0 end) * 2 ^ 24 + mh_prio m * 2 ^ 26
  | HReq s => sh_source s + sh_dest s * 2 ^ 7 + sh_service s * 2 ^ 14 + 1 * 2 ^ 24 + 2 ^ 25 + sh_prio s * 2 ^ 26
  | HResp s => sh_source s + sh_dest s * 2 ^ 7 + sh_service s * 2 ^ 14 + 0 * 2 ^ 24 + 2 ^ 25 + sh_prio s * 2 ^ 26
  end.

Ltac pows := change (2 ^ 7) with 128 in *; change (2 ^ 8) with 256 in *; change (2 ^ 14) with 16384 in *;
  change (2 ^ 21) with 2097152 in *; change (2 ^ 23) with 8388608 in *; change (2 ^ 24) with 16777216 in *;
  change (2 ^ 25) with 33554432 in *; change (2 ^ 26) with 67108864 in *; change (2 ^ 29) with 536870912 in *;
  change (2 ^ 0) with 1 in *; change (2 ^ 1) with 2 in *; change (2 ^ 3) with 8 in *; change (2 ^ 9) with 512 in *;
  change (2 ^ 13) with 8192 in *.

Lemma can_id_value_bound h payload : can_header_ok h -> can_id_value h payload < 2 ^ 29.
Proof.
  intro H. pose proof (src_id_bound h payload H). destruct H as (Hp & _ & _ & H). unfold can_id_value.
  destruct h as [m|s|s]; cbn [h_prio] in *.
  - pows. destruct (mh_source m); lia.
  - pows. lia.
  - pows. lia.
Qed.

Lemma make_can_id_spec h payload : can_header_ok h -> make_can_id h payload = Ok (can_id_value h payload).
Proof.
  intro H. pose proof (src_id_bound h payload H) as Hs. pose proof (can_id_value_bound h payload H) as Hb.
  pose proof (land_top _ Hb) as Ht. destruct H as (Hp & _ & _ & H). unfold make_can_id. fold (h_src_id h payload).
  destruct h as [m|s|s]; cbn [h_prio] in *.
  - destruct H as (Hj & _).
    assert (E : match mh_source m with
      | Some _ => N.lor (N.lor (N.lor (N.shiftl (mh_prio m) 26) (h_src_id (HMsg m) payload)) (N.shiftl (mh_subject m) 8)) (N.lor (N.shiftl 1 21) (N.shiftl 1 22))
      | None => N.lor (N.lor (N.lor (N.lor (N.shiftl (mh_prio m) 26) (h_src_id (HMsg m) payload)) (N.shiftl (mh_subject m) 8)) (N.lor (N.shiftl 1 21) (N.shiftl 1 22))) (N.shiftl 1 24)
      end = can_id_value (HMsg m) payload).
    { unfold can_id_value. destruct (mh_source m) eqn:Em.
      - apply (can_id_msg (mh_prio m) 0 (mh_subject m) (h_src_id (HMsg m) payload) false); auto.
      - apply (can_id_msg (mh_prio m) 1 (mh_subject m) (h_src_id (HMsg m) payload) true); auto. }
    cbv zeta. rewrite E. rewrite Ht. reflexivity.
  - destruct H as (H1 & H2 & H3). cbv zeta. unfold encode_service.
    pose proof (can_id_svc (sh_prio s) 1 (sh_service s) (h_src_id (HReq s) payload) (sh_dest s) true Hp Hs H3 H1 eq_refl) as E.
    cbv zeta beta iota in E. rewrite E. change (_ + _) with (can_id_value (HReq s) payload). rewrite Ht. reflexivity.
  - destruct H as (H1 & H2 & H3). cbv zeta. unfold encode_service.
    pose proof (can_id_svc (sh_prio s) 0 (sh_service s) (h_src_id (HResp s) payload) (sh_dest s) false Hp Hs H3 H1 eq_refl) as E.
    cbv zeta beta iota in E. rewrite E. change (_ + _) with (can_id_value (HResp s) payload). rewrite Ht. reflexivity.
Qed.

Lemma can_id_value_means h payload : can_header_ok h -> id_means (can_id_value h payload) h.
Proof.
  intro H. pose proof (src_id_bound h payload H) as Hs. destruct H as (Hp & _ & _ & H).
  unfold id_means, can_id_value, bits_at. destruct h as [m|s|s]; cbn [h_prio] in *; pows.
  - unfold h_src_id in *. cbn [h_source] in *. destruct H as (Hj & Hm).
    destruct (mh_source m) as [x|] eqn:Em.
    + repeat split; lia.
    + pose proof (pseudo_id_bound payload). repeat split; lia.
  - destruct H as (H1 & H2 & H3). repeat split; lia.
  - destruct H as (H1 & H2 & H3). repeat split; lia.
Qed.

(** tail bytes *)
Lemma make_tail_value s e t tid : tid <= 31 -> make_tail s e t tid = N.b2n s * 128 + N.b2n e * 64 + N.b2n t * 32 + tid.
Proof.
  intro H. unfold make_tail.
  rewrite (lor_add_hi (N.b2n s) (N.shiftl (N.b2n e) 6) 7).
  2: { destruct e; vm_compute; reflexivity. }
  rewrite N.shiftl_mul_pow2.
  assert (E : N.b2n e * 2 ^ 6 + N.b2n s * 2 ^ 7 = N.shiftl (N.b2n e + N.b2n s * 2) 6).
  { rewrite N.shiftl_mul_pow2. change (2 ^ 7) with 128. change (2 ^ 6) with 64. lia. }
  rewrite E. rewrite (lor_add_hi _ (N.shiftl (N.b2n t) 5) 6).
  2: { destruct t; vm_compute; reflexivity. }
  rewrite N.shiftl_mul_pow2.
  assert (E2 : N.b2n t * 2 ^ 5 + (N.b2n e + N.b2n s * 2) * 2 ^ 6 = N.shiftl (N.b2n t + (N.b2n e + N.b2n s * 2) * 2) 5).
  { rewrite N.shiftl_mul_pow2. change (2 ^ 5) with 32. change (2 ^ 6) with 64. lia. }
  rewrite E2. rewrite (lor_add_hi _ tid 5) by (change (2 ^ 5) with 32; lia).
  change (2 ^ 5) with 32. lia.
Qed.

Lemma make_tail_byte s e t tid : tid <= 31 -> make_tail s e t tid < 256.
Proof. intro H. rewrite make_tail_value by assumption. destruct s, e, t; cbn [N.b2n]; lia. Qed.

Lemma parse_make_tail s e t tid : tid <= 31 -> parse_tail (make_tail s e t tid) = Tail s e t tid.
Proof.
  intro H. unfold parse_tail. rewrite !bit_set_div, land_1f, make_tail_value by assumption.
  change (2 ^ 7) with 128. change (2 ^ 6) with 64. change (2 ^ 5) with 32.
  f_equal.
  - destruct s, e, t; cbn [N.b2n]; try (apply N.eqb_eq; lia); apply N.eqb_neq; lia.
  - destruct s, e, t; cbn [N.b2n]; try (apply N.eqb_eq; lia); apply N.eqb_neq; lia.
  - destruct s, e, t; cbn [N.b2n]; try (apply N.eqb_eq; lia); apply N.eqb_neq; lia.
  - destruct s, e, t; cbn [N.b2n]; lia.
Qed.

Lemma parse_tail_tid b : tl_tid (parse_tail b) <= 31.
Proof. unfold parse_tail. cbn [tl_tid]. rewrite land_1f. pose proof (N.mod_lt b 32). lia. Qed.

(** identifier filters *)
Lemma land_eq_bits m x y : N.land m x = N.land m y <-> forall i, N.testbit m i = true -> N.testbit x i = N.testbit y i.
Proof.
  split.
  - intros H i Hi. assert (E : N.testbit (N.land m x) i = N.testbit (N.land m y) i) by (rewrite H; reflexivity).
    rewrite !N.land_spec, Hi in E. exact E.
  - intro H. apply N.bits_inj; intro i. rewrite !N.land_spec. destruct (N.testbit m i) eqn:E; [rewrite (H i E); reflexivity|reflexivity].
Qed.

Lemma land_eq_lor a b x y : N.land (N.lor a b) x = N.land (N.lor a b) y <-> N.land a x = N.land a y /\ N.land b x = N.land b y.
Proof.
  rewrite !land_eq_bits. split.
  - intro H; split; intros i Hi; apply H; rewrite N.lor_spec, Hi; [reflexivity|apply orb_true_r].
  - intros (H1 & H2) i. rewrite N.lor_spec, orb_true_iff. intros [Hi|Hi]; auto.
Qed.

Lemma land_eq_field k w x y : N.land (N.shiftl (N.ones w) k) x = N.land (N.shiftl (N.ones w) k) y <-> bits_at x k w = bits_at y k w.
Proof.
  unfold bits_at. rewrite <- !N.shiftr_div_pow2, <- !N.land_ones. rewrite !(N.land_comm _ (N.ones w)), !land_eq_bits. split.
  - intros H i Hi. rewrite !N.shiftr_spec by lia. apply H. rewrite N.shiftl_spec_high by lia.
    replace (i + k - k) with i by lia. exact Hi.
  - intros H i Hi. destruct (N.lt_ge_cases i k) as [Hlt|Hge].
    + rewrite N.shiftl_spec_low in Hi by assumption. discriminate.
    + rewrite N.shiftl_spec_high in Hi by lia. specialize (H (i - k) Hi). rewrite !N.shiftr_spec in H by lia.
      replace (i - k + k) with i in H by lia. exact H.
Qed.

Lemma filter_new_id mask id : id < 2 ^ 29 -> filter_id (filter_new mask id) = id.
Proof.
  intro H. unfold filter_id, filter_new. cbn [fl_idv]. unfold EXTENDED_ID_MASK. rewrite !land_29, (N.mod_small id) by exact H.
  change VALID_BIT with (N.shiftl 1 31). rewrite lor_shiftl_add by (eapply N.lt_trans; [exact H|reflexivity]).
  change (1 * 2 ^ 31) with (4 * 2 ^ 29). rewrite N.mod_add by discriminate. apply N.mod_small. assumption.
Qed.

Lemma filter_new_accepts mask id x : mask < 2 ^ 29 -> id < 2 ^ 29 ->
  accepts (filter_new mask id) x = true <-> N.land mask x = N.land mask id.
Proof.
  intros Hm Hi. unfold accepts. rewrite filter_new_id by assumption. unfold filter_new; cbn [fl_mask]. unfold EXTENDED_ID_MASK.
  rewrite land_29, N.mod_small by exact Hm. apply N.eqb_eq.
Qed.

Lemma subject_filter_spec subject x : subject <= 8191 ->
  accepts (subject_filter subject) x = true <->
  bits_at x 25 1 = 0 /\ bits_at x 23 1 = 0 /\ bits_at x 7 1 = 0 /\ bits_at x 8 13 = subject.
Proof.
  intro H. unfold subject_filter.
  assert (Hv : N.lor 0x00600000 (N.shiftl subject 8) = subject * 256 + 3 * 2 ^ 21).
  { change 0x00600000 with (N.shiftl 3 21). rewrite lor_add_hi; [rewrite N.shiftl_mul_pow2; reflexivity|].
    rewrite N.shiftl_mul_pow2. pows. lia. }
  rewrite Hv. rewrite filter_new_accepts; [|reflexivity|pows; lia].
  change 0x029fff80 with (N.lor (N.shiftl (N.ones 1) 25) (N.lor (N.shiftl (N.ones 1) 23) (N.lor (N.shiftl (N.ones 1) 7) (N.shiftl (N.ones 13) 8)))).
  rewrite !land_eq_lor, !land_eq_field.
  assert (E1 : bits_at (subject * 256 + 3 * 2 ^ 21) 25 1 = 0) by (unfold bits_at; pows; lia).
  assert (E2 : bits_at (subject * 256 + 3 * 2 ^ 21) 23 1 = 0) by (unfold bits_at; pows; lia).
  assert (E3 : bits_at (subject * 256 + 3 * 2 ^ 21) 7 1 = 0) by (unfold bits_at; pows; lia).
  assert (E4 : bits_at (subject * 256 + 3 * 2 ^ 21) 8 13 = subject) by (unfold bits_at; pows; lia).
  rewrite E1, E2, E3, E4. tauto.
Qed.

Lemma service_filter_spec (req : bool) service dest x : service <= 511 -> dest <= 127 ->
  accepts (if req then request_filter service dest else response_filter service dest) x = true <->
  bits_at x 25 1 = 1 /\ bits_at x 24 1 = N.b2n req /\ bits_at x 23 1 = 0 /\ bits_at x 14 9 = service /\ bits_at x 7 7 = dest.
Proof.
  intros Hs Hd. set (v := dest * 128 + service * 2 ^ 14 + (2 + N.b2n req) * 2 ^ 24).
  assert (Hr : N.b2n req <= 1) by (destruct req; cbn; lia).
  assert (E : (if req then request_filter service dest else response_filter service dest) = filter_new 0x03ffff80 v).
  { unfold v. assert (Ed : N.shiftl dest 7 < 2 ^ 14) by (rewrite N.shiftl_mul_pow2; pows; lia).
    unfold request_filter, response_filter. rewrite (lor_add_hi service (N.shiftl dest 7) 14 Ed).
    change 0x03000000 with (N.shiftl 3 24). change 0x02000000 with (N.shiftl 2 24).
    assert (Eb : N.shiftl dest 7 + service * 2 ^ 14 < 2 ^ 24) by (rewrite N.shiftl_mul_pow2; pows; lia).
    rewrite !(lor_add_hi _ _ 24 Eb), N.shiftl_mul_pow2. destruct req; cbn [N.b2n]; f_equal; pows; lia. }
  rewrite E. rewrite filter_new_accepts; [|reflexivity|unfold v; pows; lia].
  change 0x03ffff80 with (N.lor (N.shiftl (N.ones 1) 25) (N.lor (N.shiftl (N.ones 1) 24) (N.lor (N.shiftl (N.ones 1) 23)
     (N.lor (N.shiftl (N.ones 9) 14) (N.shiftl (N.ones 7) 7))))).
  rewrite !land_eq_lor, !land_eq_field.
  assert (E1 : bits_at v 25 1 = 1) by (unfold v, bits_at; pows; lia).
  assert (E2 : bits_at v 24 1 = N.b2n req) by (unfold v, bits_at; pows; lia).
  assert (E3 : bits_at v 23 1 = 0) by (unfold v, bits_at; pows; lia).
  assert (E4 : bits_at v 14 9 = service) by (unfold v, bits_at; pows; lia).
  assert (E5 : bits_at v 7 7 = dest) by (unfold v, bits_at; change (2 ^ 7) with 128; pows; lia).
  rewrite E1, E2, E3, E4, E5. tauto.
Qed.
