(** The generated [serialize] functions write the encoding. *)
From Verif Require Import Base BitLemmas EncModel EncSpec EncWriteProofs EncReadProofs EncProps BlsModel BlsSpec BlsProofs GenModel GenSpec GenLenProofs GenSizeProofs.
Ltac Zify.zify_post_hook ::= Z.div_mod_to_equations.

Definition writes (p : nat) (ops : list wop) (bits : list bool) : Prop := packs p ops = bits /\ wops_ok p ops.
Lemma writes_nil p : writes p [] [].
Proof. split; [reflexivity|exact I]. Qed.
Lemma writes_one p op bits : pack p op = bits -> wop_ok p op -> writes p [op] bits.
Proof. intros H1 H2. split; cbn [packs wops_ok]; [cbv zeta; rewrite app_nil_r; assumption|tauto]. Qed.
Lemma writes_app p a b x y : writes p a x -> writes (p + length x) b y -> writes p (a ++ b) (x ++ y).
Proof. intros (H1 & H2) (H3 & H4). split; [rewrite packs_app, H1, H3; reflexivity|]. apply wops_ok_app. rewrite H1. tauto. Qed.
Lemma writes_cons p op b x y : pack p op = x -> wop_ok p op -> writes (p + length x) b y -> writes p (op :: b) (x ++ y).
Proof. intros H1 H2 H3. apply (writes_app p [op] b); [apply writes_one; assumption|assumption]. Qed.

(** Positions matter modulo 8 only. *)
Lemma ok_mod_of ops : (forall op, In op ops -> forall p q, (p mod 8 = q mod 8)%nat -> wop_ok p op -> wop_ok q op) ->
  forall p q, (p mod 8 = q mod 8)%nat -> wops_ok p ops -> wops_ok q ops.
Proof.
  induction ops as [|op ops IH]; intros Hall p q H; cbn [wops_ok]; [trivial|]. intros (H1 & H2). split; [apply (Hall op (or_introl eq_refl) p q H H1)|].
  apply (IH (fun o Ho => Hall o (or_intror Ho)) (p + length (pack p op))%nat); [|assumption]. rewrite (pack_mod op p q H). lia.
Qed.
Lemma ok_mod : forall op p q, (p mod 8 = q mod 8)%nat -> wop_ok p op -> wop_ok q op.
Proof.
  fix IH 1. intros op p q H. destruct op as [n v|b|n| |k v|bs|bs|a|delimited size body]; cbn [wop_ok]; try trivial; try (rewrite H; trivial).
  rewrite !wops_ok_nested. rewrite (pad8_mod p q H). set (k := length (pad8 q)). intros (H1 & H2).
  assert (E : ((if delimited then (p + k + 32) else (p + k)) mod 8 = (if delimited then (q + k + 32) else (q + k)) mod 8)%nat) by (destruct delimited; lia).
  split; [|rewrite <- (packs_mod body _ _ E); exact H2].
  revert H1. clear H2. revert E. generalize (if delimited then (p + k + 32)%nat else (p + k)%nat) (if delimited then (q + k + 32)%nat else (q + k)%nat). clear p q H k.
  induction body as [|op body IHb]; intros p q H; cbn [wops_ok]; [trivial|]. intros (H1 & H2). split; [apply (IH op p q H H1)|].
  apply (IHb (p + length (pack p op))%nat); [|assumption]. rewrite (pack_mod op p q H). lia.
Qed.
Lemma writes_mod p q ops bits : (p mod 8 = q mod 8)%nat -> writes p ops bits -> writes q ops bits.
Proof. intros H (H1 & H2). split; [rewrite <- (packs_mod ops p q H); assumption|]. apply (ok_mod_of ops (fun op _ => ok_mod op) p q H H2). Qed.

(** ** Primitive values *)
Lemma aligned_width_eq bits : aligned_width bits = true -> (8 * (bits / 8) = bits)%nat.
Proof. unfold aligned_width. rewrite !orb_true_iff, !Nat.eqb_eq. intros [[[-> | ->] | ->] | ->]; reflexivity. Qed.
Lemma call_write_spec p aligned bits n : (1 <= bits <= 64)%nat -> (aligned = true -> (p mod 8 = 0)%nat) -> pack p (call_write aligned bits n) = bits_of bits n /\ wop_ok p (call_write aligned bits n).
Proof.
  intros Hb Ha. unfold call_write. destruct (aligned && aligned_width bits) eqn:E; cbn [pack wop_ok]; [|tauto]. apply andb_true_iff in E as (E1 & E2). rewrite aligned_width_eq by assumption. auto.
Qed.
Lemma round_up_ge bits : (bits <= 64)%nat -> (bits <= round_up_integer_size bits)%nat.
Proof. unfold round_up_integer_size. intro. destruct (Nat.leb_spec bits 8); [lia|]. destruct (Nat.leb_spec bits 16); [lia|]. destruct (Nat.leb_spec bits 32); lia. Qed.
Lemma bits_of_ext n a b : (forall i, (i < n)%nat -> N.testbit a (N.of_nat i) = N.testbit b (N.of_nat i)) -> bits_of n a = bits_of n b.
Proof. intro H. unfold bits_of. apply map_ext_in. intros i Hi. apply H. apply in_seq in Hi. lia. Qed.
Lemma testbit_wrap z w i : (i < w)%nat -> N.testbit (Z.to_N (z mod 2 ^ Z.of_nat w)) (N.of_nat i) = Z.testbit z (Z.of_nat i).
Proof.
  intro H. rewrite <- Z.testbit_of_N, Z2N.id by (apply Z.mod_pos_bound, Z.pow_pos_nonneg; lia). rewrite nat_N_Z. apply Z.mod_pow2_bits_low. lia.
Qed.
Lemma as_unsigned_bits bits z : (bits <= 64)%nat -> bits_of bits (as_unsigned bits z) = bits_of bits (Z.to_N (z mod 2 ^ Z.of_nat bits)).
Proof. intro H. apply bits_of_ext. intros i Hi. unfold as_unsigned. pose proof (round_up_ge bits H). rewrite !testbit_wrap by lia. reflexivity. Qed.
Lemma prim_wf_bits p : prim_wf p = true -> (1 <= prim_bits p <= 64)%nat.
Proof. unfold prim_wf. rewrite andb_true_iff, !Nat.leb_le. tauto. Qed.
Lemma write_prim_spec p aligned pr v : prim_wf pr = true -> prim_fits pr v = true -> (aligned = true -> (p mod 8 = 0)%nat) -> writes p (write_prim aligned pr v) (enc_prim pr v).
Proof.
  intros W F A. pose proof (prim_wf_bits pr W) as B.
  destruct pr, v; cbn [prim_fits] in F; try discriminate; cbn [write_prim enc_prim prim_bits] in *; (apply writes_one; [|try (apply call_write_spec; [lia|assumption])]);
    try (apply call_write_spec; [lia|assumption]); try reflexivity; try exact I; try (cbn [wop_ok]; lia).
  rewrite <- as_unsigned_bits by lia. apply call_write_spec; [lia|assumption].
Qed.

(** ** Bit arrays *)
Lemma nth_map_seq' {A} (f : nat -> A) d n i : (i < n)%nat -> nth i (map f (seq 0 n)) d = f i.
Proof. intro H. rewrite (nth_indep _ d (f O)) by (rewrite map_length, seq_length; assumption). rewrite map_nth, seq_nth by assumption. reflexivity. Qed.
Lemma value_of_bound bits : value_of bits < 2 ^ N.of_nat (length bits).
Proof.
  induction bits as [|b bits IH]; [reflexivity|]. unfold value_of in *. cbn [fold_right length]. rewrite Nat2N.inj_succ, N.pow_succ_r'. destruct b; cbn [N.b2n]; lia.
Qed.
Lemma byte_of_bits (bits : list bool) i j : (j < 8)%nat -> N.testbit (value_of (map (fun j => nth (8 * i + j) bits false) (seq 0 8))) (N.of_nat j) = nth (8 * i + j) bits false.
Proof. intro H. rewrite value_of_testbit. rewrite nth_map_seq' by assumption. reflexivity. Qed.
Lemma bit_array_spec BYTES bits : (length bits <= 8 * BYTES)%nat -> ba_ok (bit_array BYTES bits) /\ ba_len (bit_array BYTES bits) = length bits /\ length (ba_bytes (bit_array BYTES bits)) = BYTES /\
  map (stream_bit (ba_bytes (bit_array BYTES bits))) (seq 0 (length bits)) = bits.
Proof.
  intro H. unfold bit_array, ba_ok. cbn [ba_bytes ba_len]. split; [split|split; [reflexivity|split]].
  - apply Forall_map, Forall_forall. intros i _. pose proof (value_of_bound (map (fun j => nth (8 * i + j) bits false) (seq 0 8))) as HB. rewrite map_length, seq_length in HB. exact HB.
  - rewrite map_length, seq_length. assumption.
  - rewrite map_length, seq_length. reflexivity.
  - apply nth_ext with (d := false) (d' := false); [rewrite map_length, seq_length; reflexivity|]. rewrite map_length, seq_length. intros i Hi.
    rewrite nth_map_seq' by assumption. unfold stream_bit. rewrite nth_map_seq' by lia.
    rewrite byte_of_bits by lia. f_equal. lia.
Qed.
Lemma bool_items (bits : list bool) : flat_map (enc_scalar enc (SPrimitive PBool)) (map VBool bits) = bits.
Proof. induction bits as [|b bits IH]; [reflexivity|]. cbn [map flat_map enc_scalar enc_prim app]. rewrite IH. reflexivity. Qed.
Lemma bit_array_bytes_le len n : N.of_nat n <= len -> (n <= 8 * bit_array_bytes len)%nat.
Proof. unfold bit_array_bytes. intro H. lia. Qed.

(** ** Elements of arrays *)
Lemma bytes_items pr vs : is_bytes pr = true -> Forall (fun x => scalar_fits prim_fits fits (SPrimitive pr) x = true) vs ->
  bytes_ok (map unsigned_of vs) /\ flat_map (bits_of 8) (map unsigned_of vs) = flat_map (enc_scalar enc (SPrimitive pr)) vs.
Proof.
  intros Hb. assert (P8 : prim_bits pr = 8%nat) by (destruct pr as [| | |b|b| | |]; try discriminate; try reflexivity; cbn in Hb; do 9 (destruct b as [|b]; try discriminate); reflexivity).
  assert (U : forall v, prim_fits pr v = true -> exists n, v = VUnsigned n /\ n < 256).
  { intros v F. destruct pr; try discriminate; destruct v; cbn [prim_fits] in F; try discriminate; exists n; (split; [reflexivity|]); apply N.ltb_lt in F; rewrite P8 in F; exact F. }
  induction 1 as [|x vs Hx _ (I1 & I2)]; [split; [constructor|reflexivity]|]. cbn [scalar_fits] in Hx. destruct (U x Hx) as (n & -> & Hn). cbn [map unsigned_of flat_map enc_scalar enc_prim]. rewrite I2, P8.
  split; [constructor; assumption|reflexivity].
Qed.
Lemma prims_items pr vs : prim_wf pr = true -> Forall (fun x => scalar_fits prim_fits fits (SPrimitive pr) x = true) vs ->
  forall p, writes p (flat_map (write_prim false pr) vs) (flat_map (enc_scalar enc (SPrimitive pr)) vs).
Proof.
  intros W. induction 1 as [|x vs Hx _ IH]; intro p; [apply writes_nil|]. cbn [flat_map]. apply writes_app; [|apply IH]. cbn [enc_scalar]. apply write_prim_spec; [assumption|exact Hx|discriminate].
Qed.

(** ** Composites *)
Definition limit : N := 8 * (2 ^ 32 - 1).
Definition below (bits : list bool) : Prop := N.of_nat (length bits) < limit.
Lemma below_app a b : below (a ++ b) -> below a /\ below b.
Proof. unfold below. rewrite app_length. lia. Qed.
Definition written (m : message) : Prop :=
  wf m = true -> bls_ok (bit_length m) -> good m = true -> forall v, fits m v = true -> below (enc m v) -> writes 0 (serialize m v) (content m v).
Definition composite_written (m : message) (v : value) : Prop :=
  forall p, below (enc_scalar enc (SComposite m) v) -> writes p [write_composite_of serialize m v] (pad8 p ++ enc_scalar enc (SComposite m) v).
Lemma composite_written_intro m v : written m -> wf m = true -> bls_ok (bit_length m) -> good m = true -> fits m v = true -> composite_written m v.
Proof.
  intros H W B G F p L. assert (L' : below (enc m v)) by (cbn [enc_scalar] in L; apply below_app in L; apply L). specialize (H W B G v F L').
  assert (E8 : ((p + length (pad8 p)) mod 8 = 0)%nat) by (rewrite pad8_length; lia).
  assert (S8 : ((if delimited m then p + length (pad8 p) + 32 else p + length (pad8 p)) mod 8 = 0 mod 8)%nat) by (destruct (delimited m); lia).
  apply (writes_mod 0 _ _ _ (eq_sym S8)) in H. destruct H as (H1 & H2).
  apply writes_one; unfold write_composite_of; cbn [pack wop_ok].
  - rewrite packs_nested. cbv zeta. rewrite H1. cbn [enc_scalar]. f_equal. rewrite enc_content. unfold pad_to_byte.
    rewrite (pad8_mod (p + length (pad8 p) + length (content m v)) (length (content m v))) by lia. reflexivity.
  - rewrite wops_ok_nested. split; [exact H2|]. intros _. rewrite H1. pose proof (sizes_right m W B G v F) as S. rewrite enc_content in S. unfold pad_to_byte in S. rewrite app_length, pad8_length, next_multiple_8 in S.
    split; [lia|]. unfold below, limit in L'. rewrite enc_content in L'. unfold pad_to_byte in L'. rewrite app_length, pad8_length in L'. lia.
Qed.
Lemma composites_items m vs : Forall (fun x => composite_written m x) vs -> below (flat_map (enc_scalar enc (SComposite m)) vs) ->
  forall p, ((p mod 8 = 0)%nat \/ vs <> []) -> writes p (map (write_composite_of serialize m) vs) (pad8 p ++ flat_map (enc_scalar enc (SComposite m)) vs).
Proof.
  intros H. induction H as [|x vs Hx _ IH]; intros L p Hp.
  - destruct Hp as [Hp|Hp]; [|congruence]. rewrite pad8_aligned by assumption. apply writes_nil.
  - cbn [map flat_map] in *. apply below_app in L as (L1 & L2). rewrite app_assoc. set (q := (p + length (pad8 p ++ enc_scalar enc (SComposite m) x))%nat).
    assert (Q : (q mod 8 = 0)%nat) by (unfold q; rewrite app_length, pad8_length; pose proof (enc_composite_mod m x); lia).
    change (write_composite_of serialize m x :: map (write_composite_of serialize m) vs) with ([write_composite_of serialize m x] ++ map (write_composite_of serialize m) vs).
    apply writes_app; [apply Hx, L1|]. fold q. specialize (IH L2 q (or_introl Q)). rewrite pad8_aligned in IH by assumption. exact IH.
Qed.

(** ** Fields *)
Definition scalar_written (s : scalar message) : Prop :=
  match s with SComposite m => forall v, fits m v = true -> composite_written m v | SPrimitive p => prim_wf p = true end.
Lemma elements_written s vs p : scalar_written s -> Forall (fun x => scalar_fits prim_fits fits s x = true) vs -> below (flat_map (enc_scalar enc s) vs) ->
  (match s with SComposite _ => (p mod 8 = 0)%nat \/ vs <> [] | SPrimitive _ => True end) ->
  writes p (write_elements serialize s vs) ((match s with SComposite _ => pad8 p | SPrimitive _ => [] end) ++ flat_map (enc_scalar enc s) vs).
Proof.
  intros H F L P. destruct s as [m|pr]; cbn [write_elements scalar_written] in *.
  - apply composites_items; try assumption. eapply Forall_impl; [|exact F]. exact H.
  - rewrite app_nil_l. destruct (is_bytes pr) eqn:E; [|apply prims_items; assumption]. destruct (bytes_items pr vs E F) as (B1 & B2). apply writes_one; [exact B2|exact B1].
Qed.
Lemma prefix_range n : (1 <= prefix_bits n <= 64)%nat.
Proof. destruct (prefix_bits_cases n) as [-> | [-> | [-> | ->] ] ]; lia. Qed.
Lemma type_written aligned t v p : type_wf wf t = true -> scalar_written (type_scalar t) -> type_fits prim_fits (fun _ _ => true) fits t v = true ->
  below (enc_type enc p t v) -> (aligned = true -> (p mod 8 = 0)%nat) -> (variable_composite t = true -> (p mod 8 = 0)%nat) ->
  writes p (write_type serialize aligned t v) (enc_type enc p t v).
Proof.
  intros W H F L A V. unfold enc_type in *. apply below_app in L as (_ & L). destruct t as [s|s n|s n]; cbn [type_scalar] in H.
  - cbn [write_type enc_body enc_align] in *. destruct s as [m|pr]; cbn [write_scalar scalar_written] in *.
    + apply H; assumption.
    + cbn [enc_scalar app]. apply write_prim_spec; assumption.
  - destruct (type_fits_fixed _ _ _ _ _ _ fits_bool F) as (F1 & F2). cbn [enc_body] in L.
    assert (Gen : forall vs, v = VArray vs -> writes p (write_elements serialize s vs) (enc_align p (TFixed s n) ++ enc_body enc (TFixed s n) v)).
    { intros vs ->. cbn [array_items] in *. replace (enc_align p (TFixed s n)) with (match s with SComposite _ => pad8 p | SPrimitive _ => [] end) by (destruct s; reflexivity). apply elements_written; try assumption.
      destruct s; [|exact I]. right. intros ->. cbn [length] in F1. cbn [type_wf] in W. rewrite !andb_true_iff, N.leb_le in W. lia. }
    destruct s as [m|pr]; [|destruct pr]; destruct v as [| | |bl|vs| |]; cbn [type_fits] in F; try discriminate; cbn [write_type]; try (apply Gen; reflexivity).
    apply writes_one; cbn [pack wop_ok].
    + destruct (bit_array_spec (bit_array_bytes n) bl) as (_ & B2 & _ & B4); [apply bit_array_bytes_le; apply N.eqb_eq in F; lia|]. rewrite B2, B4. cbn [enc_align enc_body array_items app]. symmetry. apply bool_items.
    + apply bit_array_spec. apply bit_array_bytes_le. apply N.eqb_eq in F. lia.
  - destruct (type_fits_variable _ _ _ _ _ _ fits_bool F) as (F1 & F2). cbn [enc_body] in L. apply below_app in L as (_ & L).
    pose proof (variable_wf _ _ _ W) as W64. pose proof (prefix_bits_mod n) as P8. pose proof (prefix_range n) as PR.
    assert (Al : enc_align p (TVariable s n) = []) by (destruct s as [m|pr]; [cbn [enc_align]; apply pad8_aligned, V; reflexivity|reflexivity]). rewrite Al, app_nil_l. cbn [enc_body].
    assert (EW : N.to_nat (array_length_bits n) = prefix_bits n) by (rewrite array_length_bits_prefix by assumption; apply Nat2N.id).
    assert (Gen : forall vs, v = VArray vs -> writes p (call_write aligned (N.to_nat (array_length_bits n)) (N.of_nat (length vs)) :: write_elements serialize s vs)
               (bits_of (prefix_bits n) (N.of_nat (length (array_items v))) ++ flat_map (enc_scalar enc s) (array_items v))).
    { intros vs ->. cbn [array_items] in *. rewrite EW. destruct (call_write_spec p aligned (prefix_bits n) (N.of_nat (length vs)) PR A) as (C1 & C2). apply writes_cons; [assumption|assumption|]. rewrite bits_of_length.
      replace (flat_map (enc_scalar enc s) vs) with ((match s with SComposite _ => pad8 (p + prefix_bits n) | SPrimitive _ => [] end) ++ flat_map (enc_scalar enc s) vs).
      - apply elements_written; try assumption. destruct s; [|exact I]. left. specialize (V eq_refl). lia.
      - destruct s; [|reflexivity]. rewrite pad8_aligned; [reflexivity|]. specialize (V eq_refl). lia. }
    destruct s as [m|pr]; [|destruct pr]; destruct v as [| | |bl|vs| |]; cbn [type_fits] in F; try discriminate; cbn [write_type]; try (apply Gen; reflexivity).
    rewrite EW. cbn [array_items]. rewrite map_length, bool_items. destruct (call_write_spec p aligned (prefix_bits n) (N.of_nat (length bl)) PR A) as (C1 & C2).
    apply andb_true_iff in F as (F & _). apply N.leb_le in F.
    destruct (bit_array_spec (bit_array_bytes n) bl) as (B1 & B2 & _ & B4); [apply bit_array_bytes_le, F|]. apply writes_cons; [assumption|assumption|]. apply writes_one; cbn [pack wop_ok]; [rewrite B2; exact B4|exact B1].
Qed.

(** ** Zero-copy structs *)
Definition zc_written (m : message) : Prop :=
  wf m = true -> good m = true -> supports_zero_copy m = true -> forall v, fits m v = true ->
  flat_map (bits_of 8) (memory m v) = content m v /\ bytes_ok (memory m v) /\ (length (content m v) mod 8 = 0)%nat.
Lemma message_zc m : message_zero_copy m = true -> supports_zero_copy m = true.
Proof. destruct m as [d [fs|ts] ]; cbn [message_zero_copy supports_zero_copy]; [|tauto]. destruct (fixed_size _); [|tauto]. rewrite andb_true_iff. tauto. Qed.
Lemma flat_map_app' {A B} (f : A -> list B) a b : flat_map f (a ++ b) = flat_map f a ++ flat_map f b.
Proof. induction a as [|x a IH]; [reflexivity|]. cbn [app flat_map]. rewrite IH, app_assoc. reflexivity. Qed.
Definition scalar_zc (s : scalar message) : Prop := forall v, scalar_fits prim_fits fits s v = true ->
  flat_map (bits_of 8) (scalar_memory memory s v) = enc_scalar enc s v /\ bytes_ok (scalar_memory memory s v) /\ (length (enc_scalar enc s v) mod 8 = 0)%nat.
Lemma prim_zc pr : scalar_zero_copy message_zero_copy (SPrimitive pr) = true -> scalar_zc (SPrimitive pr).
Proof.
  intros Z v F. assert (A : (8 * (prim_bits pr / 8) = prim_bits pr)%nat) by (destruct pr; cbn [scalar_zero_copy prim_bits] in *; try discriminate; try reflexivity; apply aligned_width_eq, Z).
  assert (L : (prim_bits pr <= 64)%nat) by (destruct pr; cbn [scalar_zero_copy prim_bits] in *; try discriminate; try lia; rewrite !orb_true_iff, !Nat.eqb_eq in Z; lia).
  cbn [scalar_fits] in F. cbn [scalar_memory enc_scalar].
  split; [|split; [|rewrite enc_prim_length by exact F; lia]].
  - destruct pr, v; cbn [prim_fits] in F; try discriminate; cbn [enc_prim]; rewrite flat_le_bytes; try (rewrite A; reflexivity).
    cbn [prim_bits] in A, L. rewrite A, as_unsigned_bits by assumption. reflexivity.
  - destruct pr, v; cbn [prim_fits] in F; try discriminate; apply le_bytes_ok.
Qed.
Lemma scalar_zc_intro s : scalar_all zc_written s -> scalar_wf wf s = true -> scalar_deep good s = true -> scalar_zero_copy message_zero_copy s = true -> sealed s = true -> scalar_zc s.
Proof.
  destruct s as [m|pr]; [|intros _ _ _ Z _; apply prim_zc, Z]. cbn [scalar_all scalar_wf scalar_deep scalar_zero_copy]. intros H W G Z S v F. unfold sealed in S. cbn [scalar_delimited] in S. apply negb_true_iff in S.
  destruct (H W G (message_zc m Z) v F) as (H1 & H2 & H3). cbn [scalar_memory enc_scalar]. rewrite S. cbn [app].
  assert (E : enc m v = content m v) by (rewrite enc_content; unfold pad_to_byte; rewrite pad8_aligned, app_nil_r by assumption; reflexivity). rewrite E. auto.
Qed.
Lemma type_zc t v : scalar_zc (type_scalar t) -> type_zero_copy message_zero_copy t = true -> type_fits prim_fits (fun _ _ => true) fits t v = true ->
  flat_map (bits_of 8) (type_memory memory t v) = enc_body enc t v /\ bytes_ok (type_memory memory t v) /\ (length (enc_body enc t v) mod 8 = 0)%nat.
Proof.
  intros H Z F. destruct t as [s|s n|s n]; cbn [type_scalar type_zero_copy type_memory enc_body] in *; [apply H, F| |discriminate].
  destruct (type_fits_fixed _ _ _ _ _ _ fits_bool F) as (_ & F2).
  destruct v as [| | |bl|vs| |]; try (destruct s as [m|[]]; discriminate).
  cbn [array_items] in *. clear F. induction F2 as [|x vs Hx _ (I1 & I2 & I3)]; [split; [reflexivity|]; split; [constructor|reflexivity]|].
  cbn [flat_map]. destruct (H x Hx) as (H1 & H2 & H3). split; [rewrite flat_map_app'; congruence|]. split; [apply bytes_ok_app; split; assumption|]. rewrite app_length. lia.
Qed.
Lemma members_zc fs : Forall (member_all zc_written) fs -> Forall (fun f => member_wf wf f = true) fs -> Forall (fun f => member_deep good f = true) fs ->
  members_zero_copy message_zero_copy fs = true -> no_delimited fs = true -> forall p vs, (p mod 8 = 0)%nat -> members_fit prim_fits (fun _ _ => true) fits fs vs = true ->
  flat_map (bits_of 8) (members_memory memory fs vs) = enc_members enc p fs vs /\ bytes_ok (members_memory memory fs vs) /\ (length (enc_members enc p fs vs) mod 8 = 0)%nat.
Proof.
  induction 1 as [|f fs Hf _ IH]; intros W G Z S p vs P F; [split; [reflexivity|]; split; [constructor|reflexivity]|].
  inversion W as [|? ? W1 W2]; subst. inversion G as [|? ? G1 G2]; subst. destruct f as [bits|t]; [discriminate|]. cbn [members_zero_copy] in Z. unfold no_delimited in S. cbn [forallb] in S.
  apply andb_true_iff in Z as (Z1 & Z2). apply andb_true_iff in S as (S1 & S2). destruct vs as [|v vs]; [discriminate|]. cbn [members_fit] in F. apply andb_true_iff in F as (F1 & F2).
  assert (Zs : scalar_zc (type_scalar t)).
  { apply scalar_zc_intro; [exact Hf|apply type_wf_scalar, W1|exact G1| |exact S1]. destruct t; cbn [type_zero_copy type_scalar] in *; try assumption. discriminate. }
  destruct (type_zc t v Zs Z1 F1) as (T1 & T2 & T3). cbn [members_memory enc_members]. cbv zeta. unfold enc_type. rewrite enc_align_aligned by assumption. rewrite app_nil_l.
  destruct (IH W2 G2 Z2 S2 (p + length (enc_body enc t v))%nat vs) as (I1 & I2 & I3); [lia|assumption|].
  split; [rewrite flat_map_app'; congruence|]. split; [apply bytes_ok_app; split; assumption|]. rewrite app_length. lia.
Qed.
Lemma good_parts d k : good (Message d k) = true -> good_here (Message d k) = true /\ kind_deep good k = true.
Proof. cbn [good]. rewrite andb_true_iff. tauto. Qed.
Lemma good_struct d fs : good_here (Message d (KStruct fs)) = true -> flags_ok variable_composite None fs /\ (supports_zero_copy (Message d (KStruct fs)) = true -> no_delimited fs = true).
Proof.
  unfold good_here. rewrite andb_true_iff, andb_true_iff. intros (_ & H1 & H2). split; [exact H1|]. intro Z. rewrite Z in H2. exact H2.
Qed.
Lemma good_union d ts : good_here (Message d (KUnion ts)) = true -> tag_right ts = true.
Proof. unfold good_here. rewrite andb_true_iff. tauto. Qed.
Theorem zc_right : forall m, zc_written m.
Proof.
  apply message_ind'. intros d k H W G Z v F. apply good_parts in G as (G1 & G2). destruct k as [fs|ts]; [|discriminate]. apply good_struct in G1 as (_ & G1). specialize (G1 Z). cbn [supports_zero_copy] in Z.
  destruct (fixed_size _); [|discriminate]. unfold fits in F. cbn [fits_gen] in F. destruct v as [| | | | |vs|]; try discriminate. cbn [memory content enc_kind]. cbn [kind_all kind_deep] in *.
  apply (members_zc fs H (wf_struct _ _ W) (Forall_of_forallb _ _ G2) Z G1 O vs eq_refl F).
Qed.

(** ** Structs and unions *)
Lemma scalar_written_intro s : scalar_all written s -> scalar_wf wf s = true -> scalar_all (fun m => bls_ok (bit_length m)) s -> scalar_deep good s = true -> scalar_written s.
Proof.
  destruct s as [m|pr]; cbn [scalar_all scalar_wf scalar_deep scalar_written]; [|tauto]. intros H W B G v F. apply composite_written_intro; assumption.
Qed.
Lemma members_written fs : Forall (member_all written) fs -> Forall (fun f => member_wf wf f = true) fs -> Forall (fun f => member_deep good f = true) fs ->
  forall before p vs, at8 before p -> nice_opt before -> flags_ok variable_composite before fs -> bls_ok (struct_length bit_length before fs) ->
  members_fit prim_fits (fun _ _ => true) fits fs vs = true -> below (enc_members enc p fs vs) ->
  writes p (write_members serialize before fs vs) (enc_members enc p fs vs).
Proof.
  induction 1 as [|f fs Hf _ IH]; intros W G before p vs A N8 Fl B F L; cbn [write_members enc_members]; [apply writes_nil|].
  inversion W as [|? ? W1 W2]; subst. inversion G as [|? ? G1 G2]; subst. pose proof (ok_struct_add _ _ _ B) as Ba. pose proof (ok_add _ _ _ Ba) as (Bb & Bm). destruct f as [bits|t].
  - cbn [members_fit] in F. cbn [enc_members] in L. apply below_app in L as (_ & L). apply writes_cons; [reflexivity|exact I|]. rewrite repeat_length.
    apply (IH W2 G2 _ (p + bits)%nat vs (at8_padding before bits p A) (nice_add' before _ N8) (flags_padding _ _ _ _ Fl) B F L).
  - destruct vs as [|v vs]; [discriminate|]. cbn [members_fit] in F. apply andb_true_iff in F as (F1 & F2). apply flags_data in Fl as (Fl1 & Fl2). cbn [enc_members] in L. cbv zeta in *. apply below_app in L as (L1 & L2).
    pose proof (ok_member_total _ _ Ba) as Bt. apply writes_app.
    + apply type_written; [exact W1| |assumption|assumption| |].
      * apply scalar_written_intro; [exact Hf|apply type_wf_scalar, W1|exact Bm|exact G1].
      * intro Ha. apply (aligned_flag before); auto.
      * intro Hv. apply (aligned_flag before); auto.
    + apply (IH W2 G2 _ _ vs (at8_next before t p v A W1 Bt F1) (nice_add' before _ N8) Fl2 B F2 L2).
Qed.
Theorem serialize_right : forall m, written m.
Proof.
  apply message_ind'. intros d k H W B G v F L. pose proof (zc_right (Message d k) W G) as ZC. rewrite enc_content in L. apply below_app in L as (L & _). apply good_parts in G as (G1 & G2).
  pose proof (ok_kind _ _ _ eq_refl B) as Bk. destruct k as [fs|ts]; cbn [kind_all kind_deep] in *.
  - pose proof F as F0. unfold fits in F. cbn [fits_gen] in F. destruct v as [| | | | |vs|]; try discriminate. apply good_struct in G1 as (G1 & _). cbn [serialize]. destruct (supports_zero_copy _) eqn:Ez.
    + destruct (ZC eq_refl _ F0) as (Z1 & Z2 & Z3). apply writes_one; cbn [pack wop_ok]; [exact Z1|split; [exact Z2|reflexivity]].
    + cbn [bit_length kind_length] in B. apply ok_pad in B. apply (members_written fs H (wf_struct _ _ W) (Forall_of_forallb _ _ G2) None O vs eq_refl I G1 B F L).
  - unfold fits in F. cbn [fits_gen] in F. destruct v as [| | | | | |tag v]; try discriminate. apply good_union in G1. pose proof (tag_ok_intro _ _ W G1) as T. apply wf_union in W as (W1 & W2 & W3).
    cbn [serialize]. cbn [content enc_kind] in *. cbv zeta in *. rewrite pick_cases in F. rewrite !pick_cases in *. destruct (nth_error ts tag) as [t|] eqn:Et; [|discriminate].
    unfold tag_ok in T. rewrite T, Nat2N.id. set (b := prefix_bits (N.of_nat (length ts) - 1)) in *. pose proof (prefix_bits_mod (N.of_nat (length ts) - 1)) as B8. fold b in B8.
    pose proof (prefix_range (N.of_nat (length ts) - 1)) as BR. fold b in BR. apply below_app in L as (_ & L). destruct (call_write_spec 0 true b (N.of_nat tag) BR) as (C1 & C2); [reflexivity|].
    apply writes_cons; [assumption|assumption|]. rewrite bits_of_length, Nat.add_0_l. pose proof (nth_error_Forall _ _ _ _ W3 Et) as Wt. pose proof (Forall_of_forallb _ _ G2) as G3.
    apply type_written; try assumption; try (intros _; assumption).
    apply scalar_written_intro; [apply (nth_error_Forall _ _ _ _ H Et)|apply type_wf_scalar, Wt|apply (nth_error_Forall _ _ _ _ Bk Et)|apply (nth_error_Forall _ _ _ _ G3 Et)].
Qed.
