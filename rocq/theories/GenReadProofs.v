(** The generated [deserialize] functions read what [serialize] wrote. *)
From Verif Require Import Base BitLemmas EncModel EncSpec EncWriteProofs EncReadProofs EncProps BlsModel BlsSpec BlsProofs GenModel GenSpec GenLenProofs GenSizeProofs GenWriteProofs.
Ltac Zify.zify_post_hook ::= Z.div_mod_to_equations.

(** ** Bits at a position *)
Definition holds (bs : list N) (p : nat) (bits : list bool) : Prop :=
  bytes_ok bs /\ (p + length bits <= 8 * length bs)%nat /\ forall i, (i < length bits)%nat -> stream_bit bs (p + i) = nth i bits false.
Lemma holds_app bs p a b : holds bs p (a ++ b) -> holds bs p a /\ holds bs (p + length a) b.
Proof.
  intros (H1 & H2 & H3). rewrite app_length in *. split; (split; [assumption|]); (split; [lia|]); intros i Hi.
  - rewrite H3 by lia. apply app_nth1. assumption.
  - rewrite <- Nat.add_assoc, H3 by lia. rewrite app_nth2 by lia. f_equal. lia.
Qed.
Lemma holds_field bs p n v : holds bs p (bits_of n v) -> field bs p n = v mod 2 ^ N.of_nat n.
Proof.
  intros (H1 & H2 & H3). rewrite bits_of_length in *. apply bits_inj_nat. intro j. rewrite field_testbit. destruct (Nat.ltb_spec j n) as [Hj|Hj].
  - rewrite H3 by assumption. rewrite nth_bits_of. rewrite N.mod_pow2_bits_low by lia. destruct (Nat.ltb_spec j n); [reflexivity|lia].
  - rewrite N.mod_pow2_bits_high by lia. reflexivity.
Qed.
Lemma holds_read bs p n v : holds bs p (bits_of n v) -> (n <= 64)%nat -> v < 2 ^ N.of_nat n -> read_u (rc_at bs p) n = Ok (v, rc_at bs (p + n)).
Proof. intros H Hn Hv. rewrite read_u_at by (apply H || assumption). rewrite (holds_field bs p n v H), N.mod_small by assumption. reflexivity. Qed.

(** ** Values that are kept fit. *)
Lemma type_fits_mono okp okb okp' okb' ok ok' t v : (forall p x, okp p x = true -> okp' p x = true) -> (forall n b, okb n b = true -> okb' n b = true) ->
  type_all (fun m => forall x, ok m x = true -> ok' m x = true) t -> type_fits okp okb ok t v = true -> type_fits okp' okb' ok' t v = true.
Proof.
  intros Hp Hb Hm F. unfold type_all in Hm.
  assert (Hs : forall x, scalar_fits okp ok (type_scalar t) x = true -> scalar_fits okp' ok' (type_scalar t) x = true) by (destruct (type_scalar t); cbn [scalar_fits scalar_all] in *; auto).
  assert (Hl : forall l, forallb (scalar_fits okp ok (type_scalar t)) l = true -> forallb (scalar_fits okp' ok' (type_scalar t)) l = true).
  { intros l. rewrite !forallb_forall. auto. }
  destruct t as [s|s n|s n]; cbn [type_scalar] in *; [apply Hs, F| |]; destruct s as [m|[] ]; destruct v; cbn [type_fits] in *; try discriminate; try exact F;
    apply andb_true_iff in F as (F1 & F2); apply andb_true_iff; (split; [assumption|]); auto.
Qed.
Lemma fits_gen_mono okp okb okp' okb' : (forall p x, okp p x = true -> okp' p x = true) -> (forall n b, okb n b = true -> okb' n b = true) ->
  forall m v, fits_gen okp okb m v = true -> fits_gen okp' okb' m v = true.
Proof.
  intros Hp Hb. apply (message_ind' (fun m => forall v, fits_gen okp okb m v = true -> fits_gen okp' okb' m v = true)). intros d k H v F. destruct k as [fs|ts]; cbn [fits_gen kind_all] in *.
  - destruct v as [| | | | |vs|]; try discriminate. revert vs F. induction H as [|f fs Hf _ IH]; intros vs F; [exact F|]. cbn [members_fit] in *. destruct f as [bits|t]; [apply IH, F|].
    destruct vs as [|v vs]; [discriminate|]. apply andb_true_iff in F as (F1 & F2). apply andb_true_iff. split; [|apply IH, F2]. apply (type_fits_mono okp okb okp' okb' _ _ t v Hp Hb Hf F1).
  - destruct v as [| | | | | |tag v]; try discriminate. rewrite pick_cases in *. destruct (nth_error ts tag) as [t|] eqn:E; [|discriminate].
    apply (type_fits_mono okp okb okp' okb' _ _ t v Hp Hb (nth_error_Forall _ _ _ _ H E) F).
Qed.
Definition kp (p : prim) (v : value) : bool := prim_fits p v && prim_kept p v.
Lemma kept_fits m v : kept m v = true -> fits m v = true.
Proof. apply fits_gen_mono; [intros p x H; apply andb_true_iff in H; apply H|reflexivity]. Qed.
Lemma kept_type_fits t v : type_fits kp bits_kept kept t v = true -> type_fits prim_fits (fun _ _ => true) fits t v = true.
Proof.
  apply type_fits_mono; [intros p x H; apply andb_true_iff in H; apply H|reflexivity|]. unfold type_all. destruct (type_scalar t); [|exact I]. intro x. apply kept_fits.
Qed.
Lemma kp_bool b : kp PBool (VBool b) = true.
Proof. reflexivity. Qed.

(** ** Sequencing *)
Definition reads {A} (d : deserializer A) (bs : list N) (p : nat) (v : A) (n : nat) : Prop := d (rc_at bs p) = Ok (DOk v, rc_at bs (p + n)).
Lemma reads_bind {A B} (d : deserializer A) (f : A -> deserializer B) bs p a n b k : reads d bs p a n -> reads (f a) bs (p + n) b k -> reads (dbind d f) bs p b (n + k).
Proof. unfold reads, dbind. intros -> H. cbn [bind fst snd]. rewrite H. do 3 f_equal. lia. Qed.
Lemma reads_ret {A} (a : A) bs p : reads (dret a) bs p a 0.
Proof. unfold reads, dret. rewrite Nat.add_0_r. reflexivity. Qed.
Lemma reads_map {A B} (d : deserializer A) (g : A -> B) bs p a n : reads d bs p a n -> reads (dbind d (fun x => dret (g x))) bs p (g a) n.
Proof. intro H. replace n with (n + 0)%nat by lia. eapply reads_bind; [exact H|apply reads_ret]. Qed.
Lemma reads_lift {A} (f : rc -> res (A * rc)) bs p a n : f (rc_at bs p) = Ok (a, rc_at bs (p + n)) -> reads (lift f) bs p a n.
Proof. unfold reads, lift. intros ->. reflexivity. Qed.
Lemma reads_u bs p n v : holds bs p (bits_of n v) -> (n <= 64)%nat -> v < 2 ^ N.of_nat n -> reads (lift (fun c => read_u c n)) bs p v n.
Proof. intros. apply reads_lift. apply holds_read; assumption. Qed.

(** ** Primitive values *)
Lemma round_up_standard bits : (round_up_integer_size bits =? bits)%nat = true -> round_up_integer_size bits = bits.
Proof. apply Nat.eqb_eq. Qed.
Lemma as_signed_unsigned bits z : (1 <= bits <= 64)%nat -> (- 2 ^ (Z.of_nat bits - 1) <= z < 2 ^ (Z.of_nat bits - 1))%Z -> ((round_up_integer_size bits =? bits)%nat || (0 <=? z)%Z = true) ->
  as_signed bits (Z.to_N (z mod 2 ^ Z.of_nat bits)) = z.
Proof.
  intros B R K. pose proof (round_up_ge bits ltac:(lia)) as G. unfold as_signed. set (w := round_up_integer_size bits) in *.
  assert (P : (2 ^ Z.of_nat bits = 2 * 2 ^ (Z.of_nat bits - 1))%Z) by (rewrite <- Z.pow_succ_r by lia; f_equal; lia). set (h := (2 ^ (Z.of_nat bits - 1))%Z) in *.
  assert (Hh : (0 < h)%Z) by (apply Z.pow_pos_nonneg; lia).
  assert (PW : (Z.of_N (2 ^ (N.of_nat w - 1)) = 2 ^ (Z.of_nat w - 1))%Z) by (rewrite N2Z.inj_pow; f_equal; lia).
  assert (LW : (h <= 2 ^ (Z.of_nat w - 1))%Z) by (apply Z.pow_le_mono_r; lia).
  destruct (Z.leb_spec 0 z) as [Hz|Hz].
  - rewrite Z.mod_small by lia. destruct (N.ltb_spec (Z.to_N z) (2 ^ (N.of_nat w - 1))) as [L|L]; [rewrite Z2N.id by lia; reflexivity|]. exfalso. apply N2Z.inj_le in L. rewrite PW, Z2N.id in L by lia. lia.
  - rewrite orb_false_r in K. apply Nat.eqb_eq in K. rewrite K in *. fold h in PW, LW.
    assert (E : (z mod 2 ^ Z.of_nat bits = z + 2 ^ Z.of_nat bits)%Z) by (symmetry; apply Z.mod_unique_pos with (q := (-1)%Z); lia). rewrite E.
    destruct (N.ltb_spec (Z.to_N (z + 2 ^ Z.of_nat bits)) (2 ^ (N.of_nat bits - 1))) as [L|L].
    + exfalso. apply N2Z.inj_lt in L. rewrite PW, Z2N.id in L by lia. lia.
    + rewrite Z2N.id by lia. rewrite nat_N_Z. lia.
Qed.
Lemma signed_range bits z : (1 <= bits)%nat -> Z.to_N (z mod 2 ^ Z.of_nat bits) < 2 ^ N.of_nat bits.
Proof.
  intro H. pose proof (Z.mod_pos_bound z (2 ^ Z.of_nat bits) ltac:(apply Z.pow_pos_nonneg; lia)). apply N2Z.inj_lt. rewrite Z2N.id by lia. rewrite N2Z.inj_pow, nat_N_Z. change (Z.of_N 2) with 2%Z. lia.
Qed.
Lemma prim_read pr v bs p : prim_wf pr = true -> kp pr v = true -> holds bs p (enc_prim pr v) -> reads (read_prim pr) bs p v (prim_bits pr).
Proof.
  intros W K H. apply andb_true_iff in K as (F & K). pose proof (prim_wf_bits pr W) as B. pose proof (enc_prim_length pr v F) as L.
  destruct pr; destruct v; cbn [prim_fits] in F; try discriminate; cbn [read_prim enc_prim prim_bits] in *;
    try (apply (reads_map _ VUnsigned), reads_u; [exact H|lia|apply N.ltb_lt, F]).
  - apply (reads_map _ VBool), reads_lift. destruct H as (H1 & H2 & H3). rewrite read_bool_at by assumption. cbn [length] in H3. specialize (H3 O ltac:(lia)). rewrite Nat.add_0_r in H3. rewrite H3. reflexivity.
  - rewrite andb_true_iff, Z.leb_le, Z.ltb_lt in F. rewrite <- (as_signed_unsigned bits z) at 1 by (assumption || lia). apply (reads_map _ (fun n => VSigned (as_signed bits n))), reads_u; [exact H|lia|apply signed_range; lia].
Qed.

(** ** Composites *)
Definition read_back (m : message) : Prop :=
  wf m = true -> bls_ok (bit_length m) -> good m = true -> readable m = true -> forall v bs p, kept m v = true -> below (enc m v) -> (p mod 8 = 0)%nat -> holds bs p (content m v) ->
  reads (deserialize m) bs p v (length (content m v)).
Definition composite_back (m : message) (v : value) : Prop := forall bs p, below (enc_scalar enc (SComposite m) v) -> holds bs p (pad8 p ++ enc_scalar enc (SComposite m) v) ->
  reads (fun c => read_composite c (delimited m) (deserialize m)) bs p v (length (pad8 p ++ enc_scalar enc (SComposite m) v)).
Lemma composite_back_intro m v : read_back m -> wf m = true -> bls_ok (bit_length m) -> good m = true -> readable m = true -> kept m v = true -> composite_back m v.
Proof.
  intros H W B G R K bs p L Hh. specialize (H W B G R v). apply holds_app in Hh as (_ & Hh). cbn [enc_scalar] in *. apply below_app in L as (_ & L).
  assert (P8 : ((p + length (pad8 p)) mod 8 = 0)%nat) by (rewrite pad8_length; lia). pose proof (enc_mod m v) as E8. pose proof (enc_content m v) as EC.
  assert (EL : length (enc m v) = (length (content m v) + length (pad8 (length (content m v))))%nat) by (rewrite EC; unfold pad_to_byte; apply app_length).
  assert (Hc : forall bs q, holds bs q (enc m v) -> holds bs q (content m v)) by (intros bs0 q H0; rewrite EC in H0; apply holds_app in H0; apply H0).
  unfold reads. destruct (delimited m).
  - apply holds_app in Hh as (H1 & H2). rewrite bits_of_length in H2. rewrite read_delimited_at by apply H1. rewrite (holds_field _ _ _ _ H1).
    unfold below, limit in L. change (N.of_nat 32) with 32. change (2 ^ 32) with 4294967296 in *. rewrite N.mod_small by lia. pose proof H2 as (B1 & B2 & B3).
    destruct (N.ltb_spec (N.of_nat (length bs - (p + length (pad8 p) + 32) / 8)) (N.of_nat (length (enc m v) / 8))) as [X|X]; [lia|]. rewrite Nat2N.id. set (q := (p + length (pad8 p) + 32)%nat) in *.
    set (inner := firstn (length (enc m v) / 8) (skipn (q / 8) bs)). assert (Hi : holds inner 0 (enc m v)).
    { unfold holds, inner. split; [apply bytes_ok_firstn, bytes_ok_skipn, B1|]. split; [rewrite firstn_length, skipn_length; lia|]. intros i Hi. cbn [Nat.add]. rewrite stream_firstn by lia. rewrite stream_skipn. rewrite <- B3 by assumption. f_equal. lia. }
    specialize (H inner O K ltac:(exact L) eq_refl (Hc _ _ Hi)). unfold reads in H. change (rc_at inner 0) with (rc_new inner) in H. rewrite H. cbn [bind fst snd]. do 3 f_equal. rewrite !app_length, bits_of_length. unfold q. lia.
  - cbn [app] in *. rewrite read_undelimited_at. specialize (H bs _ K L P8 (Hc _ _ Hh)). unfold reads in H. rewrite H. cbn [bind fst snd]. rewrite align_at. do 3 f_equal. rewrite !app_length, EL.
    rewrite (pad8_mod (p + length (pad8 p) + length (content m v)) (length (content m v))) by lia. lia.
Qed.

(** ** Arrays *)
Definition scalar_back (s : scalar message) : Prop :=
  match s with SComposite m => forall v, kept m v = true -> composite_back m v | SPrimitive p => prim_wf p = true end.
Lemma times_prim pr bs : prim_wf pr = true -> forall vs p, Forall (fun x => scalar_fits kp kept (SPrimitive pr) x = true) vs -> holds bs p (flat_map (enc_scalar enc (SPrimitive pr)) vs) ->
  reads (read_times (read_prim pr) (length vs)) bs p vs (length (flat_map (enc_scalar enc (SPrimitive pr)) vs)).
Proof.
  intro W. induction vs as [|v vs IH]; intros p F H; cbn [read_times length flat_map] in *; [apply reads_ret|]. inversion F as [|? ? F1 F2]; subst. apply holds_app in H as (H1 & H2). rewrite app_length. cbn [enc_scalar] in *.
  assert (L : length (enc_prim pr v) = prim_bits pr) by (apply enc_prim_length; cbn [scalar_fits] in F1; apply andb_true_iff in F1; apply F1). rewrite L in *.
  eapply reads_bind; [apply prim_read; [exact W|exact F1|exact H1]|]. apply (reads_map _ (cons v)), IH; [exact F2|exact H2].
Qed.
Lemma times_composite m bs : (forall v, kept m v = true -> composite_back m v) -> forall vs p, Forall (fun x => scalar_fits kp kept (SComposite m) x = true) vs -> below (flat_map (enc_scalar enc (SComposite m)) vs) ->
  ((p mod 8 = 0)%nat \/ vs <> []) -> holds bs p (pad8 p ++ flat_map (enc_scalar enc (SComposite m)) vs) ->
  reads (read_times (read_scalar deserialize (SComposite m)) (length vs)) bs p vs (length (pad8 p ++ flat_map (enc_scalar enc (SComposite m)) vs)).
Proof.
  intro C. induction vs as [|v vs IH]; intros p F L P H; cbn [read_times length flat_map] in *.
  - destruct P as [P|P]; [|congruence]. rewrite pad8_aligned by assumption. apply reads_ret.
  - inversion F as [|? ? F1 F2]; subst. apply below_app in L as (L1 & L2). rewrite app_assoc in H. apply holds_app in H as (H1 & H2).
    assert (Q : ((p + length (pad8 p ++ enc_scalar enc (SComposite m) v)) mod 8 = 0)%nat) by (rewrite app_length, pad8_length; pose proof (enc_composite_mod m v); lia).
    rewrite app_assoc, app_length. eapply reads_bind; [apply (C v F1); assumption|]. apply (reads_map _ (cons v)).
    specialize (IH _ F2 L2 (or_introl Q)). rewrite (pad8_aligned _ Q) in IH. apply IH. exact H2.
Qed.
Lemma times_back s bs vs p : scalar_back s -> Forall (fun x => scalar_fits kp kept s x = true) vs -> below (flat_map (enc_scalar enc s) vs) ->
  (match s with SComposite _ => (p mod 8 = 0)%nat \/ vs <> [] | SPrimitive _ => True end) ->
  let bits := (match s with SComposite _ => pad8 p | SPrimitive _ => [] end) ++ flat_map (enc_scalar enc s) vs in
  holds bs p bits -> reads (read_times (read_scalar deserialize s) (length vs)) bs p vs (length bits).
Proof.
  intros H F L P bits Hh. unfold bits in *. destruct s as [m|pr]; cbn [scalar_back] in H; [apply times_composite; assumption|]. rewrite app_nil_l in *. apply times_prim; assumption.
Qed.
Lemma bit_array_back bs p BYTES bits : (length bits <= 8 * BYTES)%nat -> ((length bits mod 8 <> 0)%nat \/ length bits = (8 * BYTES)%nat) -> holds bs p bits ->
  reads (read_bit_array BYTES (length bits)) bs p (VBits bits) (length bits).
Proof.
  intros L K (B1 & B2 & B3). destruct (ba_deserialize_at bs p BYTES (length bits) B1 L) as (a & E & A1 & A2 & A3 & A4).
  assert (EW : (if (length bits mod 8 =? 0)%nat && (p mod 8 =? 0)%nat then 8 * BYTES else length bits)%nat = length bits).
  { destruct (Nat.eqb_spec (length bits mod 8) 0); cbn [andb]; [|reflexivity]. destruct (p mod 8 =? 0)%nat; [lia|reflexivity]. }
  rewrite EW in E. unfold read_bit_array. replace (length bits) with (length bits + 0)%nat at 2 by lia. eapply reads_bind; [apply reads_lift, E|].
  apply (reads_map _ VBits), reads_lift. rewrite ba_iter_spec by assumption. cbn [bind]. rewrite Nat.add_0_r, A2. do 2 f_equal.
  apply nth_ext with (d := false) (d' := false); rewrite map_length, seq_length; [reflexivity|]. intros i Hi. rewrite nth_map_seq' by assumption. rewrite A4 by assumption. apply B3, Hi.
Qed.
Lemma as_i32_small n : n < 2 ^ 31 -> as_i32 n = Z.of_N n.
Proof. intro H. unfold as_i32. assert (2 ^ 31 < 2 ^ 32) by reflexivity. rewrite N.mod_small by lia. destruct (N.ltb_spec n (2 ^ 31)); [reflexivity|lia]. Qed.
Lemma prefix_bound n k : n < 2 ^ 64 -> k <= n -> k < 2 ^ N.of_nat (prefix_bits n).
Proof.
  intros H1 H2. unfold prefix_bits. destruct (N.ltb_spec n (2 ^ 8)); [change (N.of_nat 8) with 8; lia|]. destruct (N.ltb_spec n (2 ^ 16)); [change (N.of_nat 16) with 16; lia|].
  destruct (N.ltb_spec n (2 ^ 32)); [change (N.of_nat 32) with 32; lia|]. change (N.of_nat 64) with 64. lia.
Qed.

(** ** Fields *)
Lemma type_back t v bs p : type_wf wf t = true -> scalar_back (type_scalar t) -> type_fits kp bits_kept kept t v = true -> below (enc_type enc p t v) ->
  (variable_composite t = true -> (p mod 8 = 0)%nat) -> holds bs p (enc_type enc p t v) -> reads (read_type deserialize t) bs p v (length (enc_type enc p t v)).
Proof.
  intros W H F L V Hh. unfold enc_type in *. apply below_app in L as (_ & L). destruct t as [s|s n|s n]; cbn [type_scalar] in H.
  - cbn [read_type enc_body enc_align] in *. destruct s as [m|pr]; cbn [read_scalar scalar_back enc_scalar app] in *.
    + apply H; [exact F|exact L|exact Hh].
    + rewrite enc_prim_length by (cbn [type_fits scalar_fits] in F; apply andb_true_iff in F; apply F). apply prim_read; assumption.
  - destruct (type_fits_fixed _ _ _ _ _ _ kp_bool F) as (F1 & F2). cbn [enc_body] in L.
    assert (Gen : forall vs, v = VArray vs -> reads (dbind (read_times (read_scalar deserialize s) (N.to_nat n)) (fun vs => dret (VArray vs))) bs p v (length (enc_align p (TFixed s n) ++ enc_body enc (TFixed s n) v))).
    { intros vs ->. cbn [array_items] in *. rewrite <- F1, Nat2N.id. apply (reads_map _ VArray). cbn [enc_body array_items] in *.
      replace (enc_align p (TFixed s (N.of_nat (length vs)))) with (match s with SComposite _ => pad8 p | SPrimitive _ => [] end) by (destruct s; reflexivity). 
      replace (enc_align p (TFixed s n)) with (match s with SComposite _ => pad8 p | SPrimitive _ => [] end) in Hh by (destruct s; reflexivity). apply times_back; try assumption.
      destruct s; [|exact I]. right. intros ->. cbn [length] in F1. cbn [type_wf] in W. rewrite !andb_true_iff, N.leb_le in W. lia.
    }
    destruct s as [m|pr]; [|destruct pr]; destruct v as [| | |bl|vs| |]; cbn [type_fits] in F; try discriminate; cbn [read_type]; try (eapply Gen; reflexivity).
    apply N.eqb_eq in F. cbn [enc_align enc_body array_items app] in *. rewrite bool_items in *. rewrite <- F, Nat2N.id. apply bit_array_back; [apply bit_array_bytes_le; lia| |exact Hh]. unfold bit_array_bytes. lia.
  - destruct (type_fits_variable _ _ _ _ _ _ kp_bool F) as (F1 & F2). cbn [enc_body] in L. apply below_app in L as (_ & L).
    pose proof (variable_wf _ _ _ W) as W64. assert (W31 : n < 2 ^ 31) by (cbn [type_wf] in W; apply andb_true_iff in W as (_ & W); apply N.ltb_lt, W). pose proof (prefix_bits_mod n) as P8. pose proof (prefix_range n) as PR.
    assert (Al : enc_align p (TVariable s n) = []) by (destruct s as [m|pr]; [cbn [enc_align]; apply pad8_aligned, V; reflexivity|reflexivity]). rewrite Al, app_nil_l in *. cbn [enc_body] in *.
    assert (EW : N.to_nat (array_length_bits n) = prefix_bits n) by (rewrite array_length_bits_prefix by assumption; apply Nat2N.id).
    apply holds_app in Hh as (Hh1 & Hh2). rewrite bits_of_length in Hh2. rewrite app_length, bits_of_length.
    assert (Hn : reads (lift (fun c => read_u c (N.to_nat (array_length_bits n)))) bs p (N.of_nat (length (array_items v))) (prefix_bits n)).
    { rewrite EW. apply reads_u; [exact Hh1|lia|]. apply prefix_bound; assumption. }
    assert (Gen : forall vs, v = VArray vs -> reads (dbind (lift (fun c => read_u c (N.to_nat (array_length_bits n)))) (fun k =>
        if (as_i32 k <=? Z.of_N n)%Z then dbind (read_times (read_scalar deserialize s) (Z.to_nat (as_i32 k))) (fun vs => dret (VArray vs)) else derr ArrayLength))
        bs p v (prefix_bits n + length (flat_map (enc_scalar enc s) (array_items v)))).
    { intros vs ->. cbn [array_items] in *. eapply reads_bind; [exact Hn|]. rewrite as_i32_small by lia. rewrite (proj2 (Z.leb_le _ _)) by lia. rewrite nat_N_Z, Nat2Z.id.
      apply (reads_map _ VArray).
      assert (Hb : (match s with SComposite _ => pad8 (p + prefix_bits n) | SPrimitive _ => [] end) ++ flat_map (enc_scalar enc s) vs = flat_map (enc_scalar enc s) vs).
      { destruct s; [|reflexivity]. rewrite pad8_aligned; [reflexivity|]. specialize (V eq_refl). lia. }
      pose proof (times_back s bs vs (p + prefix_bits n) H F2 L) as T. cbv zeta in T. rewrite Hb in T. apply T; [|exact Hh2]. destruct s; [|exact I]. left. specialize (V eq_refl). lia. }
    destruct s as [m|pr]; [|destruct pr]; destruct v as [| | |bl|vs| |]; cbn [type_fits] in F; try discriminate; cbn [read_type]; try (eapply Gen; reflexivity).
    clear Gen. apply andb_true_iff in F as (F & K). apply N.leb_le in F. cbn [array_items] in *. rewrite map_length in *. rewrite bool_items in *. eapply reads_bind; [exact Hn|]. rewrite Nat2N.id.
    apply bit_array_back; [apply bit_array_bytes_le, F| |exact Hh2]. unfold bits_kept in K. rewrite orb_true_iff, negb_true_iff, Nat.eqb_eq, Nat.eqb_neq in K. exact K.
Qed.

(** ** Zero-copy structs *)
Lemma firstn_exact {A} k (a b : list A) : length a = k -> firstn k (a ++ b) = a /\ skipn k (a ++ b) = b.
Proof. intros <-. rewrite firstn_app, skipn_app, firstn_all, skipn_all, Nat.sub_diag. cbn [firstn skipn]. rewrite app_nil_r. split; reflexivity. Qed.
Definition scalar_mem (s : scalar message) : Prop := forall v rest, scalar_fits prim_fits fits s v = true ->
  scalar_from_memory from_memory s (scalar_memory memory s v ++ rest) = (v, rest) /\ length (scalar_memory memory s v) = scalar_memory_size memory_size s.
Lemma prim_mem pr : scalar_zero_copy message_zero_copy (SPrimitive pr) = true -> scalar_mem (SPrimitive pr).
Proof.
  intros Z v rest F. cbn [scalar_fits] in F.
  assert (A : (8 * (prim_bits pr / 8) = prim_bits pr)%nat) by (destruct pr; cbn [scalar_zero_copy prim_bits] in *; try discriminate; try reflexivity; apply aligned_width_eq, Z).
  assert (U : forall n, n < 2 ^ N.of_nat (prim_bits pr) -> n < 2 ^ (8 * N.of_nat (prim_bits pr / 8))) by (intros n Hn; replace (8 * N.of_nat (prim_bits pr / 8)) with (N.of_nat (prim_bits pr)) by lia; exact Hn).
  cbn [scalar_memory scalar_memory_size scalar_from_memory].
  destruct pr; destruct v; cbn [prim_fits] in F; try discriminate; cbn [prim_bits scalar_zero_copy] in *; (split; [|apply le_bytes_length]);
    match goal with |- context [firstn ?k (le_bytes ?k ?n ++ ?r)] => destruct (firstn_exact k (le_bytes k n) r (le_bytes_length k n)) as (E1 & E2); rewrite E1, E2 end;
    rewrite from_le_le_bytes; try (rewrite N.mod_small by (apply U, N.ltb_lt, F); reflexivity).
  rewrite N.mod_small.
  - f_equal. f_equal. apply andb_true_iff in F as (F1 & F2). apply Z.leb_le in F1. apply Z.ltb_lt in F2.
    assert (S : round_up_integer_size bits = bits) by (rewrite !orb_true_iff, !Nat.eqb_eq in Z; destruct Z as [[[-> | ->] | ->] | ->]; reflexivity).
    assert (B : (1 <= bits <= 64)%nat) by (rewrite !orb_true_iff, !Nat.eqb_eq in Z; lia).
    unfold as_unsigned. rewrite S. apply as_signed_unsigned; [assumption|lia|]. rewrite S, Nat.eqb_refl. reflexivity.
  - apply U. assert (S : round_up_integer_size bits = bits) by (rewrite !orb_true_iff, !Nat.eqb_eq in Z; destruct Z as [[[-> | ->] | ->] | ->]; reflexivity).
    unfold as_unsigned. rewrite S. apply signed_range. rewrite !orb_true_iff, !Nat.eqb_eq in Z. lia.
Qed.
Definition mem_back (m : message) : Prop := wf m = true -> supports_zero_copy m = true -> forall v rest, fits m v = true -> from_memory m (memory m v ++ rest) = (v, rest) /\ length (memory m v) = memory_size m.
Lemma scalar_mem_intro s : scalar_all mem_back s -> scalar_wf wf s = true -> scalar_zero_copy message_zero_copy s = true -> scalar_mem s.
Proof.
  destruct s as [m|pr]; [|intros _ _ Z; apply prim_mem, Z]. cbn [scalar_all scalar_wf scalar_zero_copy]. intros H W Z v rest F. cbn [scalar_from_memory scalar_memory scalar_memory_size]. apply (H W (message_zc m Z) v rest F).
Qed.
Lemma elements_mem s vs : scalar_mem s -> Forall (fun x => scalar_fits prim_fits fits s x = true) vs -> forall rest,
  elements_from_memory from_memory s (length vs) (flat_map (scalar_memory memory s) vs ++ rest) = (vs, rest) /\ length (flat_map (scalar_memory memory s) vs) = (length vs * scalar_memory_size memory_size s)%nat.
Proof.
  intro H. induction 1 as [|x vs Hx _ IH]; intro rest; [split; reflexivity|]. cbn [flat_map length elements_from_memory]. rewrite <- app_assoc. destruct (H x (flat_map (scalar_memory memory s) vs ++ rest) Hx) as (H1 & H2). destruct (IH rest) as (I1 & I2).
  rewrite H1, I1. split; [reflexivity|]. rewrite app_length, H2, I2. lia.
Qed.
Lemma type_mem t v rest : scalar_mem (type_scalar t) -> type_zero_copy message_zero_copy t = true -> type_fits prim_fits (fun _ _ => true) fits t v = true ->
  type_from_memory from_memory t (type_memory memory t v ++ rest) = (v, rest) /\ length (type_memory memory t v) = type_memory_size memory_size t.
Proof.
  intros H Z F. destruct t as [s|s n|s n]; cbn [type_scalar type_zero_copy type_memory type_from_memory type_memory_size] in *; [apply H, F| |discriminate].
  destruct (type_fits_fixed _ _ _ _ _ _ fits_bool F) as (F1 & F2). destruct v as [| | |bl|vs| |]; try (destruct s as [m|[] ]; discriminate).
  cbn [array_items] in *. rewrite <- F1, Nat2N.id. destruct (elements_mem s vs H F2 rest) as (E1 & E2). rewrite E1. split; [reflexivity|exact E2].
Qed.
Lemma members_mem fs : Forall (member_all mem_back) fs -> Forall (fun f => member_wf wf f = true) fs -> members_zero_copy message_zero_copy fs = true ->
  forall vs rest, members_fit prim_fits (fun _ _ => true) fits fs vs = true ->
  members_from_memory from_memory fs (members_memory memory fs vs ++ rest) = (vs, rest) /\ length (members_memory memory fs vs) = members_memory_size memory_size fs.
Proof.
  induction 1 as [|f fs Hf _ IH]; intros W Z vs rest F; [destruct vs; [split; reflexivity|discriminate]|].
  inversion W as [|? ? W1 W2]; subst. destruct f as [bits|t]; [discriminate|]. cbn [members_zero_copy] in Z. apply andb_true_iff in Z as (Z1 & Z2). destruct vs as [|v vs]; [discriminate|]. cbn [members_fit] in F. apply andb_true_iff in F as (F1 & F2).
  assert (S : scalar_mem (type_scalar t)).
  { apply scalar_mem_intro; [exact Hf|apply type_wf_scalar, W1|]. destruct t; cbn [type_zero_copy type_scalar] in *; try assumption. discriminate. }
  cbn [members_memory members_from_memory members_memory_size]. rewrite <- app_assoc. destruct (type_mem t v (members_memory memory fs vs ++ rest) S Z1 F1) as (T1 & T2). destruct (IH W2 Z2 vs rest F2) as (I1 & I2).
  rewrite T1, I1. split; [reflexivity|]. rewrite app_length, T2, I2. reflexivity.
Qed.
Theorem mem_right : forall m, mem_back m.
Proof.
  apply message_ind'. intros d k H W Z v rest F. destruct k as [fs|ts]; [|discriminate]. cbn [supports_zero_copy] in Z. destruct (fixed_size _); [|discriminate].
  unfold fits in F. cbn [fits_gen] in F. destruct v as [| | | | |vs|]; try discriminate. cbn [memory from_memory memory_size]. cbn [kind_all] in H.
  destruct (members_mem fs H (wf_struct _ _ W) Z vs rest F) as (M1 & M2). rewrite M1. split; [reflexivity|exact M2].
Qed.

(** ** Structs and unions *)
Lemma scalar_back_intro s : scalar_all read_back s -> scalar_wf wf s = true -> scalar_all (fun m => bls_ok (bit_length m)) s -> scalar_deep good s = true -> scalar_deep readable s = true -> scalar_back s.
Proof.
  destruct s as [m|pr]; cbn [scalar_all scalar_wf scalar_deep scalar_back]; [|tauto]. intros H W B G R v F. apply composite_back_intro; assumption.
Qed.
Definition sum (l : list nat) : nat := fold_right Nat.add O l.
Lemma sum_app a b : sum (a ++ b) = (sum a + sum b)%nat.
Proof. unfold sum. induction a as [|x a IH]; cbn [app fold_right]; [reflexivity|]. rewrite IH. lia. Qed.
Lemma skip_at bs l : forall p, fold_left rc_advance l (rc_at bs p) = rc_at bs (p + sum l).
Proof. induction l as [|x l IH]; intro p; cbn [fold_left sum fold_right]; [rewrite Nat.add_0_r; reflexivity|]. rewrite advance_at, IH. f_equal. unfold sum. lia. Qed.
Lemma ends_tail f fs : ends_with_data (f :: fs) = true -> fs <> [] -> ends_with_data fs = true.
Proof.
  unfold ends_with_data. cbn [rev]. destruct (rev fs) as [|x l] eqn:E; [|cbn [app]; tauto]. intros _ H. exfalso. apply H. rewrite <- (rev_involutive fs), E. reflexivity.
Qed.
Lemma members_back fs : Forall (member_all read_back) fs -> Forall (fun f => member_wf wf f = true) fs -> Forall (fun f => member_deep good f = true) fs -> Forall (fun f => member_deep readable f = true) fs ->
  forall before p pl vs bs, at8 before (p + sum pl) -> nice_opt before -> flags_ok variable_composite before fs -> bls_ok (struct_length bit_length before fs) ->
  members_fit kp bits_kept kept fs vs = true -> (fs = [] -> pl = []) -> (fs <> [] -> ends_with_data fs = true) ->
  below (enc_members enc (p + sum pl) fs vs) -> forall off, (off mod 8 = 0)%nat -> holds bs (off + p + sum pl) (enc_members enc (p + sum pl) fs vs) ->
  reads (read_members deserialize pl fs) bs (off + p) vs (sum pl + length (enc_members enc (p + sum pl) fs vs)).
Proof.
  induction 1 as [|f fs Hf _ IH]; intros W G R before p pl vs bs A N8 Fl B F E0 E1 L off O8 Hh.
  - rewrite (E0 eq_refl) in *. cbn [members_fit] in F. destruct vs; [|discriminate]. cbn [read_members enc_members length sum fold_right]. apply reads_ret.
  - inversion W as [|? ? W1 W2]; subst. inversion G as [|? ? G1 G2]; subst. inversion R as [|? ? R1 R2]; subst. pose proof (ok_struct_add _ _ _ B) as Ba. pose proof (ok_add _ _ _ Ba) as (Bb & Bm).
    specialize (E1 ltac:(discriminate)). destruct f as [bits|t].
    + cbn [members_fit] in F. cbn [enc_members read_members] in *. apply below_app in L as (_ & L). apply holds_app in Hh as (_ & Hh). rewrite repeat_length in Hh.
      assert (Ne : fs <> []) by (intros ->; cbn in E1; discriminate).
      pose proof (at8_padding before bits _ A) as A'. replace (p + sum pl + bits)%nat with (p + sum (pl ++ [bits]))%nat in * by (rewrite sum_app; cbn [sum fold_right]; lia).
      specialize (IH W2 G2 R2 _ p (pl ++ [bits]) vs bs A' (nice_add' before _ N8) (flags_padding _ _ _ _ Fl) B F ltac:(congruence) (fun _ => ends_tail _ _ E1 Ne) L off O8).
      replace (off + p + sum (pl ++ [bits]))%nat with (off + p + sum pl + bits)%nat in IH by (rewrite sum_app; cbn [sum fold_right]; lia). specialize (IH Hh).
      rewrite app_length, repeat_length. rewrite sum_app in *. cbn [sum fold_right] in *. replace (sum pl + (bits + 0))%nat with (sum pl + bits)%nat in * by lia. rewrite Nat.add_assoc. exact IH.
    + destruct vs as [|v vs]; [discriminate|]. cbn [members_fit] in F. apply andb_true_iff in F as (F1 & F2). apply flags_data in Fl as (Fl1 & Fl2). cbn [enc_members] in *. cbv zeta in *. apply below_app in L as (L1 & L2).
      apply holds_app in Hh as (H1 & H2). pose proof (ok_member_total _ _ Ba) as Bt. set (q := (p + sum pl)%nat) in *.
      unfold reads. cbn [read_members]. rewrite skip_at. replace (off + p + sum pl)%nat with (off + q)%nat in * by (unfold q; lia).
      assert (ET : enc_type enc q t v = enc_type enc (off + q) t v).
      { unfold enc_type. f_equal. destruct (has_composite t) eqn:Ec; [rewrite !enc_align_composite by assumption; apply pad8_mod; lia|rewrite !enc_align_primitive by assumption; reflexivity]. }
      assert (T : reads (read_type deserialize t) bs (off + q) v (length (enc_type enc q t v))).
      { rewrite ET. apply type_back; [exact W1| |exact F1|rewrite <- ET; exact L1| |rewrite <- ET; exact H1].
        - apply scalar_back_intro; [exact Hf|apply type_wf_scalar, W1|exact Bm|exact G1|exact R1].
        - intro Hv. assert (q mod 8 = 0)%nat by (apply (aligned_flag before); auto). lia. }
      pose proof (IH W2 G2 R2 (Some (add_member bit_length before (MData t))) (q + length (enc_type enc q t v))%nat [] vs bs) as IH'. cbn [sum fold_right] in IH'. rewrite Nat.add_0_r in IH'.
      specialize (IH' (at8_next before t q v A W1 Bt (kept_type_fits t v F1)) (nice_add' before _ N8) Fl2 B F2 ltac:(reflexivity) (ends_tail _ _ E1) L2 off O8).
      rewrite Nat.add_0_r, !Nat.add_assoc in IH'. specialize (IH' H2). cbn [Nat.add] in IH'.
      pose proof (reads_bind _ (fun v => dbind (read_members deserialize [] fs) (fun vs => dret (v :: vs))) _ _ _ _ _ _ T (reads_map _ (cons v) _ _ _ _ IH')) as Q. unfold reads in Q. rewrite Q.
      do 3 f_equal. rewrite app_length. unfold q. lia.
Qed.
Lemma call_read_aligned_at bs p b : bytes_ok bs -> (p mod 8 = 0)%nat -> (b = 8 \/ b = 16 \/ b = 32 \/ b = 64)%nat -> call_read_aligned b (rc_at bs p) = Ok (field bs p b, rc_at bs (p + b)).
Proof.
  intros Hb Hp H. destruct (read_aligned_at bs Hb p Hp) as (R16 & R32 & R64). unfold call_read_aligned. destruct H as [-> | [-> | [-> | ->] ] ]; cbn [Nat.eqb]; [apply read_aligned_u8_at; assumption|exact R16|exact R32|exact R64].
Qed.
Theorem deserialize_right : forall m, read_back m.
Proof.
  apply message_ind'. intros d k H W B G R v bs p K L P Hh. pose proof (zc_right (Message d k) W G) as ZC. pose proof (mem_right (Message d k) W) as MC. rewrite enc_content in L. apply below_app in L as (L & _). apply good_parts in G as (G1 & G2).
  pose proof (ok_kind _ _ _ eq_refl B) as Bk. cbn [readable] in R. apply andb_true_iff in R as (R1 & R2). pose proof (kept_fits _ _ K) as F0. destruct k as [fs|ts]; cbn [kind_all kind_deep] in *.
  - unfold kept in K. cbn [fits_gen] in K. destruct v as [| | | | |vs|]; try discriminate. apply good_struct in G1 as (G1 & _). cbn [deserialize]. destruct (supports_zero_copy _) eqn:Ez.
    + destruct (ZC eq_refl _ F0) as (Z1 & Z2 & Z3). destruct (MC eq_refl _ [] F0) as (M1 & M2). rewrite app_nil_r in M1. rewrite <- Z1 in *. rewrite flat_bits_length in *.
      assert (E : reads (lift (deserialize_zero_copy (memory_size (Message d (KStruct fs))))) bs p (memory (Message d (KStruct fs)) (VStruct vs)) (8 * length (memory (Message d (KStruct fs)) (VStruct vs)))).
      { apply reads_lift. rewrite zero_copy_at by (assumption || apply Hh). rewrite <- M2. do 2 f_equal. destruct Hh as (B1 & B2 & B3).
        apply nth_ext with (d := 0) (d' := 0); [rewrite map_length, seq_length; reflexivity|]. rewrite map_length, seq_length. intros i Hi. rewrite nth_map_seq' by assumption.
        set (M := memory (Message d (KStruct fs)) (VStruct vs)) in *. apply bits_inj_nat. intro j. rewrite field_testbit. rewrite flat_bits_length in B3. destruct (Nat.ltb_spec j 8) as [Hj|Hj]; cbn [andb].
        - rewrite <- Nat.add_assoc, B3 by lia. rewrite nth_flat_bits. unfold stream_bit. replace ((8 * i + j) / 8)%nat with i by lia. replace ((8 * i + j) mod 8)%nat with j by lia. reflexivity.
        - symmetry. assert (Hm : nth i M 0 < 256) by (apply (proj1 (Forall_forall _ _) Z2), nth_In; assumption).
          rewrite <- (N.mod_small _ 256 Hm). change 256 with (2 ^ 8). apply N.mod_pow2_bits_high. lia. }
      pose proof (reads_map _ (fun bytes => fst (from_memory (Message d (KStruct fs)) bytes)) _ _ _ _ E) as Q. cbv beta in Q. rewrite M1 in Q. exact Q.
    + cbn [bit_length kind_length] in B. apply ok_pad in B. apply (reads_map _ VStruct). cbn [content enc_kind] in *.
      pose proof (members_back fs H (wf_struct _ _ W) (Forall_of_forallb _ _ G2) (Forall_of_forallb _ _ R2) None 0 [] vs bs eq_refl I G1 B K ltac:(reflexivity) (fun _ => R1) L p P) as Q.
      cbn [sum fold_right Nat.add] in Q. rewrite !Nat.add_0_r in Q. exact (Q Hh).
  - unfold kept in K. cbn [fits_gen] in K. destruct v as [| | | | | |tag v]; try discriminate. apply good_union in G1. pose proof (tag_ok_intro _ _ W G1) as T. apply wf_union in W as (W1 & W2 & W3).
    cbn [deserialize]. cbn [content enc_kind] in *. cbv zeta in *. rewrite pick_cases in K. rewrite !pick_cases in *. destruct (nth_error ts tag) as [t|] eqn:Et; [|discriminate].
    unfold tag_ok in T. rewrite T, Nat2N.id. set (b := prefix_bits (N.of_nat (length ts) - 1)) in *. pose proof (prefix_bits_mod (N.of_nat (length ts) - 1)) as B8. fold b in B8.
    apply below_app in L as (_ & L). apply holds_app in Hh as (H1 & H2). rewrite bits_of_length in H2. rewrite app_length, bits_of_length.
    assert (Ht : (tag < length ts)%nat) by (apply nth_error_Some; congruence).
    assert (E : reads (lift (call_read_aligned b)) bs p (N.of_nat tag) b).
    { apply reads_lift. rewrite call_read_aligned_at; [|apply H1|assumption|unfold b; apply prefix_bits_cases]. rewrite (holds_field _ _ _ _ H1). rewrite N.mod_small; [reflexivity|]. pose proof pow31_64. apply prefix_bound; lia. }
    eapply reads_bind; [exact E|]. rewrite as_i32_small by lia. rewrite (proj2 (Z.ltb_ge _ _)) by lia. rewrite nat_N_Z, Nat2Z.id. rewrite pick_cases, Et.
    apply (reads_map _ (fun x => VUnion tag x)). pose proof (nth_error_Forall _ _ _ _ W3 Et) as Wt. pose proof (Forall_of_forallb _ _ G2) as G3. pose proof (Forall_of_forallb _ _ R2) as R3.
    assert (ET : enc_type enc b t v = enc_type enc (p + b) t v) by (unfold enc_type; rewrite !enc_align_aligned by lia; reflexivity). rewrite ET in *.
    apply type_back; [exact Wt| |exact K|exact L|intros _; lia|exact H2].
    apply scalar_back_intro; [apply (nth_error_Forall _ _ _ _ H Et)|apply type_wf_scalar, Wt|apply (nth_error_Forall _ _ _ _ Bk Et)|apply (nth_error_Forall _ _ _ _ G3 Et)|apply (nth_error_Forall _ _ _ _ R3 Et)].
Qed.
