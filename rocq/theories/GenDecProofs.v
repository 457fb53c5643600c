(** The generated [deserialize] functions on any bytes. *)
From Verif Require Import Base BitLemmas EncModel EncSpec EncWriteProofs EncReadProofs EncProps BlsModel BlsSpec BlsProofs GenModel GenSpec GenLenProofs GenSizeProofs GenWriteProofs GenReadProofs.
Ltac Zify.zify_post_hook ::= Z.div_mod_to_equations.

(** Two positions that a decoder cannot tell apart; [strict]: they are the same. *)
Definition agree (strict : bool) (b1 : list N) (p1 : nat) (b2 : list N) (p2 : nat) : Prop :=
  bytes_ok b1 /\ bytes_ok b2 /\ (p1 mod 8 = p2 mod 8)%nat /\ (forall i, stream_bit b1 (p1 + i) = stream_bit b2 (p2 + i)) /\ (strict = true -> b1 = b2 /\ p1 = p2).
Lemma agree_shift st b1 p1 b2 p2 n : agree st b1 p1 b2 p2 -> agree st b1 (p1 + n) b2 (p2 + n).
Proof.
  intros (H1 & H2 & H3 & H4 & H5). split; [assumption|]. split; [assumption|]. split; [lia|]. split; [intro i; rewrite <- !Nat.add_assoc; apply H4|]. intro S. destruct (H5 S) as (-> & ->). split; reflexivity.
Qed.
Lemma agree_same b p : bytes_ok b -> agree true b p b p.
Proof. intro H. repeat split; assumption. Qed.
Lemma agree_field st b1 p1 b2 p2 n : agree st b1 p1 b2 p2 -> field b1 p1 n = field b2 p2 n.
Proof. intros (_ & _ & _ & H & _). apply bits_inj_nat. intro j. rewrite !field_testbit, H. reflexivity. Qed.
Lemma agree_pad st b1 p1 b2 p2 : agree st b1 p1 b2 p2 -> pad8 p1 = pad8 p2.
Proof. intros (_ & _ & H & _). apply pad8_mod, H. Qed.

Definition total_at {A} (st al : bool) (d : deserializer A) (ok : A -> Prop) : Prop :=
  forall b1 p1 b2 p2, agree st b1 p1 b2 p2 -> (al = true -> (p1 mod 8 = 0)%nat) ->
  exists r n, d (rc_at b1 p1) = Ok (r, rc_at b1 (p1 + n)) /\ d (rc_at b2 p2) = Ok (r, rc_at b2 (p2 + n)) /\ match r with DOk a => ok a | DErr _ => True end.
Lemma total_weaken {A} st (d : deserializer A) ok : total_at st false d ok -> total_at st true d ok.
Proof. intros H b1 p1 b2 p2 Ha _. apply H; [assumption|discriminate]. Qed.
Lemma total_ret {A} st al (a : A) (ok : A -> Prop) : ok a -> total_at st al (dret a) ok.
Proof. intros H b1 p1 b2 p2 _ _. exists (DOk a), O. unfold dret. rewrite !Nat.add_0_r. auto. Qed.
Lemma total_err {A} st al e (ok : A -> Prop) : total_at st al (derr e) ok.
Proof. intros b1 p1 b2 p2 _ _. exists (DErr e), O. unfold derr. rewrite !Nat.add_0_r. auto. Qed.
Lemma total_bind {A B} st al (d : deserializer A) (f : A -> deserializer B) okA okB : total_at st al d okA -> (forall a, okA a -> total_at st false (f a) okB) -> total_at st al (dbind d f) okB.
Proof.
  intros H Hf b1 p1 b2 p2 Ha Hal. destruct (H b1 p1 b2 p2 Ha Hal) as (r & n & E1 & E2 & K). unfold dbind. rewrite E1, E2. cbn [bind fst snd]. destruct r as [a|e].
  - destruct (Hf a K b1 (p1 + n)%nat b2 (p2 + n)%nat (agree_shift _ _ _ _ _ n Ha)) as (r' & n' & E1' & E2' & K'); [discriminate|]. exists r', (n + n')%nat. rewrite E1', E2', !Nat.add_assoc. auto.
  - exists (DErr e), n. auto.
Qed.
Lemma total_map {A B} st al (d : deserializer A) (g : A -> B) (okA : A -> Prop) (okB : B -> Prop) : total_at st al d okA -> (forall a, okA a -> okB (g a)) -> total_at st al (dbind d (fun a => dret (g a))) okB.
Proof. intros H K. eapply total_bind; [exact H|]. intros a Ha. apply total_ret, K, Ha. Qed.
Lemma total_u st n : (n <= 64)%nat -> total_at st false (lift (fun c => read_u c n)) (fun v => v < 2 ^ N.of_nat n).
Proof.
  intros Hn b1 p1 b2 p2 Ha _. exists (DOk (field b1 p1 n)), n. unfold lift. rewrite !read_u_at by (apply Ha || assumption). cbn [bind fst snd]. rewrite <- (agree_field _ _ _ _ _ n Ha). split; [reflexivity|]. split; [reflexivity|]. apply field_bound.
Qed.
Lemma total_bool st : total_at st false (lift read_bool) (fun _ => True).
Proof.
  intros b1 p1 b2 p2 Ha _. exists (DOk (stream_bit b1 p1)), 1%nat. unfold lift. rewrite !read_bool_at by apply Ha. cbn [bind fst snd]. destruct Ha as (_ & _ & _ & H & _). specialize (H O). rewrite !Nat.add_0_r in H. rewrite H. auto.
Qed.
Lemma total_aligned st b : (b = 8 \/ b = 16 \/ b = 32 \/ b = 64)%nat -> total_at st true (lift (call_read_aligned b)) (fun v => v < 2 ^ N.of_nat b).
Proof.
  intros Hb b1 p1 b2 p2 Ha Hal. specialize (Hal eq_refl). pose proof Ha as (B1 & B2 & M & _ & _). exists (DOk (field b1 p1 b)), b. unfold lift. rewrite !call_read_aligned_at by (assumption || lia). cbn [bind fst snd].
  rewrite <- (agree_field _ _ _ _ _ b Ha). split; [reflexivity|]. split; [reflexivity|]. apply field_bound.
Qed.
Lemma total_zero_copy st k : total_at st true (lift (deserialize_zero_copy k)) (fun bs => bytes_ok bs /\ length bs = k).
Proof.
  intros b1 p1 b2 p2 Ha Hal. specialize (Hal eq_refl). pose proof Ha as (B1 & B2 & M & _ & _). exists (DOk (map (fun i => field b1 (p1 + 8 * i) 8) (seq 0 k))), (8 * k)%nat. unfold lift.
  rewrite !zero_copy_at by (assumption || lia). cbn [bind fst snd]. split; [reflexivity|]. split.
  - do 3 f_equal. apply map_ext. intro i. symmetry. apply (agree_field st). apply agree_shift, Ha.
  - split; [|rewrite map_length, seq_length; reflexivity]. apply Forall_map, Forall_forall. intros i _. apply (field_bound b1 _ 8).
Qed.

(** ** Primitive values *)
Lemma as_signed_range bits n : n < 2 ^ N.of_nat bits -> (bits <= 64)%nat -> (1 <= bits)%nat -> prim_fits (PInt (round_up_integer_size bits)) (VSigned (as_signed bits n)) = true.
Proof.
  intros H L L1. pose proof (round_up_ge bits L) as G. cbn [prim_fits]. unfold as_signed. set (w := round_up_integer_size bits) in *. cbv zeta.
  assert (P : (2 ^ Z.of_nat w = 2 * 2 ^ (Z.of_nat w - 1))%Z) by (rewrite <- Z.pow_succ_r by lia; f_equal; lia). set (h := (2 ^ (Z.of_nat w - 1))%Z) in *. assert (Hh : (0 < h)%Z) by (apply Z.pow_pos_nonneg; lia).
  assert (Hn : (Z.of_N n < 2 * h)%Z).
  { rewrite <- P. apply N2Z.inj_lt in H. rewrite N2Z.inj_pow, nat_N_Z in H. eapply Z.lt_le_trans; [exact H|]. apply Z.pow_le_mono_r; [reflexivity|lia]. }
  assert (PW : (Z.of_N (2 ^ (N.of_nat w - 1)) = h)%Z) by (unfold h; rewrite N2Z.inj_pow; f_equal; lia). rewrite nat_N_Z, P.
  rewrite andb_true_iff, Z.leb_le, Z.ltb_lt. destruct (N.ltb_spec n (2 ^ (N.of_nat w - 1))) as [X|X]; [apply N2Z.inj_lt in X|apply N2Z.inj_le in X]; rewrite PW in X; lia.
Qed.
Lemma total_prim st pr : prim_wf pr = true -> total_at st false (read_prim pr) (fun v => prim_stored pr v = true).
Proof.
  intro W. pose proof (prim_wf_bits pr W) as B. destruct pr; cbn [read_prim prim_bits] in *; try (eapply total_map; [apply total_u; lia|]; intros a Ha; cbn [prim_stored prim_fits prim_bits]; apply N.ltb_lt, Ha).
  - eapply total_map; [apply total_bool|]. reflexivity.
  - eapply total_map; [apply total_u; lia|]. intros a Ha. cbn [prim_stored]. apply as_signed_range; [exact Ha|lia|lia].
Qed.
Lemma total_times st d (ok : value -> Prop) : total_at st false d ok -> forall n, total_at st false (read_times d n) (fun vs => length vs = n /\ Forall ok vs).
Proof.
  intros H. induction n as [|n IH]; cbn [read_times]; [apply total_ret; split; [reflexivity|constructor]|]. eapply total_bind; [exact H|]. intros a Ha. eapply total_map; [exact IH|]. intros vs (L & F). split; [cbn [length]; lia|]. constructor; assumption.
Qed.
Lemma total_bit_array st BYTES len : (len <= 8 * BYTES)%nat -> total_at st false (read_bit_array BYTES len) (fun v => exists bits, v = VBits bits /\ length bits = len).
Proof.
  intros L b1 p1 b2 p2 Ha _. pose proof Ha as (B1 & B2 & M & S & _).
  destruct (ba_deserialize_at b1 p1 BYTES len B1 L) as (a1 & E1 & A1 & A2 & A3 & A4). destruct (ba_deserialize_at b2 p2 BYTES len B2 L) as (a2 & F1 & C1 & C2 & C3 & C4).
  assert (I : forall a b p, ba_ok a -> ba_len a = len -> (forall j, (j < len)%nat -> stream_bit (ba_bytes a) j = stream_bit b (p + j)) -> ba_iter a = Ok (map (fun j => stream_bit b (p + j)) (seq 0 len))).
  { intros a b p Ho Hl Hs. rewrite ba_iter_spec by assumption. rewrite Hl. f_equal. apply map_ext_in. intros j Hj. apply in_seq in Hj. apply Hs. lia. }
  eexists (DOk (VBits (map (fun j => stream_bit b1 (p1 + j)) (seq 0 len)))), _. unfold read_bit_array, dbind, lift. rewrite E1, F1. cbn [bind fst snd]. rewrite (I a1 b1 p1 A1 A2 A4), (I a2 b2 p2 C1 C2 C4). cbn [bind fst snd].
  split; [reflexivity|]. split; [unfold dret; rewrite M; do 4 f_equal; apply map_ext; intro j; symmetry; apply S|]. eexists. split; [reflexivity|]. rewrite map_length, seq_length. reflexivity.
Qed.

(** ** Zero-copy structs *)
Definition mem_total (m : message) : Prop := wf m = true -> supports_zero_copy m = true -> forall bs, bytes_ok bs -> (memory_size m <= length bs)%nat ->
  stored m (fst (from_memory m bs)) = true /\ snd (from_memory m bs) = skipn (memory_size m) bs.
Definition scalar_mem_total (s : scalar message) : Prop := forall bs, bytes_ok bs -> (scalar_memory_size memory_size s <= length bs)%nat ->
  scalar_fits prim_stored stored s (fst (scalar_from_memory from_memory s bs)) = true /\ snd (scalar_from_memory from_memory s bs) = skipn (scalar_memory_size memory_size s) bs.
Lemma prim_mem_total pr : scalar_zero_copy message_zero_copy (SPrimitive pr) = true -> scalar_mem_total (SPrimitive pr).
Proof.
  intros Z bs B L. cbn [scalar_memory_size scalar_from_memory scalar_fits fst snd] in *. split; [|reflexivity].
  assert (A : (8 * (prim_bits pr / 8) = prim_bits pr)%nat) by (destruct pr; cbn [scalar_zero_copy prim_bits] in *; try discriminate; try reflexivity; apply aligned_width_eq, Z).
  assert (U : from_le (firstn (prim_bits pr / 8) bs) < 2 ^ N.of_nat (prim_bits pr)).
  { pose proof (from_le_bound (firstn (prim_bits pr / 8) bs) (bytes_ok_firstn _ _ B)) as H. rewrite firstn_length in H. replace (8 * N.of_nat (Nat.min (prim_bits pr / 8) (length bs))) with (N.of_nat (prim_bits pr)) in H by lia. exact H. }
  destruct pr; cbn [scalar_zero_copy] in Z; try discriminate; cbn [prim_stored prim_fits]; try (apply N.ltb_lt, U).
  cbn [prim_bits] in *. apply as_signed_range; [exact U| |]; rewrite !orb_true_iff, !Nat.eqb_eq in Z; lia.
Qed.
Lemma scalar_mem_total_intro s : scalar_all mem_total s -> scalar_wf wf s = true -> scalar_zero_copy message_zero_copy s = true -> scalar_mem_total s.
Proof.
  destruct s as [m|pr]; [|intros _ _ Z; apply prim_mem_total, Z]. cbn [scalar_all scalar_wf scalar_zero_copy]. intros H W Z bs B L. cbn [scalar_from_memory scalar_memory_size scalar_fits] in *. apply (H W (message_zc m Z) bs B L).
Qed.
Lemma skipn_plus {A} a b (l : list A) : skipn a (skipn b l) = skipn (b + a) l.
Proof. rewrite skipn_skipn. f_equal. lia. Qed.
Lemma elements_mem_total s : scalar_mem_total s -> forall n bs, bytes_ok bs -> (n * scalar_memory_size memory_size s <= length bs)%nat ->
  length (fst (elements_from_memory from_memory s n bs)) = n /\ Forall (fun x => scalar_fits prim_stored stored s x = true) (fst (elements_from_memory from_memory s n bs)) /\
  snd (elements_from_memory from_memory s n bs) = skipn (n * scalar_memory_size memory_size s) bs.
Proof.
  intro H. induction n as [|n IH]; intros bs B L; cbn [elements_from_memory]; [split; [reflexivity|]; split; [constructor|reflexivity]|].
  destruct (H bs B ltac:(lia)) as (H1 & H2). destruct (scalar_from_memory from_memory s bs) as [v r]. cbn [fst snd] in H1, H2. subst r.
  destruct (IH (skipn (scalar_memory_size memory_size s) bs)) as (I1 & I2 & I3); [apply bytes_ok_skipn, B|rewrite skipn_length; lia|].
  destruct (elements_from_memory from_memory s n _) as [vs r]. cbn [fst snd] in *. split; [cbn [length]; lia|]. split; [constructor; assumption|]. rewrite I3, skipn_plus. f_equal.
Qed.
Lemma array_stored s n vs : s <> SPrimitive PBool -> N.of_nat (length vs) = n -> Forall (fun x => scalar_fits prim_stored stored s x = true) vs -> type_fits prim_stored (fun _ _ => true) stored (TFixed s n) (VArray vs) = true.
Proof. intros Hs <- F. assert (Fb : forallb (scalar_fits prim_stored stored s) vs = true) by (apply forallb_forall; rewrite Forall_forall in F; exact F). destruct s as [m|[] ]; cbn [type_fits]; rewrite ?N.eqb_refl, ?Fb; try reflexivity. congruence. Qed.
Lemma type_mem_total t : scalar_mem_total (type_scalar t) -> type_zero_copy message_zero_copy t = true -> forall bs, bytes_ok bs -> (type_memory_size memory_size t <= length bs)%nat ->
  type_fits prim_stored (fun _ _ => true) stored t (fst (type_from_memory from_memory t bs)) = true /\ snd (type_from_memory from_memory t bs) = skipn (type_memory_size memory_size t) bs.
Proof.
  intros H Z bs B L. destruct t as [s|s n|s n]; cbn [type_scalar type_zero_copy type_from_memory type_memory_size] in *; [apply H; assumption| |discriminate].
  destruct (elements_mem_total s H (N.to_nat n) bs B L) as (E1 & E2 & E3). destruct (elements_from_memory from_memory s (N.to_nat n) bs) as [vs r]. cbn [fst snd] in *. split; [|exact E3].
  apply array_stored; [intros ->; discriminate|lia|exact E2].
Qed.
Lemma members_mem_total fs : Forall (member_all mem_total) fs -> Forall (fun f => member_wf wf f = true) fs -> members_zero_copy message_zero_copy fs = true ->
  forall bs, bytes_ok bs -> (members_memory_size memory_size fs <= length bs)%nat ->
  members_fit prim_stored (fun _ _ => true) stored fs (fst (members_from_memory from_memory fs bs)) = true /\ snd (members_from_memory from_memory fs bs) = skipn (members_memory_size memory_size fs) bs.
Proof.
  induction 1 as [|f fs Hf _ IH]; intros W Z bs B L; [split; reflexivity|]. inversion W as [|? ? W1 W2]; subst. destruct f as [bits|t]; [discriminate|]. cbn [members_zero_copy] in Z. apply andb_true_iff in Z as (Z1 & Z2).
  cbn [members_memory_size members_from_memory] in *. assert (S : scalar_mem_total (type_scalar t)).
  { apply scalar_mem_total_intro; [exact Hf|apply type_wf_scalar, W1|]. destruct t; cbn [type_zero_copy type_scalar] in *; try assumption. discriminate. }
  destruct (type_mem_total t S Z1 bs B ltac:(lia)) as (T1 & T2). destruct (type_from_memory from_memory t bs) as [v r]. cbn [fst snd] in *. subst r.
  destruct (IH W2 Z2 (skipn (type_memory_size memory_size t) bs)) as (I1 & I2); [apply bytes_ok_skipn, B|rewrite skipn_length; lia|].
  destruct (members_from_memory from_memory fs _) as [vs r]. cbn [fst snd] in *. split; [cbn [members_fit]; rewrite T1; exact I1|]. rewrite I2, skipn_plus. reflexivity.
Qed.
Theorem mem_total_right : forall m, mem_total m.
Proof.
  apply message_ind'. intros d k H W Z bs B L. destruct k as [fs|ts]; [|discriminate]. cbn [supports_zero_copy] in Z. destruct (fixed_size _); [|discriminate]. cbn [from_memory memory_size kind_all] in *.
  destruct (members_mem_total fs H (wf_struct _ _ W) Z bs B L) as (M1 & M2). destruct (members_from_memory from_memory fs bs) as [vs r]. cbn [fst snd] in *. split; [exact M1|exact M2].
Qed.

(** ** Composites, fields, structs and unions *)
Definition dec_total (m : message) : Prop := forall st, wf m = true -> safe m = true -> (st = false -> sealed_inside m = true) -> total_at st true (deserialize m) (fun v => stored m v = true).
Lemma total_composite st m : dec_total m -> wf m = true -> safe m = true -> (st = false -> sealed_inside m = true /\ delimited m = false) ->
  total_at st false (fun c => read_composite c (delimited m) (deserialize m)) (fun v => stored m v = true).
Proof.
  intros H W S E b1 p1 b2 p2 Ha _. pose proof (H st W S (fun X => proj1 (E X))) as T. pose proof Ha as (B1 & B2 & M & _ & Es). destruct (delimited m) eqn:Ed.
  - destruct st; [|destruct (E eq_refl); discriminate]. destruct (Es eq_refl) as (<- & <-). clear Es E M B2.
    rewrite read_delimited_at by assumption. set (q := (p1 + length (pad8 p1) + 32)%nat). set (len := field b1 (p1 + length (pad8 p1)) 32). cbv zeta. destruct (N.of_nat (length b1 - q / 8) <? len).
    + exists (DErr DelimitedLength), (length (pad8 p1) + 32)%nat. unfold q. rewrite !Nat.add_assoc. auto.
    + set (inner := firstn (N.to_nat len) (skipn (q / 8) b1)). destruct (T inner O inner O (agree_same inner O (bytes_ok_firstn _ _ (bytes_ok_skipn _ _ B1))) (fun _ => eq_refl)) as (r & n & E1 & _ & K).
      change (rc_at inner 0) with (rc_new inner) in E1. rewrite E1. cbn [bind fst snd]. exists r, (length (pad8 p1) + 32 + 8 * N.to_nat len)%nat. unfold q. rewrite !Nat.add_assoc. auto.
  - rewrite !read_undelimited_at. pose proof (agree_pad _ _ _ _ _ Ha) as Hp. rewrite <- Hp. pose proof (agree_shift _ _ _ _ _ (length (pad8 p1)) Ha) as Ha'.
    destruct (T _ _ _ _ Ha') as (r & n & E1 & E2 & K); [intros _; rewrite pad8_length; lia|]. rewrite E1, E2. cbn [bind fst snd]. rewrite !align_at. pose proof (agree_pad _ _ _ _ _ (agree_shift _ _ _ _ _ n Ha')) as Hp'. rewrite <- Hp'.
    exists r. eexists. rewrite <- !Nat.add_assoc. split; [reflexivity|]. split; [reflexivity|exact K].
Qed.
Definition scalar_total (st : bool) (s : scalar message) : Prop := total_at st false (read_scalar deserialize s) (fun v => scalar_fits prim_stored stored s v = true).
Lemma scalar_total_intro st s : scalar_all dec_total s -> scalar_wf wf s = true -> scalar_deep safe s = true -> (st = false -> scalar_deep sealed_inside s = true /\ sealed s = true) -> scalar_total st s.
Proof.
  destruct s as [m|pr]; unfold scalar_total; cbn [scalar_all scalar_wf scalar_deep read_scalar scalar_fits]; intros H W S E; [|apply total_prim, W].
  apply total_composite; try assumption. intro X. destruct (E X) as (E1 & E2). split; [assumption|]. unfold sealed in E2. apply negb_true_iff in E2. exact E2.
Qed.
Lemma total_type st t : type_wf wf t = true -> scalar_total st (type_scalar t) -> bools_safe t = true -> total_at st false (read_type deserialize t) (fun v => type_fits prim_stored (fun _ _ => true) stored t v = true).
Proof.
  intros W H S. destruct t as [s|s n|s n]; cbn [type_scalar] in H.
  - exact H.
  - assert (Gen : s <> SPrimitive PBool -> total_at st false (dbind (read_times (read_scalar deserialize s) (N.to_nat n)) (fun vs => dret (VArray vs))) (fun v => type_fits prim_stored (fun _ _ => true) stored (TFixed s n) v = true)).
    { intro Hs. eapply total_map; [apply total_times, H|]. intros vs (L & F). apply array_stored; [assumption|lia|exact F]. }
    destruct s as [m|pr]; [|destruct pr]; cbn [read_type]; try (apply Gen; discriminate).
    intros b1 p1 b2 p2 Ha Hal. destruct (total_bit_array st (bit_array_bytes n) (N.to_nat n) ltac:(apply bit_array_bytes_le; lia) b1 p1 b2 p2 Ha Hal) as (r & k & E1 & E2 & K). exists r, k. split; [assumption|]. split; [assumption|].
    destruct r; [|exact I]. destruct K as (bits & -> & L). cbn [type_fits]. apply N.eqb_eq. lia.
  - pose proof (variable_wf _ _ _ W) as W64. assert (EW : N.to_nat (array_length_bits n) = prefix_bits n) by (rewrite array_length_bits_prefix by assumption; apply Nat2N.id). pose proof (prefix_range n) as PR.
    assert (Gen : s <> SPrimitive PBool -> total_at st false (dbind (lift (fun c => read_u c (N.to_nat (array_length_bits n)))) (fun k =>
        if (as_i32 k <=? Z.of_N n)%Z then dbind (read_times (read_scalar deserialize s) (Z.to_nat (as_i32 k))) (fun vs => dret (VArray vs)) else derr ArrayLength))
        (fun v => type_fits prim_stored (fun _ _ => true) stored (TVariable s n) v = true)).
    { intro Hs. eapply total_bind; [apply total_u; lia|]. intros k _. destruct (Z.leb_spec (as_i32 k) (Z.of_N n)) as [Hk|Hk]; [|apply total_err]. eapply total_map; [apply total_times, H|]. intros vs (L & F).
      assert (Fb : forallb (scalar_fits prim_stored stored s) vs = true) by (apply forallb_forall; rewrite Forall_forall in F; exact F).
      assert (Lb : (N.of_nat (length vs) <=? n) = true) by (apply N.leb_le; lia). destruct s as [m|[] ]; cbn [type_fits]; rewrite ?Lb, ?Fb; try reflexivity. congruence. }
    destruct s as [m|pr]; [|destruct pr]; cbn [read_type]; try (apply Gen; discriminate). clear Gen.
    cbn [bools_safe] in S. apply N.eqb_eq in S. rewrite EW. eapply total_bind; [apply total_u; lia|]. cbv beta. intros k Hk.
    intros b1 p1 b2 p2 Ha Hal. destruct (total_bit_array st (bit_array_bytes n) (N.to_nat k) ltac:(apply bit_array_bytes_le; lia) b1 p1 b2 p2 Ha Hal) as (r & i & E1 & E2 & K). exists r, i. split; [assumption|]. split; [assumption|].
    destruct r; [|exact I]. destruct K as (bits & -> & L). cbn [type_fits]. rewrite andb_true_r. apply N.leb_le. lia.
Qed.
Lemma total_members st fs : Forall (member_all dec_total) fs -> Forall (fun f => member_wf wf f = true) fs -> Forall (fun f => member_deep safe f = true) fs -> forallb bools_safe (kind_types (KStruct fs)) = true ->
  (st = false -> Forall (fun f => member_deep sealed_inside f = true) fs /\ forallb (fun t => sealed (type_scalar t)) (kind_types (KStruct fs)) = true) ->
  forall pl, total_at st false (read_members deserialize pl fs) (fun vs => members_fit prim_stored (fun _ _ => true) stored fs vs = true).
Proof.
  induction 1 as [|f fs Hf _ IH]; intros W S Sb E pl; cbn [read_members]; [apply total_ret; reflexivity|]. inversion W as [|? ? W1 W2]; subst. inversion S as [|? ? S1 S2]; subst. destruct f as [bits|t].
  - apply IH; try assumption. intro X. destruct (E X) as (E1 & E2). inversion E1; subst. split; assumption.
  - cbn [kind_types flat_map app forallb] in Sb. apply andb_true_iff in Sb as (Sb1 & Sb2).
    assert (T : total_at st false (dbind (read_type deserialize t) (fun v => dbind (read_members deserialize [] fs) (fun vs => dret (v :: vs)))) (fun vs => members_fit prim_stored (fun _ _ => true) stored (MData t :: fs) vs = true)).
    { eapply total_bind; [apply total_type; [exact W1| |exact Sb1]|].
      - apply scalar_total_intro; [exact Hf|apply type_wf_scalar, W1|exact S1|]. intro X. destruct (E X) as (E1 & E2). inversion E1 as [|? ? E3 E4]; subst. cbn [kind_types flat_map app forallb] in E2. apply andb_true_iff in E2. split; [exact E3|apply E2].
      - cbv beta. intros v Hv. eapply total_map; [apply IH; try assumption|].
        + intro X. destruct (E X) as (E1 & E2). inversion E1; subst. cbn [kind_types flat_map app forallb] in E2. apply andb_true_iff in E2. split; [assumption|apply E2].
        + cbv beta. intros vs Hvs. cbn [members_fit]. rewrite Hv. exact Hvs. }
    intros b1 p1 b2 p2 Ha _. rewrite !skip_at. destruct (T _ _ _ _ (agree_shift _ _ _ _ _ (sum pl) Ha)) as (r & n & E1 & E2 & K); [discriminate|]. exists r, (sum pl + n)%nat. rewrite !Nat.add_assoc. auto.
Qed.
Theorem dec_total_all : forall m, dec_total m.
Proof.
  apply message_ind'. intros d k H st W S E. cbn [safe] in S. apply andb_true_iff in S as (S1 & S2).
  assert (E' : st = false -> forallb (fun t => sealed (type_scalar t)) (kind_types k) = true /\ kind_deep sealed_inside k = true) by (intro X; specialize (E X); cbn [sealed_inside] in E; apply andb_true_iff in E; exact E). clear E.
  destruct k as [fs|ts]; cbn [kind_all kind_deep deserialize] in *.
  - destruct (supports_zero_copy (Message d (KStruct fs))) eqn:Ez.
    + eapply total_map; [apply total_zero_copy|]. cbv beta. intros bs (B & L). apply (mem_total_right _ W Ez bs B). lia.
    + apply total_weaken. eapply total_map; [apply total_members; [exact H|apply (wf_struct _ _ W)|apply Forall_of_forallb, S2|exact S1|]|].
      * intro X. destruct (E' X) as (E1 & E2). split; [apply Forall_of_forallb, E2|exact E1].
      * cbv beta. intros vs Hvs. exact Hvs.
  - apply wf_union in W as (W1 & W2 & W3). pose proof pow31_64.
    assert (EB : (N.to_nat (discriminant_bits (length ts)) = 8 \/ N.to_nat (discriminant_bits (length ts)) = 16 \/ N.to_nat (discriminant_bits (length ts)) = 32 \/ N.to_nat (discriminant_bits (length ts)) = 64)%nat).
    { unfold discriminant_bits. rewrite array_length_bits_prefix by lia. rewrite Nat2N.id. apply prefix_bits_cases. }
    eapply total_bind; [apply total_aligned, EB|]. cbv beta. intros n _. destruct (as_i32 n <? 0)%Z; [apply total_err|]. rewrite pick_cases. destruct (nth_error ts (Z.to_nat (as_i32 n))) as [t|] eqn:Et; [|apply total_err].
    pose proof (nth_error_Forall _ _ _ _ W3 Et) as Wt. pose proof (nth_error_In _ _ Et) as It.
    eapply total_map; [apply total_type; [exact Wt| |]|].
    + apply scalar_total_intro; [apply (nth_error_Forall _ _ _ _ H Et)|apply type_wf_scalar, Wt|apply (proj1 (forallb_forall _ _) S2 t It)|].
      intro X. destruct (E' X) as (E1 & E2). split; [apply (proj1 (forallb_forall _ _) E2 t It)|apply (proj1 (forallb_forall _ _) E1 t It)].
    + apply (proj1 (forallb_forall _ _) S1 t It).
    + cbv beta. intros v Hv. unfold stored. cbn [fits_gen]. rewrite pick_cases, Et. exact Hv.
Qed.
