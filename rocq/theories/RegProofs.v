(** Proofs about register access. *)
From Verif Require Import Base BitLemmas CoreModel NodeModel NodeSpec EncModel EncSpec EncWriteProofs EncReadProofs EncProps BlsModel BlsSpec GenModel GenSpec GenLenProofs GenSizeProofs GenWriteProofs GenReadProofs GenDecProofs GenProps GenBoundProofs DataTypes BasicModel BasicSpec BasicProofs RegModel RegSpec.
Ltac Zify.zify_post_hook ::= Z.div_mod_to_equations.

(** * UTF-8 *)
Ltac bools := repeat match goal with |- context [(?a <=? ?b)] => destruct (N.leb_spec a b); try lia | |- context [(?a =? ?b)] => destruct (N.eqb_spec a b); try lia end.
Lemma utf8_complete cs : Forall unicode_scalar cs -> utf8 (concat (map utf8_bytes cs)) = true.
Proof.
  induction 1 as [|c cs Hc _ IH]; [reflexivity|]. cbn [map concat]. revert IH. generalize (concat (map utf8_bytes cs)). intros r IH. unfold utf8_bytes, unicode_scalar in *.
  destruct (N.ltb_spec c 128) as [H1|H1]; [|destruct (N.ltb_spec c 2048) as [H2|H2]; [|destruct (N.ltb_spec c 65536) as [H3|H3] ] ]; cbn [app utf8]; unfold tail_byte; rewrite IH.
  - bools; try exact IH; reflexivity.
  - bools; reflexivity.
  - assert (c / 4096 < 16 /\ (c / 64) mod 64 < 64 /\ c mod 64 < 64) as (A1 & A2 & A3) by lia. assert (c / 4096 = 0 -> 32 <= (c / 64) mod 64) by lia. assert (c / 4096 = 13 -> (c / 64) mod 64 < 32) by lia.
    revert A1 A2 A3 H H0. generalize (c / 4096), ((c / 64) mod 64), (c mod 64). clear. intros x y z. intros. bools; reflexivity.
  - assert (c / 262144 < 5 /\ (c / 4096) mod 64 < 64 /\ (c / 64) mod 64 < 64 /\ c mod 64 < 64) as (A1 & A2 & A3 & A4) by lia. assert (c / 262144 = 0 -> 16 <= (c / 4096) mod 64) by lia. assert (c / 262144 = 4 -> (c / 4096) mod 64 < 16) by lia.
    revert A1 A2 A3 A4 H H0. generalize (c / 262144), ((c / 4096) mod 64), ((c / 64) mod 64), (c mod 64). clear. intros x y z u. intros. bools; reflexivity.
Qed.
Lemma utf8_cons c r : unicode_scalar c -> is_text r -> is_text (utf8_bytes c ++ r).
Proof. intros Hc (cs & F & ->). exists (c :: cs). split; [constructor; assumption|reflexivity]. Qed.
Lemma utf8_sound : forall s, utf8 s = true -> is_text s.
Proof.
  assert (G : forall n s, (length s <= n)%nat -> utf8 s = true -> is_text s); [|intros s; apply (G _ s (Nat.le_refl _))].
  induction n as [|n IH]; intros [|a r] L U; try (exists []; split; [constructor|reflexivity]); cbn [length] in L; [lia|]. cbn [utf8] in U. unfold tail_byte in U.
  destruct (N.leb_spec a 127) as [H1|H1].
  - replace (a :: r) with (utf8_bytes a ++ r) by (unfold utf8_bytes; rewrite (proj2 (N.ltb_lt a 128)) by lia; reflexivity). apply utf8_cons; [left; lia|apply IH; [lia|exact U] ].
  - destruct r as [|b r]; [discriminate U|]. cbn [length] in L. destruct ((194 <=? a) && (a <=? 223)) eqn:H2.
    + apply andb_prop in U as (U1 & U). apply andb_prop in U1 as (U1 & U2). apply andb_prop in H2 as (H2 & H3). apply N.leb_le in U1, U2, H2, H3.
      replace (a :: b :: r) with (utf8_bytes ((a - 192) * 64 + (b - 128)) ++ r); [apply utf8_cons; [left; lia|apply IH; [lia|exact U] ]|].
      unfold utf8_bytes. rewrite (proj2 (N.ltb_ge _ _)), (proj2 (N.ltb_lt _ 2048)) by lia. cbn [app]. f_equal; [lia|f_equal; lia].
    + destruct r as [|c r]; [discriminate U|]. cbn [length] in L. destruct ((224 <=? a) && (a <=? 239)) eqn:H3.
      * apply andb_prop in H3 as (H3 & H4). apply N.leb_le in H3, H4. apply andb_prop in U as (U0 & U). apply andb_prop in U0 as (U0 & U3). apply andb_prop in U3 as (U3 & U4). apply N.leb_le in U3, U4.
        assert (B : 128 <= b <= 191 /\ (a = 224 -> 160 <= b) /\ (a = 237 -> b <= 159)).
        { destruct (N.eqb_spec a 224); [|destruct (N.eqb_spec a 237)]; apply andb_prop in U0 as (X & Y); apply N.leb_le in X, Y; lia. }
        replace (a :: b :: c :: r) with (utf8_bytes ((a - 224) * 4096 + (b - 128) * 64 + (c - 128)) ++ r); [apply utf8_cons; [unfold unicode_scalar; lia|apply IH; [lia|exact U] ]|].
        unfold utf8_bytes. rewrite (proj2 (N.ltb_ge _ 128)), (proj2 (N.ltb_ge _ 2048)), (proj2 (N.ltb_lt _ 65536)) by lia. cbn [app]. f_equal; [lia|f_equal; [lia|f_equal; lia] ].
      * destruct r as [|d r]; [discriminate U|]. cbn [length] in L. repeat (apply andb_prop in U as (U & ?)). repeat match goal with H : (_ && _) = true |- _ => apply andb_prop in H as (? & ?) end.
        assert (B : 240 <= a <= 244 /\ 128 <= b <= 191 /\ (a = 240 -> 144 <= b) /\ (a = 244 -> b <= 143)).
        { repeat match goal with H : (_ <=? _) = true |- _ => apply N.leb_le in H end. destruct (N.eqb_spec a 240); [|destruct (N.eqb_spec a 244)]; repeat match goal with H : (_ && _) = true |- _ => apply andb_prop in H as (? & ?) end; repeat match goal with H : (_ <=? _) = true |- _ => apply N.leb_le in H end; lia. }
        repeat match goal with H : (_ <=? _) = true |- _ => apply N.leb_le in H end.
        replace (a :: b :: c :: d :: r) with (utf8_bytes ((a - 240) * 262144 + (b - 128) * 4096 + (c - 128) * 64 + (d - 128)) ++ r); [apply utf8_cons; [unfold unicode_scalar; lia|apply IH; [lia|assumption] ]|].
        unfold utf8_bytes. rewrite (proj2 (N.ltb_ge _ 128)), (proj2 (N.ltb_ge _ 2048)), (proj2 (N.ltb_ge _ 65536)) by lia. cbn [app]. f_equal; [lia|f_equal; [lia|f_equal; [lia|f_equal; lia] ] ].
Qed.
Lemma utf8_right s : utf8 s = true <-> is_text s.
Proof. split; [apply utf8_sound|]. intros (cs & F & ->). apply utf8_complete, F. Qed.

(** ** Reading *)
Lemma element_tag_prim x : element_tag x = prim_tag (element_prim x).
Proof. destruct x; reflexivity. Qed.
Lemma capacity_room x : element_capacity x = room x.
Proof. destruct x; reflexivity. Qed.
Lemma set_bits_spec bs : forall a i, ba_ok a -> (i + length bs <= ba_len a)%nat ->
  exists a', set_bits a i bs = Ok a' /\ ba_ok a' /\ ba_len a' = ba_len a /\
    forall j, stream_bit (ba_bytes a') j = if (i <=? j)%nat && (j <? i + length bs)%nat then nth (j - i) bs false else stream_bit (ba_bytes a) j.
Proof.
  induction bs as [|b bs IH]; intros a i O L; cbn [set_bits length] in *.
  - exists a. split; [reflexivity|]. split; [assumption|]. split; [reflexivity|]. intro j. destruct (Nat.leb_spec i j), (Nat.ltb_spec j (i + 0)); try lia; reflexivity.
  - destruct (ba_set_spec a i b O) as (a1 & E & O1 & L1 & _ & S1); [lia|]. rewrite E. cbn [bind]. destruct (IH a1 (S i) O1) as (a2 & E2 & O2 & L2 & S2); [lia|]. exists a2. split; [exact E2|]. split; [assumption|]. split; [congruence|].
    intro j. rewrite S2, S1. destruct (Nat.eqb_spec j i) as [->|N].
    + destruct (Nat.leb_spec (S i) i); [lia|]. destruct (Nat.leb_spec i i), (Nat.ltb_spec i (i + S (length bs))); try lia. cbn [andb]. rewrite Nat.sub_diag. reflexivity.
    + destruct (Nat.leb_spec (S i) j), (Nat.leb_spec i j), (Nat.ltb_spec j (S i + length bs)), (Nat.ltb_spec j (i + S (length bs))); try lia; cbn [andb]; try reflexivity. replace (j - i)%nat with (S (j - S i)) by lia. reflexivity.
Qed.
Lemma nth_seq_self (bs : list bool) : map (fun j => nth j bs false) (seq 0 (length bs)) = bs.
Proof.
  induction bs as [|b bs IH]; [reflexivity|]. cbn [length seq map nth]. f_equal. rewrite <- seq_shift, map_map. exact IH.
Qed.
Lemma bits_read bs : (length bs <= N.to_nat 2048)%nat ->
  bind (ba_new (N.to_nat 256) (length bs)) (fun a => bind (set_bits a 0 bs) (fun a' => bind (bits_value a') (fun v => Ok (variant 3 v)))) = Ok (VUnion 3 (VStruct [VBits bs])).
Proof.
  intro L. destruct (ba_new_ok (N.to_nat 256) (length bs)) as (a & E & O & La & _); [lia|]. rewrite E. cbn [bind]. destruct (set_bits_spec bs a 0 O) as (a' & E' & O' & L' & S); [lia|]. rewrite E'. cbn [bind].
  unfold bits_value. rewrite ba_iter_spec by assumption. cbn [bind]. unfold variant. do 5 f_equal. rewrite L', La. rewrite <- (nth_seq_self bs) at 2. apply map_ext_in. intros j Hj. apply in_seq in Hj. rewrite S.
  destruct (Nat.leb_spec 0 j), (Nat.ltb_spec j (0 + length bs)); try lia. cbn [andb]. f_equal. lia.
Qed.
Lemma bits_panic bs : (N.to_nat 2048 < length bs)%nat ->
  bind (ba_new (N.to_nat 256) (length bs)) (fun a => bind (set_bits a 0 bs) (fun a' => bind (bits_value a') (fun v => Ok (variant 3 v)))) = Panic.
Proof. intro L. rewrite (proj2 (proj1 (C60_new_fill (N.to_nat 256) (length bs)))) by lia. reflexivity. Qed.
Lemma firstn_short {A} n (l : list A) : (if (length l <=? n)%nat then l else firstn n l) = firstn n l.
Proof. destruct (Nat.leb_spec (length l) n); [rewrite firstn_all2 by assumption|]; reflexivity. Qed.
Lemma content_read_ok c v : content_read c = Ok v -> v = value_of c.
Proof.
  destruct c as [x y|x vs|b|b|b|bs]; cbn [content_read value_of]; rewrite <- ?element_tag_prim, <- ?capacity_room, ?firstn_short; unfold variant.
  1-4: intro E; injection E as <-; reflexivity.
  - change 1%nat with (length [b]). rewrite bits_read by (cbn [length]; lia). intro E. injection E as <-. reflexivity.
  - destruct (Nat.le_gt_cases (length bs) (N.to_nat 2048)) as [L|L]; [rewrite bits_read by assumption|rewrite bits_panic by assumption; discriminate]. intro E. injection E as <-. reflexivity.
Qed.
Lemma content_read_small c : content_small c -> content_read c = Ok (value_of c).
Proof.
  destruct c as [x y|x vs|b|b|b|bs]; cbn [content_read value_of content_small]; rewrite <- ?element_tag_prim, <- ?capacity_room, ?firstn_short; unfold variant; intro L; try reflexivity.
  - change 1%nat with (length [b]). apply bits_read. cbn [length]. lia.
  - apply bits_read, L.
Qed.
Lemma register_read_ok r v : register_read r = Ok v -> v = value_of (r_content r).
Proof.
  unfold register_read. destruct (r_kind r), (r_content r); try apply content_read_ok. destruct (_ <=? _)%nat; [|discriminate]. intro E. injection E as <-. reflexivity.
Qed.
Lemma register_read_small r : register_ok r -> content_small (r_content r) -> register_read r = Ok (value_of (r_content r)).
Proof.
  intros (_ & C & _) S. unfold register_read. destruct (r_kind r), (r_content r) eqn:E; try (apply content_read_small, S).
  cbn [content_ok] in C. destruct C as (_ & L). rewrite (proj2 (Nat.leb_le _ _) L). reflexivity.
Qed.

(** ** Values *)
Lemma array_fits p n v : p <> PBool -> fits (array_t p n) v = true -> exists vs, v = VStruct [VArray vs] /\ N.of_nat (length vs) <= n /\ Forall (fun x => prim_fits p x = true) vs.
Proof.
  intros Hp H. unfold fits, array_t in H. destruct v as [| | | | |vs|]; try discriminate H. cbn [fits_gen members_fit] in H. destruct vs as [|v [|? ?] ]; try discriminate H; [|rewrite andb_false_r in H; discriminate H].
  rewrite andb_true_r in H. destruct v as [| | | |vs| |]; try (destruct p; try discriminate H; congruence).
  assert (H' : (N.of_nat (length vs) <=? n) && forallb (scalar_fits prim_fits fits (SPrimitive p)) vs = true) by (destruct p; try exact H; congruence).
  apply andb_true_iff in H' as (H1 & H2). exists vs. split; [reflexivity|]. split; [apply N.leb_le, H1|]. apply Forall_forall. intros x Hx. exact (proj1 (forallb_forall _ _) H2 x Hx).
Qed.
Lemma fits_array p n vs : p <> PBool -> N.of_nat (length vs) <= n -> Forall (fun x => prim_fits p x = true) vs -> fits (array_t p n) (VStruct [VArray vs]) = true.
Proof.
  intros Hp L F. unfold fits, array_t. cbn [fits_gen members_fit]. rewrite andb_true_r. assert (E : (N.of_nat (length vs) <=? n) && forallb (scalar_fits prim_fits fits (SPrimitive p)) vs = true).
  { apply andb_true_iff. split; [apply N.leb_le, L|]. apply forallb_forall. intros x Hx. rewrite Forall_forall in F. exact (F x Hx). }
  destruct p; try exact E. congruence.
Qed.
Lemma bits_fit n v : fits (array_t PBool n) v = true -> exists bs, v = VStruct [VBits bs] /\ N.of_nat (length bs) <= n.
Proof.
  intro H. unfold fits, array_t in H. destruct v as [| | | | |vs|]; try discriminate H. cbn [fits_gen members_fit] in H. destruct vs as [|v [|? ?] ]; try discriminate H; [|rewrite andb_false_r in H; discriminate H].
  rewrite andb_true_r in H. destruct v as [| | |bs| | |]; try discriminate H. cbn [type_fits] in H. rewrite andb_true_r in H. exists bs. split; [reflexivity|apply N.leb_le, H].
Qed.
Lemma fits_variant tag v : fits value_t (VUnion tag v) = true -> exists m, nth_error value_variants tag = Some m /\ fits m v = true.
Proof.
  intro H. assert (E : fits value_t (VUnion tag v) = pick (fun m => fits m v) false tag value_variants).
  { unfold fits, value_t. cbn [fits_gen]. rewrite !pick_cases, nth_error_map. destruct (nth_error value_variants tag); reflexivity. }
  rewrite E, pick_cases in H. destruct (nth_error value_variants tag) as [m|]; [|discriminate]. exists m. split; [reflexivity|exact H].
Qed.
Lemma variant_fits tag m v : nth_error value_variants tag = Some m -> fits m v = true -> fits value_t (VUnion tag v) = true.
Proof.
  intros E H. unfold fits, value_t. cbn [fits_gen]. rewrite pick_cases, nth_error_map, E. exact H.
Qed.
Definition element_message (x : element) : message := array_t (element_prim x) (2048 / N.of_nat (prim_bits (element_prim x))).
Lemma element_variant x : nth_error value_variants (element_tag x) = Some (element_message x).
Proof. destruct x; reflexivity. Qed.
Lemma element_not_bool x : element_prim x <> PBool.
Proof. destruct x; discriminate. Qed.
Inductive value_case : value -> Prop :=
| vc_empty : value_case (VUnion 0 (VStruct []))
| vc_string bytes : bytes_fit bytes -> value_case (VUnion 1 (VStruct [VArray bytes]))
| vc_unstructured bytes : bytes_fit bytes -> value_case (VUnion 2 (VStruct [VArray bytes]))
| vc_bits bs : (length bs <= N.to_nat 2048)%nat -> value_case (VUnion 3 (VStruct [VBits bs]))
| vc_numbers x vs : (length vs <= room x)%nat -> Forall (fun v => prim_fits (element_prim x) v = true) vs -> value_case (VUnion (element_tag x) (VStruct [VArray vs])).
Lemma value_cases v : fits value_t v = true -> value_case v.
Proof.
  intro H. destruct v as [| | | | | |tag v]; try discriminate H. apply fits_variant in H as (m & E & F).
  assert (B : forall n vs, n = 256 -> N.of_nat (length vs) <= n -> Forall (fun x => prim_fits (PUInt 8) x = true) vs -> bytes_fit vs) by (intros n vs -> L G; split; [exact G|lia]).
  assert (X : forall x, tag = element_tag x -> value_case (VUnion tag v)).
  { intros x ->. rewrite element_variant in E. injection E as <-. apply array_fits in F as (vs & -> & L & G); [|apply element_not_bool]. apply vc_numbers; [unfold room; lia|exact G]. }
  destruct tag as [|[|[|[|tag] ] ] ]; [injection E as <-..|].
  - unfold fits, empty_t in F. destruct v as [| | | | |vs|]; try discriminate F. destruct vs; [constructor|discriminate F].
  - apply array_fits in F as (vs & -> & L & G); [|discriminate]. constructor. apply (B _ _ eq_refl L G).
  - apply array_fits in F as (vs & -> & L & G); [|discriminate]. constructor. apply (B _ _ eq_refl L G).
  - apply bits_fit in F as (bs & -> & L). constructor. lia.
  - destruct tag as [|[|[|[|[|[|[|[|[|[|[|tag] ] ] ] ] ] ] ] ] ] ].
    1: apply (X I64 eq_refl). 1: apply (X I32 eq_refl). 1: apply (X I16 eq_refl). 1: apply (X I8 eq_refl). 1: apply (X U64 eq_refl). 1: apply (X U32 eq_refl). 1: apply (X U16 eq_refl). 1: apply (X U8 eq_refl). 1: apply (X F64 eq_refl). 1: apply (X F32 eq_refl). 1: apply (X F16 eq_refl).
    destruct tag; discriminate E.
Qed.
Lemma value_of_fits c : content_ok c -> content_small c -> fits value_t (value_of c) = true.
Proof.
  assert (X : forall x vs, (length vs <= room x)%nat -> Forall (fun v => prim_fits (element_prim x) v = true) vs -> fits value_t (VUnion (prim_tag (element_prim x)) (VStruct [VArray vs])) = true).
  { intros x vs L F. rewrite <- element_tag_prim. apply (variant_fits _ _ _ (element_variant x)). apply fits_array; [apply element_not_bool|unfold room in L; lia|exact F]. }
  assert (Y : forall t bytes, (t = 1 \/ t = 2)%nat -> bytes_fit bytes -> fits value_t (VUnion t (VStruct [VArray bytes])) = true).
  { intros t bytes Ht (F & L). eapply (variant_fits t (array_t (PUInt 8) 256)); [destruct Ht as [->| ->]; reflexivity|]. apply fits_array; [discriminate|lia|exact F]. }
  assert (Z : forall bs, (length bs <= N.to_nat 2048)%nat -> fits value_t (VUnion 3 (VStruct [VBits bs])) = true).
  { intros bs L. apply (variant_fits 3 bit_t); [reflexivity|]. unfold fits, bit_t, array_t. cbn [fits_gen members_fit type_fits]. rewrite !andb_true_r. apply N.leb_le. lia. }
  destruct c as [x y|x vs|b|b|b|bs]; cbn [content_ok content_small value_of]; intros O S.
  - apply X; [destruct x; cbn; lia|]. constructor; [exact O|constructor].
  - apply X; [rewrite firstn_length; lia|]. rewrite <- (firstn_skipn (room x) vs) in O. apply Forall_app in O. apply O.
  - apply Y; [lia|exact O].
  - apply Y; [lia|exact O].
  - apply Z. cbn [length]. lia.
  - apply Z, S.
Qed.

(** ** Writing *)
Lemma element_tags x y : element_tag x = element_tag y -> x = y.
Proof. destruct x, y; intro H; try reflexivity; discriminate H. Qed.
Lemma element_tag_big x : (4 <= element_tag x)%nat.
Proof. destruct x; cbn; lia. Qed.
Lemma map_boolean bs : map boolean (map VBool bs) = bs.
Proof. rewrite map_map. induction bs as [|b bs IH]; [reflexivity|]. cbn [map boolean]. f_equal. exact IH. Qed.
Lemma content_write_right c v : content_ok c -> fits value_t v = true ->
  (takes c v /\ content_write c v = Some (with_value c v) /\ value_of (with_value c v) = v /\ content_ok (with_value c v) /\ content_small (with_value c v)) \/ (~ takes c v /\ content_write c v = None).
Proof.
  intros O F. apply value_cases in F. destruct F as [|bytes B|bytes B|bs L|y ws L G].
  - right. unfold takes. destruct c; cbn [tag_of value_of content_write]; rewrite <- ?element_tag_prim; (split; [|reflexivity]); intros (H & _); try discriminate H; pose proof (element_tag_big x); lia.
  - destruct c as [x w|x vs|old|old|b|bs']; unfold takes; cbn [tag_of value_of content_write items_of array_items with_value content_ok content_small]; rewrite <- ?element_tag_prim; try (right; split; [intros (H & _); discriminate H|reflexivity]).
    1,2: right; pose proof (element_tag_big x) as Hb; (split; [intros (H & _); lia|]); (destruct (Nat.eqb_spec 1 (element_tag x)); [lia|reflexivity]).
    left. split; [split; reflexivity|]. split; [reflexivity|]. split; [reflexivity|]. split; [exact B|exact I].
  - destruct c as [x w|x vs|old|old|b|bs']; unfold takes; cbn [tag_of value_of content_write items_of array_items with_value content_ok content_small]; rewrite <- ?element_tag_prim; try (right; split; [intros (H & _); discriminate H|reflexivity]).
    1,2: right; pose proof (element_tag_big x) as Hb; (split; [intros (H & _); lia|]); (destruct (Nat.eqb_spec 2 (element_tag x)); [lia|reflexivity]).
    left. split; [split; reflexivity|]. split; [reflexivity|]. split; [reflexivity|]. split; [exact B|exact I].
  - destruct c as [x w|x vs|old|old|b|bs']; unfold takes; cbn [tag_of value_of content_write items_of array_items with_value content_ok content_small]; rewrite <- ?element_tag_prim; try (right; split; [intros (H & _); discriminate H|reflexivity]).
    1,2: right; pose proof (element_tag_big x) as Hb; (split; [intros (H & _); lia|reflexivity]).
    + destruct bs as [|b' [|b'' bs] ]; [right; split; [intros (_ & H); discriminate H|reflexivity]| |right; split; [intros (_ & H); discriminate H|reflexivity] ].
      left. cbn [map hd boolean]. repeat (split; [repeat split; reflexivity|]). exact I.
    + rewrite map_length. destruct (Nat.eqb_spec (length bs) (length bs')) as [E|E]; [left|right; split; [intros (_ & H); contradiction|reflexivity] ].
      rewrite map_boolean. split; [split; [reflexivity|assumption]|]. split; [reflexivity|]. split; [reflexivity|]. split; [exact I|assumption].
  - destruct c as [x w|x vs|old|old|b|bs']; unfold takes; cbn [tag_of value_of content_write items_of array_items with_value content_ok content_small]; rewrite <- ?element_tag_prim; pose proof (element_tag_big y) as Ht; try (right; split; [intros (H & _); lia|]; destruct (element_tag y) as [|[|[|[|t] ] ] ]; try lia; reflexivity).
    + destruct (Nat.eqb_spec (element_tag y) (element_tag x)) as [E|E]; [apply element_tags in E as ->|right; split; [intros (H & _); contradiction|reflexivity] ].
      destruct ws as [|w' [|w'' ws] ]; [right; split; [intros (_ & H); discriminate H|reflexivity]| |right; split; [intros (_ & H); discriminate H|reflexivity] ].
      left. cbn [hd]. split; [split; reflexivity|]. split; [reflexivity|]. split; [reflexivity|]. split; [inversion G; assumption|exact I].
    + destruct (Nat.eqb_spec (element_tag y) (element_tag x)) as [E|E]; [apply element_tags in E as ->|right; split; [intros (H & _); contradiction|reflexivity] ].
      destruct (Nat.eqb_spec (length ws) (length vs)) as [E|E]; [left|right; split; [intros (_ & H); contradiction|reflexivity] ].
      split; [split; [reflexivity|assumption]|]. split; [reflexivity|]. split; [rewrite firstn_all2 by assumption; reflexivity|]. split; [exact G|assumption].
Qed.

(** ** One register *)
Lemma access_register_right s r v : register_ok r -> fits value_t v = true ->
  exists r', access_register basic_registers s r v = bind (register_read r') (fun now => Ok (r', response_of (r_access r) now)) /\
    register_ok r' /\ r_name r' = r_name r /\ r_access r' = r_access r /\ (accepted r v -> value_of (r_content r') = v) /\ (~ accepted r v -> r_content r' = r_content r) /\
    (content_small (r_content r) -> content_small (r_content r')).
Proof.
  intros (U & C & K) F. unfold access_register. cbn [access_of read_of write_of name_of basic_registers].
  assert (Same : ~ accepted r v -> exists r', bind (register_read r) (fun now => Ok (r, access_response (r_access r) now)) = bind (register_read r') (fun now => Ok (r', response_of (r_access r) now)) /\
    register_ok r' /\ r_name r' = r_name r /\ r_access r' = r_access r /\ (accepted r v -> value_of (r_content r') = v) /\ (~ accepted r v -> r_content r' = r_content r) /\
    (content_small (r_content r) -> content_small (r_content r'))).
  { intro N. exists r. split; [reflexivity|]. split; [split; [assumption|]; split; assumption|]. split; [reflexivity|]. split; [reflexivity|]. split; [contradiction|]. split; [reflexivity|]. tauto. }
  destruct (mutable (r_access r)) eqn:Em.
  - assert (Written : exists r', bind (bind (register_write r v) (fun x => Ok (fst x))) (fun r' => bind (register_read r') (fun now => Ok (r', access_response (r_access r) now))) = bind (register_read r') (fun now => Ok (r', response_of (r_access r) now)) /\
      register_ok r' /\ r_name r' = r_name r /\ r_access r' = r_access r /\ (accepted r v -> value_of (r_content r') = v) /\ (~ accepted r v -> r_content r' = r_content r) /\
      (content_small (r_content r) -> content_small (r_content r'))).
    { destruct r as [name a c k]. cbn [r_name r_access r_content r_kind register_write] in *. destruct (content_write_right c v C F) as [(T & E & V & C' & Sm)|(T & E)]; rewrite E.
      - destruct k as [|accept asked|].
        + exists (Register name a (with_value c v) Simple). split; [reflexivity|]. split; [split; [assumption|]; split; [exact C'|exact I]|]. repeat (split; [reflexivity|]). split; [intros _; exact V|]. split; [|intros _; exact Sm]. intro N. exfalso. apply N. split; [assumption|]. split; [exact T|exact I].
        + destruct (accept asked (with_value c v)) eqn:Ea.
          * eexists (Register name a (with_value c v) _). split; [reflexivity|]. split; [split; [assumption|]; split; [exact C'|exact I]|]. repeat (split; [reflexivity|]). split; [intros _; exact V|]. split; [|intros _; exact Sm]. intro N. exfalso. apply N. split; [assumption|]. split; [exact T|exact Ea].
          * eexists (Register name a c _). split; [reflexivity|]. split; [split; [assumption|]; split; [exact C|exact I]|]. repeat (split; [reflexivity|]). split; [|split; [reflexivity|tauto] ]. intros (_ & _ & A). unfold approved in A. cbn [r_kind r_content] in A. congruence.
        + destruct K as (K & _). rewrite K in Em. discriminate Em.
      - destruct k as [|accept asked|].
        + apply Same. intros (_ & T' & _). contradiction.
        + apply Same. intros (_ & T' & _). contradiction.
        + destruct K as (K & _). rewrite K in Em. discriminate Em. }
    destruct s; [|exact Written]. cbn [andb]. destruct (is_empty v) eqn:Ev; cbn [negb]; [|exact Written]. cbn [bind]. apply Same. intros (_ & (T & _) & _). destruct v as [| | | | | | [|t] v]; try discriminate Ev.
    cbn [tag_of] in T. destruct (r_content r); cbn [value_of tag_of] in T; try discriminate T; rewrite <- element_tag_prim in T; pose proof (element_tag_big x); lia.
  - destruct s; cbn [andb bind]; apply Same; intros (M & _); congruence.
Qed.

(** ** Blocks *)
Lemma bytes_eqb_spec a : forall b, bytes_eqb a b = true <-> a = b.
Proof.
  induction a as [|x a IH]; intros [|y b]; cbn [bytes_eqb]; try (split; [discriminate|discriminate]); [split; reflexivity|]. rewrite andb_true_iff, N.eqb_eq, IH. split; [intros (-> & ->); reflexivity|intro E; injection E as <- <-; split; reflexivity].
Qed.
Lemma by_name_none {R} (ops : register_ops R) name block : by_name ops name block = None <-> ~ In name (map (name_of ops) block).
Proof.
  induction block as [|r block IH]; cbn [by_name map In]; [split; [intros _ []|reflexivity]|]. destruct (bytes_eqb name (name_of ops r)) eqn:E.
  - apply bytes_eqb_spec in E. split; [discriminate|]. intro N. exfalso. apply N. left. congruence.
  - assert (E' : name_of ops r <> name) by (intro X; symmetry in X; apply bytes_eqb_spec in X; congruence). destruct (by_name ops name block); cbn [option_map].
    + split; [discriminate|]. intro N. exfalso. assert (X : ~ In name (map (name_of ops) block)) by tauto. apply IH in X. discriminate X.
    + split; [|reflexivity]. intros _ [X|X]; [contradiction|]. revert X. apply IH. reflexivity.
Qed.
Lemma by_name_first {R} (ops : register_ops R) name : forall block i, by_name ops name block = Some i <-> exists r, first_named (name_of ops) name block i r.
Proof.
  induction block as [|r block IH]; intro i; cbn [by_name].
  - split; [discriminate|]. intros (r & H & _). destruct i; discriminate H.
  - destruct (bytes_eqb name (name_of ops r)) eqn:E.
    + apply bytes_eqb_spec in E. split.
      * intro X. injection X as <-. exists r. split; [reflexivity|]. split; [congruence|]. intros j x Hj. lia.
      * intros (x & H1 & H2 & H3). destruct i as [|i]; [reflexivity|]. exfalso. apply (H3 O r); [lia|reflexivity|congruence].
    + assert (E' : name_of ops r <> name) by (intro X; symmetry in X; apply bytes_eqb_spec in X; congruence). split.
      * destruct (by_name ops name block) as [k|]; [|discriminate]. intro X. injection X as <-. destruct (proj1 (IH k) eq_refl) as (x & H1 & H2 & H3). exists x. split; [exact H1|]. split; [exact H2|]. intros [|j] y Hj Ey; [injection Ey as <-; exact E'|]. apply (H3 j y); [lia|exact Ey].
      * intros (x & H1 & H2 & H3). destruct i as [|i]; [injection H1 as <-; contradiction|]. rewrite (proj2 (IH i)); [reflexivity|]. exists x. split; [exact H1|]. split; [exact H2|]. intros j y Hj Ey. apply (H3 (S j) y); [lia|exact Ey].
Qed.
Lemma put_at_changed {A} (x : A) : forall l i y, nth_error l i = Some y -> only_changed l (put_at i x l) i x.
Proof.
  induction l as [|z l IH]; intros [|i] y E; try discriminate E; cbn [put_at].
  - split; [reflexivity|]. split; [reflexivity|]. intros [|j] Hj; [lia|reflexivity].
  - destruct (IH i y E) as (H1 & H2 & H3). split; [cbn [length]; lia|]. split; [exact H2|]. intros [|j] Hj; [reflexivity|]. apply H3. lia.
Qed.
Lemma put_at_Forall {A} (P : A -> Prop) (x : A) : forall l i, Forall P l -> P x -> Forall P (put_at i x l).
Proof. induction l as [|z l IH]; intros i F Hx; [destruct i; constructor|]. inversion F; subst. destruct i; cbn [put_at]; constructor; auto. Qed.
Lemma first_named_unique {R} (f : R -> list N) name block i r j x : first_named f name block i r -> first_named f name block j x -> i = j /\ r = x.
Proof.
  intros (H1 & H2 & H3) (G1 & G2 & G3). destruct (Nat.lt_trichotomy i j) as [L|[->|L] ].
  - exfalso. exact (G3 i r L H1 H2).
  - split; [reflexivity|congruence].
  - exfalso. exact (H3 j x L G1 G2).
Qed.
Lemma handle_access_right s block name v : Forall register_ok block -> fits value_t v = true ->
  (forall block' response, handle_access basic_registers s block name v = Ok (block', response) -> access_rule block name v block' response /\ Forall register_ok block' /\ (Forall (fun r => content_small (r_content r)) block -> Forall (fun r => content_small (r_content r)) block')) /\
  (Forall (fun r => content_small (r_content r)) block -> exists x, handle_access basic_registers s block name v = Ok x).
Proof.
  intros F Hv. unfold handle_access. destruct (utf8 name) eqn:U.
  - destruct (by_name basic_registers name block) as [i|] eqn:E.
    + apply by_name_first in E as (r & Hf). pose proof Hf as (H1 & H2 & H3). rewrite H1. cbn [name_of basic_registers] in H2, H3.
      pose proof (nth_error_Forall _ _ _ _ F H1) as Ok1. destruct (access_register_right s r v Ok1 Hv) as (r' & Ea & O' & N' & A' & W1 & W2 & Sm). rewrite Ea. split.
      * intros block' response. destruct (register_read r') as [now|] eqn:Er; cbn [bind fst snd]; [|discriminate]. intro X. injection X as <- <-. apply register_read_ok in Er as ->. split; [|split].
        -- split; [intro N; exfalso; apply N; rewrite <- H2; apply (in_map r_name); apply (nth_error_In _ _ H1)|]. intros j x Hj. assert (Hf' : first_named r_name name block i r) by (split; [exact H1|]; split; [exact H2|exact H3]).
           destruct (first_named_unique _ _ _ _ _ _ _ Hf' Hj) as (<- & <-). exists r'. split; [apply (put_at_changed _ _ _ _ H1)|]. repeat (split; [assumption|]). split; [reflexivity|]. split; assumption.
        -- apply put_at_Forall; assumption.
        -- intro G. apply put_at_Forall; [exact G|]. apply Sm. exact (nth_error_Forall _ _ _ _ G H1).
      * intro G. rewrite (register_read_small r' O') by (apply Sm; exact (nth_error_Forall _ _ _ _ G H1)). cbn [bind]. eexists. reflexivity.
    + apply by_name_none in E. split; [|eauto]. intros block' response X. injection X as <- <-. split; [|split; [assumption|tauto] ]. split; [intros _; split; reflexivity|]. intros i r (H1 & H2 & _). exfalso. apply E. rewrite <- H2. apply (in_map r_name), (nth_error_In _ _ H1).
  - split; [|eauto]. intros block' response X. injection X as <- <-. split; [|split; [assumption|tauto] ]. split; [intros _; split; reflexivity|]. intros i r (H1 & H2 & _). exfalso.
    destruct (nth_error_Forall _ _ _ _ F H1) as (U' & _). rewrite H2 in U'. apply utf8_right in U'. congruence.
Qed.
